(* T_Skip.v -- C53: jpeg_skip_scanlines. *)
From Verif Require Import Base M_DMain S_DMain P_DMain M_Skip S_Skip P_Skip P_Skip2 P_Skip3.
Open Scope nat_scope.

Section Inv.
Variables (h du : nat) (k : skcfg).
Notation c := (k_c k).
Hypothesis Hc : dcfg_ok h du c.

Definition Inv (b : bool) (s : sks) : Prop :=
  s_y s <= g_O c /\ mcu_ok k s /\
  (s_y s = g_O c \/
   if g_context c then exists k0, CI c k0 (s_d s) (s_y s) /\ (forall q, k0 = Some q -> q * g_v c < s_y s)
   else SI c (s_d s) (s_y s) /\ (b = false -> m_full (d_main (s_d s)) = false -> m_rgc (d_main (s_d s)) = 0)).

Lemma start_inv : forall m0, (forall i, m_ws m0 i <> None) -> Inv false (start k m0).
Proof.
  intros m0 Hm. split; [cbn; lia|]. split; [intros _; reflexivity|]. right.
  pose proof (hv h du c Hc) as Hv. assert (A : 1 <= g_M c) by (destruct Hc as (_ & _ & A & _); exact A).
  pose proof (geo_T_pos h du c Hc) as HT.
  unfold start, start_pass, start_pass_main. cbn [s_d s_y].
  destruct (g_context c) eqn:Ex.
  - exists None. split; [|discriminate]. destruct (pos h du c Hc Ex) as (A2 & _ & B).
    split; [reflexivity|]. split; [lia|]. right. right. right. left. exists 0, false. cbv zeta.
    cbn [d_main d_row d_ups m_full m_rgc m_x0 m_x1 m_which m_cs m_avail m_ctr m_ws make_funny_pointers].
    assert (X0 : forall i, i < g_rg c * (g_M c + 2) ->
       addr_loop (g_rg c * (g_M c + 2)) 0 (g_rg c) 0 (m_x0 m0) (g_rg c + i) = Some i).
    { intros i Hi. rewrite addr_loop_spec.
      rewrite (proj2 (Nat.leb_le (g_rg c + 0) (g_rg c + i))) by lia.
      rewrite (proj2 (Nat.ltb_lt (g_rg c + i) (g_rg c + 0 + g_rg c * (g_M c + 2)))) by lia. cbn [andb]. f_equal. lia. }
    split; [lia|]. split; [reflexivity|]. split; [reflexivity|]. split; [reflexivity|]. split; [reflexivity|].
    split; [reflexivity|]. split.
    { intros i Hi. rewrite dup_loop_spec by lia.
      rewrite (proj2 (Nat.ltb_ge (g_rg c + i) (0 + 0 + g_rg c))) by lia. rewrite Bool.andb_false_r. cbn [P_DMain.X]. apply X0. exact Hi. }
    split.
    { intros i Hi. cbn [P_DMain.X]. rewrite !addr_loop_spec.
      set (rg := g_rg c) in *. set (q := rg * (g_M c - 2)).
      assert (E1 : rg * g_M c = q + 2 * rg) by (unfold q; nia). assert (E2 : rg * (g_M c + 2) = q + 4 * rg) by (unfold q; nia).
      rewrite E2 in *. rewrite E1. fold q. clearbody q.
      destruct (Nat.leb_spec (rg + (q + 2 * rg) + 0) (rg + i)), (Nat.ltb_spec (rg + i) (rg + (q + 2 * rg) + 0 + rg * 2)),
        (Nat.leb_spec (rg + q + 0) (rg + i)), (Nat.ltb_spec (rg + i) (rg + q + 0 + rg * 2)),
        (Nat.leb_spec (rg + 0) (rg + i)), (Nat.ltb_spec (rg + i) (rg + 0 + (q + 4 * rg))),
        (Nat.ltb_spec i q), (Nat.ltb_spec i (q + 2 * rg)), (Nat.ltb_spec i (q + 4 * rg)); cbn [andb]; try lia; f_equal; lia. }
    split; [exact Hm|]. split.
    { left. split; [reflexivity|]. split; [reflexivity|]. intros i Hi. rewrite dup_loop_spec by lia.
      rewrite (proj2 (Nat.leb_le (0 + 0) i)) by lia. rewrite (proj2 (Nat.ltb_lt i (0 + 0 + g_rg c))) by lia. cbn [andb].
      replace (g_rg c) with (g_rg c + 0) at 3 by lia. apply X0. nia. }
    split; [discriminate|]. split; [reflexivity|].
    split; [lia|]. split; [cbn [start_pass_upsample u_togo]; lia|]. left. split; [reflexivity|lia].
  - split; [|reflexivity]. split; [reflexivity|]. cbn [d_main d_row d_ups m_full m_rgc m_ws].
    split; [lia|]. split; [lia|]. split; [reflexivity|].
    split; [lia|]. split; [cbn [start_pass_upsample u_togo]; lia|]. left. split; [reflexivity|lia].
Qed.

Lemma read_inv : forall b s n, Inv b s -> 1 <= n -> n <= g_O c - s_y s ->
  exists s' ls, read_scanlines k n s = Ret (s', ls) /\ s_y s' = s_y s + length ls /\ 1 <= length ls <= n /\
    (forall i l, nth_error ls i = Some l -> shows c (s_y s + i) l) /\ Inv false s' /\ s_eoi s' = s_eoi s.
Proof.
  intros b s n (H1 & HM & [H2|H2]) Hn1 Hn2; [lia|].
  destruct (g_context c) eqn:Ex.
  - destruct H2 as (k0 & HC & HK).
    destruct (read_ctx h du k Hc k0 s n Ex HC ltac:(lia) HM Hn1 Hn2) as (s' & ls & E & E1 & E2 & E3 & E4 & E5 & E6).
    exists s', ls. split; [exact E|]. split; [exact E1|]. split; [exact E2|]. split.
    { intros i l Hl. destruct (E3 i l Hl) as [(q & Q1 & Q2)|Q]; [|exact Q]. specialize (HK q Q1). lia. }
    split; [|exact E6]. split; [lia|]. split; [exact E5|]. right. rewrite Ex. exists k0. split; [exact E4|].
    intros q Q. specialize (HK q Q). lia.
  - destruct H2 as (HC & _).
    destruct (read_sim h du k Hc s n Ex HC ltac:(lia) HM Hn1 Hn2) as (s' & ls & E & E1 & E2 & E3 & E4 & E5 & E6 & E7).
    exists s', ls. split; [exact E|]. split; [exact E1|]. split; [exact E2|]. split.
    { intros i l Hl. destruct (E3 i l Hl) as [(q & Q1 & Q2)|Q]; [discriminate|exact Q]. }
    split; [|exact E6]. split; [lia|]. split; [exact E5|]. right. rewrite Ex. split; [exact E4|]. intros _. exact E7.
Qed.

Lemma skip_inv : forall b s n, Inv b s -> skip_ok c b (s_y s) n ->
  exists s', skip_scanlines k n s = Ret (s', Nat.min n (g_O c - s_y s)) /\
    s_y s' = s_y s + Nat.min n (g_O c - s_y s) /\ Inv true s' /\
    (s_y s + n < g_O c -> s_eoi s' = s_eoi s) /\ (g_O c <= s_y s + n -> s_eoi s' = true).
Proof.
  intros b s n (H1 & HM & H2) Hok. unfold skip_scanlines.
  destruct (Nat.leb_spec (g_O c) (s_y s + n)) as [L|L].
  - rewrite Nat.min_r by lia. eexists. split; [reflexivity|]. cbn [s_y s_eoi]. split; [lia|].
    split; [|split; [lia|reflexivity]]. split; [cbn; lia|]. split; [exact HM|]. left. reflexivity.
  - rewrite Nat.min_l by lia.
    destruct (Nat.eqb_spec n 0) as [-> |Nz].
    { exists s. split; [reflexivity|]. split; [lia|]. split; [|split; [reflexivity|lia]].
      split; [exact H1|]. split; [exact HM|]. destruct H2 as [H2|H2]; [left; exact H2|right].
      destruct (g_context c); [exact H2|]. split; [exact (proj1 H2)|discriminate]. }
    destruct H2 as [H2|H2]; [lia|].
    pose proof (hv h du c Hc) as Hv. assert (HM1 : 1 <= g_M c) by (destruct Hc as (_ & _ & A & _); exact A).
    assert (HL : 1 <= g_M c * g_v c) by nia.
    assert (Fin : forall s', s_y s' = s_y s + n -> mcu_ok k s' -> s_eoi s' = s_eoi s ->
      (if g_context c then exists k0, CI c k0 (s_d s') (s_y s') /\ (forall q, k0 = Some q -> q * g_v c < s_y s')
       else SI c (s_d s') (s_y s')) ->
      s_y s' = s_y s + n /\ Inv true s' /\ (s_y s + n < g_O c -> s_eoi s' = s_eoi s) /\ (g_O c <= s_y s + n -> s_eoi s' = true)).
    { intros s' F1 F2 F3 F4. split; [exact F1|]. split; [|split; [intros _; exact F3|lia]].
      split; [lia|]. split; [exact F2|]. right. destruct (g_context c); [exact F4|]. split; [exact F4|discriminate]. }
    destruct (g_context c) eqn:Ex.
    + assert (Hv2 : g_v c = 2) by (destruct Hok as [K|[(_ & K)|(K & _)]]; [lia|exact K|congruence]).
      destruct H2 as (k0 & HC & HK).
      pose proof (ctx_boundary h du k Hc k0 s n Ex Hv2 HC L) as CB. cbv zeta in CB.
      set (left := (g_M c * g_v c - s_y s mod (g_M c * g_v c)) mod (g_M c * g_v c)) in *.
      set (ahead := (left <=? 1) && m_full (d_main (s_d s))) in *.
      destruct ((n <? left + 1) || (ahead && (n - left <? g_M c * g_v c + 1))).
      * destruct (discard_ctx h du k Hc k0 n s Ex HC HM ltac:(lia)) as (s' & E & E1 & E2 & E3 & E4).
        rewrite E. cbn [bind]. exists s'. split; [reflexivity|]. apply Fin; [exact E1|exact E3|exact E4|].
        exists k0. split; [exact E2|]. intros q Q. specialize (HK q Q). lia.
      * destruct (CB eq_refl) as (r & B1 & B2 & B3 & B4 & B5 & B6 & B7 & B8 & B9). rewrite B2.
        set (m1 := if (m_ctr (d_main (s_d s)) =? 0) || _ then _ else _) in *.
        match goal with |- context[skip_rows k n s ?mm _ _] => set (m2 := mm) end.
        destruct (skip_rows_ctx h du k Hc n s m2 (r * (g_M c * g_v c)) (s_y s + n - r * (g_M c * g_v c)) r Ex)
          as (s' & q & E & E1 & E2 & E3 & E4 & E5);
          [exact (proj1 HC)|exact HM|exact B1|exact B4|reflexivity|reflexivity|exact B5|exact B6|exact B7|exact B8|exact B9|reflexivity|lia|lia|].
        exists s'. split; [exact E|]. apply Fin; [lia|exact E4|exact E5|].
        exists (Some q). split; [exact E2|]. intros q' Q. injection Q as <-. exact E3.
    + destruct Hok as [K|[(K & _)|(_ & Hok1 & Hok2)]]; [lia|congruence|]. unfold imcu in *.
      destruct H2 as (HC & HB).
      assert (POS : (m_full (d_main (s_d s)) = true /\ (d_row (s_d s) - 1) * (g_M c * g_v c) < s_y s < d_row (s_d s) * (g_M c * g_v c) /\
                       1 <= d_row (s_d s) /\
                       (s_y s mod g_v c = 0 -> u_next (d_ups (s_d s)) = g_v c /\
                         s_y s = (d_row (s_d s) - 1) * (g_M c * g_v c) + m_rgc (d_main (s_d s)) * g_v c)) \/
                    (m_full (d_main (s_d s)) = false /\ u_next (d_ups (s_d s)) = g_v c /\
                       s_y s = d_row (s_d s) * (g_M c * g_v c) + m_rgc (d_main (s_d s)) * g_v c)).
      { destruct HC as (_ & _ & C1 & C2). destruct (m_full (d_main (s_d s))).
        - left. split; [reflexivity|]. destruct C2 as (A1 & A2 & _ & (_ & _ & A3)).
          assert (Er : d_row (s_d s) * (g_M c * g_v c) = (d_row (s_d s) - 1) * (g_M c * g_v c) + g_M c * g_v c)
            by (destruct (d_row (s_d s)) as [|r]; [lia|]; replace (S r - 1) with r by lia; cbn [Nat.mul]; lia).
          set (L0 := (d_row (s_d s) - 1) * (g_M c * g_v c)) in *.
          assert (EL0 : (d_row (s_d s) - 1) * g_M c * g_v c = L0) by (unfold L0; lia).
          rewrite Nat.mul_add_distr_r, EL0 in A3. rewrite EL0 in A2.
          assert (Hrg : (m_rgc (d_main (s_d s)) + 1) * g_v c <= g_M c * g_v c) by (apply Nat.mul_le_mono_r; lia).
          rewrite Er. clearbody L0.
          destruct A3 as [[U1 U2]|(U1 & U2 & _)].
          + split; [lia|]. split; [exact A1|]. intros _. split; [exact U1|exact U2].
          + split; [lia|]. split; [exact A1|]. intros Em. exfalso.
            rewrite U2 in Em.
            replace (L0 + m_rgc (d_main (s_d s)) * g_v c + u_next (d_ups (s_d s)))
              with (u_next (d_ups (s_d s)) + ((d_row (s_d s) - 1) * g_M c + m_rgc (d_main (s_d s))) * g_v c) in Em
              by (rewrite Nat.mul_add_distr_r; lia).
            rewrite Nat.mod_add, Nat.mod_small in Em by lia. lia.
        - right. split; [reflexivity|]. destruct C2 as (A1 & A2). split; [exact A1|].
          rewrite (UI_pos c _ _ _ _ _ A1 A2). nia. }
      set (LL := g_M c * g_v c) in *.
      set (left := (LL - s_y s mod LL) mod LL) in *.
      destruct (Nat.ltb_spec n left) as [Hl|Hl].
      * (* within the iMCU row *)
        assert (HND : s_y s mod LL <> 0 /\ left = LL - s_y s mod LL).
        { destruct (left_spec (s_y s) LL HL) as [(Q1 & Q2)|(Q1 & Q2)]; [unfold left in Hl; lia|].
          split; [lia|exact Q2]. }
        destruct HND as (HND & El).
        assert (Hmod : s_y s mod g_v c = 0).
        { destruct Hok1 as [Q|Q]; [exact Q|]. exfalso.
          pose proof (Nat.div_mod (s_y s) LL ltac:(lia)) as Ed. pose proof (Nat.mod_upper_bound (s_y s) LL ltac:(lia)) as Em.
          assert ((s_y s + n) / LL <= s_y s / LL); [|lia].
          assert ((s_y s + n) / LL < S (s_y s / LL)); [|lia]. apply Nat.div_lt_upper_bound; [lia|]. nia. }
        assert (INC : u_next (d_ups (s_d s)) = g_v c /\ m_rgc (d_main (s_d s)) + n / g_v c < g_M c).
        { assert (GEN : forall r0, s_y s = r0 * LL + m_rgc (d_main (s_d s)) * g_v c -> m_rgc (d_main (s_d s)) < g_M c ->
            m_rgc (d_main (s_d s)) + n / g_v c < g_M c).
          { intros r0 Ey Hr0.
            assert (B : m_rgc (d_main (s_d s)) * g_v c < LL) by (unfold LL; apply Nat.mul_lt_mono_pos_r; lia).
            assert (Ey' : s_y s = LL * r0 + m_rgc (d_main (s_d s)) * g_v c) by lia.
            pose proof (Nat.mod_unique _ _ _ _ B Ey') as Em. rewrite El, <- Em in Hl.
            assert (n / g_v c < g_M c - m_rgc (d_main (s_d s))); [|lia].
            apply Nat.div_lt_upper_bound; [lia|]. rewrite Nat.mul_sub_distr_l. unfold LL in Hl. lia. }
          destruct HC as (_ & _ & C1 & _).
          destruct POS as [(_ & _ & _ & Q)|(_ & Q1 & Q2)].
          - destruct (Q Hmod) as (Q1 & Q2). split; [exact Q1|]. exact (GEN _ Q2 C1).
          - split; [exact Q1|]. exact (GEN _ Q2 C1). }
        destruct (increment_ok h du k Hc n s Ex HC HM L (proj1 INC) (proj2 INC)) as (s' & E & E1 & E2 & E3 & E4).
        rewrite E. cbn [bind]. exists s'. split; [reflexivity|]. apply Fin; [exact E1|exact E3|exact E4|exact E2].
      * (* leaving the iMCU row *)
        assert (ROW : s_y s + left = d_row (s_d s) * LL).
        { destruct POS as [(_ & Q & Q0 & _)|(Qf & _ & Q2)].
          - destruct (left_in (s_y s) (d_row (s_d s)) LL Q0 (proj1 Q) (proj2 Q)) as (El & _). unfold left. rewrite El. lia.
          - assert (R0 : m_rgc (d_main (s_d s)) = 0).
            { destruct (left_spec (s_y s) LL HL) as [(Q3 & _)|(Q3 & Q4)].
              - assert (B : m_rgc (d_main (s_d s)) * g_v c < LL).
                { destruct HC as (_ & _ & C1 & _). unfold LL. apply Nat.mul_lt_mono_pos_r; lia. }
                assert (Ey' : s_y s = LL * d_row (s_d s) + m_rgc (d_main (s_d s)) * g_v c) by lia.
                pose proof (Nat.mod_unique _ _ _ _ B Ey') as Em. nia.
              - destruct Hok2 as [Q|[Q|Q]]; [exact (HB Q Qf)|lia|]. exfalso. fold left in Q4.
                pose proof (Nat.div_mod (s_y s) LL ltac:(lia)) as Ed. pose proof (Nat.mod_upper_bound (s_y s) LL ltac:(lia)) as Em.
                assert (S (s_y s / LL) <= (s_y s + n) / LL); [|lia].
                apply Nat.div_le_lower_bound; [lia|]. nia. }
            assert (Ey' : s_y s = d_row (s_d s) * LL) by (rewrite R0 in Q2; lia).
            destruct (left_at (s_y s) (d_row (s_d s)) LL HL Ey') as (El & _). unfold left. rewrite El. lia. }
        match goal with |- context[skip_rows k n s ?mm _ _] => set (m2 := mm) end.
        destruct (skip_rows_sim h du k Hc n s m2 (s_y s + left) (n - left) (d_row (s_d s)) Ex) as (s' & E & E1 & E2 & E3 & E4);
          [exact (proj1 HC)|exact HM|reflexivity|reflexivity|reflexivity|exact ROW|lia|].
        exists s'. split; [exact E|]. apply Fin; [lia|exact E3|exact E4|exact E2].
Qed.

Lemma session_inv : forall b s, session k b s -> Inv b s.
Proof.
  intros b s H. induction H as [m0 Hm|b s n s' ls HS IH Hn1 Hn2 E|b s n s' r HS IH Hok E].
  - apply start_inv. exact Hm.
  - destruct (read_inv b s n IH Hn1 Hn2) as (s2 & ls2 & E2 & _ & _ & _ & I2 & _).
    rewrite E in E2. injection E2 as -> ->. exact I2.
  - destruct (skip_inv b s n IH Hok) as (s2 & E2 & _ & I2 & _). rewrite E in E2. injection E2 as -> ->. exact I2.
Qed.
End Inv.

(* Whatever reads and supported skips came before, jpeg_read_scanlines returns at
   least one line and never more than asked for, and the lines returned are
   output lines output_scanline, output_scanline + 1, ... of the image. *)
Theorem C53_read : forall h du k b s n, dcfg_ok h du (k_c k) -> session k b s ->
  1 <= n -> n <= g_O (k_c k) - s_y s ->
  exists s' ls, read_scanlines k n s = Ret (s', ls) /\ 1 <= length ls <= n /\
    s_y s' = s_y s + length ls /\
    forall i l, nth_error ls i = Some l -> shows (k_c k) (s_y s + i) l.
Proof.
  intros h du k b s n Hc HS Hn1 Hn2.
  destruct (read_inv h du k Hc b s n (session_inv h du k Hc b s HS) Hn1 Hn2) as (s' & ls & E & E1 & E2 & E3 & _).
  exists s', ls. split; [exact E|]. split; [exact E2|]. split; [exact E1|exact E3].
Qed.
Print Assumptions C53_read.

(* jpeg_skip_scanlines moves output_scanline by the number of lines asked for, or
   to the bottom of the image, returns that number, never fails, and only ends
   the input when it reaches the bottom. *)
Theorem C53_skip : forall h du k b s n, dcfg_ok h du (k_c k) -> session k b s -> skip_ok (k_c k) b (s_y s) n ->
  exists s', skip_scanlines k n s = Ret (s', Nat.min n (g_O (k_c k) - s_y s)) /\
    s_y s' = s_y s + Nat.min n (g_O (k_c k) - s_y s) /\
    (s_y s + n < g_O (k_c k) -> s_eoi s' = s_eoi s) /\ (g_O (k_c k) <= s_y s + n -> s_eoi s' = true).
Proof.
  intros h du k b s n Hc HS Hok.
  destruct (skip_inv h du k Hc b s n (session_inv h du k Hc b s HS) Hok) as (s' & E & E1 & _ & E2 & E3).
  exists s'. split; [exact E|]. split; [exact E1|]. split; [exact E2|exact E3].
Qed.
Print Assumptions C53_skip.

(* The entropy decoder of a single-scan file is always exactly at the beginning
   of the iMCU row that is decoded next. *)
Theorem C53_entropy_position : forall h du k b s, dcfg_ok h du (k_c k) -> session k b s -> k_multi k = false ->
  s_mcu s = mcus_before k (d_row (s_d s)).
Proof. intros h du k b s Hc HS Hm. destruct (session_inv h du k Hc b s HS) as (_ & H & _). exact (H Hm). Qed.
Print Assumptions C53_entropy_position.

(* Why [shows] leaves out the row above except for a group's first line and the
   row below except for its last: an output line y of a component with half the
   vertical resolution is interpolated from rows y/2 and y/2 - 1 (y even) or
   y/2 + 1 (y odd), cf. C46 (S_Sample.tri_v). *)
Theorem C53_rows_used : forall c y, g_v c = 2 * g_rg c -> 1 <= g_rg c ->
  forall r, (r = Z.of_nat (y / 2) \/ r = Z.of_nat (y / 2) - 1 /\ Nat.even y = true \/ r = Z.of_nat (y / 2) + 1 /\ Nat.even y = false)%Z ->
  exists j, j < g_rg c + 2 /\ (Z.of_nat j = r - Z.of_nat (y / g_v c * g_rg c) + 1)%Z /\
    (j = 0 -> y mod g_v c = 0) /\ (j = g_rg c + 1 -> y mod g_v c = g_v c - 1).
Proof.
  intros c y Hv Hr r Hrow. rewrite Hv. set (g := g_rg c) in *.
  pose proof (Nat.div_mod y (2 * g) ltac:(lia)) as E. pose proof (Nat.mod_upper_bound y (2 * g) ltac:(lia)) as B.
  set (q := y / (2 * g)) in *. set (e := y mod (2 * g)) in *. clearbody q e.
  assert (Ey : y / 2 = q * g + e / 2).
  { rewrite E. replace (2 * g * q + e) with (e + (q * g) * 2) by lia. rewrite Nat.div_add by lia. lia. }
  assert (Ev : Nat.even y = Nat.even e).
  { rewrite E. rewrite Nat.even_add. replace (2 * g * q) with (2 * (g * q)) by lia. rewrite Nat.even_mul. cbn [Nat.even orb].
    destruct (Nat.even e); reflexivity. }
  pose proof (Nat.div_mod e 2 ltac:(lia)) as Ee. pose proof (Nat.mod_upper_bound e 2 ltac:(lia)) as Be.
  assert (Ep : Nat.even e = (e mod 2 =? 0)).
  { apply Bool.eq_true_iff_eq. rewrite Nat.even_spec, Nat.eqb_eq. split.
    - intros [m ->]. rewrite Nat.mul_comm. apply Nat.mod_mul. lia.
    - intros K. exists (e / 2). lia. }
  rewrite Ev, Ep in Hrow. rewrite Ey in Hrow. set (f := e / 2) in *. set (p := e mod 2) in *. clearbody f p.
  destruct Hrow as [Hrow|[(Hrow & K)|(Hrow & K)]].
  - exists (f + 1). split; [lia|]. split; [nia|]. split; lia.
  - apply Nat.eqb_eq in K. exists f. split; [lia|]. split; [nia|]. split; [|lia]. intros ->. lia.
  - apply Nat.eqb_neq in K. exists (f + 2). split; [lia|]. split; [nia|]. split; lia.
Qed.
Print Assumptions C53_rows_used.

(* A 4:2:0 image of 61 lines with context rows, single scan: reads and skips. *)
Definition ex_m0 := mkM false 0 (fun _ => None) (fun _ => None) false CTX_PREPARE_FOR_IMCU 0 0 (fun _ => Some 999).
Definition ex_k := mkK (mkG 8 2 1 61 4 31 true) false 5 (fun _ => 1).
Example C53_config : dcfg_ok 61 8 (k_c ex_k).
Proof. unfold dcfg_ok, ex_k. cbn [k_c g_M g_v g_rg g_context g_O g_T g_dh]. repeat (split; [lia|]). split; [reflexivity|]. split; reflexivity. Qed.
Definition step1 (k : skcfg) (op : bool * nat) (s : sks) : outcome (sks * list line) :=
  if fst op then read_scanlines k (snd op) s
  else '(s', _) <- skip_scanlines k (snd op) s ;; Ret (s', []).
Fixpoint steps (k : skcfg) (ops : list (bool * nat)) (s : sks) : outcome (sks * list line) :=
  match ops with
  | [] => Ret (s, [])
  | op :: t => '(s', ls) <- step1 k op s ;; '(s2, ls2) <- steps k t s' ;; Ret (s2, ls ++ ls2)
  end.
(* running a session with the conditions of [session] checked on the way; with
   context rows and 2:1 upsampling every skip is allowed *)
Fixpoint run (k : skcfg) (ops : list (bool * nat)) (s : sks) : option (sks * list line) :=
  match ops with
  | [] => Some (s, [])
  | op :: t =>
      if negb (fst op) || ((1 <=? snd op) && (snd op <=? g_O (k_c k) - s_y s)) then
        match step1 k op s with
        | Ret (s', ls) => match run k t s' with Some (s2, ls2) => Some (s2, ls ++ ls2) | None => None end
        | _ => None
        end
      else None
  end.
Lemma run_session : forall k, g_context (k_c k) = true -> g_v (k_c k) = 2 -> forall ops b s s2 ls,
  session k b s -> run k ops s = Some (s2, ls) -> exists b2, session k b2 s2.
Proof.
  intros k Hx Hv. induction ops as [|[o n] t IH]; intros b s s2 ls HS E.
  - cbn [run] in E. injection E as <- <-. exists b; exact HS.
  - cbn [run fst snd] in E. unfold step1 in E. cbn [fst snd] in E. destruct o; cbn [negb orb] in E.
    + destruct ((1 <=? n) && (n <=? g_O (k_c k) - s_y s)) eqn:Eb; [|discriminate E].
      apply andb_prop in Eb. destruct Eb as (B1 & B2). apply Nat.leb_le in B1, B2.
      destruct (read_scanlines k n s) as [[s' l]|e|] eqn:Er; [|discriminate E|discriminate E].
      destruct (run k t s') as [[s3 l3]|] eqn:Et; [|discriminate E]. injection E as <- <-.
      exact (IH false s' s3 l3 (ses_read k b s n s' l HS B1 B2 Er) Et).
    + destruct (skip_scanlines k n s) as [[s' r]|e|] eqn:Er; cbn [bind] in E; [|discriminate E|discriminate E].
      destruct (run k t s') as [[s3 l3]|] eqn:Et; [|discriminate E]. injection E as <- <-.
      apply (IH true s' s3 l3); [|exact Et].
      apply (ses_skip k b s n s' r HS); [right; left; split; assumption|exact Er].
Qed.

Definition ex_ops := [(true, 3); (false, 4); (true, 1); (false, 31); (true, 1); (false, 7); (true, 5)].
Definition obs (r : option (sks * list line)) : option (nat * list (nat * list nat)) :=
  match r with Some (s, ls) => Some (s_y s, map (fun l => (l_row l, l_now l)) ls) | None => None end.
Example C53_session : exists b s ls, session ex_k b s /\ run ex_k ex_ops (start ex_k ex_m0) = Some (s, ls) /\
  s_y s = 50 /\ map (fun l => (l_row l, l_now l)) ls =
    [(0, [0]); (1, [0]); (0, [3]); (0, [19]); (0, [23]); (1, [23]); (0, [24]); (1, [24])].
Proof.
  destruct (run ex_k ex_ops (start ex_k ex_m0)) as [[s ls]|] eqn:E.
  2:{ exfalso. assert (K : obs (run ex_k ex_ops (start ex_k ex_m0)) = None) by (rewrite E; reflexivity). vm_compute in K. discriminate K. }
  destruct (run_session ex_k eq_refl eq_refl ex_ops false (start ex_k ex_m0) s ls) as (b & Hb).
  - apply ses_start. intros i K. discriminate K.
  - exact E.
  - assert (K : obs (run ex_k ex_ops (start ex_k ex_m0)) = Some (50,
      [(0, [0]); (1, [0]); (0, [3]); (0, [19]); (0, [23]); (1, [23]); (0, [24]); (1, [24])])) by (vm_compute; reflexivity).
    rewrite E in K. cbn [obs] in K. injection K as K1 K2.
    exists b, s, ls. split; [exact Hb|]. split; [reflexivity|]. split; [exact K1|exact K2].
Qed.

(* Outside [skip_ok] the property fails in the code as written. *)
Definition lastline (r : outcome (sks * list line)) : nat * list nat :=
  match r with Ret (s, ls) => (s_y s, l_now (last ls (mkL 0 [] []))) | _ => (0, []) end.

(* greyscale output of a 4:2:0 image: read one line, skip two, read line 3: the
   rest of the row group is not dropped and rows 0,1 are delivered again *)
Definition ex_k1 := mkK (mkG 8 2 2 61 4 61 false) false 5 (fun _ => 1).
Example C53_partial_group_refuted :
  lastline (steps ex_k1 [(true, 1); (false, 2); (true, 1)] (start ex_k1 ex_m0)) = (4, [0; 1]) /\
  l_now (line_spec (k_c ex_k1) 3) = [2; 3].
Proof. split; vm_compute; reflexivity. Qed.

(* skip 4 lines, then skip 10 more: line 14 is delivered from row 6 *)
Definition ex_k2 := mkK (mkG 8 1 1 61 8 61 false) false 5 (fun _ => 1).
Example C53_two_skips_refuted :
  lastline (steps ex_k2 [(false, 4); (false, 10); (true, 1)] (start ex_k2 ex_m0)) = (15, [6]) /\
  l_now (line_spec (k_c ex_k2) 14) = [14].
Proof. split; vm_compute; reflexivity. Qed.

(* context rows with 4 lines per row group: after 29 lines a skip of 10 loses an
   iMCU row *)
Definition ex_k3 := mkK (mkG 8 4 2 128 4 64 true) false 5 (fun _ => 1).
Example C53_v4_refuted :
  lastline (steps ex_k3 (repeat (true, 1) 29 ++ [(false, 10); (true, 1)]) (start ex_k3 ex_m0)) = (40, [34; 35]) /\
  l_now (line_spec (k_c ex_k3) 39) = [18; 19].
Proof. split; vm_compute; reflexivity. Qed.

(* a skip inside an iMCU row does not update the upsampler's count of rows to go:
   at the bottom a read can deliver a line that does not exist (62 of 61) *)
Example C53_past_bottom_refuted :
  lastline (steps ex_k1 ([(true, 1); (true, 1); (false, 2)] ++ repeat (true, 2) 29) (start ex_k1 ex_m0)) = (62, [60; 61]) /\
  g_O (k_c ex_k1) = 61.
Proof. split; vm_compute; reflexivity. Qed.

(* asking for no line and then skipping 20 delivers rows 36, 37 for line 20 *)
Example C53_read_zero_refuted :
  lastline (steps ex_k1 [(true, 0); (false, 20); (true, 1)] (start ex_k1 ex_m0)) = (21, [36; 37]) /\
  l_now (line_spec (k_c ex_k1) 20) = [20; 21].
Proof. split; vm_compute; reflexivity. Qed.
