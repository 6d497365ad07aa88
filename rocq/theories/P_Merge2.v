(* P_Merge2.v -- sessions of reads and skips with merged upsampling *)
From Verif Require Import Base M_RangeLimit T_RangeLimit M_Color T_Color M_Merge S_Merge P_Merge.
Open Scope nat_scope.

Section P.
Variables (cs : colorspace) (c : mcfg).
Hypothesis Hc : mcfg_ok cs c.
Notation p := (e_p c).
Notation sz := (length (layout cs)).
Notation W := (e_W c).
Notation v := (e_v c).
Notation M := (e_M c).
Notation L := (e_M c * e_v c).

Definition line (y : nat) : list Z := done cs c (e_Y c y) (e_Cb c (y / v)) (e_Cr c (y / v)) W.
Definition over (y : nat) (old : list Z) : list Z := rowst cs c (e_Y c y) (e_Cb c (y / v)) (e_Cr c (y / v)) W old.

Lemma over_eq : forall y old, over y old = line y ++ skipn (W * sz) old.
Proof. reflexivity. Qed.
Lemma line_len : forall y, length (line y) = W * sz.
Proof. intros. apply done_len. Qed.
Lemma over_roomy : forall y old, roomy cs c old -> roomy cs c (over y old).
Proof. intros y old H. unfold roomy in *. unfold over. rewrite rowst_len by exact H. exact H. Qed.
Lemma over_first : forall y old, firstn (W * sz) (over y old) = line y.
Proof. intros. rewrite over_eq. apply firstn_len_app, line_len. Qed.

Lemma Mpos : 1 <= M. Proof. destruct Hc as (_ & _ & _ & _ & H & _). exact H. Qed.
Lemma v12 : v = 1 \/ v = 2. Proof. destruct Hc as (_ & _ & _ & _ & _ & H & _). exact H. Qed.
Lemma OT : e_O c <= e_T c * L. Proof. destruct Hc as (_ & _ & _ & _ & _ & _ & H & _). exact H. Qed.
Lemma Lpos : 1 <= L. Proof. pose proof Mpos. destruct v12 as [-> | ->]; lia. Qed.

(* group arithmetic *)
Lemma group : forall y, y / L * M + y mod L / v = y / v.
Proof.
  intros y. pose proof Lpos. pose proof v12. assert (Hv : v <> 0) by lia.
  pose proof (Nat.div_mod y L ltac:(lia)) as E. rewrite E at 3.
  replace (L * (y / L) + y mod L) with (y mod L + (y / L * M) * v) by (rewrite Nat.mul_comm; lia).
  rewrite Nat.div_add by exact Hv. lia.
Qed.
Lemma moddiv : forall a r, r < L -> (a * L + r) mod L = r /\ (a * L + r) / L = a.
Proof.
  intros a r H. pose proof Lpos. split.
  - rewrite Nat.add_comm, Nat.mod_add by lia. apply Nat.mod_small, H.
  - rewrite Nat.add_comm, Nat.div_add by lia. rewrite Nat.div_small by exact H. lia.
Qed.
Lemma next_group : forall y, let y' := (y / v + 1) * v in
  (y mod L / v + 1 < M -> y' mod L = (y mod L / v + 1) * v /\ y' / L = y / L) /\
  (M <= y mod L / v + 1 -> y' mod L = 0 /\ y' / L = y / L + 1).
Proof.
  intros y y'. pose proof Lpos. pose proof v12. pose proof Mpos. unfold y'. rewrite <- (group y).
  pose proof (Nat.mod_upper_bound y L ltac:(lia)) as B.
  assert (B2 : y mod L / v < M) by (apply Nat.div_lt_upper_bound; [lia|replace (v * M) with L by apply Nat.mul_comm; exact B]).
  set (a := y / L). set (r := y mod L / v) in *. clearbody a r. split; intros Hr.
  - replace ((a * M + r + 1) * v) with (a * L + (r + 1) * v) by lia. apply moddiv. apply Nat.mul_lt_mono_pos_r; lia.
  - assert (r + 1 = M) by lia. replace ((a * M + r + 1) * v) with ((a + 1) * L + 0) by nia. apply moddiv. lia.
Qed.

Definition POS (j e : bool) (s : mst) (y : nat) : Prop :=
  g_rgc s = y mod L / v /\ g_row s = y / L + (if g_full s then 1 else 0) /\
  (y mod L = 0 -> g_full s = false) /\
  (g_full s = false -> v = 2 \/ j = false -> y mod L = 0) /\
  (v = 2 -> g_sp s = Nat.odd y /\ (Nat.odd y = true -> firstn (W * sz) (g_mem s SPARE) = line y) /\
     e_O c - y <= g_togo s /\ (e = false -> g_togo s = e_O c - y)).

Definition MI (j e : bool) (s : mst) : Prop :=
  g_y s <= e_O c /\ roomy cs c (g_mem s SPARE) /\ (g_y s = e_O c \/ POS j e s (g_y s)).

Lemma wides : forall y, y < e_T c * L -> wide p W (e_Y c y) /\ cwide c (e_Cb c (y / v)) /\ cwide c (e_Cr c (y / v)).
Proof.
  intros y Hy. destruct Hc as (_ & _ & _ & _ & _ & Hv & _ & HY & HC). split; [apply HY, Hy|].
  assert (K : y / v < e_T c * M) by (apply Nat.div_lt_upper_bound; [lia|nia]).
  destruct (HC _ K) as (A & B). split; [exact A|exact B].
Qed.

Definition ids_ok (ids : list nat) (m : mem) : Prop := caller_rows cs c ids m \/ ids = [SPARE].
(* what a step does to the buffers *)
Definition eff (ids : list nat) (y num : nat) (m m' : mem) : Prop :=
  roomy cs c (m' SPARE) /\
  (~ In SPARE ids -> forall i d, nth_error ids i = Some d -> m' d = if i <? num then over (y + i) (m d) else m d) /\
  (forall d, d <> SPARE -> ~ In d ids -> m' d = m d).

Lemma odd_even : forall y, Nat.odd y = negb (Nat.even y). Proof. intros. symmetry. apply Nat.negb_even. Qed.
Lemma even2 : forall y, Nat.even y = true -> y / 2 * 2 = y /\ (y + 1) / 2 = y / 2.
Proof.
  intros y H. rewrite Nat.even_spec in H. destruct H as (k & ->). rewrite (proj1 (d2 k)), (proj2 (d2 k)). lia.
Qed.
Lemma odd2 : forall y, Nat.odd y = true -> y / 2 * 2 + 1 = y.
Proof. intros y H. rewrite Nat.odd_spec in H. destruct H as (k & ->). rewrite (proj2 (d2 k)). lia. Qed.

Lemma Leven : v = 2 -> forall y, Nat.even y = true -> (y + 1) mod L = y mod L + 1 /\ (y + 1) / L = y / L /\ (y mod L + 1) / v = y mod L / v.
Proof.
  intros Hv y He. pose proof Lpos. pose proof (Nat.div_mod y L ltac:(lia)) as E. pose proof (Nat.mod_upper_bound y L ltac:(lia)) as B.
  assert (Er : Nat.even (y mod L) = true).
  { rewrite E in He. rewrite Nat.even_add, Nat.even_mul in He. replace (Nat.even L) with true in He by (rewrite Hv, Nat.even_mul, Bool.orb_true_r; reflexivity).
    cbn [orb] in He. destruct (Nat.even (y mod L)); [reflexivity|discriminate He]. }
  destruct (even2 _ Er) as (E1 & E2).
  assert (B2 : y mod L + 1 < L).
  { destruct (Nat.eq_dec (y mod L + 1) L) as [K|K]; [exfalso|lia]. rewrite Hv in *. lia. }
  rewrite E at 1 3. replace (L * (y / L) + y mod L + 1) with (y / L * L + (y mod L + 1)) by lia.
  destruct (moddiv (y / L) _ B2) as (A1 & A2). split; [exact A1|]. split; [exact A2|]. rewrite <- Hv in E2. exact E2.
Qed.

Lemma nth0 : forall (ids : list nat), 1 <= length ids -> exists d t, ids = d :: t.
Proof. intros [|d t] H; [cbn in H; lia|eauto]. Qed.

(* the upsampler, on a state whose main buffer is full *)
Lemma ups_ok : forall e ids s y, g_rgc s = y mod L / v ->
  (v = 2 -> g_sp s = Nat.odd y /\ (Nat.odd y = true -> firstn (W * sz) (g_mem s SPARE) = line y) /\
     e_O c - y <= g_togo s /\ (e = false -> g_togo s = e_O c - y)) ->
  g_full s = true -> g_row s = y / L + 1 -> y < e_O c -> 1 <= length ids ->
  ids_ok ids (g_mem s) -> roomy cs c (g_mem s SPARE) -> (e = true -> length ids <= e_O c - y) ->
  exists s' num, (if v =? 2 then merged_2v c ((g_row s - 1) * M) ids s else merged_1v c ((g_row s - 1) * M) ids s) = Ret (s', num) /\
    1 <= num <= length ids /\ num <= e_O c - y /\ g_full s' = true /\ g_row s' = y / L + 1 /\ g_y s' = g_y s /\
    (g_rgc s' = y mod L / v /\ v = 2 /\ Nat.even y = true /\ num = 1 \/ g_rgc s' = y mod L / v + 1 /\ y + num = (y / v + 1) * v) /\
    (v = 2 -> g_sp s' = Nat.odd (y + num) /\ (Nat.odd (y + num) = true -> firstn (W * sz) (g_mem s' SPARE) = line (y + num)) /\
     e_O c - (y + num) <= g_togo s' /\ (e = false -> g_togo s' = e_O c - (y + num))) /\
    eff ids y num (g_mem s) (g_mem s').
Proof.
  intros e ids s y Hr H2 Ef Ew Hy Hl Hi RO He.
  assert (Egr : (g_row s - 1) * M + g_rgc s = y / v) by (rewrite Ew, Hr, <- (group y); f_equal; f_equal; lia).
  pose proof OT as HT. destruct (wides y ltac:(lia)) as (WY & WB & WR).
  destruct v12 as [V|V].
  - (* v = 1 *)
    replace (v =? 2) with false by (rewrite V; reflexivity). unfold merged_1v.
    destruct (nth0 ids Hl) as (d & t & ->). cbn [outbuf nth_error bind].
    rewrite Egr. rewrite V, Nat.div_1_r in *.
    assert (ROd : roomy cs c (g_mem s d)). { destruct Hi as [[_ K]|K]; [apply K; left; reflexivity|injection K as -> _; exact RO]. }
    destruct (h2v1_ok cs c Hc (e_Y c y) (e_Cb c y) (e_Cr c y) d (g_mem s) WY WB WR ROd) as (m' & E1 & R1 & G1).
    rewrite E1. cbn [bind]. eexists _, 1. split; [reflexivity|]. cbn [g_full g_row g_y g_rgc g_sp g_togo g_mem].
    split; [cbn [length]; lia|]. split; [lia|]. split; [exact Ef|]. split; [exact Ew|]. split; [reflexivity|].
    split; [right; rewrite Nat.div_1_r; split; lia|]. split; [intros K; discriminate K|]. split; [|split].
    + destruct (Nat.eq_dec SPARE d) as [<-|N]; [rewrite R1; unfold roomy; rewrite rowst_len; exact ROd|rewrite G1 by exact N; exact RO].
    + intros NS i x Hx. destruct i as [|i]; cbn [nth_error] in Hx.
      * injection Hx as <-. change (0 <? 1) with true. cbv iota. rewrite Nat.add_0_r. rewrite R1. unfold over. rewrite V, Nat.div_1_r. reflexivity.
      * change (S i <? 1) with false. cbv iota. apply G1. destruct Hi as [[ND _]|K].
        -- intros ->. inversion ND as [|a b Hn _]. apply Hn. eapply nth_error_In, Hx.
        -- injection K as -> ->. destruct i; discriminate Hx.
    + intros x _ Nx. apply G1. intros ->. apply Nx. left; reflexivity.
  - (* v = 2 *)
    replace (v =? 2) with true by (rewrite V; reflexivity). unfold merged_2v.
    specialize (H2 V). destruct H2 as (Hsp & Hspl & Hto & Hte).
    destruct (nth0 ids Hl) as (d & t & ->).
    assert (ROd : roomy cs c (g_mem s d)). { destruct Hi as [[_ K]|K]; [apply K; left; reflexivity|injection K as -> _; exact RO]. }
    destruct (Nat.odd y) eqn:Eo; rewrite Hsp.
    + (* deliver the spare row *)
      cbn [outbuf nth_error bind]. rewrite (fsz cs c Hc).
      eexists _, 1. split; [reflexivity|]. cbn [g_full g_row g_y g_rgc g_sp g_togo g_mem].
      split; [cbn [length]; lia|]. split; [lia|]. split; [exact Ef|]. split; [exact Ew|]. split; [reflexivity|].
      split. { right. split; [rewrite Hr; lia|]. rewrite V. pose proof (odd2 y Eo). lia. }
      assert (On : Nat.odd (y + 1) = false) by (rewrite Nat.odd_add, Eo; reflexivity). rewrite On.
      split. { intros _. split; [reflexivity|]. split; [intros K; discriminate K|]. split; [lia|]. intros Ee. rewrite (Hte Ee). lia. }
      rewrite (Hspl eq_refl). split; [|split].
      * unfold mset. destruct (Nat.eqb_spec SPARE d) as [<-|N]; [|exact RO].
        rewrite <- over_eq. apply over_roomy, RO.
      * intros NS i x Hx. destruct i as [|i]; cbn [nth_error] in Hx.
        -- injection Hx as <-. change (0 <? 1) with true. cbv iota. rewrite Nat.add_0_r. unfold mset. rewrite Nat.eqb_refl. reflexivity.
        -- change (S i <? 1) with false. cbv iota. unfold mset. destruct (Nat.eqb_spec x d) as [->|]; [exfalso|reflexivity].
           destruct Hi as [[ND _]|K]; [inversion ND as [|a b Hn _]; apply Hn; eapply nth_error_In, Hx|injection K as -> ->; destruct i; discriminate Hx].
      * intros x _ Nx. unfold mset. destruct (Nat.eqb_spec x d) as [->|]; [exfalso; apply Nx; left; reflexivity|reflexivity].
    + (* a fresh row group *)
      assert (Ev : Nat.even y = true) by (rewrite odd_even in Eo; destruct (Nat.even y); [reflexivity|discriminate Eo]).
      destruct (even2 y Ev) as (E1 & E2). rewrite Egr. rewrite V in *. rewrite E1.
      assert (HT1 : y + 1 < e_T c * L).
      { pose proof HT as K. destruct (Nat.eq_dec (y + 1) (e_T c * L)) as [Q|Q]; [exfalso|lia]. rewrite V in Q. 
        assert (Nat.even (y + 1) = true) by (rewrite Q, Nat.mul_assoc, Nat.even_mul, Bool.orb_true_r; reflexivity).
        rewrite Nat.even_add, Ev in H. discriminate H. }
      destruct (wides (y + 1) HT1) as (WY1 & _). rewrite V in *.
      set (num := if length (d :: t) <? (if g_togo s <? 2 then g_togo s else 2) then length (d :: t) else if g_togo s <? 2 then g_togo s else 2).
      assert (Hnum : 1 <= num <= 2 /\ num <= length (d :: t) /\ num <= e_O c - y /\ num <= g_togo s).
      { unfold num. destruct (Nat.ltb_spec (g_togo s) 2) as [K1|K1].
        - destruct (Nat.ltb_spec (length (d :: t)) (g_togo s)) as [K2|K2]; cbn [length] in *; [lia|].
          split; [lia|]. split; [lia|]. split; [|lia]. destruct e; [specialize (He eq_refl); lia|rewrite (Hte eq_refl); lia].
        - destruct (Nat.ltb_spec (length (d :: t)) 2) as [K2|K2]; cbn [length] in *; [lia|].
          split; [lia|]. split; [lia|]. split; [|lia]. destruct e; [specialize (He eq_refl); lia|rewrite (Hte eq_refl) in K1; lia]. }
      clearbody num. cbn [outbuf nth_error bind].
      destruct (Nat.ltb_spec 1 num) as [K1|K1].
      * (* two rows *)
        assert (num = 2) by lia. subst num.
        destruct t as [|d1 t]; [cbn [length] in Hnum; lia|]. cbn [outbuf nth_error bind].
        destruct Hi as [[ND HR]|K]; [|discriminate K].
        assert (Nd : d <> d1) by (intros ->; inversion ND as [|a b Hn _]; apply Hn; left; reflexivity).
        assert (RO1 : roomy cs c (g_mem s d1)) by (apply HR; right; left; reflexivity).
        assert (S0 : d <> SPARE) by (apply HR; left; reflexivity). assert (S1 : d1 <> SPARE) by (apply HR; right; left; reflexivity).
        destruct (h2v2_ok cs c Hc (e_Y c y) (e_Y c (y + 1)) (e_Cb c (y / 2)) (e_Cr c (y / 2)) d d1 (g_mem s) WY WY1 WB WR ROd RO1) as (m' & F1 & R1 & Q1 & G1).
        rewrite F1. cbn [bind]. eexists _, 2. split; [reflexivity|]. cbn [g_full g_row g_y g_rgc g_sp g_togo g_mem].
        split; [lia|]. split; [lia|]. split; [exact Ef|]. split; [exact Ew|]. split; [reflexivity|].
        split. { right. split; [rewrite Hr; lia|]. lia. }
        assert (On : Nat.odd (y + 2) = false) by (rewrite Nat.odd_add, Eo; reflexivity). rewrite On.
        split. { intros _. split; [reflexivity|]. split; [intros K; discriminate K|]. split; [lia|]. intros Ee. rewrite (Hte Ee). lia. }
        split; [|split].
        -- rewrite G1 by congruence. exact RO.
        -- intros NS i x Hx. destruct i as [|[|i]]; cbn [nth_error] in Hx.
           ++ injection Hx as <-. change (0 <? 2) with true. cbv iota. rewrite Nat.add_0_r. rewrite (Q1 Nd). unfold over. rewrite V. reflexivity.
           ++ injection Hx as <-. change (1 <? 2) with true. cbv iota. rewrite R1. unfold over. rewrite V, E2. reflexivity.
           ++ change (S (S i) <? 2) with false. cbv iota. assert (Hin : In x t) by (eapply nth_error_In, Hx).
              inversion ND as [|a b Hn ND2]. inversion ND2 as [|a2 b2 Hn2 _]. apply G1.
              ** intros ->. apply Hn. right. exact Hin.
              ** intros ->. apply Hn2. exact Hin.
        -- intros x _ Nx. apply G1; intros ->; apply Nx; [left|right; left]; reflexivity.
      * (* one row, the other into the spare row *)
        assert (num = 1) by lia. subst num. cbn [bind].
        destruct (h2v2_ok cs c Hc (e_Y c y) (e_Y c (y + 1)) (e_Cb c (y / 2)) (e_Cr c (y / 2)) d SPARE (g_mem s) WY WY1 WB WR ROd RO) as (m' & F1 & R1 & Q1 & G1).
        rewrite F1. cbn [bind]. eexists _, 1. split; [reflexivity|]. cbn [g_full g_row g_y g_rgc g_sp g_togo g_mem].
        split; [cbn [length]; lia|]. split; [lia|]. split; [exact Ef|]. split; [exact Ew|]. split; [reflexivity|].
        split. { left. split; [exact Hr|]. split; [reflexivity|]. split; [exact Ev|reflexivity]. }
        assert (On : Nat.odd (y + 1) = true) by (rewrite Nat.odd_add, Eo; reflexivity). rewrite On.
        assert (R1' : m' SPARE = over (y + 1) (g_mem s SPARE)) by (rewrite R1; unfold over; rewrite V, E2; reflexivity).
        split. { intros _. split; [reflexivity|]. split; [intros _; rewrite R1'; apply over_first|]. split; [lia|]. intros Ee. rewrite (Hte Ee). lia. }
        split; [|split].
        -- rewrite R1'. apply over_roomy, RO.
        -- intros NS i x Hx. destruct Hi as [[ND HR]|K]; [|exfalso; apply NS; rewrite K; left; reflexivity].
           destruct i as [|i]; cbn [nth_error] in Hx.
           ++ injection Hx as <-. change (0 <? 1) with true. cbv iota. rewrite Nat.add_0_r.
              rewrite Q1 by (apply HR; left; reflexivity). unfold over. rewrite V. reflexivity.
           ++ change (S i <? 1) with false. cbv iota. assert (Hin : In x t) by (eapply nth_error_In, Hx). apply G1.
              ** intros ->. inversion ND as [|a b Hn _]. apply Hn, Hin.
              ** apply HR. right. exact Hin.
        -- intros x Nx1 Nx. apply G1; [intros ->; apply Nx; left; reflexivity|exact Nx1].
Qed.
End P.
