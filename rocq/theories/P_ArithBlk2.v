(* P_ArithBlk2.v -- AC coefficients *)
From Verif Require Import Base M_HuffDec S_Block P_Gather P_Trellis P_Arith M_Arith M_ArithBlk S_Prog P_ArithBlk.

Definition mag (Al c : Z) : Z := Z.shiftr (Z.abs c) Al.
Lemma mag_div Al c : 0 <= Al -> mag Al c = Z.abs c / 2 ^ Al. Proof. intros. apply Z.shiftr_div_pow2. lia. Qed.
Lemma mag_nonneg Al c : 0 <= Al -> 0 <= mag Al c.
Proof. intros. rewrite mag_div by lia. apply Z.div_pos; [lia|]. apply Z.pow_pos_nonneg; lia. Qed.
Lemma mag_le Al c : 0 <= Al -> -32768 <= c <= 32767 -> mag Al c <= 32768.
Proof. intros H1 H2. rewrite mag_div by lia. assert (0 < 2 ^ Al) by (apply Z.pow_pos_nonneg; lia). apply Z.div_le_upper_bound; [lia|]. nia. Qed.
Lemma ac_at_mag Al c : 0 <= Al -> ac_at Al c = Z.sgn c * (mag Al c * 2 ^ Al).
Proof. intros H. unfold ac_at. rewrite mag_div by lia. reflexivity. Qed.
Lemma ac_at_range Al c : 0 <= Al -> -32768 <= c <= 32767 -> -32768 <= ac_at Al c <= 32767.
Proof.
  intros H1 H2. unfold ac_at. assert (P : 0 < 2 ^ Al) by (apply Z.pow_pos_nonneg; lia). pose proof (Z.mul_div_le (Z.abs c) (2 ^ Al) P) as M. rewrite Z.mul_comm in M. assert (0 <= Z.abs c / 2 ^ Al * 2 ^ Al) by (apply Z.mul_nonneg_nonneg; [apply Z.div_pos|]; lia).
  destruct (Z.lt_trichotomy c 0) as [G|[G|G]]; [rewrite (Z.sgn_neg c) by lia|subst; cbn [Z.sgn]|rewrite (Z.sgn_pos c) by lia]; lia.
Qed.
Lemma mag_zero_at Al c : 0 <= Al -> mag Al c = 0 -> ac_at Al c = 0.
Proof. intros H E. rewrite ac_at_mag, E by lia. lia. Qed.
(* the value the decoder stores for a coefficient sent as sign and magnitude *)
Lemma stored Al c : 0 <= Al -> -32768 <= c <= 32767 -> mag Al c <> 0 -> s16 (Z.shiftl (if c <? 0 then - mag Al c else mag Al c) Al) = ac_at Al c.
Proof.
  intros H1 H2 NZ. rewrite Z.shiftl_mul_pow2 by lia. assert (E : (if c <? 0 then - mag Al c else mag Al c) * 2 ^ Al = ac_at Al c).
  { rewrite ac_at_mag by lia. destruct (Z.ltb_spec c 0); [rewrite (Z.sgn_neg c) by lia; ring|]. assert (c <> 0). { intros ->. apply NZ. unfold mag. cbn [Z.abs]. apply Z.shiftr_0_l. } rewrite (Z.sgn_pos c) by lia. ring. }
  rewrite E. apply s16_id. pose proof (ac_at_range Al c H1 H2). unfold s16r. lia.
Qed.

Lemma no_upd blk k x i : length blk = 64%nat -> 0 <= k < 64 -> 0 <= i < 64 -> g (upd blk (Z.to_nat (no k)) x) (no i) = if k =? i then x else g blk (no i).
Proof.
  intros L Hk Hi. pose proof (no_range k Hk). pose proof (no_range i Hi). rewrite g_upd by lia. destruct (Z.eqb_spec (no k) (no i)) as [E|E]; destruct (Z.eqb_spec k i) as [E2|E2]; try reflexivity; [apply no_inj in E; lia|subst; contradiction].
Qed.

Section Band.
Variables (src : list Z) (ac Al Se : Z).
Hypotheses (SL : length src = 64%nat) (SR : forall i, 0 <= i < 64 -> -32768 <= g src (no i) <= 32767) (HAl : 0 <= Al) (HSe : 0 <= Se <= 63) (HAC : 0 <= ac /\ ac + 256 <= 5120).
Notation cf i := (g src (no i)).

Lemma src_get k {A} (f : Z -> Z -> outcome A) : 0 <= k < 64 -> (z <- aget jpeg_natural_order k ;; c <- aget src z ;; f z c) = f (no k) (cf k).
Proof. intros H. rewrite (no_ok k H). cbn [bind]. pose proof (no_range k H). rewrite (aget_g src) by lia. reflexivity. Qed.

Lemma find_ke_ok : forall fuel ke sh, 0 <= ke < 64 -> ke < Z.of_nat fuel ->
  exists r, find_ke fuel ke sh src = Ret r /\ 0 <= r <= ke /\ (forall i, r < i <= ke -> mag sh (cf i) = 0) /\ (0 < r -> mag sh (cf r) <> 0).
Proof.
  induction fuel as [|fuel IH]; intros ke sh H HF; [lia|]. cbn [find_ke]. destruct (Z.ltb_spec 0 ke) as [G|G].
  - rewrite src_get by lia. fold (mag sh (cf ke)). destruct (Z.eqb_spec (mag sh (cf ke)) 0) as [E|E]; cbn [negb].
    + destruct (IH (ke - 1) sh ltac:(lia) ltac:(lia)) as (r & R1 & R2 & R3 & R4). exists r. split; [exact R1|]. split; [lia|]. split; [|exact R4]. intros i Hi. destruct (Z.eq_dec i ke) as [->|N]; [exact E|apply R3; lia].
    + exists ke. split; [reflexivity|]. split; [lia|]. split; [intros i Hi; lia|]. intros _. exact E.
  - exists ke. split; [reflexivity|]. split; [lia|]. split; [intros i Hi; lia|]. lia.
Qed.

Lemma zr_ok ke : 0 <= ke <= Se -> mag Al (cf ke) <> 0 -> forall n k fuel fuel2, ke - k = Z.of_nat n -> 1 <= k -> (n < fuel)%nat -> (n < fuel2)%nat ->
  exists ds k', enc_zr fuel ac k Al src = Ret (ds, k', mag Al (cf k')) /\ k <= k' <= ke /\ mag Al (cf k') <> 0 /\ (forall i, k <= i < k' -> mag Al (cf i) = 0) /\ Forall okc ds /\
    forall rest, ans (dec_zr fuel2 ac k Se) (ds ++ rest) = Some (k', (FIX, cf k' <? 0) :: rest).
Proof.
  intros HK NZ. induction n as [|n IH]; intros k fuel fuel2 E K1 F1 F2; destruct fuel as [|fuel]; try lia; destruct fuel2 as [|fuel2]; try lia; cbn [enc_zr dec_zr]; rewrite src_get by lia; cbv zeta; fold (mag Al (cf k)); destruct (Z.eqb_spec (mag Al (cf k)) 0) as [M|M]; cbn [negb].
  - exfalso. apply NZ. replace ke with k by lia. exact M.
  - do 2 eexists. split; [reflexivity|]. split; [lia|]. split; [exact M|]. split; [intros; lia|]. split; [constructor; [unfold okc; cbn [fst]; lia|constructor; [unfold okc, FIX; cbn [fst]; lia|constructor]]|]. intros rest. cbn [app]. rewrite ans_ask. reflexivity.
  - destruct (IH (k + 1) fuel fuel2 ltac:(lia) ltac:(lia) ltac:(lia) ltac:(lia)) as (ds & k' & I1 & I2 & I3 & I4 & I5 & I6). rewrite I1. cbn [bind]. do 2 eexists. split; [reflexivity|]. split; [lia|]. split; [exact I3|]. split; [intros i Hi; destruct (Z.eq_dec i k) as [->|N]; [exact M|apply I4; lia]|]. split; [constructor; [unfold okc; cbn [fst]; lia|exact I5]|].
    intros rest. cbn [app]. rewrite ans_ask. destruct (Z.ltb_spec Se (k + 1)); [lia|apply I6].
  - do 2 eexists. split; [reflexivity|]. split; [lia|]. split; [exact M|]. split; [intros; lia|]. split; [constructor; [unfold okc; cbn [fst]; lia|constructor; [unfold okc, FIX; cbn [fst]; lia|constructor]]|]. intros rest. cbn [app]. rewrite ans_ask. reflexivity.
Qed.

Lemma enc_mag_ok K k v : 1 <= k <= 63 -> 1 <= v <= 32768 ->
  sat (fun ds => Forall okc ds /\ forall s rest, ans (dec_mag ac K k) ((FIX, s) :: ds ++ rest) = Some ((if s then - v else v), rest)) (enc_mag ac K k v).
Proof.
  intros HK HV. unfold enc_mag, dec_mag. cbv zeta. set (st := ac + 3 * (k - 1) + 2). set (base := ac + (if k <=? K then 189 else 217)).
  assert (HB : ac <= base <= ac + 217) by (unfold base; destruct (k <=? K); lia). clearbody base. assert (HST : ac <= st <= ac + 190) by (unfold st; lia). clearbody st.
  assert (Q : exists dsm mm st2 bs, (if v - 1 =? 0 then Ret ([], 0, st) else if Z.shiftr (v - 1) 1 =? 0 then Ret ([(st, true)], 1, st) else '(ds, m, st2) <- mag_loop 32 (Z.shiftr (v - 1) 1) 2 base ;; Ret ((st, true) :: (st, true) :: ds, m, st2)) = Ret (dsm, mm, st2) /\
    bits_loop 32 mm (v - 1) (st2 + 14) = Ret bs /\ Forall okc dsm /\ Forall okc bs /\ okc (st2, false) /\
    (forall (B : Type) (f : Z * Z -> dtree B) rest, ans (Ask st (fun m0 : bool => tbind (if m0 then Ask st (fun m1 : bool => if m1 then dec_mag_loop 16 2 base else Done (1, st)) else Done (0, st)) f)) (dsm ++ (st2, false) :: rest) = ans (f (mm, st2)) rest) /\
    forall rest, ans (dec_bits 32 mm mm (st2 + 14)) (bs ++ rest) = Some (v - 1, rest)).
  { destruct (Z.eqb_spec (v - 1) 0) as [A0|A0].
    - do 4 eexists. split; [reflexivity|]. split; [apply bits_zero|]. split; [constructor|]. split; [constructor|]. split; [unfold okc; cbn [fst]; lia|]. split; [intros B f rest; cbn [app]; rewrite ans_ask; reflexivity|]. intros rest. cbn [app]. rewrite A0. reflexivity.
    - destruct (log_split (v - 1) ltac:(lia)) as (j & J1 & J2 & J3). rewrite Z.shiftr_div_pow2 by lia. change (2 ^ 1) with 2. destruct (Z.eqb_spec ((v - 1) / 2) 0) as [A1|A1].
      + assert (v - 1 = 1) as -> by (pose proof (Z.div_mod (v - 1) 2 ltac:(lia)); pose proof (Z.mod_pos_bound (v - 1) 2 ltac:(lia)); lia).
        do 4 eexists. split; [reflexivity|]. split; [reflexivity|]. split; [constructor; [unfold okc; cbn [fst]; lia|constructor]|]. split; [constructor|]. split; [unfold okc; cbn [fst]; lia|]. split; [intros B f rest; cbn [app]; rewrite ans_ask; cbn [tbind]; rewrite ans_ask; reflexivity|]. intros rest. reflexivity.
      + destruct j as [|j]; [change (2 ^ Z.of_nat 0) with 1 in J2; change (2 ^ (Z.of_nat 0 + 1)) with 2 in J2; exfalso; apply A1; replace (v - 1) with 1 by lia; reflexivity|].
        assert (P1 : 2 ^ (Z.of_nat (S j)) = 2 * 2 ^ Z.of_nat j) by (rewrite <- Z.pow_succ_r by lia; f_equal; lia). assert (P2 : 2 ^ (Z.of_nat (S j) + 1) = 2 * 2 ^ (Z.of_nat j + 1)) by (rewrite <- Z.pow_succ_r by lia; f_equal; lia).
        destruct (mag_ok j 32 16 ((v - 1) / 2) 1 base ltac:(split; [apply Z.div_le_lower_bound; lia|apply Z.div_lt_upper_bound; lia]) ltac:(lia) ltac:(lia) ltac:(lia) ltac:(lia)) as (ds & M1 & M2 & M3). change (2 ^ 1) with 2 in *. replace (1 + Z.of_nat j) with (Z.of_nat (S j)) in * by lia. rewrite M1. cbn [bind].
        destruct (bits_ok (S j) 32 32 (v - 1) (base + Z.of_nat j + 14) ltac:(lia) ltac:(lia) ltac:(lia)) as (bs & B1 & B2 & B3). do 4 eexists. split; [reflexivity|]. split; [exact B1|].
        split; [constructor; [unfold okc; cbn [fst]; lia|]; constructor; [unfold okc; cbn [fst]; lia|]; eapply Forall_impl; [|exact M3]; intros a; cbn beta; unfold okc; lia|]. split; [eapply Forall_impl; [|exact B3]; intros a; cbn beta; unfold okc; lia|]. split; [unfold okc; cbn [fst]; lia|].
        split; [intros B f rest; cbn [app]; rewrite ans_ask; cbn [tbind]; rewrite ans_ask; rewrite ans_bind, M2; reflexivity|]. rewrite J3, Z.mul_1_l in B2. exact B2. }
  destruct Q as (dsm & mm & st2 & bs & Q1 & Q2 & Q3 & Q4 & Q5 & Q6 & Q7). rewrite Q1. cbn [bind]. rewrite Q2. cbn [bind sat]. split; [apply Forall_app; split; [exact Q3|constructor; assumption]|].
  intros s rest. rewrite ans_ask, <- app_assoc. cbn [app]. rewrite Q6, ans_bind, Q7. cbn [ans]. do 2 f_equal. destruct s; lia.
Qed.

Definition after_from (k : Z) (old new : list Z) : Prop :=
  length new = 64%nat /\ forall i, 0 <= i < 64 -> g new (no i) = if (k <=? i) && (i <=? Se) then ac_at Al (cf i) else g old (no i).

Lemma ac_ok K ke : 0 <= ke <= Se -> (forall i, ke < i <= Se -> mag Al (cf i) = 0) -> (0 < ke -> mag Al (cf ke) <> 0) ->
  forall n n2 k blk, 1 <= k -> Se + 1 - k <= Z.of_nat n -> Se + 1 - k <= Z.of_nat n2 -> length blk = 64%nat -> (forall i, k <= i <= Se -> g blk (no i) = 0) ->
  sat (fun ds => Forall okc ds /\ exists new, (forall rest, ans (dec_ac n2 ac K k Se Al blk) (ds ++ rest) = Some (new, rest)) /\ after_from k blk new) (enc_ac n ac K k ke Se Al src).
Proof.
  intros HKE Z0 NZ. induction n as [|n IH]; intros n2 k blk K1 HN HN2 LB B0.
  - assert (Se < k) by lia. cbn [enc_ac]. destruct (Z.leb_spec k ke); [lia|]. destruct (Z.leb_spec k Se); [lia|]. cbn [sat]. split; [constructor|]. exists blk. split.
    + intros rest. destruct n2; cbn [dec_ac]; (destruct (Z.leb_spec k Se); [lia|]); reflexivity.
    + split; [exact LB|]. intros i Hi. destruct (Z.leb_spec k i); destruct (Z.leb_spec i Se); cbn [andb]; try reflexivity. lia.
  - cbn [enc_ac]. destruct (Z.leb_spec k ke) as [G|G].
    + destruct n2 as [|n2]; [lia|]. destruct (zr_ok ke HKE (NZ ltac:(lia)) (Z.to_nat (ke - k)) k 64 64 ltac:(lia) K1 ltac:(lia) ltac:(lia)) as (d1 & k' & E1 & E2 & E3 & E4 & E5 & E6). rewrite E1. cbn [bind].
      pose proof (SR k' ltac:(lia)) as R. pose proof (mag_nonneg Al (cf k') HAl). pose proof (mag_le Al (cf k') HAl R).
      eapply sat_bind; [apply (enc_mag_ok K k' (mag Al (cf k')) ltac:(lia) ltac:(lia))|]. intros d2 (D1 & D2).
      pose proof (no_range k' ltac:(lia)) as NR. set (blk' := upd blk (Z.to_nat (no k')) (ac_at Al (cf k'))).
      assert (LB' : length blk' = 64%nat) by (unfold blk'; rewrite length_upd; exact LB).
      eapply sat_bind; [apply (IH n2 (k' + 1) blk' ltac:(lia) ltac:(lia) ltac:(lia) LB')|].
      { intros i Hi. unfold blk'. rewrite no_upd by lia. destruct (Z.eqb_spec k' i); [lia|]. apply B0. lia. }
      intros d3 (F3 & new & A3 & LN & A4). cbn [sat]. split; [constructor; [unfold okc; cbn [fst]; lia|]; apply Forall_app; split; [exact E5|]; apply Forall_app; split; assumption|]. exists new. split.
      * intros rest. cbn [dec_ac]. destruct (Z.leb_spec k Se); [|lia]. cbn [app]. rewrite ans_ask, <- !app_assoc. rewrite ans_bind, E6. rewrite ans_bind, D2. rewrite (no_ok k') by lia. cbn [bind]. rewrite stored by assumption. rewrite aset_ok by lia. cbn [lift tbind]. fold blk'. apply A3.
      * split; [exact LN|]. intros i Hi. rewrite (A4 i Hi). unfold blk'. rewrite no_upd by lia. destruct (Z.leb_spec (k' + 1) i); destruct (Z.leb_spec i Se); destruct (Z.leb_spec k i); cbn [andb]; try lia; try reflexivity; destruct (Z.eqb_spec k' i) as [->|N]; try lia; try reflexivity.
        rewrite B0 by lia. symmetry. apply mag_zero_at; [exact HAl|]. apply E4. lia.
    + destruct (Z.leb_spec k Se) as [G2|G2].
      * destruct n2 as [|n2]; [lia|]. cbn [sat]. split; [constructor; [unfold okc; cbn [fst]; lia|constructor]|]. exists blk. split; [intros rest; cbn [dec_ac]; destruct (Z.leb_spec k Se); [|lia]; cbn [app]; rewrite ans_ask; reflexivity|].
        split; [exact LB|]. intros i Hi. destruct (Z.leb_spec k i); destruct (Z.leb_spec i Se); cbn [andb]; try reflexivity. rewrite B0 by lia. symmetry. apply mag_zero_at; [exact HAl|]. apply Z0. lia.
      * cbn [sat]. split; [constructor|]. exists blk. split; [intros rest; destruct n2; cbn [dec_ac]; (destruct (Z.leb_spec k Se); [lia|]); reflexivity|]. split; [exact LB|]. intros i Hi. destruct (Z.leb_spec k i); destruct (Z.leb_spec i Se); cbn [andb]; try reflexivity. lia.
Qed.

(* ---- refinement ---- *)
Variable Ss : Z.
Hypotheses (HSs : 1 <= Ss) (HAl2 : Al <= 13).
Definition before_from (k : Z) (blk : list Z) : Prop := length blk = 64%nat /\ forall i, k <= i <= Se -> g blk (no i) = ac_at (Al + 1) (cf i).

Lemma mag_half c : mag (Al + 1) c = mag Al c / 2.
Proof. unfold mag. rewrite <- Z.shiftr_shiftr by lia. rewrite (Z.shiftr_div_pow2 _ 1) by lia. reflexivity. Qed.
Lemma at_zero_mag A c : 0 <= A -> ac_at A c = 0 -> mag A c = 0.
Proof.
  intros H E. rewrite ac_at_mag in E by lia. assert (0 < 2 ^ A) by (apply Z.pow_pos_nonneg; lia). apply Z.eq_mul_0 in E. destruct E as [E|E]; [|apply Z.eq_mul_0 in E; lia]. assert (c = 0) as -> by (destruct c; [reflexivity|discriminate|discriminate]). unfold mag. cbn [Z.abs]. apply Z.shiftr_0_l.
Qed.
Lemma kex_ok blk : before_from Ss blk -> forall fuel kex, 0 <= kex < 64 -> kex < Z.of_nat fuel ->
  exists r, dec_kex fuel kex blk = Ret r /\ 0 <= r <= kex /\ (forall i, r < i <= kex -> g blk (no i) = 0) /\ (0 < r -> g blk (no r) <> 0).
Proof.
  intros (LB & B). induction fuel as [|fuel IH]; intros kex H HF; [lia|]. cbn [dec_kex]. destruct (Z.ltb_spec 0 kex) as [G|G].
  - rewrite (no_ok kex) by lia. cbn [bind]. pose proof (no_range kex ltac:(lia)). rewrite (aget_g blk) by lia. cbn [bind]. destruct (Z.eqb_spec (g blk (no kex)) 0) as [E|E]; cbn [negb].
    + destruct (IH (kex - 1) ltac:(lia) ltac:(lia)) as (r & R1 & R2 & R3 & R4). exists r. split; [exact R1|]. split; [lia|]. split; [|exact R4]. intros i Hi. destruct (Z.eq_dec i kex) as [->|N]; [exact E|apply R3; lia].
    + exists kex. split; [reflexivity|]. split; [lia|]. split; [intros i Hi; lia|]. intros _. exact E.
  - exists kex. split; [reflexivity|]. split; [lia|]. split; [intros i Hi; lia|]. lia.
Qed.

Lemma rf_big k blk : Ss <= k <= Se -> before_from k blk -> mag Al (cf k) <> 0 ->
  exists ds blk', (if negb (Z.shiftr (mag Al (cf k)) 1 =? 0) then [(ac + 3 * (k - 1) + 2, negb (Z.land (mag Al (cf k)) 1 =? 0))] else [(ac + 3 * (k - 1) + 1, true); (FIX, cf k <? 0)]) = ds /\ Forall okc ds /\
     (forall (more : dtree (Z * list Z)) rest, ans (if negb (ac_at (Al + 1) (cf k) =? 0) then
        Ask (ac + 3 * (k - 1) + 2) (fun b => tbind (lift (if b then aset blk (no k) (s16 (if ac_at (Al + 1) (cf k) <? 0 then ac_at (Al + 1) (cf k) + s16 (Z.shiftl (-1) Al) else ac_at (Al + 1) (cf k) + s16 (Z.shiftl 1 Al))) else Ret blk)) (fun blk => Done (k, blk)))
      else Ask (ac + 3 * (k - 1) + 1) (fun b => if b then Ask FIX (fun sg => tbind (lift (aset blk (no k) (s16 (if sg then Z.shiftl (-1) Al else Z.shiftl 1 Al)))) (fun blk => Done (k, blk))) else if Se <? k + 1 then Warn else more)) (ds ++ rest) = Some ((k, blk'), rest)) /\
     length blk' = 64%nat /\ forall i, 0 <= i < 64 -> g blk' (no i) = if (k <=? i) && (i <=? k) then ac_at Al (cf i) else g blk (no i).
Proof.
  intros HK (LB & BF) M. assert (P2 : 0 < 2 ^ Al <= 2 ^ 13) by (split; [apply Z.pow_pos_nonneg; lia|apply Z.pow_le_mono_r; lia]). change (2 ^ 13) with 8192 in P2.
  assert (PA : 2 ^ (Al + 1) = 2 * 2 ^ Al) by (rewrite Z.pow_add_r by lia; change (2 ^ 1) with 2; lia).
  pose proof (no_range k ltac:(lia)) as NR. pose proof (SR k ltac:(lia)) as R.
  pose proof (mag_nonneg Al (cf k) HAl) as MN. pose proof (mag_half (cf k)) as MH. pose proof (ac_at_mag Al (cf k) HAl) as AM. pose proof (ac_at_mag (Al + 1) (cf k) ltac:(lia)) as AM1. rewrite PA, MH in AM1.
  pose proof (Z.div_mod (mag Al (cf k)) 2 ltac:(lia)) as DM. pose proof (Z.mod_pos_bound (mag Al (cf k)) 2 ltac:(lia)) as DB. pose proof (ac_at_range Al (cf k) HAl R) as RG.
  assert (SGN : cf k < 0 /\ Z.sgn (cf k) = -1 \/ 0 < cf k /\ Z.sgn (cf k) = 1) by (destruct (Z.lt_trichotomy (cf k) 0) as [Q|[Q|Q]]; [left; split; [exact Q|apply Z.sgn_neg; exact Q]|exfalso; apply M; rewrite Q; unfold mag; cbn [Z.abs]; apply Z.shiftr_0_l|right; split; [exact Q|apply Z.sgn_pos; exact Q]]).
  assert (TAIL : length (upd blk (Z.to_nat (no k)) (ac_at Al (cf k))) = 64%nat /\ forall i, 0 <= i < 64 -> g (upd blk (Z.to_nat (no k)) (ac_at Al (cf k))) (no i) = if (k <=? i) && (i <=? k) then ac_at Al (cf i) else g blk (no i)).
  { split; [rewrite length_upd; exact LB|]. intros i Hi. rewrite no_upd by lia. destruct (Z.eqb_spec k i) as [->|N]; [rewrite Z.leb_refl; reflexivity|]. destruct (Z.leb_spec k i); destruct (Z.leb_spec i k); cbn [andb]; try reflexivity; lia. }
  rewrite (Z.shiftr_div_pow2 _ 1) by lia. change (2 ^ 1) with 2. destruct (Z.eqb_spec (mag Al (cf k) / 2) 0) as [H0|H0]; cbn [negb]; eexists; exists (upd blk (Z.to_nat (no k)) (ac_at Al (cf k))); (split; [reflexivity|]).
  - split; [constructor; [unfold okc; cbn [fst]; lia|constructor; [unfold okc, FIX; cbn [fst]; lia|constructor]]|]. split; [|exact TAIL].
    intros more rest. assert (ac_at (Al + 1) (cf k) = 0) as -> by (rewrite AM1, H0; ring). cbn [Z.eqb negb app]. rewrite ans_ask. rewrite ans_ask.
    assert (s16 (if cf k <? 0 then Z.shiftl (-1) Al else Z.shiftl 1 Al) = ac_at Al (cf k)) as ->.
    { assert (M1 : mag Al (cf k) = 1) by lia. rewrite !Z.shiftl_mul_pow2 by lia. rewrite AM, M1. destruct SGN as [[S1 ->]|[S1 ->]]; destruct (Z.ltb_spec (cf k) 0); try lia; rewrite s16_id by (unfold s16r; lia); ring. }
    rewrite aset_ok by lia. reflexivity.
  - split; [constructor; [unfold okc; cbn [fst]; lia|constructor]|]. split; [|exact TAIL].
    intros more rest. assert (MP : 1 <= mag Al (cf k) / 2) by (pose proof (Z.div_pos (mag Al (cf k)) 2 MN ltac:(lia)); lia).
    assert (PP : 0 < mag Al (cf k) / 2 * (2 * 2 ^ Al)) by (apply Z.mul_pos_pos; lia).
    assert (NZA : ac_at (Al + 1) (cf k) <> 0) by (rewrite AM1; destruct SGN as [[S1 ->]|[S1 ->]]; lia).
    destruct (Z.eqb_spec (ac_at (Al + 1) (cf k)) 0); [contradiction|]. cbn [negb app]. rewrite ans_ask.
    assert (SG2 : (ac_at (Al + 1) (cf k) <? 0) = (cf k <? 0)) by (rewrite AM1; destruct SGN as [[S1 ->]|[S1 ->]]; destruct (Z.ltb_spec (cf k) 0); lia). rewrite SG2.
    change (Z.land (mag Al (cf k)) 1) with (Z.land (mag Al (cf k)) (Z.ones 1)). rewrite Z.land_ones by lia. change (2 ^ 1) with 2.
    rewrite !Z.shiftl_mul_pow2 by lia. rewrite (s16_id (-1 * 2 ^ Al)) by (unfold s16r; lia). rewrite (s16_id (1 * 2 ^ Al)) by (unfold s16r; lia).
    destruct (Z.eqb_spec (mag Al (cf k) mod 2) 0) as [H1|H1]; cbn [negb].
    + cbn [lift tbind ans]. do 3 f_equal. rewrite <- (upd_same blk (Z.to_nat (no k)) 0) at 1. f_equal. change (nth (Z.to_nat (no k)) blk 0) with (g blk (no k)). rewrite (BF k) by lia. rewrite AM1, AM. assert (E : mag Al (cf k) = 2 * (mag Al (cf k) / 2)) by lia. rewrite E at 2. ring.
    + assert ((if cf k <? 0 then ac_at (Al + 1) (cf k) + -1 * 2 ^ Al else ac_at (Al + 1) (cf k) + 1 * 2 ^ Al) = ac_at Al (cf k)) as ->.
      { rewrite AM1, AM. assert (E : mag Al (cf k) = 2 * (mag Al (cf k) / 2) + 1) by lia. set (q := mag Al (cf k) / 2) in *. rewrite E. destruct SGN as [[S1 ->]|[S1 ->]]; destruct (Z.ltb_spec (cf k) 0); try lia; ring. }
      rewrite (s16_id (ac_at Al (cf k))) by (unfold s16r; lia). rewrite aset_ok by lia. reflexivity.
Qed.

Lemma rf_ok ke : 0 <= ke <= Se -> mag Al (cf ke) <> 0 -> forall n k fuel fuel2 blk, ke - k = Z.of_nat n -> Ss <= k -> (n < fuel)%nat -> (n < fuel2)%nat -> before_from k blk ->
  exists ds k' blk', enc_rf fuel ac k Al src = Ret (ds, k') /\ k <= k' <= ke /\ Forall okc ds /\
    (forall rest, ans (dec_rf fuel2 ac k Se Al blk) (ds ++ rest) = Some ((k', blk'), rest)) /\
    length blk' = 64%nat /\ forall i, 0 <= i < 64 -> g blk' (no i) = if (k <=? i) && (i <=? k') then ac_at Al (cf i) else g blk (no i).
Proof.
  intros HK NZ. induction n as [|n IH]; intros k fuel fuel2 blk E K1 F1 F2 HB; pose proof HB as [LB BF]; (destruct fuel as [|fuel]; [lia|]); (destruct fuel2 as [|fuel2]; [lia|]); cbn [enc_rf dec_rf]; rewrite src_get by lia; cbv zeta; fold (mag Al (cf k)); pose proof (no_range k ltac:(lia)) as NR;
  (assert (DG : (z <- aget jpeg_natural_order k ;; c <- aget blk z ;; Ret (z, c)) = Ret (no k, ac_at (Al + 1) (cf k))) by (rewrite (no_ok k) by lia; cbn [bind]; rewrite (aget_g blk) by lia; cbn [bind]; rewrite (BF k) by lia; reflexivity)); rewrite DG; cbn [lift tbind].
  - destruct (Z.eqb_spec (mag Al (cf k)) 0) as [M|M]; [exfalso; apply NZ; replace ke with k by lia; exact M|]. cbn [negb]. destruct (rf_big k blk ltac:(lia) HB M) as (ds & blk' & -> & B1 & B2 & B3 & B4). exists ds, k, blk'. split; [reflexivity|]. split; [lia|]. split; [exact B1|]. split; [intros rest; apply B2|]. split; [exact B3|exact B4].
  - destruct (Z.eqb_spec (mag Al (cf k)) 0) as [M|M]; cbn [negb].
    + destruct (IH (k + 1) fuel fuel2 blk ltac:(lia) ltac:(lia) ltac:(lia) ltac:(lia) ltac:(split; [exact LB|intros i Hi; apply BF; lia])) as (ds & k' & blk' & I1 & I2 & I3 & I4 & I5 & I6). rewrite I1. cbn [bind]. do 3 eexists. split; [reflexivity|]. split; [lia|]. split; [constructor; [unfold okc; cbn [fst]; lia|exact I3]|].
      assert (AZ : ac_at (Al + 1) (cf k) = 0) by (apply mag_zero_at; [lia|]; rewrite mag_half, M; reflexivity). split; [|split; [exact I5|]].
      * intros rest. rewrite AZ. cbn [Z.eqb negb app]. rewrite ans_ask. destruct (Z.ltb_spec Se (k + 1)); [lia|]. apply I4.
      * intros i Hi. rewrite (I6 i Hi). destruct (Z.leb_spec (k + 1) i); destruct (Z.leb_spec i k'); destruct (Z.leb_spec k i); cbn [andb]; try lia; try reflexivity. assert (i = k) as -> by lia. rewrite (BF k) by lia. rewrite AZ. symmetry. apply mag_zero_at; assumption.
    + destruct (rf_big k blk ltac:(lia) HB M) as (ds & blk' & -> & B1 & B2 & B3 & B4). exists ds, k, blk'. split; [reflexivity|]. split; [lia|]. split; [exact B1|]. split; [intros rest; apply B2|]. split; [exact B3|exact B4].
Qed.

Lemma acr_ok ke kexe kexd : 0 <= ke <= Se -> (forall i, ke < i <= Se -> mag Al (cf i) = 0) -> (0 < ke -> mag Al (cf ke) <> 0) -> kexe <= ke -> (forall k, Ss <= k <= Se -> (kexe <? k) = (kexd <? k)) ->
  forall n n2 k blk, Ss <= k -> Se + 1 - k <= Z.of_nat n -> Se + 1 - k <= Z.of_nat n2 -> before_from k blk ->
  sat (fun ds => Forall okc ds /\ exists new, (forall rest, ans (dec_acr n2 ac k kexd Se Al blk) (ds ++ rest) = Some (new, rest)) /\ after_from k blk new) (enc_acr n ac k ke kexe Se Al src).
Proof.
  intros HKE Z0 NZ KX KE. induction n as [|n IH]; intros n2 k blk K1 HN HN2 [LB BF].
  - assert (Se < k) by lia. cbn [enc_acr]. destruct (Z.leb_spec k ke); [lia|]. destruct (Z.leb_spec k Se); [lia|]. cbn [sat]. split; [constructor|]. exists blk. split.
    + intros rest. destruct n2; cbn [dec_acr]; (destruct (Z.leb_spec k Se); [lia|]); reflexivity.
    + split; [exact LB|]. intros i Hi. destruct (Z.leb_spec k i); destruct (Z.leb_spec i Se); cbn [andb]; try reflexivity. lia.
  - cbn [enc_acr]. destruct (Z.leb_spec k ke) as [G|G].
    + destruct n2 as [|n2]; [lia|]. destruct (rf_ok ke HKE (NZ ltac:(lia)) (Z.to_nat (ke - k)) k 64 64 blk ltac:(lia) K1 ltac:(lia) ltac:(lia) (conj LB BF)) as (d1 & k' & blk' & E1 & E2 & E3 & E4 & E5 & E6). rewrite E1. cbn [bind].
      eapply sat_bind; [apply (IH n2 (k' + 1) blk' ltac:(lia) ltac:(lia) ltac:(lia))|].
      { split; [exact E5|]. intros i Hi. rewrite E6 by lia. destruct (Z.leb_spec i k'); [lia|]. rewrite andb_false_r. apply BF. lia. }
      intros d3 (F3 & new & A3 & LN & A4). cbn [sat]. split; [apply Forall_app; split; [destruct (kexe <? k); [constructor; [unfold okc; cbn [fst]; lia|constructor]|constructor]|]; apply Forall_app; split; assumption|]. exists new. split.
      * intros rest. cbn [dec_acr]. destruct (Z.leb_spec k Se); [|lia]. cbv zeta. rewrite <- (KE k) by lia. rewrite <- !app_assoc. destruct (kexe <? k); cbn [app]; [rewrite ans_ask|]; rewrite ans_bind, E4; apply A3.
      * split; [exact LN|]. intros i Hi. rewrite (A4 i Hi), (E6 i Hi). destruct (Z.leb_spec (k' + 1) i); destruct (Z.leb_spec i Se); destruct (Z.leb_spec k i); destruct (Z.leb_spec i k'); cbn [andb]; try lia; reflexivity.
    + destruct (Z.leb_spec k Se) as [G2|G2].
      * destruct n2 as [|n2]; [lia|]. cbn [sat]. split; [constructor; [unfold okc; cbn [fst]; lia|constructor]|]. exists blk. split; [intros rest; cbn [dec_acr]; destruct (Z.leb_spec k Se); [|lia]; cbv zeta; rewrite <- (KE k) by lia; destruct (Z.ltb_spec kexe k); [|lia]; cbn [app]; rewrite ans_ask; reflexivity|].
        split; [exact LB|]. intros i Hi. destruct (Z.leb_spec k i); destruct (Z.leb_spec i Se); cbn [andb]; try reflexivity. rewrite (BF i) by lia. rewrite (mag_zero_at Al) by (try apply Z0; lia). apply mag_zero_at; [lia|]. rewrite mag_half, Z0 by lia. reflexivity.
      * cbn [sat]. split; [constructor|]. exists blk. split; [intros rest; destruct n2; cbn [dec_acr]; (destruct (Z.leb_spec k Se); [lia|]); reflexivity|]. split; [exact LB|]. intros i Hi. destruct (Z.leb_spec k i); destruct (Z.leb_spec i Se); cbn [andb]; try reflexivity. lia.
Qed.
End Band.
