(* P_PHuff2.v -- progressive Huffman: AC refinement scans *)
From Verif Require Import Base M_HuffTbl M_Source M_BitRead M_HuffEnc M_LossHuff M_HuffDec S_Huff S_Stream S_Block P_BitRead P_HuffDec P_HuffEnc P_HuffScan P_Round P_Gather P_Trellis S_Prog P_ArithBlk2 M_PHuff P_PHuff.

Section Refine.
Variables (src : list Z) (Al Se a : Z).
Hypotheses (SL : length src = 64%nat) (SR : forall i, 0 <= i < 64 -> -32768 <= g src (no i) <= 32767) (HAl : 0 <= Al <= 13) (HSe : 0 <= Se <= 63).
Notation cf i := (g src (no i)).
Notation m i := (mag Al (g src (no i))).
Notation cfs := (cfs src).
Notation before k blk := (before_from src Al Se k blk).
(* refined on [k, j), as before elsewhere *)
Definition upto (k j : Z) (blk blk' : list Z) : Prop :=
  length blk' = 64%nat /\ forall i, 0 <= i < 64 -> g blk' (no i) = if (k <=? i) && (i <? j) then ac_at Al (cf i) else g blk (no i).
Lemma upto_refl k j blk : length blk = 64%nat -> j <= k -> upto k j blk blk.
Proof. intros L H. split; [exact L|]. intros i Hi. destruct (Z.leb_spec k i); destruct (Z.ltb_spec i j); cbn [andb]; try reflexivity; lia. Qed.
Lemma upto_trans k j l b1 b2 b3 : k <= j <= l -> upto k j b1 b2 -> upto j l b2 b3 -> upto k l b1 b3.
Proof.
  intros H (L1 & U1) (L2 & U2). split; [exact L2|]. intros i Hi. rewrite (U2 i Hi), (U1 i Hi). destruct (Z.leb_spec j i); destruct (Z.ltb_spec i l); destruct (Z.leb_spec k i); destruct (Z.ltb_spec i j); cbn [andb]; try reflexivity; lia.
Qed.
Lemma upto_before k j b1 b2 : 0 <= k -> upto k j b1 b2 -> before k b1 -> k <= j -> before j b2.
Proof. intros H (L & U) (L1 & B) Hj. split; [exact L|]. intros i Hi. rewrite U by lia. destruct (Z.ltb_spec i j); [lia|]. rewrite andb_false_r. apply B. lia. Qed.
(* setting position k *)
Lemma upto_one k blk : 0 <= k <= Se -> length blk = 64%nat -> upto k (k + 1) blk (upd blk (Z.to_nat (no k)) (ac_at Al (cf k))).
Proof.
  intros H L. split; [rewrite length_upd; exact L|]. intros i Hi. rewrite no_upd by lia. destruct (Z.eqb_spec k i) as [->|N]; [rewrite Z.leb_refl; destruct (Z.ltb_spec i (i + 1)); [reflexivity|lia]|]. destruct (Z.leb_spec k i); destruct (Z.ltb_spec i (k + 1)); cbn [andb]; try reflexivity; lia.
Qed.
Lemma upto_keep k blk : 0 <= k <= Se -> length blk = 64%nat -> g blk (no k) = ac_at Al (cf k) -> upto k (k + 1) blk blk.
Proof.
  intros H L E. split; [exact L|]. intros i Hi. destruct (Z.leb_spec k i); destruct (Z.ltb_spec i (k + 1)); cbn [andb]; try reflexivity. assert (i = k) as -> by lia. exact E.
Qed.

Lemma mhalf c : mag (Al + 1) c = mag Al c / 2.
Proof. unfold mag. rewrite <- Z.shiftr_shiftr by lia. rewrite (Z.shiftr_div_pow2 _ 1) by lia. reflexivity. Qed.
(* the decoder's zeroes are the coefficients that are 0 or newly nonzero *)
Lemma old_zero i : 0 <= i < 64 -> (ac_at (Al + 1) (cf i) =? 0) = (m i <=? 1).
Proof.
  intros Hi. pose proof (mag_nonneg Al (cf i) ltac:(lia)) as MN. pose proof (mhalf (cf i)) as MH. pose proof (Z.div_mod (m i) 2 ltac:(lia)). pose proof (Z.mod_pos_bound (m i) 2 ltac:(lia)).
  destruct (Z.eqb_spec (ac_at (Al + 1) (cf i)) 0) as [E|E]; destruct (Z.leb_spec (m i) 1) as [L|L]; try reflexivity; exfalso.
  - apply (at_zero_mag src SL) in E; lia.
  - apply E. apply mag_zero_at; lia.
Qed.
Lemma sgn_cases i : m i <> 0 -> cf i < 0 /\ Z.sgn (cf i) = -1 \/ 0 < cf i /\ Z.sgn (cf i) = 1.
Proof.
  intros M. destruct (Z.lt_trichotomy (cf i) 0) as [Q|[Q|Q]]; [left; split; [exact Q|apply Z.sgn_neg; exact Q]|exfalso; apply M; rewrite Q; unfold mag; cbn [Z.abs]; apply Z.shiftr_0_l|right; split; [exact Q|apply Z.sgn_pos; exact Q]].
Qed.
Lemma pow_facts : 0 < 2 ^ Al <= 8192 /\ 2 ^ (Al + 1) = 2 * 2 ^ Al.
Proof.
  split; [split; [apply Z.pow_pos_nonneg; lia|change 8192 with (2 ^ 13); apply Z.pow_le_mono_r; lia]|]. rewrite Z.pow_add_r by lia. change (2 ^ 1) with 2. lia.
Qed.
(* a correction bit *)
Lemma correct_ok k blk : 0 <= k <= Se -> before k blk -> 1 < m k ->
  exists blk', (forall rest, pans (correct Al (no k) (ac_at (Al + 1) (cf k)) blk) (IBits (Z.land (m k) 1) 1 :: rest) = Some (blk', rest)) /\ upto k (k + 1) blk blk'.
Proof.
  intros HK (LB & BF) M. destruct pow_facts as [P2 PA]. pose proof (no_range k ltac:(lia)) as NR. pose proof (SR k ltac:(lia)) as R.
  pose proof (mag_nonneg Al (cf k) ltac:(lia)) as MN. pose proof (mhalf (cf k)) as MH. pose proof (ac_at_mag Al (cf k) ltac:(lia)) as AM. pose proof (ac_at_mag (Al + 1) (cf k) ltac:(lia)) as AM1. rewrite PA, MH in AM1.
  pose proof (Z.div_mod (m k) 2 ltac:(lia)) as DM. pose proof (Z.mod_pos_bound (m k) 2 ltac:(lia)) as DB. pose proof (ac_at_range Al (cf k) ltac:(lia) R) as RG.
  pose proof (sgn_cases k ltac:(lia)) as SGN.
  change (Z.land (m k) 1) with (Z.land (m k) (Z.ones 1)). rewrite Z.land_ones by lia. change (2 ^ 1) with 2.
  assert (LZ : Z.land (ac_at (Al + 1) (cf k)) (Z.shiftl 1 Al) = 0).
  { rewrite Z.shiftl_mul_pow2, Z.mul_1_l by lia. rewrite AM1. replace (Z.sgn (cf k) * (m k / 2 * (2 * 2 ^ Al))) with ((Z.sgn (cf k) * (m k / 2)) * 2 ^ (Al + 1)) by (rewrite PA; ring).
    apply Z.bits_inj'. intros i Hi. rewrite Z.land_spec, Z.bits_0, Z.pow2_bits_eqb by lia. destruct (Z.eqb_spec Al i) as [<-|N]; [|apply andb_false_r]. rewrite Z.mul_pow2_bits_low by lia. reflexivity. }
  assert (SG2 : (0 <=? ac_at (Al + 1) (cf k)) = (0 <=? cf k)).
  { rewrite AM1. assert (0 < m k / 2 * (2 * 2 ^ Al)) by (apply Z.mul_pos_pos; lia). destruct SGN as [[S1 ->]|[S1 ->]]; destruct (Z.leb_spec 0 (cf k)); lia. }
  assert (UN : forall rest, pans (correct Al (no k) (ac_at (Al + 1) (cf k)) blk) (IBits (m k mod 2) 1 :: rest) =
    pans (if negb (m k mod 2 =? 0) then plift (aset blk (no k) (s16 (if 0 <=? cf k then ac_at (Al + 1) (cf k) + 1 * 2 ^ Al else ac_at (Al + 1) (cf k) + -1 * 2 ^ Al))) else PDone blk) rest).
  { intros rest. unfold correct. rewrite pans_bits. change (2 ^ 1) with 2. rewrite Z.mod_mod by lia. rewrite LZ. change (0 =? 0) with true. rewrite andb_true_r. rewrite SG2. rewrite !Z.shiftl_mul_pow2 by lia. rewrite (s16_id (-1 * 2 ^ Al)) by (unfold s16r; lia). rewrite (s16_id (1 * 2 ^ Al)) by (unfold s16r; lia). reflexivity. }
  destruct (Z.eqb_spec (m k mod 2) 0) as [H1|H1]; cbn [negb] in UN.
  - exists blk. split; [intros rest; rewrite UN; reflexivity|]. apply upto_keep; [exact HK|exact LB|]. rewrite (BF k) by lia. rewrite AM1, AM. assert (E : m k = 2 * (m k / 2)) by lia. rewrite E at 2. ring.
  - exists (upd blk (Z.to_nat (no k)) (ac_at Al (cf k))). split; [|apply upto_one; assumption].
    assert (EV : (if 0 <=? cf k then ac_at (Al + 1) (cf k) + 1 * 2 ^ Al else ac_at (Al + 1) (cf k) + -1 * 2 ^ Al) = ac_at Al (cf k)).
    { rewrite AM1, AM. assert (E : m k = 2 * (m k / 2) + 1) by lia. set (q := m k / 2) in *. rewrite E. destruct SGN as [[S1 ->]|[S1 ->]]; destruct (Z.leb_spec 0 (cf k)); try lia; ring. }
    intros rest. rewrite UN, EV. rewrite (s16_id (ac_at Al (cf k))) by (unfold s16r; lia). rewrite aset_ok by lia. reflexivity.
Qed.

(* zeroes and correction bits among n positions from k *)
Fixpoint cz (n : nat) (k : Z) : Z := match n with O => 0 | S n => (if m k =? 0 then 1 else 0) + cz n (k + 1) end.
Fixpoint cb (n : nat) (k : Z) : list Z := match n with O => [] | S n => if m k =? 0 then cb n (k + 1) else Z.land (m k) 1 :: cb n (k + 1) end.
Lemma cz_app : forall n1 n2 k, cz (n1 + n2) k = cz n1 k + cz n2 (k + Z.of_nat n1).
Proof. induction n1 as [|n1 IH]; intros n2 k; cbn [cz Nat.add]; [rewrite Z.add_0_r; reflexivity|]. rewrite IH. replace (k + 1 + Z.of_nat n1) with (k + Z.of_nat (S n1)) by lia. lia. Qed.
Lemma cb_app : forall n1 n2 k, cb (n1 + n2) k = cb n1 k ++ cb n2 (k + Z.of_nat n1).
Proof. induction n1 as [|n1 IH]; intros n2 k; cbn [cb Nat.add app]; [rewrite Z.add_0_r; reflexivity|]. rewrite IH. replace (k + 1 + Z.of_nat n1) with (k + Z.of_nat (S n1)) by lia. destruct (m k =? 0); reflexivity. Qed.
Lemma cz_zeros : forall n k, (forall i, k <= i < k + Z.of_nat n -> m i = 0) -> cz n k = Z.of_nat n /\ cb n k = [].
Proof.
  induction n as [|n IH]; intros k H; [split; reflexivity|]. cbn [cz cb]. rewrite (H k) by lia. change (0 =? 0) with true. cbv iota. destruct (IH (k + 1)) as [-> ->]; [intros i Hi; apply H; lia|]. split; [lia|reflexivity].
Qed.
Lemma cz_range : forall n k, 0 <= cz n k <= Z.of_nat n.
Proof. induction n as [|n IH]; intros k; cbn [cz]; [lia|]. specialize (IH (k + 1)). destruct (m k =? 0); lia. Qed.
Lemma cb_len : forall n k, (length (cb n k) + Z.to_nat (cz n k))%nat = n.
Proof. induction n as [|n IH]; intros k; cbn [cz cb]; [reflexivity|]. specialize (IH (k + 1)). pose proof (cz_range n (k + 1)). destruct (m k =? 0); cbn [length]; lia. Qed.

(* one look at the old block *)
Lemma look k blk : 0 <= k <= Se -> before k blk -> (z <- aget jpeg_natural_order k ;; c <- aget blk z ;; Ret (z, c)) = Ret (no k, ac_at (Al + 1) (cf k)).
Proof. intros HK (LB & BF). pose proof (no_range k ltac:(lia)). rewrite no_ok by lia. cbn [bind]. rewrite aget_g by lia. cbn [bind]. rewrite (BF k) by lia. reflexivity. Qed.
Lemma before_step k blk : before k blk -> before (k + 1) blk.
Proof. intros (L & B). split; [exact L|]. intros i Hi. apply B. lia. Qed.

(* passing positions without newly nonzero coefficient up to the next zero of the old block *)
Lemma skip_ok : forall n k f blk, 0 <= k -> k + Z.of_nat n <= Se -> before k blk -> (forall i, k <= i < k + Z.of_nat n -> m i <> 1) -> m (k + Z.of_nat n) <= 1 -> (n < f)%nat ->
  exists blk', (forall rest, pans (pskip f k (cz n k) Se Al blk) (buffered (cb n k) ++ rest) = Some ((k + Z.of_nat n, blk'), rest)) /\ upto k (k + Z.of_nat n) blk blk'.
Proof.
  induction n as [|n IH]; intros k f blk HK HS HB N1 ML HF; (destruct f as [|f]; [lia|]); cbn [pskip cz cb]; rewrite look by (try assumption; lia); cbn [plift pbind].
  - exists blk. rewrite Z.add_0_r in *. split; [|destruct HB; apply upto_refl; [assumption|lia]]. intros rest. rewrite old_zero by lia. destruct (Z.leb_spec (m k) 1); [|lia]. reflexivity.
  - rewrite old_zero by lia. destruct (Z.leb_spec (m k) 1) as [L|L]; cbn [negb].
    + pose proof (mag_nonneg Al (cf k) ltac:(lia)). pose proof (N1 k ltac:(lia)). assert (M0 : m k = 0) by lia. rewrite M0. change (0 =? 0) with true. cbv iota.
      pose proof (cz_range n (k + 1)) as CR. destruct (Z.ltb_spec (1 + cz n (k + 1) - 1) 0); [lia|]. destruct (Z.leb_spec (k + 1) Se); [|lia]. replace (1 + cz n (k + 1) - 1) with (cz n (k + 1)) by lia.
      destruct (IH (k + 1) f blk ltac:(lia) ltac:(lia) (before_step _ _ HB)) as (blk' & E & U); [intros i Hi; apply N1; lia|replace (k + 1 + Z.of_nat n) with (k + Z.of_nat (S n)) by lia; exact ML|lia|].
      replace (k + 1 + Z.of_nat n) with (k + Z.of_nat (S n)) in * by lia. exists blk'. split; [exact E|]. apply upto_trans with (k + 1) blk; [lia| |exact U]. destruct HB as [LB BF]. apply upto_keep; [lia|exact LB|]. rewrite (BF k) by lia. rewrite (mag_zero_at Al) by (lia || exact M0). apply mag_zero_at; [lia|]. rewrite mhalf, M0. reflexivity.
    + destruct (Z.eqb_spec (m k) 0); [lia|]. cbn [buffered map app]. destruct (correct_ok k blk ltac:(lia) HB L) as (b1 & C1 & U1).
      destruct (IH (k + 1) f b1 ltac:(lia) ltac:(lia)) as (blk' & E & U); [apply (upto_before k (k + 1) blk b1); [lia|exact U1|exact HB|lia]|intros i Hi; apply N1; lia|replace (k + 1 + Z.of_nat n) with (k + Z.of_nat (S n)) by lia; exact ML|lia|].
      replace (k + 1 + Z.of_nat n) with (k + Z.of_nat (S n)) in * by lia. exists blk'. split; [|apply upto_trans with (k + 1) b1; [lia|exact U1|exact U]].
      intros rest. rewrite pans_bind. fold (buffered (cb n (k + 1))). rewrite C1. destruct (Z.leb_spec (k + 1) Se); [|lia]. rewrite Z.add_0_l. apply E.
Qed.
(* the corrections after an end of band *)
Lemma corr_ok : forall n k f blk, 0 <= k -> k + Z.of_nat n = Se + 1 -> before k blk -> (forall i, k <= i <= Se -> m i <> 1) -> (n <= f)%nat ->
  exists blk', (forall rest, pans (pdec_corr f k Se Al blk) (buffered (cb n k) ++ rest) = Some (blk', rest)) /\ upto k (Se + 1) blk blk'.
Proof.
  induction n as [|n IH]; intros k f blk HK HS HB N1 HF.
  - exists blk. split; [|destruct HB; apply upto_refl; [assumption|lia]]. intros rest. destruct f; cbn [pdec_corr]; (destruct (Z.leb_spec k Se); [lia|]); reflexivity.
  - destruct f as [|f]; [lia|]. cbn [pdec_corr cb]. destruct (Z.leb_spec k Se); [|lia]. rewrite look by (try assumption; lia). cbn [plift pbind]. rewrite old_zero by lia. destruct (Z.leb_spec (m k) 1) as [L|L]; cbn [negb].
    + pose proof (mag_nonneg Al (cf k) ltac:(lia)). pose proof (N1 k ltac:(lia)). assert (M0 : m k = 0) by lia. rewrite M0. change (0 =? 0) with true. cbv iota. cbn [pbind].
      destruct (IH (k + 1) f blk ltac:(lia) ltac:(lia) (before_step _ _ HB)) as (blk' & E & U); [intros i Hi; apply N1; lia|lia|]. exists blk'. split; [exact E|]. apply upto_trans with (k + 1) blk; [lia| |exact U]. destruct HB as [LB BF]. apply upto_keep; [lia|exact LB|]. rewrite (BF k) by lia. rewrite (mag_zero_at Al) by (lia || exact M0). apply mag_zero_at; [lia|]. rewrite mhalf, M0. reflexivity.
    + destruct (Z.eqb_spec (m k) 0); [lia|]. cbn [buffered map app]. destruct (correct_ok k blk ltac:(lia) HB L) as (b1 & C1 & U1).
      destruct (IH (k + 1) f b1 ltac:(lia) ltac:(lia)) as (blk' & E & U); [apply (upto_before k (k + 1) blk b1); [lia|exact U1|exact HB|lia]|intros i Hi; apply N1; lia|lia|].
      exists blk'. split; [|apply upto_trans with (k + 1) b1; [lia|exact U1|exact U]]. intros rest. rewrite pans_bind. fold (buffered (cb n (k + 1))). rewrite C1. apply E.
Qed.

(* reading the items c takes the decoder's loop from (k, blk) to (k', blk') *)
Definition steps (k : Z) (blk : list Z) (c : list item) (k' : Z) (blk' : list Z) : Prop :=
  k <= k' /\ upto k k' blk blk' /\ (c = [] -> k' = k /\ blk' = blk) /\ Forall (iat a) c /\
  forall f, Se + 1 - k <= Z.of_nat f -> exists f', Se + 1 - k' <= Z.of_nat f' /\ forall rest, pans (pdec_ac_refine f a k Se Al blk) (c ++ rest) = pans (pdec_ac_refine f' a k' Se Al blk') rest.
Lemma steps_refl k blk : length blk = 64%nat -> steps k blk [] k blk.
Proof. intros L. split; [lia|]. split; [apply upto_refl; [exact L|lia]|]. split; [auto|]. split; [constructor|]. intros f Hf. exists f. split; [exact Hf|]. reflexivity. Qed.
Lemma steps_trans k b c k1 b1 c2 k2 b2 : steps k b c k1 b1 -> steps k1 b1 c2 k2 b2 -> steps k b (c ++ c2) k2 b2.
Proof.
  intros (A1 & A2 & A3 & A4 & A5) (B1 & B2 & B3 & B4 & B5). split; [lia|]. split; [apply upto_trans with k1 b1; [lia|exact A2|exact B2]|]. split; [|split].
  - intros E. apply app_eq_nil in E. destruct E as [E1 E2]. destruct (A3 E1) as [-> ->]. destruct (B3 E2) as [-> ->]. auto.
  - apply iat_app; assumption.
  - intros f Hf. destruct (A5 f Hf) as (f1 & F1 & G1). destruct (B5 f1 F1) as (f2 & F2 & G2). exists f2. split; [exact F2|]. intros rest. rewrite <- app_assoc, G1. apply G2.
Qed.
(* the encoder emits a pending run before the first item *)
Definition shape (s : pst) (c its : list item) (s' : pst) : Prop :=
  its = (if nilb c then [] else pending a s) ++ c /\ s' = if nilb c then s else mkPst (p_dc s) 0 [].
Lemma shape_nil s : shape s [] [] s. Proof. split; reflexivity. Qed.
Lemma shape_trans s c1 i1 s1 c2 i2 s2 : shape s c1 i1 s1 -> shape s1 c2 i2 s2 -> shape s (c1 ++ c2) (i1 ++ i2) s2.
Proof.
  intros [-> ->] [-> ->]. destruct c1 as [|x c1]; cbn [nilb app]; [split; reflexivity|]. split.
  - rewrite <- !app_assoc. f_equal. cbn [app]. f_equal. f_equal. unfold pending. cbn [p_run]. change (0 <? 0) with false. cbv iota. destruct (nilb c2); reflexivity.
  - cbn [p_dc]. destruct (nilb c2); reflexivity.
Qed.
Lemma st_ok0 dc : st_ok (mkPst dc 0 []). Proof. split; [cbn; lia|]. split; [reflexivity|cbn; lia]. Qed.
Lemma shape_ok s c i s' : shape s c i s' -> st_ok s -> st_ok s'.
Proof. intros [_ ->] H. destruct (nilb c); [exact H|apply st_ok0]. Qed.
Lemma shape_one s c : c <> [] -> shape s c (pending a s ++ c) (mkPst (p_dc s) 0 []).
Proof. intros N. destruct c; [contradiction|]. split; reflexivity. Qed.

Lemma rzrls_ok K : 1 <= K <= Se -> forall fuel k0 n1 z s blk, 1 <= k0 -> 0 <= z -> k0 + Z.of_nat n1 + z = K -> cz n1 k0 <= 15 -> (forall i, K - z <= i < K -> m i = 0) -> (forall i, k0 <= i < K -> m i <> 1) ->
  st_ok s -> before k0 blk -> cz n1 k0 + z < 16 * (Z.of_nat fuel + 1) ->
  exists its R br s' c k1 blk1, rzrls fuel a (cz n1 k0 + z) true (cb n1 k0) s = Ret (its, R, br, s') /\ shape s c its s' /\ steps k0 blk c k1 blk1 /\ k1 <= K /\
    R = cz (Z.to_nat (K - k1)) k1 /\ br = cb (Z.to_nat (K - k1)) k1 /\ R <= 15.
Proof.
  intros HK. induction fuel as [|fuel IH]; intros k0 n1 z s blk H0 HZ EK HR Z0 N1 ST HB HF; pose proof (cz_range n1 k0) as CR; cbn [rzrls]; (destruct (Z.ltb_spec 15 (cz n1 k0 + z)) as [G|G]; [try lia|]).
  1,3: cbn [andb]; exists [], (cz n1 k0 + z), (cb n1 k0), s, [], k0, blk; destruct (cz_zeros (Z.to_nat z) (k0 + Z.of_nat n1)) as [Q1 Q2]; [intros i Hi; apply Z0; lia|];
    (split; [reflexivity|]); (split; [apply shape_nil|]); (split; [apply steps_refl; apply HB|]); (split; [lia|]); replace (Z.to_nat (K - k0)) with (n1 + Z.to_nat z)%nat by lia; rewrite cz_app, cb_app, Q1, Q2, app_nil_r; (split; [lia|]); (split; [reflexivity|lia]).
  cbn [andb]. rewrite emit_eobrun_spec by exact ST. cbn [bind].
  set (r := cz n1 k0) in *. set (j := Z.to_nat (15 - r)). destruct (cz_zeros j (k0 + Z.of_nat n1)) as [Q1 Q2]; [intros i Hi; apply Z0; unfold j in Hi; lia|].
  assert (C15 : cz (n1 + j) k0 = 15) by (rewrite cz_app, Q1; fold r; unfold j; lia).
  assert (CB : cb (n1 + j) k0 = cb n1 k0) by (rewrite cb_app, Q2; apply app_nil_r).
  destruct (skip_ok (n1 + j) k0 80 blk ltac:(lia) ltac:(unfold j; lia) HB) as (blk1 & E1 & U1); [intros i Hi; apply N1; unfold j in Hi; lia|rewrite Z0 by (unfold j; lia); lia|unfold j; lia|]. rewrite C15, CB in E1.
  set (k1 := k0 + Z.of_nat (n1 + j)) in *. assert (HK1 : k0 <= k1 < K) by (unfold k1, j; lia).
  assert (MK1 : m k1 = 0) by (apply Z0; unfold k1, j; lia).
  assert (B1 : before k1 blk1) by (apply (upto_before k0 k1 blk blk1); [lia|exact U1|exact HB|lia]).
  assert (U2 : upto k0 (k1 + 1) blk blk1).
  { apply upto_trans with k1 blk1; [lia|exact U1|]. destruct B1 as [LB1 BF1]. apply upto_keep; [lia|exact LB1|]. rewrite (BF1 k1) by lia. rewrite (mag_zero_at Al) by (lia || exact MK1). apply mag_zero_at; [lia|]. rewrite mhalf, MK1. reflexivity. }
  assert (ST1 : steps k0 blk (ISym a 240 :: buffered (cb n1 k0)) (k1 + 1) blk1).
  { split; [lia|]. split; [exact U2|]. split; [discriminate|]. split; [constructor; [split; [cbn; lia|reflexivity]|apply buffered_iat]|]. intros f Hf. destruct f as [|f]; [lia|]. exists f. split; [lia|]. intros rest.
    cbn [pdec_ac_refine app]. destruct (Z.leb_spec k0 Se); [|lia]. rewrite pans_sym. change (Z.shiftr 240 4) with 15. change (Z.land 240 15) with 0. change (negb (0 =? 0)) with false. cbv iota zeta. change (15 =? 15) with true. cbv iota. change (0 =? 0) with true. cbv iota. rewrite pans_bind, E1. reflexivity. }
  specialize (IH (k1 + 1) 0%nat (K - (k1 + 1)) (mkPst (p_dc s) 0 []) blk1 ltac:(lia) ltac:(lia) ltac:(lia)). cbn [cz cb] in IH.
  destruct IH as (its & R & br & s' & c & k2 & blk2 & F1 & F2 & F3 & F4 & F5 & F6 & F7); [lia|intros i Hi; apply Z0; unfold k1, j in *; lia|intros i Hi; apply N1; lia|apply st_ok0| |unfold k1, j; lia|].
  { apply before_step. exact B1. }
  replace (0 + (K - (k1 + 1))) with (r + z - 16) in F1 by (unfold k1, j; lia). rewrite F1. cbn [bind].
  exists (pending a s ++ ISym a 240 :: buffered (cb n1 k0) ++ its), R, br, s', ((ISym a 240 :: buffered (cb n1 k0)) ++ c), k2, blk2. split; [reflexivity|]. split; [|split; [eapply steps_trans; [exact ST1|exact F3]|]; split; [exact F4|]; split; [exact F5|]; split; [exact F6|exact F7]].
  change (ISym a 240 :: buffered (cb n1 k0) ++ its) with ((ISym a 240 :: buffered (cb n1 k0)) ++ its). rewrite app_assoc. eapply shape_trans; [apply shape_one; discriminate|exact F2].
Qed.

Variable Ss : Z.
Hypothesis HSs : 1 <= Ss.
Definition pend_at (K k0 r z : Z) (br : list Z) : Prop :=
  exists n1, k0 + Z.of_nat n1 = K - z /\ 0 <= z /\ cz n1 k0 = r /\ cb n1 k0 = br /\ (forall i, K - z <= i < K -> m i = 0) /\ forall i, k0 <= i < K -> m i <> 1.

Lemma acr_ok eob : forall n K k0 z r br s blk, K + Z.of_nat n = Se + 1 -> Ss <= k0 -> pend_at K k0 r z br -> (K - Ss <= eob -> r <= 15) -> (forall i, K <= i <= Se -> m i = 1 -> i - Ss <= eob) ->
  st_ok s -> before k0 blk ->
  exists its r' z' br' s' c k1 blk1, penc_ac_refine Al a eob (K - Ss) r z br s (cfs n K) = Ret (its, r', z', br', s') /\ shape s c its s' /\ steps k0 blk c k1 blk1 /\ k1 <= Se + 1 /\ pend_at (Se + 1) k1 r' z' br'.
Proof.
  induction n as [|n IH]; intros K k0 z r br s blk EK HK0 PA HR HE ST HB.
  - cbn [P_PHuff.cfs penc_ac_refine]. exists [], r, z, br, s, [], k0, blk. split; [reflexivity|]. split; [apply shape_nil|]. split; [apply steps_refl; apply HB|]. assert (K = Se + 1) as <- by lia. split; [|exact PA]. destruct PA as (n1 & P1 & P2 & _). lia.
  - destruct PA as (n1 & P1 & P2 & P3 & P4 & P5 & P6). cbn [P_PHuff.cfs penc_ac_refine]. pose proof (SR K ltac:(lia)) as R. rewrite absvalue_spec by lia. cbn [fst]. pose proof (mag_nonneg Al (cf K) ltac:(lia)) as MN.
    replace (K - Ss + 1) with (K + 1 - Ss) by lia. destruct (Z.eqb_spec (m K) 0) as [M|M].
    + apply IH; [lia|exact HK0| |intros G; apply HR; lia|intros i Hi; apply HE; lia|exact ST|exact HB]. exists n1. split; [lia|]. split; [lia|]. split; [exact P3|]. split; [exact P4|]. split; intros i Hi; (destruct (Z.eq_dec i K) as [->|N]; [lia|]); [apply P5|apply P6]; lia.
    + (* the run-length symbols before this coefficient *)
      assert (RZ : exists i1 R1 br1 s1 c1 k1 blk1, rzrls 8 a (r + z) (K - Ss <=? eob) br s = Ret (i1, R1, br1, s1) /\ shape s c1 i1 s1 /\ steps k0 blk c1 k1 blk1 /\ k1 <= K /\ R1 = cz (Z.to_nat (K - k1)) k1 /\ br1 = cb (Z.to_nat (K - k1)) k1 /\ (K - Ss <= eob -> R1 <= 15)).
      { destruct (Z.leb_spec (K - Ss) eob) as [G|G].
        - rewrite <- P3, <- P4. pose proof (cz_range n1 k0). destruct (rzrls_ok K ltac:(lia) 8 k0 n1 z s blk ltac:(lia) P2 ltac:(lia) ltac:(rewrite P3; apply HR; exact G) P5 P6 ST HB ltac:(lia)) as (i1 & R1 & br1 & s1 & c1 & k1 & blk1 & F1 & F2 & F3 & F4 & F5 & F6 & F7).
          exists i1, R1, br1, s1, c1, k1, blk1. split; [exact F1|]. split; [exact F2|]. split; [exact F3|]. split; [exact F4|]. split; [exact F5|]. split; [exact F6|]. intros _. exact F7.
        - assert (E0 : rzrls 8 a (r + z) false br s = Ret ([], r + z, br, s)) by (cbn [rzrls]; rewrite andb_false_r; reflexivity). rewrite E0. exists [], (r + z), br, s, [], k0, blk. split; [reflexivity|]. split; [apply shape_nil|]. split; [apply steps_refl; apply HB|].
          destruct (cz_zeros (Z.to_nat z) (k0 + Z.of_nat n1)) as [Q1 Q2]; [intros i Hi; apply P5; lia|]. split; [lia|]. replace (Z.to_nat (K - k0)) with (n1 + Z.to_nat z)%nat by lia. rewrite cz_app, cb_app, Q1, Q2, app_nil_r. split; [lia|]. split; [auto|]. intros X. lia. }
      destruct RZ as (i1 & R1 & br1 & s1 & c1 & k1 & blk1 & F1 & F2 & F3 & F4 & F5 & F6 & F7). rewrite F1. cbn [bind]. pose proof (shape_ok _ _ _ _ F2 ST) as ST1.
      assert (K01 : k0 <= k1) by apply F3. assert (HB1 : before k1 blk1) by (destruct F3 as (_ & U & _); apply (upto_before k0 k1 blk blk1); [lia|exact U|exact HB|exact K01]).
      assert (NO1 : forall i, k1 <= i < K -> m i <> 1) by (intros i Hi; apply P6; lia).
      destruct (Z.ltb_spec 1 (m K)) as [M1|M1].
      * (* already nonzero: a correction bit *)
        assert (LB : Z.of_nat (length (p_be s1) + length br1) < 1000).
        { destruct ST1 as (_ & _ & T3). pose proof (cb_len (Z.to_nat (K - k1)) k1) as CL. rewrite <- F6 in CL. lia. }
        destruct (Z.leb_spec MAX_CORR_BITS (Z.of_nat (length (p_be s1) + length br1))) as [X|_]; [unfold MAX_CORR_BITS in X; lia|].
        destruct (IH (K + 1) k1 0 R1 (br1 ++ [Z.land (m K) 1]) s1 blk1 ltac:(lia) ltac:(lia)) as (its & r' & z' & br' & s' & c & k2 & blk2 & G1 & G2 & G3 & G4 & G5).
        { exists (Z.to_nat (K - k1) + 1)%nat. split; [lia|]. split; [lia|]. rewrite cz_app, cb_app. replace (k1 + Z.of_nat (Z.to_nat (K - k1))) with K by lia. cbn [cz cb]. destruct (Z.eqb_spec (m K) 0); [lia|]. rewrite <- F5, <- F6. split; [lia|]. split; [reflexivity|]. split; [intros i Hi; lia|]. intros i Hi. destruct (Z.eq_dec i K) as [->|]; [lia|apply NO1; lia]. }
        { intros X. apply F7. lia. }
        { intros i Hi. apply HE. lia. }
        { exact ST1. }
        { exact HB1. }
        rewrite G1. cbn [bind]. exists (i1 ++ its), r', z', br', s', (c1 ++ c), k2, blk2. split; [reflexivity|]. split; [eapply shape_trans; [exact F2|exact G2]|]. split; [eapply steps_trans; [exact F3|exact G3]|]. split; [exact G4|exact G5].
      * (* newly nonzero *)
        assert (ME : m K = 1) by lia. specialize (F7 (HE K ltac:(lia) ME)). rewrite emit_eobrun_spec by exact ST1. cbn [bind].
        destruct pow_facts as [PW PA2]. pose proof (ac_at_mag Al (cf K) ltac:(lia)) as AM. rewrite ME in AM. pose proof (no_range K ltac:(lia)) as NR.
        assert (EV : s16 (if (if cf K <? 0 then 0 else 1) =? 0 then Z.shiftl (-1) Al else Z.shiftl 1 Al) = ac_at Al (cf K)).
        { rewrite !Z.shiftl_mul_pow2 by lia. rewrite AM. destruct (sgn_cases K ltac:(lia)) as [[S1 ->]|[S1 ->]]; (destruct (Z.ltb_spec (cf K) 0); [|]); try lia; cbn [Z.eqb]; rewrite s16_id by (unfold s16r; lia); ring. }
        assert (NZS : (if (if cf K <? 0 then 0 else 1) =? 0 then Z.shiftl (-1) Al else Z.shiftl 1 Al) <> 0) by (rewrite !Z.shiftl_mul_pow2 by lia; destruct (cf K <? 0); cbn [Z.eqb]; lia).
        destruct (skip_ok (Z.to_nat (K - k1)) k1 80 blk1 ltac:(lia) ltac:(lia) HB1) as (blk2 & E1 & U1); [intros i Hi; apply NO1; lia|replace (k1 + Z.of_nat (Z.to_nat (K - k1))) with K by lia; lia|lia|].
        replace (k1 + Z.of_nat (Z.to_nat (K - k1))) with K in E1, U1 by lia. rewrite <- F5, <- F6 in E1.
        set (blk3 := upd blk2 (Z.to_nat (no K)) (ac_at Al (cf K))).
        assert (U3 : upto k1 (K + 1) blk1 blk3) by (apply upto_trans with K blk2; [lia|exact U1|]; apply upto_one; [lia|apply U1]).
        assert (CR1 : 0 <= R1) by (rewrite F5; apply cz_range).
        set (cc := ISym a (Z.shiftl R1 4 + 1) :: IBits (if cf K <? 0 then 0 else 1) 1 :: buffered br1).
        assert (ST2 : steps k1 blk1 cc (K + 1) blk3).
        { split; [lia|]. split; [exact U3|]. split; [discriminate|]. split.
          - constructor; [split; [|reflexivity]; cbn [iok]; rewrite Z.shiftl_mul_pow2 by lia; change (2 ^ 4) with 16; lia|]. constructor; [split; [cbn; lia|exact Logic.I]|apply buffered_iat].
          - intros f Hf. destruct f as [|f]; [lia|]. exists f. split; [lia|]. intros rest. unfold cc. cbn [app pdec_ac_refine]. destruct (Z.leb_spec k1 Se); [|lia]. rewrite pans_sym. destruct (sym_split R1 1 ltac:(lia) ltac:(lia)) as [-> ->]. change (1 =? 0) with false. cbn [negb]. cbv zeta iota. change (1 =? 1) with true. cbv iota beta. rewrite pans_bits.
            replace ((if cf K <? 0 then 0 else 1) mod 2 ^ 1) with (if cf K <? 0 then 0 else 1) by (destruct (cf K <? 0); reflexivity). rewrite pans_bind, E1. destruct (Z.eqb_spec (if (if cf K <? 0 then 0 else 1) =? 0 then Z.shiftl (-1) Al else Z.shiftl 1 Al) 0) as [X|_]; [contradiction|]. rewrite no_ok by lia. cbn [bind]. rewrite EV. rewrite aset_ok by (destruct U1 as [L1 _]; lia). cbn [plift pbind]. reflexivity. }
        destruct (IH (K + 1) (K + 1) 0 0 [] (mkPst (p_dc s1) 0 []) blk3 ltac:(lia) ltac:(lia)) as (its & r' & z' & br' & s' & c & k2 & blk4 & G1 & G2 & G3 & G4 & G5).
        { exists 0%nat. split; [lia|]. split; [lia|]. split; [reflexivity|]. split; [reflexivity|]. split; intros i Hi; lia. }
        { lia. }
        { intros i Hi. apply HE. lia. }
        { apply st_ok0. }
        { apply (upto_before k1 (K + 1) blk1 blk3); [lia|exact U3|exact HB1|lia]. }
        rewrite G1. cbn [bind]. eexists. exists r', z', br', s', (c1 ++ cc ++ c), k2, blk4. split; [reflexivity|]. split; [|split; [eapply steps_trans; [exact F3|]; eapply steps_trans; [exact ST2|exact G3]|]; split; [exact G4|exact G5]].
        eapply shape_trans; [exact F2|]. replace (pending a s1 ++ ISym a (Z.shiftl R1 4 + 1) :: IBits (if cf K <? 0 then 0 else 1) 1 :: buffered br1 ++ its) with ((pending a s1 ++ cc) ++ its) by (unfold cc; rewrite <- app_assoc; reflexivity). eapply shape_trans; [apply shape_one; discriminate|exact G2].
Qed.

Lemma find_eob_ok : forall n K k e, 0 <= K -> K + Z.of_nat n <= 64 -> e <= k -> e <= find_eob Al k e (cfs n K) /\ forall i, K <= i < K + Z.of_nat n -> m i = 1 -> k + (i - K) <= find_eob Al k e (cfs n K).
Proof.
  induction n as [|n IH]; intros K k e H1 H2 HE; cbn [P_PHuff.cfs find_eob]; [split; [lia|intros i Hi; lia]|]. rewrite absvalue_spec by (try lia; apply SR; lia). cbn [fst].
  destruct (Z.eqb_spec (m K) 1) as [E|E].
  - destruct (IH (K + 1) (k + 1) k ltac:(lia) ltac:(lia) ltac:(lia)) as [A B]. split; [lia|]. intros i Hi M. destruct (Z.eq_dec i K) as [->|]; [lia|]. specialize (B i ltac:(lia) M). lia.
  - destruct (IH (K + 1) (k + 1) e ltac:(lia) ltac:(lia) ltac:(lia)) as [A B]. split; [exact A|]. intros i Hi M. destruct (Z.eq_dec i K) as [->|]; [contradiction|]. specialize (B i ltac:(lia) M). lia.
Qed.

Lemma acr_eob f k blk n rest : k <= Se -> 1 <= n <= 32767 -> pans (pdec_ac_refine (S f) a k Se Al blk) (eobi a n ++ rest) = Some ((n, k, blk), rest).
Proof.
  intros HK HN. cbn [pdec_ac_refine]. destruct (Z.leb_spec k Se); [|lia]. unfold eobi. cbn [app]. rewrite pans_sym. destruct (eob_sym n HN) as (-> & -> & N15). change (negb (0 =? 0)) with false. cbv iota zeta. destruct (Z.eqb_spec (Z.log2 n) 15); [lia|]. rewrite pans_run by exact HN. reflexivity.
Qed.

Lemma ac_refine_ok p s old : pAl p = Al -> pSs p = Ss -> pSe p = Se -> Ss <= Se -> st_ok s -> before Ss old ->
  exists r c e b new, penc_mcu_ac_refine p a s src = Ret r /\ encfact a s c e b r /\ blkfact (pdec_mcu_ac_refine a Ss Se Al) a c e b old new /\ after_from src Al Se Ss old new.
Proof.
  intros EAl ESs ESe HS ST HB. unfold penc_mcu_ac_refine. rewrite EAl, ESs, ESe. rewrite band_ok by lia. cbn [bind].
  set (n := Z.to_nat (Se - Ss + 1)). destruct (find_eob_ok n Ss 0 0 ltac:(lia) ltac:(lia) ltac:(lia)) as [FE1 FE2]. set (eob := find_eob Al 0 0 (cfs n Ss)) in *.
  destruct (acr_ok eob n Ss Ss 0 0 [] s old ltac:(lia) ltac:(lia)) as (its & r' & z' & br' & s' & c & k1 & blk1 & G1 & G2 & G3 & G4 & G5).
  { exists 0%nat. split; [lia|]. split; [lia|]. split; [reflexivity|]. split; [reflexivity|]. split; intros i Hi; lia. }
  { lia. }
  { intros i Hi M. specialize (FE2 i ltac:(lia) M). lia. }
  { exact ST. }
  { exact HB. }
  rewrite Z.sub_diag in G1. rewrite G1. cbn [bind]. destruct G5 as (n1 & P1 & P2 & P3 & P4 & P5 & P6). destruct G2 as [-> ->]. destruct G3 as (S1 & S2 & S3 & S4 & S5).
  pose proof (cz_range n1 k1) as CR. pose proof (cb_len n1 k1) as CL. rewrite P3 in CR, CL. rewrite P4 in CL.
  assert (HB1 : before k1 blk1) by (apply (upto_before Ss k1 old blk1); [lia|exact S2|exact HB|lia]).
  (* the corrections at the end *)
  destruct (corr_ok (Z.to_nat (Se + 1 - k1)) k1 64 blk1 ltac:(lia) ltac:(lia) HB1) as (new & C1 & C2); [intros i Hi; apply P6; lia|lia|].
  assert (CBE : cb (Z.to_nat (Se + 1 - k1)) k1 = br').
  { replace (Z.to_nat (Se + 1 - k1)) with (n1 + Z.to_nat z')%nat by lia. rewrite cb_app, P4. destruct (cz_zeros (Z.to_nat z') (k1 + Z.of_nat n1)) as [_ ->]; [intros i Hi; apply P5; lia|]. apply app_nil_r. }
  rewrite CBE in C1.
  assert (U : upto Ss (Se + 1) old new) by (apply upto_trans with k1 blk1; [lia|exact S2|exact C2]).
  assert (AF : after_from src Al Se Ss old new).
  { destruct U as [LU U]. split; [exact LU|]. intros i Hi. rewrite (U i Hi). destruct (Z.ltb_spec i (Se + 1)); destruct (Z.leb_spec i Se); try lia; reflexivity. }
  assert (TST : (0 <? Z.lor r' z') || (0 <? Z.of_nat (length br')) = (k1 <=? Se)).
  { destruct (Z.leb_spec k1 Se) as [L|L].
    - destruct (Z.ltb_spec 0 (Z.of_nat (length br'))); [apply orb_true_r|]. rewrite orb_false_r. apply Z.ltb_lt. assert (Z.lor r' z' <> 0) by (rewrite Z.lor_eq_0_iff; lia). pose proof (proj2 (Z.lor_nonneg r' z') ltac:(lia)). lia.
    - assert (z' = 0) as -> by lia. assert (r' = 0) as -> by lia. assert (length br' = 0%nat) as -> by lia. reflexivity. }
  rewrite TST.
  assert (BF : blkfact (pdec_mcu_ac_refine a Ss Se Al) a c (k1 <=? Se) br' old new).
  { unfold blkfact, pdec_mcu_ac_refine. destruct (S5 64%nat ltac:(lia)) as (f' & G & H). split; [intros E; destruct (S3 E) as [-> _]; apply Z.leb_le; exact HS|]. change (0 =? 0) with true. cbv iota. split; [|split].
    - intros E rest. apply Z.leb_gt in E. rewrite pans_bind, H. assert (k1 = Se + 1) by lia. destruct f' as [|f']; cbn [pdec_ac_refine]; (destruct (Z.leb_spec k1 Se); [lia|]); cbn [pans]; change (0 <? 0) with false; cbv iota; cbn [pans]; do 3 f_equal; specialize (C1 []); rewrite app_nil_r in C1; (assert (EB : br' = []) by (destruct br'; [reflexivity|cbn [length] in CL; lia])); rewrite EB in C1; cbn [buffered map pdec_corr] in C1; (destruct (Z.leb_spec k1 Se); [lia|]); cbn [pans] in C1; congruence.
    - intros E nn rest HN. apply Z.leb_le in E. rewrite pans_bind, H. destruct f' as [|f']; [lia|]. rewrite acr_eob by (try assumption; lia). destruct (Z.ltb_spec 0 nn); [|lia]. rewrite pans_bind, C1. reflexivity.
    - intros E nn rest HN. destruct (S3 E) as [-> ->]. destruct (Z.eqb_spec nn 0); [lia|]. cbn [pbind]. destruct (Z.ltb_spec 0 nn); [|lia]. rewrite pans_bind, C1. reflexivity. }
  destruct ST as (T1 & T2 & T3). destruct (Z.leb_spec k1 Se) as [L|L].
  - cbv zeta. set (s2 := mkPst _ _ _).
    assert (N2 : s2 = enc_next s c true br') by (unfold s2, enc_next; destruct (nilb c); reflexivity).
    assert (R2 : 1 <= p_run s2 <= 32767 /\ (Z.of_nat (length (p_be s2)) <= 937 + 64)) by (unfold s2; destruct (nilb c); cbn [p_run p_be]; rewrite ?app_length; cbn [length app]; lia).
    destruct (Z.eqb_spec (p_run s2) 32767) as [E|E]; cbn [orb].
    + rewrite emit_eobrun_gen by lia. cbn [bind]. eexists. exists c, true, br', new. split; [reflexivity|]. split; [|split; [exact BF|exact AF]]. split; [exact S4|]. right. rewrite <- N2. split; [|lia]. f_equal. unfold s2. destruct (nilb c); reflexivity.
    + destruct (Z.ltb_spec (MAX_CORR_BITS - 64 + 1) (Z.of_nat (length (p_be s2)))) as [B|B]; unfold MAX_CORR_BITS in B.
      * rewrite emit_eobrun_gen by lia. cbn [bind]. eexists. exists c, true, br', new. split; [reflexivity|]. split; [|split; [exact BF|exact AF]]. split; [exact S4|]. right. rewrite <- N2. split; [|lia]. f_equal. unfold s2. destruct (nilb c); reflexivity.
      * cbn [bind]. eexists. exists c, true, br', new. split; [reflexivity|]. split; [|split; [exact BF|exact AF]]. split; [exact S4|]. left. rewrite <- N2. split; [rewrite app_nil_r; reflexivity|]. split; [lia|]. split; [lia|lia].
  - eexists. exists c, false, br', new. split; [reflexivity|]. split; [|split; [exact BF|exact AF]]. split; [exact S4|]. left. destruct c as [|x c]; [exfalso; destruct (S3 eq_refl); lia|]. unfold enc_next. cbn [nilb]. split; [reflexivity|apply st_ok0].
Qed.
End Refine.
