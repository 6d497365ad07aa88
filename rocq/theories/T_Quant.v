(* T_Quant.v -- C20, C21, C36: quality scaling, reciprocal quantization, rounding helpers. *)
From Verif Require Import Base M_Quant.

(* ------------------------------------------------------------------ *)
(* C36.  Ceiling of a quotient and least multiple, stated without division. *)

Definition is_ceil (a b q : Z) : Prop := b * (q - 1) < a <= b * q.
Definition is_least_multiple_ge (a b m : Z) : Prop :=
  a <= m /\ (exists k, m = k * b) /\ forall k, a <= k * b -> m <= k * b.

Lemma clong_ok x : - 2 ^ 63 <= x < 2 ^ 63 -> clong x = Ret x.
Proof. intros. unfold clong. destruct (Z.leb_spec (- 2 ^ 63) x); destruct (Z.ltb_spec x (2 ^ 63)); cbn; try lia; auto. Qed.

Theorem C36_jdiv_round_up_is_ceiling : forall a b, 0 <= a -> 0 < b -> a + b < 2 ^ 63 ->
  exists q, jdiv_round_up a b = Ret q /\ is_ceil a b q.
Proof.
  intros a b Ha Hb Hov. unfold jdiv_round_up.
  rewrite (clong_ok (a + b)) by lia. cbn [bind]. rewrite (clong_ok (a + b - 1)) by lia. cbn [bind].
  destruct (Z.eqb_spec b 0); [lia|].
  pose proof (Z.quot_rem' (a + b - 1) b). pose proof (Z.rem_bound_pos (a + b - 1) b ltac:(lia) Hb).
  exists (Z.quot (a + b - 1) b). split; [|unfold is_ceil; nia].
  apply clong_ok. pose proof (Z.quot_pos (a + b - 1) b ltac:(lia) Hb). nia.
Qed.

Theorem C36_jround_up_is_least_multiple : forall a b, 0 <= a -> 0 < b -> a + b < 2 ^ 63 ->
  exists m, jround_up a b = Ret m /\ is_least_multiple_ge a b m.
Proof.
  intros a b Ha Hb Hov. unfold jround_up.
  rewrite (clong_ok (b - 1)) by lia. cbn [bind]. rewrite (clong_ok (a + (b - 1))) by lia. cbn [bind].
  destruct (Z.eqb_spec b 0); [lia|].
  pose proof (Z.quot_rem' (a + (b - 1)) b). pose proof (Z.rem_bound_pos (a + (b - 1)) b ltac:(lia) Hb).
  pose proof (Z.quot_pos (a + (b - 1)) b ltac:(lia) Hb).
  exists (a + (b - 1) - Z.rem (a + (b - 1)) b). split; [apply clong_ok; lia|].
  unfold is_least_multiple_ge. split; [lia|]. split.
  - exists (Z.quot (a + (b - 1)) b). nia.
  - intros k Hk. assert (Z.quot (a + (b - 1)) b <= k) by nia. nia.
Qed.

Example C36_nonvacuous : jdiv_round_up 17 8 = Ret 3 /\ jround_up 17 8 = Ret 24 /\ jdiv_round_up 16 8 = Ret 2.
Proof. vm_compute. auto. Qed.

(* ------------------------------------------------------------------ *)
(* C20 *)

Fixpoint seqz (lo : Z) (n : nat) : list Z := match n with O => [] | S k => lo :: seqz (lo + 1) k end.
Lemma in_seqz x n : forall lo, lo <= x < lo + Z.of_nat n -> In x (seqz lo n).
Proof. induction n as [|n IH]; intros lo H; [lia|]. cbn [seqz]. destruct (Z.eq_dec lo x); [left; auto|].
  right. apply IH. lia. Qed.
Lemma all_seqz (p : Z -> bool) lo n : forallb p (seqz lo n) = true ->
  forall x, lo <= x < lo + Z.of_nat n -> p x = true.
Proof. intros H x Hx. rewrite forallb_forall in H. apply H, in_seqz, Hx. Qed.

(* the scale the documentation promises (integer part of 5000/q or 200-2q), quality clamped to 1..100 *)
Definition clamp_quality (q : Z) : Z := Z.max 1 (Z.min 100 q).
Definition doc_scale (q : Z) : Z := if q <? 50 then 5000 / q else 200 - 2 * q.

Lemma scaling_clamp q : jpeg_quality_scaling q = jpeg_quality_scaling (clamp_quality q).
Proof.
  unfold jpeg_quality_scaling, clamp_quality.
  destruct (Z.leb_spec q 0).
  - replace (Z.max 1 (Z.min 100 q)) with 1 by lia. reflexivity.
  - destruct (Z.leb_spec (Z.max 1 (Z.min 100 q)) 0); [lia|].
    rewrite !Z.gtb_ltb. destruct (Z.ltb_spec 100 q).
    + replace (Z.max 1 (Z.min 100 q)) with 100 by lia. reflexivity.
    + replace (Z.max 1 (Z.min 100 q)) with q by lia.
      destruct (Z.ltb_spec 100 q); [lia|reflexivity].
Qed.

Lemma scaling_table : forall q, 1 <= q <= 100 -> jpeg_quality_scaling q = doc_scale q.
Proof.
  intros q Hq. apply Z.eqb_eq.
  apply (all_seqz (fun q => jpeg_quality_scaling q =? doc_scale q) 1 100); [vm_compute; reflexivity|lia].
Qed.

Theorem C20_scaling_value : forall q, jpeg_quality_scaling q = doc_scale (clamp_quality q).
Proof. intros q. rewrite scaling_clamp. apply scaling_table. unfold clamp_quality; lia. Qed.

Lemma doc_scale_antitone a b : 1 <= a <= 100 -> 1 <= b <= 100 -> a <= b -> doc_scale b <= doc_scale a.
Proof.
  intros Ha Hb Hab. unfold doc_scale.
  destruct (Z.ltb_spec a 50); destruct (Z.ltb_spec b 50); try lia.
  - apply Z.div_le_compat_l; lia.
  - assert (100 <= 5000 / a) by (apply Z.div_le_lower_bound; lia). lia.
Qed.

Theorem C20_scaling_antitone : forall q1 q2, q1 <= q2 ->
  0 <= jpeg_quality_scaling q2 <= jpeg_quality_scaling q1 /\ jpeg_quality_scaling q1 <= 5000.
Proof.
  intros q1 q2 H. rewrite !C20_scaling_value.
  assert (1 <= clamp_quality q1 <= 100 /\ 1 <= clamp_quality q2 <= 100 /\ clamp_quality q1 <= clamp_quality q2)
    as (A & B & C) by (unfold clamp_quality; lia).
  pose proof (doc_scale_antitone _ _ A B C).
  pose proof (doc_scale_antitone 1 _ ltac:(lia) A ltac:(lia)).
  pose proof (doc_scale_antitone _ 100 B ltac:(lia) ltac:(lia)).
  change (doc_scale 1) with 5000 in *. change (doc_scale 100) with 0 in *. lia.
Qed.

Theorem C20_entry_range : forall basic scale fb,
  1 <= quant_entry basic scale fb <= 32767 /\ (fb = true -> quant_entry basic scale fb <= 255).
Proof.
  intros b s fb. unfold quant_entry. set (t := Z.quot _ _). clearbody t.
  destruct (Z.leb_spec t 0); rewrite !Z.gtb_ltb;
    repeat match goal with |- context [?a <? ?b] => destruct (Z.ltb_spec a b) end;
    destruct fb; cbn [andb]; rewrite u16_id; lia.
Qed.

(* the table entry is the percentage rounded to nearest, clamped into the legal range *)
Theorem C20_entry_value : forall basic scale fb, 0 <= basic -> 0 <= scale ->
  quant_entry basic scale fb = Z.max 1 (Z.min (if fb then 255 else 32767) ((basic * scale + 50) / 100)).
Proof.
  intros b s fb Hb Hs. unfold quant_entry. rewrite Z.quot_div_nonneg by nia. set (t := _ / 100). clearbody t.
  destruct (Z.leb_spec t 0); rewrite !Z.gtb_ltb;
    repeat match goal with |- context [?a <? ?b] => destruct (Z.ltb_spec a b) end;
    destruct fb; cbn [andb]; rewrite u16_id; lia.
Qed.

Theorem C20_entry_antitone : forall basic q1 q2 fb, 0 <= basic -> q1 <= q2 ->
  quant_entry basic (jpeg_quality_scaling q2) fb <= quant_entry basic (jpeg_quality_scaling q1) fb.
Proof.
  intros b q1 q2 fb Hb H. destruct (C20_scaling_antitone q1 q2 H) as ((A & B) & _).
  rewrite !C20_entry_value by lia.
  assert ((b * jpeg_quality_scaling q2 + 50) / 100 <= (b * jpeg_quality_scaling q1 + 50) / 100)
    by (apply Z.div_le_mono; nia).
  destruct fb; lia.
Qed.

(* whole API call: with basic tables of 64 entries, jpeg_set_quality before jpeg_start_compress fills
   tables 0 and 1, leaves 2 and 3 alone, and a higher quality never gives a larger entry. *)
Theorem C20_set_quality : forall lum chrom tbls q fb, length lum = 64%nat -> length chrom = 64%nat ->
  length tbls = 4%nat ->
  exists t, jpeg_set_quality true lum chrom tbls q fb = Ret t /\ length t = 4%nat /\
    nth 2 t [] = nth 2 tbls [] /\ nth 3 t [] = nth 3 tbls [] /\
    (forall k, (k < 64)%nat -> 
       nth k (nth 0 t []) 0 = quant_entry (nth k lum 0) (jpeg_quality_scaling q) fb /\
       nth k (nth 1 t []) 0 = quant_entry (nth k chrom 0) (jpeg_quality_scaling q) fb).
Proof.
  intros lum chrom tbls q fb Hl Hc Ht.
  unfold jpeg_set_quality, jpeg_set_linear_quality, jpeg_add_quant_table. cbn [negb orb Z.ltb Z.geb Z.compare].
  rewrite aset_ok by lia. cbn [bind]. rewrite aset_ok by (rewrite length_upd; lia).
  eexists. split; [reflexivity|]. rewrite !firstn_all2 by lia.
  change (Z.to_nat 0) with 0%nat. change (Z.to_nat 1) with 1%nat.
  rewrite !length_upd. split; [auto|]. rewrite !nth_upd_neq by lia. split; [auto|]. split; [auto|].
  intros k Hk. rewrite (nth_upd_eq (upd _ _ _)) by (rewrite length_upd; lia). rewrite nth_upd_eq by lia.
  split.
  - rewrite (nth_indep _ 0 (quant_entry 0 (jpeg_quality_scaling q) fb)) by (rewrite map_length; lia).
    now rewrite (map_nth (fun b => quant_entry b (jpeg_quality_scaling q) fb)).
  - rewrite (nth_indep _ 0 (quant_entry 0 (jpeg_quality_scaling q) fb)) by (rewrite map_length; lia).
    now rewrite (map_nth (fun b => quant_entry b (jpeg_quality_scaling q) fb)).
Qed.

Example C20_nonvacuous : jpeg_quality_scaling 75 = 50 /\ jpeg_quality_scaling 0 = 5000
  /\ jpeg_quality_scaling 1000 = 0 /\ jpeg_quality_scaling 7 = 714 /\ quant_entry 16 50 true = 8
  /\ quant_entry 419 5000 false = 20950 /\ quant_entry 419 5000 true = 255.
Proof. vm_compute. repeat split; reflexivity. Qed.

(* ------------------------------------------------------------------ *)
(* C21.  Rounding to nearest, ties away from zero: the unique q with |2x - 2qd| <= d, choosing the
   larger |q| on a tie. *)

Definition is_rounded (x d q : Z) : Prop :=
  Z.abs (2 * x - 2 * q * d) <= d /\
  (Z.abs (2 * x - 2 * q * d) = d -> Z.abs x < Z.abs (q * d)) /\ (q = 0 \/ Z.sgn q = Z.sgn x).

Lemma is_rounded_unique x d q q' : 0 < d -> is_rounded x d q -> is_rounded x d q' -> q = q'.
Proof. unfold is_rounded. intros. nia. Qed.

Lemma is_rounded_opp x d q : is_rounded x d q -> is_rounded (- x) d (- q).
Proof. unfold is_rounded. intros (A & B & C). 
  replace (2 * - x - 2 * - q * d) with (- (2 * x - 2 * q * d)) by ring. rewrite Z.abs_opp.
  replace (- q * d) with (- (q * d)) by ring. rewrite !Z.abs_opp, !Z.sgn_opp. repeat split; auto. lia. Qed.

Lemma rounded_nonneg x d : 0 <= x -> 0 < d -> is_rounded x d ((x + d / 2) / d).
Proof.
  intros Hx Hd.
  pose proof (Z.div_mod (x + d / 2) d ltac:(lia)). pose proof (Z.mod_pos_bound (x + d / 2) d Hd).
  pose proof (Z.div_mod d 2 ltac:(lia)). pose proof (Z.mod_pos_bound d 2 ltac:(lia)).
  set (q := (x + d / 2) / d) in *. set (m := (x + d / 2) mod d) in *. set (h := d / 2) in *.
  assert (0 <= q) by (apply Z.div_pos; lia). clearbody q m h. unfold is_rounded.
  assert (E : d * q = x + h - m) by lia.
  replace (2 * x - 2 * q * d) with (2 * (m - h)) by nia. split; [lia|]. split.
  - intros. replace (q * d) with (d * q) by ring. rewrite E. lia.
  - destruct (Z.eq_dec q 0); [auto|right]. destruct (Z.eq_dec x 0); [|lia]. subst x. exfalso. nia.
Qed.

Lemma flss_log2 d : 1 <= d < 65536 -> flss d = Z.log2 d + 1.
Proof.
  intros H. apply Z.eqb_eq. apply (all_seqz (fun d => flss d =? Z.log2 d + 1) 1 (Z.to_nat 65535));
    [vm_cast_no_check (eq_refl true)|rewrite Z2Nat.id by lia; lia].
Qed.

Lemma factor_pow2 n : forall a b, 0 < a -> 0 < b -> a * b = 2 ^ Z.of_nat n -> exists k, (k <= n)%nat /\ a = 2 ^ Z.of_nat k.
Proof.
  induction n as [|n IH]; intros a b Ha Hb E.
  - exists 0%nat. split; [lia|]. cbn in *. nia.
  - rewrite Nat2Z.inj_succ, Z.pow_succ_r in E by lia.
    destruct (Z.Even_or_Odd b) as [(c & Hc)|(c & Hc)].
    + destruct (IH a c ltac:(lia) ltac:(lia) ltac:(nia)) as (k & ? & ?). exists k. split; [lia|auto].
    + destruct (Z.Even_or_Odd a) as [(e & He)|(e & He)].
      * destruct (IH e b ltac:(lia) ltac:(lia) ltac:(nia)) as (k & ? & E'). exists (S k). split; [lia|].
        rewrite Nat2Z.inj_succ, Z.pow_succ_r by lia. lia.
      * exfalso. nia.
Qed.

Lemma uw_id W x : 0 <= x < 2 ^ W -> uw W x = x.
Proof. intros. unfold uw. now rewrite Z.mod_small. Qed.
Lemma uw_sw W x : 1 <= W -> uw W (sw W x) = uw W x.
Proof.
  intros HW. unfold uw, sw. assert (2 ^ W <> 0) by (apply Z.pow_nonzero; lia).
  rewrite Zminus_mod_idemp_l. f_equal. lia.
Qed.
Lemma sw_id W x : 1 <= W -> - 2 ^ (W - 1) <= x < 2 ^ (W - 1) -> sw W x = x.
Proof. intros HW H. unfold sw.
  assert (2 ^ W = 2 * 2 ^ (W - 1)) by (rewrite <- Z.pow_succ_r by lia; f_equal; lia).
  rewrite Z.mod_small; lia. Qed.

Section Recip.
Variable W : Z.
Hypothesis HW : W = 16 \/ W = 32.

(* multiply-shift by the reciprocal is division *)
Lemma recip_div d : 2 <= d < 65536 ->
  exists r c sh, compute_reciprocal W d = Ret (r, c, sh) /\
    forall x, 0 <= x < 2 ^ (W - 1) ->
      Z.shiftr (uw (2 * W) (uw (2 * W) (x + uw W c) * uw W r)) (sh + W) = (x + d / 2) / d.
Proof.
  intros Hd. unfold compute_reciprocal. destruct (Z.eqb_spec d 1); [lia|]. destruct (Z.eqb_spec d 0); [lia|].
  rewrite flss_log2 by lia. replace (Z.log2 d + 1 - 1) with (Z.log2 d) by lia.
  destruct (Z.log2_spec d ltac:(lia)) as (L1 & L2). set (b := Z.log2 d) in *.
  assert (Hb0 : 1 <= b) by (apply (Z.log2_le_mono 2 d); lia).
  assert (Hb : b < 16) by (apply Z.log2_lt_pow2; lia).
  clearbody b. rewrite Z.pow_succ_r in L2 by lia.
  set (B := 2 ^ b) in *. 
  assert (HB : 2 <= B <= 2 ^ 15). { split; [apply (Z.pow_le_mono_r 2 1 b); lia|apply Z.pow_le_mono_r; lia]. }
  assert (EP : Z.shiftl 1 (W + b) = 2 ^ W * B).
  { rewrite Z.shiftl_mul_pow2, Z.mul_1_l by lia. apply Z.pow_add_r; lia. }
  assert (EB2 : 2 ^ (W + b) = 2 ^ W * B) by (apply Z.pow_add_r; lia).
  assert (EWh : 2 ^ W = 2 * 2 ^ (W - 1)) by (rewrite <- Z.pow_succ_r by lia; f_equal; lia).
  set (H := 2 ^ (W - 1)) in *. set (M := 2 ^ W) in *.
  assert (HH : 2 ^ 15 <= H) by (unfold H; apply Z.pow_le_mono_r; lia).
  assert (EWW : 2 ^ (2 * W) = M * M) by (unfold M; rewrite <- Z.pow_add_r by lia; f_equal; lia).
  assert (HMB : 0 < M * B) by (apply Z.mul_pos_pos; lia).
  assert (HMM : forall y, 0 <= y < M * B -> 0 <= y < M * M).
  { intros y [Hy1 Hy2]. split; [auto|]. apply Z.lt_trans with (1 := Hy2). apply Z.mul_lt_mono_pos_l; lia. }
  assert (HM2 : forall y z, 0 <= y < M -> 0 <= z < M -> 0 <= y * z < M * M).
  { intros y z Hy Hz. split; [apply Z.mul_nonneg_nonneg; lia|apply Z.mul_lt_mono_nonneg; lia]. }
  assert (HM1 : forall y, 0 <= y < 2 * M -> 0 <= y < M * M).
  { intros y [Hy1 Hy2]. split; [auto|]. apply Z.lt_le_trans with (1 := Hy2). apply Z.mul_le_mono_nonneg_r; lia. }
  rewrite EP. rewrite uw_id by (rewrite EWW; split; [lia|apply Z.mul_lt_mono_pos_l; lia]).
  pose proof (Z.div_mod (M * B) d ltac:(lia)) as EQ. pose proof (Z.mod_pos_bound (M * B) d ltac:(lia)) as HF.
  set (fq := M * B / d) in *. set (fr := (M * B) mod d) in *. 
  pose proof (Z.div_mod d 2 ltac:(lia)) as ED. pose proof (Z.mod_pos_bound d 2 ltac:(lia)).
  set (h := d / 2) in *.
  assert (Hfq0 : 0 <= fq) by (apply Z.div_pos; lia).
  rewrite (uw_id W h) by (change (2 ^ W) with M; lia).
  assert (Hsh : forall y, 0 <= y <= 15 -> sw W y = y).
  { intros y Hy. apply sw_id; [lia|]. fold H. lia. }
  destruct (Z.eqb_spec fr 0) as [F0|F0].
  - (* power of two *)
    assert (EW : 2 ^ Z.of_nat (Z.to_nat (W + b)) = M * B) by (rewrite Z2Nat.id by lia; auto).
    assert (0 < fq) by (destruct (Z.eq_dec fq 0) as [E0|E0]; [rewrite E0, F0 in EQ; lia|lia]).
    destruct (factor_pow2 (Z.to_nat (W + b)) d fq ltac:(lia) ltac:(lia) ltac:(lia)) as (k & Hk & Edk).
    assert (Ekb : Z.of_nat k = b).
    { assert (2 ^ b < 2 ^ Z.of_nat (S k)). { rewrite Nat2Z.inj_succ, Z.pow_succ_r by lia. unfold B in *. lia. }
      assert (2 ^ Z.of_nat k < 2 ^ Z.succ b). { rewrite Z.pow_succ_r by lia. unfold B in *. lia. }
      apply Z.pow_lt_mono_r_iff in H2; [|lia|lia]. apply Z.pow_lt_mono_r_iff in H3; [|lia|lia]. lia. }
    rewrite Ekb in Edk. fold B in Edk.
    assert (fq = M) by (rewrite F0, Edk, Z.add_0_r, (Z.mul_comm M B) in EQ; apply Z.mul_reg_l in EQ; lia).
    do 3 eexists. split; [reflexivity|]. intros x Hx.
    rewrite !uw_sw by lia. rewrite Hsh by lia.
    rewrite (uw_id W h) by (change (2 ^ W) with M; lia).
    replace (Z.shiftr fq 1) with H by (rewrite Z.shiftr_div_pow2 by lia; change (2 ^ 1) with 2; rewrite H2; apply (Z.div_unique M 2 H 0); lia).
    rewrite (uw_id W H) by (change (2 ^ W) with M; lia).
    rewrite (uw_id (2 * W) (x + h)) by (rewrite EWW; apply HM1; lia).
    rewrite (uw_id (2 * W)) by (rewrite EWW; apply HM2; lia).
    rewrite Z.shiftr_div_pow2 by lia. replace (W + b - 1 - W + W) with ((W - 1) + b) by lia.
    rewrite Z.pow_add_r by lia. fold H B. rewrite <- Edk. rewrite Z.mul_comm.
    rewrite Z.div_mul_cancel_l by lia. reflexivity.
  - assert (B < d). { destruct (Z.eq_dec B d); [|lia]. exfalso. apply F0. unfold fr. rewrite <- e. apply Z.mod_mul. lia. }
    assert (HqM : fq < M).
    { unfold fq. apply Z.div_lt_upper_bound; [lia|]. rewrite (Z.mul_comm d M). apply Z.mul_lt_mono_pos_l; lia. }
    destruct (Z.leb_spec fr h).
    + do 3 eexists. split; [reflexivity|]. intros x Hx.
      rewrite !uw_sw by lia. rewrite Hsh by lia.
      rewrite (uw_id W (h + 1)) by (change (2 ^ W) with M; lia).
      rewrite (uw_id W (h + 1)) by (change (2 ^ W) with M; lia).
      rewrite (uw_id W fq) by (change (2 ^ W) with M; lia).
      rewrite (uw_id (2 * W) (x + (h + 1))) by (rewrite EWW; apply HM1; lia).
      rewrite (uw_id (2 * W)) by (rewrite EWW; apply HM2; lia).
      rewrite Z.shiftr_div_pow2 by lia. replace (W + b - W + W) with (W + b) by lia. rewrite EB2.
      pose proof (Z.div_mod (x + h) d ltac:(lia)) as En. pose proof (Z.mod_pos_bound (x + h) d ltac:(lia)) as Hs.
      set (q := (x + h) / d) in *. set (s := (x + h) mod d) in *.
      symmetry. apply Z.div_unique_pos with (r := (x + (h + 1)) * fq - M * B * q); [|ring].
      assert (Nfr : (x + (h + 1)) * fr <= M * B) by (apply Z.mul_le_mono_nonneg; lia).
      assert (Nfr0 : 0 < (x + (h + 1)) * fr) by (apply Z.mul_pos_pos; lia).
      assert (E1 : d * ((x + (h + 1)) * fq - M * B * q) = (s + 1) * (M * B) - (x + (h + 1)) * fr).
      { replace (x + (h + 1)) with (d * q + s + 1) by lia. rewrite EQ. ring. }
      assert (0 <= d * ((x + (h + 1)) * fq - M * B * q) < d * (M * B)) as (P1 & P2).
      { assert ((s + 1) * (M * B) <= d * (M * B)) by (apply Z.mul_le_mono_nonneg_r; lia).
        assert (1 * (M * B) <= (s + 1) * (M * B)) by (apply Z.mul_le_mono_nonneg_r; lia). lia. }
      split; [apply (Z.mul_le_mono_pos_l _ _ d); lia|apply (Z.mul_lt_mono_pos_l d); lia].
    + assert (HfqM1 : fq + 1 < M) by nia.
      do 3 eexists. split; [reflexivity|]. intros x Hx.
      rewrite !uw_sw by lia. rewrite Hsh by lia.
      rewrite (uw_id W h) by (change (2 ^ W) with M; lia).
      rewrite (uw_id (2 * W) (fq + 1)) by (rewrite EWW; apply HM1; lia).
      rewrite (uw_id W (fq + 1)) by (change (2 ^ W) with M; lia).
      rewrite (uw_id (2 * W) (x + h)) by (rewrite EWW; apply HM1; lia).
      rewrite (uw_id (2 * W)) by (rewrite EWW; apply HM2; lia).
      rewrite Z.shiftr_div_pow2 by lia. replace (W + b - W + W) with (W + b) by lia. rewrite EB2.
      pose proof (Z.div_mod (x + h) d ltac:(lia)) as En. pose proof (Z.mod_pos_bound (x + h) d ltac:(lia)) as Hs.
      set (q := (x + h) / d) in *. set (s := (x + h) mod d) in *.
      symmetry. apply Z.div_unique_pos with (r := (x + h) * (fq + 1) - M * B * q); [|ring].
      assert (Nfr : (x + h) * (d - fr) < M * B).
      { assert ((x + h) * (d - fr) <= (M - 1) * B) by (apply Z.mul_le_mono_nonneg; lia). lia. }
      assert (Nfr0 : 0 <= (x + h) * (d - fr)) by (apply Z.mul_nonneg_nonneg; lia).
      assert (E1 : d * ((x + h) * (fq + 1) - M * B * q) = s * (M * B) + (x + h) * (d - fr)).
      { replace (x + h) with (d * q + s) by lia. rewrite EQ. ring. }
      assert (0 <= d * ((x + h) * (fq + 1) - M * B * q) < d * (M * B)) as (P1 & P2).
      { assert (s * (M * B) <= (d - 1) * (M * B)) by (apply Z.mul_le_mono_nonneg_r; lia).
        assert (0 <= s * (M * B)) by (apply Z.mul_nonneg_nonneg; lia). lia. }
      split; [apply (Z.mul_le_mono_pos_l _ _ d); lia|apply (Z.mul_lt_mono_pos_l d); lia].
Qed.

End Recip.

(* C21, 8-bit samples, DCTELEM of 16 bits (SIMD build) or 32 bits: for every divisor representable in
   the UINT16 parameter and every DCT output whose rounded quotient fits a coefficient. *)
Theorem C21_reciprocal_is_rounded_division : forall W d, W = 16 \/ W = 32 -> 1 <= d < 65536 ->
  exists tbl, compute_reciprocal W d = Ret tbl /\
    forall x, Z.abs x < 2 ^ (W - 1) -> (Z.abs x + d / 2) / d < 32768 ->
      is_rounded x d (quantize1 W tbl x).
Proof.
  intros W d HW Hd.
  assert (K : exists r c sh, compute_reciprocal W d = Ret (r, c, sh) /\
    forall x, 0 <= x < 2 ^ (W - 1) ->
      Z.shiftr (uw (2 * W) (uw (2 * W) (x + uw W c) * uw W r)) (sh + W) = (x + d / 2) / d).
  { destruct (Z.eq_dec d 1) as [->|]; [|apply recip_div; auto; lia].
    exists 1, 0, (- W). split; [reflexivity|]. intros x Hx.
    assert (2 ^ (W - 1) < 2 ^ W) by (apply Z.pow_lt_mono_r; lia).
    assert (2 ^ W < 2 ^ (2 * W)) by (apply Z.pow_lt_mono_r; lia).
    assert (1 < 2 ^ W) by (apply (Z.pow_lt_mono_r 2 0 W); lia).
    rewrite (uw_id W 0), (uw_id W 1) by lia. rewrite (uw_id (2 * W) (x + 0)) by lia.
    rewrite uw_id by lia. replace (- W + W) with 0 by lia. rewrite Z.shiftr_0_r.
    change (1 / 2) with 0. rewrite Z.div_1_r. lia. }
  destruct K as (r & c & sh & E & K). exists (r, c, sh). split; [auto|].
  intros x Hx Hq. unfold quantize1. cbn zeta.
  assert (H15 : 2 ^ 15 <= 2 ^ (W - 1)) by (apply Z.pow_le_mono_r; lia).
  assert (Hf : forall t, 0 <= t -> t = Z.abs x ->
     sw W (Z.shiftr (uw (2 * W) (uw (2 * W) (t + uw W c) * uw W r)) (sh + W)) = (t + d / 2) / d).
  { intros t Ht ->. rewrite K by lia. apply sw_id; [lia|].
    assert (0 <= (Z.abs x + d / 2) / d) by (apply Z.div_pos; [pose proof (Z.div_pos d 2); lia|lia]). lia. }
  assert (Hq0 : 0 <= (Z.abs x + d / 2) / d) by (apply Z.div_pos; [pose proof (Z.div_pos d 2); lia|lia]).
  assert (Hs : forall y, -32768 <= y < 32768 -> s16 y = y).
  { intros y Hy. unfold s16. rewrite Z.mod_small; lia. }
  destruct (Z.ltb_spec x 0).
  - rewrite (sw_id W (- x)) by lia. rewrite Hf by lia.
    replace (Z.abs x) with (- x) in * by lia.
    rewrite sw_id by lia. rewrite Hs by lia.
    replace x with (- - x) at 1 by lia. apply is_rounded_opp, rounded_nonneg; lia.
  - rewrite Hf by lia. replace (Z.abs x) with x in * by lia. rewrite Hs by lia. apply rounded_nonneg; lia.
Qed.

(* the "accurate integer" DCT scales by 8: for quantization steps up to 8191 the coefficient stored is
   the DCT output divided by 8*step, rounded. *)
Theorem C21_islow_quantization : forall W quantval, W = 16 \/ W = 32 -> 1 <= quantval <= 8191 ->
  exists tbl, islow_divisor W quantval = Ret tbl /\
    forall x, Z.abs x < 2 ^ (W - 1) -> (Z.abs x + quantval * 8 / 2) / (quantval * 8) < 32768 ->
      is_rounded x (quantval * 8) (quantize1 W tbl x).
Proof.
  intros W q HW Hq. unfold islow_divisor. rewrite Z.shiftl_mul_pow2 by lia. change (2 ^ 3) with 8.
  rewrite u16_id by lia. apply C21_reciprocal_is_rounded_division; lia.
Qed.

(* all DCT outputs qualify on the 16-bit build *)
Lemma small_quotient x d : Z.abs x < 2 ^ 15 -> 1 <= d -> (Z.abs x + d / 2) / d < 32768.
Proof.
  intros Hx Hd. apply Z.div_lt_upper_bound; [lia|].
  pose proof (Z.div_mod d 2 ltac:(lia)). pose proof (Z.mod_pos_bound d 2 ltac:(lia)).
  destruct (Z.eq_dec d 1); [subst; change (1/2) with 0; lia|nia].
Qed.
Theorem C21_islow_quantization_16bit : forall quantval, 1 <= quantval <= 8191 ->
  exists tbl, islow_divisor 16 quantval = Ret tbl /\
    forall x, -32767 <= x <= 32767 -> is_rounded x (quantval * 8) (quantize1 16 tbl x).
Proof.
  intros q Hq. destruct (C21_islow_quantization 16 q ltac:(auto) Hq) as (t & E & K). exists t. split; [auto|].
  intros x Hx. apply K; [change (2 ^ (16 - 1)) with 32768; lia|]. apply small_quotient; lia.
Qed.

(* 12-bit samples: plain division *)
Theorem C21_division_12bit : forall qval x, 1 <= qval -> (Z.abs x + qval / 2) / qval < 32768 ->
  exists y, quantize1_12 qval x = Ret y /\ is_rounded x qval y.
Proof.
  intros d x Hd Hq. unfold quantize1_12. rewrite Z.shiftr_div_pow2 by lia. change (2 ^ 1) with 2.
  assert (Hs : forall y, -32768 <= y < 32768 -> s16 y = y).
  { intros y Hy. unfold s16. rewrite Z.mod_small; lia. }
  assert (0 <= d / 2) by (apply Z.div_pos; lia).
  assert (D : forall a, 0 <= a -> (if a >=? d then (if d =? 0 then Undef else Ret (Z.quot a d)) else Ret 0) = Ret (a / d)).
  { intros a Ha. rewrite Z.geb_leb. destruct (Z.leb_spec d a).
    - destruct (Z.eqb_spec d 0); [lia|]. now rewrite Z.quot_div_nonneg by lia.
    - now rewrite Z.div_small by lia. }
  assert (Hq0 : 0 <= (Z.abs x + d / 2) / d) by (apply Z.div_pos; lia).
  destruct (Z.ltb_spec x 0).
  - rewrite D by lia. cbn [bind]. eexists. split; [reflexivity|].
    replace (Z.abs x) with (- x) in * by lia. rewrite Hs by lia.
    replace x with (- - x) at 1 by lia. apply is_rounded_opp, rounded_nonneg; lia.
  - rewrite D by lia. cbn [bind]. eexists. split; [reflexivity|].
    replace (Z.abs x) with x in * by lia. rewrite Hs by lia. apply rounded_nonneg; lia.
Qed.

(* The unrestricted claim is false of the code: quantval << 3 is passed to a UINT16 parameter, so
   steps above 8191 (legal 16-bit table entries, e.g. ImageMagick table, quality 1, no
   force_baseline) are quantized with the wrong divisor, or divide by zero. *)
Theorem C21_large_steps_refuted :
  ~ (forall quantval, 1 <= quantval <= 32767 -> exists tbl, islow_divisor 32 quantval = Ret tbl /\
       forall x, Z.abs x < 2 ^ 15 -> is_rounded x (quantval * 8) (quantize1 32 tbl x)).
Proof.
  intros H. destruct (H 8192 ltac:(lia)) as (t & E & _). vm_compute in E. discriminate.
Qed.
Example C21_large_step_wrong_value :
  quant_entry 419 (jpeg_quality_scaling 1) false = 20950 /\
  (exists tbl, islow_divisor 32 20950 = Ret tbl /\ quantize1 32 tbl 32767 = 1).
Proof. split; [reflexivity|]. eexists. split; [vm_compute; reflexivity|vm_compute; reflexivity]. Qed.

Example C21_nonvacuous : exists tbl, islow_divisor 16 16 = Ret tbl /\ quantize1 16 tbl 192 = 2 /\
  quantize1 16 tbl (-192) = -2 /\ quantize1 16 tbl 191 = 1 /\ quantize1 16 tbl (-191) = -1.
Proof. eexists. split; [vm_compute; reflexivity|]. vm_compute. auto. Qed.

Print Assumptions C36_jdiv_round_up_is_ceiling.
Print Assumptions C36_jround_up_is_least_multiple.
Print Assumptions C20_scaling_value.
Print Assumptions C20_scaling_antitone.
Print Assumptions C20_entry_range.
Print Assumptions C20_entry_value.
Print Assumptions C20_entry_antitone.
Print Assumptions C20_set_quality.
Print Assumptions C21_reciprocal_is_rounded_division.
Print Assumptions C21_islow_quantization.
Print Assumptions C21_islow_quantization_16bit.
Print Assumptions C21_division_12bit.
Print Assumptions C21_large_steps_refuted.
