(* P_Smooth.v -- the estimates of one block. *)
From Verif Require Import Base M_Smooth S_Smooth.

Definition r16 (x : Z) : Prop := - 2 ^ 15 <= x < 2 ^ 15.

Lemma s32_id x : - 2 ^ 31 <= x < 2 ^ 31 -> s32 x = x.
Proof. intros H. unfold s32. rewrite Z.mod_small; lia. Qed.
Lemma s16_id x : r16 x -> s16 x = x.
Proof. unfold r16. intros H. unfold s16. rewrite Z.mod_small; lia. Qed.
Lemma s16_range x : r16 (s16 x).
Proof. unfold s16, r16. pose proof (Z.mod_pos_bound (x + 2 ^ 15) (2 ^ 16) ltac:(lia)). lia. Qed.

Lemma rounded_nonneg num q : 0 < q -> 0 <= rounded num q.
Proof. intros. unfold rounded. apply Z.div_pos; lia. Qed.

Lemma rounded_near num q : 0 < q -> Z.abs (256 * q * rounded num q - Z.abs num) <= 128 * q.
Proof.
  intros H. unfold rounded.
  pose proof (Z.div_mod (Z.abs num + 128 * q) (256 * q) ltac:(lia)).
  pose proof (Z.mod_pos_bound (Z.abs num + 128 * q) (256 * q) ltac:(lia)). lia.
Qed.

Lemma estimate_ok q00 q al sum :
  0 <= q00 < 2 ^ 16 -> 0 < q -> Z.abs sum <= 154 * 2 ^ 15 \/ (q00 = q /\ Z.abs sum <= 432 * 2 ^ 15) ->
  estimate q00 q al sum = Ret (s16 (predicted al (q00 * sum) q)).
Proof.
  intros H0 Hq Hs. unfold estimate.
  assert (Hi : int_ok sum = true).
  { unfold int_ok. apply andb_true_intro. split; [apply Z.leb_le|apply Z.ltb_lt]; lia. }
  rewrite Hi. cbn [negb].
  destruct (Z.eqb_spec q 0) as [E|_]; [lia|].
  cbv zeta. rewrite !Z.shiftl_mul_pow2 by lia. change (2 ^ 7) with 128. change (2 ^ 8) with 256.
  assert (Hb : rounded (q00 * sum) q < 2 ^ 31).
  { unfold rounded. apply Z.div_lt_upper_bound; [lia|]. rewrite Z.abs_mul, (Z.abs_eq q00) by lia.
    destruct Hs as [Hs|[He Hs]]; [|subst; nia].
    assert (q00 * Z.abs sum <= (2 ^ 16 - 1) * (154 * 2 ^ 15)).
    { apply Z.mul_le_mono_nonneg; lia. } nia. }
  pose proof (rounded_nonneg (q00 * sum) q Hq) as Hp.
  set (num := q00 * sum) in *.
  assert (E1 : forall n, 0 <= n -> n = Z.abs num ->
     s32 (Z.quot (q * 128 + n) (q * 256)) = rounded num q).
  { intros n Hn ->. rewrite Z.quot_div_nonneg by lia.
    replace (q * 128 + Z.abs num) with (Z.abs num + 128 * q) by ring.
    replace (q * 256) with (256 * q) by ring. fold (rounded num q). apply s32_id. lia. }
  assert (Hcap : forall m, (if (0 <? al) && (2 ^ al <=? m) then 2 ^ al - 1 else m)
                           = (if 0 <? al then Z.min m (2 ^ al - 1) else m)).
  { intros m. destruct (Z.ltb_spec 0 al); cbn [andb]; [|reflexivity].
    destruct (Z.leb_spec (2 ^ al) m); lia. }
  f_equal. f_equal. unfold predicted. cbv zeta.
  destruct (Z.leb_spec 0 num) as [Hn|Hn].
  - rewrite (E1 num Hn) by lia. rewrite Hcap.
    destruct (Z.eq_dec num 0) as [E|E].
    + rewrite E. cbn [Z.sgn]. assert (rounded 0 q = 0) as ->.
      { unfold rounded. apply Z.div_small. cbn [Z.abs]. lia. }
      destruct (Z.ltb_spec 0 al); [|reflexivity].
      pose proof (Z.pow_pos_nonneg 2 al ltac:(lia) ltac:(lia)). lia.
    + rewrite Z.sgn_pos by lia. ring.
  - replace (q * 128 - num) with (q * 128 + (- num)) by ring.
    rewrite (E1 (- num)) by lia. rewrite Hcap. rewrite Z.sgn_neg by lia. ring.
Qed.

(* The kernels of the code are the weights of the specification *)
Lemma list25 (d : list Z) : length d = 25%nat ->
  exists a b c e f g h i j k l m n o p q r s t u v w x y z,
  d = [a; b; c; e; f; g; h; i; j; k; l; m; n; o; p; q; r; s; t; u; v; w; x; y; z].
Proof.
  intros H. do 25 (destruct d as [|? d]; [discriminate H|]). destruct d; [|discriminate H].
  repeat eexists.
Qed.

(* the neighbourhood held in the 25 registers *)
Definition nbh (d : list Z) (i j : Z) : Z := nth (Z.to_nat (5 * (i + 2) + (j + 2))) d 0.

Ltac kern K H :=
  let W := fresh in
  destruct (list25 _ H) as (a & b & c & e & f & g & h & i & j & k & l & m & n & o & p & q & r & s
    & t & u & v & w & x & y & z & ->);
  unfold wsum, offsets, transposed; cbn [map];
  repeat match goal with |- context [weight ?w ?i ?j] =>
    let v := eval vm_compute in (weight w i j) in change (weight w i j) with v end;
  unfold nbh;
  repeat match goal with |- context [Z.to_nat ?e] =>
    let v := eval vm_compute in (Z.to_nat e) in change (Z.to_nat e) with v end;
  cbn [nth zsum fold_right]; unfold K; cbn [nth]; ring.

Lemma k00_spec d : length d = 25%nat -> k00 d = wsum (weight W_00) (nbh d).
Proof. intros H. kern k00 H. Qed.
Lemma k01c_spec d : length d = 25%nat -> k01c d = wsum (weight W_01c) (nbh d).
Proof. intros H. kern k01c H. Qed.
Lemma k01n_spec d : length d = 25%nat -> k01n d = wsum (weight W_01n) (nbh d).
Proof. intros H. kern k01n H. Qed.
Lemma k10c_spec d : length d = 25%nat -> k10c d = wsum (transposed (weight W_01c)) (nbh d).
Proof. intros H. kern k10c H. Qed.
Lemma k10n_spec d : length d = 25%nat -> k10n d = wsum (transposed (weight W_01n)) (nbh d).
Proof. intros H. kern k10n H. Qed.
Lemma k20c_spec d : length d = 25%nat -> k20c d = wsum (weight W_20c) (nbh d).
Proof. intros H. kern k20c H. Qed.
Lemma k20n_spec d : length d = 25%nat -> k20n d = wsum (weight W_20n) (nbh d).
Proof. intros H. kern k20n H. Qed.
Lemma k11c_spec d : length d = 25%nat -> k11c d = wsum (weight W_11c) (nbh d).
Proof. intros H. kern k11c H. Qed.
Lemma k11n_spec d : length d = 25%nat -> k11n d = wsum (weight W_11n) (nbh d).
Proof. intros H. kern k11n H. Qed.
Lemma k02c_spec d : length d = 25%nat -> k02c d = wsum (transposed (weight W_20c)) (nbh d).
Proof. intros H. kern k02c H. Qed.
Lemma k02n_spec d : length d = 25%nat -> k02n d = wsum (transposed (weight W_20n)) (nbh d).
Proof. intros H. kern k02n H. Qed.
Lemma k03_spec d : length d = 25%nat -> k03 d = wsum (weight W_03) (nbh d).
Proof. intros H. kern k03 H. Qed.
Lemma k12_spec d : length d = 25%nat -> k12 d = wsum (weight W_12) (nbh d).
Proof. intros H. kern k12 H. Qed.
Lemma k21_spec d : length d = 25%nat -> k21 d = wsum (transposed (weight W_12)) (nbh d).
Proof. intros H. kern k21 H. Qed.
Lemma k30_spec d : length d = 25%nat -> k30 d = wsum (transposed (weight W_03)) (nbh d).
Proof. intros H. kern k30 H. Qed.

Ltac kbound K H F :=
  destruct (list25 _ H) as (a & b & c & e & f & g & h & i & j & k & l & m & n & o & p & q & r & s
    & t & u & v & w & x & y & z & ->);
  repeat match goal with
  | F : Forall _ (_ :: _) |- _ => apply Forall_cons_iff in F; destruct F
  end; unfold r16 in *; unfold K; cbn [nth]; lia.

Lemma k00_bound d : length d = 25%nat -> Forall r16 d -> Z.abs (k00 d) <= 432 * 2 ^ 15.
Proof. intros H F. kbound k00 H F. Qed.
Lemma k01c_bound d : length d = 25%nat -> Forall r16 d -> Z.abs (k01c d) <= 154 * 2 ^ 15.
Proof. intros H F. kbound k01c H F. Qed.
Lemma k01n_bound d : length d = 25%nat -> Forall r16 d -> Z.abs (k01n d) <= 154 * 2 ^ 15.
Proof. intros H F. kbound k01n H F. Qed.
Lemma k10c_bound d : length d = 25%nat -> Forall r16 d -> Z.abs (k10c d) <= 154 * 2 ^ 15.
Proof. intros H F. kbound k10c H F. Qed.
Lemma k10n_bound d : length d = 25%nat -> Forall r16 d -> Z.abs (k10n d) <= 154 * 2 ^ 15.
Proof. intros H F. kbound k10n H F. Qed.
Lemma k20c_bound d : length d = 25%nat -> Forall r16 d -> Z.abs (k20c d) <= 154 * 2 ^ 15.
Proof. intros H F. kbound k20c H F. Qed.
Lemma k20n_bound d : length d = 25%nat -> Forall r16 d -> Z.abs (k20n d) <= 154 * 2 ^ 15.
Proof. intros H F. kbound k20n H F. Qed.
Lemma k11c_bound d : length d = 25%nat -> Forall r16 d -> Z.abs (k11c d) <= 154 * 2 ^ 15.
Proof. intros H F. kbound k11c H F. Qed.
Lemma k11n_bound d : length d = 25%nat -> Forall r16 d -> Z.abs (k11n d) <= 154 * 2 ^ 15.
Proof. intros H F. kbound k11n H F. Qed.
Lemma k02c_bound d : length d = 25%nat -> Forall r16 d -> Z.abs (k02c d) <= 154 * 2 ^ 15.
Proof. intros H F. kbound k02c H F. Qed.
Lemma k02n_bound d : length d = 25%nat -> Forall r16 d -> Z.abs (k02n d) <= 154 * 2 ^ 15.
Proof. intros H F. kbound k02n H F. Qed.
Lemma k03_bound d : length d = 25%nat -> Forall r16 d -> Z.abs (k03 d) <= 154 * 2 ^ 15.
Proof. intros H F. kbound k03 H F. Qed.
Lemma k12_bound d : length d = 25%nat -> Forall r16 d -> Z.abs (k12 d) <= 154 * 2 ^ 15.
Proof. intros H F. kbound k12 H F. Qed.
Lemma k21_bound d : length d = 25%nat -> Forall r16 d -> Z.abs (k21 d) <= 154 * 2 ^ 15.
Proof. intros H F. kbound k21 H F. Qed.
Lemma k30_bound d : length d = 25%nat -> Forall r16 d -> Z.abs (k30 d) <= 154 * 2 ^ 15.
Proof. intros H F. kbound k30 H F. Qed.

Definition est_or_keep (q cb ws : list Z) (i pos : nat) (sum : Z) : Z :=
  if negb (nth i cb 0 =? 0) && (nth pos ws 0 =? 0)
  then s16 (predicted (nth i cb 0) (nth 0 q 0 * sum) (nth pos q 0)) else nth pos ws 0.

Lemma ac_step_ok q cb i pos sum ws :
  0 <= nth 0 q 0 < 2 ^ 16 -> 0 < nth pos q 0 -> Z.abs sum <= 154 * 2 ^ 15 ->
  ac_step q cb i pos sum ws = Ret (upd ws pos (est_or_keep q cb ws i pos sum)).
Proof.
  intros H0 Hp Hs. unfold ac_step, est_or_keep. cbv zeta.
  destruct (negb (nth i cb 0 =? 0) && (nth pos ws 0 =? 0)) eqn:E.
  - rewrite estimate_ok by (auto; left; exact Hs). reflexivity.
  - rewrite upd_same. reflexivity.
Qed.

(* quantizers smoothing_ok accepts: 16-bit values, the ten used ones nonzero *)
Definition quants_ok (q : list Z) : Prop :=
  Forall (fun x => 0 <= x < 2 ^ 16) q /\ quant_nonzero q = true.

Lemma nth_range q k : Forall (fun x => 0 <= x < 2 ^ 16) q -> 0 <= nth k q 0 < 2 ^ 16.
Proof.
  intros H. destruct (nth_in_or_default k q 0) as [E|E].
  - rewrite Forall_forall in H. apply H; exact E.
  - rewrite E. lia.
Qed.

Lemma quants_pos q : quants_ok q ->
  0 < nth 0 q 0 /\ 0 < nth 1 q 0 /\ 0 < nth 8 q 0 /\ 0 < nth 16 q 0 /\ 0 < nth 9 q 0 /\
  0 < nth 2 q 0 /\ 0 < nth 3 q 0 /\ 0 < nth 10 q 0 /\ 0 < nth 17 q 0 /\ 0 < nth 24 q 0.
Proof.
  intros [Hr Hn]. unfold quant_nonzero in Hn. apply negb_true_iff in Hn.
  rewrite !orb_false_iff in Hn. rewrite !Z.eqb_neq in Hn.
  unfold Q01_POS, Q10_POS, Q20_POS, Q11_POS, Q02_POS, Q03_POS, Q12_POS, Q21_POS, Q30_POS in Hn.
  pose proof (nth_range q 0 Hr). pose proof (nth_range q 1 Hr). pose proof (nth_range q 8 Hr).
  pose proof (nth_range q 16 Hr). pose proof (nth_range q 9 Hr). pose proof (nth_range q 2 Hr).
  pose proof (nth_range q 3 Hr). pose proof (nth_range q 10 Hr). pose proof (nth_range q 17 Hr).
  pose proof (nth_range q 24 Hr). lia.
Qed.

Lemma change_dc_spec cb : change_dc cb = only_dc_known (fun i => nth i cb 0).
Proof.
  unfold change_dc, only_dc_known. cbn [seq forallb]. rewrite andb_true_r, !andb_assoc. reflexivity.
Qed.

Lemma est_or_keep_upd q cb ws i pos sum m x :
  m <> pos -> est_or_keep q cb (upd ws m x) i pos sum = est_or_keep q cb ws i pos sum.
Proof. intros H. unfold est_or_keep. rewrite nth_upd_neq by exact H. reflexivity. Qed.
