(* P_Idct.v -- proofs about the inverse DCTs. *)
From Verif Require Import Base M_RangeLimit M_Idct S_Idct T_RangeLimit.

Definition small (x : Z) : Prop := - 2 ^ 31 <= x < 2 ^ 31.
Lemma j64_ok x : - 2 ^ 63 <= x < 2 ^ 63 -> j64 x = Ret x.
Proof. intros H. unfold j64. rewrite (proj2 (Z.leb_le _ _)), (proj2 (Z.ltb_lt _ _)) by lia. reflexivity. Qed.
Lemma left_ok x b : - 2 ^ 33 <= x < 2 ^ 33 -> 0 <= b <= 20 -> LEFT_SHIFT x b = x * 2 ^ b.
Proof.
  intros Hx Hb. unfold LEFT_SHIFT, s64. rewrite Z.shiftl_mul_pow2 by lia.
  assert (0 < 2 ^ b <= 2 ^ 20) by (split; [apply Z.pow_pos_nonneg; lia|apply Z.pow_le_mono_r; lia]).
  rewrite Z.mod_small by nia. lia.
Qed.
Lemma descale_round x n : 0 <= n -> DESCALE x n = round_shift x n.
Proof. intros H. unfold DESCALE, round_shift. now rewrite Z.shiftr_div_pow2 by lia. Qed.
Lemma s32_small x : small (s32 x).
Proof. unfold small, s32. pose proof (Z.mod_pos_bound (x + 2 ^ 31) (2 ^ 32) ltac:(lia)). lia. Qed.

Lemma islow_1d_ok x0 x1 x2 x3 x4 x5 x6 x7 : small x0 -> small x1 -> small x2 -> small x3 -> small x4 -> small x5 -> small x6 -> small x7 ->
  islow_1d x0 x1 x2 x3 x4 x5 x6 x7 = Ret (map (fun a => dot a [x0; x1; x2; x3; x4; x5; x6; x7]) A8).
Proof.
  unfold small. intros H0 H1 H2 H3 H4 H5 H6 H7. unfold islow_1d.
  rewrite !left_ok by (unfold CONST_BITS; lia). change (2 ^ CONST_BITS) with 8192.
  repeat (rewrite j64_ok by lia; cbn [bind]).
  cbn [A8 map dot]. apply f_equal. repeat (apply f_equal2; [lia|]). reflexivity.
Qed.
Lemma red4_1d_ok x0 x1 x2 x3 x4 x5 x6 x7 : small x0 -> small x1 -> small x2 -> small x3 -> small x5 -> small x6 -> small x7 ->
  red4_1d x0 x1 x2 x3 x5 x6 x7 = Ret (map (fun a => dot a [x0; x1; x2; x3; x4; x5; x6; x7]) A4).
Proof.
  unfold small. intros H0 H1 H2 H3 H5 H6 H7. unfold red4_1d.
  rewrite !left_ok by (unfold CONST_BITS; lia). change (2 ^ (CONST_BITS + 1)) with 16384.
  repeat (rewrite j64_ok by lia; cbn [bind]).
  cbn [A4 map dot]. apply f_equal. repeat (apply f_equal2; [lia|]). reflexivity.
Qed.
Lemma red2_1d_ok x0 x1 x2 x3 x4 x5 x6 x7 : small x0 -> small x1 -> small x3 -> small x5 -> small x7 ->
  red2_1d x0 x1 x3 x5 x7 = Ret (map (fun a => dot a [x0; x1; x2; x3; x4; x5; x6; x7]) A2).
Proof.
  unfold small. intros H0 H1 H3 H5 H7. unfold red2_1d.
  rewrite !left_ok by (unfold CONST_BITS; lia). change (2 ^ (CONST_BITS + 2)) with 32768.
  repeat (rewrite j64_ok by lia; cbn [bind]).
  cbn [A2 map dot]. apply f_equal. repeat (apply f_equal2; [lia|]). reflexivity.
Qed.

(* ---------------- the workspace ---------------- *)
Lemma put_col_ok size c vs : forall k w, 0 <= c < 8 -> 0 <= k -> 8 * (k + Z.of_nat (length vs)) <= size ->
  exists w', put_col size w c k vs = Ret w' /\
   (forall j, k <= j < k + Z.of_nat (length vs) -> w' (8 * j + c) = Some (nth (Z.to_nat (j - k)) vs 0)) /\
   (forall j c', 0 <= c' < 8 -> c' <> c \/ j < k \/ k + Z.of_nat (length vs) <= j -> w' (8 * j + c') = w (8 * j + c')).
Proof.
  induction vs as [|v vs IH]; intros k w Hc Hk Hs; cbn [put_col length] in *.
  - exists w. split; [reflexivity|]. split; [intros; lia|auto].
  - unfold wput. rewrite (proj2 (Z.leb_le 0 _)), (proj2 (Z.ltb_lt _ size)) by lia. cbn [andb bind].
    destruct (IH (k + 1) (fun j => if j =? 8 * k + c then Some v else w j) Hc ltac:(lia) ltac:(lia)) as (w' & E & H1 & H2).
    exists w'. split; [exact E|]. split.
    + intros j Hj. destruct (Z.eq_dec j k) as [-> |N].
      * rewrite (H2 k c Hc ltac:(lia)). rewrite Z.eqb_refl, Z.sub_diag. reflexivity.
      * rewrite (H1 j) by lia. replace (Z.to_nat (j - k)) with (S (Z.to_nat (j - (k + 1)))) by lia. reflexivity.
    + intros j c' Hc' Ho. rewrite (H2 j c' Hc' ltac:(lia)). destruct (Z.eqb_spec (8 * j + c') (8 * k + c)); [lia|reflexivity].
Qed.

Lemma cols_ok size N V f : 0 <= N -> 8 * N <= size -> forall cs w done,
  (forall c w, In c cs -> f c w = put_col size w c 0 (map (fun k => V k c) (map Z.of_nat (seq 0 (Z.to_nat N))))) ->
  (forall c, In c cs -> 0 <= c < 8) -> (forall c, In c done -> 0 <= c < 8) ->
  (forall c k, In c done -> 0 <= k < N -> w (8 * k + c) = Some (V k c)) ->
  exists w', cols f cs w = Ret w' /\ forall c k, In c (cs ++ done) -> 0 <= k < N -> w' (8 * k + c) = Some (V k c).
Proof.
  intros HN HS. induction cs as [|c cs IH]; intros w dn Hf Hc Hd Hw; cbn [cols app].
  - exists w. auto.
  - rewrite (Hf c w (or_introl eq_refl)).
    destruct (put_col_ok size c (map (fun k => V k c) (map Z.of_nat (seq 0 (Z.to_nat N)))) 0 w (Hc c (or_introl eq_refl)) ltac:(lia)
      ltac:(rewrite !map_length, seq_length; lia)) as (w1 & E & H1 & H2).
    rewrite !map_length, seq_length in H1, H2. rewrite Z2Nat.id in H1, H2 by lia. rewrite E. cbn [bind].
    destruct (IH w1 (c :: dn)) as (w' & E' & H').
    + intros c' w'' Hi. apply Hf. now right.
    + intros c' Hi. apply Hc. now right.
    + intros c' [<- |Hi]; [apply Hc; now left|now apply Hd].
    + intros c' k Hi Hk.
      assert (HH : w1 (8 * k + c) = Some (V k c)).
      { rewrite (H1 k) by lia. f_equal. rewrite map_map. rewrite (nth_indep _ 0 ((fun x => V (Z.of_nat x) c) 0%nat)) by (rewrite map_length, seq_length; lia).
        rewrite (map_nth (fun x => V (Z.of_nat x) c)), seq_nth by lia. f_equal. lia. }
      destruct Hi as [<- |Hi]; [exact HH|]. destruct (Z.eq_dec c' c) as [-> |Nc]; [exact HH|].
      rewrite (H2 k c' (Hd c' Hi) (or_introl Nc)). apply Hw; assumption.
    + exists w'. split; [exact E'|]. intros c' k Hi Hk. apply H'; [|exact Hk].
      apply in_app_iff. cbn in Hi |- *. destruct Hi as [-> |Hi]; [right; now left|]. apply in_app_iff in Hi. destruct Hi; [now left|right; now right].
Qed.

Lemma rows_ok f (g : Z -> list Z) rs : (forall r, In r rs -> f r = Ret (g r)) -> rows f rs = Ret (map g rs).
Proof.
  induction rs as [|r rs IH]; intros H; cbn [rows map]; [reflexivity|].
  rewrite (H r (or_introl eq_refl)). cbn [bind]. rewrite IH by (intros; apply H; now right). reflexivity.
Qed.

Section Block.
Variable p : Z.
Variable t : tblmem.
Variables coef mult : list Z.
Hypothesis Hp : p = 8 \/ p = 12.
Hypothesis Ht : forall x, idct_range_limit p t x = Ret (sample p x).
Hypothesis Hb : block_ok coef mult.
Notation pb := (PASS1_BITS p).
Notation dq := (dequantized coef mult).

Lemma pb_ok : 1 <= pb <= 2. Proof. unfold PASS1_BITS. destruct (p =? 8); lia. Qed.
Lemma lims_ok xs : lims p t xs = Ret (map (sample p) xs).
Proof. induction xs as [|x xs IH]; cbn [lims map]; [reflexivity|]. unfold lim. rewrite Ht. cbn [bind]. rewrite IH. reflexivity. Qed.

Lemma ranges k : 0 <= k < 64 -> -32768 <= nth (Z.to_nat k) coef 0 <= 32767 /\ -32768 <= nth (Z.to_nat k) mult 0 <= 65535.
Proof.
  destruct Hb as (L1 & L2 & F1 & F2). intros Hk. rewrite Forall_forall in F1, F2.
  split; [apply F1|apply F2]; apply nth_In; lia.
Qed.
Lemma mul_range a m : -32768 <= a <= 32767 -> -32768 <= m <= 65535 -> small (a * m).
Proof. unfold small. intros. nia. Qed.
Lemma dq_small k c : 0 <= k < 8 -> 0 <= c < 8 -> small (dq k c).
Proof. intros. unfold dequantized. pose proof (ranges (8 * k + c) ltac:(lia)) as (A & B). now apply mul_range. Qed.
Lemma coef_get k : 0 <= k < 64 -> aget coef k = Ret (nth (Z.to_nat k) coef 0).
Proof. destruct Hb as (L1 & _). intros. apply aget_nth. lia. Qed.
Lemma deq_ok k c : 0 <= k < 8 -> 0 <= c < 8 -> deq coef mult c k = Ret (dq k c).
Proof.
  intros Hk Hc. unfold deq. rewrite coef_get by lia. cbn [bind]. destruct Hb as (_ & L2 & _).
  rewrite (aget_nth mult (8 * k + c) 0) by lia. cbn [bind]. pose proof (dq_small k c Hk Hc) as S. unfold small in S. unfold dequantized in *.
  unfold i32. rewrite (proj2 (Z.leb_le _ _)), (proj2 (Z.ltb_lt _ _)) by lia. reflexivity.
Qed.
Lemma col_zero_ok c ks : 0 <= c < 8 -> (forall k, In k ks -> 0 <= k < 8) ->
  exists b, col_zero coef c ks = Ret b /\ (b = true -> forall k, In k ks -> dq k c = 0).
Proof.
  intros Hc. induction ks as [|k ks IH]; intros Hk; cbn [col_zero].
  - exists true. split; [reflexivity|]. intros _ k [].
  - pose proof (Hk k (or_introl eq_refl)). rewrite coef_get by lia. cbn [bind].
    destruct (Z.eqb_spec (nth (Z.to_nat (8 * k + c)) coef 0) 0) as [E|E].
    + destruct IH as (b & Eb & Hz); [intros; apply Hk; now right|]. exists b. split; [exact Eb|].
      intros B k' [<- |Hi]; [unfold dequantized; rewrite E; lia|now apply Hz].
    + exists false. split; [reflexivity|discriminate].
Qed.
Lemma row_zero_ok size w r V ks : (forall k, In k ks -> 0 <= 8 * r + k < size /\ w (8 * r + k) = Some (V k)) ->
  exists b, row_zero size w r ks = Ret b /\ (b = true -> forall k, In k ks -> V k = 0).
Proof.
  induction ks as [|k ks IH]; intros Hk; cbn [row_zero].
  - exists true. split; [reflexivity|]. intros _ k [].
  - destruct (Hk k (or_introl eq_refl)) as (B & E). unfold wget.
    rewrite (proj2 (Z.leb_le 0 _)), (proj2 (Z.ltb_lt _ size)) by lia. cbn [andb]. rewrite E. cbn [bind].
    destruct (Z.eqb_spec (V k) 0) as [Z|Z].
    + destruct IH as (b & Eb & Hz); [intros; apply Hk; now right|]. exists b. split; [exact Eb|].
      intros Bt k' [<- |Hi]; [exact Z|now apply Hz].
    + exists false. split; [reflexivity|discriminate].
Qed.

Lemma round_cancel x a n : 0 <= a -> 0 < n -> round_shift (2 ^ a * x) (a + n) = round_shift x n.
Proof.
  intros Ha Hn. unfold round_shift. replace (a + n - 1) with (a + (n - 1)) by lia. rewrite !Z.pow_add_r by lia.
  rewrite <- Z.mul_add_distr_l, Z.div_mul_cancel_l; [reflexivity|apply Z.pow_nonzero; lia|apply Z.pow_nonzero; lia].
Qed.
Lemma round_exact x a n : 0 < n < a -> round_shift (2 ^ a * x) n = x * 2 ^ (a - n).
Proof.
  intros H. unfold round_shift. replace (2 ^ a) with (2 ^ (a - n) * 2 ^ n) by (rewrite <- Z.pow_add_r by lia; f_equal; lia).
  replace (2 ^ n) with (2 * 2 ^ (n - 1)) by (rewrite <- (Z.pow_succ_r 2 (n - 1)) by lia; f_equal; lia).
  assert (0 < 2 ^ (n - 1)) by (apply Z.pow_pos_nonneg; lia).
  replace (2 ^ (a - n) * (2 * 2 ^ (n - 1)) * x + 2 ^ (n - 1)) with (2 ^ (n - 1) + x * 2 ^ (a - n) * (2 * 2 ^ (n - 1))) by ring.
  rewrite Z.div_add by lia. rewrite Z.div_small by lia. lia.
Qed.

(* the value between the passes *)
Definition V8 (A : list (list Z)) (cb k c : Z) : Z :=
  to_int (round_shift (dot (nth (Z.to_nat k) A []) (upto8 (fun k => dq k c))) (cb - pb)).

Lemma islow_col_ok c w : 0 <= c < 8 -> islow_col p coef mult c w = put_col 64 w c 0 (map (fun k => V8 A8 13 k c) (map Z.of_nat (seq 0 8))).
Proof.
  intros Hc. pose proof pb_ok. unfold islow_col.
  destruct (col_zero_ok c [1; 2; 3; 4; 5; 6; 7] Hc) as (b & Eb & Hz); [cbn; intros; lia|]. rewrite Eb. cbn [bind]. clear Eb.
  assert (E : forall k, V8 A8 13 k c = to_int (round_shift (dot (nth (Z.to_nat k) A8 []) [dq 0 c; dq 1 c; dq 2 c; dq 3 c; dq 4 c; dq 5 c; dq 6 c; dq 7 c]) (13 - pb))) by reflexivity.
  destruct b.
  - rewrite deq_ok by lia. cbn [bind]. specialize (Hz eq_refl). f_equal.
    pose proof (dq_small 0 c ltac:(lia) Hc) as D0. unfold small in D0. rewrite left_ok by lia.
    change (map Z.of_nat (seq 0 8)) with [0; 1; 2; 3; 4; 5; 6; 7]. cbn [map repeat]. rewrite !E. change (Z.to_nat 0) with 0%nat. change (Z.to_nat 1) with 1%nat. change (Z.to_nat 2) with 2%nat. change (Z.to_nat 3) with 3%nat. change (Z.to_nat 4) with 4%nat. change (Z.to_nat 5) with 5%nat. change (Z.to_nat 6) with 6%nat. change (Z.to_nat 7) with 7%nat. cbn [nth A8 dot].
    rewrite (Hz 1) by (cbn; auto 8). rewrite (Hz 2) by (cbn; auto 8). rewrite (Hz 3) by (cbn; auto 8). rewrite (Hz 4) by (cbn; auto 8). rewrite (Hz 5) by (cbn; auto 8). rewrite (Hz 6) by (cbn; auto 8). rewrite (Hz 7) by (cbn; auto 8).
    assert (R : s32 (dq 0 c * 2 ^ pb) = to_int (round_shift (2 ^ 13 * dq 0 c) (13 - pb))).
    { rewrite round_exact by lia. replace (13 - (13 - pb)) with pb by lia. reflexivity. }
    change (2 ^ 13) with 8192 in R. rewrite R.
    repeat (apply f_equal2; [f_equal; f_equal; lia|]). reflexivity.
  - rewrite !deq_ok by lia. cbn [bind]. rewrite (islow_1d_ok (dq 0 c) (dq 1 c) (dq 2 c) (dq 3 c) (dq 4 c) (dq 5 c) (dq 6 c) (dq 7 c)) by (apply dq_small; lia). cbn [bind]. f_equal.
    change (map Z.of_nat (seq 0 8)) with [0; 1; 2; 3; 4; 5; 6; 7]. cbn [map]. rewrite !E. change (Z.to_nat 0) with 0%nat. change (Z.to_nat 1) with 1%nat. change (Z.to_nat 2) with 2%nat. change (Z.to_nat 3) with 3%nat. change (Z.to_nat 4) with 4%nat. change (Z.to_nat 5) with 5%nat. change (Z.to_nat 6) with 6%nat. change (Z.to_nat 7) with 7%nat. cbn [nth]. cbn [map A8]. rewrite !descale_round by (unfold CONST_BITS; lia). unfold CONST_BITS.
     reflexivity.
Qed.
Lemma islow_row_ok w r V : 0 <= r < 8 -> (forall k, In k [0; 1; 2; 3; 4; 5; 6; 7] -> w (8 * r + k) = Some (V k)) -> (forall k, small (V k)) ->
  islow_row p t w r = Ret (map (fun a => sample p (to_int (round_shift (dot a (upto8 V)) (13 + pb + 3)))) A8).
Proof.
  intros Hr Hw HV. pose proof pb_ok. unfold islow_row.
  destruct (row_zero_ok 64 w r V [1; 2; 3; 4; 5; 6; 7]) as (b & Eb & Hz).
  { intros k Hk. split; [cbn in Hk; lia|]. apply Hw. now right. }
  rewrite Eb. cbn [bind]. clear Eb.
  assert (G : forall k, In k [0; 1; 2; 3; 4; 5; 6; 7] -> wget 64 w (8 * r + k) = Ret (V k)).
  { intros k Hk. unfold wget. assert (0 <= k < 8) by (cbn in Hk; lia).
    rewrite (proj2 (Z.leb_le 0 _)), (proj2 (Z.ltb_lt _ 64)) by lia. cbn [andb]. now rewrite Hw. }
  destruct b.
  - pose proof (G 0 (or_introl eq_refl)) as G0. rewrite Z.add_0_r in G0. rewrite G0. cbn [bind]. specialize (Hz eq_refl). rewrite lims_ok. f_equal.
    rewrite descale_round by lia. cbn [repeat map A8 upto8 dot].
    rewrite (Hz 1) by (cbn; auto 8). rewrite (Hz 2) by (cbn; auto 8). rewrite (Hz 3) by (cbn; auto 8). rewrite (Hz 4) by (cbn; auto 8). rewrite (Hz 5) by (cbn; auto 8). rewrite (Hz 6) by (cbn; auto 8). rewrite (Hz 7) by (cbn; auto 8).
    assert (R : to_int (round_shift (V 0) (pb + 3)) = to_int (round_shift (2 ^ 13 * V 0) (13 + pb + 3))).
    { replace (13 + pb + 3) with (13 + (pb + 3)) by lia. rewrite round_cancel by lia. reflexivity. }
    change (2 ^ 13) with 8192 in R. change s32 with to_int. rewrite R.
    repeat (apply f_equal2; [f_equal; f_equal; f_equal; lia|]). reflexivity.
  - rewrite !G by (cbn; auto 9). cbn [bind]. rewrite (islow_1d_ok (V 0) (V 1) (V 2) (V 3) (V 4) (V 5) (V 6) (V 7)) by apply HV. cbn [bind]. rewrite lims_ok. f_equal.
    rewrite !map_map. apply map_ext. intros a. rewrite descale_round by (unfold CONST_BITS; lia). unfold CONST_BITS.
     reflexivity.
Qed.

Lemma red4_col_ok c w : 0 <= c < 8 -> red4_col p coef mult c w = put_col 32 w c 0 (map (fun k => V8 A4 14 k c) (map Z.of_nat (seq 0 4))).
Proof.
  intros Hc. pose proof pb_ok. unfold red4_col.
  destruct (col_zero_ok c [1; 2; 3; 5; 6; 7] Hc) as (b & Eb & Hz); [cbn; intros; lia|]. rewrite Eb. cbn [bind]. clear Eb.
  assert (E : forall k, V8 A4 14 k c = to_int (round_shift (dot (nth (Z.to_nat k) A4 []) [dq 0 c; dq 1 c; dq 2 c; dq 3 c; dq 4 c; dq 5 c; dq 6 c; dq 7 c]) (14 - pb))) by reflexivity.
  destruct b.
  - rewrite deq_ok by lia. cbn [bind]. specialize (Hz eq_refl). f_equal.
    pose proof (dq_small 0 c ltac:(lia) Hc) as D0. unfold small in D0. rewrite left_ok by lia.
    change (map Z.of_nat (seq 0 4)) with [0; 1; 2; 3]. cbn [map repeat]. rewrite !E. change (Z.to_nat 0) with 0%nat. change (Z.to_nat 1) with 1%nat. change (Z.to_nat 2) with 2%nat. change (Z.to_nat 3) with 3%nat. cbn [nth A4 dot].
    rewrite (Hz 1) by (cbn; auto 8). rewrite (Hz 2) by (cbn; auto 8). rewrite (Hz 3) by (cbn; auto 8). rewrite (Hz 5) by (cbn; auto 8). rewrite (Hz 6) by (cbn; auto 8). rewrite (Hz 7) by (cbn; auto 8).
    assert (R : s32 (dq 0 c * 2 ^ pb) = to_int (round_shift (2 ^ 14 * dq 0 c) (14 - pb))).
    { rewrite round_exact by lia. replace (14 - (14 - pb)) with pb by lia. reflexivity. }
    change (2 ^ 14) with 16384 in R. rewrite R.
    repeat (apply f_equal2; [f_equal; f_equal; lia|]). reflexivity.
  - rewrite !deq_ok by lia. cbn [bind]. rewrite (red4_1d_ok (dq 0 c) (dq 1 c) (dq 2 c) (dq 3 c) (dq 4 c) (dq 5 c) (dq 6 c) (dq 7 c)) by (apply dq_small; lia). cbn [bind]. f_equal.
    change (map Z.of_nat (seq 0 4)) with [0; 1; 2; 3]. cbn [map]. rewrite !E. change (Z.to_nat 0) with 0%nat. change (Z.to_nat 1) with 1%nat. change (Z.to_nat 2) with 2%nat. change (Z.to_nat 3) with 3%nat. cbn [nth]. cbn [map A4]. rewrite !descale_round by (unfold CONST_BITS; lia). unfold CONST_BITS.
    replace (13 - pb + 1) with (14 - pb) by lia. reflexivity.
Qed.
Lemma red4_row_ok w r V : 0 <= r < 4 -> (forall k, In k [0; 1; 2; 3; 5; 6; 7] -> w (8 * r + k) = Some (V k)) -> (forall k, small (V k)) ->
  red4_row p t w r = Ret (map (fun a => sample p (to_int (round_shift (dot a (upto8 V)) (14 + pb + 3)))) A4).
Proof.
  intros Hr Hw HV. pose proof pb_ok. unfold red4_row.
  destruct (row_zero_ok 32 w r V [1; 2; 3; 5; 6; 7]) as (b & Eb & Hz).
  { intros k Hk. split; [cbn in Hk; lia|]. apply Hw. now right. }
  rewrite Eb. cbn [bind]. clear Eb.
  assert (G : forall k, In k [0; 1; 2; 3; 5; 6; 7] -> wget 32 w (8 * r + k) = Ret (V k)).
  { intros k Hk. unfold wget. assert (0 <= k < 8) by (cbn in Hk; lia).
    rewrite (proj2 (Z.leb_le 0 _)), (proj2 (Z.ltb_lt _ 32)) by lia. cbn [andb]. now rewrite Hw. }
  destruct b.
  - pose proof (G 0 (or_introl eq_refl)) as G0. rewrite Z.add_0_r in G0. rewrite G0. cbn [bind]. specialize (Hz eq_refl). rewrite lims_ok. f_equal.
    rewrite descale_round by lia. cbn [repeat map A4 upto8 dot].
    rewrite (Hz 1) by (cbn; auto 8). rewrite (Hz 2) by (cbn; auto 8). rewrite (Hz 3) by (cbn; auto 8). rewrite (Hz 5) by (cbn; auto 8). rewrite (Hz 6) by (cbn; auto 8). rewrite (Hz 7) by (cbn; auto 8).
    assert (R : to_int (round_shift (V 0) (pb + 3)) = to_int (round_shift (2 ^ 14 * V 0) (14 + pb + 3))).
    { replace (14 + pb + 3) with (14 + (pb + 3)) by lia. rewrite round_cancel by lia. reflexivity. }
    change (2 ^ 14) with 16384 in R. change s32 with to_int. rewrite R.
    repeat (apply f_equal2; [f_equal; f_equal; f_equal; lia|]). reflexivity.
  - rewrite !G by (cbn; auto 9). cbn [bind]. rewrite (red4_1d_ok (V 0) (V 1) (V 2) (V 3) (V 4) (V 5) (V 6) (V 7)) by apply HV. cbn [bind]. rewrite lims_ok. f_equal.
    rewrite !map_map. apply map_ext. intros a. rewrite descale_round by (unfold CONST_BITS; lia). unfold CONST_BITS.
    replace (13 + pb + 3 + 1) with (14 + pb + 3) by lia. reflexivity.
Qed.

Lemma red2_col_ok c w : 0 <= c < 8 -> red2_col p coef mult c w = put_col 16 w c 0 (map (fun k => V8 A2 15 k c) (map Z.of_nat (seq 0 2))).
Proof.
  intros Hc. pose proof pb_ok. unfold red2_col.
  destruct (col_zero_ok c [1; 3; 5; 7] Hc) as (b & Eb & Hz); [cbn; intros; lia|]. rewrite Eb. cbn [bind]. clear Eb.
  assert (E : forall k, V8 A2 15 k c = to_int (round_shift (dot (nth (Z.to_nat k) A2 []) [dq 0 c; dq 1 c; dq 2 c; dq 3 c; dq 4 c; dq 5 c; dq 6 c; dq 7 c]) (15 - pb))) by reflexivity.
  destruct b.
  - rewrite deq_ok by lia. cbn [bind]. specialize (Hz eq_refl). f_equal.
    pose proof (dq_small 0 c ltac:(lia) Hc) as D0. unfold small in D0. rewrite left_ok by lia.
    change (map Z.of_nat (seq 0 2)) with [0; 1]. cbn [map repeat]. rewrite !E. change (Z.to_nat 0) with 0%nat. change (Z.to_nat 1) with 1%nat. cbn [nth A2 dot].
    rewrite (Hz 1) by (cbn; auto 8). rewrite (Hz 3) by (cbn; auto 8). rewrite (Hz 5) by (cbn; auto 8). rewrite (Hz 7) by (cbn; auto 8).
    assert (R : s32 (dq 0 c * 2 ^ pb) = to_int (round_shift (2 ^ 15 * dq 0 c) (15 - pb))).
    { rewrite round_exact by lia. replace (15 - (15 - pb)) with pb by lia. reflexivity. }
    change (2 ^ 15) with 32768 in R. rewrite R.
    repeat (apply f_equal2; [f_equal; f_equal; lia|]). reflexivity.
  - rewrite !deq_ok by lia. cbn [bind]. rewrite (red2_1d_ok (dq 0 c) (dq 1 c) (dq 2 c) (dq 3 c) (dq 4 c) (dq 5 c) (dq 6 c) (dq 7 c)) by (apply dq_small; lia). cbn [bind]. f_equal.
    change (map Z.of_nat (seq 0 2)) with [0; 1]. cbn [map]. rewrite !E. change (Z.to_nat 0) with 0%nat. change (Z.to_nat 1) with 1%nat. cbn [nth]. cbn [map A2]. rewrite !descale_round by (unfold CONST_BITS; lia). unfold CONST_BITS.
    replace (13 - pb + 2) with (15 - pb) by lia. reflexivity.
Qed.
Lemma red2_row_ok w r V : 0 <= r < 2 -> (forall k, In k [0; 1; 3; 5; 7] -> w (8 * r + k) = Some (V k)) -> (forall k, small (V k)) ->
  red2_row p t w r = Ret (map (fun a => sample p (to_int (round_shift (dot a (upto8 V)) (15 + pb + 3)))) A2).
Proof.
  intros Hr Hw HV. pose proof pb_ok. unfold red2_row.
  destruct (row_zero_ok 16 w r V [1; 3; 5; 7]) as (b & Eb & Hz).
  { intros k Hk. split; [cbn in Hk; lia|]. apply Hw. now right. }
  rewrite Eb. cbn [bind]. clear Eb.
  assert (G : forall k, In k [0; 1; 3; 5; 7] -> wget 16 w (8 * r + k) = Ret (V k)).
  { intros k Hk. unfold wget. assert (0 <= k < 8) by (cbn in Hk; lia).
    rewrite (proj2 (Z.leb_le 0 _)), (proj2 (Z.ltb_lt _ 16)) by lia. cbn [andb]. now rewrite Hw. }
  destruct b.
  - pose proof (G 0 (or_introl eq_refl)) as G0. rewrite Z.add_0_r in G0. rewrite G0. cbn [bind]. specialize (Hz eq_refl). rewrite lims_ok. f_equal.
    rewrite descale_round by lia. cbn [repeat map A2 upto8 dot].
    rewrite (Hz 1) by (cbn; auto 8). rewrite (Hz 3) by (cbn; auto 8). rewrite (Hz 5) by (cbn; auto 8). rewrite (Hz 7) by (cbn; auto 8).
    assert (R : to_int (round_shift (V 0) (pb + 3)) = to_int (round_shift (2 ^ 15 * V 0) (15 + pb + 3))).
    { replace (15 + pb + 3) with (15 + (pb + 3)) by lia. rewrite round_cancel by lia. reflexivity. }
    change (2 ^ 15) with 32768 in R. change s32 with to_int. rewrite R.
    repeat (apply f_equal2; [f_equal; f_equal; f_equal; lia|]). reflexivity.
  - rewrite !G by (cbn; auto 9). cbn [bind]. rewrite (red2_1d_ok (V 0) (V 1) (V 2) (V 3) (V 4) (V 5) (V 6) (V 7)) by apply HV. cbn [bind]. rewrite lims_ok. f_equal.
    rewrite !map_map. apply map_ext. intros a. rewrite descale_round by (unfold CONST_BITS; lia). unfold CONST_BITS.
    replace (13 + pb + 3 + 2) with (15 + pb + 3) by lia. reflexivity.
Qed.

Lemma V8_small A cb k c : small (V8 A cb k c). Proof. unfold V8. apply s32_small. Qed.

Lemma rows_spec A cb N g : length A = N -> (forall k c, g k c = V8 A cb k c) ->
  map (fun r => map (fun a => sample p (to_int (round_shift (dot a (upto8 (g r))) (cb + pb + 3)))) A) (map Z.of_nat (seq 0 N)) = idct_by p pb coef mult A cb.
Proof.
  intros L Hg. unfold idct_by, between.
  assert (EA : forall F : list Z -> list Z, map F A = map (fun k => F (nth k A [])) (seq 0 N)).
  { intros F. rewrite <- L. clear. induction A as [|a A' IH]; [reflexivity|]. cbn [length seq map nth]. f_equal.
    rewrite <- seq_shift, map_map. exact IH. }
  rewrite (map_map Z.of_nat). rewrite (map_map _ _ A). rewrite (EA (fun x => map _ A)).
  apply map_ext. intros k. apply map_ext. intros a. do 4 f_equal.
  unfold upto8. apply map_ext. intros c. rewrite Hg. unfold V8. now rewrite Nat2Z.id.
Qed.

Lemma islow_ok : idct_islow p t coef mult = Ret (idct_by p pb coef mult A8 13).
Proof.
  unfold idct_islow.
  destruct (cols_ok 64 8 (V8 A8 13) (islow_col p coef mult) ltac:(lia) ltac:(lia) [0; 1; 2; 3; 4; 5; 6; 7] (fun _ => None) []) as (w & E & Hw).
  { intros c w Hc. apply islow_col_ok. cbn in Hc. lia. }
  { cbn. intros. lia. } { intros c []. } { intros c k []. }
  rewrite E. cbn [bind]. rewrite (rows_ok _ (fun r => map (fun a => sample p (to_int (round_shift (dot a (upto8 (V8 A8 13 r))) (13 + pb + 3)))) A8)).
  - apply f_equal. apply (rows_spec A8 13 8); reflexivity.
  - intros r Hr. cbn in Hr. apply islow_row_ok; [lia| |intros; apply V8_small]. intros k Hk. apply Hw; [|lia]. rewrite app_nil_r. exact Hk.
Qed.
Lemma red4_ok : idct_4x4 p t coef mult = Ret (idct_by p pb coef mult A4 14).
Proof.
  unfold idct_4x4.
  destruct (cols_ok 32 4 (V8 A4 14) (red4_col p coef mult) ltac:(lia) ltac:(lia) [0; 1; 2; 3; 5; 6; 7] (fun _ => None) []) as (w & E & Hw).
  { intros c w Hc. apply red4_col_ok. cbn in Hc. lia. }
  { cbn. intros. lia. } { intros c []. } { intros c k []. }
  rewrite E. cbn [bind]. rewrite (rows_ok _ (fun r => map (fun a => sample p (to_int (round_shift (dot a (upto8 (V8 A4 14 r))) (14 + pb + 3)))) A4)).
  - apply f_equal. apply (rows_spec A4 14 4); reflexivity.
  - intros r Hr. cbn in Hr. apply red4_row_ok; [lia| |intros; apply V8_small]. intros k Hk. apply Hw; [|lia]. rewrite app_nil_r. exact Hk.
Qed.
Lemma red2_ok : idct_2x2 p t coef mult = Ret (idct_by p pb coef mult A2 15).
Proof.
  unfold idct_2x2.
  destruct (cols_ok 16 2 (V8 A2 15) (red2_col p coef mult) ltac:(lia) ltac:(lia) [0; 1; 3; 5; 7] (fun _ => None) []) as (w & E & Hw).
  { intros c w Hc. apply red2_col_ok. cbn in Hc. lia. }
  { cbn. intros. lia. } { intros c []. } { intros c k []. }
  rewrite E. cbn [bind]. rewrite (rows_ok _ (fun r => map (fun a => sample p (to_int (round_shift (dot a (upto8 (V8 A2 15 r))) (15 + pb + 3)))) A2)).
  - apply f_equal. apply (rows_spec A2 15 2); reflexivity.
  - intros r Hr. cbn in Hr. apply red2_row_ok; [lia| |intros; apply V8_small]. intros k Hk. apply Hw; [|lia]. rewrite app_nil_r. exact Hk.
Qed.
Lemma red1_ok : idct_1x1 p t coef mult = Ret [[sample p (to_int (round_shift (dq 0 0) 3))]].
Proof.
  unfold idct_1x1. rewrite deq_ok by lia. cbn [bind]. unfold lim. rewrite Ht. cbn [bind]. rewrite descale_round by lia. reflexivity.
Qed.
End Block.
