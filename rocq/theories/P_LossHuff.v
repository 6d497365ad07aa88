(* P_LossHuff.v -- the lossless Huffman encoder writes the specified bytes *)
From Verif Require Import Base M_HuffTbl M_HuffEnc M_LossHuff S_Huff S_Stream S_Block S_LossHuff P_BitRead P_HuffEnc P_HuffScan P_EncTbl.

Lemma emit_ok b d : dest_ok d -> dsusp d = false ->
  exists d', emit_byte b d = Ret (Some d') /\ dout d' = dout d ++ [u8 b] /\ dest_ok d' /\ dsusp d' = false.
Proof.
  intros H1 H2. destruct (emit_byte_spec b d H1) as (o & -> & HD). destruct o as [d'|]; cbn [delivered] in HD; [|congruence].
  destruct HD as (A & B & C). exists d'. split; [reflexivity|]. split; auto. split; auto. congruence.
Qed.

(* pending bits [l] at the top of the low 24 bits *)
Definition pend (pb : Z) (l : list bool) : Prop :=
  0 <= pb /\ pb mod 2 ^ 24 = bval l * 2 ^ (24 - Z.of_nat (length l)).

Lemma pend_split pb a b : pend pb (a ++ b) -> (length (a ++ b) <= 24)%nat -> length a = 8%nat ->
  Z.land (Z.shiftr pb 16) 255 = bval a /\ pend (u64 (Z.shiftl pb 8)) b.
Proof.
  intros [H0 H] HL Ha. rewrite app_length in *. pose proof (bval_range a) as Ra. pose proof (bval_range b) as Rb. rewrite Ha in *.
  rewrite bval_app in H.
  set (n := Z.of_nat (length b)) in *. assert (Hn : 0 <= n <= 16) by lia. replace (Z.of_nat (8 + length b)) with (8 + n) in H by lia.
  assert (E1 : 2 ^ n * 2 ^ (24 - (8 + n)) = 2 ^ 16) by (rewrite <- Z.pow_add_r by lia; f_equal; lia).
  assert (E : pb mod 2 ^ 24 = bval a * 2 ^ 16 + bval b * 2 ^ (16 - n)).
  { rewrite H. replace (16 - n) with (24 - (8 + n)) by lia. rewrite <- E1. ring. }
  assert (Hb : 0 <= bval b * 2 ^ (16 - n) < 2 ^ 16).
  { assert (0 < 2 ^ (16 - n)) by (apply Z.pow_pos_nonneg; lia). split; [nia|]. replace (2 ^ 16) with (2 ^ n * 2 ^ (16 - n)); [nia|]. rewrite <- Z.pow_add_r by lia. f_equal. lia. }
  assert (Ep : pb = 2 ^ 24 * (pb / 2 ^ 24) + (bval a * 2 ^ 16 + bval b * 2 ^ (16 - n))).
  { rewrite <- E. apply Z.div_mod. lia. }
  set (q := pb / 2 ^ 24) in *. split.
  - rewrite Z.shiftr_div_pow2 by lia. change 255 with (Z.ones 8). rewrite Z.land_ones by lia.
    rewrite Ep. replace (2 ^ 24 * q + (bval a * 2 ^ 16 + bval b * 2 ^ (16 - n))) with ((q * 256 + bval a) * 2 ^ 16 + bval b * 2 ^ (16 - n)) by ring.
    rewrite Z.div_add_l by lia. rewrite (Z.div_small (bval b * 2 ^ (16 - n)) (2 ^ 16)) by exact Hb. rewrite Z.add_0_r. change (2 ^ 8) with 256.
    rewrite Z.add_comm, Z.mod_add by lia. apply Z.mod_small. exact Ra.
  - unfold pend, u64. split; [apply Z.mod_pos_bound; lia|].
    replace (2 ^ 64) with (2 ^ 24 * 2 ^ 40) by reflexivity. rewrite Z.rem_mul_r by lia. rewrite (Z.mul_comm (2 ^ 24)), Z.mod_add, Z.mod_mod by lia.
    rewrite Z.shiftl_mul_pow2 by lia. rewrite Ep at 1.
    replace ((2 ^ 24 * q + (bval a * 2 ^ 16 + bval b * 2 ^ (16 - n))) * 2 ^ 8) with (bval b * (2 ^ (16 - n) * 2 ^ 8) + (q * 2 ^ 8 + bval a) * 2 ^ 24) by ring.
    rewrite Z.mod_add by lia. rewrite <- Z.pow_add_r by lia. replace (16 - n + 8) with (24 - n) by lia.
    apply Z.mod_small. assert (0 < 2 ^ (24 - n)) by (apply Z.pow_pos_nonneg; lia). split; [nia|].
    replace (2 ^ 24) with (2 ^ n * 2 ^ (24 - n)); [apply Z.mul_lt_mono_pos_r; [assumption|apply Rb]|]. rewrite <- Z.pow_add_r by lia. f_equal. lia.
Qed.

Lemma emit_loop_spec : forall fuel l pb d, (length l <= 8 * fuel + 7)%nat -> (length l <= 24)%nat -> pend pb l ->
  dest_ok d -> dsusp d = false ->
  exists D r pb' d', emit_loop fuel pb (Z.of_nat (length l)) d = Ret (Some (mkLS pb' (Z.of_nat (length r)), d')) /\
    l = bytes_to_bits D ++ r /\ (length r <= 7)%nat /\ Forall byte D /\ dout d' = dout d ++ stuff D /\ pend pb' r /\
    dest_ok d' /\ dsusp d' = false.
Proof.
  induction fuel as [|f IH]; intros l pb d HL H24 HP Hd Hs; cbn [emit_loop].
  - destruct (Z.leb_spec 8 (Z.of_nat (length l))); [lia|]. exists [], l, pb, d. cbn [bytes_to_bits app stuff]. rewrite app_nil_r. auto 10.
  - destruct (Z.leb_spec 8 (Z.of_nat (length l))) as [H8|H8].
    + pose proof (firstn_skipn 8 l) as El. set (a := firstn 8 l) in *. set (b := skipn 8 l) in *.
      assert (La : length a = 8%nat) by (unfold a; apply firstn_length_le; lia).
      assert (Lb : length b = (length l - 8)%nat) by (unfold b; apply skipn_length).
      destruct (pend_split pb a b) as [P1 P2]; [rewrite El; auto|rewrite El; auto|auto|].
      rewrite P1. cbn zeta. pose proof (bval_range a) as Ra. rewrite La in Ra. change (2 ^ Z.of_nat 8) with 256 in Ra.
      destruct (emit_ok (bval a) d Hd Hs) as (d1 & E1 & O1 & K1 & S1). rewrite E1. cbn [bind].
      assert (G : exists d2, (if bval a =? 255 then emit_byte 0 d1 else Ret (Some d1)) = Ret (Some d2) /\ dout d2 = dout d ++ stuff [bval a] /\ dest_ok d2 /\ dsusp d2 = false).
      { rewrite u8_id in O1 by lia. cbn [stuff]. destruct (Z.eqb_spec (bval a) 255) as [Ea|Ea].
        - destruct (emit_ok 0 d1 K1 S1) as (d2 & E2 & O2 & K2 & S2). exists d2. rewrite E2, O2, O1, Ea. rewrite <- app_assoc. auto.
        - exists d1. auto. }
      destruct G as (d2 & -> & O2 & K2 & S2). cbn [bind].
      destruct (IH b (u64 (Z.shiftl pb 8)) d2 ltac:(lia) ltac:(lia) P2 K2 S2) as (D & r & pb' & d' & E3 & I1 & I2 & I3 & I4 & I5 & I6 & I7).
      replace (Z.of_nat (length l) - 8) with (Z.of_nat (length b)) by lia. rewrite E3.
      exists (bval a :: D), r, pb', d'. split; [reflexivity|].
      split. { cbn [bytes_to_bits]. rewrite bits_of_bval_n by auto. rewrite <- app_assoc, <- I1. auto. }
      split; auto. split; [constructor; [exact Ra|auto]|]. split; [|auto].
      rewrite I4, O2, <- app_assoc. f_equal. rewrite <- stuff_app. reflexivity.
    + exists [], l, pb, d. cbn [bytes_to_bits app stuff]. rewrite app_nil_r. assert (length l <= 7)%nat by lia. auto 10.
Qed.

(* between calls: the segment started after base; B = its bits so far *)
Definition linv (base : list Z) (B : list bool) (v : lsav) (d : dest) : Prop :=
  exists D r, Forall byte D /\ dout d = base ++ stuff D /\ B = bytes_to_bits D ++ r /\
    l_bits v = Z.of_nat (length r) /\ (length r <= 7)%nat /\ pend (l_pb v) r /\ dest_ok d /\ dsusp d = false.

Lemma pend_put pb r n code : pend pb r -> (length r + n <= 24)%nat ->
  pend (Z.lor (u64 (Z.shiftl (Z.land code (2 ^ Z.of_nat n - 1)) (24 - (Z.of_nat (length r) + Z.of_nat n)))) pb) (r ++ bits_of n code).
Proof.
  intros [H0 H] HL. set (m := Z.of_nat (length r)) in *. set (k := Z.of_nat n).
  assert (Hk : Z.land code (2 ^ k - 1) = code mod 2 ^ k) by (rewrite <- Z.land_ones by lia; f_equal; rewrite Z.ones_equiv; lia). rewrite Hk.
  pose proof (Z.mod_pos_bound code (2 ^ k) ltac:(apply Z.pow_pos_nonneg; lia)) as Hc. set (c := code mod 2 ^ k) in *.
  rewrite Z.shiftl_mul_pow2 by lia. set (w := 24 - (m + k)) in *.
  assert (Hw : 0 < 2 ^ w) by (apply Z.pow_pos_nonneg; lia).
  assert (E1 : 2 ^ k * 2 ^ w = 2 ^ (24 - m)) by (rewrite <- Z.pow_add_r by lia; f_equal; lia).
  assert (Hcw : 0 <= c * 2 ^ w < 2 ^ (24 - m)) by (rewrite <- E1; nia).
  assert (H24 : 2 ^ (24 - m) <= 2 ^ 24) by (apply Z.pow_le_mono_r; lia).
  rewrite (u64_id (c * 2 ^ w)) by lia.
  unfold pend. split; [apply Z.lor_nonneg; lia|].
  rewrite <- Z.land_ones by lia. rewrite Z.land_lor_distr_l, !Z.land_ones by lia. rewrite H, (Z.mod_small (c * 2 ^ w)) by lia.
  rewrite <- (Z.shiftl_mul_pow2 (bval r)) by lia. rewrite Z.lor_comm, lor_shiftl_add by lia.
  rewrite bval_app, bval_bits_of, length_bits_of, app_length, length_bits_of. fold k. fold c.
  replace (24 - Z.of_nat (length r + n)) with w by lia. rewrite <- E1. ring.
Qed.

Lemma emit_bits_spec base B v d n code : linv base B v d -> (1 <= n <= 16)%nat ->
  exists v' d', emit_bits code (Z.of_nat n) v d = Ret (Some (v', d')) /\ linv base (B ++ bits_of n code) v' d'.
Proof.
  intros (D & r & H1 & H2 & H3 & H4 & H5 & H6 & H7 & H8) Hn. unfold emit_bits.
  destruct (Z.eqb_spec (Z.of_nat n) 0); [lia|]. destruct (Z.ltb_spec (Z.of_nat n) 0); [lia|]. destruct (Z.ltb_spec 63 (Z.of_nat n)); [lia|]. cbn [orb].
  rewrite H4. cbn zeta. destruct (Z.ltb_spec 24 (Z.of_nat (length r) + Z.of_nat n)); [lia|].
  pose proof (pend_put (l_pb v) r n code H6 ltac:(lia)) as HP. set (pb := Z.lor _ _) in *.
  assert (HL : length (r ++ bits_of n code) = (length r + n)%nat) by (rewrite app_length, length_bits_of; auto).
  destruct (emit_loop_spec 3 (r ++ bits_of n code) pb d ltac:(lia) ltac:(lia) HP H7 H8) as (D' & r' & pb' & d' & E & I1 & I2 & I3 & I4 & I5 & I6 & I7).
  rewrite HL, Nat2Z.inj_add in E. rewrite E. eexists; eexists. split; [reflexivity|].
  exists (D ++ D'), r'. cbn [l_bits l_pb]. split; [apply Forall_app; auto|]. split; [rewrite I4, H2, stuff_app, app_assoc; auto|].
  split; [|auto 10]. rewrite H3, bytes_to_bits_app, <- !app_assoc, I1. reflexivity.
Qed.

Lemma linv_nil base d : dout d = base -> dest_ok d -> dsusp d = false -> linv base [] (mkLS 0 0) d.
Proof.
  intros E H1 H2. exists [], []. cbn [stuff bytes_to_bits app length l_bits l_pb]. rewrite app_nil_r.
  split; [constructor|]. split; auto. split; auto. split; auto. split; [lia|]. split; [|auto]. split; [lia|reflexivity].
Qed.

Lemma lflush_spec base B v d : linv base B v d ->
  exists d', lflush_bits v d = Ret (Some (mkLS 0 0, d')) /\ dout d' = base ++ segment_bytes B /\ dest_ok d' /\ dsusp d' = false.
Proof.
  intros (D & r & H1 & H2 & H3 & H4 & H5 & H6 & H7 & H8). unfold lflush_bits, emit_bits.
  change (7 =? 0) with false. change ((7 <? 0) || (63 <? 7)) with false. cbn iota. rewrite H4. cbn zeta.
  destruct (Z.ltb_spec 24 (Z.of_nat (length r) + 7)); [lia|].
  pose proof (pend_put (l_pb v) r 7 127 H6 ltac:(lia)) as HP. change (Z.of_nat 7) with 7 in HP. set (pb := Z.lor _ _) in *.
  change (bits_of 7 127) with (repeat true 7) in HP.
  assert (HL : length (r ++ repeat true 7) = (length r + 7)%nat) by (rewrite app_length; auto).
  destruct (emit_loop_spec 3 (r ++ repeat true 7) pb d ltac:(lia) ltac:(lia) HP H7 H8) as (D' & r' & pb' & d' & E & I1 & I2 & I3 & I4 & I5 & I6 & I7).
  rewrite HL, Nat2Z.inj_add in E. change (Z.of_nat 7) with 7 in E. rewrite E. cbn [bind]. eexists. split; [reflexivity|]. split; [|auto].
  rewrite I4, H2, <- app_assoc. f_equal. unfold segment_bytes. fold (pk B). rewrite H3, pk_bytes, stuff_app by auto. f_equal. f_equal.
  (* D' = pk r *)
  assert (LD : (8 * length D' + length r' = length r + 7)%nat).
  { rewrite <- HL, I1, app_length, length_bytes_to_bits. lia. }
  destruct r as [|x r].
  - destruct D' as [|? ?]; [reflexivity|cbn [length] in LD; lia].
  - destruct D' as [|b0 [|? ?]]; cbn [length] in LD, H5; [lia| |lia].
    unfold pk. cbn [length pack]. cbn [bytes_to_bits] in I1. rewrite app_nil_r in I1.
    rewrite I1. rewrite firstn_bits8. rewrite bval_bits_of. change (2 ^ Z.of_nat 8) with 256. rewrite Z.mod_small by (apply (Forall_inv I3)). f_equal.
    rewrite skipn_all2 by (cbn [length]; lia). destruct (length r); reflexivity.
Qed.

Lemma lrestart_spec base B v d num : linv base B v d -> 0 <= num < 8 ->
  exists d', lemit_restart num v d = Ret (Some (mkLS 0 0, d')) /\
    linv (base ++ segment_bytes B ++ [255; 208 + num]) [] (mkLS 0 0) d'.
Proof.
  intros HI Hn. unfold lemit_restart. destruct (lflush_spec base B v d HI) as (d1 & -> & O1 & K1 & S1). cbn [bind].
  destruct (emit_ok 255 d1 K1 S1) as (d2 & -> & O2 & K2 & S2). cbn [bind].
  destruct (emit_ok (208 + num) d2 K2 S2) as (d3 & -> & O3 & K3 & S3). cbn [bind].
  eexists. split; [reflexivity|]. apply linv_nil; auto. rewrite O3, O2, O1. change (u8 255) with 255. rewrite u8_id by lia.
  rewrite <- !app_assoc. reflexivity.
Qed.

(* ---- differences ---- *)
Lemma land_pow15 t : (Z.land t 32768 =? 0) = negb (Z.testbit t 15).
Proof.
  assert (E : Z.land t (2 ^ 15) = if Z.testbit t 15 then 2 ^ 15 else 0).
  { apply Z.bits_inj'. intros i Hi. rewrite Z.land_spec, Z.pow2_bits_eqb by lia. destruct (Z.eqb_spec 15 i) as [<-|Hne].
    - destruct (Z.testbit t 15); [rewrite Z.pow2_bits_eqb by lia; reflexivity|rewrite Z.bits_0; reflexivity].
    - rewrite andb_false_r. destruct (Z.testbit t 15); [rewrite Z.pow2_bits_eqb by lia; symmetry; apply Z.eqb_neq; auto|rewrite Z.bits_0; reflexivity]. }
  change (2 ^ 15) with 32768 in E. rewrite E. destruct (Z.testbit t 15); reflexivity.
Qed.

Lemma testbit15 t : Z.testbit t 15 = (32768 <=? t mod 65536).
Proof.
  rewrite <- (Z.mod_pow2_bits_low t 16 15) by lia. change (2 ^ 16) with 65536. pose proof (Z.mod_pos_bound t 65536 ltac:(lia)) as H.
  set (r := t mod 65536) in *. destruct (Z.leb_spec 32768 r) as [L|L]; [|].
  - apply Z.testbit_true; [lia|]. change (2 ^ 15) with 32768. replace (r / 32768) with 1; [reflexivity|]. apply Z.div_unique with (r - 32768); lia.
  - apply Z.bits_above_log2; [lia|]. destruct (Z.eq_dec r 0) as [->|]; [reflexivity|]. apply Z.log2_lt_pow2; [lia|]. change (2 ^ 15) with 32768. lia.
Qed.

Lemma diff_mag_spec t : exists t2, diff_mag t = (Z.abs (diff16 t), t2) /\
  (diff16 t <> 32768 -> t2 = if diff16 t <? 0 then diff16 t - 1 else diff16 t).
Proof.
  unfold diff_mag. rewrite land_pow15, negb_involutive, testbit15. change 32767 with (Z.ones 15). rewrite !Z.land_ones by lia.
  unfold diff16. pose proof (Z.mod_pos_bound t 65536 ltac:(lia)) as H. pose proof (Z.div_mod t 65536 ltac:(lia)) as E. set (r := t mod 65536) in *. cbn zeta.
  change (2 ^ 15) with 32768. destruct (Z.leb_spec 32768 r) as [L|L].
  - assert (Em : (- t) mod 32768 = if r =? 32768 then 0 else 65536 - r).
    { rewrite E. destruct (Z.eqb_spec r 32768) as [Er|Er]; symmetry.
      - apply Z.mod_unique with (- (2 * (t / 65536)) - 1); lia.
      - apply Z.mod_unique with (- (2 * (t / 65536)) - 2); lia. }
    rewrite Em. destruct (Z.eqb_spec r 32768) as [Er|Er].
    + cbn [Z.eqb]. rewrite Er. cbn [Z.leb Z.compare Pos.compare Pos.compare_cont]. eexists. split; [reflexivity|]. congruence.
    + destruct (Z.eqb_spec (65536 - r) 0); [lia|]. destruct (Z.leb_spec r 32768); [lia|]. eexists.
      split; [f_equal; lia|]. intros _. destruct (Z.ltb_spec (r - 65536) 0); [|lia]. unfold Z.lnot. lia.
  - assert (Em : t mod 32768 = r).
    { rewrite E. symmetry. apply Z.mod_unique with (2 * (t / 65536)); lia. }
    rewrite Em. destruct (Z.leb_spec r 32768); [|lia]. eexists. split; [f_equal; lia|]. intros _. destruct (Z.ltb_spec r 0); lia.
Qed.

Lemma count_bits_spec : forall fuel t, 0 <= t < 2 ^ Z.of_nat fuel -> count_bits fuel t = Ret (if t =? 0 then 0 else Z.log2 t + 1).
Proof.
  induction fuel as [|f IH]; intros t Ht; cbn [count_bits].
  - assert (t = 0) by (change (2 ^ Z.of_nat 0) with 1 in Ht; lia). subst t. reflexivity.
  - destruct (Z.eqb_spec t 0) as [|E]; [reflexivity|]. rewrite Z.shiftr_div_pow2 by lia. change (2 ^ 1) with 2.
    assert (Hp : 2 ^ Z.of_nat (S f) = 2 * 2 ^ Z.of_nat f) by (rewrite Nat2Z.inj_succ, Z.pow_succ_r by lia; lia).
    rewrite IH by (split; [apply Z.div_pos; lia|apply Z.div_lt_upper_bound; lia]). cbn [bind]. f_equal.
    rewrite <- Z.div2_div. destruct (Z.eqb_spec (Z.div2 t) 0) as [E2|E2].
    + assert (t = 1) by (rewrite Z.div2_div in E2; apply Z.div_small_iff in E2; lia). subst t. reflexivity.
    + f_equal. rewrite Z.add_1_r. rewrite <- Z.log2_double. 2:{ rewrite Z.div2_div in *. assert (0 <= t / 2) by (apply Z.div_pos; lia). lia. }
      rewrite Z.div2_div in *. pose proof (Z.div_mod t 2 ltac:(lia)). pose proof (Z.mod_pos_bound t 2 ltac:(lia)).
      assert (t = 2 * (t / 2) \/ t = 2 * (t / 2) + 1) as [X|X] by lia; [rewrite <- X; auto|].
      rewrite X at 2. symmetry. rewrite Z.log2_succ_double, Z.log2_double; lia.
Qed.

Lemma diff16_range t : -32767 <= diff16 t <= 32768.
Proof. unfold diff16. pose proof (Z.mod_pos_bound t 65536 ltac:(lia)). cbn zeta. destruct (Z.leb_spec (t mod 65536) 32768); lia. Qed.

Lemma cat16 t : (category (diff16 t) <= 16)%nat.
Proof. apply category_le. change (2 ^ Z.of_nat 16) with 65536. pose proof (diff16_range t). lia. Qed.

Lemma cat16_iff t : category (diff16 t) = 16%nat <-> diff16 t = 32768.
Proof.
  split; [|intros ->; reflexivity]. intros H. destruct (Z.eq_dec (diff16 t) 32768) as [|N]; auto. exfalso.
  assert (category (diff16 t) <= 15)%nat; [|lia]. apply category_le. change (2 ^ Z.of_nat 15) with 32768. pose proof (diff16_range t). lia.
Qed.

(* a table entry for category [n] is present *)
Definition coded (tbl : c_derived_tbl) (t : Z) : Prop := ecode tbl (Z.of_nat (category (diff16 t))) <> [].

Lemma encode_diff_spec base B tbl t v d : ct_ok tbl -> coded tbl t -> linv base B v d ->
  exists v' d', encode_diff tbl t v d = Ret (Some (v', d')) /\ linv base (B ++ enc_smp (mkSmp (ecode tbl) t)) v' d'.
Proof.
  intros Hct Hcd HI. unfold encode_diff. destruct (diff_mag_spec t) as (t2 & -> & Ht2). pose proof (diff16_range t) as R.
  rewrite count_bits_spec by (change (2 ^ Z.of_nat 31) with 2147483648; lia).
  assert (En : (if Z.abs (diff16 t) =? 0 then 0 else Z.log2 (Z.abs (diff16 t)) + 1) = Z.of_nat (category (diff16 t))).
  { unfold category. destruct (Z.eqb_spec (diff16 t) 0) as [->|]; [reflexivity|]. destruct (Z.eqb_spec (Z.abs (diff16 t)) 0); [lia|].
    pose proof (Z.log2_nonneg (Z.abs (diff16 t))). lia. }
  rewrite En. cbn [bind]. pose proof (cat16 t) as C16. destruct (Z.ltb_spec 16 (Z.of_nat (category (diff16 t)))); [lia|].
  destruct (ct_get tbl (Z.of_nat (category (diff16 t))) Hct ltac:(lia)) as (n & co & G1 & G2 & G3 & G4 & G5).
  rewrite G1. cbn [bind]. rewrite G2. cbn [bind].
  assert (Hn : n <> 0%nat) by (intros ->; apply Hcd; rewrite G5; reflexivity).
  destruct (emit_bits_spec base B v d n co HI ltac:(lia)) as (v1 & d1 & E1 & HI1). rewrite E1. cbn [bind].
  unfold enc_smp. cbn [ls_code ls_diff]. rewrite G5.
  destruct (Z.eqb_spec (Z.of_nat (category (diff16 t))) 0) as [Z0|Z0]; cbn [negb andb].
  - exists v1, d1. split; [reflexivity|]. assert (E0 : category (diff16 t) = 0%nat) by lia.
    assert (Ed : diff16 t = 0) by (unfold category in E0; destruct (Z.eqb_spec (diff16 t) 0); auto; pose proof (Z.log2_nonneg (Z.abs (diff16 t))); lia).
    rewrite Ed. cbn. rewrite app_nil_r. exact HI1.
  - destruct (Z.eqb_spec (Z.of_nat (category (diff16 t))) 16) as [H16|H16]; cbn [negb].
    + exists v1, d1. split; [reflexivity|]. assert (E32 : diff16 t = 32768) by (apply cat16_iff; lia).
      rewrite E32, Z.eqb_refl, app_nil_r. exact HI1.
    + assert (N32 : diff16 t <> 32768) by (intros E; apply H16; rewrite E; reflexivity).
      destruct (Z.eqb_spec (diff16 t) 32768); [congruence|]. rewrite (Ht2 N32).
      destruct (emit_bits_spec base (B ++ bits_of n co) v1 d1 (category (diff16 t)) (u32 (if diff16 t <? 0 then diff16 t - 1 else diff16 t)) HI1 ltac:(lia)) as (v2 & d2 & E2 & HI2).
      rewrite E2. exists v2, d2. split; [reflexivity|]. rewrite app_assoc. unfold extra_bits.
      replace (bits_of (category (diff16 t)) (if diff16 t <? 0 then diff16 t - 1 else diff16 t))
        with (bits_of (category (diff16 t)) (u32 (if diff16 t <? 0 then diff16 t - 1 else diff16 t))); [exact HI2|].
      apply bits_of_ext. intros i Hi. unfold u32. apply Z.mod_pow2_bits_low. lia.
Qed.

Definition smp_of (x : c_derived_tbl * Z) : lsmp := mkSmp (ecode (fst x)) (snd x).
Definition smp_ok (x : c_derived_tbl * Z) : Prop := ct_ok (fst x) /\ coded (fst x) (snd x).

Lemma lencode_mcu_spec : forall m base B v d, Forall smp_ok m -> linv base B v d ->
  exists v' d', lencode_mcu m v d = Ret (Some (v', d')) /\ linv base (B ++ enc_lmcu (map smp_of m)) v' d'.
Proof.
  induction m as [|[t x] m IH]; intros base B v d Hm HI; cbn [lencode_mcu map enc_lmcu flat_map].
  - exists v, d. rewrite app_nil_r. auto.
  - destruct (Forall_inv Hm) as [C1 C2]. cbn [fst snd] in C1, C2.
    destruct (encode_diff_spec base B t x v d C1 C2 HI) as (v1 & d1 & E1 & HI1). rewrite E1. cbn [bind].
    destruct (IH base _ v1 d1 (Forall_inv_tail Hm) HI1) as (v2 & d2 & E2 & HI2). exists v2, d2. split; [exact E2|].
    rewrite <- app_assoc in HI2. exact HI2.
Qed.

(* restart counter while a row is encoded *)
Lemma lencode_loop_spec ri : 0 <= ri < 2 ^ 32 -> forall ms base B v d h dh,
  Forall (Forall smp_ok) ms -> linv base B v d ->
  (ri <> 0 -> lh_togo h <> 0 -> Z.of_nat (length ms) <= lh_togo h < 2 ^ 32) ->
  (ri <> 0 -> lh_togo h = 0 -> Z.of_nat (length ms) <= ri) -> 0 <= lh_togo h -> ms <> [] ->
  exists v' d', lencode_loop ri ms v d h dh =
     Ret (length ms, mkLH v' (if ri =? 0 then lh_togo h else (if lh_togo h =? 0 then ri else lh_togo h) - Z.of_nat (length ms))
                             (if (negb (ri =? 0) && (lh_togo h =? 0)) then Z.land (lh_num h + 1) 7 else lh_num h), d') /\
     linv base (B ++ enc_lrow (map (map smp_of) ms)) v' d'.
Proof.
  intros Hri. induction ms as [|m ms IH]; intros base B v d h dh Hok HI H1 H2 H3 Hne; [congruence|]. cbn [lencode_loop map enc_lrow flat_map].
  destruct (lencode_mcu_spec m base B v d (Forall_inv Hok) HI) as (v1 & d1 & E1 & HI1). rewrite E1. cbn [bind].
  assert (Ec : lcommit ri v1 h = mkLH v1 (if ri =? 0 then lh_togo h else (if lh_togo h =? 0 then ri else lh_togo h) - 1) (if (negb (ri =? 0) && (lh_togo h =? 0)) then Z.land (lh_num h + 1) 7 else lh_num h)).
  { unfold lcommit. destruct (Z.eqb_spec ri 0) as [E0|E0]; cbn [negb andb]; auto. destruct (Z.eqb_spec (lh_togo h) 0) as [Et|Et]; cbn [andb]; rewrite u32_id; auto; lia. }
  rewrite Ec. destruct ms as [|m2 ms].
  - cbn [lencode_loop bind length map flat_map]. exists v1, d1. rewrite app_nil_r. split; [|exact HI1]. reflexivity.
  - set (h1 := mkLH _ _ _). cbn [length] in H1, H2.
    destruct (IH base _ v1 d1 h1 d1 (Forall_inv_tail Hok) HI1) as (v2 & d2 & E2 & HI2).
    + unfold h1. cbn [lh_togo length]. intros N. destruct (Z.eqb_spec ri 0); [congruence|]. destruct (Z.eqb_spec (lh_togo h) 0); intros; lia.
    + unfold h1. cbn [lh_togo length]. intros N. destruct (Z.eqb_spec ri 0); [congruence|]. destruct (Z.eqb_spec (lh_togo h) 0); intros; lia.
    + unfold h1. cbn [lh_togo length]. destruct (Z.eqb_spec ri 0); auto. destruct (Z.eqb_spec (lh_togo h) 0); lia.
    + discriminate.
    + rewrite E2. cbn [bind]. exists v2, d2. rewrite app_assoc. split; [|exact HI2]. unfold h1. cbn [lh_togo lh_num length].
      f_equal. f_equal. f_equal. f_equal.
      * destruct (Z.eqb_spec ri 0); auto. destruct (Z.eqb_spec (lh_togo h) 0); match goal with |- context [?a =? 0] => destruct (Z.eqb_spec a 0) end; lia.
      * destruct (Z.eqb_spec ri 0); cbn [negb andb]; auto. destruct (Z.eqb_spec (lh_togo h) 0); cbn [andb]; match goal with |- context [?a =? 0] => destruct (Z.eqb_spec a 0) end; cbn [andb]; auto; lia.
Qed.

(* ---- the scan ---- *)
Section Scan.
Variable rr : nat.
Definition segf (l : list (list (list lsmp))) : list Z := segment_bytes (enc_lrows l).
Definition after (i : Z) (l : list (list (list lsmp))) : list Z :=
  match l with [] => [] | _ => [255; 208 + i mod 8] ++ join_rst (i + 1) (map segf (intervals (S (length l)) rr l)) end.

Lemma intervals_fuel {A} : forall f f' (l : list A), (length l < f)%nat -> (length l < f')%nat -> intervals f rr l = intervals f' rr l.
Proof.
  induction f as [|f IH]; intros f' l H H'; [lia|]. destruct f' as [|f']; [lia|]. cbn [intervals].
  destruct (Nat.eqb_spec rr 0); cbn [orb]; auto. destruct (Nat.leb_spec (length l) rr); auto. f_equal.
  apply IH; rewrite skipn_length; lia.
Qed.
Lemma intervals_unfold {A} (l : list A) : intervals (S (length l)) rr l =
  if ((rr =? 0) || (length l <=? rr))%nat then [l] else firstn rr l :: intervals (S (length (skipn rr l))) rr (skipn rr l).
Proof.
  assert (E : forall f, intervals (S f) rr l = if ((rr =? 0) || (length l <=? rr))%nat then [l] else firstn rr l :: intervals f rr (skipn rr l)) by reflexivity.
  rewrite E. destruct (Nat.eqb_spec rr 0); cbn [orb]; auto. destruct (Nat.leb_spec (length l) rr); auto. f_equal.
  apply intervals_fuel; rewrite skipn_length; lia.
Qed.
Lemma intervals_nonempty {A} (l : list A) n : intervals (S n) rr l <> [].
Proof. cbn [intervals]. destruct (_ || _); discriminate. Qed.

Definition flen (l : list (list (list lsmp))) : nat := if (rr =? 0)%nat then length l else rr.

Lemma join_unfold i l : join_rst i (map segf (intervals (S (length l)) rr l)) =
  segf (firstn (flen l) l) ++ after i (skipn (flen l) l).
Proof.
  rewrite intervals_unfold. unfold flen. destruct (Nat.eqb_spec rr 0); cbn [orb].
  - rewrite firstn_all, skipn_all. cbn [after map join_rst]. now rewrite app_nil_r.
  - destruct (Nat.leb_spec (length l) rr).
    + rewrite firstn_all2, skipn_all2 by lia. cbn [after map join_rst]. now rewrite app_nil_r.
    + cbn [map join_rst].
      destruct (map segf (intervals (S (length (skipn rr l))) rr (skipn rr l))) as [|s0 r0] eqn:Em.
      { exfalso. apply map_eq_nil in Em. apply (intervals_nonempty _ _ Em). }
      f_equal. unfold after. destruct (skipn rr l) as [|x y] eqn:Es.
      * exfalso. assert (length (skipn rr l) = 0%nat) by (rewrite Es; reflexivity). rewrite skipn_length in *. lia.
      * rewrite <- Em. reflexivity.
Qed.

Variable mpr : nat.
Hypothesis Hmpr : (1 <= mpr)%nat.
Hypothesis Hri : Z.of_nat (rr * mpr) < 2 ^ 32.
Definition rows_of (rows : list (list (list (c_derived_tbl * Z)))) := map (map (map smp_of)) rows.

Lemma lencode_rows_spec : forall rows base B h d t i,
  Forall (fun r => length r = mpr /\ Forall (Forall smp_ok) r) rows -> linv base B (lh_saved h) d -> 0 <= i ->
  lh_num h = i mod 8 -> lh_togo h = Z.of_nat (if (rr =? 0)%nat then 0 else t * mpr) -> (rr <> 0%nat -> (t <= rr)%nat) -> (rr = 0%nat -> (length rows <= t)%nat) ->
  exists h' d' d'', lencode_rows (Z.of_nat (rr * mpr)) rows h d = Ret (Some (h', d')) /\ lfinish_pass h' d' = Ret (mkLH (mkLS 0 0) (lh_togo h') (lh_num h'), d'') /\
    dout d'' = base ++ segment_bytes (B ++ enc_lrows (firstn t (rows_of rows))) ++ after i (skipn t (rows_of rows)) /\ dsusp d'' = false.
Proof.
  induction rows as [|row rows IH]; intros base B h d t i Hok HI Hi Hnum Htg Ht Ht0; cbn [lencode_rows rows_of map].
  - exists h, d. unfold lfinish_pass. destruct (lflush_spec base B _ d HI) as (d1 & E & O & K & S1). rewrite E. cbn [bind].
    exists d1. split; [reflexivity|]. split; [reflexivity|]. split; [|exact S1].
    rewrite firstn_nil, skipn_nil. cbn [enc_lrows flat_map after]. rewrite !app_nil_r. exact O.
  - destruct (Forall_inv Hok) as [Lr Or]. assert (Hne : row <> []) by (intros ->; cbn in Lr; lia).
    unfold encode_mcus_huff.
    assert (Hr0 : Z.of_nat (rr * mpr) = 0 <-> rr = 0%nat) by (split; intros; nia).
    destruct (Nat.eqb_spec rr 0) as [Er|Er].
    + (* no restarts *)
      rewrite (proj2 Hr0 Er). cbn [Z.eqb negb andb bind].
      destruct (lencode_loop_spec 0 ltac:(lia) row base B (lh_saved h) d h d Or HI ltac:(congruence) ltac:(congruence) ltac:(lia) Hne) as (v1 & d1 & E1 & HI1).
      rewrite E1. cbn [bind Z.eqb negb andb]. rewrite Nat.eqb_refl. specialize (Ht0 Er). cbn [length] in Ht0.
      destruct t as [|t]; [lia|].
      destruct (IH base _ (mkLH v1 (lh_togo h) (lh_num h)) d1 t i (Forall_inv_tail Hok) HI1 Hi Hnum Htg ltac:(congruence) ltac:(lia)) as (h' & d' & d'' & J1 & J2 & J3 & J4).
      exists h', d', d''. rewrite (proj2 Hr0 Er) in J1. split; [exact J1|]. split; [exact J2|]. split; [|exact J4]. rewrite J3.
      cbn [firstn skipn enc_lrows flat_map]. rewrite <- app_assoc. reflexivity.
    + destruct (Z.eqb_spec (Z.of_nat (rr * mpr)) 0) as [X|X]; [exfalso; apply Er; apply Hr0; exact X|]. cbn [negb andb]. specialize (Ht Er).
      destruct t as [|t].
      * (* restart *)
        rewrite Htg. cbn [Nat.mul Z.of_nat Z.eqb].
        destruct (lrestart_spec base B (lh_saved h) d (lh_num h) HI ltac:(rewrite Hnum; apply Z.mod_pos_bound; lia)) as (d0 & E0 & HI0). rewrite E0. cbn [bind].
        destruct (lencode_loop_spec (Z.of_nat (rr * mpr)) ltac:(lia) row _ [] _ d0 h d Or HI0) as (v1 & d1 & E1 & HI1); auto.
        { intros _ N. rewrite Htg in N. cbn in N. congruence. }
        { intros _ _. rewrite Lr. destruct rr; [congruence|]. nia. }
        { rewrite Htg. cbn. lia. }
        rewrite E1. cbn [bind]. rewrite Nat.eqb_refl. destruct (Z.eqb_spec (Z.of_nat (rr * mpr)) 0); [congruence|]. rewrite Htg, Lr. cbn [Nat.mul Z.of_nat Z.eqb negb andb].
        assert (Hn' : Z.land (lh_num h + 1) 7 = (i + 1) mod 8).
        { change 7 with (Z.ones 3). rewrite Z.land_ones by lia. change (2 ^ 3) with 8. rewrite Hnum. now rewrite Z.add_mod_idemp_l by lia. }
        rewrite Hn'. cbn [app] in HI1.
        destruct (IH _ _ (mkLH v1 (Z.of_nat (rr * mpr) - Z.of_nat mpr) ((i + 1) mod 8)) d1 (rr - 1)%nat (i + 1) (Forall_inv_tail Hok) HI1 ltac:(lia) eq_refl) as (h' & d' & d'' & J1 & J2 & J3 & J4).
        { cbn [lh_togo]. destruct (Nat.eqb_spec rr 0); [congruence|]. rewrite Nat.mul_sub_distr_r. nia. }
        { intros _. lia. } { intros; congruence. }
        exists h', d', d''. split; [exact J1|]. split; [exact J2|]. split; [|exact J4]. rewrite J3.
        cbn [firstn skipn enc_lrows flat_map after]. rewrite app_nil_r, join_unfold. unfold flen. destruct (Nat.eqb_spec rr 0); [congruence|].
        destruct rr as [|rr']; [congruence|]. replace (S rr' - 1)%nat with rr' by lia. cbn [firstn skipn]. unfold segf. cbn [enc_lrows flat_map].
        rewrite Hnum. rewrite <- !app_assoc. reflexivity.
      * rewrite Htg. destruct (Z.eqb_spec (Z.of_nat (S t * mpr)) 0) as [Y|Y]; [nia|]. cbn [bind].
        destruct (lencode_loop_spec (Z.of_nat (rr * mpr)) ltac:(lia) row base B (lh_saved h) d h d Or HI) as (v1 & d1 & E1 & HI1); auto.
        { intros _ _. rewrite Htg, Lr. split; [nia|]. apply Z.le_lt_trans with (Z.of_nat (rr * mpr)); [nia|exact Hri]. }
        { intros _ N. rewrite Htg in N. congruence. }
        { rewrite Htg. lia. }
        rewrite E1. cbn [bind]. rewrite Nat.eqb_refl. destruct (Z.eqb_spec (Z.of_nat (rr * mpr)) 0); [congruence|]. rewrite Htg, Lr. destruct (Z.eqb_spec (Z.of_nat (S t * mpr)) 0); [congruence|]. cbn [negb andb].
        destruct (IH base _ (mkLH v1 (Z.of_nat (S t * mpr) - Z.of_nat mpr) (lh_num h)) d1 t i (Forall_inv_tail Hok) HI1 Hi Hnum) as (h' & d' & d'' & J1 & J2 & J3 & J4).
        { cbn [lh_togo]. destruct (Nat.eqb_spec rr 0); [congruence|]. nia. }
        { intros _. lia. } { intros; congruence. }
        exists h', d', d''. split; [exact J1|]. split; [exact J2|]. split; [|exact J4]. rewrite J3.
        cbn [firstn skipn enc_lrows flat_map]. rewrite <- app_assoc. reflexivity.
Qed.

Lemma lencode_scan_spec rows d : Forall (fun r => length r = mpr /\ Forall (Forall smp_ok) r) rows -> dest_ok d -> dsusp d = false ->
  exists d', lencode_scan (Z.of_nat (rr * mpr)) (Z.of_nat mpr) rows d = Ret (Some d') /\ dout d' = dout d ++ lscan_bytes rr (rows_of rows) /\ dsusp d' = false.
Proof.
  intros Hok Hd Hs. unfold lencode_scan. destruct (Z.eqb_spec (Z.of_nat mpr) 0); [lia|].
  assert (Em : Z.of_nat (rr * mpr) mod Z.of_nat mpr = 0) by (rewrite Nat2Z.inj_mul; apply Z.mod_mul; lia). rewrite Em. cbn [Z.eqb negb].
  destruct (lencode_rows_spec rows (dout d) [] (start_pass_lhuff (Z.of_nat (rr * mpr))) d (flen (rows_of rows)) 0 Hok (linv_nil _ d eq_refl Hd Hs) ltac:(lia) eq_refl) as (h' & d' & d'' & J1 & J2 & J3 & J4).
  { unfold start_pass_lhuff, flen. cbn [lh_togo]. destruct (Nat.eqb_spec rr 0); subst; reflexivity. }
  { unfold flen. destruct (Nat.eqb_spec rr 0); lia. }
  { unfold flen, rows_of. rewrite map_length. intros ->. cbn. lia. }
  rewrite J1. cbn [bind]. rewrite J2. cbn [bind]. exists d''. split; [reflexivity|]. split; [|exact J4]. rewrite J3. f_equal.
  unfold lscan_bytes. fold segf. change (fun seg0 => segment_bytes (enc_lrows seg0)) with segf. rewrite join_unfold. reflexivity.
Qed.
End Scan.
