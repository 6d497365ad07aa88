(* P_HuffEnc.v -- the bit accumulator of the Huffman encoder *)
From Verif Require Import Base M_HuffTbl S_Huff S_Stream S_Block P_HuffTbl P_BitRead P_HuffDec M_HuffEnc.

Lemma bits_of_put n m v c : (n + m <= 64)%nat -> 0 <= c < 2 ^ Z.of_nat m ->
  bits_of (n + m) (u64 (Z.lor (Z.shiftl v (Z.of_nat m)) c)) = bits_of n v ++ bits_of m c.
Proof.
  intros Hn Hc. rewrite bits_of_app. f_equal.
  - apply bits_of_ext. intros i Hi. rewrite Z.shiftr_spec by lia. unfold u64.
    rewrite Z.mod_pow2_bits_low by lia. rewrite Z.lor_spec, Z.shiftl_spec by lia.
    replace (i + Z.of_nat m - Z.of_nat m) with i by lia.
    destruct (Z.eq_dec c 0) as [->|]; [rewrite Z.bits_0; apply orb_false_r|].
    rewrite (Z.bits_above_log2 c (i + Z.of_nat m)), orb_false_r; [reflexivity|lia|].
    apply Z.log2_lt_pow2; [lia|]. eapply Z.lt_le_trans; [apply Hc|]. apply Z.pow_le_mono_r; lia.
  - apply bits_of_ext. intros i Hi. unfold u64. rewrite Z.mod_pow2_bits_low by lia.
    rewrite Z.lor_spec, Z.shiftl_spec_low by lia. reflexivity.
Qed.

Lemma stuff_app a b : stuff (a ++ b) = stuff a ++ stuff b.
Proof. induction a as [|x a IH]; cbn; auto. destruct (x =? 255); cbn; rewrite IH; auto. Qed.

Lemma stuff_length a : (length (stuff a) <= 2 * length a)%nat.
Proof. induction a as [|x a IH]; cbn; auto. destruct (x =? 255); cbn; lia. Qed.

Lemma stuff_no_ff a : ~ In 255 a -> stuff a = a.
Proof.
  induction a as [|x a IH]; cbn; auto. intros H. destruct (Z.eqb_spec x 255) as [->|].
  - exfalso. apply H. auto.
  - rewrite IH; auto.
Qed.

Lemma EMIT_BYTES_spec : forall bs buf,
  (length buf + length (stuff (map u8 bs)) + 1 <= 512)%nat ->
  EMIT_BYTES bs buf = Ret (buf ++ stuff (map u8 bs)).
Proof.
  induction bs as [|b bs IH]; intros buf H; cbn [EMIT_BYTES map stuff].
  - now rewrite app_nil_r.
  - unfold EMIT_BYTE. cbn [map stuff] in H. pose proof (u8_range b) as Hr.
    destruct (Z.eqb_spec (u8 b) 255) as [E|E].
    + cbn [length] in H. destruct (Z.ltb_spec 512 (Z.of_nat (length buf) + 2)); [lia|].
      rewrite E. cbn [Z.ltb Z.compare Pos.compare Pos.compare_cont bind].
      rewrite IH by (rewrite app_length; cbn; lia). rewrite <- app_assoc. reflexivity.
    + cbn [length] in H. destruct (Z.ltb_spec 512 (Z.of_nat (length buf) + 2)); [lia|].
      destruct (Z.ltb_spec (u8 b) 255); [|lia]. cbn [bind].
      rewrite IH by (rewrite app_length; cbn; lia). rewrite <- app_assoc. reflexivity.
Qed.

(* the FF test of FLUSH has no false negatives *)
Lemma ff_test_byte p i : 0 <= p < 2 ^ 64 -> 0 <= i < 8 ->
  u8 (Z.shiftr p (8 * i)) = 255 ->
  Z.testbit (Z.land (Z.land p 9259542123273814144) (Z.lnot (u64 (p + 72340172838076673)))) (8 * i + 7) = true.
Proof.
  intros Hp Hi HF. rewrite !Z.land_spec, Z.lnot_spec by lia.
  assert (HK : Z.testbit 9259542123273814144 (8 * i + 7) = true).
  { assert (i = 0 \/ i = 1 \/ i = 2 \/ i = 3 \/ i = 4 \/ i = 5 \/ i = 6 \/ i = 7) as Hc by lia.
    destruct Hc as [->|[->|[->|[->|[->|[->|[->| ->]]]]]]]; reflexivity. }
  rewrite HK, andb_true_r.
  assert (Hpb : Z.testbit p (8 * i + 7) = true).
  { replace (8 * i + 7) with (7 + 8 * i) by lia. rewrite <- Z.shiftr_spec by lia.
    rewrite <- (Z.mod_pow2_bits_low _ 8) by lia. fold (u8 (Z.shiftr p (8 * i))). rewrite HF. reflexivity. }
  rewrite Hpb. cbn [andb]. apply negb_true_iff.
  unfold u64. rewrite Z.mod_pow2_bits_low by lia.
  replace (8 * i + 7) with (7 + 8 * i) by lia. rewrite <- Z.shiftr_spec by lia.
  rewrite <- (Z.mod_pow2_bits_low _ 8) by lia.
  rewrite Z.shiftr_div_pow2 by lia.
  set (q := 2 ^ (8 * i)). assert (Hq : 0 < q) by (apply Z.pow_pos_nonneg; lia).
  set (K := 72340172838076673).
  assert (HKq : exists m, K / q = 256 * m + 1).
  { unfold K, q.
    assert (i = 0 \/ i = 1 \/ i = 2 \/ i = 3 \/ i = 4 \/ i = 5 \/ i = 6 \/ i = 7) as Hc by lia.
    exists (72340172838076673 / 2 ^ (8 * i) / 256).
    pose proof (Z.div_mod (72340172838076673 / 2 ^ (8 * i)) 256 ltac:(lia)) as HD.
    rewrite HD at 1. f_equal.
    destruct Hc as [->|[->|[->|[->|[->|[->|[->| ->]]]]]]]; reflexivity. }
  destruct HKq as [m Hm].
  assert (HPq : exists n, p / q = 256 * n + 255).
  { unfold u8 in HF. rewrite Z.shiftr_div_pow2 in HF by lia. fold q in HF. change (2 ^ 8) with 256 in HF.
    exists (p / q / 256). pose proof (Z.div_mod (p / q) 256 ltac:(lia)) as HD. lia. }
  destruct HPq as [n Hn].
  assert (Hc : exists c, (c = 0 \/ c = 1) /\ (p + K) / q = p / q + K / q + c).
  { pose proof (Z.div_mod p q ltac:(lia)) as D1. pose proof (Z.div_mod K q ltac:(lia)) as D2.
    pose proof (Z.mod_pos_bound p q Hq). pose proof (Z.mod_pos_bound K q Hq).
    destruct (Z_lt_ge_dec (p mod q + K mod q) q).
    - exists 0. split; auto. rewrite Z.add_0_r. symmetry. apply Z.div_unique with (r := p mod q + K mod q); lia.
    - exists 1. split; auto. symmetry. apply Z.div_unique with (r := p mod q + K mod q - q); lia. }
  destruct Hc as (c & Hc & E). rewrite E, Hn, Hm.
  replace (256 * n + 255 + (256 * m + 1) + c) with (c + (n + m + 1) * 2 ^ 8) by (change (2 ^ 8) with 256; lia).
  rewrite Z_mod_plus_full. destruct Hc as [->| ->]; reflexivity.
Qed.

Lemma flush_shifts_form p : flush_shifts p = map (fun i => Z.shiftr p (8 * i)) [7;6;5;4;3;2;1;0].
Proof. unfold flush_shifts. cbn [map]. rewrite Z.shiftr_0_r. reflexivity. Qed.

Lemma bits_of_u8 v : bits_of 8 (u8 v) = bits_of 8 v.
Proof. apply (bits_of_mod 8). Qed.

Lemma flush_bits64 p : bytes_to_bits (map u8 (flush_shifts p)) = bits_of 64 p.
Proof.
  unfold flush_shifts. cbn [map bytes_to_bits]. rewrite !bits_of_u8, app_nil_r.
  change 64%nat with (8 + 56)%nat. rewrite bits_of_app. f_equal.
  change 56%nat with (8 + 48)%nat. rewrite bits_of_app. f_equal.
  change 48%nat with (8 + 40)%nat. rewrite bits_of_app. f_equal.
  change 40%nat with (8 + 32)%nat. rewrite bits_of_app. f_equal.
  change 32%nat with (8 + 24)%nat. rewrite bits_of_app. f_equal.
  change 24%nat with (8 + 16)%nat. rewrite bits_of_app. f_equal.
  change 16%nat with (8 + 8)%nat. rewrite bits_of_app. f_equal.
Qed.

Lemma FLUSH_spec p buf : 0 <= p < 2 ^ 64 ->
  (length buf + length (stuff (map u8 (flush_shifts p))) + 1 <= 512)%nat ->
  FLUSH p buf = Ret (buf ++ stuff (map u8 (flush_shifts p))).
Proof.
  intros Hp Hl. unfold FLUSH.
  destruct (Z.eqb_spec (Z.land (Z.land p 9259542123273814144) (Z.lnot (u64 (p + 72340172838076673)))) 0) as [E|E];
    cbn [negb]; [|apply EMIT_BYTES_spec; auto].
  assert (HN : ~ In 255 (map u8 (flush_shifts p))).
  { intros Hi. rewrite flush_shifts_form, map_map in Hi. apply in_map_iff in Hi.
    destruct Hi as (i & Hi & Hin).
    assert (0 <= i < 8) by (cbn in Hin; lia).
    pose proof (ff_test_byte p i Hp ltac:(auto) Hi) as T. rewrite E in T. rewrite Z.bits_0 in T. discriminate. }
  rewrite (stuff_no_ff _ HN) in *. rewrite map_length in Hl. change (length (flush_shifts p)) with 8%nat in Hl.
  destruct (Z.ltb_spec 512 (Z.of_nat (length buf) + 8)); [lia|]. reflexivity.
Qed.

(* the accumulator holds the bits B: whole data bytes D already written (stuffed), the rest in
   the low bits of put_buffer *)
Definition einv (s : est) (B : list bool) : Prop :=
  0 <= fb s <= 64 /\
  exists D, Forall byte D /\ ebuf s = stuff D /\
            bytes_to_bits D ++ bits_of (Z.to_nat (64 - fb s)) (pb s) = B.

Lemma u8_byte v : byte (u8 v). Proof. apply u8_range. Qed.

Lemma PUT_BITS_spec s B code size :
  einv s B -> (size <= 31)%nat -> 0 <= code < 2 ^ Z.of_nat size ->
  (length B + size <= 2040)%nat ->
  exists s', PUT_BITS code (Z.of_nat size) s = Ret s' /\ einv s' (B ++ bits_of size code).
Proof.
  intros (Hf & D & HD & Hbuf & HB) Hs Hc Hl. unfold PUT_BITS.
  destruct (Z.ltb_spec (fb s - Z.of_nat size) 0) as [Hneg|Hpos].
  - replace (Z.of_nat size + (fb s - Z.of_nat size)) with (fb s) by lia.
    destruct (Z.ltb_spec (fb s) 0); [lia|]. destruct (Z.ltb_spec 63 (fb s)); [lia|].
    destruct (Z.ltb_spec 31 (- (fb s - Z.of_nat size))); [lia|]. cbn [orb].
    set (hi := Z.to_nat (fb s)). set (lo := (size - hi)%nat).
    assert (Ehi : fb s = Z.of_nat hi) by lia. rewrite Ehi in *.
    replace (- (Z.of_nat hi - Z.of_nat size)) with (Z.of_nat lo) by lia.
    assert (Hch : 0 <= Z.shiftr code (Z.of_nat lo) < 2 ^ Z.of_nat hi).
    { rewrite Z.shiftr_div_pow2 by lia. split; [apply Z.div_pos; [lia|apply Z.pow_pos_nonneg; lia]|].
      apply Z.div_lt_upper_bound; [apply Z.pow_pos_nonneg; lia|].
      rewrite <- Z.pow_add_r by lia. replace (Z.of_nat lo + Z.of_nat hi) with (Z.of_nat size) by lia. lia. }
    set (w := u64 (Z.lor (Z.shiftl (pb s) (Z.of_nat hi)) (Z.shiftr code (Z.of_nat lo)))).
    assert (Hw : 0 <= w < 2 ^ 64) by (apply Z.mod_pos_bound; lia).
    assert (Hwb : bits_of 64 w = bits_of (64 - hi) (pb s) ++ bits_of hi (Z.shiftr code (Z.of_nat lo))).
    { unfold w. rewrite <- (bits_of_put (64 - hi) hi) by (auto; lia). f_equal. lia. }
    assert (HlB : length B = (8 * length D + (64 - hi))%nat).
    { rewrite <- HB, app_length, length_bytes_to_bits, length_bits_of. lia. }
    rewrite FLUSH_spec; auto.
    2:{ rewrite Hbuf. pose proof (stuff_length D). pose proof (stuff_length (map u8 (flush_shifts w))) as H5.
        rewrite map_length in H5. change (length (flush_shifts w)) with 8%nat in H5. lia. }
    cbn [bind]. eexists. split; [reflexivity|]. unfold einv. cbn [fb pb ebuf]. split; [lia|].
    exists (D ++ map u8 (flush_shifts w)). split; [|split].
    + apply Forall_app. split; auto. apply Forall_map. apply Forall_forall. intros; apply u8_byte.
    + rewrite Hbuf, stuff_app. reflexivity.
    + rewrite bytes_to_bits_app, flush_bits64, Hwb, <- HB.
      replace (Z.to_nat (64 - (Z.of_nat hi - Z.of_nat size + 64))) with lo by lia.
      replace (Z.to_nat (64 - Z.of_nat hi)) with (64 - hi)%nat by lia.
      replace size with (hi + lo)%nat by lia. rewrite bits_of_app, <- !app_assoc. reflexivity.
  - destruct (Z.ltb_spec (Z.of_nat size) 0); [lia|]. destruct (Z.ltb_spec 63 (Z.of_nat size)); [lia|].
    cbn [orb]. eexists. split; [reflexivity|]. unfold einv. cbn [fb pb ebuf]. split; [lia|].
    exists D. split; [auto|]. split; [auto|]. rewrite <- HB, <- app_assoc. f_equal.
    rewrite <- bits_of_put by (auto; lia). f_equal. lia.
Qed.

Lemma PUT_CODE_spec s B temp n co si :
  einv s B -> (n <= 15)%nat -> (si <= 16)%nat -> 0 <= co < 2 ^ Z.of_nat si ->
  (length B + (n + si) <= 2040)%nat ->
  exists s', PUT_CODE temp (Z.of_nat n) co (Z.of_nat si) s = Ret s' /\
             einv s' (B ++ bits_of si co ++ bits_of n temp).
Proof.
  intros I Hn Hs Hc Hl. unfold PUT_CODE.
  destruct (Z.ltb_spec (Z.of_nat n) 0); [lia|]. destruct (Z.ltb_spec 31 (Z.of_nat n)); [lia|]. cbn [orb].
  assert (Hpn : 0 < 2 ^ Z.of_nat n) by (apply Z.pow_pos_nonneg; lia).
  assert (E1 : Z.land temp (2 ^ Z.of_nat n - 1) = temp mod 2 ^ Z.of_nat n).
  { rewrite <- Z.land_ones by lia. rewrite Z.ones_equiv. reflexivity. }
  rewrite E1. pose proof (Z.mod_pos_bound temp (2 ^ Z.of_nat n) Hpn) as Hm.
  assert (Hprod : co * 2 ^ Z.of_nat n + temp mod 2 ^ Z.of_nat n < 2 ^ (Z.of_nat si + Z.of_nat n)).
  { rewrite Z.pow_add_r by lia. nia. }
  assert (Hle : 2 ^ (Z.of_nat si + Z.of_nat n) <= 2 ^ 31) by (apply Z.pow_le_mono_r; lia).
  assert (E2 : u32 (Z.shiftl co (Z.of_nat n)) = Z.shiftl co (Z.of_nat n)).
  { apply u32_id. rewrite Z.shiftl_mul_pow2 by lia. nia. }
  rewrite E2, Z.lor_comm, lor_shiftl_add by lia.
  set (v := co * 2 ^ Z.of_nat n + temp mod 2 ^ Z.of_nat n) in *.
  assert (Hv : 0 <= v) by (unfold v; nia).
  rewrite s32_id by lia. destruct (Z.ltb_spec v 0); [lia|].
  replace (Z.of_nat n + Z.of_nat si) with (Z.of_nat (si + n)) by lia.
  destruct (PUT_BITS_spec s B v (si + n) I ltac:(lia)) as (s' & E & I').
  - replace (Z.of_nat (si + n)) with (Z.of_nat si + Z.of_nat n) by lia. lia.
  - lia.
  - exists s'. split; auto. rewrite bits_of_app in I'.
    replace (Z.shiftr v (Z.of_nat n)) with co in I'.
    + replace (bits_of n v) with (bits_of n temp) in I'; auto.
      rewrite <- bits_of_mod. unfold v. rewrite bits_of_add_high. reflexivity.
    + rewrite Z.shiftr_div_pow2 by lia. unfold v. rewrite Z.div_add_l by lia. rewrite Z.div_small by lia. lia.
Qed.

(* ---- one block ---- *)
Definition ecode (d : c_derived_tbl) (s : Z) : list bool :=
  bits_of (Z.to_nat (nth (Z.to_nat s) (ehufsi d) 0)) (nth (Z.to_nat s) (ehufco d) 0).

Definition ct_ok (d : c_derived_tbl) : Prop :=
  length (ehufco d) = 256%nat /\ length (ehufsi d) = 256%nat /\
  forall i, (i < 256)%nat -> exists n, (n <= 16)%nat /\ nth i (ehufsi d) 0 = Z.of_nat n /\
                                       0 <= nth i (ehufco d) 0 < 2 ^ Z.of_nat n.

Lemma ct_get d i : ct_ok d -> 0 <= i < 256 -> exists n co,
  aget (ehufco d) i = Ret co /\ aget (ehufsi d) i = Ret (Z.of_nat n) /\ (n <= 16)%nat /\
  0 <= co < 2 ^ Z.of_nat n /\ ecode d i = bits_of n co.
Proof.
  intros (L1 & L2 & H) Hi. destruct (H (Z.to_nat i) ltac:(lia)) as (n & Hn & E & Hc).
  exists n, (nth (Z.to_nat i) (ehufco d) 0).
  split; [apply aget_nth; lia|]. split; [rewrite <- E; apply aget_nth; lia|]. split; [auto|]. split; [auto|].
  unfold ecode. now rewrite E, Nat2Z.id.
Qed.

Lemma abs_trick_spec v : -65536 < v < 65536 ->
  abs_trick v = ((if v <? 0 then v - 1 else v), Z.abs v).
Proof.
  intros Hv. unfold abs_trick. rewrite Z.shiftr_div_pow2 by lia.
  destruct (Z.ltb_spec v 0).
  - replace (v / 2 ^ 31) with (-1) by (apply Z.div_unique with (r := v + 2 ^ 31); lia).
    f_equal. rewrite Z.lxor_m1_l. unfold Z.lnot. lia.
  - rewrite Z.div_small by lia. rewrite Z.add_0_r, Z.lxor_0_l. f_equal. lia.
Qed.

Lemma nbits_spec v : -65536 < v < 65536 -> JPEG_NBITS (Z.abs v) = Ret (Z.of_nat (category v)).
Proof.
  intros Hv. unfold JPEG_NBITS, category.
  destruct (Z.ltb_spec (Z.abs v) 0); [lia|]. destruct (Z.ltb_spec 65535 (Z.abs v)); [lia|]. cbn [orb].
  destruct (Z.eqb_spec (Z.abs v) 0); destruct (Z.eqb_spec v 0); try lia; [reflexivity|].
  rewrite Z2Nat.id; [reflexivity|]. pose proof (Z.log2_nonneg (Z.abs v)). lia.
Qed.

Lemma put_zrl_spec actbl : ct_ok actbl -> forall q fuel r s B,
  (q <= fuel)%nat -> (r < 16)%nat -> einv s B -> (length B + 16 * q <= 2040)%nat ->
  exists s', put_zrl fuel (16 * Z.of_nat (16 * q + r)) actbl s = Ret (16 * Z.of_nat r, s') /\
    einv s' (B ++ flat_map (fun _ => ecode actbl 240) (seq 0 q)).
Proof.
  intros Ht. induction q as [|q IH]; intros fuel r s B Hf Hr I Hl.
  - exists s. cbn [seq flat_map]. rewrite app_nil_r. split; auto.
    destruct fuel; cbn [put_zrl]; destruct (Z.leb_spec 256 (16 * Z.of_nat (16 * 0 + r))); try lia;
      do 2 f_equal; lia.
  - destruct fuel as [|fuel]; [lia|]. cbn [put_zrl].
    destruct (Z.leb_spec 256 (16 * Z.of_nat (16 * S q + r))); [|lia].
    destruct (ct_get actbl 240 Ht ltac:(lia)) as (n & co & E1 & E2 & Hn & Hc & E3).
    rewrite E1, E2. cbn [bind].
    destruct (PUT_BITS_spec s B co n I ltac:(lia) Hc ltac:(lia)) as (s1 & -> & I1). cbn [bind].
    replace (16 * Z.of_nat (16 * S q + r) - 256) with (16 * Z.of_nat (16 * q + r)) by lia.
    destruct (IH fuel r s1 (B ++ bits_of n co) ltac:(lia) Hr I1) as (s2 & E & I2).
    { rewrite app_length, length_bits_of. lia. }
    exists s2. split; auto. rewrite <- app_assoc in I2.
    replace (flat_map (fun _ => ecode actbl 240) (seq 0 (S q)))
      with (bits_of n co ++ flat_map (fun _ => ecode actbl 240) (seq 0 q)); auto.
    cbn [seq flat_map]. rewrite E3. f_equal.
    rewrite <- seq_shift, flat_map_concat_map, flat_map_concat_map, map_map. reflexivity.
Qed.

Definition coef16 (v : Z) : Prop := -32768 <= v < 32768.

(* AC coefficients in coding order ks *)
Lemma kloops_spec mcb blk actbl : ct_ok actbl -> (mcb <= 14)%nat ->
  length blk = 64%nat -> Forall coef16 blk ->
  forall ks r s B,
  Forall (fun k => (k < 64)%nat) ks -> (r + length ks <= 63)%nat -> einv s B ->
  (length B + 30 * (r + length ks) + 16 <= 2040)%nat ->
  let vs := map (fun k => nth k blk 0) ks in
  (Forall (fun v => (category v <= mcb)%nat) vs ->
   exists s' r' B', kloops (Z.of_nat mcb) blk actbl (map Z.of_nat ks) (16 * Z.of_nat r, s)
                    = Ret (16 * Z.of_nat r', s') /\ einv s' B' /\ (length B' + 16 <= 2040)%nat /\
     B' ++ (match r' with O => [] | _ => ecode actbl 0 end) = B ++ enc_ac (ecode actbl) r vs) /\
  (~ Forall (fun v => (category v <= mcb)%nat) vs ->
   kloops (Z.of_nat mcb) blk actbl (map Z.of_nat ks) (16 * Z.of_nat r, s) = Error JERR_BAD_DCT_COEF).
Proof.
  intros Ht Hm Hlen Hc16. induction ks as [|k ks IH]; intros r s B Hks Hr I Hl vs.
  - split; [|intros H; exfalso; apply H; constructor].
    intros _. exists s, r, B. cbn. split; auto. split; auto. split; auto. lia.
  - inversion Hks as [|? ? Hk Hks']; subst. cbn [map kloops]. unfold kloop at 1 2.
    unfold vs. cbn [map enc_ac]. set (v := nth k blk 0) in *. cbn [length] in *.
    assert (Hg : aget blk (Z.of_nat k) = Ret v).
    { unfold v. rewrite (aget_nth blk _ 0) by lia. now rewrite Nat2Z.id. }
    assert (Hv : coef16 v). { rewrite Forall_forall in Hc16. apply Hc16. apply nth_In. lia. }
    unfold coef16 in Hv. rewrite Hg. cbn [bind].
    destruct (Z.eqb_spec v 0) as [E0|E0].
    + cbn [bind]. replace (16 * Z.of_nat r + 16) with (16 * Z.of_nat (S r)) by lia.
      specialize (IH (S r) s B Hks' ltac:(lia) I ltac:(lia)). destruct IH as [IH1 IH2]. split.
      * intros HF. inversion HF; subst. apply IH1; auto.
      * intros HF. apply IH2. intros HF2. apply HF. constructor; auto. rewrite E0. cbn. lia.
    + rewrite abs_trick_spec, nbits_spec by lia. cbn [bind].
      destruct (Z.ltb_spec (Z.of_nat mcb) (Z.of_nat (category v))) as [Hbig|Hsmall].
      * cbn [bind]. split; auto. intros HF. inversion HF; subst. lia.
      * assert (Hrd : r = (16 * (r / 16) + r mod 16)%nat) by (apply Nat.div_mod; lia).
        assert (Hrm : (r mod 16 < 16)%nat) by (apply Nat.mod_upper_bound; lia).
        destruct (put_zrl_spec actbl Ht (r / 16) 4 (r mod 16) s B) as (s1 & E1 & I1); auto.
        { assert (r / 16 < 4)%nat by (apply Nat.div_lt_upper_bound; lia). lia. }
        { lia. }
        rewrite <- Hrd in E1. rewrite E1. cbn [bind].
        replace (16 * Z.of_nat (r mod 16) + Z.of_nat (category v))
          with (16 * Z.of_nat (r mod 16) + Z.of_nat (category v)) by lia.
        destruct (ct_get actbl (16 * Z.of_nat (r mod 16) + Z.of_nat (category v)) Ht ltac:(lia))
          as (n & co & G1 & G2 & Hn & Hc & G3).
        rewrite G1, G2. cbn [bind].
        set (Z1 := flat_map (fun _ => ecode actbl 240) (seq 0 (r / 16))) in *.
        assert (HZ1 : (length Z1 <= 16 * (r / 16))%nat).
        { unfold Z1. destruct (ct_get actbl 240 Ht ltac:(lia)) as (n0 & co0 & _ & _ & Hn0 & _ & ->).
          assert (HG : forall q a, (length (flat_map (fun _ : nat => bits_of n0 co0) (seq a q)) <= 16 * q)%nat).
          { clear -Hn0. induction q as [|q IH]; intros a; cbn [seq flat_map length]; [lia|].
            rewrite app_length, length_bits_of. specialize (IH (S a)). lia. }
          apply HG. }
        destruct (PUT_CODE_spec s1 (B ++ Z1) (if v <? 0 then v - 1 else v) (category v) co n I1 ltac:(lia) ltac:(lia) Hc)
          as (s2 & -> & I2).
        { rewrite app_length. lia. }
        cbn [bind]. change (0, s2) with (16 * Z.of_nat 0, s2).
        specialize (IH 0%nat s2 ((B ++ Z1) ++ bits_of n co ++ bits_of (category v) (if v <? 0 then v - 1 else v)) Hks').
        destruct IH as [IH1 IH2]; [lia|exact I2| |].
        { rewrite !app_length, !length_bits_of. lia. }
        split.
        -- intros HF. inversion HF; subst.
           destruct IH1 as (s' & r' & B' & K1 & K2 & K3 & K4); auto.
           exists s', r', B'. split; [exact K1|]. split; auto. split; auto.
           rewrite K4, G3. unfold extra_bits. rewrite <- !app_assoc. reflexivity.
        -- intros HF. apply IH2. intros HF2. apply HF. constructor; auto. lia.
Qed.

Lemma zigzag_lt : Forall (fun k => (k < 64)%nat) (tl zigzag).
Proof. apply Forall_forall. intros x Hx. vm_compute in Hx. repeat (destruct Hx as [<-|Hx]; [lia|]). destruct Hx. Qed.

Lemma kloop_order_spec : kloop_order = map Z.of_nat (tl zigzag).
Proof. reflexivity. Qed.

(* what the encoder can code: DC difference of at most mcb+1 bits, AC coefficients of at most mcb *)
Definition block_in_range (mcb : nat) (pred : Z) (blk : list Z) : Prop :=
  (category (nth 0 blk 0%Z - pred) <= mcb + 1)%nat /\
  Forall (fun v => (category v <= mcb)%nat) (tl (zz blk)).

Lemma tl_zz blk : tl (zz blk) = map (fun k => nth k blk 0) (tl zigzag).
Proof. reflexivity. Qed.

Lemma encode_one_block_spec mcb blk pred dctbl actbl p f B :
  ct_ok dctbl -> ct_ok actbl -> (mcb <= 14)%nat -> length blk = 64%nat -> Forall coef16 blk -> coef16 pred ->
  0 <= f <= 64 -> B = bits_of (Z.to_nat (64 - f)) p ->
  (block_in_range mcb pred blk ->
   exists e, encode_one_block (Z.of_nat mcb) blk pred dctbl actbl p f = Ret e /\
             einv e (B ++ enc_block (ecode dctbl) (ecode actbl) pred blk) /\
             (length (B ++ enc_block (ecode dctbl) (ecode actbl) pred blk) <= 2040)%nat) /\
  (~ block_in_range mcb pred blk ->
   encode_one_block (Z.of_nat mcb) blk pred dctbl actbl p f = Error JERR_BAD_DCT_COEF).
Proof.
  intros Hd Ha Hm Hlen Hc16 Hpred Hf HB.
  assert (I0 : einv (mkE p f []) B).
  { unfold einv. cbn [fb pb ebuf]. split; [lia|]. exists []. split; [constructor|]. split; [reflexivity|]. now rewrite HB. }
  assert (HlB : (length B <= 64)%nat) by (rewrite HB, length_bits_of; lia).
  unfold encode_one_block, encode_dc.
  set (v := nth 0 blk 0). assert (Hv : coef16 v). { rewrite Forall_forall in Hc16. apply Hc16. apply nth_In. lia. }
  unfold coef16 in *. rewrite (aget_nth blk 0 0) by lia. change (Z.to_nat 0) with 0%nat. fold v. cbn [bind].
  rewrite abs_trick_spec, nbits_spec by lia. cbn [bind].
  set (dd := v - pred) in *.
  unfold block_in_range. fold v. fold dd. rewrite tl_zz.
  replace (Z.of_nat mcb + 1) with (Z.of_nat (mcb + 1)) by lia.
  destruct (Z.ltb_spec (Z.of_nat (mcb + 1)) (Z.of_nat (category dd))) as [Hbig|Hsm].
  { cbn [bind]. split; [intros [H _]; lia|auto]. }
  destruct (ct_get dctbl (Z.of_nat (category dd)) Hd ltac:(lia)) as (n & co & G1 & G2 & Hn & Hc & G3).
  rewrite G1, G2. cbn [bind].
  destruct (PUT_CODE_spec (mkE p f []) B (if dd <? 0 then dd - 1 else dd) (category dd) co n I0 ltac:(lia) ltac:(lia) Hc)
    as (s1 & -> & I1); [lia|]. cbn [bind].
  rewrite kloop_order_spec. change (0, s1) with (16 * Z.of_nat 0, s1).
  destruct (kloops_spec mcb blk actbl Ha Hm Hlen Hc16 (tl zigzag) 0 s1 _ zigzag_lt ltac:(cbn; lia) I1) as [K1 K2].
  { rewrite !app_length, !length_bits_of. change (length (tl zigzag)) with 63%nat. lia. }
  split.
  - intros [_ HF]. destruct (K1 HF) as (s2 & r' & B' & E & I2 & L2 & EB). rewrite E. cbn [bind].
    assert (HE : B' ++ (match r' with O => [] | _ => ecode actbl 0 end) =
                 B ++ enc_block (ecode dctbl) (ecode actbl) pred blk).
    { rewrite EB. unfold enc_block, enc_dc. fold v. fold dd. rewrite G3, tl_zz.
      unfold extra_bits. rewrite <- !app_assoc. reflexivity. }
    destruct r' as [|r'].
    + cbn [Z.of_nat Z.mul Z.ltb Z.compare]. exists s2. rewrite app_nil_r in HE. rewrite <- HE. split; auto. split; auto. lia.
    + destruct (Z.ltb_spec 0 (16 * Z.of_nat (S r'))); [|lia].
      destruct (ct_get actbl 0 Ha ltac:(lia)) as (n0 & co0 & F1 & F2 & Hn0 & Hc0 & F3).
      rewrite F1, F2. cbn [bind].
      destruct (PUT_BITS_spec s2 B' co0 n0 I2 ltac:(lia) Hc0 ltac:(lia)) as (s3 & -> & I3).
      exists s3. split; auto. rewrite <- HE, F3. split; [exact I3|]. rewrite app_length, length_bits_of. lia.
  - intros HN. rewrite K2; [reflexivity|]. intros HF. apply HN. split; auto. lia.
Qed.
