(* T_LossHuff.v -- property C27: the lossless Huffman coder and decoder are inverse *)
From Verif Require Import Base M_HuffTbl M_Source M_BitRead M_HuffEnc M_Lossless M_LossHuff S_Huff S_Stream S_Block S_Lossless S_LossHuff
  P_HuffTbl P_HuffTblD P_BitRead P_HuffEnc P_HuffScan P_EncTbl P_Round P_LossHuff P_LossDec T_Lossless.

(* A scan: MCU rows of MCUs of samples, each a Huffman table (as in the DHT marker) and a difference.
   What the compressor is given for a sample: the table derived from it, and the difference. *)
Definition enc_prepared (x : JHUFF_TBL * Z) (e : c_derived_tbl * Z) : Prop :=
  huff_type_ok (fst x) = true /\ jpeg_make_c_derived_tbl true true (Some (fst x)) = Ret (fst e) /\ snd e = snd x.
Definition dec_prepared (x : JHUFF_TBL * Z) (dt : d_derived_tbl) : Prop :=
  huff_type_ok (fst x) = true /\ jpeg_make_d_derived_tbl true true (Some (fst x)) = Ret dt.
(* the category of the difference has a code in the table *)
Definition sample_coded (x : JHUFF_TBL * Z) : Prop :=
  has_code (hbits (fst x)) (hval (fst x)) (Z.of_nat (category (diff16 (snd x)))).
(* the sample in the terms of the specification *)
Definition spec_smp (x : JHUFF_TBL * Z) : lsmp := mkSmp (table_code (hbits (fst x)) (hval (fst x))) (snd x).

Lemma cat256 d : 0 <= Z.of_nat (category (diff16 d)) < 256.
Proof.
  assert (H : (category (diff16 d) <= 16)%nat) by (apply category_le; pose proof (diff16_range d); change (2 ^ Z.of_nat 16) with 65536; lia).
  lia.
Qed.

Lemma has_code_nonnil t s : code_space_ok (hbits t) -> (has_code (hbits t) (hval t) s <-> table_code (hbits t) (hval t) s <> []).
Proof.
  intros HC. split.
  - intros H. destruct (table_code_find _ _ _ H) as (k & Hk & _ & E). rewrite E. intros X.
    pose proof (code_word_length (code_sizes (hbits t)) k) as L. apply (f_equal (@length bool)) in X. rewrite L in X. change (length (@nil bool)) with 0%nat in X.
    pose proof (sizes_nth _ k (code_sizes_ok (hbits t)) Hk). lia.
  - unfold table_code. destruct (find _ _) as [k|] eqn:Ef; [|congruence]. intros _. apply find_some in Ef. destruct Ef as [H1 H2].
    apply in_seq in H1. apply Z.eqb_eq in H2. exists (code_word (code_sizes (hbits t)) k), k. split; [lia|auto].
Qed.

Lemma enc_prepared_ok x e : enc_prepared x e -> ct_ok (fst e) /\ (coded (fst e) (snd e) <-> sample_coded x) /\ enc_smp (smp_of e) = enc_smp (spec_smp x).
Proof.
  intros (H1 & H2 & H3). split; [apply (derived_ct_ok true true (fst x)); auto|].
  pose proof (derived_code true true (fst x) (fst e) (Z.of_nat (category (diff16 (snd x)))) H1 H2 (cat256 _)) as E. split.
  - unfold coded, sample_coded. rewrite H3, E. symmetry. apply has_code_nonnil.
    destruct (c_derived_spec true true (fst x) H1) as [[Hok _]|[_ E']]; [exact (proj1 Hok)|rewrite E' in H2; discriminate].
  - unfold enc_smp, smp_of, spec_smp. cbn [ls_code ls_diff]. now rewrite H3, E.
Qed.

Definition rows3 {A B} (R : A -> B -> Prop) := Forall2 (Forall2 (Forall2 R)).

Lemma Forall_F2 {A B} (P : A -> Prop) (Q : B -> Prop) (R : A -> B -> Prop) : (forall a b, R a b -> P a -> Q b) ->
  forall l l', Forall2 R l l' -> Forall P l -> Forall Q l'.
Proof. intros H. induction 1; intros HF; constructor; inversion HF; subst; eauto. Qed.

Lemma lmcu_ext m em : Forall2 enc_prepared m em -> enc_lmcu (map smp_of em) = enc_lmcu (map spec_smp m).
Proof. induction 1; cbn; auto. f_equal; auto. apply (enc_prepared_ok _ _ H). Qed.
Lemma lrow_ext r er : Forall2 (Forall2 enc_prepared) r er -> enc_lrow (map (map smp_of) er) = enc_lrow (map (map spec_smp) r).
Proof. induction 1; cbn; auto. f_equal; auto. apply lmcu_ext. exact H. Qed.
Lemma lrows_ext r er : rows3 enc_prepared r er -> enc_lrows (map (map (map smp_of)) er) = enc_lrows (map (map (map spec_smp)) r).
Proof. induction 1; cbn; auto. f_equal; auto. apply lrow_ext. exact H. Qed.

Lemma lscan_ext rr rows erows : rows3 enc_prepared rows erows ->
  lscan_bytes rr (map (map (map smp_of)) erows) = lscan_bytes rr (map (map (map spec_smp)) rows).
Proof.
  intros H. unfold lscan_bytes. f_equal. rewrite !map_length, (Forall2_length' _ _ _ H). generalize (S (length erows)) as f.
  intros f. revert rows erows H. induction f as [|f IH]; intros rows erows H; cbn [intervals map]; auto.
  rewrite !map_length, (Forall2_length' _ _ _ H). destruct ((rr =? 0)%nat || (length erows <=? rr)%nat); cbn [map].
  - now rewrite (lrows_ext _ _ H).
  - rewrite !firstn_map, !skipn_map. rewrite (lrows_ext (firstn rr rows) (firstn rr erows)) by (apply Forall2_firstn; exact H).
    f_equal. apply IH. apply Forall2_skipn. exact H.
Qed.

(* ---- C27 ---- *)
(* The encoder: for every scan (any number of rows of mpr MCUs), tables, restart interval of rr rows, and
   destination that does not suspend, if every difference has a code, the bytes written are the coding
   prescribed by T.81 (Annex H), padded and stuffed, with the restart markers in order. *)
Theorem C27_scan_bytes : forall rr mpr rows erows d,
  (1 <= mpr)%nat -> Z.of_nat (rr * mpr) < 2 ^ 32 ->
  Forall (fun r => length r = mpr) rows -> rows3 enc_prepared rows erows -> Forall (Forall (Forall sample_coded)) rows ->
  dest_ok d -> dsusp d = false ->
  exists d', lencode_scan (Z.of_nat (rr * mpr)) (Z.of_nat mpr) erows d = Ret (Some d') /\
    dout d' = dout d ++ lscan_bytes rr (map (map (map spec_smp)) rows).
Proof.
  intros rr mpr rows erows d Hm Hri Hlen HF Hc Hd Hs.
  destruct (lencode_scan_spec rr mpr Hm Hri erows d) as (d' & E & O & _); auto.
  - clear - Hlen HF Hc. induction HF; constructor; inversion Hlen; inversion Hc; subst; auto. split; [rewrite <- (Forall2_length' _ _ _ H); reflexivity|].
    revert H6. apply (Forall_F2 _ _ _) with (2 := H). intros m em Hm. apply (Forall_F2 _ _ _) with (2 := Hm).
    intros a b Hab Ha. destruct (enc_prepared_ok _ _ Hab) as (A1 & A2 & _). split; [exact A1|apply A2; exact Ha].
  - exists d'. split; [exact E|]. rewrite O. f_equal. apply lscan_ext. exact HF.
Qed.
Print Assumptions C27_scan_bytes.

(* The decoder reads from such bytes, followed by a marker, every difference modulo 2^16 as its representative in
   -32767 .. 32768, however the source splits them, and tells the undifferencer to start anew on
   exactly the first row of every restart interval but the first. *)
Theorem C27_decode : forall rr mpr m rest rows drows src,
  m <> 0 -> m <> 255 -> (1 <= mpr)%nat -> Z.of_nat (rr * mpr) < 2 ^ 32 ->
  rows3 dec_prepared rows drows -> Forall (Forall (Forall sample_coded)) rows ->
  src_ok src -> ssusp src = false -> src_bytes src = lscan_bytes rr (map (map (map spec_smp)) rows) ++ 255 :: m :: rest ->
  exists out h', ldecode_scan (Z.of_nat (rr * mpr)) (Z.of_nat mpr) drows src = Ret (out, h', true) /\
    map fst out = map (map (map (fun x => diff16 (snd x)))) rows /\
    forall j r z, nth_error out j = Some (r, z) -> z = ((0 <? rr)%nat && (rr <=? j)%nat && (j mod rr =? 0)%nat).
Proof.
  intros rr mpr m rest rows drows src M0 M1 Hm Hri HF Hc Hso Hsu Hb.
  destruct (ldecode_scan_spec rr m rest M0 M1 mpr Hm Hri rows drows src) as (out & h' & E & O1 & O2); auto.
  - revert Hc. clear - HF. intros Hc. revert HF Hc. unfold rows3.
    assert (G1 : forall m dm, Forall2 dec_prepared m dm -> Forall sample_coded m -> Forall2 mcu_pair m dm).
    { induction 1 as [|x dt m dm [D1 D2] _ IH]; intros HC; constructor; inversion HC; subst; auto.
      destruct (d_derived_spec true true (fst x) D1) as [[A (d & E & D)]|[_ E]]; rewrite D2 in E; [|discriminate]. inversion E; subst d.
      split; [|exact H1]. split; [exact D1|]. split; [exact (proj1 A)|exact D]. }
    assert (G2 : forall m dm, Forall2 (Forall2 dec_prepared) m dm -> Forall (Forall sample_coded) m -> Forall2 (Forall2 mcu_pair) m dm).
    { induction 1; intros HC; constructor; inversion HC; subst; auto. }
    induction 1; intros HC; constructor; inversion HC; subst; auto.
  - exists out, h'. split; [exact E|]. split; [exact O1|]. intros j r z Hj. rewrite (O2 j r z Hj).
    destruct (Nat.eqb_spec rr 0) as [->|Nr]; [reflexivity|]. destruct (Nat.ltb_spec 0 rr); [|lia]. destruct (Nat.ltb_spec j rr); destruct (Nat.leb_spec rr j); try lia; reflexivity.
Qed.
Print Assumptions C27_decode.

(* Round trip of the entropy coder: any destination buffering, any marker after the scan. *)
Theorem C27_round_trip : forall rr mpr m rest rows erows drows d,
  m <> 0 -> m <> 255 -> Forall byte (m :: rest) -> (1 <= mpr)%nat -> Z.of_nat (rr * mpr) < 2 ^ 32 ->
  Forall (fun r => length r = mpr) rows -> rows3 enc_prepared rows erows -> rows3 dec_prepared rows drows ->
  Forall (Forall (Forall sample_coded)) rows -> dest_ok d -> dsusp d = false ->
  exists d' bytes, lencode_scan (Z.of_nat (rr * mpr)) (Z.of_nat mpr) erows d = Ret (Some d') /\ dout d' = dout d ++ bytes /\
  forall src, src_ok src -> ssusp src = false -> src_bytes src = bytes ++ 255 :: m :: rest ->
    exists out h', ldecode_scan (Z.of_nat (rr * mpr)) (Z.of_nat mpr) drows src = Ret (out, h', true) /\
      map fst out = map (map (map (fun x => diff16 (snd x)))) rows.
Proof.
  intros rr mpr m rest rows erows drows d M0 M1 _ Hm Hri Hlen HE HD Hc Hd Hs.
  destruct (C27_scan_bytes rr mpr rows erows d) as (d' & E & O); auto. exists d', (lscan_bytes rr (map (map (map spec_smp)) rows)).
  split; [exact E|]. split; [exact O|]. intros src S1 S2 S3.
  destruct (C27_decode rr mpr m rest rows drows src) as (out & h' & D1 & D2 & _); auto. eauto.
Qed.
Print Assumptions C27_round_trip.

(* the representative is the difference modulo 2^16, and is the difference itself in -32767 .. 32768 *)
Theorem C27_representative : forall d, cong16 (diff16 d) d /\ (-32767 <= d <= 32768 -> diff16 d = d).
Proof.
  intros d. unfold cong16, diff16. pose proof (Z.mod_pos_bound d 65536 ltac:(lia)). pose proof (Z.div_mod d 65536 ltac:(lia)).
  cbn zeta. destruct (Z.leb_spec (d mod 65536) 32768).
  - split; [apply Z.mod_mod; lia|]. intros. assert (d / 65536 = 0 \/ d / 65536 = -1) as [|] by lia; lia.
  - split; [|intros; assert (d / 65536 = 0 \/ d / 65536 = -1) as [|] by lia; lia].
    replace (d mod 65536 - 65536) with (d mod 65536 + (-1) * 65536) by lia. rewrite Z.mod_add by lia. apply Z.mod_mod. lia.
Qed.
Print Assumptions C27_representative.

(* ---- a difference without a code is an error, not silently dropped ---- *)
Definition lgood (v : lsav) (d : dest) : Prop := exists base B, linv base B v d.
Definition lgoodh (h : lhenc) (d : dest) : Prop := lgood (lh_saved h) d /\ 0 <= lh_num h < 8.

Lemma encode_diff_cases tbl t v d : ct_ok tbl -> lgood v d ->
  (coded tbl t /\ exists v' d', encode_diff tbl t v d = Ret (Some (v', d')) /\ lgood v' d') \/
  (~ coded tbl t /\ encode_diff tbl t v d = Error JERR_HUFF_MISSING_CODE).
Proof.
  intros Hct (base & B & HI). unfold coded. destruct (ecode tbl (Z.of_nat (category (diff16 t)))) as [|b0 w0] eqn:Ee.
  - right. split; [congruence|]. unfold encode_diff. destruct (diff_mag_spec t) as (t2 & -> & Ht2). pose proof (diff16_range t) as R.
    rewrite count_bits_spec by (change (2 ^ Z.of_nat 31) with 2147483648; lia).
    assert (En : (if Z.abs (diff16 t) =? 0 then 0 else Z.log2 (Z.abs (diff16 t)) + 1) = Z.of_nat (category (diff16 t))).
    { unfold category. destruct (Z.eqb_spec (diff16 t) 0) as [->|]; [reflexivity|]. destruct (Z.eqb_spec (Z.abs (diff16 t)) 0); [lia|].
      pose proof (Z.log2_nonneg (Z.abs (diff16 t))). lia. }
    rewrite En. cbn [bind]. pose proof (P_LossHuff.cat16 t) as C16. destruct (Z.ltb_spec 16 (Z.of_nat (category (diff16 t)))); [lia|].
    destruct (ct_get tbl (Z.of_nat (category (diff16 t))) Hct ltac:(lia)) as (n & co & G1 & G2 & G3 & G4 & G5).
    rewrite G1. cbn [bind]. rewrite G2. cbn [bind]. rewrite Ee in G5. destruct n; [reflexivity|]. discriminate.
  - left. split; [discriminate|]. destruct (encode_diff_spec base B tbl t v d Hct) as (v' & d' & E & I); auto.
    { unfold coded. rewrite Ee. discriminate. } exists v', d'. split; [exact E|]. eexists; eexists; exact I.
Qed.

Definition scoded (x : c_derived_tbl * Z) : Prop := coded (fst x) (snd x).
Lemma lencode_mcu_cases : forall m v d, Forall (fun x => ct_ok (fst x)) m -> lgood v d ->
  (Forall scoded m /\ exists v' d', lencode_mcu m v d = Ret (Some (v', d')) /\ lgood v' d') \/
  (~ Forall scoded m /\ lencode_mcu m v d = Error JERR_HUFF_MISSING_CODE).
Proof.
  induction m as [|[t x] m IH]; intros v d Hm HG; cbn [lencode_mcu].
  - left. split; [constructor|]. eauto.
  - destruct (encode_diff_cases t x v d (Forall_inv Hm) HG) as [(C & v1 & d1 & E & G)|(C & E)]; rewrite E; cbn [bind].
    + destruct (IH v1 d1 (Forall_inv_tail Hm) G) as [(C2 & R)|(C2 & R)]; [left|right]; (split; [|exact R]).
      * constructor; auto.
      * intros X. inversion X; subst. auto.
    + right. split; [|reflexivity]. intros X. inversion X; subst. apply C. assumption.
Qed.

Lemma lencode_loop_cases ri : forall ms v d h dh, Forall (Forall (fun x => ct_ok (fst x))) ms -> lgood v d -> lgoodh h dh ->
  (Forall (Forall scoded) ms /\ exists h' d', lencode_loop ri ms v d h dh = Ret (length ms, h', d') /\ lgoodh h' d') \/
  (~ Forall (Forall scoded) ms /\ lencode_loop ri ms v d h dh = Error JERR_HUFF_MISSING_CODE).
Proof.
  induction ms as [|m ms IH]; intros v d h dh Hm HG HH; cbn [lencode_loop].
  - left. split; [constructor|]. eauto.
  - destruct (lencode_mcu_cases m v d (Forall_inv Hm) HG) as [(C & v1 & d1 & E & G)|(C & E)]; rewrite E; cbn [bind].
    + assert (G2 : lgoodh (lcommit ri v1 h) d1).
      { destruct HH as [_ HN]. unfold lcommit. destruct (ri =? 0); [split; auto|]. destruct (lh_togo h =? 0); split; auto. cbn [lh_num].
        change 7 with (Z.ones 3). rewrite Z.land_ones by lia. apply Z.mod_pos_bound. reflexivity. }
      destruct (IH v1 d1 _ d1 (Forall_inv_tail Hm) G G2) as [(C2 & h' & d' & R & K)|(C2 & R)]; [left|right]; rewrite R; cbn [bind].
      * split; [constructor; auto|]. eauto.
      * split; [|reflexivity]. intros X. inversion X; subst. auto.
    + right. split; [|reflexivity]. intros X. inversion X; subst. auto.
Qed.

Lemma lencode_rows_cases ri : forall rows h d, Forall (Forall (Forall (fun x => ct_ok (fst x)))) rows -> lgoodh h d ->
  (Forall (Forall (Forall scoded)) rows /\ exists h' d', lencode_rows ri rows h d = Ret (Some (h', d'))) \/
  (~ Forall (Forall (Forall scoded)) rows /\ lencode_rows ri rows h d = Error JERR_HUFF_MISSING_CODE).
Proof.
  induction rows as [|row rows IH]; intros h d Hm HH; cbn [lencode_rows].
  - left. split; [constructor|]. eauto.
  - assert (HR : exists v d1, (if negb (ri =? 0) && (lh_togo h =? 0) then lemit_restart (lh_num h) (lh_saved h) d else Ret (Some (lh_saved h, d))) = Ret (Some (v, d1)) /\ lgood v d1).
    { destruct HH as [(base & B & HI) HN]. destruct (negb (ri =? 0) && (lh_togo h =? 0)).
      - destruct (lrestart_spec base B _ d _ HI HN) as (d1 & E & I). eexists; eexists. split; [exact E|]. eexists; eexists; exact I.
      - eexists; eexists. split; [reflexivity|]. eexists; eexists; exact HI. }
    destruct HR as (v & d1 & ER & GR). unfold encode_mcus_huff. rewrite ER. cbn [bind].
    destruct (lencode_loop_cases ri row v d1 h d (Forall_inv Hm) GR HH) as [(C & h1 & d2 & E & G)|(C & E)]; rewrite E; cbn [bind].
    + rewrite Nat.eqb_refl. destruct (IH h1 d2 (Forall_inv_tail Hm) G) as [(C2 & R)|(C2 & R)]; [left|right]; (split; [|exact R]).
      * constructor; auto.
      * intros X. inversion X; subst. auto.
    + right. split; [|reflexivity]. intros X. inversion X; subst. auto.
Qed.

(* If any difference of the scan lacks a code, the encoder raises the error that says so *)
Theorem C27_missing_code : forall ri mpr rows erows d,
  mpr <> 0 -> ri mod mpr = 0 -> rows3 enc_prepared rows erows -> dest_ok d -> dsusp d = false ->
  ~ Forall (Forall (Forall sample_coded)) rows ->
  lencode_scan ri mpr erows d = Error JERR_HUFF_MISSING_CODE.
Proof.
  intros ri mpr rows erows d Hm Hr HF Hd Hs Hc. unfold lencode_scan. destruct (Z.eqb_spec mpr 0); [congruence|]. rewrite Hr. cbn [Z.eqb negb].
  assert (G : forall {A B} (P : A -> Prop) (Q : B -> Prop) (R : A -> B -> Prop), (forall a b, R a b -> (Q b <-> P a)) -> forall l l', Forall2 R l l' -> (Forall Q l' <-> Forall P l)).
  { intros A B P Q R H l l' HF'. induction HF'; split; intros X; constructor; inversion X; subst; try (apply (H _ _ H0); assumption); apply IHHF'; assumption. }
  assert (G3 : Forall (Forall (Forall scoded)) erows <-> Forall (Forall (Forall sample_coded)) rows).
  { revert HF. apply G. intros a b. apply G. intros a' b'. apply G. intros x e H. apply (enc_prepared_ok x e H). }
  destruct (lencode_rows_cases ri erows (start_pass_lhuff ri) d) as [(C & _)|(C & E)].
  - assert (X : Forall (Forall (Forall (fun x => ct_ok (fst x)))) erows <-> Forall (Forall (Forall (fun _ : JHUFF_TBL * Z => True))) rows).
    { revert HF. apply G. intros a b. apply G. intros a' b'. apply G. intros x e H. split; auto. intros _. apply (enc_prepared_ok x e H). }
    apply X. apply Forall_forall. intros. apply Forall_forall. intros. apply Forall_forall. auto.
  - split; [exists (dout d), []; apply linv_nil; auto|]. cbn. lia.
  - exfalso. apply Hc. apply G3. exact C.
  - rewrite E. reflexivity.
Qed.
Print Assumptions C27_missing_code.

(* ---- together with C26: a one-component image survives compression and decompression ---- *)
Definition one_comp {A} (t : A) (diffs : list (list Z)) : list (list (list (A * Z))) := map (map (fun d => [(t, d)])) diffs.
Theorem C27_image : forall P al psv rr w rows junk junk' t et dt m rest diffs,
  1 <= P <= 16 -> 0 <= al < P -> 1 <= psv <= 7 -> (1 <= w)%nat -> Z.of_nat w < 2 ^ 32 -> Z.of_nat (rr * w) < 2 ^ 32 ->
  valid_image P w rows -> m <> 0 -> m <> 255 ->
  huff_type_ok t = true -> jpeg_make_c_derived_tbl true true (Some t) = Ret et -> jpeg_make_d_derived_tbl true true (Some t) = Ret dt ->
  (forall n, (n <= 16)%nat -> has_code (hbits t) (hval t) (Z.of_nat n)) ->
  enc_component P al psv (Z.of_nat (rr * w)) (Z.of_nat w) junk rows = Ret diffs ->
  exists d' , lencode_scan (Z.of_nat (rr * w)) (Z.of_nat w) (one_comp et diffs) (mkDest [] 4096 [] false) = Ret (Some d') /\
  forall src, src_ok src -> ssusp src = false -> src_bytes src = dout d' ++ 255 :: m :: rest ->
  exists out h', ldecode_scan (Z.of_nat (rr * w)) (Z.of_nat w) (map (map (fun _ => [dt])) diffs) src = Ret (out, h', true) /\
    dec_component P al psv (Z.of_nat (rr * w)) (Z.of_nat w) junk' (map (fun o => concat (fst o)) out) = Ret (point_up al (point_down al rows)).
Proof.
  intros P al psv rr w rows junk junk' t et dt m rest diffs HP Ha Hpsv Hw Hw2 Hri Hv M0 M1 Ht Ec Ed Hall He.
  assert (HL : Forall (fun r => length r = w) diffs).
  { destruct (C26_differences P al psv (Z.of_nat (rr * w)) (Z.of_nat w) w rows junk diffs) as (_ & L & Hd); auto; try lia.
    { eapply Forall_impl; [|exact Hv]. cbn. tauto. }
    apply Forall_forall. intros r Hr. destruct (In_nth _ _ [] Hr) as (y & Hy & <-). apply (Hd y 0%nat); lia. }
  set (R := one_comp t diffs).
  assert (F1 : Forall (fun r => length r = w) R).
  { unfold R, one_comp. apply Forall_map. eapply Forall_impl; [|exact HL]. cbn beta. intros r Hr. rewrite map_length. exact Hr. }
  assert (F2 : rows3 enc_prepared R (one_comp et diffs)).
  { unfold R, one_comp, rows3. clear - Ht Ec. induction diffs as [|r l IH]; cbn [map]; constructor; auto. clear IH.
    induction r as [|x r IH]; cbn [map]; constructor; auto. constructor; [|constructor]. split; auto. }
  assert (F3 : rows3 dec_prepared R (map (map (fun _ => [dt])) diffs)).
  { unfold R, one_comp, rows3. clear - Ht Ed. induction diffs as [|r l IH]; cbn [map]; constructor; auto. clear IH.
    induction r as [|x r IH]; cbn [map]; constructor; auto. constructor; [|constructor]. split; auto. }
  assert (F4 : Forall (Forall (Forall sample_coded)) R).
  { unfold R, one_comp. apply Forall_map, Forall_forall. intros r _. apply Forall_map, Forall_forall. intros x _. constructor; [|constructor].
    unfold sample_coded. cbn [fst snd]. apply Hall. apply category_le. pose proof (diff16_range x). change (2 ^ Z.of_nat 16) with 65536. lia. }
  destruct (C27_scan_bytes rr w R (one_comp et diffs) (mkDest [] 4096 [] false)) as (d' & E & O); auto; [reflexivity|].
  exists d'. split; [exact E|]. intros src S1 S2 S3. rewrite O in S3. cbn [dout app] in S3.
  destruct (C27_decode rr w m rest R _ src M0 M1 Hw Hri F3 F4 S1 S2 S3) as (out & h' & D1 & D2 & _). exists out, h'. split; [exact D1|].
  apply (C26_round_trip P al psv (Z.of_nat (rr * w)) (Z.of_nat w) w rows junk junk' diffs); auto; try lia.
  replace (map (fun o => concat (fst o)) out) with (map (map diff16) diffs).
  - clear. induction diffs as [|r l IH]; cbn [map]; constructor; auto. clear. induction r as [|x r IH]; cbn [map]; constructor; auto. apply C27_representative.
  - rewrite <- (map_map fst (@concat Z) out), D2. unfold R, one_comp. rewrite !map_map. apply map_ext. intros r. rewrite map_map.
    cbn [map snd fst]. clear. induction r as [|x r IH]; cbn; [reflexivity|]. f_equal. exact IH.
Qed.
Print Assumptions C27_image.

(* Non-vacuity: a table with codes for all 17 categories; differences of both signs, 0, 32768 and values
   beyond 16 bits; two MCUs for each row, two samples for each MCU, restart after every row *)
Definition ex_ltbl : JHUFF_TBL :=
  mkHuff [0; 0; 0; 0; 1; 16; 0; 0; 0; 0; 0; 0; 0; 0; 0; 0; 0] ([0; 1; 2; 3; 4; 5; 6; 7; 8; 9; 10; 11; 12; 13; 14; 15; 16] ++ repeat 0 239).
Definition ex_lrows : list (list (list (JHUFF_TBL * Z))) :=
  [[[(ex_ltbl, 5); (ex_ltbl, -32768)]; [(ex_ltbl, 0); (ex_ltbl, 32767)]];
   [[(ex_ltbl, -1); (ex_ltbl, 32768)]; [(ex_ltbl, -65535); (ex_ltbl, -4096)]]].
Example C27_nonvacuous :
  Forall (Forall (Forall sample_coded)) ex_lrows /\
  match jpeg_make_c_derived_tbl true true (Some ex_ltbl), jpeg_make_d_derived_tbl true true (Some ex_ltbl) with
  | Ret et, Ret dt =>
    match lencode_scan 2 2 (map (map (map (fun x => (et, snd x)))) ex_lrows) (mkDest [] 2 [3%positive] false) with
    | Ret (Some d') =>
      match ldecode_scan 2 2 (map (map (map (fun _ => dt))) ex_lrows) (mkSrc (dout d' ++ [255; 217]) [] false) with
      | Ret (out, _, true) => out = [([[5; 32768]; [0; 32767]], false); ([[-1; 32768]; [1; -4096]], true)]
      | _ => False
      end
    | _ => False
    end
  | _, _ => False
  end.
Proof.
  split; [|vm_compute; reflexivity].
  assert (A : forall n, (n <= 16)%nat -> has_code (hbits ex_ltbl) (hval ex_ltbl) (Z.of_nat n)).
  { intros n Hn. assert (G : forallb (fun n => existsb (fun k => nth k (hval ex_ltbl) (-1) =? Z.of_nat n) (seq 0 (length (code_sizes (hbits ex_ltbl))))) (seq 0 17) = true) by (vm_compute; reflexivity).
    rewrite forallb_forall in G. specialize (G n ltac:(apply in_seq; lia)). apply existsb_exists in G. destruct G as (k & Hk & Ek). apply in_seq in Hk. apply Z.eqb_eq in Ek.
    exists (code_word (code_sizes (hbits ex_ltbl)) k), k. split; [lia|auto]. }
  unfold ex_lrows. repeat constructor; unfold sample_coded; cbn [fst snd]; apply A; vm_compute; repeat constructor.
Qed.

(* ---- finding: output suspension ---- *)
(* jcdiffct.c:171-226, the MCU-writing part of compress_data for one MCU row: on suspension
   mcu_ctr += MCU_col_num, where MCU_col_num is mcu_ctr itself and not the count of MCUs written.
   Result: completed?, new mcu_ctr. *)
Definition compress_row (ri : Z) (row : list (list (c_derived_tbl * Z))) (mcu_ctr : nat) (h : lhenc) (d : dest)
  : outcome (bool * nat * lhenc * dest) :=
  let rest := skipn mcu_ctr row in
  '(n, h1, d1) <- encode_mcus_huff ri rest h d ;;
  if (n =? length rest)%nat then Ret (true, O, h1, d1) else Ret (false, (mcu_ctr + mcu_ctr)%nat, h1, d1).
(* A destination that suspends after the first MCU: the row is written again from its start, so the
   first MCU appears twice.  The bytes differ from those of C27_scan_bytes. *)
Example C27_suspension_refuted :
  match jpeg_make_c_derived_tbl true true (Some ex_ltbl) with
  | Ret et =>
    let row := [[(et, 127)]; [(et, 100)]; [(et, 99)]] in
    match compress_row 0 row 0 (start_pass_lhuff 0) (mkDest [] 2 [] true) with
    | Ret (false, ctr, h1, d1) =>
      match compress_row 0 row ctr h1 (mkDest (dout d1) 100 [] true) with
      | Ret (true, _, h2, d2) =>
        match lfinish_pass h2 d2, lencode_scan 0 3 [row] (mkDest [] 100 [] false) with
        | Ret (_, d3), Ret (Some d4) => ctr = 0%nat /\ dout d1 <> [] /\ (length (dout d4) < length (dout d3))%nat
        | _, _ => False
        end
      | _ => False
      end
    | _ => False
    end
  | _ => False
  end.
Proof. vm_compute. split; [reflexivity|]. split; [discriminate|]. repeat constructor. Qed.
