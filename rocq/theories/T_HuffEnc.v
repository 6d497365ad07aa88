(* T_HuffEnc.v -- properties C03, C05 (encoder half), C06, C07 *)
From Verif Require Import Base M_HuffTbl S_Huff S_Stream S_Block P_HuffTbl P_BitRead P_HuffDec M_HuffEnc P_HuffEnc P_HuffScan P_EncTbl T_HuffTbl.

(* What the application supplies for a block: component number, Huffman tables, coefficients in
   natural order. *)
Record ublk := mkUB { u_ci : nat; u_dc : JHUFF_TBL; u_ac : JHUFF_TBL; u_coef : list Z }.

(* the block as the encoder sees it, after start_pass_huff derived its tables *)
Definition prepared (u : ublk) (e : eblk) : Prop :=
  huff_type_ok (u_dc u) = true /\ huff_type_ok (u_ac u) = true /\
  jpeg_make_c_derived_tbl false true (Some (u_dc u)) = Ret (eb_dc e) /\
  jpeg_make_c_derived_tbl false false (Some (u_ac u)) = Ret (eb_ac e) /\
  eb_ci e = Z.of_nat (u_ci u) /\ eb_coef e = u_coef u.

(* the block as the standard sees it *)
Definition spec_blk (u : ublk) : sblk :=
  mkSB (u_ci u) (table_code (hbits (u_dc u)) (hval (u_dc u)))
       (table_code (hbits (u_ac u)) (hval (u_ac u))) (u_coef u).

(* a scan whose coefficients fit the data precision (8 bits: mcb = 10, 12 bits: mcb = 14) *)
Definition scan_ok (mcb nc : nat) (us : list (list ublk)) : Prop :=
  Forall (Forall (fun u => (u_ci u < nc)%nat /\ coefs_ok mcb (u_coef u))) us.

Lemma coefs_ok_16 mcb blk : (mcb <= 14)%nat -> coefs_ok mcb blk -> Forall coef16 blk.
Proof.
  intros Hm (Hl & H0 & Ht). destruct blk as [|c cs]; [constructor|]. cbn [nth tl] in *.
  assert (2 ^ Z.of_nat mcb <= 2 ^ 14) by (apply Z.pow_le_mono_r; lia). change (2 ^ 14) with 16384 in *.
  constructor; [unfold coef16; lia|]. eapply Forall_impl; [|exact Ht]. cbn beta. unfold coef16. intros; lia.
Qed.

Lemma prepared_ok mcb nc us es : (mcb <= 14)%nat -> scan_ok mcb nc us -> Forall2 (Forall2 prepared) us es ->
  Forall (mcu_ok mcb nc) es /\ Forall2 (Forall2 sb_eq) (map (map to_sb) es) (map (map spec_blk) us).
Proof.
  intros Hm Hok H. induction H as [|m e us es Hme H IH]; [split; constructor|].
  inversion Hok as [|? ? Hm1 Hok']; subst. destruct (IH Hok') as [I1 I2].
  assert (G : mcu_ok mcb nc e /\ Forall2 sb_eq (map to_sb e) (map spec_blk m)).
  { clear -Hm Hme Hm1. induction Hme as [|u b m e Hub Hme IH]; [split; constructor|].
    inversion Hm1 as [|? ? [Hc1 Hc2] Hm2]; subst. destruct (IH Hm2) as [I1 I2].
    destruct Hub as (T1 & T2 & D1 & D2 & C1 & C2). split.
    - constructor; auto. rewrite C2. split; auto. unfold eb_ok. rewrite C1, C2.
      split; [exact (derived_ct_ok _ _ _ _ T1 D1)|]. split; [exact (derived_ct_ok _ _ _ _ T2 D2)|]. split; [lia|].
      split; [apply Hc2|]. eapply coefs_ok_16; eauto.
    - cbn [map]. constructor; auto. unfold sb_eq, to_sb, spec_blk. cbn [s_ci s_coef s_dcc s_acc].
      rewrite C1, C2. split; [lia|]. split; [auto|]. split; intros s Hs; [exact (derived_code _ _ _ _ s T1 D1 Hs)|exact (derived_code _ _ _ _ s T2 D2 Hs)]. }
  destruct G as [G1 G2]. split; constructor; auto.
Qed.

(* C03: whatever buffers a non-suspending destination manager provides, the encoder succeeds and
   the bytes delivered for a scan are those of the standard: F.1.2 coding of every block, most
   significant bit first, segments padded with 1 bits, FF bytes stuffed, RSTn between restart
   intervals.  (A symbol missing from the table contributes no bits, as in the C code.) *)
Theorem C03_scan_bytes : forall mcb nc ri us es d,
  (mcb <= 14)%nat -> Z.of_nat ri < 2 ^ 32 ->
  Forall2 (Forall2 prepared) us es -> scan_ok mcb nc us ->
  0 < dfree d -> dsusp d = false ->
  exists d', encode_scan (Z.of_nat mcb) (Z.of_nat ri) nc es d = Ret (Some d') /\
             dout d' = dout d ++ scan_bytes nc ri (map (map spec_blk) us).
Proof.
  intros mcb nc ri us es d Hm Hri Hp Hok Hd Hs.
  destruct (prepared_ok mcb nc us es Hm Hok Hp) as [O1 O2].
  destruct (encode_scan_spec mcb ri nc es d Hm Hri Hd O1) as [(d' & E & Ho)|[H _]]; [|congruence].
  exists d'. split; auto. rewrite Ho. f_equal. eapply scan_bytes_ext; eauto.
Qed.
Print Assumptions C03_scan_bytes.

(* C03, range: a single block is coded exactly per F.1.2 if its DC difference has at most mcb+1
   bits and its AC coefficients at most mcb bits, and rejected with JERR_BAD_DCT_COEF otherwise;
   nothing outside the 512-byte work buffer is ever written (no undefined behaviour). *)
Theorem C03_block : forall mcb blk pred dct act dctbl actbl p f,
  (mcb <= 14)%nat -> length blk = 64%nat -> Forall coef16 blk -> coef16 pred -> 0 <= f <= 64 ->
  huff_type_ok dct = true -> huff_type_ok act = true ->
  jpeg_make_c_derived_tbl false true (Some dct) = Ret dctbl ->
  jpeg_make_c_derived_tbl false false (Some act) = Ret actbl ->
  match encode_one_block (Z.of_nat mcb) blk pred dctbl actbl p f with
  | Ret e =>
      block_in_range mcb pred blk /\ 0 <= fb e <= 64 /\
      exists data, ebuf e = stuff data /\ Forall byte data /\
        bytes_to_bits data ++ bits_of (Z.to_nat (64 - fb e)) (pb e) =
        bits_of (Z.to_nat (64 - f)) p ++
        enc_block (table_code (hbits dct) (hval dct)) (table_code (hbits act) (hval act)) pred blk
  | Error er => er = JERR_BAD_DCT_COEF /\ ~ block_in_range mcb pred blk
  | Undef => False
  end.
Proof.
  intros mcb blk pred dct act dctbl actbl p f Hm Hl Hc Hp Hf T1 T2 E1 E2.
  pose proof (derived_ct_ok _ _ _ _ T1 E1) as C1. pose proof (derived_ct_ok _ _ _ _ T2 E2) as C2.
  destruct (encode_one_block_spec mcb blk pred dctbl actbl p f _ C1 C2 Hm Hl Hc Hp Hf eq_refl) as [S1 S2].
  assert (Hdec : block_in_range mcb pred blk \/ ~ block_in_range mcb pred blk).
  { unfold block_in_range. destruct (le_dec (category (nth 0 blk 0 - pred)) (mcb + 1)); [|tauto].
    destruct (Forall_dec (fun v => (category v <= mcb)%nat) (fun v => le_dec _ _) (tl (zz blk))); tauto. }
  destruct Hdec as [Hr|Hr].
  - destruct (S1 Hr) as (e & -> & (If & D & HD & Hb & HB) & _). split; auto. split; auto.
    exists D. split; auto. split; auto. rewrite HB. f_equal. destruct Hr as [R1 R2].
    apply enc_block_ext.
    + intros s Hs. exact (derived_code _ _ _ _ s T1 E1 Hs).
    + intros s Hs. exact (derived_code _ _ _ _ s T2 E2 Hs).
    + lia.
    + eapply Forall_impl; [|exact R2]. cbn beta; intros; lia.
  - rewrite (S2 Hr). auto.
Qed.
Print Assumptions C03_block.

(* C05, encoder half: with restart interval ri > 0 the output consists of the segments of the
   consecutive groups of ri MCUs, each coded from zero predictions, separated by RST0..RST7 in
   cyclic order.  This is how scan_bytes is defined; spelled out for the first marker: *)
Theorem C05_encoder_intervals : forall mcb nc ri us es d,
  (mcb <= 14)%nat -> (0 < ri)%nat -> Z.of_nat ri < 2 ^ 32 ->
  Forall2 (Forall2 prepared) us es -> scan_ok mcb nc us ->
  0 < dfree d -> dsusp d = false ->
  exists d' segs, encode_scan (Z.of_nat mcb) (Z.of_nat ri) nc es d = Ret (Some d') /\
    concat segs = us /\
    Forall (fun s => length s = ri) (removelast segs) /\ (length (last segs []) <= ri)%nat /\
    dout d' = dout d ++
      join_rst 0 (map (fun s => segment_bytes (enc_mcus (repeat 0 nc) (map (map spec_blk) s))) segs).
Proof.
  intros mcb nc ri us es d Hm Hr Hri Hp Hok Hd Hs.
  destruct (C03_scan_bytes mcb nc ri us es d Hm Hri Hp Hok Hd Hs) as (d' & E & Ho).
  exists d', (intervals (S (length us)) ri us). split; auto.
  assert (G : forall fuel (l : list (list ublk)), (length l < fuel)%nat ->
     concat (intervals fuel ri l) = l /\ intervals fuel ri l <> [] /\
     Forall (fun s => length s = ri) (removelast (intervals fuel ri l)) /\
     (length (last (intervals fuel ri l) []) <= ri)%nat /\
     map (map (map spec_blk)) (intervals fuel ri l) = intervals fuel ri (map (map spec_blk) l)).
  { induction fuel as [|f IH]; intros l Hl; [lia|]. cbn [intervals]. rewrite map_length.
    destruct (Nat.eqb_spec ri 0); [lia|]. cbn [orb]. destruct (Nat.leb_spec (length l) ri) as [Hle|Hgt].
    - cbn. rewrite app_nil_r. split; [auto|]. split; [discriminate|]. split; [constructor|]. split; [auto|reflexivity].
    - destruct (IH (skipn ri l)) as (I1 & I2 & I3 & I4 & I5). { rewrite skipn_length. lia. }
      cbn [concat removelast last map]. rewrite I1, firstn_skipn, I5, firstn_map, skipn_map.
      destruct (intervals f ri (skipn ri l)) as [|x r] eqn:Ex; [congruence|]. rewrite <- Ex in *.
      split; auto. split; [discriminate|]. split; [|auto]. constructor; auto. rewrite firstn_length. lia. }
  destruct (G (S (length us)) us ltac:(lia)) as (G1 & G2 & G3 & G4 & G5).
  split; auto. split; auto. split; auto. rewrite Ho. f_equal. unfold scan_bytes. f_equal.
  rewrite map_length, <- G5, map_map. reflexivity.
Qed.
Print Assumptions C05_encoder_intervals.

(* C06: in the entropy-coded data of a scan every FF byte is followed by 00 or by RSTn *)
Definition no_spurious (bs : list Z) : Prop :=
  forall a b, bs = a ++ 255 :: b -> exists x r, b = x :: r /\ (x = 0 \/ 208 <= x <= 215).

Lemma no_spurious_stuff D : no_spurious (stuff D).
Proof.
  induction D as [|x D IH]; intros a b E; cbn [stuff] in E; [destruct a; discriminate|].
  destruct (Z.eqb_spec x 255) as [->|Hx].
  - destruct a as [|y [|z a]]; cbn in E; inversion E; subst; eauto.
  - destruct a as [|y a]; cbn in E; inversion E; subst; [congruence|]. eapply IH; eauto.
Qed.

Lemma app_split {A} (p q a b : list A) : p ++ q = a ++ b ->
  (exists c, p = a ++ c /\ b = c ++ q) \/ (exists c, a = p ++ c /\ q = c ++ b).
Proof.
  revert a. induction p as [|x p IH]; intros a E.
  - right. exists a. auto.
  - destruct a as [|y a].
    + left. exists (x :: p). auto.
    + cbn in E. inversion E; subst. destruct (IH a H1) as [(c & -> & ->)|(c & -> & ->)]; [left|right]; exists c; auto.
Qed.

Lemma no_spurious_app p q : no_spurious p -> no_spurious q -> no_spurious (p ++ q).
Proof.
  intros Hp Hq a b E. destruct (app_split p q a (255 :: b) E) as [(c & -> & Ec)|(c & -> & Ec)].
  - destruct c as [|y c].
    + cbn in Ec. subst q. apply (Hq [] b). reflexivity.
    + cbn in Ec. inversion Ec; subst. destruct (Hp a c eq_refl) as (x & r & -> & Hx).
      exists x, (r ++ q). split; [reflexivity|exact Hx].
  - apply (Hq c b Ec).
Qed.

Lemma no_spurious_join : forall segs i, Forall no_spurious segs -> no_spurious (join_rst i segs).
Proof.
  induction segs as [|s segs IH]; intros i H; cbn [join_rst].
  - intros a b E. destruct a; discriminate.
  - inversion H; subst. destruct segs as [|s2 segs]; auto. apply no_spurious_app; auto.
    apply (no_spurious_app [255; 208 + i mod 8]); [|apply IH; auto].
    pose proof (Z.mod_pos_bound i 8 ltac:(lia)) as Hb.
    intros a b E. destruct a as [|y [|z a]]; cbn [app] in E.
    + injection E as E. subst b. exists (208 + i mod 8), []. split; [reflexivity|]. right. clear -Hb. lia.
    + exfalso. assert (E' : nth 1 [255; 208 + i mod 8] 0 = nth 1 (y :: 255 :: b) 0) by (rewrite E; reflexivity). cbn [nth] in E'. lia.
    + injection E as _ _ E. destruct a; discriminate.
Qed.

Theorem C06_no_spurious_marker : forall mcb nc ri us es d,
  (mcb <= 14)%nat -> Z.of_nat ri < 2 ^ 32 ->
  Forall2 (Forall2 prepared) us es -> scan_ok mcb nc us ->
  0 < dfree d -> dsusp d = false ->
  exists d' new, encode_scan (Z.of_nat mcb) (Z.of_nat ri) nc es d = Ret (Some d') /\
    dout d' = dout d ++ new /\ no_spurious new /\
    (ri = 0%nat -> forall a x b, new = a ++ 255 :: x :: b -> x = 0).
Proof.
  intros mcb nc ri us es d Hm Hri Hp Hok Hd Hs.
  destruct (C03_scan_bytes mcb nc ri us es d Hm Hri Hp Hok Hd Hs) as (d' & E & Ho).
  exists d', (scan_bytes nc ri (map (map spec_blk) us)). split; auto. split; auto. split.
  - unfold scan_bytes. apply no_spurious_join. apply Forall_map. apply Forall_forall. intros. apply no_spurious_stuff.
  - intros ->. unfold scan_bytes. cbn [intervals Nat.eqb orb map join_rst]. unfold segment_bytes.
    generalize (pack (length (enc_mcus (repeat 0 nc) (map (map spec_blk) us))) (enc_mcus (repeat 0 nc) (map (map spec_blk) us))).
    induction l as [|y D IH]; intros a x b Eq; cbn [stuff] in Eq; [destruct a; discriminate|].
    destruct (Z.eqb_spec y 255) as [->|Hy].
    + destruct a as [|q [|z a]]; cbn in Eq; inversion Eq; subst; eauto.
    + destruct a as [|q a]; cbn in Eq; inversion Eq; subst; [congruence|eauto].
Qed.
Print Assumptions C06_no_spurious_marker.

(* C07, buffer sizes: two non-suspending destinations receive the same bytes *)
Theorem C07_buffer_independence : forall mcb nc ri us es d1 d2,
  (mcb <= 14)%nat -> Z.of_nat ri < 2 ^ 32 ->
  Forall2 (Forall2 prepared) us es -> scan_ok mcb nc us ->
  0 < dfree d1 -> dsusp d1 = false -> 0 < dfree d2 -> dsusp d2 = false -> dout d1 = dout d2 ->
  exists d1' d2', encode_scan (Z.of_nat mcb) (Z.of_nat ri) nc es d1 = Ret (Some d1') /\
    encode_scan (Z.of_nat mcb) (Z.of_nat ri) nc es d2 = Ret (Some d2') /\ dout d1' = dout d2'.
Proof.
  intros mcb nc ri us es d1 d2 Hm Hri Hp Hok H1 H2 H3 H4 He.
  destruct (C03_scan_bytes mcb nc ri us es d1 Hm Hri Hp Hok H1 H2) as (d1' & E1 & O1).
  destruct (C03_scan_bytes mcb nc ri us es d2 Hm Hri Hp Hok H3 H4) as (d2' & E2 & O2).
  exists d1', d2'. split; auto. split; auto. congruence.
Qed.
Print Assumptions C07_buffer_independence.

(* C07, suspension: any schedule of buffer sizes and attempts.  An attempt that suspends changes
   nothing; once no MCU is pending and finish_pass succeeds, the destination has received exactly
   the bytes of the unsuspended scan. *)
Theorem C07_suspension : forall mcb nc ri us es evs free,
  (mcb <= 14)%nat -> Z.of_nat ri < 2 ^ 32 ->
  Forall2 (Forall2 prepared) us es -> scan_ok mcb nc us -> 0 < free ->
  exists h d rest,
    app_run (Z.of_nat mcb) (Z.of_nat ri) evs
      (start_pass_huff nc (Z.of_nat ri), mkDest [] free [] true, es) = Ret (h, d, rest) /\
    (exists done, es = done ++ rest) /\
    match rest with
    | [] => match finish_pass_huff h d with
            | Ret (_, d') => dout d' = scan_bytes nc ri (map (map spec_blk) us)
            | Error e => e = JERR_CANT_SUSPEND
            | Undef => False
            end
    | m :: _ => match encode_mcu_huff (Z.of_nat mcb) (Z.of_nat ri) m h d with
                | Ret (ok, h', d') => ok = false -> h' = h /\ d' = d
                | _ => False
                end
    end.
Proof.
  intros mcb nc ri us es evs free Hm Hri Hp Hok Hfree.
  destruct (prepared_ok mcb nc us es Hm Hok Hp) as [O1 O2].
  set (a0 := mkA [] [] (repeat 0 nc) ri 0).
  assert (I0 : hinv ri a0 (start_pass_huff nc (Z.of_nat ri)) (mkDest [] free [] true)).
  { unfold hinv, start_pass_huff, a0. cbn [h_saved h_togo h_num a_base a_B a_pr a_k a_n v_dc].
    split; [|repeat split; auto; lia]. unfold sinv. cbn [v_fb v_pb v_dc].
    split; [lia|]. split; [exact Hfree|]. split.
    - apply Forall_forall. intros x Hx. apply repeat_spec in Hx. subst. unfold coef16. lia.
    - exists []. split; [constructor|]. split; reflexivity. }
  assert (G : forall evs done rest h d a, es = done ++ rest ->
    a = fold_left (astep ri) (map (map to_sb) done) a0 -> hinv ri a h d -> pr_ok mcb (a_pr a) -> length (a_pr a) = nc ->
    exists h' d' rest' done', app_run (Z.of_nat mcb) (Z.of_nat ri) evs (h, d, rest) = Ret (h', d', rest') /\
      es = done' ++ rest' /\ hinv ri (fold_left (astep ri) (map (map to_sb) done') a0) h' d' /\
      pr_ok mcb (a_pr (fold_left (astep ri) (map (map to_sb) done') a0)) /\
      length (a_pr (fold_left (astep ri) (map (map to_sb) done') a0)) = nc).
  { clear evs. induction evs as [|ev evs IH]; intros done rest h d a He Ha I Hpr Hl; cbn [app_run].
    - exists h, d, rest, done. subst a. auto.
    - destruct ev as [n|]; cbn [app_step bind].
      + eapply IH; eauto. destruct I as ((S1 & S2 & S3 & S4) & I2).
        split; [|exact I2]. unfold sinv. split; [auto|]. split; [unfold dest_ok; cbn; lia|]. split; [auto|exact S4].
      + destruct rest as [|m rest].
        * cbn [bind]. eapply IH; eauto.
        * assert (Hmo : mcu_ok mcb (length (a_pr a)) m).
          { rewrite Hl. rewrite Forall_forall in O1. apply O1. rewrite He. apply in_app_iff. right. left. auto. }
          destruct (encode_mcu_spec mcb ri m a h d Hm Hri I Hpr Hmo) as (ok & h' & d' & -> & HO). cbn [bind].
          destruct ok.
          -- destruct HO as [I' _]. destruct (astep_pr mcb ri a m Hm Hpr Hmo) as [P1 P2].
             eapply (IH (done ++ [m]) rest h' d').
             ++ rewrite He, <- app_assoc. reflexivity.
             ++ reflexivity.
             ++ rewrite !map_app, fold_left_app, <- Ha. exact I'.
             ++ rewrite !map_app, fold_left_app, <- Ha. exact P1.
             ++ rewrite !map_app, fold_left_app, <- Ha. cbn [map fold_left]. lia.
          -- destruct HO as (_ & -> & ->). eapply IH; eauto. }
  destruct (G evs [] es _ _ a0 eq_refl eq_refl I0 (pr0_ok mcb nc) (repeat_length _ _)) as
    (h & d & rest & done & E & He & I & Hpr & Hl).
  exists h, d, rest. split; auto. split; [exists done; auto|].
  destruct rest as [|m rest].
  - rewrite app_nil_r in He. subst done. destruct I as (I & _). unfold finish_pass_huff.
    destruct (flush_bits_spec _ _ _ _ I) as (o & -> & HO). cbn [bind]. destruct o as [[v2 d2]|]; [|reflexivity].
    destruct HO as (_ & E2 & _). rewrite E2. clear E2.
    rewrite <- (scan_bytes_ext mcb nc ri es _ Hm O1 O2).
    fold (afinal (fold_left (astep ri) (map (map to_sb) es) a0)).
    unfold scan_bytes. destruct (Nat.eq_dec ri 0) as [->|Hr0].
    + destruct (fold_no_restart 0 (map (map to_sb) es) a0 (or_introl eq_refl)) as (F1 & F2 & _).
      unfold afinal. rewrite F1, F2. reflexivity.
    + unfold a0. change 0 with (0 mod 8) at 2. rewrite fold_intervals with (fuel := S (length (map (map to_sb) es))); auto.
  - assert (Hmo : mcu_ok mcb (length (a_pr (fold_left (astep ri) (map (map to_sb) done) a0))) m).
    { rewrite Hl. rewrite Forall_forall in O1. apply O1. rewrite He. apply in_app_iff. right. left. auto. }
    destruct (encode_mcu_spec mcb ri m _ h d Hm Hri I Hpr Hmo) as (ok & h' & d' & -> & HO).
    intros ->. tauto.
Qed.
Print Assumptions C07_suspension.

(* Non-vacuity: a one-component scan of two blocks with the K.3 DC table, restart interval 1,
   through a destination with 3-byte buffers. *)
Definition k5_ac_lum : JHUFF_TBL :=
  mkHuff [0;0;2;1;3;3;2;4;3;5;5;4;4;0;0;1;125]
   ([1;2;3;0;4;17;5;18;33;49;65;6;19;81;97;7;34;113;20;50;129;145;161;8;35;66;177;193;21;82;209;240;
     36;51;98;114;130;9;10;22;23;24;25;26;37;38;39;40;41;42;52;53;54;55;56;57;58;67;68;69;70;71;72;73;
     74;83;84;85;86;87;88;89;90;99;100;101;102;103;104;105;106;115;116;117;118;119;120;121;122;131;132;
     133;134;135;136;137;138;146;147;148;149;150;151;152;153;154;162;163;164;165;166;167;168;169;170;
     178;179;180;181;182;183;184;185;186;194;195;196;197;198;199;200;201;202;210;211;212;213;214;215;
     216;217;218;225;226;227;228;229;230;231;232;233;234;241;242;243;244;245;246;247;248;249;250] ++ repeat 0 94).
Definition ex_blk1 : list Z := [12; -3; 0; 0; 5] ++ repeat 0 58 ++ [1].
Definition ex_blk2 : list Z := [-200] ++ repeat 0 63.
Definition ex_scan : list (list ublk) :=
  [[mkUB 0 k3_dc_lum k5_ac_lum ex_blk1]; [mkUB 0 k3_dc_lum k5_ac_lum ex_blk2]].
Definition ex_prep (u : ublk) : eblk :=
  match jpeg_make_c_derived_tbl false true (Some (u_dc u)), jpeg_make_c_derived_tbl false false (Some (u_ac u)) with
  | Ret a, Ret b => mkEB (Z.of_nat (u_ci u)) a b (u_coef u)
  | _, _ => mkEB 0 (mkCT [] []) (mkCT [] []) []
  end.
Example C03_nonvacuous :
  scan_ok 10 1 ex_scan /\
  (exists es, Forall2 (Forall2 prepared) ex_scan es /\
     exists d', encode_scan 10 1 1 es (mkDest [] 2 [3%positive] false) = Ret (Some d') /\
     dout d' = scan_bytes 1 1 (map (map spec_blk) ex_scan) /\ (10 < length (dout d'))%nat).
Proof.
  split.
  - unfold scan_ok, ex_scan. repeat constructor; cbn; lia.
  - exists (map (map ex_prep) ex_scan). split.
    + unfold ex_scan. cbn [map]. repeat (first [apply Forall2_cons | apply Forall2_nil]);
        unfold prepared; (split; [vm_compute; repeat constructor|]); (split; [vm_compute; repeat constructor|]);
        (split; [vm_compute; reflexivity|]); (split; [vm_compute; reflexivity|]); (split; vm_compute; reflexivity).
    + eexists. split; [vm_compute; reflexivity|]. split; [vm_compute; reflexivity|]. vm_compute. lia.
Qed.
