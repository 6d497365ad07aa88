(* T_Round.v -- property C04 and C05 (both halves): what the sequential Huffman encoder writes, the
   sequential Huffman decoder reads back *)
From Verif Require Import Base M_HuffTbl M_Source M_BitRead M_HuffDec M_HuffFast M_HuffEnc S_Huff S_Stream S_Block S_Coef P_HuffTbl P_HuffTblD
  P_BitRead P_HuffSym P_HuffDec P_HuffFast P_HuffMcu P_Marker P_DecRef P_Reach P_Frame P_Resume P_HuffEnc P_HuffScan P_EncTbl P_Round P_RoundScan
  T_HuffTbl T_HuffEnc T_HuffDec.

(* Every symbol that the scan needs has a code in the table used for it.  (True of optimised tables, C11,
   and of the standard tables for 8-bit data; otherwise the C encoder silently writes nothing for the
   symbol, see C03.)  The DC predictions start at 0 in every restart interval. *)
Definition scan_codable (nc ri : nat) (us : list (list ublk)) : Prop :=
  Forall (mcus_codable (repeat 0 nc)) (intervals (S (length us)) ri us).

(* the decompressor's set-up for a block: the same tables (accepted by start_pass_huff_decoder), the
   same component, all its coefficients wanted *)
Definition decoder_for (nc : nat) (u : ublk) (b : blkcfg) : Prop :=
  jpeg_make_d_derived_tbl false true (Some (u_dc u)) = Ret (b_dc b) /\
  jpeg_make_d_derived_tbl false false (Some (u_ac u)) = Ret (b_ac b) /\
  b_ci b = Z.of_nat (u_ci u) /\ b_dcneed b = true /\ b_acneed b = true /\ b_have b = true.

(* the stores made for an MCU leave exactly its coefficients *)
Definition restored (m : list ublk) (stores : list (Z * Z * Z)) : Prop :=
  forall j u i, nth_error m j = Some u -> (i < 64)%nat ->
    coef stores (Z.of_nat j) (Z.of_nat i) = nth i (u_coef u) 0.

Lemma decoder_dec_of mcb nc u e b : (mcb <= 14)%nat -> prepared u e -> (u_ci u < nc)%nat /\ coefs_ok mcb (u_coef u) -> decoder_for nc u b ->
  dec_of nc u (mkRB (u_dc u) (u_ac u), b) /\ blk16 u.
Proof.
  intros Hm (P1 & P2 & _) (C1 & (L1 & L2 & L3)) (D1 & D2 & D3 & D4 & D5 & D6).
  assert (Hp : 2 ^ Z.of_nat mcb <= 2 ^ 14) by (apply Z.pow_le_mono_r; lia). change (2 ^ 14) with 16384 in Hp. split.
  - unfold dec_of. cbn [fst snd r_dc r_ac]. split; auto. split; auto. split; auto. split; auto. split; auto. split; auto.
    unfold blk_ok, tbl_ok. cbn [r_dc r_ac].
    destruct (d_derived_spec false true (u_dc u) P1) as [[A (d & E & D)]|[_ E]]; rewrite D1 in E; [|discriminate]. inversion E; subst d.
    destruct (d_derived_spec false false (u_ac u) P2) as [[A' (d' & E' & D')]|[_ E']]; rewrite D2 in E'; [|discriminate]. inversion E'; subst d'.
    split; auto. split; auto. rewrite D3. lia.
  - split; [exact L1|]. split; [unfold coef16; lia|]. rewrite tl_zz. apply Forall_map. apply Forall_forall. intros k Hk.
    pose proof zigzag_lt as Hz. rewrite Forall_forall in Hz. specialize (Hz k Hk).
    assert (Hk0 : k <> 0%nat).
    { intros ->. assert (N : forallb (fun k => negb (Nat.eqb k 0)) (tl zigzag) = true) by (vm_compute; reflexivity).
      rewrite forallb_forall in N. specialize (N _ Hk). discriminate. }
    destruct k as [|k]; [congruence|]. destruct (u_coef u) as [|c0 cs] eqn:Eu; [discriminate|]. cbn [tl nth] in *.
    apply category_le. change (2 ^ Z.of_nat 15) with 32768. rewrite Forall_forall in L3.
    assert (Hin : In (nth k cs 0) cs) by (apply nth_In; cbn [length] in L1; lia).
    specialize (L3 _ Hin). cbn beta in L3. lia.
Qed.

Lemma decode_scan_round nc ri m rest W : m <> 0 -> m <> 255 -> Z.of_nat ri < 2 ^ 32 ->
  (ri = 0%nat -> exists D, W = stuff D ++ 255 :: m :: rest) ->
  forall us rms t i h,
  Forall2 (Forall2 (dec_of nc)) us rms -> Forall (Forall blk16) us -> Forall (fun m => m <> []) us ->
  hd_ok h -> hncomp h = nc -> hsusp h = false -> rinv nc ri m rest t i us (alpha h) ->
  (ri = 0%nat -> qpos W (dsrc (hd_st h))) ->
  exists l h', decode_scan (Z.of_nat ri) (map (map snd) rms) h = Ret (l, h', true) /\ Forall2 restored us l.
Proof.
  intros Hm0 Hm1 Hri HW. induction us as [|m0 us IH]; intros rms t i h HF H16 Hne Hh Hnc Hs HI HQ; inversion HF as [|? rbs ? rms' Hx HF']; subst; cbn [map decode_scan].
  - exists [], h. auto.
  - inversion H16 as [|? ? H16a H16b]; subst. inversion Hne as [|? ? Hnea Hneb]; subst.
    assert (Hb : blks_ok rbs (hncomp (fresh_mcu h))).
    { split; [intros ->; inversion Hx; congruence|]. change (hncomp (fresh_mcu h)) with (hncomp h). clear -Hx. induction Hx as [|u x m r Hd Hx IHx]; constructor; auto. apply Hd. }
    destruct (decode_mcu_nosusp (Z.of_nat ri) rbs (fresh_mcu h) Hh Hb Hs) as (h1 & E1). rewrite E1. cbn [bind negb].
    pose proof (decode_mcu_refines (Z.of_nat ri) rbs (fresh_mcu h) Hh Hb) as HR. rewrite E1 in HR.
    destruct HR as (A1 & A2 & A3 & y & o & A4 & A5 & A6 & A7).
    change (hsusp (fresh_mcu h)) with (hsusp h) in *. change (hncomp (fresh_mcu h)) with (hncomp h) in *. change (alpha (fresh_mcu h)) with (alpha h) in *.
    destruct (rinv_step (hncomp h) ri m rest Hm0 Hm1 Hri t i m0 us (alpha h) rbs HI Hx H16a) as (st' & t' & i' & B1 & B2).
    rewrite Hs, B1 in A5. inversion A5; subst o st'.
    destruct (IH rms' t' i' h1 HF' H16b Hneb A1 A3 ltac:(congruence) B2) as (l & h' & E2 & HR2).
    { intros Hr. pose proof (mcu_reach (qpos W) (qpos_next W) (Z.of_nat ri) rbs (fresh_mcu h) Hh Hb (HQ Hr)) as HQ1. rewrite E1 in HQ1. exact HQ1. }
    rewrite E2. cbn [bind]. exists (souts (ust (hd_st h1)) :: l), h'. split; [reflexivity|]. constructor; [|exact HR2].
    assert (Hy : y = [] \/ y = mcu_outs 0 m0).
    { destruct (Nat.eq_dec ri 0) as [Er|Er]; [|left; apply A7; lia]. apply A6. intros Hu. change (unread (hd_st (fresh_mcu h))) with (unread (hd_st h)) in Hu.
      change (hbytes (fresh_mcu h)) with (src_bytes (dsrc (hd_st h))).
      destruct (HW Er) as (D & ->). apply (qpos_clean D m rest _ Hm0 Hm1 (HQ Er)).
      destruct HI as (_ & H2 & _ & _ & _ & H6 & _). change (rs_tail (alpha h)) with (tail (hd_st h)) in H2. unfold tail in H2. rewrite Hu in H2. cbn [Z.eqb] in H2.
      unfold sseg in H2. unfold hsusp in Hs. rewrite Hs in H2.
      rewrite skipn_all2 in H2 by (apply H6; auto). exact H2. }
    intros j u k Hj Hk. unfold houts in A4. rewrite A4. cbn [fresh_mcu hd_st ust souts app].
    rewrite (covers_coef y (mcu_outs 0 m0)); [|destruct Hy as [->| ->]; [apply covers_nil|apply covers_self]].
    apply (mcu_outs_coef m0 0 j k u H16a Hj Hk).
Qed.

(* C04 / C05: encode a scan with any restart interval (0 = none) to any non-suspending destination;
   let any non-suspending source deliver the bytes written, in any chunks, followed by some marker
   (EOI, or SOS, DHT, ... of what follows: any but FF 00 and fill bytes) and by anything at all.  The
   decoder succeeds and restores exactly every coefficient of every block of every MCU. *)
Theorem C04_round_trip : forall mcb nc ri us es d d' bytes cfgs src m rest,
  (mcb <= 14)%nat -> Z.of_nat ri < 2 ^ 32 ->
  Forall2 (Forall2 prepared) us es -> scan_ok mcb nc us -> Forall (fun m => m <> []) us ->
  scan_codable nc ri us ->
  0 < dfree d -> dsusp d = false ->
  encode_scan (Z.of_nat mcb) (Z.of_nat ri) nc es d = Ret (Some d') -> dout d' = dout d ++ bytes ->
  Forall2 (Forall2 (decoder_for nc)) us cfgs ->
  ssusp src = false -> src_bytes src = bytes ++ 255 :: m :: rest -> Forall byte (src_bytes src) -> m <> 0 -> m <> 255 ->
  exists l h, decode_scan (Z.of_nat ri) cfgs (start_pass_huff_decoder nc (Z.of_nat ri) src) = Ret (l, h, true) /\
              Forall2 restored us l.
Proof.
  intros mcb nc ri us es d d' bytes cfgs src m rest Hm Hri Hp Hok Hne Hcod Hd Hs HE HO Hdec Hss Hsb Hby Hm0 Hm1.
  destruct (C03_scan_bytes mcb nc ri us es d Hm Hri Hp Hok Hd Hs) as (d2 & E2 & O2). rewrite HE in E2. inversion E2; subst d2.
  rewrite HO in O2. apply app_inv_head in O2. subst bytes.
  assert (G : exists rms, map (map snd) rms = cfgs /\ Forall2 (Forall2 (dec_of nc)) us rms /\ Forall (Forall blk16) us).
  { clear -Hm Hp Hok Hdec. revert es cfgs Hp Hdec. induction us as [|m0 us IH]; intros es cfgs Hp Hdec;
      inversion Hp as [|? e0 ? es' Hp1 Hp2]; subst; inversion Hdec as [|? c0 ? cfgs' Hd1 Hd2]; subst.
    - exists []. auto.
    - inversion Hok as [|? ? Hok1 Hok2]; subst. destruct (IH Hok2 es' cfgs' Hp2 Hd2) as (rms & I1 & I2 & I3).
      assert (G : exists rb, map snd rb = c0 /\ Forall2 (dec_of nc) m0 rb /\ Forall blk16 m0).
      { clear -Hm Hok1 Hp1 Hd1. revert e0 c0 Hp1 Hd1. induction m0 as [|u m0 IH]; intros e0 c0 Hp1 Hd1;
          inversion Hp1 as [|? e1 ? es' Hp1a Hp2]; subst; inversion Hd1 as [|? c1 ? cs' Hd1a Hd2]; subst.
        - exists []. auto.
        - inversion Hok1 as [|? ? Hok1a Hok2]; subst. destruct (IH Hok2 es' cs' Hp2 Hd2) as (rb & I1 & I2 & I3).
          destruct (decoder_dec_of mcb nc u e1 c1 Hm Hp1a Hok1a Hd1a) as [J1 J2].
          exists ((mkRB (u_dc u) (u_ac u), c1) :: rb). cbn [map snd]. rewrite I1. auto. }
      destruct G as (rb & J1 & J2 & J3). exists (rb :: rms). cbn [map]. rewrite I1, J1. auto. }
  destruct G as (rms & <- & GF & G16).
  assert (Hso : src_ok src) by (split; [exact Hby|congruence]).
  destruct (C12_start nc (Z.of_nat ri) src Hso) as [S1 S2].
  assert (Hsc : scan_bytes nc ri (map (map spec_blk) us) ++ 255 :: m :: rest = rest_bytes nc ri m rest 0 us).
  { unfold scan_bytes, rest_bytes, segb, specm. f_equal. f_equal. rewrite map_length.
    assert (GI : forall fuel (l : list (list ublk)), map (map (map spec_blk)) (intervals fuel ri l) = intervals fuel ri (map (map spec_blk) l)).
    { induction fuel as [|f IH]; intros l; cbn [intervals map]; auto. rewrite map_length. destruct (_ || _); cbn [map]; auto.
      rewrite firstn_map, skipn_map, IH. reflexivity. }
    rewrite <- GI, map_map. reflexivity. }
  rewrite Hsc in Hsb.
  eapply (decode_scan_round nc ri m rest (src_bytes src)) with (t := first_len ri us) (i := 0); auto.
  - intros ->. rewrite Hsb. unfold rest_bytes. cbn [intervals Nat.eqb orb map join_rst]. unfold segb, segment_bytes. eexists. reflexivity.
  - destruct (seg_rest nc ri m rest Hm0 Hm1 0 us) as (D & pad & E3 & E4).
    unfold rinv, alpha, start_pass_huff_decoder, abits, tail, sseg. cbn [hd_st hd_togo hd_num bleft gbuf dsrc unread insuff ust sdc Z.eqb rs_bits rs_tail rs_ins rs_togo rs_num rs_dcs].
    rewrite Hss, Hsb, E3. cbn [fst snd Z.to_nat bits_of app].
    split; [exists pad; exact E4|]. split; [reflexivity|]. split; [reflexivity|].
    unfold first_len. split; [intros Hr; destruct (Nat.eqb_spec ri 0); [lia|reflexivity]|]. split; [reflexivity|].
    split; [intros ->; cbn; lia|]. split; [intros Hr; destruct (Nat.eqb_spec ri 0); lia|]. split; [apply repeat_length|].
    apply (codable_restart nc ri m Hm0 Hm1). split; [exact I|exact Hcod].
  - intros _. right. right. exists []. reflexivity.
Qed.
Print Assumptions C04_round_trip.

(* C05, decoder half: the round trip for every restart interval (the encoder half,
   C05_encoder_intervals, says where the markers are and that predictions restart at zero) *)
Theorem C05_round_trip : forall mcb nc ri us es d d' bytes cfgs src m rest,
  (mcb <= 14)%nat -> (0 < ri)%nat -> Z.of_nat ri < 2 ^ 32 ->
  Forall2 (Forall2 prepared) us es -> scan_ok mcb nc us -> Forall (fun m => m <> []) us ->
  scan_codable nc ri us ->
  0 < dfree d -> dsusp d = false ->
  encode_scan (Z.of_nat mcb) (Z.of_nat ri) nc es d = Ret (Some d') -> dout d' = dout d ++ bytes ->
  Forall2 (Forall2 (decoder_for nc)) us cfgs ->
  ssusp src = false -> src_bytes src = bytes ++ 255 :: m :: rest -> Forall byte (src_bytes src) -> m <> 0 -> m <> 255 ->
  exists l h segs, decode_scan (Z.of_nat ri) cfgs (start_pass_huff_decoder nc (Z.of_nat ri) src) = Ret (l, h, true) /\
    Forall2 restored us l /\ concat segs = us /\
    Forall (fun s => length s = ri) (removelast segs) /\ (length (last segs []) <= ri)%nat /\
    bytes = join_rst 0 (map (fun s => segment_bytes (enc_mcus (repeat 0 nc) (map (map spec_blk) s))) segs).
Proof.
  intros mcb nc ri us es d d' bytes cfgs src m rest Hm Hr Hri Hp Hok Hne Hcod Hd Hs HE HO Hdec Hss Hsb Hby Hm0 Hm1.
  destruct (C04_round_trip mcb nc ri us es d d' bytes cfgs src m rest Hm Hri Hp Hok Hne Hcod Hd Hs HE HO Hdec Hss Hsb Hby Hm0 Hm1) as (l & h & E & HR).
  destruct (C05_encoder_intervals mcb nc ri us es d Hm Hr Hri Hp Hok Hd Hs) as (d2 & segs & E2 & S1 & S2 & S3 & S4).
  rewrite HE in E2. inversion E2; subst d2. rewrite HO in S4. apply app_inv_head in S4. exists l, h, segs. auto 10.
Qed.
Print Assumptions C05_round_trip.

(* ---- tables that list every symbol make everything codable ---- *)
Definition full_tables (mcb : nat) (u : ublk) : Prop :=
  (forall c, (c <= mcb + 1)%nat -> has_code (hbits (u_dc u)) (hval (u_dc u)) (Z.of_nat c)) /\
  has_code (hbits (u_ac u)) (hval (u_ac u)) 0 /\ has_code (hbits (u_ac u)) (hval (u_ac u)) 240 /\
  (forall r c, (r < 16)%nat -> (1 <= c <= mcb)%nat -> has_code (hbits (u_ac u)) (hval (u_ac u)) (16 * Z.of_nat r + Z.of_nat c)).

Lemma full_ac mcb u : full_tables mcb u -> forall l r, Forall (fun v => (category v <= mcb)%nat) l ->
  Forall (has_code (hbits (u_ac u)) (hval (u_ac u))) (ac_symbols r l).
Proof.
  intros (_ & F0 & FZ & FA). induction l as [|v l IH]; intros r H; cbn [ac_symbols].
  - destruct r; constructor; auto.
  - inversion H; subst. destruct (Z.eqb_spec v 0); [apply IH; auto|]. apply Forall_app. split.
    + apply Forall_forall. intros x Hx. apply repeat_spec in Hx. now subst.
    + constructor; [|apply IH; auto]. apply FA; [apply Nat.mod_upper_bound; lia|].
      assert (category v <> 0%nat) by (intros E; apply category_0 in E; congruence). lia.
Qed.

Theorem C04_full_tables : forall mcb nc ri us, (mcb <= 14)%nat ->
  scan_ok mcb nc us -> Forall (Forall (full_tables mcb)) us -> scan_codable nc ri us.
Proof.
  intros mcb nc ri us Hm Hok Hf. unfold scan_codable. apply Forall_forall. intros seg Hin.
  assert (Hsub : Forall (Forall (fun u => (u_ci u < nc)%nat /\ coefs_ok mcb (u_coef u))) seg /\ Forall (Forall (full_tables mcb)) seg).
  { revert Hin Hok Hf. generalize (S (length us)) as f. intros f. revert us. induction f as [|f IH]; intros us Hin Hok Hf; [destruct Hin|].
    cbn [intervals] in Hin. destruct (_ || _); [destruct Hin as [->|[]]; auto|].
    destruct Hin as [<-|Hin]; [split; apply Forall_firstn; auto|]. apply (IH _ Hin); apply Forall_skipn; auto. }
  destruct Hsub as [H1 H2]. clear Hin.
  assert (G : forall seg preds, pr_ok mcb preds -> Forall (Forall (fun u => (u_ci u < nc)%nat /\ coefs_ok mcb (u_coef u))) seg -> Forall (Forall (full_tables mcb)) seg -> mcus_codable preds seg).
  { clear. induction seg as [|m0 seg IH]; intros preds Hp H1 H2; cbn [mcus_codable]; auto. inversion H1; subst. inversion H2; subst.
    assert (GM : forall m0 preds, pr_ok mcb preds -> Forall (fun u => (u_ci u < nc)%nat /\ coefs_ok mcb (u_coef u)) m0 -> Forall (full_tables mcb) m0 ->
        mcu_codable preds m0 /\ pr_ok mcb (snd (enc_mcu preds (map spec_blk m0)))).
    { clear. induction m0 as [|u m0 IH]; intros preds Hp H1 H2; cbn [mcu_codable map enc_mcu]; auto.
      inversion H1 as [|? ? [C1 (L1 & L2 & L3)] H1']; subst. inversion H2 as [|? ? HF H2']; subst.
      destruct (IH (upd preds (u_ci u) (nth 0 (u_coef u) 0))) as [I1 I2]; auto.
      { apply Forall_upd; auto. }
      split; [split; [|exact I1]|].
      - split.
        + apply HF. apply category_le. assert (E : - 2 ^ Z.of_nat mcb <= nth (u_ci u) preds 0 < 2 ^ Z.of_nat mcb).
          { apply (Forall_nth' (fun v => - 2 ^ Z.of_nat mcb <= v < 2 ^ Z.of_nat mcb)); auto. pose proof (Z.pow_pos_nonneg 2 (Z.of_nat mcb)). lia. }
          replace (Z.of_nat (mcb + 1)) with (Z.succ (Z.of_nat mcb)) by lia. rewrite Z.pow_succ_r by lia. lia.
        + apply (full_ac mcb u HF). rewrite tl_zz. apply Forall_map. apply Forall_forall. intros k Hk.
          pose proof zigzag_lt as Hz. rewrite Forall_forall in Hz. specialize (Hz k Hk).
          assert (Hk0 : k <> 0%nat).
          { intros ->. assert (N : forallb (fun k => negb (Nat.eqb k 0)) (tl zigzag) = true) by (vm_compute; reflexivity).
            rewrite forallb_forall in N. specialize (N _ Hk). discriminate. }
          destruct k as [|k]; [congruence|]. destruct (u_coef u) as [|c0 cs] eqn:Eu; [discriminate|]. cbn [tl nth] in *.
          apply category_le. rewrite Forall_forall in L3. apply L3. apply nth_In. cbn [length] in L1. lia.
      - cbn [spec_blk s_ci s_coef]. destruct (enc_mcu _ (map spec_blk m0)) as [w p']. exact I2. }
    destruct (GM m0 preds Hp H3 H5) as [G1 G2]. split; auto. }
  apply G; auto. apply pr0_ok.
Qed.

(* Non-vacuity: the scan of C03_nonvacuous (standard tables, restart interval 1) satisfies the
   hypotheses of C04 and C05 *)
Definition ex_dec (u : ublk) : blkcfg :=
  match jpeg_make_d_derived_tbl false true (Some (u_dc u)), jpeg_make_d_derived_tbl false false (Some (u_ac u)) with
  | Ret a, Ret b => mkBlk a b (Z.of_nat (u_ci u)) true true true
  | _, _ => w_blk
  end.
Lemma has_code_dec bits vals s : existsb (fun k => nth k vals (-1) =? s) (seq 0 (length (code_sizes bits))) = true -> has_code bits vals s.
Proof.
  intros H. apply existsb_exists in H. destruct H as (k & Hk & E). apply in_seq in Hk. apply Z.eqb_eq in E.
  exists (code_word (code_sizes bits) k), k. split; [lia|auto].
Qed.
Lemma std_full c coefs : full_tables 10 (mkUB c k3_dc_lum k5_ac_lum coefs).
Proof.
  split; [|split; [|split]]; cbn [u_dc u_ac].
  - intros n Hn. apply has_code_dec. do 12 (destruct n as [|n]; [vm_compute; reflexivity|]). lia.
  - apply has_code_dec. vm_compute. reflexivity.
  - apply has_code_dec. vm_compute. reflexivity.
  - intros r n Hr Hn. apply has_code_dec.
    assert (G : forallb (fun r => forallb (fun n => existsb (fun k => nth k (hval k5_ac_lum) (-1) =? 16 * Z.of_nat r + Z.of_nat n) (seq 0 (length (code_sizes (hbits k5_ac_lum))))) (seq 1 10)) (seq 0 16) = true) by (vm_compute; reflexivity).
    rewrite forallb_forall in G. specialize (G r ltac:(apply in_seq; lia)). rewrite forallb_forall in G. apply G. apply in_seq. lia.
Qed.
Example C04_nonvacuous :
  scan_codable 1 1 ex_scan /\ Forall2 (Forall2 (decoder_for 1)) ex_scan (map (map ex_dec) ex_scan) /\ Forall (fun m => m <> []) ex_scan /\
  match encode_scan 10 1 1 (map (map ex_prep) ex_scan) (mkDest [] 2 [3%positive] false) with
  | Ret (Some d') =>
    match decode_scan 1 (map (map ex_dec) ex_scan) (start_pass_huff_decoder 1 1 (mkSrc (dout d' ++ [255; 217]) [] false)) with
    | Ret (l, _, true) => map (fun o => map (fun i => coef o 0 (Z.of_nat i)) (seq 0 64)) l = [ex_blk1; ex_blk2]
    | _ => False
    end
  | _ => False
  end.
Proof.
  split; [|split; [|split]].
  - apply (C04_full_tables 10); [lia|apply C03_nonvacuous|]. unfold ex_scan. repeat constructor; apply std_full.
  - unfold ex_scan. cbn [map]. repeat (first [apply Forall2_cons | apply Forall2_nil]); unfold decoder_for, ex_dec;
      (split; [vm_compute; reflexivity|]); (split; [vm_compute; reflexivity|]); (split; [vm_compute; reflexivity|]); auto.
  - unfold ex_scan. repeat constructor; discriminate.
  - vm_compute. reflexivity.
Qed.
