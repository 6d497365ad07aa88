(* T_HuffDec.v -- properties C02, C08, C09, C12, C13, C33: the sequential Huffman decoder.

   Vocabulary used in the statements:
   - [abits s] (P_BitRead): the bits the decoder has still to decode: those in the bit buffer, then the
     bits of the entropy-coded segment at the input position (S_Stream.seg);
   - [tail s]: the marker that ends the segment, and the bytes after it; None = not yet delivered;
   - [reader_ok s]: bits_left in 0..64, the source delivers bytes, and insufficient_data is set only
     after a marker was met and JWRN_HIT_MARKER was issued;  [hd_ok h]: the same, plus
     next_restart_num in 0..7.  The initial state satisfies them and every operation preserves them;
   - [coef], [same_coefs] (S_Coef): the coefficients that the stores leave in zeroed blocks. *)
From Verif Require Import Base M_HuffTbl M_Source M_BitRead M_HuffDec M_HuffFast S_Huff S_Stream S_Coef
  P_HuffTbl P_HuffTblD P_BitRead P_HuffSym P_HuffDec P_HuffFast P_HuffMcu P_Marker P_DecRef P_Reach P_Frame P_Resume.

(* ------------------------------------------------------------------ *)
(* C02 *)

(* table acceptance *)
Theorem C02_decoder_table : forall lossless isDC t,
  huff_type_ok t = true ->
  match jpeg_make_d_derived_tbl lossless isDC (Some t) with
  | Undef => False
  | Error e => e = JERR_BAD_HUFF_TABLE /\ ~ dec_table_ok lossless isDC (hbits t) (hval t)
  | Ret d => dec_table_ok lossless isDC (hbits t) (hval t) /\ dpub d = t
  end.
Proof.
  intros lossless isDC t Ht. destruct (d_derived_spec lossless isDC t Ht) as [[H (d & E & D)]|[H E]]; rewrite E; auto.
  split; auto. apply D.
Qed.
Print Assumptions C02_decoder_table.

(* every symbol's canonical code, followed by any bits, decodes to that symbol and is consumed
   exactly; the decoder can stop only for want of input on a suspending source *)
Theorem C02_symbol : forall U lossless isDC t d (s : dst U) sym w rest,
  huff_type_ok t = true -> jpeg_make_d_derived_tbl lossless isDC (Some t) = Ret d ->
  reader_ok s -> insuff s = false ->
  sym_code (hbits t) (hval t) sym w -> abits s = w ++ rest ->
  match huff_decode d s with
  | Ret (Done v s') => v = sym /\ abits s' = rest /\ tail s' = tail s /\ ust s' = ust s /\
                       warns s' = warns s /\ insuff s' = false /\ reader_ok s'
  | Ret (Susp s') => ssusp (dsrc s) = true /\ tail s = None /\ ust s' = ust s
  | _ => False
  end.
Proof.
  intros U lossless isDC t d s sym w rest Ht Ed (R1 & R2 & R3) Hi (k & Hk & Hv & Hw) Hab.
  destruct (d_derived_spec lossless isDC t Ht) as [[Hok (d' & E & D)]|[Hno E]]; rewrite Ed in E; [|discriminate].
  inversion E; subst d'. destruct Hok as [Hc _].
  set (c := mkCtx (zstream (abits s)) (length (abits s)) (tail s) (ssusp (dsrc s))).
  assert (I : inv c (warns s) 0 0 s).
  { constructor; cbn [cS cL cT cU c]; auto.
    all: try (intros; cbn; congruence). }
  assert (Hsz : nth k (code_sizes (hbits t)) 0%nat = length w).
  { rewrite Hw. symmetry. apply code_word_length. }
  assert (Hds : dec_symbol (hbits t) (hval t) (zstream (abits s)) 0 = (sym, length w)).
  { rewrite (dec_symbol_word _ _ _ _ k Hc Hk), Hv, Hsz; auto. rewrite Hsz, <- Hw. apply list_nth_ext; rewrite length_bits_at; auto.
    intros i Hi'. rewrite bits_at_nth by auto. unfold zstream. cbn [Nat.add]. rewrite Hab, app_nth1 by auto. reflexivity. }
  assert (Hca : code_at (hbits t) (zstream (abits s)) 0 <> None).
  { unfold dec_symbol in Hds. destruct (code_at _ _ _) as [k'|] eqn:Ek; [discriminate|].
    inversion Hds as [[A B]]. pose proof (sizes_nth _ k (code_sizes_ok (hbits t)) Hk). lia. }
  pose proof (huff_decode_spec t d Ht Hc D c (warns s) 0 s I) as H. cbn [cS c] in H. unfold wp in H.
  destruct (huff_decode d s) as [[v s'|s']| |] eqn:Ehd; auto.
  - destruct H as (H1 & H2 & I'). rewrite Hds in H2, I'. cbn [fst snd] in H2, I'. subst v.
    unfold sym_warn in I'. destruct (code_at (hbits t) (zstream (abits s)) 0); [|congruence].
    assert (Hins : insuff s' = false).
    { rewrite (i_ins _ _ _ _ _ I'). cbn [cL c]. apply Nat.ltb_ge. rewrite Hab, app_length. lia. }
    split; auto. split.
    + pose proof (i_len _ _ _ _ _ I' Hins) as Hl. cbn [cL c] in Hl. rewrite Hab, app_length in Hl.
      apply list_nth_ext; [lia|]. intros i Hlt. rewrite (i_str _ _ _ _ _ I' i (or_introl Hlt)). cbn [cS c]. unfold zstream.
      rewrite Hab, app_nth2 by lia. f_equal. lia.
    + split; [exact (i_tail _ _ _ _ _ I')|]. split; [exact H1|]. split; [exact (i_warn _ _ _ _ _ I' Hins)|]. split; [exact Hins|].
      split; [exact (i_left _ _ _ _ _ I')|]. split; [exact (i_src _ _ _ _ _ I')|]. congruence.
  - destruct H as (H1 & H2 & H3 & H4 & H5). auto.
Qed.
Print Assumptions C02_symbol.

(* ------------------------------------------------------------------ *)
(* C12 *)

(* a block of the MCU whose tables were accepted by the decompressor (start_pass_huff_decoder) *)
Definition accepted_block (ncomp : nat) (b : blkcfg) : Prop :=
  exists tdc tac, huff_type_ok tdc = true /\ huff_type_ok tac = true /\
    jpeg_make_d_derived_tbl false true (Some tdc) = Ret (b_dc b) /\
    jpeg_make_d_derived_tbl false false (Some tac) = Ret (b_ac b) /\ 0 <= b_ci b < Z.of_nat ncomp.
Definition accepted_mcu (ncomp : nat) (bs : list blkcfg) : Prop := bs <> [] /\ Forall (accepted_block ncomp) bs.

Lemma accepted_blk n b : accepted_block n b -> exists rb, blk_ok rb b n.
Proof.
  intros (tdc & tac & H1 & H2 & H3 & H4 & H5). exists (mkRB tdc tac). unfold blk_ok, tbl_ok. cbn [r_dc r_ac].
  destruct (d_derived_spec false true tdc H1) as [[A (d & E & D)]|[_ E]]; rewrite H3 in E; [|discriminate]. inversion E; subst d.
  destruct (d_derived_spec false false tac H2) as [[A' (d' & E' & D')]|[_ E']]; rewrite H4 in E'; [|discriminate]. inversion E'; subst d'.
  auto 10.
Qed.
Lemma accepted_blks n bs : accepted_mcu n bs -> exists rbs, map snd rbs = bs /\ blks_ok rbs n.
Proof.
  intros [Hne H]. assert (G : exists rbs, map snd rbs = bs /\ Forall (fun x => blk_ok (fst x) (snd x) n) rbs).
  { clear Hne. induction H as [|b bs Hb Hbs (rbs & E & F)]; [exists []; auto|].
    destruct (accepted_blk n b Hb) as (rb & Hrb). exists ((rb, b) :: rbs). cbn. rewrite E. auto. }
  destruct G as (rbs & E & F). exists rbs. split; auto. split; auto. intros ->. cbn in E. congruence.
Qed.
Lemma accepted_scan n ms : Forall (accepted_mcu n) ms -> exists rms, map (map snd) rms = ms /\ Forall (fun m => blks_ok m n) rms.
Proof.
  induction 1 as [|b bs Hb Hbs (rbs & E & F)]; [exists []; auto|].
  destruct (accepted_blks n b Hb) as (rb & E1 & H1). exists (rb :: rbs). cbn. rewrite E, E1. auto.
Qed.

(* the initial state is fine for any byte source *)
Theorem C12_start : forall ncomp ri src, src_ok src -> hd_ok (start_pass_huff_decoder ncomp ri src) /\ hncomp (start_pass_huff_decoder ncomp ri src) = ncomp.
Proof.
  intros ncomp ri src H. split; [|apply repeat_length]. split; [|cbn; lia]. split; [cbn; lia|]. split; [exact H|]. discriminate.
Qed.

(* any bytes, any restart interval, any decoder state: decoding an MCU ends normally, without a fatal
   error and without undefined behaviour (every table, block and buffer access of the model is checked:
   a coefficient store outside 0..63 or an input read outside the buffer would be Undef) *)
Theorem C12_mcu_safe : forall ri bs h,
  hd_ok h -> accepted_mcu (hncomp h) bs ->
  exists ok h', decode_mcu ri bs h = Ret (ok, h') /\ hd_ok h' /\ hncomp h' = hncomp h /\
                (ok = false -> ssusp (dsrc (hd_st h)) = true) /\ ssusp (dsrc (hd_st h')) = ssusp (dsrc (hd_st h)).
Proof.
  intros ri bs h Hh Hb. destruct (accepted_blks _ _ Hb) as (rbs & <- & Hr).
  pose proof (decode_mcu_refines ri rbs h Hh Hr) as H. destruct (decode_mcu ri (map snd rbs) h) as [[[|] h']| |]; try contradiction.
  - destruct H as (A1 & A2 & A3 & _). exists true, h'. split; auto. split; auto. split; auto. split; [discriminate|exact A2].
  - destruct H as (A1 & A2 & A3 & A4 & _). exists false, h'. split; auto. split; auto. split; auto. split; [auto|].
    unfold hsusp in *. congruence.
Qed.
Print Assumptions C12_mcu_safe.

Theorem C12_scan_safe : forall ri ms h,
  hd_ok h -> Forall (accepted_mcu (hncomp h)) ms ->
  exists l h' ok, decode_scan ri ms h = Ret (l, h', ok) /\ hd_ok h' /\
    (ssusp (dsrc (hd_st h)) = false -> ok = true /\ length l = length ms).
Proof.
  intros ri ms. induction ms as [|m ms IH]; intros h Hh Hb; cbn [decode_scan].
  - exists [], h, true. auto.
  - inversion Hb as [|? ? Hm Hms]; subst.
    destruct (C12_mcu_safe ri m (fresh_mcu h) Hh Hm) as (ok & h1 & E & H1 & H2 & H3 & H4). rewrite E. cbn [bind].
    destruct ok; cbn [negb].
    + change (hncomp (fresh_mcu h)) with (hncomp h) in H2. rewrite <- H2 in Hms.
      destruct (IH h1 H1 Hms) as (l & h' & ok & E2 & H5 & H6). rewrite E2. cbn [bind].
      exists (souts (ust (hd_st h1)) :: l), h', ok. split; auto. split; auto. intros Hs. cbn [length].
      change (dsrc (hd_st (fresh_mcu h))) with (dsrc (hd_st h)) in *. rewrite H4 in H6. destruct (H6 Hs). split; [auto|congruence].
    + exists [], h1, false. split; auto. split; auto. intros Hs. specialize (H3 eq_refl).
      change (dsrc (hd_st (fresh_mcu h))) with (dsrc (hd_st h)) in *. congruence.
Qed.
Print Assumptions C12_scan_safe.

(* running out of data: the MCU is decoded as if zero bits followed (T.81 reference decoder
   S_Stream.ref_block over [zstream (abits e)], the bits at hand followed by zeros), and the
   decoder has then warned and set insufficient_data *)
Theorem C12_exhausted : forall bs (rbs : list (rblk * blkcfg)) (e : dst sqst),
  map snd rbs = bs -> Forall (fun x => blk_ok (fst x) (snd x) (length (sdc (ust e)))) rbs ->
  reader_ok e -> insuff e = false -> ssusp (dsrc e) = false ->
  let '(dcs, o, used, ok) := ref_mcu 0 rbs (sdc (ust e)) (zstream (abits e)) 0 in
  exists s', decode_mcu_slow bs e = Ret (Done tt s') /\ ust s' = mkSq dcs (souts (ust e) ++ o) /\
    insuff s' = (length (abits e) <? used)%nat /\ (insuff s' = true -> In JWRN_HIT_MARKER (warns s')).
Proof.
  intros bs rbs e <- Hb Hr Hi Hs.
  pose proof (decode_mcu_slow_spec rbs e (zstream (abits e)) Hr Hi Hb (continues_zstream _ _)) as H.
  destruct (ref_mcu 0 rbs (sdc (ust e)) (zstream (abits e)) 0) as [[[dcs o] used] ok].
  destruct (decode_mcu_slow (map snd rbs) e) as [[[] s'|s']| |]; try contradiction.
  - destruct H as (A1 & A2 & A3 & A4 & A5 & A6). exists s'. split; auto. split; auto. split; auto. apply A1.
  - destruct H as (A1 & _). congruence.
Qed.
Print Assumptions C12_exhausted.

(* ... and from then on (until a restart) MCUs are left zero: no store at all is made *)
Theorem C12_after_exhaustion : forall bs h, insuff (hd_st h) = true ->
  decode_mcu 0 bs h = Ret (true, mkHD (hd_st h) (hd_togo h) (hd_num h) (hd_disc h)).
Proof.
  intros bs h Hi. unfold decode_mcu, decode_mcu_body. cbn [Z.eqb negb andb bind]. rewrite Hi. cbn [bind]. reflexivity.
Qed.

(* ------------------------------------------------------------------ *)
(* C09 *)

(* whenever the fast decoder reports success, the slow one, started in the same state, makes the
   same stores, ends with the same DC predictions and has the same bits left *)
Theorem C09_fast_agrees : forall bs (e : dst sqst),
  reader_ok e -> insuff e = false -> unread e = 0 ->
  accepted_mcu (length (sdc (ust e))) bs ->
  (512 * length bs <= length (sbuf (dsrc e)))%nat ->
  exists ok s1, decode_mcu_fast bs e = Ret (ok, s1) /\
    (ok = true ->
     match decode_mcu_slow bs e with
     | Ret (Done _ s2) => ust s2 = ust s1 /\ abits s2 = abits s1 /\ tail s2 = tail s1 /\ insuff s2 = insuff s1
     | Ret (Susp _) => ssusp (dsrc e) = true
     | _ => False
     end) /\
    (ok = false -> gbuf s1 = gbuf e /\ bleft s1 = bleft e /\ dsrc s1 = dsrc e /\ unread s1 = 0 /\
                   sdc (ust s1) = sdc (ust e)).
Proof.
  intros bs e Hr Hi Hu Hb Hlen. destruct (accepted_blks _ _ Hb) as (rbs & <- & Hne & Hrb). rewrite map_length in Hlen.
  pose proof (decode_mcu_fast_spec rbs e Hr Hu Hne Hlen Hrb) as HF.
  pose proof (decode_mcu_slow_spec rbs e (zstream (abits e)) Hr Hi Hrb (continues_zstream _ _)) as HS.
  destruct (ref_mcu_local (fast_stream e) (zstream (abits e)) (length (sdc (ust e))) rbs 0 (sdc (ust e)) 0 Hrb) as [_ Hloc].
  destruct (ref_mcu 0 rbs (sdc (ust e)) (fast_stream e) 0) as [[[dcs o] p'] ok] eqn:Er. cbn [fst snd] in Hloc.
  destruct HF as (r & s' & Ed & H). exists r, s'. split; [exact Ed|]. destruct r; (split; [|try discriminate]).
  - intros _. destruct H as (A1 & A2 & A3 & A4 & A5 & A6 & A7 & A8 & _).
    assert (HA : agree (fast_stream e) (zstream (abits e)) p').
    { intros i Hip. unfold zstream. rewrite A8, app_nth1 by (rewrite length_bits_at; auto). now rewrite bits_at_nth by auto. }
    rewrite (Hloc HA) in HS.
    assert (L : (length (abits e) <? p')%nat = false).
    { apply Nat.ltb_ge. rewrite A8, app_length, length_bits_at. lia. }
    destruct (decode_mcu_slow (map snd rbs) e) as [[[] s2|s2]| |]; auto.
    + destruct HS as (B1 & B2 & B3 & B4 & B5 & B6). rewrite L in B5.
      split; [congruence|]. split; [|split; congruence].
      rewrite (proj1 (B6 B5)), A8, skipn_app, length_bits_at, Nat.sub_diag. cbn [skipn].
      rewrite skipn_all2 by (rewrite length_bits_at; lia). reflexivity.
    + apply HS.
  - discriminate.
  - intros _. destruct H as (A1 & A2). subst s'. auto.
Qed.
Print Assumptions C09_fast_agrees.

(* decode_mcu as a whole (fast path, with fall-back to the slow path) leaves the same coefficients
   and the same permanent state as the slow path alone, on a non-suspending source, provided no stuffed zero follows
   fill bytes (FF FF 00, which T.81 B.1.1.5 forbids) *)
Definition decode_mcu_slow_only (bs : list blkcfg) (h : hdec) : outcome hdec :=
  if insuff (hd_st h) then Ret h
  else match decode_mcu_slow bs (hd_st h) with
       | Ret (Done _ s) => Ret (mkHD s (hd_togo h) (hd_num h) (hd_disc h))
       | Ret (Susp _) => Undef | Error e => Error e | Undef => Undef
       end.

Theorem C09_composite : forall bs h,
  hd_ok h -> accepted_mcu (hncomp h) bs -> ssusp (dsrc (hd_st h)) = false -> houts h = [] ->
  no_filled_zero (hbytes h) ->
  exists h1 h2, decode_mcu 0 bs h = Ret (true, h1) /\ decode_mcu_slow_only bs h = Ret h2 /\
    same_coefs (houts h1) (houts h2) /\ sdc (ust (hd_st h1)) = sdc (ust (hd_st h2)) /\
    insuff (hd_st h1) = insuff (hd_st h2) /\ tail (hd_st h1) = tail (hd_st h2) /\
    (insuff (hd_st h1) = false -> abits (hd_st h1) = abits (hd_st h2)).
Proof.
  intros bs h Hh Hb Hs Ho Hz. destruct (accepted_blks _ _ Hb) as (rbs & <- & Hr).
  destruct (decode_mcu_nosusp 0 rbs h Hh Hr Hs) as (h1 & E1). exists h1.
  pose proof (decode_mcu_refines 0 rbs h Hh Hr) as H. rewrite E1 in H. destruct H as (A1 & A2 & A3 & y & o & A4 & A5 & A6 & _).
  specialize (A6 (nfz_hclean _ Hz)). rewrite Ho in A4. cbn [app] in A4. unfold decode_mcu_slow_only.
  rewrite ref_step_body in A5. cbn [Z.eqb negb andb] in A5. inversion A5 as [A5']. clear A5.
  destruct (insuff (hd_st h)) eqn:Hi.
  - exists h. split; [exact E1|]. split; [reflexivity|]. unfold ref_body, alpha in A5'. cbn [rs_ins rs_dcs rs_bits rs_tail rs_togo rs_num] in A5'.
    rewrite Hi in A5'. inversion A5' as [[B1 B2 B3 B4 B5 B6 B7]].
    assert (houts h1 = []) by (rewrite A4; destruct A6 as [->| ->]; rewrite <- B1; reflexivity).
    split; [intros bn i; congruence|]. repeat split; congruence.
  - pose proof (slow_body rbs h Hh Hr Hi) as HS.
    destruct (decode_mcu_slow (map snd rbs) (hd_st h)) as [[[] s2|s2]| |]; try contradiction.
    + specialize (HS (hd_togo h)). cbn zeta in HS. destruct HS as (B1 & B2 & B3 & o2 & B4 & B5).
      change (rs_togo (alpha h)) with (hd_togo h) in A5'. rewrite B5 in A5'. inversion A5' as [[C1 C2 C3 C4 C5 C6 C7]]. subst o2.
      rewrite Ho in B4. cbn [app] in B4.
      eexists. split; [exact E1|]. split; [reflexivity|]. split.
      { rewrite A4, B4. apply covers_coef. destruct A6 as [->| ->]; [apply covers_nil|apply covers_self]. }
      cbn [hd_st]. split; [congruence|]. split; [congruence|]. split; [congruence|].
      intros Hi1. rewrite <- C5, Hi1 in *. cbn [hd_st] in *. congruence.
    + destruct HS as (_ & B & _). unfold hsusp in B. congruence.
Qed.
Print Assumptions C09_composite.

(* C09 fails for the forbidden sequence FF FF 00: stale coefficients of the failed fast attempt remain *)
Definition w_dc_tbl := mkHuff (0 :: 1 :: repeat 0 15) (repeat 0 256).
Definition w_ac_tbl := mkHuff (0 :: 1 :: 1 :: 1 :: 1 :: repeat 0 12) (1 :: 10 :: 2 :: 0 :: repeat 0 252).
Definition w_dt (isDC : bool) (t : JHUFF_TBL) : d_derived_tbl :=
  match jpeg_make_d_derived_tbl false isDC (Some t) with Ret d => d | _ => mkDT [] [] t [] end.
Definition w_blk := mkBlk (w_dt true w_dc_tbl) (w_dt false w_ac_tbl) 0 true true true.
Definition w_bytes : list Z := 64 :: 255 :: 255 :: 0 :: repeat 0 600.
Definition w_hd : hdec := start_pass_huff_decoder 1 0 (mkSrc w_bytes [] false).

Lemma w_accepted : accepted_mcu 1 [w_blk].
Proof.
  split; [discriminate|]. constructor; [|constructor]. exists w_dc_tbl, w_ac_tbl.
  split; [vm_compute; reflexivity|]. split; [vm_compute; reflexivity|]. split; [vm_compute; reflexivity|].
  split; [vm_compute; reflexivity|]. cbn. lia.
Qed.
Lemma w_bytes_ok : Forall byte w_bytes.
Proof.
  unfold w_bytes. do 4 (apply Forall_cons; [unfold byte; lia|]).
  apply Forall_forall. intros x Hx. apply repeat_spec in Hx. subst. unfold byte; lia.
Qed.

Theorem C09_filled_zero_refuted : exists bs h h1 h2,
  hd_ok h /\ accepted_mcu (hncomp h) bs /\ ssusp (dsrc (hd_st h)) = false /\ houts h = [] /\
  decode_mcu 0 bs h = Ret (true, h1) /\ decode_mcu_slow_only bs h = Ret h2 /\ ~ same_coefs (houts h1) (houts h2).
Proof.
  exists [w_blk], w_hd.
  destruct (decode_mcu 0 [w_blk] w_hd) as [[[|] h1]| |] eqn:E1; try (vm_compute in E1; discriminate E1).
  destruct (decode_mcu_slow_only [w_blk] w_hd) as [h2| |] eqn:E2; try (vm_compute in E2; discriminate E2).
  exists h1, h2. split. { apply C12_start. split; [|discriminate]. unfold src_bytes. cbn [sbuf schunks flat_map]. rewrite app_nil_r. apply w_bytes_ok. }
  split; [exact w_accepted|]. split; [reflexivity|]. split; [reflexivity|]. split; [reflexivity|]. split; [reflexivity|].
  intros H. specialize (H 0 8).
  assert (F1 : match decode_mcu 0 [w_blk] w_hd with Ret (_, h) => coef (houts h) 0 8 | _ => 5 end = -1) by (vm_compute; reflexivity).
  assert (F2 : match decode_mcu_slow_only [w_blk] w_hd with Ret h => coef (houts h) 0 8 | _ => 5 end = 0) by (vm_compute; reflexivity).
  rewrite E1 in F1. rewrite E2 in F2. congruence.
Qed.

(* ------------------------------------------------------------------ *)
(* C08 *)

(* Suspension: a scan decoded from a suspending source that delivers its data in arbitrary portions
   (b0 first, then one portion of fs at each suspension) yields, in each MCU, the coefficients that an
   unsuspended run over the same bytes yields, however that run's source is chunked.
   FF FF 00 (forbidden by T.81) is excluded unless restart intervals are in use. *)
Theorem C08_suspension : forall ri ms ncomp b0 fs src l,
  Forall (accepted_mcu ncomp) ms ->
  Forall byte (b0 ++ concat fs) -> ri <> 0 \/ no_filled_zero (b0 ++ concat fs) ->
  ssusp src = false -> src_bytes src = b0 ++ concat fs ->
  decode_scan_fed ri ms fs (start_pass_huff_decoder ncomp ri (mkSrc b0 [] true)) = Ret (Some l) ->
  exists l' h', decode_scan ri ms (start_pass_huff_decoder ncomp ri src) = Ret (l', h', true) /\ Forall2 same_coefs l l'.
Proof.
  intros ri ms ncomp b0 fs src l Hms Hby Hz Hs Hsb E.
  destruct (accepted_scan _ _ Hms) as (rms & <- & Hr).
  apply Forall_app in Hby. destruct Hby as [Hb0 Hbf].
  assert (Hbfs : Forall (Forall byte) fs).
  { clear -Hbf. induction fs; [constructor|]. cbn in Hbf. apply Forall_app in Hbf. destruct Hbf. auto. }
  assert (Hso : src_ok src). { split; [rewrite Hsb; apply Forall_app; auto|congruence]. }
  assert (Hso2 : src_ok (mkSrc b0 [] true)). { split; [unfold src_bytes; cbn; rewrite app_nil_r; auto|auto]. }
  destruct (C12_start ncomp ri (mkSrc b0 [] true) Hso2) as [H1 H2]. destruct (C12_start ncomp ri src Hso) as [H3 H4].
  eapply scan_fed_spec with (h := start_pass_huff_decoder ncomp ri (mkSrc b0 [] true)) (fs := fs); auto.
  - rewrite H2. exact Hr.
  - split; [reflexivity|]. split; [reflexivity|]. exact Hz.
  - destruct Hz as [Hz|Hz]; [left; auto|right]. cbn [start_pass_huff_decoder hd_st dsrc]. now rewrite Hsb.
  - unfold rsim, alpha, start_pass_huff_decoder, hfeed, abits, tail, sseg, feed.
    cbn [hd_st hd_togo hd_num rs_dcs rs_bits rs_ins rs_togo rs_num rs_tail bleft gbuf dsrc unread insuff ust sdc sbuf schunks ssusp Z.eqb].
    rewrite Hs, Hsb. unfold src_bytes. cbn [sbuf schunks flat_map]. rewrite app_nil_r.
    destruct (seg_fst_u (b0 ++ concat fs) false) as [S1 S2].
    split; [reflexivity|]. split; [rewrite S1; reflexivity|]. auto.
Qed.
Print Assumptions C08_suspension.

(* how a non-suspending source chunks its data is irrelevant *)
Theorem C08_chunking : forall ri ms ncomp src1 src2,
  Forall (accepted_mcu ncomp) ms -> Forall byte (src_bytes src1) ->
  ri <> 0 \/ no_filled_zero (src_bytes src1) ->
  ssusp src1 = false -> ssusp src2 = false -> src_bytes src1 = src_bytes src2 ->
  exists l1 h1 l2 h2,
    decode_scan ri ms (start_pass_huff_decoder ncomp ri src1) = Ret (l1, h1, true) /\
    decode_scan ri ms (start_pass_huff_decoder ncomp ri src2) = Ret (l2, h2, true) /\ Forall2 same_coefs l1 l2.
Proof.
  intros ri ms ncomp src1 src2 Hms Hby Hz Hs1 Hs2 Hsb.
  destruct (accepted_scan _ _ Hms) as (rms & <- & Hr).
  assert (G : forall rms h1 h2, hd_ok h1 -> hd_ok h2 -> hncomp h1 = ncomp -> hncomp h2 = ncomp -> Forall (fun m => blks_ok m ncomp) rms ->
     hsusp h1 = false -> hsusp h2 = false -> qn ri (dsrc (hd_st h1)) -> qn ri (dsrc (hd_st h2)) -> alpha h1 = alpha h2 ->
     exists l1 h1' l2 h2', decode_scan ri (map (map snd) rms) h1 = Ret (l1, h1', true) /\
       decode_scan ri (map (map snd) rms) h2 = Ret (l2, h2', true) /\ Forall2 same_coefs l1 l2).
  { clear. induction rms as [|m rms IH]; intros h1 h2 Ho1 Ho2 Hn1 Hn2 Hb Hs1 Hs2 Hq1 Hq2 Ha; cbn [map decode_scan].
    - exists [], h1, [], h2. auto.
    - inversion Hb as [|? ? Hm Hms]; subst.
      assert (Hm1 : blks_ok m (hncomp (fresh_mcu h1))) by exact Hm.
      assert (Hm2 : blks_ok m (hncomp (fresh_mcu h2))) by (change (blks_ok m (hncomp h2)); now rewrite Hn2).
      destruct (decode_mcu_nosusp ri m (fresh_mcu h1) Ho1 Hm1 Hs1) as (g1 & E1).
      destruct (decode_mcu_nosusp ri m (fresh_mcu h2) Ho2 Hm2 Hs2) as (g2 & E2).
      pose proof (decode_mcu_refines ri m (fresh_mcu h1) Ho1 Hm1) as R1. pose proof (decode_mcu_refines ri m (fresh_mcu h2) Ho2 Hm2) as R2.
      pose proof (mcu_reach (qn ri) (qn_next ri) ri m (fresh_mcu h1) Ho1 Hm1 Hq1) as Q1.
      pose proof (mcu_reach (qn ri) (qn_next ri) ri m (fresh_mcu h2) Ho2 Hm2 Hq2) as Q2.
      rewrite E1 in R1, Q1. rewrite E2 in R2, Q2. rewrite E1, E2. cbn [bind negb].
      destruct R1 as (A1 & A2 & A3 & y1 & o1 & A4 & A5 & A6 & A7). destruct R2 as (B1 & B2 & B3 & y2 & o2 & B4 & B5 & B6 & B7).
      change (alpha (fresh_mcu h1)) with (alpha h1) in A5. change (alpha (fresh_mcu h2)) with (alpha h2) in B5.
      change (hsusp (fresh_mcu h1)) with (hsusp h1) in *. change (hsusp (fresh_mcu h2)) with (hsusp h2) in *.
      rewrite Hs1 in *. rewrite Hs2 in *. rewrite Ha, B5 in A5. assert (C1 : o2 = o1) by congruence. assert (C2 : alpha g1 = alpha g2) by congruence. subst o2.
      destruct (IH g1 g2) as (l1 & h1' & l2 & h2' & F1 & F2 & F3); auto.
      { rewrite B3. exact Hn2. }
      rewrite F1, F2. cbn [bind]. exists (souts (ust (hd_st g1)) :: l1), h1', (souts (ust (hd_st g2)) :: l2), h2'.
      split; [reflexivity|]. split; [reflexivity|]. constructor; [|exact F3].
      assert (Y1 : y1 = [] \/ y1 = o1) by (destruct Hq1; auto using nfz_hclean). assert (Y2 : y2 = [] \/ y2 = o1) by (destruct Hq2; auto using nfz_hclean).
      unfold houts in A4, B4. cbn [fresh_mcu hd_st ust souts app] in A4, B4. rewrite A4, B4.
      apply same_coefs_trans with o1; [|apply same_coefs_sym]; apply covers_coef.
      + destruct Y1 as [->| ->]; [apply covers_nil|apply covers_self].
      + destruct Y2 as [->| ->]; [apply covers_nil|apply covers_self]. }
  assert (O1 : src_ok src1) by (split; [auto|congruence]).
  assert (O2 : src_ok src2) by (split; [rewrite <- Hsb; auto|congruence]).
  destruct (C12_start ncomp ri src1 O1) as [H1 H2]. destruct (C12_start ncomp ri src2 O2) as [H3 H4].
  apply G; auto.
  - destruct Hz as [Hz|Hz]; [left; auto|right]. cbn. now rewrite <- Hsb.
  - unfold alpha, start_pass_huff_decoder, abits, tail, sseg. cbn [hd_st hd_togo hd_num bleft gbuf dsrc unread insuff ust sdc Z.eqb].
    rewrite Hs1, Hs2, Hsb. reflexivity.
Qed.
Print Assumptions C08_chunking.

(* for FF FF 00 without restart intervals it does matter: the same bytes in one chunk or in many *)
Theorem C08_filled_zero_refuted : exists ms src1 src2 l1 h1 l2 h2,
  Forall (accepted_mcu 1) ms /\ Forall byte (src_bytes src1) /\ src_bytes src1 = src_bytes src2 /\
  ssusp src1 = false /\ ssusp src2 = false /\
  decode_scan 0 ms (start_pass_huff_decoder 1 0 src1) = Ret (l1, h1, true) /\
  decode_scan 0 ms (start_pass_huff_decoder 1 0 src2) = Ret (l2, h2, true) /\ ~ Forall2 same_coefs l1 l2.
Proof.
  exists [[w_blk]], (mkSrc w_bytes [] false), (mkSrc [] (map (fun b => (b, [])) w_bytes) false).
  destruct (decode_scan 0 [[w_blk]] (start_pass_huff_decoder 1 0 (mkSrc w_bytes [] false))) as [[[l1 h1] [|]]| |] eqn:E1;
    try (vm_compute in E1; discriminate E1).
  destruct (decode_scan 0 [[w_blk]] (start_pass_huff_decoder 1 0 (mkSrc [] (map (fun b => (b, [])) w_bytes) false))) as [[[l2 h2] [|]]| |] eqn:E2;
    try (vm_compute in E2; discriminate E2).
  exists l1, h1, l2, h2. split; [constructor; [exact w_accepted|constructor]|].
  split; [unfold src_bytes; cbn [sbuf schunks flat_map]; rewrite app_nil_r; apply w_bytes_ok|].
  split; [vm_compute; reflexivity|]. do 4 (split; [reflexivity|]).
  assert (F1 : match decode_scan 0 [[w_blk]] (start_pass_huff_decoder 1 0 (mkSrc w_bytes [] false)) with Ret (l, _, _) => map (fun x => coef x 0 8) l | _ => [] end = [-1]) by (vm_compute; reflexivity).
  assert (F2 : match decode_scan 0 [[w_blk]] (start_pass_huff_decoder 1 0 (mkSrc [] (map (fun b => (b, [])) w_bytes) false)) with Ret (l, _, _) => map (fun x => coef x 0 8) l | _ => [] end = [0]) by (vm_compute; reflexivity).
  rewrite E1 in F1. rewrite E2 in F2. intros H. destruct H as [|a b l1 l2 H _]; [discriminate F1|].
  inversion F1. inversion F2. specialize (H 0 8). lia.
Qed.

(* an MCU that suspends has not consumed any data for good: what remains to be decoded (hence the
   outcome of any retry with more data f) is unchanged, and the permanent DC predictions are kept *)
Theorem C08_suspended_mcu : forall bs h h',
  hd_ok h -> accepted_mcu (hncomp h) bs -> decode_mcu 0 bs h = Ret (false, h') ->
  forall f, abits (hd_st (hfeed h' f)) = abits (hd_st (hfeed h f)) /\ tail (hd_st (hfeed h' f)) = tail (hd_st (hfeed h f)) /\
            sdc (ust (hd_st h')) = sdc (ust (hd_st h)) /\ insuff (hd_st h') = false /\ hd_togo h' = hd_togo h /\ hd_num h' = hd_num h.
Proof.
  intros bs h h' Hh Hb E f. destruct (accepted_blks _ _ Hb) as (rbs & <- & Hr).
  unfold decode_mcu in E. cbn [Z.eqb negb andb bind] in E.
  pose proof (body_refines 0 rbs h Hh Hr) as H. rewrite E in H. destruct H as (_ & _ & _ & _ & H5 & H6 & _).
  specialize (H6 f). unfold alpha in H6. inversion H6 as [[B1 B2 B3 B4 B5 B6]].
  assert (Hi : insuff (hd_st h) = false).
  { destruct (insuff (hd_st h)) eqn:Hi; auto. unfold decode_mcu_body in E. rewrite Hi in E. cbn [bind] in E. discriminate. }
  assert (Hi' : insuff (hd_st h') = false).
  { change (insuff (hd_st (hfeed h' f))) with (insuff (hd_st h')) in B4. change (insuff (hd_st (hfeed h f))) with (insuff (hd_st h)) in B4. congruence. }
  change (insuff (hd_st (hfeed h' f))) with (insuff (hd_st h')) in B2. change (insuff (hd_st (hfeed h f))) with (insuff (hd_st h)) in B2.
  rewrite Hi, Hi' in B2. auto 10.
Qed.

(* Non-vacuity of C08_suspension: two MCUs whose data arrives in eight portions *)
Example C08_nonvacuous :
  match decode_scan_fed 0 [[w_blk]; [w_blk]] [[95]; []; [119]; [47]; [255]; [0; 128]; [255]; [217]]
          (start_pass_huff_decoder 1 0 (mkSrc [] [] true)) with
  | Ret (Some l) => map (fun x => coef x 0 1) l = [1006; 1023]
  | _ => False
  end.
Proof. vm_compute. reflexivity. Qed.

(* ------------------------------------------------------------------ *)
(* C13 *)
From Verif Require Import S_Zigzag.
From Coq Require Import Permutation.

Theorem C13_zigzag : firstn 64 jpeg_natural_order = zigzag /\
  Permutation (firstn 64 jpeg_natural_order) (map Z.of_nat (seq 0 64)) /\
  length jpeg_natural_order = 80%nat /\
  forall k, 64 <= k < 80 -> aget jpeg_natural_order k = Ret 63.
Proof.
  split; [vm_compute; reflexivity|]. split.
  - apply NoDup_Permutation_bis.
    + assert (H : NoDup (map Z.of_nat (map Z.to_nat (firstn 64 jpeg_natural_order)))) by
        (apply FinFun.Injective_map_NoDup; [intros a b; lia|];
         apply (proj2 (NoDup_count_occ' Nat.eq_dec _));
         intros x Hx; cbn in Hx; repeat (destruct Hx as [<-|Hx]; [vm_compute; reflexivity|]); contradiction).
      exact H.
    + vm_compute. lia.
    + intros x Hx. apply in_map_iff. exists (Z.to_nat x).
      assert (G : forallb (fun x => (0 <=? x) && (x <? 64)) (firstn 64 jpeg_natural_order) = true) by (vm_compute; reflexivity).
      rewrite forallb_forall in G. specialize (G x Hx). apply andb_prop in G. destruct G as [G1 G2].
      apply Z.leb_le in G1. apply Z.ltb_lt in G2. split; [lia|]. apply in_seq. lia.
  - split; [reflexivity|]. intros k Hk.
    assert (G : forallb (fun k => match aget jpeg_natural_order k with Ret 63 => true | _ => false end) (map (fun i => 64 + Z.of_nat i) (seq 0 16)) = true) by (vm_compute; reflexivity).
    rewrite forallb_forall in G. specialize (G k).
    assert (Hin : In k (map (fun i => 64 + Z.of_nat i) (seq 0 16))). { apply in_map_iff. exists (Z.to_nat (k - 64)). split; [lia|]. apply in_seq. lia. }
    specialize (G Hin). destruct (aget jpeg_natural_order k) as [v| |]; try discriminate.
    destruct v as [|p|p]; try discriminate. destruct p as [p|p|]; try discriminate. do 5 (try destruct p as [p|p|]; try discriminate). reflexivity.
Qed.
Print Assumptions C13_zigzag.

(* ------------------------------------------------------------------ *)
(* C33 *)
From Verif Require Import S_Resync.

Lemma resync_action_cases m num : 0 <= num < 8 ->
  (resync_action m num = 1 /\ is_rst m /\ In (ahead m num) [0; 3; 4; 5]) \/
  (resync_action m num = 2 /\ (m < 192 \/ (is_rst m /\ In (ahead m num) [6; 7]))) \/
  (resync_action m num = 3 /\ 192 <= m /\ (~ is_rst m \/ In (ahead m num) [1; 2])).
Proof.
  intros Hn. unfold resync_action, is_rst.
  destruct (Z.ltb_spec m 192); [right; left; auto|].
  destruct (Z.ltb_spec m 208); cbn [orb]; [right; right; split; [reflexivity|split; [lia|left; lia]]|].
  destruct (Z.ltb_spec 215 m); [right; right; split; [reflexivity|split; [lia|left; lia]]|].
  assert (Hm : m = 208 \/ m = 209 \/ m = 210 \/ m = 211 \/ m = 212 \/ m = 213 \/ m = 214 \/ m = 215) by lia.
  assert (Hu : num = 0 \/ num = 1 \/ num = 2 \/ num = 3 \/ num = 4 \/ num = 5 \/ num = 6 \/ num = 7) by lia.
  destruct Hm as [->|[->|[->|[->|[->|[->|[->| ->]]]]]]]; destruct Hu as [->|[->|[->|[->|[->|[->|[->| ->]]]]]]];
    cbn; (left; split; [reflexivity|split; [lia|tauto]]) || (right; left; split; [reflexivity|right; split; [lia|tauto]]) ||
    (right; right; split; [reflexivity|split; [lia|right; tauto]]).
Qed.

Lemma resync_ref_resync u num : 0 <= num < 8 -> forall fuel m r un r',
  resync_ref u fuel m r num = Some (un, r') -> resync u num m r un r'.
Proof.
  intros Hn. induction fuel as [|f IH]; intros m r un r'; cbn [resync_ref]; [discriminate|].
  destruct (resync_action_cases m num Hn) as [(E & H1 & H2)|[(E & H1)|(E & H1 & H2)]]; rewrite E; cbn [Z.eqb Pos.eqb].
  - intros H. inversion H; subst. now constructor.
  - destruct (snd (seg u false r)) as [[m' r1]|] eqn:Es; [|discriminate]. intros H. eapply resync_skip; eauto.
  - intros H. inversion H; subst. now constructor.
Qed.

(* for every found marker, expected number and following bytes: the routine ends; on TRUE, what it
   did is what the documented rule prescribes; FALSE is returned only by a suspending source *)
Theorem C33_resync : forall marker num s disc,
  src_ok s -> 0 <= num < 8 ->
  match jpeg_resync_to_restart marker num s disc with
  | None => False
  | Some (un, s', _, true) => resync (ssusp s) num marker (src_bytes s) un (src_bytes s') /\ src_ok s'
  | Some (un, s', _, false) => ssusp s = true /\ src_ok s'
  end.
Proof.
  intros marker num s disc Hs Hn. unfold jpeg_resync_to_restart.
  pose proof (resync_loop_spec num (src_size s + 4) marker s disc Hs) as H.
  rewrite src_size_len in *. specialize (H ltac:(lia)).
  destruct (resync_loop _ _ _ _ _) as [[[[un s'] d'] [|]]|]; auto.
  - destruct H as (A1 & A2 & A3). split; auto. eapply resync_ref_resync; eauto.
  - destruct H as (A1 & A2 & _). auto.
Qed.
Print Assumptions C33_resync.

(* consequences of the rule: it determines the result, bytes are only skipped, a marker that is not
   RSTn (and not an invalid code) is never consumed *)
Theorem C33_rule_deterministic : forall u num m r un r' un2 r2, 0 <= num < 8 ->
  resync u num m r un r' -> resync u num m r un2 r2 -> un = un2 /\ r' = r2.
Proof.
  intros u num m r un r' un2 r2 Hn H. revert un2 r2.
  induction H as [m r A1 A2|m r A1 A2|m r m' r' x y A1 A2 A3 IH]; intros un2 r2 H2; inversion H2; subst; auto;
  unfold is_rst in *; cbn [In] in *.
  - exfalso. destruct H0; lia.
  - exfalso. destruct H; lia.
  - exfalso. destruct A2; lia.
  - exfalso. destruct H, A2; lia.
  - exfalso. destruct A1; lia.
  - exfalso. destruct H0, A1; lia.
  - rewrite H0 in A2. inversion A2; subst. apply IH. exact H1.
Qed.

Theorem C33_keeps_other_markers : forall u num m r un r',
  resync u num m r un r' -> 192 <= m -> ~ is_rst m -> un = m /\ r' = r.
Proof.
  intros u num m r un r' H H1 H2. inversion H; subst; auto.
  - contradiction.
  - destruct H0 as [|[? _]]; [lia|contradiction].
Qed.
Theorem C33_skips_forward : forall u num m r un r',
  resync u num m r un r' -> r' = r \/ (length r' < length r)%nat \/ (u = false /\ r' = []).
Proof.
  intros u num m r un r' H. induction H as [m r A1 A2|m r A1 A2|m r m' r' x y A1 A2 A3 IH]; auto.
  apply seg_tail_len in A2. destruct A2 as [A2|(A2 & A4 & A5)]; destruct IH as [->|[IH|[IH1 IH2]]]; auto.
  - right. left. lia.
  - subst r'. cbn in IH. lia.
Qed.

(* the marker that comes next, as the decoder finds it, for every byte string *)
Theorem C33_next_marker : forall s disc, src_ok s ->
  match next_marker s disc with
  | None => False
  | Some (s', _, Some m) => snd (seg (ssusp s) false (src_bytes s)) = Some (m, src_bytes s')
  | Some (_, _, None) => ssusp s = true
  end.
Proof.
  intros s disc Hs. pose proof (next_marker_spec s disc Hs) as H. destruct (next_marker s disc) as [[[s' d'] [m|]]|]; auto; apply H.
Qed.

Example C33_nonvacuous :
  jpeg_resync_to_restart 215 1 (mkSrc [1; 255; 0; 2; 255; 255; 208; 9; 255; 210; 7] [] false) 0
  = Some (210, mkSrc [7] [] false, 0, true).
Proof. vm_compute. reflexivity. Qed.

(* Non-vacuity: C02_symbol, C09_fast_agrees, C12_exhausted *)
Definition x_state (bs : list Z) : dst sqst := hd_st (start_pass_huff_decoder 1 0 (mkSrc bs [] false)).
Example C02_nonvacuous : sym_code (hbits w_ac_tbl) (hval w_ac_tbl) 10 [true; false] /\
  firstn 2 (abits (x_state [175; 5])) = [true; false] /\ insuff (x_state [175; 5]) = false /\
  match huff_decode (w_dt false w_ac_tbl) (x_state [175; 5]) with
  | Ret (Done v s) => v = 10 /\ length (abits s) = 14%nat | _ => False end.
Proof. split; [exists 1%nat; vm_compute; auto|]. vm_compute. auto. Qed.
Example C09_nonvacuous :
  match decode_mcu_fast [w_blk] (x_state (95 :: 119 :: repeat 0 510)) with
  | Ret (true, s) => souts (ust s) = [(0, 0, 0); (0, 1, 1006)] | _ => False end.
Proof. vm_compute. reflexivity. Qed.
Example C12_nonvacuous :
  match decode_mcu_slow [w_blk] (x_state [95]) with
  | Ret (Done _ s) => insuff s = true /\ In JWRN_HIT_MARKER (warns s) /\ coef (souts (ust s)) 0 1 = 992 | _ => False end.
Proof. vm_compute. auto. Qed.
