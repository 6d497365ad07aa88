(* T_DApi.v -- C43: the decompressor's call protocol. *)
From Verif Require Import Base M_DMain S_DMain P_DMain M_DApi S_DApi.
Open Scope nat_scope.

(* Every object an application can obtain: created (the header fields and the
   datastream are arbitrary), then driven by any calls.  A new datastream may
   have different header fields and content. *)
Definition created (s : dobj) : Prop := x_st s = DSTATE_START.
Inductive reachable : dobj -> Prop :=
| re_create : forall s, created s -> reachable s
| re_ok : forall prec cl s s', reachable s -> do_call prec cl s = ROk tt s' -> reachable s'
| re_err : forall prec cl s e s', reachable s -> do_call prec cl s = RErr e s' -> reachable s'.

(* what reading the datastream leaves alone *)
Definition good (s : dobj) : Prop := ~ In (InputError JERR_BAD_STATE) (x_in s).
Record kept (s s' : dobj) : Prop := mkK {
  k_st : x_st s' = x_st s; k_buf : x_buffered s' = x_buffered s; k_lossless : x_lossless s' = x_lossless s;
  k_prec : x_prec s' = x_prec s;
  k_cfg : x_cfg s' = x_cfg s; k_oscan : x_oscan s' = x_oscan s; k_pass : x_pass s' = x_pass s;
  k_good : good s -> good s' }.
Lemma kept_refl : forall s, kept s s.
Proof. intros s. constructor; auto. Qed.
Lemma kept_trans : forall a b c, kept a b -> kept b c -> kept a c.
Proof. intros a b c [] []. constructor; try congruence. auto. Qed.
Lemma kept_input : forall s eoi i o l, (good s -> ~ In (InputError JERR_BAD_STATE) l) -> kept s (set_input s eoi i o l).
Proof. intros. constructor; try reflexivity. assumption. Qed.

Lemma consume_spec : forall s,
  (exists r s', consume s = ROk r s' /\ kept s s' /\
     (r = JPEG_SUSPENDED \/ r = JPEG_REACHED_EOI /\ x_eoi s' = true \/
      r <> JPEG_REACHED_EOI /\ x_eoi s = false /\ S (length (x_in s')) = length (x_in s))) \/
  (exists e s', consume s = RErr e s' /\ kept s s' /\ (good s -> e <> JERR_BAD_STATE)).
Proof.
  intros s. unfold consume. destruct (x_eoi s) eqn:Ee.
  - left. exists JPEG_REACHED_EOI, s. split; [reflexivity|]. split; [apply kept_refl|]. auto.
  - destruct (x_in s) as [|a t] eqn:E.
    + left. exists JPEG_SUSPENDED, s. split; [reflexivity|]. split; [apply kept_refl|]. auto.
    + assert (G : good s -> ~ In (InputError JERR_BAD_STATE) t).
      { unfold good. rewrite E. intros G W. apply G. right. exact W. }
      destruct a as [| | | | |e]; cbn [length];
        try (left; eexists _, _; split; [reflexivity|]; split; [apply kept_input; exact G|];
             first [left; reflexivity
                   |right; left; split; reflexivity
                   |right; right; split; [discriminate|split; reflexivity]]).
      right. eexists _, _. split; [reflexivity|]. split; [apply kept_input; exact G|].
      unfold good. rewrite E. intros G' ->. apply G'. left. reflexivity.
Qed.

(* the three input loops end (they consume the datastream), leave the output
   side alone and raise only what the datastream raises *)
Definition loop_ok (f : list iret -> dobj -> res bool) : Prop := forall l s,
  (x_eoi s = true \/ length (x_in s) <= length l) ->
  (exists b s', f l s = ROk b s' /\ kept s s') \/
  (exists e s', f l s = RErr e s' /\ kept s s' /\ (good s -> e <> JERR_BAD_STATE)).

Lemma loop_step : forall (f : list iret -> dobj -> res bool) l s s1 (o : res bool),
  (forall s, (x_eoi s = true \/ length (x_in s) <= length l) ->
    (exists b s', f l s = ROk b s' /\ kept s s') \/
    (exists e s', f l s = RErr e s' /\ kept s s' /\ (good s -> e <> JERR_BAD_STATE))) ->
  kept s s1 -> o = f l s1 -> (x_eoi s1 = true \/ length (x_in s1) <= length l) ->
  (exists b s', o = ROk b s' /\ kept s s') \/
  (exists e s', o = RErr e s' /\ kept s s' /\ (good s -> e <> JERR_BAD_STATE)).
Proof.
  intros f l s s1 o IH K -> H.
  destruct (IH s1 H) as [(b & s2 & E & K2)|(e & s2 & E & K2 & G)].
  - left. exists b, s2. split; [exact E|]. exact (kept_trans _ _ _ K K2).
  - right. exists e, s2. split; [exact E|]. split; [exact (kept_trans _ _ _ K K2)|].
    intros Gs. apply G. exact (k_good _ _ K Gs).
Qed.

Ltac fin K := left; eexists _, _; split; [reflexivity|exact K].
Lemma absorb_ok : loop_ok absorb.
Proof.
  intros l. induction l as [|a l IH]; intros s Hl; cbn [absorb];
    (destruct (consume_spec s) as [(r & s1 & E & K & C)|(e & s1 & E & K & G)]; rewrite E;
     [|right; eexists _, _; split; [reflexivity|]; split; [exact K|exact G]]).
  - destruct C as [-> |[(-> & _)|(N & Ee & L)]]; [fin K|fin K|].
    destruct Hl as [Hl|Hl]; [congruence|cbn in Hl; lia].
  - destruct C as [-> |[(-> & _)|(N & Ee & L)]]; [fin K|fin K|].
    destruct Hl as [Hl|Hl]; [congruence|]. cbn [length] in Hl.
    destruct r; try congruence; try (fin K);
      (apply (loop_step absorb l s s1 _ IH K); [reflexivity|right; lia]).
Qed.
Lemma seek_eoi_ok : loop_ok seek_eoi.
Proof.
  intros l. induction l as [|a l IH]; intros s Hl; cbn [seek_eoi];
    (destruct (x_eoi s) eqn:Ee; cbn [negb]; [fin (kept_refl s)|]);
    (destruct (consume_spec s) as [(r & s1 & E & K & C)|(e & s1 & E & K & G)]; rewrite E;
     [|right; eexists _, _; split; [reflexivity|]; split; [exact K|exact G]]);
    (destruct Hl as [Hl|Hl]; [congruence|]); cbn [length] in Hl.
  - destruct C as [-> |[(-> & C)|(N & _ & L)]]; [fin K| |lia].
    exfalso. unfold consume in E. rewrite Ee in E. destruct (x_in s); [discriminate|cbn in Hl; lia].
  - destruct C as [-> |[(-> & C)|(N & _ & L)]]; [fin K| |].
    + apply (loop_step seek_eoi l s s1 _ IH K); [reflexivity|left; exact C].
    + destruct r; try congruence; try (fin K);
        (apply (loop_step seek_eoi l s s1 _ IH K); [reflexivity|right; lia]).
Qed.
Lemma seek_scan_ok : loop_ok seek_scan.
Proof.
  intros l. induction l as [|a l IH]; intros s Hl; cbn [seek_scan];
    (destruct (x_inscan s <=? x_outscan s)%Z; cbn [andb]; [|fin (kept_refl s)]);
    (destruct (x_eoi s) eqn:Ee; cbn [negb]; [fin (kept_refl s)|]);
    (destruct (consume_spec s) as [(r & s1 & E & K & C)|(e & s1 & E & K & G)]; rewrite E;
     [|right; eexists _, _; split; [reflexivity|]; split; [exact K|exact G]]);
    (destruct Hl as [Hl|Hl]; [congruence|]); cbn [length] in Hl.
  - destruct C as [-> |[(-> & C)|(N & _ & L)]]; [fin K| |lia].
    exfalso. unfold consume in E. rewrite Ee in E. destruct (x_in s); [discriminate|cbn in Hl; lia].
  - destruct C as [-> |[(-> & C)|(N & _ & L)]]; [fin K| |].
    + apply (loop_step seek_scan l s s1 _ IH K); [reflexivity|left; exact C].
    + destruct r; try congruence; try (fin K);
        (apply (loop_step seek_scan l s s1 _ IH K); [reflexivity|right; lia]).
Qed.

(* C43: a call that is not legal in the current state raises JERR_BAD_STATE and
   leaves the object exactly as it was (the sample-precision test and, for raw
   data and coefficients, the lossless test come first; the exceptions on a
   destroyed object are the subject of C43_destroyed_refuted). *)
Theorem C43_rejected : forall prec cl s,
  allowed (x_st s) (x_buffered s) cl = false ->
  (x_st s = DSTATE_DESTROYED -> cl <> ReadCoefficients /\ forall n, cl <> ReadRawData n) ->
  exists e, do_call prec cl s = RErr e s /\
    (e = JERR_BAD_STATE
     \/ (e = JERR_BAD_PRECISION /\ x_prec s <> prec /\
         ((exists n, cl = ReadScanlines n) \/ (exists n, cl = ReadRawData n)))
     \/ (e = JERR_NOTIMPL /\ x_lossless s = true /\
         (cl = ReadCoefficients \/ (exists n, cl = ReadRawData n)))).
Proof.
  intros prec cl s HA Hd.
  assert (BS : forall o : res unit, o = RErr JERR_BAD_STATE s -> exists e, o = RErr e s /\
    (e = JERR_BAD_STATE
     \/ (e = JERR_BAD_PRECISION /\ x_prec s <> prec /\
         ((exists n, cl = ReadScanlines n) \/ (exists n, cl = ReadRawData n)))
     \/ (e = JERR_NOTIMPL /\ x_lossless s = true /\
         (cl = ReadCoefficients \/ (exists n, cl = ReadRawData n))))).
  { intros o ->. exists JERR_BAD_STATE. auto. }
  destruct cl; cbn [allowed] in HA; cbn [do_call]; try discriminate.
  - apply BS. unfold read_header. destruct (x_st s); try discriminate; reflexivity.
  - apply BS. unfold consume_input. destruct (x_st s); try discriminate; reflexivity.
  - apply BS. unfold input_complete. destruct (x_st s); try discriminate; reflexivity.
  - apply BS. unfold has_multiple_scans. destruct (x_st s); try discriminate; reflexivity.
  - apply BS. unfold calc_output_dimensions. destruct (x_st s); try discriminate; reflexivity.
  - apply BS. unfold start_decompress. destruct (x_st s); try discriminate; reflexivity.
  - unfold read_scanlines. destruct (Nat.eqb_spec (x_prec s) prec) as [Ep|Ep]; cbn [negb].
    + apply BS. destruct (x_st s); try discriminate; reflexivity.
    + exists JERR_BAD_PRECISION. split; [reflexivity|]. right; left. eauto.
  - unfold read_raw_data. destruct (Nat.eqb_spec (x_prec s) prec) as [Ep|Ep]; cbn [negb].
    + destruct (is (x_st s) DSTATE_DESTROYED) eqn:Ed.
      { destruct (x_st s); try discriminate Ed. exfalso. eapply (proj2 (Hd eq_refl)). reflexivity. }
      destruct (x_lossless s); [exists JERR_NOTIMPL; split; [reflexivity|]; right; right; eauto|].
      apply BS. destruct (x_st s); try discriminate; reflexivity.
    + exists JERR_BAD_PRECISION. split; [reflexivity|]. right; left. eauto.
  - apply BS. unfold start_output. destruct (x_st s); try discriminate; reflexivity.
  - apply BS. unfold finish_output. destruct (x_st s); try discriminate; try reflexivity; rewrite HA; reflexivity.
  - apply BS. unfold finish_decompress. destruct (x_st s); try discriminate; try reflexivity; rewrite HA; reflexivity.
  - unfold read_coefficients. destruct (is (x_st s) DSTATE_DESTROYED) eqn:Ed.
    { destruct (x_st s); try discriminate Ed. exfalso. apply (proj1 (Hd eq_refl)). reflexivity. }
    destruct (x_lossless s); [exists JERR_NOTIMPL; split; [reflexivity|]; right; right; eauto|].
    apply BS. destruct (x_st s) eqn:Es; try discriminate; cbv zeta; rewrite Es; try reflexivity; rewrite HA; reflexivity.
  - apply BS. unfold new_colormap. destruct (x_st s); try discriminate; reflexivity.
  - apply BS. unfold read_icc_profile. destruct (x_st s); try discriminate; reflexivity.
Qed.
Print Assumptions C43_rejected.

Lemma process_no_error : forall c d n e, process_data c d n <> Error e.
Proof.
  assert (MM : forall {A B} (f : A -> outcome B) l, (forall a e, f a <> Error e) -> forall e, mapM f l <> Error e).
  { intros A B f l Hf. induction l as [|a l IH]; intros e; cbn [mapM]; [discriminate|].
    destruct (f a) eqn:E; cbn [bind]; [|exfalso; exact (Hf _ _ E)|discriminate].
    destruct (mapM f l) eqn:E2; cbn [bind]; [discriminate|exfalso; exact (IH _ eq_refl)|discriminate]. }
  assert (M1 : forall p l e, mapM (slot_of p) l <> Error e)
    by (intros; apply MM; intros a e0; unfold slot_of; destruct (p a); discriminate).
  assert (M2 : forall w l e, mapM (slot_val w) l <> Error e)
    by (intros; apply MM; intros a e0; unfold slot_val; destruct (w a); discriminate).
  assert (M3 : forall p w l e, mapM (deref p w) l <> Error e)
    by (intros; apply MM; intros a e0; unfold deref; destruct (p a) as [x|]; [destruct (w x)|]; discriminate).
  assert (DR : forall n i b p w e, decompress_rows n i b p w <> Error e).
  { induction n as [|n IH]; intros i b p w e; cbn [decompress_rows]; [discriminate|]. destruct (p i); [apply IH|discriminate]. }
  assert (SU : forall c p ws r f u o a e, sep_upsample c p ws r f u o a <> Error e).
  { intros c p ws r f u o a e. unfold sep_upsample.
    destruct (g_v c <=? u_next u).
    - destruct (mapM (slot_of p) _) eqn:E; cbn [bind]; [|exfalso; exact (M1 _ _ _ E)|discriminate].
      destruct (if g_context c then _ else _) as [x|e1|] eqn:E2; cbn [bind]; [| |discriminate].
      + destruct (mapM (slot_val ws) _) eqn:E3; cbn [bind]; [discriminate|exfalso; exact (M2 _ _ _ E3)|discriminate].
      + destruct (g_context c); exfalso; exact (M3 _ _ _ _ E2).
    - cbn [bind]. destruct (mapM (slot_val ws) _) eqn:E3; cbn [bind]; [discriminate|exfalso; exact (M2 _ _ _ E3)|discriminate]. }
  assert (PO : forall c d o a e, post c d o a <> Error e).
  { intros c d o a e. unfold post. destruct (sep_upsample _ _ _ _ _ _ _ _) as [[[[? ?] ?] ?]|?|] eqn:E; cbn [bind];
      [discriminate|exfalso; exact (SU _ _ _ _ _ _ _ _ _ E)|discriminate]. }
  assert (CP : forall c d o a e, ctx_process c d o a <> Error e).
  { intros c d o a e. unfold ctx_process. destruct (post c d o a) as [[? ?]|?|] eqn:E; cbn [bind];
      [|exfalso; exact (PO _ _ _ _ _ E)|discriminate]. destruct (_ <? _); discriminate. }
  intros c d n e. unfold process_data. destruct (g_context c).
  - unfold process_context.
    assert (TL : forall d1 ok, (if negb ok then Ret (d1, 0) else
      match m_cs (d_main d1) with
      | CTX_POSTPONED_ROW =>
        '(d, out) <- post c d1 0 n ;;
        if m_rgc (d_main d) <? m_avail (d_main d) then Ret (d, out)
        else
          let d := mkD (with_cs (d_main d) CTX_PREPARE_FOR_IMCU) (d_ups d) (d_orc d) (d_row d) (d_lines d) in
          if n <=? out then Ret (d, out) else ctx_prepare c d out n
      | CTX_PREPARE_FOR_IMCU => ctx_prepare c d1 0 n
      | CTX_PROCESS_IMCU => ctx_process c d1 0 n
      end) <> Error e).
    { intros d1 [|]; cbn [negb]; [|discriminate]. destruct (m_cs (d_main d1)); [unfold ctx_prepare; apply CP|apply CP|].
      destruct (post c d1 0 n) as [[? ?]|?|] eqn:E; cbn [bind]; [|exfalso; exact (PO _ _ _ _ _ E)|discriminate].
      destruct (_ <? _); [discriminate|]. cbv zeta. destruct (_ <=? _); [discriminate|]. unfold ctx_prepare. apply CP. }
    destruct (m_full (d_main d)); [exact (TL (mkD _ _ _ _ _) true)|].
    destruct (negb (hd true (d_orc d))); [discriminate|].
    destruct (decompress_rows _ _ _ _ _) eqn:E; cbn [bind]; [|exfalso; exact (DR _ _ _ _ _ _ E)|discriminate].
    exact (TL (mkD _ _ _ _ _) true).
  - unfold process_simple.
    assert (TL : forall m orc row, (
    '(u, out, ls, rgc) <- sep_upsample c (fun i => Some i) (m_ws m) (m_rgc m) (m_rgc m * g_rg c) (d_ups d) 0 n ;;
    let '(full, rgc) := if g_M c <=? rgc then (false, 0) else (true, rgc) in
    Ret (mkD (mkM full rgc (m_x0 m) (m_x1 m) (m_which m) (m_cs m) (m_avail m) (m_ctr m) (m_ws m))
             u orc row (d_lines d ++ ls), out)) <> Error e).
    { intros m orc row. destruct (sep_upsample _ _ _ _ _ _ _ _) as [[[[? ?] ?] ?]|?|] eqn:E; cbn [bind];
        [|exfalso; exact (SU _ _ _ _ _ _ _ _ _ E)|discriminate]. destruct (_ <=? _); discriminate. }
    destruct (m_full (d_main d)); [exact (TL _ _ _)|].
    destruct (negb (hd true (d_orc d))); [discriminate|].
    destruct (decompress_rows _ _ _ _ _) eqn:E; cbn [bind]; [|exfalso; exact (DR _ _ _ _ _ _ E)|discriminate].
    exact (TL (mkM _ _ _ _ _ _ _ _ _) _ _).
Qed.

(* Conversely the state test never rejects a legal call: JERR_BAD_STATE can then
   only come out of the datastream, which the input modules never raise. *)
Lemma setup_ok : forall s, exists b s', output_pass_setup s = ROk b s'.
Proof. intros s. unfold output_pass_setup. cbv zeta. destruct (x_dummy _) as [|[] t]; eauto. Qed.

(* two facts about reachable objects *)
Definition inv (s : dobj) : Prop :=
  (x_st s = DSTATE_RDCOEFS -> x_buffered s = true) /\
  (x_st s = DSTATE_PRESCAN -> x_oscan s = 0 /\ exists m0 o, x_pass s = start_pass (x_cfg s) m0 o).
Lemma inv_triv : forall s, x_st s <> DSTATE_RDCOEFS -> x_st s <> DSTATE_PRESCAN -> inv s.
Proof. intros s A B. split; intros E; congruence. Qed.
Lemma inv_kept : forall s s', kept s s' -> inv s -> inv s'.
Proof. intros s s' [] [A B]. split; intros E; rewrite k_st0 in E; [rewrite k_buf0; auto|]. rewrite k_oscan0, k_pass0, k_cfg0. auto. Qed.
Lemma inv_setup : forall s b s', inv s -> output_pass_setup s = ROk b s' -> inv s'.
Proof.
  intros s b s' HI. unfold output_pass_setup.
  set (s1 := if is (x_st s) DSTATE_PRESCAN then _ else _).
  assert (I1 : inv s1 /\ x_st s1 = DSTATE_PRESCAN).
  { unfold s1. destruct (is (x_st s) DSTATE_PRESCAN) eqn:E.
    - split; [exact HI|]. destruct (x_st s); try discriminate; reflexivity.
    - split; [|reflexivity]. split; intros W; [discriminate W|]. split; [reflexivity|]. eexists _, _. reflexivity. }
  clearbody s1. destruct I1 as [I1 E1].
  assert (NR : forall s2 (b : bool), inv (set_st s2 (if b then DSTATE_RAW_OK else DSTATE_SCANNING))).
  { intros s2 [|]; apply inv_triv; cbn; discriminate. }
  cbv zeta. destruct (x_dummy s1) as [|[] t]; intros [= <- <-].
  - apply NR.
  - apply NR.
  - split; intros E; cbn in E |- *; [congruence|]. exact (proj2 I1 E).
Qed.

Lemma inv_call : forall prec cl s, inv s ->
  match do_call prec cl s with ROk _ s' | RErr _ s' => inv s' | RUndef => True end.
Proof.
  intros prec cl s HI.
  assert (CO : match consume s with ROk _ s' | RErr _ s' => inv s' | RUndef => True end).
  { destruct (consume_spec s) as [(r & s2 & -> & K & _)|(e & s2 & -> & K & _)]; exact (inv_kept _ _ K HI). }
  assert (CN : match consume_input s with ROk _ s' | RErr _ s' => inv s' | RUndef => True end).
  { unfold consume_input.
    assert (HD : forall s, inv s -> match match consume s with
       | ROk JPEG_REACHED_SOS s => ROk JPEG_REACHED_SOS (set_st (set_flags s false false) DSTATE_READY)
       | r => r end with ROk _ s' | RErr _ s' => inv s' | RUndef => True end).
    { intros s1 I1. destruct (consume_spec s1) as [(r & s2 & -> & K & _)|(e & s2 & -> & K & _)].
      - destruct r; try exact (inv_kept _ _ K I1). apply inv_triv; cbn; discriminate.
      - exact (inv_kept _ _ K I1). }
    destruct (x_st s) eqn:Es; try exact HI; try exact CO.
    - apply HD. apply inv_triv; cbn; discriminate.
    - apply HD. exact HI. }
  assert (AB : forall s, inv (abort s)).
  { intros s1. unfold abort. destruct (x_st s1) eqn:E; apply inv_triv; cbn; congruence. }
  assert (SU : forall s, inv s -> match output_pass_setup s with ROk _ s' | RErr _ s' => inv s' | RUndef => True end).
  { intros s1 I1. destruct (setup_ok s1) as (b & s2 & E). rewrite E. exact (inv_setup _ _ _ I1 E). }
  assert (FG : forall A (o : res A), match o with ROk _ s' | RErr _ s' => inv s' | RUndef => True end ->
     match forget o with ROk _ s' | RErr _ s' => inv s' | RUndef => True end).
  { intros A [a s1|e s1|]; auto. }
  assert (LP : forall f s1 (k : dobj -> res bool), loop_ok f -> inv s1 ->
     (forall s2, kept s1 s2 -> match k s2 with ROk _ s' | RErr _ s' => inv s' | RUndef => True end) ->
     match match f (x_in s1) s1 with ROk true s2 => k s2 | r => r end with ROk _ s' | RErr _ s' => inv s' | RUndef => True end).
  { intros f s1 k Hf I1 Hk. destruct (Hf (x_in s1) s1 (or_intror (le_n _))) as [(b & s2 & -> & K)|(e & s2 & -> & K & N)].
    - destruct b; [|exact (inv_kept _ _ K I1)]. exact (Hk s2 K).
    - exact (inv_kept _ _ K I1). }
  destruct cl; cbn [do_call]; try apply FG.
  - unfold read_header. destruct (_ && _); [exact HI|]. destruct (consume_input s) as [r s1|e s1|]; [|exact CN|exact I].
    destruct r; try exact CN. destruct require_image; [exact CN|]. apply AB.
  - exact CN.
  - unfold input_complete. destruct (_ || _); exact HI.
  - unfold has_multiple_scans. destruct (_ || _); exact HI.
  - unfold set_params. destruct (x_st s) eqn:Es; try exact HI. apply inv_triv; cbn; congruence.
  - unfold calc_output_dimensions. destruct (negb _); exact HI.
  - unfold start_decompress.
    assert (PL : forall s1, inv s1 -> match match (if x_multi s1 then absorb (x_in s1) s1 else ROk true s1) with
        | ROk true s => output_pass_setup (set_input s (x_eoi s) (x_inscan s) (x_inscan s) (x_in s))
        | r => r end with ROk _ s' | RErr _ s' => inv s' | RUndef => True end).
    { intros s1 I1. destruct (x_multi s1).
      - apply (LP absorb s1 (fun s => output_pass_setup (set_input s (x_eoi s) (x_inscan s) (x_inscan s) (x_in s))) absorb_ok I1).
        intros s2 K. apply SU. exact (inv_kept _ _ K I1).
      - apply SU. exact I1. }
    destruct (x_st s) eqn:Es; try exact HI; cbv zeta.
    + destruct (x_buffered s); [apply inv_triv; cbn; discriminate|]. apply PL. apply inv_triv; cbn; discriminate.
    + apply PL. exact HI.
    + apply SU. exact HI.
  - unfold read_scanlines. destruct (negb _); [exact HI|]. destruct (is (x_st s) DSTATE_SCANNING) eqn:Es; cbn [negb]; [|exact HI].
    assert (NS : forall s1, x_st s1 = x_st s -> inv s1).
    { intros s1 E. apply inv_triv; rewrite E; destruct (x_st s); discriminate. }
    destruct (_ <=? _); [apply NS; reflexivity|]. destruct (process_data _ _ _) as [[p n]|e|]; [apply NS; reflexivity|exact HI|exact I].
  - unfold read_raw_data. destruct (negb _); [exact HI|]. destruct (is (x_st s) DSTATE_DESTROYED); [exact I|].
    destruct (x_lossless s); [exact HI|]. destruct (is (x_st s) DSTATE_RAW_OK) eqn:Es; cbn [negb]; [|exact HI].
    assert (NS : forall s1, x_st s1 = x_st s -> inv s1).
    { intros s1 E. apply inv_triv; rewrite E; destruct (x_st s); discriminate. }
    destruct (_ <=? _); [apply NS; reflexivity|]. cbv zeta. destruct (_ <? _); [exact HI|]. destruct (hd true _); apply NS; reflexivity.
  - unfold start_output. destruct (_ && _); [exact HI|]. cbv zeta. apply SU. exact HI.
  - unfold finish_output. cbv zeta.
    assert (FB : forall s1, inv s1 -> match match seek_scan (x_in s1) s1 with
        | ROk true s => ROk true (set_st s DSTATE_BUFIMAGE) | r => r end with ROk _ s' | RErr _ s' => inv s' | RUndef => True end).
    { intros s1 I1. apply (LP seek_scan s1 (fun s => ROk true (set_st s DSTATE_BUFIMAGE)) seek_scan_ok I1).
      intros s2 _. apply inv_triv; cbn; discriminate. }
    destruct (_ && _); [apply FB; apply inv_triv; cbn; discriminate|]. destruct (negb _); [exact HI|]. apply FB. exact HI.
  - unfold finish_decompress. cbv zeta.
    assert (FB : forall s1, inv s1 -> match match seek_eoi (x_in s1) s1 with
        | ROk true s => ROk true (abort s) | r => r end with ROk _ s' | RErr _ s' => inv s' | RUndef => True end).
    { intros s1 I1. apply (LP seek_eoi s1 (fun s => ROk true (abort s)) seek_eoi_ok I1). intros s2 _. apply AB. }
    destruct (_ && _); [destruct (_ <? _); [exact HI|]; apply FB; apply inv_triv; cbn; discriminate|].
    destruct (is (x_st s) DSTATE_BUFIMAGE); [apply FB; apply inv_triv; cbn; discriminate|].
    destruct (negb _); [exact HI|]. apply FB. exact HI.
  - unfold read_coefficients. destruct (is (x_st s) DSTATE_DESTROYED); [exact I|]. destruct (x_lossless s); [exact HI|]. cbv zeta.
    set (s1 := match x_st s with DSTATE_READY => _ | _ => _ end).
    assert (I1 : inv s1).
    { unfold s1. destruct (x_st s); try exact HI. split; intros E; [reflexivity|cbn in E; discriminate]. }
    clearbody s1.
    assert (LA : forall s2, inv s2 -> match (if (is (x_st s2) DSTATE_STOPPING || is (x_st s2) DSTATE_BUFIMAGE) && x_buffered s2
      then ROk true s2 else RErr JERR_BAD_STATE s2) with ROk _ s' | RErr _ s' => inv s' | RUndef => True end).
    { intros s2 I2. destruct (_ && _); exact I2. }
    destruct (x_st s1) eqn:E1; try (pose proof (LA s1 I1) as Q; rewrite E1 in Q; exact Q).
    apply (LP absorb s1 (fun s => if (is (x_st (set_st s DSTATE_STOPPING)) DSTATE_STOPPING || is (x_st (set_st s DSTATE_STOPPING)) DSTATE_BUFIMAGE)
                           && x_buffered (set_st s DSTATE_STOPPING)
                        then ROk true (set_st s DSTATE_STOPPING) else RErr JERR_BAD_STATE (set_st s DSTATE_STOPPING)) absorb_ok I1).
    intros s2 _. apply LA. apply inv_triv; cbn; discriminate.
  - unfold new_colormap. destruct (negb _); [exact HI|]. destruct ext; exact HI.
  - unfold read_icc_profile. destruct (_ <? _)%Z; exact HI.
  - apply AB.
  - apply inv_triv; cbn; discriminate.
Qed.

Lemma inv_reachable : forall s, reachable s -> inv s.
Proof.
  intros s R. induction R as [s C|prec cl s s' R IH E|prec cl s e s' R IH E].
  - unfold created in C. apply inv_triv; congruence.
  - pose proof (inv_call prec cl s IH) as P. rewrite E in P. exact P.
  - pose proof (inv_call prec cl s IH) as P. rewrite E in P. exact P.
Qed.

Theorem C43_accepted : forall prec cl s s', reachable s -> good s ->
  allowed (x_st s) (x_buffered s) cl = true ->
  do_call prec cl s <> RErr JERR_BAD_STATE s' /\ (x_st s <> DSTATE_DESTROYED -> do_call prec cl s <> RUndef \/ exists n, cl = ReadScanlines n).
Proof.
  intros prec cl s s' HR Gs HA.
  assert (NB : forall A (o : res A), (exists a s1, o = ROk a s1) \/ (exists e s1, o = RErr e s1 /\ e <> JERR_BAD_STATE) ->
     forget o <> RErr JERR_BAD_STATE s' /\ (x_st s <> DSTATE_DESTROYED -> forget o <> RUndef \/ exists n, cl = ReadScanlines n)).
  { intros A o [(a & s1 & ->)|(e & s1 & -> & N)]; cbn [forget]; (split; [|left]); try discriminate. intros [= W _]. exact (N W). }
  assert (CI : forall s, x_st s <> DSTATE_DESTROYED -> x_st s <> DSTATE_RDCOEFS -> good s ->
     (exists a s1, consume_input s = ROk a s1) \/ (exists e s1, consume_input s = RErr e s1 /\ e <> JERR_BAD_STATE)).
  { intros s0 N1 N2 G0.
    assert (HD : forall s, good s ->
      (exists a s1, (match consume s with
       | ROk JPEG_REACHED_SOS s => ROk JPEG_REACHED_SOS (set_st (set_flags s false false) DSTATE_READY)
       | r => r end) = ROk a s1) \/ (exists e s1, (match consume s with
       | ROk JPEG_REACHED_SOS s => ROk JPEG_REACHED_SOS (set_st (set_flags s false false) DSTATE_READY)
       | r => r end) = RErr e s1 /\ e <> JERR_BAD_STATE)).
    { intros s1 G1. destruct (consume_spec s1) as [(r & s2 & -> & _)|(e & s2 & -> & _ & N)].
      - left. destruct r; eauto.
      - right. eauto. }
    assert (CO : (exists a s1, consume s0 = ROk a s1) \/ (exists e s1, consume s0 = RErr e s1 /\ e <> JERR_BAD_STATE)).
    { destruct (consume_spec s0) as [(r & s2 & -> & _)|(e & s2 & -> & _ & N)]; [left|right]; eauto. }
    unfold consume_input. destruct (x_st s0); try congruence; try exact CO; [apply HD; exact G0|apply HD; exact G0|].
    left. eauto. }
  assert (LP : forall f s1 (k : dobj -> res bool), loop_ok f -> good s1 -> (forall s2, kept s1 s2 -> exists b s', k s2 = ROk b s') ->
     (exists a s2, match f (x_in s1) s1 with ROk true s2 => k s2 | r => r end = ROk a s2) \/
     (exists e s2, match f (x_in s1) s1 with ROk true s2 => k s2 | r => r end = RErr e s2 /\ e <> JERR_BAD_STATE)).
  { intros f s1 k Hf G1 Hk. destruct (Hf (x_in s1) s1 (or_intror (le_n _))) as [(b & s2 & -> & K)|(e & s2 & -> & K & N)].
    - left. destruct b; [|eauto]. destruct (Hk s2 K) as (b & s3 & ->). eauto.
    - right. eauto. }
  destruct cl; cbn [allowed] in HA; cbn [do_call];
    try (split; [|intros _; left]; discriminate).
  - apply NB. unfold read_header.
    assert (E0 : negb (is (x_st s) DSTATE_START) && negb (is (x_st s) DSTATE_INHEADER) = false)
      by (destruct (x_st s); try discriminate; reflexivity).
    rewrite E0. destruct (CI s) as [(a & s1 & ->)|(e & s1 & -> & N)];
      [destruct (x_st s); discriminate|destruct (x_st s); discriminate|exact Gs| |right; eauto].
    destruct a; eauto. destruct require_image; [right; eexists _, _; split; [reflexivity|discriminate]|eauto].
  - apply NB. apply CI; [destruct (x_st s); discriminate|destruct (x_st s); discriminate|exact Gs].
  - apply NB. unfold input_complete. destruct (x_st s); try discriminate; left; eexists _, _; reflexivity.
  - apply NB. unfold has_multiple_scans. destruct (x_st s); try discriminate; left; eexists _, _; reflexivity.
  - unfold calc_output_dimensions. destruct (x_st s); try discriminate; (split; [|intros _; left]; discriminate).
  - apply NB. unfold start_decompress.
    assert (PL : forall s1, good s1 ->
      (exists a s2, match (if x_multi s1 then absorb (x_in s1) s1 else ROk true s1) with
        | ROk true s => output_pass_setup (set_input s (x_eoi s) (x_inscan s) (x_inscan s) (x_in s))
        | r => r end = ROk a s2) \/
      (exists e s2, match (if x_multi s1 then absorb (x_in s1) s1 else ROk true s1) with
        | ROk true s => output_pass_setup (set_input s (x_eoi s) (x_inscan s) (x_inscan s) (x_in s))
        | r => r end = RErr e s2 /\ e <> JERR_BAD_STATE)).
    { intros s1 G1. destruct (x_multi s1).
      - apply (LP absorb s1 (fun s => output_pass_setup (set_input s (x_eoi s) (x_inscan s) (x_inscan s) (x_in s))) absorb_ok G1).
        intros s2 _. apply setup_ok.
      - left. apply setup_ok. }
    destruct (x_st s); try discriminate; cbv zeta.
    + destruct (x_buffered s); [left; eauto|]. apply PL. exact Gs.
    + apply PL. exact Gs.
    + left. apply setup_ok.
  - unfold read_scanlines. split; [|intros _; right; eauto]. destruct (x_prec s =? prec); cbn [negb]; [|discriminate].
    destruct (x_st s); try discriminate. cbn [is code Z.eqb Pos.eqb negb]. destruct (_ <=? _); [discriminate|].
    destruct (process_data _ _ _) as [[p n]|e|] eqn:E; [discriminate|exfalso; exact (process_no_error _ _ _ _ E)|discriminate].
  - apply NB. unfold read_raw_data. destruct (x_prec s =? prec); cbn [negb]; [|right; eexists _, _; split; [reflexivity|discriminate]].
    destruct (x_st s); try discriminate. cbn [is code Z.eqb Pos.eqb negb].
    destruct (x_lossless s); [right; eexists _, _; split; [reflexivity|discriminate]|].
    destruct (_ <=? _); [left; eauto|]. cbv zeta. destruct (_ <? _); [right; eexists _, _; split; [reflexivity|discriminate]|].
    destruct (hd true _); left; eauto.
  - apply NB. unfold start_output.
    assert (E0 : negb (is (x_st s) DSTATE_BUFIMAGE) && negb (is (x_st s) DSTATE_PRESCAN) = false)
      by (destruct (x_st s); try discriminate; reflexivity).
    rewrite E0. cbv zeta. left. apply setup_ok.
  - apply NB. unfold finish_output. cbv zeta.
    assert (FB : forall s1, good s1 -> (exists a s2, match seek_scan (x_in s1) s1 with
        | ROk true s => ROk true (set_st s DSTATE_BUFIMAGE) | r => r end = ROk a s2) \/
      (exists e s2, match seek_scan (x_in s1) s1 with
        | ROk true s => ROk true (set_st s DSTATE_BUFIMAGE) | r => r end = RErr e s2 /\ e <> JERR_BAD_STATE)).
    { intros s1 G1. apply (LP seek_scan s1 (fun s => ROk true (set_st s DSTATE_BUFIMAGE)) seek_scan_ok G1). eauto. }
    destruct (x_st s); try discriminate; cbn [is code Z.eqb Pos.eqb negb orb andb]; try rewrite HA; apply FB; exact Gs.
  - apply NB. unfold finish_decompress. cbv zeta.
    assert (FB : forall s1, good s1 -> (exists a s2, match seek_eoi (x_in s1) s1 with
        | ROk true s => ROk true (abort s) | r => r end = ROk a s2) \/
      (exists e s2, match seek_eoi (x_in s1) s1 with
        | ROk true s => ROk true (abort s) | r => r end = RErr e s2 /\ e <> JERR_BAD_STATE)).
    { intros s1 G1. apply (LP seek_eoi s1 (fun s => ROk true (abort s)) seek_eoi_ok G1). eauto. }
    destruct (x_st s); try discriminate; cbn [is code Z.eqb Pos.eqb negb orb andb]; try rewrite HA; cbn [negb];
      try (destruct (_ <? _); [right; eexists _, _; split; [reflexivity|discriminate]|]); apply FB; exact Gs.
  - apply NB. unfold read_coefficients.
    destruct (is (x_st s) DSTATE_DESTROYED) eqn:Ed; [destruct (x_st s); try discriminate|].
    destruct (x_lossless s); [right; eexists _, _; split; [reflexivity|discriminate]|]. cbv zeta.
    assert (RC : forall s1, x_buffered s1 = true -> good s1 ->
      (exists a s2, match absorb (x_in s1) s1 with
        | ROk true s => if (is (x_st (set_st s DSTATE_STOPPING)) DSTATE_STOPPING || is (x_st (set_st s DSTATE_STOPPING)) DSTATE_BUFIMAGE)
                           && x_buffered (set_st s DSTATE_STOPPING)
                        then ROk true (set_st s DSTATE_STOPPING) else RErr JERR_BAD_STATE (set_st s DSTATE_STOPPING)
        | r => r end = ROk a s2) \/
      (exists e s2, match absorb (x_in s1) s1 with
        | ROk true s => if (is (x_st (set_st s DSTATE_STOPPING)) DSTATE_STOPPING || is (x_st (set_st s DSTATE_STOPPING)) DSTATE_BUFIMAGE)
                           && x_buffered (set_st s DSTATE_STOPPING)
                        then ROk true (set_st s DSTATE_STOPPING) else RErr JERR_BAD_STATE (set_st s DSTATE_STOPPING)
        | r => r end = RErr e s2 /\ e <> JERR_BAD_STATE)).
    { intros s1 B1 G1.
      apply (LP absorb s1 (fun s => if (is (x_st (set_st s DSTATE_STOPPING)) DSTATE_STOPPING || is (x_st (set_st s DSTATE_STOPPING)) DSTATE_BUFIMAGE)
                           && x_buffered (set_st s DSTATE_STOPPING)
                        then ROk true (set_st s DSTATE_STOPPING) else RErr JERR_BAD_STATE (set_st s DSTATE_STOPPING)) absorb_ok G1).
      intros s2 K. cbn [set_st x_st x_buffered is code Z.eqb Pos.eqb orb andb].
      rewrite (k_buf _ _ K), B1. eauto. }
    destruct (x_st s) eqn:Es; try discriminate; cbn [set_st set_flags x_st]; try rewrite Es.
    + apply RC; [reflexivity|exact Gs].
    + left. rewrite HA. eexists _, _. reflexivity.
    + apply RC; [|exact Gs]. apply (proj1 (inv_reachable s HR)). exact Es.
    + left. rewrite HA. eexists _, _. reflexivity.
  - unfold new_colormap. destruct (x_st s); try discriminate. cbn [is code Z.eqb Pos.eqb negb].
    destruct ext; (split; [|intros _; left]; discriminate).
  - unfold read_icc_profile. destruct (x_st s); try discriminate; (split; [|intros _; left]; discriminate).
Qed.
Print Assumptions C43_accepted.

(* C43, the full statement ("only documented sequences are accepted, anything
   else is an error") is false in two places.  On a destroyed object
   jpeg_read_raw_data and jpeg_read_coefficients read freed memory before
   testing the state; and jpeg_consume_input, documented as callable at any
   time after creation, is refused while jpeg_read_coefficients is suspended. *)
Theorem C43_destroyed_refuted :
  exists s, reachable s /\ x_st s = DSTATE_DESTROYED /\
    do_call (x_prec s) ReadCoefficients s = RUndef /\ do_call (x_prec s) (ReadRawData 1) s = RUndef.
Proof.
  set (s0 := mkO DSTATE_START false false false 0 0 false false 8 (mkG 8 1 1 8 1 8 false) 0
              (start_pass (mkG 8 1 1 8 1 8 false) (mkM false 0 (fun _ => None) (fun _ => None) false CTX_PREPARE_FOR_IMCU 0 0 (fun _ => None)) [])
              [] [] 0).
  exists (destroy s0). split; [|split; [reflexivity|split; reflexivity]].
  apply (re_ok 8 Destroy s0); [apply re_create; reflexivity|reflexivity].
Qed.
Print Assumptions C43_destroyed_refuted.

Theorem C43_consume_input_refuted :
  exists s, reachable s /\ x_st s = DSTATE_RDCOEFS /\ x_in s = [JPEG_ROW_COMPLETED; JPEG_REACHED_EOI] /\
    do_call (x_prec s) ConsumeInput s = RErr JERR_BAD_STATE s.
Proof.
  set (s0 := mkO DSTATE_START false false false 0 0 false false 8 (mkG 8 1 1 8 1 8 false) 0
              (start_pass (mkG 8 1 1 8 1 8 false) (mkM false 0 (fun _ => None) (fun _ => None) false CTX_PREPARE_FOR_IMCU 0 0 (fun _ => None)) [])
              [JPEG_REACHED_SOS; JPEG_ROW_COMPLETED; JPEG_SUSPENDED; JPEG_ROW_COMPLETED; JPEG_REACHED_EOI] [] 0).
  set (s1 := set_input (set_st (set_flags s0 true false) DSTATE_RDCOEFS) false 1 0 [JPEG_ROW_COMPLETED; JPEG_REACHED_EOI]).
  exists s1. split; [|split; [reflexivity|split; reflexivity]].
  apply (re_ok 8 ReadCoefficients (set_input (set_st (set_flags s0 false false) DSTATE_READY) false 1 0
     [JPEG_ROW_COMPLETED; JPEG_SUSPENDED; JPEG_ROW_COMPLETED; JPEG_REACHED_EOI])); [|reflexivity].
  apply (re_ok 8 (ReadHeader true) s0); [apply re_create; reflexivity|reflexivity].
Qed.
Print Assumptions C43_consume_input_refuted.

(* ---------------------------------------------------------------- *)
(* invariant of an output pass *)
Definition DI (h du : nat) (c : dcfg) (d : dst) (y : nat) : Prop :=
  if g_context c then CI c d y else SI c d y.

Lemma DI_start : forall h du c m0 o, dcfg_ok h du c -> DI h du c (start_pass c m0 o) 0.
Proof.
  intros h du c m0 o Hc. pose proof (geo_O_pos h du c Hc) as HO. unfold DI.
  assert (HU : forall ws, UI c 0 0 (start_pass_upsample c) ws).
  { intros ws. split; [lia|]. split; [cbn; lia|]. left. split; reflexivity. }
  destruct (g_context c) eqn:Ec.
  - split; [reflexivity|]. split; [cbn; lia|]. split; [lia|]. right. right. right. left.
    unfold IR. unfold start_pass, start_pass_main. rewrite Ec. cbn [d_main d_row d_ups m_ctr m_full m_cs m_which m_x0 m_x1 m_ws].
    split; [reflexivity|]. split; [reflexivity|]. split; [reflexivity|]. split; [reflexivity|]. split; [reflexivity|].
    split; [|split; [reflexivity|apply HU]].
    unfold make_funny_pointers. cbn [m_x0 m_x1].
    destruct Hc as (_ & _ & _ & Hv & Hg & HM & _). specialize (HM Ec).
    set (rg := g_rg c) in *. set (M := g_M c) in *.
    assert (E1 : rg * (M + 2) = rg * (M - 2) + 4 * rg) by nia.
    assert (E2 : rg * M = rg * (M - 2) + 2 * rg) by nia.
    split; [|split; [|split; [|lia]]].
    + intros i Hi. fold rg M in Hi |- *. rewrite dup_loop_spec by lia.
      rewrite (proj2 (Nat.ltb_ge (rg + i) (0 + 0 + rg))) by lia. rewrite andb_false_r.
      rewrite addr_loop_spec. rewrite (proj2 (Nat.leb_le (rg + 0) (rg + i))) by lia.
      rewrite (proj2 (Nat.ltb_lt (rg + i) (rg + 0 + rg * (M + 2)))) by lia. cbn [andb X]. f_equal. lia.
    + intros i Hi. fold rg M in Hi |- *. rewrite !addr_loop_spec. unfold X. fold rg M.
      rewrite E1, E2 in *. set (q := rg * (M - 2)) in *. clearbody q.
      destruct (Nat.leb_spec (rg + (q + 2 * rg) + 0) (rg + i)), (Nat.ltb_spec (rg + i) (rg + (q + 2 * rg) + 0 + rg * 2)),
        (Nat.leb_spec (rg + q + 0) (rg + i)), (Nat.ltb_spec (rg + i) (rg + q + 0 + rg * 2)),
        (Nat.leb_spec (rg + 0) (rg + i)), (Nat.ltb_spec (rg + i) (rg + 0 + (q + 4 * rg))),
        (Nat.ltb_spec i q), (Nat.ltb_spec i (q + 2 * rg)), (Nat.ltb_spec i (q + 4 * rg)); cbn [andb]; try lia; f_equal; lia.
    + intros _ i Hi. fold rg in Hi |- *. rewrite dup_loop_spec by lia.
      rewrite (proj2 (Nat.ltb_lt i (0 + 0 + rg))) by lia. cbn [andb Nat.leb Nat.add].
      rewrite addr_loop_spec. rewrite (proj2 (Nat.leb_le (rg + 0) rg)) by lia.
      rewrite (proj2 (Nat.ltb_lt rg (rg + 0 + rg * (M + 2)))) by nia. cbn [andb]. f_equal. lia.
  - split; [reflexivity|]. split; [cbn; lia|]. unfold start_pass, start_pass_main. rewrite Ec.
    cbn [d_main m_full m_rgc d_ups d_row m_ws]. split; [reflexivity|]. split; [reflexivity|]. cbn [Nat.mul]. apply HU.
Qed.

Lemma DI_step : forall h du c d y avail, dcfg_ok h du c -> DI h du c d y -> y < g_O c ->
  exists d' cnt, process_data c d avail = Ret (d', cnt) /\ DI h du c d' (y + cnt) /\ cnt <= avail /\
    (1 <= cnt \/ avail = 0 \/ hd true (d_orc d) = false /\ d_orc d' = tl (d_orc d)).
Proof.
  intros h du c d y avail Hc HD Hy. unfold DI, process_data in *. destruct (g_context c) eqn:Ec.
  - destruct (context_step h du c Hc Ec d y avail HD Hy) as (d' & cnt & A & B & C & D).
    exists d', cnt. split; [exact A|]. split; [exact B|]. split; [exact C|]. intuition.
  - destruct (simple_step h du c Hc d y avail Ec HD Hy) as (d' & cnt & A & B & C & D).
    exists d', cnt. split; [exact A|]. split; [exact B|]. split; [exact C|]. intuition.
Qed.
Lemma DI_lines : forall h du c d y, DI h du c d y -> d_lines d = map (line_spec c) (seq 0 y).
Proof. intros h du c d y H. unfold DI in H. destruct (g_context c); exact (proj1 H). Qed.
Lemma DI_le : forall h du c d y, DI h du c d y -> y <= g_O c.
Proof.
  intros h du c d y H. unfold DI in H. destruct (g_context c); [exact (proj1 (proj2 (proj2 H)))|].
  destruct H as (_ & _ & H). destruct (m_full (d_main d)); [destruct H as (_ & _ & _ & U)|destruct H as (_ & _ & U)]; exact (proj1 U).
Qed.

Lemma setup_pass : forall s s', inv s -> output_pass_setup s = ROk true s' ->
  x_oscan s' = 0 /\ x_cfg s' = x_cfg s /\ x_prec s' = x_prec s /\ exists m0 o, x_pass s' = start_pass (x_cfg s) m0 o.
Proof.
  intros s s' HI. unfold output_pass_setup.
  set (s1 := if is (x_st s) DSTATE_PRESCAN then _ else _).
  assert (I1 : x_oscan s1 = 0 /\ x_cfg s1 = x_cfg s /\ x_prec s1 = x_prec s /\ exists m0 o, x_pass s1 = start_pass (x_cfg s) m0 o).
  { unfold s1. destruct (is (x_st s) DSTATE_PRESCAN) eqn:E.
    - assert (E' : x_st s = DSTATE_PRESCAN) by (destruct (x_st s); try discriminate; reflexivity).
      destruct (proj2 HI E') as (A & B). auto.
    - cbn. split; [reflexivity|]. split; [reflexivity|]. split; [reflexivity|]. eexists _, _. reflexivity. }
  clearbody s1. cbv zeta. destruct I1 as (A & B & C & D).
  destruct (x_dummy s1) as [|[] t]; intros [= <-].
  - cbn. auto.
  - cbn. rewrite B. split; [reflexivity|]. split; [reflexivity|]. split; [exact C|]. eexists _, _. reflexivity.
Qed.

Lemma total_app : forall l k, total (l ++ [k]) = total l + k.
Proof. induction l as [|a l IH]; intros k; cbn; [lia|]. unfold total in IH. rewrite IH. lia. Qed.

Lemma reading_inv : forall h du prec s0 ks s, dcfg_ok h du (x_cfg s0) -> reachable s0 -> x_prec s0 = prec ->
  reading prec s0 ks s ->
  x_st s = DSTATE_SCANNING /\ x_prec s = prec /\ x_cfg s = x_cfg s0 /\ x_oscan s = total ks /\
  DI h du (x_cfg s0) (x_pass s) (total ks).
Proof.
  intros h du prec s0 ks s Hc HR Hp R. pose proof (inv_reachable s0 HR) as HI.
  induction R as [s n E Es|ks s n k s' R IH E].
  - assert (F : x_oscan s = 0 /\ x_cfg s = x_cfg s0 /\ x_prec s = x_prec s0 /\ exists m0 o, x_pass s = start_pass (x_cfg s0) m0 o).
    { destruct E as [E|E].
      - unfold start_decompress in E.
        assert (PL : forall s1, inv s1 -> x_cfg s1 = x_cfg s0 -> x_prec s1 = x_prec s0 ->
          match (if x_multi s1 then absorb (x_in s1) s1 else ROk true s1) with
          | ROk true s => output_pass_setup (set_input s (x_eoi s) (x_inscan s) (x_inscan s) (x_in s))
          | r => r end = ROk true s ->
          x_oscan s = 0 /\ x_cfg s = x_cfg s0 /\ x_prec s = x_prec s0 /\ exists m0 o, x_pass s = start_pass (x_cfg s0) m0 o).
        { intros s1 I1 C1 P1. destruct (x_multi s1).
          - destruct (absorb_ok (x_in s1) s1 (or_intror (le_n _))) as [(b & s2 & -> & K)|(e & s2 & -> & K & N)]; [|discriminate].
            destruct b; [|discriminate]. intros E2. apply setup_pass in E2; [|exact (inv_kept _ _ K I1)].
            cbn in E2. rewrite (k_cfg _ _ K), (k_prec _ _ K), C1, P1 in E2. exact E2.
          - intros E2. apply setup_pass in E2; [|exact I1]. cbn in E2. rewrite C1, P1 in E2. exact E2. }
        destruct (x_st s0) eqn:Es0; try discriminate.
        + destruct (x_buffered s0); [injection E as <-; discriminate|].
          apply (PL (set_st s0 DSTATE_PRELOAD)); [apply inv_triv; cbn; discriminate|reflexivity|reflexivity|exact E].
        + apply (PL s0); [exact HI|reflexivity|reflexivity|exact E].
        + apply setup_pass in E; [exact E|exact HI].
      - unfold start_output in E. destruct (_ && _); [discriminate|]. apply setup_pass in E; [exact E|exact HI]. }
    destruct F as (F1 & F2 & F3 & m0 & o & F4). rewrite F1, F2, F3, F4. cbn [total fold_right].
    split; [exact Es|]. split; [exact Hp|]. split; [reflexivity|]. split; [reflexivity|]. apply DI_start. exact Hc.
  - destruct IH as (I1 & I2 & I3 & I4 & I5). rewrite total_app.
    unfold read_scanlines in E. rewrite I2, Nat.eqb_refl, I1, I3, I4 in E. cbn [negb is code Z.eqb Pos.eqb] in E.
    destruct (Nat.leb_spec (g_O (x_cfg s0)) (total ks)) as [L|L].
    + injection E as <- <-. rewrite Nat.add_0_r. cbn. auto.
    + destruct (DI_step h du _ _ _ n Hc I5 L) as (d' & cnt & E1 & E2 & _). rewrite E1 in E. injection E as <- <-.
      cbn. auto.
Qed.

(* C43: in an output pass, for an image of any geometry, with or without context
   rows, whatever numbers of lines are asked for and wherever the data source
   suspends:
   - jpeg_read_scanlines always succeeds and never returns more lines than asked
     for or than are left;
   - the lines delivered so far are exactly the first ones of the image, each
     once and in order, and each is made from the right component rows (with
     context: the neighbouring rows, clamped at the image's edges), with every
     row the upsampler looks at present and up to date;
   - a call that asks for lines while some are left delivers at least one,
     unless the data source suspended;
   - after output_height lines, further calls deliver nothing. *)
Theorem C43_scanlines : forall h du prec s0 ks s,
  dcfg_ok h du (x_cfg s0) -> reachable s0 -> x_prec s0 = prec -> reading prec s0 ks s ->
  let O := g_O (x_cfg s0) in
  total ks <= O /\
  x_oscan s = total ks /\
  d_lines (x_pass s) = map (line_spec (x_cfg s0)) (seq 0 (total ks)) /\
  forall n, exists k s', read_scanlines prec n s = ROk k s' /\ k <= n /\ total ks + k <= O /\
    (1 <= n -> total ks < O -> 1 <= k \/ hd true (d_orc (x_pass s)) = false /\ d_orc (x_pass s') = tl (d_orc (x_pass s))).
Proof.
  intros h du prec s0 ks s Hc HR Hp R O.
  destruct (reading_inv h du prec s0 ks s Hc HR Hp R) as (I1 & I2 & I3 & I4 & I5).
  split; [exact (DI_le _ _ _ _ _ I5)|]. split; [exact I4|]. split; [exact (DI_lines _ _ _ _ _ I5)|].
  intros n. unfold read_scanlines. rewrite I2, Nat.eqb_refl, I1, I3, I4. cbn [negb is code Z.eqb Pos.eqb].
  fold O. destruct (Nat.leb_spec O (total ks)) as [L|L].
  - eexists _, _. split; [reflexivity|]. pose proof (DI_le _ _ _ _ _ I5). fold O in H. lia.
  - destruct (DI_step h du _ _ _ n Hc I5 L) as (d' & cnt & E1 & E2 & E3 & E4). rewrite E1.
    eexists _, _. split; [reflexivity|]. split; [exact E3|]. split; [exact (DI_le _ _ _ _ _ E2)|].
    intros Hn _. cbn. destruct E4 as [E4|[E4|E4]]; [auto|lia|auto].
Qed.
Print Assumptions C43_scanlines.

(* With a source that never suspends, asking for at least one line output_height
   times delivers the whole image: total = output_height. *)
Theorem C43_total : forall h du prec s0 ks s,
  dcfg_ok h du (x_cfg s0) -> reachable s0 -> x_prec s0 = prec -> reading prec s0 ks s ->
  (forall i, nth i ks 1 <> 0) ->
  length ks <= g_O (x_cfg s0) /\ (g_O (x_cfg s0) <= length ks -> total ks = g_O (x_cfg s0)).
Proof.
  intros h du prec s0 ks s Hc HR Hp R Hk.
  destruct (reading_inv h du prec s0 ks s Hc HR Hp R) as (_ & _ & _ & _ & I5).
  pose proof (DI_le _ _ _ _ _ I5) as L.
  assert (T : length ks <= total ks).
  { clear - Hk. induction ks as [|a l IH]; cbn; [lia|]. pose proof (Hk 0) as H0. cbn in H0.
    specialize (IH (fun i => Hk (S i))). unfold total in IH. lia. }
  lia.
Qed.
Print Assumptions C43_total.

(* C43: jpeg_finish_decompress refuses while lines are missing (non-buffered
   mode), with no effect; otherwise it reads to the end of the datastream and
   makes the object reusable, or suspends, or passes on a datastream error. *)
Theorem C43_finish : forall s,
  (x_st s = DSTATE_SCANNING \/ x_st s = DSTATE_RAW_OK) -> x_buffered s = false ->
  (x_oscan s < g_O (x_cfg s) -> finish_decompress s = RErr JERR_TOO_LITTLE_DATA s) /\
  (g_O (x_cfg s) <= x_oscan s ->
    (exists s', finish_decompress s = ROk true s' /\ x_st s' = DSTATE_START /\ x_eoi s' = true)
    \/ (exists s', finish_decompress s = ROk false s' /\ x_st s' = DSTATE_STOPPING /\ x_eoi s' = false)
    \/ (exists e s', finish_decompress s = RErr e s' /\ In (InputError e) (x_in s))).
Proof.
  assert (SE : forall l s, (x_eoi s = true \/ length (x_in s) <= length l) ->
     (exists s', seek_eoi l s = ROk true s' /\ x_st s' = x_st s /\ x_eoi s' = true)
     \/ (exists s', seek_eoi l s = ROk false s' /\ x_st s' = x_st s /\ x_eoi s' = false)
     \/ (exists e s', seek_eoi l s = RErr e s' /\ In (InputError e) (x_in s))).
  { induction l as [|a l IH]; intros s Hl; cbn [seek_eoi]; (destruct (x_eoi s) eqn:Ee; cbn [negb]; [left; eauto|]);
      (destruct Hl as [Hl|Hl]; [congruence|]); cbn [length] in Hl; unfold consume; rewrite Ee.
    - destruct (x_in s); [|cbn in Hl; lia]. right. left. eauto.
    - destruct (x_in s) as [|b t] eqn:Ei; [right; left; eauto|]. cbn [length] in Hl.
      assert (ST : forall eoi i o, eoi = true \/ eoi = false ->
         let s1 := set_input s eoi i o t in
         (exists s', seek_eoi l s1 = ROk true s' /\ x_st s' = x_st s /\ x_eoi s' = true)
         \/ (exists s', seek_eoi l s1 = ROk false s' /\ x_st s' = x_st s /\ x_eoi s' = false)
         \/ (exists e s', seek_eoi l s1 = RErr e s' /\ In (InputError e) (b :: t))).
      { intros eoi i o _ s1. destruct (IH s1) as [A|[A|(e & s' & A & B)]]; [cbn; right; lia|left; exact A|right; left; exact A|].
        right. right. exists e, s'. split; [exact A|]. right. exact B. }
      destruct b as [| | | | |e]; try (apply ST; auto).
      + right. left. eexists. split; [reflexivity|]. split; reflexivity.
      + right. right. eexists _, _. split; [reflexivity|]. left. reflexivity. }
  intros s Hs Hb. split.
  - intros Hn. unfold finish_decompress. rewrite Hb. rewrite (proj2 (Nat.ltb_lt _ _) Hn).
    destruct Hs as [-> | ->]; reflexivity.
  - intros Hn. unfold finish_decompress. rewrite Hb. rewrite (proj2 (Nat.ltb_ge _ _) Hn). cbv zeta.
    assert (E0 : (is (x_st s) DSTATE_SCANNING || is (x_st s) DSTATE_RAW_OK) && negb false = true)
      by (destruct Hs as [-> | ->]; reflexivity).
    rewrite E0.
    destruct (SE (x_in (set_st s DSTATE_STOPPING)) (set_st s DSTATE_STOPPING) (or_intror (le_n _)))
      as [(s' & E & A & B)|[(s' & E & A & B)|(e & s' & E & A)]]; rewrite E.
    + left. eexists. split; [reflexivity|]. cbn in A. unfold abort. rewrite A. split; [reflexivity|exact B].
    + right. left. eauto.
    + right. right. eauto.
Qed.
Print Assumptions C43_finish.

(* Non-vacuity: 4:2:0-like geometry with context rows (fancy upsampling), an
   image of 19 lines = 2 iMCU rows, the second incomplete; batches of 1, 7, 30,
   ... lines with two suspensions. *)
Definition ex_cfg : dcfg := mkG 8 2 1 19 2 10 true.
Example ex_cfg_ok : dcfg_ok 19 8 ex_cfg.
Proof. unfold dcfg_ok. cbn. repeat split; lia. Qed.
Definition ex_s0 : dobj := mkO DSTATE_START false false false 0 0 false false 8 ex_cfg 0
  (mkD (mkM false 5 (fun _ => None) (fun _ => None) true CTX_POSTPONED_ROW 3 3 (fun _ => None)) (mkU 0 0 [] [])
       [false; true; false] 7 []) [JPEG_SUSPENDED; JPEG_REACHED_SOS; JPEG_ROW_COMPLETED; JPEG_REACHED_EOI] [] 0.
Definition st_of {A} (s : dobj) (r : res A) : dobj := match r with ROk _ s => s | RErr _ s => s | RUndef => s end.
Definition ex_s1 : dobj := st_of ex_s0 (read_header true (st_of ex_s0 (read_header true ex_s0))).
Example ex_reach : reachable ex_s1 /\ x_st ex_s1 = DSTATE_READY.
Proof.
  split; [|reflexivity]. apply (re_ok 8 (ReadHeader true) (st_of ex_s0 (read_header true ex_s0))); [|reflexivity].
  apply (re_ok 8 (ReadHeader true) ex_s0); [|reflexivity]. apply re_create. reflexivity.
Qed.
Fixpoint run (ns : list nat) (s : dobj) : list nat * dobj :=
  match ns with
  | [] => ([], s)
  | n :: t => match read_scanlines 8 n s with
              | ROk k s' => let (l, s'') := run t s' in (k :: l, s'')
              | _ => ([], s)
              end
  end.
Definition ex_s2 : dobj := st_of ex_s1 (start_decompress ex_s1).
Example ex_run : let (l, s) := run [1; 7; 30; 30; 1; 30; 30; 30; 30; 30; 30; 30; 30; 30] ex_s2 in
  l = [0; 2; 2; 2; 1; 1; 2; 2; 2; 0; 4; 1; 0; 0] /\ x_oscan s = 19 /\ x_warn s = 2.
Proof. vm_compute. split; [reflexivity|split; reflexivity]. Qed.
