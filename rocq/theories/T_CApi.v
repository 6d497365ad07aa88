(* T_CApi.v -- C42: the compressor's call protocol. *)
From Verif Require Import Base M_CApi S_CApi P_CApi.
Open Scope nat_scope.

(* projections of a call's result, for the concrete examples *)
Definition ret {A} (d : A) (r : res A) : A := match r with ROk a _ => a | _ => d end.
Definition st_of {A} (s : cobj) (r : res A) : cobj := match r with ROk _ s => s | RErr _ s => s | RUndef => s end.

(* Every object an application can obtain: created, then driven by any calls
   (an error leaves the object in the state reported by RErr). *)
Inductive reachable : cobj -> Prop :=
| re_create : forall c opt orc, reachable (create c opt orc)
| re_ok : forall prec cl s s', reachable s -> do_call prec cl s = ROk tt s' -> reachable s'
| re_err : forall prec cl s e s', reachable s -> do_call prec cl s = RErr e s' -> reachable s'.

(* once compression has started, scan optimisation is off if no script was set up *)
Definition opt_inv (s : cobj) : Prop :=
  k_st s <> CSTATE_START -> k_st s <> CSTATE_DESTROYED -> c_nsl (k_cfg s) = 0 -> k_opt s = false.

Lemma opt_inv_ext : forall s s', k_st s' = k_st s -> k_cfg s' = k_cfg s -> k_opt s' = k_opt s ->
  opt_inv s -> opt_inv s'.
Proof. unfold opt_inv. intros s s' -> -> ->. auto. Qed.

Lemma pass_rows_keep : forall n s e r, pass_rows n s = r ->
  match r with
  | ROk _ s' | RErr _ s' => k_st s' = k_st s /\ k_cfg s' = k_cfg s /\ k_opt s' = k_opt s
  | RUndef => False
  end /\ (r <> RErr JERR_BAD_STATE e).
Proof.
  induction n as [|n IH]; intros s e r E; cbn [pass_rows] in E; subst r.
  - repeat split; discriminate.
  - destruct (hd true (k_orc s)).
    + match goal with |- context[pass_rows n ?s1] => destruct (IH s1 e _ eq_refl) as [A B] end.
      split; [|exact B]. destruct (pass_rows n _); [| |exact A]; cbn in A; exact A.
    + repeat split; try discriminate.
Qed.

Lemma passes_keep : forall n s e r, passes n s = r ->
  match r with
  | ROk _ s' | RErr _ s' => k_st s' = k_st s /\ k_cfg s' = k_cfg s /\ k_opt s' = k_opt s
  | RUndef => False
  end /\ (r <> RErr JERR_BAD_STATE e).
Proof.
  induction n as [|n IH]; intros s e r E; cbn [passes] in E; subst r.
  - repeat split; discriminate.
  - destruct (pass_rows_keep (c_rows (k_cfg s)) s e _ eq_refl) as [A B].
    destruct (pass_rows (c_rows (k_cfg s)) s) as [u s1|e1 s1|]; [|split; assumption|split; assumption].
    destruct (IH (put s1 EvPass) e _ eq_refl) as [A2 B2]. split; [|exact B2].
    destruct (passes n (put s1 EvPass)); cbn in A2; intuition congruence.
Qed.

Lemma icc_keep : forall n s, k_next s = 0 ->
  match k_st s with CSTATE_SCANNING | CSTATE_RAW_OK | CSTATE_WRCOEFS => True | _ => False end ->
  exists s', icc_chunks n s = ROk tt s' /\ k_st s' = k_st s /\ k_cfg s' = k_cfg s /\ k_opt s' = k_opt s.
Proof.
  induction n as [|n IH]; intros s Hn Hs; cbn [icc_chunks]; [eauto|].
  unfold write_marker. rewrite Hn. cbn [Nat.eqb negb orb].
  destruct (k_st s) eqn:Es; try contradiction; cbn [cstate_eqb negb andb];
    (destruct (IH (put s EvMarker)) as (s' & E & A); [exact Hn|cbn; rewrite Es; exact I|];
     exists s'; split; [exact E|]; cbn in A; intuition congruence).
Qed.

Lemma write_marker_cases : forall s, write_marker s = ROk tt (put s EvMarker) \/ write_marker s = RErr JERR_BAD_STATE s.
Proof. intros s. unfold write_marker. match goal with |- context[if ?b then _ else _] => destruct b end; auto. Qed.

Lemma icc_cases : forall n s, exists s',
  (icc_chunks n s = ROk tt s' \/ icc_chunks n s = RErr JERR_BAD_STATE s') /\
  k_st s' = k_st s /\ k_cfg s' = k_cfg s /\ k_opt s' = k_opt s.
Proof.
  induction n as [|n IH]; intros s; cbn [icc_chunks].
  - exists s. auto.
  - destruct (write_marker_cases s) as [-> | ->]; [|exists s; auto].
    destruct (IH (put s EvMarker)) as (s' & A & B). exists s'. split; [exact A|]. cbn in B. exact B.
Qed.

Lemma opt_inv_reachable : forall s, reachable s -> opt_inv s.
Proof.
  assert (STEP : forall prec cl s, opt_inv s ->
     match do_call prec cl s with ROk _ s' | RErr _ s' => opt_inv s' | RUndef => True end).
  { intros prec cl s HI. destruct cl; cbn [do_call].
    - unfold start_compress. destruct (negb _); [exact HI|]. intros _ _ Hn. cbn in *. rewrite Hn. reflexivity.
    - unfold write_scanlines.
      destruct (negb _); [exact HI|]. destruct (negb _); [exact HI|].
      set (s1 := if c_h (k_cfg s) <=? k_next s then warn s else s).
      set (s2 := if k_startup s1 then pass_startup s1 else s1).
      assert (F : k_st s2 = k_st s /\ k_cfg s2 = k_cfg s /\ k_opt s2 = k_opt s).
      { unfold s2, s1. destruct (c_h (k_cfg s) <=? k_next s); cbn [warn k_startup];
        destruct (k_startup s); cbn; auto. }
      destruct F as (F1 & F2 & F3).
      destruct (process_data _ _ _ _ _) as [d|e|]; cbn [forget].
      + destruct (d_in d <? 0)%Z; cbn [forget]; [exact I|].
        eapply opt_inv_ext; [..|exact HI]; cbn; assumption || reflexivity.
      + eapply opt_inv_ext; [..|exact HI]; assumption.
      + exact I.
    - unfold write_raw_data. destruct (negb _); [exact HI|]. destruct (cstate_eqb _ _); [exact I|].
      destruct (c_lossless _); [exact HI|]. destruct (negb _); [exact HI|].
      destruct (c_h (k_cfg s) <=? k_next s); [eapply opt_inv_ext; [..|exact HI]; reflexivity|].
      cbv zeta. destruct (k_startup s).
      + destruct (_ <? _); cbn [forget]; [eapply opt_inv_ext; [..|exact HI]; reflexivity|].
        destruct (hd true _); cbn [forget]; (eapply opt_inv_ext; [..|exact HI]; reflexivity).
      + destruct (_ <? _); cbn [forget]; [exact HI|].
        destruct (hd true _); cbn [forget]; (eapply opt_inv_ext; [..|exact HI]; reflexivity).
    - unfold write_coefficients. destruct (cstate_eqb (k_st s) CSTATE_DESTROYED); [exact I|].
      destruct (c_lossless _); [exact HI|].
      destruct (c_nsl (k_cfg s) =? 0) eqn:En.
      + destruct (negb _); intros _ _ _; reflexivity.
      + apply Nat.eqb_neq in En. destruct (negb _); [exact HI|].
        intros _ _ W. cbn in W. contradiction.
    - assert (BODY : forall n, opt_inv s ->
         match (match passes n s with ROk _ s' => abort (put (put s' EvEOI) EvTerm) | r => r end) with
         | ROk _ s' | RErr _ s' => opt_inv s' | RUndef => True end).
      { intros n _. destruct (passes_keep n s s _ eq_refl) as [A _].
        destruct (passes n s) as [u s1|e s1|].
        - unfold abort. cbn [k_st put].
          destruct (k_st s1) eqn:E1; cbn; intros W1 W2; cbn in *; congruence.
        - destruct A as (A1 & A2 & A3). eapply opt_inv_ext; eassumption.
        - exact I. }
      unfold finish_compress. destruct (k_st s) eqn:Es; try exact HI;
        try (destruct (_ <? _); [exact HI|]); apply BODY; exact HI.
    - destruct (write_marker_cases s) as [-> | ->]; [eapply opt_inv_ext; [..|exact HI]; reflexivity|exact HI].
    - unfold write_icc. destruct (icc_cases chunks s) as (s' & A & B1 & B2 & B3).
      destruct (k_st s) eqn:Es; try exact HI;
        (destruct A as [-> | ->]; eapply opt_inv_ext; try eassumption; congruence).
    - unfold write_tables. destruct (negb _); [exact HI|]. eapply opt_inv_ext; [..|exact HI]; reflexivity.
    - unfold set_params. destruct (negb _); [exact HI|]. eapply opt_inv_ext; [..|exact HI]; reflexivity.
    - unfold abort. destruct (k_st s) eqn:E1; try exact HI; intros W; cbn in W; congruence.
    - intros _ W. cbn in W. congruence. }
  intros s R. induction R as [c opt orc|prec cl s s' R IH E|prec cl s e s' R IH E].
  - intros W. cbn in W. congruence.
  - pose proof (STEP prec cl s IH) as P. rewrite E in P. exact P.
  - pose proof (STEP prec cl s IH) as P. rewrite E in P. exact P.
Qed.

(* C42: on every object an application can reach, a call that is not allowed in
   the current state is rejected and the object is left exactly as it was.  The
   error is JERR_BAD_STATE, except that the sample-precision test (and, for raw
   data and coefficients, the lossless test) is made first.  The two exceptions
   are jpeg_write_raw_data and jpeg_write_coefficients on a destroyed object:
   see C42_destroyed_refuted. *)
Theorem C42_rejected : forall prec cl s,
  reachable s ->
  allowed (k_st s) (k_next s =? 0) cl = false ->
  cl <> IccProfile 0 ->
  (k_st s = CSTATE_DESTROYED -> cl <> Coefficients /\ forall n, cl <> RawData n) ->
  exists e, do_call prec cl s = RErr e s /\
    (e = JERR_BAD_STATE
     \/ (e = JERR_BAD_PRECISION /\ c_prec (k_cfg s) <> prec /\
         ((exists r, cl = Scanlines r) \/ (exists n, cl = RawData n)))
     \/ (e = JERR_NOTIMPL /\ c_lossless (k_cfg s) = true /\
         (cl = Coefficients \/ (exists n, cl = RawData n)))).
Proof.
  intros prec cl s HR HA Hicc Hd. pose proof (opt_inv_reachable s HR) as HO.
  destruct cl; cbn [allowed] in HA; cbn [do_call].
  - exists JERR_BAD_STATE. split; [|auto]. unfold start_compress. destruct (k_st s); try discriminate; reflexivity.
  - unfold write_scanlines. destruct (Nat.eqb_spec (c_prec (k_cfg s)) prec) as [Ep|Ep]; cbn [negb].
    + exists JERR_BAD_STATE. split; [|auto]. destruct (k_st s); try discriminate; reflexivity.
    + exists JERR_BAD_PRECISION. split; [reflexivity|]. right; left. eauto.
  - unfold write_raw_data. destruct (Nat.eqb_spec (c_prec (k_cfg s)) prec) as [Ep|Ep]; cbn [negb].
    + destruct (k_st s) eqn:Es; try discriminate; cbn [cstate_eqb].
      * exfalso. eapply (proj2 (Hd eq_refl)). reflexivity.
      * destruct (c_lossless (k_cfg s)) eqn:El; [exists JERR_NOTIMPL; split; [reflexivity|eauto 8]|].
        exists JERR_BAD_STATE. split; [reflexivity|auto].
      * destruct (c_lossless (k_cfg s)) eqn:El; [exists JERR_NOTIMPL; split; [reflexivity|eauto 8]|].
        exists JERR_BAD_STATE. split; [reflexivity|auto].
      * destruct (c_lossless (k_cfg s)) eqn:El; [exists JERR_NOTIMPL; split; [reflexivity|eauto 8]|].
        exists JERR_BAD_STATE. split; [reflexivity|auto].
    + exists JERR_BAD_PRECISION. split; [reflexivity|]. right; left. eauto.
  - unfold write_coefficients.
    assert (SO : k_st s <> CSTATE_START -> k_st s <> CSTATE_DESTROYED ->
                 (if c_nsl (k_cfg s) =? 0 then set_opt s false else s) = s).
    { intros A B. destruct (Nat.eqb_spec (c_nsl (k_cfg s)) 0) as [E|E]; [|reflexivity].
      unfold opt_inv in HO. specialize (HO A B E). destruct s; cbn in *. rewrite HO. reflexivity. }
    destruct (k_st s) eqn:Es; try discriminate; cbn [cstate_eqb].
    + exfalso. apply (proj1 (Hd eq_refl)). reflexivity.
    + destruct (c_lossless (k_cfg s)) eqn:El; [exists JERR_NOTIMPL; split; [reflexivity|eauto 8]|].
      rewrite SO by discriminate. rewrite Es. exists JERR_BAD_STATE. split; [reflexivity|auto].
    + destruct (c_lossless (k_cfg s)) eqn:El; [exists JERR_NOTIMPL; split; [reflexivity|eauto 8]|].
      rewrite SO by discriminate. rewrite Es. exists JERR_BAD_STATE. split; [reflexivity|auto].
    + destruct (c_lossless (k_cfg s)) eqn:El; [exists JERR_NOTIMPL; split; [reflexivity|eauto 8]|].
      rewrite SO by discriminate. rewrite Es. exists JERR_BAD_STATE. split; [reflexivity|auto].
  - exists JERR_BAD_STATE. split; [|auto]. unfold finish_compress. destruct (k_st s); try discriminate; reflexivity.
  - exists JERR_BAD_STATE. split; [|auto]. unfold write_marker.
    destruct (k_st s); cbn [cstate_eqb negb andb]; rewrite ?orb_true_r; try reflexivity;
      rewrite HA; reflexivity.
  - exists JERR_BAD_STATE. split; [|auto]. unfold write_icc.
    destruct chunks as [|n]; [congruence|].
    destruct (k_st s) eqn:Es; try reflexivity; cbn [icc_chunks]; unfold write_marker; rewrite HA; reflexivity.
  - exists JERR_BAD_STATE. split; [|auto]. unfold write_tables. destruct (k_st s); try discriminate; reflexivity.
  - exists JERR_BAD_STATE. split; [|auto]. unfold set_params. destruct (k_st s); try discriminate; reflexivity.
  - discriminate.
  - discriminate.
Qed.
Print Assumptions C42_rejected.

(* Conversely the state test never rejects an allowed call. *)
Lemma process_no_error : forall n c input avail d e, process_data n c input avail d <> Error e.
Proof.
  assert (S1 : forall f c input avail rg q e, pre_process_data f c input avail rg q <> Error e).
  { induction f as [|f IH]; intros c input avail rg q e; cbn [pre_process_data].
    - destruct (_ && _); discriminate.
    - destruct (_ && _); [|discriminate]. destruct (pre_process_iter _ _ _ _ _) as [q' [|]]; [apply IH|discriminate]. }
  assert (S2 : forall f c input avail rg q e, pre_process_context f c input avail rg q <> Error e).
  { induction f as [|f IH]; intros c input avail rg q e; cbn [pre_process_context].
    - destruct (_ <? _); discriminate.
    - destruct (_ <? _); [|discriminate]. destruct (pre_context_iter _ _ _ _) as [q' [|]]; [apply IH|discriminate]. }
  assert (S3 : forall c input avail rg q e, pre_process c input avail rg q <> Error e).
  { intros. unfold pre_process. destruct (c_context c); [apply S2|apply S1]. }
  induction n as [|n IH]; intros c input avail d e; cbn [process_data].
  - destruct (_ <? _); discriminate.
  - destruct (_ <? _); [|discriminate]. destruct (_ <? _)%Z; [discriminate|].
    cbv zeta. destruct (m_rg (d_main d) <? c_du c).
    + destruct (pre_process _ _ _ _ _) as [q|e'|] eqn:E; cbn [bind]; [|exfalso; exact (S3 _ _ _ _ _ _ E)|discriminate].
      destruct (negb _); [discriminate|]. destruct (negb _); [discriminate|]. apply IH.
    + cbn [bind]. destruct (negb _); [discriminate|]. destruct (negb _); [discriminate|]. apply IH.
Qed.

Theorem C42_accepted : forall prec cl s s',
  allowed (k_st s) (k_next s =? 0) cl = true ->
  do_call prec cl s <> RErr JERR_BAD_STATE s'.
Proof.
  intros prec cl s s' HA. destruct cl; cbn [allowed] in HA; cbn [do_call].
  - unfold start_compress. destruct (k_st s); discriminate.
  - unfold write_scanlines. destruct (negb _); [discriminate|].
    destruct (k_st s); try discriminate. cbn [cstate_eqb negb]. cbv zeta.
    destruct (process_data _ _ _ _ _) as [d|e|] eqn:E; cbn [forget]; [|exfalso; exact (process_no_error _ _ _ _ _ _ E)|discriminate].
    destruct (_ <? _)%Z; discriminate.
  - unfold write_raw_data. destruct (negb _); [discriminate|].
    destruct (k_st s); try discriminate. cbn [cstate_eqb negb]. destruct (c_lossless _); [discriminate|].
    destruct (_ <=? _); [discriminate|]. cbv zeta. destruct (_ <? _); [discriminate|].
    destruct (hd true _); discriminate.
  - unfold write_coefficients. destruct (k_st s) eqn:Es; try discriminate. cbn [cstate_eqb].
    destruct (c_lossless _); [discriminate|].
    destruct (_ =? 0); cbn [set_opt k_st]; rewrite Es; discriminate.
  - assert (B : forall n, (match passes n s with ROk _ s' => abort (put (put s' EvEOI) EvTerm) | r => r end)
                 <> RErr JERR_BAD_STATE s').
    { intros n. destruct (passes_keep n s s' _ eq_refl) as [_ A].
      destruct (passes n s) as [u s1|e s1|]; [|exact A|exact A].
      unfold abort. destruct (k_st (put (put s1 EvEOI) EvTerm)); discriminate. }
    unfold finish_compress. destruct (k_st s); try discriminate; try apply B;
      (destruct (_ <? _); [discriminate|apply B]).
  - unfold write_marker. destruct (k_st s); try discriminate; rewrite HA; discriminate.
  - unfold write_icc. destruct (Nat.eqb_spec (k_next s) 0) as [E0|E0].
    + destruct (k_st s) eqn:Es; try discriminate;
       (destruct (icc_keep chunks s E0) as (s1 & -> & _); [rewrite Es; exact I|discriminate]).
    + destruct (k_st s); discriminate.
  - unfold write_tables. destruct (k_st s); discriminate.
  - unfold set_params. destruct (k_st s); discriminate.
  - unfold abort. destruct (k_st s); discriminate.
  - discriminate.
Qed.
Print Assumptions C42_accepted.

(* Not rejected cleanly: jpeg_write_raw_data and jpeg_write_coefficients read
   cinfo->master before testing the state, and on a destroyed object that
   structure has been freed. *)
Theorem C42_destroyed_refuted : exists s, reachable s /\ k_st s = CSTATE_DESTROYED /\
  do_call 8 Coefficients s = RUndef /\ do_call 8 (RawData 16) s = RUndef.
Proof.
  exists (set_st (create (mkCfg 16 1 8 2 false false false 8 0 true 0) false []) CSTATE_DESTROYED).
  split; [|split; [reflexivity|split; reflexivity]].
  eapply (re_ok 8 Destroy); [apply re_create|reflexivity].
Qed.
Print Assumptions C42_destroyed_refuted.

(* libjpeg.txt allows special markers only before the first jpeg_write_scanlines
   call, but the test is "next_scanline == 0": after a first call that reports
   no progress, a marker is accepted and lands after the frame and scan headers. *)
Theorem C42_late_marker_refuted : exists s s1 s2 s3,
  reachable s /\ start_compress s = ROk tt s1 /\
  write_scanlines 8 [] s1 = ROk 0 s2 /\ write_marker s2 = ROk tt s3 /\
  k_log s3 = [EvInitDest; EvHeaders; EvMarker].
Proof.
  set (s := create (mkCfg 16 1 8 2 false false false 8 0 true 0) false []).
  set (s1 := st_of s (start_compress s)). set (s2 := st_of s (write_scanlines 8 [] s1)).
  exists s, s1, s2, (st_of s (write_marker s2)).
  split; [apply re_create|]. vm_compute. repeat split; reflexivity.
Qed.
Print Assumptions C42_late_marker_refuted.

(* C42: however the rows are batched, and wherever the destination suspends,
   - every jpeg_write_scanlines call returns normally; it accepts all the rows
     offered (up to the bottom of the image) unless the coefficient controller
     suspended during the call; it never accepts more;
   - the rows that entered the compressor are exactly the first rows of the
     image, each once, in order (a suspended call withholds one row from the
     count so that it is offered again; it is not processed again);
   - when image_height rows have been accepted, every row has entered and every
     iMCU row has been compressed; no further row is accepted. *)
Theorem C42_scanlines : forall img s0 s,
  cfg_ok (k_cfg s0) -> c_raw (k_cfg s0) = false -> length img = c_h (k_cfg s0) ->
  compressing img s0 s ->
  let h := c_h (k_cfg s0) in
  (forall scan, offers img (k_next s) scan ->
     exists k s', write_scanlines (c_prec (k_cfg s0)) scan s = ROk k s' /\
       k_next s' = k_next s + k /\ k_next s' <= h /\
       (1 <= length scan -> k_next s < h -> k <= length scan) /\
       (Nat.min (length scan) (h - k_next s) <= k
        \/ exists pre, k_orc s = pre ++ false :: k_orc s')) /\
  k_next s <= h /\
  (exists n, (n = k_next s \/ n = S (k_next s)) /\ n <= h /\
     rows_of (k_log s) = rows_of (k_log s0) ++ firstn n img) /\
  (k_next s = h ->
     rows_of (k_log s) = rows_of (k_log s0) ++ img /\
     imcus_of (k_log s) = imcus_of (k_log s0) + c_rows (k_cfg s0) /\
     (c_context (k_cfg s0) = false ->
        groups_of (k_log s) = groups_of (k_log s0) ++
          map (image_group img (c_v (k_cfg s0)))
              (seq 0 ((h + c_v (k_cfg s0) - 1) / c_v (k_cfg s0)))) /\
     forall scan, exists s', write_scanlines (c_prec (k_cfg s0)) scan s = ROk 0 s').
Proof.
  intros img s0 s Hc Hr Hi HC h.
  assert (HCI : CI img s0 s).
  { induction HC as [s E|s scan k s' HC IH Ho E].
    - exact (CI_start img s0 s Hc Hr Hi E).
    - destruct (CI_write img s0 s scan Hc Hi IH Ho) as (k1 & s1 & E1 & A & _).
      rewrite E in E1. injection E1 as -> ->. exact A. }
  assert (W1 : forall scan, offers img (k_next s) scan ->
     exists k s', write_scanlines (c_prec (k_cfg s0)) scan s = ROk k s' /\
       k_next s' = k_next s + k /\ k_next s' <= h /\
       (1 <= length scan -> k_next s < h -> k <= length scan) /\
       (Nat.min (length scan) (h - k_next s) <= k
        \/ exists pre, k_orc s = pre ++ false :: k_orc s')).
  { intros scan Ho. destruct (CI_write img s0 s scan Hc Hi HCI Ho) as (k & s' & E & _ & B & C & D & F).
    exists k, s'. split; [exact E|]. split; [exact B|]. split; [exact C|]. split; [|exact F].
    intros G1 G2. fold h in D. lia. }
  split; [exact W1|].
  destruct HCI as (C1 & C2 & [L1 L2 L3 L4 L5 L6 L7 L8 L9 L10 L11 L12] & C4).
  unfold rest in C4. cbn [d_main d_prep d_in d_orc d_log] in *. fold h in L1, L2, L4, L5, L10, L12.
  split; [lia|]. split.
  { exists (h - p_togo (k_prep s)). split; [|split; [lia|exact L2]].
    destruct (m_susp (k_main s)); cbn [b2n] in *; lia. }
  intros En.
  assert (T0 : p_togo (k_prep s) = 0) by lia.
  assert (S0 : m_susp (k_main s) = false) by (destruct (m_susp (k_main s)); [cbn [b2n] in *; lia|reflexivity]).
  assert (CT : m_cur (k_main s) = c_rows (k_cfg s0)) by (destruct (C4 T0) as [W|W]; [congruence|exact W]).
  split; [rewrite L2, T0, Nat.sub_0_r; f_equal; apply firstn_all2; lia|].
  split; [rewrite L3, CT; reflexivity|].
  split.
  { intros W. rewrite L12 by exact W. unfold gcount. rewrite T0. reflexivity. }
  intros scan.
  assert (Ho : offers img (k_next s) scan) by (intros j Hj Hj2; fold h in Hi; lia).
  destruct (W1 scan Ho) as (k & s' & E & B & C & _).
  assert (k = 0) by lia. subst k. exists s'. exact E.
Qed.
Print Assumptions C42_scanlines.

(* C42: jpeg_finish_compress refuses, without effect, while rows are missing,
   and otherwise either completes the file and makes the object reusable, or
   reports that the destination suspended in a later pass. *)
Theorem C42_finish : forall s,
  (k_st s = CSTATE_SCANNING \/ k_st s = CSTATE_RAW_OK) ->
  (k_next s < c_h (k_cfg s) -> finish_compress s = RErr JERR_TOO_LITTLE_DATA s) /\
  (c_h (k_cfg s) <= k_next s ->
     (exists s' log, finish_compress s = ROk tt s' /\ k_st s' = CSTATE_START /\
        k_log s' = k_log s ++ log ++ [EvEOI; EvTerm])
     \/ (exists s', finish_compress s = RErr JERR_CANT_SUSPEND s' /\ In false (k_orc s))).
Proof.
  intros s Hs.
  assert (PR : forall n s, exists s',
     (pass_rows n s = ROk tt s' /\ k_log s' = k_log s /\ (forall b, In b (k_orc s') -> In b (k_orc s)) /\ k_st s' = k_st s)
     \/ (pass_rows n s = RErr JERR_CANT_SUSPEND s' /\ In false (k_orc s))).
  { induction n as [|n IH]; intros s1; cbn [pass_rows].
    - exists s1. left. auto.
    - destruct (k_orc s1) as [|o os] eqn:Eo; cbn [hd tl].
      + match goal with |- context[pass_rows n ?x] => destruct (IH x) as (s' & [A|A]); exists s'; [left|right] end;
          cbn [k_orc k_log k_st] in A; exact A.
      + destruct o.
        * match goal with |- context[pass_rows n ?x] => destruct (IH x) as (s' & [A|A]); exists s'; [left|right] end;
            cbn [k_orc k_log k_st] in A.
          -- destruct A as (A & B & C & D). split; [exact A|]. split; [exact B|]. split; [|exact D].
             intros b Hb. right. apply C. exact Hb.
          -- destruct A as (A & B). split; [exact A|right; exact B].
        * eexists. right. split; [reflexivity|left; reflexivity]. }
  assert (PS : forall n s, exists s',
     (passes n s = ROk tt s' /\ (exists l, k_log s' = k_log s ++ l) /\ k_st s' = k_st s /\ (forall b, In b (k_orc s') -> In b (k_orc s)))
     \/ (passes n s = RErr JERR_CANT_SUSPEND s' /\ In false (k_orc s))).
  { induction n as [|n IH]; intros s1; cbn [passes].
    - exists s1. left. split; [reflexivity|]. split; [exists []; rewrite app_nil_r; reflexivity|auto].
    - destruct (PR (c_rows (k_cfg s1)) s1) as (s2 & [(E & A & B & C)|(E & A)]); rewrite E.
      + destruct (IH (put s2 EvPass)) as (s3 & [(E3 & [l A3] & B3 & C3)|(E3 & A3)]); exists s3; rewrite E3.
        * left. split; [reflexivity|]. split; [|split].
          -- exists ([EvPass] ++ l). cbn in A3. rewrite A3, A, <- app_assoc. reflexivity.
          -- cbn in B3. congruence.
          -- intros b Hb. apply B. apply C3 in Hb. exact Hb.
        * right. split; [reflexivity|]. apply B. exact A3.
      + exists s2. right. auto. }
  split.
  - intros Hn. unfold finish_compress. apply Nat.ltb_lt in Hn. rewrite Hn. destruct Hs as [-> | ->]; reflexivity.
  - intros Hn. unfold finish_compress. apply Nat.ltb_ge in Hn. rewrite Hn.
    destruct (PS (c_passes (k_cfg s)) s) as (s1 & [(E & [l A] & B & C)|(E & A)]).
    + left. exists (set_st (put (put s1 EvEOI) EvTerm) CSTATE_START), l. rewrite E. unfold abort.
      cbn [put k_st]. rewrite B.
      destruct Hs as [-> | ->]; (split; [reflexivity|]; split; [reflexivity|]; cbn; rewrite A, <- !app_assoc; reflexivity).
    + right. exists s1. rewrite E. destruct Hs as [-> | ->]; auto.
Qed.
Print Assumptions C42_finish.

(* Non-vacuity: a 5-row image, max_v_samp_factor 2, iMCU rows of 4 lines, rows
   given in batches 3, 1, 4 with the first compress_data call suspended. *)
Definition ex_cfg (ctx : bool) : cfg := mkCfg 5 2 2 2 false false ctx 8 1 true 0.
Definition ex_img : list row := [[1]; [2]; [3]; [4]; [5]]%Z.
Definition ex_s0 (ctx : bool) : cobj := create (ex_cfg ctx) false [false; true; true].
Example ex_ok : forall ctx, cfg_ok (k_cfg (ex_s0 ctx)).
Proof. intros ctx. unfold cfg_ok. cbn. repeat split; lia. Qed.
Example ex_run : forall ctx,
  let s1 := st_of (ex_s0 ctx) (start_compress (ex_s0 ctx)) in
  let r2 := write_scanlines 8 [[1]; [2]; [3]]%Z s1 in
  let s2 := st_of s1 r2 in
  let r3 := write_scanlines 8 [[4]; [5]]%Z s2 in
  let s3 := st_of s2 r3 in
  let r4 := write_scanlines 8 (if ctx then [[5]] else [[4]; [5]])%Z s3 in
  let s4 := st_of s3 r4 in
  ret 9 r2 = 3 /\ ret 9 r3 = (if ctx then 1 else 0) /\ ret 9 r4 = (if ctx then 1 else 2) /\ k_next s4 = 5 /\
  finish_compress s3 = RErr JERR_TOO_LITTLE_DATA s3 /\
  k_st (st_of s4 (finish_compress s4)) = CSTATE_START.
Proof. intros [|]; vm_compute; repeat split; reflexivity. Qed.
