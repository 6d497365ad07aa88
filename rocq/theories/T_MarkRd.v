(* T_MarkRd.v -- C31: header parsing is safe for every byte string and every use. *)
From Verif Require Import Base M_HuffDec M_MarkRd P_MarkRd S_MarkRd.

Lemma bytes_isb l : bytes l -> Forall isb l.
Proof. apply Forall_impl. unfold byte_val, isb. lia. Qed.
Lemma each_forall {A} (P : A -> Prop) (Q : option A -> Prop) l : (forall x, Q (Some x) -> P x) -> Forall Q l -> Each P l.
Proof. intros H F n x E. apply H. eapply Forall_forall; [exact F|]. eapply nth_error_In; exact E. Qed.
Lemma forall_nth {A} (P : A -> Prop) l n x : Forall P l -> nth_error l n = Some x -> P x.
Proof. intros F E. eapply Forall_forall; [exact F|]. eapply nth_error_In; exact E. Qed.
Lemma forall2_nth {A} (P : A -> A -> Prop) l m : Forall2 P l m -> forall n x y, nth_error l n = Some x -> nth_error m n = Some y -> P x y.
Proof. induction 1; intros [|n] a b E1 E2; cbn in *; try discriminate; [injection E1 as <-; injection E2 as <-; assumption|eauto]. Qed.
Lemma hok_legal h : hok (Some h) -> legal_huff h.
Proof.
  destruct h as [b v]. cbn [hok]. intros (A & B & C & D & E). split; [exact A|]. split; [exact B|]. split; [exact E|].
  split; intros k x Ex; [apply (forall_nth _ _ _ _ C) in Ex|apply (forall_nth _ _ _ _ D) in Ex]; unfold isb, byte_val in *; lia.
Qed.
Lemma qok_legal t : qok (Some t) -> legal_quant t.
Proof. intros (A & B). split; [exact A|]. intros k v E. apply (forall_nth _ _ _ _ B) in E. unfold isq in E. lia. Qed.
Lemma wf_tables s : wf s -> dac_ok s -> legal_tables s.
Proof.
  intros W D. destruct W. unfold legal_tables. split; [assumption|]. split; [eapply each_forall; [apply qok_legal|assumption]|]. split; [assumption|].
  split; [eapply each_forall; [apply hok_legal|assumption]|]. split; [assumption|]. split; [eapply each_forall; [apply hok_legal|assumption]|].
  split; [assumption|]. split; [assumption|]. split; [assumption|]. split; [|lia].
  intros k a b c Ea Eb Ec. pose proof (forall_nth _ _ _ _ w_L2 Ea) as X1. pose proof (forall_nth _ _ _ _ w_U2 Eb) as X2. pose proof (forall_nth _ _ _ _ w_K2 Ec) as X3.
  unfold isn, isb, byte_val in *. split; [lia|]. split; [lia|]. split; [lia|]. intros SO. exact (forall2_nth _ _ _ (D SO) _ _ _ Ea Eb).
Qed.
Lemma wf_frame s : wf s -> saw_SOF s = true -> legal_frame s.
Proof.
  intros W S. destruct (w_frame _ W S) as (cs & E & L & N & H & WI). split; [exact H|]. split; [exact WI|]. split; [exact N|]. exists cs. split; [exact E|]. split; [exact L|].
  pose proof (w_cs _ W) as C. rewrite E in C. revert C. apply Forall_impl. intros c (C1 & C2 & C3 & C4 & C5 & C6). unfold legal_comp, byte_val, isb, isn in *. lia.
Qed.
Lemma scan_legal s : wf s -> scan_ok s -> legal_scan s.
Proof.
  intros W (N & (C1 & _ & C3) & A & B & C & D & _). unfold legal_scan. split; [exact N|]. split; [apply (w_cur _ W)|].
  split. { intros i Hi. destruct (C1 (Z.of_nat i)) as (c & E & R); [lia|]. rewrite Nat2Z.id in E. exists c. split; [exact E|lia]. }
  split. { intros i j ci Hi Hj Ei Ej. specialize (C3 (Z.of_nat i) (Z.of_nat j) ci). rewrite !Nat2Z.id in C3. specialize (C3 ltac:(lia) ltac:(lia) Ei Ej). lia. }
  unfold byte_val, isb, isn in *. lia.
Qed.
Lemma reset_G s : wf s -> G (set_saved (set_skip (reset_marker_reader s) 0) []).
Proof.
  intros W. constructor; [|intros X; cbn in X; discriminate|intros _; reflexivity].
  destruct W. constructor; cbn; try assumption; try exact I; try lia; try (intros; discriminate).
Qed.
Lemma WS_wf s l : WS s l -> wf s /\ dac_ok s.
Proof. intros [[H|H] _]; [split; apply H|destruct H as (A & B & _); auto]. Qed.
Lemma WS_ext s l s' l' : WS s l -> wf s' -> dac_ok s' -> saw_SOF s' = saw_SOF s -> unread s' = unread s -> comps s' = comps s -> (exists m, l' = l ++ m) -> Forall isb l' -> WS s' l'.
Proof.
  intros [H _] W D E1 E2 E3 (m & EM) F. split; [|exact F]. destruct H as [H|(A & B & C & D' & cs & Ec & Nc)].
  - left. constructor; auto. intros X. rewrite E3. apply (g_ns _ H). congruence.
  - right. split; [exact W|]. split; [exact D|]. split; [congruence|]. split; [now rewrite E2|]. exists cs. split; [congruence|]. rewrite EM, nth_error_app1; [exact Nc|]. apply nth_error_Some. congruence.
Qed.
Lemma used_WS s l : used s l -> WS s l.
Proof.
  induction 1.
  - split; [left|now apply bytes_isb]. constructor; [|intros X; discriminate|intros _; reflexivity].
    constructor; cbn; try reflexivity; try exact I; try lia; try (repeat (constructor; [exact I|]); constructor); try (repeat (constructor; [unfold isn, isb; lia|]); constructor); try (intros; discriminate).
  - destruct (WS_wf _ _ IHused) as [W D]. unfold jpeg_save_markers in H1. cbn zeta in H1.
    destruct (if negb _ then _ else _) as [p q] eqn:EQ. assert (QP : 0 <= q).
    { revert EQ. destruct (1000000000 - 32 <? lim) eqn:?; (destruct (negb _); [|intros X; injection X as <- <-; lia]);
      (destruct (_ && _); [intros X; injection X as <- <-; lia|]); (destruct (_ && _); intros X; injection X as <- <-; lia). }
    destruct (c =? 254). { injection H1 as <-. eapply WS_ext; try exact IHused; try reflexivity; [destruct W; constructor; cbn; try assumption|exact D|exists []; now rewrite app_nil_r|apply IHused]. }
    destruct (in_range 224 239 c) eqn:IR; [|discriminate]. unfold in_range in IR. apply andb_true_iff in IR. destruct IR as [I1 I2]. apply Z.leb_le in I1, I2. pose proof (w_pa _ W) as PA. pose proof (w_la _ W) as LA.
    rewrite aset_ok in H1 by lia. cbn [bind] in H1. rewrite aset_ok in H1 by lia. cbn [bind] in H1. injection H1 as <-.
    eapply WS_ext; try exact IHused; try reflexivity; [|exact D|exists []; now rewrite app_nil_r|apply IHused].
    destruct W; constructor; cbn; try assumption; try (rewrite length_upd; assumption). apply Forall_upd; [assumption|lia].
  - destruct (WS_wf _ _ IHused) as [W D]. pose proof (bytes_isb _ H0) as FB. pose proof (proj2 IHused) as FL. pose proof (w_sk _ W) as SK. unfold feed. destruct (Z.leb_spec (skip s) (Z.of_nat (length f))); cbn [fst snd].
    + eapply WS_ext; try exact IHused; try reflexivity; [destruct W; constructor; cbn; try assumption; lia|exact D|eexists; reflexivity|]. apply Forall_app. split; [exact FL|]. rewrite <- (firstn_skipn (Z.to_nat (skip s)) f) in FB. apply Forall_app in FB. apply FB.
    + eapply WS_ext; try exact IHused; try reflexivity; [destruct W; constructor; cbn; try assumption; lia|exact D|exists []; now rewrite app_nil_r|exact FL].
  - pose proof (read_markers_sat s l IHused) as R. rewrite H0 in R. exact R.
  - pose proof (read_markers_sat s l IHused) as R. rewrite H0 in R. destruct R as (R1 & _). split; [left|now apply bytes_isb].
    destruct R1 as [W D N]. constructor; [destruct W; constructor; cbn; assumption|exact D|exact N].
  - pose proof (read_markers_sat s l IHused) as R. rewrite H0 in R. split; [left; now apply reset_G|now apply bytes_isb].
  - split; [left; apply reset_G, (WS_wf _ _ IHused)|now apply bytes_isb].
Qed.

(* C31, safety: whatever has happened to the object so far and whatever bytes are available, parsing comes back with suspension, an
   error, end of image, or the start of a scan -- never undefined behaviour (which in the model includes running for ever, indexing
   outside any table, and using the missing component array). *)
Theorem C31_safe s l : used s l -> read_markers s l <> RUb.
Proof. intros H E. pose proof (read_markers_sat s l (used_WS s l H)) as R. rewrite E in R. exact R. Qed.
(* C31, limits: at every moment the tables are within their limits; *)
Theorem C31_tables s l : used s l -> legal_tables s /\ (saw_SOF s = true -> legal_frame s).
Proof. intros H. destruct (WS_wf _ _ (used_WS s l H)) as [W D]. split; [now apply wf_tables|now apply wf_frame]. Qed.
(* and when parsing reaches a scan, the frame and the scan have been described completely and legally.  Parsing only consumes. *)
Theorem C31_success s l r s' l' : used s l -> read_markers s l = ROk r s' l' ->
  legal_tables s' /\ unread s' = 0 /\ (length l' <= length l)%nat /\ bytes l' /\ (r = REACHED_SOS -> legal_frame s' /\ legal_scan s').
Proof.
  intros H E. pose proof (read_markers_sat s l (used_WS s l H)) as R. rewrite E in R. destruct R as ([W D N] & F & L & U & S).
  split; [now apply wf_tables|]. split; [exact U|]. split; [exact L|]. split; [revert F; apply Forall_impl; unfold isb, byte_val; lia|].
  intros X. specialize (S X). split; [apply wf_frame; [exact W|apply S]|now apply scan_legal].
Qed.
(* even after an error the tables can be kept for the next image *)
Theorem C31_error s l e s' : used s l -> read_markers s l = RErr e s' -> legal_tables (reset_marker_reader s').
Proof.
  intros H E. pose proof (read_markers_sat s l (used_WS s l H)) as R. rewrite E in R. apply wf_tables; [|intros X; discriminate].
  destruct R. constructor; cbn; try assumption; try exact I. intros; discriminate.
Qed.

(* non-vacuity: a whole header, fed in two pieces, the first ending inside the SOF component list *)
Definition hdr1 : list Z := [255;216; 255;219;0;67;0] ++ repeat 7 64 ++ [255;192; 0;17; 8; 0;16; 0;8; 3; 1;34;0; 2].
Definition hdr2 : list Z := [17;1; 3;17;1; 255;196;0;20;0; 1;0;0;0;0;0;0;0;0;0;0;0;0;0;0;0; 5;
  255;221;0;4;0;9; 255;218;0;8;1; 2;0; 0;63;0; 1;2;3].
Example C31_run : match read_markers init_rst hdr1 with
  | RSusp s l => used s l /\ match read_markers (fst (feed s l hdr2)) (snd (feed s l hdr2)) with
     | ROk REACHED_SOS s l => l = [1;2;3] /\ height s = 16 /\ width s = 8 /\ ri s = 9 /\ cur s = [Some 1; None; None; None] /\ nth_error (qt s) 0 = Some (Some (repeat 7 64)) /\
          option_map (map c_id) (comps s) = Some [1; 2; 3]
     | _ => False end
  | _ => False end.
Proof.
  destruct (read_markers init_rst hdr1) as [| s l| |] eqn:E; try (vm_compute in E; discriminate E).
  split; [apply (u_susp init_rst hdr1); [apply u_init; unfold hdr1, bytes, byte_val; repeat (constructor; [lia|]); constructor|exact E]|]. vm_compute in E. injection E as <- <-. vm_compute. auto 10.
Qed.
Example C31_bad_table : match read_markers init_rst ([255;216; 255;196;0;22;0] ++ [1;0;0;0;0;0;0;0;0;0;0;0;0;0;0;255]) with RErr JERR_BAD_HUFF_TABLE _ => True | _ => False end.
Proof. vm_compute. exact I. Qed.
Example C31_bad_index : match read_markers init_rst [255;216; 255;219;0;67;4] with RErr JERR_DQT_INDEX _ => True | _ => False end.
Proof. vm_compute. exact I. Qed.
Print Assumptions C31_safe. Print Assumptions C31_tables. Print Assumptions C31_success. Print Assumptions C31_error.
