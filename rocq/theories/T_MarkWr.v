(* T_MarkWr.v -- C30: reading the marker segments the library writes restores the parameters they encode. *)
From Verif Require Import Base M_HuffDec M_MarkRd M_MarkWr S_MarkRd S_MarkWr P_MarkRd P_MarkWr P_MarkWr2 P_MarkWr3 P_MarkWr4.

(* the first header of an image: file header (SOI, APP0, APP14), frame header (DQT, SOF), scan header (DHT or DAC, DRI, SOS).
   The reader stops at the entropy-coded data with every parameter restored. *)
Theorem C30_first_scan c s : legal_params c -> legal_scan_params c -> legal_app c -> quant_tables c -> scan_tables c -> paired_tables c ->
  fresh s -> sized s -> tables_synced c s ->
  exists c1 o1 c2 o2 c3 o3 s', write_file_header c = Ret (c1, o1) /\ write_frame_header c1 = Ret (c2, o2) /\ write_scan_header c2 = Ret (c3, o3) /\
    (forall rest, read_markers s (o1 ++ o2 ++ o3 ++ rest) = ROk REACHED_SOS s' rest) /\
    same_settings c c3 /\ in_step c3 s' /\ scan_restored c3 s' /\ app_restored c s' /\ (x_lossless c = false -> forall p, In p (x_comps c) -> has_q c3 s' (c_q p)).
Proof.
  intros LP LS LA QT ST PT FR SZ TS. destruct (file_hdr_ok c s LA FR) as (o1 & s1 & E1 & R1 & AR & A1 & A2 & A3 & A4 & A5 & A6 & A7 & A8 & A9 & A10).
  set (c1 := put_last_ri c 0) in *. assert (SS1 : same_settings c c1) by (split; [exists (x_q c), (x_dc c), (x_ac c), 0; destruct c; reflexivity|]; split; [reflexivity|]; split; reflexivity).
  pose proof (ss_legal _ _ SS1 LP) as LP1.
  destruct (frame_hdr_ok c1 s1 LP1 A1 A2 A3 (proj1 R1)) as (c2 & o2 & s2 & E2 & R2 & IS2 & SS2 & AP2 & HQ2).
  { destruct SZ as (Y1 & Y2 & Y3 & Y4 & _). unfold sized. rewrite A5, A6, A7. auto 10. }
  { unfold tables_synced, has_q, has_dc, has_ac in *. rewrite A5, A6, A7. exact TS. }
  { exact QT. }
  { intros L. destruct (ls_lossless _ LS L) as (L1 & _). exact L1. }
  { exact A4. }
  pose proof (ss_trans _ _ _ SS1 SS2) as SS. pose proof (ss_legal _ _ SS LP) as LP2.
  destruct (ss_fields _ _ SS) as (X1 & X2 & X3 & X4 & X5 & X6 & X7 & X8 & X9 & X10 & X11 & X12 & X13 & X14 & X15 & X16 & X17).
  assert (LS2 : legal_scan_params c2) by (destruct LS; constructor; rewrite ?X1, ?X2, ?X3, ?X4, ?X5, ?X6, ?X7, ?X8, ?X9, ?X17; assumption).
  assert (HF : forall (l l' : list (option htab)) n h, map (option_map (fun h => (h_bits h, h_val h))) l' = map (option_map (fun h => (h_bits h, h_val h))) l -> nth_error l n = Some (Some h) -> exists h', nth_error l' n = Some (Some h')).
  { intros l l' n h E H. pose proof (nth_map_eq _ _ _ n E) as Y. rewrite H in Y. cbn in Y. destruct (nth_error l' n) as [[h'|]|]; cbn in Y; try discriminate. eauto. }
  pose proof SS as (_ & _ & V2 & V3).
  assert (ST2 : scan_tables c2).
  { intros AF k p Hk. rewrite X8 in AF. destruct (ST AF k p (proj1 (kth_ss _ _ _ _ SS) Hk)) as [T1 T2]. unfold dc_used, ac_used in *. rewrite X3, X4, X5, X9. split; intros U; [destruct (T1 U) as (h & Eh)|destruct (T2 U) as (h & Eh)]; eapply HF; eauto. }
  assert (DA : x_dc c2 = x_dc c /\ x_ac c2 = x_ac c).
  { exact (wfh_keeps _ _ _ E2). }
  assert (PT2 : paired_tables c2).
  { unfold paired_tables, dc_sent, ac_sent, kth in *. rewrite X1, X2, X3, X4, X5, X8, X17. rewrite (proj1 DA), (proj2 DA). exact PT. }
  destruct (wsh_ok c2 s2 LP2 LS2 ST2 PT2 IS2) as (c3 & o3 & s3 & E3 & R3 & IS3 & SS3 & AP3 & SR3 & MM).
  exists c1, o1, c2, o2, c3, o3, s3. split; [exact E1|]. split; [exact E2|]. split; [exact E3|]. split.
  { intros rest. rewrite !app_assoc. apply sosrd_markers. eapply rd_sosrd; [eapply rd_trans; [exact R1|exact R2]|exact R3]. }
  split; [eapply ss_trans; eauto|]. split; [exact IS3|]. split; [exact SR3|]. split; [apply (app_restored_appf c s1); [congruence|exact AR]|].
  intros L p Hp. destruct IS3 as (_ & (T1 & _) & _). pose proof (proj1 (Forall_forall _ _) (lp_c _ LP) p Hp) as (_ & _ & _ & A11 & _). apply T1; [lia|]. apply MM; [lia|].
  exact (proj1 (Forall_forall _ _) (HQ2 L) p Hp).
Qed.

(* every later scan header *)
Theorem C30_next_scan c s : legal_params c -> legal_scan_params c -> scan_tables c -> paired_tables c -> in_step c s ->
  exists c' o s', write_scan_header c = Ret (c', o) /\ (forall rest, read_markers s (o ++ rest) = ROk REACHED_SOS s' rest) /\ same_settings c c' /\ in_step c' s' /\ scan_restored c' s'.
Proof.
  intros A B C D E. destruct (wsh_ok c s A B C D E) as (c' & o & s' & E1 & R & IS & SS & AP & SR & _). exists c', o, s'. split; [exact E1|]. split; [now apply sosrd_markers|]. auto.
Qed.
(* between scans the application or the library may choose new scan parameters, a new restart interval and new or replaced tables
   (jpeg_suppress_tables, optimized Huffman tables): as long as a replaced table is marked unsent the two sides stay in step *)
Theorem C30_between_scans c c' s : in_step c s ->
  x_prog c' = x_prog c -> x_arith c' = x_arith c -> x_lossless c' = x_lossless c -> x_prec c' = x_prec c -> x_height c' = x_height c -> x_width c' = x_width c -> x_comps c' = x_comps c -> x_last_ri c' = x_last_ri c ->
  (forall n t, nth_error (x_q c') n = Some (Some t) -> q_sent t = true -> nth_error (x_q c) n = Some (Some t)) ->
  (forall n h, nth_error (x_dc c') n = Some (Some h) -> h_sent h = true -> nth_error (x_dc c) n = Some (Some h)) ->
  (forall n h, nth_error (x_ac c') n = Some (Some h) -> h_sent h = true -> nth_error (x_ac c) n = Some (Some h)) -> in_step c' s.
Proof.
  intros (F & (T1 & T2 & T3) & S & U) E1 E2 E3 E4 E5 E6 E7 E8 Q D A. split; [unfold frame_synced in *; rewrite E1, E2, E3, E4, E5, E6, E7, E8; exact F|]. split; [|auto].
  split; [|split].
  - intros n Hn (t & Et & St). destruct (T1 n Hn) as (t' & Et' & X); [exists t; auto|]. rewrite (Q _ _ Et St) in Et'. injection Et' as <-. exists t; auto.
  - intros n Hn (h & Eh & Sh). destruct (T2 n Hn) as (h' & r & Eh' & X); [exists h; auto|]. rewrite (D _ _ Eh Sh) in Eh'. injection Eh' as <-. exists h, r; auto.
  - intros n Hn (h & Eh & Sh). destruct (T3 n Hn) as (h' & r & Eh' & X); [exists h; auto|]. rewrite (A _ _ Eh Sh) in Eh'. injection Eh' as <-. exists h, r; auto.
Qed.
(* the end of the image *)
Theorem C30_trailer c s : saw_SOI s = true -> unread s = 0 -> forall rest, exists s', read_markers s (write_file_trailer c ++ rest) = ROk REACHED_EOI s' rest.
Proof. intros A B rest. eexists. apply eoird_markers. now apply eoi_ok. Qed.
(* a tables-only datastream gives the reader every table, and leaves it ready (after the reset before the next datastream) to read
   abbreviated images whose headers omit them *)
Theorem C30_tables_only c s : legal_params c -> fresh s -> sized s -> tables_synced c s ->
  exists c' o s', write_tables_only c = Ret (c', o) /\ (forall rest, read_markers s (o ++ rest) = ROk REACHED_EOI s' rest) /\ same_settings c c' /\
    tables_synced c' (reset_marker_reader s') /\ sized (reset_marker_reader s') /\
    (forall n t, 0 <= n < 4 -> nth_error (x_q c) (Z.to_nat n) = Some (Some t) -> has_q c' s' n) /\
    (x_arith c = false -> forall n h, 0 <= n < 4 -> nth_error (x_dc c) (Z.to_nat n) = Some (Some h) -> has_dc c' s' n) /\
    (x_arith c = false -> forall n h, 0 <= n < 4 -> nth_error (x_ac c) (Z.to_nat n) = Some (Some h) -> has_ac c' s' n).
Proof.
  intros A B C D. destruct (wto_ok c s A B C D) as (c' & o & s' & E & R & SS & TS & SZ & H). exists c', o, s'. split; [exact E|]. split; [now apply eoird_markers|]. split; [exact SS|]. split; [exact TS|]. split; [exact SZ|exact H].
Qed.
Print Assumptions C30_first_scan. Print Assumptions C30_next_scan. Print Assumptions C30_between_scans. Print Assumptions C30_trailer. Print Assumptions C30_tables_only.

(* ---- non-vacuity: a colour JFIF image, two quantization tables (one 16-bit), four Huffman tables, restart interval, one scan ---- *)
Definition qa : qtab := mkQ (repeat 3 64) false.  Definition qb : qtab := mkQ (300 :: repeat 7 63) false.
Definition ha : htab := mkH [0;0;2;0;0;0;0;0;0;0;0;0;0;0;0;0;0] (4 :: 9 :: repeat 0 254) false.
Definition hb : htab := mkH [0;1;1;1;0;0;0;0;0;0;0;0;0;0;0;0;0] (17 :: 255 :: 3 :: repeat 0 253) false.
Definition w0 : wst := mkW false false false false 8 480 640 [mkComp 1 2 2 0 0 0; mkComp 2 1 1 1 1 1; mkComp 3 1 1 1 1 1]
  [Some qa; Some qb; None; None] [Some ha; Some hb; None; None] [Some hb; Some ha; None; None] (repeat 0 16) (repeat 1 16) (repeat 5 16)
  20 7 [0; 1; 2] 0 63 0 0 true 1 1 1 300 300 false 0.
Ltac each := intros n x E; destruct n as [|[|[|[|n]]]]; cbn in E; try discriminate; try (destruct n; discriminate); injection E as <-.
Ltac byts := unfold bytes, byte_val; cbn [h_bits h_val]; repeat (apply Forall_cons; [lia|]); try apply Forall_nil; apply Forall_forall; intros v Hv; apply repeat_spec in Hv; lia.
Lemma ha_ok : legal_htab ha. Proof. split; [reflexivity|]. split; [reflexivity|]. split; [vm_compute; discriminate|]. split; unfold ha; byts. Qed.
Lemma hb_ok : legal_htab hb. Proof. split; [reflexivity|]. split; [reflexivity|]. split; [vm_compute; discriminate|]. split; unfold hb; byts. Qed.
Lemma qa_ok : legal_qtab qa. Proof. split; [reflexivity|]. intros k v E. apply nth_error_In in E. unfold qa in E. cbn [q_val] in E. apply repeat_spec in E. lia. Qed.
Lemma qb_ok : legal_qtab qb. Proof. split; [reflexivity|]. intros k v E. apply nth_error_In in E. unfold qb in E. cbn [q_val In] in E. destruct E as [<-|E]; [lia|]. apply repeat_spec in E. lia. Qed.
Example C30_w0_legal : legal_params w0.
Proof.
  constructor; try reflexivity.
  - each; try exact qa_ok; exact qb_ok.
  - each; try exact ha_ok; exact hb_ok.
  - each; try exact ha_ok; exact hb_ok.
  - intros k a b d A B D. apply nth_error_In, repeat_spec in A. apply nth_error_In, repeat_spec in B. apply nth_error_In, repeat_spec in D. unfold byte_val. lia.
  - cbn. lia.
  - cbn. lia.
  - repeat (constructor; [unfold legal_wcomp, byte_val; cbn; lia|]). constructor.
  - cbn. repeat constructor; cbn; intuition lia.
  - unfold byte_val. cbn. lia.
  - cbn. lia.
  - cbn. lia.
Qed.
Example C30_w0_scan : legal_scan_params w0 /\ legal_app w0 /\ quant_tables w0 /\ scan_tables w0 /\ paired_tables w0 /\ fresh init_rst /\ sized init_rst /\ tables_synced w0 init_rst.
Proof.
  assert (K : forall k p, kth w0 k p -> (k = 0%nat /\ p = mkComp 1 2 2 0 0 0) \/ (k = 1%nat /\ p = mkComp 2 1 1 1 1 1) \/ (k = 2%nat /\ p = mkComp 3 1 1 1 1 1)).
  { intros k p (a & E & F). destruct k as [|[|[|k]]]; cbn in E; try (destruct k; discriminate); injection E as <-; cbn in F; injection F as <-; auto. }
  split; [|split; [|split; [|split; [|split; [|split; [|split]]]]]].
  - constructor; cbn; try lia; try (unfold byte_val; lia).
    + intros i j a b Hij Ei Ej. destruct i as [|[|[|i]]]; destruct j as [|[|[|j]]]; cbn in *; try lia; try (destruct i; discriminate); try (destruct j; discriminate); injection Ei as <-; injection Ej as <-; lia.
    + repeat (constructor; [lia|]). constructor.
  - unfold legal_app, byte_val. cbn. lia.
  - intros _ p. cbn. intros [<-|[<-|[<-|[]]]]; eexists; reflexivity.
  - intros _ k p Hk. destruct (K k p Hk) as [(-> & ->)|[(-> & ->)|(-> & ->)]]; (split; intros _; eexists; reflexivity).
  - intros _ _ _ _ _ k p Hk. destruct (K k p Hk) as [(-> & ->)|[(-> & ->)|(-> & ->)]]; intros [(h & E & S)|(j & q & L & Q & D)].
    + cbn in E. injection E as <-. discriminate S.
    + lia.
    + cbn in E. injection E as <-. discriminate S.
    + destruct (K j q Q) as [(-> & ->)|[(-> & ->)|(-> & ->)]]; cbn in D; try discriminate; lia.
    + cbn in E. injection E as <-. discriminate S.
    + right. exists j, q. split; [exact L|]. split; [exact Q|]. destruct (K j q Q) as [(-> & ->)|[(-> & ->)|(-> & ->)]]; cbn in *; lia.
  - unfold fresh. cbn. auto 10.
  - unfold sized. cbn. split; [reflexivity|]. split; [|auto 10]. intros n t E. destruct n as [|[|[|[|n]]]]; try discriminate; destruct n; discriminate.
  - split; [|split]; intros n Hn (t & E & S); exfalso; generalize dependent (Z.to_nat n); intros m E; destruct m as [|[|[|[|m]]]]; cbn in E; try discriminate; try (destruct m; discriminate); injection E as <-; discriminate S.
Qed.
Example C30_w0_run : match ('(c1, o1) <- write_file_header w0 ;; '(c2, o2) <- write_frame_header c1 ;; '(c3, o3) <- write_scan_header c2 ;; Ret (o1 ++ o2 ++ o3)) with
  | Ret o => match read_markers init_rst (o ++ [1; 2]) with ROk REACHED_SOS s l => l = [1; 2] /\ height s = 480 /\ ri s = 20 /\ cur s = [Some 0; Some 1; Some 2; None] /\ xdens s = 300 /\ nth_error (qt s) 1 = Some (Some (300 :: repeat 7 63)) | _ => False end
  | _ => False end.
Proof. vm_compute. auto 10. Qed.

(* ---- where the restriction in paired_tables comes from (jcmarker.c:318-362): the library's own writer produces a header that
   does not define a table the scan uses (the values and the length of its DHT entry are missing) when a component shares its DC table with an earlier component but not its AC table (legal in T.81, and settable
   through dc_tbl_no / ac_tbl_no) ---- *)
Definition hdr (c : wst) : outcome (list Z) := '(c1, o1) <- write_file_header c ;; '(c2, o2) <- write_frame_header c1 ;; '(c3, o3) <- write_scan_header c2 ;; Ret (o1 ++ o2 ++ o3).
Definition with_comps (c : wst) (cs : list comp) (ac : list (option htab)) : wst :=
  mkW (x_fastest c) (x_lossless c) (x_arith c) (x_prog c) (x_prec c) (x_height c) (x_width c) cs (x_q c) (x_dc c) ac (x_L c) (x_U c) (x_K c)
      (x_ri c) (x_last_ri c) (x_scan c) (x_Ss c) (x_Se c) (x_Ah c) (x_Al c) (x_jfif c) (x_jmaj c) (x_jmin c) (x_unit c) (x_xd c) (x_yd c) (x_adobe c) (x_transform c).
Definition w_shared : wst := with_comps w0 [mkComp 1 2 2 0 0 0; mkComp 2 1 1 1 0 1; mkComp 3 1 1 1 0 1] (x_ac w0).
Example C30_unpaired_refuted : legal_params w_shared /\ match hdr w_shared with Ret o => match read_markers init_rst o with ROk REACHED_SOS s _ => option_map (map c_ac) (comps s) = Some [0; 1; 1] /\ nth_error (ach s) 1 = Some None | _ => False end | _ => False end.
Proof. split; [pose proof C30_w0_legal as L; destruct L; constructor; try assumption; do 3 (apply Forall_cons; [unfold legal_wcomp, byte_val; cbn; lia|]); apply Forall_nil|vm_compute; auto]. Qed.
(* and dereferences a null table pointer when that AC table does not exist, instead of reporting JERR_NO_HUFF_TABLE *)
Definition w_null : wst := with_comps w0 [mkComp 1 2 2 0 0 0; mkComp 2 1 1 1 0 3; mkComp 3 1 1 1 0 3] (x_ac w0).
Example C30_null_table_refuted : hdr w_null = Undef. Proof. vm_compute. reflexivity. Qed.
(* a scan whose components are not in increasing frame order, and a scan of the fifth component, are written but not read *)
Definition with_scan (c : wst) (cs : list comp) (ix : list Z) : wst :=
  mkW (x_fastest c) (x_lossless c) (x_arith c) (x_prog c) (x_prec c) (x_height c) (x_width c) cs (x_q c) (x_dc c) (x_ac c) (x_L c) (x_U c) (x_K c)
      (x_ri c) (x_last_ri c) ix (x_Ss c) (x_Se c) (x_Ah c) (x_Al c) (x_jfif c) (x_jmaj c) (x_jmin c) (x_unit c) (x_xd c) (x_yd c) (x_adobe c) (x_transform c).
Example C30_scan_order_refuted : match hdr (with_scan w0 (x_comps w0) [1; 0]) with Ret o => match read_markers init_rst o with RErr JERR_BAD_COMPONENT_ID _ => True | _ => False end | _ => False end.
Proof. vm_compute. exact I. Qed.
Example C30_fifth_component_refuted : match hdr (with_scan w0 (map (fun i => mkComp i 1 1 0 0 0) [1; 2; 3; 4; 5]) [4]) with Ret o => match read_markers init_rst o with RErr JERR_BAD_COMPONENT_ID _ => True | _ => False end | _ => False end.
Proof. vm_compute. exact I. Qed.
(* lossless: outside the FASTEST profile the DC tables are not written at all (need_dc is Ss = 0, but Ss is the predictor), and the
   table selector is written as 0 *)
Definition w_ll (fast : bool) (dc : Z) : wst := mkW fast true false false 8 16 16 [mkComp 1 1 1 0 dc 0] [None; None; None; None] [Some ha; Some hb; None; None] [None; None; None; None] (repeat 0 16) (repeat 1 16) (repeat 5 16)
  0 0 [0] 1 0 0 0 false 1 1 0 1 1 false 0.
Example C30_lossless_refuted : match hdr (w_ll false 0) with Ret o => match read_markers init_rst o with ROk REACHED_SOS s _ => nth_error (dch s) 0 = Some None | _ => False end | _ => False end.
Proof. vm_compute. reflexivity. Qed.
Example C30_lossless_selector_refuted : match hdr (w_ll true 1) with Ret o => match read_markers init_rst o with ROk REACHED_SOS s _ => option_map (map c_dc) (comps s) = Some [0] /\ nth_error (dch s) 0 = Some None | _ => False end | _ => False end.
Proof. vm_compute. auto. Qed.
Example C30_lossless_run : match hdr (w_ll true 0) with Ret o => match read_markers init_rst o with ROk REACHED_SOS s _ => nth_error (dch s) 0 = Some (Some (h_bits ha, h_val ha)) /\ lossless s = true | _ => False end | _ => False end.
Proof. vm_compute. auto. Qed.
