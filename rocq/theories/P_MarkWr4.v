(* P_MarkWr4.v -- the reader undoes the writer: SOI, APP0, APP14, SOF, the first header of an image, tables-only datastreams. *)
From Verif Require Import Base M_HuffDec M_MarkRd P_MarkRd M_MarkWr S_MarkRd S_MarkWr P_MarkWr P_MarkWr2 P_MarkWr3.

Definition strip (p : comp) : comp := mkComp (c_id p) (c_h p) (c_v p) (c_q p) 0 0.
Definition sof_b (p : comp) : list Z := emit_byte (c_id p) ++ emit_byte (Z.shiftl (c_h p) 4 + c_v p) ++ emit_byte (c_q p).
Lemma upd_app {A} (l : list A) x y r : upd (l ++ x :: r) (length l) y = l ++ y :: r.
Proof. induction l as [|a l IH]; cbn; [reflexivity|now rewrite IH]. Qed.
Lemma sof_comps_ok : forall ps pre s l0 rest, Forall (legal_wcomp true) ps -> comps s = Some (map strip pre ++ repeat blank (length ps)) ->
  sof_comps (length ps) (Z.of_nat (length pre)) s l0 (flat_map sof_b ps ++ rest) = ROk tt (set_saw_SOF (set_comps s (Some (map strip (pre ++ ps)))) true) rest.
Proof.
  induction ps as [|p ps IH]; intros pre s l0 rest HF HC; cbn [length flat_map sof_comps].
  - cbn [app length repeat] in *. rewrite app_nil_r in *. rewrite <- HC. destruct s; reflexivity.
  - inversion HF as [|x y (B1 & B2 & B3 & B4 & B5 & B6) HF']; subst. unfold byte_val in *. destruct (hi4 (c_h p) (c_v p) ltac:(lia) ltac:(lia)) as (V0 & V1 & V2).
    unfold sof_b at 1. rewrite !eb by lia. cbn [app byte]. unfold wr_comp. rewrite HC. cbn [length repeat].
    assert (LE : length (map strip pre) = length pre) by apply map_length.
    assert (AG : forall (x : comp) r, aget (map strip pre ++ x :: r) (Z.of_nat (length pre)) = Ret x).
    { intros x r. apply aget_nth; [lia|]. rewrite Nat2Z.id, nth_error_app2, LE, Nat.sub_diag by lia. reflexivity. }
    assert (AS : forall (x y : comp) r, aset (map strip pre ++ x :: r) (Z.of_nat (length pre)) y = Ret (map strip pre ++ y :: r)).
    { intros x y r. rewrite aset_ok by (rewrite app_length, LE; cbn [length]; lia). rewrite Nat2Z.id. rewrite <- LE. now rewrite upd_app. }
    rewrite AG. cbn [chk]. rewrite AS. cbn [chk comps set_comps byte]. rewrite AG. cbn [chk]. rewrite AS. cbn [chk comps set_comps byte]. rewrite AG. cbn [chk]. rewrite AS. cbn [chk c_id c_h c_v c_q c_dc c_ac blank]. rewrite V1, V2.
    replace (Z.of_nat (length pre) + 1) with (Z.of_nat (length (pre ++ [p]))) by (rewrite app_length; cbn [length]; lia).
    rewrite (IH (pre ++ [p])); [|exact HF'|cbn [comps set_comps]; rewrite map_app, <- app_assoc; reflexivity].
    rewrite <- app_assoc. cbn [app]. destruct s; reflexivity.
Qed.
Definition sof_code (code : Z) (c : wst) : Prop :=
  code = (if x_arith c then (if x_prog c then 202 else 201) else if x_prog c then 194 else if x_lossless c then 195 else 192) \/ (code = 193 /\ x_arith c = false /\ x_prog c = false /\ x_lossless c = false).
Lemma pm_sof s l code c : sof_code code c -> process_marker (at_m s code) l = cont (get_sof (x_prog c) (x_lossless c && negb (x_prog c) && negb (x_arith c)) (x_arith c) (at_m s code) l).
Proof.
  intros [->|(-> & A & B & C)]; [|rewrite A, B, C; reflexivity]. destruct (x_arith c), (x_prog c), (x_lossless c); reflexivity.
Qed.
Lemma sof_code_rng code c : sof_code code c -> 0 < code < 255.
Proof. intros [->|(-> & _)]; [|lia]. destruct (x_arith c), (x_prog c), (x_lossless c); lia. Qed.
Lemma set_comps2 s a b : set_comps (set_comps s a) b = set_comps s b. Proof. reflexivity. Qed.
Lemma sof_ok c s code : legal_params c -> sof_code code c -> saw_SOI s = true -> saw_SOF s = false -> comps s = None -> unread s = 0 -> exists o, emit_sof code c = Ret o /\
  rd s o (set_unread (set_saw_SOF (set_comps (set_ncomp (set_width (set_height (set_precision (set_arith (set_lossless (set_prog (at_m s code) (x_prog c)) (x_lossless c && negb (x_prog c) && negb (x_arith c))) (x_arith c)) (x_prec c)) (x_height c)) (x_width c)) (Z.of_nat (length (x_comps c)))) (Some (map strip (x_comps c)))) true) 0).
Proof.
  intros LP HC H1 H2 H3 H4. unfold emit_sof. destruct LP. unfold byte_val in *. destruct (Z.ltb_spec 65535 (x_height c)); [lia|]. destruct (Z.ltb_spec 65535 (x_width c)); [lia|]. cbn [orb]. eexists. split; [reflexivity|].
  apply rd_seg; [exact H1|exact H4|now apply (sof_code_rng code c)|reflexivity|]. intros rest. rewrite (pm_sof s _ code c HC). unfold get_sof. change (saw_SOF (at_m s code)) with (saw_SOF s). rewrite H2. cbn zeta.
  rewrite <- !app_assoc. rewrite byte2_e2 by lia. rewrite (eb (x_prec c)) by lia. cbn [app byte]. rewrite byte2_e2 by lia. rewrite byte2_e2 by lia. rewrite eb by lia. cbn [app byte].
  destruct (Z.leb_spec (x_height c) 0); [lia|]. destruct (Z.leb_spec (x_width c) 0); [lia|]. destruct (Z.leb_spec (Z.of_nat (length (x_comps c))) 0); [lia|]. cbn [orb].
  destruct (Z.eqb_spec (3 * Z.of_nat (length (x_comps c)) + 2 + 5 + 1 - 8) (Z.of_nat (length (x_comps c)) * 3)); [|lia]. cbn [negb].
  change (comps (set_ncomp _ _)) with (comps s). rewrite H3. rewrite Nat2Z.id. fold sof_b.
  assert (Y : forall S0 l0, comps S0 = Some (repeat blank (length (x_comps c))) -> sof_comps (length (x_comps c)) 0 S0 l0 (flat_map sof_b (x_comps c) ++ rest) = ROk tt (set_saw_SOF (set_comps S0 (Some (map strip (x_comps c)))) true) rest).
  { intros S0 l0 HS0. pose proof (sof_comps_ok (x_comps c) [] S0 l0 rest) as X. cbn [length app map] in X. change (Z.of_nat 0) with 0 in X. apply X; [|exact HS0]. 
      revert lp_c. apply Forall_impl. intros p (A1 & A2 & A3 & A4 & A5 & A6). split; [exact A1|]. split; [exact A2|]. split; [exact A3|]. split; [exact A4|]. destruct (x_arith c); lia. }
  rewrite Y by reflexivity. rewrite set_comps2. reflexivity.
Qed.
(* ---- APPn ---- *)
Lemma pm_app s l m p : 224 <= m <= 239 -> aget (proc_app s) (m - 224) = Ret p -> process_marker (at_m s m) l = cont (run_proc p (at_m s m) l).
Proof.
  intros R E. unfold process_marker. change (unread (at_m s m)) with m. fold cont. unfold in_range.
  repeat match goal with |- context [m =? ?k] => destruct (Z.eqb_spec m k); [lia|] end. cbn [orb].
  repeat match goal with |- context [?a <=? m] => destruct (Z.leb_spec a m); try lia end; repeat match goal with |- context [m <=? ?a] => destruct (Z.leb_spec m a); try lia end; cbn [andb orb].
  change (proc_app (at_m s m)) with (proc_app s). rewrite E. reflexivity.
Qed.
Lemma ex0 a b c d e f g h i s : examine_app0 [74; 70; 73; 70; 0; a; b; c; d; e; f; g; h; i] s =
  Ret (set_ydens (set_xdens (set_dunit (set_jf_min (set_jf_maj (set_saw_JFIF s true) a) b) c) (d * 256 + e)) (f * 256 + g)).
Proof. reflexivity. Qed.
Lemma ex14 a b c d e f g s : examine_app14 [65; 100; 111; 98; 101; a; b; c; d; e; f; g] s = Ret (set_transform (set_saw_Adobe s true) g).
Proof. reflexivity. Qed.
Lemma jfif_ok c s : legal_app c -> saw_SOI s = true -> unread s = 0 -> nth_error (proc_app s) 0 = Some 1 ->
  rd s (emit_jfif_app0 c) (set_unread (set_ydens (set_xdens (set_dunit (set_jf_min (set_jf_maj (set_saw_JFIF (at_m s 224) true) (x_jmaj c)) (x_jmin c)) (x_unit c)) (x_xd c)) (x_yd c)) 0).
Proof.
  intros (A1 & A2 & A3 & A4 & A5 & A6) H1 H2 H3. unfold byte_val in *. unfold emit_jfif_app0. apply rd_seg; [exact H1|exact H2|lia|reflexivity|]. intros rest.
  rewrite (pm_app s _ 224 1 ltac:(lia) (aget_nth (proc_app s) 0 1 ltac:(lia) H3)). change (run_proc 1) with get_interesting_appn. unfold get_interesting_appn. rewrite <- !app_assoc. rewrite byte2_e2 by lia.
  rewrite (e2 (x_xd c)), (e2 (x_yd c)), !eb by lia. cbn [app]. change (Z.to_nat (if 14 <=? 2 + 4 + 1 + 2 + 1 + 2 + 2 + 1 + 1 - 2 then 14 else if 0 <? 2 + 4 + 1 + 2 + 1 + 2 + 2 + 1 + 1 - 2 then 2 + 4 + 1 + 2 + 1 + 2 + 2 + 1 + 1 - 2 else 0)) with 14%nat.
  cbn [nbytes byte app]. change (unread (at_m s 224) =? 224) with true. cbn iota. 
  rewrite ex0.
  assert (E : forall v, v / 256 * 256 + v mod 256 = v) by (intros v; pose proof (Z.div_mod v 256 ltac:(lia)); lia).
  cbn [chk]. rewrite !E. reflexivity.
Qed.
Lemma adobe_ok c s : legal_app c -> saw_SOI s = true -> unread s = 0 -> nth_error (proc_app s) 14 = Some 1 ->
  rd s (emit_adobe_app14 c) (set_unread (set_transform (set_saw_Adobe (at_m s 238) true) (x_transform c)) 0).
Proof.
  intros (A1 & A2 & A3 & A4 & A5 & A6) H1 H2 H3. unfold byte_val in *. unfold emit_adobe_app14. apply rd_seg; [exact H1|exact H2|lia|reflexivity|]. intros rest.
  rewrite (pm_app s _ 238 1 ltac:(lia) (aget_nth (proc_app s) 14 1 ltac:(lia) H3)). change (run_proc 1) with get_interesting_appn. unfold get_interesting_appn. rewrite <- !app_assoc. rewrite byte2_e2 by lia.
  rewrite (e2 100), (e2 0), !eb by lia. cbn [app]. change (Z.to_nat (if 14 <=? 2 + 5 + 2 + 2 + 2 + 1 - 2 then 14 else if 0 <? 2 + 5 + 2 + 2 + 2 + 1 - 2 then 2 + 5 + 2 + 2 + 2 + 1 - 2 else 0)) with 12%nat. cbn [nbytes byte app]. change (unread (at_m s 238) =? 224) with false. change (unread (at_m s 238) =? 238) with true. cbn iota. rewrite ex14. reflexivity.
Qed.
(* ---- SOI ---- *)
Definition soi (s : rst) : rst := match get_soi (set_unread s 216) [] with ROk _ s _ => set_unread s 0 | _ => s end.
Lemma soi_ok s : saw_SOI s = false -> unread s = 0 -> rd s (emit_marker 216) (soi s).
Proof.
  intros H1 H2. split; [unfold soi, get_soi; cbn; rewrite H1; reflexivity|]. exists 1%nat. split; [rewrite em by lia; cbn; lia|]. intros rest f. rewrite em by lia. cbn [app Nat.add read_loop]. rewrite H2, H1. change (0 =? 0) with true. cbn iota.
  unfold first_marker. cbn [byte]. change (negb (255 =? 255) || negb (216 =? 216)) with false. cbn iota. 
  assert (PM : process_marker (set_unread s 216) rest = cont (get_soi (set_unread s 216) rest)) by reflexivity. rewrite PM. unfold soi, get_soi. change (saw_SOI (set_unread s 216)) with (saw_SOI s). rewrite H1. reflexivity.
Qed.
Lemma soi_facts s : saw_SOI s = false -> saw_SOI (soi s) = true /\ saw_SOF (soi s) = saw_SOF s /\ comps (soi s) = comps s /\ unread (soi s) = 0 /\ proc_app (soi s) = proc_app s /\ ri (soi s) = 0 /\ saw_JFIF (soi s) = false /\ saw_Adobe (soi s) = false /\
  qt (soi s) = qt s /\ dch (soi s) = dch s /\ ach (soi s) = ach s /\ length (aL (soi s)) = 16%nat /\ length (aU (soi s)) = 16%nat /\ length (aK (soi s)) = 16%nat.
Proof. intros H. unfold soi, get_soi. change (saw_SOI (set_unread s 216)) with (saw_SOI s). rewrite H. cbn. auto 20. Qed.
Lemma app_restored_appf c s s' : appf s' = appf s -> app_restored c s -> app_restored c s'.
Proof. unfold appf, app_restored. intros E. injection E as -> -> -> -> -> -> -> ->. auto. Qed.
Lemma file_hdr_ok c s : legal_app c -> fresh s -> exists o s1, write_file_header c = Ret (put_last_ri c 0, o) /\ rd s o s1 /\ app_restored c s1 /\ saw_SOI s1 = true /\ saw_SOF s1 = false /\ comps s1 = None /\ ri s1 = 0 /\
  qt s1 = qt s /\ dch s1 = dch s /\ ach s1 = ach s /\ length (aL s1) = 16%nat /\ length (aU s1) = 16%nat /\ length (aK s1) = 16%nat.
Proof.
  intros LA (H1 & H2 & H3 & H4 & H5 & H6). destruct (soi_facts s H1) as (A1 & A2 & A3 & A4 & A5 & A6 & A7 & A8 & A9 & A10 & A11 & A12 & A13 & A14). pose proof (soi_ok s H1 H4) as R0. set (s0 := soi s) in *. clearbody s0.
  rewrite <- A5 in H5, H6. rewrite H2 in A2. rewrite H3 in A3. clear A5.
  assert (X : exists s1, rd s0 (if x_jfif c then emit_jfif_app0 c else []) s1 /\ saw_JFIF s1 = x_jfif c /\ (x_jfif c = true -> jf_maj s1 = x_jmaj c /\ jf_min s1 = x_jmin c /\ dunit s1 = x_unit c /\ xdens s1 = x_xd c /\ ydens s1 = x_yd c) /\
    saw_Adobe s1 = false /\ saw_SOI s1 = true /\ saw_SOF s1 = false /\ comps s1 = None /\ ri s1 = 0 /\ nth_error (proc_app s1) 14 = Some 1 /\
    qt s1 = qt s /\ dch s1 = dch s /\ ach s1 = ach s /\ length (aL s1) = 16%nat /\ length (aU s1) = 16%nat /\ length (aK s1) = 16%nat).
  { destruct (x_jfif c).
    - eexists. split; [apply jfif_ok; assumption|]. split; [reflexivity|]. split; [intros _; split; [reflexivity|]; split; [reflexivity|]; split; [reflexivity|]; split; reflexivity|]. auto 20.
    - exists s0. split; [now apply rd_refl|]. split; [exact A7|]. split; [discriminate|]. auto 20. }
  destruct X as (s1 & R1 & B1 & B2 & B3 & B4 & B5 & B6 & B7 & B8 & B9 & B10 & B11 & B12 & B13 & B14). pose proof (proj1 R1) as U1.
  unfold write_file_header. destruct (x_adobe c) eqn:EA.
  - eexists _, _. split; [reflexivity|]. split; [eapply rd_trans; [exact R0|]; eapply rd_trans; [exact R1|]; apply adobe_ok; assumption|]. split; [split; [exact B1|]; split; [exact B2|]; split; [now rewrite EA|]; intros _; reflexivity|]. auto 20.
  - exists (emit_marker 216 ++ (if x_jfif c then emit_jfif_app0 c else [])), s1. split; [now rewrite app_nil_r|]. split; [eapply rd_trans; [exact R0|exact R1]|]. split; [split; [exact B1|]; split; [exact B2|]; split; [now rewrite EA|]; now rewrite EA|]. auto 20.
Qed.
Lemma frame_hdr_ok c s : legal_params c -> saw_SOI s = true -> saw_SOF s = false -> comps s = None -> unread s = 0 -> sized s -> tables_synced c s -> quant_tables c -> (x_lossless c = true -> x_fastest c = true) -> ri s = x_last_ri c ->
  exists c' o s', write_frame_header c = Ret (c', o) /\ rd s o s' /\ in_step c' s' /\ same_settings c c' /\ appf s' = appf s /\ (x_lossless c = false -> Forall (fun p => q_has_sent c' (c_q p)) (x_comps c)).
Proof.
  intros LP H1 H2 H3 HU SZ TS QT HL HRI. pose proof SZ as (_ & _ & _ & _ & Z5 & Z6 & Z7). pose proof (mk_J c s LP SZ H1 TS) as HJ. unfold write_frame_header.
  assert (T : exists pr c1 o1 s1, ('(prec, c, o1) <- emit_multi_dqt c ;; '(prec, c, o2) <- (if prec =? -1 then (if negb (x_lossless c) then dqt_all (x_comps c) 0 c else Ret (0, c, [])) else Ret (prec, c, [])) ;; Ret (prec, c, o1 ++ o2)) = Ret (pr, c1, o1) /\
     ph c s c1 s1 /\ rd s o1 s1 /\ (x_lossless c = false -> Forall (fun p => q_has_sent c1 (c_q p)) (x_comps c))).
  { destruct (x_lossless c) eqn:EL.
    - unfold emit_multi_dqt. rewrite (HL eq_refl). cbn [bind]. change (-1 =? -1) with true. cbn iota. rewrite EL. cbn [negb bind]. exists 0, c, [], s. split; [reflexivity|]. split; [now apply ph_refl|]. split; [now apply rd_refl|discriminate].
    - assert (QR : Forall (q_ready c) (x_comps c)). { apply Forall_forall. intros p Hp. pose proof (proj1 (Forall_forall _ _) (lp_c _ LP) p Hp) as (_ & _ & _ & A4 & _). split; [lia|]. now apply QT. }
      destruct (emit_multi_dqt_ok c s HJ HU QR) as (pr & c1 & o1 & s1 & E1 & P1 & R1 & [(-> & -> & ->)|(Hpr & SE)]); rewrite E1; cbn [bind].
      + change (-1 =? -1) with true. cbn iota. rewrite EL. cbn [negb bind]. destruct (dqt_all_ok (x_comps c) 0 c s HJ HU QR) as (pr & c2 & o2 & s2 & E2 & P2 & R2 & S2). rewrite E2. cbn [bind app]. exists pr, c2, o2, s2. auto.
      + destruct (Z.eqb_spec pr (-1)); [lia|]. cbn [bind]. exists pr, c1, (o1 ++ []), s1. rewrite app_nil_r. auto. }
  destruct T as (pr & c1 & o1 & s1 & ET & P1 & R1 & SE).
  destruct (emit_multi_dqt c) as [[[p0 c0] o0]| |]; cbn [bind] in ET |- *; try discriminate.
  destruct (if p0 =? -1 then _ else _) as [[[p2 c2] o2]| |]; cbn [bind] in ET |- *; try discriminate. injection ET as -> -> <-. 
  pose proof (keepC_settings _ _ _ _ (x_last_ri c) P1) as SS. assert (EC : put_last_ri c1 (x_last_ri c) = c1) by (destruct (p_c _ _ _ _ P1) as (q & d & a & ->); destruct c; reflexivity). rewrite EC in SS.
  assert (LR : x_last_ri c1 = x_last_ri c) by (rewrite <- EC; reflexivity).
  pose proof (ss_legal _ _ SS LP) as LP1. destruct (keepT_fr _ _ (p_s _ _ _ _ P1)) as (K1 & K2 & K3 & K4 & K5). injection K1 as G1 G2 G3 G4 G5 G6 G7 G8 G9 G10. injection K3 as K6 K7 K8.
  match goal with |- context [emit_sof ?X c1] => set (code := X) end.
  assert (SC : sof_code code c1).
  { subst code. unfold sof_code. destruct (x_arith c1); [left; reflexivity|]. destruct (x_prog c1); [left; reflexivity|]. destruct (x_lossless c1); [left; reflexivity|]. cbn [orb]. match goal with |- context [if ?b then 192 else 193] => destruct b end; [left; reflexivity|right; auto]. }
  clearbody code. destruct (sof_ok c1 s1 code LP1 SC ltac:(congruence) ltac:(congruence) ltac:(congruence) (proj1 R1)) as (o3 & E3 & R3). rewrite E3. cbn [bind].
  eexists c1, _, _. split; [reflexivity|]. split; [rewrite app_assoc; eapply rd_trans; [exact R1|exact R3]|].
  pose proof (p_J _ _ _ _ P1) as J1. split.
  { split; [|split; [|split; [|reflexivity]]].
    - split; [cbn; congruence|]. split; [reflexivity|]. split; [reflexivity|]. split; [reflexivity|]. split; [intros A B; cbn; rewrite A, B; cbn; now rewrite !andb_true_r|]. split; [reflexivity|]. split; [reflexivity|]. split; [reflexivity|]. split; [reflexivity|].
      split; [|cbn; congruence]. eexists. split; [reflexivity|]. generalize (x_comps c1) as xs. induction xs as [|p xs IH]; constructor; [|exact IH]. split; [reflexivity|]. split; [reflexivity|]. split; reflexivity.
    - exact (j_sync _ _ J1).
    - assert (SZ1 : sized s1) by (apply (J_sized c1); congruence). exact SZ1. }
  split; [exact SS|]. split; [exact K2|].
  exact SE.
Qed.
Lemma wfh_keeps c1 c2 o2 : write_frame_header c1 = Ret (c2, o2) -> x_dc c2 = x_dc c1 /\ x_ac c2 = x_ac c1.
Proof.
  intros E2. unfold write_frame_header in E2. destruct (emit_multi_dqt c1) as [[[p0 c0] o0]| |] eqn:EM; cbn [bind] in E2; try discriminate.
    assert (Q0 : x_dc c0 = x_dc c1 /\ x_ac c0 = x_ac c1).
    { unfold emit_multi_dqt in EM. destruct (x_fastest c1); [injection EM as _ <- _; auto|]. destruct (mdqt_check _ _) as [[pr|]| |]; cbn [bind] in EM; try discriminate; [|injection EM as _ <- _; auto].
      destruct (mdqt_size _ _ _ _); cbn [bind] in EM; try discriminate. destruct (mdqt_emit (x_comps c1) pr c1) as [[cc oo]| |] eqn:EE; cbn [bind] in EM; try discriminate. injection EM as _ <- _. clear -EE. revert EE. generalize (x_comps c1) as cs. intros cs. revert pr oo. generalize c1 as w. induction cs as [|p cs IH]; intros w [|r pr] oo EE; cbn [mdqt_emit] in EE; try (injection EE as <- _; auto; fail).
      destruct (aget (x_q w) (c_q p)) as [[t|]| |]; cbn [bind] in EE; try discriminate. destruct (q_sent t); [eapply IH; exact EE|]. destruct (emit_qvals 64 0 r (q_val t)); cbn [bind] in EE; try discriminate. destruct (aset (x_q w) (c_q p) _) as [x| |]; cbn [bind] in EE; try discriminate. destruct (mdqt_emit cs pr (put_q w x)) as [[c3 o3]| |] eqn:E3; cbn [bind] in EE; try discriminate. injection EE as <- _. exact (IH _ _ _ E3). }
    assert (DQ : forall cs p w q w' o, dqt_all cs p w = Ret (q, w', o) -> x_dc w' = x_dc w /\ x_ac w' = x_ac w).
    { clear. induction cs as [|p cs IH]; intros pr w q w' o E; cbn [dqt_all] in E; [injection E as _ <- _; auto|]. destruct (emit_dqt (c_q p) w) as [[[q1 w1] o1]| |] eqn:E1; cbn [bind] in E; try discriminate. destruct (dqt_all cs (pr + q1) w1) as [[[q2 w2] o2]| |] eqn:E2; cbn [bind] in E; try discriminate. injection E as _ <- _. destruct (IH _ _ _ _ _ E2) as [I1 I2]. rewrite I1, I2. clear -E1. unfold emit_dqt in E1. destruct (aget (x_q w) (c_q p)) as [[t|]| |]; cbn [bind] in E1; try discriminate. destruct (q_sent t); [injection E1 as _ <- _; auto|]. destruct (emit_qvals _ _ _ _); cbn [bind] in E1; try discriminate. destruct (aset _ _ _); cbn [bind] in E1; try discriminate. injection E1 as _ <- _. auto. }
    destruct (p0 =? -1); [destruct (negb (x_lossless c0)); [destruct (dqt_all (x_comps c0) 0 c0) as [[[q3 c3] o3]| |] eqn:E3; cbn [bind] in E2; try discriminate; destruct (DQ _ _ _ _ _ _ E3)|]|]; cbn [bind] in E2.
    - destruct (emit_sof _ _); cbn [bind] in E2; try discriminate. injection E2 as <- _. destruct Q0; split; congruence.
    - destruct (emit_sof _ _); cbn [bind] in E2; try discriminate. injection E2 as <- _. exact Q0.
    - destruct (emit_sof _ _); cbn [bind] in E2; try discriminate. injection E2 as <- _. exact Q0.
Qed.
(* ---- tables-only datastreams ---- *)
Definition eoird (s : rst) (o : list Z) (s' : rst) : Prop := exists n, (n <= length o)%nat /\ forall f rest, read_loop (n + f) s (o ++ rest) = ROk REACHED_EOI s' rest.
Lemma rd_eoird s o1 s1 o2 s2 : rd s o1 s1 -> eoird s1 o2 s2 -> eoird s (o1 ++ o2) s2.
Proof. intros (_ & n & L & A) (m & M & B). exists (n + m)%nat. split; [rewrite app_length; lia|]. intros f rest. rewrite <- app_assoc, <- Nat.add_assoc. rewrite A. apply B. Qed.
Lemma eoird_markers s o s' : eoird s o s' -> forall rest, read_markers s (o ++ rest) = ROk REACHED_EOI s' rest.
Proof. intros (n & L & A) rest. unfold read_markers. rewrite app_length. replace (2 + (length o + length rest))%nat with (n + (2 + length o + length rest - n))%nat by lia. apply A. Qed.
Lemma eoi_ok s : saw_SOI s = true -> unread s = 0 -> eoird s (emit_marker 217) (set_unread (set_disc s 0) 0).
Proof.
  intros H1 H2. exists 1%nat. split; [rewrite em by lia; cbn; lia|]. intros f rest. rewrite em by lia. cbn [app Nat.add read_loop]. rewrite H2, H1. reflexivity.
Qed.
Lemma wto_q_ok : forall m i c s, J c s -> unread s = 0 -> 0 <= i -> i + Z.of_nat m = 4 -> (forall j t, 0 <= j < i -> nth_error (x_q c) (Z.to_nat j) = Some (Some t) -> q_has_sent c j) ->
  exists c' o s', wto_q m i c = Ret (c', o) /\ ph c s c' s' /\ rd s o s' /\ (forall j t, 0 <= j < 4 -> nth_error (x_q c') (Z.to_nat j) = Some (Some t) -> q_has_sent c' j).
Proof.
  induction m as [|m IH]; intros i c s HJ HU Hi Hm HS; cbn [wto_q].
  - exists c, [], s. split; [reflexivity|]. split; [now apply ph_refl|]. split; [now apply rd_refl|]. intros. eapply HS; [lia|eassumption].
  - pose proof (j_q _ _ HJ) as L4. destruct (nth_error (x_q c) (Z.to_nat i)) as [q|] eqn:Eq; [|apply nth_error_None in Eq; lia]. rewrite (aget_nth _ i q Hi Eq). cbn [bind].
    assert (X : exists c1 o1 s1, match q with Some _ => '(_, c, o) <- emit_dqt i c ;; Ret (c, o) | None => Ret (c, []) end = Ret (c1, o1) /\ ph c s c1 s1 /\ rd s o1 s1 /\ (q <> None -> q_has_sent c1 i)).
    { destruct q as [t|].
      - destruct (emit_dqt_ok i c s HJ HU ltac:(lia) (ex_intro _ t Eq)) as (pr & c1 & o1 & s1 & E & P & R & S). rewrite E. cbn [bind]. exists c1, o1, s1. auto.
      - exists c, [], s. split; [reflexivity|]. split; [now apply ph_refl|]. split; [now apply rd_refl|congruence]. }
    destruct X as (c1 & o1 & s1 & E1 & P1 & R1 & S1). rewrite E1. cbn [bind].
    destruct (IH (i + 1) c1 s1 (p_J _ _ _ _ P1) (proj1 R1) ltac:(lia) ltac:(lia)) as (c2 & o2 & s2 & E2 & P2 & R2 & S2).
    { intros j t Hj Ej. destruct (p_v _ _ _ _ P1) as (V & _). pose proof (nth_map_eq _ _ _ (Z.to_nat j) V) as W. rewrite Ej in W. cbn in W. destruct (nth_error (x_q c) (Z.to_nat j)) as [[t0|]|] eqn:E0; cbn in W; try discriminate.
      destruct (Z.eq_dec j i) as [EE|NE]; [subst j; apply S1; congruence|]. apply (p_m _ _ _ _ P1); [lia|]. eapply HS; [lia|exact E0]. }
    rewrite E2. cbn [bind]. exists c2, (o1 ++ o2), s2. split; [reflexivity|]. split; [eapply ph_trans; eauto|]. split; [eapply rd_trans; eauto|exact S2].
Qed.
Lemma wto_h_ok : forall m i c s, J c s -> unread s = 0 -> 0 <= i -> i + Z.of_nat m = 4 -> (forall b j t, 0 <= j < i -> nth_error (tabs b c) (Z.to_nat j) = Some (Some t) -> h_sent_in b c j) ->
  exists c' o s', wto_h m i c = Ret (c', o) /\ ph c s c' s' /\ rd s o s' /\ (forall b j t, 0 <= j < 4 -> nth_error (tabs b c') (Z.to_nat j) = Some (Some t) -> h_sent_in b c' j).
Proof.
  assert (ONE : forall b i c s, J c s -> unread s = 0 -> 0 <= i < 4 -> exists q, aget (tabs b c) i = Ret q /\ nth_error (tabs b c) (Z.to_nat i) = Some q /\ exists c1 o1 s1, match q with Some _ => emit_dht i b c | None => Ret (c, []) end = Ret (c1, o1) /\ ph c s c1 s1 /\ rd s o1 s1 /\ (q <> None -> h_sent_in b c1 i)).
  { intros b i c s HJ HU Hi. assert (L4 : length (tabs b c) = 4%nat) by (destruct b; [exact (j_a _ _ HJ)|exact (j_d _ _ HJ)]). destruct (nth_error (tabs b c) (Z.to_nat i)) as [q|] eqn:Eq; [|apply nth_error_None in Eq; lia]. exists q. split; [apply aget_nth; [lia|exact Eq]|]. split; [reflexivity|].
    destruct q as [t|].
    - destruct (emit_dht_ok b i c s HJ HU (conj Hi (ex_intro _ t Eq))) as (c1 & o1 & s1 & E & P & R & S). exists c1, o1, s1. auto.
    - exists c, [], s. split; [reflexivity|]. split; [now apply ph_refl|]. split; [now apply rd_refl|congruence]. }
  assert (BACK : forall b c s c' s' j t, ph c s c' s' -> nth_error (tabs b c') (Z.to_nat j) = Some (Some t) -> exists t0, nth_error (tabs b c) (Z.to_nat j) = Some (Some t0)).
  { intros b c s c' s' j t P E. destruct (p_v _ _ _ _ P) as (_ & V & W). destruct b; cbn [tabs] in *; [pose proof (nth_map_eq _ _ _ (Z.to_nat j) W) as X|pose proof (nth_map_eq _ _ _ (Z.to_nat j) V) as X]; rewrite E in X; cbn in X.
    - destruct (nth_error (x_ac c) (Z.to_nat j)) as [[t0|]|]; cbn in X; try discriminate. eauto.
    - destruct (nth_error (x_dc c) (Z.to_nat j)) as [[t0|]|]; cbn in X; try discriminate. eauto. }
  induction m as [|m IH]; intros i c s HJ HU Hi Hm HS; cbn [wto_h].
  - exists c, [], s. split; [reflexivity|]. split; [now apply ph_refl|]. split; [now apply rd_refl|]. intros. eapply HS; [lia|eassumption].
  - destruct (ONE false i c s HJ HU ltac:(lia)) as (q & A1 & N1 & c1 & o1 & s1 & E1 & P1 & R1 & S1). cbn [tabs] in A1. rewrite A1. cbn [bind]. rewrite E1. cbn [bind].
    destruct (ONE true i c1 s1 (p_J _ _ _ _ P1) (proj1 R1) ltac:(lia)) as (q' & A2 & N2 & c2 & o2 & s2 & E2 & P2 & R2 & S2). cbn [tabs] in A2. rewrite A2. cbn [bind]. rewrite E2. cbn [bind].
    destruct (IH (i + 1) c2 s2 (p_J _ _ _ _ P2) (proj1 R2) ltac:(lia) ltac:(lia)) as (c3 & o3 & s3 & E3 & P3 & R3 & S3).
    { intros b j t Hj Ej. destruct (BACK _ _ _ _ _ _ _ P2 Ej) as (t1 & Ej1). destruct (BACK _ _ _ _ _ _ _ P1 Ej1) as (t0 & Ej0). destruct (Z.eq_dec j i) as [EE|NE].
      - subst j. destruct b; [apply S2; congruence|]. eapply h_sent_later; [exact P2|lia|]. apply S1. congruence.
      - eapply h_sent_later; [exact P2|lia|]. eapply h_sent_later; [exact P1|lia|]. eapply HS; [lia|exact Ej0]. }
    rewrite E3. cbn [bind]. exists c3, (o1 ++ o2 ++ o3), s3. split; [reflexivity|]. split; [eapply ph_trans; [exact P1|]; eapply ph_trans; eauto|]. split; [eapply rd_trans; [exact R1|]; eapply rd_trans; eauto|exact S3].
Qed.
Lemma wto_ok c s : legal_params c -> fresh s -> sized s -> tables_synced c s ->
  exists c' o s', write_tables_only c = Ret (c', o) /\ eoird s o s' /\ same_settings c c' /\ tables_synced c' s' /\ sized s' /\
    (forall j t, 0 <= j < 4 -> nth_error (x_q c) (Z.to_nat j) = Some (Some t) -> has_q c' s' j) /\
    (x_arith c = false -> forall j t, 0 <= j < 4 -> nth_error (x_dc c) (Z.to_nat j) = Some (Some t) -> has_dc c' s' j) /\
    (x_arith c = false -> forall j t, 0 <= j < 4 -> nth_error (x_ac c) (Z.to_nat j) = Some (Some t) -> has_ac c' s' j).
Proof.
  intros LP (H1 & H2 & H3 & H4 & H5 & H6) SZ TS. destruct (soi_facts s H1) as (A1 & A2 & A3 & A4 & A5 & A6 & A7 & A8 & A9 & A10 & A11 & A12 & A13 & A14). pose proof (soi_ok s H1 H4) as R0. set (s0 := soi s) in *. clearbody s0.
  assert (SZ0 : sized s0). { destruct SZ as (Y1 & Y2 & Y3 & Y4 & _). unfold sized. rewrite A9, A10, A11. auto 10. }
  assert (TS0 : tables_synced c s0). { unfold tables_synced, has_q, has_dc, has_ac in *. rewrite A9, A10, A11. exact TS. }
  pose proof (mk_J c s0 LP SZ0 A1 TS0) as J0. unfold write_tables_only.
  destruct (wto_q_ok 4 0 c s0 J0 A4 ltac:(lia) ltac:(lia)) as (c1 & o1 & s1 & E1 & P1 & R1 & S1); [intros; lia|]. rewrite E1. cbn [bind].
  assert (AR1 : x_arith c1 = x_arith c) by (destruct (p_c _ _ _ _ P1) as (? & ? & ? & ->); reflexivity).
  assert (X : exists c2 o2 s2, (if negb (x_arith c1) then wto_h 4 0 c1 else Ret (c1, [])) = Ret (c2, o2) /\ ph c1 s1 c2 s2 /\ rd s1 o2 s2 /\ (x_arith c1 = false -> forall b j t, 0 <= j < 4 -> nth_error (tabs b c2) (Z.to_nat j) = Some (Some t) -> h_sent_in b c2 j)).
  { destruct (x_arith c1); cbn [negb].
    - exists c1, [], s1. split; [reflexivity|]. split; [apply ph_refl; exact (p_J _ _ _ _ P1)|]. split; [apply rd_refl; apply R1|discriminate].
    - destruct (wto_h_ok 4 0 c1 s1 (p_J _ _ _ _ P1) (proj1 R1) ltac:(lia) ltac:(lia)) as (c2 & o2 & s2 & E & P & R & S); [intros; lia|]. exists c2, o2, s2. auto. }
  destruct X as (c2 & o2 & s2 & E2 & P2 & R2 & S2). rewrite E2. cbn [bind]. pose proof (ph_trans _ _ _ _ _ _ P1 P2) as P. pose proof (p_J _ _ _ _ P) as J2. destruct (keepT_fr _ _ (p_s _ _ _ _ P)) as (K1 & K2 & K3 & K4 & K5). injection K3 as K6 K7 K8.
  eexists c2, _, (set_unread (set_disc s2 0) 0). split; [reflexivity|]. split; [eapply rd_eoird; [exact R0|]; eapply rd_eoird; [exact R1|]; eapply rd_eoird; [exact R2|]; apply eoi_ok; [exact (j_soi _ _ J2)|apply R2]|].
  pose proof (keepC_settings _ _ _ _ (x_last_ri c) P) as SS. assert (EC : put_last_ri c2 (x_last_ri c) = c2) by (destruct (p_c _ _ _ _ P) as (q & d & a & ->); destruct c; reflexivity). rewrite EC in SS. split; [exact SS|].
  split; [exact (j_sync _ _ J2)|]. split. { assert (SZ2 : sized s2) by (apply (J_sized c2); congruence). exact SZ2. }
  destruct (j_sync _ _ J2) as (T1 & T2 & T3).
  split. { intros j t Hj Ej. destruct (q_at_later _ _ _ _ _ _ P1 Ej) as (t1 & Et1 & _). assert (Q : q_has_sent c2 j); [|exact (T1 j (proj1 Hj) Q)]. apply (p_m _ _ _ _ P2); [lia|]. exact (S1 j t1 Hj Et1). }
  split.
  - intros A j t Hj Ej. destruct (h_at_later false _ _ _ _ _ _ P Ej) as (t1 & Et1 & _). exact (T2 j (proj1 Hj) (S2 ltac:(congruence) false j t1 Hj Et1)).
  - intros A j t Hj Ej. destruct (h_at_later true _ _ _ _ _ _ P Ej) as (t1 & Et1 & _). exact (T3 j (proj1 Hj) (S2 ltac:(congruence) true j t1 Hj Et1)).
Qed.
