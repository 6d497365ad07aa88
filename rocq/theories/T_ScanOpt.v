(* T_ScanOpt.v -- C16: scan optimization assembles a valid complete file; C17: it picks the cheapest
   of the candidates it measured *)
From Verif Require Import Base S_Script M_Script P_Script T_Script M_ScanOpt P_ScanOpt.

(* ---- the parameters that do not matter after the trellis passes ---- *)
Lemma assemble_mode sr dcmode m : assemble sr dcmode m = assemble sr (mode_of dcmode) m.
Proof.
  unfold assemble, mode_of. destruct (Z.eqb_spec dcmode 0) as [->|]; [reflexivity|].
  destruct (Z.eqb_spec dcmode 1) as [->|]; [reflexivity|]. reflexivity.
Qed.
Lemma finish_type sr dcmode tr sz m m' : run sz (finish_pass_master sr dcmode tr m) = Ret m' ->
  m_type m <> PMain -> m_type m' <> PMain.
Proof.
  unfold finish_pass_master. destruct (m_type m); intros H Hm; try congruence; cbn [run ret] in H.
  - injection H as <-. cbn. destruct (m_pass m <? -1); discriminate.
  - injection H as <-. discriminate.
  - rewrite run_tbind in H. destruct (run sz (select_scans _ _ _ _)); try discriminate.
    cbn in H. injection H as <-. discriminate.
Qed.
Lemma prepare_type sr m m' : prepare_for_pass sr m = Ret m' -> m_type m <> PMain -> m_type m' <> PMain.
Proof.
  assert (B : forall x y, set_buf x = Ret y -> m_type y = m_type x).
  { intros x y. unfold set_buf. destruct (get (m_cur x)); cbn; try discriminate.
    destruct (aset _ _ _); cbn; try discriminate. intros [= <-]. reflexivity. }
  assert (P : forall x y, select_scan_parameters sr x = Ret y -> m_type y = m_type x).
  { intros x y. unfold select_scan_parameters. destruct (m_pass x <? 0); [intros [= <-]; reflexivity|].
    destruct (aget _ _); cbn [bind]; try discriminate.
    match goal with |- context [bind ?o _] => destruct o end; cbn [bind]; try discriminate.
    destruct (64 <=? m_scan x); try discriminate. intros [= <-]. reflexivity. }
  unfold prepare_for_pass. intros H Hm. apply bind_Ret_inv in H as (m1 & H & E). injection E as <-.
  cbn [set_last m_type]. destruct (m_type m) eqn:Et; try congruence.
  - apply bind_Ret_inv in H as (m2 & H2 & H3). pose proof (P _ _ H2) as E2. rewrite Et in E2.
    destruct (m_cur m2) as [c|].
    + destruct ((0 <=? m_pass m) && (Ss c =? 0) && negb (Ah c =? 0)).
      * apply B in H3. rewrite H3. discriminate.
      * injection H3 as <-. congruence.
    + injection H3 as <-. congruence.
  - apply B in H. congruence.
Qed.
Lemma passes_norm sr dcmode tr sz : forall fuel m, m_type m <> PMain ->
  run sz (passes sr dcmode tr fuel m) = run sz (passes sr (mode_of dcmode) false fuel m).
Proof.
  assert (F : forall m, m_type m <> PMain ->
    run sz (finish_pass_master sr dcmode tr m) = run sz (finish_pass_master sr (mode_of dcmode) false m)).
  { intros m Hm. unfold finish_pass_master. destruct (m_type m); try congruence; try reflexivity.
    rewrite !run_tbind. unfold select_scans. rewrite !run_tbind.
    destruct (run sz (decide sr (m_scan m + 1) m)) as [a|e|]; auto.
    destruct (m_scan a =? num_scans sr - 1); [|reflexivity]. cbn [run]. now rewrite assemble_mode. }
  induction fuel as [|f IH]; intros m Hm; cbn [passes]; auto.
  destruct (prepare_for_pass sr m) as [m1|e|] eqn:E1; auto.
  assert (Hm1 : m_type m1 <> PMain) by (eapply prepare_type; eauto).
  rewrite !run_tbind. rewrite F by exact Hm1.
  destruct (run sz (finish_pass_master sr (mode_of dcmode) false m1)) as [m2|e|] eqn:E2; auto.
  destruct (m_last m2); auto. apply IH. eapply finish_type; eauto.
Qed.

(* the trellis passes before the first optimization pass *)
Definition at_pass (t : ptype) (p : Z) : mst :=
  mkM t p 0 false None (repeat None 64) [] None (Some 0) None None None [] [].
Lemma two_passes sr dcmode tr sz fuel t p : 0 < num_scans sr -> p <= -2 ->
  (t = PHuffOpt \/ (t = PMain /\ tr = true)) ->
  run sz (passes sr dcmode tr (S (S fuel)) (at_pass t p)) = run sz (passes sr dcmode tr fuel (at_pass PHuffOpt (p + 2))).
Proof.
  intros Hn Hp Ht.
  assert (T : forall q, q < 0 -> (q =? total_passes sr - 1) = false).
  { intros q Hq. unfold total_passes. apply Z.eqb_neq. lia. }
  assert (S0 : forall t q, q < 0 -> select_scan_parameters sr (at_pass t q) = Ret (at_pass t q)).
  { intros t0 q Hq. unfold select_scan_parameters. cbn [at_pass m_pass]. destruct (Z.ltb_spec q 0); [reflexivity|lia]. }
  assert (P1 : prepare_for_pass sr (at_pass t p) = Ret (at_pass t p)).
  { unfold prepare_for_pass. destruct Ht as [->|[-> _]]; cbn [at_pass m_type]; fold (at_pass PHuffOpt p);
      fold (at_pass PMain p); rewrite S0 by lia; cbn [bind at_pass m_cur m_pass]; rewrite T by lia; reflexivity. }
  assert (F1 : finish_pass_master sr dcmode tr (at_pass t p) = ret (at_pass PTrellis (p + 1))).
  { unfold finish_pass_master. destruct Ht as [->|[-> ->]]; cbn [at_pass m_type m_pass]; [|reflexivity].
    destruct (Z.ltb_spec p (-1)); [reflexivity|lia]. }
  assert (P2 : prepare_for_pass sr (at_pass PTrellis (p + 1)) = Ret (at_pass PTrellis (p + 1))).
  { unfold prepare_for_pass. cbn [at_pass m_type bind m_pass]. rewrite T by lia. reflexivity. }
  cbn [passes]. rewrite P1, run_tbind, F1. unfold ret. cbn [run at_pass m_last].
  fold (at_pass PTrellis (p + 1)). rewrite P2, run_tbind. cbn [finish_pass_master at_pass m_type run ret].
  cbn [set_pass at_pass m_last m_pass m_scan m_cur m_buf m_cost m_Al_luma m_Al_chroma m_split_luma m_split_chroma m_ildc m_out m_copied].
  replace (p + 1 + 1) with (p + 2) by lia. reflexivity.
Qed.
Lemma trellis_prefix sr dcmode tr sz fuel : 0 < num_scans sr -> forall k t,
  (t = PHuffOpt \/ (t = PMain /\ tr = true)) -> (1 <= k)%nat ->
  run sz (passes sr dcmode tr (2 * k + fuel) (at_pass t (- 2 * Z.of_nat k))) =
  run sz (passes sr dcmode tr fuel (at_pass PHuffOpt 0)).
Proof.
  intros Hn. induction k as [|k IH]; intros t Ht Hk; [lia|].
  replace (2 * S k + fuel)%nat with (S (S (2 * k + fuel))) by lia.
  rewrite two_passes; auto; [|lia].
  replace (-2 * Z.of_nat (S k) + 2) with (- 2 * Z.of_nat k) by lia.
  destruct k as [|k]; [reflexivity|]. apply IH; [auto|lia].
Qed.

(* the configuration of a run: nc components (1, or 3 in YCbCr), DC mode, trellis settings *)
Definition optimize (nc : nat) (dcmode : Z) (trellis transcode use_scans : bool) (loops : Z) (sz : Z -> Z)
  : outcome (option mst) :=
  match search_progression nc true dcmode with
  | None => Ret None
  | Some sr =>
    let base := scan_opt_base trellis (Z.of_nat nc) loops use_scans in
    run sz (passes sr dcmode trellis (Z.to_nat base + 128) (init transcode base))
  end.

Lemma search_mode nc dcmode : search_progression nc true dcmode = search_progression nc true (mode_of dcmode).
Proof. unfold search_progression, search_luma, mode_of.
  destruct (Z.eqb_spec dcmode 0) as [->|]; [reflexivity|].
  destruct (Z.eqb_spec dcmode 1) as [->|]; reflexivity. Qed.
Lemma mode_of_cases d : In (mode_of d) [0; 1; 2] /\ mode_of (mode_of d) = mode_of d.
Proof. unfold mode_of. destruct (d =? 0); [cbn; auto|]. destruct (d =? 1); cbn; auto. Qed.

Lemma optimize_leaf nc dcmode trellis transcode use_scans loops sz :
  (nc = 1%nat \/ nc = 3%nat) -> (trellis = true -> 1 <= loops) ->
  exists p m, optimize nc dcmode trellis transcode use_scans loops sz = Ret (Some m) /\
    Forall (holds sz) p /\ valid_file nc m = true /\ best_file nc (mode_of dcmode) p m = true.
Proof.
  intros Hnc Hl. unfold optimize.
  assert (Esr : search_progression nc true dcmode = Some (the_search nc (mode_of dcmode))).
  { rewrite search_mode. unfold the_search. destruct Hnc as [->| ->]; reflexivity. }
  rewrite Esr. cbn zeta. set (sr := the_search nc (mode_of dcmode)).
  assert (Hn : 0 < num_scans sr).
  { unfold sr. destruct (mode_of_cases dcmode) as [[<-|[<-|[<-|[]]]] _]; destruct Hnc as [->| ->]; vm_compute; reflexivity. }
  set (base := scan_opt_base _ _ _ _).
  assert (R : run sz (passes sr dcmode trellis (Z.to_nat base + 128) (init transcode base)) =
              run sz (passes sr (mode_of dcmode) false 128 (start PHuffOpt))).
  { destruct trellis.
    - assert (exists k, (1 <= k)%nat /\ base = 2 * Z.of_nat k) as (k & Hk & ->).
      { exists (Z.to_nat ((if use_scans then 2 else 1) * Z.of_nat nc * loops)).
        specialize (Hl eq_refl). unfold base, scan_opt_base.
        assert (0 < Z.of_nat nc * loops) by (apply Z.mul_pos_pos; lia).
        destruct use_scans; split; try nia. }
      replace (Z.to_nat (2 * Z.of_nat k) + 128)%nat with (2 * k + 128)%nat by lia.
      change (init transcode (2 * Z.of_nat k)) with (at_pass (if transcode then PHuffOpt else PMain) (- (2 * Z.of_nat k))).
      replace (- (2 * Z.of_nat k)) with (-2 * Z.of_nat k) by lia.
      rewrite trellis_prefix; [|exact Hn|destruct transcode; auto|exact Hk].
      apply passes_norm. discriminate.
    - unfold base, scan_opt_base. cbn [Z.to_nat Nat.add Z.opp].
      destruct transcode.
      + apply passes_norm. discriminate.
      + (* the main pass leads to the same state as an optimization pass for scan 0 *)
        transitivity (run sz (passes sr dcmode false 128 (start PHuffOpt))); [|apply passes_norm; discriminate].
        change (init false 0) with (start PMain).
        change 128%nat with (S 127). cbn [passes].
        assert (E : exists m1, prepare_for_pass sr (start PHuffOpt) = Ret m1 /\ m_type m1 = PHuffOpt /\ m_pass m1 = 0 /\
                      prepare_for_pass sr (start PMain) = Ret (set_pass PMain 0 (m_scan m1) m1)).
        { unfold sr. destruct (mode_of_cases dcmode) as [[<-|[<-|[<-|[]]]] _]; destruct Hnc as [->| ->];
            eexists; (split; [vm_compute; reflexivity|]); split; [reflexivity| |reflexivity| |reflexivity| |reflexivity| |reflexivity| |reflexivity|];
            (split; [reflexivity|]); vm_compute; reflexivity. }
        destruct E as (m1 & E1 & T1 & Q1 & E2). rewrite E1, E2, !run_tbind.
        unfold finish_pass_master. rewrite T1, Q1. reflexivity. }
  rewrite R.
  destruct (leaves_run sz (passes sr (mode_of dcmode) false 128 (start PHuffOpt)) [] (Forall_nil _)) as (q & Hq & Hf).
  pose proof all_leaves as A. rewrite forallb_forall in A. specialize (A nc ltac:(destruct Hnc as [->| ->]; cbn; auto)).
  rewrite forallb_forall in A. specialize (A _ (proj1 (mode_of_cases dcmode))).
  rewrite forallb_forall in A. specialize (A _ Hq). unfold good_leaf in A.
  fold sr in A.
  destruct (run sz (passes sr (mode_of dcmode) false 128 (start PHuffOpt))) as [[m|]|e|]; try discriminate.
  apply andb_true_iff in A as [A1 A2]. exists q, m. auto.
Qed.

(* C16: for every image (every assignment of sizes to the trial scans) the search ends within the
   number of passes allotted, never copies a scan that was not encoded (that would be Undef), and the
   scans written form a legal progressive script that sends every bit of every coefficient exactly once. *)
Theorem C16_optimized_file_valid_and_complete :
  forall nc dcmode trellis transcode use_scans loops sz,
  (nc = 1%nat \/ nc = 3%nat) -> (trellis = true -> 1 <= loops) ->
  exists m, optimize nc dcmode trellis transcode use_scans loops sz = Ret (Some m) /\
    script_ok (Z.of_nat nc) 8 Progressive (m_out m) /\
    complete (Z.of_nat nc) (m_out m).
Proof.
  intros. destruct (optimize_leaf nc dcmode trellis transcode use_scans loops sz) as (p & m & E & _ & V & _); auto.
  exists m. split; [exact E|]. apply valid_file_spec; auto. lia.
Qed.
Print Assumptions C16_optimized_file_valid_and_complete.

Example C16_nonvacuous : 
  (* cheap refinements: three levels are tried for luma *)
  match optimize 3 2 true false false 1 (fun i => 1000 - 10 * i) with
  | Ret (Some m) => m_Al_luma m = Some 0 /\ (5 <= length (m_out m))%nat
  | _ => False end /\
  match optimize 1 0 false false false 1 (fun i => if (i =? 1) || (i =? 12) then 100 else 5) with
  | Ret (Some m) => m_copied m = [0; 13; 14; 3] /\ m_Al_luma m = Some 1
  | _ => False end.
Proof. vm_compute. repeat split; repeat constructor. Qed.

(* jpeg_c_set_int_param accepts JINT_TRELLIS_NUM_LOOPS = 0 (jcext.c:184-186): then a trellis pass is still
   run, the pass counter runs two ahead, and the loop ends before any scan reaches the output. *)
Theorem C16_zero_trellis_loops_refuted : exists sz m,
  optimize 1 0 true false false 0 sz = Ret (Some m) /\ m_last m = true /\ m_out m = [] /\
  ~ complete 1 (m_out m).
Proof.
  exists (fun i => nth (Z.to_nat i) [9; 1000; 1000; 1; 500; 500; 1; 200; 200; 1; 50; 50; 1000; 600; 600; 400; 400; 600; 600; 300; 300; 500; 500] 0). eexists. split; [vm_compute; reflexivity|].
  split; [reflexivity|]. split; [reflexivity|]. intros H. specialize (H 0 0 0 ltac:(lia) ltac:(lia) ltac:(lia)). discriminate H.
Qed.

(* The script depends on dc_scan_opt_mode when it is created (jcparam.c:791), the assembly on its value
   at the end (jcmaster.c:905): changing JINT_DC_SCAN_OPT_MODE in between without calling
   jpeg_simple_progression again gives an illegal file (chroma DC sent twice). *)
Theorem C16_mode_changed_after_script_refuted : exists sz m,
  run sz (passes (the_search 3 0) 2 false 128 (init false 0)) = Ret (Some m) /\
  ~ complete 3 (m_out m) /\ length (filter (sends 1 0 0) (m_out m)) = 2%nat.
Proof.
  exists (fun i => 1000 - i). eexists. split; [vm_compute; reflexivity|].
  split; [|vm_compute; reflexivity].
  intros H. specialize (H 1 0 0 ltac:(lia) ltac:(lia) ltac:(lia)). discriminate H.
Qed.
Print Assumptions C16_mode_changed_after_script_refuted.

(* ================= C17 ================= *)
(* total size in bytes of a set of scans *)
Definition total (sz : Z -> Z) (l : list Z) : Z := fold_right (fun i a => sz i + a) 0 l.
Lemma cost_total sz l : (forall i, 0 <= sz i < 2 ^ 58) -> (length l <= 64)%nat -> cost sz l = total sz l.
Proof.
  intros Hs. unfold cost.
  assert (G : forall l acc, 0 <= acc -> acc + Z.of_nat (length l) * 2 ^ 58 < 2 ^ 64 ->
    fold_left (fun a i => u64 (a + sz i)) l acc = acc + total sz l).
  { clear l. induction l as [|i l IH]; intros acc H0 H1; cbn [fold_left total fold_right length] in *; [lia|].
    pose proof (Hs i). rewrite u64_id by lia. rewrite IH by lia. unfold total. lia. }
  intros Hl. destruct (Nat.eq_dec (length l) 64) as [E|E].
  - destruct l as [|i l]; [discriminate|]. cbn [fold_left]. pose proof (Hs i). cbn in E.
    rewrite u64_id by lia. rewrite G by lia. reflexivity.
  - rewrite G by lia. lia.
Qed.

(* candidate [cand s] was measured, and costs no more than any candidate that was measured *)
Definition cheapest (sz : Z -> Z) (m : mst) (cand : Z -> list Z) (n : Z) (sel : option Z) : Prop :=
  exists s, sel = Some s /\ 0 <= s <= n /\ encoded m (cand s) = true /\
    forall j, 0 <= j <= n -> encoded m (cand j) = true -> total sz (cand s) <= total sz (cand j).

Lemma best_of_spec sz p m cand n sel : (forall i, 0 <= sz i < 2 ^ 58) -> Forall (holds sz) p -> 
  0 <= n -> (forall j, 0 <= j <= n -> (length (cand j) <= 64)%nat) ->
  best_of p m cand n sel = true -> cheapest sz m cand n sel.
Proof.
  intros Hs Hp Hn Hlen H. unfold best_of in H. destruct sel as [s|]; [|discriminate].
  rewrite !andb_true_iff, !Z.leb_le in H. destruct H as [[[H1 H2] H3] H4].
  exists s. split; auto. split; [lia|]. split; auto.
  intros j Hj He. rewrite forallb_forall in H4. specialize (H4 (Z.to_nat j) ltac:(apply in_seq; lia)).
  rewrite Z2Nat.id in H4 by lia. rewrite He in H4.
  apply (implied_spec sz p Hp) in H4. rewrite !cost_total in H4; auto.
Qed.

Theorem C17_cheapest_candidate : forall nc dcmode trellis transcode use_scans loops sz,
  (nc = 1%nat \/ nc = 3%nat) -> (trellis = true -> 1 <= loops) -> (forall i, 0 <= sz i < 2 ^ 58) ->
  exists m, optimize nc dcmode trellis transcode use_scans loops sz = Ret (Some m) /\
    (* luma: successive-approximation level, frequency split *)
    cheapest sz m luma_level 3 (m_Al_luma m) /\ cheapest sz m luma_split 5 (m_split_luma m) /\
    (* and those are the scans written *)
    (forall i, In i (luma_split (oZ (m_split_luma m)) ++ refinements (oZ (m_Al_luma m))) -> In i (m_copied m)) /\
    (nc = 3%nat ->
     cheapest sz m chroma_level 2 (m_Al_chroma m) /\ cheapest sz m chroma_split 5 (m_split_chroma m) /\
     (forall i, In i (chroma_split (oZ (m_split_chroma m)) ++ chroma_refinements (oZ (m_Al_chroma m))) -> In i (m_copied m)) /\
     (* chroma DC, when the mode leaves the choice: together or separately *)
     (dcmode <> 0 -> dcmode <> 1 ->
        (In 23 (m_copied m) /\ total sz [23] <= total sz [24; 25]) \/
        (In 24 (m_copied m) /\ In 25 (m_copied m) /\ total sz [24; 25] <= total sz [23]))).
Proof.
  intros nc dcmode trellis transcode use_scans loops sz Hnc Hl Hs.
  destruct (optimize_leaf nc dcmode trellis transcode use_scans loops sz) as (p & m & E & Hp & _ & B); auto.
  exists m. split; [exact E|]. unfold best_file in B. rewrite !andb_true_iff in B. destruct B as [[[B1 B2] B3] B4].
  assert (Z1 : forall a b, zmem a b = true -> forall i, In i a -> In i b).
  { intros a b H i Hi. unfold zmem in H. rewrite forallb_forall in H. apply existsb_eqb_In. auto. }
  split; [eapply best_of_spec; eauto; [lia|]|].
  { intros j Hj. unfold luma_level. rewrite app_length, map_length, seq_length. cbn [length]. lia. }
  split; [eapply best_of_spec; eauto; [lia|]|].
  { intros j Hj. unfold luma_split. destruct (j =? 0); cbn; lia. }
  split; [apply Z1; exact B3|].
  intros ->. cbn [Nat.eqb] in B4. rewrite !andb_true_iff in B4. destruct B4 as [[[C1 C2] C3] C4].
  split; [eapply best_of_spec; eauto; [lia|]|].
  { intros j Hj. assert (j = 0 \/ j = 1 \/ j = 2) as [->|[->| ->]] by lia; vm_compute; repeat constructor. }
  split; [eapply best_of_spec; eauto; [lia|]|].
  { intros j Hj. unfold chroma_split. destruct (j =? 0); cbn; lia. }
  split; [apply Z1; exact C3|].
  intros D0 D1. assert (Em : mode_of dcmode = 2).
  { unfold mode_of. destruct (Z.eqb_spec dcmode 0), (Z.eqb_spec dcmode 1); congruence. }
  rewrite Em in C4. cbn [Z.eqb orb] in C4. apply orb_true_iff in C4 as [C4|C4]; apply andb_true_iff in C4 as [C5 C6];
    apply (implied_spec sz p Hp) in C6; rewrite !cost_total in C6 by (auto; cbn; lia).
  - left. split; auto. apply (Z1 _ _ C5). now left.
  - right. split; [apply (Z1 _ _ C5); now left|]. split; auto. apply (Z1 _ _ C5). right; now left.
Qed.
Print Assumptions C17_cheapest_candidate.

(* What the candidates are: at every level and split, the scans of a candidate as they are encoded,
   with the refinements of the level, transmit every bit of every AC coefficient exactly once. *)
Definition with_Al (al : Z) (s : scan) : scan := mkScan (comps s) (Ss s) (Se s) (Ah s) al.
Definition trial (i : Z) : scan := scan_of (nth (Z.to_nat i) (sr_script (the_search 3 2)) (mkSI 0 [] 0 0 0 0)).
Definition ac_complete (c : Z) (l : list scan) : bool :=
  forallb (fun k => chain (filter (fun s => coversb s c (Z.of_nat k)) l)) (seq 1 63).
Theorem C17_candidates_are_complete :
  (forall j, 0 <= j <= 3 -> ac_complete 0 (map trial (firstn 2 (luma_level j) ++ rev (refinements j))) = true) /\
  (forall i j, 0 <= i <= 5 -> 0 <= j <= 3 ->
     ac_complete 0 (map (fun x => with_Al j (trial x)) (luma_split i) ++ map trial (rev (refinements j))) = true) /\
  (forall c i j, (c = 1 \/ c = 2) -> 0 <= i <= 5 -> 0 <= j <= 2 ->
     ac_complete c (map trial (firstn 4 (chroma_level j) ++ rev (chroma_refinements j))) = true /\
     ac_complete c (map (fun x => with_Al j (trial x)) (chroma_split i) ++ map trial (rev (chroma_refinements j))) = true).
Proof.
  split; [|split].
  - intros j Hj. assert (j = 0 \/ j = 1 \/ j = 2 \/ j = 3) as [->|[->|[->| ->]]] by lia; vm_compute; reflexivity.
  - intros i j Hi Hj. assert (j = 0 \/ j = 1 \/ j = 2 \/ j = 3) as [->|[->|[->| ->]]] by lia;
    assert (i = 0 \/ i = 1 \/ i = 2 \/ i = 3 \/ i = 4 \/ i = 5) as [->|[->|[->|[->|[->| ->]]]]] by lia; vm_compute; reflexivity.
  - intros c i j Hc Hi Hj. destruct Hc as [->| ->];
    assert (j = 0 \/ j = 1 \/ j = 2) as [->|[->| ->]] by lia;
    assert (i = 0 \/ i = 1 \/ i = 2 \/ i = 3 \/ i = 4 \/ i = 5) as [->|[->|[->|[->|[->| ->]]]]] by lia; vm_compute; auto.
Qed.

Example C17_nonvacuous :
  match optimize 3 2 false false false 1 (fun i => if i <? 6 then 50 else if i <? 23 then 40 else 60) with
  | Ret (Some m) => encoded m (luma_level 1) = true /\ encoded m (luma_level 3) = false /\ encoded m (luma_split 2) = true
  | _ => False end.
Proof. vm_compute. auto. Qed.
