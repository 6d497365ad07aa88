(* T_Script.v -- C14 scan-script validation, C15 built-in progressive scripts *)
From Coq Require Import Sorted.
From Verif Require Import Base S_Script M_Script P_Script.

(* ---- sequential / lossless scripts ---- *)
Definition sent_in (pre : list scan) (c : Z) : bool := existsb (Z.eqb c) (concat (map comps pre)).
Definition sinv (nc : Z) (pre : list scan) (sent : list bool) : Prop :=
  length sent = Z.to_nat nc /\
  (forall c, 0 <= c < nc -> nth (Z.to_nat c) sent false = sent_in pre c) /\
  NoDup (concat (map comps pre)).

Definition sstep (thisi : Z) (sent : list bool) : outcome (list bool) :=
  b <- aget sent thisi ;; if (b : bool) then Error JERR_BAD_SCAN_SCRIPT else aset sent thisi true.

Lemma existsb_eqb_In c l : existsb (Z.eqb c) l = true <-> In c l.
Proof. rewrite existsb_exists. split; [intros (x & H & E); apply Z.eqb_eq in E; now subst|].
  intros H; exists c; now rewrite Z.eqb_refl. Qed.

Lemma sent_loop nc l : forall acc sent, length sent = Z.to_nat nc ->
  (forall c, In c l -> 0 <= c < nc) ->
  (forall c, 0 <= c < nc -> nth (Z.to_nat c) sent false = existsb (Z.eqb c) acc) -> NoDup acc ->
  (forall sent', mfold sstep l sent = Ret sent' -> length sent' = Z.to_nat nc /\ NoDup (acc ++ l) /\
     (forall c, 0 <= c < nc -> nth (Z.to_nat c) sent' false = existsb (Z.eqb c) (acc ++ l))) /\
  (NoDup (acc ++ l) -> exists sent', mfold sstep l sent = Ret sent') /\
  mfold sstep l sent <> Undef.
Proof.
  induction l as [|x l IH]; intros acc sent Hlen Hr Hs Hnd; cbn [mfold].
  - rewrite app_nil_r. split; [intros sent' [= <-]; auto|]. split; [eauto|discriminate].
  - pose proof (Hr x (or_introl eq_refl)) as Hx. unfold sstep.
    rewrite (aget_nth sent x false) by lia. cbn [bind]. rewrite Hs by auto.
    replace (acc ++ x :: l) with ((acc ++ [x]) ++ l) by (now rewrite <- app_assoc).
    destruct (existsb (Z.eqb x) acc) eqn:E; cbn [bind].
    + split; [discriminate|]. split; [|discriminate]. intros H. exfalso.
      apply existsb_eqb_In in E. apply NoDup_app_l in H. apply NoDup_remove_2 in H.
      rewrite app_nil_r in H. auto.
    + rewrite aset_ok by lia. cbn [bind].
      apply IH.
      * now rewrite length_upd.
      * intros c Hc. apply Hr. now right.
      * intros c Hc. rewrite existsb_app. cbn [existsb]. rewrite orb_false_r.
        destruct (Z.eqb_spec c x) as [->|Hne].
        -- rewrite nth_upd_eq by lia. now rewrite orb_true_r.
        -- rewrite nth_upd_neq by lia. rewrite Hs by auto. now rewrite orb_false_r.
      * apply NoDup_snoc; auto. intros Hi. apply existsb_eqb_In in Hi. congruence.
Qed.

Definition plain_params (lossless : bool) (prec : Z) (s : scan) : Prop :=
  if lossless then 1 <= Ss s <= 7 /\ Se s = 0 /\ Ah s = 0 /\ 0 <= Al s < prec
  else Ss s = 0 /\ Se s = 63 /\ Ah s = 0 /\ Al s = 0.

Lemma sorted_nodup l : StronglySorted Z.lt l -> NoDup l.
Proof. induction 1 as [|x l Hs IH Hf]; constructor; auto. intros Hi. rewrite Forall_forall in Hf.
  specialize (Hf x Hi). lia. Qed.

Lemma check_plain_spec lossless nc prec pre sent s :
  length (si_idx s) = 4%nat -> 0 <= nc -> component_list_ok nc (scan_of s) -> sinv nc pre sent ->
  (forall sent', check_plain lossless prec s sent = Ret sent' ->
     plain_params lossless prec (scan_of s) /\ sinv nc (pre ++ [scan_of s]) sent') /\
  (plain_params lossless prec (scan_of s) -> NoDup (concat (map comps (pre ++ [scan_of s]))) ->
     exists sent', check_plain lossless prec s sent = Ret sent') /\
  check_plain lossless prec s sent <> Undef.
Proof.
  intros H4 Hnc (Hlen & Hrange & Hsort) (S1 & S2 & S3).
  assert (Hn : 1 <= si_n s <= 4).
  { cbn [scan_of comps] in Hlen. rewrite map_length, seq_length in Hlen. lia. }
  unfold check_plain. set (g := if lossless then _ else _).
  assert (Hg : g = false <-> plain_params lossless prec (scan_of s)).
  { unfold g, plain_params. cbn [scan_of Ss Se Ah Al].
    destruct lossless; rewrite !orb_false_iff, ?Z.ltb_ge, ?Z.leb_gt, !negb_false_iff, !Z.eqb_eq; lia. }
  destruct g.
  { split; [discriminate|]. split; [|discriminate]. intros H. apply Hg in H. discriminate. }
  destruct Hg as [Hg _]. specialize (Hg eq_refl).
  set (FL := for_loop (Z.to_nat (si_n s)) 0 _ sent).
  assert (EFL : FL = mfold sstep (comps (scan_of s)) sent).
  { exact (for_idx (si_idx s) sstep (Z.to_nat (si_n s)) 0 sent ltac:(rewrite H4; lia)). }
  rewrite EFL. clear EFL FL.
  destruct (sent_loop nc (comps (scan_of s)) (concat (map comps pre)) sent S1 Hrange S2 S3) as (A1 & A2 & A3).
  assert (EC : concat (map comps (pre ++ [scan_of s])) = concat (map comps pre) ++ comps (scan_of s)).
  { rewrite map_app, concat_app. cbn [map concat]. now rewrite app_nil_r. }
  split; [|split].
  - intros sent' E. apply A1 in E as (B1 & B2 & B3). split; [exact Hg|].
    split; [exact B1|]. split; [|now rewrite EC].
    intros c Hc. unfold sent_in. rewrite EC. auto.
  - intros _ Hnd. rewrite EC in Hnd. auto.
  - exact A3.
Qed.

Definition wf (script : list scan_info) : Prop := Forall (fun s => length (si_idx s) = 4%nat) script.

Lemma plain_loop_spec lossless nc prec : 0 <= nc -> forall l pre sent, wf l -> sinv nc pre sent ->
  (forall sent', plain_loop lossless nc prec l sent = Ret sent' ->
     (forall s, In s (map scan_of l) -> component_list_ok nc s /\ plain_params lossless prec s) /\
     sinv nc (pre ++ map scan_of l) sent') /\
  ((forall s, In s (map scan_of l) -> component_list_ok nc s /\ plain_params lossless prec s) ->
   NoDup (concat (map comps (pre ++ map scan_of l))) ->
   exists sent', plain_loop lossless nc prec l sent = Ret sent') /\
  plain_loop lossless nc prec l sent <> Undef.
Proof.
  intros Hnc. induction l as [|s l IH]; intros pre sent Hwf Hinv; cbn [plain_loop map].
  - rewrite app_nil_r. split; [intros sent' [= <-]; split; [intros s []|auto]|]. split; [eauto|discriminate].
  - apply Forall_cons_iff in Hwf as [H4 Hwf].
    destruct (check_indexes_spec nc s H4) as [CI CU].
    destruct (check_indexes nc s) as [[]|e|] eqn:ECI; cbn [bind]; [| |congruence].
    2:{ split; [discriminate|]. split; [|discriminate]. intros H _. exfalso.
        assert (component_list_ok nc (scan_of s)) as Hx by (apply H; now left). apply CI in Hx. discriminate. }
    assert (Hcl : component_list_ok nc (scan_of s)) by (now apply CI).
    destruct (check_plain_spec lossless nc prec pre sent s H4 Hnc Hcl Hinv) as (P1 & P2 & P3).
    destruct (check_plain lossless prec s sent) as [sent1|e|] eqn:ECP; cbn [bind]; [| |congruence].
    2:{ split; [discriminate|]. split; [|discriminate]. intros H Hnd. exfalso.
        destruct P2 as (x & Hx); [apply H; now left| |discriminate].
        rewrite map_app, concat_app in *. cbn [map concat] in *. rewrite app_nil_r.
        rewrite app_assoc in Hnd. now apply NoDup_app_l in Hnd. }
    destruct (P1 sent1 eq_refl) as [Hpp Hinv1].
    destruct (IH (pre ++ [scan_of s]) sent1 Hwf Hinv1) as (I1 & I2 & I3).
    rewrite <- app_assoc in I1, I2. cbn [app] in I1, I2.
    split; [|split; [|exact I3]].
    + intros sent' E. destruct (I1 _ E) as [J1 J2]. split; [|exact J2].
      intros s' [<-|Hs']; auto.
    + intros H Hnd. apply I2; auto. intros s' Hs'. apply H. now right.
Qed.

Lemma sinv_init nc : 0 <= nc -> sinv nc [] (repeat false (Z.to_nat nc)).
Proof. intros H. split; [apply repeat_length|]. split; [|constructor].
  intros c Hc. unfold sent_in. cbn. now rewrite nth_repeat_lt by lia. Qed.

Lemma count_once_nodup (nc : Z) l : (forall c, In c l -> 0 <= c < nc) ->
  ((forall c, 0 <= c < nc -> count_occ Z.eq_dec l c = 1%nat) <->
   (NoDup l /\ forall c, 0 <= c < nc -> In c l)).
Proof.
  intros Hr. split.
  - intros H. split.
    + apply (NoDup_count_occ Z.eq_dec). intros c. destruct (in_dec Z.eq_dec c l) as [Hi|Hi].
      * rewrite H by auto. lia.
      * apply (count_occ_not_In Z.eq_dec) in Hi. lia.
    + intros c Hc. apply (count_occ_In Z.eq_dec). rewrite H by auto. lia.
  - intros [H1 H2] c Hc. apply NoDup_count_occ'; auto.
Qed.

Lemma all_sent nc script sent : 0 <= nc -> sinv nc script sent ->
  (forall s, In s script -> component_list_ok nc s) ->
  (forallb id sent = true <-> sent_once nc script).
Proof.
  intros Hnc (S1 & S2 & S3) Hok.
  assert (Hr : forall c, In c (concat (map comps script)) -> 0 <= c < nc).
  { intros c Hc. apply in_concat in Hc as (l & Hl & Hc). apply in_map_iff in Hl as (s & <- & Hs).
    destruct (Hok s Hs) as (_ & Hx & _). auto. }
  unfold sent_once. rewrite count_once_nodup by exact Hr. rewrite forallb_forall. split.
  - intros H. split; auto. intros c Hc. apply existsb_eqb_In. fold (sent_in script c). rewrite <- S2 by auto.
    apply H. apply nth_In. lia.
  - intros [_ H] b Hb. apply In_nth with (d := false) in Hb as (i & Hi & <-).
    rewrite <- (Nat2Z.id i). rewrite S2 by lia. unfold id, sent_in. apply existsb_eqb_In. apply H. lia.
Qed.

(* ---- progressive scripts ---- *)
Lemma progressive_loop_spec nc prec : 0 <= nc -> forall l pre lb, wf l -> lbinv nc pre lb ->
  (forall lb', progressive_loop nc prec l lb = Ret lb' ->
     (forall a s b, map scan_of l = a ++ s :: b -> progressive_scan_ok nc (max_bit prec) (pre ++ a) s) /\
     lbinv nc (pre ++ map scan_of l) lb') /\
  ((forall a s b, map scan_of l = a ++ s :: b -> progressive_scan_ok nc (max_bit prec) (pre ++ a) s) ->
   exists lb', progressive_loop nc prec l lb = Ret lb') /\
  progressive_loop nc prec l lb <> Undef.
Proof.
  intros Hnc. induction l as [|s l IH]; intros pre lb Hwf Hinv; cbn [progressive_loop map].
  - rewrite app_nil_r. split; [|split; [eauto|discriminate]].
    intros lb' [= <-]; split; [|auto]. intros [|] ? ? E; discriminate E.
  - apply Forall_cons_iff in Hwf as [H4 Hwf].
    destruct (check_indexes_spec nc s H4) as [CI CU].
    destruct (check_indexes nc s) as [[]|e|] eqn:ECI; cbn [bind]; [| |congruence].
    2:{ split; [discriminate|]. split; [|discriminate]. intros H. exfalso.
        destruct (H [] (scan_of s) (map scan_of l) eq_refl) as (Hx & _). apply CI in Hx. discriminate. }
    assert (Hcl : component_list_ok nc (scan_of s)) by (now apply CI).
    destruct (check_progressive_spec nc prec pre lb s H4 Hnc Hcl Hinv) as (P1 & P2 & P3).
    destruct (check_progressive prec s lb) as [lb1|e|] eqn:ECP; cbn [bind]; [| |congruence].
    2:{ split; [discriminate|]. split; [|discriminate]. intros H. exfalso.
        destruct (H [] (scan_of s) (map scan_of l) eq_refl) as (_ & Hx). rewrite app_nil_r in Hx.
        destruct (P2 Hx); discriminate. }
    destruct (P1 lb1 eq_refl) as [Hpp Hinv1].
    destruct (IH (pre ++ [scan_of s]) lb1 Hwf Hinv1) as (I1 & I2 & I3).
    rewrite <- app_assoc in I1. cbn [app] in I1.
    split; [|split; [|exact I3]].
    + intros lb' E. destruct (I1 _ E) as [J1 J2]. split; [|exact J2].
      intros [|a0 a] s' b E'; cbn in E'.
      * injection E' as <- _. rewrite app_nil_r. split; auto.
      * injection E' as <- E'. specialize (J1 a s' b E'). now rewrite <- app_assoc in J1.
    + intros H. apply I2. intros a s' b E'. rewrite <- app_assoc. cbn [app].
      apply (H (scan_of s :: a) s' b). cbn. now rewrite E'.
Qed.

Lemma lbinv_init nc : 0 <= nc -> lbinv nc [] (repeat (repeat (-1) 64) (Z.to_nat nc)).
Proof.
  intros H. split; [apply repeat_length|]. split; [|split; [intros p []|]].
  - apply Forall_forall. intros r Hr. apply repeat_spec in Hr. subst. apply repeat_length.
  - intros c k Hc Hk. rewrite (nth_repeat_lt _ [] _ _) by lia. rewrite nth_repeat_lt by lia. reflexivity.
Qed.

Lemma all_dc nc script lb : 0 <= nc -> lbinv nc script lb ->
  (forallb (fun row => 0 <=? nth 0 row (-1)) lb = true <->
   forall c, 0 <= c < nc -> exists p, In p script /\ covers p c 0).
Proof.
  intros Hnc (L1 & L2 & L3 & L4). rewrite forallb_forall. split.
  - intros H c Hc. specialize (H (nth (Z.to_nat c) lb [])). 
    assert (Hx := L4 c 0 Hc ltac:(lia)). cbn [Z.to_nat] in Hx. cbn in H. rewrite Hx in H.
    unfold lb_of in H. destruct (last_covering script c 0) as [p|] eqn:E.
    + apply last_covering_In in E. eauto.
    + assert (In (nth (Z.to_nat c) lb []) lb) as Hi by (apply nth_In; lia). specialize (H Hi). discriminate.
  - intros H row Hr. apply In_nth with (d := []) in Hr as (i & Hi & <-).
    rewrite <- (Nat2Z.id i). assert (Hx := L4 (Z.of_nat i) 0 ltac:(lia) ltac:(lia)). cbn [Z.to_nat] in Hx.
    rewrite Hx. unfold lb_of. destruct (H (Z.of_nat i) ltac:(lia)) as (p & Hp & Hc).
    destruct (last_covering script (Z.of_nat i) 0) as [q|] eqn:E.
    + apply last_covering_In in E as [Hq _]. apply Z.leb_le. auto.
    + exfalso. eapply last_covering_None; eauto.
Qed.

Lemma plain_ok lossless nc prec l : 0 <= nc -> wf l ->
  ((exists sent, plain_loop lossless nc prec l (repeat false (Z.to_nat nc)) = Ret sent /\ forallb id sent = true) <->
   (forall s, In s (map scan_of l) -> component_list_ok nc s /\ plain_params lossless prec s) /\
   sent_once nc (map scan_of l)).
Proof.
  intros Hnc Hwf.
  destruct (plain_loop_spec lossless nc prec Hnc l [] _ Hwf (sinv_init nc Hnc)) as (P1 & P2 & _).
  cbn [app] in P1, P2. split.
  - intros (sent & E & Ha). destruct (P1 _ E) as [Q1 Q2]. split; auto.
    eapply all_sent; eauto. intros s Hs. now apply Q1.
  - intros [H1 H2]. destruct P2 as (sent & E); auto.
    { apply count_once_nodup with (nc := nc); auto.
      intros c Hc. apply in_concat in Hc as (x & Hl & Hc). apply in_map_iff in Hl as (s & <- & Hs).
      destruct (H1 s Hs) as ((_ & Hx & _) & _). auto. }
    exists sent. split; auto. destruct (P1 _ E) as [Q1 Q2].
    eapply all_sent; eauto. intros s Hs. now apply Q1.
Qed.

Theorem C14_validate_script : forall nc prec script,
  0 <= nc <= 10 -> wf script ->
  (forall m, validate_script nc prec script = Ret m <-> script_ok nc prec m (map scan_of script)) /\
  validate_script nc prec script <> Undef.
Proof.
  intros nc prec script Hnc Hwf. destruct script as [|s0 rest].
  { split; [|discriminate]. intros m. split; [discriminate|]. intros [H _]. exfalso. now apply H. }
  assert (Hne : map scan_of (s0 :: rest) <> []) by discriminate.
  set (script := s0 :: rest) in *. unfold validate_script.
  change (match script with [] => _ | s1 :: _ => _ end) with
    (if 10 <? nc then Undef else
    if negb (si_Ss s0 =? 0) && (si_Se s0 =? 0) then
      sent <- plain_loop true nc prec script (repeat false (Z.to_nat nc)) ;;
      (if forallb id sent then Ret Lossless else Error JERR_MISSING_DATA)
    else if negb (si_Ss s0 =? 0) || negb (si_Se s0 =? 63) then
      lb <- progressive_loop nc prec script (repeat (repeat (-1) 64) (Z.to_nat nc)) ;;
      (if forallb (fun row => 0 <=? nth 0 row (-1)) lb then Ret Progressive else Error JERR_MISSING_DATA)
    else
      sent <- plain_loop false nc prec script (repeat false (Z.to_nat nc)) ;;
      (if forallb id sent then Ret Sequential else Error JERR_MISSING_DATA)).
  destruct (Z.ltb_spec 10 nc); [lia|].
  assert (Hin0 : In (scan_of s0) (map scan_of script)) by (now left).
  (* which modes the first scan allows *)
  assert (ML : lossless_ok nc prec (map scan_of script) -> si_Ss s0 <> 0 /\ si_Se s0 = 0).
  { intros [H1 _]. destruct (H1 _ Hin0) as (_ & H2 & H3 & _). cbn in H2, H3. lia. }
  assert (MS : sequential_ok nc (map scan_of script) -> si_Ss s0 = 0 /\ si_Se s0 = 63).
  { intros [H1 _]. destruct (H1 _ Hin0) as (_ & H2 & H3 & _). auto. }
  assert (MP : progressive_ok nc (max_bit prec) (map scan_of script) -> si_Ss s0 = 0 /\ si_Se s0 = 0).
  { intros [H1 _]. destruct (H1 [] (scan_of s0) (map scan_of rest) eq_refl) as (Hc & Hx & _ & _ & _ & H5 & H6 & _).
    change (Ss (scan_of s0)) with (si_Ss s0) in *. change (Se (scan_of s0)) with (si_Se s0) in *.
    destruct (Z.eq_dec (si_Ss s0) 0) as [E|E]; [auto|]. exfalso.
    destruct (H6 E) as [Hl Hp].
    destruct (comps (scan_of s0)) as [|c cs]; [discriminate Hl|].
    destruct (Hp c (or_introl eq_refl)) as (p & [] & _). }
  destruct (Z.eqb_spec (si_Ss s0) 0) as [E1|E1], (Z.eqb_spec (si_Se s0) 0) as [E2|E2]; cbn [negb andb].
  3:{ (* lossless *)
    pose proof (plain_ok true nc prec script ltac:(lia) Hwf) as PO.
    destruct (plain_loop_spec true nc prec ltac:(lia) script [] _ Hwf (sinv_init nc ltac:(lia))) as (_ & _ & NU).
    split.
    - intros m. split.
      + intros E. destruct (plain_loop _ _ _ _ _) as [sent|e|]; cbn [bind] in E; try discriminate.
        destruct (forallb id sent) eqn:Ef; try discriminate. injection E as <-.
        split; auto. destruct PO as [PO _]. destruct PO as [Q1 Q2]; [eauto|]. split; auto.
      + intros [_ Hm]. destruct m; [apply MS in Hm; lia|apply MP in Hm; lia|].
        destruct Hm as [Q1 Q2]. destruct PO as [_ PO]. destruct PO as (sent & -> & Hf); [split; auto|].
        cbn [bind]. now rewrite Hf.
    - destruct (plain_loop _ _ _ _ _) as [sent|e|]; cbn [bind]; try congruence. destruct (forallb id sent); discriminate. }
  all: destruct (Z.eqb_spec (si_Se s0) 63) as [E3|E3]; try lia; cbn [negb orb].
  2:{ (* sequential *)
    pose proof (plain_ok false nc prec script ltac:(lia) Hwf) as PO.
    destruct (plain_loop_spec false nc prec ltac:(lia) script [] _ Hwf (sinv_init nc ltac:(lia))) as (_ & _ & NU).
    split.
    - intros m. split.
      + intros E. destruct (plain_loop _ _ _ _ _) as [sent|e|]; cbn [bind] in E; try discriminate.
        destruct (forallb id sent) eqn:Ef; try discriminate. injection E as <-.
        split; auto. destruct PO as [PO _]. destruct PO as [Q1 Q2]; [eauto|]. split; auto.
      + intros [_ Hm]. destruct m; [|apply MP in Hm; lia|apply ML in Hm; lia].
        destruct Hm as [Q1 Q2]. destruct PO as [_ PO]. destruct PO as (sent & -> & Hf); [split; auto|].
        cbn [bind]. now rewrite Hf.
    - destruct (plain_loop _ _ _ _ _) as [sent|e|]; cbn [bind]; try congruence. destruct (forallb id sent); discriminate. }
  all: destruct (progressive_loop_spec nc prec ltac:(lia) script [] _ Hwf (lbinv_init nc ltac:(lia))) as (P1 & P2 & NU);
    cbn [app] in P1, P2;
    destruct (progressive_loop _ _ _ _) as [lb|e|] eqn:EL; cbn [bind]; [| |congruence];
    [destruct (P1 lb eq_refl) as [Q1 Q2]; pose proof (all_dc nc _ lb ltac:(lia) Q2) as AD;
     destruct (forallb _ lb)|];
    (split; [|discriminate]);
    (intros m; split; [try discriminate|]).
  all: try (intros [= <-]; split; [exact Hne|]; split; [exact Q1|now apply AD]).
  all: try (intros [_ Hm]; destruct m; [apply MS in Hm; lia|reflexivity|apply ML in Hm; lia]).
  all: intros [_ Hm]; exfalso; destruct m; [apply MS in Hm; lia| |apply ML in Hm; lia];
    destruct Hm as [R1 R2]; try (apply AD in R2; discriminate);
    destruct (P2 R1); discriminate.
Qed.
Print Assumptions C14_validate_script.

(* A non-trivial accepted script: three components, spectral selection and successive approximation *)
Example C14_nonvacuous :
  validate_script 3 8 (simple_progression 3 true false 0) = Ret Progressive /\
  validate_script 3 8 [mkSI 1 [0;9;9;9] 0 63 0 0; mkSI 2 [1;2;9;9] 0 63 0 0] = Ret Sequential /\
  validate_script 1 16 [mkSI 1 [0;9;9;9] 4 0 0 2] = Ret Lossless /\
  (* refining two bits at once, and AC before DC, are rejected *)
  validate_script 1 8 [mkSI 1 [0;9;9;9] 0 0 0 2; mkSI 1 [0;9;9;9] 0 0 2 0] = Error JERR_BAD_PROG_SCRIPT /\
  validate_script 1 8 [mkSI 1 [0;9;9;9] 1 63 0 0; mkSI 1 [0;9;9;9] 0 0 0 0] = Error JERR_BAD_PROG_SCRIPT.
Proof. repeat split. Qed.

(* The validator puts no limit on the number of scans, but the compressor records every scan's Al in
   a 64-entry array (jcmaster.c:496, jcmaster.h:38): a valid script of 65 scans writes past its end. *)
Definition long_script : list scan_info :=
  mkSI 1 [0;0;0;0] 0 0 0 0 ::
  map (fun k => mkSI 1 [0;0;0;0] (Z.of_nat k) (Z.of_nat k) 0 1) (seq 1 63) ++
  [mkSI 1 [0;0;0;0] 1 1 1 0].
Theorem C14_every_valid_script_is_encodable_refuted :
  wf long_script /\ validate_script 1 8 long_script = Ret Progressive /\
  script_ok 1 8 Progressive (map scan_of long_script) /\
  exists n, 0 <= n < Z.of_nat (length long_script) /\
    forall actual_Al, length actual_Al = 64%nat -> select_scan_store long_script actual_Al n = Undef.
Proof.
  assert (W : wf long_script) by (unfold wf, long_script; repeat constructor).
  assert (V : validate_script 1 8 long_script = Ret Progressive) by (vm_compute; reflexivity).
  split; [exact W|]. split; [exact V|]. split.
  - apply (proj1 (C14_validate_script 1 8 long_script ltac:(lia) W)). exact V.
  - exists 64. split; [cbn; lia|]. intros l Hl. unfold select_scan_store.
    change (aget long_script 64) with (Ret (mkSI 1 [0;0;0;0] 1 1 1 0)). cbn [bind].
    unfold aset. rewrite Hl. reflexivity.
Qed.
Print Assumptions C14_every_valid_script_is_encodable_refuted.

(* ================= C15 ================= *)
(* a chain of scans of one coefficient: bits from [a] up already sent, refinements down to bit 0 *)
Fixpoint refine_chain (a : Z) (l : list scan) : bool :=
  match l with
  | [] => a =? 0
  | s :: r => (0 <? a) && (Ah s =? a) && (Al s =? a - 1) && refine_chain (a - 1) r
  end.
Definition chain (l : list scan) : bool :=
  match l with
  | [] => false
  | s :: r => (Ah s =? 0) && (0 <=? Al s) && refine_chain (Al s) r
  end.
Definition bit_sent (b : Z) (s : scan) : bool := if Ah s =? 0 then Al s <=? b else Al s =? b.

Lemma refine_chain_spec b l : 0 <= b -> forall a, 0 <= a -> refine_chain a l = true ->
  length (filter (bit_sent b) l) = if b <? a then 1%nat else 0%nat.
Proof.
  intros Hb. induction l as [|s l IH]; intros a Ha H; cbn [refine_chain filter] in *.
  - apply Z.eqb_eq in H. subst. destruct (Z.ltb_spec b 0); [lia|reflexivity].
  - rewrite !andb_true_iff, Z.ltb_lt, !Z.eqb_eq in H. destruct H as [[[H1 H2] H3] H4].
    unfold bit_sent at 1. destruct (Z.eqb_spec (Ah s) 0); [lia|].
    specialize (IH (a - 1) ltac:(lia) H4).
    destruct (Z.eqb_spec (Al s) b); cbn [length]; rewrite IH;
      destruct (Z.ltb_spec b (a - 1)), (Z.ltb_spec b a); lia.
Qed.
Lemma chain_spec l : chain l = true -> forall b, 0 <= b -> length (filter (bit_sent b) l) = 1%nat.
Proof.
  destruct l as [|s l]; [discriminate|]. cbn [chain]. rewrite !andb_true_iff, Z.eqb_eq, Z.leb_le.
  intros [[H1 H2] H3] b Hb. cbn [filter]. unfold bit_sent at 1. rewrite H1. cbn.
  pose proof (refine_chain_spec b l Hb (Al s) H2 H3) as R.
  destruct (Z.leb_spec (Al s) b), (Z.ltb_spec b (Al s)); cbn [length]; lia.
Qed.

Definition completeb (nc : nat) (script : list scan) : bool :=
  forallb (fun c => forallb (fun k => chain (filter (fun s => coversb s (Z.of_nat c) (Z.of_nat k)) script))
                            (seq 0 64)) (seq 0 nc).
Lemma filter_filter {A} (f g : A -> bool) l : filter (fun x => f x && g x) l = filter g (filter f l).
Proof. induction l; cbn; auto. destruct (f a); cbn; rewrite IHl; destruct (g a); reflexivity. Qed.
Lemma completeb_spec nc script : completeb nc script = true -> complete (Z.of_nat nc) script.
Proof.
  intros H c k b Hc Hk Hb. unfold completeb in H. rewrite forallb_forall in H.
  specialize (H (Z.to_nat c) ltac:(apply in_seq; lia)). rewrite forallb_forall in H.
  specialize (H (Z.to_nat k) ltac:(apply in_seq; lia)). rewrite !Z2Nat.id in H by lia.
  pose proof (chain_spec _ H b Hb) as R. rewrite <- filter_filter in R. exact R.
Qed.

Definition simple_ok (nc : nat) (ycc maxc : bool) (dcmode prec : Z) : bool :=
  let s := simple_progression nc ycc maxc dcmode in
  (length s =? simple_nscans nc ycc maxc dcmode)%nat && (length s <=? 64)%nat &&
  match validate_script (Z.of_nat nc) prec s with Ret Progressive => true | _ => false end &&
  completeb nc (map scan_of s).
Lemma wf_fill_scans n a b c d : wf (fill_scans n a b c d).
Proof. unfold wf, fill_scans. apply Forall_flat_map. apply Forall_forall. intros x _. repeat constructor. Qed.
Lemma wf_fill_dc n a b : wf (fill_dc_scans n a b).
Proof. unfold fill_dc_scans. destruct (n <=? 4)%nat; [|apply wf_fill_scans].
  constructor; [|constructor]. cbn [si_idx]. unfold idx4.
  rewrite firstn_length, app_length, repeat_length. lia. Qed.
Lemma wf_app a b : wf a -> wf b -> wf (a ++ b).
Proof. intros. apply Forall_app. auto. Qed.
Lemma wf_simple nc ycc maxc dcmode : wf (simple_progression nc ycc maxc dcmode).
Proof.
  unfold simple_progression.
  destruct ((nc =? 3)%nat && ycc), maxc; try (destruct (dcmode =? 0); [|destruct (dcmode =? 1)]);
  repeat (apply wf_app; [first [apply wf_fill_dc | apply wf_fill_scans | unfold wf; repeat constructor]|]);
  first [apply wf_fill_dc | apply wf_fill_scans | unfold wf; repeat constructor].
Qed.

(* dcmode matters only through dcmode = 0, dcmode = 1 *)
Lemma dcmode_norm nc ycc maxc dcmode : exists m, (m = 0 \/ m = 1 \/ m = 2) /\
  simple_progression nc ycc maxc dcmode = simple_progression nc ycc maxc m /\
  simple_nscans nc ycc maxc dcmode = simple_nscans nc ycc maxc m.
Proof.
  unfold simple_progression, simple_nscans.
  destruct (Z.eqb_spec dcmode 0) as [->|]; [exists 0; auto|].
  destruct (Z.eqb_spec dcmode 1) as [->|]; [exists 1; auto|]. exists 2; auto.
Qed.
Lemma prec_norm prec nc s : nc <= 10 -> exists p, (p = 8 \/ p = 12) /\ 
  (validate_script nc p s = Ret Progressive -> validate_script nc prec s = Ret Progressive).
Proof.
  intros Hnc. destruct (Z.eqb_spec prec 12) as [->|H]; [exists 12; auto|]. exists 8. split; [auto|].
  assert (E : forall l lb, progressive_loop nc prec l lb = progressive_loop nc 8 l lb).
  { induction l as [|x l IH]; intros lb; cbn [progressive_loop]; auto.
    destruct (check_indexes nc x); cbn [bind]; auto.
    replace (check_progressive prec x lb) with (check_progressive 8 x lb).
    - destruct (check_progressive 8 x lb); cbn [bind]; auto.
    - unfold check_progressive. destruct (Z.eqb_spec prec 12); [lia|]. reflexivity. }
  unfold validate_script. destruct s as [|s0 s]; auto. destruct (10 <? nc); auto.
  destruct (negb (si_Ss s0 =? 0) && (si_Se s0 =? 0)).
  - destruct (plain_loop _ _ 8 _ _) as [a|e|]; cbn [bind]; try discriminate. destruct (forallb id a); discriminate.
  - destruct (negb (si_Ss s0 =? 0) || negb (si_Se s0 =? 63)).
    + now rewrite E.
    + destruct (plain_loop _ _ 8 _ _) as [a|e|]; cbn [bind]; try discriminate. destruct (forallb id a); discriminate.
Qed.

Lemma simple_all : forallb (fun nc => forallb (fun ycc => forallb (fun maxc => forallb (fun m => forallb (fun p =>
  simple_ok nc ycc maxc m p) [8; 12]) [0; 1; 2]) [false; true]) [false; true]) (seq 1 10) = true.
Proof. vm_compute. reflexivity. Qed.

(* For every number of components, colour space, profile and DC-scan mode: the script written has
   exactly the reserved number of entries, fits the 64-scan tables, obeys the rules, is accepted, and
   sends every bit of every coefficient exactly once. *)
Theorem C15_simple_progression : forall nc ycc maxc dcmode prec, (1 <= nc <= 10)%nat ->
  let s := simple_progression nc ycc maxc dcmode in
  length s = simple_nscans nc ycc maxc dcmode /\ (length s <= 64)%nat /\
  validate_script (Z.of_nat nc) prec s = Ret Progressive /\
  script_ok (Z.of_nat nc) prec Progressive (map scan_of s) /\
  complete (Z.of_nat nc) (map scan_of s).
Proof.
  intros nc ycc maxc dcmode prec Hnc s.
  destruct (dcmode_norm nc ycc maxc dcmode) as (m & Hm & Es & En).
  destruct (prec_norm prec (Z.of_nat nc) s ltac:(lia)) as (p & Hp & EP).
  pose proof simple_all as A. rewrite forallb_forall in A. specialize (A nc ltac:(apply in_seq; lia)).
  rewrite forallb_forall in A. specialize (A ycc ltac:(destruct ycc; cbn; auto)).
  rewrite forallb_forall in A. specialize (A maxc ltac:(destruct maxc; cbn; auto)).
  rewrite forallb_forall in A. specialize (A m ltac:(cbn; intuition)).
  rewrite forallb_forall in A. specialize (A p ltac:(cbn; intuition)).
  unfold simple_ok in A. rewrite !andb_true_iff in A. rewrite <- Es, <- En in A. fold s in A.
  destruct A as [[[A1 A2] A3] A4].
  apply Nat.eqb_eq in A1. apply Nat.leb_le in A2.
  assert (V : validate_script (Z.of_nat nc) prec s = Ret Progressive).
  { apply EP. destruct (validate_script (Z.of_nat nc) p s) as [[]| |]; congruence. }
  split; [exact A1|]. split; [exact A2|]. split; [exact V|]. split.
  - apply (proj1 (C14_validate_script (Z.of_nat nc) prec s ltac:(lia) (wf_simple _ _ _ _))). exact V.
  - now apply completeb_spec.
Qed.
Print Assumptions C15_simple_progression.

Example C15_nonvacuous : length (simple_progression 3 true true 2) = 10%nat /\
  length (filter (sends 0 5 1) (map scan_of (simple_progression 3 true true 2))) = 1%nat /\
  (* dropping the last scan loses bit 0 of coefficient 30 of component 2 *)
  length (filter (sends 2 30 0) (map scan_of (removelast (simple_progression 3 true true 2)))) = 0%nat.
Proof. repeat split. Qed.
