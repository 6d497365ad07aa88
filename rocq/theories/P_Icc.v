(* P_Icc.v -- proofs about M_Icc. *)
From Verif Require Import Base M_Icc S_Icc.
From Coq Require Import Permutation.

Local Ltac inv H := inversion H; subst; clear H.

Definition chunk_of (m : saved_marker) : chunk :=
  mkChunk (nth 12 (sm_data m) 0) (nth 13 (sm_data m) 0) (skipn 14 (sm_data m)).

Lemma marker_is_icc_true m : marker_is_icc m = true -> holds_chunk m (chunk_of m).
Proof.
  unfold marker_is_icc, holds_chunk, chunk_of, ICC_MARKER, ICC_OVERHEAD_LEN.
  rewrite !andb_true_iff, Z.leb_le, !Z.eqb_eq.
  intros H. decompose [and] H. clear H. split; [assumption|].
  destruct m as [mk d]; cbn [sm_data sm_marker] in *.
  do 14 (destruct d as [|? d]; [cbn [length] in *; lia|]).
  cbn [nth] in *. subst. reflexivity.
Qed.

Lemma holds_chunk_icc m k : holds_chunk m k -> marker_is_icc m = true /\ chunk_of m = k.
Proof.
  intros [H1 H2]. destruct m as [mk d], k as [a b e]; cbn in *. subst.
  split; [|reflexivity].
  unfold marker_is_icc, ICC_MARKER, ICC_OVERHEAD_LEN. cbn [sm_marker sm_data nth].
  rewrite (proj2 (Z.leb_le _ _)) by (cbn [length]; lia). reflexivity.
Qed.

Definition chunks (l : list saved_marker) : list chunk :=
  map chunk_of (filter marker_is_icc l).

Lemma icc_chunks_fun l C : icc_chunks l C <-> C = chunks l.
Proof.
  split.
  - induction 1 as [|m l C Hm H IH|m k l C Hm H IH]; [reflexivity| |].
    + unfold chunks; cbn. destruct (marker_is_icc m) eqn:E; [|exact IH].
      exfalso; apply (Hm _ (marker_is_icc_true _ E)).
    + apply holds_chunk_icc in Hm. destruct Hm as [E1 E2].
      unfold chunks; cbn. rewrite E1; cbn. subst; reflexivity.
  - intros ->. induction l as [|m l IH]; [constructor|].
    unfold chunks in *; cbn. destruct (marker_is_icc m) eqn:E.
    + cbn. apply ic_take; [apply marker_is_icc_true; exact E|exact IH].
    + apply ic_skip; [|exact IH]. intros k Hk. apply holds_chunk_icc in Hk.
      destruct Hk; congruence.
Qed.

(* ------------------------------------------------------------------ *)
(* Facts about the specification *)
Lemma in_numbers n i : In i (numbers n) <-> 1 <= i <= Z.of_nat n.
Proof.
  unfold numbers. rewrite in_map_iff. split.
  - intros (x & <- & Hx). apply in_seq in Hx. lia.
  - intros H. exists (Z.to_nat i). split; [lia|apply in_seq; lia].
Qed.

Lemma nodup_numbers n : NoDup (numbers n).
Proof.
  unfold numbers. apply FinFun.Injective_map_NoDup; [|apply seq_NoDup].
  intros x y H; lia.
Qed.

Lemma length_numbers n : length (numbers n) = n.
Proof. unfold numbers. rewrite map_length, seq_length. reflexivity. Qed.

Lemma assembled_facts C out : assembled C out ->
  NoDup (map ck_seq C) /\
  forall c, In c C -> ck_count c = Z.of_nat (length C) /\ 1 <= ck_seq c <= Z.of_nat (length C).
Proof.
  intros (S & HP & Hs & Hc & _).
  assert (HP' : Permutation (map ck_seq S) (map ck_seq C)) by (apply Permutation_map; exact HP).
  rewrite Hs in HP'. split.
  - eapply Permutation_NoDup; [exact HP'|apply nodup_numbers].
  - intros c Hin. rewrite Forall_forall in Hc. split; [apply Hc; exact Hin|].
    apply in_numbers. eapply Permutation_in; [symmetry; exact HP'|].
    apply in_map; exact Hin.
Qed.

Lemma nodup_map_inj {A B} (f : A -> B) l x y :
  NoDup (map f l) -> In x l -> In y l -> f x = f y -> x = y.
Proof.
  induction l as [|a l IH]; [intros _ []|]. cbn. intros HN Hx Hy E.
  inv HN. destruct Hx as [->|Hx], Hy as [->|Hy]; auto.
  - exfalso. apply H1. rewrite E. apply in_map; exact Hy.
  - exfalso. apply H1. rewrite <- E. apply in_map; exact Hx.
Qed.

Lemma map_inj_lists {A B} (f : A -> B) (P : A -> Prop) :
  (forall x y, P x -> P y -> f x = f y -> x = y) ->
  forall l l', Forall P l -> Forall P l' -> map f l = map f l' -> l = l'.
Proof.
  intros HI. induction l as [|a l IH]; intros [|b l'] H1 H2 E; try discriminate; auto.
  cbn in E. inv E. inv H1. inv H2. f_equal; auto.
Qed.

Lemma assembled_unique C o1 o2 : assembled C o1 -> assembled C o2 -> o1 = o2.
Proof.
  intros A1 A2. destruct (assembled_facts _ _ A1) as [HN _].
  destruct A1 as (S1 & P1 & E1 & _ & ->), A2 as (S2 & P2 & E2 & _ & ->).
  f_equal. f_equal. apply (map_inj_lists ck_seq (fun k => In k C)).
  - intros x y Hx Hy E. exact (nodup_map_inj ck_seq C x y HN Hx Hy E).
  - apply Forall_forall. intros x Hx. exact (Permutation_in x P1 Hx).
  - apply Forall_forall. intros x Hx. exact (Permutation_in x P2 Hx).
  - congruence.
Qed.

Lemma assembled_perm C C' o : Permutation C C' -> assembled C o -> assembled C' o.
Proof.
  intros HP (S & P1 & E1 & F & ->). exists S.
  rewrite <- (Permutation_length HP). split; [etransitivity; eauto|].
  split; [exact E1|]. split; [|reflexivity].
  rewrite Forall_forall in *. intros x Hx. apply F.
  eapply Permutation_in; [symmetry; exact HP|exact Hx].
Qed.

Lemma sorted_exists (C : list chunk) n :
  (forall i, 1 <= i <= Z.of_nat n -> In i (map ck_seq C)) ->
  exists S, map ck_seq S = numbers n /\ incl S C.
Proof.
  induction n as [|n IH]; intros H.
  - exists []. split; [reflexivity|intros x []].
  - destruct IH as (S & E & I); [intros i Hi; apply H; lia|].
    specialize (H (Z.of_nat (Datatypes.S n)) ltac:(lia)).
    apply in_map_iff in H. destruct H as (c & Ec & Hc).
    exists (S ++ [c]). split.
    + rewrite map_app, E. unfold numbers. rewrite seq_S, map_app.
      cbn [map]. rewrite Ec. reflexivity.
    + intros x Hx. apply in_app_iff in Hx. destruct Hx as [Hx|[<-|[]]]; auto.
Qed.

(* ------------------------------------------------------------------ *)
(* Pass 1 *)
Definition chunk_ok (k : chunk) : Prop :=
  0 <= ck_count k < 256 /\ 0 <= ck_seq k < 256 /\ Z.of_nat (length (ck_data k)) <= 65519.

Lemma marker_chunk_ok m : marker_ok m -> marker_is_icc m = true -> chunk_ok (chunk_of m).
Proof.
  intros [HB HL] HI. apply marker_is_icc_true in HI. destruct HI as [_ HD].
  rewrite HD in HB, HL. unfold icc_string in *. 
  do 12 (apply Forall_inv_tail in HB).
  pose proof (Forall_inv HB) as H1. apply Forall_inv_tail in HB.
  pose proof (Forall_inv HB) as H2.
  cbn [app length] in HL. split; [exact H2|split; [exact H1|lia]].
Qed.

Record I1 (C : list chunk) (s : pass1) : Prop := {
  i_lp : length (p_present s) = 256%nat;
  i_ld : length (p_dlen s) = 256%nat;
  i_nil : C = [] -> p_num s = 0;
  i_num : forall c, In c C -> ck_count c = p_num s /\ 1 <= ck_seq c <= p_num s;
  i_rng : 0 <= p_num s <= 255;
  i_nd : NoDup (map ck_seq C);
  i_pr1 : forall i, In i (map ck_seq C) -> nth (Z.to_nat i) (p_present s) 0 = 1;
  i_pr0 : forall i, 0 <= i < 256 -> ~ In i (map ck_seq C) -> nth (Z.to_nat i) (p_present s) 0 = 0;
  i_dl : forall c, In c C -> nth (Z.to_nat (ck_seq c)) (p_dlen s) None = Some (Z.of_nat (length (ck_data c)));
  i_ok : Forall chunk_ok C
}.

Lemma aset_ok {A} (l : list A) i x :
  0 <= i < Z.of_nat (length l) -> aset l i x = Ret (upd l (Z.to_nat i) x).
Proof.
  intros H. unfold aset.
  destruct (Z.ltb_spec i 0); [lia|]. destruct (Z.leb_spec (Z.of_nat (length l)) i); [lia|].
  reflexivity.
Qed.

Lemma pass1_step_spec C s m :
  I1 C s -> marker_ok m -> marker_is_icc m = true ->
  exists r, pass1_step m s = Ret r /\
  match r with
  | None => forall D out, ~ assembled (C ++ chunk_of m :: D) out
  | Some s' => I1 (C ++ [chunk_of m]) s'
  end.
Proof.
  intros HI HM HT. pose proof (marker_chunk_ok _ HM HT) as (HC & HS & HL).
  pose proof (marker_is_icc_true _ HT) as [Hm Hd].
  unfold pass1_step. rewrite HT.
  assert (HLen : length (sm_data m) = (14 + length (ck_data (chunk_of m)))%nat).
  { rewrite Hd at 1. reflexivity. }
  rewrite (aget_nth _ _ 0) by lia.
  change (nth (Z.to_nat 13) (sm_data m) 0) with (ck_count (chunk_of m)).
  cbn [bind].
  set (k := chunk_of m) in *.
  assert (HInk : forall D, In k (C ++ k :: D)) by (intros; apply in_app_iff; right; left; reflexivity).
  destruct (negb (p_num s =? 0) && negb (p_num s =? ck_count k)) eqn:E1.
  { eexists; split; [reflexivity|]. intros D out HA.
    apply andb_true_iff in E1. rewrite !negb_true_iff, !Z.eqb_neq in E1. destruct E1 as [E0 E1].
    destruct (assembled_facts _ _ HA) as [_ HF].
    destruct C as [|c0 C0]; [apply E0; apply (i_nil _ _ HI); reflexivity|].
    destruct (i_num _ _ HI c0 ltac:(left; reflexivity)) as [Ec _].
    destruct (HF c0 ltac:(left; reflexivity)) as [Ec' _].
    destruct (HF k (HInk D)) as [Ek' _]. congruence. }
  set (num := if p_num s =? 0 then ck_count k else p_num s).
  assert (Hnum : num = ck_count k).
  { unfold num. destruct (Z.eqb_spec (p_num s) 0); [reflexivity|].
    cbn [negb andb] in E1. apply negb_false_iff, Z.eqb_eq in E1. exact E1. }
  rewrite (aget_nth _ _ 0) by lia.
  change (nth (Z.to_nat 12) (sm_data m) 0) with (ck_seq k). cbn [bind].
  destruct ((ck_seq k <=? 0) || (num <? ck_seq k)) eqn:E2.
  { eexists; split; [reflexivity|]. intros D out HA.
    destruct (assembled_facts _ _ HA) as [_ HF].
    destruct (HF k (HInk D)) as [Ek' Hr]. rewrite <- Ek' in Hr.
    apply orb_true_iff in E2. rewrite Z.leb_le, Z.ltb_lt in E2. lia. }
  apply orb_false_iff in E2. rewrite Z.leb_gt, Z.ltb_ge in E2.
  rewrite (aget_nth _ _ 0) by (rewrite (i_lp _ _ HI); lia). cbn [bind].
  destruct (in_dec Z.eq_dec (ck_seq k) (map ck_seq C)) as [HinC|HnC].
  { rewrite (i_pr1 _ _ HI _ HinC). cbn. eexists; split; [reflexivity|].
    intros D out HA. destruct (assembled_facts _ _ HA) as [HN _].
    rewrite map_app in HN. cbn in HN. apply NoDup_remove_2 in HN.
    apply HN. apply in_app_iff. left; exact HinC. }
  rewrite (i_pr0 _ _ HI) by (try exact HnC; lia). cbn [negb Z.eqb].
  rewrite aset_ok by (rewrite (i_lp _ _ HI); lia). cbn [bind].
  rewrite aset_ok by (rewrite (i_ld _ _ HI); lia). cbn [bind].
  eexists; split; [reflexivity|].
  assert (Hnew : forall c, In c (C ++ [k]) -> In c C \/ c = k).
  { intros c Hc. apply in_app_iff in Hc. destruct Hc as [Hc|[->|[]]]; auto. }
  constructor; cbn [p_num p_present p_dlen].
  - rewrite length_upd. apply (i_lp _ _ HI).
  - rewrite length_upd. apply (i_ld _ _ HI).
  - intros HH; apply app_eq_nil in HH; destruct HH; discriminate.
  - intros c Hc. destruct (Hnew _ Hc) as [Hc'| ->]; [|split; [congruence|lia]].
    destruct (i_num _ _ HI c Hc') as [Ec1 Ec2].
    assert (num = p_num s).
    { unfold num. destruct (Z.eqb_spec (p_num s) 0); [lia|reflexivity]. }
    split; [congruence|lia].
  - lia.
  - rewrite map_app. cbn [map]. apply Permutation_NoDup with (ck_seq k :: map ck_seq C).
    + apply Permutation_cons_append.
    + constructor; [exact HnC|apply (i_nd _ _ HI)].
  - intros i Hi. rewrite map_app in Hi. apply in_app_iff in Hi. cbn [map In] in Hi.
    destruct (Z.eq_dec i (ck_seq k)) as [->|Hne].
    + apply nth_upd_eq. rewrite (i_lp _ _ HI). lia.
    + destruct Hi as [Hi|[Hi|[]]]; [|congruence].
      assert (0 <= i).
      { apply in_map_iff in Hi. destruct Hi as (c & <- & Hc).
        destruct (i_num _ _ HI c Hc). lia. }
      rewrite nth_upd_neq by lia. apply (i_pr1 _ _ HI); exact Hi.
  - intros i Hi Hni. rewrite map_app in Hni. cbn [map] in Hni.
    assert (i <> ck_seq k /\ ~ In i (map ck_seq C)) as [H1 H2].
    { split; intro HH; apply Hni; apply in_app_iff; [right; left; auto|left; exact HH]. }
    rewrite nth_upd_neq by lia. apply (i_pr0 _ _ HI); auto.
  - intros c Hc. destruct (Hnew _ Hc) as [Hc'| ->].
    + assert (ck_seq c <> ck_seq k).
      { intro HH. apply HnC. rewrite <- HH. apply in_map; exact Hc'. }
      destruct (i_num _ _ HI c Hc') as [_ Ec2].
      rewrite nth_upd_neq by lia. apply (i_dl _ _ HI); exact Hc'.
    + rewrite nth_upd_eq by (rewrite (i_ld _ _ HI); lia). f_equal.
      unfold ICC_OVERHEAD_LEN. lia.
  - apply Forall_app. split; [apply (i_ok _ _ HI)|]. constructor; [|constructor].
    split; [exact HC|split; [exact HS|exact HL]].
Qed.

Lemma pass1_loop_spec l : forall C s,
  I1 C s -> Forall marker_ok l ->
  exists r, pass1_loop l s = Ret r /\
  match r with
  | None => forall out, ~ assembled (C ++ chunks l) out
  | Some s' => I1 (C ++ chunks l) s'
  end.
Proof.
  induction l as [|m l IH]; intros C s HI HM.
  - eexists; split; [reflexivity|]. cbn. rewrite app_nil_r. exact HI.
  - inv HM. cbn [pass1_loop]. unfold chunks; cbn [filter]. destruct (marker_is_icc m) eqn:E.
    + destruct (pass1_step_spec C s m HI H1 E) as (r & -> & Hr). cbn [bind map].
      destruct r as [s'|].
      * destruct (IH _ _ Hr H2) as (r' & -> & Hr'). exists r'. split; [reflexivity|].
        rewrite <- app_assoc in Hr'. exact Hr'.
      * eexists; split; [reflexivity|]. intros out. apply Hr.
    + unfold pass1_step. rewrite E. cbn [bind]. apply (IH C s HI H2).
Qed.

Lemma I1_init : I1 [] (mkP1 0 (repeat 0 256) (repeat None 256)).
Proof.
  constructor; cbn [p_num p_present p_dlen].
  - apply repeat_length.
  - apply repeat_length.
  - reflexivity.
  - intros c [].
  - lia.
  - constructor.
  - intros i [].
  - intros i Hi _. apply nth_repeat.
  - intros c [].
  - constructor.
Qed.

(* ------------------------------------------------------------------ *)
(* Pass 2 *)
Lemma aget_init_ok l i x :
  0 <= i < Z.of_nat (length l) -> nth (Z.to_nat i) l None = Some x -> aget_init l i = Ret x.
Proof. intros H E. unfold aget_init. rewrite (aget_nth _ _ None) by exact H. rewrite E. reflexivity. Qed.

Definition sumlen (S : list chunk) : Z := Z.of_nat (length (concat (map ck_data S))).

Lemma sumlen_app S T : sumlen (S ++ T) = sumlen S + sumlen T.
Proof. unfold sumlen. rewrite map_app, concat_app, app_length. lia. Qed.

Lemma sumlen_one c : sumlen [c] = Z.of_nat (length (ck_data c)).
Proof. unfold sumlen. cbn [map concat]. rewrite app_nil_r. reflexivity. Qed.

Lemma sumlen_bound S : Forall chunk_ok S -> 0 <= sumlen S <= 65519 * Z.of_nat (length S).
Proof.
  induction 1 as [|c S Hc H IH]; [cbn; lia|].
  change (c :: S) with ([c] ++ S). rewrite sumlen_app, app_length, sumlen_one.
  destruct Hc as (_ & _ & HL). cbn [length]. lia.
Qed.

Lemma pass2_missing C s : I1 C s -> forall n seq off total,
  length off = 256%nat -> 1 <= seq -> seq + Z.of_nat n <= 256 ->
  (exists i, seq <= i < seq + Z.of_nat n /\ ~ In i (map ck_seq C)) ->
  pass2_loop n seq s off total = Ret None.
Proof.
  intros HI. induction n as [|n IH]; intros seq off total HO H1 H2 (i & Hi & Hni); [lia|].
  cbn [pass2_loop]. rewrite (aget_nth _ _ 0) by (rewrite (i_lp _ _ HI); lia). cbn [bind].
  destruct (in_dec Z.eq_dec seq (map ck_seq C)) as [Hin|Hn].
  - rewrite (i_pr1 _ _ HI _ Hin). cbn [Z.eqb].
    rewrite aset_ok by lia. cbn [bind].
    apply in_map_iff in Hin. destruct Hin as (c & Ec & Hc).
    rewrite (aget_init_ok _ _ (Z.of_nat (length (ck_data c)))).
    + cbn [bind]. apply IH; [rewrite length_upd; exact HO|lia|lia|].
      exists i. split; [|exact Hni]. assert (i <> seq); [|lia].
      intros ->. apply Hni. rewrite <- Ec. apply in_map; exact Hc.
    + rewrite (i_ld _ _ HI). lia.
    + rewrite <- Ec. apply (i_dl _ _ HI); exact Hc.
  - rewrite (i_pr0 _ _ HI) by (try exact Hn; lia). reflexivity.
Qed.

Definition off_of (S : list chunk) (off : list (option Z)) : Prop :=
  forall S1 c S2, S = S1 ++ c :: S2 ->
  nth (Z.to_nat (Z.of_nat (length S1) + 1)) off None = Some (sumlen S1).

Lemma pass2_ok C s : I1 C s -> forall S2 S1 off,
  incl (S1 ++ S2) C -> (length (S1 ++ S2) <= 255)%nat ->
  map ck_seq (S1 ++ S2) = numbers (length (S1 ++ S2)) ->
  length off = 256%nat -> off_of S1 off ->
  exists off', pass2_loop (length S2) (Z.of_nat (length S1) + 1) s off (sumlen S1)
    = Ret (Some (off', sumlen (S1 ++ S2))) /\ length off' = 256%nat /\ off_of (S1 ++ S2) off'.
Proof.
  intros HI. induction S2 as [|c S2 IH]; intros S1 off Hincl HL HS HO HF.
  - rewrite app_nil_r in *. exists off. split; [reflexivity|]. split; assumption.
  - cbn [length pass2_loop].
    assert (Hc : In c C) by (apply Hincl; apply in_app_iff; right; left; reflexivity).
    assert (Hl : (length S1 < 255)%nat) by (rewrite app_length in HL; cbn in HL; lia).
    assert (Hsq : ck_seq c = Z.of_nat (length S1) + 1).
    { assert (E : nth (length S1) (map ck_seq (S1 ++ c :: S2)) 0 = ck_seq c).
      { rewrite map_app, app_nth2 by (rewrite map_length; lia). rewrite map_length, Nat.sub_diag.
        reflexivity. }
      rewrite HS in E. unfold numbers in E.
      rewrite (nth_indep _ 0 (Z.of_nat 0)) in E
        by (rewrite map_length, seq_length, app_length; cbn; lia).
      rewrite map_nth, seq_nth in E by (rewrite app_length; cbn; lia). lia. }
    rewrite (aget_nth _ _ 0) by (rewrite (i_lp _ _ HI); lia). cbn [bind].
    rewrite (i_pr1 _ _ HI) by (rewrite <- Hsq; apply in_map; exact Hc). cbn [Z.eqb].
    rewrite aset_ok by lia. cbn [bind].
    rewrite (aget_init_ok _ _ (Z.of_nat (length (ck_data c)))).
    2:{ rewrite (i_ld _ _ HI). lia. }
    2:{ rewrite <- Hsq. apply (i_dl _ _ HI); exact Hc. }
    cbn [bind].
    replace (S1 ++ c :: S2) with ((S1 ++ [c]) ++ S2) in * by (rewrite <- app_assoc; reflexivity).
    assert (Hsum : u32 (sumlen S1 + Z.of_nat (length (ck_data c))) = sumlen (S1 ++ [c])).
    { rewrite sumlen_app, sumlen_one.
      unfold u32. apply Z.mod_small.
      assert (HB : Forall chunk_ok (S1 ++ [c])).
      { apply Forall_forall. intros x Hx. pose proof (i_ok _ _ HI) as HK.
        rewrite Forall_forall in HK. apply HK, Hincl. apply in_app_iff. left; exact Hx. }
      apply sumlen_bound in HB. rewrite sumlen_app, app_length, sumlen_one in HB.
      cbn [length] in HB. lia. }
    rewrite Hsum.
    replace (Z.of_nat (length S1) + 1 + 1) with (Z.of_nat (length (S1 ++ [c])) + 1)
      by (rewrite app_length; cbn; lia).
    apply IH; auto.
    + rewrite length_upd; exact HO.
    + intros T1 d T2 E.
      destruct T2 as [|e T2 _] using rev_ind.
      * apply app_inj_tail in E. destruct E as [<- <-].
        apply nth_upd_eq. lia.
      * rewrite app_comm_cons, app_assoc in E. apply app_inj_tail in E. destruct E as [E _].
        assert (length T1 < length S1)%nat by (rewrite E, app_length; cbn; lia).
        rewrite nth_upd_neq by lia. eapply HF; exact E.
Qed.

(* ------------------------------------------------------------------ *)
(* Pass 3 *)
Lemma upd_app_mid {A} (a : list A) x b y :
  upd (a ++ x :: b) (length a) y = a ++ y :: b.
Proof. induction a as [|h a IH]; cbn; [reflexivity|f_equal; exact IH]. Qed.

Lemma copy_loop_spec : forall (d : list Z) src pre (a b c : list (option Z)) ,
  src = pre ++ d -> length b = length d ->
  copy_loop (length d) src (Z.of_nat (length pre)) (a ++ b ++ c) (Z.of_nat (length a))
  = Ret (a ++ map Some d ++ c).
Proof.
  induction d as [|v d IH]; intros src pre a b c Hs Hb.
  - destruct b; [reflexivity|discriminate].
  - destruct b as [|x b]; [discriminate|]. cbn [length] in Hb. cbn [length copy_loop].
    rewrite (aget_nth _ _ 0) by (rewrite Hs, app_length; cbn; lia).
    rewrite Nat2Z.id, Hs, app_nth2, Nat.sub_diag by lia. cbn [nth bind].
    rewrite aset_ok by (rewrite app_length; cbn; lia). cbn [bind].
    rewrite Nat2Z.id. cbn [app]. rewrite upd_app_mid.
    specialize (IH (pre ++ v :: d) (pre ++ [v]) (a ++ [Some v]) b c).
    rewrite !app_length in IH. cbn [length] in IH.
    replace (Z.of_nat (length pre) + 1) with (Z.of_nat (length pre + 1)) by lia.
    replace (Z.of_nat (length a) + 1) with (Z.of_nat (length a + 1)) by lia.
    rewrite <- !app_assoc in IH. cbn [app] in IH. rewrite IH; [|reflexivity|lia].
    reflexivity.
Qed.

Definition image (done : list Z) (k : chunk) : list (option Z) :=
  if in_dec Z.eq_dec (ck_seq k) done then map Some (ck_data k)
  else repeat None (length (ck_data k)).

Lemma length_image d k : length (image d k) = length (ck_data k).
Proof. unfold image. destruct (in_dec _ _ _); [apply map_length|apply repeat_length]. Qed.

Lemma length_concat_image d S : Z.of_nat (length (concat (map (image d) S))) = sumlen S.
Proof.
  unfold sumlen. f_equal. induction S as [|k S IH]; [reflexivity|].
  cbn. rewrite !app_length, length_image, IH. reflexivity.
Qed.

Lemma image_ext d s S : ~ In s (map ck_seq S) ->
  map (image (s :: d)) S = map (image d) S.
Proof.
  intros H. apply map_ext_in. intros k Hk. unfold image.
  assert (ck_seq k <> s) by (intros <-; apply H; apply in_map; exact Hk).
  destruct (in_dec Z.eq_dec (ck_seq k) d) as [i|n].
  - destruct (in_dec Z.eq_dec (ck_seq k) (s :: d)) as [_|n]; [reflexivity|].
    exfalso; apply n; right; exact i.
  - destruct (in_dec Z.eq_dec (ck_seq k) (s :: d)) as [[i|i]|_]; [congruence|contradiction|reflexivity].
Qed.

Lemma pass3_spec C s S off : I1 C s ->
  Permutation S C -> map ck_seq S = numbers (length S) ->
  length off = 256%nat -> off_of S off ->
  forall l done, Forall marker_ok l -> incl (chunks l) S ->
  NoDup (map ck_seq (chunks l)) ->
  (forall x, In x (map ck_seq (chunks l)) -> ~ In x done) ->
  exists done',
  pass3_loop l s off (concat (map (image done) S)) = Ret (concat (map (image done') S)) /\
  (forall x, In x done' <-> In x done \/ In x (map ck_seq (chunks l))).
Proof.
  intros HI HP HS HO HF. induction l as [|m l IH]; intros done HM Hincl HN Hdis.
  - exists done. split; [reflexivity|]. cbn. tauto.
  - inv HM. cbn [pass3_loop]. unfold chunks in *. cbn [filter] in *.
    destruct (marker_is_icc m) eqn:E; [|apply IH; auto].
    pose proof (marker_is_icc_true _ E) as [_ Hd].
    cbn [map] in *. set (k := chunk_of m) in *.
    assert (HkS : In k S) by (apply Hincl; left; reflexivity).
    assert (HkC : In k C) by (eapply Permutation_in; eauto).
    destruct (i_num _ _ HI k HkC) as [_ Hkr]. pose proof (i_rng _ _ HI) as Hr.
    rewrite (aget_nth _ _ 0) by (rewrite Hd; cbn [icc_string app length]; lia).
    change (nth (Z.to_nat 12) (sm_data m) 0) with (ck_seq k). cbn [bind].
    destruct (in_split _ _ HkS) as (S1 & S2 & ES).
    assert (Hsq : ck_seq k = Z.of_nat (length S1) + 1).
    { assert (EE : nth (length S1) (map ck_seq S) 0 = ck_seq k).
      { rewrite ES, map_app, app_nth2 by (rewrite map_length; lia). rewrite map_length, Nat.sub_diag.
        reflexivity. }
      rewrite HS in EE. unfold numbers in EE.
      assert (length S1 < length S)%nat by (rewrite ES, app_length; cbn; lia).
      rewrite (nth_indep _ 0 (Z.of_nat 0)) in EE by (rewrite map_length, seq_length; lia).
      rewrite map_nth, seq_nth in EE by lia. lia. }
    rewrite (aget_init_ok _ _ (sumlen S1)).
    2:{ lia. }
    2:{ rewrite Hsq. apply (HF S1 k S2 ES). }
    cbn [bind].
    rewrite (aget_init_ok _ _ (Z.of_nat (length (ck_data k)))).
    2:{ rewrite (i_ld _ _ HI). lia. }
    2:{ apply (i_dl _ _ HI); exact HkC. }
    cbn [bind]. rewrite Nat2Z.id.
    assert (Hndone : ~ In (ck_seq k) done) by (apply Hdis; left; reflexivity).
    assert (HND : NoDup (map ck_seq S)) by (rewrite HS; apply nodup_numbers).
    rewrite ES, map_app in HND. cbn in HND. apply NoDup_remove_2 in HND.
    assert (Himg : concat (map (image done) S)
       = concat (map (image done) S1) ++ image done k ++ concat (map (image done) S2)).
    { rewrite ES, map_app, concat_app. reflexivity. }
    rewrite Himg, <- (length_concat_image done S1).
    change ICC_OVERHEAD_LEN with (Z.of_nat 14).
    change 14%nat with (length (icc_string ++ [ck_seq k; ck_count k])).
    rewrite (copy_loop_spec (ck_data k)); [|rewrite Hd, <- app_assoc; reflexivity|apply length_image].
    cbn [bind].
    apply NoDup_cons_iff in HN. destruct HN as [HN1 HN2].
    destruct (IH (ck_seq k :: done)) as (done' & HE & Hd').
    + exact H2.
    + intros x Hx. apply Hincl. right; exact Hx.
    + exact HN2.
    + intros x Hx [<-|HH]; [contradiction|]. apply (Hdis x); [right; exact Hx|exact HH].
    + exists done'. split.
      * rewrite <- HE. f_equal. rewrite ES, map_app, concat_app. cbn [map concat].
        rewrite !image_ext by (intro HH; apply HND; apply in_app_iff; auto).
        f_equal. f_equal. unfold image.
        destruct (in_dec Z.eq_dec (ck_seq k) (ck_seq k :: done)) as [_|n]; [reflexivity|].
        exfalso; apply n; left; reflexivity.
      * intros x. rewrite Hd'. cbn [In]. tauto.
Qed.

Lemma image_nil S : concat (map (image []) S) = repeat None (Z.to_nat (sumlen S)).
Proof.
  unfold sumlen. rewrite Nat2Z.id. induction S as [|k S IH]; [reflexivity|].
  cbn. rewrite IH, app_length, repeat_app. reflexivity.
Qed.

Lemma image_all done S : (forall x, In x (map ck_seq S) -> In x done) ->
  concat (map (image done) S) = map Some (concat (map ck_data S)).
Proof.
  induction S as [|k S IH]; intros H; [reflexivity|]. cbn. rewrite map_app, IH.
  - f_equal. unfold image. destruct (in_dec _ _ _) as [_|n]; [reflexivity|].
    exfalso; apply n, H; left; reflexivity.
  - intros x Hx. apply H; right; exact Hx.
Qed.

(* ------------------------------------------------------------------ *)
Definition read_post (C : list chunk) (r : icc_result) : Prop :=
  match r with
  | IccNone => C = []
  | IccBogus => C <> [] /\ forall d, assembled C d -> d = []
  | IccFound mem => exists d, mem = map Some d /\ d <> [] /\ assembled C d
  end.

Lemma read_spec state l :
  202 <= state -> Forall marker_ok l ->
  exists r, jpeg_read_icc_profile state true true l = Ret r /\ read_post (chunks l) r.
Proof.
  intros Hs HM. unfold jpeg_read_icc_profile. cbn [negb].
  destruct (Z.ltb_spec state 202); [lia|].
  destruct (pass1_loop_spec l [] _ I1_init HM) as (r & -> & Hr). cbn [bind app] in *.
  destruct r as [s|].
  2:{ eexists; split; [reflexivity|]. split.
      - intros HC. apply (Hr []). rewrite HC. exists []. repeat split; constructor.
      - intros d Hd. exfalso. apply (Hr d Hd). }
  set (C := chunks l) in *. pose proof (i_rng _ _ Hr) as Hrng.
  destruct (Z.eqb_spec (p_num s) 0) as [H0|H0].
  { eexists; split; [reflexivity|]. cbn. destruct C as [|c C']; [reflexivity|].
    destruct (i_num _ _ Hr c ltac:(left; reflexivity)); lia. }
  assert (HCn : C <> []) by (intros HC; apply H0, (i_nil _ _ Hr HC)).
  assert (Hdec : (exists i, 1 <= i < 1 + Z.of_nat (Z.to_nat (p_num s)) /\ ~ In i (map ck_seq C)) \/
                 (forall i, 1 <= i <= Z.of_nat (Z.to_nat (p_num s)) -> In i (map ck_seq C))).
  { generalize (Z.to_nat (p_num s)) as n. intros n. induction n as [|n IH].
    - right. intros i Hi; lia.
    - destruct IH as [(i & Hi & Hn)|HA].
      + left. exists i. split; [lia|exact Hn].
      + destruct (in_dec Z.eq_dec (Z.of_nat (S n)) (map ck_seq C)) as [Hin|Hn].
        * right. intros i Hi. destruct (Z.eq_dec i (Z.of_nat (S n))) as [->|]; [exact Hin|].
          apply HA; lia.
        * left. exists (Z.of_nat (S n)). split; [lia|exact Hn]. }
  destruct Hdec as [Hmiss|Hall].
  { rewrite (pass2_missing C s Hr) by (try exact Hmiss; try apply repeat_length; lia).
    cbn [bind]. eexists; split; [reflexivity|]. split; [exact HCn|].
    intros d Hd. exfalso.
    destruct (assembled_facts _ _ Hd) as [_ HF].
    destruct Hmiss as (i & Hi & Hn). destruct C as [|c C']; [congruence|].
    destruct (i_num _ _ Hr c ltac:(left; reflexivity)) as [E1 _].
    destruct (HF c ltac:(left; reflexivity)) as [E2 _].
    destruct Hd as (S & HP & HS & _). apply Hn.
    eapply Permutation_in; [apply Permutation_map; exact HP|].
    rewrite HS. apply in_numbers. lia. }
  destruct (sorted_exists C _ Hall) as (S & HS & Hincl).
  assert (HlS : length S = Z.to_nat (p_num s)).
  { rewrite <- (map_length ck_seq), HS, length_numbers. reflexivity. }
  assert (HP : Permutation S C).
  { apply NoDup_Permutation.
    - apply (NoDup_map_inv ck_seq). rewrite HS. apply nodup_numbers.
    - apply (NoDup_map_inv ck_seq). apply (i_nd _ _ Hr).
    - intros x. split; [apply Hincl|]. intros Hx.
      destruct (i_num _ _ Hr x Hx) as [_ Hxr].
      assert (Hin : In (ck_seq x) (map ck_seq S)) by (rewrite HS; apply in_numbers; lia).
      apply in_map_iff in Hin. destruct Hin as (y & Ey & Hy).
      rewrite <- (nodup_map_inj ck_seq C y x); auto. apply (i_nd _ _ Hr). }
  assert (HlC : length C = Z.to_nat (p_num s)) by (rewrite <- (Permutation_length HP); exact HlS).
  assert (HA : assembled C (concat (map ck_data S))).
  { exists S. split; [exact HP|]. split; [rewrite HS, HlC; reflexivity|]. split; [|reflexivity].
    apply Forall_forall. intros x Hx. destruct (i_num _ _ Hr x Hx) as [E _]. lia. }
  rewrite <- HlS in HS. rewrite <- HlS.
  destruct (pass2_ok C s Hr S [] (repeat None 256)) as (off & HE & HO & HF).
  { exact Hincl. }
  { cbn [app]. lia. }
  { exact HS. }
  { apply repeat_length. }
  { intros S1 c S2 E. destruct S1; discriminate. }
  cbn [length app] in HE. change (Z.of_nat 0 + 1) with 1 in HE. change (sumlen []) with 0 in HE.
  rewrite HE. cbn [bind app].
  destruct (Z.eqb_spec (sumlen S) 0) as [Hz|Hz].
  { eexists; split; [reflexivity|]. split; [exact HCn|]. intros d Hd.
    rewrite (assembled_unique _ _ _ Hd HA). unfold sumlen in Hz.
    apply length_zero_iff_nil. lia. }
  rewrite <- image_nil.
  destruct (pass3_spec C s S off Hr HP HS HO HF l [] HM) as (done & HE3 & Hdone).
  { intros x Hx. eapply Permutation_in; [symmetry; exact HP|exact Hx]. }
  { apply (i_nd _ _ Hr). }
  { intros x _ []. }
  cbn [negb]. rewrite HE3. cbn [bind].
  eexists; split; [reflexivity|]. exists (concat (map ck_data S)). split; [|split; [|exact HA]].
  - apply image_all. intros x Hx. apply Hdone. right.
    eapply Permutation_in; [apply Permutation_map; exact HP|exact Hx].
  - intros E. apply Hz. unfold sumlen. rewrite E. reflexivity.
Qed.
