(* P_Script.v -- proofs about scan-script validation *)
From Coq Require Import Sorted.
From Verif Require Import Base S_Script M_Script.

Definition scan_of (s : scan_info) : scan :=
  mkScan (map (fun i => nth i (si_idx s) (-1)) (seq 0 (Z.to_nat (si_n s)))) (si_Ss s) (si_Se s) (si_Ah s) (si_Al s).

Fixpoint mfold {A B} (F : A -> B -> outcome B) (l : list A) (st : B) : outcome B :=
  match l with [] => Ret st | a :: r => st' <- F a st ;; mfold F r st' end.

Lemma for_idx {B} (idx : list Z) (F : Z -> B -> outcome B) n j st :
  (j + n <= length idx)%nat ->
  for_loop n (Z.of_nat j) (fun ci st => t <- aget idx ci ;; F t st) st =
  mfold F (map (fun i => nth i idx (-1)) (seq j n)) st.
Proof.
  revert j st; induction n; intros j st H; cbn [for_loop seq map mfold]; [reflexivity|].
  rewrite (aget_nth idx _ (-1)) by lia. cbn [bind]. rewrite Nat2Z.id.
  destruct (F (nth j idx (-1)) st); cbn [bind]; auto.
  replace (Z.of_nat j + 1) with (Z.of_nat (S j)) by lia. apply IHn. lia.
Qed.

Lemma check_indexes_spec nc s : length (si_idx s) = 4%nat ->
  (check_indexes nc s = Ret tt <-> component_list_ok nc (scan_of s)) /\
  check_indexes nc s <> Undef.
Proof.
  intros H4. destruct s as [n idx Ss Se Ah Al]. cbn [si_idx] in H4.
  destruct idx as [|a [|b [|c [|d [|e idx]]]]]; cbn in H4; try discriminate.
  unfold check_indexes, scan_of, component_list_ok; cbn [si_n si_idx si_Ss si_Se si_Ah si_Al comps].
  destruct (Z.leb_spec n 0) as [Hn|Hn]; cbn [orb].
  { split; [|discriminate]. split; [discriminate|]. intros [[Hl _] _].
    rewrite map_length, seq_length in Hl. lia. }
  destruct (Z.ltb_spec 4 n) as [Hn4|Hn4].
  { split; [|discriminate]. split; [discriminate|]. intros [[_ Hl] _].
    rewrite map_length, seq_length in Hl. lia. }
  assert (Hc : n = 1 \/ n = 2 \/ n = 3 \/ n = 4) by lia.
  
  destruct Hc as [->|[->|[->| ->]]].
  all: try change (Z.to_nat 1) with 1%nat; try change (Z.to_nat 2) with 2%nat;
    try change (Z.to_nat 3) with 3%nat; try change (Z.to_nat 4) with 4%nat.
  all: cbn -[Z.ltb Z.leb].
  all: change (aget [a; b; c; d] 0) with (Ret a); try change (aget [a; b; c; d] 1) with (Ret b);
    try change (aget [a; b; c; d] 2) with (Ret c); try change (aget [a; b; c; d] 3) with (Ret d);
    cbn -[Z.ltb Z.leb].
  all: repeat match goal with |- context [?x <? ?y] => destruct (Z.ltb_spec x y); cbn -[Z.ltb Z.leb]; try lia
                         | |- context [?x <=? ?y] => destruct (Z.leb_spec x y); cbn -[Z.ltb Z.leb]; try lia end.
  all: (split; [split; [try discriminate; intros _|]|discriminate]).
  all: try (intros (_ & Hr & Hs); exfalso;
            repeat match goal with Hs : StronglySorted _ (_ :: _) |- _ => inversion Hs; subst; clear Hs end;
            repeat match goal with Hf : Forall _ (_ :: _) |- _ => inversion Hf; subst; clear Hf end;
            try (pose proof (Hr a ltac:(cbn; tauto))); try (pose proof (Hr b ltac:(cbn; tauto)));
            try (pose proof (Hr c ltac:(cbn; tauto))); try (pose proof (Hr d ltac:(cbn; tauto))); lia).
  all: try (intros _; reflexivity).
  all: split; [lia|split]; [intros x Hx; cbn in Hx; lia|].
  all: repeat constructor; lia.
Qed.

(* ---- the coefficient loop ---- *)
Definition coef_ok (s : scan_info) (v : Z) : bool :=
  if v <? 0 then si_Ah s =? 0 else (si_Ah s =? v) && (si_Al s =? si_Ah s - 1).
Fixpoint setrange (n : nat) (i : nat) (x : Z) (row : list Z) : list Z :=
  match n with O => row | S m => setrange m (S i) x (upd row i x) end.

Lemma length_setrange n i x row : length (setrange n i x row) = length row.
Proof. revert i row; induction n; intros; cbn; auto. rewrite IHn. apply length_upd. Qed.
Lemma nth_setrange n i x row k d : (i + n <= length row)%nat ->
  nth k (setrange n i x row) d = if ((i <=? k) && (k <? i + n))%nat then x else nth k row d.
Proof.
  revert i row; induction n; intros i row H; cbn [setrange].
  - destruct (Nat.leb_spec i k), (Nat.ltb_spec k (i + 0)); cbn; auto; lia.
  - rewrite IHn by (rewrite length_upd; lia).
    destruct (Nat.eq_dec i k) as [->|Hne].
    + rewrite nth_upd_eq by lia.
      destruct (Nat.leb_spec (S k) k), (Nat.leb_spec k k), (Nat.ltb_spec k (k + S n)); cbn; auto; try lia.
    + rewrite nth_upd_neq by lia.
      destruct (Nat.leb_spec (S i) k), (Nat.leb_spec i k), (Nat.ltb_spec k (S i + n)), (Nat.ltb_spec k (i + S n)); cbn; auto; lia.
Qed.

Lemma coefs_loop s n i row :
  (i + n <= length row)%nat ->
  for_loop n (Z.of_nat i)
    (fun coefi row =>
       lb <- aget row coefi ;;
       if lb <? 0 then
         if negb (si_Ah s =? 0) then Error JERR_BAD_PROG_SCRIPT else aset row coefi (si_Al s)
       else
         if negb (si_Ah s =? lb) || negb (si_Al s =? si_Ah s - 1) then Error JERR_BAD_PROG_SCRIPT
         else aset row coefi (si_Al s)) row
  = if forallb (fun k => coef_ok s (nth k row (-1))) (seq i n)
    then Ret (setrange n i (si_Al s) row) else Error JERR_BAD_PROG_SCRIPT.
Proof.
  revert i row; induction n; intros i row H; cbn [for_loop seq forallb setrange]; [reflexivity|].
  rewrite (aget_nth row _ (-1)) by lia. cbn [bind]. rewrite Nat2Z.id.
  assert (E : (if nth i row (-1) <? 0
      then if negb (si_Ah s =? 0) then Error JERR_BAD_PROG_SCRIPT else aset row (Z.of_nat i) (si_Al s)
      else if negb (si_Ah s =? nth i row (-1)) || negb (si_Al s =? si_Ah s - 1)
           then Error JERR_BAD_PROG_SCRIPT else aset row (Z.of_nat i) (si_Al s)) =
      if coef_ok s (nth i row (-1)) then Ret (upd row i (si_Al s)) else Error JERR_BAD_PROG_SCRIPT).
  { unfold coef_ok. rewrite aset_ok by lia. rewrite Nat2Z.id.
    destruct (nth i row (-1) <? 0); destruct (si_Ah s =? 0), (si_Ah s =? nth i row (-1)), (si_Al s =? si_Ah s - 1); reflexivity. }
  rewrite E. destruct (coef_ok s (nth i row (-1))); cbn [bind andb]; [|reflexivity].
  replace (Z.of_nat i + 1) with (Z.of_nat (S i)) by lia.
  rewrite IHn by (rewrite length_upd; lia).
  replace (forallb (fun k => coef_ok s (nth k (upd row i (si_Al s)) (-1))) (seq (S i) n))
    with (forallb (fun k => coef_ok s (nth k row (-1))) (seq (S i) n)); [reflexivity|].
  assert (G : forall l, (forall k, In k l -> (i < k)%nat) ->
     forallb (fun k => coef_ok s (nth k row (-1))) l = forallb (fun k => coef_ok s (nth k (upd row i (si_Al s)) (-1))) l).
  { induction l as [|k l IHl]; intros Hl; cbn; auto. rewrite IHl by (intros; apply Hl; now right).
    rewrite nth_upd_neq; auto. specialize (Hl k (or_introl eq_refl)). lia. }
  apply G. intros k Hk. apply in_seq in Hk. lia.
Qed.

Definition band (s : scan_info) : list nat := seq (Z.to_nat (si_Ss s)) (Z.to_nat (si_Se s - si_Ss s + 1)).
Definition newrow (s : scan_info) (row : list Z) : list Z :=
  setrange (Z.to_nat (si_Se s - si_Ss s + 1)) (Z.to_nat (si_Ss s)) (si_Al s) row.
Lemma check_coefs_spec s row : length row = 64%nat -> 0 <= si_Ss s <= si_Se s -> si_Se s <= 63 ->
  check_coefs s row = if forallb (fun k => coef_ok s (nth k row (-1))) (band s)
                      then Ret (newrow s row) else Error JERR_BAD_PROG_SCRIPT.
Proof.
  intros H64 H1 H2. unfold check_coefs, band, newrow.
  rewrite <- coefs_loop by lia. now rewrite Z2Nat.id by lia.
Qed.

(* ---- the component loop ---- *)
Definition comp_ok (s : scan_info) (row : list Z) : bool :=
  negb (negb (si_Ss s =? 0) && (nth 0 row (-1) <? 0)) && forallb (fun k => coef_ok s (nth k row (-1))) (band s).

Definition pstep (s : scan_info) (thisi : Z) (lb : list (list Z)) : outcome (list (list Z)) :=
  row <- aget lb thisi ;;
  dc <- aget row 0 ;;
  if negb (si_Ss s =? 0) && (dc <? 0) then Error JERR_BAD_PROG_SCRIPT
  else row' <- check_coefs s row ;; aset lb thisi row'.

Lemma comps_loop s l lb : 0 <= si_Ss s <= si_Se s -> si_Se s <= 63 ->
  Forall (fun row => length row = 64%nat) lb ->
  StronglySorted Z.lt l -> (forall c, In c l -> 0 <= c < Z.of_nat (length lb)) ->
  if forallb (fun c => comp_ok s (nth (Z.to_nat c) lb [])) l
  then exists lb', mfold (pstep s) l lb = Ret lb' /\
       length lb' = length lb /\ Forall (fun row => length row = 64%nat) lb' /\
       forall c, 0 <= c < Z.of_nat (length lb) ->
         nth (Z.to_nat c) lb' [] = if existsb (Z.eqb c) l then newrow s (nth (Z.to_nat c) lb []) else nth (Z.to_nat c) lb []
  else mfold (pstep s) l lb = Error JERR_BAD_PROG_SCRIPT.
Proof.
  intros H1 H2. revert lb. induction l as [|c l IH]; intros lb Hr Hs Hb.
  - exists lb. cbn. auto.
  - pose proof (Hb c (or_introl eq_refl)) as Hc.
    inversion Hs as [|? ? Hs' Hf]; subst.
    set (row := nth (Z.to_nat c) lb []).
    assert (Hrow : length row = 64%nat).
    { unfold row. rewrite Forall_forall in Hr. apply Hr. apply nth_In. lia. }
    assert (E : pstep s c lb = if comp_ok s row then Ret (upd lb (Z.to_nat c) (newrow s row)) else Error JERR_BAD_PROG_SCRIPT).
    { unfold pstep. rewrite (aget_nth lb c []) by lia. fold row. cbn [bind].
      rewrite (aget_nth row 0 (-1)) by lia. cbn [bind Z.to_nat]. unfold comp_ok.
      destruct (negb (si_Ss s =? 0) && (nth 0 row (-1) <? 0)); cbn [negb andb]; [reflexivity|].
      rewrite check_coefs_spec by auto.
      destruct (forallb _ (band s)); cbn [bind]; [|reflexivity]. now rewrite aset_ok by lia. }
    cbn [mfold forallb]. rewrite E. fold row.
    destruct (comp_ok s row); cbn [bind andb]; [|reflexivity].
    assert (G : forallb (fun c0 => comp_ok s (nth (Z.to_nat c0) (upd lb (Z.to_nat c) (newrow s row)) [])) l
              = forallb (fun c0 => comp_ok s (nth (Z.to_nat c0) lb [])) l).
    { clear - Hf Hc Hb. rewrite Forall_forall in Hf.
      assert (G : forall l', (forall x, In x l' -> c < x) ->
        forallb (fun c0 => comp_ok s (nth (Z.to_nat c0) (upd lb (Z.to_nat c) (newrow s row)) [])) l'
        = forallb (fun c0 => comp_ok s (nth (Z.to_nat c0) lb [])) l').
      { induction l' as [|x l' IHl]; intros Hl; cbn; auto.
        rewrite IHl by (intros; apply Hl; now right).
        rewrite nth_upd_neq; auto. specialize (Hl x (or_introl eq_refl)). lia. }
      apply G. auto. }
    specialize (IH (upd lb (Z.to_nat c) (newrow s row))). rewrite G in IH.
    destruct (forallb _ l).
    + destruct IH as (lb' & E' & Hl' & Hr' & Hn').
      { rewrite Forall_forall in *. intros r Hin. apply In_nth with (d := []) in Hin as (j & Hj & <-).
        rewrite length_upd in Hj. destruct (Nat.eq_dec (Z.to_nat c) j) as [<-|Hne].
        - rewrite nth_upd_eq by lia. unfold newrow. now rewrite length_setrange.
        - rewrite nth_upd_neq by lia. apply Hr. apply nth_In; lia. }
      { exact Hs'. }
      { intros c' Hc'. rewrite length_upd. apply Hb. now right. }
      exists lb'. split; [exact E'|]. split; [now rewrite Hl', length_upd|]. split; [exact Hr'|].
      intros c0 Hc0. rewrite Hn' by (rewrite length_upd; lia). cbn [existsb].
      destruct (Z.eqb_spec c0 c) as [->|Hne]; cbn [orb].
      * assert (Nin : existsb (Z.eqb c) l = false).
        { apply not_true_is_false. rewrite existsb_exists. intros (x & Hx & Hx'). apply Z.eqb_eq in Hx'. subst x.
          rewrite Forall_forall in Hf. specialize (Hf c Hx). lia. }
        rewrite Nin. rewrite nth_upd_eq by lia. reflexivity.
      * rewrite nth_upd_neq by lia. reflexivity.
    + apply IH; auto.
      { rewrite Forall_forall in *. intros r Hin. apply In_nth with (d := []) in Hin as (j & Hj & <-).
        rewrite length_upd in Hj. destruct (Nat.eq_dec (Z.to_nat c) j) as [<-|Hne].
        - rewrite nth_upd_eq by lia. unfold newrow. now rewrite length_setrange.
        - rewrite nth_upd_neq by lia. apply Hr. apply nth_In; lia. }
      { intros c' Hc'. rewrite length_upd. apply Hb. now right. }
Qed.

(* ---- invariant of last_bitpos ---- *)
Lemma coversb_spec s c k : coversb s c k = true <-> covers s c k.
Proof.
  unfold coversb, covers. rewrite !andb_true_iff, existsb_exists, !Z.leb_le. split.
  - intros [[(x & Hx & E) H1] H2]. apply Z.eqb_eq in E. subst. auto.
  - intros [Hx [H1 H2]]. split; auto. split; auto. exists c. now rewrite Z.eqb_refl.
Qed.

Lemma last_covering_snoc pre s c k :
  last_covering (pre ++ [s]) c k = if coversb s c k then Some s else last_covering pre c k.
Proof. unfold last_covering. rewrite rev_unit. reflexivity. Qed.

Lemma last_covering_In pre c k p : last_covering pre c k = Some p -> In p pre /\ covers p c k.
Proof.
  unfold last_covering. intros H. apply find_some in H as [H1 H2].
  split; [now apply in_rev|now apply coversb_spec].
Qed.
Lemma last_covering_None pre c k : last_covering pre c k = None -> forall p, In p pre -> ~ covers p c k.
Proof.
  unfold last_covering. intros H p Hp Hc. apply coversb_spec in Hc.
  apply in_rev in Hp. pose proof (find_none _ _ H p Hp) as Hf. cbn in Hf. congruence.
Qed.

Definition lb_of (pre : list scan) (c k : Z) : Z :=
  match last_covering pre c k with None => -1 | Some p => Al p end.
Definition lbinv (nc : Z) (pre : list scan) (lb : list (list Z)) : Prop :=
  length lb = Z.to_nat nc /\ Forall (fun row => length row = 64%nat) lb /\
  (forall p, In p pre -> 0 <= Al p) /\
  forall c k, 0 <= c < nc -> 0 <= k <= 63 -> nth (Z.to_nat k) (nth (Z.to_nat c) lb []) (-1) = lb_of pre c k.

(* the rules on the progression parameters of one scan *)
Definition prules (maxA : Z) (pre : list scan) (s : scan) : Prop :=
  0 <= Ss s <= Se s /\ Se s <= 63 /\ 0 <= Ah s <= maxA /\ 0 <= Al s <= maxA /\
  (Ss s = 0 -> Se s = 0) /\
  (Ss s <> 0 -> length (comps s) = 1%nat /\ forall c, In c (comps s) -> exists p, In p pre /\ covers p c 0) /\
  (forall c k, covers s c k ->
     match last_covering pre c k with None => Ah s = 0 | Some p => Ah s = Al p /\ Al s = Ah s - 1 end).

Lemma check_progressive_spec nc prec pre lb s :
  length (si_idx s) = 4%nat -> 0 <= nc ->
  component_list_ok nc (scan_of s) -> lbinv nc pre lb ->
  (forall lb', check_progressive prec s lb = Ret lb' ->
     prules (max_bit prec) pre (scan_of s) /\ lbinv nc (pre ++ [scan_of s]) lb') /\
  (prules (max_bit prec) pre (scan_of s) -> exists lb', check_progressive prec s lb = Ret lb') /\
  check_progressive prec s lb <> Undef.
Proof.
  intros H4 Hnc (Hlen & Hrange & Hsort) (L1 & L2 & L3 & L4).
  assert (Hn : 1 <= si_n s <= 4).
  { cbn [scan_of comps] in Hlen. rewrite map_length, seq_length in Hlen. lia. }
  unfold check_progressive, prules.
  fold (max_bit prec). set (m := max_bit prec).
  cbn [scan_of Ss Se Ah Al].
  set (g := (si_Ss s <? 0) || _ || _ || _ || _ || _ || _ || _).
  assert (Hg : g = false <-> (0 <= si_Ss s <= si_Se s /\ si_Se s <= 63 /\ 0 <= si_Ah s <= m /\ 0 <= si_Al s <= m)).
  { unfold g. rewrite !orb_false_iff, !Z.ltb_ge, !Z.leb_gt. lia. }
  destruct g.
  { split; [discriminate|]. split; [|discriminate]. intros (A1 & A2 & A3 & A4 & _).
    destruct Hg as [_ Hg]. discriminate Hg. auto. }
  destruct Hg as [Hg _]. specialize (Hg eq_refl). destruct Hg as (G1 & G2 & G3 & G4).
  set (h := if si_Ss s =? 0 then _ else _).
  assert (Hh : h = false <-> ((si_Ss s = 0 -> si_Se s = 0) /\ (si_Ss s <> 0 -> si_n s = 1))).
  { unfold h. destruct (Z.eqb_spec (si_Ss s) 0); rewrite negb_false_iff, Z.eqb_eq; lia. }
  assert (Hl1 : length (comps (scan_of s)) = 1%nat <-> si_n s = 1).
  { cbn [scan_of comps]. rewrite map_length, seq_length. lia. }
  destruct h.
  { split; [discriminate|]. split; [|discriminate]. intros (_ & _ & _ & _ & A5 & A6 & _).
    destruct Hh as [_ Hh]. discriminate Hh. split; auto. intros Hx. apply Hl1. now apply A6. }
  destruct Hh as [Hh _]. specialize (Hh eq_refl). destruct Hh as (G5 & G6).
  set (FL := for_loop (Z.to_nat (si_n s)) 0 _ lb).
  assert (EFL : FL = mfold (pstep s) (comps (scan_of s)) lb).
  { exact (for_idx (si_idx s) (pstep s) (Z.to_nat (si_n s)) 0 lb ltac:(rewrite H4; lia)). }
  rewrite EFL. clear EFL FL.
  set (l := comps (scan_of s)) in *.
  assert (Hb : forall c, In c l -> 0 <= c < Z.of_nat (length lb)).
  { intros c Hc. apply Hrange in Hc. lia. }
  pose proof (comps_loop s l lb ltac:(lia) ltac:(lia) L2 Hsort Hb) as CL.
  assert (Hok : forallb (fun c => comp_ok s (nth (Z.to_nat c) lb [])) l = true <->
      ((si_Ss s <> 0 -> forall c, In c l -> exists p, In p pre /\ covers p c 0) /\
       (forall c k, covers (scan_of s) c k ->
          match last_covering pre c k with None => si_Ah s = 0 | Some p => si_Ah s = Al p /\ si_Al s = si_Ah s - 1 end))).
  { rewrite forallb_forall.
    assert (Hdc : forall c, In c l -> (negb (negb (si_Ss s =? 0) && (nth 0 (nth (Z.to_nat c) lb []) (-1) <? 0)) = true <->
        (si_Ss s <> 0 -> exists p, In p pre /\ covers p c 0))).
    { intros c Hc. pose proof (Hrange c Hc) as Hrc. pose proof (L4 c 0 Hrc ltac:(lia)) as E0. cbn [Z.to_nat] in E0. rewrite E0. unfold lb_of.
      destruct (Z.eqb_spec (si_Ss s) 0) as [Hz|Hz]; cbn [negb andb]; [tauto|].
      destruct (last_covering pre c 0) as [p|] eqn:Ep.
      - apply last_covering_In in Ep as [Hp1 Hp2]. pose proof (L3 p Hp1).
        destruct (Z.ltb_spec (Al p) 0); [lia|]. cbn. split; auto. intros _ _. eauto.
      - cbn. split; [discriminate|]. intros Hx. destruct (Hx Hz) as (p & Hp1 & Hp2).
        exfalso. eapply last_covering_None; eauto. }
    assert (Hco : forall c, In c l -> (forallb (fun k => coef_ok s (nth k (nth (Z.to_nat c) lb []) (-1))) (band s) = true <->
        forall k, si_Ss s <= k <= si_Se s ->
        match last_covering pre c k with None => si_Ah s = 0 | Some p => si_Ah s = Al p /\ si_Al s = si_Ah s - 1 end)).
    { intros c Hc. pose proof (Hrange c Hc) as Hrc. rewrite forallb_forall. 
      assert (P : forall k, si_Ss s <= k <= si_Se s -> (coef_ok s (nth (Z.to_nat k) (nth (Z.to_nat c) lb []) (-1)) = true <->
        match last_covering pre c k with None => si_Ah s = 0 | Some p => si_Ah s = Al p /\ si_Al s = si_Ah s - 1 end)).
      { intros k Hk. rewrite L4 by lia. unfold lb_of, coef_ok.
        destruct (last_covering pre c k) as [p|] eqn:Ep.
        - apply last_covering_In in Ep as [Hp1 Hp2]. pose proof (L3 p Hp1).
          destruct (Z.ltb_spec (Al p) 0); [lia|]. rewrite andb_true_iff, !Z.eqb_eq. tauto.
        - cbn. rewrite Z.eqb_eq. tauto. }
      unfold band. split.
      - intros Hx k Hk. apply P; auto. apply Hx. apply in_seq. lia.
      - intros Hx k Hk. apply in_seq in Hk. rewrite <- (Nat2Z.id k). apply P; [lia|]. apply Hx. lia. }
    unfold comp_ok. split.
    - intros Hx. split.
      + intros Hz c Hc. specialize (Hx c Hc). apply andb_true_iff in Hx as [Hx1 _].
        apply Hdc in Hx1; auto.
      + intros c k [Hc Hk]. specialize (Hx c Hc). apply andb_true_iff in Hx as [_ Hx2].
        eapply Hco in Hx2; eauto.
    - intros [Hx1 Hx2] c Hc. apply andb_true_iff. split.
      + apply Hdc; auto. 
      + apply Hco; auto. intros k Hk. apply Hx2. split; auto. }
  destruct (forallb _ l).
  - destruct CL as (lb' & E & Hl' & Hr' & Hn'). rewrite E.
    destruct (proj1 Hok eq_refl) as [Q1 Q2].
    split; [|split; [eauto|discriminate]].
    intros lb'' [= <-]. split.
    { split; [lia|]. split; [lia|]. split; [lia|]. split; [lia|]. split; [exact G5|]. split; [|exact Q2].
      intros Hz. split; [apply Hl1; auto|auto]. }
    split; [congruence|]. split; [exact Hr'|]. split.
    { intros p Hp. apply in_app_iff in Hp as [Hp|[<-|[]]]; auto. cbn. lia. }
    intros c k Hc Hk. unfold lb_of. rewrite last_covering_snoc. fold (lb_of pre c k).
    rewrite Hn' by lia. unfold coversb. fold l.
    destruct (existsb (Z.eqb c) l); cbn [andb].
    + unfold newrow. rewrite nth_setrange.
      2:{ assert (length (nth (Z.to_nat c) lb []) = 64%nat).
          { rewrite Forall_forall in L2. apply L2. apply nth_In. lia. } lia. }
      cbn [scan_of Ss Se Al].
      destruct (Z.leb_spec (si_Ss s) k), (Z.leb_spec k (si_Se s)), (Nat.leb_spec (Z.to_nat (si_Ss s)) (Z.to_nat k)),
        (Nat.ltb_spec (Z.to_nat k) (Z.to_nat (si_Ss s) + Z.to_nat (si_Se s - si_Ss s + 1))); cbn [andb]; try lia; auto.
      all: apply L4; lia.
    + apply L4; lia.
  - rewrite CL. split; [discriminate|]. split; [|discriminate].
    intros (_ & _ & _ & _ & _ & A6 & A7). destruct Hok as [_ Hok]. discriminate Hok.
    split; auto. intros Hz. now apply A6.
Qed.
