(* P_ScanOpt.v -- exhaustive exploration of the decisions of the scan search *)
From Verif Require Import Base S_Script M_Script P_Script T_Script M_ScanOpt.

(* ---- all leaves of a decision tree, with the comparisons on the way ---- *)
Definition path := list (list Z * list Z * bool).
Fixpoint leaves {A} (p : path) (t : tree A) : list (path * A) :=
  match t with
  | Leaf a => [(p, a)]
  | Ask a b k => leaves ((a, b, true) :: p) (k true) ++ leaves ((a, b, false) :: p) (k false)
  end.
Definition holds (sz : Z -> Z) (x : list Z * list Z * bool) : Prop :=
  let '(a, b, c) := x in (cost sz a <? cost sz b) = c.
Lemma leaves_run {A} sz (t : tree A) : forall p, Forall (holds sz) p ->
  exists q, In (q, run sz t) (leaves p t) /\ Forall (holds sz) q.
Proof.
  induction t as [a|a b k IH]; intros p Hp; cbn [leaves run].
  - exists p. split; [now left|auto].
  - destruct (cost sz a <? cost sz b) eqn:E.
    + destruct (IH true ((a, b, true) :: p)) as (q & Hq & Hf); [constructor; auto|].
      exists q. split; auto. apply in_or_app. auto.
    + destruct (IH false ((a, b, false) :: p)) as (q & Hq & Hf); [constructor; auto|].
      exists q. split; auto. apply in_or_app. auto.
Qed.
Lemma run_tbind {A B} sz (t : tree (outcome A)) (f : A -> tree (outcome B)) :
  run sz (tbind t f) = match run sz t with Ret a => run sz (f a) | Error e => Error e | Undef => Undef end.
Proof. induction t as [[a|e|]|a b k IH]; cbn; auto. Qed.

(* ---- what the theorems ask of the result ---- *)
Definition to_info (s : scan) : scan_info := mkSI (Z.of_nat (length (comps s))) (idx4 (comps s)) (Ss s) (Se s) (Ah s) (Al s).
Definition scan_eqb (a b : scan) : bool :=
  (length (comps a) =? length (comps b))%nat && forallb (fun '(x, y) => x =? y) (combine (comps a) (comps b)) &&
  (Ss a =? Ss b) && (Se a =? Se b) && (Ah a =? Ah b) && (Al a =? Al b).
Lemma scan_eqb_eq a b : scan_eqb a b = true -> a = b.
Proof.
  destruct a as [ca a1 a2 a3 a4], b as [cb b1 b2 b3 b4]. unfold scan_eqb. cbn [comps Ss Se Ah Al].
  rewrite !andb_true_iff, Nat.eqb_eq, !Z.eqb_eq. intros [[[[[H1 H2] <-] <-] <-] <-]. f_equal.
  revert cb H1 H2. induction ca as [|x ca IH]; intros [|y cb] H1 H2; cbn in *; try discriminate; auto.
  rewrite andb_true_iff, Z.eqb_eq in H2. destruct H2 as [-> H2]. f_equal. apply IH; auto.
Qed.
Fixpoint list_eqb {A} (eq : A -> A -> bool) (a b : list A) : bool :=
  match a, b with
  | [], [] => true
  | x :: a', y :: b' => eq x y && list_eqb eq a' b'
  | _, _ => false
  end.
Lemma list_eqb_eq {A} (eq : A -> A -> bool) : (forall x y, eq x y = true -> x = y) ->
  forall a b, list_eqb eq a b = true -> a = b.
Proof. intros H. induction a as [|x a IH]; intros [|y b]; cbn; try discriminate; auto.
  rewrite andb_true_iff. intros [H1 H2]. f_equal; auto. Qed.

(* a fast checker for progressive scripts, cheap enough for the kernel's lazy conversion: only one
   coefficient of each spectral band used in the script is examined *)
Fixpoint zin (c : Z) (l : list Z) : bool := match l with [] => false | x :: r => if c =? x then true else zin c r end.
Lemma zin_In c l : zin c l = true <-> In c l.
Proof. induction l as [|x l IH]; cbn; [split; [discriminate|tauto]|]. destruct (Z.eqb_spec c x); [subst; tauto|].
  rewrite IH. intuition congruence. Qed.
Lemma zin_existsb c l : zin c l = existsb (Z.eqb c) l.
Proof. induction l as [|x l IH]; cbn; auto. rewrite IH. destruct (c =? x); reflexivity. Qed.

Definition band (k : Z) (s : scan) : bool := if Ss s <=? k then k <=? Se s else false.
Fixpoint dedup (acc l : list Z) : list Z :=
  match l with [] => acc | x :: r => if zin x acc then dedup acc r else dedup (x :: acc) r end.
Definition reps (script : list scan) : list Z := dedup [0] (map Ss script).
Definition reps_ok (R : list Z) (s : scan) : bool :=
  if zin (Ss s) R then (if Se s =? 63 then true else zin (Se s + 1) R) else false.
Fixpoint increasing (l : list Z) : bool :=
  match l with [] => true | x :: r => match r with [] => true | y :: _ => if x <? y then increasing r else false end end.
Definition scan_syn (nc maxA : Z) (s : scan) : bool :=
  if (match comps s with [] => false | [_] | [_; _] | [_; _; _] | [_; _; _; _] => true | _ => false end) then
  if forallb (fun c => if 0 <=? c then c <? nc else false) (comps s) then
  if increasing (comps s) then
  if 0 <=? Ss s then if Ss s <=? Se s then if Se s <=? 63 then
  if 0 <=? Ah s then if Ah s <=? maxA then if 0 <=? Al s then if Al s <=? maxA then
  if Ss s =? 0 then Se s =? 0 else (match comps s with [_] => true | _ => false end)
  else false else false else false else false else false else false else false else false else false else false.
Fixpoint dc_first (seen : list Z) (l : list scan) : bool :=
  match l with
  | [] => true
  | s :: r => if Ss s =? 0 then dc_first (comps s ++ seen) r
              else if forallb (fun c => zin c seen) (comps s) then dc_first seen r else false
  end.
Definition fast_ok (nc : nat) (maxA : Z) (script : list scan) : bool :=
  let R := reps script in
  if (match script with [] => false | _ => true end) then
  if forallb (scan_syn (Z.of_nat nc) maxA) script then
  if dc_first [] script then
  if forallb (reps_ok R) script then
  forallb (fun c => let own := filter (fun s => zin (Z.of_nat c) (comps s)) script in
                    forallb (fun k => chain (filter (band k) own)) R) (seq 0 nc)
  else false else false else false else false.

Lemma if_true (a b : bool) : (if a then b else false) = true -> a = true /\ b = true.
Proof. destruct a; [auto|discriminate]. Qed.

(* the largest representative not above k *)
Fixpoint below_rep (R : list Z) (k : Z) (best : Z) : Z :=
  match R with [] => best | x :: r => below_rep r k (if (x <=? k) && (best <? x) then x else best) end.
Lemma below_rep_spec R k : forall best, best <= k ->
  let r := below_rep R k best in r <= k /\ best <= r /\ (In r R \/ r = best) /\ forall x, In x R -> x <= k -> x <= r.
Proof.
  induction R as [|x R IH]; intros best Hb; cbn [below_rep].
  - cbn. repeat split; auto; try lia; try (intros ? []).
  - set (nb := if (x <=? k) && (best <? x) then x else best).
    assert (Hn : nb <= k /\ best <= nb /\ (nb = x \/ nb = best) /\ (x <= k -> x <= nb)).
    { unfold nb. destruct (Z.leb_spec x k), (Z.ltb_spec best x); cbn; lia. }
    destruct (IH nb) as (H1 & H2 & H3 & H4); [lia|]. cbn zeta in *.
    split; [auto|]. split; [lia|]. split.
    + destruct H3 as [H3|H3]; [left; right; auto|]. destruct Hn as (_ & _ & [E|E] & _); [left; left|right]; congruence.
    + intros y [->|Hy] Hyk; [lia|auto].
Qed.

Lemma in_dedup x l : forall acc, In x acc -> In x (dedup acc l).
Proof. induction l as [|y l IH]; intros acc H; cbn [dedup]; auto. destruct (zin y acc); apply IH; auto. now right. Qed.

Lemma band_rep R s k : In 0 R -> reps_ok R s = true -> 0 <= k <= 63 ->
  band k s = band (below_rep R k 0) s.
Proof.
  intros H0 H Hk. unfold reps_ok in H. apply if_true in H as [H1 H2]. apply zin_In in H1.
  destruct (below_rep_spec R k 0 ltac:(lia)) as (B1 & B2 & B3 & B4). cbn zeta in *. set (r := below_rep R k 0) in *.
  unfold band.
  assert (E1 : (Ss s <=? k) = (Ss s <=? r)).
  { destruct (Z.leb_spec (Ss s) k), (Z.leb_spec (Ss s) r); auto; [specialize (B4 _ H1); lia|lia]. }
  rewrite E1. destruct (Ss s <=? r); auto.
  destruct (Z.eqb_spec (Se s) 63) as [E|_].
  - destruct (Z.leb_spec k (Se s)), (Z.leb_spec r (Se s)); auto; lia.
  - apply zin_In in H2. destruct (Z.leb_spec k (Se s)), (Z.leb_spec r (Se s)); auto; [lia|specialize (B4 _ H2); lia].
Qed.

Lemma covers_band s c k : coversb s c k = (zin c (comps s) && band k s)%bool.
Proof. unfold coversb, band. rewrite zin_existsb. destruct (existsb _ _); destruct (Ss s <=? k); reflexivity. Qed.

Lemma filter_ext' {A} (f g : A -> bool) l : (forall x, In x l -> f x = g x) -> filter f l = filter g l.
Proof. induction l; cbn; intros H; auto. rewrite H by auto. rewrite IHl; auto. Qed.

Lemma fast_chain nc maxA script : fast_ok nc maxA script = true ->
  forall c k, 0 <= c < Z.of_nat nc -> 0 <= k <= 63 -> chain (filter (fun s => coversb s c k) script) = true.
Proof.
  intros H c k Hc Hk. unfold fast_ok in H. cbn zeta in H.
  repeat (apply if_true in H as [? H]). match goal with X : forallb (reps_ok _) _ = true |- _ => rename X into HR end. set (R := reps script) in *.
  assert (Hz : In 0 R) by (apply in_dedup; now left).
  rewrite forallb_forall in H. specialize (H (Z.to_nat c) ltac:(apply in_seq; lia)). rewrite Z2Nat.id in H by lia.
  rewrite forallb_forall in H.
  destruct (below_rep_spec R k 0 ltac:(lia)) as (_ & _ & B3 & _). cbn zeta in B3.
  specialize (H (below_rep R k 0)). rewrite <- H by (destruct B3 as [|E]; [auto|rewrite E; auto]).
  rewrite <- filter_filter. f_equal. apply filter_ext'. intros s Hs. rewrite covers_band. f_equal.
  apply band_rep; auto. rewrite forallb_forall in HR. auto.
Qed.

Lemma refine_chain_app a l1 s l2 : refine_chain a (l1 ++ s :: l2) = true ->
  Ah s = (match rev l1 with [] => a | p :: _ => Al p end) /\ Al s = Ah s - 1.
Proof.
  revert a. induction l1 as [|p l1 IH]; intros a H; cbn [app refine_chain rev] in *.
  - rewrite !andb_true_iff, Z.ltb_lt, !Z.eqb_eq in H. destruct H as [[[H1 H2] H3] H4]. lia.
  - rewrite !andb_true_iff, Z.ltb_lt, !Z.eqb_eq in H. destruct H as [[[H1 H2] H3] H4].
    destruct (IH _ H4) as [E1 E2]. split; auto. rewrite E1. destruct (rev l1); cbn; auto. 
Qed.

Lemma chain_app l1 s l2 : chain (l1 ++ s :: l2) = true ->
  match rev l1 with [] => Ah s = 0 | p :: _ => Ah s = Al p /\ Al s = Ah s - 1 end.
Proof.
  destruct l1 as [|p l1]; cbn [app chain rev].
  - rewrite !andb_true_iff, Z.eqb_eq. tauto.
  - intros H. rewrite !andb_true_iff in H. destruct H as [_ H]. destruct (refine_chain_app _ _ _ _ H) as [E1 E2].
    destruct (rev l1); cbn; auto.
Qed.

Lemma find_filter_hd {A} (f : A -> bool) l : find f l = match filter f l with [] => None | x :: _ => Some x end.
Proof. induction l; cbn; auto. destruct (f a); auto. Qed.
Lemma rev_filter {A} (f : A -> bool) l : rev (filter f l) = filter f (rev l).
Proof. induction l; cbn; auto. rewrite filter_app. cbn. destruct (f a); cbn; rewrite IHl; auto. rewrite app_nil_r; auto. Qed.

Lemma increasing_sorted l : increasing l = true -> Sorted.StronglySorted Z.lt l.
Proof.
  intros H. apply Sorted.Sorted_StronglySorted; [intros x y z; lia|].
  induction l as [|x l IH]; constructor.
  - apply IH. cbn in H. destruct l; auto. now apply if_true in H as [_ H].
  - cbn in H. destruct l; constructor. apply if_true in H as [H _]. now apply Z.ltb_lt.
Qed.

Lemma scan_syn_spec nc maxA s : scan_syn nc maxA s = true ->
  component_list_ok nc s /\ 0 <= Ss s <= Se s /\ Se s <= 63 /\ 0 <= Ah s <= maxA /\ 0 <= Al s <= maxA /\
  (Ss s = 0 -> Se s = 0) /\ (Ss s <> 0 -> length (comps s) = 1%nat).
Proof.
  unfold scan_syn. intros H. repeat (apply if_true in H as [? H]).
  rewrite !Z.leb_le in *. unfold component_list_ok.
  repeat match goal with |- _ /\ _ => split end; auto.
  - destruct (comps s) as [|? [|? [|? [|? [|]]]]]; cbn; lia || discriminate.
  - destruct (comps s) as [|? [|? [|? [|? [|]]]]]; cbn; lia || discriminate.
  - intros c Hc. rewrite forallb_forall in H1. specialize (H1 c Hc). apply if_true in H1 as [E1 E2]. lia.
  - now apply increasing_sorted.
  - intros E. rewrite E in H. cbn in H. now apply Z.eqb_eq.
  - intros E. destruct (Z.eqb_spec (Ss s) 0); [lia|]. destruct (comps s) as [|? [|]]; auto; discriminate.
Qed.

Lemma dc_first_spec : forall pre s post seen, dc_first seen (pre ++ s :: post) = true -> Ss s <> 0 ->
  forall c, In c (comps s) -> In c seen \/ exists p, In p pre /\ Ss p = 0 /\ In c (comps p).
Proof.
  induction pre as [|p pre IH]; intros s post seen H Hs c Hc; cbn [app dc_first] in H.
  - destruct (Z.eqb_spec (Ss s) 0); [lia|]. apply if_true in H as [H _]. rewrite forallb_forall in H.
    left. apply zin_In. auto.
  - destruct (Z.eqb_spec (Ss p) 0).
    + destruct (IH _ _ _ H Hs c Hc) as [Hi|(p' & H1 & H2)].
      * apply in_app_or in Hi as [Hi|Hi]; auto. right. exists p. split; [now left|auto].
      * right. exists p'. split; [now right|auto].
    + apply if_true in H as [_ H]. destruct (IH _ _ _ H Hs c Hc) as [Hi|(p' & H1 & H2)]; auto.
      right. exists p'. split; [now right|auto].
Qed.

(* the scans in the output file *)
Definition valid_file (nc : nat) (m : mst) : bool :=
  if fast_ok nc 10 (m_out m) then if m_last m then m_scan m =? (if (nc =? 1)%nat then 23 else 64) else false else false.

Lemma valid_file_spec nc m : (nc <= 10)%nat -> valid_file nc m = true ->
  script_ok (Z.of_nat nc) 8 Progressive (m_out m) /\ complete (Z.of_nat nc) (m_out m).
Proof.
  intros Hnc H. apply if_true in H as [H _]. pose proof (fast_chain _ _ _ H) as HC.
  assert (HK : complete (Z.of_nat nc) (m_out m)).
  { intros c k b Hc Hk Hb. pose proof (chain_spec _ (HC c k Hc Hk) b Hb) as R. rewrite <- filter_filter in R. exact R. }
  split; [|exact HK].
  unfold fast_ok in H. cbn zeta in H. repeat (apply if_true in H as [? H]).
  rename H0 into Hne, H1 into Hsyn, H2 into Hdc. rewrite forallb_forall in Hsyn.
  split; [intros E; rewrite E in Hne; discriminate|]. split.
  - intros pre s post E.
    assert (Hs : In s (m_out m)) by (rewrite E; apply in_or_app; right; now left).
    destruct (scan_syn_spec _ _ _ (Hsyn s Hs)) as (S1 & S2 & S3 & S4 & S5 & S6 & S7).
    unfold progressive_scan_ok. change (max_bit 8) with 10. split; [auto|]. do 5 (split; [auto|]). split.
    + intros Hss. split; [auto|]. intros c Hc.
      assert (Hd : dc_first [] (pre ++ s :: post) = true) by (rewrite <- E; auto).
      destruct (dc_first_spec _ _ _ _ Hd Hss c Hc) as [[]|(p & P1 & P2 & P3)].
      exists p. split; auto. split; auto.
      assert (Hp : In p (m_out m)) by (rewrite E; apply in_or_app; now left).
      destruct (scan_syn_spec _ _ _ (Hsyn p Hp)) as (_ & Q2 & _ & _ & _ & Q6 & _). lia.
    + intros c k [Hc Hk]. destruct S1 as (_ & S1 & _). specialize (S1 c Hc).
      specialize (HC c k S1 ltac:(lia)). rewrite E, filter_app in HC. cbn [filter] in HC.
      replace (coversb s c k) with true in HC.
      2:{ symmetry. unfold coversb. rewrite <- zin_existsb, (proj2 (zin_In c (comps s)) Hc).
          cbn. apply andb_true_iff. rewrite !Z.leb_le. lia. }
      apply chain_app in HC. unfold last_covering. rewrite find_filter_hd, <- rev_filter.
      destruct (rev _); auto.
  - intros c Hc. specialize (HC c 0 Hc ltac:(lia)).
    destruct (filter (fun s => coversb s c 0) (m_out m)) as [|p l] eqn:E; [discriminate|].
    assert (Hp : In p (filter (fun s => coversb s c 0) (m_out m))) by (rewrite E; now left).
    apply filter_In in Hp as [Hp Hcov]. exists p. split; auto. unfold coversb in Hcov.
    rewrite !andb_true_iff, !Z.leb_le, <- zin_existsb in Hcov. destruct Hcov as [[C1 C2] C3]. split; [now apply zin_In|lia].
Qed.

(* ---- candidates (C17) ---- *)
(* numbers, in the trial script, of the scans that transmit the luma AC coefficients at successive-
   approximation level j: two spectral bands, and j one-bit refinements *)
Definition luma_level (j : Z) : list Z :=
  [3 * j + 1; 3 * j + 2] ++ map (fun i => 3 + 3 * Z.of_nat i) (seq 0 (Z.to_nat j)).
(* ... split 0 = one band, split i = bands 1..f and f+1..63 for the i-th frequency f *)
Definition luma_split (i : Z) : list Z := if i =? 0 then [12] else [12 + 2 * i - 1; 12 + 2 * i].
Definition chroma_level (j : Z) : list Z :=
  map (fun t => 26 + 6 * j + Z.of_nat t) (seq 0 4) ++
  flat_map (fun i => [26 + 4 + 6 * Z.of_nat i; 26 + 5 + 6 * Z.of_nat i]) (seq 0 (Z.to_nat j)).
Definition chroma_split (i : Z) : list Z :=
  if i =? 0 then [42; 43] else map (fun t => 42 + 4 * i - 2 + Z.of_nat t) (seq 0 4).

Definition encoded (m : mst) (l : list Z) : bool :=
  forallb (fun i => match nth (Z.to_nat i) (m_buf m) None with Some _ => true | None => false end) l.

(* cost a <= cost b follows from the comparisons on the path *)
Definition zl_eqb := list_eqb Z.eqb.
Fixpoint implied (fuel : nat) (p : path) (a b : list Z) : bool :=
  if zl_eqb a b then true else
  match fuel with
  | O => false
  | S f => existsb (fun '(x, y, c) => if (c : bool) then (if zl_eqb x a then implied f p y b else false)
                                      else if zl_eqb y a then implied f p x b else false) p
  end.
Lemma implied_spec sz p : Forall (holds sz) p -> forall fuel a b, implied fuel p a b = true -> cost sz a <= cost sz b.
Proof.
  intros Hp. induction fuel as [|f IH]; intros a b H; cbn [implied] in H;
    (destruct (zl_eqb a b) eqn:Eab; [apply list_eqb_eq in Eab; [subst; lia|intros x y E; now apply Z.eqb_eq]|]);
    try discriminate.
  apply existsb_exists in H as ([[x y] c] & Hin & H).
  rewrite Forall_forall in Hp. specialize (Hp _ Hin). cbn in Hp.
  destruct c; [destruct (zl_eqb x a) eqn:H1|destruct (zl_eqb y a) eqn:H1]; try discriminate; apply IH in H;
    (apply list_eqb_eq in H1; [subst|intros u v E; now apply Z.eqb_eq]).
  - apply Z.ltb_lt in Hp. lia.
  - apply Z.ltb_ge in Hp. lia.
Qed.

Definition best_of (p : path) (m : mst) (cand : Z -> list Z) (n : Z) (sel : option Z) : bool :=
  match sel with
  | None => false
  | Some s => (0 <=? s) && (s <=? n) && encoded m (cand s) &&
              forallb (fun j => if encoded m (cand (Z.of_nat j)) then implied 8 p (cand s) (cand (Z.of_nat j)) else true)
                      (seq 0 (Z.to_nat n + 1))
  end.
Definition zmem (l r : list Z) : bool := forallb (fun i => existsb (Z.eqb i) r) l.
Definition oZ (o : option Z) : Z := match o with Some z => z | None => -1 end.
Definition refinements (j : Z) : list Z := map (fun i => 3 + 3 * Z.of_nat i) (seq 0 (Z.to_nat j)).
Definition chroma_refinements (j : Z) : list Z :=
  flat_map (fun i => [30 + 6 * Z.of_nat i; 31 + 6 * Z.of_nat i]) (seq 0 (Z.to_nat j)).

Definition best_file (nc : nat) (dcmode : Z) (p : path) (m : mst) : bool :=
  best_of p m luma_level 3 (m_Al_luma m) && best_of p m luma_split 5 (m_split_luma m) &&
  zmem (luma_split (oZ (m_split_luma m)) ++ refinements (oZ (m_Al_luma m))) (m_copied m) &&
  (if (nc =? 1)%nat then true else
   best_of p m chroma_level 2 (m_Al_chroma m) && best_of p m chroma_split 5 (m_split_chroma m) &&
   zmem (chroma_split (oZ (m_split_chroma m)) ++ chroma_refinements (oZ (m_Al_chroma m))) (m_copied m) &&
   (if (dcmode =? 0) || (dcmode =? 1) then true
    else (zmem [23] (m_copied m) && implied 4 p [23] [24; 25]) ||
         (zmem [24; 25] (m_copied m) && implied 4 p [24; 25] [23]))).

Definition good_leaf (nc : nat) (dcmode : Z) (x : path * outcome (option mst)) : bool :=
  match x with
  | (p, Ret (Some m)) => valid_file nc m && best_file nc dcmode p m
  | _ => false
  end.

(* from the first optimization pass on *)
Definition start (t : ptype) : mst :=
  mkM t 0 0 false None (repeat None 64) [] None (Some 0) None None None [] [].
Definition mode_of (dcmode : Z) : Z := if dcmode =? 0 then 0 else if dcmode =? 1 then 1 else 2.
Definition the_search (nc : nat) (dcmode : Z) : search :=
  match search_progression nc true dcmode with Some s => s | None => mkSearch [] 0 0 0 0 0 end.

Lemma all_leaves : forallb (fun nc => forallb (fun dm =>
    forallb (good_leaf nc dm) (leaves [] (passes (the_search nc dm) dm false 128 (start PHuffOpt))))
    [0; 1; 2]) [1%nat; 3%nat] = true.
Proof. vm_cast_no_check (eq_refl true). Qed.

