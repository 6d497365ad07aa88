(* P_GenMerge.v -- the merging loop of jpeg_gen_optimal_table builds a full binary code in which the
   last (pseudo) symbol has maximal length *)
From Verif Require Import Base M_HuffTbl M_GenTbl.
From Coq Require Import Permutation.

Notation gz l i := (nth i l 0).

(* ---- sums ---- *)
Fixpoint sumf (f : nat -> Z) (l : list nat) : Z :=
  match l with [] => 0 | x :: t => f x + sumf f t end.
Lemma sumf_app f a b : sumf f (a ++ b) = sumf f a + sumf f b.
Proof. induction a; cbn; lia. Qed.
Lemma sumf_perm f a b : Permutation a b -> sumf f a = sumf f b.
Proof. induction 1; cbn; lia. Qed.
Lemma sumf_ext f g l : (forall x, In x l -> f x = g x) -> sumf f l = sumf g l.
Proof. induction l; cbn; intros H; auto. rewrite H, IHl; auto. Qed.
Lemma sumf_nonneg f l : (forall x, In x l -> 0 <= f x) -> 0 <= sumf f l.
Proof. induction l; cbn; intros H; [lia|]. pose proof (H a (or_introl eq_refl)).
  assert (0 <= sumf f l) by (apply IHl; auto). lia. Qed.
Lemma sumf_in_le f l x : (forall y, In y l -> 0 <= f y) -> In x l -> f x <= sumf f l.
Proof. intros H Hi. apply in_split in Hi as (a & b & ->). rewrite sumf_app. cbn.
  assert (0 <= sumf f a) by (apply sumf_nonneg; intros; apply H; apply in_app_iff; auto).
  assert (0 <= sumf f b) by (apply sumf_nonneg; intros; apply H; apply in_app_iff; cbn; auto). lia. Qed.
Lemma sumf_scale f k l : sumf (fun x => k * f x) l = k * sumf f l.
Proof. induction l; cbn; lia. Qed.

(* ---- find2 ---- *)
Definition BIG := 1000000000.
(* state of the scan after the first i entries *)
Definition f2inv (fr : list Z) (i : nat) (c1 c2 v v2 : Z) : Prop :=
  (c1 = -1 /\ c2 = -1 /\ v = BIG /\ v2 = BIG /\ forall j, (j < i)%nat -> BIG < gz fr j) \/
  (exists a, c1 = Z.of_nat a /\ (a < i)%nat /\ c2 = -1 /\ v = gz fr a /\ v <= BIG /\ v2 = BIG /\
     forall j, (j < i)%nat -> j <> a -> BIG < gz fr j) \/
  (exists a b, c1 = Z.of_nat a /\ c2 = Z.of_nat b /\ (a < i)%nat /\ (b < i)%nat /\ a <> b /\
     v = gz fr a /\ v2 = gz fr b /\ v <= v2 /\ v2 <= BIG /\ (v = v2 -> (b < a)%nat) /\
     forall j, (j < i)%nat -> j <> a -> j <> b -> v2 < gz fr j \/ (v2 = gz fr j /\ (j < Nat.max a b)%nat)).

Lemma find2_inv : forall post pre c1 c2 v v2,
  f2inv (pre ++ post) (length pre) c1 c2 v v2 ->
  exists v' v2', let '(d1, d2) := find2 post (Z.of_nat (length pre)) c1 c2 v v2 in
    f2inv (pre ++ post) (length (pre ++ post)) d1 d2 v' v2'.
Proof.
  induction post as [|f post IH]; intros pre c1 c2 v v2 H; cbn [find2].
  - rewrite app_nil_r in *. eauto.
  - assert (Hf : gz (pre ++ f :: post) (length pre) = f) by (rewrite app_nth2, Nat.sub_diag; cbn; auto).
    replace (pre ++ f :: post) with ((pre ++ [f]) ++ post) in * by (rewrite <- app_assoc; auto).
    replace (Z.of_nat (length pre) + 1) with (Z.of_nat (length (pre ++ [f]))) by (rewrite app_length; cbn; lia).
    assert (L : length (pre ++ [f]) = S (length pre)) by (rewrite app_length; cbn; lia).
    set (fr := (pre ++ [f]) ++ post) in *. set (i := length pre) in *.
    assert (Q : forall c1' c2' v' v2', f2inv fr (S i) c1' c2' v' v2' ->
       exists v'' v2'', let '(d1, d2) := find2 post (Z.of_nat (length (pre ++ [f]))) c1' c2' v' v2' in
         f2inv fr (length fr) d1 d2 v'' v2'').
    { intros. apply IH. rewrite L. exact H0. }
    assert (Bc : forall j, (j < S i)%nat -> (j < i)%nat \/ j = i) by (intros; lia).
    destruct (Z.leb_spec f v2) as [H2|H2]; [destruct (Z.leb_spec f v) as [H1|H1]|]; apply Q; clear Q IH.
    + (* becomes c1 *)
      destruct H as [(-> & -> & -> & -> & Hj)|[(a & -> & Ha & -> & -> & Hb & -> & Hj)|
                     (a & b & -> & -> & Ha & Hb & Hab & -> & -> & Hv & Hv2 & Ht & Hj)]].
      * right; left. exists i. rewrite Hf. repeat apply conj; auto; try lia.
        intros j Hj1 Hj2. destruct (Bc j Hj1); [auto|lia].
      * right; right. exists i, a. rewrite Hf. repeat apply conj; auto; try lia.
        intros j Hj1 Hj2 Hj3. destruct (Bc j Hj1) as [Hl|?]; [|lia]. left. specialize (Hj j Hl Hj3). lia.
      * right; right. exists i, a. rewrite Hf. repeat apply conj; auto; try lia.
        intros j Hj1 Hj2 Hj3. destruct (Bc j Hj1) as [Hl|?]; [|lia].
        destruct (Nat.eq_dec j b) as [->|Hjb]; [|specialize (Hj j Hl Hj3 Hjb)]; lia.
    + destruct H as [(-> & -> & -> & -> & Hj)|[(a & -> & Ha & -> & -> & Hb & -> & Hj)|
                     (a & b & -> & -> & Ha & Hb & Hab & -> & -> & Hv & Hv2 & Ht & Hj)]].
      * lia.
      * right; right. exists a, i. rewrite Hf. repeat apply conj; auto; try lia.
        intros j Hj1 Hj2 Hj3. destruct (Bc j Hj1) as [Hl|?]; [|lia]. left. specialize (Hj j Hl Hj2). lia.
      * right; right. exists a, i. rewrite Hf. repeat apply conj; auto; try lia.
        intros j Hj1 Hj2 Hj3. destruct (Bc j Hj1) as [Hl|?]; [|lia].
        destruct (Nat.eq_dec j b) as [->|Hjb]; [|specialize (Hj j Hl Hj2 Hjb)]; lia.
    + destruct H as [(-> & -> & -> & -> & Hj)|[(a & -> & Ha & -> & -> & Hb & -> & Hj)|
                     (a & b & -> & -> & Ha & Hb & Hab & -> & -> & Hv & Hv2 & Ht & Hj)]].
      * left. repeat apply conj; auto. intros j Hj1. destruct (Bc j Hj1) as [?| ->]; [auto|lia].
      * right; left. exists a. repeat apply conj; auto; try lia.
        intros j Hj1 Hj2. destruct (Bc j Hj1) as [?| ->]; [auto|lia].
      * right; right. exists a, b. repeat apply conj; auto; try lia.
        intros j Hj1 Hj2 Hj3. destruct (Bc j Hj1) as [?| ->]; [auto|lia].
Qed.

Lemma find2_spec fr :
  let '(c1, c2) := find2 fr 0 (-1) (-1) BIG BIG in
  (c2 = -1 /\ (exists a, forall j, (j < length fr)%nat -> j <> a -> BIG < gz fr j)) \/
  (exists a b, c1 = Z.of_nat a /\ c2 = Z.of_nat b /\ (a < length fr)%nat /\ (b < length fr)%nat /\ a <> b /\
     gz fr a <= gz fr b <= BIG /\ (gz fr a = gz fr b -> (b < a)%nat) /\
     forall j, (j < length fr)%nat -> j <> a -> j <> b ->
       gz fr b < gz fr j \/ (gz fr b = gz fr j /\ (j < Nat.max a b)%nat)).
Proof.
  destruct (find2_inv fr [] (-1) (-1) BIG BIG) as (v & v2 & H).
  - left. cbn. repeat apply conj; auto. intros; lia.
  - cbn [length app] in H. change (Z.of_nat 0) with 0 in H.
    destruct (find2 fr 0 (-1) (-1) BIG BIG) as [c1 c2].
    destruct H as [(-> & -> & _ & _ & Hj)|[(a & -> & Ha & -> & -> & Hb & -> & Hj)|
                     (a & b & -> & -> & Ha & Hb & Hab & -> & -> & Hv & Hv2 & Ht & Hj)]].
    + left. split; auto. exists 0%nat. auto.
    + left. split; auto. eauto.
    + right. exists a, b. auto 10.
Qed.

(* ---- chains ---- *)
Fixpoint linked (ot : list Z) (l : list nat) : Prop :=
  match l with
  | [] => True
  | x :: t => (match t with [] => gz ot x = -1 | y :: _ => gz ot x = Z.of_nat y end) /\ linked ot t
  end.

Lemma linked_upd ot l x v : ~ In x l -> linked ot l -> linked (upd ot x v) l.
Proof.
  induction l as [|a l IH]; cbn [linked]; intros Hn H; auto. destruct H as [H1 H2].
  cbn in Hn. split; [|apply IH; auto].
  assert (E : gz (upd ot x v) a = gz ot a) by (apply nth_upd_neq; intros ->; auto).
  destruct l; rewrite E; auto.
Qed.

Lemma linked_append ot : forall l1 l2 x y t, l1 = x :: t -> l2 <> [] -> NoDup (l1 ++ l2) ->
  Forall (fun z => (z < length ot)%nat) l1 ->
  linked ot l1 -> linked ot l2 -> hd 0%nat l2 = y ->
  linked (upd ot (last l1 0%nat) (Z.of_nat y)) (l1 ++ l2).
Proof.
  induction l1 as [|a l1 IH]; intros l2 x y t E Hn Hnd Hf H1 H2 Hy; [discriminate|].
  inversion Hnd as [|? ? Hna Hnd']; subst. inversion Hf as [|? ? Ha Hf']; subst.
  destruct H1 as [Ha1 H1]. destruct l1 as [|b l1].
  - cbn [last app]. destruct l2 as [|y l2]; [congruence|]. cbn [linked hd].
    rewrite nth_upd_eq by auto. split; auto. apply (linked_upd ot (y :: l2)); auto.
  - change (last (a :: b :: l1) 0%nat) with (last (b :: l1) 0%nat).
    cbn [app linked]. split.
    + rewrite nth_upd_neq; auto. intros E1. apply Hna. rewrite <- E1. apply in_or_app. left.
      clear. revert b. induction l1 as [|c l1 IH]; intros b; [left; auto|]. right. apply IH.
    + eapply (IH l2 b); eauto.
Qed.

Fixpoint bumped (cs : list Z) (l : list nat) : list Z :=
  match l with [] => cs | x :: t => bumped (upd cs x (gz cs x + 1)) t end.

Lemma bumped_length cs l : length (bumped cs l) = length cs.
Proof. revert cs; induction l; intros; cbn; auto. rewrite IHl, length_upd; auto. Qed.

Lemma bumped_nth : forall l cs x, NoDup l -> Forall (fun z => (z < length cs)%nat) l ->
  gz (bumped cs l) x = gz cs x + (if in_dec Nat.eq_dec x l then 1 else 0).
Proof.
  induction l as [|a l IH]; intros cs x Hnd Hf; [cbn; lia|].
  inversion Hnd; inversion Hf; subst. cbn [bumped]. rewrite IH; auto.
  2:{ eapply Forall_impl; [|eauto]. cbn; intros; rewrite length_upd; auto. }
  destruct (in_dec Nat.eq_dec x l) as [Hi|Hi]; destruct (in_dec Nat.eq_dec x (a :: l)) as [Hj|Hj].
  - rewrite nth_upd_neq; [lia|]. intros ->; auto.
  - exfalso; apply Hj; right; auto.
  - destruct Hj as [->|]; [|contradiction]. rewrite nth_upd_eq by auto. lia.
  - rewrite nth_upd_neq; [lia|]. intros ->; apply Hj; left; auto.
Qed.

Lemma bump_chain_spec ot : forall l fuel x t cs, l = x :: t ->
  (length l <= fuel)%nat -> linked ot l ->
  Forall (fun z => (z < length cs)%nat) l -> length ot = length cs ->
  bump_chain fuel cs ot (Z.of_nat x) = Ret (bumped cs l, Z.of_nat (last l 0%nat)).
Proof.
  induction l as [|a l IH]; intros fuel x t cs E Hl Hk Hf Ho; [discriminate|].
  injection E as -> <-. inversion Hf as [|? ? Hx Hf']; subst.
  destruct Hk as [Hk1 Hk2].
  destruct fuel as [|fuel]; [cbn in Hl; lia|].
  cbn [bump_chain]. rewrite (aget_nth cs _ 0) by lia. cbn [bind]. rewrite Nat2Z.id.
  rewrite aset_ok by lia. cbn [bind]. rewrite (aget_nth ot _ 0) by lia. cbn [bind]. rewrite !Nat2Z.id.
  destruct l as [|y l].
  - rewrite Hk1. cbn. reflexivity.
  - rewrite Hk1. destruct (Z.leb_spec 0 (Z.of_nat y)); [|lia].
    rewrite (IH fuel y l); auto.
    + cbn in *; lia.
    + eapply Forall_impl; [|exact Hf']. cbn; intros; rewrite length_upd; auto.
    + rewrite length_upd; auto.
Qed.

(* ---- the invariant of the merging loop ---- *)
Definition w0 (fr0 : list Z) (l : list nat) : Z := sumf (fun x => gz fr0 x) l.
(* Kraft sum of a branch, scaled by 2^K *)
Definition ksum (cs : list Z) (K : Z) (l : list nat) : Z := sumf (fun x => 2 ^ (K - gz cs x)) l.

Record chain_ok (fr0 fr cs ot : list Z) (l : list nat) : Prop := {
  ch_ne : l <> [];
  ch_link : linked ot l;
  ch_root : gz fr (hd 0%nat l) = w0 fr0 l;
  ch_dead : forall x, In x (tl l) -> gz fr x = 1000000001;
  ch_size : forall x, In x l -> 0 <= gz cs x < Z.of_nat (length l);
  ch_kraft : forall K, Z.of_nat (length l) <= K -> ksum cs K l = 2 ^ K }.

Definition below (cs : list Z) (l : list nat) (d : Z) : Prop := forall x, In x l -> gz cs x <= d.

(* p = the branch with the pseudo-symbol q, of depth d; R = the other branches *)
Record pseudo_ok (fr0 cs : list Z) (q : nat) (p : list nat) (R : list (list nat)) (d m : Z) : Prop := {
  ps_in : In q p;
  ps_d : gz cs q = d;
  ps_max : below cs p d;
  ps_m : forall t, In t R -> m <= w0 fr0 t;
  ps_2m : w0 fr0 p <= 2 * m;
  ps_h : forall t, In t R -> below cs t d;
  ps_prec : forall t, In t R -> (w0 fr0 t < w0 fr0 p \/ (w0 fr0 t = w0 fr0 p /\ hd 0%nat p <> q)) ->
              below cs t (d - 1);
  ps_tie : hd 0%nat p = q \/ w0 fr0 p < 2 * m \/
           (w0 fr0 p = 2 * m /\ forall t, In t R -> w0 fr0 t = m -> below cs t (d - 2)) }.

Record minv (fr0 fr cs ot : list Z) (p : list nat) (R : list (list nat)) : Prop := {
  mi_perm : Permutation (concat (p :: R)) (seq 0 (length fr0));
  mi_lfr : length fr = length fr0;
  mi_lcs : length cs = 257%nat;
  mi_lot : length ot = 257%nat;
  mi_chain : forall t, In t (p :: R) -> chain_ok fr0 fr cs ot t;
  mi_pseudo : exists d m, pseudo_ok fr0 cs (length fr0 - 1) p R d m }.

Lemma perm_in_split {A} (x : A) l : In x l -> exists l', Permutation l (x :: l').
Proof. intros H. apply in_split in H as (a & b & ->). exists (a ++ b). symmetry. apply Permutation_middle. Qed.

Lemma concat_perm {A} (a b : list (list A)) : Permutation a b -> Permutation (concat a) (concat b).
Proof.
  induction 1; cbn.
  - constructor.
  - apply Permutation_app_head; auto.
  - rewrite !app_assoc. apply Permutation_app_tail. apply Permutation_app_comm.
  - etransitivity; eauto.
Qed.

Section Step.
Variable fr0 : list Z.
Let n := length fr0.
Let q := (n - 1)%nat.
Hypothesis Hn : (n <= 257)%nat.
Hypothesis Hpos : Forall (fun f => 1 <= f) fr0.
Hypothesis Htot : sumf (fun x => gz fr0 x) (seq 0 n) <= BIG.

Lemma fr0_pos x : (x < n)%nat -> 1 <= gz fr0 x.
Proof. intros H. rewrite Forall_forall in Hpos. apply Hpos. apply nth_In. auto. Qed.

(* facts about a branch of a partition *)
Lemma part_chain F t : Permutation (concat F) (seq 0 n) -> In t F ->
  NoDup t /\ (forall x, In x t -> (x < n)%nat) /\ 0 <= w0 fr0 t <= BIG.
Proof.
  intros HP Hi. apply perm_in_split in Hi as (F' & HF).
  assert (HP' : Permutation (t ++ concat F') (seq 0 n)).
  { transitivity (concat F); auto. symmetry. apply (concat_perm _ _ HF). }
  assert (Hnd : NoDup (t ++ concat F')).
  { eapply Permutation_NoDup; [symmetry; exact HP'|apply seq_NoDup]. }
  assert (Hlt : forall x, In x (t ++ concat F') -> (x < n)%nat).
  { intros x Hx. apply (Permutation_in _ HP') in Hx. apply in_seq in Hx. lia. }
  split; [|split].
  - clear - Hnd. induction t; [constructor|]. inversion Hnd; subst. constructor; auto.
    intro; apply H1, in_or_app; auto.
  - intros; apply Hlt, in_or_app; auto.
  - unfold w0. rewrite <- (sumf_perm _ _ _ HP'), sumf_app in Htot.
    assert (G : forall l, (forall x, In x l -> (x < n)%nat) -> 0 <= sumf (fun x => gz fr0 x) l).
    { intros l Hl. apply sumf_nonneg. intros x Hx. pose proof (fr0_pos x (Hl x Hx)). lia. }
    assert (0 <= sumf (fun x => gz fr0 x) t) by (apply G; intros; apply Hlt, in_or_app; auto).
    assert (0 <= sumf (fun x => gz fr0 x) (concat F')) by (apply G; intros; apply Hlt, in_or_app; auto).
    lia.
Qed.

Lemma disjoint2 F a b x : Permutation (concat (a :: b :: F)) (seq 0 n) -> In x a -> ~ In x b.
Proof.
  intros HP Ha Hb.
  assert (Hnd : NoDup (concat (a :: b :: F))).
  { eapply Permutation_NoDup; [symmetry; exact HP|apply seq_NoDup]. }
  cbn in Hnd. clear HP. induction a as [|y a IH]; [contradiction|].
  cbn in Hnd. inversion Hnd; subst. destruct Ha as [->|Ha]; auto.
  apply H1. apply in_or_app. right. apply in_or_app; auto.
Qed.

Lemma hd_in (t : list nat) : t <> [] -> In (hd 0%nat t) t.
Proof. destruct t; [congruence|left; auto]. Qed.

(* every entry <= BIG is the root of its branch *)
Lemma live_root fr cs ot F j : Permutation (concat F) (seq 0 n) ->
  (forall t, In t F -> chain_ok fr0 fr cs ot t) ->
  (j < n)%nat -> gz fr j <= BIG -> exists t, In t F /\ hd 0%nat t = j.
Proof.
  intros HP HC Hj Hle.
  assert (Hin : In j (concat F)).
  { eapply Permutation_in; [symmetry; exact HP|apply in_seq; lia]. }
  apply in_concat in Hin as (t & Ht & Hjt). exists t. split; auto.
  destruct (HC t Ht) as [Hne _ _ Hd _ _].
  destruct t as [|r t]; [congruence|]. destruct Hjt as [->|Hjt]; auto.
  specialize (Hd j Hjt). unfold BIG in *. lia.
Qed.

(* merging two branches a (root c1) and b (root c2): effect on chain_ok *)
Definition cs_after cs (a b : list nat) := bumped (bumped cs a) b.

Lemma cs_after_nth cs a b x : length cs = 257%nat ->
  NoDup a -> NoDup b -> (forall y, In y a -> (y < n)%nat) -> (forall y, In y b -> (y < n)%nat) ->
  (forall y, In y a -> ~ In y b) ->
  gz (cs_after cs a b) x =
  gz cs x + (if in_dec Nat.eq_dec x (a ++ b) then 1 else 0).
Proof.
  intros Hc Na Nb La Lb Hd. unfold cs_after.
  rewrite bumped_nth; auto.
  2:{ rewrite bumped_length. apply Forall_forall. intros y Hy. specialize (Lb y Hy). lia. }
  rewrite bumped_nth; auto.
  2:{ apply Forall_forall. intros y Hy. specialize (La y Hy). lia. }
  destruct (in_dec Nat.eq_dec x a); destruct (in_dec Nat.eq_dec x b);
    destruct (in_dec Nat.eq_dec x (a ++ b)) as [Hi|Hi]; try lia;
    rewrite in_app_iff in Hi; try tauto; exfalso; eapply Hd; eauto.
Qed.

Lemma ksum_ext cs cs' K l k : (forall x, In x l -> gz cs' x = gz cs x + k) -> 
  ksum cs' K l = ksum cs (K - k) l.
Proof. intros H. apply sumf_ext. intros x Hx. rewrite H by auto. f_equal. lia. Qed.

Lemma chain_merge F fr cs ot a b :
  Permutation (concat (a :: b :: F)) (seq 0 n) ->
  length fr = n -> length cs = 257%nat -> length ot = 257%nat ->
  (forall t, In t (a :: b :: F) -> chain_ok fr0 fr cs ot t) ->
  let fr' := upd (upd fr (hd 0%nat a) (gz fr (hd 0%nat a) + gz fr (hd 0%nat b))) (hd 0%nat b) 1000000001 in
  let ot' := upd ot (last a 0%nat) (Z.of_nat (hd 0%nat b)) in
  let cs' := cs_after cs a b in
  (forall t, In t ((a ++ b) :: F) -> chain_ok fr0 fr' cs' ot' t) /\
  (forall x, In x (a ++ b) -> gz cs' x = gz cs x + 1) /\
  (forall t x, In t F -> In x t -> gz cs' x = gz cs x).
Proof.
  intros HP Lf Lc Lo HC fr' ot' cs'.
  destruct (part_chain _ a HP (or_introl eq_refl)) as (Na & La & _).
  destruct (part_chain _ b HP (or_intror (or_introl eq_refl))) as (Nb & Lb & _).
  pose proof (disjoint2 F a b) as Hd.
  assert (Hd' : forall y, In y a -> ~ In y b) by (intros; eapply Hd; eauto). clear Hd.
  assert (HF : forall t, In t F -> forall x, In x t -> ~ In x a /\ ~ In x b).
  { intros t Ht x Hx. apply perm_in_split in Ht as (F' & HF').
    assert (P1 : Permutation (concat (t :: a :: b :: F')) (seq 0 n)).
    { etransitivity; [|exact HP]. apply concat_perm. rewrite HF'.
      etransitivity; [apply perm_swap|]. apply perm_skip. apply perm_swap. }
    assert (P2 : Permutation (concat (t :: b :: a :: F')) (seq 0 n)).
    { etransitivity; [|exact P1]. apply concat_perm. apply perm_skip, perm_swap. }
    split; eapply disjoint2; eauto. }
  assert (Hcs : forall x, gz cs' x = gz cs x + (if in_dec Nat.eq_dec x (a ++ b) then 1 else 0)).
  { intros; apply cs_after_nth; auto. }
  assert (Hin : forall x, In x (a ++ b) -> gz cs' x = gz cs x + 1).
  { intros x Hx. rewrite Hcs. destruct (in_dec Nat.eq_dec x (a ++ b)); [lia|contradiction]. }
  assert (Hout : forall t x, In t F -> In x t -> gz cs' x = gz cs x).
  { intros t x Ht Hx. rewrite Hcs. destruct (in_dec Nat.eq_dec x (a ++ b)) as [Hi|Hi]; [|lia].
    apply in_app_or in Hi. destruct (HF t Ht x Hx). tauto. }
  split; [|split; auto].
  destruct (HC a (or_introl eq_refl)) as [A1 A2 A3 A4 A5 A6].
  destruct (HC b (or_intror (or_introl eq_refl))) as [B1 B2 B3 B4 B5 B6].
  pose proof (hd_in a A1) as Ha. pose proof (hd_in b B1) as Hb.
  assert (Hab : hd 0%nat a <> hd 0%nat b) by (intros E; apply (Hd' _ Ha); rewrite E; auto).
  assert (Hla : In (last a 0%nat) a).
  { clear - A1. destruct a as [|x a]; [congruence|]. clear A1. revert x.
    induction a as [|y a IH]; intros x; [left; auto|]. right. apply IH. }
  intros t [<-|Ht].
  - constructor.
    + destruct a; cbn; [congruence|discriminate].
    + unfold ot'. destruct a as [|x a]; [congruence|].
      eapply linked_append; eauto.
      * cbn [app]. assert (Hnd : NoDup (concat ((x :: a) :: b :: F))).
        { eapply Permutation_NoDup; [symmetry; exact HP|apply seq_NoDup]. }
        cbn in Hnd. rewrite app_assoc in Hnd. change (x :: (a ++ b) ++ concat F) with ((x :: a ++ b) ++ concat F) in Hnd.
        clear - Hnd. induction (x :: a ++ b) as [|z l IH]; [constructor|].
        inversion Hnd; subst. constructor; auto. intro; apply H1, in_or_app; auto.
      * apply Forall_forall. intros z Hz. specialize (La z Hz). lia.
    + replace (hd 0%nat (a ++ b)) with (hd 0%nat a) by (destruct a; [congruence|auto]).
      unfold fr'. rewrite nth_upd_neq by auto. rewrite nth_upd_eq by (rewrite Lf; apply La; auto).
      unfold w0. rewrite sumf_app. unfold w0 in A3, B3. lia.
    + intros x Hx.
      assert (Hx' : In x (tl a) \/ x = hd 0%nat b \/ In x (tl b)).
      { destruct a as [|y a]; [congruence|]. cbn in Hx. apply in_app_or in Hx as [|Hx]; auto.
        destruct b as [|z b]; [congruence|]. cbn in *. destruct Hx; auto. }
      assert (Hxa : x <> hd 0%nat a).
      { destruct Hx' as [Hx'|[->|Hx']]; auto.
        - destruct a as [|y a]; [congruence|]. cbn in *. inversion Na; subst. intros ->; auto.
        - intros ->. apply (Hd' _ Ha). destruct b; [congruence|]. cbn in Hx'. right; auto. }
      unfold fr'. destruct (Nat.eq_dec x (hd 0%nat b)) as [->|Hxb].
      * rewrite nth_upd_eq; auto. rewrite length_upd, Lf. apply Lb; auto.
      * rewrite !nth_upd_neq by auto. destruct Hx' as [Hx'|[->|Hx']]; auto. congruence.
    + intros x Hx. rewrite Hin by auto. rewrite app_length.
      assert (1 <= length a)%nat by (destruct a; [congruence|cbn; lia]).
      assert (1 <= length b)%nat by (destruct b; [congruence|cbn; lia]).
      apply in_app_or in Hx as [Hx|Hx]; [specialize (A5 x Hx)|specialize (B5 x Hx)]; lia.
    + intros K HK. rewrite app_length in HK. unfold ksum. rewrite sumf_app.
      change (ksum cs' K a + ksum cs' K b = 2 ^ K).
      rewrite (ksum_ext cs cs' K a 1), (ksum_ext cs cs' K b 1); try (intros; apply Hin, in_or_app; auto).
      assert (1 <= length a)%nat by (destruct a; [congruence|cbn; lia]).
      assert (1 <= length b)%nat by (destruct b; [congruence|cbn; lia]).
      rewrite A6, B6 by lia.
      replace K with (Z.succ (K - 1)) at 3 by lia. rewrite Z.pow_succ_r by lia. lia.
  - destruct (HC t (or_intror (or_intror Ht))) as [C1 C2 C3 C4 C5 C6].
    assert (Hna : forall x, In x t -> x <> hd 0%nat a /\ x <> hd 0%nat b).
    { intros x Hx. destruct (HF t Ht x Hx). split; intros ->; contradiction. }
    assert (Hfr : forall x, In x t -> gz fr' x = gz fr x).
    { intros x Hx. destruct (Hna x Hx). unfold fr'. rewrite !nth_upd_neq by auto. auto. }
    constructor; auto.
    + unfold ot'. apply linked_upd; auto. intros Hx. destruct (HF t Ht _ Hx). contradiction.
    + rewrite Hfr by (apply hd_in; auto). auto.
    + intros x Hx. rewrite Hfr; auto. destruct t; [contradiction|]. right; auto.
    + intros x Hx. rewrite (Hout t x) by auto. auto.
    + intros K HK. rewrite (ksum_ext cs cs' K t 0).
      * rewrite Z.sub_0_r. auto.
      * intros x Hx. rewrite (Hout t x) by auto. lia.
Qed.

Lemma pseudo_perm cs q0 p R R' d m : Permutation R R' ->
  pseudo_ok fr0 cs q0 p R d m -> pseudo_ok fr0 cs q0 p R' d m.
Proof.
  intros HP [H1 H2 H3 H4 H5 H6 H7 H8].
  assert (I : forall t, In t R' -> In t R) by (intros t; apply Permutation_in; symmetry; auto).
  constructor; auto. destruct H8 as [|[|[? H8]]]; auto. right; right. split; auto.
Qed.

Lemma w0_pos F t : Permutation (concat F) (seq 0 n) -> In t F -> t <> [] -> 1 <= w0 fr0 t.
Proof.
  intros HP Hi Hne. destruct (part_chain F t HP Hi) as (_ & L & _).
  pose proof (hd_in t Hne) as Hh.
  transitivity (gz fr0 (hd 0%nat t)); [apply fr0_pos; auto|].
  unfold w0. apply (sumf_in_le (fun x => gz fr0 x)); auto. intros y Hy. pose proof (fr0_pos y (L y Hy)). lia.
Qed.

Lemma step_inv fr cs ot p R a b :
  minv fr0 fr cs ot p R ->
  (a < n)%nat -> (b < n)%nat -> a <> b ->
  gz fr a <= gz fr b <= BIG -> (gz fr a = gz fr b -> (b < a)%nat) ->
  (forall j, (j < n)%nat -> j <> a -> j <> b ->
     gz fr b < gz fr j \/ (gz fr b = gz fr j /\ (j < Nat.max a b)%nat)) ->
  exists A B p' R', In A (p :: R) /\ In B (p :: R) /\ hd 0%nat A = a /\ hd 0%nat B = b /\
    length R = S (length R') /\
    (forall y, In y A -> ~ In y B) /\
    minv fr0 (upd (upd fr a (gz fr a + gz fr b)) b 1000000001) (cs_after cs A B)
         (upd ot (last A 0%nat) (Z.of_nat b)) p' R'.
Proof.
  intros [HP Lf Lc Lo HC (d & m & HS)] Ha Hb Hab Hle Htie Hmin. fold n in HP, Lf. fold n q in HS.
  destruct (live_root fr cs ot _ a HP HC Ha) as (A & HA & EA); [lia|].
  destruct (live_root fr cs ot _ b HP HC Hb) as (B & HB & EB); [lia|].
  assert (WA : w0 fr0 A = gz fr a) by (rewrite <- EA; symmetry; apply (ch_root _ _ _ _ _ (HC A HA))).
  assert (WB : w0 fr0 B = gz fr b) by (rewrite <- EB; symmetry; apply (ch_root _ _ _ _ _ (HC B HB))).
  assert (NA : A <> []) by (apply (ch_ne _ _ _ _ _ (HC A HA))).
  assert (NB : B <> []) by (apply (ch_ne _ _ _ _ _ (HC B HB))).
  assert (AB : A <> B) by congruence.
  (* common part: rebuild minv from a pseudo_ok fact *)
  assert (Rebuild : forall F p' R', Permutation (A :: B :: F) (p :: R) -> Permutation (p' :: R') ((A ++ B) :: F) ->
     (forall y, In y A -> ~ In y B) /\
     ((forall x, In x (A ++ B) -> gz (cs_after cs A B) x = gz cs x + 1) ->
      (forall t x, In t F -> In x t -> gz (cs_after cs A B) x = gz cs x) ->
      exists d' m', pseudo_ok fr0 (cs_after cs A B) q p' R' d' m') ->
     minv fr0 (upd (upd fr a (gz fr a + gz fr b)) b 1000000001) (cs_after cs A B)
         (upd ot (last A 0%nat) (Z.of_nat b)) p' R').
  { intros F p' R' HF HF' [Hdis Hps].
    assert (HP2 : Permutation (concat (A :: B :: F)) (seq 0 n)).
    { etransitivity; [apply concat_perm, HF|exact HP]. }
    destruct (chain_merge F fr cs ot A B HP2 Lf Lc Lo) as (M1 & M2 & M3).
    { intros t Ht. apply HC. eapply Permutation_in; eauto. }
    rewrite EA, EB in M1.
    constructor; fold n q.
    - etransitivity; [apply concat_perm, HF'|]. cbn [concat] in *. rewrite <- app_assoc. exact HP2.
    - rewrite !length_upd; auto.
    - unfold cs_after. rewrite !bumped_length; auto.
    - rewrite length_upd; auto.
    - intros t Ht. apply M1. eapply Permutation_in; eauto.
    - auto. }
  assert (Disj : forall F, Permutation (A :: B :: F) (p :: R) -> forall y, In y A -> ~ In y B).
  { intros F HF y. apply (disjoint2 F). etransitivity; [apply concat_perm, HF|exact HP]. }
  (* other branches are at least as heavy as b *)
  assert (Other : forall t, In t (p :: R) -> t <> A -> t <> B ->
     w0 fr0 B <= w0 fr0 t /\ (hd 0%nat t = q -> w0 fr0 B < w0 fr0 t)).
  { intros t Ht HtA HtB.
    assert (WT : w0 fr0 t = gz fr (hd 0%nat t)) by (symmetry; apply (ch_root _ _ _ _ _ (HC t Ht))).
    destruct (part_chain _ t HP Ht) as (_ & Lt & _).
    pose proof (hd_in t (ch_ne _ _ _ _ _ (HC t Ht))) as Hh.
    assert (U : forall s, In s (p :: R) -> s <> t -> hd 0%nat t <> hd 0%nat s).
    { intros s Hs Hst E. 
      assert (G : exists F, Permutation (t :: s :: F) (p :: R)).
      { apply perm_in_split in Ht as (F & HF).
        assert (In s (t :: F)) by (eapply Permutation_in; eauto). destruct H as [->|H]; [congruence|].
        apply perm_in_split in H as (F' & HF'). exists F'. rewrite HF. symmetry. apply perm_skip; auto. }
      destruct G as (F & HF).
      assert (HP3 : Permutation (concat (t :: s :: F)) (seq 0 n)).
      { etransitivity; [apply concat_perm, HF|exact HP]. }
      apply (disjoint2 F t s (hd 0%nat t) HP3 Hh). rewrite E. apply hd_in, (ch_ne _ _ _ _ _ (HC s Hs)). }
    specialize (Hmin (hd 0%nat t) (Lt _ Hh)).
    rewrite <- EA, <- EB in Hmin.
    specialize (Hmin (U A HA (not_eq_sym HtA)) (U B HB (not_eq_sym HtB))).
    rewrite EA, EB, <- WB, <- WT in Hmin.
    split; [lia|]. intros Hq. rewrite Hq in Hmin. unfold q in Hmin. lia. }
  assert (RNd : forall F x, Permutation (A :: B :: F) (p :: R) -> In x F -> x <> A /\ x <> B).
  { intros F x HF Hx. apply perm_in_split in Hx as (F' & HF').
    assert (Hx : In x (p :: R)). { eapply Permutation_in; [exact HF|]. right; right. rewrite HF'. left; auto. }
    pose proof (hd_in x (ch_ne _ _ _ _ _ (HC x Hx))) as Hh.
    split; intros ->.
    - assert (HP3 : Permutation (concat (A :: A :: B :: F')) (seq 0 n)).
      { etransitivity; [|exact HP]. apply concat_perm. rewrite <- HF, HF'. apply perm_skip, perm_swap. }
      apply (disjoint2 _ _ _ _ HP3 Hh Hh).
    - assert (HP3 : Permutation (concat (B :: B :: A :: F')) (seq 0 n)).
      { etransitivity; [|exact HP]. apply concat_perm. rewrite <- HF, HF'.
        etransitivity; [apply perm_skip, perm_swap|]. apply perm_swap. }
      apply (disjoint2 _ _ _ _ HP3 Hh Hh). }
  destruct (list_eq_dec Nat.eq_dec A p) as [EAp|NAp]; [|destruct (list_eq_dec Nat.eq_dec B p) as [EBp|NBp]].
  - (* the pseudo-symbol's branch is the lightest *)
    subst p. assert (HBR : In B R) by (destruct HB as [E|]; [congruence|auto]).
    apply perm_in_split in HBR as (R' & HR).
    assert (HF : Permutation (A :: B :: R') (A :: R)) by (apply perm_skip; symmetry; auto).
    exists A, B, (A ++ B), R'. repeat apply conj; auto; [apply Permutation_length in HR; auto|eauto|].
    apply (Rebuild R' _ _ HF); auto. split; [eauto|]. intros U1 U2.
    apply (pseudo_perm _ _ _ _ _ _ _ HR) in HS. destruct HS as [S1 S2 S3 S4 S5 S6 S7 S8].
    exists (d + 1), (w0 fr0 B). constructor.
    + apply in_or_app; auto.
    + rewrite U1 by (apply in_or_app; auto). lia.
    + intros x Hx. rewrite U1 by auto. apply in_app_or in Hx as [Hx|Hx].
      * specialize (S3 x Hx). lia.
      * specialize (S6 B (or_introl eq_refl) x Hx). lia.
    + intros t Ht. destruct (RNd _ t HF Ht). apply Other; auto. eapply Permutation_in; [exact HF|]. right; right; auto.
    + unfold w0. rewrite sumf_app. unfold w0 in WA, WB. lia.
    + intros t Ht x Hx. rewrite (U2 t x) by auto. specialize (S6 t (or_intror Ht) x Hx). lia.
    + intros t Ht _ x Hx. rewrite (U2 t x) by auto. specialize (S6 t (or_intror Ht) x Hx). lia.
    + replace (hd 0%nat (A ++ B)) with (hd 0%nat A) by (destruct A; [congruence|auto]).
      assert (WAB : w0 fr0 (A ++ B) = w0 fr0 A + w0 fr0 B) by apply sumf_app. rewrite WAB.
      destruct (Nat.eq_dec (hd 0%nat A) q) as [|Hq]; [left; auto|right].
      destruct (Z_lt_le_dec (w0 fr0 A) (w0 fr0 B)); [left; lia|right].
      split; [lia|]. intros t Ht Hwt x Hx. rewrite (U2 t x) by auto.
      assert (Hbt : below cs t (d - 1)). { apply S7; [right; auto|]. right. split; auto. lia. }
      specialize (Hbt x Hx). lia.
  - (* it is the second *)
    subst p. assert (HAR : In A R) by (destruct HA as [E|]; [congruence|auto]).
    apply perm_in_split in HAR as (R' & HR).
    assert (HF : Permutation (A :: B :: R') (B :: R)).
    { etransitivity; [apply perm_swap|]. apply perm_skip; symmetry; auto. }
    exists A, B, (A ++ B), R'. repeat apply conj; auto; [apply Permutation_length in HR; auto|eauto|].
    apply (Rebuild R' _ _ HF); auto. split; [eauto|]. intros U1 U2.
    apply (pseudo_perm _ _ _ _ _ _ _ HR) in HS. destruct HS as [S1 S2 S3 S4 S5 S6 S7 S8].
    exists (d + 1), (w0 fr0 B). constructor.
    + apply in_or_app; auto.
    + rewrite U1 by (apply in_or_app; auto). lia.
    + intros x Hx. rewrite U1 by auto. apply in_app_or in Hx as [Hx|Hx].
      * specialize (S6 A (or_introl eq_refl) x Hx). lia.
      * specialize (S3 x Hx). lia.
    + intros t Ht. destruct (RNd _ t HF Ht). apply Other; auto. eapply Permutation_in; [exact HF|]. right; right; auto.
    + unfold w0. rewrite sumf_app. unfold w0 in WA, WB. lia.
    + intros t Ht x Hx. rewrite (U2 t x) by auto. specialize (S6 t (or_intror Ht) x Hx). lia.
    + intros t Ht _ x Hx. rewrite (U2 t x) by auto. specialize (S6 t (or_intror Ht) x Hx). lia.
    + assert (WAB : w0 fr0 (A ++ B) = w0 fr0 A + w0 fr0 B) by apply sumf_app. rewrite WAB. right.
      destruct (Z_lt_le_dec (w0 fr0 A) (w0 fr0 B)); [left; lia|right].
      split; [lia|]. intros t Ht Hwt x Hx. rewrite (U2 t x) by auto.
      assert (Hbt : below cs t (d - 1)).
      { apply S7; [right; auto|]. right. split; auto. rewrite EB. unfold q. specialize (Htie ltac:(lia)). lia. }
      specialize (Hbt x Hx). lia.
  - (* neither *)
    assert (HAR : In A R) by (destruct HA as [E|]; [congruence|auto]).
    assert (HBR : In B R) by (destruct HB as [E|]; [congruence|auto]).
    apply perm_in_split in HAR as (R1 & HR1).
    assert (HBR1 : In B R1). { apply (Permutation_in _ HR1) in HBR. destruct HBR; [congruence|auto]. }
    apply perm_in_split in HBR1 as (R' & HR2).
    assert (HR : Permutation R (A :: B :: R')) by (rewrite HR1; apply perm_skip; auto).
    assert (HF : Permutation (A :: B :: p :: R') (p :: R)).
    { rewrite HR. etransitivity; [apply perm_skip, perm_swap|]. apply perm_swap. }
    exists A, B, p, ((A ++ B) :: R'). repeat apply conj; auto; [apply Permutation_length in HR; cbn in *; lia|eauto|].
    apply (Rebuild (p :: R') _ _ HF); [apply perm_swap|]. split; [eauto|]. intros U1 U2.
    apply (pseudo_perm _ _ _ _ _ _ _ HR) in HS. destruct HS as [S1 S2 S3 S4 S5 S6 S7 S8].
    destruct (Other p (or_introl eq_refl) (not_eq_sym NAp) (not_eq_sym NBp)) as [O1 O2].
    assert (PA : below cs A (d - 1)).
    { apply S7; [left; auto|]. destruct (Nat.eq_dec (hd 0%nat p) q) as [Hq|Hq]; [specialize (O2 Hq)|]; lia. }
    assert (PB : below cs B (d - 1)).
    { apply S7; [right; left; auto|]. destruct (Nat.eq_dec (hd 0%nat p) q) as [Hq|Hq]; [specialize (O2 Hq)|]; lia. }
    assert (WAB : w0 fr0 (A ++ B) = w0 fr0 A + w0 fr0 B) by apply sumf_app.
    assert (MA : m <= w0 fr0 A) by (apply S4; left; auto).
    assert (MB : m <= w0 fr0 B) by (apply S4; right; left; auto).
    assert (Wp : 1 <= w0 fr0 p).
    { apply (w0_pos _ _ HP); [left; auto|]. apply (ch_ne _ _ _ _ _ (HC p (or_introl eq_refl))). }
    exists d, m. constructor; auto.
    + rewrite (U2 p q); auto. left; auto.
    + intros x Hx. rewrite (U2 p x) by (auto; left; auto). auto.
    + intros t [<-|Ht]; [lia|]. apply S4; right; right; auto.
    + intros t [<-|Ht] x Hx.
      * rewrite U1 by auto. apply in_app_or in Hx as [Hx|Hx]; [specialize (PA x Hx)|specialize (PB x Hx)]; lia.
      * rewrite (U2 t x) by (auto; right; auto). apply (S6 t); auto. right; right; auto.
    + intros t [<-|Ht] Hw x Hx.
      * rewrite U1 by auto. destruct Hw as [Hw|[Hw Hq]]; [lia|].
        destruct S8 as [?|[?|[S8 S9]]]; [congruence|lia|].
        apply in_app_or in Hx as [Hx|Hx].
        -- specialize (S9 A (or_introl eq_refl) ltac:(lia) x Hx). lia.
        -- specialize (S9 B (or_intror (or_introl eq_refl)) ltac:(lia) x Hx). lia.
      * rewrite (U2 t x) by (auto; right; auto). apply (S7 t); auto. right; right; auto.
    + destruct S8 as [?|[?|[S8 S9]]]; auto. right; right. split; auto.
      intros t [<-|Ht] Hw x Hx; [lia|]. rewrite (U2 t x) by (auto; right; auto). apply (S9 t); auto. right; right; auto.
Qed.

(* result of the loop *)
Definition merged (cs : list Z) : Prop :=
  length cs = 257%nat /\
  (forall x, (x < n)%nat -> 0 <= gz cs x < Z.of_nat n) /\
  (forall x, (x < n)%nat -> gz cs x <= gz cs q) /\
  (forall K, Z.of_nat n <= K -> ksum cs K (seq 0 n) = 2 ^ K).

Lemma merge_loop_spec : forall R fuel fr cs ot p, (length R <= fuel)%nat ->
  minv fr0 fr cs ot p R -> exists cs', merge_loop fuel fr cs ot = Ret cs' /\ merged cs'.
Proof.
  intros R. remember (length R) as k. revert R Heqk.
  induction k as [|k IH]; intros R Ek fuel fr cs ot p Hf HI.
  - destruct R; [|discriminate]. exists cs.
    pose proof (find2_spec fr) as H2. destruct HI as [HP Lf Lc Lo HC (d & m & HS)].
    fold n in HP, Lf. fold n q in HS.
    assert (E : merge_loop fuel fr cs ot = Ret cs).
    { destruct fuel; cbn [merge_loop]; fold BIG; destruct (find2 fr 0 (-1) (-1) BIG BIG) as [c1 c2];
      (destruct H2 as [[-> _]|(a & b & -> & -> & Ha & Hb & Hab & Hle & _ & _)]; [reflexivity|exfalso]);
      rewrite Lf in *;
      (destruct (live_root fr cs ot _ a HP HC Ha) as (A & HA & EA); [lia|]);
      (destruct (live_root fr cs ot _ b HP HC Hb) as (B & HB & EB); [lia|]);
      destruct HA as [<-|[]]; destruct HB as [<-|[]]; congruence. }
    split; auto. cbn [concat] in HP. rewrite app_nil_r in HP.
    destruct (HC p (or_introl eq_refl)) as [C1 C2 C3 C4 C5 C6].
    assert (Hin : forall x, (x < n)%nat -> In x p).
    { intros x Hx. eapply Permutation_in; [symmetry; exact HP|apply in_seq; lia]. }
    assert (Lp : length p = n) by (apply Permutation_length in HP; rewrite seq_length in HP; auto).
    repeat apply conj; auto.
    + intros x Hx. rewrite <- Lp. auto.
    + intros x Hx. destruct HS as [S1 S2 S3 _ _ _ _ _]. rewrite S2. apply S3; auto.
    + intros K HK. unfold ksum. rewrite <- (sumf_perm _ _ _ HP). apply C6. lia.
  - destruct fuel as [|fuel]; [lia|].
    pose proof (find2_spec fr) as H2. cbn [merge_loop]. fold BIG.
    destruct (find2 fr 0 (-1) (-1) BIG BIG) as [c1 c2].
    assert (Lf : length fr = n) by (destruct HI; auto).
    destruct H2 as [[-> (a & H2)]|(a & b & -> & -> & Ha & Hb & Hab & Hle & Ht & Hj)].
    + exfalso. destruct HI as [HP _ Lc Lo HC (d & m & HS)]. fold n in HP.
      destruct R as [|t R]; [discriminate|].
      assert (G : forall s, In s (p :: t :: R) -> hd 0%nat s = a).
      { intros s Hs. destruct (Nat.eq_dec (hd 0%nat s) a) as [|Hne]; auto. exfalso.
        destruct (part_chain _ s HP Hs) as (_ & Ls & Ws).
        specialize (H2 (hd 0%nat s)). rewrite Lf in H2.
        specialize (H2 (Ls _ (hd_in s (ch_ne _ _ _ _ _ (HC s Hs)))) Hne).
        rewrite (ch_root _ _ _ _ _ (HC s Hs)) in H2. lia. }
      apply (disjoint2 R p t a HP).
      * rewrite <- (G p (or_introl eq_refl)). apply hd_in, (ch_ne _ _ _ _ _ (HC p (or_introl eq_refl))).
      * rewrite <- (G t (or_intror (or_introl eq_refl))). apply hd_in, (ch_ne _ _ _ _ _ (HC t (or_intror (or_introl eq_refl)))).
    + destruct (Z.ltb_spec (Z.of_nat b) 0); [lia|].
      rewrite Lf in *.
      destruct (step_inv fr cs ot p R a b HI) as (A & B & p' & R' & HA & HB & EA & EB & EL & Hdis & HI'); auto.
      pose proof HI as [HP _ Lc Lo HC _]. fold n in HP.
      destruct (HC A HA) as [A1 A2 _ _ _ _]. destruct (HC B HB) as [B1 B2 _ _ _ _].
      destruct (part_chain _ A HP HA) as (NA & LA & _). destruct (part_chain _ B HP HB) as (NB & LB & _).
      assert (LenA : forall l, NoDup l -> (forall x, In x l -> (x < n)%nat) -> (length l <= 257)%nat).
      { intros l N1 N2. transitivity n; auto. rewrite <- (seq_length n 0). apply NoDup_incl_length; auto.
        intros x Hx. apply in_seq. specialize (N2 x Hx). lia. }
      rewrite (aget_nth fr _ 0) by lia. cbn [bind]. rewrite (aget_nth fr _ 0) by lia. cbn [bind].
      rewrite !Nat2Z.id. rewrite aset_ok by lia. cbn [bind]. rewrite aset_ok by (rewrite length_upd; lia).
      cbn [bind]. rewrite !Nat2Z.id.
      assert (FA : Forall (fun z => (z < 257)%nat) A) by (apply Forall_forall; intros z Hz; specialize (LA z Hz); lia).
      assert (FB : Forall (fun z => (z < 257)%nat) B) by (apply Forall_forall; intros z Hz; specialize (LB z Hz); lia).
      destruct A as [|xa A']; [congruence|]. cbn [hd] in EA. subst xa.
      rewrite (bump_chain_spec ot (a :: A') 257 a A' cs) by (rewrite ?Lc; auto). cbn [bind].
      assert (Hla : In (last (a :: A') 0%nat) (a :: A')).
      { clear. revert a. induction A' as [|y l IHl]; intros x; [left; auto|]. right. apply IHl. }
      rewrite aset_ok by (specialize (LA _ Hla); lia). cbn [bind]. rewrite Nat2Z.id.
      destruct B as [|xb B']; [congruence|]. cbn [hd] in EB. subst xb.
      rewrite (bump_chain_spec _ (b :: B') 257 b B'); rewrite ?bumped_length, ?length_upd; auto; try (rewrite Lc; auto); try lia.
      2:{ apply linked_upd; auto. }
      cbn [bind]. apply (IH R') with (p := p'); auto; lia.
Qed.

Lemma merge_spec : n <> 0%nat -> gz fr0 q = 1 ->
  exists cs, merge_loop 257 fr0 (repeat 0 257) (repeat (-1) 257) = Ret cs /\ merged cs.
Proof.
  intros Hn0 Hq.
  assert (Z0 : forall x, gz (repeat 0 257) x = 0) by (intros; apply nth_repeat).
  apply (merge_loop_spec (map (fun x => [x]) (seq 0 q)) _ _ _ _ [q]).
  { rewrite map_length, seq_length. unfold q. lia. }
  assert (Cc : forall l : list nat, concat (map (fun x => [x]) l) = l) by (induction l; cbn; congruence).
  assert (Hqn : n = S q) by (unfold q; lia).
  constructor; fold n q; auto.
  - cbn [concat]. rewrite Cc. rewrite Hqn, seq_S. cbn [Nat.add]. apply Permutation_app_comm.
  - intros t Ht.
    assert (Hx : exists x, t = [x] /\ (x < n)%nat).
    { destruct Ht as [<-|Ht]; [exists q; split; auto; lia|]. apply in_map_iff in Ht as (x & <- & Hx).
      apply in_seq in Hx. exists x; split; auto; lia. }
    destruct Hx as (x & -> & Hx). constructor.
    + discriminate.
    + cbn [linked]. split; auto.
      apply (repeat_spec 257). apply nth_In. rewrite repeat_length. lia.
    + cbn. unfold w0. cbn. lia.
    + contradiction.
    + intros y Hy. rewrite Z0. cbn; lia.
    + intros K HK. unfold ksum. cbn [sumf]. rewrite Z0. rewrite Z.sub_0_r. lia.
  - exists 0, 1.
    assert (Bz : forall t d, 0 <= d -> below (repeat 0 257) t d) by (intros t d0 Hd0 x _; rewrite Z0; auto).
    assert (Wq : w0 fr0 [q] = 1) by (unfold w0; cbn; rewrite Hq; auto).
    assert (Wt : forall t, In t (map (fun x => [x]) (seq 0 q)) -> 1 <= w0 fr0 t).
    { intros t Ht. apply in_map_iff in Ht as (x & <- & Hx). apply in_seq in Hx. unfold w0; cbn.
      pose proof (fr0_pos x ltac:(lia)). lia. }
    constructor; auto; try lia.
    + left; auto.
    + apply Bz; lia.
    + intros; apply Bz; lia.
    + intros t Ht [Hw|[_ Hw]]; [specialize (Wt t Ht); lia|]. cbn in Hw. congruence.
Qed.
End Step.
