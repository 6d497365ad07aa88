(* S_Coef.v -- the coefficients that a sequence of stores leaves in zeroed blocks *)
From Verif Require Import Base.

(* stores (block, position, value), oldest first: value of the last one to (bn, i) *)
Fixpoint last_store (st : list (Z * Z * Z)) (bn i : Z) : option Z :=
  match st with
  | [] => None
  | (bn', i', v) :: r =>
    match last_store r bn i with
    | Some w => Some w
    | None => if (bn =? bn') && (i =? i') then Some v else None
    end
  end.

(* coefficient i (natural order) of block bn *)
Definition coef (st : list (Z * Z * Z)) (bn i : Z) : Z :=
  match last_store st bn i with Some v => v | None => 0 end.

(* two sequences of stores leave the same coefficients *)
Definition same_coefs (a b : list (Z * Z * Z)) : Prop := forall bn i, coef a bn i = coef b bn i.

Lemma last_store_app a b bn i : last_store (a ++ b) bn i = match last_store b bn i with Some v => Some v | None => last_store a bn i end.
Proof.
  induction a as [|[[bn' i'] v] a IH]; cbn [app last_store]; [destruct (last_store b bn i); auto|].
  rewrite IH. destruct (last_store b bn i); auto.
Qed.

Definition covers (x o : list (Z * Z * Z)) : Prop := forall bn i, last_store o bn i = None -> last_store x bn i = None.
Lemma covers_coef x o : covers x o -> same_coefs (x ++ o) o.
Proof. intros H bn i. unfold coef. rewrite last_store_app. destruct (last_store o bn i) eqn:E; auto. now rewrite H. Qed.
Lemma covers_nil o : covers [] o.
Proof. intros bn i _. reflexivity. Qed.
Lemma covers_self o : covers o o.
Proof. intros bn i H. exact H. Qed.
Lemma covers_app x y o : covers x o -> covers y o -> covers (x ++ y) o.
Proof. intros H1 H2 bn i H. rewrite last_store_app, H2, H1; auto. Qed.
Lemma covers_prefix a b : covers a (a ++ b).
Proof. intros bn i. rewrite last_store_app. destruct (last_store b bn i); [discriminate|auto]. Qed.
Lemma same_coefs_sym a b : same_coefs a b -> same_coefs b a.
Proof. intros H bn i. symmetry. apply H. Qed.
Lemma same_coefs_trans a b c : same_coefs a b -> same_coefs b c -> same_coefs a c.
Proof. intros H1 H2 bn i. rewrite H1. apply H2. Qed.
