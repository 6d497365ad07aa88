(* S_Slots.v -- the form of the arguments of -qslots and -sample *)
From Verif Require Import Base S_Switch.

(* an integer: white space, an optional sign, decimal digits *)
Definition integer (t : list Z) (v : Z) : Prop :=
  exists w ds, whites w /\ ds <> [] /\ Forall digit ds /\
    ((t = w ++ ds \/ t = w ++ 43 :: ds) /\ v = decimal 0 ds \/ t = w ++ 45 :: ds /\ v = - decimal 0 ds).
(* HxV *)
Definition factors (t : list Z) (p : Z * Z) : Prop :=
  exists t1 c t2, t = t1 ++ c :: t2 /\ (c = 120 \/ c = 88) /\ integer t1 (fst p) /\ integer t2 (snd p).

(* at most n items separated by commas, a comma after the last allowed; what follows the
   n-th item and its comma is not looked at *)
Inductive comma_list {A} (item : list Z -> A -> Prop) : nat -> list Z -> list A -> Prop :=
| cl_end : forall n, comma_list item (S n) [] []
| cl_full : forall s, comma_list item 0 s []
| cl_last : forall n t v, item t v -> comma_list item (S n) t [v]
| cl_more : forall n t v s vs, item t v -> comma_list item n s vs -> comma_list item (S n) (t ++ 44 :: s) (v :: vs).

(* no number of more than 9 digits *)
Definition short_numbers (arg : list Z) : Prop := forall a ds b, arg = a ++ ds ++ b -> Forall digit ds -> (length ds <= 9)%nat.
