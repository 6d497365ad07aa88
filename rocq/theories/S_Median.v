(* S_Median.v -- what a palette made from an image is: the cells (8 x 4 x 8 values) that
   occur are divided into groups, and a colour is the mean of a group. *)
From Verif Require Import Base S_Quant.
From Coq Require Import Permutation.

Definition cell (p : Z * Z * Z) : Z * Z * Z := let '(a, b, c) := p in (a / 8, b / 4, c / 8).
Definition same_cell (a b : Z * Z * Z) : {a = b} + {a <> b}.
Proof. decide equality; [apply Z.eq_dec|decide equality; apply Z.eq_dec]. Defined.
(* the different cells of an image, and how many pixels are in a cell, at most 65535 *)
Definition cells_of (pixels : list (Z * Z * Z)) : list (Z * Z * Z) := nodup same_cell (map cell pixels).
Definition weight (pixels : list (Z * Z * Z)) (c : Z * Z * Z) : Z :=
  Z.min 65535 (Z.of_nat (count_occ same_cell (map cell pixels) c)).
Fixpoint total (f : Z * Z * Z -> Z) (g : list (Z * Z * Z)) : Z := match g with [] => 0 | c :: g => f c + total f g end.
(* centre of a cell, and the mean of the centres of a group to the nearest integer, halves upwards *)
Definition centre (c : Z * Z * Z) : Z * Z * Z := let '(a, b, d) := c in (8 * a + 4, 4 * b + 2, 8 * d + 4).
Definition rdiv (a b : Z) : Z := (2 * a + b) / (2 * b).
Definition mean (w : Z * Z * Z -> Z) (g : list (Z * Z * Z)) : Z * Z * Z :=
  let t := total w g in
  (rdiv (total (fun c => fst (fst (centre c)) * w c) g) t,
   rdiv (total (fun c => snd (fst (centre c)) * w c) g) t,
   rdiv (total (fun c => snd (centre c) * w c) g) t).
(* a group is all that occurs in some box *)
Definition boxed (pixels : list (Z * Z * Z)) (g : list (Z * Z * Z)) : Prop :=
  exists a0 b0 a1 b1 a2 b2, forall c0 c1 c2, In (c0, c1, c2) g <->
    In (c0, c1, c2) (cells_of pixels) /\ a0 <= c0 <= b0 /\ a1 <= c1 <= b1 /\ a2 <= c2 <= b2.
