(* S_Smooth.v -- what interblock smoothing computes, without registers, rows in
   memory or loops. *)
From Verif Require Import Base.

(* The 5 x 5 weights.  Row -2 .. 2 is the block row, column -2 .. 2 the block
   column, relative to the block being estimated.  The weights of a vertical
   frequency are the transposed weights of the horizontal one. *)
Definition W_00 : list (list Z) :=
  [ [-2; -6; -8; -6; -2];
    [-6; 6; 42; 6; -6];
    [-8; 42; 152; 42; -8];
    [-6; 6; 42; 6; -6];
    [-2; -6; -8; -6; -2] ].
Definition W_01c : list (list Z) :=
  [ [-1; -1; 0; 1; 1];
    [-3; 13; 0; -13; 3];
    [-3; 38; 0; -38; 3];
    [-3; 13; 0; -13; 3];
    [-1; -1; 0; 1; 1] ].
Definition W_20c : list (list Z) :=
  [ [0; 0; 1; 0; 0];
    [0; 2; 7; 2; 0];
    [0; -5; -14; -5; 0];
    [0; 2; 7; 2; 0];
    [0; 0; 1; 0; 0] ].
Definition W_11c : list (list Z) :=
  [ [-1; 0; 0; 0; 1];
    [0; 9; 0; -9; 0];
    [0; 0; 0; 0; 0];
    [0; -9; 0; 9; 0];
    [1; 0; 0; 0; -1] ].
Definition W_03 : list (list Z) :=
  [ [0; 0; 0; 0; 0];
    [0; 1; 0; -1; 0];
    [0; 2; 0; -2; 0];
    [0; 1; 0; -1; 0];
    [0; 0; 0; 0; 0] ].
Definition W_12 : list (list Z) :=
  [ [0; 0; 0; 0; 0];
    [0; 1; -3; 1; 0];
    [0; 0; 0; 0; 0];
    [0; -1; 3; -1; 0];
    [0; 0; 0; 0; 0] ].
Definition W_01n : list (list Z) :=
  [ [0; 0; 0; 0; 0];
    [0; 0; 0; 0; 0];
    [-7; 50; 0; -50; 7];
    [0; 0; 0; 0; 0];
    [0; 0; 0; 0; 0] ].
Definition W_20n : list (list Z) :=
  [ [0; 0; -1; 0; 0];
    [0; 0; 13; 0; 0];
    [0; 0; -24; 0; 0];
    [0; 0; 13; 0; 0];
    [0; 0; -1; 0; 0] ].
Definition W_11n : list (list Z) :=
  [ [0; -1; 0; 1; 0];
    [-1; 10; 0; -10; 1];
    [0; 0; 0; 0; 0];
    [1; -10; 0; 10; -1];
    [0; 1; 0; -1; 0] ].

Definition weight (W : list (list Z)) (i j : Z) : Z :=
  nth (Z.to_nat (j + 2)) (nth (Z.to_nat (i + 2)) W []) 0.
Definition transposed (w : Z -> Z -> Z) (i j : Z) : Z := w j i.

Definition offsets : list Z := [-2; -1; 0; 1; 2].
Definition zsum (l : list Z) : Z := fold_right Z.add 0 l.
(* the weighted sum of a neighbourhood D *)
Definition wsum (w D : Z -> Z -> Z) : Z :=
  zsum (map (fun i => zsum (map (fun j => w i j * D i j) offsets)) offsets).

(* The nine AC coefficients that can be estimated: progression index, vertical
   and horizontal frequency, weights when nothing but the DC is known, weights
   otherwise (None: not estimated) *)
Record target := mktarget {
  t_index : nat;
  t_v : nat;
  t_h : nat;
  t_dc_only : Z -> Z -> Z;
  t_other : option (Z -> Z -> Z) }.

Definition targets : list target :=
  [ mktarget 1 0 1 (weight W_01c) (Some (weight W_01n));
    mktarget 2 1 0 (transposed (weight W_01c)) (Some (transposed (weight W_01n)));
    mktarget 3 2 0 (weight W_20c) (Some (weight W_20n));
    mktarget 4 1 1 (weight W_11c) (Some (weight W_11n));
    mktarget 5 0 2 (transposed (weight W_20c)) (Some (transposed (weight W_20n)));
    mktarget 6 0 3 (weight W_03) None;
    mktarget 7 1 2 (weight W_12) None;
    mktarget 8 2 1 (transposed (weight W_12)) None;
    mktarget 9 3 0 (transposed (weight W_03)) None ].

(* natural-order position *)
Definition t_pos (t : target) : nat := (8 * t_v t + t_h t)%nat.

(* Precision: cb i is the successive approximation state of coefficient i:
   -1 never seen, 0 exact, a > 0: the low a bits are missing *)
Definition only_dc_known (cb : nat -> Z) : bool :=
  forallb (fun i => cb i =? -1) (seq 1 9).
Definition weights_for (only_dc : bool) (t : target) : option (Z -> Z -> Z) :=
  if only_dc then Some (t_dc_only t) else t_other t.

(* num / (256 q) rounded to nearest (halves away from zero), limited to
   2^al - 1 in absolute value if al > 0 *)
Definition rounded (num q : Z) : Z := (Z.abs num + 128 * q) / (256 * q).
Definition predicted (al num q : Z) : Z :=
  let m := rounded num q in
  Z.sgn num * (if 0 <? al then Z.min m (2 ^ al - 1) else m).

(* The smoothed block: q k and old k are the quantizer and the coefficient at
   position k, D the DC values around the block *)
Definition smoothed (q : nat -> Z) (cb : nat -> Z) (D : Z -> Z -> Z) (old : nat -> Z)
    (k : nat) : Z :=
  let od := only_dc_known cb in
  if (k =? 0)%nat then
    (if od then s16 (predicted 0 (q 0%nat * wsum (weight W_00) D) (q 0%nat)) else old k)
  else
    match find (fun t => (t_pos t =? k)%nat) targets with
    | None => old k
    | Some t =>
        match weights_for od t with
        | None => old k
        | Some w =>
            if negb (cb (t_index t) =? 0) && (old k =? 0)
            then s16 (predicted (cb (t_index t)) (q 0%nat * wsum w D) (q k))
            else old k
        end
    end.

Definition clamp (lo hi x : Z) : Z := Z.max lo (Z.min hi x).
