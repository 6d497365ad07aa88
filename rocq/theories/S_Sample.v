(* S_Sample.v -- what up- and downsampling mean, independently of the code.

   A picture is a function of row and column. *)
From Verif Require Import Base.

Definition pic := Z -> Z -> Z.

Definition clampz (lo hi x : Z) : Z := Z.max lo (Z.min hi x).

(* the picture whose columns outside 0..w-1 repeat the edge column *)
Definition edge (w : Z) (P : pic) : pic := fun y x => P y (clampz 0 (w - 1) x).

(* replication *)
Definition box_up (H V : Z) (P : pic) : pic := fun y x => P (y / V) (x / H).

(* neighbour on the side on which output sample k of a doubled axis lies: even samples lie nearer to the
   previous input sample, odd ones nearer to the next *)
Definition side (k : Z) : Z := if Z.even k then -1 else 1.

(* triangle filters: 3/4 of the nearest and 1/4 of the next nearest sample along each doubled axis, rounded;
   given as numerators over 4 (one axis) and 16 (two axes) *)
Definition tri_h (P : pic) : pic := fun y x => 3 * P y (x / 2) + P y (x / 2 + side x).
Definition tri_v (P : pic) : pic := fun y x => 3 * P (y / 2) x + P (y / 2 + side y) x.

(* o is the rounding of n/d to a nearest integer (either one at a tie) *)
Definition nearest (d n o : Z) : Prop := 2 * Z.abs (d * o - n) <= d.

(* sum of P over an h x v box at (y, x) *)
Fixpoint sumz (n : nat) (f : Z -> Z) : Z :=
  match n with O => 0 | S m => sumz m f + f (Z.of_nat m) end.
Definition box_sum (H V : Z) (P : pic) (y x : Z) : Z :=
  sumz (Z.to_nat V) (fun v => sumz (Z.to_nat H) (fun h => P (V * y + v) (H * x + h))).

(* input smoothing: each sample is replaced by (1 - 8 SF) of itself plus SF of each of its 8 neighbours, with
   SF = sf / 1024; given as the numerator over 1024 *)
Definition smooth (sf : Z) (P : pic) : pic := fun y x =>
  (1024 - 8 * sf) * P y x
  + sf * (P (y - 1) (x - 1) + P (y - 1) x + P (y - 1) (x + 1)
          + P y (x - 1) + P y (x + 1)
          + P (y + 1) (x - 1) + P (y + 1) x + P (y + 1) (x + 1)).

(* what the decompressor shows for a component sampled H x V times more coarsely than the output, w samples wide;
   "fancy" is the caller's do_fancy_upsampling (when the scaled block size allows it).  Triangle filtering is
   used only along axes doubled exactly, and horizontally only for more than two samples. *)
Definition up_spec (fancy : bool) (H V w : Z) (P : pic) (y x : Z) : Z :=
  if fancy && (H =? 2) && (V =? 1) && (2 <? w) then (tri_h (edge w P) y x + (if Z.even x then 1 else 2)) / 4
  else if fancy && (H =? 1) && (V =? 2) then (tri_v P y x + (if Z.even y then 1 else 2)) / 4
  else if fancy && (H =? 2) && (V =? 2) && (2 <? w) then
    (tri_h (tri_v (edge w P)) y x + (if Z.even x then 8 else 7)) / 16
  else box_up H V P y x.
