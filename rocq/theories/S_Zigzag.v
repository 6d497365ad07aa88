(* S_Zigzag.v -- the zig-zag order of T.81 Figure A.6 / 5, as a path over the 8x8 block *)
From Verif Require Import Base.

(* cells (row, column) of the diagonal row + column = d; odd diagonals are walked downwards (row
   increasing), even ones upwards *)
Definition diagonal (d : Z) : list (Z * Z) :=
  let cells := filter (fun '(r, c) => (0 <=? c) && (c <? 8)) (map (fun r => (Z.of_nat r, d - Z.of_nat r)) (seq 0 8)) in
  if Z.odd d then cells else rev cells.
Definition zigzag_path : list (Z * Z) := flat_map (fun d => diagonal (Z.of_nat d)) (seq 0 15).
Definition zigzag : list Z := map (fun '(r, c) => 8 * r + c) zigzag_path.
