(* S_Quant.v -- nearest palette entry, independent of the code *)
From Verif Require Import Base.

(* weighted squared distance between two colours *)
Definition sqdist (w : Z * Z * Z) (a b : Z * Z * Z) : Z :=
  let '(w0, w1, w2) := w in let '(a0, a1, a2) := a in let '(b0, b1, b2) := b in
  (w0 * (a0 - b0)) * (w0 * (a0 - b0)) + (w1 * (a1 - b1)) * (w1 * (a1 - b1)) + (w2 * (a2 - b2)) * (w2 * (a2 - b2)).
(* k is the first palette entry at the smallest distance from c *)
Definition nearest (w : Z * Z * Z) (palette : list (Z * Z * Z)) (c : Z * Z * Z) (k : Z) : Prop :=
  0 <= k < Z.of_nat (length palette) /\
  forall i, 0 <= i < Z.of_nat (length palette) ->
    let d := fun j => sqdist w (nth (Z.to_nat j) palette (0, 0, 0)) c in
    d k <= d i /\ (i < k -> d k < d i).
(* the centre of the histogram cell (8 x 4 x 8 values) a colour lies in *)
Definition cell_centre (c : Z * Z * Z) : Z * Z * Z :=
  let '(a, b, d) := c in (8 * (a / 8) + 4, 4 * (b / 4) + 2, 8 * (d / 8) + 4).
Definition sample (x : Z) : Prop := 0 <= x <= 255.
Definition colour (c : Z * Z * Z) : Prop := let '(a, b, d) := c in sample a /\ sample b /\ sample d.
(* colour c' differs from c by at most d in every component *)
Definition close (d : Z) (c c' : Z * Z * Z) : Prop :=
  let '(a0, a1, a2) := c in let '(b0, b1, b2) := c' in Z.abs (a0 - b0) <= d /\ Z.abs (a1 - b1) <= d /\ Z.abs (a2 - b2) <= d.
(* two-pass quantization with error diffusion: the entry is the nearest one for a colour at most 32 away *)
Definition diffused (w : Z * Z * Z) (palette : list (Z * Z * Z)) (c : Z * Z * Z) (k : Z) : Prop :=
  exists c', colour c' /\ close 32 c c' /\ nearest w palette (cell_centre c') k.
(* one-pass quantization: every component of palette entry k is, up to 1, as close to x as any value in the palette *)
Definition near_best (palette_row : list Z) (x k : Z) : Prop :=
  0 <= k < Z.of_nat (length palette_row) /\
  forall k', 0 <= k' < Z.of_nat (length palette_row) ->
    Z.abs (x - nth (Z.to_nat k) palette_row 0) <= Z.abs (x - nth (Z.to_nat k') palette_row 0) + 1.
Definition clamp (x : Z) : Z := Z.max 0 (Z.min 255 x).
