(* S_Gif.v -- what a GIF image means: a palette, and rows of indices into it *)
From Verif Require Import Base M_Gif.

Definition rgb := (Z * Z * Z)%type.
(* colour number i of the palette given to the writer (no palette = an even grey ramp) *)
Definition colour (m : gcmap) (num_colors : Z) (i : Z) : rgb :=
  match m with
  | CmapRGB l => nth (Z.to_nat i) l (0, 0, 0)
  | CmapGray l => let v := nth (Z.to_nat i) l 0 in (v, v, v)
  | CmapNull => let v := (i * 255 + (num_colors - 1) / 2) / (num_colors - 1) in (v, v, v)
  end.
Definition is_grey (c : rgb) : bool := let '(r, g, b) := c in (r =? g) && (g =? b).
(* the image is delivered as greyscale exactly when every palette colour is grey *)
Definition all_grey (m : gcmap) (num_colors : Z) : bool :=
  forallb (fun i => is_grey (colour m num_colors (Z.of_nat i))) (seq 0 (Z.to_nat num_colors)).
Definition samples (grey : bool) (c : rgb) : list Z := let '(r, g, b) := c in if grey then [r] else [r; g; b].
Definition shown (m : gcmap) (num_colors : Z) (row : list Z) : list Z :=
  flat_map (fun i => samples (all_grey m num_colors) (colour m num_colors i)) row.

(* a palette the writer can be given *)
Definition good_palette (m : gcmap) (num_colors : Z) : Prop :=
  1 <= num_colors <= 256 /\
  match m with
  | CmapRGB l => Z.of_nat (length l) = num_colors /\ Forall (fun c => let '(r, g, b) := c in 0 <= r < 256 /\ 0 <= g < 256 /\ 0 <= b < 256) l
  | CmapGray l => Z.of_nat (length l) = num_colors /\ Forall (fun v => 0 <= v < 256) l
  | CmapNull => 2 <= num_colors
  end.
(* an image of the given size *)
Definition good_image (width height num_colors : Z) (rows : list (list Z)) : Prop :=
  1 <= width <= 65535 /\ 1 <= height <= 65535 /\ Z.of_nat (length rows) = height /\
  Forall (fun row => Z.of_nat (length row) = width /\ Forall (fun i => 0 <= i < num_colors) row) rows.
