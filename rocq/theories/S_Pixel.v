(* S_Pixel.v -- the ideal (real-valued) inverse DCT of a component, ITU-T T.81 A.3.3. *)
From Coq Require Import Reals.
From Verif Require Import Base S_Xform.

Definition sum8 (f : Z -> R) : R := (f 0%Z + f 1%Z + f 2%Z + f 3%Z + f 4%Z + f 5%Z + f 6%Z + f 7%Z)%R.
(* C(u)/2 cos((2x+1) u pi / 16) *)
Definition basis (u x : Z) : R :=
  ((if (u =? 0)%Z then / sqrt 2 else 1) / 2 * cos (IZR ((2 * x + 1) * u) * PI / 16))%R.
(* The sample in row Y, column X, before the level shift; [q] = quantization table,
   q r c for vertical frequency r and horizontal frequency c. *)
Definition sample_at (q : Z -> Z -> Z) (P : plane) (Y X : Z) : R :=
  sum8 (fun r => sum8 (fun c =>
    IZR (P (Y / 8)%Z (X / 8)%Z r c * q r c) * basis r (Y mod 8) * basis c (X mod 8)))%R.
