(* S_Idct.v -- the inverse DCT as two matrix products with rounding. *)
From Verif Require Import Base.

Fixpoint dot (a b : list Z) : Z := match a, b with x :: a, y :: b => x * y + dot a b | _, _ => 0 end.
(* x / 2^n rounded to the nearest integer, halves up *)
Definition round_shift (x n : Z) : Z := (x + 2 ^ (n - 1)) / 2 ^ n.
(* conversion to int keeps the low 32 bits *)
Definition to_int (x : Z) : Z := (x + 2 ^ 31) mod 2 ^ 32 - 2 ^ 31.
(* sample value: level shift and clamp; the index keeps p+2 bits (jdct.h:89-91) *)
Definition sample (p x : Z) : Z :=
  Z.max 0 (Z.min (2 ^ p - 1) ((x + 2 ^ (p + 1)) mod 2 ^ (p + 2) - 2 ^ (p + 1) + 2 ^ (p - 1))).

(* The matrices, scaled by 2^cb: row = output position, column = frequency. *)
(* 8 points, cb = 13: entry (x,u) is 2^13 * sqrt(2) * c(u) * cos((2x+1) u pi / 16), c(0) = 1/sqrt(2) *)
Definition A8 : list (list Z) := [
  [8192;  11363;  10703;   9633;  8192;   6437;   4433;   2260];
  [8192;   9633;   4433;  -2259; -8192; -11362; -10704;  -6436];
  [8192;   6437;  -4433; -11362; -8192;   2261;  10704;   9633];
  [8192;   2260; -10703;  -6436;  8192;   9633;  -4433; -11363];
  [8192;  -2260; -10703;   6436;  8192;  -9633;  -4433;  11363];
  [8192;  -6437;  -4433;  11362; -8192;  -2261;  10704;  -9633];
  [8192;  -9633;   4433;   2259; -8192;  11362; -10704;   6436];
  [8192; -11363;  10703;  -9633;  8192;  -6437;   4433;  -2260]].
(* 4 points, cb = 14; frequency 4 does not contribute *)
Definition A4 : list (list Z) := [
  [16384;  20995;  15137;   7373; 0;  -4926;  -6270; -4176];
  [16384;   8697; -15137; -17799; 0;  11893;   6270; -1730];
  [16384;  -8697; -15137;  17799; 0; -11893;   6270;  1730];
  [16384; -20995;  15137;  -7373; 0;   4926;  -6270;  4176]].
(* 2 points, cb = 15; frequencies 2, 4, 6 do not contribute *)
Definition A2 : list (list Z) := [
  [32768;  29692; 0; -10426; 0;  6967; 0; -5906];
  [32768; -29692; 0;  10426; 0; -6967; 0;  5906]].

Section Spec.
Variable p : Z.
Variable pb : Z.                (* extra bits kept between the passes *)
Variable coef mult : list Z.
Definition dequantized (k c : Z) : Z := nth (Z.to_nat (8 * k + c)) coef 0 * nth (Z.to_nat (8 * k + c)) mult 0.
Definition upto8 (f : Z -> Z) : list Z := map f [0; 1; 2; 3; 4; 5; 6; 7].
(* columns first, then rows *)
Definition between (A : list (list Z)) (cb : Z) : list (list Z) :=
  map (fun a => upto8 (fun c => to_int (round_shift (dot a (upto8 (fun k => dequantized k c))) (cb - pb)))) A.
Definition idct_by (A : list (list Z)) (cb : Z) : list (list Z) :=
  map (fun w => map (fun a => sample p (to_int (round_shift (dot a w) (cb + pb + 3)))) A) (between A cb).
End Spec.

(* coefficients are 16-bit signed, table entries 16-bit (signed or unsigned) *)
Definition block_ok (coef mult : list Z) : Prop :=
  length coef = 64%nat /\ length mult = 64%nat /\
  Forall (fun v => -32768 <= v <= 32767) coef /\ Forall (fun v => -32768 <= v <= 65535) mult.
