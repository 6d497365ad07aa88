(* S_DMain.v -- what the output side must deliver. *)
From Verif Require Import Base M_DMain.
Open Scope nat_scope.

Definition ceil_div (a b : nat) : nat := (a + b - 1) / b.

(* Geometry of an output pass as computed from the image (jdmaster.c, jdinput.c):
   image height h, data unit du (8, or 1 in lossless mode).  Context rows need
   M >= 2 (jdmainct.c:445). *)
Definition dcfg_ok (h du : nat) (c : dcfg) : Prop :=
  1 <= h /\ 1 <= du /\ 1 <= g_M c /\ 1 <= g_v c /\ 1 <= g_rg c /\
  (g_context c = true -> 2 <= g_M c) /\
  g_O c = ceil_div (h * g_M c) du /\
  g_T c = ceil_div h (du * g_v c) /\
  g_dh c = ceil_div (h * (g_rg c * g_M c)) (du * g_v c).

(* The component rows from which output line y is made: its own row group and,
   when the upsampler needs context, one row above and one below, where rows
   beyond the top (bottom) of the image repeat the first (last) row. *)
Definition own_rows (c : dcfg) (y : nat) : list nat := seq (y / g_v c * g_rg c) (g_rg c).
Definition clamp_row (c : dcfg) (i : Z) : nat :=
  Z.to_nat (Z.min (Z.max 0 i) (Z.of_nat (g_dh c) - 1)).
Definition ctx_rows (c : dcfg) (y : nat) : list nat :=
  map (fun j => clamp_row c (Z.of_nat (y / g_v c * g_rg c) + Z.of_nat j - 1))
      (seq 0 (g_rg c + 2)).
Definition own_rows_clamped (c : dcfg) (y : nat) : list nat :=
  map (fun j => clamp_row c (Z.of_nat (y / g_v c * g_rg c) + Z.of_nat j)) (seq 0 (g_rg c)).

Definition line_spec (c : dcfg) (y : nat) : line :=
  if g_context c then mkL (y mod g_v c) (ctx_rows c y) (own_rows_clamped c y)
  else mkL (y mod g_v c) (own_rows c y) (own_rows c y).
