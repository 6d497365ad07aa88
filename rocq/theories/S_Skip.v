(* S_Skip.v -- what reading and skipping lines must mean. *)
From Verif Require Import Base M_DMain S_DMain M_Skip.
Open Scope nat_scope.

(* A delivered line l is output line y: it is the right line of its row group,
   made from the right rows.  With context rows only the first line of a row
   group looks at the row above the group and only the last line at the row
   below it (jdsample.c:316-420; C53_rows_used below). *)
Definition shows (c : dcfg) (y : nat) (l : line) : Prop :=
  l_row l = y mod g_v c /\
  l_now l = l_now (line_spec c y) /\
  length (l_val l) = length (l_val (line_spec c y)) /\
  forall j, j < length (l_val l) ->
    (g_context c = true -> j = 0 -> y mod g_v c = 0) ->
    (g_context c = true -> j = g_rg c + 1 -> y mod g_v c = g_v c - 1) ->
    nth_error (l_val l) j = nth_error (l_val (line_spec c y)) j.

(* lines of an iMCU row *)
Definition imcu (c : dcfg) : nat := g_M c * g_v c.

(* When jpeg_skip_scanlines(n) is used within what it supports, at output line y:
   to the bottom of the image; or with context rows and at most 2:1 vertical
   upsampling; or, without context rows, starting on a row-group boundary or
   leaving the iMCU row, and not leaving the iMCU row right after another skip. *)
Definition skip_ok (c : dcfg) (just_skipped : bool) (y n : nat) : Prop :=
  g_O c <= y + n \/
  (g_context c = true /\ g_v c = 2) \/
  (g_context c = false /\
   (y mod g_v c = 0 \/ y / imcu c < (y + n) / imcu c) /\
   (just_skipped = false \/ y mod imcu c = 0 \/ y / imcu c = (y + n) / imcu c)).

(* sessions of one output pass: reads ask for at least one and at most the
   remaining number of lines *)
Inductive session (k : skcfg) : bool -> sks -> Prop :=
| ses_start : forall m0, (forall i, m_ws m0 i <> None) -> session k false (start k m0)
| ses_read : forall b s n s' ls, session k b s ->
    1 <= n -> n <= g_O (k_c k) - s_y s -> read_scanlines k n s = Ret (s', ls) -> session k false s'
| ses_skip : forall b s n s' r, session k b s ->
    skip_ok (k_c k) b (s_y s) n -> skip_scanlines k n s = Ret (s', r) -> session k true s'.

(* MCUs of the first r iMCU rows *)
Definition mcus_before (k : skcfg) (r : nat) : nat :=
  fold_right (fun i a => k_rows k i * k_cols k + a) 0 (seq 0 r).
