(* S_Merge.v -- what merged upsampling must deliver. *)
From Verif Require Import Base M_RangeLimit M_Color T_Color M_Merge.
Open Scope nat_scope.

(* box replication: every chroma sample twice along the row *)
Definition replicated (w : nat) (r : list Z) : list Z := map (fun x => nth (x / 2) r 0%Z) (seq 0 w).

(* What the separate path (box upsampling, C46, then colour conversion, jdcolor.c,
   C23/C25) writes over the row buffer [old] for output line y *)
Definition separate (c : mcfg) (y : nat) (old : list Z) : outcome (list Z) :=
  ycc_rgb_row (e_p c) (e_rl c) (e_t c) (e_f c) (e_W c)
    (e_Y c y) (replicated (e_W c) (e_Cb c (y / e_v c))) (replicated (e_W c) (e_Cr c (y / e_v c))) old.

(* The configuration: tables built as the library builds them, one of the ten RGB
   formats, 2:1 horizontal and at most 2:1 vertical, the decoded rows are samples
   and wide enough for the image *)
Definition wide (p : Z) (w : nat) (r : list Z) : Prop := Forall (sample p) r /\ w <= length r.
Definition mcfg_ok (cs : colorspace) (c : mcfg) : Prop :=
  (e_p c = 8 \/ e_p c = 12)%Z /\ prepare_range_limit_table (e_p c) = Ret (e_rl c) /\
  build_ycc_rgb_table (e_p c) = Ret (e_t c) /\ e_f c = fmt_of cs /\
  1 <= e_M c /\ (e_v c = 1 \/ e_v c = 2) /\ e_O c <= e_T c * (e_M c * e_v c) /\
  (forall y, y < e_T c * (e_M c * e_v c) -> wide (e_p c) (e_W c) (e_Y c y)) /\
  (forall y, y < e_T c * e_M c -> wide (e_p c) ((e_W c + 1) / 2) (e_Cb c y) /\ wide (e_p c) ((e_W c + 1) / 2) (e_Cr c y)).

(* row buffers long enough for a line *)
Definition roomy (cs : colorspace) (c : mcfg) (r : list Z) : Prop := e_W c * length (layout cs) <= length r.

(* A use of jpeg_skip_scanlines(n) at line y within what works: to the bottom;
   inside the iMCU row; or leaving it from an even line (v = 2) / not right after
   another skip (v = 1) *)
Definition mskip_ok (c : mcfg) (just_skipped : bool) (y n : nat) : Prop :=
  let L := e_M c * e_v c in
  e_O c <= y + n \/ y / L = (y + n) / L \/ y mod L = 0 \/
  (if e_v c =? 2 then Nat.even y = true else just_skipped = false).

(* rows handed to jpeg_read_scanlines: distinct caller rows *)
Definition caller_rows (cs : colorspace) (c : mcfg) (ids : list nat) (m : mem) : Prop :=
  NoDup ids /\ forall d, In d ids -> d <> SPARE /\ roomy cs c (m d).

(* Sessions of one output pass.  j: the last call was a skip; e: some skip was
   made (then a read must not ask for more lines than remain).  Between calls the
   caller may change its own rows. *)
Inductive msession (cs : colorspace) (c : mcfg) : bool -> bool -> mst -> Prop :=
| ms_start : forall m, roomy cs c (m SPARE) -> msession cs c false false (mstart c m)
| ms_write : forall j e s m, msession cs c j e s -> m SPARE = g_mem s SPARE ->
    msession cs c j e (mkG (g_full s) (g_rgc s) (g_row s) (g_sp s) (g_togo s) (g_y s) m)
| ms_read : forall j e s ids s' k, msession cs c j e s -> caller_rows cs c ids (g_mem s) -> 1 <= length ids ->
    (e = true -> length ids <= e_O c - g_y s) -> g_y s < e_O c ->
    mread c ids s = Ret (s', k) -> msession cs c false e s'
| ms_skip : forall j e s n s' k, msession cs c j e s -> mskip_ok c j (g_y s) n ->
    mskip c n s = Ret (s', k) -> msession cs c true true s'.
