(* M_Skip.v -- jdapistd.c: jpeg_skip_scanlines and the reads it performs, on top
   of the main controller and separate upsampler of M_DMain.  The data source
   does not suspend.  Merged upsampling is not modelled here. *)
From Verif Require Import Base M_DMain.
Open Scope nat_scope.

(* Constants of the output pass: the controller's geometry; k_multi =
   inputctl->has_multiple_scans || buffered_image; k_cols = MCUs_per_row;
   k_rows i = coef->MCU_rows_per_iMCU_row while input_iMCU_row = i
   (jdcoefct.h:63-84 start_iMCU_row) *)
Record skcfg := mkK { k_c : dcfg; k_multi : bool; k_cols : nat; k_rows : nat -> nat }.

(* s_d: main controller, upsampler and output_iMCU_row; s_y = output_scanline;
   s_mcu = number of decode_mcu calls made so far in a single-scan image (with
   one scan input_iMCU_row = output_iMCU_row); s_eoi = inputctl->eoi_reached *)
Record sks := mkS { s_d : dst; s_y : nat; s_mcu : nat; s_eoi : bool }.

Section Cfg.
Variable k : skcfg.
Notation c := (k_c k).
Notation v := (g_v c).

Fixpoint mcus (n from : nat) : nat :=
  match n with O => 0 | S m => k_rows k from * k_cols k + mcus m (S from) end.

(* jdapistd.c:319-358 _jpeg_read_scanlines.  The lines it returns are those
   appended by process_data.  In the single-scan case each decompress_data call
   (decompress_onepass, jdcoefct.c:86-183) entropy-decodes one iMCU row. *)
Definition read_scanlines (n : nat) (s : sks) : outcome (sks * list line) :=
  if g_O c <=? s_y s then Ret (s, [])
  else
    let d := s_d s in
    '(d', cnt) <- process_data c (mkD (d_main d) (d_ups d) (d_orc d) (d_row d) []) n ;;
    Ret (mkS d' (s_y s + cnt)
             (if k_multi k then s_mcu s else s_mcu s + mcus (d_row d' - d_row d) (d_row d))
             (s_eoi s), d_lines d').

(* jdapistd.c:386-428 read_and_discard_scanlines: the colour converter and the
   quantizer are replaced by no-ops, so only the counters matter *)
Fixpoint read_discard (n : nat) (s : sks) : outcome sks :=
  match n with
  | O => Ret s
  | S m => '(s', _) <- read_scanlines 1 s ;; read_discard m s'
  end.

Definition set_rgc (d : dst) (r : nat) : dst :=
  mkD (with_rgc (d_main d) r) (d_ups d) (d_orc d) (d_row d) (d_lines d).

(* jdapistd.c:437-461 increment_simple_rowgroup_ctr (no merged upsampling) *)
Definition increment_simple (rows : nat) (s : sks) : outcome sks :=
  let left := rows mod v in
  read_discard left
    (mkS (set_rgc (s_d s) (m_rgc (d_main (s_d s)) + rows / v)) (s_y s + (rows - left))
         (s_mcu s) (s_eoi s)).

(* jdapistd.c:611-631: for (i = 0; i < lines_to_skip; i += lines_per_iMCU_row);
   each iteration discards one iMCU row of MCUs *)
Fixpoint skip_imcus (fuel i to_skip L : nat) (row mcu : nat) (eoi : bool) : nat * nat * bool :=
  match fuel with
  | O => (row, mcu, eoi)
  | S f =>
    if i <? to_skip then
      let mcu := Nat.iter (k_rows k row) (Nat.iter (k_cols k) S) mcu in
      skip_imcus f (i + L) to_skip L (S row) mcu (if S row <? g_T c then eoi else true)
    else (row, mcu, eoi)
  end.

(* jdapistd.c:575-650, the second half of _jpeg_skip_scanlines: m and y are the
   main controller and output_scanline after the rest of the current iMCU row has
   been dropped, after = lines_after_iMCU_row *)
Definition skip_rows (n : nat) (s : sks) (m : dmain) (y after : nat) : outcome (sks * nat) :=
  let d := s_d s in
  let L := g_M c * v in
  let u := mkU v (g_O c - y) (u_ptr (d_ups d)) (u_val (d_ups d)) in
  let to_skip := (if g_context c then (after - 1) / L else after / L) * L in
  let to_read := after - to_skip in
  let '(row, mcu, eoi) :=
    if k_multi k then (d_row d + to_skip / L, s_mcu s, s_eoi s)
    else skip_imcus to_skip 0 to_skip L (d_row d) (s_mcu s) (s_eoi s) in
  let m := if g_context c
           then mkM (m_full m) (m_rgc m) (m_x0 m) (m_x1 m) (m_which m) (m_cs m) (m_avail m)
                    (m_ctr m + to_skip / L) (m_ws m)
           else m in
  let s := mkS (mkD m u (d_orc d) row (d_lines d)) (y + to_skip) mcu eoi in
  s <- (if g_context c then read_discard to_read s else increment_simple to_read s) ;;
  let d := s_d s in
  let u := mkU (u_next (d_ups d)) (g_O c - s_y s) (u_ptr (d_ups d)) (u_val (d_ups d)) in
  Ret (mkS (mkD (d_main d) u (d_orc d) (d_row d) (d_lines d)) (s_y s) (s_mcu s) (s_eoi s), n).

(* jdapistd.c:474-574 _jpeg_skip_scanlines in state DSTATE_SCANNING, lossy mode,
   no two-pass quantization, no merged upsampling.  Returns the number of lines
   skipped.  (Unsigned subtractions that could wrap are only used where they
   cannot; nat subtraction is the same there.) *)
Definition skip_scanlines (n : nat) (s : sks) : outcome (sks * nat) :=
  let y := s_y s in let d := s_d s in let m := d_main d in
  if g_O c <=? y + n then Ret (mkS d (g_O c) (s_mcu s) true, g_O c - y)
  else if n =? 0 then Ret (s, 0)
  else
    let L := g_M c * v in
    let left := (L - y mod L) mod L in
    let after := n - left in
    if g_context c then
      let ahead := (left <=? 1) && m_full m in
      if (n <? left + 1) || (ahead && (after <? L + 1)) then
        s <- read_discard n s ;; Ret (s, n)
      else
        let '(y, after) := if ahead then (y + (left + L), after - L) else (y + left, after) in
        let m := if (m_ctr m =? 0) || ((m_ctr m =? 1) && (2 <? left))
                 then set_wraparound_pointers c m else m in
        skip_rows n s (mkM false 0 (m_x0 m) (m_x1 m) (m_which m) CTX_PREPARE_FOR_IMCU (m_avail m) (m_ctr m) (m_ws m))
                  y after
    else if n <? left then
      s <- increment_simple n s ;; Ret (s, n)
    else
      skip_rows n s (mkM false 0 (m_x0 m) (m_x1 m) (m_which m) (m_cs m) (m_avail m) (m_ctr m) (m_ws m))
                (y + left) after.

(* the start of an output pass *)
Definition start (m0 : dmain) : sks := mkS (start_pass c m0 []) 0 0 false.
End Cfg.
