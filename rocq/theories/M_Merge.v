(* M_Merge.v -- jdmerge.c, jdmrgext.c: merged upsampling and colour conversion,
   with the main controller, jpeg_read_scanlines and jpeg_skip_scanlines around
   it.  RGB565 output, cropping and a suspending data source are not modelled. *)
From Verif Require Import Base M_RangeLimit M_Color.
Open Scope nat_scope.

(* Row buffers by number: buffer 0 is upsample->spare_row, the others are the
   caller's rows.  A buffer is a list of samples. *)
Definition mem := nat -> list Z.
Definition SPARE : nat := 0.
Definition mset (m : mem) (id : nat) (r : list Z) : mem := fun j => if j =? id then r else m j.

(* Constants of the output pass.  e_M = _min_DCT_scaled_size (row groups per iMCU
   row), e_v = max_v_samp_factor, e_W, e_O = output_width, output_height, e_T =
   total_iMCU_rows; e_Y, e_Cb, e_Cr: the rows the IDCT delivers *)
Record mcfg := mkMC { e_p : Z; e_rl : tblmem; e_t : ycc_rgb_tabs; e_f : pixfmt; e_M : nat; e_v : nat;
  e_W : nat; e_O : nat; e_T : nat; e_Y : nat -> list Z; e_Cb : nat -> list Z; e_Cr : nat -> list Z }.

(* g_full, g_rgc: buffer_full, rowgroup_ctr; g_row = output_iMCU_row; g_sp, g_togo:
   spare_full, rows_to_go; g_y = output_scanline *)
Record mst := mkG { g_full : bool; g_rgc : nat; g_row : nat; g_sp : bool; g_togo : nat; g_y : nat; g_mem : mem }.

Section Cfg.
Variable c : mcfg.
Notation p := (e_p c).

(* jdmrgext.c:47-52, 123-128: the chroma part *)
Definition chroma (cb cr : Z) : outcome (Z * Z * Z) :=
  cred <- tget (dtab_size p) (Cr_r (e_t c)) cr ;;
  a <- tget (dtab_size p) (Cb_g (e_t c)) cb ;; b <- tget (dtab_size p) (Cr_g (e_t c)) cr ;;
  cblue <- tget (dtab_size p) (Cb_b (e_t c)) cb ;;
  Ret (cred, Z.shiftr (a + b) 16, cblue).

(* jdmrgext.c:54-61: emit the pixel at column x of buffer id.  (The C code keeps
   a running outptr; here it is recomputed from the column.) *)
Definition putpx (id x : nat) (y : Z) (ch : Z * Z * Z) (m : mem) : outcome mem :=
  let '(cred, cgreen, cblue) := ch in
  r <- range_limit p (e_rl c) (y + cred) ;;
  g <- range_limit p (e_rl c) (y + cgreen) ;;
  b <- range_limit p (e_rl c) (y + cblue) ;;
  let off := x * Z.to_nat (f_size (e_f c)) in
  o <- store_pixel p (e_f c) r g b (skipn off (m id)) ;;
  Ret (mset m id (firstn off (m id) ++ o)).

Fixpoint forcol (n i : nat) (f : nat -> mem -> outcome mem) (m : mem) : outcome mem :=
  match n with O => Ret m | S n => m <- f i m ;; forcol n (S i) f m end.

(* jdmrgext.c:22-87 h2v1_merged_upsample_internal: y, cb, cr are the rows *)
Definition h2v1_merged (inY inCb inCr : list Z) (out0 : nat) (m : mem) : outcome mem :=
  let W := e_W c in
  m <- forcol (W / 2) 0 (fun i m =>
         cb <- aget inCb (Z.of_nat i) ;; cr <- aget inCr (Z.of_nat i) ;; ch <- chroma cb cr ;;
         y <- aget inY (Z.of_nat (2 * i)) ;; m <- putpx out0 (2 * i) y ch m ;;
         y <- aget inY (Z.of_nat (2 * i + 1)) ;; putpx out0 (2 * i + 1) y ch m) m ;;
  if Nat.odd W then
    let i := W / 2 in
    cb <- aget inCb (Z.of_nat i) ;; cr <- aget inCr (Z.of_nat i) ;; ch <- chroma cb cr ;;
    y <- aget inY (Z.of_nat (2 * i)) ;; putpx out0 (2 * i) y ch m
  else Ret m.

(* jdmrgext.c:95-187 h2v2_merged_upsample_internal; out0 and out1 may be the same
   buffer *)
Definition h2v2_merged (inY0 inY1 inCb inCr : list Z) (out0 out1 : nat) (m : mem) : outcome mem :=
  let W := e_W c in
  m <- forcol (W / 2) 0 (fun i m =>
         cb <- aget inCb (Z.of_nat i) ;; cr <- aget inCr (Z.of_nat i) ;; ch <- chroma cb cr ;;
         y <- aget inY0 (Z.of_nat (2 * i)) ;; m <- putpx out0 (2 * i) y ch m ;;
         y <- aget inY0 (Z.of_nat (2 * i + 1)) ;; m <- putpx out0 (2 * i + 1) y ch m ;;
         y <- aget inY1 (Z.of_nat (2 * i)) ;; m <- putpx out1 (2 * i) y ch m ;;
         y <- aget inY1 (Z.of_nat (2 * i + 1)) ;; putpx out1 (2 * i + 1) y ch m) m ;;
  if Nat.odd W then
    let i := W / 2 in
    cb <- aget inCb (Z.of_nat i) ;; cr <- aget inCr (Z.of_nat i) ;; ch <- chroma cb cr ;;
    y <- aget inY0 (Z.of_nat (2 * i)) ;; m <- putpx out0 (2 * i) y ch m ;;
    y <- aget inY1 (Z.of_nat (2 * i)) ;; putpx out1 (2 * i) y ch m
  else Ret m.

(* output_buf[i] of a caller's array of n row pointers *)
Definition outbuf (ids : list nat) (i : nat) : outcome nat :=
  match nth_error ids i with Some d => Ret d | None => Undef end.

(* jdmerge.c:221-269 merged_2v_upsample (out_row_ctr = 0: one call per
   jpeg_read_scanlines).  base = first sample rows of the iMCU row in the main
   buffer, counted in row groups.  Returns the number of rows delivered. *)
Definition merged_2v (base : nat) (ids : list nat) (s : mst) : outcome (mst * nat) :=
  '(num, sp, m) <-
    (if g_sp s then
       d <- outbuf ids 0 ;;
       let size := e_W c * Z.to_nat (f_size (e_f c)) in
       Ret (1, false, mset (g_mem s) d (firstn size (g_mem s SPARE) ++ skipn size (g_mem s d)))
     else
       let num := 2 in
       let num := if g_togo s <? num then g_togo s else num in
       let num := if length ids <? num then length ids else num in
       w0 <- outbuf ids 0 ;;
       '(w1, sp) <- (if 1 <? num then w1 <- outbuf ids 1 ;; Ret (w1, false) else Ret (SPARE, true)) ;;
       let gr := base + g_rgc s in
       m <- h2v2_merged (e_Y c (gr * 2)) (e_Y c (gr * 2 + 1)) (e_Cb c gr) (e_Cr c gr) w0 w1 (g_mem s) ;;
       Ret (num, sp, m)) ;;
  Ret (mkG (g_full s) (if sp then g_rgc s else S (g_rgc s)) (g_row s) sp (g_togo s - num) (g_y s) m, num).

(* jdmerge.c:272-287 merged_1v_upsample *)
Definition merged_1v (base : nat) (ids : list nat) (s : mst) : outcome (mst * nat) :=
  w0 <- outbuf ids 0 ;;
  let gr := base + g_rgc s in
  m <- h2v1_merged (e_Y c gr) (e_Cb c gr) (e_Cr c gr) w0 (g_mem s) ;;
  Ret (mkG (g_full s) (S (g_rgc s)) (g_row s) (g_sp s) (g_togo s) (g_y s) m, 1).

(* jdmainct.c:296-327 process_data_simple_main, with the post-processor being the
   upsampler (jdpostct.c: no quantization); decompress_data delivers iMCU row
   output_iMCU_row and advances it *)
Definition process (ids : list nat) (s : mst) : outcome (mst * nat) :=
  s <- (if g_full s then Ret s
        else if g_row s <? e_T c then Ret (mkG true (g_rgc s) (S (g_row s)) (g_sp s) (g_togo s) (g_y s) (g_mem s))
        else Undef) ;;
  let base := (g_row s - 1) * e_M c in
  '(s, num) <- (if e_v c =? 2 then merged_2v base ids s else merged_1v base ids s) ;;
  if e_M c <=? g_rgc s
  then Ret (mkG false 0 (g_row s) (g_sp s) (g_togo s) (g_y s) (g_mem s), num)
  else Ret (s, num).

(* jdapistd.c:319-358 _jpeg_read_scanlines: ids = the caller's max_lines rows *)
Definition mread (ids : list nat) (s : mst) : outcome (mst * nat) :=
  if e_O c <=? g_y s then Ret (s, 0)
  else
    '(s, num) <- process ids s ;;
    Ret (mkG (g_full s) (g_rgc s) (g_row s) (g_sp s) (g_togo s) (g_y s + num) (g_mem s), num).

(* jdapistd.c:383-428 read_and_discard_scanlines: with merged 2v upsampling the
   rows go into the spare row (line 397-400) *)
Fixpoint mdiscard (n : nat) (s : mst) : outcome mst :=
  match n with O => Ret s | S n => '(s, _) <- mread [SPARE] s ;; mdiscard n s end.

(* jdapistd.c:436-461 increment_simple_rowgroup_ctr *)
Definition mincrement (rows : nat) (s : mst) : outcome mst :=
  if e_v c =? 2 then mdiscard rows s
  else Ret (mkG (g_full s) (g_rgc s + rows) (g_row s) (g_sp s) (g_togo s) (g_y s + rows) (g_mem s)).

(* jdapistd.c:474-650 _jpeg_skip_scanlines, merged upsampling (so no context
   rows, and next_row_out / rows_to_go are not touched) *)
Definition mskip (n : nat) (s : mst) : outcome (mst * nat) :=
  let y := g_y s in
  if e_O c <=? y + n then
    Ret (mkG (g_full s) (g_rgc s) (g_row s) (g_sp s) (g_togo s) (e_O c) (g_mem s), e_O c - y)
  else if n =? 0 then Ret (s, 0)
  else
    let L := e_M c * e_v c in
    let left := (L - y mod L) mod L in
    let after := n - left in
    if n <? left then s <- mincrement n s ;; Ret (s, n)
    else
      let to_skip := after / L * L in
      let to_read := after - to_skip in
      s <- mincrement to_read
             (mkG false 0 (g_row s + to_skip / L) (g_sp s) (g_togo s) (y + left + to_skip) (g_mem s)) ;;
      Ret (s, n).

(* jdmerge.c:203-212 start_pass_merged_upsample, jdmainct.c start_pass_main *)
Definition mstart (m : mem) : mst := mkG false 0 0 false (e_O c) 0 m.
End Cfg.
