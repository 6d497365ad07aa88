(* M_Lossless.v -- lossless mode: point transform, prediction and its inverse (jclossls.c,
   jdlossls.c, jlossls.h) and the row sequencing of jcdiffct.c / jddiffct.c.  The compressor forces
   1x1 sampling in lossless mode (jcmaster.c:1067-1075), so an MCU row is one row of each component. *)
From Verif Require Import Base.

(* jlossls.h:37-43 PREDICTOR1..7 (RIGHT_SHIFT is arithmetic) *)
Definition PREDICTOR (psv Ra Rb Rc : Z) : Z :=
  if psv =? 1 then Ra
  else if psv =? 2 then Rb
  else if psv =? 3 then Rc
  else if psv =? 4 then Ra + Rb - Rc
  else if psv =? 5 then Ra + Z.shiftr (Rb - Rc) 1
  else if psv =? 6 then Rb + Z.shiftr (Ra - Rc) 1
  else Z.shiftr (Ra + Rb) 1.

(* jclossls.c:40-47 / jdlossls.c:36-43 INITIAL_PREDICTORx *)
Definition INITIAL_PREDICTORx (prec al : Z) : Z := Z.shiftl 1 (prec - al - 1).

(* ---- compressor ---- *)

(* jclossls.c:71-75: the loop of DIFFERENCE_1D; ra = previous sample *)
Fixpoint diff1d_loop (ra : Z) (row : list Z) : list Z :=
  match row with
  | [] => []
  | samp :: r => (samp - ra) :: diff1d_loop samp r
  end.
(* jclossls.c:59-76 DIFFERENCE_1D *)
Definition DIFFERENCE_1D (init : Z) (row : list Z) : list Z :=
  match row with
  | [] => []
  | samp :: r => (samp - init) :: diff1d_loop samp r
  end.

(* jclossls.c:107-113: the loop of DIFFERENCE_2D; ra, rb = the sample just coded and the one above it *)
Fixpoint diff2d_loop (psv ra rb : Z) (row prev : list Z) : list Z :=
  match row, prev with
  | samp :: r, b :: p => (samp - PREDICTOR psv ra b rb) :: diff2d_loop psv samp b r p
  | _, _ => []
  end.
(* jclossls.c:99-114 DIFFERENCE_2D *)
Definition DIFFERENCE_2D (psv : Z) (row prev : list Z) : list Z :=
  match row, prev with
  | samp :: r, b :: p => (samp - b) :: diff2d_loop psv samp b r p
  | _, _ => []
  end.

(* per-component state: predict_difference (true = jpeg_difference_first_row), restart_rows_to_go,
   prev_row (jcdiffct.c prev_row[ci]) *)
Record lenc := mkLE { le_first : bool; le_togo : Z; le_prev : list Z }.

(* jclossls.c:255-266 reset_predictor; rr = restart_interval / MCUs_per_row *)
Definition reset_predictor (rr : Z) (prev : list Z) : lenc := mkLE true rr prev.

(* jclossls.c:80-84, 117-121: restart accounting; ri = restart_interval (only zero or not matters) *)
Definition account (ri rr : Z) (st : lenc) (first' : bool) : lenc :=
  if ri =? 0 then mkLE first' (le_togo st) (le_prev st)
  else let t := u32 (le_togo st - 1) in
       if t =? 0 then reset_predictor rr (le_prev st) else mkLE first' t (le_prev st).

(* jclossls.c:131-249 jpeg_difference1..7 and jpeg_difference_first_row, selected by the state *)
Definition predict_difference (prec al psv ri rr : Z) (st : lenc) (cur : list Z) : list Z * lenc :=
  if le_first st
  then (DIFFERENCE_1D (INITIAL_PREDICTORx prec al) cur, account ri rr st false)
  else if psv =? 1
  then (DIFFERENCE_1D (hd 0 (le_prev st)) cur, account ri rr st false)
  else (DIFFERENCE_2D psv cur (le_prev st), account ri rr st false).

(* jclossls.c:272-290 simple_downscale / noscale *)
Definition downscale (al : Z) (row : list Z) : list Z :=
  if al =? 0 then row else map (fun s => Z.shiftr s al) row.

(* jcdiffct.c:186-194: scale, predict, SWAP_ROWS, for one row of one component *)
Definition enc_row (prec al psv ri rr : Z) (st : lenc) (input : list Z) : list Z * lenc :=
  let cur := downscale al input in
  let '(diffs, st') := predict_difference prec al psv ri rr st cur in
  (diffs, mkLE (le_first st') (le_togo st') cur).

(* jclossls.c:296-319 start_pass_lossless (prev_row is uninitialised memory: any list) *)
Definition start_pass_lossless_c (ri mpr : Z) (junk : list Z) : outcome lenc :=
  if negb (ri mod mpr =? 0) then Error JERR_BAD_RESTART
  else Ret (reset_predictor (ri / mpr) junk).

(* all rows of a component *)
Fixpoint enc_rows (prec al psv ri rr : Z) (st : lenc) (rows : list (list Z)) : list (list Z) :=
  match rows with
  | [] => []
  | r :: rs => let '(d, st') := enc_row prec al psv ri rr st r in d :: enc_rows prec al psv ri rr st' rs
  end.

(* ---- decompressor ---- *)

(* jdlossls.c:64-67: the loop of UNDIFFERENCE_1D *)
Fixpoint undiff1d_loop (ra : Z) (diffs : list Z) : list Z :=
  match diffs with
  | [] => []
  | d :: r => let v := Z.land (d + ra) 65535 in v :: undiff1d_loop v r
  end.
(* jdlossls.c:58-68 UNDIFFERENCE_1D *)
Definition UNDIFFERENCE_1D (init : Z) (diffs : list Z) : list Z :=
  match diffs with
  | [] => []
  | d :: r => let v := Z.land (d + init) 65535 in v :: undiff1d_loop v r
  end.

(* jdlossls.c:93-98: the loop of UNDIFFERENCE_2D.  prev_row and undiff_buf are the same storage when
   v_samp_factor = 1; cell i is read into Rb before it is overwritten and never read again, which is
   what consuming the list [prev] while producing the result expresses. *)
Fixpoint undiff2d_loop (psv ra rb : Z) (diffs prev : list Z) : list Z :=
  match diffs, prev with
  | d :: r, b :: p => let v := Z.land (d + PREDICTOR psv ra b rb) 65535 in v :: undiff2d_loop psv v b r p
  | _, _ => []
  end.
(* jdlossls.c:86-99 UNDIFFERENCE_2D *)
Definition UNDIFFERENCE_2D (psv : Z) (diffs prev : list Z) : list Z :=
  match diffs, prev with
  | d :: r, b :: p => let v := Z.land (d + b) 65535 in v :: undiff2d_loop psv v b r p
  | _, _ => []
  end.

(* predict_undifference (true = first row), undiff_buf *)
Record ldec := mkLD { ld_first : bool; ld_prev : list Z }.

(* jdlossls.c:110-206 *)
Definition predict_undifference (prec al psv : Z) (st : ldec) (diffs : list Z) : list Z * ldec :=
  let out := if ld_first st then UNDIFFERENCE_1D (INITIAL_PREDICTORx prec al) diffs
             else if psv =? 1 then UNDIFFERENCE_1D (hd 0 (ld_prev st)) diffs
             else UNDIFFERENCE_2D psv diffs (ld_prev st) in
  (out, mkLD false out).

(* (_JSAMPLE) cast: JSAMPLE = unsigned char (8-bit), J12SAMPLE = short, J16SAMPLE = unsigned short *)
Definition sample_cast (prec x : Z) : Z :=
  if prec <=? 8 then u8 x else if prec <=? 12 then s16 x else u16 x.

(* jdlossls.c:211-231 simple_upscale / noscale *)
Definition upscale (prec al : Z) (row : list Z) : list Z :=
  map (fun s => sample_cast prec (if al =? 0 then s else Z.shiftl s al)) row.

(* jdlossls.c:238-273 start_pass_lossless: the parameter check *)
Definition lossless_params_ok (prec ss se ah al : Z) : bool :=
  negb ((ss <? 1) || (7 <? ss) || negb (se =? 0) || negb (ah =? 0) || (al <? 0) || (prec <=? al)).

(* jddiffct.c:160-240 decompress_data, rows of one component, entropy decoding already done:
   before each row a pending restart resets the undifferencer (process_restart -> start_pass) and
   the row counter; then the counter is decremented. *)
Fixpoint dec_rows (prec al psv ri rr : Z) (togo : Z) (st : ldec) (rows : list (list Z)) : list (list Z) :=
  match rows with
  | [] => []
  | ds :: rs =>
    let restart := negb (ri =? 0) && (togo =? 0) in
    let st1 := if restart then mkLD true (ld_prev st) else st in
    let togo1 := if restart then rr else togo in
    let togo2 := if ri =? 0 then togo1 else u32 (togo1 - 1) in
    let '(out, st2) := predict_undifference prec al psv st1 ds in
    upscale prec al out :: dec_rows prec al psv ri rr togo2 st2 rs
  end.

(* a whole component: start_input_pass (jddiffct.c:93-114) and all rows *)
Definition dec_component (prec al psv ri mpr : Z) (junk : list Z) (rows : list (list Z))
  : outcome (list (list Z)) :=
  if negb (lossless_params_ok prec psv 0 0 al) then Error JERR_BAD_PROGRESSION
  else if negb (ri mod mpr =? 0) then Error JERR_BAD_RESTART
  else Ret (dec_rows prec al psv ri (ri / mpr) (ri / mpr) (mkLD true junk) rows).

Definition enc_component (prec al psv ri mpr : Z) (junk : list Z) (rows : list (list Z))
  : outcome (list (list Z)) :=
  st <- start_pass_lossless_c ri mpr junk ;;
  Ret (enc_rows prec al psv ri (ri / mpr) st rows).
