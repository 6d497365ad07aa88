(* M_Geom.v -- the dimension computations of jcmaster.c and jdinput.c
   (JPEG_LIB_VERSION 62: _jpeg_width is image_width, _DCT_scaled_size is
   DCT_scaled_size). *)
From Verif Require Import Base.

(* jutils.c:78-83, 86-93 (C's / and % truncate; the arguments are nonnegative) *)
Definition jdiv_round_up (a b : Z) : Z := Z.quot (a + b - 1) b.
Definition jround_up (a b : Z) : Z := (a + (b - 1)) - Z.rem (a + (b - 1)) b.

(* jmorecfg.h:157, 29; jpeglib.h:72-83 *)
Definition JPEG_MAX_DIMENSION : Z := 65500.
Definition MAX_COMPONENTS : Z := 10.
Definition MAX_SAMP_FACTOR : Z := 4.
Definition MAX_COMPS_IN_SCAN : Z := 4.
Definition C_MAX_BLOCKS_IN_MCU : Z := 10.
Definition D_MAX_BLOCKS_IN_MCU : Z := 10.
Definition DCTSIZE : Z := 8.

(* sampling factors of a component as given (jpeg_component_info, jpeglib.h:135-146) *)
Record samp := mkSamp { h_samp : Z; v_samp : Z }.

(* the computed part of a component (jpeglib.h:147-190) *)
Record comp := mkComp { c_index : Z; c_h : Z; c_v : Z; c_DCT_scaled_size : Z;
  c_width_in_blocks : Z; c_height_in_blocks : Z;
  c_downsampled_width : Z; c_downsampled_height : Z }.
Record frame := mkFrame { f_width : Z; f_height : Z; f_lossless : bool;
  f_max_h : Z; f_max_v : Z; f_comps : list comp; f_total_iMCU_rows : Z }.

(* jcmaster.c:204-218 / jdinput.c:75-89: one pass over the components *)
Fixpoint max_samp (l : list samp) (mh mv : Z) : outcome (Z * Z) :=
  match l with
  | [] => Ret (mh, mv)
  | s :: t =>
    if (h_samp s <=? 0) || (MAX_SAMP_FACTOR <? h_samp s) || (v_samp s <=? 0) || (MAX_SAMP_FACTOR <? v_samp s)
    then Error JERR_BAD_SAMPLING
    else max_samp t (Z.max mh (h_samp s)) (Z.max mv (v_samp s))
  end.

(* What the application (jpeg_compress_struct) supplies.  num_components is the
   length of the component list (simplification: the array comp_info always has
   that many entries). *)
Record cparams := mkCP { p_width : Z; p_height : Z; p_input_components : Z; p_precision : Z;
  p_lossless : bool; p_samps : list samp }.

(* jcmaster.c:221-249 *)
Fixpoint c_dims (W H mh mv du : Z) (ci : Z) (l : list samp) : list comp :=
  match l with
  | [] => []
  | s :: t =>
    mkComp ci (h_samp s) (v_samp s) du
      (u32 (jdiv_round_up (W * h_samp s) (mh * du)))
      (u32 (jdiv_round_up (H * v_samp s) (mv * du)))
      (u32 (jdiv_round_up (W * h_samp s) mh))
      (u32 (jdiv_round_up (H * v_samp s) mv))
    :: c_dims W H mh mv du (ci + 1) t
  end.

(* jcmaster.c:163-257 initial_setup *)
Definition c_initial_setup (p : cparams) : outcome frame :=
  let du := if p_lossless p then 1 else DCTSIZE in
  let n := Z.of_nat (length (p_samps p)) in
  if (p_height p <=? 0) || (p_width p <=? 0) || (n <=? 0) || (p_input_components p <=? 0)
  then Error JERR_EMPTY_IMAGE
  else if (JPEG_MAX_DIMENSION <? p_height p) || (JPEG_MAX_DIMENSION <? p_width p)
  then Error JERR_IMAGE_TOO_BIG
  else let samplesperrow := p_width p * p_input_components p in
  if negb (u32 samplesperrow =? samplesperrow) then Error JERR_WIDTH_OVERFLOW
  else if negb (p_precision p =? 8) && negb (p_precision p =? 12) && negb (p_precision p =? 16)
  then Error JERR_BAD_PRECISION
  else if MAX_COMPONENTS <? n then Error JERR_COMPONENT_COUNT
  else '(mh, mv) <- max_samp (p_samps p) 1 1 ;;
  Ret (mkFrame (p_width p) (p_height p) (p_lossless p) mh mv
         (c_dims (p_width p) (p_height p) mh mv du 0 (p_samps p))
         (u32 (jdiv_round_up (p_height p) (mv * du)))).

(* What the frame header (SOFn) supplies to the decompressor. *)
Record sof := mkSof { q_width : Z; q_height : Z; q_precision : Z; q_lossless : bool; q_samps : list samp }.

(* jdinput.c:107-143 *)
Fixpoint d_dims (W H mh mv du : Z) (ci : Z) (l : list samp) : list comp :=
  match l with
  | [] => []
  | s :: t =>
    mkComp ci (h_samp s) (v_samp s) du
      (u32 (jdiv_round_up (W * h_samp s) (mh * du)))
      (u32 (jdiv_round_up (H * v_samp s) (mv * du)))
      (u32 (jdiv_round_up (W * h_samp s) mh))
      (u32 (jdiv_round_up (H * v_samp s) mv))
    :: d_dims W H mh mv du (ci + 1) t
  end.

(* jdinput.c:47-154 initial_setup, preceded by the test of get_sof
   (jdmarker.c:271-276) that the image is not empty *)
Definition d_initial_setup (q : sof) : outcome frame :=
  let du := if q_lossless q then 1 else DCTSIZE in
  let n := Z.of_nat (length (q_samps q)) in
  if (q_height q <=? 0) || (q_width q <=? 0) || (n <=? 0) then Error JERR_EMPTY_IMAGE
  else if (JPEG_MAX_DIMENSION <? q_height q) || (JPEG_MAX_DIMENSION <? q_width q)
  then Error JERR_IMAGE_TOO_BIG
  else if negb (q_precision q =? 8) && negb (q_precision q =? 12) && negb (q_precision q =? 16)
  then Error JERR_BAD_PRECISION
  else if MAX_COMPONENTS <? n then Error JERR_COMPONENT_COUNT
  else '(mh, mv) <- max_samp (q_samps q) 1 1 ;;
  Ret (mkFrame (q_width q) (q_height q) (q_lossless q) mh mv
         (d_dims (q_width q) (q_height q) mh mv du 0 (q_samps q))
         (u32 (jdiv_round_up (q_height q) (mv * du)))).

(* per-scan part of a component (jpeglib.h:182-190) *)
Record scomp := mkSC { s_comp : comp; s_MCU_width : Z; s_MCU_height : Z; s_MCU_blocks : Z;
  s_MCU_sample_width : Z; s_last_col_width : Z; s_last_row_height : Z }.
Record scan := mkScan { s_comps : list scomp; s_MCUs_per_row : Z; s_MCU_rows_in_scan : Z;
  s_blocks_in_MCU : Z; s_membership : list Z }.

(* while (mcublks-- > 0) MCU_membership[blocks_in_MCU++] = ci; *)
Fixpoint push (n : nat) (ci : Z) (m : list Z) : list Z :=
  match n with O => m | S n => push n ci (m ++ [ci]) end.

(* jcmaster.c:569-594: the loop over the components of an interleaved scan;
   blocks_in_MCU is the length of the membership list so far *)
Fixpoint c_inter (du : Z) (l : list comp) (ci : Z) (acc : list scomp) (blocks : Z) (m : list Z)
  : outcome (list scomp * Z * list Z) :=
  match l with
  | [] => Ret (acc, blocks, m)
  | c :: t =>
    let mw := c_h c in
    let mh := c_v c in
    let mb := mw * mh in
    let tmp := Z.rem (c_width_in_blocks c) mw in
    let lcw := if tmp =? 0 then mw else tmp in
    let tmp := Z.rem (c_height_in_blocks c) mh in
    let lrh := if tmp =? 0 then mh else tmp in
    if C_MAX_BLOCKS_IN_MCU <? blocks + mb then Error JERR_BAD_MCU_SIZE
    else c_inter du t (ci + 1) (acc ++ [mkSC c mw mh mb (mw * du) lcw lrh]) (blocks + mb)
           (push (Z.to_nat mb) ci m)
  end.

(* jcmaster.c:518-603 per_scan_setup; [l] is cur_comp_info[0 .. comps_in_scan-1] *)
Definition c_per_scan_setup (f : frame) (l : list comp) : outcome scan :=
  let du := if f_lossless f then 1 else DCTSIZE in
  match l with
  | [c] =>
    let tmp := Z.rem (c_height_in_blocks c) (c_v c) in
    let lrh := if tmp =? 0 then c_v c else tmp in
    Ret (mkScan [mkSC c 1 1 1 du 1 lrh] (c_width_in_blocks c) (c_height_in_blocks c) 1 [0])
  | _ =>
    let n := Z.of_nat (length l) in
    if (n <=? 0) || (MAX_COMPS_IN_SCAN <? n) then Error JERR_COMPONENT_COUNT
    else
      '(cs, blocks, m) <- c_inter du l 0 [] 0 [] ;;
      Ret (mkScan cs (u32 (jdiv_round_up (f_width f) (f_max_h f * du)))
             (u32 (jdiv_round_up (f_height f) (f_max_v f * du))) blocks m)
  end.

(* jcmaster.c:598-602: restart_in_rows, in MCUs *)
Definition c_restart_interval (restart_in_rows restart_interval : Z) (s : scan) : Z :=
  if 0 <? restart_in_rows then Z.min (restart_in_rows * s_MCUs_per_row s) 65535
  else restart_interval.

(* jdinput.c:203-229 *)
Fixpoint d_inter (l : list comp) (ci : Z) (acc : list scomp) (blocks : Z) (m : list Z)
  : outcome (list scomp * Z * list Z) :=
  match l with
  | [] => Ret (acc, blocks, m)
  | c :: t =>
    let mw := c_h c in
    let mh := c_v c in
    let mb := mw * mh in
    let tmp := Z.rem (c_width_in_blocks c) mw in
    let lcw := if tmp =? 0 then mw else tmp in
    let tmp := Z.rem (c_height_in_blocks c) mh in
    let lrh := if tmp =? 0 then mh else tmp in
    if D_MAX_BLOCKS_IN_MCU <? blocks + mb then Error JERR_BAD_MCU_SIZE
    else d_inter t (ci + 1) (acc ++ [mkSC c mw mh mb (mw * c_DCT_scaled_size c) lcw lrh]) (blocks + mb)
           (push (Z.to_nat mb) ci m)
  end.

(* jdinput.c:157-233 per_scan_setup *)
Definition d_per_scan_setup (f : frame) (l : list comp) : outcome scan :=
  let du := if f_lossless f then 1 else DCTSIZE in
  match l with
  | [c] =>
    let tmp := Z.rem (c_height_in_blocks c) (c_v c) in
    let lrh := if tmp =? 0 then c_v c else tmp in
    Ret (mkScan [mkSC c 1 1 1 (c_DCT_scaled_size c) 1 lrh] (c_width_in_blocks c) (c_height_in_blocks c) 1 [0])
  | _ =>
    let n := Z.of_nat (length l) in
    if (n <=? 0) || (MAX_COMPS_IN_SCAN <? n) then Error JERR_COMPONENT_COUNT
    else
      '(cs, blocks, m) <- d_inter l 0 [] 0 [] ;;
      Ret (mkScan cs (u32 (jdiv_round_up (f_width f) (f_max_h f * du)))
             (u32 (jdiv_round_up (f_height f) (f_max_v f * du))) blocks m)
  end.
