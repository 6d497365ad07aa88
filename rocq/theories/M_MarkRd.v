(* M_MarkRd.v -- model of the JPEG marker reader (jdmarker.c): read_markers and everything it calls,
   jpeg_save_markers, reset_marker_reader, jinit_marker_reader.
   The data source is a list: the bytes now available after the restart point; when it is exhausted fill_input_buffer
   returns FALSE and the routine suspends, returning the state reached and the restart point.  A source that never
   suspends is the special case where the list holds the whole rest of the file.
   [skip] is the part of a skip_input_data request that went beyond the available bytes; the source
   drops that many bytes of what is supplied next (libjpeg.txt, "skip_input_data").
   Memory allocation (comp_info, tables, saved markers) is taken to succeed; M_Mem.v models it.
   Trace messages and warnings are not modelled.  A pointer to a component is its index in comp_info. *)
From Verif Require Import Base M_HuffDec.

Record comp := mkComp { c_id : Z; c_h : Z; c_v : Z; c_q : Z; c_dc : Z; c_ac : Z }.
Record pmark := mkPM { pm_marker : Z; pm_orig : Z; pm_len : Z; pm_data : list Z }.   (* a saved marker being read; bytes_read = length pm_data *)
Record smark := mkSM { sm_marker : Z; sm_orig : Z; sm_data : list Z }.                (* one element of marker_list *)

(* the fields of jpeg_decompress_struct and my_marker_reader that the marker reader uses *)
Record rst := mkR {
  saw_SOI : bool;
  saw_SOF : bool;
  unread : Z;
  disc : Z;
  qt : list (option (list Z));
  dch : list (option (list Z * list Z));
  ach : list (option (list Z * list Z));
  aL : list Z;
  aU : list Z;
  aK : list Z;
  ri : Z;
  prog : bool;
  lossless : bool;
  arith : bool;
  precision : Z;
  height : Z;
  width : Z;
  ncomp : Z;
  comps : option (list comp);
  nscan : Z;
  cur : list (option Z);
  rSs : Z;
  rSe : Z;
  rAh : Z;
  rAl : Z;
  next_rst : Z;
  scan_no : Z;
  saw_JFIF : bool;
  jf_maj : Z;
  jf_min : Z;
  dunit : Z;
  xdens : Z;
  ydens : Z;
  saw_Adobe : bool;
  transform : Z;
  proc_com : Z;
  proc_app : list Z;
  lim_com : Z;
  lim_app : list Z;
  cur_marker : option pmark;
  saved : list smark;
  skip : Z }.
Definition set_saw_SOI (s : rst) (v : bool) : rst := mkR v (saw_SOF s) (unread s) (disc s) (qt s) (dch s) (ach s) (aL s) (aU s) (aK s) (ri s) (prog s) (lossless s) (arith s) (precision s) (height s) (width s) (ncomp s) (comps s) (nscan s) (cur s) (rSs s) (rSe s) (rAh s) (rAl s) (next_rst s) (scan_no s) (saw_JFIF s) (jf_maj s) (jf_min s) (dunit s) (xdens s) (ydens s) (saw_Adobe s) (transform s) (proc_com s) (proc_app s) (lim_com s) (lim_app s) (cur_marker s) (saved s) (skip s).
Definition set_saw_SOF (s : rst) (v : bool) : rst := mkR (saw_SOI s) v (unread s) (disc s) (qt s) (dch s) (ach s) (aL s) (aU s) (aK s) (ri s) (prog s) (lossless s) (arith s) (precision s) (height s) (width s) (ncomp s) (comps s) (nscan s) (cur s) (rSs s) (rSe s) (rAh s) (rAl s) (next_rst s) (scan_no s) (saw_JFIF s) (jf_maj s) (jf_min s) (dunit s) (xdens s) (ydens s) (saw_Adobe s) (transform s) (proc_com s) (proc_app s) (lim_com s) (lim_app s) (cur_marker s) (saved s) (skip s).
Definition set_unread (s : rst) (v : Z) : rst := mkR (saw_SOI s) (saw_SOF s) v (disc s) (qt s) (dch s) (ach s) (aL s) (aU s) (aK s) (ri s) (prog s) (lossless s) (arith s) (precision s) (height s) (width s) (ncomp s) (comps s) (nscan s) (cur s) (rSs s) (rSe s) (rAh s) (rAl s) (next_rst s) (scan_no s) (saw_JFIF s) (jf_maj s) (jf_min s) (dunit s) (xdens s) (ydens s) (saw_Adobe s) (transform s) (proc_com s) (proc_app s) (lim_com s) (lim_app s) (cur_marker s) (saved s) (skip s).
Definition set_disc (s : rst) (v : Z) : rst := mkR (saw_SOI s) (saw_SOF s) (unread s) v (qt s) (dch s) (ach s) (aL s) (aU s) (aK s) (ri s) (prog s) (lossless s) (arith s) (precision s) (height s) (width s) (ncomp s) (comps s) (nscan s) (cur s) (rSs s) (rSe s) (rAh s) (rAl s) (next_rst s) (scan_no s) (saw_JFIF s) (jf_maj s) (jf_min s) (dunit s) (xdens s) (ydens s) (saw_Adobe s) (transform s) (proc_com s) (proc_app s) (lim_com s) (lim_app s) (cur_marker s) (saved s) (skip s).
Definition set_qt (s : rst) (v : list (option (list Z))) : rst := mkR (saw_SOI s) (saw_SOF s) (unread s) (disc s) v (dch s) (ach s) (aL s) (aU s) (aK s) (ri s) (prog s) (lossless s) (arith s) (precision s) (height s) (width s) (ncomp s) (comps s) (nscan s) (cur s) (rSs s) (rSe s) (rAh s) (rAl s) (next_rst s) (scan_no s) (saw_JFIF s) (jf_maj s) (jf_min s) (dunit s) (xdens s) (ydens s) (saw_Adobe s) (transform s) (proc_com s) (proc_app s) (lim_com s) (lim_app s) (cur_marker s) (saved s) (skip s).
Definition set_dch (s : rst) (v : list (option (list Z * list Z))) : rst := mkR (saw_SOI s) (saw_SOF s) (unread s) (disc s) (qt s) v (ach s) (aL s) (aU s) (aK s) (ri s) (prog s) (lossless s) (arith s) (precision s) (height s) (width s) (ncomp s) (comps s) (nscan s) (cur s) (rSs s) (rSe s) (rAh s) (rAl s) (next_rst s) (scan_no s) (saw_JFIF s) (jf_maj s) (jf_min s) (dunit s) (xdens s) (ydens s) (saw_Adobe s) (transform s) (proc_com s) (proc_app s) (lim_com s) (lim_app s) (cur_marker s) (saved s) (skip s).
Definition set_ach (s : rst) (v : list (option (list Z * list Z))) : rst := mkR (saw_SOI s) (saw_SOF s) (unread s) (disc s) (qt s) (dch s) v (aL s) (aU s) (aK s) (ri s) (prog s) (lossless s) (arith s) (precision s) (height s) (width s) (ncomp s) (comps s) (nscan s) (cur s) (rSs s) (rSe s) (rAh s) (rAl s) (next_rst s) (scan_no s) (saw_JFIF s) (jf_maj s) (jf_min s) (dunit s) (xdens s) (ydens s) (saw_Adobe s) (transform s) (proc_com s) (proc_app s) (lim_com s) (lim_app s) (cur_marker s) (saved s) (skip s).
Definition set_aL (s : rst) (v : list Z) : rst := mkR (saw_SOI s) (saw_SOF s) (unread s) (disc s) (qt s) (dch s) (ach s) v (aU s) (aK s) (ri s) (prog s) (lossless s) (arith s) (precision s) (height s) (width s) (ncomp s) (comps s) (nscan s) (cur s) (rSs s) (rSe s) (rAh s) (rAl s) (next_rst s) (scan_no s) (saw_JFIF s) (jf_maj s) (jf_min s) (dunit s) (xdens s) (ydens s) (saw_Adobe s) (transform s) (proc_com s) (proc_app s) (lim_com s) (lim_app s) (cur_marker s) (saved s) (skip s).
Definition set_aU (s : rst) (v : list Z) : rst := mkR (saw_SOI s) (saw_SOF s) (unread s) (disc s) (qt s) (dch s) (ach s) (aL s) v (aK s) (ri s) (prog s) (lossless s) (arith s) (precision s) (height s) (width s) (ncomp s) (comps s) (nscan s) (cur s) (rSs s) (rSe s) (rAh s) (rAl s) (next_rst s) (scan_no s) (saw_JFIF s) (jf_maj s) (jf_min s) (dunit s) (xdens s) (ydens s) (saw_Adobe s) (transform s) (proc_com s) (proc_app s) (lim_com s) (lim_app s) (cur_marker s) (saved s) (skip s).
Definition set_aK (s : rst) (v : list Z) : rst := mkR (saw_SOI s) (saw_SOF s) (unread s) (disc s) (qt s) (dch s) (ach s) (aL s) (aU s) v (ri s) (prog s) (lossless s) (arith s) (precision s) (height s) (width s) (ncomp s) (comps s) (nscan s) (cur s) (rSs s) (rSe s) (rAh s) (rAl s) (next_rst s) (scan_no s) (saw_JFIF s) (jf_maj s) (jf_min s) (dunit s) (xdens s) (ydens s) (saw_Adobe s) (transform s) (proc_com s) (proc_app s) (lim_com s) (lim_app s) (cur_marker s) (saved s) (skip s).
Definition set_ri (s : rst) (v : Z) : rst := mkR (saw_SOI s) (saw_SOF s) (unread s) (disc s) (qt s) (dch s) (ach s) (aL s) (aU s) (aK s) v (prog s) (lossless s) (arith s) (precision s) (height s) (width s) (ncomp s) (comps s) (nscan s) (cur s) (rSs s) (rSe s) (rAh s) (rAl s) (next_rst s) (scan_no s) (saw_JFIF s) (jf_maj s) (jf_min s) (dunit s) (xdens s) (ydens s) (saw_Adobe s) (transform s) (proc_com s) (proc_app s) (lim_com s) (lim_app s) (cur_marker s) (saved s) (skip s).
Definition set_prog (s : rst) (v : bool) : rst := mkR (saw_SOI s) (saw_SOF s) (unread s) (disc s) (qt s) (dch s) (ach s) (aL s) (aU s) (aK s) (ri s) v (lossless s) (arith s) (precision s) (height s) (width s) (ncomp s) (comps s) (nscan s) (cur s) (rSs s) (rSe s) (rAh s) (rAl s) (next_rst s) (scan_no s) (saw_JFIF s) (jf_maj s) (jf_min s) (dunit s) (xdens s) (ydens s) (saw_Adobe s) (transform s) (proc_com s) (proc_app s) (lim_com s) (lim_app s) (cur_marker s) (saved s) (skip s).
Definition set_lossless (s : rst) (v : bool) : rst := mkR (saw_SOI s) (saw_SOF s) (unread s) (disc s) (qt s) (dch s) (ach s) (aL s) (aU s) (aK s) (ri s) (prog s) v (arith s) (precision s) (height s) (width s) (ncomp s) (comps s) (nscan s) (cur s) (rSs s) (rSe s) (rAh s) (rAl s) (next_rst s) (scan_no s) (saw_JFIF s) (jf_maj s) (jf_min s) (dunit s) (xdens s) (ydens s) (saw_Adobe s) (transform s) (proc_com s) (proc_app s) (lim_com s) (lim_app s) (cur_marker s) (saved s) (skip s).
Definition set_arith (s : rst) (v : bool) : rst := mkR (saw_SOI s) (saw_SOF s) (unread s) (disc s) (qt s) (dch s) (ach s) (aL s) (aU s) (aK s) (ri s) (prog s) (lossless s) v (precision s) (height s) (width s) (ncomp s) (comps s) (nscan s) (cur s) (rSs s) (rSe s) (rAh s) (rAl s) (next_rst s) (scan_no s) (saw_JFIF s) (jf_maj s) (jf_min s) (dunit s) (xdens s) (ydens s) (saw_Adobe s) (transform s) (proc_com s) (proc_app s) (lim_com s) (lim_app s) (cur_marker s) (saved s) (skip s).
Definition set_precision (s : rst) (v : Z) : rst := mkR (saw_SOI s) (saw_SOF s) (unread s) (disc s) (qt s) (dch s) (ach s) (aL s) (aU s) (aK s) (ri s) (prog s) (lossless s) (arith s) v (height s) (width s) (ncomp s) (comps s) (nscan s) (cur s) (rSs s) (rSe s) (rAh s) (rAl s) (next_rst s) (scan_no s) (saw_JFIF s) (jf_maj s) (jf_min s) (dunit s) (xdens s) (ydens s) (saw_Adobe s) (transform s) (proc_com s) (proc_app s) (lim_com s) (lim_app s) (cur_marker s) (saved s) (skip s).
Definition set_height (s : rst) (v : Z) : rst := mkR (saw_SOI s) (saw_SOF s) (unread s) (disc s) (qt s) (dch s) (ach s) (aL s) (aU s) (aK s) (ri s) (prog s) (lossless s) (arith s) (precision s) v (width s) (ncomp s) (comps s) (nscan s) (cur s) (rSs s) (rSe s) (rAh s) (rAl s) (next_rst s) (scan_no s) (saw_JFIF s) (jf_maj s) (jf_min s) (dunit s) (xdens s) (ydens s) (saw_Adobe s) (transform s) (proc_com s) (proc_app s) (lim_com s) (lim_app s) (cur_marker s) (saved s) (skip s).
Definition set_width (s : rst) (v : Z) : rst := mkR (saw_SOI s) (saw_SOF s) (unread s) (disc s) (qt s) (dch s) (ach s) (aL s) (aU s) (aK s) (ri s) (prog s) (lossless s) (arith s) (precision s) (height s) v (ncomp s) (comps s) (nscan s) (cur s) (rSs s) (rSe s) (rAh s) (rAl s) (next_rst s) (scan_no s) (saw_JFIF s) (jf_maj s) (jf_min s) (dunit s) (xdens s) (ydens s) (saw_Adobe s) (transform s) (proc_com s) (proc_app s) (lim_com s) (lim_app s) (cur_marker s) (saved s) (skip s).
Definition set_ncomp (s : rst) (v : Z) : rst := mkR (saw_SOI s) (saw_SOF s) (unread s) (disc s) (qt s) (dch s) (ach s) (aL s) (aU s) (aK s) (ri s) (prog s) (lossless s) (arith s) (precision s) (height s) (width s) v (comps s) (nscan s) (cur s) (rSs s) (rSe s) (rAh s) (rAl s) (next_rst s) (scan_no s) (saw_JFIF s) (jf_maj s) (jf_min s) (dunit s) (xdens s) (ydens s) (saw_Adobe s) (transform s) (proc_com s) (proc_app s) (lim_com s) (lim_app s) (cur_marker s) (saved s) (skip s).
Definition set_comps (s : rst) (v : option (list comp)) : rst := mkR (saw_SOI s) (saw_SOF s) (unread s) (disc s) (qt s) (dch s) (ach s) (aL s) (aU s) (aK s) (ri s) (prog s) (lossless s) (arith s) (precision s) (height s) (width s) (ncomp s) v (nscan s) (cur s) (rSs s) (rSe s) (rAh s) (rAl s) (next_rst s) (scan_no s) (saw_JFIF s) (jf_maj s) (jf_min s) (dunit s) (xdens s) (ydens s) (saw_Adobe s) (transform s) (proc_com s) (proc_app s) (lim_com s) (lim_app s) (cur_marker s) (saved s) (skip s).
Definition set_nscan (s : rst) (v : Z) : rst := mkR (saw_SOI s) (saw_SOF s) (unread s) (disc s) (qt s) (dch s) (ach s) (aL s) (aU s) (aK s) (ri s) (prog s) (lossless s) (arith s) (precision s) (height s) (width s) (ncomp s) (comps s) v (cur s) (rSs s) (rSe s) (rAh s) (rAl s) (next_rst s) (scan_no s) (saw_JFIF s) (jf_maj s) (jf_min s) (dunit s) (xdens s) (ydens s) (saw_Adobe s) (transform s) (proc_com s) (proc_app s) (lim_com s) (lim_app s) (cur_marker s) (saved s) (skip s).
Definition set_cur (s : rst) (v : list (option Z)) : rst := mkR (saw_SOI s) (saw_SOF s) (unread s) (disc s) (qt s) (dch s) (ach s) (aL s) (aU s) (aK s) (ri s) (prog s) (lossless s) (arith s) (precision s) (height s) (width s) (ncomp s) (comps s) (nscan s) v (rSs s) (rSe s) (rAh s) (rAl s) (next_rst s) (scan_no s) (saw_JFIF s) (jf_maj s) (jf_min s) (dunit s) (xdens s) (ydens s) (saw_Adobe s) (transform s) (proc_com s) (proc_app s) (lim_com s) (lim_app s) (cur_marker s) (saved s) (skip s).
Definition set_rSs (s : rst) (v : Z) : rst := mkR (saw_SOI s) (saw_SOF s) (unread s) (disc s) (qt s) (dch s) (ach s) (aL s) (aU s) (aK s) (ri s) (prog s) (lossless s) (arith s) (precision s) (height s) (width s) (ncomp s) (comps s) (nscan s) (cur s) v (rSe s) (rAh s) (rAl s) (next_rst s) (scan_no s) (saw_JFIF s) (jf_maj s) (jf_min s) (dunit s) (xdens s) (ydens s) (saw_Adobe s) (transform s) (proc_com s) (proc_app s) (lim_com s) (lim_app s) (cur_marker s) (saved s) (skip s).
Definition set_rSe (s : rst) (v : Z) : rst := mkR (saw_SOI s) (saw_SOF s) (unread s) (disc s) (qt s) (dch s) (ach s) (aL s) (aU s) (aK s) (ri s) (prog s) (lossless s) (arith s) (precision s) (height s) (width s) (ncomp s) (comps s) (nscan s) (cur s) (rSs s) v (rAh s) (rAl s) (next_rst s) (scan_no s) (saw_JFIF s) (jf_maj s) (jf_min s) (dunit s) (xdens s) (ydens s) (saw_Adobe s) (transform s) (proc_com s) (proc_app s) (lim_com s) (lim_app s) (cur_marker s) (saved s) (skip s).
Definition set_rAh (s : rst) (v : Z) : rst := mkR (saw_SOI s) (saw_SOF s) (unread s) (disc s) (qt s) (dch s) (ach s) (aL s) (aU s) (aK s) (ri s) (prog s) (lossless s) (arith s) (precision s) (height s) (width s) (ncomp s) (comps s) (nscan s) (cur s) (rSs s) (rSe s) v (rAl s) (next_rst s) (scan_no s) (saw_JFIF s) (jf_maj s) (jf_min s) (dunit s) (xdens s) (ydens s) (saw_Adobe s) (transform s) (proc_com s) (proc_app s) (lim_com s) (lim_app s) (cur_marker s) (saved s) (skip s).
Definition set_rAl (s : rst) (v : Z) : rst := mkR (saw_SOI s) (saw_SOF s) (unread s) (disc s) (qt s) (dch s) (ach s) (aL s) (aU s) (aK s) (ri s) (prog s) (lossless s) (arith s) (precision s) (height s) (width s) (ncomp s) (comps s) (nscan s) (cur s) (rSs s) (rSe s) (rAh s) v (next_rst s) (scan_no s) (saw_JFIF s) (jf_maj s) (jf_min s) (dunit s) (xdens s) (ydens s) (saw_Adobe s) (transform s) (proc_com s) (proc_app s) (lim_com s) (lim_app s) (cur_marker s) (saved s) (skip s).
Definition set_next_rst (s : rst) (v : Z) : rst := mkR (saw_SOI s) (saw_SOF s) (unread s) (disc s) (qt s) (dch s) (ach s) (aL s) (aU s) (aK s) (ri s) (prog s) (lossless s) (arith s) (precision s) (height s) (width s) (ncomp s) (comps s) (nscan s) (cur s) (rSs s) (rSe s) (rAh s) (rAl s) v (scan_no s) (saw_JFIF s) (jf_maj s) (jf_min s) (dunit s) (xdens s) (ydens s) (saw_Adobe s) (transform s) (proc_com s) (proc_app s) (lim_com s) (lim_app s) (cur_marker s) (saved s) (skip s).
Definition set_scan_no (s : rst) (v : Z) : rst := mkR (saw_SOI s) (saw_SOF s) (unread s) (disc s) (qt s) (dch s) (ach s) (aL s) (aU s) (aK s) (ri s) (prog s) (lossless s) (arith s) (precision s) (height s) (width s) (ncomp s) (comps s) (nscan s) (cur s) (rSs s) (rSe s) (rAh s) (rAl s) (next_rst s) v (saw_JFIF s) (jf_maj s) (jf_min s) (dunit s) (xdens s) (ydens s) (saw_Adobe s) (transform s) (proc_com s) (proc_app s) (lim_com s) (lim_app s) (cur_marker s) (saved s) (skip s).
Definition set_saw_JFIF (s : rst) (v : bool) : rst := mkR (saw_SOI s) (saw_SOF s) (unread s) (disc s) (qt s) (dch s) (ach s) (aL s) (aU s) (aK s) (ri s) (prog s) (lossless s) (arith s) (precision s) (height s) (width s) (ncomp s) (comps s) (nscan s) (cur s) (rSs s) (rSe s) (rAh s) (rAl s) (next_rst s) (scan_no s) v (jf_maj s) (jf_min s) (dunit s) (xdens s) (ydens s) (saw_Adobe s) (transform s) (proc_com s) (proc_app s) (lim_com s) (lim_app s) (cur_marker s) (saved s) (skip s).
Definition set_jf_maj (s : rst) (v : Z) : rst := mkR (saw_SOI s) (saw_SOF s) (unread s) (disc s) (qt s) (dch s) (ach s) (aL s) (aU s) (aK s) (ri s) (prog s) (lossless s) (arith s) (precision s) (height s) (width s) (ncomp s) (comps s) (nscan s) (cur s) (rSs s) (rSe s) (rAh s) (rAl s) (next_rst s) (scan_no s) (saw_JFIF s) v (jf_min s) (dunit s) (xdens s) (ydens s) (saw_Adobe s) (transform s) (proc_com s) (proc_app s) (lim_com s) (lim_app s) (cur_marker s) (saved s) (skip s).
Definition set_jf_min (s : rst) (v : Z) : rst := mkR (saw_SOI s) (saw_SOF s) (unread s) (disc s) (qt s) (dch s) (ach s) (aL s) (aU s) (aK s) (ri s) (prog s) (lossless s) (arith s) (precision s) (height s) (width s) (ncomp s) (comps s) (nscan s) (cur s) (rSs s) (rSe s) (rAh s) (rAl s) (next_rst s) (scan_no s) (saw_JFIF s) (jf_maj s) v (dunit s) (xdens s) (ydens s) (saw_Adobe s) (transform s) (proc_com s) (proc_app s) (lim_com s) (lim_app s) (cur_marker s) (saved s) (skip s).
Definition set_dunit (s : rst) (v : Z) : rst := mkR (saw_SOI s) (saw_SOF s) (unread s) (disc s) (qt s) (dch s) (ach s) (aL s) (aU s) (aK s) (ri s) (prog s) (lossless s) (arith s) (precision s) (height s) (width s) (ncomp s) (comps s) (nscan s) (cur s) (rSs s) (rSe s) (rAh s) (rAl s) (next_rst s) (scan_no s) (saw_JFIF s) (jf_maj s) (jf_min s) v (xdens s) (ydens s) (saw_Adobe s) (transform s) (proc_com s) (proc_app s) (lim_com s) (lim_app s) (cur_marker s) (saved s) (skip s).
Definition set_xdens (s : rst) (v : Z) : rst := mkR (saw_SOI s) (saw_SOF s) (unread s) (disc s) (qt s) (dch s) (ach s) (aL s) (aU s) (aK s) (ri s) (prog s) (lossless s) (arith s) (precision s) (height s) (width s) (ncomp s) (comps s) (nscan s) (cur s) (rSs s) (rSe s) (rAh s) (rAl s) (next_rst s) (scan_no s) (saw_JFIF s) (jf_maj s) (jf_min s) (dunit s) v (ydens s) (saw_Adobe s) (transform s) (proc_com s) (proc_app s) (lim_com s) (lim_app s) (cur_marker s) (saved s) (skip s).
Definition set_ydens (s : rst) (v : Z) : rst := mkR (saw_SOI s) (saw_SOF s) (unread s) (disc s) (qt s) (dch s) (ach s) (aL s) (aU s) (aK s) (ri s) (prog s) (lossless s) (arith s) (precision s) (height s) (width s) (ncomp s) (comps s) (nscan s) (cur s) (rSs s) (rSe s) (rAh s) (rAl s) (next_rst s) (scan_no s) (saw_JFIF s) (jf_maj s) (jf_min s) (dunit s) (xdens s) v (saw_Adobe s) (transform s) (proc_com s) (proc_app s) (lim_com s) (lim_app s) (cur_marker s) (saved s) (skip s).
Definition set_saw_Adobe (s : rst) (v : bool) : rst := mkR (saw_SOI s) (saw_SOF s) (unread s) (disc s) (qt s) (dch s) (ach s) (aL s) (aU s) (aK s) (ri s) (prog s) (lossless s) (arith s) (precision s) (height s) (width s) (ncomp s) (comps s) (nscan s) (cur s) (rSs s) (rSe s) (rAh s) (rAl s) (next_rst s) (scan_no s) (saw_JFIF s) (jf_maj s) (jf_min s) (dunit s) (xdens s) (ydens s) v (transform s) (proc_com s) (proc_app s) (lim_com s) (lim_app s) (cur_marker s) (saved s) (skip s).
Definition set_transform (s : rst) (v : Z) : rst := mkR (saw_SOI s) (saw_SOF s) (unread s) (disc s) (qt s) (dch s) (ach s) (aL s) (aU s) (aK s) (ri s) (prog s) (lossless s) (arith s) (precision s) (height s) (width s) (ncomp s) (comps s) (nscan s) (cur s) (rSs s) (rSe s) (rAh s) (rAl s) (next_rst s) (scan_no s) (saw_JFIF s) (jf_maj s) (jf_min s) (dunit s) (xdens s) (ydens s) (saw_Adobe s) v (proc_com s) (proc_app s) (lim_com s) (lim_app s) (cur_marker s) (saved s) (skip s).
Definition set_proc_com (s : rst) (v : Z) : rst := mkR (saw_SOI s) (saw_SOF s) (unread s) (disc s) (qt s) (dch s) (ach s) (aL s) (aU s) (aK s) (ri s) (prog s) (lossless s) (arith s) (precision s) (height s) (width s) (ncomp s) (comps s) (nscan s) (cur s) (rSs s) (rSe s) (rAh s) (rAl s) (next_rst s) (scan_no s) (saw_JFIF s) (jf_maj s) (jf_min s) (dunit s) (xdens s) (ydens s) (saw_Adobe s) (transform s) v (proc_app s) (lim_com s) (lim_app s) (cur_marker s) (saved s) (skip s).
Definition set_proc_app (s : rst) (v : list Z) : rst := mkR (saw_SOI s) (saw_SOF s) (unread s) (disc s) (qt s) (dch s) (ach s) (aL s) (aU s) (aK s) (ri s) (prog s) (lossless s) (arith s) (precision s) (height s) (width s) (ncomp s) (comps s) (nscan s) (cur s) (rSs s) (rSe s) (rAh s) (rAl s) (next_rst s) (scan_no s) (saw_JFIF s) (jf_maj s) (jf_min s) (dunit s) (xdens s) (ydens s) (saw_Adobe s) (transform s) (proc_com s) v (lim_com s) (lim_app s) (cur_marker s) (saved s) (skip s).
Definition set_lim_com (s : rst) (v : Z) : rst := mkR (saw_SOI s) (saw_SOF s) (unread s) (disc s) (qt s) (dch s) (ach s) (aL s) (aU s) (aK s) (ri s) (prog s) (lossless s) (arith s) (precision s) (height s) (width s) (ncomp s) (comps s) (nscan s) (cur s) (rSs s) (rSe s) (rAh s) (rAl s) (next_rst s) (scan_no s) (saw_JFIF s) (jf_maj s) (jf_min s) (dunit s) (xdens s) (ydens s) (saw_Adobe s) (transform s) (proc_com s) (proc_app s) v (lim_app s) (cur_marker s) (saved s) (skip s).
Definition set_lim_app (s : rst) (v : list Z) : rst := mkR (saw_SOI s) (saw_SOF s) (unread s) (disc s) (qt s) (dch s) (ach s) (aL s) (aU s) (aK s) (ri s) (prog s) (lossless s) (arith s) (precision s) (height s) (width s) (ncomp s) (comps s) (nscan s) (cur s) (rSs s) (rSe s) (rAh s) (rAl s) (next_rst s) (scan_no s) (saw_JFIF s) (jf_maj s) (jf_min s) (dunit s) (xdens s) (ydens s) (saw_Adobe s) (transform s) (proc_com s) (proc_app s) (lim_com s) v (cur_marker s) (saved s) (skip s).
Definition set_cur_marker (s : rst) (v : option pmark) : rst := mkR (saw_SOI s) (saw_SOF s) (unread s) (disc s) (qt s) (dch s) (ach s) (aL s) (aU s) (aK s) (ri s) (prog s) (lossless s) (arith s) (precision s) (height s) (width s) (ncomp s) (comps s) (nscan s) (cur s) (rSs s) (rSe s) (rAh s) (rAl s) (next_rst s) (scan_no s) (saw_JFIF s) (jf_maj s) (jf_min s) (dunit s) (xdens s) (ydens s) (saw_Adobe s) (transform s) (proc_com s) (proc_app s) (lim_com s) (lim_app s) v (saved s) (skip s).
Definition set_saved (s : rst) (v : list smark) : rst := mkR (saw_SOI s) (saw_SOF s) (unread s) (disc s) (qt s) (dch s) (ach s) (aL s) (aU s) (aK s) (ri s) (prog s) (lossless s) (arith s) (precision s) (height s) (width s) (ncomp s) (comps s) (nscan s) (cur s) (rSs s) (rSe s) (rAh s) (rAl s) (next_rst s) (scan_no s) (saw_JFIF s) (jf_maj s) (jf_min s) (dunit s) (xdens s) (ydens s) (saw_Adobe s) (transform s) (proc_com s) (proc_app s) (lim_com s) (lim_app s) (cur_marker s) v (skip s).
Definition set_skip (s : rst) (v : Z) : rst := mkR (saw_SOI s) (saw_SOF s) (unread s) (disc s) (qt s) (dch s) (ach s) (aL s) (aU s) (aK s) (ri s) (prog s) (lossless s) (arith s) (precision s) (height s) (width s) (ncomp s) (comps s) (nscan s) (cur s) (rSs s) (rSe s) (rAh s) (rAl s) (next_rst s) (scan_no s) (saw_JFIF s) (jf_maj s) (jf_min s) (dunit s) (xdens s) (ydens s) (saw_Adobe s) (transform s) (proc_com s) (proc_app s) (lim_com s) (lim_app s) (cur_marker s) (saved s) v.

(* result of a routine: normal return, suspension (return FALSE) with the restart point, ERREXIT, undefined behaviour *)
Inductive rr (A : Type) : Type := ROk (a : A) (s : rst) (l : list Z) | RSusp (s : rst) (l : list Z) | RErr (e : jerr) (s : rst) | RUb.
Arguments ROk {A} _ _ _. Arguments RSusp {A} _ _. Arguments RErr {A} _ _. Arguments RUb {A}.

(* jdmarker.c:145-163 INPUT_BYTE, INPUT_2BYTES; l0 = restart point, l = local input pointer *)
Definition byte {A} (s : rst) (l0 l : list Z) (k : Z -> list Z -> rr A) : rr A :=
  match l with [] => RSusp s l0 | b :: l => k b l end.
Definition byte2 {A} (s : rst) (l0 l : list Z) (k : Z -> list Z -> rr A) : rr A :=
  byte s l0 l (fun b1 l => byte s l0 l (fun b2 l => k (b1 * 256 + b2) l)).
(* for (i = 0; i < n; i++) INPUT_BYTE(a[i]) into a local array *)
Fixpoint nbytes {A} (n : nat) (acc : list Z) (s : rst) (l0 l : list Z) (k : list Z -> list Z -> rr A) : rr A :=
  match n with O => k acc l | S n => byte s l0 l (fun b l => nbytes n (acc ++ [b]) s l0 l k) end.
Definition chk {A B} (o : outcome A) (s : rst) (k : A -> rr B) : rr B :=
  match o with Ret a => k a | Error e => RErr e s | Undef => RUb end.
(* skip_input_data *)
Definition skip_input (n : Z) (s : rst) (l : list Z) : rst * list Z :=
  if n <=? Z.of_nat (length l) then (s, skipn (Z.to_nat n) l) else (set_skip s (n - Z.of_nat (length l)), []).

Definition NUM_QUANT_TBLS : Z := 4.  Definition NUM_HUFF_TBLS : Z := 4.
Definition NUM_ARITH_TBLS : Z := 16. Definition MAX_COMPS_IN_SCAN : Z := 4.

(* jdmarker.c:201-238 get_soi *)
Definition get_soi (s : rst) (l : list Z) : rr unit :=
  if saw_SOI s then RErr JERR_SOI_DUPLICATE s
  else
    let s := set_aL s (repeat 0 16) in let s := set_aU s (repeat 1 16) in let s := set_aK s (repeat 5 16) in
    let s := set_ri s 0 in let s := set_saw_JFIF s false in let s := set_jf_maj s 1 in let s := set_jf_min s 1 in
    let s := set_dunit s 0 in let s := set_xdens s 1 in let s := set_ydens s 1 in
    let s := set_saw_Adobe s false in let s := set_transform s 0 in
    ROk tt (set_saw_SOI s true) l.

(* jdmarker.c:291-295: compptr->field = ..., compptr = &cinfo->comp_info[ci] (a NULL or out-of-range array is Undef) *)
Definition wr_comp (ci : Z) (s : rst) (f : comp -> comp) (k : rst -> rr unit) : rr unit :=
  match comps s with
  | None => RUb
  | Some cs => chk (aget cs ci) s (fun c => chk (aset cs ci (f c)) s (fun cs => k (set_comps s (Some cs))))
  end.
(* jdmarker.c:281-301: the component loop of get_sof *)
Fixpoint sof_comps (n : nat) (ci : Z) (s : rst) (l0 l : list Z) : rr unit :=
  match n with
  | O => ROk tt (set_saw_SOF s true) l
  | S n =>
    byte s l0 l (fun id l => wr_comp ci s (fun c => mkComp id (c_h c) (c_v c) (c_q c) (c_dc c) (c_ac c)) (fun s =>
    byte s l0 l (fun hv l => wr_comp ci s (fun c => mkComp (c_id c) (Z.land (Z.shiftr hv 4) 15) (Z.land hv 15) (c_q c) (c_dc c) (c_ac c)) (fun s =>
    byte s l0 l (fun q l => wr_comp ci s (fun c => mkComp (c_id c) (c_h c) (c_v c) q (c_dc c) (c_ac c)) (fun s =>
    sof_comps n (ci + 1) s l0 l))))))
  end.
Definition blank : comp := mkComp 0 0 0 0 0 0.
(* jdmarker.c:241-304 get_sof *)
Definition get_sof (is_prog is_lossless is_arith : bool) (s : rst) (l0 : list Z) : rr unit :=
  if saw_SOF s then RErr JERR_SOF_DUPLICATE s
  else
    let s := set_prog s is_prog in let s := set_lossless s is_lossless in let s := set_arith s is_arith in
    byte2 s l0 l0 (fun len l =>
    byte s l0 l (fun p l => let s := set_precision s p in
    byte2 s l0 l (fun h l => let s := set_height s h in
    byte2 s l0 l (fun w l => let s := set_width s w in
    byte s l0 l (fun nc l => let s := set_ncomp s nc in
    if (h <=? 0) || (w <=? 0) || (nc <=? 0) then RErr JERR_EMPTY_IMAGE s
    else if negb (len - 8 =? nc * 3) then RErr JERR_BAD_LENGTH s
    else
      let s := match comps s with None => set_comps s (Some (repeat blank (Z.to_nat nc))) | Some _ => s end in
      sof_comps (Z.to_nat nc) 0 s l0 l))))).

(* jdmarker.c:343-348: find the component with this id whose slot is free *)
Fixpoint find_comp (n : nat) (ci cc : Z) (cs : list comp) (cu : list (option Z)) (nc : Z) : outcome (option Z) :=
  match n with
  | O => Ret None
  | S n =>
    if (ci <? nc) && (ci <? MAX_COMPS_IN_SCAN) then
      c <- aget cs ci ;;
      if cc =? c_id c then
        q <- aget cu ci ;;
        match q with None => Ret (Some ci) | Some _ => find_comp n (ci + 1) cc cs cu nc end
      else find_comp n (ci + 1) cc cs cu nc
    else Ret None
  end.
(* jdmarker.c:362-367: has the component been selected already in this scan? *)
Fixpoint already (n : nat) (pi ci : Z) (cu : list (option Z)) : outcome bool :=
  match n with
  | O => Ret false
  | S n => q <- aget cu pi ;;
           if match q with Some d => d =? ci | None => false end then Ret true else already n (pi + 1) ci cu
  end.
(* jdmarker.c:339-368 *)
Fixpoint sos_comps (n : nat) (i : Z) (s : rst) (l0 l : list Z) (k : rst -> list Z -> rr unit) : rr unit :=
  match n with
  | O => k s l
  | S n =>
    byte s l0 l (fun cc l => byte s l0 l (fun c l =>
      match comps s with
      | None => RUb
      | Some cs =>
        chk (find_comp 5 0 cc cs (cur s) (ncomp s)) s (fun f =>
        match f with
        | None => RErr JERR_BAD_COMPONENT_ID s
        | Some ci =>
          chk (aset (cur s) i (Some ci)) s (fun cu =>
          chk (aget cs ci) s (fun p =>
          chk (aset cs ci (mkComp (c_id p) (c_h p) (c_v p) (c_q p) (Z.land (Z.shiftr c 4) 15) (Z.land c 15))) s (fun cs =>
          let s := set_comps (set_cur s cu) (Some cs) in
          chk (already (Z.to_nat i) 0 ci cu) s (fun d =>
          if d then RErr JERR_BAD_COMPONENT_ID s else sos_comps n (i + 1) s l0 l k))))
        end)
      end))
  end.
(* jdmarker.c:307-385 get_sos *)
Definition get_sos (s : rst) (l0 : list Z) : rr unit :=
  if negb (saw_SOF s) then RErr JERR_SOS_NO_SOF s
  else
    byte2 s l0 l0 (fun len l => byte s l0 l (fun n l =>
    if negb (len =? n * 2 + 6) || (n <? 1) || (MAX_COMPS_IN_SCAN <? n) then RErr JERR_BAD_LENGTH s
    else
      let s := set_cur (set_nscan s n) (repeat None 4) in
      sos_comps (Z.to_nat n) 0 s l0 l (fun s l =>
      byte s l0 l (fun c l => let s := set_rSs s c in
      byte s l0 l (fun c l => let s := set_rSe s c in
      byte s l0 l (fun c l => let s := set_rAl (set_rAh s (Z.land (Z.shiftr c 4) 15)) (Z.land c 15) in
      ROk tt (set_scan_no (set_next_rst s 0) (scan_no s + 1)) l)))))).

(* jdmarker.c:390-427 get_dac: while (length > 0) *)
Fixpoint dac_loop (fuel : nat) (length : Z) (s : rst) (l0 l : list Z) : rr unit :=
  if length <=? 0 then (if negb (length =? 0) then RErr JERR_BAD_LENGTH s else ROk tt s l)
  else match fuel with
  | O => RUb
  | S f =>
    byte s l0 l (fun index l => byte s l0 l (fun val l =>
    let length := length - 2 in
    if (index <? 0) || (2 * NUM_ARITH_TBLS <=? index) then RErr JERR_DAC_INDEX s
    else if NUM_ARITH_TBLS <=? index then
      chk (aset (aK s) (index - NUM_ARITH_TBLS) (u8 val)) s (fun a => dac_loop f length (set_aK s a) l0 l)
    else
      chk (aset (aL s) index (Z.land val 15)) s (fun a => chk (aset (aU s) index (Z.shiftr val 4)) s (fun b =>
      let s := set_aU (set_aL s a) b in
      if Z.shiftr val 4 <? Z.land val 15 then RErr JERR_DAC_VALUE s else dac_loop f length s l0 l))))
  end.
Definition get_dac (s : rst) (l0 : list Z) : rr unit :=
  byte2 s l0 l0 (fun len l => dac_loop (Z.to_nat len) (len - 2) s l0 l).

Definition zsum (l : list Z) : Z := fold_right Z.add 0 l.
(* jdmarker.c:436-507 get_dht: while (length > 16) *)
Fixpoint dht_loop (fuel : nat) (length : Z) (s : rst) (l0 l : list Z) : rr unit :=
  if length <=? 16 then (if negb (length =? 0) then RErr JERR_BAD_LENGTH s else ROk tt s l)
  else match fuel with
  | O => RUb
  | S f =>
    byte s l0 l (fun index l => nbytes 16 [] s l0 l (fun b l =>
    let bits := 0 :: b in let count := zsum b in
    let length := length - 17 in
    if (256 <? count) || (length <? count) then RErr JERR_BAD_HUFF_TABLE s
    else nbytes (Z.to_nat count) [] s l0 l (fun vals l =>
    let huffval := vals ++ repeat 0 (Z.to_nat (256 - count)) in
    let length := length - count in
    if negb (Z.land index 16 =? 0) then
      let index := index - 16 in
      if (index <? 0) || (NUM_HUFF_TBLS <=? index) then RErr JERR_DHT_INDEX s
      else chk (aset (ach s) index (Some (bits, huffval))) s (fun t => dht_loop f length (set_ach s t) l0 l)
    else
      if (index <? 0) || (NUM_HUFF_TBLS <=? index) then RErr JERR_DHT_INDEX s
      else chk (aset (dch s) index (Some (bits, huffval))) s (fun t => dht_loop f length (set_dch s t) l0 l))))
  end.
Definition get_dht (s : rst) (l0 : list Z) : rr unit :=
  byte2 s l0 l0 (fun len l => dht_loop (Z.to_nat len) (len - 2) s l0 l).

(* jdmarker.c:540-547: the 64 values, stored as they arrive *)
Fixpoint dqt_vals (m : nat) (i : Z) (prec n : Z) (s : rst) (l0 l : list Z) (k : rst -> list Z -> rr unit) : rr unit :=
  match m with
  | O => k s l
  | S m =>
    let store tmp l :=
      chk (aget (qt s) n) s (fun q => match q with None => RUb | Some t =>
      chk (aget jpeg_natural_order i) s (fun pos => chk (aset t pos (u16 tmp)) s (fun t => chk (aset (qt s) n (Some t)) s (fun qs =>
      dqt_vals m (i + 1) prec n (set_qt s qs) l0 l k))) end) in
    if negb (prec =? 0) then byte2 s l0 l store else byte s l0 l store
  end.
(* jdmarker.c:510-565 get_dqt: while (length > 0) *)
Fixpoint dqt_loop (fuel : nat) (length : Z) (s : rst) (l0 l : list Z) : rr unit :=
  if length <=? 0 then (if negb (length =? 0) then RErr JERR_BAD_LENGTH s else ROk tt s l)
  else match fuel with
  | O => RUb
  | S f =>
    byte s l0 l (fun b l =>
    let prec := Z.shiftr b 4 in let n := Z.land b 15 in
    if NUM_QUANT_TBLS <=? n then RErr JERR_DQT_INDEX s
    else chk (aget (qt s) n) s (fun q =>
    chk (match q with None => aset (qt s) n (Some (repeat 0 64)) | Some _ => Ret (qt s) end) s (fun qs =>
    dqt_vals 64 0 prec n (set_qt s qs) l0 l (fun s l =>
    dqt_loop f (length - 65 - (if negb (prec =? 0) then 64 else 0)) s l0 l))))
  end.
Definition get_dqt (s : rst) (l0 : list Z) : rr unit :=
  byte2 s l0 l0 (fun len l => dqt_loop (Z.to_nat len) (len - 2) s l0 l).

(* jdmarker.c:568-590 get_dri *)
Definition get_dri (s : rst) (l0 : list Z) : rr unit :=
  byte2 s l0 l0 (fun len l =>
  if negb (len =? 4) then RErr JERR_BAD_LENGTH s
  else byte2 s l0 l (fun tmp l => ROk tt (set_ri s tmp) l)).

(* the bytes at offset k of data match w *)
Fixpoint match_at (data : list Z) (k : Z) (w : list Z) : outcome bool :=
  match w with
  | [] => Ret true
  | x :: w => d <- aget data k ;; if d =? x then match_at data (k + 1) w else Ret false
  end.
(* jdmarker.c:604-674 examine_app0; datalen = number of bytes at data *)
Definition examine_app0 (data : list Z) (s : rst) : outcome rst :=
  if 14 <=? Z.of_nat (length data) then
    b <- match_at data 0 [74; 70; 73; 70; 0] ;;
    if (b : bool) then
      d5 <- aget data 5 ;; d6 <- aget data 6 ;; d7 <- aget data 7 ;; d8 <- aget data 8 ;; d9 <- aget data 9 ;;
      d10 <- aget data 10 ;; d11 <- aget data 11 ;; _ <- aget data 12 ;; _ <- aget data 13 ;;
      Ret (set_ydens (set_xdens (set_dunit (set_jf_min (set_jf_maj (set_saw_JFIF s true) d5) d6) d7) (d8 * 256 + d9)) (d10 * 256 + d11))
    else Ret s
  else Ret s.       (* the JFXX branch and the default only trace *)
(* jdmarker.c:677-705 examine_app14 *)
Definition examine_app14 (data : list Z) (s : rst) : outcome rst :=
  if 12 <=? Z.of_nat (length data) then
    b <- match_at data 0 [65; 100; 111; 98; 101] ;;
    if (b : bool) then t <- aget data 11 ;; Ret (set_transform (set_saw_Adobe s true) t) else Ret s
  else Ret s.

(* jdmarker.c:708-751 get_interesting_appn *)
Definition get_interesting_appn (s : rst) (l0 : list Z) : rr unit :=
  byte2 s l0 l0 (fun len l =>
  let length := len - 2 in
  let numtoread := if 14 <=? length then 14 else if 0 <? length then length else 0 in
  nbytes (Z.to_nat numtoread) [] s l0 l (fun b l =>
  let length := length - numtoread in
  let o := if unread s =? 224 then examine_app0 b s else if unread s =? 238 then examine_app14 b s else Error JERR_UNKNOWN_MARKER in
  chk o s (fun s => if 0 <? length then let '(s, l) := skip_input length s l in ROk tt s l else ROk tt s l))).

(* jdmarker.c:860-877 skip_variable *)
Definition skip_variable (s : rst) (l0 : list Z) : rr unit :=
  byte2 s l0 l0 (fun len l =>
  let length := len - 2 in
  if 0 <? length then let '(s, l) := skip_input length s l in ROk tt s l else ROk tt s l).

(* jdmarker.c:810-856: copy the data, link the marker, examine it *)
Definition save_finish (s : rst) (data : list Z) (length : Z) (l : list Z) : rr unit :=
  let s := set_cur_marker s None in
  let o := if unread s =? 224 then examine_app0 data s else if unread s =? 238 then examine_app14 data s else Ret s in
  chk o s (fun s => if 0 <? length then let '(s, l) := skip_input length s l in ROk tt s l else ROk tt s l).
Definition save_resume (s : rst) (m : pmark) (l : list Z) : rr unit :=
  let need := pm_len m - Z.of_nat (length (pm_data m)) in
  if Z.of_nat (length l) <? need then
    (* the bytes are copied, the restart point moves past them, and the routine suspends *)
    RSusp (set_cur_marker s (Some (mkPM (pm_marker m) (pm_orig m) (pm_len m) (pm_data m ++ l)))) []
  else
    let data := pm_data m ++ firstn (Z.to_nat need) l in
    let s := set_saved s (saved s ++ [mkSM (pm_marker m) (pm_orig m) data]) in
    save_finish s data (u32 (pm_orig m - pm_len m)) (skipn (Z.to_nat need) l).
(* jdmarker.c:756-856 save_marker *)
Definition save_marker (s : rst) (l0 : list Z) : rr unit :=
  match cur_marker s with
  | Some m => save_resume s m l0
  | None =>
    byte2 s l0 l0 (fun len l =>
    let length := len - 2 in
    if 0 <=? length then
      chk (if unread s =? 254 then Ret (lim_com s) else aget (lim_app s) (unread s - 224)) s (fun limit =>
      let limit := if length <? limit then length else limit in
      let m := mkPM (u8 (unread s)) length limit [] in
      save_resume (set_cur_marker s (Some m)) m l)
    else save_finish s [] length l)
  end.

(* the routine stored in process_APPn / process_COM: 0 = skip_variable, 1 = get_interesting_appn, 2 = save_marker *)
Definition run_proc (p : Z) (s : rst) (l : list Z) : rr unit :=
  if p =? 0 then skip_variable s l else if p =? 1 then get_interesting_appn s l else save_marker s l.

(* jdmarker.c:889-933 next_marker.  st = 0: looking for FF; 1: just read an FF.  l0 = restart point *)
Fixpoint next_marker_loop (st : bool) (s : rst) (l0 l : list Z) : rr unit :=
  match l with
  | [] => RSusp s l0
  | c :: l =>
    if st then
      if c =? 255 then next_marker_loop true s l0 l
      else if negb (c =? 0) then ROk tt (set_unread (set_disc s 0) c) l
      else next_marker_loop false (set_disc s (u32 (disc s + 2))) l l
    else
      if c =? 255 then next_marker_loop true s l0 l
      else next_marker_loop false (set_disc s (u32 (disc s + 1))) l l
  end.
Definition next_marker (s : rst) (l : list Z) : rr unit := next_marker_loop false s l l.
(* jdmarker.c:936-958 first_marker *)
Definition first_marker (s : rst) (l0 : list Z) : rr unit :=
  byte s l0 l0 (fun c l => byte s l0 l (fun c2 l =>
  if negb (c =? 255) || negb (c2 =? 216) then RErr JERR_NO_SOI s else ROk tt (set_unread s c2) l)).

Inductive reached := REACHED_SOS | REACHED_EOI.
Definition in_range (a b x : Z) : bool := (a <=? x) && (x <=? b).
(* jdmarker.c:986-1122: process one marker *)
Definition process_marker (s : rst) (l : list Z) : rr (option reached) :=
  let cont (r : rr unit) : rr (option reached) :=
    match r with ROk _ s l => ROk None (set_unread s 0) l | RSusp s l => RSusp s l | RErr e s => RErr e s | RUb => RUb end in
  let m := unread s in
  if m =? 216 then cont (get_soi s l)
  else if (m =? 192) || (m =? 193) then cont (get_sof false false false s l)
  else if m =? 194 then cont (get_sof true false false s l)
  else if m =? 195 then cont (get_sof false true false s l)
  else if m =? 201 then cont (get_sof false false true s l)
  else if m =? 202 then cont (get_sof true false true s l)
  else if m =? 203 then cont (get_sof false true true s l)
  else if in_range 197 200 m || in_range 205 207 m then RErr JERR_SOF_UNSUPPORTED s
  else if m =? 218 then
    match get_sos s l with ROk _ s l => ROk (Some REACHED_SOS) (set_unread s 0) l | RSusp s l => RSusp s l | RErr e s => RErr e s | RUb => RUb end
  else if m =? 217 then ROk (Some REACHED_EOI) (set_unread s 0) l
  else if m =? 204 then cont (get_dac s l)
  else if m =? 196 then cont (get_dht s l)
  else if m =? 219 then cont (get_dqt s l)
  else if m =? 221 then cont (get_dri s l)
  else if in_range 224 239 m then chk (aget (proc_app s) (m - 224)) s (fun p => cont (run_proc p s l))
  else if m =? 254 then cont (run_proc (proc_com s) s l)
  else if in_range 208 215 m || (m =? 1) then cont (ROk tt s l)
  else if m =? 220 then cont (skip_variable s l)
  else RErr JERR_UNKNOWN_MARKER s.
(* jdmarker.c:967-1126 read_markers: one iteration per marker; each consumes input *)
Fixpoint read_loop (fuel : nat) (s : rst) (l : list Z) : rr reached :=
  match fuel with
  | O => RUb
  | S f =>
    let go (s : rst) (l : list Z) : rr reached :=
      match process_marker s l with
      | ROk None s l => read_loop f s l
      | ROk (Some r) s l => ROk r s l
      | RSusp s l => RSusp s l
      | RErr e s => RErr e s
      | RUb => RUb
      end in
    if unread s =? 0 then
      match (if saw_SOI s then next_marker s l else first_marker s l) with
      | ROk _ s l => go s l
      | RSusp s l => RSusp s l
      | RErr e s => RErr e s
      | RUb => RUb
      end
    else go s l
  end.
Definition read_markers (s : rst) (l : list Z) : rr reached := read_loop (2 + length l) s l.

(* the application supplies more input after a suspension: l = bytes after the restart point still held *)
Definition feed (s : rst) (l f : list Z) : rst * list Z :=
  if skip s <=? Z.of_nat (length f) then (set_skip s 0, l ++ skipn (Z.to_nat (skip s)) f)
  else (set_skip s (skip s - Z.of_nat (length f)), l).

(* jdmarker.c:1265-1278 reset_marker_reader (also called by jpeg_abort / jpeg_finish / jpeg_read_header restart; jpeg_abort frees
   the image pool, which holds marker_list) *)
Definition reset_marker_reader (s : rst) : rst :=
  set_cur_marker (set_disc (set_saw_SOF (set_saw_SOI (set_unread (set_scan_no (set_comps s None) 0) 0) false) false) 0) None.
(* jdmarker.c:1323-1364 jpeg_save_markers; max_alloc_chunk = 10^9 *)
Definition jpeg_save_markers (marker_code length_limit : Z) (s : rst) : outcome rst :=
  let maxlength := 1000000000 - 32 in
  let length_limit := if maxlength <? length_limit then maxlength else length_limit in
  let '(processor, length_limit) :=
    if negb (length_limit =? 0) then
      (2, if (marker_code =? 224) && (length_limit <? 14) then 14 else if (marker_code =? 238) && (length_limit <? 12) then 12 else length_limit)
    else (if (marker_code =? 224) || (marker_code =? 238) then 1 else 0, length_limit) in
  if marker_code =? 254 then Ret (set_lim_com (set_proc_com s processor) length_limit)
  else if in_range 224 239 marker_code then
    p <- aset (proc_app s) (marker_code - 224) processor ;;
    q <- aset (lim_app s) (marker_code - 224) length_limit ;;
    Ret (set_lim_app (set_proc_app s p) q)
  else Error JERR_UNKNOWN_MARKER.
(* jpeg_create_decompress zeroes the object (jdapimin.c:60-72); jdmarker.c:1286-1318 jinit_marker_reader *)
Definition init_rst : rst := mkR false false 0 0 (repeat None 4) (repeat None 4) (repeat None 4) (repeat 0 16) (repeat 0 16) (repeat 0 16) 0
  false false false 0 0 0 0 None 0 (repeat None 4) 0 0 0 0 0 0 false 0 0 0 0 0 false 0
  0 [1; 0; 0; 0; 0; 0; 0; 0; 0; 0; 0; 0; 0; 0; 1; 0] 0 (repeat 0 16) None [] 0.
