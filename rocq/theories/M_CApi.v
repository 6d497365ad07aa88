(* M_CApi.v -- the public compressor entry points of jcapimin.c, jcapistd.c,
   jctrans.c, jcparam.c, jcicc.c as a state machine, together with the row
   counting of the main controller (jcmainct.c) and of the preprocessing
   controller (jcprepct.c).  What the coefficient controller does with a
   complete iMCU row is not modelled here: each compress_data call takes its
   answer (TRUE = done, FALSE = suspended) from an arbitrary oracle. *)
From Verif Require Import Base.
Open Scope nat_scope.

(* jpegint.h:53-56 and 0 = destroyed (jcomapi.c:86) *)
Inductive cstate := CSTATE_DESTROYED | CSTATE_START | CSTATE_SCANNING | CSTATE_RAW_OK | CSTATE_WRCOEFS.
Definition cstate_eqb (a b : cstate) : bool :=
  match a, b with
  | CSTATE_DESTROYED, CSTATE_DESTROYED | CSTATE_START, CSTATE_START
  | CSTATE_SCANNING, CSTATE_SCANNING | CSTATE_RAW_OK, CSTATE_RAW_OK
  | CSTATE_WRCOEFS, CSTATE_WRCOEFS => true
  | _, _ => false
  end.

(* one scanline of application samples *)
Definition row := list Z.

(* Observable actions, in the order in which they happen *)
Inductive event :=
| EvInitDest                       (* init_destination *)
| EvHeaders                        (* frame and scan header (pass_startup) *)
| EvMarker                         (* a special marker header *)
| EvTables                         (* abbreviated table file *)
| EvConv (slot : nat) (r : row)    (* scanline r colour-converted into color_buf slot *)
| EvGroup (buf : list row)         (* color_buf handed to the downsampler *)
| EvPadOut (from to : nat)         (* bottom padding of the downsampled iMCU row *)
| EvIMCU                           (* compress_data accepted an iMCU row *)
| EvSuspend                        (* compress_data returned FALSE *)
| EvPass                           (* a further pass completed *)
| EvEOI                            (* file trailer *)
| EvTerm                           (* term_destination *)
| EvParam.                         (* a parameter was changed *)

(* Parameters of the image, constant between start and finish: image_height,
   max_v_samp_factor, data_unit (DCTSIZE or 1), total_iMCU_rows, raw_data_in,
   lossless, need_context_rows, data_precision, number of passes after the
   first, whether the first pass delays its headers (call_pass_startup) *)
Record cfg := mkCfg { c_h : nat; c_v : nat; c_du : nat; c_rows : nat; c_raw : bool;
                      c_lossless : bool; c_context : bool; c_prec : nat;
                      c_passes : nat; c_delay : bool; c_nsl : nat }.

(* jcmainct.c:35-49 and jcprepct.c:61-77 *)
Record mainc := mkMain { m_cur : nat; m_rg : nat; m_susp : bool }.
Record prepc := mkPrep { p_togo : nat; p_nbr : nat; p_tg : nat; p_stop : nat;
                         p_buf : list row }.

Record cobj := mkC { k_st : cstate; k_next : nat; k_cfg : cfg; k_main : mainc;
                     k_prep : prepc; k_startup : bool; k_opt : bool;
                     k_orc : list bool; k_warn : nat; k_log : list event }.

(* a call returns, raises an error leaving the object in a given state, or is undefined *)
Inductive res (A : Type) :=
| ROk (a : A) (s : cobj) | RErr (e : jerr) (s : cobj) | RUndef.
Arguments ROk {A}. Arguments RErr {A}. Arguments RUndef {A}.

Definition put (s : cobj) (e : event) : cobj :=
  mkC (k_st s) (k_next s) (k_cfg s) (k_main s) (k_prep s) (k_startup s) (k_opt s)
      (k_orc s) (k_warn s) (k_log s ++ [e]).
Definition set_st (s : cobj) (st : cstate) : cobj :=
  mkC st (k_next s) (k_cfg s) (k_main s) (k_prep s) (k_startup s) (k_opt s)
      (k_orc s) (k_warn s) (k_log s).
Definition set_next (s : cobj) (n : nat) : cobj :=
  mkC (k_st s) n (k_cfg s) (k_main s) (k_prep s) (k_startup s) (k_opt s)
      (k_orc s) (k_warn s) (k_log s).
Definition set_opt (s : cobj) (b : bool) : cobj :=
  mkC (k_st s) (k_next s) (k_cfg s) (k_main s) (k_prep s) (k_startup s) b
      (k_orc s) (k_warn s) (k_log s).
Definition set_startup (s : cobj) (b : bool) : cobj :=
  mkC (k_st s) (k_next s) (k_cfg s) (k_main s) (k_prep s) b (k_opt s)
      (k_orc s) (k_warn s) (k_log s).
Definition warn (s : cobj) : cobj :=
  mkC (k_st s) (k_next s) (k_cfg s) (k_main s) (k_prep s) (k_startup s) (k_opt s)
      (k_orc s) (S (k_warn s)) (k_log s).

(* ------------------------------------------------------------------ *)
(* jcprepct.c:110-124 expand_bottom_edge on one component's row list:
   rows [from, to) become copies of row from-1 *)
Definition expand_bottom (buf : list row) (from to : nat) : list row :=
  firstn from buf ++ repeat (nth (from - 1) buf []) (to - from) ++ skipn to buf.

(* _color_convert (input_buf + in_row_ctr, color_buf, next_buf_row, numrows):
   the rows are stored at slot, slot+1, ...; the samples themselves are the
   subject of C12 and are carried unconverted *)
Fixpoint store (buf : list row) (slot : nat) (rs : list row) : list row :=
  match rs with [] => buf | r :: t => store (upd buf slot r) (S slot) t end.
Fixpoint conv_events (slot : nat) (rs : list row) : list event :=
  match rs with [] => [] | r :: t => EvConv slot r :: conv_events (S slot) t end.

(* state threaded through preprocessing: prep, in_row_ctr, rowgroup_ctr, log *)
Record pp := mkPP { pp_prep : prepc; pp_in : nat; pp_rg : nat; pp_log : list event }.

(* jcprepct.c:136-198 pre_process_data, one iteration of the while loop.
   The boolean says whether the loop goes on. *)
Definition pre_process_iter (c : cfg) (input : list row) (avail rgavail : nat) (q : pp) : pp * bool :=
  let p := pp_prep q in
  let inrows := avail - pp_in q in
  let numrows := Nat.min (c_v c - p_nbr p) inrows in
  let rs := firstn numrows (skipn (pp_in q) input) in
  let buf := store (p_buf p) (p_nbr p) rs in
  let log := pp_log q ++ conv_events (p_nbr p) rs in
  let inrow := pp_in q + numrows in
  let nbr := p_nbr p + numrows in
  let togo := p_togo p - numrows in
  let '(buf, nbr) :=
    if (togo =? 0) && (nbr <? c_v c) then (expand_bottom buf nbr (c_v c), c_v c) else (buf, nbr) in
  let '(nbr, rg, log) :=
    if nbr =? c_v c then (0, S (pp_rg q), log ++ [EvGroup buf]) else (nbr, pp_rg q, log) in
  let p' := mkPrep togo nbr (p_tg p) (p_stop p) buf in
  if (togo =? 0) && (rg <? rgavail) then
    (mkPP p' inrow rgavail (log ++ [EvPadOut rg rgavail]), false)
  else (mkPP p' inrow rg log, true).

Fixpoint pre_process_data (fuel : nat) (c : cfg) (input : list row) (avail rgavail : nat) (q : pp)
  : outcome pp :=
  if (pp_in q <? avail) && (pp_rg q <? rgavail) then
    match fuel with
    | O => Undef
    | S f => match pre_process_iter c input avail rgavail q with
             | (q', true) => pre_process_data f c input avail rgavail q'
             | (q', false) => Ret q'
             end
    end
  else Ret q.

(* jcprepct.c:207-270 pre_process_context.  color_buf is the three-row-group
   ring; the wrapped-around row pointers above and below it (279-322) alias the
   same rows, so the padding at the top of the image (236-244: rows -1..-v =
   ring rows 3v-1..2v) writes ring slots 3v-row. *)
Definition pre_context_iter (c : cfg) (input : list row) (avail : nat) (q : pp) : pp * bool :=
  let p := pp_prep q in
  let ph1 : option (prepc * nat * list event) :=
    if pp_in q <? avail then
      let inrows := avail - pp_in q in
      let numrows := Nat.min (p_stop p - p_nbr p) inrows in
      let rs := firstn numrows (skipn (pp_in q) input) in
      let buf := store (p_buf p) (p_nbr p) rs in
      let buf := if p_togo p =? c_h c
                 then store buf (2 * c_v c) (repeat (nth 0 buf []) (c_v c)) else buf in
      Some (mkPrep (p_togo p - numrows) (p_nbr p + numrows) (p_tg p) (p_stop p) buf,
            pp_in q + numrows, pp_log q ++ conv_events (p_nbr p) rs)
    else if negb (p_togo p =? 0) then None
    else
      if p_nbr p <? p_stop p then
        Some (mkPrep (p_togo p) (p_stop p) (p_tg p) (p_stop p)
                     (expand_bottom (p_buf p) (p_nbr p) (p_stop p)), pp_in q, pp_log q)
      else Some (p, pp_in q, pp_log q) in
  match ph1 with
  | None => (q, false)
  | Some (p, inrow, log) =>
    if p_nbr p =? p_stop p then
      let tg := p_tg p + c_v c in
      let tg := if c_v c * 3 <=? tg then 0 else tg in
      let nbr := if c_v c * 3 <=? p_nbr p then 0 else p_nbr p in
      (mkPP (mkPrep (p_togo p) nbr tg (nbr + c_v c) (p_buf p)) inrow (S (pp_rg q))
            (log ++ [EvGroup (p_buf p)]), true)
    else (mkPP p inrow (pp_rg q) log, true)
  end.

Fixpoint pre_process_context (fuel : nat) (c : cfg) (input : list row) (avail rgavail : nat) (q : pp)
  : outcome pp :=
  if pp_rg q <? rgavail then
    match fuel with
    | O => Undef
    | S f => match pre_context_iter c input avail q with
             | (q', true) => pre_process_context f c input avail rgavail q'
             | (q', false) => Ret q'
             end
    end
  else Ret q.

Definition pre_process (c : cfg) (input : list row) (avail rgavail : nat) (q : pp) : outcome pp :=
  let fuel := (avail - pp_in q) + (rgavail - pp_rg q) in
  if c_context c then pre_process_context fuel c input avail rgavail q
  else pre_process_data fuel c input avail rgavail q.

(* state threaded through process_data_simple_main *)
Record md := mkMD { d_main : mainc; d_prep : prepc; d_in : Z; d_orc : list bool; d_log : list event }.

(* jcmainct.c:82-131 process_data_simple_main; in_row_ctr is a JDIMENSION and
   is decremented, so it is carried as an integer and a negative value is
   reported as undefined (it would wrap to 2^32-1).  The fuel is the number of
   remaining iMCU rows, the exact bound of the while loop. *)
Fixpoint process_data (n : nat) (c : cfg) (input : list row) (avail : nat) (d : md) : outcome md :=
  let m := d_main d in
  if m_cur m <? c_rows c then
    match n with
    | O => Undef
    | S n' =>
      (if (d_in d <? 0)%Z then Undef else
       q <- (let q := mkPP (d_prep d) (Z.to_nat (d_in d)) (m_rg m) (d_log d) in
             if m_rg m <? c_du c then pre_process c input avail (c_du c) q else Ret q) ;;
       if negb (pp_rg q =? c_du c) then
         Ret (mkMD (mkMain (m_cur m) (pp_rg q) (m_susp m)) (pp_prep q) (Z.of_nat (pp_in q))
                   (d_orc d) (pp_log q))
       else if negb (hd true (d_orc d)) then
         Ret (mkMD (mkMain (m_cur m) (pp_rg q) true) (pp_prep q)
                   (if m_susp m then Z.of_nat (pp_in q) else Z.of_nat (pp_in q) - 1)%Z
                   (tl (d_orc d)) (pp_log q ++ [EvSuspend]))
       else
         process_data n' c input avail
           (mkMD (mkMain (S (m_cur m)) 0 false) (pp_prep q)
                 (if m_susp m then Z.of_nat (pp_in q) + 1 else Z.of_nat (pp_in q))%Z
                 (tl (d_orc d)) (pp_log q ++ [EvIMCU])))
    end
  else Ret d.

(* jcmaster.c:728-735 pass_startup *)
Definition pass_startup (s : cobj) : cobj := put (set_startup s false) EvHeaders.

(* jcapistd.c:89-135 jpeg_write_scanlines (num_lines = length of the array);
   the library instance handles precision [prec] *)
Definition write_scanlines (prec : nat) (scan : list row) (s : cobj) : res nat :=
  let c := k_cfg s in
  if negb (c_prec c =? prec) then RErr JERR_BAD_PRECISION s
  else if negb (cstate_eqb (k_st s) CSTATE_SCANNING) then RErr JERR_BAD_STATE s
  else
    let s := if c_h c <=? k_next s then warn s else s in
    let s := if k_startup s then pass_startup s else s in
    let rows_left := c_h c - k_next s in
    let num_lines := Nat.min (length scan) rows_left in
    match process_data (c_rows c) c scan num_lines
            (mkMD (k_main s) (k_prep s) 0 (k_orc s) (k_log s)) with
    | Ret d =>
      if (d_in d <? 0)%Z then RUndef else
      ROk (Z.to_nat (d_in d))
          (mkC (k_st s) (k_next s + Z.to_nat (d_in d)) c (d_main d) (d_prep d) (k_startup s)
               (k_opt s) (d_orc d) (k_warn s) (d_log d))
    | Error e => RErr e s
    | Undef => RUndef
    end.

(* jcapistd.c:144-201 jpeg_write_raw_data; [data] stands for the sample array,
   num_lines is its declared height *)
Definition write_raw_data (prec : nat) (num_lines : nat) (s : cobj) : res nat :=
  let c := k_cfg s in
  if negb (c_prec c =? prec) then RErr JERR_BAD_PRECISION s
  else if cstate_eqb (k_st s) CSTATE_DESTROYED then RUndef  (* master already freed *)
  else if c_lossless c then RErr JERR_NOTIMPL s
  else if negb (cstate_eqb (k_st s) CSTATE_RAW_OK) then RErr JERR_BAD_STATE s
  else if c_h c <=? k_next s then ROk 0 (warn s)
  else
    let s := if k_startup s then pass_startup s else s in
    let lines := c_v c * 8 in
    if num_lines <? lines then RErr JERR_BUFFER_SIZE s
    else
      let more b ev k n :=
        ROk n (mkC (k_st s) k c (k_main s) (k_prep s) (k_startup s) (k_opt s)
                   (tl (k_orc s)) (k_warn s) (k_log s ++ [ev])) in
      if hd true (k_orc s) then more true EvIMCU (k_next s + lines) lines
      else more false EvSuspend (k_next s) 0.

(* jcapistd.c:44-71 jpeg_start_compress.  Selecting and initialising the modules
   (jinit_compress_master, prepare_for_pass -> start_pass_main jcmainct.c:56-75,
   start_pass_prep jcprepct.c:85-104) is represented by its effect on the
   fields modelled here. *)
Definition start_compress (s : cobj) : res unit :=
  if negb (cstate_eqb (k_st s) CSTATE_START) then RErr JERR_BAD_STATE s
  else
    let c := k_cfg s in
    ROk tt (mkC (if c_raw c then CSTATE_RAW_OK else CSTATE_SCANNING) 0 c
                (mkMain 0 0 false)
                (mkPrep (c_h c) 0 0 (2 * c_v c) (repeat [] (if c_context c then 3 * c_v c else c_v c)))
                (c_delay c) (if c_nsl c =? 0 then false else k_opt s)
                (k_orc s) 0 (k_log s ++ [EvInitDest])).

(* jctrans.c:44-69 jpeg_write_coefficients *)
Definition write_coefficients (s : cobj) : res unit :=
  if cstate_eqb (k_st s) CSTATE_DESTROYED then RUndef      (* master already freed *)
  else if c_lossless (k_cfg s) then RErr JERR_NOTIMPL s
  else
    let s := if c_nsl (k_cfg s) =? 0 then set_opt s false else s in
    if negb (cstate_eqb (k_st s) CSTATE_START) then RErr JERR_BAD_STATE s
    else ROk tt (put (set_st (set_next s 0) CSTATE_WRCOEFS) EvInitDest).

(* jcomapi.c:29-58 jpeg_abort, 73-82 jpeg_destroy *)
Definition abort (s : cobj) : res unit :=
  match k_st s with
  | CSTATE_DESTROYED => ROk tt s
  | _ => ROk tt (set_st s CSTATE_START)
  end.
Definition destroy (s : cobj) : res unit := ROk tt (set_st s CSTATE_DESTROYED).

(* jcapimin.c:191-222: remaining passes, each of total_iMCU_rows compress_data calls *)
Fixpoint pass_rows (n : nat) (s : cobj) : res unit :=
  match n with
  | O => ROk tt s
  | S n' =>
    if hd true (k_orc s) then
      pass_rows n' (mkC (k_st s) (k_next s) (k_cfg s) (k_main s) (k_prep s) (k_startup s) (k_opt s)
                        (tl (k_orc s)) (k_warn s) (k_log s))
    else RErr JERR_CANT_SUSPEND
              (mkC (k_st s) (k_next s) (k_cfg s) (k_main s) (k_prep s) (k_startup s) (k_opt s)
                   (tl (k_orc s)) (k_warn s) (k_log s))
  end.
Fixpoint passes (n : nat) (s : cobj) : res unit :=
  match n with
  | O => ROk tt s
  | S n' => match pass_rows (c_rows (k_cfg s)) s with
            | ROk _ s' => passes n' (put s' EvPass)
            | r => r
            end
  end.

(* jcapimin.c:177-229 jpeg_finish_compress *)
Definition finish_compress (s : cobj) : res unit :=
  let body (s : cobj) (n : nat) :=
    match passes n s with
    | ROk _ s' => abort (put (put s' EvEOI) EvTerm)
    | r => r
    end in
  match k_st s with
  | CSTATE_SCANNING | CSTATE_RAW_OK =>
    if k_next s <? c_h (k_cfg s) then RErr JERR_TOO_LITTLE_DATA s
    else body s (c_passes (k_cfg s))
  | CSTATE_WRCOEFS => body s (S (c_passes (k_cfg s)))
  | _ => RErr JERR_BAD_STATE s
  end.

(* jcapimin.c:239-271 jpeg_write_marker, jpeg_write_m_header: the state check *)
Definition write_marker (s : cobj) : res unit :=
  if negb (k_next s =? 0)
     || (negb (cstate_eqb (k_st s) CSTATE_SCANNING) && negb (cstate_eqb (k_st s) CSTATE_RAW_OK)
         && negb (cstate_eqb (k_st s) CSTATE_WRCOEFS))
  then RErr JERR_BAD_STATE s
  else ROk tt (put s EvMarker).

(* jcicc.c:49-105 jpeg_write_icc_profile with a profile of at least one byte:
   global_state < CSTATE_SCANNING, then a jpeg_write_m_header per chunk *)
Fixpoint icc_chunks (n : nat) (s : cobj) : res unit :=
  match n with
  | O => ROk tt s
  | S n' => match write_marker s with ROk _ s' => icc_chunks n' s' | r => r end
  end.
Definition write_icc (chunks : nat) (s : cobj) : res unit :=
  match k_st s with
  | CSTATE_DESTROYED | CSTATE_START => RErr JERR_BAD_STATE s
  | _ => icc_chunks chunks s
  end.

(* jcapimin.c:301-331 jpeg_write_tables *)
Definition write_tables (s : cobj) : res unit :=
  if negb (cstate_eqb (k_st s) CSTATE_START) then RErr JERR_BAD_STATE s
  else ROk tt (put (put (put s EvInitDest) EvTables) EvTerm).

(* jcparam.c:45,392,589,744,872,1020 (jpeg_add_quant_table, jpeg_set_defaults,
   jpeg_set_colorspace, jpeg_simple_progression, jpeg_enable_lossless, ...) and
   jctrans.c:80-88 (jpeg_copy_critical_parameters): all begin with this test.
   The parameter change itself is reduced to an event. *)
Definition set_params (s : cobj) : res unit :=
  if negb (cstate_eqb (k_st s) CSTATE_START) then RErr JERR_BAD_STATE s
  else ROk tt (put s EvParam).

Inductive call :=
| Start | Scanlines (rows : list row) | RawData (num_lines : nat) | Coefficients
| Finish | Marker | IccProfile (chunks : nat) | Tables | SetParams | Abort | Destroy.

Definition forget {A} (r : res A) : res unit :=
  match r with ROk _ s => ROk tt s | RErr e s => RErr e s | RUndef => RUndef end.

(* dispatcher *)
Definition do_call (prec : nat) (cl : call) (s : cobj) : res unit :=
  match cl with
  | Start => start_compress s
  | Scanlines r => forget (write_scanlines prec r s)
  | RawData n => forget (write_raw_data prec n s)
  | Coefficients => write_coefficients s
  | Finish => finish_compress s
  | Marker => write_marker s
  | IccProfile n => write_icc n s
  | Tables => write_tables s
  | SetParams => set_params s
  | Abort => abort s
  | Destroy => destroy s
  end.

(* jcapimin.c:36-107 jpeg_CreateCompress followed by the application filling in
   the image parameters *)
Definition create (c : cfg) (opt : bool) (orc : list bool) : cobj :=
  mkC CSTATE_START 0 c (mkMain 0 0 false) (mkPrep 0 0 0 0 []) false opt orc 0 [].
