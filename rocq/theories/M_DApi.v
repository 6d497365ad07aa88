(* M_DApi.v -- the public decompressor entry points of jdapimin.c, jdapistd.c,
   jdtrans.c, jdmaster.c, jdicc.c as a state machine on top of the main
   controller of M_DMain.  What the input controller finds in the datastream is
   an arbitrary oracle (one answer per consume_input call); so is whether a
   dummy (colour quantisation) pass completes, and whether decompress_data
   suspends.  decompress_data's own calls of consume_input in multiscan mode
   (jdcoefct.c:345-356) are not taken from the input oracle.
   jpeg_skip_scanlines and jpeg_crop_scanline are not modelled. *)
From Verif Require Import Base M_DMain.
Open Scope nat_scope.

(* jpegint.h:57-67 and 0 = destroyed (jcomapi.c:86) *)
Inductive dstate := DSTATE_DESTROYED | DSTATE_START | DSTATE_INHEADER | DSTATE_READY | DSTATE_PRELOAD
  | DSTATE_PRESCAN | DSTATE_SCANNING | DSTATE_RAW_OK | DSTATE_BUFIMAGE | DSTATE_BUFPOST
  | DSTATE_RDCOEFS | DSTATE_STOPPING.
Definition code (s : dstate) : Z :=
  match s with
  | DSTATE_DESTROYED => 0 | DSTATE_START => 200 | DSTATE_INHEADER => 201 | DSTATE_READY => 202
  | DSTATE_PRELOAD => 203 | DSTATE_PRESCAN => 204 | DSTATE_SCANNING => 205 | DSTATE_RAW_OK => 206
  | DSTATE_BUFIMAGE => 207 | DSTATE_BUFPOST => 208 | DSTATE_RDCOEFS => 209 | DSTATE_STOPPING => 210
  end%Z.
Definition is (a b : dstate) : bool := (code a =? code b)%Z.

(* what one consume_input call finds *)
Inductive iret := JPEG_SUSPENDED | JPEG_REACHED_SOS | JPEG_REACHED_EOI | JPEG_ROW_COMPLETED
  | JPEG_SCAN_COMPLETED | InputError (e : jerr).

(* the decompressor object; x_multi / x_lossless / x_prec / x_cfg stand for what
   the header says *)
Record dobj := mkO { x_st : dstate; x_buffered : bool; x_raw : bool; x_eoi : bool; x_inscan : Z; x_outscan : Z;
  x_multi : bool; x_lossless : bool; x_prec : nat; x_cfg : dcfg; x_oscan : nat; x_pass : dst;
  x_in : list iret; x_dummy : list bool; x_warn : nat }.

Inductive res (A : Type) := ROk (a : A) (s : dobj) | RErr (e : jerr) (s : dobj) | RUndef.
Arguments ROk {A}. Arguments RErr {A}. Arguments RUndef {A}.

Definition set_st (s : dobj) (st : dstate) : dobj :=
  mkO st (x_buffered s) (x_raw s) (x_eoi s) (x_inscan s) (x_outscan s) (x_multi s) (x_lossless s) (x_prec s)
      (x_cfg s) (x_oscan s) (x_pass s) (x_in s) (x_dummy s) (x_warn s).
Definition set_flags (s : dobj) (buf raw : bool) : dobj :=
  mkO (x_st s) buf raw (x_eoi s) (x_inscan s) (x_outscan s) (x_multi s) (x_lossless s) (x_prec s)
      (x_cfg s) (x_oscan s) (x_pass s) (x_in s) (x_dummy s) (x_warn s).
Definition set_input (s : dobj) (eoi : bool) (isc osc : Z) (l : list iret) : dobj :=
  mkO (x_st s) (x_buffered s) (x_raw s) eoi isc osc (x_multi s) (x_lossless s) (x_prec s)
      (x_cfg s) (x_oscan s) (x_pass s) l (x_dummy s) (x_warn s).
Definition set_out (s : dobj) (n : nat) (p : dst) : dobj :=
  mkO (x_st s) (x_buffered s) (x_raw s) (x_eoi s) (x_inscan s) (x_outscan s) (x_multi s) (x_lossless s) (x_prec s)
      (x_cfg s) n p (x_in s) (x_dummy s) (x_warn s).
Definition set_dummy (s : dobj) (l : list bool) : dobj :=
  mkO (x_st s) (x_buffered s) (x_raw s) (x_eoi s) (x_inscan s) (x_outscan s) (x_multi s) (x_lossless s) (x_prec s)
      (x_cfg s) (x_oscan s) (x_pass s) (x_in s) l (x_warn s).
Definition warn (s : dobj) : dobj :=
  mkO (x_st s) (x_buffered s) (x_raw s) (x_eoi s) (x_inscan s) (x_outscan s) (x_multi s) (x_lossless s) (x_prec s)
      (x_cfg s) (x_oscan s) (x_pass s) (x_in s) (x_dummy s) (S (x_warn s)).

(* inputctl->consume_input: jdinput.c:326-369 for the markers.  After
   EOI nothing is read.  An exhausted oracle suspends. *)
Definition consume (s : dobj) : res iret :=
  if x_eoi s then ROk JPEG_REACHED_EOI s
  else match x_in s with
       | [] => ROk JPEG_SUSPENDED s
       | InputError e :: t => RErr e (set_input s false (x_inscan s) (x_outscan s) t)
       | JPEG_REACHED_EOI :: t =>
         ROk JPEG_REACHED_EOI
           (set_input s true (x_inscan s) (Z.min (x_outscan s) (x_inscan s)) t)
       | JPEG_REACHED_SOS :: t =>
         ROk JPEG_REACHED_SOS (set_input s false (x_inscan s + 1)%Z (x_outscan s) t)
       | r :: t => ROk r (set_input s false (x_inscan s) (x_outscan s) t)
       end.

(* jcomapi.c:29-57 jpeg_abort and 74-87 jpeg_destroy *)
Definition abort (s : dobj) : dobj :=
  match x_st s with DSTATE_DESTROYED => s | _ => set_st s DSTATE_START end.
Definition destroy (s : dobj) : dobj := set_st s DSTATE_DESTROYED.

(* jdapimin.c:309-350 jpeg_consume_input (default_decompress_parms clears
   buffered_image and raw_data_out, 218-219) *)
Definition consume_input (s : dobj) : res iret :=
  let header s :=
    match consume s with
    | ROk JPEG_REACHED_SOS s => ROk JPEG_REACHED_SOS (set_st (set_flags s false false) DSTATE_READY)
    | r => r
    end in
  match x_st s with
  | DSTATE_START => header (set_st (set_input s false 0%Z (x_outscan s) (x_in s)) DSTATE_INHEADER)
  | DSTATE_INHEADER => header s
  | DSTATE_READY => ROk JPEG_REACHED_SOS s
  | DSTATE_PRELOAD | DSTATE_PRESCAN | DSTATE_SCANNING | DSTATE_RAW_OK | DSTATE_BUFIMAGE | DSTATE_BUFPOST
  | DSTATE_STOPPING => consume s
  | _ => RErr JERR_BAD_STATE s
  end.

Inductive hret := HEADER_OK | HEADER_TABLES_ONLY | HEADER_SUSPENDED.
(* jdapimin.c:265-296 jpeg_read_header; other return codes of consume_input do
   not occur before the first SOS and are passed through (as HEADER_SUSPENDED) *)
Definition read_header (require_image : bool) (s : dobj) : res hret :=
  if negb (is (x_st s) DSTATE_START) && negb (is (x_st s) DSTATE_INHEADER) then RErr JERR_BAD_STATE s
  else match consume_input s with
       | ROk JPEG_REACHED_SOS s => ROk HEADER_OK s
       | ROk JPEG_REACHED_EOI s =>
         if require_image then RErr JERR_NO_IMAGE s else ROk HEADER_TABLES_ONLY (abort s)
       | ROk _ s => ROk HEADER_SUSPENDED s
       | RErr e s => RErr e s
       | RUndef => RUndef
       end.

(* jdapimin.c:353-366 and 369-382 *)
Definition input_complete (s : dobj) : res bool :=
  if (code (x_st s) <? code DSTATE_START)%Z || (code DSTATE_STOPPING <? code (x_st s))%Z
  then RErr JERR_BAD_STATE s else ROk (x_eoi s) s.
Definition has_multiple_scans (s : dobj) : res bool :=
  if (code (x_st s) <? code DSTATE_READY)%Z || (code DSTATE_STOPPING <? code (x_st s))%Z
  then RErr JERR_BAD_STATE s else ROk (x_multi s) s.

(* jdapistd.c:103-169 output_pass_setup; each dummy pass takes its answer
   (completed / no progress) from x_dummy, an empty list meaning that there is
   no dummy pass.  prepare_for_output_pass restarts the main controller
   (jdmaster.c:700-796, jdmainct.c:262-294) at iMCU row 0. *)
Definition output_pass_setup (s : dobj) : res bool :=
  let s := if is (x_st s) DSTATE_PRESCAN then s
           else set_st (set_out s 0 (start_pass (x_cfg s) (d_main (x_pass s)) (d_orc (x_pass s)))) DSTATE_PRESCAN in
  match x_dummy s with
  | false :: t => ROk false (set_dummy s t)
  | _ =>
    let s := match x_dummy s with
             | true :: t =>
               set_out (set_dummy s t) 0 (start_pass (x_cfg s) (d_main (x_pass s)) (d_orc (x_pass s)))
             | _ => s
             end in
    ROk true (set_st s (if x_raw s then DSTATE_RAW_OK else DSTATE_SCANNING))
  end.

(* the input loop of jpeg_start_decompress (65-88) and jpeg_read_coefficients
   (60-78): until suspension or EOI *)
Fixpoint absorb (l : list iret) (s : dobj) : res bool :=
  match consume s with
  | ROk JPEG_SUSPENDED s => ROk false s
  | ROk JPEG_REACHED_EOI s => ROk true s
  | ROk _ s => match l with [] => RUndef | _ :: t => absorb t s end
  | RErr e s => RErr e s
  | RUndef => RUndef
  end.

(* jdapistd.c:51-96 jpeg_start_decompress *)
Definition start_decompress (s : dobj) : res bool :=
  let preload s :=
    match (if x_multi s then absorb (x_in s) s else ROk true s) with
    | ROk true s => output_pass_setup (set_input s (x_eoi s) (x_inscan s) (x_inscan s) (x_in s))
    | r => r
    end in
  match x_st s with
  | DSTATE_READY =>
    if x_buffered s then ROk true (set_st s DSTATE_BUFIMAGE) else preload (set_st s DSTATE_PRELOAD)
  | DSTATE_PRELOAD => preload s
  | DSTATE_PRESCAN => output_pass_setup s
  | _ => RErr JERR_BAD_STATE s
  end.

(* jdapistd.c:320-352 _jpeg_read_scanlines of the library for precision prec *)
Definition read_scanlines (prec max_lines : nat) (s : dobj) : res nat :=
  if negb (x_prec s =? prec) then RErr JERR_BAD_PRECISION s
  else if negb (is (x_st s) DSTATE_SCANNING) then RErr JERR_BAD_STATE s
  else if g_O (x_cfg s) <=? x_oscan s then ROk 0 (warn s)
  else match process_data (x_cfg s) (x_pass s) max_lines with
       | Ret (p, n) => ROk n (set_out s (x_oscan s + n) p)
       | Error e => RErr e s
       | Undef => RUndef
       end.

(* jdapistd.c:661-702 _jpeg_read_raw_data.  cinfo->master is dereferenced before
   the state test; on a destroyed object it points to freed memory. *)
Definition read_raw_data (prec max_lines : nat) (s : dobj) : res nat :=
  if negb (x_prec s =? prec) then RErr JERR_BAD_PRECISION s
  else if is (x_st s) DSTATE_DESTROYED then RUndef
  else if x_lossless s then RErr JERR_NOTIMPL s
  else if negb (is (x_st s) DSTATE_RAW_OK) then RErr JERR_BAD_STATE s
  else if g_O (x_cfg s) <=? x_oscan s then ROk 0 (warn s)
  else
    let per := g_v (x_cfg s) * g_M (x_cfg s) in
    let p := x_pass s in
    if max_lines <? per then RErr JERR_BUFFER_SIZE s
    else if hd true (d_orc p)
         then ROk per (set_out s (x_oscan s + per)
                        (mkD (d_main p) (d_ups p) (tl (d_orc p)) (S (d_row p)) (d_lines p)))
         else ROk 0 (set_out s (x_oscan s) (mkD (d_main p) (d_ups p) (tl (d_orc p)) (d_row p) (d_lines p))).

(* jdapistd.c:716-730 jpeg_start_output *)
Definition start_output (n : Z) (s : dobj) : res bool :=
  if negb (is (x_st s) DSTATE_BUFIMAGE) && negb (is (x_st s) DSTATE_PRESCAN) then RErr JERR_BAD_STATE s
  else
    let n := if (n <=? 0)%Z then 1%Z else n in
    let n := if x_eoi s && (x_inscan s <? n)%Z then x_inscan s else n in
    output_pass_setup (set_input s (x_eoi s) (x_inscan s) n (x_in s)).

(* jdapistd.c:740-765 jpeg_finish_output *)
Fixpoint seek_scan (l : list iret) (s : dobj) : res bool :=
  if (x_inscan s <=? x_outscan s)%Z && negb (x_eoi s) then
    match consume s with
    | ROk JPEG_SUSPENDED s => ROk false s
    | ROk _ s => match l with [] => RUndef | _ :: t => seek_scan t s end
    | RErr e s => RErr e s
    | RUndef => RUndef
    end
  else ROk true s.
Definition finish_output (s : dobj) : res bool :=
  let body s :=
    match seek_scan (x_in s) s with
    | ROk true s => ROk true (set_st s DSTATE_BUFIMAGE)
    | r => r
    end in
  if (is (x_st s) DSTATE_SCANNING || is (x_st s) DSTATE_RAW_OK) && x_buffered s
  then body (set_st s DSTATE_BUFPOST)
  else if negb (is (x_st s) DSTATE_BUFPOST) then RErr JERR_BAD_STATE s
  else body s.

(* jdapimin.c:392-423 jpeg_finish_decompress *)
Fixpoint seek_eoi (l : list iret) (s : dobj) : res bool :=
  if negb (x_eoi s) then
    match consume s with
    | ROk JPEG_SUSPENDED s => ROk false s
    | ROk _ s => match l with [] => RUndef | _ :: t => seek_eoi t s end
    | RErr e s => RErr e s
    | RUndef => RUndef
    end
  else ROk true s.
Definition finish_decompress (s : dobj) : res bool :=
  let body s :=
    match seek_eoi (x_in s) s with
    | ROk true s => ROk true (abort s)
    | r => r
    end in
  if (is (x_st s) DSTATE_SCANNING || is (x_st s) DSTATE_RAW_OK) && negb (x_buffered s)
  then if x_oscan s <? g_O (x_cfg s) then RErr JERR_TOO_LITTLE_DATA s
       else body (set_st s DSTATE_STOPPING)
  else if is (x_st s) DSTATE_BUFIMAGE then body (set_st s DSTATE_STOPPING)
  else if negb (is (x_st s) DSTATE_STOPPING) then RErr JERR_BAD_STATE s
  else body s.

(* jdtrans.c:49-95 jpeg_read_coefficients (transdecode_master_selection sets
   buffered_image, 107); true = coefficient arrays returned.  Like
   read_raw_data it dereferences cinfo->master first. *)
Definition read_coefficients (s : dobj) : res bool :=
  if is (x_st s) DSTATE_DESTROYED then RUndef
  else if x_lossless s then RErr JERR_NOTIMPL s
  else
    let s := match x_st s with
             | DSTATE_READY => set_st (set_flags s true (x_raw s)) DSTATE_RDCOEFS
             | _ => s
             end in
    let last s :=
      if (is (x_st s) DSTATE_STOPPING || is (x_st s) DSTATE_BUFIMAGE) && x_buffered s
      then ROk true s else RErr JERR_BAD_STATE s in
    match x_st s with
    | DSTATE_RDCOEFS =>
      match absorb (x_in s) s with
      | ROk true s => last (set_st s DSTATE_STOPPING)
      | r => r
      end
    | _ => last s
    end.

(* jdmaster.c:264-274 jpeg_calc_output_dimensions, 854-871 jpeg_new_colormap
   (ext: external colormap supplied), jdicc.c:70-86 jpeg_read_icc_profile with
   valid pointers *)
Definition calc_output_dimensions (s : dobj) : res unit :=
  if negb (is (x_st s) DSTATE_READY) then RErr JERR_BAD_STATE s else ROk tt s.
Definition new_colormap (ext : bool) (s : dobj) : res unit :=
  if negb (is (x_st s) DSTATE_BUFIMAGE) then RErr JERR_BAD_STATE s
  else if ext then ROk tt s else RErr JERR_MODE_CHANGE s.
Definition read_icc_profile (s : dobj) : res unit :=
  if (code (x_st s) <? code DSTATE_READY)%Z then RErr JERR_BAD_STATE s else ROk tt s.

(* the application setting buffered_image / raw_data_out: a plain assignment to
   the struct, meaningful between jpeg_read_header and jpeg_start_decompress *)
Definition set_params (buf raw : bool) (s : dobj) : dobj :=
  match x_st s with DSTATE_READY => set_flags s buf raw | _ => s end.

Inductive call :=
| ReadHeader (require_image : bool) | ConsumeInput | InputComplete | HasMultipleScans
| SetParams (buffered raw : bool) | CalcOutputDimensions | StartDecompress
| ReadScanlines (max_lines : nat) | ReadRawData (max_lines : nat)
| StartOutput (scan : Z) | FinishOutput | FinishDecompress | ReadCoefficients
| NewColormap (ext : bool) | ReadIccProfile | Abort | Destroy.

Definition forget {A} (r : res A) : res unit :=
  match r with ROk _ s => ROk tt s | RErr e s => RErr e s | RUndef => RUndef end.

Definition do_call (prec : nat) (cl : call) (s : dobj) : res unit :=
  match cl with
  | ReadHeader b => forget (read_header b s)
  | ConsumeInput => forget (consume_input s)
  | InputComplete => forget (input_complete s)
  | HasMultipleScans => forget (has_multiple_scans s)
  | SetParams b r => ROk tt (set_params b r s)
  | CalcOutputDimensions => calc_output_dimensions s
  | StartDecompress => forget (start_decompress s)
  | ReadScanlines n => forget (read_scanlines prec n s)
  | ReadRawData n => forget (read_raw_data prec n s)
  | StartOutput n => forget (start_output n s)
  | FinishOutput => forget (finish_output s)
  | FinishDecompress => forget (finish_decompress s)
  | ReadCoefficients => forget (read_coefficients s)
  | NewColormap e => new_colormap e s
  | ReadIccProfile => read_icc_profile s
  | Abort => ROk tt (abort s)
  | Destroy => ROk tt (destroy s)
  end.
