(* M_Icc.v -- model of ICC profile embedding (jcicc.c) and extraction (jdicc.c). *)
From Verif Require Import Base.

(* jcicc.c:37-40  ICC_MARKER = JPEG_APP0 + 2, ICC_OVERHEAD_LEN = 14,
   MAX_BYTES_IN_MARKER = 65533, MAX_DATA_BYTES_IN_MARKER *)
Definition ICC_MARKER : Z := 226.
Definition ICC_OVERHEAD_LEN : Z := 14.
Definition MAX_DATA_BYTES_IN_MARKER : Z := 65533 - ICC_OVERHEAD_LEN.

(* The identifying string "ICC_PROFILE\0", jcicc.c:82-93 / jdicc.c:37-48 *)
Definition icc_id : list Z :=
  [73; 67; 67; 95; 80; 82; 79; 70; 73; 76; 69; 0].

(* Compressor object as far as this code sees it: global_state, next_scanline
   and the bytes handed to the destination so far.  (The destination itself is
   modelled in M_MemDst; emit_byte raises JERR_CANT_SUSPEND rather than suspend,
   so for header writing the output is simply appended to.) *)
Record cobj := mkC { c_state : Z; c_next_scanline : Z; c_out : list Z }.

(* jpegint.h:58-64 *)
Definition CSTATE_START := 100.
Definition CSTATE_SCANNING := 101.
Definition CSTATE_RAW_OK := 102.
Definition CSTATE_WRCOEFS := 103.

(* jcmarker.c:109-118 emit_byte: the value is stored in a JOCTET *)
Definition emit (c : cobj) (v : Z) : cobj :=
  mkC (c_state c) (c_next_scanline c) (c_out c ++ [u8 v]).

(* jcmarker.c:619-631 write_marker_header: emit_marker, emit_2bytes *)
Definition write_marker_header (c : cobj) (marker datalen : Z) : outcome cobj :=
  if 65533 <? datalen then Error JERR_BAD_LENGTH
  else
    let c := emit (emit c 255) marker in
    let v := datalen + 2 in
    Ret (emit (emit c (Z.land (Z.shiftr v 8) 255)) (Z.land v 255)).

(* jcapimin.c:264-274 jpeg_write_m_header *)
Definition jpeg_write_m_header (c : cobj) (marker datalen : Z) : outcome cobj :=
  if negb (c_next_scanline c =? 0)
     || (negb (c_state c =? CSTATE_SCANNING) && negb (c_state c =? CSTATE_RAW_OK)
         && negb (c_state c =? CSTATE_WRCOEFS))
  then Error JERR_BAD_STATE
  else write_marker_header c marker datalen.

(* jcapimin.c:276-280 jpeg_write_m_byte *)
Definition jpeg_write_m_byte (c : cobj) (v : Z) : cobj := emit c v.

(* jcapimin.c:240-260 jpeg_write_marker *)
Definition jpeg_write_marker (c : cobj) (marker : Z) (data : list Z) : outcome cobj :=
  if negb (c_next_scanline c =? 0)
     || (negb (c_state c =? CSTATE_SCANNING) && negb (c_state c =? CSTATE_RAW_OK)
         && negb (c_state c =? CSTATE_WRCOEFS))
  then Error JERR_BAD_STATE
  else
    c <- write_marker_header c marker (Z.of_nat (length data)) ;;
    Ret (fold_left emit data c).

(* jcicc.c:68-104: the while loop; the profile bytes still to be written are
   [data]; [fuel] bounds the number of iterations (one per byte is enough). *)
Fixpoint icc_loop (fuel : nat) (num_markers cur : Z) (data : list Z) (c : cobj)
  : outcome cobj :=
  match fuel with
  | O => Ret c
  | S fuel' =>
    if Z.of_nat (length data) =? 0 then Ret c
    else
      let length := Z.of_nat (length data) in
      let length := if MAX_DATA_BYTES_IN_MARKER <? length
                    then MAX_DATA_BYTES_IN_MARKER else length in
      c <- jpeg_write_m_header c ICC_MARKER (length + ICC_OVERHEAD_LEN) ;;
      let c := fold_left jpeg_write_m_byte icc_id c in
      let c := jpeg_write_m_byte c cur in
      let c := jpeg_write_m_byte c num_markers in
      let c := fold_left jpeg_write_m_byte (firstn (Z.to_nat length) data) c in
      icc_loop fuel' num_markers (cur + 1) (skipn (Z.to_nat length) data) c
  end.

(* jcicc.c:48-105 jpeg_write_icc_profile.  icc_data_len is the length of the
   list; the NULL-pointer test is the None case. *)
Definition jpeg_write_icc_profile (c : cobj) (icc_data : option (list Z)) : outcome cobj :=
  match icc_data with
  | None => Error JERR_BUFFER_SIZE
  | Some data =>
    let len := Z.of_nat (length data) in
    if len =? 0 then Error JERR_BUFFER_SIZE
    else if c_state c <? CSTATE_SCANNING then Error JERR_BAD_STATE
    else
      let num_markers := len / MAX_DATA_BYTES_IN_MARKER in
      let num_markers := if negb (u32 (num_markers * MAX_DATA_BYTES_IN_MARKER) =? len)
                         then num_markers + 1 else num_markers in
      icc_loop (S (length data)) num_markers 1 data c
  end.

(* ---------------------------------------------------------------------- *)
(* Reader.  jpeglib.h:196-203 jpeg_marker_struct: the saved-marker list; the
   number of data bytes saved is the length of the list. *)
Record saved_marker := mkSM { sm_marker : Z; sm_data : list Z }.

(* jdicc.c:30-49 marker_is_icc *)
Definition marker_is_icc (m : saved_marker) : bool :=
  (sm_marker m =? ICC_MARKER)
  && (ICC_OVERHEAD_LEN <=? Z.of_nat (length (sm_data m)))
  && (nth 0 (sm_data m) 0 =? 73) && (nth 1 (sm_data m) 0 =? 67)
  && (nth 2 (sm_data m) 0 =? 67) && (nth 3 (sm_data m) 0 =? 95)
  && (nth 4 (sm_data m) 0 =? 80) && (nth 5 (sm_data m) 0 =? 82)
  && (nth 6 (sm_data m) 0 =? 79) && (nth 7 (sm_data m) 0 =? 70)
  && (nth 8 (sm_data m) 0 =? 73) && (nth 9 (sm_data m) 0 =? 76)
  && (nth 10 (sm_data m) 0 =? 69) && (nth 11 (sm_data m) 0 =? 0).

(* Result of the reader: TRUE with the malloc'ed block (bytes that were never
   stored are None), FALSE without warning, FALSE with JWRN_BOGUS_ICC. *)
Inductive icc_result := IccFound (mem : list (option Z)) | IccNone | IccBogus.

Record pass1 := mkP1 { p_num : Z; p_present : list Z; p_dlen : list (option Z) }.

(* jdicc.c:106-126: first pass over the markers.  None = bogus. *)
Definition pass1_step (m : saved_marker) (s : pass1) : outcome (option pass1) :=
  if marker_is_icc m then
    cnt <- aget (sm_data m) 13 ;;
    let num := if p_num s =? 0 then cnt else p_num s in
    if negb (p_num s =? 0) && negb (p_num s =? cnt) then Ret None
    else
      seq <- aget (sm_data m) 12 ;;
      if (seq <=? 0) || (num <? seq) then Ret None
      else
        pr <- aget (p_present s) seq ;;
        if negb (pr =? 0) then Ret None
        else
          present <- aset (p_present s) seq 1 ;;
          dlen <- aset (p_dlen s) seq
                    (Some (Z.of_nat (length (sm_data m)) - ICC_OVERHEAD_LEN)) ;;
          Ret (Some (mkP1 num present dlen))
  else Ret (Some s).

Fixpoint pass1_loop (l : list saved_marker) (s : pass1) : outcome (option pass1) :=
  match l with
  | [] => Ret (Some s)
  | m :: t =>
    r <- pass1_step m s ;;
    match r with None => Ret None | Some s' => pass1_loop t s' end
  end.

(* Reading an automatic variable that was never assigned is undefined. *)
Definition aget_init (l : list (option Z)) (i : Z) : outcome Z :=
  v <- aget l i ;; match v with Some x => Ret x | None => Undef end.

(* jdicc.c:135-143: seq_no = seq, seq+1, ..., n iterations *)
Fixpoint pass2_loop (n : nat) (seq : Z) (s : pass1) (off : list (option Z)) (total : Z)
  : outcome (option (list (option Z) * Z)) :=
  match n with
  | O => Ret (Some (off, total))
  | S n' =>
    pr <- aget (p_present s) seq ;;
    if pr =? 0 then Ret None
    else
      off <- aset off seq (Some total) ;;
      dl <- aget_init (p_dlen s) seq ;;
      pass2_loop n' (seq + 1) s off (u32 (total + dl))
  end.

(* jdicc.c:167-169: while (length--) *dst_ptr++ = *src_ptr++ *)
Fixpoint copy_loop (n : nat) (src : list Z) (si : Z) (mem : list (option Z)) (di : Z)
  : outcome (list (option Z)) :=
  match n with
  | O => Ret mem
  | S n' =>
    v <- aget src si ;;
    mem <- aset mem di (Some v) ;;
    copy_loop n' src (si + 1) mem (di + 1)
  end.

(* jdicc.c:156-172: second pass over the markers *)
Fixpoint pass3_loop (l : list saved_marker) (s : pass1) (off : list (option Z))
    (mem : list (option Z)) : outcome (list (option Z)) :=
  match l with
  | [] => Ret mem
  | m :: t =>
    if marker_is_icc m then
      seq <- aget (sm_data m) 12 ;;
      o <- aget_init off seq ;;
      n <- aget_init (p_dlen s) seq ;;
      mem <- copy_loop (Z.to_nat n) (sm_data m) ICC_OVERHEAD_LEN mem o ;;
      pass3_loop t s off mem
    else pass3_loop t s off mem
  end.

(* jdicc.c:69-178 jpeg_read_icc_profile.  [state] is cinfo->global_state
   (DSTATE_READY = 202, jpegint.h:67); [ptrs_ok] is false when one of the two
   result pointers is NULL; [mem_ok] is false when malloc fails. *)
Definition jpeg_read_icc_profile (state : Z) (ptrs_ok mem_ok : bool)
    (l : list saved_marker) : outcome icc_result :=
  if negb ptrs_ok then Error JERR_BUFFER_SIZE
  else if state <? 202 then Error JERR_BAD_STATE
  else
    r <- pass1_loop l (mkP1 0 (repeat 0 256) (repeat None 256)) ;;
    match r with
    | None => Ret IccBogus
    | Some s =>
      if p_num s =? 0 then Ret IccNone
      else
        r <- pass2_loop (Z.to_nat (p_num s)) 1 s (repeat None 256) 0 ;;
        match r with
        | None => Ret IccBogus
        | Some (off, total) =>
          if total =? 0 then Ret IccBogus
          else if negb mem_ok then Error JERR_OUT_OF_MEMORY
          else
            mem <- pass3_loop l s off (repeat None (Z.to_nat total)) ;;
            Ret (IccFound mem)
        end
    end.
