(* M_HuffEnc.v -- sequential Huffman entropy encoder (jchuff.c), 64-bit build without SIMD *)
From Verif Require Import Base M_HuffTbl.

(* put_buffer, free_bits (savable_state, jchuff.c:73-85) and the bytes written so far to the local
   work buffer [buffer - _buffer] (or to the caller's buffer; both have BUFSIZE = 512 bytes,
   jchuff.c:447-455) *)
Record est := mkE { pb : Z; fb : Z; ebuf : list Z }.

(* jchuff.c:354-358 EMIT_BYTE: stores two bytes, keeps the second only after FF *)
Definition EMIT_BYTE (b : Z) (buf : list Z) : outcome (list Z) :=
  if 512 <? Z.of_nat (length buf) + 2 then Undef
  else Ret (if u8 b <? 255 then buf ++ [u8 b] else buf ++ [u8 b; 0]).

Fixpoint EMIT_BYTES (bs buf : list Z) : outcome (list Z) :=
  match bs with
  | [] => Ret buf
  | b :: r => buf' <- EMIT_BYTE b buf ;; EMIT_BYTES r buf'
  end.

Definition flush_shifts (p : Z) : list Z :=
  [Z.shiftr p 56; Z.shiftr p 48; Z.shiftr p 40; Z.shiftr p 32;
   Z.shiftr p 24; Z.shiftr p 16; Z.shiftr p 8; p].

(* jchuff.c:366-388 FLUSH *)
Definition FLUSH (p : Z) (buf : list Z) : outcome (list Z) :=
  if negb (Z.land (Z.land p 9259542123273814144) (Z.lnot (u64 (p + 72340172838076673))) =? 0)
  then EMIT_BYTES (flush_shifts p) buf
  else if 512 <? Z.of_nat (length buf) + 8 then Undef
  else Ret (buf ++ map u8 (flush_shifts p)).

(* jchuff.c:411-428 PUT_AND_FLUSH / PUT_BITS; undefined for out-of-range shift counts *)
Definition PUT_BITS (code size : Z) (s : est) : outcome est :=
  let f := fb s - size in
  if f <? 0 then
    if (size + f <? 0) || (63 <? size + f) || (31 <? - f) then Undef
    else
      buf' <- FLUSH (u64 (Z.lor (Z.shiftl (pb s) (size + f)) (Z.shiftr code (- f)))) (ebuf s) ;;
      Ret (mkE code (f + 64) buf')
  else if (size <? 0) || (63 <? size) then Undef
  else Ret (mkE (u64 (Z.lor (Z.shiftl (pb s) size) code)) f (ebuf s)).

(* jchuff.c:430-435 PUT_CODE; temp is an int, code an unsigned int *)
Definition PUT_CODE (temp nbits code size : Z) (s : est) : outcome est :=
  if (nbits <? 0) || (31 <? nbits) then Undef
  else
    let t1 := Z.land temp (2 ^ nbits - 1) in
    let t2 := s32 (Z.lor t1 (u32 (Z.shiftl code nbits))) in
    if t2 <? 0 then Undef else PUT_BITS t2 (nbits + size) s.

(* jpeg_nbits.h:34-42 / jpeg_nbits.c: table of 65536 entries, entry x = bit length of x *)
Definition JPEG_NBITS (x : Z) : outcome Z :=
  if (x <? 0) || (65535 <? x) then Undef
  else Ret (if x =? 0 then 0 else Z.log2 x + 1).

(* jchuff.c:584-590, 617-621: branch-free magnitude; returns (temp + sign, |temp|) *)
Definition abs_trick (temp : Z) : Z * Z :=
  let sgn := Z.shiftr temp 31 in
  let t := temp + sgn in
  (t, Z.lxor sgn t).

(* jchuff.c:582-603 DC coefficient; [mcb] = max_coef_bits = data_precision + 2 *)
Definition encode_dc (mcb : Z) (blk : list Z) (last_dc : Z) (dctbl : c_derived_tbl) (s : est)
  : outcome est :=
  b0 <- aget blk 0 ;;
  let '(temp, mag) := abs_trick (b0 - last_dc) in
  nbits <- JPEG_NBITS mag ;;
  if mcb + 1 <? nbits then Error JERR_BAD_DCT_COEF
  else
    co <- aget (ehufco dctbl) nbits ;;
    si <- aget (ehufsi dctbl) nbits ;;
    PUT_CODE temp nbits co si s.

(* jchuff.c:626-629: while (r >= 256) emit ZRL *)
Fixpoint put_zrl (fuel : nat) (r : Z) (actbl : c_derived_tbl) (s : est) : outcome (Z * est) :=
  if 256 <=? r then
    match fuel with
    | O => Undef
    | S f =>
      co <- aget (ehufco actbl) 240 ;;
      si <- aget (ehufsi actbl) 240 ;;
      s' <- PUT_BITS co si s ;;
      put_zrl f (r - 256) actbl s'
    end
  else Ret (r, s).

(* jchuff.c:613-634 kloop *)
Definition kloop (mcb : Z) (blk : list Z) (actbl : c_derived_tbl) (k : Z) (st : Z * est)
  : outcome (Z * est) :=
  let '(r, s) := st in
  temp0 <- aget blk k ;;
  if temp0 =? 0 then Ret (r + 16, s)
  else
    let '(temp, mag) := abs_trick temp0 in
    nbits <- JPEG_NBITS mag ;;
    if mcb <? nbits then Error JERR_BAD_DCT_COEF
    else
      '(r1, s1) <- put_zrl 4 r actbl s ;;
      let r2 := r1 + nbits in
      co <- aget (ehufco actbl) r2 ;;
      si <- aget (ehufsi actbl) r2 ;;
      s2 <- PUT_CODE temp nbits co si s1 ;;
      Ret (0, s2).

(* jchuff.c:637-648: the unrolled order *)
Definition kloop_order : list Z :=
  [1; 8; 16; 9; 2; 3; 10; 17; 24; 32; 25; 18; 11; 4; 5; 12; 19; 26; 33; 40; 48; 41; 34; 27;
   20; 13; 6; 7; 14; 21; 28; 35; 42; 49; 56; 57; 50; 43; 36; 29; 22; 15; 23; 30; 37; 44; 51; 58;
   59; 52; 45; 38; 31; 39; 46; 53; 60; 61; 54; 47; 55; 62; 63].

Fixpoint kloops (mcb : Z) (blk : list Z) (actbl : c_derived_tbl) (ks : list Z) (st : Z * est)
  : outcome (Z * est) :=
  match ks with
  | [] => Ret st
  | k :: r => st' <- kloop mcb blk actbl k st ;; kloops mcb blk actbl r st'
  end.

(* jchuff.c:564-657 encode_one_block, up to STORE_BUFFER (the work buffer starts empty) *)
Definition encode_one_block (mcb : Z) (blk : list Z) (last_dc : Z) (dctbl actbl : c_derived_tbl)
  (p f : Z) : outcome est :=
  s1 <- encode_dc mcb blk last_dc dctbl (mkE p f []) ;;
  '(r, s2) <- kloops mcb blk actbl kloop_order (0, s1) ;;
  if 0 <? r then
    co <- aget (ehufco actbl) 0 ;;
    si <- aget (ehufsi actbl) 0 ;;
    PUT_BITS co si s2
  else Ret s2.

(* jchuff.c:506-515: body of flush_bits, the bytes it produces *)
Fixpoint flush_bytes (fuel : nat) (p n : Z) (buf : list Z) : outcome (list Z) :=
  if 8 <=? n then
    match fuel with
    | O => Undef
    | S f => buf' <- EMIT_BYTE (Z.shiftr p (n - 8)) buf ;; flush_bytes f p (n - 8) buf'
    end
  else if 0 <? n then EMIT_BYTE (Z.lor (Z.shiftl p (8 - n)) (Z.shiftr 255 n)) buf
  else Ret buf.

(* ---- destination manager (jpeglib.h jpeg_destination_mgr) ----
   [dout] = bytes delivered so far, [dfree] = free_in_buffer, [drooms] = sizes of the buffers that
   successive empty_output_buffer calls provide (positive; the last one repeats), [dsusp] = a
   suspending destination, whose empty_output_buffer returns FALSE. *)
Record dest := mkDest { dout : list Z; dfree : Z; drooms : list positive; dsusp : bool }.

(* jchuff.c:333-346 dump_buffer (called when free_in_buffer = 0).  None = FALSE. *)
Definition dump_buffer (d : dest) : option dest :=
  if dsusp d then None
  else match drooms d with
       | [] => Some (mkDest (dout d) 4096 [] false)
       | [p] => Some (mkDest (dout d) (Zpos p) [p] false)
       | p :: r => Some (mkDest (dout d) (Zpos p) r false)
       end.

(* jchuff.c:461-471: the copy loop of STORE_BUFFER *)
Fixpoint store_loop (fuel : nat) (bytes : list Z) (d : dest) : outcome (option dest) :=
  match bytes with
  | [] => Ret (Some d)
  | _ =>
    match fuel with
    | O => Undef
    | S f =>
      let n := Z.min (Z.of_nat (length bytes)) (dfree d) in
      let d1 := mkDest (dout d ++ firstn (Z.to_nat n) bytes) (dfree d - n) (drooms d) (dsusp d) in
      let rest := skipn (Z.to_nat n) bytes in
      if dfree d1 =? 0 then
        match dump_buffer d1 with
        | None => Ret None
        | Some d2 => store_loop f rest d2
        end
      else store_loop f rest d1
    end
  end.

(* jchuff.c:449-475 LOAD_BUFFER/STORE_BUFFER: bytes produced in the work buffer, or directly in the
   destination when at least BUFSIZE bytes are free there *)
Definition STORE_BUFFER (bytes : list Z) (d : dest) : outcome (option dest) :=
  if dfree d <? 512 then store_loop (length bytes) bytes d
  else if dfree d <? Z.of_nat (length bytes) then Undef
  else Ret (Some (mkDest (dout d ++ bytes) (dfree d - Z.of_nat (length bytes)) (drooms d) (dsusp d))).

(* jchuff.c:324-329 emit_byte *)
Definition emit_byte (b : Z) (d : dest) : outcome (option dest) :=
  if dfree d <? 1 then Undef
  else
    let d1 := mkDest (dout d ++ [u8 b]) (dfree d - 1) (drooms d) (dsusp d) in
    if dfree d1 =? 0 then Ret (dump_buffer d1) else Ret (Some d1).

(* savable_state: put_buffer, free_bits, last_dc_val *)
Record hsav := mkSav { v_pb : Z; v_fb : Z; v_dc : list Z }.

(* working_state: result None = "return FALSE" *)
Definition wst : Type := hsav * dest.

(* jchuff.c:480-537 flush_bits *)
Definition flush_bits (w : wst) : outcome (option wst) :=
  let '(v, d) := w in
  bytes <- flush_bytes 9 (v_pb v) (64 - v_fb v) [] ;;
  o <- STORE_BUFFER bytes d ;;
  Ret (match o with None => None | Some d' => Some (mkSav 0 64 (v_dc v), d') end).

(* jchuff.c:669-687 emit_restart *)
Definition emit_restart (num : Z) (w : wst) : outcome (option wst) :=
  o <- flush_bits w ;;
  match o with
  | None => Ret None
  | Some (v, d) =>
    o1 <- emit_byte 255 d ;;
    match o1 with
    | None => Ret None
    | Some d1 =>
      o2 <- emit_byte (208 + num) d1 ;;
      Ret (match o2 with
           | None => None
           | Some d2 => Some (mkSav (v_pb v) (v_fb v) (map (fun _ => 0) (v_dc v)), d2)
           end)
    end
  end.

(* a block of the MCU: component index, tables, coefficients (natural order) *)
Record eblk := mkEB { eb_ci : Z; eb_dc : c_derived_tbl; eb_ac : c_derived_tbl; eb_coef : list Z }.

(* jchuff.c:735-747: the loop over the blocks of the MCU *)
Fixpoint encode_blocks (mcb : Z) (bs : list eblk) (w : wst) : outcome (option wst) :=
  match bs with
  | [] => Ret (Some w)
  | b :: r =>
    let '(v, d) := w in
    last <- aget (v_dc v) (eb_ci b) ;;
    e <- encode_one_block mcb (eb_coef b) last (eb_dc b) (eb_ac b) (v_pb v) (v_fb v) ;;
    o <- STORE_BUFFER (ebuf e) d ;;
    match o with
    | None => Ret None
    | Some d' =>
      b0 <- aget (eb_coef b) 0 ;;
      dc' <- aset (v_dc v) (eb_ci b) b0 ;;
      encode_blocks mcb r (mkSav (pb e) (fb e) dc', d')
    end
  end.

(* huff_entropy_encoder (jchuff.c:87-114) *)
Record henc := mkH { h_saved : hsav; h_togo : Z; h_num : Z }.

(* jchuff.c:694-763 encode_mcu_huff; the boolean is the C return value.  On FALSE nothing is
   committed; a suspending destination has not moved either. *)
Definition encode_mcu_huff (mcb ri : Z) (bs : list eblk) (h : henc) (d : dest)
  : outcome (bool * henc * dest) :=
  let emit := negb (ri =? 0) && (h_togo h =? 0) in
  o <- (if emit then emit_restart (h_num h) (h_saved h, d) else Ret (Some (h_saved h, d))) ;;
  match o with
  | None => Ret (false, h, d)
  | Some w =>
    o2 <- encode_blocks mcb bs w ;;
    match o2 with
    | None => Ret (false, h, d)
    | Some (v, d') =>
      Ret (true,
           (if ri =? 0 then mkH v (h_togo h) (h_num h)
            else if h_togo h =? 0 then mkH v (u32 (ri - 1)) (Z.land (h_num h + 1) 7)
            else mkH v (u32 (h_togo h - 1)) (h_num h)), d')
    end
  end.

(* jchuff.c:771-794 finish_pass_huff *)
Definition finish_pass_huff (h : henc) (d : dest) : outcome (henc * dest) :=
  o <- flush_bits (h_saved h, d) ;;
  match o with
  | None => Error JERR_CANT_SUSPEND
  | Some (v, d') => Ret (mkH v (h_togo h) (h_num h), d')
  end.

(* jchuff.c:199-222: initial state set by start_pass_huff *)
Definition start_pass_huff (ncomp : nat) (ri : Z) : henc := mkH (mkSav 0 64 (repeat 0 ncomp)) ri 0.

(* a whole scan as jccoefct.c drives it (compress_data/compress_output: encode_mcu for each MCU in
   turn, finish_pass at the end), without suspension: None if some encode_mcu returned FALSE *)
Fixpoint encode_mcus (mcb ri : Z) (ms : list (list eblk)) (h : henc) (d : dest)
  : outcome (option (henc * dest)) :=
  match ms with
  | [] => Ret (Some (h, d))
  | m :: r =>
    '(ok, h', d') <- encode_mcu_huff mcb ri m h d ;;
    if (ok : bool) then encode_mcus mcb ri r h' d' else Ret None
  end.
Definition encode_scan (mcb ri : Z) (ncomp : nat) (ms : list (list eblk)) (d : dest)
  : outcome (option dest) :=
  o <- encode_mcus mcb ri ms (start_pass_huff ncomp ri) d ;;
  match o with
  | None => Ret None
  | Some (h, d1) => '(_, d2) <- finish_pass_huff h d1 ;; Ret (Some d2)
  end.

(* libjpeg.txt "I/O suspension" (output): the application's loop.  [Room n]: it empties the buffer
   and provides n bytes of space; [Try]: the library calls encode_mcu for the next pending MCU and,
   if that returned FALSE, keeps the MCU pending. *)
Inductive app_event := Room (n : positive) | Try.
Definition app_step (mcb ri : Z) (ev : app_event) (st : henc * dest * list (list eblk))
  : outcome (henc * dest * list (list eblk)) :=
  let '(h, d, pending) := st in
  match ev with
  | Room n => Ret (h, mkDest (dout d) (Zpos n) (drooms d) (dsusp d), pending)
  | Try =>
    match pending with
    | [] => Ret (h, d, [])
    | m :: r => '(ok, h', d') <- encode_mcu_huff mcb ri m h d ;;
                Ret (if (ok : bool) then (h', d', r) else (h', d', pending))
    end
  end.
Fixpoint app_run (mcb ri : Z) (evs : list app_event) (st : henc * dest * list (list eblk))
  : outcome (henc * dest * list (list eblk)) :=
  match evs with
  | [] => Ret st
  | e :: r => st' <- app_step mcb ri e st ;; app_run mcb ri r st'
  end.
