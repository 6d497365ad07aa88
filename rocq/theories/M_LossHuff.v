(* M_LossHuff.v -- lossless Huffman entropy coder (jclhuff.c) and decoder (jdlhuff.c), with the row
   loops that drive them (jcdiffct.c, jddiffct.c).  The samples of an MCU are given in MCU order,
   with the table each uses (cur_tbls[sampn]); the arithmetic that picks them out of the
   difference rows (input_ptr/output_ptr, jclhuff.c:340-348, jdlhuff.c:210-217) is not modelled. *)
From Verif Require Import Base M_HuffTbl M_Source M_BitRead M_HuffEnc.

(* ---------------- encoder ---------------- *)

(* savable_state (jclhuff.c:33-36): put_buffer, put_bits *)
Record lsav := mkLS { l_pb : Z; l_bits : Z }.

(* jclhuff.c:246-256: while (put_bits >= 8) emit a byte, with stuffing *)
Fixpoint emit_loop (fuel : nat) (pb n : Z) (d : dest) : outcome (option (lsav * dest)) :=
  if 8 <=? n then
    match fuel with
    | O => Undef
    | S f =>
      let c := Z.land (Z.shiftr pb 16) 255 in
      o <- emit_byte c d ;;
      match o with
      | None => Ret None
      | Some d1 =>
        o1 <- (if c =? 255 then emit_byte 0 d1 else Ret (Some d1)) ;;
        match o1 with
        | None => Ret None
        | Some d2 => emit_loop f (u64 (Z.shiftl pb 8)) (n - 8) d2
        end
      end
    end
  else Ret (Some (mkLS pb n, d)).

(* jclhuff.c:224-262 emit_bits; size_t is 64 bits wide; None = FALSE (suspended) *)
Definition emit_bits (code size : Z) (v : lsav) (d : dest) : outcome (option (lsav * dest)) :=
  if size =? 0 then Error JERR_HUFF_MISSING_CODE
  else if (size <? 0) || (63 <? size) then Undef
  else
    let pb := Z.land code (2 ^ size - 1) in
    let n := l_bits v + size in
    if 24 <? n then Undef
    else emit_loop 3 (Z.lor (u64 (Z.shiftl pb (24 - n))) (l_pb v)) n d.

(* jclhuff.c:265-273 flush_bits *)
Definition lflush_bits (v : lsav) (d : dest) : outcome (option (lsav * dest)) :=
  o <- emit_bits 127 7 v d ;;
  Ret (match o with None => None | Some (_, d') => Some (mkLS 0 0, d') end).

(* jclhuff.c:280-292 emit_restart *)
Definition lemit_restart (num : Z) (v : lsav) (d : dest) : outcome (option (lsav * dest)) :=
  o <- lflush_bits v d ;;
  match o with
  | None => Ret None
  | Some (v1, d1) =>
    o1 <- emit_byte 255 d1 ;;
    match o1 with
    | None => Ret None
    | Some d2 =>
      o2 <- emit_byte (208 + num) d2 ;;
      Ret (match o2 with None => None | Some d3 => Some (v1, d3) end)
    end
  end.

(* jclhuff.c:362-373: (temp, temp2) *)
Definition diff_mag (temp : Z) : Z * Z :=
  if negb (Z.land temp 32768 =? 0) then
    let t := Z.land (- temp) 32767 in
    let t := if t =? 0 then 32768 else t in
    (t, Z.lnot t)
  else let t := Z.land temp 32767 in (t, t).

(* jclhuff.c:375-380: the bit count of a non-negative int *)
Fixpoint count_bits (fuel : nat) (temp : Z) : outcome Z :=
  if temp =? 0 then Ret 0
  else match fuel with
       | O => Undef
       | S f => n <- count_bits f (Z.shiftr temp 1) ;; Ret (n + 1)
       end.

(* jclhuff.c:353-396: one sample difference *)
Definition encode_diff (tbl : c_derived_tbl) (temp : Z) (v : lsav) (d : dest)
  : outcome (option (lsav * dest)) :=
  let '(mag, temp2) := diff_mag temp in
  nbits <- count_bits 31 mag ;;
  if 16 <? nbits then Error JERR_BAD_DCT_COEF
  else
    co <- aget (ehufco tbl) nbits ;;
    si <- aget (ehufsi tbl) nbits ;;
    o <- emit_bits co si v d ;;
    match o with
    | None => Ret None
    | Some (v1, d1) =>
      if negb (nbits =? 0) && negb (nbits =? 16) then emit_bits (u32 temp2) nbits v1 d1
      else Ret (Some (v1, d1))
    end.

(* jclhuff.c:353-397: the samples of one MCU *)
Fixpoint lencode_mcu (m : list (c_derived_tbl * Z)) (v : lsav) (d : dest)
  : outcome (option (lsav * dest)) :=
  match m with
  | [] => Ret (Some (v, d))
  | (t, x) :: r =>
    o <- encode_diff t x v d ;;
    match o with None => Ret None | Some (v1, d1) => lencode_mcu r v1 d1 end
  end.

(* lhuff_entropy_encoder (jclhuff.c:54-62) *)
Record lhenc := mkLH { lh_saved : lsav; lh_togo : Z; lh_num : Z }.

(* jclhuff.c:403-413: restart accounting after an MCU; restarts_to_go is unsigned int *)
Definition lcommit (ri : Z) (v : lsav) (h : lhenc) : lhenc :=
  if ri =? 0 then mkLH v (lh_togo h) (lh_num h)
  else if lh_togo h =? 0 then mkLH v (u32 (ri - 1)) (Z.land (lh_num h + 1) 7)
  else mkLH v (u32 (lh_togo h - 1)) (lh_num h).

(* jclhuff.c:350-417: the MCU loop; the working copy (v, d) is committed after each MCU.  Result: number of
   MCUs completed, the encoder and the destination as committed. *)
Fixpoint lencode_loop (ri : Z) (ms : list (list (c_derived_tbl * Z))) (v : lsav) (d : dest) (h : lhenc) (dh : dest)
  : outcome (nat * lhenc * dest) :=
  match ms with
  | [] => Ret (O, h, dh)
  | m :: r =>
    o <- lencode_mcu m v d ;;
    match o with
    | None => Ret (O, h, dh)
    | Some (v1, d1) =>
      '(n, h', d') <- lencode_loop ri r v1 d1 (lcommit ri v1 h) d1 ;;
      Ret (S n, h', d')
    end
  end.

(* jclhuff.c:315-418 encode_mcus_huff *)
Definition encode_mcus_huff (ri : Z) (ms : list (list (c_derived_tbl * Z))) (h : lhenc) (d : dest)
  : outcome (nat * lhenc * dest) :=
  o <- (if negb (ri =? 0) && (lh_togo h =? 0) then lemit_restart (lh_num h) (lh_saved h) d
        else Ret (Some (lh_saved h, d))) ;;
  match o with
  | None => Ret (O, h, d)
  | Some (v, d1) => lencode_loop ri ms v d1 h d
  end.

(* jclhuff.c:425-447 finish_pass_huff *)
Definition lfinish_pass (h : lhenc) (d : dest) : outcome (lhenc * dest) :=
  o <- lflush_bits (lh_saved h) d ;;
  match o with
  | None => Error JERR_CANT_SUSPEND
  | Some (v, d') => Ret (mkLH v (lh_togo h) (lh_num h), d')
  end.

(* jclhuff.c:195-202: initial state set by start_pass_lhuff *)
Definition start_pass_lhuff (ri : Z) : lhenc := mkLH (mkLS 0 0) ri 0.

(* jcdiffct.c:216-229: encode_mcus is called once for each MCU row (a row = its MCUs, left to right);
   a short count means suspension (None here: the caller must retry).  The check of the restart
   interval is jclossls.c:289-294. *)
Fixpoint lencode_rows (ri : Z) (rows : list (list (list (c_derived_tbl * Z)))) (h : lhenc) (d : dest)
  : outcome (option (lhenc * dest)) :=
  match rows with
  | [] => Ret (Some (h, d))
  | row :: r =>
    '(n, h1, d1) <- encode_mcus_huff ri row h d ;;
    if (n =? length row)%nat then lencode_rows ri r h1 d1 else Ret None
  end.
Definition lencode_scan (ri mpr : Z) (rows : list (list (list (c_derived_tbl * Z)))) (d : dest)
  : outcome (option dest) :=
  if mpr =? 0 then Undef
  else if negb (ri mod mpr =? 0) then Error JERR_BAD_RESTART
  else
    o <- lencode_rows ri rows (start_pass_lhuff ri) d ;;
    match o with
    | None => Ret None
    | Some (h, d1) => '(_, d2) <- lfinish_pass h d1 ;; Ret (Some d2)
    end.

(* ---------------- decoder ---------------- *)

(* jdlhuff.c:244-258: one sample difference *)
Definition decode_diff (t : d_derived_tbl) : DM unit Z :=
  s <~ huff_decode t ;;
  if s =? 0 then dret 0
  else if s =? 16 then dret 32768
  else check_bit_buffer s ;~ r <~ get_bits s ;; dret (HUFF_EXTEND r s).

(* jdlhuff.c:239-262: the samples of one MCU *)
Fixpoint ldecode_mcu (m : list d_derived_tbl) : DM unit (list Z) :=
  match m with
  | [] => dret []
  | t :: r => x <~ decode_diff t ;; l <~ ldecode_mcu r ;; dret (x :: l)
  end.

(* jdlhuff.c:236-266: the MCU loop; on suspension ("return mcu_num") the bit buffer and source
   position of the last completed MCU stay in force.  Result: differences of the completed MCUs. *)
Fixpoint ldecode_loop (ms : list (list d_derived_tbl)) (e : dst unit) : outcome (list (list Z) * dst unit) :=
  match ms with
  | [] => Ret ([], e)
  | m :: r =>
    match ldecode_mcu m e with
    | Ret (Done l s) => '(ls, e') <- ldecode_loop r s ;; Ret (l :: ls, e')
    | Ret (Susp s) => Ret ([], mkD (gbuf e) (bleft e) (dsrc e) (unread s) (insuff s) (warns s) tt)
    | Error x => Error x
    | Undef => Undef
    end
  end.

(* jdlhuff.c:199-270 decode_mcus.  The flag says that the undifferencer was reset (start_pass). *)
Definition decode_mcus (ms : list (list d_derived_tbl)) (e : dst unit)
  : outcome (list (list Z) * bool * dst unit) :=
  if insuff e then Ret (map (map (fun _ => 0)) ms, true, e)
  else '(ls, e') <- ldecode_loop ms e ;; Ret (ls, false, e').

(* lhuff_entropy_decoder and the counters of the marker reader and of jddiffct.c:35-41 *)
Record lhdec := mkLD' { ld_st : dst unit; ld_togo : Z; ld_num : Z; ld_disc : Z }.

(* jdlhuff.c:149-178 process_restart, called from jddiffct.c:124-138 process_restart, which then
   resets the undifferencer and restart_rows_to_go = rr *)
Definition lprocess_restart (rr : Z) (h : lhdec) : outcome (bool * lhdec) :=
  let s := ld_st h in
  let disc := ld_disc h + bleft s / 8 in
  match read_restart_marker (unread s) (dsrc s) disc (ld_num h) with
  | None => Undef
  | Some (un, src, disc', num', ok) =>
    if ok then
      Ret (true, mkLD' (mkD (gbuf s) 0 src un (if un =? 0 then false else insuff s) (warns s) tt) rr num' disc')
    else Ret (false, mkLD' (mkD (gbuf s) 0 src un (insuff s) (warns s) tt) (ld_togo h) num' disc')
  end.

(* jddiffct.c:175-204: the MCU rows of a scan, one decode_mcus call for each.  Result: for each row
   the differences of its MCUs and whether the undifferencer was reset before it is undone; false if the
   decoder suspended (the caller would then retry). *)
Fixpoint ldecode_rows (ri rr : Z) (rows : list (list (list d_derived_tbl))) (h : lhdec)
  : outcome (list (list (list Z) * bool) * lhdec * bool) :=
  match rows with
  | [] => Ret ([], h, true)
  | row :: r =>
    let restart := negb (ri =? 0) && (ld_togo h =? 0) in
    '(ok, h1) <- (if restart then lprocess_restart rr h else Ret (true, h)) ;;
    if negb ok then Ret ([], h1, false)
    else
      '(ls, z, e) <- decode_mcus row (ld_st h1) ;;
      let h2 := mkLD' e (ld_togo h1) (ld_num h1) (ld_disc h1) in
      if negb (length ls =? length row)%nat then Ret ([], h2, false)
      else
        let h3 := mkLD' e (if ri =? 0 then ld_togo h1 else u32 (ld_togo h1 - 1)) (ld_num h1) (ld_disc h1) in
        '(out, h', ok') <- ldecode_rows ri rr r h3 ;;
        Ret ((ls, restart || z) :: out, h', ok')
  end.

(* jddiffct.c:93-114 start_input_pass and jdlhuff.c:121-124 *)
Definition ldecode_scan (ri mpr : Z) (rows : list (list (list d_derived_tbl))) (src : source)
  : outcome (list (list (list Z) * bool) * lhdec * bool) :=
  if mpr =? 0 then Undef
  else if negb (ri mod mpr =? 0) then Error JERR_BAD_RESTART
  else ldecode_rows ri (ri / mpr) rows (mkLD' (mkD 0 0 src 0 false [] tt) (ri / mpr) 0 0).
