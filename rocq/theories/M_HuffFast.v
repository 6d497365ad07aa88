(* M_HuffFast.v -- the fast MCU decoder, restart processing and decode_mcu (jdhuff.c) *)
From Verif Require Import Base M_HuffTbl M_Source M_BitRead M_HuffDec.

(* working state of decode_mcu_fast: savable state / stores, and the offset of "buffer" from
   next_input_byte *)
Record fsq := mkFs { f_sq : sqst; f_pos : Z }.

(* jdhuff.c:391-409 GET_BYTE.  Both c0 and the peek c1 are checked reads of the input buffer. *)
Definition GET_BYTE : DM fsq unit :=
  fun s =>
  let buf := sbuf (dsrc s) in
  let pos := f_pos (ust s) in
  match aget buf pos, aget buf (pos + 1) with
  | Ret c0, Ret c1 =>
    let gb := u64 (Z.lor (Z.shiftl (gbuf s) 8) c0) in
    let bl := bleft s + 8 in
    if c0 =? 255 then
      if negb (c1 =? 0) then
        (* buffer++ (twice), unread_marker = c1, buffer -= 2, get_buffer &= ~0xFF *)
        Ret (Done tt (mkD (Z.ldiff gb 255) bl (dsrc s) c1 (insuff s) (warns s)
                          (mkFs (f_sq (ust s)) (pos + 1 + 1 - 2))))
      else Ret (Done tt (mkD gb bl (dsrc s) (unread s) (insuff s) (warns s) (mkFs (f_sq (ust s)) (pos + 1 + 1))))
    else Ret (Done tt (mkD gb bl (dsrc s) (unread s) (insuff s) (warns s) (mkFs (f_sq (ust s)) (pos + 1))))
  | _, _ => Undef
  end.

(* jdhuff.c:414-417 FILL_BIT_BUFFER_FAST (64-bit) *)
Definition FILL_BIT_BUFFER_FAST : DM fsq unit :=
  bl <~ dbits_left ;;
  if bl <=? 16 then GET_BYTE ;~ GET_BYTE ;~ GET_BYTE ;~ GET_BYTE ;~ GET_BYTE ;~ GET_BYTE
  else dret tt.

(* jdhuff.h:236-240: while (s > maxcode[nb]) { s <<= 1; s |= GET_BITS(1); nb++ } *)
Fixpoint fast_loop (fuel : nat) (htbl : d_derived_tbl) (nb s : Z) : DM fsq (Z * Z) :=
  match fuel with
  | O => fun _ => Undef
  | S f =>
    m <~ dlift (tget (maxcode htbl) nb) ;;
    if m <? s then
      b <~ get_bits 1 ;;
      fast_loop f htbl (nb + 1) (Z.lor (Z.shiftl s 1) b)
    else dret (nb, s)
  end.

(* (get_buffer >> bits_left) & ((1 << nb) - 1), jdhuff.h:235 *)
Definition fast_peek (nb : Z) : DM fsq Z :=
  fun s => if (nb <? 0) || (30 <? nb) || (bleft s <? 0) || (63 <? bleft s) then Undef
           else Ret (Done (Z.land (Z.shiftr (gbuf s) (bleft s)) (2 ^ nb - 1)) s).

(* jdhuff.h:223-245 HUFF_DECODE_FAST *)
Definition HUFF_DECODE_FAST (htbl : d_derived_tbl) : DM fsq Z :=
  FILL_BIT_BUFFER_FAST ;~
  look <~ peek_bits 8 ;;
  e <~ dlift (aget (dlookup htbl) look) ;;
  let nb := Z.shiftr e 8 in
  drop_bits nb ;~
  if 8 <? nb then
    s <~ fast_peek nb ;;
    lc <~ fast_loop 18 htbl nb s ;;
    (if 16 <? fst lc then dret 0
     else
       vo <~ dlift (tget (valoffset htbl) (fst lc)) ;;
       dlift (aget (hval (dpub htbl)) (Z.land (snd lc + vo) 255)))
  else dret (Z.land e 255).

Definition fout_put (w : Z * Z * Z) : DM fsq unit :=
  if (let '(_, i, _) := w in (0 <=? i) && (i <? 64))
  then dmod (fun u => mkFs (mkSq (sdc (f_sq u)) (souts (f_sq u) ++ [w])) (f_pos u))
  else fun _ => Undef.

(* jdhuff.c:685-703 *)
Definition fast_dc (bn : Z) (b : blkcfg) : DM fsq unit :=
  s0 <~ HUFF_DECODE_FAST (b_dc b) ;;
  s <~ (if s0 =? 0 then dret 0
        else FILL_BIT_BUFFER_FAST ;~ r <~ get_bits s0 ;; dret (HUFF_EXTEND r s0)) ;;
  if b_dcneed b then
    u <~ dget ;;
    last <~ dlift (aget (sdc (f_sq u)) (b_ci b)) ;;
    let v := s32 (s + last) in
    dcs' <~ dlift (aset (sdc (f_sq u)) (b_ci b) v) ;;
    dmod (fun u => mkFs (mkSq dcs' (souts (f_sq u))) (f_pos u)) ;~
    (if b_have b then fout_put (bn, 0, s16 v) else dret tt)
  else dret tt.

(* jdhuff.c:705-738 *)
Fixpoint fast_ac (fuel : nat) (bn : Z) (b : blkcfg) (store : bool) (k : Z) : DM fsq unit :=
  match fuel with
  | O => fun _ => Undef
  | S f =>
    if k <? 64 then
      rs <~ HUFF_DECODE_FAST (b_ac b) ;;
      let r := Z.shiftr rs 4 in
      let s := Z.land rs 15 in
      if negb (s =? 0) then
        let k := k + r in
        FILL_BIT_BUFFER_FAST ;~
        (if store then
           x <~ get_bits s ;;
           pos <~ dlift (aget jpeg_natural_order k) ;;
           fout_put (bn, pos, s16 (HUFF_EXTEND x s))
         else drop_bits s) ;~
        fast_ac f bn b store (k + 1)
      else if negb (r =? 15) then dret tt
      else fast_ac f bn b store (k + 15 + 1)
    else dret tt
  end.

Definition fast_block (bn : Z) (b : blkcfg) : DM fsq unit :=
  fast_dc bn b ;~ fast_ac 64 bn b (b_acneed b && b_have b) 1.

Fixpoint fast_blocks (bn : Z) (bs : list blkcfg) : DM fsq unit :=
  match bs with
  | [] => dret tt
  | b :: r => fast_block bn b ;~ fast_blocks (bn + 1) r
  end.

(* jdhuff.c:663-748 decode_mcu_fast: (TRUE?, state).  On FALSE only unread_marker (reset to 0) and
   the coefficient stores already made differ from the state on entry. *)
Definition decode_mcu_fast (bs : list blkcfg) (e : dst sqst) : outcome (bool * dst sqst) :=
  match fast_blocks 0 bs (mkD (gbuf e) (bleft e) (dsrc e) (unread e) (insuff e) (warns e) (mkFs (ust e) 0)) with
  | Ret (Done _ s) =>
      if negb (unread s =? 0) then
        Ret (false, mkD (gbuf e) (bleft e) (dsrc e) 0 (insuff s) (warns s)
                        (mkSq (sdc (ust e)) (souts (f_sq (ust s)))))
      else
        Ret (true, mkD (gbuf s) (bleft s)
                       (mkSrc (skipn (Z.to_nat (f_pos (ust s))) (sbuf (dsrc s))) (schunks (dsrc s)) (ssusp (dsrc s)))
                       (unread s) (insuff s) (warns s) (f_sq (ust s)))
  | Ret (Susp _) => Undef
  | Error x => Error x
  | Undef => Undef
  end.

(* huff_entropy_decoder (jdhuff.c:50-72) plus the marker reader's counters *)
Record hdec := mkHD { hd_st : dst sqst; hd_togo : Z; hd_num : Z; hd_disc : Z }.

(* jdhuff.c:512-542 process_restart.  The bits are thrown away even if the marker is not yet
   available.  next_restart_num belongs to the marker reader. *)
Definition process_restart (ri : Z) (h : hdec) : outcome (bool * hdec) :=
  let s := hd_st h in
  let disc := hd_disc h + bleft s / 8 in
  match read_restart_marker (unread s) (dsrc s) disc (hd_num h) with
  | None => Undef
  | Some (un, src, disc', num', ok) =>
    if ok then
      Ret (true, mkHD (mkD (gbuf s) 0 src un (if un =? 0 then false else insuff s) (warns s)
                           (mkSq (repeat 0 (length (sdc (ust s)))) (souts (ust s)))) ri num' disc')
    else
      Ret (false, mkHD (mkD (gbuf s) 0 src un (insuff s) (warns s) (ust s)) (hd_togo h) num' disc')
  end.

(* jdhuff.c:787-811: decode_mcu after restart processing; ri = restart_interval.  BUFSIZE = 512.
   restarts_to_go is unsigned int. *)
Definition decode_mcu_body (ri : Z) (bs : list blkcfg) (h : hdec) : outcome (bool * hdec) :=
  let s := hd_st h in
  let usefast := (ri =? 0) && (512 * Z.of_nat (length bs) <=? Z.of_nat (length (sbuf (dsrc s)))) && (unread s =? 0) in
  '(ok, s) <-
    (if insuff s then Ret (true, s)
     else
       let slow (s : dst sqst) :=
         match decode_mcu_slow bs s with
         | Ret (Done _ s') => Ret (true, s')
         | Ret (Susp s') => Ret (false, s')
         | Error e => Error e
         | Undef => Undef
         end in
       if usefast then
         '(ok, s) <- decode_mcu_fast bs s ;;
         if ok then Ret (true, s) else slow s
       else slow s) ;;
  if ok then Ret (true, mkHD s (if ri =? 0 then hd_togo h else u32 (hd_togo h - 1)) (hd_num h) (hd_disc h))
  else Ret (false, mkHD s (hd_togo h) (hd_num h) (hd_disc h)).

(* jdhuff.c:769-812 decode_mcu *)
Definition decode_mcu (ri : Z) (bs : list blkcfg) (h : hdec) : outcome (bool * hdec) :=
  '(ok, h) <- (if (negb (ri =? 0)) && (hd_togo h =? 0) then process_restart ri h else Ret (true, h)) ;;
  if negb ok then Ret (false, h) else decode_mcu_body ri bs h.

(* jdhuff.c:79-133 start_pass_huff_decoder: initial state for a scan with ncomp components whose
   entropy-coded data is delivered by src (next_restart_num = 0 was set by get_sos, jdmarker.c:375) *)
Definition start_pass_huff_decoder (ncomp : nat) (ri : Z) (src : source) : hdec :=
  mkHD (mkD 0 0 src 0 false [] (mkSq (repeat 0 ncomp) [])) ri 0 0.

(* jdcoefct.c:106-116: the MCU's blocks are zeroed (so no store has been made) before each call *)
Definition fresh_mcu (h : hdec) : hdec :=
  let s := hd_st h in
  mkHD (mkD (gbuf s) (bleft s) (dsrc s) (unread s) (insuff s) (warns s) (mkSq (sdc (ust s)) []))
       (hd_togo h) (hd_num h) (hd_disc h).

(* jdcoefct.c:94-116: one decode_mcu call per MCU, for the MCUs ms (block configurations) of a scan.
   Result: the stores made into each MCU so far, the state, and TRUE if all MCUs were decoded. *)
Fixpoint decode_scan (ri : Z) (ms : list (list blkcfg)) (h : hdec)
  : outcome (list (list (Z * Z * Z)) * hdec * bool) :=
  match ms with
  | [] => Ret ([], h, true)
  | bs :: r =>
    '(ok, h1) <- decode_mcu ri bs (fresh_mcu h) ;;
    if negb ok then Ret ([], h1, false)
    else '(l, h2, ok2) <- decode_scan ri r h1 ;; Ret (souts (ust (hd_st h1)) :: l, h2, ok2)
  end.

(* a decoder whose (suspending) source has received the bytes f *)
Definition hfeed (h : hdec) (f : list Z) : hdec :=
  let s := hd_st h in
  mkHD (mkD (gbuf s) (bleft s) (feed (dsrc s) f) (unread s) (insuff s) (warns s) (ust s)) (hd_togo h) (hd_num h) (hd_disc h).

(* The application's loop around a suspending source (libjpeg.txt "I/O suspension"; jdcoefct.c:177-230
   consume_data does not re-zero the blocks on a retry): call decode_mcu; when it returns FALSE deliver
   the next portion of fs and call again.  None = the portions ran out. *)
Fixpoint decode_mcu_fed (ri : Z) (bs : list blkcfg) (fs : list (list Z)) (h : hdec)
  : outcome (option (hdec * list (list Z))) :=
  '(ok, h1) <- decode_mcu ri bs h ;;
  if ok : bool then Ret (Some (h1, fs))
  else match fs with
       | [] => Ret None
       | f :: r => decode_mcu_fed ri bs r (hfeed h1 f)
       end.
Fixpoint decode_scan_fed (ri : Z) (ms : list (list blkcfg)) (fs : list (list Z)) (h : hdec)
  : outcome (option (list (list (Z * Z * Z)))) :=
  match ms with
  | [] => Ret (Some [])
  | bs :: r =>
    o <- decode_mcu_fed ri bs fs (fresh_mcu h) ;;
    match o with
    | None => Ret None
    | Some (h1, fs1) =>
      o2 <- decode_scan_fed ri r fs1 h1 ;;
      Ret (match o2 with None => None | Some l => Some (souts (ust (hd_st h1)) :: l) end)
    end
  end.
