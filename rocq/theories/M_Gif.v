(* M_Gif.v -- GIF output (wrgif.c, as used by djpeg) and GIF input (rdgif.c, as used by cjpeg), 8-bit samples.
   A file is the list of its bytes.  Write errors (fwrite, ferror) are not modelled. *)
From Verif Require Import Base.

Definition MAX_LZW_BITS : Z := 12.            (* wrgif.c:39, rdgif.c:59 *)
Definition LZW_TABLE_SIZE : Z := 4096.        (* wrgif.c:43, rdgif.c:60 *)
Definition HSIZE : Z := 5003.                 (* wrgif.c:45 *)
Definition MAXCODE (n : Z) : Z := 2 ^ n - 1.  (* wrgif.c:49 *)

(* ================ writer ================ *)

(* gif_dest_struct (wrgif.c:72-104), split in three: packets and bits, code widths, LZW state.
   w_pkt = packetbuf[1..bytesinpkt], w_file = what has been written to output_file. *)
Record gbits := mkGB { w_file : list Z; w_pkt : list Z; w_accum : Z; w_cbits : Z }.
Record gwid := mkGW { w_nbits : Z; w_maxcode : Z; w_init : Z; w_clear : Z; w_free : Z; w_counter : Z }.
Record ghash := mkGH { w_waiting : Z; w_first : bool; w_hcode : list Z; w_hval : list Z }.

(* wrgif.c:114-125 flush_packet *)
Definition flush_packet (b : gbits) : gbits :=
  match w_pkt b with
  | [] => b
  | _ => mkGB (w_file b ++ Z.of_nat (length (w_pkt b)) :: w_pkt b) [] (w_accum b) (w_cbits b)
  end.
(* wrgif.c:129-133 CHAR_OUT; packetbuf has 256 bytes *)
Definition char_out (c : Z) (b : gbits) : outcome gbits :=
  if (255 <=? length (w_pkt b))%nat then Undef
  else
    let b1 := mkGB (w_file b) (w_pkt b ++ [c]) (w_accum b) (w_cbits b) in
    Ret (if (255 <=? length (w_pkt b1))%nat then flush_packet b1 else b1).

(* wrgif.c:146-150: whole bytes to the packet *)
Fixpoint out_bytes (fuel : nat) (b : gbits) : outcome gbits :=
  if 8 <=? w_cbits b then
    match fuel with
    | O => Undef
    | S f =>
      b1 <- char_out (Z.land (w_accum b) 255) b ;;
      out_bytes f (mkGB (w_file b1) (w_pkt b1) (Z.shiftr (w_accum b1) 8) (w_cbits b1 - 8))
    end
  else Ret b.

(* wrgif.c:138-164 output; cur_accum is a 32-bit int *)
Definition output (code : Z) (s : gbits * gwid) : outcome (gbits * gwid) :=
  let '(b, w) := s in
  b1 <- out_bytes 4 (mkGB (w_file b) (w_pkt b) (s32 (Z.lor (w_accum b) (Z.shiftl code (w_cbits b)))) (w_cbits b + w_nbits w)) ;;
  let w1 :=
    if w_maxcode w <? w_free w then
      let n := w_nbits w + 1 in
      mkGW n (if n =? MAX_LZW_BITS then LZW_TABLE_SIZE else MAXCODE n) (w_init w) (w_clear w) (w_free w) (w_counter w)
    else w in
  Ret (b1, w1).

(* wrgif.c:179-189 clear_block (the hash table part is in lzw_miss below) *)
Definition clear_block (s : gbits * gwid) : outcome (gbits * gwid) :=
  let '(b, w) := s in
  '(b1, w1) <- output (w_clear w) (b, mkGW (w_nbits w) (w_maxcode w) (w_init w) (w_clear w) (w_clear w + 2) (w_counter w)) ;;
  Ret (b1, mkGW (w_init w1) (MAXCODE (w_init w1)) (w_init w1) (w_clear w1) (w_free w1) (w_counter w1)).

(* wrgif.c:192-213 compress_init *)
Definition compress_init (file : list Z) (i_bits : Z) : outcome (gbits * gwid) :=
  let clear := 2 ^ (i_bits - 1) in
  output clear (mkGB file [] 0 0, mkGW i_bits (MAXCODE i_bits) i_bits clear (clear + 2) (clear + 2)).

(* wrgif.c:216-232 compress_term *)
Definition compress_term (first : bool) (waiting : Z) (s : gbits * gwid) : outcome gbits :=
  s1 <- (if first then Ret s else output waiting s) ;;
  '(b2, _) <- output (w_clear (snd s1) + 1) s1 ;;
  b3 <- (if 0 <? w_cbits b2 then char_out (Z.land (w_accum b2) 255) b2 else Ret b2) ;;
  Ret (flush_packet b3).

(* wrgif.c:388-398 and 412-420: symbol not in the table: emit waiting_code, add the symbol at slot i or clear *)
Definition lzw_miss (c i probe : Z) (s : gbits * gwid) (h : ghash) : outcome (gbits * gwid * ghash) :=
  '(b, w) <- output (w_waiting h) s ;;
  if w_free w <? LZW_TABLE_SIZE then
    hc <- aset (w_hcode h) i (w_free w) ;;
    hv <- aset (w_hval h) i probe ;;
    Ret (b, mkGW (w_nbits w) (w_maxcode w) (w_init w) (w_clear w) (w_free w + 1) (w_counter w), mkGH c false hc hv)
  else
    s2 <- clear_block (b, w) ;;
    Ret (s2, mkGH c false (repeat 0 (Z.to_nat HSIZE)) (w_hval h)).

(* wrgif.c:387-428: probing from slot i; disp is the secondary step *)
Fixpoint lzw_probe (fuel : nat) (c i disp probe : Z) (s : gbits * gwid) (h : ghash) : outcome (gbits * gwid * ghash) :=
  code <- aget (w_hcode h) i ;;
  if code =? 0 then lzw_miss c i probe s h
  else
    v <- aget (w_hval h) i ;;
    if v =? probe then Ret (s, mkGH code false (w_hcode h) (w_hval h))
    else match fuel with
         | O => Undef
         | S f => lzw_probe f c (if i - disp <? 0 then i - disp + HSIZE else i - disp) disp probe s h
         end.

(* wrgif.c:367-429: one pixel in put_LZW_pixel_rows *)
Definition put_lzw_pixel (c : Z) (s : gbits * gwid) (h : ghash) : outcome (gbits * gwid * ghash) :=
  if w_first h then Ret (s, mkGH c false (w_hcode h) (w_hval h))
  else
    let i0 := Z.shiftl c (MAX_LZW_BITS - 8) + w_waiting h in
    let i := if HSIZE <=? i0 then i0 - HSIZE else i0 in
    let probe := Z.lor (Z.shiftl (w_waiting h) 8) c in
    lzw_probe (Z.to_nat HSIZE) c i (if i =? 0 then 1 else HSIZE - i) probe s h.

Fixpoint put_lzw_pixels (px : list Z) (s : gbits * gwid) (h : ghash) : outcome (gbits * gwid * ghash) :=
  match px with
  | [] => Ret (s, h)
  | c :: r => '(s1, h1) <- put_lzw_pixel c s h ;; put_lzw_pixels r s1 h1
  end.

(* wrgif.c:458-487 put_raw_pixel_rows *)
Fixpoint put_raw_pixels (px : list Z) (s : gbits * gwid) : outcome (gbits * gwid) :=
  match px with
  | [] => Ret s
  | c :: r =>
    '(b, w) <- output c s ;;
    s2 <- (if w_counter w <? w_maxcode w then
             Ret (b, mkGW (w_nbits w) (w_maxcode w) (w_init w) (w_clear w) (w_free w) (w_counter w + 1))
           else
             '(b2, w2) <- output (w_clear w) (b, w) ;;
             Ret (b2, mkGW (w_nbits w2) (w_maxcode w2) (w_init w2) (w_clear w2) (w_free w2) (w_clear w2 + 2))) ;;
    put_raw_pixels r s2
  end.

(* wrgif.c:238-244 put_word *)
Definition put_word (w : Z) : list Z := [Z.land w 255; Z.land (Z.shiftr w 8) 255].

(* wrgif.c:268-270 *)
Fixpoint bits_per_pixel (fuel : nat) (n b : Z) : Z :=
  match fuel with
  | O => b
  | S f => if 2 ^ b <? n then bits_per_pixel f n (b + 1) else b
  end.
Definition gif_bpp (num_colors : Z) : Z := bits_per_pixel 8 num_colors 1.

(* the colour table requested: RGB map, grey map, or NULL (wrgif.c:299-318) *)
Inductive gcmap := CmapRGB (l : list (Z * Z * Z)) | CmapGray (l : list Z) | CmapNull.
Definition cmap_entry (m : gcmap) (num_colors i : Z) : outcome (list Z) :=
  if i <? num_colors then
    match m with
    | CmapRGB l => '(r, g, b) <- aget l i ;; Ret [r; g; b]
    | CmapGray l => v <- aget l i ;; Ret [v; v; v]
    | CmapNull => if num_colors - 1 =? 0 then Undef
                  else let v := (i * 255 + (num_colors - 1) / 2) / (num_colors - 1) in Ret [v; v; v]
    end
  else Ret [128; 128; 128].
Fixpoint emit_cmap (m : gcmap) (num_colors : Z) (n : nat) (i : Z) : outcome (list Z) :=
  match n with
  | O => Ret []
  | S k => e <- cmap_entry m num_colors i ;; r <- emit_cmap m num_colors k (i + 1) ;; Ret (e ++ r)
  end.

(* wrgif.c:256-333 emit_header: the bytes up to the code size, and InitCodeSize.  JERR_TOO_MANY_COLORS is JERR_OTHER. *)
Definition emit_header (width height num_colors : Z) (m : gcmap) : outcome (list Z * Z) :=
  if 256 <? num_colors then Error JERR_OTHER
  else
    let bpp := gif_bpp num_colors in
    let ics := if bpp <=? 1 then 2 else bpp in
    cm <- emit_cmap m num_colors (Z.to_nat (2 ^ bpp)) 0 ;;
    Ret ([71; 73; 70; 56; 55; 97] ++ put_word width ++ put_word height ++
         [Z.lor (Z.lor 128 (Z.shiftl (bpp - 1) 4)) (bpp - 1); 0; 0] ++ cm ++
         [44] ++ put_word 0 ++ put_word 0 ++ put_word width ++ put_word height ++ [0; ics], ics).

(* wrgif.c:336-350 start_output_gif, one put_pixel_rows call for each row, 494-512 finish_output_gif.
   The hash table (lzw = true, wrgif.c:573-582) is allocated uninitialised (junk) and cleared by
   compress_init; hash_code = NULL otherwise. *)
Definition gif_write (lzw : bool) (width height num_colors : Z) (m : gcmap) (junk : list Z) (rows : list (list Z)) : outcome (list Z) :=
  '(hdr, ics) <- emit_header width height num_colors m ;;
  s <- compress_init hdr (ics + 1) ;;
  if lzw then
    '(s1, h1) <- put_lzw_pixels (concat rows) s (mkGH 0 true (repeat 0 (Z.to_nat HSIZE)) junk) ;;
    b <- compress_term (w_first h1) (w_waiting h1) s1 ;;
    Ret (w_file b ++ [0; 59])
  else
    s1 <- put_raw_pixels (concat rows) s ;;
    b <- compress_term true 0 s1 ;;
    Ret (w_file b ++ [0; 59]).

(* ================ reader ================ *)
Inductive gwarn := JWRN_GIF_NOMOREDATA | JWRN_GIF_BADDATA | JWRN_GIF_ENDCODE | JWRN_GIF_CHAR.

(* the part of gif_source_struct (rdgif.c:92-134) used by GetCode; r_in = rest of the file *)
Record grd := mkGR { r_in : list Z; r_buf : list Z; r_lbyte : Z; r_lbit : Z; r_cbit : Z;
                     r_first : bool; r_oob : bool; r_warn : list gwarn }.
(* the part used by LZWReadByte; the stack is a list, top first *)
Record glz := mkGL { z_size : Z; z_limit : Z; z_max : Z; z_old : Z; z_fc : Z;
                     z_head : list Z; z_tail : list Z; z_stack : list Z }.

(* copying bytes into an array from index i on *)
Fixpoint blit (buf : list Z) (i : Z) (bs : list Z) : outcome (list Z) :=
  match bs with
  | [] => Ret buf
  | x :: r => buf1 <- aset buf i x ;; blit buf1 (i + 1) r
  end.

(* rdgif.c:163-177 GetDataBlock into buf from index at; result: count, buf, rest of the file *)
Definition GetDataBlock (inp buf : list Z) (at_ : Z) : outcome (Z * list Z * list Z) :=
  match inp with
  | [] => Error JERR_INPUT_EOF
  | count :: r =>
    if 0 <? count then
      if (length r <? Z.to_nat count)%nat then Error JERR_INPUT_EOF
      else buf1 <- blit buf at_ (firstn (Z.to_nat count) r) ;; Ret (count, buf1, skipn (Z.to_nat count) r)
    else Ret (count, buf, r)
  end.

(* rdgif.c:180-189 SkipDataBlocks (its buffer of 256 bytes is never overrun: a count is at most 255) *)
Fixpoint SkipDataBlocks (fuel : nat) (inp : list Z) : outcome (list Z) :=
  match fuel with
  | O => Undef
  | S f =>
    '(count, _, r) <- GetDataBlock inp (repeat 0 256) 0 ;;
    if 0 <? count then SkipDataBlocks f r else Ret r
  end.

(* rdgif.c:236-262: the reload loop of GetCode.  Some = GetCode returns that value at once. *)
Fixpoint get_reload (fuel : nat) (clear size : Z) (b : grd) : outcome (option Z * grd) :=
  if r_lbit b <? r_cbit b + size then
    match fuel with
    | O => Undef
    | S f =>
      if r_first b then Ret (Some clear, mkGR (r_in b) (r_buf b) (r_lbyte b) (r_lbit b) (r_cbit b) false (r_oob b) (r_warn b))
      else if r_oob b then
        Ret (Some (clear + 1), mkGR (r_in b) (r_buf b) (r_lbyte b) (r_lbit b) (r_cbit b) (r_first b) (r_oob b) (r_warn b ++ [JWRN_GIF_NOMOREDATA]))
      else
        x <- aget (r_buf b) (r_lbyte b - 2) ;;
        buf1 <- aset (r_buf b) 0 x ;;
        y <- aget buf1 (r_lbyte b - 1) ;;
        buf2 <- aset buf1 1 y ;;
        '(count, buf3, inp) <- GetDataBlock (r_in b) buf2 2 ;;
        if count =? 0 then
          Ret (Some (clear + 1), mkGR inp buf3 (r_lbyte b) (r_lbit b) (r_cbit b) (r_first b) true (r_warn b ++ [JWRN_GIF_NOMOREDATA]))
        else
          get_reload f clear size (mkGR inp buf3 (2 + count) ((2 + count) * 8) (r_cbit b - r_lbit b + 16) (r_first b) (r_oob b) (r_warn b))
    end
  else Ret (None, b).

(* rdgif.c:228-276 GetCode *)
Definition GetCode (clear size : Z) (b : grd) : outcome (Z * grd) :=
  '(o, b1) <- get_reload 3 clear size b ;;
  match o with
  | Some c => Ret (c, b1)
  | None =>
    let offs := Z.shiftr (r_cbit b1) 3 in
    x2 <- aget (r_buf b1) (offs + 2) ;;
    x1 <- aget (r_buf b1) (offs + 1) ;;
    x0 <- aget (r_buf b1) offs ;;
    let accum := Z.lor (Z.shiftl (Z.lor (Z.shiftl x2 8) x1) 8) x0 in
    let accum := Z.shiftr accum (Z.land (r_cbit b1) 7) in
    Ret (Z.land accum (2 ^ size - 1),
         mkGR (r_in b1) (r_buf b1) (r_lbyte b1) (r_lbit b1) (r_cbit b1 + size) (r_first b1) (r_oob b1) (r_warn b1))
  end.

(* rdgif.c:296-303: do { code = GetCode } while (code == clear_code) *)
Fixpoint clear_loop (fuel : nat) (clear size : Z) (b : grd) : outcome (Z * grd) :=
  match fuel with
  | O => Undef
  | S f => '(code, b1) <- GetCode clear size b ;; if code =? clear then clear_loop f clear size b1 else Ret (code, b1)
  end.

(* pushing on symbol_stack, which has LZW_TABLE_SIZE bytes *)
Definition push (x : Z) (st : list Z) : outcome (list Z) :=
  if (Z.to_nat LZW_TABLE_SIZE <=? length st)%nat then Undef else Ret (u8 x :: st).

(* rdgif.c:343-346: expand a symbol into the stack *)
Fixpoint expand (fuel : nat) (clear code : Z) (head tail st : list Z) : outcome (Z * list Z) :=
  if clear <=? code then
    match fuel with
    | O => Undef
    | S f =>
      t <- aget tail code ;;
      st1 <- push t st ;;
      hd <- aget head code ;;
      expand f clear hd head tail st1
    end
  else Ret (code, st).

Definition add_warn (w : gwarn) (b : grd) : grd :=
  mkGR (r_in b) (r_buf b) (r_lbyte b) (r_lbit b) (r_cbit b) (r_first b) (r_oob b) (r_warn b ++ [w]).

(* bits left in the buffer and the file: bounds the number of codes that can be read *)
Definition bits_left (b : grd) : nat := (Z.to_nat (r_lbit b - r_cbit b) + 8 * length (r_in b))%nat.

(* rdgif.c:192-201 ReInitLZW *)
Definition ReInitLZW (ics : Z) (z : glz) : glz :=
  mkGL (ics + 1) (Z.shiftl (2 ^ ics) 1) (2 ^ ics + 2) (z_old z) (z_fc z) (z_head z) (z_tail z) [].

(* rdgif.c:279-369 LZWReadByte *)
Definition LZWReadByte (ics : Z) (b : grd) (z : glz) : outcome (Z * grd * glz) :=
  match z_stack z with
  | x :: st => Ret (x, b, mkGL (z_size z) (z_limit z) (z_max z) (z_old z) (z_fc z) (z_head z) (z_tail z) st)
  | [] =>
    let clear := 2 ^ ics in
    '(code, b1) <- GetCode clear (z_size z) b ;;
    if code =? clear then
      let z1 := ReInitLZW ics z in
      '(code2, b2) <- clear_loop (S (S (bits_left b1))) clear (z_size z1) b1 ;;
      let '(code3, b3) := if clear <? code2 then (0, add_warn JWRN_GIF_BADDATA b2) else (code2, b2) in
      Ret (code3, b3, mkGL (z_size z1) (z_limit z1) (z_max z1) code3 code3 (z_head z1) (z_tail z1) (z_stack z1))
    else if code =? clear + 1 then
      b2 <- (if r_oob b1 then Ret b1
             else inp <- SkipDataBlocks (S (length (r_in b1))) (r_in b1) ;;
                  Ret (mkGR inp (r_buf b1) (r_lbyte b1) (r_lbit b1) (r_cbit b1) (r_first b1) true (r_warn b1))) ;;
      Ret (0, add_warn JWRN_GIF_ENDCODE b2, z)
    else
      '(incode, code1, st1, b2) <-
        (if z_max z <=? code then
           let '(inc, b') := if z_max z <? code then (0, add_warn JWRN_GIF_BADDATA b1) else (code, b1) in
           st <- push (z_fc z) [] ;; Ret (inc, z_old z, st, b')
         else Ret (code, code, [], b1)) ;;
      '(fc, st2) <- expand (Z.to_nat LZW_TABLE_SIZE) clear code1 (z_head z) (z_tail z) st1 ;;
      z2 <- (if z_max z <? LZW_TABLE_SIZE then
               hd <- aset (z_head z) (z_max z) (u16 (z_old z)) ;;
               tl <- aset (z_tail z) (z_max z) (u8 fc) ;;
               let mx := z_max z + 1 in
               if (z_limit z <=? mx) && (z_size z <? MAX_LZW_BITS)
               then Ret (mkGL (z_size z + 1) (Z.shiftl (z_limit z) 1) mx incode fc hd tl st2)
               else Ret (mkGL (z_size z) (z_limit z) mx incode fc hd tl st2)
             else Ret (mkGL (z_size z) (z_limit z) (z_max z) incode fc (z_head z) (z_tail z) st2)) ;;
      Ret (fc, b2, z2)
  end.

(* rdgif.c:204-225 InitLZWCode; the code buffer (256 + 4 bytes) and the tables are uninitialised *)
Definition init_grd (inp bufj : list Z) : outcome grd :=
  b0 <- aset bufj 0 0 ;; b1 <- aset b0 1 0 ;;
  Ret (mkGR inp b1 2 0 0 true false []).
Definition init_glz (ics : Z) (headj tailj : list Z) : glz :=
  ReInitLZW ics (mkGL 0 0 0 0 0 headj tailj []).

(* n calls of LZWReadByte *)
Fixpoint read_bytes (n : nat) (ics : Z) (b : grd) (z : glz) : outcome (list Z * grd * glz) :=
  match n with
  | O => Ret ([], b, z)
  | S k =>
    '(c, b1, z1) <- LZWReadByte ics b z ;;
    '(l, b2, z2) <- read_bytes k ics b1 z1 ;;
    Ret (c :: l, b2, z2)
  end.

(* LM_to_uint (rdgif.c:64-66) *)
Definition LM_to_uint (a : list Z) (offset : Z) : outcome Z :=
  x <- aget a offset ;; y <- aget a (offset + 1) ;; Ret (x + Z.shiftl y 8).

(* rdgif.c:372-396 ReadColorMap into the colour map cm (MAXCOLORMAPSIZE = 256 entries); result: map, gray, rest *)
Fixpoint ReadColorMap (n : nat) (i : Z) (inp : list Z) (cm : list (Z * Z * Z)) (gray : bool)
  : outcome (list (Z * Z * Z) * bool * list Z) :=
  match n with
  | O => Ret (cm, gray, inp)
  | S k =>
    match inp with
    | r :: g :: b :: rest =>
      cm1 <- aset cm i (r, g, b) ;;
      ReadColorMap k (i + 1) rest cm1 (if negb (r =? g) || negb (g =? b) then false else gray)
    | _ => Error JERR_INPUT_EOF
    end
  end.

(* rdgif.c:441-486: scan for the image separator; the colour space flag gs is in_color_space = JCS_GRAYSCALE.
   Result: width, height, interlaced, code size, colour map, its length, gs, warnings, rest. *)
Record ghdr := mkGHd { h_w : Z; h_h : Z; h_inter : bool; h_ics : Z; h_cm : list (Z * Z * Z); h_cmlen : Z; h_gs : bool;
                       h_warn : list gwarn; h_rest : list Z }.
Fixpoint scan_image (fuel : nat) (inp : list Z) (cm : list (Z * Z * Z)) (cmlen : Z) (gs : bool) (wn : list gwarn) : outcome ghdr :=
  match fuel with
  | O => Undef
  | S f =>
    match inp with
    | [] => Error JERR_INPUT_EOF
    | c :: r =>
      if c =? 59 then Error JERR_OTHER
      else if c =? 33 then
        match r with
        | [] => Error JERR_INPUT_EOF
        | _ :: r1 => r2 <- SkipDataBlocks (S (length r1)) r1 ;; scan_image f r2 cm cmlen gs wn
        end
      else if negb (c =? 44) then scan_image f r cm cmlen gs (wn ++ [JWRN_GIF_CHAR])
      else if (length r <? 9)%nat then Error JERR_INPUT_EOF
      else
        let hdr := firstn 9 r in
        let r1 := skipn 9 r in
        w <- LM_to_uint hdr 4 ;;
        h <- LM_to_uint hdr 6 ;;
        if (w =? 0) || (h =? 0) then Error JERR_EMPTY_IMAGE
        else
          fl <- aget hdr 8 ;;
          '(cm2, cmlen2, gs2, r2) <-
            (if negb (Z.land fl 128 =? 0) then
               let n := Z.shiftl 2 (Z.land fl 7) in
               '(cm', gray, r') <- ReadColorMap (Z.to_nat n) 0 r1 cm true ;; Ret (cm', n, gs || gray, r')
             else Ret (cm, cmlen, gs, r1)) ;;
          match r2 with
          | [] => Error JERR_INPUT_EOF
          | ics :: r3 =>
            if (ics <? 2) || (8 <? ics) then Error JERR_OTHER
            else Ret (mkGHd w h (negb (Z.land fl 64 =? 0)) ics cm2 cmlen2 gs2 wn r3)
          end
    end
  end.

(* rdgif.c:513-518: pad the colour map *)
Fixpoint pad_cmap (n : nat) (i : Z) (cm : list (Z * Z * Z)) : outcome (list (Z * Z * Z)) :=
  match n with
  | O => Ret cm
  | S k => cm1 <- aset cm i (128, 128, 128) ;; pad_cmap k (i + 1) cm1
  end.

(* rdgif.c:399-526 start_input_gif.  max_pixels (cjpeg -maxpixels) = 0, i.e. no limit.  JERR_GIF_NOT is JERR_OTHER,
   JERR_GIF_EMPTY is JERR_EMPTY_IMAGE; in_color_space starts as JCS_RGB (cjpeg.c); cmj is the
   uninitialised colour map. *)
Definition start_input_gif (file : list Z) (cmj : list (Z * Z * Z)) : outcome ghdr :=
  if (length file <? 6)%nat then Error JERR_OTHER
  else
    let hd6 := firstn 6 file in
    if negb (match hd6 with a :: b :: c :: _ => (a =? 71) && (b =? 73) && (c =? 70) | _ => false end) then Error JERR_OTHER
    else
      let f1 := skipn 6 file in
      if (length f1 <? 7)%nat then Error JERR_INPUT_EOF
      else
        let hdr := firstn 7 f1 in
        let f2 := skipn 7 f1 in
        w <- LM_to_uint hdr 0 ;;
        h <- LM_to_uint hdr 2 ;;
        if (w =? 0) || (h =? 0) then Error JERR_EMPTY_IMAGE
        else
          fl <- aget hdr 4 ;;
          '(cm, cmlen, gs, f3) <-
            (if negb (Z.land fl 128 =? 0) then
               let n := Z.shiftl 2 (Z.land fl 7) in
               '(cm', gray, r') <- ReadColorMap (Z.to_nat n) 0 f2 cmj true ;; Ret (cm', n, gray, r')
             else Ret (cmj, 0, false, f2)) ;;
          hd <- scan_image (S (length f3)) f3 cm cmlen gs [] ;;
          cm2 <- pad_cmap (Z.to_nat (2 ^ h_ics hd - h_cmlen hd)) (h_cmlen hd) (h_cm hd) ;;
          Ret (mkGHd (h_w hd) (h_h hd) (h_inter hd) (h_ics hd) cm2 (h_cmlen hd) (h_gs hd) (h_warn hd) (h_rest hd)).

(* rdgif.c:535-561 get_pixel_rows: one row of samples (R only for a grey map) *)
Fixpoint map_pixels (gs : bool) (cm : list (Z * Z * Z)) (l : list Z) : outcome (list Z) :=
  match l with
  | [] => Ret []
  | c :: t =>
    '(r, g, b) <- aget cm c ;;
    rest <- map_pixels gs cm t ;;
    Ret ((if gs then [r] else [r; g; b]) ++ rest)
  end.
Fixpoint get_rows (n : nat) (hd : ghdr) (b : grd) (z : glz) : outcome (list (list Z) * grd) :=
  match n with
  | O => Ret ([], b)
  | S k =>
    '(l, b1, z1) <- read_bytes (Z.to_nat (h_w hd)) (h_ics hd) b z ;;
    row <- map_pixels (h_gs hd) (h_cm hd) l ;;
    '(rows, b2) <- get_rows k hd b1 z1 ;;
    Ret (row :: rows, b2)
  end.

(* rdgif.c:570-607 load_interlaced_image: the rows of indices in the order of the file *)
Fixpoint load_rows (n : nat) (hd : ghdr) (b : grd) (z : glz) : outcome (list (list Z) * grd) :=
  match n with
  | O => Ret ([], b)
  | S k =>
    '(l, b1, z1) <- read_bytes (Z.to_nat (h_w hd)) (h_ics hd) b z ;;
    '(rows, b2) <- load_rows k hd b1 z1 ;;
    Ret (l :: rows, b2)
  end.
(* rdgif.c:602-604 and 630-643: the place of row number cur in the file *)
Definition interlaced_row (h cur : Z) : Z :=
  let pass2 := (h + 7) / 8 in
  let pass3 := pass2 + (h + 3) / 8 in
  let pass4 := pass3 + (h + 1) / 4 in
  let k := Z.land cur 7 in
  if k =? 0 then Z.shiftr cur 3
  else if k =? 4 then Z.shiftr cur 3 + pass2
  else if (k =? 2) || (k =? 6) then Z.shiftr cur 2 + pass3
  else Z.shiftr cur 1 + pass4.
(* rdgif.c:616-663 get_interlaced_row, n times from row cur on *)
Fixpoint get_interlaced (n : nat) (cur : Z) (hd : ghdr) (img : list (list Z)) : outcome (list (list Z)) :=
  match n with
  | O => Ret []
  | S k =>
    l <- aget img (interlaced_row (h_h hd) cur) ;;
    row <- map_pixels (h_gs hd) (h_cm hd) l ;;
    rows <- get_interlaced k (cur + 1) hd img ;;
    Ret (row :: rows)
  end.

(* the whole: width, height, greyscale?, rows of samples, warnings *)
Definition gif_read (file : list Z) (cmj : list (Z * Z * Z)) (bufj headj tailj : list Z) : outcome (Z * Z * bool * list (list Z) * list gwarn) :=
  hd <- start_input_gif file cmj ;;
  b <- init_grd (h_rest hd) bufj ;;
  if h_inter hd then
    '(img, b1) <- load_rows (Z.to_nat (h_h hd)) hd b (init_glz (h_ics hd) headj tailj) ;;
    rows <- get_interlaced (Z.to_nat (h_h hd)) 0 hd img ;;
    Ret (h_w hd, h_h hd, h_gs hd, rows, h_warn hd ++ r_warn b1)
  else
    '(rows, b1) <- get_rows (Z.to_nat (h_h hd)) hd b (init_glz (h_ics hd) headj tailj) ;;
    Ret (h_w hd, h_h hd, h_gs hd, rows, h_warn hd ++ r_warn b1).
