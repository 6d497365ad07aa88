(* M_Bmp.v -- BMP input (rdbmp.c, cjpeg and tj3LoadImage8) and output (wrbmp.c, djpeg
   and tj3SaveImage8).  A file is the list of its bytes.  Write errors, progress
   reports, the memory limit of the whole-image array and RGB565 output are not
   modelled.  The error codes of cderror.h (JERR_BMP_...) are JERR_OTHER. *)
From Verif Require Import Base M_Pnm.

(* fread of n bytes; fewer is an error *)
Definition take (n : Z) (l : list Z) : outcome (list Z * list Z) :=
  if Z.of_nat (length l) <? n then Error JERR_INPUT_EOF
  else Ret (firstn (Z.to_nat n) l, skipn (Z.to_nat n) l).

(* rdbmp.c:419-425 GET_2B, GET_4B; assignments to int keep 32 bits *)
Definition get2 (a : list Z) (o : Z) : outcome Z :=
  x <- aget a o ;; y <- aget a (o + 1) ;; Ret (x + Z.shiftl y 8).
Definition get4 (a : list Z) (o : Z) : outcome Z :=
  x <- aget a o ;; y <- aget a (o + 1) ;; z <- aget a (o + 2) ;; w <- aget a (o + 3) ;;
  Ret (x + Z.shiftl y 8 + Z.shiftl z 16 + Z.shiftl w 24).

(* rdbmp.c:90-142 read_colormap: entries of 3 bytes (BGR) or 4 (BGR0), and
   whether all of them are gray *)
Fixpoint read_colormap (n : nat) (es : Z) (l : list Z) : outcome (list (Z * Z * Z) * bool * list Z) :=
  match n with
  | O => Ret ([], true, l)
  | S n =>
    '(e, l) <- take es l ;;
    b <- aget e 0 ;; g <- aget e 1 ;; r <- aget e 2 ;;
    '(m, gray, l) <- read_colormap n es l ;;
    Ret ((r, g, b) :: m, (b =? g) && (g =? r) && gray, l)
  end.

Record bsrc := mkB { b_bpp : Z; b_w : Z; b_h : Z; b_cs : Z; b_comps : Z; b_rw : Z;
                     b_cmap : list (Z * Z * Z); b_dens : option (Z * Z); b_file : list Z }.

(* rdbmp.c:602: padding to a multiple of 4 in a JDIMENSION; the
   loop is written in closed form *)
Definition pad4 (x : Z) : Z := u32 ((x + 3) / 4 * 4).
(* jmemmgr.c:461-465 alloc_sarray, alloc_small: MAX_ALLOC_CHUNK *)
Definition MAX_ALLOC_CHUNK := 1000000000.

(* the fields of the two header forms, rdbmp.c:448-522:
   width, height, planes, bits, colours used, size of a map entry, density *)
Definition read_info (hs : Z) (ih : list Z) : outcome (Z * Z * Z * Z * Z * Z * option (Z * Z)) :=
  if hs =? 12 then
    w <- get2 ih 4 ;; h <- get2 ih 6 ;; pl <- get2 ih 8 ;; bpp <- get2 ih 10 ;;
    if bpp =? 8 then Ret (w, h, pl, bpp, 0, 3, None)
    else if (bpp =? 24) || (bpp =? 32) then Ret (w, h, pl, bpp, 0, 0, None)
    else Error JERR_OTHER
  else if (hs =? 40) || (hs =? 64) then
    w <- get4 ih 4 ;; h <- get4 ih 8 ;; pl <- get2 ih 12 ;; bpp <- get2 ih 14 ;;
    comp <- get4 ih 16 ;; xp <- get4 ih 24 ;; yp <- get4 ih 28 ;; cu <- get4 ih 32 ;;
    if negb ((bpp =? 8) || (bpp =? 24) || (bpp =? 32)) then Error JERR_OTHER
    else if negb (comp =? 0) then Error JERR_OTHER
    else
      let xp := s32 xp in let yp := s32 yp in
      let dens := if (0 <? xp) && (0 <? yp) then Some (u16 (Z.quot xp 100), u16 (Z.quot yp 100)) else None in
      Ret (s32 w, s32 h, pl, bpp, s32 cu, (if bpp =? 8 then 4 else 0), dens)
  else Error JERR_OTHER.

(* rdbmp.c:557-603: colour space, components and bytes per file row *)
Definition read_layout (bpp w cs : Z) : outcome (Z * Z * Z) :=
  let cs := if cs =? JCS_UNKNOWN then (if bpp =? 8 then JCS_EXT_RGB else if bpp =? 24 then 8 else 13) else cs in
  comps <- (if IsExtRGB cs then aget t_psize cs
            else if (bpp =? 8) && (cs =? JCS_GRAYSCALE) then Ret 1
            else if cs =? JCS_CMYK then Ret 4
            else Error JERR_BAD_IN_COLORSPACE) ;;
  let k := if bpp =? 8 then 1 else if bpp =? 24 then 3 else 4 in
  if negb (bpp =? 8) && (4294967295 <? w * k) then Error JERR_WIDTH_OVERFLOW
  else Ret (cs, comps, pad4 (w * k)).

(* rdbmp.c:412-650 start_input_bmp; inv is use_inversion_array, maxpix is
   max_pixels *)
Definition start_input_bmp (cs : Z) (inv : bool) (maxpix : Z) (file : list Z) : outcome bsrc :=
  '(fh, l) <- take 14 file ;;
  magic <- get2 fh 0 ;;
  if negb (magic =? 19778) then Error JERR_OTHER
  else
    off <- get4 fh 10 ;;
    let off := s32 off in
    '(ih4, l) <- take 4 l ;;
    hs <- get4 ih4 0 ;;
    let hs := s32 hs in
    if (hs <? 12) || (64 <? hs) || (off <? hs + 14) then Error JERR_OTHER
    else
      '(ih, l) <- take (hs - 4) l ;;
      '(w, h, pl, bpp, cu, es, dens) <- read_info hs (ih4 ++ ih) ;;
      if (w <=? 0) || (h <=? 0) then Error JERR_OTHER
      else if negb (maxpix =? 0) && (maxpix <? w * h) then Error JERR_IMAGE_TOO_BIG
      else if negb (pl =? 1) then Error JERR_OTHER
      else
        let pad := off - (hs + 14) in
        '(cmap, cs, pad, l) <-
          (if 0 <? es then
             if 256 <? cu then Error JERR_OTHER
             else
               let cu := if cu <=? 0 then 256 else cu in
               '(m, gray, l) <- read_colormap (Z.to_nat cu) es l ;;
               let cs := if ((cs =? JCS_UNKNOWN) || (cs =? JCS_RGB)) && gray then JCS_GRAYSCALE else cs in
               if (cs =? JCS_GRAYSCALE) && negb gray then Error JERR_BAD_IN_COLORSPACE
               else Ret (m, cs, pad - cu * es, l)
           else Ret ([], cs, pad, l)) ;;
        if pad <? 0 then Error JERR_OTHER
        else
          '(_, l) <- take pad l ;;
          '(cs, comps, rw) <- read_layout bpp w cs ;;
          if negb inv && (MAX_ALLOC_CHUNK <? rw) then Error JERR_OUT_OF_MEMORY
          else if 4294967295 <? w * comps then Error JERR_WIDTH_OVERFLOW
          else if MAX_ALLOC_CHUNK <? w * comps then Error JERR_OUT_OF_MEMORY
          else Ret (mkB bpp w h cs comps rw cmap dens l).

(* one pixel of the compressor input buffer; a is the alpha byte, stored when
   the pixel layout has one (rdbmp.c:178-215, 258-283, 320-346) *)
Definition put_px (cs ptr r g b a : Z) (buf : rowbuf) : outcome rowbuf :=
  if cs =? JCS_GRAYSCALE then aset buf ptr (Some r)
  else if cs =? JCS_CMYK then
    let '(c, m, y, k) := rgb_to_cmyk 255 r g b in
    buf <- aset buf ptr (Some c) ;; buf <- aset buf (ptr + 1) (Some m) ;;
    buf <- aset buf (ptr + 2) (Some y) ;; aset buf (ptr + 3) (Some k)
  else
    ri <- aget t_red cs ;; gi <- aget t_green cs ;; bi <- aget t_blue cs ;; ai <- aget t_alpha cs ;;
    buf <- aset buf (ptr + ri) (Some r) ;; buf <- aset buf (ptr + gi) (Some g) ;; buf <- aset buf (ptr + bi) (Some b) ;;
    if 0 <=? ai then aset buf (ptr + ai) (Some a) else Ret buf.

(* the pixel in column c of a file row *)
Definition fetch (src : bsrc) (io : list Z) (c : Z) : outcome (Z * Z * Z * Z) :=
  if b_bpp src =? 8 then
    t <- aget io c ;;
    if Z.of_nat (length (b_cmap src)) <=? t then Error JERR_OTHER
    else '(r, g, b) <- aget (b_cmap src) t ;; Ret (r, g, b, 255)
  else if b_bpp src =? 24 then
    b <- aget io (3 * c) ;; g <- aget io (3 * c + 1) ;; r <- aget io (3 * c + 2) ;; Ret (r, g, b, 255)
  else
    b <- aget io (4 * c) ;; g <- aget io (4 * c + 1) ;; r <- aget io (4 * c + 2) ;; a <- aget io (4 * c + 3) ;;
    Ret (r, g, b, a).
Fixpoint col_loop (src : bsrc) (io : list Z) (n : nat) (c : Z) (buf : rowbuf) : outcome rowbuf :=
  match n with
  | O => Ret buf
  | S n =>
    '(r, g, b, a) <- fetch src io c ;;
    buf <- put_px (b_cs src) (c * b_comps src) r g b a buf ;;
    col_loop src io n (c + 1) buf
  end.

(* rdbmp.c:253-254, 315-317: rows that are copied as they are, with the padding *)
Definition copied (src : bsrc) : bool :=
  ((b_bpp src =? 24) && (b_cs src =? 8)) ||
  ((b_bpp src =? 32) && ((b_cs src =? 9) || (b_cs src =? 13))).

(* rdbmp.c:144-349 get_8bit_row, get_24bit_row, get_32bit_row on the file row io
   of row_width bytes *)
Definition expand_row (src : bsrc) (io : list Z) (buf : rowbuf) : outcome rowbuf :=
  if copied src then
    if (length buf <? length io)%nat then Undef
    else Ret (map Some io ++ skipn (length io) buf)
  else col_loop src io (Z.to_nat (b_w src)) 0 buf.

(* without the inversion array: rows in file order, read as they are needed *)
Fixpoint get_rows_direct (src : bsrc) (n : nat) (l : list Z) (buf : rowbuf) : outcome (list rowbuf) :=
  match n with
  | O => Ret []
  | S n =>
    '(io, l) <- take (b_rw src) l ;;
    row <- expand_row src io buf ;; rows <- get_rows_direct src n l row ;; Ret (row :: rows)
  end.

(* rdbmp.c:357-402 preload_image: all the rows of the file *)
Fixpoint preload (rw : Z) (n : nat) (l : list Z) : outcome (list (list Z)) :=
  match n with
  | O => Ret []
  | S n => '(io, l) <- take rw l ;; rest <- preload rw n l ;; Ret (io :: rest)
  end.
(* then source_row counts down from image_height *)
Fixpoint get_rows_inverted (src : bsrc) (img : list (list Z)) (n : nat) (row : Z) (buf : rowbuf) : outcome (list rowbuf) :=
  match n with
  | O => Ret []
  | S n =>
    io <- aget img (row - 1) ;;
    out <- expand_row src io buf ;; rows <- get_rows_inverted src img n (row - 1) out ;; Ret (out :: rows)
  end.

(* the image_height calls of get_pixel_rows *)
Definition get_rows (inv : bool) (src : bsrc) (buf : rowbuf) : outcome (list rowbuf) :=
  let h := Z.to_nat (b_h src) in
  if inv then
    img <- preload (b_rw src) h (b_file src) ;; get_rows_inverted src img h (b_h src) buf
  else get_rows_direct src h (b_file src) buf.

(* ================ writer ================ *)
(* wrbmp.c:206-213, 308-313 PUT_2B, PUT_4B *)
Definition put2 (v : Z) : list Z := [Z.land v 255; Z.land (Z.shiftr v 8) 255].
Definition put4 (v : Z) : list Z :=
  [Z.land v 255; Z.land (Z.shiftr v 8) 255; Z.land (Z.shiftr v 16) 255; Z.land (Z.shiftr v 24) 255].

(* cinfo->quantize_colors with its colormap (for a one-component colormap the
   three values of an entry are equal), and the density if density_unit is 2 *)
Record wparm := mkW { w_cs : Z; w_w : Z; w_h : Z; w_map : option (list (Z * Z * Z)); w_os2 : bool;
                      w_dens : option (Z * Z) }.

Definition is_mapped (p : wparm) : bool := match w_map p with Some _ => true | None => false end.
(* wrbmp.c:219-237: 24 bits per pixel, or 8 and 256 entries *)
Definition full_color (p : wparm) : bool :=
  (IsExtRGB (w_cs p) && negb (is_mapped p)) || (w_cs p =? JCS_CMYK).

(* wrbmp.c:361-414 write_colormap *)
Definition cmap_entry (es : Z) (e : Z * Z * Z) : list Z :=
  let '(r, g, b) := e in if es =? 4 then [b; g; r; 0] else [b; g; r].
Definition write_colormap (p : wparm) (es : Z) : outcome (list Z) :=
  let m := match w_map p with Some m => m | None => map (fun i => (Z.of_nat i, Z.of_nat i, Z.of_nat i)) (seq 0 256) end in
  if 256 <? Z.of_nat (length m) then Error JERR_OTHER
  else Ret (flat_map (cmap_entry es) (m ++ repeat (0, 0, 0) (256 - length m))).

(* wrbmp.c:512-530: bytes per row of the file *)
Definition data_width (p : wparm) : Z := if full_color p then u32 (w_w p * 3) else w_w p.
Definition out_row_width (p : wparm) : Z := pad4 (data_width p).

(* wrbmp.c:199-352 write_bmp_header, write_os2_header *)
Definition write_header (p : wparm) : outcome (list Z) :=
  let bits := if full_color p then 24 else 8 in
  let entries := if full_color p then 0 else 256 in
  let es := if w_os2 p then 3 else 4 in
  let headersize := 14 + (if w_os2 p then 12 else 40) + entries * es in
  let bfsize := headersize + out_row_width p * w_h p in
  let fh := [66; 77] ++ put4 bfsize ++ [0; 0; 0; 0] ++ put4 headersize in
  let ih :=
    if w_os2 p then put2 12 ++ [0; 0] ++ put2 (w_w p) ++ put2 (w_h p) ++ put2 1 ++ put2 bits
    else put2 40 ++ [0; 0] ++ put4 (w_w p) ++ put4 (w_h p) ++ put2 1 ++ put2 bits ++
         [0; 0; 0; 0] ++ [0; 0; 0; 0] ++
         match w_dens p with Some (x, y) => put4 (x * 100) ++ put4 (y * 100) | None => [0; 0; 0; 0; 0; 0; 0; 0] end ++
         put2 entries ++ [0; 0] ++ [0; 0; 0; 0] in
  cm <- (if full_color p then Ret [] else write_colormap p es) ;;
  Ret (fh ++ ih ++ cm).

(* wrbmp.c:122-156 put_pixel_rows: the pixels of a row *)
Fixpoint put_cols (cs : Z) (n : nat) (ptr : Z) (row : list Z) : outcome (list Z) :=
  match n with
  | O => Ret []
  | S n =>
    if cs =? JCS_CMYK then
      c <- aget row ptr ;; m <- aget row (ptr + 1) ;; y <- aget row (ptr + 2) ;; k <- aget row (ptr + 3) ;;
      let '(r, g, b) := cmyk_to_rgb 255 c m y k in
      t <- put_cols cs n (ptr + 4) row ;; Ret (b :: g :: r :: t)
    else
      ri <- aget t_red cs ;; gi <- aget t_green cs ;; bi <- aget t_blue cs ;; ps <- aget t_psize cs ;;
      b <- aget row (ptr + bi) ;; g <- aget row (ptr + gi) ;; r <- aget row (ptr + ri) ;;
      t <- put_cols cs n (ptr + ps) row ;; Ret (b :: g :: r :: t)
  end.
(* wrbmp.c:88-190 put_pixel_rows, put_gray_rows.  Simplification: for JCS_EXT_BGR
   the C code copies row_width bytes, padding included, and then overwrites the
   padding; the padding read from the row buffer is not modelled *)
Definition write_row (p : wparm) (row : list Z) : outcome (list Z) :=
  d <- (if full_color p then put_cols (w_cs p) (Z.to_nat (w_w p)) 0 row
        else if (length row <? Z.to_nat (w_w p))%nat then Undef else Ret (firstn (Z.to_nat (w_w p)) row)) ;;
  Ret (d ++ repeat 0 (Z.to_nat (out_row_width p - data_width p))).
Fixpoint write_rows (p : wparm) (rows : list (list Z)) : outcome (list Z) :=
  match rows with
  | [] => Ret []
  | row :: rows => a <- write_row p row ;; b <- write_rows p rows ;; Ret (a ++ b)
  end.

(* wrbmp.c:416-558 start_output_bmp, finish_output_bmp, jinit_write_bmp: with the
   inversion array the rows, given from the top, are written from the bottom *)
Definition write_bmp (p : wparm) (inv : bool) (rows : list (list Z)) : outcome (list Z) :=
  if (w_cs p =? JCS_GRAYSCALE) || IsExtRGB (w_cs p) || (negb (is_mapped p) && (w_cs p =? JCS_CMYK)) then
    hd <- write_header p ;;
    body <- write_rows p (if inv then rev rows else rows) ;;
    Ret (hd ++ body)
  else Error JERR_OTHER.
