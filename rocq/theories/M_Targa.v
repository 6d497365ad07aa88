(* M_Targa.v -- Targa input (rdtarga.c).  A file is the list of its bytes.  Progress
   reports and the memory manager are not modelled; all sizes fit in 32 bits.  The error
   codes of cderror.h (JERR_TGA_...) are JERR_OTHER. *)
From Verif Require Import Base M_Pnm M_Bmp.

(* rdtarga.c:72-77 *)
Definition c5to8bits : list Z :=
  [0; 8; 16; 25; 33; 41; 49; 58; 66; 74; 82; 90; 99; 107; 115; 123; 132; 140; 148; 156; 165; 173; 181; 189; 197; 206; 214; 222; 230; 239; 247; 255].

(* rdtarga.c:81-91 read_byte *)
Definition read_byte (l : list Z) : outcome (Z * list Z) :=
  match l with [] => Error JERR_INPUT_EOF | b :: l => Ret (b, l) end.
(* rdtarga.c:119-126 read_non_rle_pixel, 152-154: pixel_size bytes *)
Fixpoint read_bytes (n : nat) (l : list Z) : outcome (list Z * list Z) :=
  match n with
  | O => Ret ([], l)
  | S n => '(b, l) <- read_byte l ;; '(bs, l) <- read_bytes n l ;; Ret (b :: bs, l)
  end.
(* rdtarga.c:94-111 read_colormap: entries in the order blue, green, red; an entry here
   is (colormap[0], colormap[1], colormap[2]) *)
Fixpoint tga_colormap (n : nat) (l : list Z) : outcome (list (Z * Z * Z) * list Z) :=
  match n with
  | O => Ret ([], l)
  | S n => '(b, l) <- read_byte l ;; '(g, l) <- read_byte l ;; '(r, l) <- read_byte l ;; '(m, l) <- tga_colormap n l ;; Ret ((r, g, b) :: m, l)
  end.

(* rdtarga.c:42-69: tga_pixel (its first pixel_size bytes), block_count, dup_pixel_count and the rest of the file *)
Record tstate := mkS { s_px : list Z; s_block : Z; s_dup : Z; s_in : list Z }.
Inductive trow := Gray8 | Map8 | Rgb16 | Rgb24.
Record tsrc := mkT { t_rle : bool; t_size : Z; t_row : trow; t_w : Z; t_h : Z; t_comps : Z; t_cs : Z; t_up : bool; t_map : list (Z * Z * Z); t_start : tstate }.

(* rdtarga.c:119-155 read_non_rle_pixel, read_rle_pixel *)
Definition read_pixel (src : tsrc) (s : tstate) : outcome tstate :=
  if t_rle src then
    if 0 <? s_dup s then Ret (mkS (s_px s) (s_block s) (s_dup s - 1) (s_in s))
    else
      let block := s_block s - 1 in
      '(block, dup, l) <-
        (if block <? 0 then
           '(i, l) <- read_byte (s_in s) ;;
           if negb (Z.land i 128 =? 0) then Ret (0, Z.land i 127, l) else Ret (Z.land i 127, s_dup s, l)
         else Ret (block, s_dup s, s_in s)) ;;
      '(px, l) <- read_bytes (Z.to_nat (t_size src)) l ;; Ret (mkS px block dup l)
  else '(px, l) <- read_bytes (Z.to_nat (t_size src)) (s_in s) ;; Ret (mkS px (s_block s) (s_dup s) l).

(* rdtarga.c:165-257: the bodies of the loops of get_8bit_gray_row, get_8bit_row,
   get_16bit_row, get_24bit_row *)
Definition put_pixel (src : tsrc) (px : list Z) : outcome (list Z) :=
  match t_row src with
  | Gray8 => g <- aget px 0 ;; Ret [g]
  | Map8 =>
    t <- aget px 0 ;;
    if Z.of_nat (length (t_map src)) <=? t then Error JERR_OTHER
    else '(r, g, b) <- aget (t_map src) t ;; Ret [r; g; b]
  | Rgb16 =>
    x <- aget px 0 ;; y <- aget px 1 ;;
    let t := x + Z.shiftl y 8 in
    b <- aget c5to8bits (Z.land t 31) ;;
    let t := Z.shiftr t 5 in
    g <- aget c5to8bits (Z.land t 31) ;;
    let t := Z.shiftr t 5 in
    r <- aget c5to8bits (Z.land t 31) ;;
    Ret [r; g; b]
  | Rgb24 => r <- aget px 2 ;; g <- aget px 1 ;; b <- aget px 0 ;; Ret [r; g; b]
  end.
(* rdtarga.c:165-257: n pixels of a row *)
Fixpoint tga_row (src : tsrc) (n : nat) (s : tstate) : outcome (list Z * tstate) :=
  match n with
  | O => Ret ([], s)
  | S n => s <- read_pixel src s ;; p <- put_pixel src (s_px s) ;; '(r, s) <- tga_row src n s ;; Ret (p ++ r, s)
  end.
(* rdtarga.c:304-331: the rows in file order *)
Fixpoint tga_rows (src : tsrc) (n : nat) (s : tstate) : outcome (list (list Z)) :=
  match n with
  | O => Ret []
  | S n => '(r, s) <- tga_row src (Z.to_nat (t_w src)) s ;; rs <- tga_rows src n s ;; Ret (r :: rs)
  end.
(* rdtarga.c:274-295 get_memory_row for current_row = c, c + 1, ... *)
Fixpoint memory_rows (src : tsrc) (img : list (list Z)) (n : nat) (c : Z) : outcome (list (list Z)) :=
  match n with
  | O => Ret []
  | S n => r <- aget img (t_h src - c - 1) ;; rs <- memory_rows src img n (c + 1) ;; Ret (r :: rs)
  end.
(* all the rows cjpeg asks for *)
Definition tga_image (src : tsrc) : outcome (list (list Z)) :=
  let n := Z.to_nat (t_h src) in
  img <- tga_rows src n (t_start src) ;;
  if t_up src then memory_rows src img n 0 else Ret img.

(* rdtarga.c:328-478 start_input_tga; maxpix is max_pixels *)
Definition start_input_tga (maxpix : Z) (file : list Z) : outcome tsrc :=
  '(hd, l) <- take 18 file ;;
  bits <- aget hd 16 ;;
  let bits := if bits =? 15 then 16 else bits in
  idlen <- aget hd 0 ;; cmaptype <- aget hd 1 ;; subtype <- aget hd 2 ;;
  maplen <- get2 hd 5 ;; width <- get2 hd 12 ;; height <- get2 hd 14 ;; flags <- aget hd 17 ;;
  let size := Z.shiftr bits 3 in
  let bottom_up := Z.land flags 32 =? 0 in
  let interlace := Z.shiftr flags 6 in
  if (1 <? cmaptype) || (size <? 1) || (4 <? size) || negb (Z.land bits 7 =? 0) || negb (interlace =? 0) || (width =? 0) || (height =? 0) then Error JERR_OTHER
  else if negb (maxpix =? 0) && (maxpix <? width * height) then Error JERR_IMAGE_TOO_BIG
  else
    let rle := 8 <? subtype in
    let subtype := if rle then subtype - 8 else subtype in
    row <- (if subtype =? 1 then if (size =? 1) && (cmaptype =? 1) then Ret Map8 else Error JERR_OTHER
            else if subtype =? 2 then
              if size =? 2 then Ret Rgb16 else if (size =? 3) || (size =? 4) then Ret Rgb24 else Error JERR_OTHER
            else if subtype =? 3 then if size =? 1 then Ret Gray8 else Error JERR_OTHER
            else Error JERR_OTHER) ;;
    let '(comps, cs) := match row with Gray8 => (1, JCS_GRAYSCALE) | _ => (3, JCS_RGB) end in
    '(_, l) <- read_bytes (Z.to_nat idlen) l ;;
    '(map, l) <-
      (if 0 <? maplen then
         first <- get2 hd 3 ;;
         if (256 <? maplen) || negb (first =? 0) then Error JERR_OTHER
         else
           es <- aget hd 7 ;;
           if negb (es =? 24) then Error JERR_OTHER else tga_colormap (Z.to_nat maplen) l
       else if negb (cmaptype =? 0) then Error JERR_OTHER else Ret ([], l)) ;;
    Ret (mkT rle size row width height comps cs bottom_up map (mkS [] 0 0 l)).
