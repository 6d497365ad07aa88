(* M_Pnm.v -- PPM/PGM input (rdppm.c, cjpeg and tj3LoadImage) and output (wrppm.c,
   djpeg and tj3SaveImage), for 8-, 12- and 16-bit samples.  A file is the list of
   its bytes.  Write errors and colour-mapped output are not modelled. *)
From Verif Require Import Base.

(* _MAXJSAMPLE for data precision p *)
Definition maxj (p : Z) : Z := 2 ^ p - 1.
(* conversion to _JSAMPLE: unsigned char, short, unsigned short (jmorecfg.h, jsamplecomp.h) *)
Definition jcast (p v : Z) : Z := if p =? 8 then u8 v else if p =? 12 then s16 v else u16 v.

(* colour spaces as numbered in jpeglib.h (J_COLOR_SPACE) *)
Definition JCS_UNKNOWN := 0.
Definition JCS_GRAYSCALE := 1.
Definition JCS_RGB := 2.
Definition JCS_CMYK := 4.
Definition JCS_EXT_RGB := 6.
(* cdjpeg.h / jpeglib tables rgb_red, rgb_green, rgb_blue, rgb_pixelsize
   (jdcolor.c:38-72, jccolor.c); rdppm.c:54-56 alpha_index *)
Definition t_red   : list Z := [-1;-1;0;-1;-1;-1;0;0;2;2;3;1;0;2;3;1;-1].
Definition t_green : list Z := [-1;-1;1;-1;-1;-1;1;1;1;1;2;2;1;1;2;2;-1].
Definition t_blue  : list Z := [-1;-1;2;-1;-1;-1;2;2;0;0;1;3;2;0;1;3;-1].
Definition t_psize : list Z := [-1;-1;3;-1;-1;-1;3;4;3;4;4;4;4;4;4;4;-1].
Definition t_alpha : list Z := [-1;-1;-1;-1;-1;-1;-1;-1;-1;-1;-1;-1;3;3;0;0;-1].
(* cdjpeg.h:32-35 IsExtRGB *)
Definition IsExtRGB (cs : Z) : bool := (cs =? JCS_RGB) || ((6 <=? cs) && (cs <=? 15)).

(* cmyk.h:27-60 rgb_to_cmyk, cmyk_to_rgb.  Simplification: the double arithmetic
   is taken to be exact; the results are then these rounded quotients *)
Definition rgb_to_cmyk (M r g b : Z) : Z * Z * Z * Z :=
  let mx := Z.max (Z.max r g) b in
  if mx =? 0 then (M, M, M, 0)
  else ((2 * M * r + mx) / (2 * mx), (2 * M * g + mx) / (2 * mx), (2 * M * b + mx) / (2 * mx), mx).
Definition cmyk_to_rgb (M c m y k : Z) : Z * Z * Z :=
  ((2 * (c * k) + M) / (2 * M), (2 * (m * k) + M) / (2 * M), (2 * (y * k) + M) / (2 * M)).

(* ================ reader ================ *)
(* rdppm.c:76-91 pbm_getc; None is EOF *)
Fixpoint skip_comment (l : list Z) : option Z * list Z :=
  match l with
  | [] => (None, [])
  | ch :: t => if ch =? 10 then (Some 10, t) else skip_comment t
  end.
Definition pbm_getc (l : list Z) : option Z * list Z :=
  match l with
  | [] => (None, [])
  | ch :: t => if ch =? 35 then skip_comment t else (Some ch, t)
  end.
Definition is_ws (ch : Z) : bool := (ch =? 32) || (ch =? 9) || (ch =? 10) || (ch =? 13).
Definition is_digit (ch : Z) : bool := (48 <=? ch) && (ch <=? 57).

(* rdppm.c:94-124 read_pbm_integer: the two loops; every turn consumes a byte *)
Fixpoint rpi_skip (fuel : nat) (l : list Z) : outcome (Z * list Z) :=
  match fuel with
  | O => Undef
  | S fuel => match pbm_getc l with
              | (None, _) => Error JERR_INPUT_EOF
              | (Some ch, l) => if is_ws ch then rpi_skip fuel l else Ret (ch, l)
              end
  end.
Fixpoint rpi_digits (fuel : nat) (maxval val : Z) (l : list Z) : outcome (Z * list Z) :=
  match fuel with
  | O => Undef
  | S fuel => match pbm_getc l with
              | (Some ch, l) =>
                if is_digit ch then
                  let val := u32 (u32 (val * 10) + (ch - 48)) in
                  if maxval <? val then Error JERR_OTHER (* JERR_PPM_OUTOFRANGE *)
                  else rpi_digits fuel maxval val l
                else Ret (val, l)
              | (None, l) => Ret (val, l)
              end
  end.
Definition read_pbm_integer (maxval : Z) (l : list Z) : outcome (Z * list Z) :=
  '(ch, l) <- rpi_skip (S (length l)) l ;;
  if negb (is_digit ch) then Error JERR_OTHER (* JERR_PPM_NONNUMERIC *)
  else rpi_digits (S (length l)) maxval (ch - 48) l.

(* ppm_source_struct and the fields of cinfo it sets.  s_fmt = '2', '3', '5' or
   '6'; s_raw = the input buffer is the I/O buffer; s_rescale = rescale or NULL *)
Record psrc := mkPS { s_fmt : Z; s_w : Z; s_h : Z; s_maxval : Z; s_cs : Z; s_comps : Z;
  s_raw : bool; s_rescale : option (list Z); s_bw : Z; s_file : list Z }.

(* rdppm.c:838-853, closed form of the filling loop *)
Definition rescale_table (p maxval : Z) : list Z :=
  map (fun i => let v := Z.of_nat i in
         if v <=? maxval then jcast p ((v * maxj p + maxval / 2) / maxval) else 0)
      (seq 0 (Z.to_nat (Z.max maxval 255 + 1))).

(* rdppm.c:678-855 start_input_ppm; maxpix = max_pixels, cs = in_color_space *)
Definition start_input (p cs maxpix : Z) (file : list Z) : outcome psrc :=
  match file with
  | 80 :: c :: l =>
    if negb ((c =? 50) || (c =? 51) || (c =? 53) || (c =? 54)) then Error JERR_OTHER (* JERR_PPM_NOT *) else
    '(w, l) <- read_pbm_integer 65535 l ;;
    '(h, l) <- read_pbm_integer 65535 l ;;
    '(maxval, l) <- read_pbm_integer 65535 l ;;
    if (w <=? 0) || (h <=? 0) || (maxval <=? 0) then Error JERR_OTHER else
    if negb (maxpix =? 0) && (maxpix <? w * h) then Error JERR_IMAGE_TOO_BIG else
    let cs := if (c =? 50) || (c =? 53)
              then if (cs =? JCS_UNKNOWN) || (cs =? JCS_RGB) then JCS_GRAYSCALE else cs
              else if cs =? JCS_UNKNOWN then JCS_EXT_RGB else cs in
    if negb (IsExtRGB cs || (cs =? JCS_CMYK) || (((c =? 50) || (c =? 53)) && (cs =? JCS_GRAYSCALE)))
    then Error JERR_BAD_IN_COLORSPACE else
    let raw := (maxval <=? 255) && (maxval =? maxj p) && (p =? 8) &&
               (((c =? 53) && (cs =? JCS_GRAYSCALE)) || ((c =? 54) && ((cs =? JCS_EXT_RGB) || (cs =? JCS_RGB)))) in
    comps <- (if IsExtRGB cs then aget t_psize cs else if cs =? JCS_GRAYSCALE then Ret 1 else Ret 4) ;;
    let bw := w * (if c =? 54 then 3 else 1) * (if maxval <=? 255 then 1 else 2) in
    Ret (mkPS c w h maxval cs comps raw (if raw then None else Some (rescale_table p maxval)) bw l)
  | _ => Error JERR_OTHER
  end.

(* one sample of the file, scaled: text (the get_text row methods), byte and word formats.
   [direct]: rescale is not used because maxval = _MAXJSAMPLE *)
Definition lookup (src : psrc) (v : Z) : outcome Z :=
  match s_rescale src with Some t => aget t v | None => Undef end.
Definition rd_sample (p : Z) (src : psrc) (direct : bool) (l : list Z) : outcome (Z * list Z) :=
  if (s_fmt src =? 50) || (s_fmt src =? 51) then
    '(v, l) <- read_pbm_integer (s_maxval src) l ;;
    s <- (if direct then Ret (jcast p v) else lookup src v) ;; Ret (s, l)
  else if s_maxval src <=? 255 then
    match l with
    | v :: l => s <- (if direct then Ret v else lookup src v) ;; Ret (s, l)
    | [] => Undef
    end
  else
    match l with
    | a :: b :: l =>
      let v := Z.lor (Z.shiftl a 8) b in
      if s_maxval src <? v then Error JERR_OTHER else s <- lookup src v ;; Ret (s, l)
    | _ => Undef
    end.

Definition rowbuf : Type := list (option Z).
(* one pixel of the compressor input buffer *)
Definition put_pixel (p cs ptr r g b : Z) (buf : rowbuf) : outcome rowbuf :=
  if cs =? JCS_GRAYSCALE then aset buf ptr (Some r)
  else if cs =? JCS_CMYK then
    let '(c, m, y, k) := rgb_to_cmyk (maxj p) r g b in
    buf <- aset buf ptr (Some c) ;; buf <- aset buf (ptr + 1) (Some m) ;;
    buf <- aset buf (ptr + 2) (Some y) ;; aset buf (ptr + 3) (Some k)
  else
    ri <- aget t_red cs ;; gi <- aget t_green cs ;; bi <- aget t_blue cs ;; ai <- aget t_alpha cs ;;
    buf <- aset buf (ptr + ri) (Some r) ;; buf <- aset buf (ptr + gi) (Some g) ;; buf <- aset buf (ptr + bi) (Some b) ;;
    if 0 <=? ai then aset buf (ptr + ai) (Some (maxj p)) else Ret buf.

(* the column loops of the row methods *)
Fixpoint row_loop (p : Z) (src : psrc) (direct : bool) (n : nat) (ptr : Z) (buf : rowbuf) (l : list Z) : outcome (rowbuf * list Z) :=
  match n with
  | O => Ret (buf, l)
  | S n =>
    '(r, l) <- rd_sample p src direct l ;;
    '(g, b, l) <- (if (s_fmt src =? 51) || (s_fmt src =? 54)
                   then '(g, l) <- rd_sample p src direct l ;; '(b, l) <- rd_sample p src direct l ;; Ret (g, b, l)
                   else Ret (r, r, l)) ;;
    buf <- put_pixel p (s_cs src) ptr r g b buf ;;
    row_loop p src direct n (ptr + s_comps src) buf l
  end.

(* rdppm.c:137-672 get_pixel_rows.  The gray row methods always use rescale; the
   others read the sample as it is when maxval = _MAXJSAMPLE, except the word
   formats (12- and 16-bit), which always use rescale *)
Definition set_file (src : psrc) (l : list Z) : psrc :=
  mkPS (s_fmt src) (s_w src) (s_h src) (s_maxval src) (s_cs src) (s_comps src) (s_raw src) (s_rescale src) (s_bw src) l.
Definition get_row (p : Z) (src : psrc) (buf : rowbuf) : outcome (rowbuf * psrc) :=
  let direct := (s_maxval src =? maxj p) && negb (s_cs src =? JCS_GRAYSCALE) in
  if (s_fmt src =? 50) || (s_fmt src =? 51) then
    '(buf, l) <- row_loop p src direct (Z.to_nat (s_w src)) 0 buf (s_file src) ;;
    Ret (buf, set_file src l)
  else
    let bw := Z.to_nat (s_bw src) in
    if (length (s_file src) <? bw)%nat then Error JERR_INPUT_EOF
    else
      let io := firstn bw (s_file src) in
      let src' := set_file src (skipn bw (s_file src)) in
      if s_raw src then Ret (map Some io, src')
      else '(buf, _) <- row_loop p src direct (Z.to_nat (s_w src)) 0 buf io ;; Ret (buf, src').

(* the caller reads image_height rows *)
Fixpoint get_rows (p : Z) (n : nat) (src : psrc) (buf : rowbuf) : outcome (list rowbuf * psrc) :=
  match n with
  | O => Ret ([], src)
  | S n => '(row, src) <- get_row p src buf ;; '(rows, src) <- get_rows p n src row ;; Ret (row :: rows, src)
  end.

(* ================ writer ================ *)
(* fprintf %ld, %d of a non-negative number *)
Fixpoint dec (fuel : nat) (n : Z) : list Z :=
  match fuel with
  | O => []
  | S fuel => if n <? 10 then [48 + n] else dec fuel (n / 10) ++ [48 + n mod 10]
  end.
Definition pdec (n : Z) : list Z := dec (Z.to_nat n + 1) n.
(* wrppm.c:38-60 PUTPPMSAMPLE, PPM_MAXVAL (PPM_NORAWWORD not defined) *)
Definition put_sample (p v : Z) : list Z := if p =? 8 then [v] else [Z.land (Z.shiftr v 8) 255; Z.land v 255].
(* wrppm.c:228-263 start_output_ppm *)
Definition start_output (p cs w h : Z) : outcome (list Z) :=
  if cs =? JCS_GRAYSCALE then Ret ([80; 53; 10] ++ pdec w ++ [32] ++ pdec h ++ [10] ++ pdec (maxj p) ++ [10])
  else if IsExtRGB cs || (cs =? JCS_CMYK) then Ret ([80; 54; 10] ++ pdec w ++ [32] ++ pdec h ++ [10] ++ pdec (maxj p) ++ [10])
  else Error JERR_OTHER.
(* wrppm.c:90-182 put_pixel_rows, copy_pixel_rows, put_rgb, put_cmyk.  put_pixel_rows
   writes the samples as they are, which is put_rgb for the layout R, G, B *)
Fixpoint put_row (p cs : Z) (n : nat) (ptr : Z) (row : list Z) : outcome (list Z) :=
  match n with
  | O => Ret []
  | S n =>
    if cs =? JCS_GRAYSCALE then
      v <- aget row ptr ;; t <- put_row p cs n (ptr + 1) row ;; Ret (put_sample p v ++ t)
    else if cs =? JCS_CMYK then
      c <- aget row ptr ;; m <- aget row (ptr + 1) ;; y <- aget row (ptr + 2) ;; k <- aget row (ptr + 3) ;;
      let '(r, g, b) := cmyk_to_rgb (maxj p) c m y k in
      t <- put_row p cs n (ptr + 4) row ;; Ret (put_sample p r ++ put_sample p g ++ put_sample p b ++ t)
    else
      ri <- aget t_red cs ;; gi <- aget t_green cs ;; bi <- aget t_blue cs ;; ps <- aget t_psize cs ;;
      r <- aget row (ptr + ri) ;; g <- aget row (ptr + gi) ;; b <- aget row (ptr + bi) ;;
      t <- put_row p cs n (ptr + ps) row ;; Ret (put_sample p r ++ put_sample p g ++ put_sample p b ++ t)
  end.
Fixpoint put_rows (p cs w : Z) (rows : list (list Z)) : outcome (list Z) :=
  match rows with
  | [] => Ret []
  | row :: rows => a <- put_row p cs (Z.to_nat w) 0 row ;; b <- put_rows p cs w rows ;; Ret (a ++ b)
  end.
Definition write_ppm (p cs w h : Z) (rows : list (list Z)) : outcome (list Z) :=
  hd <- start_output p cs w h ;; body <- put_rows p cs w rows ;; Ret (hd ++ body).
