(* M_Color.v -- colour conversion, compressor (jccolor.c, jccolext.c) and decompressor (jdcolor.c,
   jdcolext.c), C code (not SIMD).  p = sample precision, 8 or 12 (BITS_IN_JSAMPLE). *)
From Verif Require Import Base M_RangeLimit.

(* jccolor.c:71-75: FIX(x) for x given in units of 1/100000.  The C macro computes it in double
   precision; none of the constants is within 2^-4 of a rounding boundary. *)
Definition FIX (x : Z) : Z := (x * 65536 * 2 + 100000) / 200000.
Definition ONE_HALF : Z := 32768.

(* jccolor.c:81-98: RANGE_LIMIT masks 12-bit samples *)
Definition RANGE_LIMIT (p v : Z) : Z := if p =? 12 then Z.land v 4095 else v.

(* jccolor.c:209-244 rgb_ycc_start: one table of 8 sections of MAX+1 entries (R=>Cr shares B=>Cb) *)
Definition ycc_size (p : Z) : Z := 8 * (maxsample p + 1).
Definition rgb_ycc_start (p : Z) : outcome tblmem :=
  let M := maxsample p + 1 in
  let size := ycc_size p in
  let cbcr_offset := Z.shiftl (centersample p) 16 in
  t <- tfill size (fun _ => None) (0 * M) M (fun i => Some (FIX 29900 * i)) ;;
  t <- tfill size t (1 * M) M (fun i => Some (FIX 58700 * i)) ;;
  t <- tfill size t (2 * M) M (fun i => Some (FIX 11400 * i + ONE_HALF)) ;;
  t <- tfill size t (3 * M) M (fun i => Some (- FIX 16874 * i)) ;;
  t <- tfill size t (4 * M) M (fun i => Some (- FIX 33126 * i)) ;;
  t <- tfill size t (5 * M) M (fun i => Some (FIX 50000 * i + cbcr_offset + ONE_HALF - 1)) ;;
  t <- tfill size t (6 * M) M (fun i => Some (- FIX 41869 * i)) ;;
  tfill size t (7 * M) M (fun i => Some (- FIX 8131 * i)).

(* conversion of the result to the sample type: unsigned char or (12 bits) short; truncation to the
   type, modelled for in-type values by the identity and otherwise by wrapping at 2^16 / 2^8 *)
Definition to_sample (p v : Z) : Z := if p =? 12 then s16 v else u8 v.

(* jccolext.c:58-68: three table lookups, a sum and a shift, per output component *)
Definition lookup3 (p : Z) (t : tblmem) (r g b ro go bo : Z) : outcome Z :=
  let M := maxsample p + 1 in
  x <- tget (ycc_size p) t (r + ro * M) ;; y <- tget (ycc_size p) t (g + go * M) ;;
  z <- tget (ycc_size p) t (b + bo * M) ;; Ret (to_sample p (Z.shiftr (x + y + z) 16)).
Definition rgb_ycc_pixel (p : Z) (t : tblmem) (r g b : Z) : outcome (Z * Z * Z) :=
  y <- lookup3 p t r g b 0 1 2 ;; cb <- lookup3 p t r g b 3 4 5 ;; cr <- lookup3 p t r g b 5 6 7 ;; Ret (y, cb, cr).

(* Input/output pixel formats: jmorecfg.h:302-330 offsets; jdcolor.c:104-199 RGB_ALPHA *)
Record pixfmt := { f_red : Z; f_green : Z; f_blue : Z; f_size : Z; f_alpha : option Z }.
Inductive colorspace := JCS_RGB | JCS_EXT_RGB | JCS_EXT_RGBX | JCS_EXT_BGR | JCS_EXT_BGRX | JCS_EXT_XBGR
  | JCS_EXT_XRGB | JCS_EXT_RGBA | JCS_EXT_BGRA | JCS_EXT_ABGR | JCS_EXT_ARGB.
Definition FMT_RGB := {| f_red := 0; f_green := 1; f_blue := 2; f_size := 3; f_alpha := None |}.
Definition FMT_RGBX := {| f_red := 0; f_green := 1; f_blue := 2; f_size := 4; f_alpha := Some 3 |}.
Definition FMT_BGR := {| f_red := 2; f_green := 1; f_blue := 0; f_size := 3; f_alpha := None |}.
Definition FMT_BGRX := {| f_red := 2; f_green := 1; f_blue := 0; f_size := 4; f_alpha := Some 3 |}.
Definition FMT_XBGR := {| f_red := 3; f_green := 2; f_blue := 1; f_size := 4; f_alpha := Some 0 |}.
Definition FMT_XRGB := {| f_red := 1; f_green := 2; f_blue := 3; f_size := 4; f_alpha := Some 0 |}.
(* the switch statements jccolor.c:254-289, 304-338, 351-384; jdcolor.c:270-303, 446-479, 494-527 *)
Definition fmt_of (cs : colorspace) : pixfmt :=
  match cs with
  | JCS_EXT_RGB => FMT_RGB
  | JCS_EXT_RGBX | JCS_EXT_RGBA => FMT_RGBX
  | JCS_EXT_BGR => FMT_BGR
  | JCS_EXT_BGRX | JCS_EXT_BGRA => FMT_BGRX
  | JCS_EXT_XBGR | JCS_EXT_ABGR => FMT_XBGR
  | JCS_EXT_XRGB | JCS_EXT_ARGB => FMT_XRGB
  | JCS_RGB => FMT_RGB
  end.

(* jccolext.c:30-77 rgb_ycc_convert_internal, one row: inptr is the rest of the input row; the result
   lists what is stored at outptr0/1/2[0..num_cols-1]. *)
Fixpoint rgb_ycc_row (p : Z) (t : tblmem) (f : pixfmt) (num_cols : nat) (inptr : list Z) : outcome (list Z * list Z * list Z) :=
  match num_cols with
  | O => Ret ([], [], [])
  | S n =>
    r <- aget inptr (f_red f) ;; g <- aget inptr (f_green f) ;; b <- aget inptr (f_blue f) ;;
    '(y, cb, cr) <- rgb_ycc_pixel p t (RANGE_LIMIT p r) (RANGE_LIMIT p g) (RANGE_LIMIT p b) ;;
    '(ys, cbs, crs) <- rgb_ycc_row p t f n (skipn (Z.to_nat (f_size f)) inptr) ;;
    Ret (y :: ys, cb :: cbs, cr :: crs)
  end.

(* jccolext.c:89-119 rgb_gray_convert_internal *)
Fixpoint rgb_gray_row (p : Z) (t : tblmem) (f : pixfmt) (num_cols : nat) (inptr : list Z) : outcome (list Z) :=
  match num_cols with
  | O => Ret []
  | S n =>
    r <- aget inptr (f_red f) ;; g <- aget inptr (f_green f) ;; b <- aget inptr (f_blue f) ;;
    y <- lookup3 p t (RANGE_LIMIT p r) (RANGE_LIMIT p g) (RANGE_LIMIT p b) 0 1 2 ;;
    ys <- rgb_gray_row p t f n (skipn (Z.to_nat (f_size f)) inptr) ;; Ret (y :: ys)
  end.

(* jccolext.c:127-156 rgb_rgb_convert_internal *)
Fixpoint rgb_rgb_row (f : pixfmt) (num_cols : nat) (inptr : list Z) : outcome (list Z * list Z * list Z) :=
  match num_cols with
  | O => Ret ([], [], [])
  | S n =>
    r <- aget inptr (f_red f) ;; g <- aget inptr (f_green f) ;; b <- aget inptr (f_blue f) ;;
    '(rs, gs, bs) <- rgb_rgb_row f n (skipn (Z.to_nat (f_size f)) inptr) ;; Ret (r :: rs, g :: gs, b :: bs)
  end.

(* jccolor.c:395-446 cmyk_ycck_convert, one row *)
Fixpoint cmyk_ycck_row (p : Z) (t : tblmem) (num_cols : nat) (inptr : list Z) : outcome (list Z * list Z * list Z * list Z) :=
  match num_cols with
  | O => Ret ([], [], [], [])
  | S n =>
    c <- aget inptr 0 ;; m <- aget inptr 1 ;; y <- aget inptr 2 ;; k <- aget inptr 3 ;;
    '(y, cb, cr) <- rgb_ycc_pixel p t (maxsample p - RANGE_LIMIT p c) (maxsample p - RANGE_LIMIT p m) (maxsample p - RANGE_LIMIT p y) ;;
    '(ys, cbs, crs, ks) <- cmyk_ycck_row p t n (skipn 4 inptr) ;;
    Ret (y :: ys, cb :: cbs, cr :: crs, k :: ks)
  end.

(* jccolor.c:455-475 grayscale_convert, one row; instride = input_components *)
Fixpoint grayscale_row (instride : nat) (num_cols : nat) (inptr : list Z) : outcome (list Z) :=
  match num_cols with
  | O => Ret []
  | S n => v <- aget inptr 0 ;; vs <- grayscale_row instride n (skipn instride inptr) ;; Ret (v :: vs)
  end.

(* jccolor.c:484-538 null_convert, one row: nc = 3 and nc = 4 read the samples consecutively, the
   general case makes one strided pass per component; all three read inptr[col*nc+ci] into plane ci. *)
Fixpoint null_plane (nc : nat) (ci : Z) (num_cols : nat) (inptr : list Z) : outcome (list Z) :=
  match num_cols with
  | O => Ret []
  | S n => v <- aget inptr ci ;; vs <- null_plane nc ci n (skipn nc inptr) ;; Ret (v :: vs)
  end.
Fixpoint null_convert_c (nc : nat) (ncomp_left : nat) (ci : Z) (num_cols : nat) (inptr : list Z) : outcome (list (list Z)) :=
  match ncomp_left with
  | O => Ret []
  | S n => pl <- null_plane nc ci num_cols inptr ;; pls <- null_convert_c nc n (ci + 1) num_cols inptr ;; Ret (pl :: pls)
  end.

(* ---------------- decompressor ---------------- *)

(* jdcolor.c:217-260 build_ycc_rgb_table: entries for sample value i, x = i - CENTER *)
Definition dtab_size (p : Z) : Z := maxsample p + 1.
Definition dtab (p : Z) (f : Z -> Z) : outcome tblmem :=
  tfill (dtab_size p) (fun _ => None) 0 (maxsample p + 1) (fun i => Some (f (i - centersample p))).
Record ycc_rgb_tabs := { Cr_r : tblmem; Cb_b : tblmem; Cr_g : tblmem; Cb_g : tblmem }.
Definition build_ycc_rgb_table (p : Z) : outcome ycc_rgb_tabs :=
  rr <- dtab p (fun x => Z.shiftr (FIX 140200 * x + ONE_HALF) 16) ;;
  bb <- dtab p (fun x => Z.shiftr (FIX 177200 * x + ONE_HALF) 16) ;;
  rg <- dtab p (fun x => - FIX 71414 * x) ;;
  bg <- dtab p (fun x => - FIX 34414 * x + ONE_HALF) ;;
  Ret {| Cr_r := rr; Cb_b := bb; Cr_g := rg; Cb_g := bg |}.

(* jdcolext.c:64-74 *)
Definition ycc_rgb_pixel (p : Z) (rl : tblmem) (t : ycc_rgb_tabs) (y cb cr : Z) : outcome (Z * Z * Z) :=
  a <- tget (dtab_size p) (Cr_r t) cr ;; r <- range_limit p rl (y + a) ;;
  b1 <- tget (dtab_size p) (Cb_g t) cb ;; c1 <- tget (dtab_size p) (Cr_g t) cr ;;
  g <- range_limit p rl (y + Z.shiftr (b1 + c1) 16) ;;
  b2 <- tget (dtab_size p) (Cb_b t) cb ;; b <- range_limit p rl (y + b2) ;;
  Ret (r, g, b).

(* jdcolext.c:67-80: stores into the output pixel; the alpha slot gets MAXJSAMPLE if RGB_ALPHA is defined *)
Definition store_pixel (p : Z) (f : pixfmt) (r g b : Z) (outptr : list Z) : outcome (list Z) :=
  o <- aset outptr (f_red f) r ;; o <- aset o (f_green f) g ;; o <- aset o (f_blue f) b ;;
  match f_alpha f with None => Ret o | Some a => aset o a (maxsample p) end.

(* one output row: the first f_size samples of outptr are the current pixel, the rest follow.  [px]
   computes the colour of a column (ycc_rgb, gray_rgb or rgb_rgb). *)
Fixpoint out_row (p : Z) (f : pixfmt) (cols : list (outcome (Z * Z * Z))) (outptr : list Z) : outcome (list Z) :=
  match cols with
  | [] => Ret outptr
  | px :: cols =>
    '(r, g, b) <- px ;;
    o <- store_pixel p f r g b outptr ;;
    rest <- out_row p f cols (skipn (Z.to_nat (f_size f)) o) ;;
    Ret (firstn (Z.to_nat (f_size f)) o ++ rest)
  end.

(* jdcolext.c:31-90 ycc_rgb_convert_internal; 99-122 gray_rgb_convert_internal; 130-160
   rgb_rgb_convert_internal: one row, planes in0 in1 in2 *)
Definition ycc_rgb_row (p : Z) (rl : tblmem) (t : ycc_rgb_tabs) (f : pixfmt) (num_cols : nat) (in0 in1 in2 outptr : list Z) :=
  out_row p f (map (fun col => y <- aget in0 (Z.of_nat col) ;; cb <- aget in1 (Z.of_nat col) ;;
      cr <- aget in2 (Z.of_nat col) ;; ycc_rgb_pixel p rl t y cb cr) (seq 0 num_cols)) outptr.
Definition gray_rgb_row (p : Z) (f : pixfmt) (num_cols : nat) (in0 outptr : list Z) :=
  out_row p f (map (fun col => y <- aget in0 (Z.of_nat col) ;; Ret (y, y, y)) (seq 0 num_cols)) outptr.
Definition rgb_rgb_row_d (p : Z) (f : pixfmt) (num_cols : nat) (in0 in1 in2 outptr : list Z) :=
  out_row p f (map (fun col => y <- aget in0 (Z.of_nat col) ;; cb <- aget in1 (Z.of_nat col) ;;
      cr <- aget in2 (Z.of_nat col) ;; Ret (y, cb, cr)) (seq 0 num_cols)) outptr.

(* jdcolor.c:539-588 ycck_cmyk_convert, one pixel *)
Definition ycck_cmyk_pixel (p : Z) (rl : tblmem) (t : ycc_rgb_tabs) (y cb cr k : Z) : outcome (list Z) :=
  a <- tget (dtab_size p) (Cr_r t) cr ;; r <- range_limit p rl (maxsample p - (y + a)) ;;
  b1 <- tget (dtab_size p) (Cb_g t) cb ;; c1 <- tget (dtab_size p) (Cr_g t) cr ;;
  g <- range_limit p rl (maxsample p - (y + Z.shiftr (b1 + c1) 16)) ;;
  b2 <- tget (dtab_size p) (Cb_b t) cb ;; b <- range_limit p rl (maxsample p - (y + b2)) ;;
  Ret [r; g; b; k].

(* jdcolor.c:374-425 null_convert, one row: pixel col gets sample col of each plane, in plane order *)
Fixpoint null_convert_d_row (planes : list (list Z)) (cols : list Z) : outcome (list Z) :=
  match cols with
  | [] => Ret []
  | c :: cs =>
    px <- (fix go (pl : list (list Z)) : outcome (list Z) :=
             match pl with [] => Ret [] | q :: pl => v <- aget q c ;; vs <- go pl ;; Ret (v :: vs) end) planes ;;
    rest <- null_convert_d_row planes cs ;; Ret (px ++ rest)
  end.
