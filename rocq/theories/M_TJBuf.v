(* M_TJBuf.v -- model of the TurboJPEG size functions (turbojpeg.c:897-1116) and of the plane layout
   used by tj3CompressFromYUV8 / tj3EncodeYUV8 / tj3DecompressToYUV8 / tj3DecodeYUV8.
   int is 32 bits (signed overflow is Undef), unsigned long long and size_t are 64 bits (the
   "ULLONG_MAX > ULONG_MAX" checks are compiled out).  THROWG is Error: the functions return 0. *)
From Verif Require Import Base.

Definition INT_MAX : Z := 2147483647.
(* signed int arithmetic *)
Definition sint (x : Z) : outcome Z := if (-2147483648 <=? x) && (x <=? INT_MAX) then Ret x else Undef.
(* unsigned long long *)
Definition ull (x : Z) : Z := x mod 2 ^ 64.

(* turbojpeg.h:224, 252 *)
Definition tjMCUWidth : list Z := [8; 16; 16; 8; 8; 32; 8].
Definition tjMCUHeight : list Z := [8; 8; 16; 8; 16; 8; 32].
Definition TJSAMP_UNKNOWN : Z := -1.
Definition TJSAMP_444 : Z := 0.
Definition TJSAMP_GRAY : Z := 3.
Definition TJ_NUMSAMP : Z := 7.

(* turbojpeg.c:55 PAD on ints *)
Definition PAD_int (v p : Z) : outcome Z :=
  a <- sint (v + p) ;; b <- sint (a - 1) ;; c <- sint (p - 1) ;; Ret (Z.land b (Z.lnot c)).
(* turbojpeg.c:55 PAD on an unsigned long long v and an int p *)
Definition PAD_ull (v p : Z) : outcome Z :=
  c <- sint (p - 1) ;; Ret (ull (Z.land (ull (v + p - 1)) (ull (Z.lnot c)))).
(* turbojpeg.c:56 IS_POW2 *)
Definition IS_POW2 (x : Z) : bool := Z.land x (x - 1) =? 0.

(* turbojpeg.c:897-924 tj3JPEGBufSize *)
Definition tj3JPEGBufSize (width height jpegSubsamp : Z) : outcome Z :=
  if (width <? 1) || (height <? 1) || (jpegSubsamp <? TJSAMP_UNKNOWN) || (TJ_NUMSAMP <=? jpegSubsamp) then Error JERR_BAD_PARAM
  else
    let jpegSubsamp := if jpegSubsamp =? TJSAMP_UNKNOWN then TJSAMP_444 else jpegSubsamp in
    mcuw <- aget tjMCUWidth jpegSubsamp ;;
    mcuh <- aget tjMCUHeight jpegSubsamp ;;
    m <- sint (mcuw * mcuh) ;;
    let chromasf := if jpegSubsamp =? TJSAMP_GRAY then 0 else 4 * 64 / m in
    pw <- PAD_int width mcuw ;;
    ph <- PAD_int height mcuh ;;
    q <- sint (pw * ph) ;;                  (* the product is computed in int *)
    Ret (ull (ull (ull q * (2 + chromasf)) + 2048)).

(* turbojpeg.c:1051-1074 tj3YUVPlaneWidth *)
Definition tj3YUVPlaneWidth (componentID width subsamp : Z) : outcome Z :=
  if (width <? 1) || (subsamp <? 0) || (TJ_NUMSAMP <=? subsamp) then Error JERR_BAD_PARAM
  else
    let nc := if subsamp =? TJSAMP_GRAY then 1 else 3 in
    if (componentID <? 0) || (nc <=? componentID) then Error JERR_BAD_PARAM
    else
      mw <- aget tjMCUWidth subsamp ;;
      pw <- PAD_ull width (mw / 8) ;;
      let retval := if componentID =? 0 then pw else ull (pw * 8) / mw in
      if INT_MAX <? retval then Error JERR_IMAGE_TOO_BIG else Ret retval.
(* turbojpeg.c:1085-1108 tj3YUVPlaneHeight *)
Definition tj3YUVPlaneHeight (componentID height subsamp : Z) : outcome Z :=
  if (height <? 1) || (subsamp <? 0) || (TJ_NUMSAMP <=? subsamp) then Error JERR_BAD_PARAM
  else
    let nc := if subsamp =? TJSAMP_GRAY then 1 else 3 in
    if (componentID <? 0) || (nc <=? componentID) then Error JERR_BAD_PARAM
    else
      mh <- aget tjMCUHeight subsamp ;;
      ph <- PAD_ull height (mh / 8) ;;
      let retval := if componentID =? 0 then ph else ull (ph * 8) / mh in
      if INT_MAX <? retval then Error JERR_IMAGE_TOO_BIG else Ret retval.

(* the value of a call as the callers see it: 0 after an error *)
Definition or0 (o : outcome Z) : outcome Z := match o with Error _ => Ret 0 | r => r end.

(* turbojpeg.c:975-983: the loop over the planes; a zero plane makes the function return 0 *)
Fixpoint yuv_sum (width align height subsamp : Z) (is : list Z) (retval : Z) : outcome Z :=
  match is with
  | [] => Ret retval
  | i :: is =>
    pw <- or0 (tj3YUVPlaneWidth i width subsamp) ;;
    stride <- PAD_int pw align ;;
    ph <- or0 (tj3YUVPlaneHeight i height subsamp) ;;
    if (pw =? 0) || (ph =? 0) then Error JERR_BAD_PARAM
    else yuv_sum width align height subsamp is (ull (retval + ull (ull stride * ull ph)))
  end.
(* turbojpeg.c:965-990 tj3YUVBufSize *)
Definition tj3YUVBufSize (width align height subsamp : Z) : outcome Z :=
  if (align <? 1) || negb (IS_POW2 align) || (subsamp <? 0) || (TJ_NUMSAMP <=? subsamp) then Error JERR_BAD_PARAM
  else yuv_sum width align height subsamp (if subsamp =? TJSAMP_GRAY then [0] else [0; 1; 2]) 0.

(* turbojpeg.c:1014-1039 tj3YUVPlaneSize *)
Definition tj3YUVPlaneSize (componentID width stride height subsamp : Z) : outcome Z :=
  if (width <? 1) || (height <? 1) || (subsamp <? 0) || (TJ_NUMSAMP <=? subsamp) then Error JERR_BAD_PARAM
  else
    pw <- or0 (tj3YUVPlaneWidth componentID width subsamp) ;;
    ph <- or0 (tj3YUVPlaneHeight componentID height subsamp) ;;
    if (pw =? 0) || (ph =? 0) then Error JERR_BAD_PARAM
    else
      stride <- (if stride =? 0 then Ret pw else sint (Z.abs stride)) ;;
      h <- sint (ph - 1) ;;
      Ret (ull (ull (ull stride * ull h) + pw)).

(* turbojpeg.c:1408-1426 (tj3CompressFromYUV8; it calls tjPlaneWidth for plane 1), 1664-1682
   (tj3EncodeYUV8), 2280-2298 (tj3DecompressToYUV8), 2602-2620 (tj3DecodeYUV8), which agree for the
   dimensions in which the calls succeed: offsets of the planes in the buffer and their strides. *)
Definition yuv_planes (width align height subsamp : Z) : outcome (list (Z * Z)) :=
  if (width <=? 0) || (align <? 1) || negb (IS_POW2 align) || (height <=? 0) then Error JERR_BAD_PARAM
  else
    pw0 <- or0 (tj3YUVPlaneWidth 0 width subsamp) ;;
    ph0 <- or0 (tj3YUVPlaneHeight 0 height subsamp) ;;
    s0 <- PAD_int pw0 align ;;
    if subsamp =? TJSAMP_GRAY then Ret [(0, s0)]
    else
      pw1 <- or0 (tj3YUVPlaneWidth 1 width subsamp) ;;
      ph1 <- or0 (tj3YUVPlaneHeight 1 height subsamp) ;;
      s1 <- PAD_int pw1 align ;;
      if (INT_MAX <? ull (ull s0 * ull ph0)) || (INT_MAX <? ull (ull s1 * ull ph1)) then Error JERR_IMAGE_TOO_BIG
      else
        n0 <- sint (s0 * ph0) ;;
        n1 <- sint (s1 * ph1) ;;
        Ret [(0, s0); (n0, s1); (n0 + n1, s1)].
