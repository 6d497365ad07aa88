(* M_Quant.v -- rounding helpers (jutils.c), quality scaling and quantization tables (jcparam.c),
   integer quantization (jcdctmgr.c). *)
From Verif Require Import Base.

(* a C "long" result: overflow is undefined behaviour (LP64) *)
Definition clong (x : Z) : outcome Z := if (- 2 ^ 63 <=? x) && (x <? 2 ^ 63) then Ret x else Undef.

(* jutils.c:77-83 *)
Definition jdiv_round_up (a b : Z) : outcome Z :=
  t <- clong (a + b) ;; s <- clong (t - 1) ;;
  if b =? 0 then Undef else clong (Z.quot s b).

(* jutils.c:86-93 *)
Definition jround_up (a b : Z) : outcome Z :=
  t <- clong (b - 1) ;; a <- clong (a + t) ;;
  if b =? 0 then Undef else clong (a - Z.rem a b).

(* IEEE-754 binary32 quotient of positive integers n/d >= 1, rounded to nearest even: the result is
   m / 2^k with a 24-bit m; returns (m, k).  (jcparam.c:352 uses float division.) *)
Definition fdiv32 (n d : Z) : Z * Z :=
  let k := 23 - Z.log2 (n / d) in
  let num := n * 2 ^ k in
  let q := num / d in let r := num mod d in
  (if (2 * r <? d) || ((2 * r =? d) && Z.even q) then q else q + 1, k).
(* conversion float -> int truncates; operand positive *)
Definition ftrunc (x : Z * Z) : Z := fst x / 2 ^ snd x.

(* jcparam.c:328-357 jpeg_quality_scaling / jpeg_float_quality_scaling, for int arguments: the
   conversion int -> float is exact below 2^24 and cannot cross 0 or 100 above; 200.f - q*2.f is
   exact for integers. *)
Definition jpeg_quality_scaling (quality : Z) : Z :=
  let q := if quality <=? 0 then 1 else quality in
  let q := if q >? 100 then 100 else q in
  if q <? 50 then ftrunc (fdiv32 5000 q) else 200 - q * 2.

(* jcparam.c:56-64: one entry of jpeg_add_quant_table ("/" truncates towards zero) *)
Definition quant_entry (basic scale_factor : Z) (force_baseline : bool) : Z :=
  let temp := Z.quot (basic * scale_factor + 50) 100 in
  let temp := if temp <=? 0 then 1 else temp in
  let temp := if temp >? 32767 then 32767 else temp in
  let temp := if force_baseline && (temp >? 255) then 255 else temp in
  u16 temp.

(* jcparam.c:30-68 jpeg_add_quant_table: state check, index check, 64 entries.  [start] = the state is
   CSTATE_START; the table array has NUM_QUANT_TBLS = 4 slots. *)
Definition jpeg_add_quant_table (start : bool) (tbls : list (list Z)) (which : Z) (basic : list Z)
  (scale_factor : Z) (force_baseline : bool) : outcome (list (list Z)) :=
  if negb start then Error JERR_BAD_STATE
  else if (which <? 0) || (which >=? 4) then Error JERR_DQT_INDEX
  else aset tbls which (map (fun b => quant_entry b scale_factor force_baseline) (firstn 64 basic)).

(* jcparam.c:360-373 jpeg_set_quality, 311-325 jpeg_set_linear_quality; the two basic tables are
   those selected by quant_tbl_master_idx *)
Definition jpeg_set_linear_quality (start : bool) (lum chrom : list Z) (tbls : list (list Z)) (scale : Z) (fb : bool) :=
  t <- jpeg_add_quant_table start tbls 0 lum scale fb ;; jpeg_add_quant_table start t 1 chrom scale fb.
Definition jpeg_set_quality (start : bool) (lum chrom : list Z) (tbls : list (list Z)) (quality : Z) (fb : bool) :=
  jpeg_set_linear_quality start lum chrom tbls (jpeg_quality_scaling quality) fb.

(* jcdctmgr.c:91-119 flss: find last set bit *)
Definition flss (val : Z) : Z :=
  if val =? 0 then 0
  else
    let bit := 16 in
    let '(bit, val) := if Z.land val 65280 =? 0 then (bit - 8, u16 (Z.shiftl val 8)) else (bit, val) in
    let '(bit, val) := if Z.land val 61440 =? 0 then (bit - 4, u16 (Z.shiftl val 4)) else (bit, val) in
    let '(bit, val) := if Z.land val 49152 =? 0 then (bit - 2, u16 (Z.shiftl val 2)) else (bit, val) in
    let '(bit, val) := if Z.land val 32768 =? 0 then (bit - 1, u16 (Z.shiftl val 1)) else (bit, val) in
    bit.

(* unsigned / signed integers of W bits; W = 8 * sizeof(DCTELEM): 16 with SIMD, 32 without
   (jdct.h:36-44) *)
Definition uw (W x : Z) : Z := x mod 2 ^ W.
Definition sw (W x : Z) : Z := (x + 2 ^ (W - 1)) mod 2 ^ W - 2 ^ (W - 1).

(* jcdctmgr.c:181-231 compute_reciprocal; result: the table entries (reciprocal, correction, shift).
   The "scale" entry is only used by SIMD code and is not modelled.  divisor is a UINT16 parameter. *)
Definition compute_reciprocal (W divisor : Z) : outcome (Z * Z * Z) :=
  if divisor =? 1 then Ret (1, 0, - W)
  else
    let b := flss divisor - 1 in
    let r := W + b in
    if divisor =? 0 then Undef
    else
      let fq := uw (2 * W) (Z.shiftl 1 r) / divisor in
      let fr := uw (2 * W) (Z.shiftl 1 r) mod divisor in
      let c := uw W (divisor / 2) in
      let '(fq, r, c) :=
        if fr =? 0 then (Z.shiftr fq 1, r - 1, c)
        else if fr <=? divisor / 2 then (fq, r, uw W (c + 1))
        else (uw (2 * W) (fq + 1), r, c) in
      Ret (sw W fq, sw W c, sw W (r - W)).

(* jcdctmgr.c:305-313 (JDCT_ISLOW): divisor = quantval << 3, converted to the UINT16 parameter *)
Definition islow_divisor (W quantval : Z) : outcome (Z * Z * Z) := compute_reciprocal W (u16 (Z.shiftl quantval 3)).

(* jcdctmgr.c:608-642 quantize, one coefficient, 8-bit samples.  temp : DCTELEM *)
Definition quantize1 (W : Z) (tbl : Z * Z * Z) (temp : Z) : Z :=
  let '(r, c, sh) := tbl in
  let recip := uw W r in let corr := uw W c in
  let f t := let product := uw (2 * W) (uw (2 * W) (t + corr) * recip) in sw W (Z.shiftr product (sh + W)) in
  s16 (if temp <? 0 then sw W (- f (sw W (- temp))) else f temp).

(* jcdctmgr.c:644-681 quantize, one coefficient, 12-bit samples: plain division; temp, qval : JLONG *)
Definition quantize1_12 (qval temp : Z) : outcome Z :=
  let div a := if a >=? qval then (if qval =? 0 then Undef else Ret (Z.quot a qval)) else Ret 0 in
  if temp <? 0 then t <- div (- temp + Z.shiftr qval 1) ;; Ret (s16 (- t))
  else t <- div (temp + Z.shiftr qval 1) ;; Ret (s16 t).
