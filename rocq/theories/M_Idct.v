(* M_Idct.v -- the accurate integer inverse DCT (jidctint.c) and its reduced-size
   variants (jidctred.c).  JLONG is 64 bits (LP64), int 32 bits. *)
From Verif Require Import Base M_RangeLimit.

(* jdct.h:191; RIGHT_SHIFT is an arithmetic shift *)
Definition DESCALE (x n : Z) : Z := Z.shiftr (x + 2 ^ (n - 1)) n.
(* jpegint.h:87: shift as unsigned long, then back to JLONG *)
Definition s64 (x : Z) : Z := (x + 2 ^ 63) mod 2 ^ 64 - 2 ^ 63.
Definition LEFT_SHIFT (a b : Z) : Z := s64 (Z.shiftl a b).
(* signed arithmetic: overflow is undefined; checked for the value of each assignment *)
Definition j64 (x : Z) : outcome Z := if (- 2 ^ 63 <=? x) && (x <? 2 ^ 63) then Ret x else Undef.
Definition i32 (x : Z) : outcome Z := if (- 2 ^ 31 <=? x) && (x <? 2 ^ 31) then Ret x else Undef.

Definition CONST_BITS : Z := 13.
(* jidctint.c:102-108: BITS_IN_JSAMPLE 8 or 12 *)
Definition PASS1_BITS (p : Z) : Z := if p =? 8 then 2 else 1.

(* int workspace[size], not initialised *)
Definition wspace := Z -> option Z.
Definition wput (size : Z) (w : wspace) (i v : Z) : outcome wspace :=
  if (0 <=? i) && (i <? size) then Ret (fun j => if j =? i then Some v else w j) else Undef.
Definition wget (size : Z) (w : wspace) (i : Z) : outcome Z :=
  if (0 <=? i) && (i <? size) then match w i with Some v => Ret v | None => Undef end else Undef.

Section Block.
Variable p : Z.                 (* data precision *)
Variable t : tblmem.            (* the range-limit table *)
Variable coef mult : list Z.    (* coef_block; dct_table (jddctmgr.c:271-281) *)

(* DEQUANTIZE(inptr[DCTSIZE * k], quantptr[DCTSIZE * k]), pointers at column c *)
Definition deq (c k : Z) : outcome Z :=
  a <- aget coef (8 * k + c) ;; m <- aget mult (8 * k + c) ;; i32 (a * m).
(* inptr[DCTSIZE * k] == 0 for all k in ks *)
Fixpoint col_zero (c : Z) (ks : list Z) : outcome bool :=
  match ks with
  | [] => Ret true
  | k :: ks => a <- aget coef (8 * k + c) ;; if a =? 0 then col_zero c ks else Ret false
  end.
(* wsptr[k] == 0 for all k in ks, wsptr at row r *)
Fixpoint row_zero (size : Z) (w : wspace) (r : Z) (ks : list Z) : outcome bool :=
  match ks with
  | [] => Ret true
  | k :: ks => a <- wget size w (8 * r + k) ;; if a =? 0 then row_zero size w r ks else Ret false
  end.
(* wsptr[DCTSIZE * k] = v_k, wsptr at column c *)
Fixpoint put_col (size : Z) (w : wspace) (c k : Z) (vs : list Z) : outcome wspace :=
  match vs with [] => Ret w | v :: vs => w <- wput size w (8 * k + c) v ;; put_col size w c (k + 1) vs end.
(* range_limit[x & RANGE_MASK] *)
Definition lim (x : Z) : outcome Z := idct_range_limit p t x.
Fixpoint lims (xs : list Z) : outcome (list Z) :=
  match xs with [] => Ret [] | x :: xs => v <- lim x ;; r <- lims xs ;; Ret (v :: r) end.

(* jidctint.c:225-288 and 339-405: the 1-D kernel; results in output order, before DESCALE *)
Definition islow_1d (x0 x1 x2 x3 x4 x5 x6 x7 : Z) : outcome (list Z) :=
  z1 <- j64 ((x2 + x6) * 4433) ;;
  tmp2 <- j64 (z1 + x6 * -15137) ;;
  tmp3 <- j64 (z1 + x2 * 6270) ;;
  let tmp0 := LEFT_SHIFT (x0 + x4) CONST_BITS in
  let tmp1 := LEFT_SHIFT (x0 - x4) CONST_BITS in
  tmp10 <- j64 (tmp0 + tmp3) ;;
  tmp13 <- j64 (tmp0 - tmp3) ;;
  tmp11 <- j64 (tmp1 + tmp2) ;;
  tmp12 <- j64 (tmp1 - tmp2) ;;
  let tmp0 := x7 in let tmp1 := x5 in let tmp2 := x3 in let tmp3 := x1 in
  z1 <- j64 (tmp0 + tmp3) ;;
  z2 <- j64 (tmp1 + tmp2) ;;
  z3 <- j64 (tmp0 + tmp2) ;;
  z4 <- j64 (tmp1 + tmp3) ;;
  z5 <- j64 ((z3 + z4) * 9633) ;;
  tmp0 <- j64 (tmp0 * 2446) ;;
  tmp1 <- j64 (tmp1 * 16819) ;;
  tmp2 <- j64 (tmp2 * 25172) ;;
  tmp3 <- j64 (tmp3 * 12299) ;;
  z1 <- j64 (z1 * -7373) ;;
  z2 <- j64 (z2 * -20995) ;;
  z3 <- j64 (z3 * -16069) ;;
  z4 <- j64 (z4 * -3196) ;;
  z3 <- j64 (z3 + z5) ;;
  z4 <- j64 (z4 + z5) ;;
  tmp0 <- j64 (tmp0 + (z1 + z3)) ;;
  tmp1 <- j64 (tmp1 + (z2 + z4)) ;;
  tmp2 <- j64 (tmp2 + (z2 + z3)) ;;
  tmp3 <- j64 (tmp3 + (z1 + z4)) ;;
  Ret [tmp10 + tmp3; tmp11 + tmp2; tmp12 + tmp1; tmp13 + tmp0;
       tmp13 - tmp0; tmp12 - tmp1; tmp11 - tmp2; tmp10 - tmp3].

(* jidctint.c:191-292: one column *)
Definition islow_col (c : Z) (w : wspace) : outcome wspace :=
  b <- col_zero c [1; 2; 3; 4; 5; 6; 7] ;;
  if (b : bool) then
    d <- deq c 0 ;;
    put_col 64 w c 0 (repeat (s32 (LEFT_SHIFT d (PASS1_BITS p))) 8)
  else
    x2 <- deq c 2 ;; x6 <- deq c 6 ;; x0 <- deq c 0 ;; x4 <- deq c 4 ;;
    x7 <- deq c 7 ;; x5 <- deq c 5 ;; x3 <- deq c 3 ;; x1 <- deq c 1 ;;
    l <- islow_1d x0 x1 x2 x3 x4 x5 x6 x7 ;;
    put_col 64 w c 0 (map (fun v => s32 (DESCALE v (CONST_BITS - PASS1_BITS p))) l).
(* jidctint.c:300-424: one row *)
Definition islow_row (w : wspace) (r : Z) : outcome (list Z) :=
  b <- row_zero 64 w r [1; 2; 3; 4; 5; 6; 7] ;;
  if (b : bool) then
    x <- wget 64 w (8 * r) ;;
    lims (repeat (s32 (DESCALE x (PASS1_BITS p + 3))) 8)
  else
    x2 <- wget 64 w (8 * r + 2) ;; x6 <- wget 64 w (8 * r + 6) ;;
    x0 <- wget 64 w (8 * r + 0) ;; x4 <- wget 64 w (8 * r + 4) ;;
    x7 <- wget 64 w (8 * r + 7) ;; x5 <- wget 64 w (8 * r + 5) ;;
    x3 <- wget 64 w (8 * r + 3) ;; x1 <- wget 64 w (8 * r + 1) ;;
    l <- islow_1d x0 x1 x2 x3 x4 x5 x6 x7 ;;
    lims (map (fun v => s32 (DESCALE v (CONST_BITS + PASS1_BITS p + 3))) l).

Fixpoint cols (f : Z -> wspace -> outcome wspace) (cs : list Z) (w : wspace) : outcome wspace :=
  match cs with [] => Ret w | c :: cs => w <- f c w ;; cols f cs w end.
Fixpoint rows (f : Z -> outcome (list Z)) (rs : list Z) : outcome (list (list Z)) :=
  match rs with [] => Ret [] | r :: rs => o <- f r ;; os <- rows f rs ;; Ret (o :: os) end.

(* jidctint.c:165-425 _jpeg_idct_islow: the output rows *)
Definition idct_islow : outcome (list (list Z)) :=
  w <- cols islow_col [0; 1; 2; 3; 4; 5; 6; 7] (fun _ => None) ;;
  rows (islow_row w) [0; 1; 2; 3; 4; 5; 6; 7].

(* jidctred.c:163-192 and 229-259: the 4-point kernel (input 4 is not used) *)
Definition red4_1d (x0 x1 x2 x3 x5 x6 x7 : Z) : outcome (list Z) :=
  let tmp0 := LEFT_SHIFT x0 (CONST_BITS + 1) in
  tmp2 <- j64 (x2 * 15137 + x6 * -6270) ;;
  tmp10 <- j64 (tmp0 + tmp2) ;;
  tmp12 <- j64 (tmp0 - tmp2) ;;
  tmp0 <- j64 (x7 * -1730 + x5 * 11893 + x3 * -17799 + x1 * 8697) ;;
  tmp2 <- j64 (x7 * -4176 + x5 * -4926 + x3 * 7373 + x1 * 20995) ;;
  Ret [tmp10 + tmp2; tmp12 + tmp0; tmp12 - tmp0; tmp10 - tmp2].
(* jidctred.c:139-199: one column; column 4 is skipped by the caller *)
Definition red4_col (c : Z) (w : wspace) : outcome wspace :=
  b <- col_zero c [1; 2; 3; 5; 6; 7] ;;
  if (b : bool) then
    d <- deq c 0 ;;
    put_col 32 w c 0 (repeat (s32 (LEFT_SHIFT d (PASS1_BITS p))) 4)
  else
    x0 <- deq c 0 ;; x2 <- deq c 2 ;; x6 <- deq c 6 ;;
    x7 <- deq c 7 ;; x5 <- deq c 5 ;; x3 <- deq c 3 ;; x1 <- deq c 1 ;;
    l <- red4_1d x0 x1 x2 x3 x5 x6 x7 ;;
    put_col 32 w c 0 (map (fun v => s32 (DESCALE v (CONST_BITS - PASS1_BITS p + 1))) l).
(* jidctred.c:204-278: one row *)
Definition red4_row (w : wspace) (r : Z) : outcome (list Z) :=
  b <- row_zero 32 w r [1; 2; 3; 5; 6; 7] ;;
  if (b : bool) then
    x <- wget 32 w (8 * r) ;;
    lims (repeat (s32 (DESCALE x (PASS1_BITS p + 3))) 4)
  else
    x0 <- wget 32 w (8 * r + 0) ;; x2 <- wget 32 w (8 * r + 2) ;; x6 <- wget 32 w (8 * r + 6) ;;
    x7 <- wget 32 w (8 * r + 7) ;; x5 <- wget 32 w (8 * r + 5) ;;
    x3 <- wget 32 w (8 * r + 3) ;; x1 <- wget 32 w (8 * r + 1) ;;
    l <- red4_1d x0 x1 x2 x3 x5 x6 x7 ;;
    lims (map (fun v => s32 (DESCALE v (CONST_BITS + PASS1_BITS p + 3 + 1))) l).
(* jidctred.c:119-279 _jpeg_idct_4x4 *)
Definition idct_4x4 : outcome (list (list Z)) :=
  w <- cols red4_col [0; 1; 2; 3; 5; 6; 7] (fun _ => None) ;;
  rows (red4_row w) [0; 1; 2; 3].

(* jidctred.c:317-331 and 360-370: the 2-point kernel *)
Definition red2_1d (x0 x1 x3 x5 x7 : Z) : outcome (list Z) :=
  let tmp10 := LEFT_SHIFT x0 (CONST_BITS + 2) in
  tmp0 <- j64 (x7 * -5906) ;;
  tmp0 <- j64 (tmp0 + x5 * 6967) ;;
  tmp0 <- j64 (tmp0 + x3 * -10426) ;;
  tmp0 <- j64 (tmp0 + x1 * 29692) ;;
  Ret [tmp10 + tmp0; tmp10 - tmp0].
(* jidctred.c:299-338 *)
Definition red2_col (c : Z) (w : wspace) : outcome wspace :=
  b <- col_zero c [1; 3; 5; 7] ;;
  if (b : bool) then
    d <- deq c 0 ;;
    put_col 16 w c 0 (repeat (s32 (LEFT_SHIFT d (PASS1_BITS p))) 2)
  else
    x0 <- deq c 0 ;; x7 <- deq c 7 ;; x5 <- deq c 5 ;; x3 <- deq c 3 ;; x1 <- deq c 1 ;;
    l <- red2_1d x0 x1 x3 x5 x7 ;;
    put_col 16 w c 0 (map (fun v => s32 (DESCALE v (CONST_BITS - PASS1_BITS p + 2))) l).
(* jidctred.c:343-384 *)
Definition red2_row (w : wspace) (r : Z) : outcome (list Z) :=
  b <- row_zero 16 w r [1; 3; 5; 7] ;;
  if (b : bool) then
    x <- wget 16 w (8 * r) ;;
    lims (repeat (s32 (DESCALE x (PASS1_BITS p + 3))) 2)
  else
    x0 <- wget 16 w (8 * r + 0) ;;
    x7 <- wget 16 w (8 * r + 7) ;; x5 <- wget 16 w (8 * r + 5) ;;
    x3 <- wget 16 w (8 * r + 3) ;; x1 <- wget 16 w (8 * r + 1) ;;
    l <- red2_1d x0 x1 x3 x5 x7 ;;
    lims (map (fun v => s32 (DESCALE v (CONST_BITS + PASS1_BITS p + 3 + 2))) l).
(* jidctred.c:282-385 _jpeg_idct_2x2 *)
Definition idct_2x2 : outcome (list (list Z)) :=
  w <- cols red2_col [0; 1; 3; 5; 7] (fun _ => None) ;;
  rows (red2_row w) [0; 1].

(* jidctred.c:388-408 _jpeg_idct_1x1 *)
Definition idct_1x1 : outcome (list (list Z)) :=
  d <- deq 0 0 ;;
  v <- lim (s32 (DESCALE d 3)) ;;
  Ret [[v]].
End Block.
