(* M_RangeLimit.v -- the sample range-limit table of the decompressor. *)
From Verif Require Import Base.

(* Memory of [size] sample slots, initially uninitialised (None). *)
Definition tblmem := Z -> option Z.
(* a memset, memcpy or fill loop writing slots lo..lo+n-1; out of bounds is undefined *)
Definition tfill (size : Z) (t : tblmem) (lo n : Z) (f : Z -> option Z) : outcome tblmem :=
  if (0 <=? lo) && (0 <=? n) && (lo + n <=? size)
  then Ret (fun i => if (lo <=? i) && (i <? lo + n) then f (i - lo) else t i) else Undef.
(* reading an uninitialised or out-of-bounds slot is undefined *)
Definition tget (size : Z) (t : tblmem) (i : Z) : outcome Z :=
  if (0 <=? i) && (i <? size) then match t i with Some v => Ret v | None => Undef end else Undef.

(* jmorecfg.h:69-110 for the three precisions: MAXJSAMPLE = 2^p-1, CENTERJSAMPLE = 2^(p-1) *)
Definition maxsample (p : Z) : Z := 2 ^ p - 1.
Definition centersample (p : Z) : Z := 2 ^ (p - 1).

(* jdmaster.c:415-500 prepare_range_limit_table: result = memory; the pointer sample_range_limit is at
   slot base = MAX+1 of an allocation of 5*(MAX+1)+CENTER slots.  The three copies of the code (8, 12
   and 16 bits) differ only in the constants.  Loops are modelled as bulk writes. *)
Definition rl_size (p : Z) : Z := 5 * (maxsample p + 1) + centersample p.
Definition rl_base (p : Z) : Z := maxsample p + 1.
Definition prepare_range_limit_table (p : Z) : outcome tblmem :=
  let MAX := maxsample p in let CENTER := centersample p in
  let size := rl_size p in
  let base := MAX + 1 in
  t <- tfill size (fun _ => None) (base - (MAX + 1)) (MAX + 1) (fun _ => Some 0) ;;
  t <- tfill size t base (MAX + 1) (fun i => Some i) ;;
  let tab := base + CENTER in
  t <- tfill size t (tab + CENTER) (2 * (MAX + 1) - CENTER) (fun _ => Some MAX) ;;
  t <- tfill size t (tab + 2 * (MAX + 1)) (2 * (MAX + 1) - CENTER) (fun _ => Some 0) ;;
  let src := t in
  tfill size t (tab + (4 * (MAX + 1) - CENTER)) CENTER (fun i => src (base + i)).

(* a "simple" lookup range_limit[x] (jdcolor.c, jdmerge.c, jquant2.c) *)
Definition range_limit (p : Z) (t : tblmem) (x : Z) : outcome Z := tget (rl_size p) t (rl_base p + x).
(* jdct.h:89-91: an IDCT lookup IDCT_range_limit(cinfo)[x & RANGE_MASK] *)
Definition idct_range_limit (p : Z) (t : tblmem) (x : Z) : outcome Z :=
  tget (rl_size p) t (rl_base p + centersample p + Z.land x (maxsample p * 4 + 3)).
