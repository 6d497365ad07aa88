(* M_GenTbl.v -- model of jpeg_gen_optimal_table (jchuff.c:948-1106) *)
From Verif Require Import Base M_HuffTbl.

(* jchuff.c:975-993: freq[256] = 1, then the nonzero counts are grouped at the front.  Indices of
   the nonzero counts, in increasing order.  [freq] has 257 entries.  (The C code groups them in
   place; entries from num_nz_symbols on are not read again, so the model drops them.) *)
Definition with_pseudo (freq : list Z) : list Z := firstn 256 freq ++ [1].
Definition nz_index_of (freq : list Z) : list Z :=
  filter (fun i => negb (nth (Z.to_nat i) freq 0 =? 0)) (map Z.of_nat (seq 0 257)).
Definition grouped (freq : list Z) : list Z :=
  map (fun i => nth (Z.to_nat i) freq 0) (nz_index_of freq).

(* jchuff.c:1002-1018: one scan for the two smallest frequencies *)
Fixpoint find2 (fr : list Z) (i c1 c2 v v2 : Z) : Z * Z :=
  match fr with
  | [] => (c1, c2)
  | f :: r =>
    if f <=? v2 then
      if f <=? v then find2 r (i + 1) i c1 f v
      else find2 r (i + 1) c1 i v f
    else find2 r (i + 1) c1 c2 v v2
  end.

(* jchuff.c:1031-1035 / 1039-1043: codesize[c]++; while (others[c] >= 0) {c = others[c]; codesize[c]++;}
   returns the new codesize array and the last c.  Fuel: a cycle would loop forever (Undef). *)
Fixpoint bump_chain (fuel : nat) (cs ot : list Z) (c : Z) : outcome (list Z * Z) :=
  x <- aget cs c ;;
  cs1 <- aset cs c (x + 1) ;;
  o <- aget ot c ;;
  if 0 <=? o then
    match fuel with
    | O => Undef
    | S f => bump_chain f cs1 ot o
    end
  else Ret (cs1, c).

(* jchuff.c:997-1044: the merging loop; returns codesize.  Every pass but the last merges two
   branches; running out of fuel would mean that the C loop does not terminate (Undef). *)
Fixpoint merge_loop (fuel : nat) (fr cs ot : list Z) : outcome (list Z) :=
  let '(c1, c2) := find2 fr 0 (-1) (-1) 1000000000 1000000000 in
  if c2 <? 0 then Ret cs
  else
    match fuel with
    | O => Undef
    | S f =>
      f1 <- aget fr c1 ;;
      f2 <- aget fr c2 ;;
      fr1 <- aset fr c1 (f1 + f2) ;;
      fr2 <- aset fr1 c2 1000000001 ;;
      '(cs1, l1) <- bump_chain 257 cs ot c1 ;;
      ot1 <- aset ot l1 c2 ;;
      '(cs2, _) <- bump_chain 257 cs1 ot1 c2 ;;
      merge_loop f fr2 cs2 ot1
    end.

(* jchuff.c:1047-1054: count the symbols of each length; bits[] is UINT8[33] *)
Fixpoint count_bits (cs : list Z) (bits : list Z) : outcome (list Z) :=
  match cs with
  | [] => Ret bits
  | c :: r =>
    if 32 <? c then Error JERR_HUFF_CLEN_OVERFLOW
    else
      b <- aget bits c ;;
      bits' <- aset bits c (u8 (b + 1)) ;;
      count_bits r bits'
  end.

(* jchuff.c:1061-1065: bit_pos[1..32].  bit_pos[0] is never assigned; its indeterminate value is
   modelled by -1, so that using it as an index is Undef. *)
Definition bit_pos_step (bits : list Z) (i : Z) (st : Z * list Z) : outcome (Z * list Z) :=
  let '(p, bp) := st in
  b <- aget bits i ;;
  bp' <- aset bp i p ;;
  Ret (p + b, bp').
Definition make_bit_pos (bits : list Z) : outcome (list Z) :=
  '(_, bp) <- for_loop 32 1 (bit_pos_step bits) (0, repeat (-1) 33) ;; Ret bp.

(* jchuff.c:1080-1082: j = i - 2; while (bits[j] == 0) j--; (below 0: Undef) *)
Fixpoint find_down (fuel : nat) (bits : list Z) (j : Z) : outcome Z :=
  b <- aget bits j ;;
  if b =? 0 then match fuel with O => Undef | S f => find_down f bits (j - 1) end else Ret j.

Definition badd (bits : list Z) (i d : Z) : outcome (list Z) :=
  b <- aget bits i ;; aset bits i (u8 (b + d)).

(* jchuff.c:1079-1088: while (bits[i] > 0) *)
Fixpoint limit_while (fuel : nat) (i : Z) (bits : list Z) : outcome (list Z) :=
  b <- aget bits i ;;
  if b <=? 0 then Ret bits
  else
    match fuel with
    | O => Undef
    | S f =>
      j <- find_down 33 bits (i - 2) ;;
      b1 <- badd bits i (-2) ;;
      b2 <- badd b1 (i - 1) 1 ;;
      b3 <- badd b2 (j + 1) 2 ;;
      b4 <- badd b3 j (-1) ;;
      limit_while f i b4
    end.

(* jchuff.c:1078: for (i = MAX_CLEN; i > 16; i--) *)
Definition limit_lengths (bits : list Z) : outcome (list Z) :=
  for_loop 16 0 (fun k b => limit_while 256 (32 - k) b) bits.

(* jchuff.c:1092-1094 *)
Definition drop_pseudo (bits : list Z) : outcome (list Z) :=
  i <- find_down 33 bits 16 ;; badd bits i (-1).

(* jchuff.c:1104-1107: for the first num_nz_symbols - 1 symbols *)
Fixpoint fill_huffval (cs nz : list Z) (bp huffval : list Z) : outcome (list Z) :=
  match cs, nz with
  | c :: cs', s :: nz' =>
    p <- aget bp c ;;
    hv <- aset huffval p (u8 s) ;;
    bp' <- aset bp c (p + 1) ;;
    fill_huffval cs' nz' bp' hv
  | _, _ => Ret huffval
  end.

(* jchuff.c:948-1111 jpeg_gen_optimal_table; [old] = previous contents of *htbl.  long is 64 bits:
   only entries <= 10^9 are ever added, so the additions cannot overflow. *)
Definition jpeg_gen_optimal_table (old : JHUFF_TBL) (freq0 : list Z) : outcome JHUFF_TBL :=
  if negb (length freq0 =? 257)%nat then Undef
  else
    let freq := with_pseudo freq0 in
    let nz := nz_index_of freq in
    let n := length nz in
    cs <- merge_loop 257 (grouped freq) (repeat 0 257) (repeat (-1) 257) ;;
    bits <- count_bits (firstn n cs) (repeat 0 33) ;;
    bp <- make_bit_pos bits ;;
    bits1 <- limit_lengths bits ;;
    bits2 <- drop_pseudo bits1 ;;
    hv <- fill_huffval (firstn (n - 1) cs) nz bp (hval old) ;;
    Ret (mkHuff (firstn 17 bits2) hv).
