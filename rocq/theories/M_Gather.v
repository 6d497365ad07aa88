(* M_Gather.v -- statistics pass of the sequential Huffman encoder (jchuff.c) *)
From Verif Require Import Base M_HuffTbl M_HuffDec M_GenTbl.

(* jchuff.c:829-833 / 862-864: while (temp) {nbits++; temp >>= 1;}   (temp >= 0, an int) *)
Fixpoint bit_length (fuel : nat) (temp nbits : Z) : outcome Z :=
  if temp =? 0 then Ret nbits
  else match fuel with O => Undef | S f => bit_length f (Z.shiftr temp 1) (nbits + 1) end.

(* counts[i]++ ; counts are longs (64 bits; not modelled as overflowing) *)
Definition bump (counts : list Z) (i : Z) : outcome (list Z) :=
  c <- aget counts i ;; aset counts i (c + 1).

(* jchuff.c:852-855: while (r > 15) {ac_counts[0xF0]++; r -= 16;} *)
Fixpoint count_zrl (fuel : nat) (r : Z) (ac : list Z) : outcome (Z * list Z) :=
  if 15 <? r then
    match fuel with
    | O => Undef
    | S f => ac' <- bump ac 240 ;; count_zrl f (r - 16) ac'
    end
  else Ret (r, ac).

(* jchuff.c:848-875: body of the k loop; state (r, ac_counts) *)
Definition htest_ac (mcb : Z) (blk : list Z) (k : Z) (st : Z * list Z) : outcome (Z * list Z) :=
  let '(r, ac) := st in
  pos <- aget jpeg_natural_order k ;;
  temp <- aget blk pos ;;
  if temp =? 0 then Ret (r + 1, ac)
  else
    '(r1, ac1) <- count_zrl 4 r ac ;;
    nbits <- bit_length 32 (Z.shiftr (Z.abs temp) 1) 1 ;;
    if mcb <? nbits then Error JERR_BAD_DCT_COEF
    else
      ac2 <- bump ac1 (Z.shiftl r1 4 + nbits) ;;
      Ret (0, ac2).

(* jchuff.c:813-882 htest_one_block; returns the new dc_counts and ac_counts *)
Definition htest_one_block (mcb : Z) (blk : list Z) (last_dc_val : Z) (dc ac : list Z)
  : outcome (list Z * list Z) :=
  b0 <- aget blk 0 ;;
  nbits <- bit_length 32 (Z.abs (b0 - last_dc_val)) 0 ;;
  if mcb + 1 <? nbits then Error JERR_BAD_DCT_COEF
  else
    dc1 <- bump dc nbits ;;
    '(r, ac1) <- for_loop 63 1 (htest_ac mcb blk) (0, ac) ;;
    if 0 <? r then ac2 <- bump ac1 0 ;; Ret (dc1, ac2) else Ret (dc1, ac1).

(* a block of an MCU: component index (MCU_membership), its dc_tbl_no and ac_tbl_no, coefficients *)
Record gblk := mkGB { g_ci : nat; g_dct : nat; g_act : nat; g_coef : list Z }.
(* dc_count_ptrs, ac_count_ptrs, last_dc_val, restarts_to_go *)
Record gst := mkG { g_dcs : list (list Z); g_acs : list (list Z); g_last : list Z; g_togo : Z }.

(* jchuff.c:907-915: the loop over the blocks *)
Fixpoint gather_blocks (mcb : Z) (bs : list gblk) (s : gst) : outcome gst :=
  match bs with
  | [] => Ret s
  | b :: rest =>
    last <- aget (g_last s) (Z.of_nat (g_ci b)) ;;
    dc <- aget (g_dcs s) (Z.of_nat (g_dct b)) ;;
    ac <- aget (g_acs s) (Z.of_nat (g_act b)) ;;
    '(dc', ac') <- htest_one_block mcb (g_coef b) last dc ac ;;
    dcs' <- aset (g_dcs s) (Z.of_nat (g_dct b)) dc' ;;
    acs' <- aset (g_acs s) (Z.of_nat (g_act b)) ac' ;;
    b0 <- aget (g_coef b) 0 ;;
    last' <- aset (g_last s) (Z.of_nat (g_ci b)) b0 ;;
    gather_blocks mcb rest (mkG dcs' acs' last' (g_togo s))
  end.

(* jchuff.c:887-918 encode_mcu_gather *)
Definition encode_mcu_gather (mcb ri : Z) (bs : list gblk) (s : gst) : outcome gst :=
  let s1 := if ri =? 0 then s
            else if g_togo s =? 0 then mkG (g_dcs s) (g_acs s) (map (fun _ => 0) (g_last s)) (ri - 1)
            else mkG (g_dcs s) (g_acs s) (g_last s) (g_togo s - 1) in
  gather_blocks mcb bs s1.

(* the whole pass: start_pass_huff (jchuff.c:164-222, gather_statistics: counts zeroed, predictions 0,
   restarts_to_go = restart_interval), then one call per MCU *)
Definition start_pass_gather (nc : nat) (ri : Z) : gst :=
  mkG (repeat (repeat 0 257) 4) (repeat (repeat 0 257) 4) (repeat 0 nc) ri.
Fixpoint gather_mcus (mcb ri : Z) (ms : list (list gblk)) (s : gst) : outcome gst :=
  match ms with
  | [] => Ret s
  | m :: r => s' <- encode_mcu_gather mcb ri m s ;; gather_mcus mcb ri r s'
  end.
Definition gather_scan (mcb ri : Z) (nc : nat) (ms : list (list gblk)) : outcome gst :=
  gather_mcus mcb ri ms (start_pass_gather nc ri).

(* jchuff.c:1114-1148 finish_pass_gather.  jpeg_gen_optimal_table destroys the counts it is given
   (modelled by the empty list, on which it is Undef).  [fresh] = contents of a newly allocated table. *)
Definition make_table (fresh : JHUFF_TBL) (k : nat) (st : list (option JHUFF_TBL) * list bool * list (list Z))
  : outcome (list (option JHUFF_TBL) * list bool * list (list Z)) :=
  let '(tbls, did, counts) := st in
  dd <- aget did (Z.of_nat k) ;;
  if (dd : bool) then Ret st
  else
    t0 <- aget tbls (Z.of_nat k) ;;
    c <- aget counts (Z.of_nat k) ;;
    t <- jpeg_gen_optimal_table (match t0 with Some t => t | None => fresh end) c ;;
    tbls' <- aset tbls (Z.of_nat k) (Some t) ;;
    did' <- aset did (Z.of_nat k) true ;;
    counts' <- aset counts (Z.of_nat k) [] ;;
    Ret (tbls', did', counts').

Fixpoint finish_comps (fresh : JHUFF_TBL) (comps : list (nat * nat))
  (dst ast : list (option JHUFF_TBL) * list bool * list (list Z))
  : outcome (list (option JHUFF_TBL) * list (option JHUFF_TBL)) :=
  match comps with
  | [] => Ret (fst (fst dst), fst (fst ast))
  | (d, a) :: r =>
    dst' <- make_table fresh d dst ;;
    ast' <- make_table fresh a ast ;;
    finish_comps fresh r dst' ast'
  end.
Definition finish_pass_gather (fresh : JHUFF_TBL) (comps : list (nat * nat))
  (dcts acts : list (option JHUFF_TBL)) (s : gst)
  : outcome (list (option JHUFF_TBL) * list (option JHUFF_TBL)) :=
  finish_comps fresh comps (dcts, repeat false 4, g_dcs s) (acts, repeat false 4, g_acs s).
