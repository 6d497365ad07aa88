(* M_Smooth.v -- interblock smoothing of progressive images:
   smoothing_ok, start_output_pass and decompress_smooth_data of jdcoefct.c.

   The coefficient arrays are lists of block rows, a block is a list of 64
   coefficients in natural order.  JLONG is a 64-bit long (Linux).  The loop
   that forces input ahead of output (jdcoefct.c:462-478), the inverse DCT and
   the placement of its output are not part of this model: the result is the
   list of blocks handed to the inverse DCT. *)
From Verif Require Import Base.

(* jdcoefct.h:58 SAVED_COEFS; jdcoefct.c:341-349 Qxx_POS: the natural-order
   positions of the first nine AC coefficients *)
Definition SAVED_COEFS : nat := 10.
Definition Q01_POS : nat := 1.
Definition Q10_POS : nat := 8.
Definition Q20_POS : nat := 16.
Definition Q11_POS : nat := 9.
Definition Q02_POS : nat := 2.
Definition Q03_POS : nat := 3.
Definition Q12_POS : nat := 10.
Definition Q21_POS : nat := 17.
Definition Q30_POS : nat := 24.

(* What smoothing_ok reads of one component: quant_table (None for NULL), its
   row of cinfo->coef_bits and the row num_components further (the state before
   the current scan) *)
Record scomp := mkscomp {
  sc_quant : option (list Z);
  sc_bits : list Z;
  sc_prev_bits : list Z }.

(* jdcoefct.c:383-394 *)
Definition quant_nonzero (q : list Z) : bool :=
  negb ((nth 0 q 0 =? 0) || (nth Q01_POS q 0 =? 0) || (nth Q10_POS q 0 =? 0) ||
        (nth Q20_POS q 0 =? 0) || (nth Q11_POS q 0 =? 0) || (nth Q02_POS q 0 =? 0) ||
        (nth Q03_POS q 0 =? 0) || (nth Q12_POS q 0 =? 0) || (nth Q21_POS q 0 =? 0) ||
        (nth Q30_POS q 0 =? 0)).

(* jdcoefct.c:402-410: the latched row of one component, the latched previous
   row, and whether some AC coefficient is not known exactly.  Entry 0 of the
   previous row is never written by the C code (and never read): 0 here. *)
Definition latch_comp (input_scan : Z) (c : scomp) : list Z * list Z * bool :=
  (firstn SAVED_COEFS (sc_bits c),
   0 :: map (fun i => if 1 <? input_scan then nth i (sc_prev_bits c) 0 else -1)
            (seq 1 (SAVED_COEFS - 1)),
   existsb (fun i => negb (nth i (sc_bits c) 0 =? 0)) (seq 1 (SAVED_COEFS - 1))).

(* jdcoefct.c:377-413: the loop over the components.  None is "return FALSE";
   Some (latch, prev latch, useful) is the end of the loop. *)
Fixpoint smoothing_loop (input_scan : Z) (cs : list scomp) (useful : bool)
  : option (list (list Z) * list (list Z) * bool) :=
  match cs with
  | [] => Some ([], [], useful)
  | c :: t =>
      match sc_quant c with
      | None => None
      | Some q =>
          if negb (quant_nonzero q) then None
          else if nth 0 (sc_bits c) 0 <? 0 then None
          else
            let '(l, p, u) := latch_comp input_scan c in
            match smoothing_loop input_scan t (useful || u) with
            | None => None
            | Some (ls, ps, r) => Some (l :: ls, p :: ps, r)
            end
      end
  end.

(* jdcoefct.c:359-416 smoothing_ok: None is FALSE; Some (latch, prev) is TRUE
   with the two halves of coef_bits_latch *)
Definition smoothing_ok (progressive has_bits : bool) (input_scan : Z) (cs : list scomp)
  : option (list (list Z) * list (list Z)) :=
  if negb progressive || negb has_bits then None
  else match smoothing_loop input_scan cs false with
       | Some (ls, ps, true) => Some (ls, ps)
       | _ => None
       end.

(* jdcoefct.c:57-72 start_output_pass: the latched tables when
   decompress_smooth_data is selected, None when decompress_data is *)
Definition start_output_pass (do_block_smoothing progressive has_bits : bool)
    (input_scan : Z) (cs : list scomp) : option (list (list Z) * list (list Z)) :=
  if do_block_smoothing then smoothing_ok progressive has_bits input_scan cs else None.

(* The DC kernels.  d is [DC01; ...; DC25]. *)
(* jdcoefct.c:616-619 *)
Definition k01c (d : list Z) : Z :=
  -nth 0 d 0 - nth 1 d 0 + nth 3 d 0 + nth 4 d 0 - 3 * nth 5 d 0 + 13 * nth 6 d 0 - 13 * nth 8 d 0 + 3 * nth 9 d 0 - 3 * nth 10 d 0 + 38 * nth 11 d 0 - 38 * nth 13 d 0 + 3 * nth 14 d 0 - 3 * nth 15 d 0 + 13 * nth 16 d 0 - 13 * nth 18 d 0 + 3 * nth 19 d 0 - nth 20 d 0 - nth 21 d 0 + nth 23 d 0 + nth 24 d 0.
(* jdcoefct.c:620 *)
Definition k01n (d : list Z) : Z :=
  -7 * nth 10 d 0 + 50 * nth 11 d 0 - 50 * nth 13 d 0 + 7 * nth 14 d 0.
(* jdcoefct.c:636-639 *)
Definition k10c (d : list Z) : Z :=
  -nth 0 d 0 - 3 * nth 1 d 0 - 3 * nth 2 d 0 - 3 * nth 3 d 0 - nth 4 d 0 - nth 5 d 0 + 13 * nth 6 d 0 + 38 * nth 7 d 0 + 13 * nth 8 d 0 - nth 9 d 0 + nth 15 d 0 - 13 * nth 16 d 0 - 38 * nth 17 d 0 - 13 * nth 18 d 0 + nth 19 d 0 + nth 20 d 0 + 3 * nth 21 d 0 + 3 * nth 22 d 0 + 3 * nth 23 d 0 + nth 24 d 0.
(* jdcoefct.c:640 *)
Definition k10n (d : list Z) : Z :=
  -7 * nth 2 d 0 + 50 * nth 7 d 0 - 50 * nth 17 d 0 + 7 * nth 22 d 0.
(* jdcoefct.c:656-657 *)
Definition k20c (d : list Z) : Z :=
  nth 2 d 0 + 2 * nth 6 d 0 + 7 * nth 7 d 0 + 2 * nth 8 d 0 - 5 * nth 11 d 0 - 14 * nth 12 d 0 - 5 * nth 13 d 0 + 2 * nth 16 d 0 + 7 * nth 17 d 0 + 2 * nth 18 d 0 + nth 22 d 0.
(* jdcoefct.c:658 *)
Definition k20n (d : list Z) : Z :=
  -nth 2 d 0 + 13 * nth 7 d 0 - 24 * nth 12 d 0 + 13 * nth 17 d 0 - nth 22 d 0.
(* jdcoefct.c:674-675 *)
Definition k11c (d : list Z) : Z :=
  -nth 0 d 0 + nth 4 d 0 + 9 * nth 6 d 0 - 9 * nth 8 d 0 - 9 * nth 16 d 0 + 9 * nth 18 d 0 + nth 20 d 0 - nth 24 d 0.
(* jdcoefct.c:676-677 *)
Definition k11n (d : list Z) : Z :=
  nth 9 d 0 + nth 15 d 0 - 10 * nth 16 d 0 + 10 * nth 18 d 0 - nth 1 d 0 - nth 19 d 0 + nth 21 d 0 - nth 23 d 0 + nth 3 d 0 - nth 5 d 0 + 10 * nth 6 d 0 - 10 * nth 8 d 0.
(* jdcoefct.c:693-694 *)
Definition k02c (d : list Z) : Z :=
  2 * nth 6 d 0 - 5 * nth 7 d 0 + 2 * nth 8 d 0 + nth 10 d 0 + 7 * nth 11 d 0 - 14 * nth 12 d 0 + 7 * nth 13 d 0 + nth 14 d 0 + 2 * nth 16 d 0 - 5 * nth 17 d 0 + 2 * nth 18 d 0.
(* jdcoefct.c:695 *)
Definition k02n (d : list Z) : Z :=
  -nth 10 d 0 + 13 * nth 11 d 0 - 24 * nth 12 d 0 + 13 * nth 13 d 0 - nth 14 d 0.
(* jdcoefct.c:711 *)
Definition k03 (d : list Z) : Z :=
  nth 6 d 0 - nth 8 d 0 + 2 * nth 11 d 0 - 2 * nth 13 d 0 + nth 16 d 0 - nth 18 d 0.
(* jdcoefct.c:726 *)
Definition k12 (d : list Z) : Z :=
  nth 6 d 0 - 3 * nth 7 d 0 + nth 8 d 0 - nth 16 d 0 + 3 * nth 17 d 0 - nth 18 d 0.
(* jdcoefct.c:741 *)
Definition k21 (d : list Z) : Z :=
  nth 6 d 0 - nth 8 d 0 - 3 * nth 11 d 0 + 3 * nth 13 d 0 + nth 16 d 0 - nth 18 d 0.
(* jdcoefct.c:756 *)
Definition k30 (d : list Z) : Z :=
  nth 6 d 0 + 2 * nth 7 d 0 + nth 8 d 0 - nth 16 d 0 - 2 * nth 17 d 0 - nth 18 d 0.
(* jdcoefct.c:772-777 *)
Definition k00 (d : list Z) : Z :=
  -2 * nth 0 d 0 - 6 * nth 1 d 0 - 8 * nth 2 d 0 - 6 * nth 3 d 0 - 2 * nth 4 d 0 - 6 * nth 5 d 0 + 6 * nth 6 d 0 + 42 * nth 7 d 0 + 6 * nth 8 d 0 - 6 * nth 9 d 0 - 8 * nth 10 d 0 + 42 * nth 11 d 0 + 152 * nth 12 d 0 + 42 * nth 13 d 0 - 8 * nth 14 d 0 - 6 * nth 15 d 0 + 6 * nth 16 d 0 + 42 * nth 17 d 0 + 6 * nth 18 d 0 - 6 * nth 19 d 0 - 2 * nth 20 d 0 - 6 * nth 21 d 0 - 8 * nth 22 d 0 - 6 * nth 23 d 0 - 2 * nth 24 d 0.

(* The kernel sums are int expressions *)
Definition int_ok (x : Z) : bool := (- 2 ^ 31 <=? x) && (x <? 2 ^ 31).

(* jdcoefct.c:622-632 (and the same text for every coefficient): num is
   Q00 * sum; division by zero is undefined; the quotient is narrowed to int,
   capped, negated, narrowed to JCOEF *)
Definition estimate (q00 q al sum : Z) : outcome Z :=
  if negb (int_ok sum) then Undef
  else if q =? 0 then Undef
  else
    let num := q00 * sum in
    let cap p := if (0 <? al) && (2 ^ al <=? p) then 2 ^ al - 1 else p in
    let pred :=
      if 0 <=? num
      then cap (s32 (Z.quot (Z.shiftl q 7 + num) (Z.shiftl q 8)))
      else - cap (s32 (Z.quot (Z.shiftl q 7 - num) (Z.shiftl q 8))) in
    Ret (s16 pred).

(* jdcoefct.c:613-633 (and the same text for every coefficient) *)
Definition ac_step (q cb : list Z) (i pos : nat) (sum : Z) (ws : list Z) : outcome (list Z) :=
  let al := nth i cb 0 in
  if negb (al =? 0) && (nth pos ws 0 =? 0) then
    p <- estimate (nth 0 q 0) (nth pos q 0) al sum ;;
    Ret (upd ws pos p)
  else Ret ws.

(* jdcoefct.c:523-526 change_dc *)
Definition change_dc (cb : list Z) : bool :=
  (nth 1 cb 0 =? -1) && (nth 2 cb 0 =? -1) && (nth 3 cb 0 =? -1) &&
  (nth 4 cb 0 =? -1) && (nth 5 cb 0 =? -1) && (nth 6 cb 0 =? -1) &&
  (nth 7 cb 0 =? -1) && (nth 8 cb 0 =? -1) && (nth 9 cb 0 =? -1).

(* jdcoefct.c:613-786: the estimates of one block *)
Definition smooth_block (q cb d ws : list Z) : outcome (list Z) :=
  let cd := change_dc cb in
  ws <- ac_step q cb 1 Q01_POS (if cd then k01c d else k01n d) ws ;;
  ws <- ac_step q cb 2 Q10_POS (if cd then k10c d else k10n d) ws ;;
  ws <- ac_step q cb 3 Q20_POS (if cd then k20c d else k20n d) ws ;;
  ws <- ac_step q cb 4 Q11_POS (if cd then k11c d else k11n d) ws ;;
  ws <- ac_step q cb 5 Q02_POS (if cd then k02c d else k02n d) ws ;;
  if cd then
    ws <- ac_step q cb 6 Q03_POS (k03 d) ws ;;
    ws <- ac_step q cb 7 Q12_POS (k12 d) ws ;;
    ws <- ac_step q cb 8 Q21_POS (k21 d) ws ;;
    ws <- ac_step q cb 9 Q30_POS (k30 d) ws ;;
    p <- estimate (nth 0 q 0) (nth 0 q 0) 0 (k00 d) ;;
    Ret (upd ws 0 p)
  else Ret ws.

(* Geometry of one component.  g_first, g_last: master->first_MCU_col[ci],
   last_MCU_col[ci] *)
Record sgeom := mksgeom {
  g_total : Z;      (* total_iMCU_rows *)
  g_v : Z;          (* v_samp_factor *)
  g_hb : Z;         (* height_in_blocks *)
  g_wb : Z;         (* width_in_blocks *)
  g_first : Z;
  g_last : Z }.

Definition barray := list (list (list Z)).

(* jmemmgr.c access_virt_barray, with maxaccess = 5 * v_samp_factor
   (jdcoefct.c:846-858): the rows start .. start+n-1 are made accessible *)
Definition access_rows_of (arr : barray) (maxaccess start n : Z) : outcome barray :=
  if (Z.of_nat (length arr) <? start + n) || (maxaccess <? n)
  then Error JERR_BAD_VIRTUAL_ACCESS
  else Ret (firstn (Z.to_nat n) (skipn (Z.to_nat start) arr)).

(* jdcoefct.c:480-491: block_rows and the accessed rows from this one on *)
Definition block_rows (g : sgeom) (r : Z) : Z :=
  if r <? g_total g - 1 then g_v g
  else if g_hb g mod g_v g =? 0 then g_v g else g_hb g mod g_v g.
Definition fwd_rows (g : sgeom) (r : Z) : Z :=
  if r + 1 <? g_total g - 1 then block_rows g r * 3
  else if r <? g_total g - 1 then block_rows g r * 2
  else block_rows g r.

(* jdcoefct.c:493-511: rows before the current iMCU row *)
Definition back_rows (g : sgeom) (r : Z) : Z :=
  if 1 <? r then 2 * g_v g else if 0 <? r then g_v g else 0.
Definition back_start (g : sgeom) (r : Z) : Z :=
  if 1 <? r then (r - 2) * g_v g else if 0 <? r then (r - 1) * g_v g else 0.

(* jdcoefct.c:546-571: the row indices, relative to buffer, of the two rows
   above, this row and the two rows below *)
Definition row_ptrs (g : sgeom) (r br : Z) : list Z :=
  let rows := block_rows g r * g_total g in
  let irow := r * block_rows g r + br in
  let prev := if 0 <? irow then br - 1 else br in
  let pprev := if 1 <? irow then br - 2 else prev in
  let next := if irow <? rows - 1 then br + 1 else br in
  let nnext := if irow <? rows - 2 then br + 2 else next in
  [pprev; prev; br; next; nnext].

(* The block at row i (index into the accessed window), column c *)
Definition block_at (win : barray) (i c : Z) : outcome (list Z) :=
  row <- aget win i ;; aget row c.
Definition dc_at (win : barray) (i c : Z) : outcome Z :=
  b <- block_at win i c ;; aget b 0.

Fixpoint mapm {A B} (f : A -> outcome B) (l : list A) : outcome (list B) :=
  match l with
  | [] => Ret []
  | x :: t => y <- f x ;; r <- mapm f t ;; Ret (y :: r)
  end.

(* jdcoefct.c:576-580: the five registers of one row, initialized *)
Definition reg_init (win : barray) (g : sgeom) (i : Z) : outcome (list Z) :=
  x <- dc_at win i (g_first g) ;; Ret [x; x; x; x; x].

(* jdcoefct.c:587-602: the update of the registers of row i at column b *)
Definition reg_update (win : barray) (g : sgeom) (b : Z) (ir : Z * list Z)
  : outcome (Z * list Z) :=
  let '(i, r) := ir in
  let lastcol := g_wb g - 1 in
  r <- (if (b =? g_first g) && (b <? lastcol) then
          x <- dc_at win i (b + 1) ;;
          Ret [nth 0 r 0; nth 1 r 0; nth 2 r 0; x; x]
        else Ret r) ;;
  r <- (if b + 1 <? lastcol then
          x <- dc_at win i (b + 2) ;;
          Ret [nth 0 r 0; nth 1 r 0; nth 2 r 0; nth 3 r 0; x]
        else Ret r) ;;
  Ret (i, r).

(* jdcoefct.c:792-796: DC01 = DC02; ... DC04 = DC05 for one row *)
Definition reg_shift (ir : Z * list Z) : Z * list Z :=
  let '(i, r) := ir in (i, [nth 1 r 0; nth 2 r 0; nth 3 r 0; nth 4 r 0; nth 4 r 0]).

(* jdcoefct.c:583-800: the loop over the columns b .. last_MCU_col *)
Fixpoint smooth_cols (n : nat) (win : barray) (g : sgeom) (q cb : list Z) (cur b : Z)
    (regs : list (Z * list Z)) : outcome (list (list Z)) :=
  match n with
  | O => Ret []
  | S m =>
      ws <- block_at win cur b ;;
      regs <- mapm (reg_update win g b) regs ;;
      out <- smooth_block q cb (concat (map snd regs)) ws ;;
      rest <- smooth_cols m win g q cb cur (b + 1) (map reg_shift regs) ;;
      Ret (out :: rest)
  end.

(* jdcoefct.c:545-802: one block row *)
Definition smooth_block_row (win : barray) (g : sgeom) (q cb : list Z) (r br : Z)
  : outcome (list (list Z)) :=
  let base := back_rows g r in
  let idx := map (fun k => base + k) (row_ptrs g r br) in
  regs <- mapm (reg_init win g) idx ;;
  smooth_cols (Z.to_nat (g_last g - g_first g + 1)) win g q cb (base + br) (g_first g)
              (combine idx regs).

(* jdcoefct.c:480-803: one component of one iMCU row: the blocks given to the
   inverse DCT, row by row *)
Definition smooth_comp (arr : barray) (g : sgeom) (q latch prev_latch : list Z)
    (last_good r : Z) : outcome (list (list (list Z))) :=
  win <- access_rows_of arr (5 * g_v g) (back_start g r) (fwd_rows g r + back_rows g r) ;;
  let cb := if last_good <? r then prev_latch else latch in
  mapm (smooth_block_row win g q cb r) (map Z.of_nat (seq 0 (Z.to_nat (block_rows g r)))).
