(* M_HuffDec.v -- sequential Huffman entropy decoder (jdhuff.c) *)
From Verif Require Import Base M_HuffTbl M_Source M_BitRead.

(* jutils.c:59-72 jpeg_natural_order[DCTSIZE2 + 16] *)
Definition jpeg_natural_order : list Z :=
  [ 0;  1;  8; 16;  9;  2;  3; 10;
   17; 24; 32; 25; 18; 11;  4;  5;
   12; 19; 26; 33; 40; 48; 41; 34;
   27; 20; 13;  6;  7; 14; 21; 28;
   35; 42; 49; 56; 57; 50; 43; 36;
   29; 22; 15; 23; 30; 37; 44; 51;
   58; 59; 52; 45; 38; 31; 39; 46;
   53; 60; 61; 54; 47; 55; 62; 63;
   63; 63; 63; 63; 63; 63; 63; 63;
   63; 63; 63; 63; 63; 63; 63; 63].

(* Working state: savable_state.last_dc_val (jdhuff.c:41-43), and the stores made into MCU_data so
   far, oldest first, each (block number, natural-order index, value). *)
Record sqst := mkSq { sdc : list Z; souts : list (Z * Z * Z) }.

(* what start_pass_huff_decoder (jdhuff.c:79-129) precomputes for a block of the MCU: tables,
   component index, dc_needed, ac_needed; b_have = MCU_data is not NULL *)
Record blkcfg := mkBlk { b_dc : d_derived_tbl; b_ac : d_derived_tbl; b_ci : Z;
                         b_dcneed : bool; b_acneed : bool; b_have : bool }.

Definition out_put (w : Z * Z * Z) : DM sqst unit :=
  if (let '(_, i, _) := w in (0 <=? i) && (i <? 64))
  then dmod (fun u => mkSq (sdc u) (souts u ++ [w]))
  else fun _ => Undef.

(* jdhuff.c:572-597: DC coefficient *)
Definition decode_dc (bn : Z) (b : blkcfg) : DM sqst unit :=
  s0 <~ huff_decode (b_dc b) ;;
  s <~ (if s0 =? 0 then dret 0
        else check_bit_buffer s0 ;~ r <~ get_bits s0 ;; dret (HUFF_EXTEND r s0)) ;;
  if b_dcneed b then
    u <~ dget ;;
    last <~ dlift (aget (sdc u) (b_ci b)) ;;
    let v := s32 (s + last) in
    dcs' <~ dlift (aset (sdc u) (b_ci b) v) ;;
    dmod (fun u => mkSq dcs' (souts u)) ;~
    (if b_have b then out_put (bn, 0, s16 v) else dret tt)
  else dret tt.

(* jdhuff.c:599-625 (coefficients wanted) and 627-646 (discarded): loop over k; store = b_acneed && block *)
Fixpoint decode_ac (fuel : nat) (bn : Z) (b : blkcfg) (store : bool) (k : Z) : DM sqst unit :=
  match fuel with
  | O => fun _ => Undef
  | S f =>
    if k <? 64 then
      rs <~ huff_decode (b_ac b) ;;
      let r := Z.shiftr rs 4 in
      let s := Z.land rs 15 in
      if negb (s =? 0) then
        let k := k + r in
        check_bit_buffer s ;~
        (if store then
           x <~ get_bits s ;;
           pos <~ dlift (aget jpeg_natural_order k) ;;
           out_put (bn, pos, s16 (HUFF_EXTEND x s))
         else drop_bits s) ;~
        decode_ac f bn b store (k + 1)
      else if negb (r =? 15) then dret tt
      else decode_ac f bn b store (k + 15 + 1)
    else dret tt
  end.

(* jdhuff.c:562-647 one block *)
Definition decode_block (bn : Z) (b : blkcfg) : DM sqst unit :=
  decode_dc bn b ;~ decode_ac 64 bn b (b_acneed b && b_have b) 1.

Fixpoint decode_blocks (bn : Z) (bs : list blkcfg) : DM sqst unit :=
  match bs with
  | [] => dret tt
  | b :: r => decode_block bn b ;~ decode_blocks (bn + 1) r
  end.

(* jdhuff.c:552-654 decode_mcu_slow: the working copies are committed only at the end; on
   suspension the bit buffer, source position and DC predictions revert. *)
Definition decode_mcu_slow (bs : list blkcfg) (e : dst sqst) : outcome (dres sqst unit) :=
  match decode_blocks 0 bs e with
  | Ret (Susp s) =>
      Ret (Susp (mkD (gbuf e) (bleft e) (dsrc e) (unread s) (insuff s) (warns s)
                     (mkSq (sdc (ust e)) (souts (ust s)))))
  | r => r
  end.
