(* S_Trellis.v -- what trellis quantization may do to a block, independent of the code *)
From Verif Require Import Base S_Block.

(* the k-th coefficient of a block in zigzag order *)
Definition coef (blk : list Z) (k : Z) : Z := nth (nth (Z.to_nat k) zigzag 0%nat) blk 0.

(* r is x / q rounded to nearest, halves up *)
Definition rounded (x q r : Z) : Prop := 2 * x - q < 2 * q * r <= 2 * x + q.
(* DCT outputs are scaled up by 8: plain quantization of src gives +-r *)
Definition toward_zero (src quant c : Z) : Prop := exists r, rounded (Z.abs src) (8 * quant) r /\ Z.abs c <= r /\ 0 <= c * src.

(* Huffman symbol of a coefficient after a run of zeroes *)
Definition size_of (c : Z) : Z := if c =? 0 then 0 else Z.log2 (Z.abs c) + 1.
Definition has_code (code_size : list Z) (sym : Z) : Prop := nth (Z.to_nat sym) code_size 0 <> 0.
(* every nonzero coefficient of the band can be coded with the table: its run/size symbol has a code, and so has ZRL
   if the run is 16 or more *)
Definition encodable (code_size : list Z) (Ss Se maxbits : Z) (blk : list Z) : Prop :=
  forall k, Ss <= k <= Se -> coef blk k <> 0 ->
  exists prev, Ss - 1 <= prev < k /\ (prev = Ss - 1 \/ coef blk prev <> 0) /\ (forall m, prev < m < k -> coef blk m = 0) /\
    size_of (coef blk k) <= maxbits /\
    has_code code_size (16 * ((k - prev - 1) mod 16) + size_of (coef blk k)) /\
    (16 <= k - prev - 1 -> has_code code_size 240).
