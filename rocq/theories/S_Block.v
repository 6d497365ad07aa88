(* S_Block.v -- independent specification of sequential entropy coding of a block (T.81 F.1.2),
   zig-zag order (T.81 Figure 5 / A.3.6), and byte-level segments. *)
From Verif Require Import Base S_Huff S_Stream.

(* T.81 A.3.6: the zig-zag path visits the antidiagonals row+col = d for d = 0..14, upwards
   (towards row 0) when d is even and downwards when d is odd.  Values: row * 8 + col. *)
Definition diagonal (d : nat) : list nat :=
  let rows := filter (fun r => (d - r <? 8)%nat && (r <=? d)%nat) (seq 0 8) in
  map (fun r => (r * 8 + (d - r))%nat) (if Nat.even d then rev rows else rows).
Definition zigzag : list nat := flat_map diagonal (seq 0 15).

(* a block is 64 coefficients in natural (row-major) order; its zig-zag sequence *)
Definition zz (blk : list Z) : list Z := map (fun i => nth i blk 0) zigzag.

(* T.81 F.1.2.1: difference category SSSS = number of bits of |v| *)
Definition category (v : Z) : nat := if v =? 0 then 0%nat else Z.to_nat (Z.log2 (Z.abs v) + 1).
(* additional bits: low-order bits of v if positive, of v - 1 if negative *)
Definition extra_bits (v : Z) : list bool := bits_of (category v) (if v <? 0 then v - 1 else v).

(* [code s] = code word of symbol s *)
Definition enc_dc (code : Z -> list bool) (diff : Z) : list bool :=
  code (Z.of_nat (category diff)) ++ extra_bits diff.

(* T.81 F.1.2.2: r = number of zeros since the last nonzero coefficient.  Runs of 16 zeros before a
   nonzero coefficient are coded by ZRL (symbol 240); trailing zeros by EOB (symbol 0). *)
Fixpoint enc_ac (code : Z -> list bool) (r : nat) (l : list Z) : list bool :=
  match l with
  | [] => match r with O => [] | _ => code 0 end
  | v :: t =>
    if v =? 0 then enc_ac code (S r) t
    else flat_map (fun _ => code 240) (seq 0 (r / 16)) ++
         code (16 * Z.of_nat (r mod 16) + Z.of_nat (category v)) ++ extra_bits v ++ enc_ac code 0 t
  end.

(* the symbols used *)
Fixpoint ac_symbols (r : nat) (l : list Z) : list Z :=
  match l with
  | [] => match r with O => [] | _ => [0] end
  | v :: t =>
    if v =? 0 then ac_symbols (S r) t
    else repeat 240 (r / 16) ++ (16 * Z.of_nat (r mod 16) + Z.of_nat (category v)) :: ac_symbols 0 t
  end.

(* one block, given the DC prediction *)
Definition enc_block (dcc acc : Z -> list bool) (pred : Z) (blk : list Z) : list bool :=
  enc_dc dcc (nth 0 blk 0 - pred) ++ enc_ac acc 0 (tl (zz blk)).

(* bits packed into bytes, most significant bit first, last byte completed with 1 bits (F.1.2.3) *)
Fixpoint pack (fuel : nat) (l : list bool) : list Z :=
  match fuel with
  | O => []
  | S f => match l with
           | [] => []
           | _ => bval (firstn 8 (l ++ repeat true 7)) :: pack f (skipn 8 l)
           end
  end.
Definition segment_bytes (l : list bool) : list Z := stuff (pack (length l) l).

(* ---- a scan ---- *)
(* a block of an MCU: component number, codes of its DC and AC tables, coefficients *)
Record sblk := mkSB { s_ci : nat; s_dcc : Z -> list bool; s_acc : Z -> list bool; s_coef : list Z }.

(* blocks in order; the DC prediction of a component is the DC value of its previous block *)
Fixpoint enc_mcu (preds : list Z) (bs : list sblk) : list bool * list Z :=
  match bs with
  | [] => ([], preds)
  | b :: r =>
    let '(w, p') := enc_mcu (upd preds (s_ci b) (nth 0 (s_coef b) 0)) r in
    (enc_block (s_dcc b) (s_acc b) (nth (s_ci b) preds 0) (s_coef b) ++ w, p')
  end.
Fixpoint enc_mcus (preds : list Z) (ms : list (list sblk)) : list bool :=
  match ms with
  | [] => []
  | m :: r => let '(w, p') := enc_mcu preds m in w ++ enc_mcus p' r
  end.

(* the MCUs of a scan cut into restart intervals of ri MCUs each (ri = 0: no restarts) *)
Fixpoint intervals {A} (fuel ri : nat) (l : list A) : list (list A) :=
  match fuel with
  | O => []
  | S f => if ((ri =? 0) || (length l <=? ri))%nat then [l]
           else firstn ri l :: intervals f ri (skipn ri l)
  end.

(* segments separated by RST0, RST1, ..., RST7, RST0, ... (T.81 B.2.1, E.1.4) *)
Fixpoint join_rst (i : Z) (segs : list (list Z)) : list Z :=
  match segs with
  | [] => []
  | [s] => s
  | s :: r => s ++ [255; 208 + i mod 8] ++ join_rst (i + 1) r
  end.

(* the entropy-coded data of a scan with ncomp components; predictions start at 0 in each interval *)
Definition scan_bytes (ncomp ri : nat) (ms : list (list sblk)) : list Z :=
  join_rst 0 (map (fun seg => segment_bytes (enc_mcus (repeat 0 ncomp) seg))
                  (intervals (S (length ms)) ri ms)).
