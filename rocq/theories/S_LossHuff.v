(* S_LossHuff.v -- independent specification of lossless Huffman coding (T.81 H.1.2.2, table H.2) *)
From Verif Require Import Base S_Huff S_Stream S_Block.

(* differences are coded modulo 2^16; the representative lies in -32767 .. 32768 *)
Definition diff16 (d : Z) : Z := let r := d mod 65536 in if r <=? 32768 then r else r - 65536.

(* a sample: the code of its table, and the difference *)
Record lsmp := mkSmp { ls_code : Z -> list bool; ls_diff : Z }.

(* category SSSS = number of magnitude bits, then that many bits; category 16 means 32768, no bits *)
Definition enc_smp (s : lsmp) : list bool :=
  let v := diff16 (ls_diff s) in
  ls_code s (Z.of_nat (category v)) ++ (if v =? 32768 then [] else extra_bits v).

(* an MCU = its samples, an MCU row = its MCUs, a restart interval = rr rows (0: no restarts) *)
Definition enc_lmcu (m : list lsmp) : list bool := flat_map enc_smp m.
Definition enc_lrow (r : list (list lsmp)) : list bool := flat_map enc_lmcu r.
Definition enc_lrows (rs : list (list (list lsmp))) : list bool := flat_map enc_lrow rs.
Definition lscan_bytes (rr : nat) (rows : list (list (list lsmp))) : list Z :=
  join_rst 0 (map (fun seg => segment_bytes (enc_lrows seg)) (intervals (S (length rows)) rr rows)).
