(* M_Scans.v -- the scans of a multi-scan file over whole coefficient arrays: what the coefficient controllers (M_Coef.v) hand
   to the progressive entropy coders (M_PHuff.v, M_ArithBlk.v), and what the decompressor's arrays hold after each scan. *)
From Verif Require Import Base M_Coef S_MCU M_HuffTbl M_HuffEnc M_Source M_HuffDec M_LossHuff M_PHuff M_ArithBlk.
Local Open Scope nat_scope.

(* a JBLOCK: 64 coefficients in natural order (jpeglib.h:83-86); M_Coef.v keeps DC and AC apart *)
Definition blk_of (b : block) : list Z := fst b :: snd b.
Definition to_blk (l : list Z) : block := (hd 0%Z l, tl l).
(* jcmaster.c:553-594 / jdinput.c:151-206 per_scan_setup: MCU_membership[] -- the position in the scan of each block's component *)
Definition members (s : ks) : list Z :=
  flat_map (fun p => repeat (Z.of_nat (fst p)) (k_MW (snd p) * k_MH (snd p))) (combine (seq 0 (length (k_comps s))) (k_comps s)).
(* jccoefct.c:526-541 / jctrans.c:333-362 and jdcoefct.c:222-234: MCU_buffer[blkn] goes to the entropy coder with its membership *)
Definition tagged (s : ks) (m : list block) : list (Z * list Z) := combine (members s) (map blk_of m).
(* the coefficient arrays: component, block row, block column.  jdcoefct.c:852-868: allocated zeroed *)
Definition arrays : Type := nat -> nat -> nat -> block.
Definition zero_arrays : arrays := fun _ _ _ => (0%Z, zeros).
(* jdcoefct.c:222-234: MCU_buffer points into the arrays, so the entropy decoder works on what they hold.
   Simplification: all MCUs of the scan are read first and stored afterwards; each block belongs to one MCU only (C38_every_block_once). *)
Definition held (s : ks) (D : arrays) : list (list block) :=
  map (fun k => map (fun q => match q with (c, r, b) => D (k_idx c) r b end) (pos s (k / k_cols s) (k mod k_cols s)))
      (seq 0 (mcu_rows s * k_cols s)).
Definition write1 (D : arrays) (q : kc * nat * nat * block) : arrays :=
  match q with (c, r, b, x) => fun i r' b' => if (i =? k_idx c) && (r' =? r) && (b' =? b) then x else D i r' b' end.
Definition stored (s : ks) (news : list (list (list Z))) (D : arrays) : arrays :=
  fold_left write1 (placed s (map (map to_blk) news)) D.

(* one scan of a Huffman-coded file: geometry, parameters, derived tables of compressor and decompressor *)
Record hscan := mkHS { h_geo : ks; h_par : pscan; h_et : list (option c_derived_tbl); h_dt : list (option d_derived_tbl) }.
(* jcapistd.c/jcmaster.c: one output pass over the blocks ms (jcphuff.c); jdapistd.c/jdinput.c: consuming one scan (jdphuff.c) *)
Definition h_encode (h : hscan) (ms : list (list block)) (d : dest) : outcome dest :=
  pencode_scan (h_par h) (h_et h) (map (tagged (h_geo h)) ms) d.
Definition h_decode (h : hscan) (src : source) (D : arrays) : outcome (option arrays) :=
  '(news, _, ok) <- pdecode_scan (h_par h) (h_dt h) (map (tagged (h_geo h)) (held (h_geo h) D)) src ;;
  Ret (if ok : bool then Some (stored (h_geo h) news D) else None).
(* the scans of the file one after the other; each is read from wherever the source stands after the scan header *)
Fixpoint h_decode_all (l : list (hscan * source)) (D : arrays) : outcome (option arrays) :=
  match l with
  | [] => Ret (Some D)
  | (h, src) :: l => o <- h_decode h src D ;; match o with Some D => h_decode_all l D | None => Ret None end
  end.

(* the same for the arithmetic coder (jcarith.c, jdarith.c); input = the bytes from the scan on *)
Record ahscan := mkAHS { a_geo : ks; a_par : ascan }.
Definition a_encode (h : ahscan) (ms : list (list block)) : outcome (list Z) := encode_scan (a_par h) (map (tagged (a_geo h)) ms).
Definition a_decode (h : ahscan) (input : list Z) (D : arrays) : outcome (option arrays) :=
  o <- decode_scan (a_par h) input (map (tagged (a_geo h)) (held (a_geo h) D)) ;;
  Ret (match o with Some (news, _) => Some (stored (a_geo h) news D) | None => None end).
Fixpoint a_decode_all (l : list (ahscan * list Z)) (D : arrays) : outcome (option arrays) :=
  match l with
  | [] => Ret (Some D)
  | (h, i) :: l => o <- a_decode h i D ;; match o with Some D => a_decode_all l D | None => Ret None end
  end.
