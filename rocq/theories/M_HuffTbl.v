(* M_HuffTbl.v -- model of Huffman table derivation in jchuff.c and jdhuff.c *)
From Verif Require Import Base.

(* jpeglib.h: JHUFF_TBL (bits[17], huffval[256], both UINT8). sent_table omitted here. *)
Record JHUFF_TBL := mkHuff { hbits : list Z; hval : list Z }.

(* C type invariant of JHUFF_TBL: array sizes and UINT8 ranges *)
Definition byte_ok (x : Z) : bool := (0 <=? x) && (x <? 256).
Definition huff_type_ok (t : JHUFF_TBL) : bool :=
  (length (hbits t) =? 17)%nat && forallb byte_ok (hbits t) &&
  (length (hval t) =? 256)%nat && forallb byte_ok (hval t).

(* ---- Figure C.1: jchuff.c:261-272 and jdhuff.c:172-185 (identical text) ----
   The array huffsize[0..p-1] is the list; the terminating 0 entry is the end of the list. *)
Definition size_step (bits : list Z) (l : Z) (hs : list Z) : outcome (list Z) :=
  i <- aget bits l ;;
  if (i <? 0) || (256 <? Z.of_nat (length hs) + i) then Error JERR_BAD_HUFF_TABLE
  else Ret (hs ++ repeat l (Z.to_nat i)).

Definition make_huffsize (bits : list Z) : outcome (list Z) :=
  for_loop 16 1 (size_step bits) [].

(* ---- Figure C.2: jchuff.c:274-292 and jdhuff.c:187-205 ----
   inner loop: while (huffsize[p] == si) { huffcode[p++] = code; code++; } *)
Fixpoint code_run (hs : list Z) (si code : Z) : list Z * Z * list Z :=
  match hs with
  | s :: r => if s =? si
              then let '(hs', code', cs) := code_run r si (u32 (code + 1)) in
                   (hs', code', code :: cs)
              else (hs, code, [])
  | [] => ([], code, [])
  end.

(* outer loop; fuel bounds the number of outer iterations (si only grows) *)
Fixpoint gen_codes (fuel : nat) (hs : list Z) (si code : Z) : outcome (list Z) :=
  match hs with
  | [] => Ret []                                   (* huffsize[p] == 0 *)
  | _ =>
    match fuel with
    | O => Undef
    | S f =>
      let '(hs', code', cs) := code_run hs si code in
      if Z.shiftl 1 si <=? code' then Error JERR_BAD_HUFF_TABLE
      else rest <- gen_codes f hs' (si + 1) (u32 (Z.shiftl code' 1)) ;; Ret (cs ++ rest)
    end
  end.

Definition make_huffcode (hs : list Z) : outcome (list Z) :=
  gen_codes 32 hs (hd 0 hs) 0.

(* ---- jchuff.h:34-38 c_derived_tbl ---- *)
Record c_derived_tbl := mkCT { ehufco : list Z; ehufsi : list Z }.

(* ---- Figure C.3: jchuff.c:311-318, loop body for one p ---- *)
Definition c_fill_step (val hs hc : list Z) (maxsymbol : Z) (p : Z) (d : c_derived_tbl)
  : outcome c_derived_tbl :=
  i <- aget val p ;;
  if (i <? 0) || (maxsymbol <? i) then Error JERR_BAD_HUFF_TABLE
  else
    si <- aget (ehufsi d) i ;;
    if negb (si =? 0) then Error JERR_BAD_HUFF_TABLE
    else
      co <- aget hc p ;;
      sz <- aget hs p ;;
      co' <- aset (ehufco d) i co ;;
      si' <- aset (ehufsi d) i sz ;;
      Ret (mkCT co' si').

(* jchuff.c:231-319 jpeg_make_c_derived_tbl. tblno lookup / NULL check: a missing table is
   None and gives JERR_NO_HUFF_TABLE; workspace allocation omitted. *)
Definition jpeg_make_c_derived_tbl (lossless isDC : bool) (t : option JHUFF_TBL)
  : outcome c_derived_tbl :=
  match t with
  | None => Error JERR_NO_HUFF_TABLE
  | Some htbl =>
    hs <- make_huffsize (hbits htbl) ;;
    hc <- make_huffcode hs ;;
    let maxsymbol := if isDC then (if lossless then 16 else 15) else 255 in
    for_loop (length hs) 0 (c_fill_step (hval htbl) hs hc maxsymbol)
             (mkCT (repeat 0 256) (repeat 0 256))
  end.

(* ---- jdhuff.h:24-55 d_derived_tbl. Uninitialised entries are None. ---- *)
Record d_derived_tbl := mkDT {
  maxcode : list (option Z);      (* [18] *)
  valoffset : list (option Z);    (* [18] *)
  dpub : JHUFF_TBL;
  dlookup : list Z                (* [256] *)
}.

(* Figure F.15 loop body: jdhuff.c:210-221 *)
Definition d_code_step (bits hc : list Z) (l : Z)
  (st : Z * list (option Z) * list (option Z)) : outcome (Z * list (option Z) * list (option Z)) :=
  let '(p, mx, vo) := st in
  n <- aget bits l ;;
  if negb (n =? 0) then
    c0 <- aget hc p ;;
    vo' <- aset vo l (Some (p - c0)) ;;
    let p' := p + n in
    c1 <- aget hc (p' - 1) ;;
    mx' <- aset mx l (Some c1) ;;
    Ret (p', mx', vo')
  else
    mx' <- aset mx l (Some (-1)) ;;
    Ret (p, mx', vo).

(* innermost lookahead loop: jdhuff.c:243-246 *)
Definition d_look_ctr (entry : Z) (_ : Z) (st : Z * list Z) : outcome (Z * list Z) :=
  let '(lookbits, tbl) := st in
  tbl' <- aset tbl lookbits entry ;;
  Ret (lookbits + 1, tbl').

(* middle loop body for one i (and p++): jdhuff.c:239-247 *)
Definition d_look_sym (val hc : list Z) (l : Z) (_ : Z) (st : Z * list Z) : outcome (Z * list Z) :=
  let '(p, tbl) := st in
  c <- aget hc p ;;
  v <- aget val p ;;
  '(_, tbl') <- for_loop (Z.to_nat (Z.shiftl 1 (8 - l))) 0
                   (d_look_ctr (Z.lor (Z.shiftl l 8) v)) (u32 (Z.shiftl c (8 - l)), tbl) ;;
  Ret (p + 1, tbl').

(* outer loop body for one l: jdhuff.c:238-248 *)
Definition d_look_len (bits val hc : list Z) (l : Z) (st : Z * list Z) : outcome (Z * list Z) :=
  n <- aget bits l ;;
  for_loop (Z.to_nat n) 1 (d_look_sym val hc l) st.

(* DC symbol check: jdhuff.c:256-262 *)
Definition d_dc_check (lossless : bool) (val : list Z) (i : Z) (_ : unit) : outcome unit :=
  sym <- aget val i ;;
  if (sym <? 0) || ((if lossless then 16 else 15) <? sym) then Error JERR_BAD_HUFF_TABLE
  else Ret tt.

(* jdhuff.c:142-263 jpeg_make_d_derived_tbl *)
Definition jpeg_make_d_derived_tbl (lossless isDC : bool) (t : option JHUFF_TBL)
  : outcome d_derived_tbl :=
  match t with
  | None => Error JERR_NO_HUFF_TABLE
  | Some htbl =>
    hs <- make_huffsize (hbits htbl) ;;
    hc <- make_huffcode hs ;;
    '(_, mx, vo) <- for_loop 16 1 (d_code_step (hbits htbl) hc)
                        (0, repeat None 18, repeat None 18) ;;
    vo' <- aset vo 17 (Some 0) ;;
    mx' <- aset mx 17 (Some 1048575) ;;
    '(_, lk) <- for_loop 8 1 (d_look_len (hbits htbl) (hval htbl) hc)
                    (0, repeat (Z.shiftl 9 8) 256) ;;
    _ <- (if isDC then for_loop (length hs) 0 (d_dc_check lossless (hval htbl)) tt
          else Ret tt) ;;
    Ret (mkDT mx' vo' htbl lk)
  end.
