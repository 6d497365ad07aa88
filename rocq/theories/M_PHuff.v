(* M_PHuff.v -- progressive Huffman entropy coder (jcphuff.c) and decoder (jdphuff.c).
   The encoder's routines are modelled as producing the sequence of their emit_symbol / emit_bits calls and restart
   markers ("events"); what such a call does -- put bits into the output, or count a symbol in a statistics-gathering
   pass -- is modelled after that.  Nothing the calls do feeds back into the routines.
   Simplified: the arrays values[]/absvalues[] with their bit masks zerobits/signbits are lists, and count_zeroes() is
   counting leading zeros of such a list; the SIMD versions of the prepare routines are not modelled. *)
From Verif Require Import Base M_HuffTbl M_Source M_BitRead M_HuffEnc M_LossHuff M_HuffDec.

(* scan parameters (cinfo->Ss/Se/Ah/Al, data_precision, restart_interval; for each component of the scan its DC and AC table number) *)
Record pscan := mkPS { pSs : Z; pSe : Z; pAh : Z; pAl : Z; pprec : Z; pri : Z; pcomps : list (Z * Z) }.
(* an MCU: the blocks with their component (MCU_membership) *)
Definition pmcu := list (Z * list Z).

(* ---------------- encoder ---------------- *)
Inductive item := ISym (tbl sym : Z) | IBits (code size : Z).
Inductive event := EItem (i : item) | ERst (num : Z) | EEnd.
(* last_dc_val, EOBRUN, and bit_buffer[0 .. BE-1] (jcphuff.c:80-88) *)
Record pst := mkPst { p_dc : list Z; p_run : Z; p_be : list Z }.
Definition MAX_CORR_BITS : Z := 1000.

(* jcphuff.c:389-402 emit_buffered_bits *)
Definition buffered (l : list Z) : list item := map (fun b => IBits b 1) l.
(* jcphuff.c:409-432 emit_eobrun; ac_tbl_no as argument *)
Definition emit_eobrun (atbl : Z) (s : pst) : outcome (list item * pst) :=
  if 0 <? p_run s then
    n <- JPEG_NBITS (p_run s) ;;
    let nbits := n - 1 in
    if 14 <? nbits then Error JERR_HUFF_MISSING_CODE
    else Ret (ISym atbl (Z.shiftl nbits 4) :: (if nbits =? 0 then [] else [IBits (p_run s) nbits]) ++ buffered (p_be s),
              mkPst (p_dc s) 0 [])
  else Ret ([], s).

(* jcphuff.c:498-548: the blocks of encode_mcu_DC_first *)
Fixpoint penc_dc_first (p : pscan) (dcs : list Z) (bs : pmcu) : outcome (list item * list Z) :=
  match bs with
  | [] => Ret ([], dcs)
  | (ci, blk) :: bs =>
    '(tbl, _) <- aget (pcomps p) ci ;;
    dc <- aget blk 0 ;;
    let temp2 := Z.shiftr dc (pAl p) in
    last <- aget dcs ci ;;
    let temp := temp2 - last in
    dcs <- aset dcs ci temp2 ;;
    let temp3 := Z.shiftr temp 31 in
    let mag := Z.lxor temp temp3 - temp3 in
    let temp2 := Z.lxor mag temp3 in
    nbits <- JPEG_NBITS mag ;;
    if pprec p + 2 + 1 <? nbits then Error JERR_BAD_DCT_COEF
    else
      '(its, dcs) <- penc_dc_first p dcs bs ;;
      Ret (ISym tbl nbits :: (if nbits =? 0 then [] else [IBits (u32 temp2) nbits]) ++ its, dcs)
  end.
(* jcphuff.c:768-775: encode_mcu_DC_refine *)
Fixpoint penc_dc_refine (p : pscan) (bs : pmcu) : outcome (list item) :=
  match bs with
  | [] => Ret []
  | (_, blk) :: bs => dc <- aget blk 0 ;; its <- penc_dc_refine p bs ;; Ret (IBits (u32 (Z.shiftr dc (pAl p))) 1 :: its)
  end.
(* the coefficients of the band, in zigzag order: block[jpeg_natural_order_start[k]], k = 0 .. n-1 *)
Fixpoint band (n : nat) (k : Z) (blk : list Z) : outcome (list Z) :=
  match n with
  | O => Ret []
  | S n => z <- aget jpeg_natural_order k ;; c <- aget blk z ;; l <- band n (k + 1) blk ;; Ret (c :: l)
  end.
(* jcphuff.c:573-598 COMPUTE_ABSVALUES_AC_FIRST: (values[k], values[k + DCTSIZE2]) *)
Definition absvalue (Al c : Z) : Z * Z :=
  let temp2 := Z.shiftr c 31 in
  let temp := Z.shiftr (Z.lxor c temp2 - temp2) Al in
  (temp, Z.lxor temp2 temp).
(* jcphuff.c:629-632: while (r > 15) { emit ZRL; r -= 16; } *)
Fixpoint zrls (fuel : nat) (atbl r : Z) : outcome (list item * Z) :=
  if 15 <? r then
    match fuel with
    | O => Undef
    | S f => '(l, r) <- zrls f atbl (r - 16) ;; Ret (ISym atbl 240 :: l, r)
    end
  else Ret ([], r).
(* jcphuff.c:620-646 ENCODE_COEFS_AC_FIRST over the remaining values; z = zeros passed so far.  Result: items, and the zeros left at the end *)
Fixpoint penc_ac_first (p : pscan) (atbl : Z) (z : Z) (vals : list Z) : outcome (list item * Z) :=
  match vals with
  | [] => Ret ([], z)
  | c :: vals =>
    let '(temp, temp2) := absvalue (pAl p) c in
    if temp =? 0 then penc_ac_first p atbl (z + 1) vals
    else
      '(zl, r) <- zrls 4 atbl z ;;
      nbits <- JPEG_NBITS temp ;;
      if pprec p + 2 <? nbits then Error JERR_BAD_DCT_COEF
      else
        '(its, z') <- penc_ac_first p atbl 0 vals ;;
        Ret (zl ++ ISym atbl (Z.shiftl r 4 + nbits) :: IBits (u16 temp2) nbits :: its, z')
  end.
(* jcphuff.c:648-734 encode_mcu_AC_first *)
Definition penc_mcu_ac_first (p : pscan) (atbl : Z) (s : pst) (blk : list Z) : outcome (list item * pst) :=
  vals <- band (Z.to_nat (pSe p - pSs p + 1)) (pSs p) blk ;;
  '(i1, s) <- (if existsb (fun c => negb (fst (absvalue (pAl p) c) =? 0)) vals then emit_eobrun atbl s else Ret ([], s)) ;;
  '(i2, z) <- penc_ac_first p atbl 0 vals ;;
  if 0 <? z then
    let s := mkPst (p_dc s) (p_run s + 1) (p_be s) in
    '(i3, s) <- (if p_run s =? 32767 then emit_eobrun atbl s else Ret ([], s)) ;;
    Ret (i1 ++ i2 ++ i3, s)
  else Ret (i1 ++ i2, s).
(* jcphuff.c:797-823 COMPUTE_ABSVALUES_AC_REFINE: EOB = index of the last newly-nonzero coefficient, 0 if there is none *)
Fixpoint find_eob (Al k eob : Z) (vals : list Z) : Z :=
  match vals with
  | [] => eob
  | c :: vals => find_eob Al (k + 1) (if fst (absvalue Al c) =? 1 then k else eob) vals
  end.
(* jcphuff.c:880-890: while (r > 15 && (cabsvalue <= EOBPTR)) *)
Fixpoint rzrls (fuel : nat) (atbl r : Z) (before : bool) (br : list Z) (s : pst) : outcome (list item * Z * list Z * pst) :=
  if (15 <? r) && before then
    match fuel with
    | O => Undef
    | S f => '(e, s) <- emit_eobrun atbl s ;;
        '(l, r, br', s) <- rzrls f atbl (r - 16) before [] s ;;
        Ret (e ++ ISym atbl 240 :: buffered br ++ l, r, br', s)
    end
  else Ret ([], r, br, s).
(* jcphuff.c:872-926 ENCODE_COEFS_AC_REFINE over the remaining values; k = index, r = run length before the z zeros just passed, br = BR_buffer[0 .. BR-1].
   The store BR_buffer[BR++] must stay inside the buffer. *)
Fixpoint penc_ac_refine (Al atbl eob k r z : Z) (br : list Z) (s : pst) (vals : list Z) : outcome (list item * Z * Z * list Z * pst) :=
  match vals with
  | [] => Ret ([], r, z, br, s)
  | c :: vals =>
    let temp := fst (absvalue Al c) in
    if temp =? 0 then penc_ac_refine Al atbl eob (k + 1) r (z + 1) br s vals
    else
      '(i1, r, br, s) <- rzrls 8 atbl (r + z) (k <=? eob) br s ;;
      if 1 <? temp then
        if MAX_CORR_BITS <=? Z.of_nat (length (p_be s) + length br) then Undef
        else '(i2, r, z, br, s) <- penc_ac_refine Al atbl eob (k + 1) r 0 (br ++ [Z.land temp 1]) s vals ;; Ret (i1 ++ i2, r, z, br, s)
      else
        '(e, s) <- emit_eobrun atbl s ;;
        '(i2, r', z, br', s) <- penc_ac_refine Al atbl eob (k + 1) 0 0 [] s vals ;;
        Ret (i1 ++ e ++ ISym atbl (Z.shiftl r 4 + 1) :: IBits (if c <? 0 then 0 else 1) 1 :: buffered br ++ i2, r', z, br', s)
  end.
(* jcphuff.c:928-1016 encode_mcu_AC_refine *)
Definition penc_mcu_ac_refine (p : pscan) (atbl : Z) (s : pst) (blk : list Z) : outcome (list item * pst) :=
  vals <- band (Z.to_nat (pSe p - pSs p + 1)) (pSs p) blk ;;
  '(i1, r, z, br, s) <- penc_ac_refine (pAl p) atbl (find_eob (pAl p) 0 0 vals) 0 0 0 [] s vals ;;
  if (0 <? Z.lor r z) || (0 <? Z.of_nat (length br)) then
    let s := mkPst (p_dc s) (p_run s + 1) (p_be s ++ br) in
    '(i2, s) <- (if (p_run s =? 32767) || (MAX_CORR_BITS - 64 + 1 <? Z.of_nat (length (p_be s))) then emit_eobrun atbl s else Ret ([], s)) ;;
    Ret (i1 ++ i2, s)
  else Ret (i1, s).
(* ac_tbl_no: jcphuff.c:243 (AC scans have one component) *)
Definition act (p : pscan) : outcome Z := if pSs p =? 0 then Ret 0 else '(_, a) <- aget (pcomps p) 0 ;; Ret a.
(* jcphuff.c:195-222: the routine start_pass_phuff selects *)
Definition penc_mcu (p : pscan) (s : pst) (m : pmcu) : outcome (list item * pst) :=
  if pSs p =? 0 then
    if pAh p =? 0 then '(i, dcs) <- penc_dc_first p (p_dc s) m ;; Ret (i, mkPst dcs (p_run s) (p_be s))
    else i <- penc_dc_refine p m ;; Ret (i, s)
  else
    a <- act p ;;
    match m with
    | [] => Undef
    | (_, blk) :: _ => if pAh p =? 0 then penc_mcu_ac_first p a s blk else penc_mcu_ac_refine p a s blk
    end.
Definition pst0 (p : pscan) : pst := mkPst (map (fun _ => 0) (pcomps p)) 0 [].
(* the MCUs of a scan with restarts (jcphuff.c:488-491, 439-463, 553-560) and the end of the pass (jcphuff.c:1025-1038) *)
Fixpoint penc_scan (p : pscan) (s : pst) (togo num : Z) (ms : list pmcu) : outcome (list event) :=
  match ms with
  | [] => a <- act p ;; '(e, _) <- emit_eobrun a s ;; Ret (map EItem e ++ [EEnd])
  | m :: ms =>
    '(e1, s, togo, num) <-
      (if negb (pri p =? 0) && (togo =? 0) then
         a <- act p ;; '(e, s) <- emit_eobrun a s ;;
         Ret (map EItem e ++ [ERst num],
              if pSs p =? 0 then mkPst (map (fun _ => 0) (p_dc s)) (p_run s) (p_be s) else mkPst (p_dc s) 0 [],
              pri p, Z.land (num + 1) 7)
       else Ret ([], s, togo, num)) ;;
    '(i, s) <- penc_mcu p s m ;;
    r <- penc_scan p s (if pri p =? 0 then togo else togo - 1) num ms ;;
    Ret (e1 ++ map EItem i ++ r)
  end.
Definition scan_events (p : pscan) (ms : list pmcu) : outcome (list event) := penc_scan p (pst0 p) (pri p) 0 ms.

(* --- what the calls do in an output pass --- *)
(* jcphuff.c:301-312: a destination that suspends is an error *)
Definition nosusp {A} (o : outcome (option A)) : outcome A :=
  r <- o ;; match r with Some x => Ret x | None => Error JERR_CANT_SUSPEND end.
(* jcphuff.c:323-361 emit_bits (the same statements as jclhuff.c:224-262), 374-384 emit_symbol *)
Definition out_item (tbls : list (option c_derived_tbl)) (i : item) (v : lsav) (d : dest) : outcome (lsav * dest) :=
  match i with
  | ISym t s => o <- aget tbls t ;;
      match o with None => Undef | Some ct => co <- aget (ehufco ct) s ;; si <- aget (ehufsi ct) s ;; nosusp (emit_bits co si v d) end
  | IBits c n => nosusp (emit_bits c n v d)
  end.
(* jcphuff.c:364-369 flush_bits; 446-450 *)
Definition out_event (tbls : list (option c_derived_tbl)) (e : event) (v : lsav) (d : dest) : outcome (lsav * dest) :=
  match e with
  | EItem i => out_item tbls i v d
  | ERst num => nosusp (lemit_restart num v d)
  | EEnd => nosusp (lflush_bits v d)
  end.
Fixpoint out_events (tbls : list (option c_derived_tbl)) (es : list event) (v : lsav) (d : dest) : outcome dest :=
  match es with [] => Ret d | e :: es => '(v, d) <- out_event tbls e v d ;; out_events tbls es v d end.
(* an output pass over a scan: start_pass_phuff, encode_mcu for every MCU, finish_pass_phuff *)
Definition pencode_scan (p : pscan) (tbls : list (option c_derived_tbl)) (ms : list pmcu) (d : dest) : outcome dest :=
  es <- scan_events p ms ;; out_events tbls es (mkLS 0 0) d.
(* --- and in a statistics-gathering pass: emit_symbol increments count_ptrs[tbl_no][symbol] (jcphuff.c:377-378) --- *)
Fixpoint count_events (es : list event) (counts : list (list Z)) : outcome (list (list Z)) :=
  match es with
  | [] => Ret counts
  | EItem (ISym t s) :: es => l <- aget counts t ;; n <- aget l s ;; l <- aset l s (n + 1) ;; counts <- aset counts t l ;; count_events es counts
  | _ :: es => count_events es counts
  end.
Definition pgather_scan (p : pscan) (ms : list pmcu) (counts : list (list Z)) : outcome (list (list Z)) :=
  es <- scan_events p ms ;; count_events es counts.

(* ---------------- decoder ---------------- *)
(* the routines as trees of HUFF_DECODE and CHECK_BIT_BUFFER + GET_BITS requests *)
Inductive ptree (A : Type) := PDone (a : A) | PStop (o : outcome A) | PWarn (k : ptree A) | PSym (tbl : Z) (k : Z -> ptree A) | PBits (n : Z) (k : Z -> ptree A).
Arguments PDone {A}. Arguments PStop {A}. Arguments PWarn {A}. Arguments PSym {A}. Arguments PBits {A}.
Fixpoint pbind {A B} (t : ptree A) (f : A -> ptree B) : ptree B :=
  match t with
  | PDone a => f a
  | PStop o => match o with Error e => PStop (Error e) | _ => PStop Undef end
  | PWarn k => PWarn (pbind k f)
  | PSym t k => PSym t (fun x => pbind (k x) f)
  | PBits n k => PBits n (fun x => pbind (k x) f)
  end.
Definition plift {A} (o : outcome A) : ptree A := match o with Ret a => PDone a | o => PStop o end.
(* savable_state: EOBRUN, last_dc_val (jdphuff.c:41-44) *)
Definition dsav : Type := Z * list Z.

(* jdphuff.c:299-330: decode_mcu_DC_first *)
Fixpoint pdec_dc_first (p : pscan) (dcs : list Z) (bs : pmcu) : ptree (list (list Z) * list Z) :=
  match bs with
  | [] => PDone ([], dcs)
  | (ci, blk) :: bs =>
    pbind (plift (aget (pcomps p) ci)) (fun '(tbl, _) =>
    PSym tbl (fun s =>
    pbind (if s =? 0 then PDone 0 else PBits s (fun r => PDone (HUFF_EXTEND r s))) (fun s =>
    pbind (plift (aget dcs ci)) (fun last =>
    if ((0 <=? last) && (2147483647 - last <? s)) || ((last <? 0) && (s <? -2147483648 - last)) then PStop (Error JERR_BAD_DCT_COEF)
    else
    let s := s + last in
    pbind (plift (aset dcs ci s)) (fun dcs =>
    pbind (plift (aset blk 0 (s16 (Z.shiftl s (pAl p))))) (fun blk =>
    pbind (pdec_dc_first p dcs bs) (fun '(bs, dcs) => PDone (blk :: bs, dcs))))))))
  end.
(* jdphuff.c:442-450: decode_mcu_DC_refine *)
Fixpoint pdec_dc_refine (p : pscan) (bs : pmcu) : ptree (list (list Z)) :=
  match bs with
  | [] => PDone []
  | (_, blk) :: bs => PBits 1 (fun b =>
      pbind (plift (if b =? 0 then Ret blk else c <- aget blk 0 ;; aset blk 0 (s16 (Z.lor c (Z.shiftl 1 (pAl p)))))) (fun blk =>
      pbind (pdec_dc_refine p bs) (fun bs => PDone (blk :: bs))))
  end.
(* jdphuff.c:383-409: the for loop of decode_mcu_AC_first; returns EOBRUN and the block *)
Fixpoint pdec_ac_first (fuel : nat) (atbl k Se Al : Z) (blk : list Z) : ptree (Z * list Z) :=
  if k <=? Se then
    match fuel with
    | O => PStop Undef
    | S f => PSym atbl (fun rs =>
        let r := Z.shiftr rs 4 in let s := Z.land rs 15 in
        if negb (s =? 0) then
          let k := k + r in
          PBits s (fun x => pbind (plift (z <- aget jpeg_natural_order k ;; aset blk z (s16 (Z.shiftl (HUFF_EXTEND x s) Al)))) (fun blk =>
            pdec_ac_first f atbl (k + 1) Se Al blk))
        else if r =? 15 then pdec_ac_first f atbl (k + 15 + 1) Se Al blk
        else pbind (if r =? 0 then PDone 1 else PBits r (fun x => PDone (Z.shiftl 1 r + x))) (fun run => PDone (run - 1, blk)))
    end
  else PDone (0, blk).
Definition pdec_mcu_ac_first (atbl Ss Se Al run : Z) (blk : list Z) : ptree (Z * list Z) :=
  if 0 <? run then PDone (run - 1, blk) else pdec_ac_first 64 atbl Ss Se Al blk.
(* jdphuff.c:533-541, 579-586: a correction bit for an already-nonzero coefficient c at position z *)
Definition correct (Al z c : Z) (blk : list Z) : ptree (list Z) :=
  PBits 1 (fun b =>
    if negb (b =? 0) && (Z.land c (Z.shiftl 1 Al) =? 0)
    then plift (aset blk z (s16 (if 0 <=? c then c + s16 (Z.shiftl 1 Al) else c + s16 (Z.shiftl (-1) Al))))
    else PDone blk).
(* jdphuff.c:529-548: do { ... } while (k <= Se) *)
Fixpoint pskip (fuel : nat) (k r Se Al : Z) (blk : list Z) : ptree (Z * list Z) :=
  match fuel with
  | O => PStop Undef
  | S f =>
    pbind (plift (z <- aget jpeg_natural_order k ;; c <- aget blk z ;; Ret (z, c))) (fun '(z, c) =>
    let next r blk := if k + 1 <=? Se then pskip f (k + 1) r Se Al blk else PDone (k + 1, blk) in
    if negb (c =? 0) then pbind (correct Al z c blk) (fun blk => next r blk)
    else if r - 1 <? 0 then PDone (k, blk) else next (r - 1) blk)
  end.
(* jdphuff.c:502-556: the for loop; returns EOBRUN, k and the block *)
Fixpoint pdec_ac_refine (fuel : nat) (atbl k Se Al : Z) (blk : list Z) : ptree (Z * Z * list Z) :=
  if k <=? Se then
    match fuel with
    | O => PStop Undef
    | S f => PSym atbl (fun rs =>
        let r := Z.shiftr rs 4 in let s := Z.land rs 15 in
        let go s := pbind (pskip 80 k r Se Al blk) (fun '(k, blk) =>
          pbind (plift (if s =? 0 then Ret blk else z <- aget jpeg_natural_order k ;; aset blk z (s16 s))) (fun blk =>
          pdec_ac_refine f atbl (k + 1) Se Al blk)) in
        if negb (s =? 0) then
          (if s =? 1 then fun t => t else PWarn) (PBits 1 (fun b => go (if b =? 0 then Z.shiftl (-1) Al else Z.shiftl 1 Al)))
        else if r =? 15 then go 0
        else pbind (if r =? 0 then PDone 1 else PBits r (fun x => PDone (Z.shiftl 1 r + x))) (fun run => PDone (run, k, blk)))
    end
  else PDone (0, k, blk).
(* jdphuff.c:565-588: corrections after the end of the band *)
Fixpoint pdec_corr (fuel : nat) (k Se Al : Z) (blk : list Z) : ptree (list Z) :=
  if k <=? Se then
    match fuel with
    | O => PStop Undef
    | S f => pbind (plift (z <- aget jpeg_natural_order k ;; c <- aget blk z ;; Ret (z, c))) (fun '(z, c) =>
        pbind (if negb (c =? 0) then correct Al z c blk else PDone blk) (fun blk => pdec_corr f (k + 1) Se Al blk))
    end
  else PDone blk.
(* jdphuff.c:496-594 *)
Definition pdec_mcu_ac_refine (atbl Ss Se Al run : Z) (blk : list Z) : ptree (Z * list Z) :=
  pbind (if run =? 0 then pdec_ac_refine 64 atbl Ss Se Al blk else PDone (run, Ss, blk)) (fun '(run, k, blk) =>
  if 0 <? run then pbind (pdec_corr 64 k Se Al blk) (fun blk => PDone (run - 1, blk)) else PDone (run, blk)).
(* jdphuff.c:143-154: the routine start_pass_phuff_decoder selects *)
Definition pdec_mcu (p : pscan) (s : dsav) (m : pmcu) : ptree (list (list Z) * dsav) :=
  if pSs p =? 0 then
    if pAh p =? 0 then pbind (pdec_dc_first p (snd s) m) (fun '(bs, dcs) => PDone (bs, (fst s, dcs)))
    else pbind (pdec_dc_refine p m) (fun bs => PDone (bs, s))
  else
    pbind (plift (act p)) (fun a =>
    match m with
    | [] => PStop Undef
    | (_, blk) :: rest =>
      pbind (if pAh p =? 0 then pdec_mcu_ac_first a (pSs p) (pSe p) (pAl p) (fst s) blk else pdec_mcu_ac_refine a (pSs p) (pSe p) (pAl p) (fst s) blk)
        (fun '(run, blk) => PDone (blk :: map snd rest, (run, snd s)))
    end).
(* the requests are served by HUFF_DECODE and GET_BITS (jdhuff.h) *)
Fixpoint prun {A} (tbls : list (option d_derived_tbl)) (t : ptree A) : DM unit A :=
  match t with
  | PDone a => dret a
  | PStop o => match o with Error e => fun _ => Error e | _ => fun _ => Undef end
  | PWarn k => dwarn JWRN_HUFF_BAD_CODE ;~ prun tbls k
  | PSym t k => o <~ dlift (aget tbls t) ;; match o with None => fun _ => Undef | Some dt => s <~ huff_decode dt ;; prun tbls (k s) end
  | PBits n k => check_bit_buffer n ;~ x <~ get_bits n ;; prun tbls (k x)
  end.
(* phuff_entropy_decoder with the fields of the marker reader that restarts use *)
Record phdec := mkPD { pd_st : dst unit; pd_sav : dsav; pd_togo : Z; pd_num : Z; pd_disc : Z }.
(* jdphuff.c:231-264 process_restart *)
Definition pprocess_restart (p : pscan) (h : phdec) : outcome (bool * phdec) :=
  let s := pd_st h in
  let disc := pd_disc h + bleft s / 8 in
  match read_restart_marker (unread s) (dsrc s) disc (pd_num h) with
  | None => Undef
  | Some (un, src, disc', num', ok) =>
    if ok then Ret (true, mkPD (mkD (gbuf s) 0 src un (if un =? 0 then false else insuff s) (warns s) tt) (0, map (fun _ => 0) (snd (pd_sav h))) (pri p) num' disc')
    else Ret (false, mkPD (mkD (gbuf s) 0 src un (insuff s) (warns s) tt) (pd_sav h) (pd_togo h) num' disc')
  end.
(* the decode_mcu calls of a scan.  insufficient_data: the MCU is left as it is, except in a DC refinement scan.  false: suspended
   (the caller would retry; the blocks of the interrupted MCU are not modelled) *)
Fixpoint pdec_scan (p : pscan) (tbls : list (option d_derived_tbl)) (ms : list pmcu) (h : phdec) : outcome (list (list (list Z)) * phdec * bool) :=
  match ms with
  | [] => Ret ([], h, true)
  | m :: ms =>
    '(ok, h) <- (if negb (pri p =? 0) && (pd_togo h =? 0) then pprocess_restart p h else Ret (true, h)) ;;
    if negb ok then Ret ([], h, false)
    else
      r <- (if insuff (pd_st h) && negb ((pSs p =? 0) && negb (pAh p =? 0)) then Ret (Done (map snd m, pd_sav h) (pd_st h))
            else prun tbls (pdec_mcu p (pd_sav h) m) (pd_st h)) ;;
      match r with
      | Susp s => Ret ([], mkPD (mkD (gbuf (pd_st h)) (bleft (pd_st h)) (dsrc (pd_st h)) (unread s) (insuff s) (warns s) tt) (pd_sav h) (pd_togo h) (pd_num h) (pd_disc h), false)
      | Done (bs, sv) s =>
        '(bl, h, ok) <- pdec_scan p tbls ms (mkPD s sv (if pri p =? 0 then pd_togo h else pd_togo h - 1) (pd_num h) (pd_disc h)) ;;
        Ret (bs :: bl, h, ok)
      end
  end.
(* jdphuff.c:172-190: start of the pass *)
Definition pdecode_scan (p : pscan) (tbls : list (option d_derived_tbl)) (ms : list pmcu) (src : source) : outcome (list (list (list Z)) * phdec * bool) :=
  pdec_scan p tbls ms (mkPD (mkD 0 0 src 0 false [] tt) (0, map (fun _ => 0) (pcomps p)) (pri p) 0 0).
