(* M_MarkWr.v -- model of the JPEG marker writer (jcmarker.c).  Every routine returns the bytes it emits and the changed
   compression object; the destination is taken not to refuse a marker byte (it would be ERREXIT(JERR_CANT_SUSPEND), jcmarker.c:114-124).
   Tables are named by their slot: two slots are taken to hold different JHUFF_TBL objects, as jpeg_alloc_huff_table makes them.
   cur_comp_info[i] is given by component index. *)
From Verif Require Import Base M_HuffDec M_MarkRd.

Record qtab := mkQ { q_val : list Z; q_sent : bool }.
Record htab := mkH { h_bits : list Z; h_val : list Z; h_sent : bool }.
(* the fields of jpeg_compress_struct and my_marker_writer that the marker writer uses *)
Record wst := mkW {
  x_fastest : bool; x_lossless : bool; x_arith : bool; x_prog : bool;
  x_prec : Z; x_height : Z; x_width : Z; x_comps : list comp;
  x_q : list (option qtab); x_dc : list (option htab); x_ac : list (option htab);
  x_L : list Z; x_U : list Z; x_K : list Z;
  x_ri : Z; x_last_ri : Z;
  x_scan : list Z; x_Ss : Z; x_Se : Z; x_Ah : Z; x_Al : Z;
  x_jfif : bool; x_jmaj : Z; x_jmin : Z; x_unit : Z; x_xd : Z; x_yd : Z;
  x_adobe : bool; x_transform : Z }.
Definition put_q (c : wst) (v : list (option qtab)) : wst :=
  mkW (x_fastest c) (x_lossless c) (x_arith c) (x_prog c) (x_prec c) (x_height c) (x_width c) (x_comps c) v (x_dc c) (x_ac c) (x_L c) (x_U c) (x_K c)
      (x_ri c) (x_last_ri c) (x_scan c) (x_Ss c) (x_Se c) (x_Ah c) (x_Al c) (x_jfif c) (x_jmaj c) (x_jmin c) (x_unit c) (x_xd c) (x_yd c) (x_adobe c) (x_transform c).
Definition put_dc (c : wst) (v : list (option htab)) : wst :=
  mkW (x_fastest c) (x_lossless c) (x_arith c) (x_prog c) (x_prec c) (x_height c) (x_width c) (x_comps c) (x_q c) v (x_ac c) (x_L c) (x_U c) (x_K c)
      (x_ri c) (x_last_ri c) (x_scan c) (x_Ss c) (x_Se c) (x_Ah c) (x_Al c) (x_jfif c) (x_jmaj c) (x_jmin c) (x_unit c) (x_xd c) (x_yd c) (x_adobe c) (x_transform c).
Definition put_ac (c : wst) (v : list (option htab)) : wst :=
  mkW (x_fastest c) (x_lossless c) (x_arith c) (x_prog c) (x_prec c) (x_height c) (x_width c) (x_comps c) (x_q c) (x_dc c) v (x_L c) (x_U c) (x_K c)
      (x_ri c) (x_last_ri c) (x_scan c) (x_Ss c) (x_Se c) (x_Ah c) (x_Al c) (x_jfif c) (x_jmaj c) (x_jmin c) (x_unit c) (x_xd c) (x_yd c) (x_adobe c) (x_transform c).
Definition put_last_ri (c : wst) (v : Z) : wst :=
  mkW (x_fastest c) (x_lossless c) (x_arith c) (x_prog c) (x_prec c) (x_height c) (x_width c) (x_comps c) (x_q c) (x_dc c) (x_ac c) (x_L c) (x_U c) (x_K c)
      (x_ri c) v (x_scan c) (x_Ss c) (x_Se c) (x_Ah c) (x_Al c) (x_jfif c) (x_jmaj c) (x_jmin c) (x_unit c) (x_xd c) (x_yd c) (x_adobe c) (x_transform c).

(* jcmarker.c:114-142 emit_byte, emit_marker, emit_2bytes *)
Definition emit_byte (v : Z) : list Z := [u8 v].
Definition emit_marker (m : Z) : list Z := emit_byte 255 ++ emit_byte m.
Definition emit_2bytes (v : Z) : list Z := emit_byte (Z.land (Z.shiftr v 8) 255) ++ emit_byte (Z.land v 255).

(* jcmarker.c:162-166, 213-215: is any value larger than 255? *)
Definition table_prec (t : list Z) : Z := if existsb (fun v => 255 <? v) t then 1 else 0.
(* jcmarker.c:175-181, 245-251: the 64 values in zigzag order *)
Fixpoint emit_qvals (m : nat) (i prec : Z) (t : list Z) : outcome (list Z) :=
  match m with
  | O => Ret []
  | S m => p <- aget jpeg_natural_order i ;; v <- aget t p ;; r <- emit_qvals m (i + 1) prec t ;;
           Ret ((if negb (prec =? 0) then emit_byte (Z.shiftr v 8) else []) ++ emit_byte (Z.land v 255) ++ r)
  end.
(* jcmarker.c:149-187 emit_dqt; returns the precision *)
Definition emit_dqt (index : Z) (c : wst) : outcome (Z * wst * list Z) :=
  q <- aget (x_q c) index ;;
  match q with
  | None => Error JERR_NO_QUANT_TABLE
  | Some q =>
    let prec := table_prec (q_val q) in
    if q_sent q then Ret (prec, c, [])
    else
      vs <- emit_qvals 64 0 prec (q_val q) ;;
      x <- aset (x_q c) index (Some (mkQ (q_val q) true)) ;;
      Ret (prec, put_q c x, emit_marker 219 ++ emit_2bytes (if negb (prec =? 0) then 64 * 2 + 1 + 2 else 64 + 1 + 2) ++ emit_byte (index + Z.shiftl prec 4) ++ vs)
  end.
(* jcmarker.c:205-218: the checks of emit_multi_dqt; None = return -1, Some = the precision of each component's table *)
Fixpoint mdqt_check (cs : list comp) (q : list (option qtab)) : outcome (option (list Z)) :=
  match cs with
  | [] => Ret (Some [])
  | p :: cs => t <- aget q (c_q p) ;;
    match t with
    | None => Ret None
    | Some t => if q_sent t then Ret None else r <- mdqt_check cs q ;; Ret (option_map (cons (table_prec (q_val t))) r)
    end
  end.
(* jcmarker.c:222-229: the segment length; seen[] has MAX_COMPONENTS = 10 entries *)
Fixpoint mdqt_size (cs : list comp) (pr : list Z) (seen : list Z) (size : Z) : outcome Z :=
  match cs, pr with
  | p :: cs, r :: pr =>
    f <- aget seen (c_q p) ;;
    if negb (f =? 0) then mdqt_size cs pr seen size
    else seen <- aset seen (c_q p) 1 ;; mdqt_size cs pr seen (size + 64 * (r + 1) + 1)
  | _, _ => Ret size
  end.
(* jcmarker.c:234-255 *)
Fixpoint mdqt_emit (cs : list comp) (pr : list Z) (c : wst) : outcome (wst * list Z) :=
  match cs, pr with
  | p :: cs, r :: pr =>
    t <- aget (x_q c) (c_q p) ;;
    match t with
    | None => Undef
    | Some t =>
      if q_sent t then mdqt_emit cs pr c
      else
        vs <- emit_qvals 64 0 r (q_val t) ;;
        x <- aset (x_q c) (c_q p) (Some (mkQ (q_val t) true)) ;;
        '(c, o) <- mdqt_emit cs pr (put_q c x) ;;
        Ret (c, emit_byte (c_q p + Z.shiftl r 4) ++ vs ++ o)
    end
  | _, _ => Ret (c, [])
  end.
(* jcmarker.c:189-258 emit_multi_dqt *)
Definition emit_multi_dqt (c : wst) : outcome (Z * wst * list Z) :=
  if x_fastest c then Ret (-1, c, [])
  else
    pr <- mdqt_check (x_comps c) (x_q c) ;;
    match pr with
    | None => Ret (-1, c, [])
    | Some pr =>
      size <- mdqt_size (x_comps c) pr (repeat 0 10) 0 ;;
      '(c', o) <- mdqt_emit (x_comps c) pr c ;;
      Ret (zsum pr, c', emit_marker 219 ++ emit_2bytes (size + 2) ++ o)
    end.

(* for (i = k; i < k + m; i++) emit_byte(a[i]) *)
Fixpoint emit_slice (m : nat) (k : Z) (a : list Z) : outcome (list Z) :=
  match m with O => Ret [] | S m => v <- aget a k ;; r <- emit_slice m (k + 1) a ;; Ret (emit_byte v ++ r) end.
(* for (i = 1; i <= 16; i++) length += bits[i] *)
Fixpoint sum_slice (m : nat) (k : Z) (a : list Z) : outcome Z :=
  match m with O => Ret 0 | S m => v <- aget a k ;; r <- sum_slice m (k + 1) a ;; Ret (v + r) end.
(* jcmarker.c:260-299 emit_dht *)
Definition emit_dht (index : Z) (is_ac : bool) (c : wst) : outcome (wst * list Z) :=
  h <- aget (if is_ac then x_ac c else x_dc c) index ;;
  match h with
  | None => Error JERR_NO_HUFF_TABLE
  | Some h =>
    if h_sent h then Ret (c, [])
    else
      len <- sum_slice 16 1 (h_bits h) ;;
      b <- emit_slice 16 1 (h_bits h) ;;
      v <- emit_slice (Z.to_nat len) 0 (h_val h) ;;
      x <- aset (if is_ac then x_ac c else x_dc c) index (Some (mkH (h_bits h) (h_val h) true)) ;;
      Ret (if is_ac then put_ac c x else put_dc c x,
           emit_marker 196 ++ emit_2bytes (len + 2 + 1 + 16) ++ emit_byte (if is_ac then index + 16 else index) ++ b ++ v)
  end.

(* the components of the scan *)
Fixpoint get_all {A} (l : list A) (ix : list Z) : outcome (list A) :=
  match ix with [] => Ret [] | i :: ix => a <- aget l i ;; r <- get_all l ix ;; Ret (a :: r) end.
Definition scan_comps (c : wst) : outcome (list comp) := get_all (x_comps c) (x_scan c).
Definition need_dc (c : wst) : bool := (x_Ss c =? 0) && (x_Ah c =? 0).
Definition need_ac (c : wst) : bool := negb (x_Se c =? 0).
Definition seen_in (t : Z) (l : list (option Z)) : bool := existsb (fun o => match o with Some u => u =? t | None => false end) l.
(* jcmarker.c:318-362 the length pass of emit_multi_dht.  State: length, dclens, aclens, dcseen, acseen (a table is named by its slot) *)
Record mdht := mkMD { md_len : Z; md_dl : list Z; md_al : list Z; md_ds : list (option Z); md_as : list (option Z) }.
Definition mdht_ac (c : wst) (p : comp) (i : Z) (d : mdht) : outcome mdht :=
  if need_ac c then
    h <- aget (x_ac c) (c_ac p) ;;
    match h with
    | None => Error JERR_NO_HUFF_TABLE
    | Some h =>
      if h_sent h then Ret d
      else if seen_in (c_ac p) (md_as d) then Ret d
      else
        sn <- aset (md_as d) i (Some (c_ac p)) ;;
        n <- sum_slice 16 1 (h_bits h) ;;
        old <- aget (md_al d) i ;;
        al <- aset (md_al d) i (old + n) ;;
        Ret (mkMD (md_len d + (old + n) + 16 + 1) (md_dl d) al (md_ds d) sn)
    end
  else Ret d.
Definition mdht_one (c : wst) (p : comp) (i : Z) (d : mdht) : outcome mdht :=
  _ <- aget (x_dc c) (c_dc p) ;; _ <- aget (x_ac c) (c_ac p) ;;
  if need_dc c then
    h <- aget (x_dc c) (c_dc p) ;;
    match h with
    | None => Error JERR_NO_HUFF_TABLE
    | Some h =>
      if h_sent h then Ret d                                    (* continue: the AC table is not counted either *)
      else if seen_in (c_dc p) (md_ds d) then Ret d             (* continue *)
      else
        sn <- aset (md_ds d) i (Some (c_dc p)) ;;
        n <- sum_slice 16 1 (h_bits h) ;;
        old <- aget (md_dl d) i ;;
        dl <- aset (md_dl d) i (old + n) ;;
        mdht_ac c p i (mkMD (md_len d + (old + n) + 16 + 1) dl (md_al d) sn (md_as d))
    end
  else mdht_ac c p i d.
Fixpoint mdht_count (c : wst) (ps : list comp) (i : Z) (d : mdht) : outcome mdht :=
  match ps with [] => Ret d | p :: ps => d <- mdht_one c p i d ;; mdht_count c ps (i + 1) d end.
(* jcmarker.c:371-408 the emission pass *)
Definition mdht_table (is_ac : bool) (idx n : Z) (c : wst) : outcome (wst * list Z) :=
  h <- aget (if is_ac then x_ac c else x_dc c) idx ;;
  match h with
  | None => Undef
  | Some h =>
    if h_sent h then Ret (c, [])
    else
      b <- emit_slice 16 1 (h_bits h) ;;
      v <- emit_slice (Z.to_nat n) 0 (h_val h) ;;
      x <- aset (if is_ac then x_ac c else x_dc c) idx (Some (mkH (h_bits h) (h_val h) true)) ;;
      Ret (if is_ac then put_ac c x else put_dc c x, emit_byte (if is_ac then idx + 16 else idx) ++ b ++ v)
  end.
Fixpoint mdht_emit (ps : list comp) (i : Z) (d : mdht) (c : wst) : outcome (wst * list Z) :=
  match ps with
  | [] => Ret (c, [])
  | p :: ps =>
    n1 <- aget (md_dl d) i ;; n2 <- aget (md_al d) i ;;
    '(c, o1) <- (if need_dc c then mdht_table false (c_dc p) n1 c else Ret (c, [])) ;;
    '(c, o2) <- (if need_ac c then mdht_table true (c_ac p) n2 c else Ret (c, [])) ;;
    '(c, o3) <- mdht_emit ps (i + 1) d c ;;
    Ret (c, o1 ++ o2 ++ o3)
  end.
(* jcmarker.c:301-411 emit_multi_dht *)
Definition emit_multi_dht (c : wst) : outcome (bool * wst * list Z) :=
  if x_fastest c then Ret (false, c, [])
  else
    ps <- scan_comps c ;;
    d <- mdht_count c ps 0 (mkMD 2 (repeat 0 4) (repeat 0 4) (repeat None 4) (repeat None 4)) ;;
    if 65535 <? md_len d then Ret (false, c, [])
    else
      '(c', o) <- mdht_emit ps 0 d c ;;
      Ret (true, c', emit_marker 196 ++ emit_2bytes (md_len d) ++ o).

(* jcmarker.c:413-461 emit_dac *)
Fixpoint dac_use (nd na : bool) (ps : list comp) (dc ac : list Z) : outcome (list Z * list Z) :=
  match ps with
  | [] => Ret (dc, ac)
  | p :: ps =>
    dc <- (if nd then aset dc (c_dc p) 1 else Ret dc) ;;
    ac <- (if na then aset ac (c_ac p) 1 else Ret ac) ;;
    dac_use nd na ps dc ac
  end.
Fixpoint dac_emit (m : nat) (i : Z) (dc ac : list Z) (c : wst) : outcome (list Z) :=
  match m with
  | O => Ret []
  | S m =>
    d <- aget dc i ;; a <- aget ac i ;;
    o1 <- (if negb (d =? 0) then l <- aget (x_L c) i ;; u <- aget (x_U c) i ;; Ret (emit_byte i ++ emit_byte (l + Z.shiftl u 4)) else Ret []) ;;
    o2 <- (if negb (a =? 0) then k <- aget (x_K c) i ;; Ret (emit_byte (i + 16) ++ emit_byte k) else Ret []) ;;
    r <- dac_emit m (i + 1) dc ac c ;;
    Ret (o1 ++ o2 ++ r)
  end.
Definition emit_dac (c : wst) : outcome (list Z) :=
  ps <- scan_comps c ;;
  '(dc, ac) <- dac_use (need_dc c) (need_ac c) ps (repeat 0 16) (repeat 0 16) ;;
  let length := zsum dc + zsum ac in
  if negb (length =? 0) then
    o <- dac_emit 16 0 dc ac c ;;
    Ret (emit_marker 204 ++ emit_2bytes (length * 2 + 2) ++ o)
  else Ret [].

(* jcmarker.c:464-474 emit_dri *)
Definition emit_dri (c : wst) : list Z := emit_marker 221 ++ emit_2bytes 4 ++ emit_2bytes (x_ri c).
(* jcmarker.c:477-505 emit_sof *)
Definition emit_sof (code : Z) (c : wst) : outcome (list Z) :=
  if (65535 <? x_height c) || (65535 <? x_width c) then Error JERR_IMAGE_TOO_BIG
  else Ret (emit_marker code ++ emit_2bytes (3 * Z.of_nat (length (x_comps c)) + 2 + 5 + 1) ++ emit_byte (x_prec c) ++ emit_2bytes (x_height c) ++
            emit_2bytes (x_width c) ++ emit_byte (Z.of_nat (length (x_comps c))) ++
            flat_map (fun p => emit_byte (c_id p) ++ emit_byte (Z.shiftl (c_h p) 4 + c_v p) ++ emit_byte (c_q p)) (x_comps c)).
(* jcmarker.c:508-541 emit_sos *)
Definition emit_sos (c : wst) : outcome (list Z) :=
  ps <- scan_comps c ;;
  Ret (emit_marker 218 ++ emit_2bytes (2 * Z.of_nat (length ps) + 2 + 1 + 3) ++ emit_byte (Z.of_nat (length ps)) ++
       flat_map (fun p => emit_byte (c_id p) ++ emit_byte (Z.shiftl (if need_dc c then c_dc p else 0) 4 + (if need_ac c then c_ac p else 0))) ps ++
       emit_byte (x_Ss c) ++ emit_byte (x_Se c) ++ emit_byte (Z.shiftl (x_Ah c) 4 + x_Al c)).
(* jcmarker.c:544-576 emit_jfif_app0 *)
Definition emit_jfif_app0 (c : wst) : list Z :=
  emit_marker 224 ++ emit_2bytes (2 + 4 + 1 + 2 + 1 + 2 + 2 + 1 + 1) ++ emit_byte 74 ++ emit_byte 70 ++ emit_byte 73 ++ emit_byte 70 ++ emit_byte 0 ++
  emit_byte (x_jmaj c) ++ emit_byte (x_jmin c) ++ emit_byte (x_unit c) ++ emit_2bytes (x_xd c) ++ emit_2bytes (x_yd c) ++ emit_byte 0 ++ emit_byte 0.
(* jcmarker.c:579-624 emit_adobe_app14; x_transform = 1 for YCbCr, 2 for YCCK, 0 otherwise *)
Definition emit_adobe_app14 (c : wst) : list Z :=
  emit_marker 238 ++ emit_2bytes (2 + 5 + 2 + 2 + 2 + 1) ++ emit_byte 65 ++ emit_byte 100 ++ emit_byte 111 ++ emit_byte 98 ++ emit_byte 101 ++
  emit_2bytes 100 ++ emit_2bytes 0 ++ emit_2bytes 0 ++ emit_byte (x_transform c).
(* jcmarker.c:667-681 write_file_header *)
Definition write_file_header (c : wst) : outcome (wst * list Z) :=
  Ret (put_last_ri c 0, emit_marker 216 ++ (if x_jfif c then emit_jfif_app0 c else []) ++ (if x_adobe c then emit_adobe_app14 c else [])).
(* jcmarker.c:707-713 *)
Fixpoint dqt_all (cs : list comp) (prec : Z) (c : wst) : outcome (Z * wst * list Z) :=
  match cs with
  | [] => Ret (prec, c, [])
  | p :: cs => '(q, c, o1) <- emit_dqt (c_q p) c ;; '(q', c, o2) <- dqt_all cs (prec + q) c ;; Ret (q', c, o1 ++ o2)
  end.
(* jcmarker.c:692-751 write_frame_header *)
Definition write_frame_header (c : wst) : outcome (wst * list Z) :=
  '(prec, c, o1) <- emit_multi_dqt c ;;
  '(prec, c, o2) <- (if prec =? -1 then (if negb (x_lossless c) then dqt_all (x_comps c) 0 c else Ret (0, c, [])) else Ret (prec, c, [])) ;;
  let is_baseline :=
    if x_arith c || x_prog c || x_lossless c || negb (x_prec c =? 8) then false
    else (negb (existsb (fun p => (1 <? c_dc p) || (1 <? c_ac p)) (x_comps c))) && (prec =? 0) in
  let code := if x_arith c then (if x_prog c then 202 else 201)
              else if x_prog c then 194 else if x_lossless c then 195 else if is_baseline then 192 else 193 in
  o3 <- emit_sof code c ;;
  Ret (c, o1 ++ o2 ++ o3).
(* jcmarker.c:777-788 *)
Fixpoint dht_all (ps : list comp) (c : wst) : outcome (wst * list Z) :=
  match ps with
  | [] => Ret (c, [])
  | p :: ps =>
    '(c, o1) <- (if need_dc c || x_lossless c then emit_dht (c_dc p) false c else Ret (c, [])) ;;
    '(c, o2) <- (if need_ac c && negb (x_lossless c) then emit_dht (c_ac p) true c else Ret (c, [])) ;;
    '(c, o3) <- dht_all ps c ;;
    Ret (c, o1 ++ o2 ++ o3)
  end.
(* jcmarker.c:760-800 write_scan_header *)
Definition write_scan_header (c : wst) : outcome (wst * list Z) :=
  '(c, o1) <- (if x_arith c then o <- emit_dac c ;; Ret (c, o)
               else '(ok, c, o) <- emit_multi_dht c ;;
                    if (ok : bool) then Ret (c, o) else ps <- scan_comps c ;; dht_all ps c) ;;
  let '(c, o2) := if negb (x_ri c =? x_last_ri c) then (put_last_ri c (x_ri c), emit_dri c) else (c, []) in
  o3 <- emit_sos c ;;
  Ret (c, o1 ++ o2 ++ o3).
(* jcmarker.c:807-811 write_file_trailer *)
Definition write_file_trailer (c : wst) : list Z := emit_marker 217.
(* jcmarker.c:821-845 write_tables_only *)
Fixpoint wto_q (m : nat) (i : Z) (c : wst) : outcome (wst * list Z) :=
  match m with
  | O => Ret (c, [])
  | S m => q <- aget (x_q c) i ;;
           '(c, o1) <- match q with Some _ => '(_, c, o) <- emit_dqt i c ;; Ret (c, o) | None => Ret (c, []) end ;;
           '(c, o2) <- wto_q m (i + 1) c ;; Ret (c, o1 ++ o2)
  end.
Fixpoint wto_h (m : nat) (i : Z) (c : wst) : outcome (wst * list Z) :=
  match m with
  | O => Ret (c, [])
  | S m =>
    d <- aget (x_dc c) i ;; '(c, o1) <- match d with Some _ => emit_dht i false c | None => Ret (c, []) end ;;
    a <- aget (x_ac c) i ;; '(c, o2) <- match a with Some _ => emit_dht i true c | None => Ret (c, []) end ;;
    '(c, o3) <- wto_h m (i + 1) c ;; Ret (c, o1 ++ o2 ++ o3)
  end.
Definition write_tables_only (c : wst) : outcome (wst * list Z) :=
  '(c, o1) <- wto_q 4 0 c ;;
  '(c, o2) <- (if negb (x_arith c) then wto_h 4 0 c else Ret (c, [])) ;;
  Ret (c, emit_marker 216 ++ o1 ++ o2 ++ emit_marker 217).
