(* M_ArithBlk.v -- arithmetic coding of DCT blocks, sequential and progressive (jcarith.c, jdarith.c), with restart intervals.
   The encoder's procedures are functions to the list of decisions they pass to arith_encode, in order (a decision does not depend
   on the coder's registers); the decoder's procedures are trees that ask for decisions and continue with the answer. *)
From Verif Require Import Base M_HuffDec M_Arith.

(* statistics bins in one array: dc_stats[t][b], ac_stats[t][b] and fixed_bin (jcarith.c:51-60, DC_STAT_BINS 64, AC_STAT_BINS 256, NUM_ARITH_TBLS 16) *)
Definition DCB (t : Z) : Z := t * 64.
Definition ACB (t : Z) : Z := 1024 + t * 256.
Definition FIX : Z := 5120.
(* memset of the areas to 0; fixed_bin[0] = 113 (jcarith.c:841-870, 905-906; areas of tables the scan does not use are never touched) *)
Definition bins0 : list Z := repeat 0 (Z.to_nat 5120) ++ [113].

(* parameters of a scan: cinfo->Ss, Se, Ah, Al, progressive_mode, restart_interval, (dc_tbl_no, ac_tbl_no) of cur_comp_info, arith_dc_L, arith_dc_U, arith_ac_K *)
Record ascan := mkAS { aSs : Z; aSe : Z; aAh : Z; aAl : Z; aprog : bool; ariv : Z; acomps : list (Z * Z); adcL : list Z; adcU : list Z; aacK : list Z }.
(* last_dc_val and dc_context of the components of the scan *)
Definition actx : Type := list Z * list Z.
Definition ctx0 (p : ascan) : actx := (map (fun _ => 0) (acomps p), map (fun _ => 0) (acomps p)).
Definition decs := list (Z * bool).
(* one block of an MCU with MCU_membership *)
Definition mcu := list (Z * list Z).

(* ---- encoder ---- *)
(* jcarith.c:425-429, 512-516, 739-743, 796-800: while (v2 >>= 1) { arith_encode(st, 1); m <<= 1; st += 1; } *)
Fixpoint mag_loop (fuel : nat) (v2 m st : Z) : outcome (decs * Z * Z) :=
  match fuel with
  | O => Undef
  | S fuel => let v2 := Z.shiftr v2 1 in
      if v2 =? 0 then Ret ([], m, st) else '(ds, m', st') <- mag_loop fuel v2 (Z.shiftl m 1) (st + 1) ;; Ret ((st, true) :: ds, m', st')
  end.
(* jcarith.c:439-440 and the others: while (m >>= 1) arith_encode(st, (m & v) ? 1 : 0) *)
Fixpoint bits_loop (fuel : nat) (m v st : Z) : outcome decs :=
  match fuel with
  | O => Undef
  | S fuel => let m := Z.shiftr m 1 in if m =? 0 then Ret [] else ds <- bits_loop fuel m v st ;; Ret ((st, negb (Z.land m v =? 0)) :: ds)
  end.
(* jcarith.c:395-442 (DC_first) and 715-759 (sequential): the DC value m of component ci *)
Definition enc_dc (p : ascan) (cx : actx) (ci m : Z) : outcome (decs * actx) :=
  '(tbl, _) <- aget (acomps p) ci ;;
  lst <- aget (fst cx) ci ;; dcx <- aget (snd cx) ci ;;
  let st := DCB tbl + dcx in
  let v := m - lst in
  if v =? 0 then c' <- aset (snd cx) ci 0 ;; Ret ([(st, false)], (fst cx, c'))
  else
    l' <- aset (fst cx) ci m ;;
    let '(sd, st1, dcx, v) := if 0 <? v then ((st + 1, false), st + 2, 4, v) else ((st + 1, true), st + 3, 8, - v) in
    let v := v - 1 in
    '(ds, m, st2) <- (if v =? 0 then Ret ([], 0, st1) else '(ds, m, st2) <- mag_loop 32 v 1 (DCB tbl + 20) ;; Ret ((st1, true) :: ds, m, st2)) ;;
    lo <- aget (adcL p) tbl ;; up <- aget (adcU p) tbl ;;
    let dcx := if m <? Z.shiftr (Z.shiftl 1 lo) 1 then 0 else if Z.shiftr (Z.shiftl 1 up) 1 <? m then dcx + 8 else dcx in
    bs <- bits_loop 32 m v (st2 + 14) ;;
    c' <- aset (snd cx) ci dcx ;;
    Ret ((st, true) :: sd :: ds ++ (st2, false) :: bs, (l', c')).
(* jcarith.c:481-491, 625-635, 764-766 (Al = 0): for (ke = Se; ke > 0; ke--) if (|coef| >> Al) break; also 637-645 with Ah *)
Fixpoint find_ke (fuel : nat) (ke sh : Z) (blk : list Z) : outcome Z :=
  match fuel with
  | O => Undef
  | S fuel => if 0 <? ke then z <- aget jpeg_natural_order ke ;; c <- aget blk z ;;
                if negb (Z.shiftr (Z.abs c) sh =? 0) then Ret ke else find_ke fuel (ke - 1) sh blk
              else Ret ke
  end.
(* jcarith.c:497-514, 772-786: zero run, sign; returns k and the magnitude *)
Fixpoint enc_zr (fuel : nat) (ac k Al : Z) (blk : list Z) : outcome (decs * Z * Z) :=
  match fuel with
  | O => Undef
  | S fuel => z <- aget jpeg_natural_order k ;; c <- aget blk z ;;
      let v := Z.shiftr (Z.abs c) Al in let st := ac + 3 * (k - 1) in
      if negb (v =? 0) then Ret ([(st + 1, true); (FIX, c <? 0)], k, v)
      else '(ds, k', v') <- enc_zr fuel ac (k + 1) Al blk ;; Ret ((st + 1, false) :: ds, k', v')
  end.
(* jcarith.c:515-539, 787-811: magnitude category and bits *)
Definition enc_mag (ac K k v : Z) : outcome decs :=
  let st := ac + 3 * (k - 1) + 2 in
  let v := v - 1 in
  '(ds, m, st2) <- (if v =? 0 then Ret ([], 0, st)
                    else let v2 := Z.shiftr v 1 in
                      if v2 =? 0 then Ret ([(st, true)], 1, st)
                      else '(ds, m, st2) <- mag_loop 32 v2 2 (ac + (if k <=? K then 189 else 217)) ;; Ret ((st, true) :: (st, true) :: ds, m, st2)) ;;
  bs <- bits_loop 32 m v (st2 + 14) ;;
  Ret (ds ++ (st2, false) :: bs).
(* jcarith.c:493-545 (AC_first), 768-817 (sequential: Ss = 1, Se = 63, Al = 0) *)
Fixpoint enc_ac (fuel : nat) (ac K k ke Se Al : Z) (blk : list Z) : outcome decs :=
  let st := ac + 3 * (k - 1) in
  if k <=? ke then
    match fuel with
    | O => Undef
    | S fuel => '(d1, k', v) <- enc_zr 64 ac k Al blk ;; d2 <- enc_mag ac K k' v ;;
        d3 <- enc_ac fuel ac K (k' + 1) ke Se Al blk ;; Ret ((st, false) :: d1 ++ d2 ++ d3)
    end
  else Ret (if k <=? Se then [(st, true)] else []).
(* jcarith.c:469-548 encode_mcu_AC_first *)
Definition enc_ac_first (p : ascan) (tbl Ss Se Al : Z) (blk : list Z) : outcome decs :=
  ke <- find_ke 65 Se Al blk ;; K <- aget (aacK p) tbl ;; enc_ac 64 (ACB tbl) K Ss ke Se Al blk.
(* jcarith.c:652-675: the for(;;) of the refinement *)
Fixpoint enc_rf (fuel : nat) (ac k Al : Z) (blk : list Z) : outcome (decs * Z) :=
  match fuel with
  | O => Undef
  | S fuel => z <- aget jpeg_natural_order k ;; c <- aget blk z ;;
      let v := Z.shiftr (Z.abs c) Al in let st := ac + 3 * (k - 1) in
      if negb (v =? 0) then
        Ret (if negb (Z.shiftr v 1 =? 0) then [(st + 2, negb (Z.land v 1 =? 0))] else [(st + 1, true); (FIX, c <? 0)], k)
      else '(ds, k') <- enc_rf fuel ac (k + 1) Al blk ;; Ret ((st + 1, false) :: ds, k')
  end.
(* jcarith.c:647-682 *)
Fixpoint enc_acr (fuel : nat) (ac k ke kex Se Al : Z) (blk : list Z) : outcome decs :=
  let st := ac + 3 * (k - 1) in
  if k <=? ke then
    match fuel with
    | O => Undef
    | S fuel => '(d1, k') <- enc_rf 64 ac k Al blk ;; d3 <- enc_acr fuel ac (k' + 1) ke kex Se Al blk ;;
        Ret ((if kex <? k then [(st, false)] else []) ++ d1 ++ d3)
    end
  else Ret (if k <=? Se then [(st, true)] else []).
(* jcarith.c:595-686 encode_mcu_AC_refine *)
Definition enc_ac_refine (tbl Ss Se Ah Al : Z) (blk : list Z) : outcome decs :=
  ke <- find_ke 65 Se Al blk ;; kex <- find_ke 65 ke Ah blk ;; enc_acr 64 (ACB tbl) Ss ke kex Se Al blk.
(* jcarith.c:387-444, 705-818: for (blkn = 0; blkn < blocks_in_MCU; blkn++); sequential and DC_first *)
Fixpoint enc_blocks (p : ascan) (cx : actx) (bs : mcu) : outcome (decs * actx) :=
  match bs with
  | [] => Ret ([], cx)
  | (ci, blk) :: bs =>
      dc <- aget blk 0 ;;
      '(d1, cx) <- enc_dc p cx ci (if aprog p then Z.shiftr dc (aAl p) else dc) ;;
      '(_, atbl) <- aget (acomps p) ci ;;
      d2 <- (if aprog p then Ret [] else enc_ac_first p atbl 1 63 0 blk) ;;
      '(d3, cx) <- enc_blocks p cx bs ;; Ret (d1 ++ d2 ++ d3, cx)
  end.
(* jcarith.c:583-586 encode_mcu_DC_refine *)
Fixpoint enc_dc_refine (p : ascan) (bs : mcu) : outcome decs :=
  match bs with
  | [] => Ret []
  | (_, blk) :: bs => dc <- aget blk 0 ;; ds <- enc_dc_refine p bs ;; Ret ((FIX, negb (Z.land (Z.shiftr dc (aAl p)) 1 =? 0)) :: ds)
  end.
(* jcarith.c:845-860: the procedure start_pass selects *)
Definition enc_mcu (p : ascan) (cx : actx) (bs : mcu) : outcome (decs * actx) :=
  if negb (aprog p) || ((aAh p =? 0) && (aSs p =? 0)) then enc_blocks p cx bs
  else if aSs p =? 0 then ds <- enc_dc_refine p bs ;; Ret (ds, cx)
  else match bs with
       | [] => Undef
       | (_, blk) :: _ => '(_, atbl) <- aget (acomps p) 0 ;;
           ds <- (if aAh p =? 0 then enc_ac_first p atbl (aSs p) (aSe p) (aAl p) blk else enc_ac_refine atbl (aSs p) (aSe p) (aAh p) (aAl p) blk) ;;
           Ret (ds, cx)
       end.
(* the MCUs of a scan, with restart markers (jcarith.c:376-385, 326-363; finish_pass at the end): out = bytes of earlier segments *)
Fixpoint enc_scan (p : ascan) (out : list Z) (e : estate) (bins : list Z) (cx : actx) (togo num : Z) (mcus : list mcu) : outcome (list Z) :=
  match mcus with
  | [] => Ret (out ++ finish_pass e)
  | b :: mcus =>
      let '(out, e, bins, cx, togo, num) :=
        if (negb (ariv p =? 0)) && (togo =? 0) then (out ++ finish_pass e ++ [255; 208 + num], e_init, bins0, ctx0 p, ariv p, Z.land (num + 1) 7)
        else (out, e, bins, cx, togo, num) in
      '(ds, cx) <- enc_mcu p cx b ;; '(e, bins) <- encode_all ds e bins ;;
      enc_scan p out e bins cx (togo - (if ariv p =? 0 then 0 else 1)) num mcus
  end.
Definition encode_scan (p : ascan) (mcus : list mcu) : outcome (list Z) := enc_scan p [] e_init bins0 (ctx0 p) (ariv p) 0 mcus.

(* ---- decoder ---- *)
(* Warn: WARNMS(JWRN_ARITH_BAD_CODE), ct = -1, return (the contents of the MCU are then not modelled); Stuck: an undefined access *)
Inductive dtree (A : Type) := Done (a : A) | Warn | Stuck | Ask (ctx : Z) (k : bool -> dtree A).
Arguments Done {A}. Arguments Warn {A}. Arguments Stuck {A}. Arguments Ask {A}.
Fixpoint tbind {A B} (t : dtree A) (f : A -> dtree B) : dtree B :=
  match t with Done a => f a | Warn => Warn | Stuck => Stuck | Ask c k => Ask c (fun b => tbind (k b) f) end.
Definition lift {A} (o : outcome A) : dtree A := match o with Ret a => Done a | _ => Stuck end.

(* jdarith.c:290-297 etc.: while (arith_decode(st)) { if ((m <<= 1) == 0x8000) error; st += 1; } *)
Fixpoint dec_mag_loop (fuel : nat) (m st : Z) : dtree (Z * Z) :=
  match fuel with
  | O => Stuck
  | S fuel => Ask st (fun b => if b then let m := Z.shiftl m 1 in if m =? 32768 then Warn else dec_mag_loop fuel m (st + 1) else Done (m, st))
  end.
(* jdarith.c:309-310: while (m >>= 1) if (arith_decode(st)) v |= m *)
Fixpoint dec_bits (fuel : nat) (m v st : Z) : dtree Z :=
  match fuel with
  | O => Stuck
  | S fuel => let m := Z.shiftr m 1 in if m =? 0 then Done v else Ask st (fun b => dec_bits fuel m (if b then Z.lor v m else v) st)
  end.
(* jdarith.c:270-313, 526-565: the DC value of component ci *)
Definition dec_dc (p : ascan) (cx : actx) (ci : Z) : dtree (Z * actx) :=
  tbind (lift (aget (acomps p) ci)) (fun '(tbl, _) =>
  tbind (lift (aget (fst cx) ci)) (fun lst => tbind (lift (aget (snd cx) ci)) (fun dcx =>
  let st := DCB tbl + dcx in
  Ask st (fun nz =>
    if negb nz then tbind (lift (aset (snd cx) ci 0)) (fun c' => Done (lst, (fst cx, c')))
    else Ask (st + 1) (fun sign =>
      let st := st + 2 + Z.b2z sign in
      Ask st (fun m0 =>
        tbind (if m0 then dec_mag_loop 16 1 (DCB tbl + 20) else Done (0, st)) (fun '(m, st) =>
        tbind (lift (aget (adcL p) tbl)) (fun lo => tbind (lift (aget (adcU p) tbl)) (fun up =>
        let dcx := if m <? Z.shiftr (Z.shiftl 1 lo) 1 then 0 else if Z.shiftr (Z.shiftl 1 up) 1 <? m then 12 + Z.b2z sign * 4 else 4 + Z.b2z sign * 4 in
        tbind (dec_bits 32 m m (st + 14)) (fun v =>
        let v := v + 1 in let v := if sign then - v else v in
        let lst := Z.land (lst + v) 65535 in
        tbind (lift (aset (fst cx) ci lst)) (fun l' => tbind (lift (aset (snd cx) ci dcx)) (fun c' => Done (lst, (l', c')))))))))))))).
(* jdarith.c:354-362, 577-585: while (arith_decode(st + 1) == 0) { st += 3; k++; if (k > Se) error } *)
Fixpoint dec_zr (fuel : nat) (ac k Se : Z) : dtree Z :=
  match fuel with
  | O => Stuck
  | S fuel => Ask (ac + 3 * (k - 1) + 1) (fun b => if b then Done k else if Se <? k + 1 then Warn else dec_zr fuel ac (k + 1) Se)
  end.
(* jdarith.c:363-391, 586-613: sign, magnitude category, bits *)
Definition dec_mag (ac K k : Z) : dtree Z :=
  Ask FIX (fun sign =>
  let st := ac + 3 * (k - 1) + 2 in
  Ask st (fun m0 =>
    tbind (if m0 then Ask st (fun m1 => if m1 then dec_mag_loop 16 2 (ac + (if k <=? K then 189 else 217)) else Done (1, st)) else Done (0, st)) (fun '(m, st) =>
    tbind (dec_bits 32 m m (st + 14)) (fun v => let v := v + 1 in Done (if sign then - v else v))))).
(* jdarith.c:349-395 (AC_first), 571-616 (sequential): JCOEF is a 16-bit short *)
Fixpoint dec_ac (fuel : nat) (ac K k Se Al : Z) (blk : list Z) : dtree (list Z) :=
  if k <=? Se then
    match fuel with
    | O => Stuck
    | S fuel => Ask (ac + 3 * (k - 1)) (fun eob =>
        if eob then Done blk else
        tbind (dec_zr 64 ac k Se) (fun k =>
        tbind (dec_mag ac K k) (fun v =>
        tbind (lift (z <- aget jpeg_natural_order k ;; aset blk z (s16 (Z.shiftl v Al)))) (fun blk =>
        dec_ac fuel ac K (k + 1) Se Al blk))))
    end
  else Done blk.
Definition dec_ac_first (p : ascan) (tbl Ss Se Al : Z) (blk : list Z) : dtree (list Z) :=
  tbind (lift (aget (aacK p) tbl)) (fun K => dec_ac 64 (ACB tbl) K Ss Se Al blk).
(* jdarith.c:458-460: for (kex = Se; kex > 0; kex--) if (block[natural_order[kex]]) break *)
Fixpoint dec_kex (fuel : nat) (kex : Z) (blk : list Z) : outcome Z :=
  match fuel with
  | O => Undef
  | S fuel => if 0 <? kex then z <- aget jpeg_natural_order kex ;; c <- aget blk z ;; if negb (c =? 0) then Ret kex else dec_kex fuel (kex - 1) blk else Ret kex
  end.
(* jdarith.c:466-494: the for(;;) of the refinement; returns k and the block *)
Fixpoint dec_rf (fuel : nat) (ac k Se Al : Z) (blk : list Z) : dtree (Z * list Z) :=
  match fuel with
  | O => Stuck
  | S fuel =>
      let st := ac + 3 * (k - 1) in
      tbind (lift (z <- aget jpeg_natural_order k ;; c <- aget blk z ;; Ret (z, c))) (fun '(z, c) =>
      if negb (c =? 0) then
        Ask (st + 2) (fun b => tbind (lift (if b then aset blk z (s16 (if c <? 0 then c + s16 (Z.shiftl (-1) Al) else c + s16 (Z.shiftl 1 Al))) else Ret blk)) (fun blk => Done (k, blk)))
      else
        Ask (st + 1) (fun b =>
          if b then Ask FIX (fun sg => tbind (lift (aset blk z (s16 (if sg then Z.shiftl (-1) Al else Z.shiftl 1 Al)))) (fun blk => Done (k, blk)))
          else if Se <? k + 1 then Warn else dec_rf fuel ac (k + 1) Se Al blk))
  end.
(* jdarith.c:462-496 *)
Fixpoint dec_acr (fuel : nat) (ac k kex Se Al : Z) (blk : list Z) : dtree (list Z) :=
  if k <=? Se then
    match fuel with
    | O => Stuck
    | S fuel =>
        let go := tbind (dec_rf 64 ac k Se Al blk) (fun '(k, blk) => dec_acr fuel ac (k + 1) kex Se Al blk) in
        if kex <? k then Ask (ac + 3 * (k - 1)) (fun eob => if eob then Done blk else go) else go
    end
  else Done blk.
(* jdarith.c:430-499 decode_mcu_AC_refine *)
Definition dec_ac_refine (tbl Ss Se Al : Z) (blk : list Z) : dtree (list Z) :=
  tbind (lift (dec_kex 65 Se blk)) (fun kex => dec_acr 64 (ACB tbl) Ss kex Se Al blk).
(* jdarith.c:264-317, 520-617; MCU_data is given with MCU_membership *)
Fixpoint dec_blocks (p : ascan) (cx : actx) (bs : mcu) : dtree (list (list Z) * actx) :=
  match bs with
  | [] => Done ([], cx)
  | (ci, blk) :: bs =>
      tbind (dec_dc p cx ci) (fun '(dc, cx) =>
      tbind (lift (aset blk 0 (s16 (if aprog p then Z.shiftl dc (aAl p) else dc)))) (fun blk =>
      tbind (lift (aget (acomps p) ci)) (fun '(_, atbl) =>
      tbind (if aprog p then Done blk else dec_ac_first p atbl 1 63 0 blk) (fun blk =>
      tbind (dec_blocks p cx bs) (fun '(bs, cx) => Done (blk :: bs, cx))))))
  end.
(* jdarith.c:416-420 decode_mcu_DC_refine: MCU_data[blkn][0][0] |= p1 *)
Fixpoint dec_dc_refine (p : ascan) (bs : mcu) : dtree (list (list Z)) :=
  match bs with
  | [] => Done []
  | (_, blk) :: bs => Ask FIX (fun b =>
      tbind (lift (if b then c <- aget blk 0 ;; aset blk 0 (s16 (Z.lor c (Z.shiftl 1 (aAl p)))) else Ret blk)) (fun blk =>
      tbind (dec_dc_refine p bs) (fun bs => Done (blk :: bs))))
  end.
(* jdarith.c:676-699: the procedure start_pass selects *)
Definition dec_mcu (p : ascan) (cx : actx) (bs : mcu) : dtree (list (list Z) * actx) :=
  if negb (aprog p) || ((aAh p =? 0) && (aSs p =? 0)) then dec_blocks p cx bs
  else if aSs p =? 0 then tbind (dec_dc_refine p bs) (fun bs => Done (bs, cx))
  else match bs with
       | [] => Stuck
       | (_, blk) :: rest => tbind (lift (aget (acomps p) 0)) (fun '(_, atbl) =>
           tbind (if aAh p =? 0 then dec_ac_first p atbl (aSs p) (aSe p) (aAl p) blk else dec_ac_refine atbl (aSs p) (aSe p) (aAl p) blk) (fun blk =>
           Done (blk :: map snd rest, cx)))
       end.
(* the questions are answered by arith_decode *)
Fixpoint run_tree {A} (t : dtree A) (d : dstate) (bins : list Z) : outcome (option (A * dstate * list Z)) :=
  match t with
  | Done a => Ret (Some (a, d, bins))
  | Warn => Ret None
  | Stuck => Undef
  | Ask ctx k => sv <- aget bins ctx ;; '(v, sv, d) <- arith_decode d sv ;; bins <- aset bins ctx sv ;; run_tree (k v) d bins
  end.
(* jdmarker.c:889-933 next_marker (a source that runs dry here is an error, jdarith.c:206) *)
Fixpoint scan_marker (ff : bool) (l : list Z) : outcome (Z * list Z) :=
  match l with
  | [] => Error JERR_CANT_SUSPEND
  | b :: t => if b =? 255 then scan_marker true t else if ff then (if b =? 0 then scan_marker false t else Ret (b, t)) else scan_marker false t
  end.
(* jdmarker.c:1137-1166 read_restart_marker; jdarith.c:224-229.  A marker other than the expected one starts the resynchronisation, which is not modelled here *)
Definition restart_input (d : dstate) (num : Z) : outcome (list Z) :=
  '(mk, inp) <- (if d_marker d =? 0 then scan_marker false (d_in d) else Ret (d_marker d, d_in d)) ;;
  if mk =? 208 + num then Ret inp else Undef.
(* the MCUs of a scan: None after a corrupt-data warning *)
Fixpoint dec_scan (p : ascan) (d : dstate) (bins : list Z) (cx : actx) (togo num : Z) (mcus : list mcu) : outcome (option (list (list (list Z)) * dstate)) :=
  match mcus with
  | [] => Ret (Some ([], d))
  | b :: mcus =>
      '(d, bins, cx, togo, num) <-
        (if (negb (ariv p =? 0)) && (togo =? 0) then inp <- restart_input d num ;; Ret (d_init inp, bins0, ctx0 p, ariv p, Z.land (num + 1) 7)
         else Ret (d, bins, cx, togo, num)) ;;
      r <- run_tree (dec_mcu p cx b) d bins ;;
      match r with
      | None => Ret None
      | Some ((blks, cx), d, bins) =>
          r <- dec_scan p d bins cx (togo - (if ariv p =? 0 then 0 else 1)) num mcus ;;
          match r with None => Ret None | Some (bl, d) => Ret (Some (blks :: bl, d)) end
      end
  end.
Definition decode_scan (p : ascan) (input : list Z) (mcus : list mcu) : outcome (option (list (list (list Z)) * dstate)) :=
  dec_scan p (d_init input) bins0 (ctx0 p) (ariv p) 0 mcus.
