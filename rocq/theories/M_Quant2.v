(* M_Quant2.v -- two-pass colour quantizer, second pass (jquant2.c), 8-bit samples.
   Modelled: inverse colour map lookup and both mapping loops.  Not modelled: palette selection (any palette is allowed,
   as with cinfo->colormap supplied by the application) and the histogram pass. *)
From Verif Require Import Base.

(* jquant2.c:77-84: the scale factors of the three components, a permutation of 2, 3, 1 by output colour space *)
Record scales := mkScales { C0_SCALE : Z; C1_SCALE : Z; C2_SCALE : Z }.
(* cinfo->colormap and actual_number_of_colors *)
Record cmap := mkCmap { colormap0 : list Z; colormap1 : list Z; colormap2 : list Z; num_colors : Z }.

(* jquant2.c:125-127, 607-617 *)
Definition C0_SHIFT : Z := 3.
Definition C1_SHIFT : Z := 2.
Definition C2_SHIFT : Z := 3.
Definition BOX_C0_LOG : Z := 2.
Definition BOX_C1_LOG : Z := 3.
Definition BOX_C2_LOG : Z := 2.
Definition BOX_SHIFT : Z := 5.

(* jquant2.c:671-690 and its two repetitions: contribution of one component to min_dist and max_dist *)
Definition dist_part (x minc maxc centerc scale : Z) : Z * Z :=
  if x <? minc then
    let t1 := (x - minc) * scale in let t2 := (x - maxc) * scale in (t1 * t1, t2 * t2)
  else if maxc <? x then
    let t1 := (x - maxc) * scale in let t2 := (x - minc) * scale in (t1 * t1, t2 * t2)
  else if x <=? centerc then let t := (x - maxc) * scale in (0, t * t)
  else let t := (x - minc) * scale in (0, t * t).

(* jquant2.c:628-753 find_nearby_colors; mindist[] and colorlist[] (256 entries) are filled in order *)
Definition find_nearby_colors (s : scales) (m : cmap) (minc0 minc1 minc2 : Z) : outcome (list Z) :=
  let maxc0 := minc0 + (Z.shiftl 1 BOX_SHIFT - Z.shiftl 1 C0_SHIFT) in
  let centerc0 := Z.shiftr (minc0 + maxc0) 1 in
  let maxc1 := minc1 + (Z.shiftl 1 BOX_SHIFT - Z.shiftl 1 C1_SHIFT) in
  let centerc1 := Z.shiftr (minc1 + maxc1) 1 in
  let maxc2 := minc2 + (Z.shiftl 1 BOX_SHIFT - Z.shiftl 1 C2_SHIFT) in
  let centerc2 := Z.shiftr (minc2 + maxc2) 1 in
  '(mindist, minmaxdist) <- for_loop (Z.to_nat (num_colors m)) 0 (fun i '(mindist, minmaxdist) =>
      if 256 <=? i then Undef else
      x0 <- aget (colormap0 m) i ;; x1 <- aget (colormap1 m) i ;; x2 <- aget (colormap2 m) i ;;
      let '(a0, b0) := dist_part x0 minc0 maxc0 centerc0 (C0_SCALE s) in
      let '(a1, b1) := dist_part x1 minc1 maxc1 centerc1 (C1_SCALE s) in
      let '(a2, b2) := dist_part x2 minc2 maxc2 centerc2 (C2_SCALE s) in
      let min_dist := a0 + a1 + a2 in let max_dist := b0 + b1 + b2 in
      Ret (mindist ++ [min_dist], if max_dist <? minmaxdist then max_dist else minmaxdist)) ([], 2147483647) ;;
  for_loop (Z.to_nat (num_colors m)) 0 (fun i colorlist =>
      d <- aget mindist i ;; Ret (if d <=? minmaxdist then colorlist ++ [u8 i] else colorlist)) [].

(* jquant2.c:815-823: innermost loop body; cell = index into bestdist[] and bestcolor[] *)
Definition best_cell (icolor : Z) (dist2 cell : Z) (bd bc : list Z) : outcome (list Z * list Z) :=
  b <- aget bd cell ;;
  if dist2 <? b then bd' <- aset bd cell dist2 ;; bc' <- aset bc cell (u8 icolor) ;; Ret (bd', bc') else Ret (bd, bc).

(* jquant2.c:757-834 find_best_colors; bestcolor[] (128 entries) is uninitialised on entry.
   The down-counting loop counters are replaced by up-counting ones, which the body does not use except through the
   pointers bptr and cptr that advance by one cell per innermost turn. *)
Definition find_best_colors (s : scales) (m : cmap) (minc0 minc1 minc2 : Z) (colorlist bestcolor : list Z) : outcome (list Z) :=
  let STEP_C0 := Z.shiftl 1 C0_SHIFT * C0_SCALE s in
  let STEP_C1 := Z.shiftl 1 C1_SHIFT * C1_SCALE s in
  let STEP_C2 := Z.shiftl 1 C2_SHIFT * C2_SCALE s in
  '(_, bc) <- for_loop (length colorlist) 0 (fun i '(bd, bc) =>
    icolor <- aget colorlist i ;;
    x0 <- aget (colormap0 m) icolor ;; x1 <- aget (colormap1 m) icolor ;; x2 <- aget (colormap2 m) icolor ;;
    let inc0 := (minc0 - x0) * C0_SCALE s in
    let inc1 := (minc1 - x1) * C1_SCALE s in
    let inc2 := (minc2 - x2) * C2_SCALE s in
    let dist0 := inc0 * inc0 + inc1 * inc1 + inc2 * inc2 in
    let inc0 := inc0 * (2 * STEP_C0) + STEP_C0 * STEP_C0 in
    let inc1 := inc1 * (2 * STEP_C1) + STEP_C1 * STEP_C1 in
    let inc2 := inc2 * (2 * STEP_C2) + STEP_C2 * STEP_C2 in
    '(bd, bc, _, _, _) <- for_loop 4 0 (fun ic0 '(bd, bc, cell, dist0, xx0) =>
       '(bd, bc, cell, _, _) <- for_loop 8 0 (fun ic1 '(bd, bc, cell, dist1, xx1) =>
          '(bd, bc, cell, _, _) <- for_loop 4 0 (fun ic2 '(bd, bc, cell, dist2, xx2) =>
             '(bd, bc) <- best_cell icolor dist2 cell bd bc ;;
             Ret (bd, bc, cell + 1, dist2 + xx2, xx2 + 2 * STEP_C2 * STEP_C2)) (bd, bc, cell, dist1, inc2) ;;
          Ret (bd, bc, cell, dist1 + xx1, xx1 + 2 * STEP_C1 * STEP_C1)) (bd, bc, cell, dist0, inc1) ;;
       Ret (bd, bc, cell, dist0 + xx0, xx0 + 2 * STEP_C0 * STEP_C0)) (bd, bc, 0, dist0, inc0) ;;
    Ret (bd, bc)) (repeat 2147483647 128, bestcolor) ;;
  Ret bc.

(* the histogram, used as a cache in pass 2: 32 x 64 x 32 cells of UINT16 (jquant2.c:117-137) *)
Definition hist := Z -> Z -> Z -> Z.
Definition in_hist (c0 c1 c2 : Z) : bool := (0 <=? c0) && (c0 <? 32) && (0 <=? c1) && (c1 <? 64) && (0 <=? c2) && (c2 <? 32).
Definition hget (h : hist) (c0 c1 c2 : Z) : outcome Z := if in_hist c0 c1 c2 then Ret (h c0 c1 c2) else Undef.
Definition hset (h : hist) (c0 c1 c2 v : Z) : outcome hist :=
  if in_hist c0 c1 c2 then Ret (fun x y z => if (x =? c0) && (y =? c1) && (z =? c2) then u16 v else h x y z) else Undef.

(* jquant2.c:837-890 fill_inverse_cmap; garbage: initial contents of the local array bestcolor[] *)
Definition fill_inverse_cmap (s : scales) (m : cmap) (garbage : list Z) (c0 c1 c2 : Z) (h : hist) : outcome hist :=
  let c0 := Z.shiftr c0 BOX_C0_LOG in let c1 := Z.shiftr c1 BOX_C1_LOG in let c2 := Z.shiftr c2 BOX_C2_LOG in
  let minc0 := Z.shiftl c0 BOX_SHIFT + Z.shiftr (Z.shiftl 1 C0_SHIFT) 1 in
  let minc1 := Z.shiftl c1 BOX_SHIFT + Z.shiftr (Z.shiftl 1 C1_SHIFT) 1 in
  let minc2 := Z.shiftl c2 BOX_SHIFT + Z.shiftr (Z.shiftl 1 C2_SHIFT) 1 in
  colorlist <- find_nearby_colors s m minc0 minc1 minc2 ;;
  bestcolor <- find_best_colors s m minc0 minc1 minc2 colorlist garbage ;;
  let c0 := Z.shiftl c0 BOX_C0_LOG in let c1 := Z.shiftl c1 BOX_C1_LOG in let c2 := Z.shiftl c2 BOX_C2_LOG in
  '(h, _) <- for_loop 4 0 (fun ic0 '(h, cptr) =>
     for_loop 8 0 (fun ic1 '(h, cptr) =>
       for_loop 4 0 (fun ic2 '(h, cptr) =>
         b <- aget bestcolor cptr ;; h' <- hset h (c0 + ic0) (c1 + ic1) (c2 + ic2) (b + 1) ;; Ret (h', cptr + 1)) (h, cptr)) (h, cptr)) (h, 0) ;;
  Ret h.

(* jquant2.c:914-926: one lookup *)
Definition lookup (s : scales) (m : cmap) (garbage : list Z) (c0 c1 c2 : Z) (h : hist) : outcome (Z * hist) :=
  v <- hget h c0 c1 c2 ;;
  h <- (if v =? 0 then fill_inverse_cmap s m garbage c0 c1 c2 h else Ret h) ;;
  v <- hget h c0 c1 c2 ;; Ret (u8 (v - 1), h).
(* jquant2.c:909-928 pass2_no_dither on one row of pixels *)
Fixpoint pass2_no_dither (s : scales) (m : cmap) (garbage : list Z) (row : list (Z * Z * Z)) (h : hist) : outcome (list Z * hist) :=
  match row with
  | [] => Ret ([], h)
  | (r, g, b) :: t =>
    '(o, h) <- lookup s m garbage (Z.shiftr r C0_SHIFT) (Z.shiftr g C1_SHIFT) (Z.shiftr b C2_SHIFT) h ;;
    '(os, h) <- pass2_no_dither s m garbage t h ;; Ret (o :: os, h)
  end.

(* jquant2.c:1085-1114 init_error_limit, closed form of the table it builds; valid for -255..255 *)
Definition error_limit (x : Z) : outcome Z :=
  let f := fun a => if a <? 16 then a else if a <? 48 then 16 + (a - 16) / 2 else 32 in
  if (x <? -255) || (255 <? x) then Undef else Ret (if x <? 0 then - f (- x) else f x).
(* sample_range_limit (jdmaster.c prepare_range_limit_table): clamping for -256 .. 639 *)
Definition range_limit (x : Z) : outcome Z := if (x <? -256) || (639 <? x) then Undef else Ret (Z.max 0 (Z.min 255 x)).

(* jquant2.c:981-1009: the adjusted value of one component *)
Definition fs_adjust (cur err inp : Z) : outcome Z :=
  e <- error_limit (Z.shiftr (cur + err + 8) 4) ;; range_limit (e + inp).
(* jquant2.c:1029-1046 for one component: new errorptr[0], bpreverr, belowerr, cur *)
Definition fs_spread (cur bpreverr belowerr : Z) : Z * Z * Z * Z := (s16 (bpreverr + cur * 3), belowerr + cur * 5, cur, cur * 7).

(* jquant2.c:931-1064 pass2_fs_dither on one row.  fserrors is split by component: e0, e1, e2, each width + 2 entries.
   dir = 1 or -1; idx = position of errorptr in entries *)
Record fsst := mkFs { f_e : list Z * list Z * list Z; f_cur : Z * Z * Z; f_below : Z * Z * Z; f_bprev : Z * Z * Z; f_idx : Z; f_pos : Z; f_out : list Z; f_hist : hist }.
Definition fs_pixel (s : scales) (m : cmap) (garbage : list Z) (dir : Z) (row : list (Z * Z * Z)) (st : fsst) : outcome fsst :=
  let '(e0, e1, e2) := f_e st in let '(cur0, cur1, cur2) := f_cur st in let '(bl0, bl1, bl2) := f_below st in let '(bp0, bp1, bp2) := f_bprev st in
  '(in0, in1, in2) <- aget row (f_pos st) ;;
  x0 <- aget e0 (f_idx st + dir) ;; x1 <- aget e1 (f_idx st + dir) ;; x2 <- aget e2 (f_idx st + dir) ;;
  cur0 <- fs_adjust cur0 x0 in0 ;; cur1 <- fs_adjust cur1 x1 in1 ;; cur2 <- fs_adjust cur2 x2 in2 ;;
  '(pixcode, h) <- lookup s m garbage (Z.shiftr cur0 C0_SHIFT) (Z.shiftr cur1 C1_SHIFT) (Z.shiftr cur2 C2_SHIFT) (f_hist st) ;;
  out' <- aset (f_out st) (f_pos st) pixcode ;;
  p0 <- aget (colormap0 m) pixcode ;; p1 <- aget (colormap1 m) pixcode ;; p2 <- aget (colormap2 m) pixcode ;;
  let '(n0, bp0, bl0, cur0) := fs_spread (cur0 - p0) bp0 bl0 in
  let '(n1, bp1, bl1, cur1) := fs_spread (cur1 - p1) bp1 bl1 in
  let '(n2, bp2, bl2, cur2) := fs_spread (cur2 - p2) bp2 bl2 in
  e0 <- aset e0 (f_idx st) n0 ;; e1 <- aset e1 (f_idx st) n1 ;; e2 <- aset e2 (f_idx st) n2 ;;
  Ret (mkFs (e0, e1, e2) (cur0, cur1, cur2) (bl0, bl1, bl2) (bp0, bp1, bp2) (f_idx st + dir) (f_pos st + dir) out' h).
Definition fs_row (s : scales) (m : cmap) (garbage : list Z) (odd : bool) (row : list (Z * Z * Z)) (errs : list Z * list Z * list Z) (h : hist) : outcome (list Z * (list Z * list Z * list Z) * hist) :=
  let width := Z.of_nat (length row) in
  let dir := if odd then -1 else 1 in
  st <- for_loop (length row) 0 (fun _ st => fs_pixel s m garbage dir row st)
          (mkFs errs (0, 0, 0) (0, 0, 0) (0, 0, 0) (if odd then width + 1 else 0) (if odd then width - 1 else 0) (repeat 0 (length row)) h) ;;
  let '(e0, e1, e2) := f_e st in let '(bp0, bp1, bp2) := f_bprev st in
  e0 <- aset e0 (f_idx st) (s16 bp0) ;; e1 <- aset e1 (f_idx st) (s16 bp1) ;; e2 <- aset e2 (f_idx st) (s16 bp2) ;;
  Ret (f_out st, (e0, e1, e2), f_hist st).
(* successive rows: on_odd_row flips *)
Fixpoint fs_rows (s : scales) (m : cmap) (garbage : list Z) (odd : bool) (rows : list (list (Z * Z * Z))) (errs : list Z * list Z * list Z) (h : hist) : outcome (list (list Z)) :=
  match rows with
  | [] => Ret []
  | r :: t => '(o, errs, h) <- fs_row s m garbage odd r errs h ;; os <- fs_rows s m garbage (negb odd) t errs h ;; Ret (o :: os)
  end.
