(* M_Median.v -- two-pass colour quantizer, first pass (jquant2.c): the histogram and
   the selection of the palette by median cut, 8-bit samples.  long is 64 bits (no sum
   here exceeds 2^42).  The memory manager is not modelled. *)
From Verif Require Import Base M_Pnm M_Quant2.

Definition zr (a b : Z) : list Z := map (fun i => a + Z.of_nat i) (seq 0 (Z.to_nat (b - a + 1))).

(* jquant2.c:74-84: the scale factors by output colour space; the table rgb_red has
   entries -1 for the colour spaces without red *)
Definition c_scales : list Z := [2; 3; 1].
Definition scales_of (cs : Z) : outcome scales :=
  r <- aget t_red cs ;; g <- aget t_green cs ;; b <- aget t_blue cs ;;
  s0 <- aget c_scales r ;; s1 <- aget c_scales g ;; s2 <- aget c_scales b ;; Ret (mkScales s0 s1 s2).

(* jquant2.c:212-225: one pixel of prescan_quantize; histcell is UINT16 *)
Definition prescan_px (h : hist) (p : Z * Z * Z) : outcome hist :=
  let '(p0, p1, p2) := p in
  let c0 := Z.shiftr p0 C0_SHIFT in let c1 := Z.shiftr p1 C1_SHIFT in let c2 := Z.shiftr p2 C2_SHIFT in
  v <- hget h c0 c1 c2 ;;
  let v := u16 (v + 1) in
  hset h c0 c1 c2 (if v <=? 0 then u16 (v - 1) else v).
(* jquant2.c:202-228 prescan_quantize over all the pixels of the image *)
Fixpoint prescan (h : hist) (ps : list (Z * Z * Z)) : outcome hist :=
  match ps with
  | [] => Ret h
  | p :: ps => h <- prescan_px h p ;; prescan h ps
  end.

(* jquant2.c:237-246 *)
Record box := mkBox { c0min : Z; c0max : Z; c1min : Z; c1max : Z; c2min : Z; c2max : Z; volume : Z; colorcount : Z }.

Definition occ (h : hist) (c : Z * Z * Z) : bool := let '(c0, c1, c2) := c in negb (h c0 c1 c2 =? 0).
Definition slab (a0 b0 a1 b1 a2 b2 : Z) : list (Z * Z * Z) :=
  flat_map (fun c0 => flat_map (fun c1 => map (fun c2 => (c0, c1, c2)) (zr a2 b2)) (zr a1 b1)) (zr a0 b0).
(* the first or last plane with a nonzero cell; the bound is kept if there is none *)
Definition shrink_lo (f : Z -> bool) (lo hi : Z) : Z :=
  if lo <? hi then match find f (zr lo hi) with Some x => x | None => lo end else lo.
Definition shrink_hi (f : Z -> bool) (lo hi : Z) : Z :=
  if lo <? hi then match find f (rev (zr lo hi)) with Some x => x | None => hi end else hi.

(* jquant2.c:292-419 update_box.  Simplification: a box not inside the histogram is
   Undef as a whole.  The order of the two inner loops of a search is immaterial. *)
Definition update_box (s : scales) (h : hist) (b : box) : outcome box :=
  let '(mkBox a0 b0 a1 b1 a2 b2 _ _) := b in
  if negb (in_hist a0 a1 a2 && in_hist b0 b1 b2) then Undef
  else
    let a0 := shrink_lo (fun x => existsb (occ h) (slab x x a1 b1 a2 b2)) a0 b0 in
    let b0 := shrink_hi (fun x => existsb (occ h) (slab x x a1 b1 a2 b2)) a0 b0 in
    let a1 := shrink_lo (fun x => existsb (occ h) (slab a0 b0 x x a2 b2)) a1 b1 in
    let b1 := shrink_hi (fun x => existsb (occ h) (slab a0 b0 x x a2 b2)) a1 b1 in
    let a2 := shrink_lo (fun x => existsb (occ h) (slab a0 b0 a1 b1 x x)) a2 b2 in
    let b2 := shrink_hi (fun x => existsb (occ h) (slab a0 b0 a1 b1 x x)) a2 b2 in
    let d0 := Z.shiftl (b0 - a0) C0_SHIFT * C0_SCALE s in
    let d1 := Z.shiftl (b1 - a1) C1_SHIFT * C1_SCALE s in
    let d2 := Z.shiftl (b2 - a2) C2_SHIFT * C2_SCALE s in
    Ret (mkBox a0 b0 a1 b1 a2 b2 (d0 * d0 + d1 * d1 + d2 * d2) (Z.of_nat (length (filter (occ h) (slab a0 b0 a1 b1 a2 b2))))).

(* jquant2.c:252-288 find_biggest_color_pop, find_biggest_volume: an index *)
Fixpoint biggest (key : box -> Z) (ok : box -> bool) (bs : list box) (i : nat) (maxc : Z) (which : option nat) : option nat :=
  match bs with
  | [] => which
  | b :: bs => if (maxc <? key b) && ok b then biggest key ok bs (S i) (key b) (Some i) else biggest key ok bs (S i) maxc which
  end.
Definition find_biggest_color_pop (bs : list box) : option nat := biggest colorcount (fun b => 0 <? volume b) bs 0 0 None.
Definition find_biggest_volume (bs : list box) : option nat := biggest volume (fun _ => true) bs 0 0 None.

(* jquant2.c:445-465: the axis to split; rgb: red is the first component *)
Definition split_axis (s : scales) (rgb : bool) (b : box) : Z :=
  let c0 := Z.shiftl (c0max b - c0min b) C0_SHIFT * C0_SCALE s in
  let c1 := Z.shiftl (c1max b - c1min b) C1_SHIFT * C1_SCALE s in
  let c2 := Z.shiftl (c2max b - c2min b) C2_SHIFT * C2_SCALE s in
  if rgb then
    let '(cmax, n) := if c1 <? c0 then (c0, 0) else (c1, 1) in
    if cmax <? c2 then 2 else n
  else
    let '(cmax, n) := if c1 <? c2 then (c2, 2) else (c1, 1) in
    if cmax <? c0 then 0 else n.
(* jquant2.c:440-492: the two halves, before their update *)
Definition split_box (s : scales) (rgb : bool) (b : box) : box * box :=
  let '(mkBox a0 b0 a1 b1 a2 b2 v c) := b in
  let n := split_axis s rgb b in
  if n =? 0 then let lb := Z.quot (b0 + a0) 2 in (mkBox a0 lb a1 b1 a2 b2 v c, mkBox (lb + 1) b0 a1 b1 a2 b2 v c)
  else if n =? 1 then let lb := Z.quot (b1 + a1) 2 in (mkBox a0 b0 a1 lb a2 b2 v c, mkBox a0 b0 (lb + 1) b1 a2 b2 v c)
  else let lb := Z.quot (b2 + a2) 2 in (mkBox a0 b0 a1 b1 a2 lb v c, mkBox a0 b0 a1 b1 (lb + 1) b2 v c).

(* jquant2.c:422-498 median_cut; the list has numboxes entries, room for
   desired_colors; n is the number of turns left *)
Fixpoint median_cut (s : scales) (rgb : bool) (h : hist) (desired : Z) (n : nat) (bs : list box) : outcome (list box) :=
  match n with
  | O => Ret bs
  | S n =>
    match (if Z.of_nat (length bs) * 2 <=? desired then find_biggest_color_pop bs else find_biggest_volume bs) with
    | None => Ret bs
    | Some i =>
      match nth_error bs i with
      | None => Undef
      | Some b =>
        let '(x, y) := split_box s rgb b in
        x <- update_box s h x ;; y <- update_box s h y ;; median_cut s rgb h desired n (upd bs i x ++ [y])
      end
    end
  end.

Definition zsum (l : list Z) : Z := fold_left Z.add l 0.
(* jquant2.c:501-545 compute_color; _JSAMPLE is an unsigned char *)
Definition compute_color (h : hist) (b : box) : outcome (Z * Z * Z) :=
  let cells := filter (occ h) (slab (c0min b) (c0max b) (c1min b) (c1max b) (c2min b) (c2max b)) in
  let total := zsum (map (fun '(c0, c1, c2) => h c0 c1 c2) cells) in
  let t0 := zsum (map (fun '(c0, c1, c2) => (Z.shiftl c0 C0_SHIFT + Z.shiftr (Z.shiftl 1 C0_SHIFT) 1) * h c0 c1 c2) cells) in
  let t1 := zsum (map (fun '(c0, c1, c2) => (Z.shiftl c1 C1_SHIFT + Z.shiftr (Z.shiftl 1 C1_SHIFT) 1) * h c0 c1 c2) cells) in
  let t2 := zsum (map (fun '(c0, c1, c2) => (Z.shiftl c2 C2_SHIFT + Z.shiftr (Z.shiftl 1 C2_SHIFT) 1) * h c0 c1 c2) cells) in
  if total =? 0 then Undef
  else Ret (u8 ((t0 + Z.shiftr total 1) / total), u8 ((t1 + Z.shiftr total 1) / total), u8 ((t2 + Z.shiftr total 1) / total)).
Fixpoint compute_colors (h : hist) (bs : list box) : outcome (list (Z * Z * Z)) :=
  match bs with
  | [] => Ret []
  | b :: bs => c <- compute_color h b ;; cs <- compute_colors h bs ;; Ret (c :: cs)
  end.

(* jquant2.c:548-580 select_colors *)
Definition select_colors (s : scales) (rgb : bool) (h : hist) (desired : Z) : outcome (list (Z * Z * Z)) :=
  b <- update_box s h (mkBox 0 (Z.shiftr 255 C0_SHIFT) 0 (Z.shiftr 255 C1_SHIFT) 0 (Z.shiftr 255 C2_SHIFT) 0 0) ;;
  bs <- median_cut s rgb h desired (Z.to_nat (desired - 1)) [b] ;;
  compute_colors h bs.

(* jquant2.c:1222-1270 _jinit_2pass_quantizer: the checks of the number of colours;
   then the whole first pass over an image of 3-component pixels *)
Definition first_pass (cs : Z) (desired : Z) (pixels : list (Z * Z * Z)) : outcome (list (Z * Z * Z)) :=
  if (desired <? 8) || (256 <? desired) then Error JERR_OTHER
  else
    h <- prescan (fun _ _ _ => 0) pixels ;;
    s <- scales_of cs ;; r <- aget t_red cs ;;
    select_colors s (r =? 0) h desired.
