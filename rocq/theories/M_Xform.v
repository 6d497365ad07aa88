(* M_Xform.v -- the lossless transforms of transupp.c (jpegtran, tj3Transform):
   flip, rotate, transpose, crop, trim, grayscale reduction.
   JPEG_LIB_VERSION 62: dstinfo_min_DCT_h_scaled_size and
   srcinfo->_min_DCT_h_scaled_size are DCTSIZE (transupp.c:29-36).
   Not modelled: JXFORM_WIPE, JXFORM_DROP, crop extension (a crop region larger than
   the image), the Exif fix-up. *)
From Verif Require Import Base M_Geom.

(* JBLOCK: 64 JCOEFs (short) in natural order *)
Definition blk64 : Type := list Z.
(* negation of a JCOEF, converted back to short *)
Definition cneg (x : Z) : Z := s16 (- x).

(* a virtual block array (jmemmgr.c:60-85): None = allocated and not yet written *)
Record barray := mkBA { ba_rows : Z; ba_cols : Z; ba_maxaccess : Z; ba_blk : Z -> Z -> option blk64 }.
(* the rows made accessible by one access_virt_barray call *)
Record baccess := mkAcc { ac_start : Z; ac_n : Z }.

(* jmemmgr.c:1019-1023 *)
Definition access_virt_barray (a : barray) (start n : Z) : outcome baccess :=
  if (start <? 0) || (ba_rows a <? start + n) || (ba_maxaccess a <? n)
  then Error JERR_BAD_VIRTUAL_ACCESS else Ret (mkAcc start n).
(* buffer[k][x] *)
Definition rd (a : barray) (b : baccess) (k x : Z) : outcome blk64 :=
  if (k <? 0) || (ac_n b <=? k) || (x <? 0) || (ba_cols a <=? x) then Undef
  else match ba_blk a (ac_start b + k) x with Some v => Ret v | None => Undef end.
Definition wr (a : barray) (b : baccess) (k x : Z) (v : blk64) : outcome barray :=
  if (k <? 0) || (ac_n b <=? k) || (x <? 0) || (ba_cols a <=? x) then Undef
  else Ret (mkBA (ba_rows a) (ba_cols a) (ba_maxaccess a)
         (fun y' x' => if (y' =? ac_start b + k) && (x' =? x) then Some v else ba_blk a y' x')).

(* for (i = lo; i < hi; i += step) body *)
Fixpoint step_loop {S} (fuel : nat) (i hi step : Z) (body : Z -> S -> outcome S) (s : S) : outcome S :=
  if i <? hi then
    match fuel with O => Undef | Datatypes.S f => s' <- body i s ;; step_loop f (i + step) hi step body s' end
  else Ret s.
Definition steps {S} (hi step : Z) (body : Z -> S -> outcome S) (s : S) : outcome S :=
  step_loop (Z.to_nat hi) 0 hi step body s.

(* ---------------- the loops over one block ---------------- *)
(* *dst_ptr++ = *src_ptr++; *dst_ptr++ = -( *src_ptr++ ), 32 times
   (transupp.c:836-840, 1222-1225) *)
Fixpoint blk_flip_h (s : blk64) : blk64 :=
  match s with e :: o :: t => e :: cneg o :: blk_flip_h t | _ => s end.
(* 8 coefficients copied, 8 negated, 4 times (transupp.c:910-917, 1203-1208) *)
Definition blk_flip_v (s : blk64) : blk64 :=
  firstn 8 s ++ map cneg (firstn 8 (skipn 8 s)) ++
  firstn 8 (skipn 16 s) ++ map cneg (firstn 8 (skipn 24 s)) ++
  firstn 8 (skipn 32 s) ++ map cneg (firstn 8 (skipn 40 s)) ++
  firstn 8 (skipn 48 s) ++ map cneg (firstn 8 (skipn 56 s)).
(* transupp.c:1186-1197: odd columns of even rows, even columns of odd rows *)
Fixpoint pairs_ne (s : blk64) : blk64 :=
  match s with e :: o :: t => cneg e :: o :: pairs_ne t | _ => s end.
Definition blk_rot_180 (s : blk64) : blk64 :=
  blk_flip_h (firstn 8 s) ++ pairs_ne (firstn 8 (skipn 8 s)) ++
  blk_flip_h (firstn 8 (skipn 16 s)) ++ pairs_ne (firstn 8 (skipn 24 s)) ++
  blk_flip_h (firstn 8 (skipn 32 s)) ++ pairs_ne (firstn 8 (skipn 40 s)) ++
  blk_flip_h (firstn 8 (skipn 48 s)) ++ pairs_ne (firstn 8 (skipn 56 s)).

(* dst_ptr[j * DCTSIZE + i] = src_ptr[i * DCTSIZE + j] (or its negation) *)
Definition tr1 (neg : bool) (src : blk64) (i j : Z) (d : blk64) : outcome blk64 :=
  v <- aget src (i * 8 + j) ;;
  aset d (j * 8 + i) (if neg then cneg v else v).
(* transupp.c:971-973 (also 1052-1054, 1121-1123, 1346-1348) *)
Definition blk_transpose (src d : blk64) : outcome blk64 :=
  for_loop 8 0 (fun i d => for_loop 8 0 (fun j d => tr1 false src i j d) d) d.
(* transupp.c:1040-1046 (also 1336-1342): odd i negated *)
Definition blk_rot_90 (src d : blk64) : outcome blk64 :=
  steps 8 2 (fun i d =>
    d <- for_loop 8 0 (fun j d => tr1 false src i j d) d ;;
    for_loop 8 0 (fun j d => tr1 true src (i + 1) j d) d) d.
(* transupp.c:1110-1116 (also 1325-1331): odd j negated *)
Definition blk_rot_270 (src d : blk64) : outcome blk64 :=
  for_loop 8 0 (fun i d =>
    steps 8 2 (fun j d => d <- tr1 false src i j d ;; tr1 true src i (j + 1) d) d) d.
(* transupp.c:1307-1319 *)
Definition blk_transverse (src d : blk64) : outcome blk64 :=
  steps 8 2 (fun i d =>
    d <- steps 8 2 (fun j d => d <- tr1 false src i j d ;; tr1 true src i (j + 1) d) d ;;
    steps 8 2 (fun j d => d <- tr1 true src (i + 1) j d ;; tr1 false src (i + 1) (j + 1) d) d) d.

(* The destination block when a transposing loop starts writing it: the workspace is
   not pre-zeroed; every one of the 64 elements is overwritten. *)
Definition junk : blk64 := repeat 0 64.

(* ---------------- one component ---------------- *)
Section Comp.
(* the destination component and the crop offset in iMCUs *)
Variable c : comp.
Variable x_crop_offset y_crop_offset : Z.
Let h := c_h c.
Let v := c_v c.
Let wib := c_width_in_blocks c.
Let hib := c_height_in_blocks c.
Let xc := x_crop_offset * h.
Let yc := y_crop_offset * v.

(* jutils.c:131-137 jcopy_block_row, within row ks of the source access and kd of the
   destination access *)
Definition jcopy_block_row (src : barray) (bs : baccess) (ks xs : Z) (bd : baccess) (kd xd n : Z) (dst : barray)
  : outcome barray :=
  for_loop (Z.to_nat n) 0 (fun i dst => b <- rd src bs ks (xs + i) ;; wr dst bd kd (xd + i) b) dst.

(* transupp.c:278-311 do_crop *)
Definition do_crop (src dst : barray) : outcome barray :=
  steps hib v (fun y dst =>
    bd <- access_virt_barray dst y v ;;
    bs <- access_virt_barray src (y + yc) v ;;
    for_loop (Z.to_nat v) 0 (fun oy dst => jcopy_block_row src bs oy xc bd oy 0 wib dst) dst) dst.

(* transupp.c:792-851 do_flip_h; [comp_width] = MCU_cols * h_samp_factor *)
Definition do_flip_h (comp_width : Z) (src dst : barray) : outcome barray :=
  steps hib v (fun y dst =>
    bd <- access_virt_barray dst y v ;;
    bs <- access_virt_barray src (y + yc) v ;;
    for_loop (Z.to_nat v) 0 (fun oy dst =>
      for_loop (Z.to_nat wib) 0 (fun x dst =>
        if xc + x <? comp_width
        then b <- rd src bs oy (comp_width - xc - x - 1) ;; wr dst bd oy x (blk_flip_h b)
        else jcopy_block_row src bs oy (x + xc) bd oy x 1 dst) dst) dst) dst.

(* the two blocks of one swap (transupp.c:760-770); when they are the same block
   (comp_width odd, the middle) every element is exchanged with itself *)
Definition swap_blocks (a : barray) (b : baccess) (oy x1 x2 : Z) : outcome barray :=
  b1 <- rd a b oy x1 ;; b2 <- rd a b oy x2 ;;
  a <- wr a b oy x1 (blk_flip_h b2) ;;
  wr a b oy x2 (blk_flip_h b1).

(* transupp.c:727-789 do_flip_h_no_crop, in place *)
Definition do_flip_h_no_crop (comp_width : Z) (a : barray) : outcome barray :=
  steps hib v (fun y a =>
    b <- access_virt_barray a y v ;;
    for_loop (Z.to_nat v) 0 (fun oy a =>
      a <- for_loop (Z.to_nat ((comp_width + 1) / 2)) 0 (fun x a =>  (* blk_x * 2 < comp_width *)
             swap_blocks a b oy x (comp_width - x - 1)) a ;;
      if 0 <? xc
      then for_loop (Z.to_nat wib) 0 (fun x a => jcopy_block_row a b oy (x + xc) b oy x 1 a) a
      else Ret a) a) a.

(* transupp.c:854-930 do_flip_v *)
Definition do_flip_v (comp_height : Z) (src dst : barray) : outcome barray :=
  steps hib v (fun y dst =>
    bd <- access_virt_barray dst y v ;;
    bs <- (if yc + y <? comp_height
           then access_virt_barray src (comp_height - yc - y - v) v
           else access_virt_barray src (y + yc) v) ;;
    for_loop (Z.to_nat v) 0 (fun oy dst =>
      if yc + y <? comp_height then
        for_loop (Z.to_nat wib) 0 (fun x dst =>
          b <- rd src bs (v - oy - 1) (xc + x) ;; wr dst bd oy x (blk_flip_v b)) dst
      else jcopy_block_row src bs oy xc bd oy 0 wib dst) dst) dst.

(* transupp.c:933-979 do_transpose *)
Definition do_transpose (src dst : barray) : outcome barray :=
  steps hib v (fun y dst =>
    bd <- access_virt_barray dst y v ;;
    for_loop (Z.to_nat v) 0 (fun oy dst =>
      steps wib h (fun x dst =>
        bs <- access_virt_barray src (x + xc) h ;;
        for_loop (Z.to_nat h) 0 (fun ox dst =>
          b <- rd src bs ox (y + oy + yc) ;;
          r <- blk_transpose b junk ;;
          wr dst bd oy (x + ox) r) dst) dst) dst) dst.

(* transupp.c:982-1060 do_rot_90 *)
Definition do_rot_90 (comp_width : Z) (src dst : barray) : outcome barray :=
  steps hib v (fun y dst =>
    bd <- access_virt_barray dst y v ;;
    for_loop (Z.to_nat v) 0 (fun oy dst =>
      steps wib h (fun x dst =>
        bs <- (if xc + x <? comp_width
               then access_virt_barray src (comp_width - xc - x - h) h
               else access_virt_barray src (x + xc) h) ;;
        for_loop (Z.to_nat h) 0 (fun ox dst =>
          r <- (if xc + x <? comp_width
                then b <- rd src bs (h - ox - 1) (y + oy + yc) ;; blk_rot_90 b junk
                else b <- rd src bs ox (y + oy + yc) ;; blk_transpose b junk) ;;
          wr dst bd oy (x + ox) r) dst) dst) dst) dst.

(* transupp.c:1063-1131 do_rot_270 *)
Definition do_rot_270 (comp_height : Z) (src dst : barray) : outcome barray :=
  steps hib v (fun y dst =>
    bd <- access_virt_barray dst y v ;;
    for_loop (Z.to_nat v) 0 (fun oy dst =>
      steps wib h (fun x dst =>
        bs <- access_virt_barray src (x + xc) h ;;
        for_loop (Z.to_nat h) 0 (fun ox dst =>
          r <- (if yc + y <? comp_height
                then b <- rd src bs ox (comp_height - yc - y - oy - 1) ;; blk_rot_270 b junk
                else b <- rd src bs ox (y + oy + yc) ;; blk_transpose b junk) ;;
          wr dst bd oy (x + ox) r) dst) dst) dst) dst.

(* transupp.c:1134-1242 do_rot_180 *)
Definition do_rot_180 (comp_width comp_height : Z) (src dst : barray) : outcome barray :=
  steps hib v (fun y dst =>
    bd <- access_virt_barray dst y v ;;
    bs <- (if yc + y <? comp_height
           then access_virt_barray src (comp_height - yc - y - v) v
           else access_virt_barray src (y + yc) v) ;;
    for_loop (Z.to_nat v) 0 (fun oy dst =>
      if yc + y <? comp_height then
        for_loop (Z.to_nat wib) 0 (fun x dst =>
          if xc + x <? comp_width
          then b <- rd src bs (v - oy - 1) (comp_width - xc - x - 1) ;; wr dst bd oy x (blk_rot_180 b)
          else b <- rd src bs (v - oy - 1) (xc + x) ;; wr dst bd oy x (blk_flip_v b)) dst
      else
        for_loop (Z.to_nat wib) 0 (fun x dst =>
          if xc + x <? comp_width
          then b <- rd src bs oy (comp_width - xc - x - 1) ;; wr dst bd oy x (blk_flip_h b)
          else jcopy_block_row src bs oy (x + xc) bd oy x 1 dst) dst) dst) dst.

(* transupp.c:1245-1357 do_transverse *)
Definition do_transverse (comp_width comp_height : Z) (src dst : barray) : outcome barray :=
  steps hib v (fun y dst =>
    bd <- access_virt_barray dst y v ;;
    for_loop (Z.to_nat v) 0 (fun oy dst =>
      steps wib h (fun x dst =>
        bs <- (if xc + x <? comp_width
               then access_virt_barray src (comp_width - xc - x - h) h
               else access_virt_barray src (x + xc) h) ;;
        for_loop (Z.to_nat h) 0 (fun ox dst =>
          r <- (if yc + y <? comp_height then
                  if xc + x <? comp_width
                  then b <- rd src bs (h - ox - 1) (comp_height - yc - y - oy - 1) ;; blk_transverse b junk
                  else b <- rd src bs ox (comp_height - yc - y - oy - 1) ;; blk_rot_270 b junk
                else
                  if xc + x <? comp_width
                  then b <- rd src bs (h - ox - 1) (y + oy + yc) ;; blk_rot_90 b junk
                  else b <- rd src bs ox (y + oy + yc) ;; blk_transpose b junk) ;;
          wr dst bd oy (x + ox) r) dst) dst) dst) dst.
End Comp.

(* for (ci = 0; ci < dstinfo->num_components; ci++): component ci of the destination,
   source array ci, destination array ci *)
Fixpoint per_comp (f : comp -> barray -> barray -> outcome barray) (cs : list comp) (srcs dsts : list barray)
  : outcome (list barray) :=
  match cs with
  | [] => Ret dsts
  | c :: cs' =>
    match srcs, dsts with
    | s :: srcs', d :: dsts' =>
      d' <- f c s d ;; r <- per_comp f cs' srcs' dsts' ;; Ret (d' :: r)
    | _, _ => Undef
    end
  end.

(* ---------------- jpeg_transform_info ---------------- *)
(* transupp.h:104-115 *)
Inductive xform := NONE | FLIP_H | FLIP_V | TRANSPOSE | TRANSVERSE | ROT_90 | ROT_180 | ROT_270.
(* transupp.h:122-129 JCROP_CODE (REFLECT only matters for crop extension) *)
Inductive crop_code := UNSET | POS | NEG | FORCE.
Record crop_spec := mkCrop { cr_width : Z; cr_width_set : crop_code; cr_height : Z; cr_height_set : crop_code;
  cr_xoffset : Z; cr_xoffset_set : crop_code; cr_yoffset : Z; cr_yoffset_set : crop_code }.
(* transupp.h:137-176, the part set by the application *)
Record xinfo := mkXI { x_transform : xform; x_perfect : bool; x_trim : bool; x_gray : bool;
  x_crop : option crop_spec; x_slow_hflip : bool }.
(* ... and the part computed by jtransform_request_workspace *)
Record xwork := mkXW { w_ncomp : Z; w_out_w : Z; w_out_h : Z; w_imcu_w : Z; w_imcu_h : Z;
  w_xoff : Z; w_yoff : Z; w_arrays : option (list barray) }.

(* what the transform reads of the source decompression object *)
Record source := mkSrc { s_W : Z; s_H : Z; s_frame : frame; s_ycc : bool (* jpeg_color_space is JCS_YCbCr *);
  s_grayscale : bool (* ... is JCS_GRAYSCALE *); s_prec : Z; s_quant : list (option (list Z)) }.

(* transupp.c:2273-2310 jtransform_perfect_transform *)
Definition perfect_transform (W H mw mh : Z) (t : xform) : bool :=
  match t with
  | FLIP_H | ROT_270 => W mod mw =? 0
  | FLIP_V | ROT_90 => H mod mh =? 0
  | TRANSVERSE | ROT_180 => (W mod mw =? 0) && (H mod mh =? 0)
  | _ => true
  end.

Definition transposes (t : xform) : bool :=
  match t with TRANSPOSE | TRANSVERSE | ROT_90 | ROT_270 => true | _ => false end.

(* transupp.c:1580-1625: one axis of the crop specification; [out] is the output
   width (height).  Returns crop_width and xoffset. *)
Definition is_none (t : xform) : bool := match t with NONE => true | _ => false end.
Definition crop_axis (t : xform) (out cw : Z) (cw_set : crop_code) (xo : Z) (xo_set : crop_code) : outcome (Z * Z) :=
  let xo := match xo_set with UNSET => 0 | _ => xo end in
  cw <- (match cw_set with
         | UNSET => if out <=? xo then Error JERR_BAD_CROP_SPEC else Ret (u32 (out - xo))
         | _ =>
           if out <? cw then
             if negb (is_none t) || (cw <=? xo) || (u32 (cw - out) <? xo) then Error JERR_BAD_CROP_SPEC else Ret cw
           else if (out <=? xo) || (cw <=? 0) || (u32 (out - cw) <? xo) then Error JERR_BAD_CROP_SPEC else Ret cw
         end) ;;
  let off := match xo_set with
             | NEG => if out <? cw then u32 (u32 (cw - out) - xo) else u32 (u32 (out - cw) - xo)
             | _ => xo
             end in
  Ret (cw, off).
(* transupp.c:1691-1702: the output dimension along one axis *)
Definition crop_out (out cw : Z) (cw_set : crop_code) (off imcu : Z) : Z :=
  match cw_set with
  | FORCE => cw
  | _ => if out <? cw then cw else u32 (cw + off mod imcu)
  end.

(* transupp.c:1455-1476 trim_right_edge, trim_bottom_edge *)
Definition trim_edge (out off imcu full : Z) : Z :=
  let n := out / imcu in
  if (0 <? n) && (u32 (off + n) =? full / imcu) then u32 (n * imcu) else out.

(* jmemmgr.c:603-649 request_virt_barray, realised: nothing written yet *)
Definition request_virt_barray (cols rows maxaccess : Z) : barray := mkBA rows cols maxaccess (fun _ _ => None).

(* transupp.c:1780-1822: the workspace arrays *)
Definition workspace (ncomp : Z) (tr : bool) (out_w out_h imcu_w imcu_h : Z) (cs : list comp) : list barray :=
  let wi := u32 (jdiv_round_up out_w imcu_w) in
  let hi := u32 (jdiv_round_up out_h imcu_h) in
  map (fun c => let hs := if ncomp =? 1 then 1 else if tr then c_v c else c_h c in
                let vs := if ncomp =? 1 then 1 else if tr then c_h c else c_v c in
                request_virt_barray (wi * hs) (hi * vs) vs) (firstn (Z.to_nat ncomp) cs).

(* transupp.c:1495-1828 jtransform_request_workspace; None = FALSE *)
Definition request_workspace (s : source) (i : xinfo) : outcome (option xwork) :=
  let f := s_frame s in
  let t := x_transform i in
  let nsrc := Z.of_nat (length (f_comps f)) in
  let ncomp := if x_gray i && s_ycc s && (nsrc =? 3) then 1 else nsrc in
  let W := s_W s in let H := s_H s in
  if x_perfect i && negb (if ncomp =? 1 then perfect_transform W H DCTSIZE DCTSIZE t
                          else perfect_transform W H (f_max_h f * DCTSIZE) (f_max_v f * DCTSIZE) t)
  then Ret None
  else
  let tr := transposes t in
  let out_w := if tr then H else W in
  let out_h := if tr then W else H in
  let imcu_w := if ncomp =? 1 then DCTSIZE else if tr then f_max_v f * DCTSIZE else f_max_h f * DCTSIZE in
  let imcu_h := if ncomp =? 1 then DCTSIZE else if tr then f_max_h f * DCTSIZE else f_max_v f * DCTSIZE in
  '(ow, oh, xoff, yoff) <-
    (match x_crop i with
     | Some cr =>
       '(cw, xo) <- crop_axis t out_w (cr_width cr) (cr_width_set cr) (cr_xoffset cr) (cr_xoffset_set cr) ;;
       '(ch, yo) <- crop_axis t out_h (cr_height cr) (cr_height_set cr) (cr_yoffset cr) (cr_yoffset_set cr) ;;
       Ret (crop_out out_w cw (cr_width_set cr) xo imcu_w, crop_out out_h ch (cr_height_set cr) yo imcu_h,
            xo / imcu_w, yo / imcu_h)
     | None => Ret (out_w, out_h, 0, 0)
     end) ;;
  let ow := if x_trim i then match t with
                             | FLIP_H | ROT_180 => trim_edge ow xoff imcu_w W
                             | TRANSVERSE | ROT_90 => trim_edge ow xoff imcu_w H
                             | _ => ow end else ow in
  let oh := if x_trim i then match t with
                             | FLIP_V | ROT_180 => trim_edge oh yoff imcu_h H
                             | TRANSVERSE | ROT_270 => trim_edge oh yoff imcu_h W
                             | _ => oh end else oh in
  let need := match t with
              | NONE => negb (xoff =? 0) || negb (yoff =? 0) || (W <? ow) || (H <? oh)
              | FLIP_H => negb (yoff =? 0) || x_slow_hflip i
              | _ => true
              end in
  Ret (Some (mkXW ncomp ow oh imcu_w imcu_h xoff yoff
         (if need then Some (workspace ncomp tr ow oh imcu_w imcu_h (f_comps f)) else None))).

(* transupp.c:1859-1873: quant_tbl->quantval transposed in place *)
Definition transpose_quant (q : list Z) : outcome (list Z) :=
  for_loop 8 0 (fun i q => for_loop (Z.to_nat i) 0 (fun j q =>
    a <- aget q (i * 8 + j) ;; b <- aget q (j * 8 + i) ;;
    q <- aset q (i * 8 + j) b ;; aset q (j * 8 + i) a) q) q.
Fixpoint transpose_quants (l : list (option (list Z))) : outcome (list (option (list Z))) :=
  match l with
  | [] => Ret []
  | None :: t => r <- transpose_quants t ;; Ret (None :: r)
  | Some q :: t => q' <- transpose_quant q ;; r <- transpose_quants t ;; Ret (Some q' :: r)
  end.

(* the destination parameters: dimensions, sampling factors, quantization tables *)
Record dest := mkDst { d_W : Z; d_H : Z; d_samps : list samp; d_quant : list (option (list Z)) }.

(* transupp.c:2042-2158 jtransform_adjust_parameters; the destination starts as a copy
   of the source (jctrans.c:71-186 jpeg_copy_critical_parameters) *)
Definition adjust_parameters (s : source) (i : xinfo) (w : xwork) : outcome dest :=
  let f := s_frame s in
  let nsrc := Z.of_nat (length (f_comps f)) in
  let copied := map (fun c => mkSamp (c_h c) (c_v c)) (f_comps f) in
  samps <-
    (if x_gray i then
       match f_comps f with
       | c0 :: _ =>
         if ((s_ycc s && (nsrc =? 3)) || (s_grayscale s && (nsrc =? 1)))
            && (c_h c0 =? f_max_h f) && (c_v c0 =? f_max_v f)
         then Ret [mkSamp 1 1]
         else Error JERR_CONVERSION_NOTIMPL
       | [] => Error JERR_CONVERSION_NOTIMPL
       end
     else if w_ncomp w =? 1 then Ret (mkSamp 1 1 :: tl copied)
     else Ret copied) ;;
  if transposes (x_transform i) then
    (* dimensions set transposed, then everything is transposed (1831-1875) *)
    q <- transpose_quants (s_quant s) ;;
    Ret (mkDst (w_out_w w) (w_out_h w) (map (fun p => mkSamp (v_samp p) (h_samp p)) samps) q)
  else Ret (mkDst (w_out_w w) (w_out_h w) samps (s_quant s)).

(* transupp.c:2161-2270 jtransform_execute_transform; [df] is the destination frame
   computed by jpeg_write_coefficients *)
Definition execute_transform (s : source) (i : xinfo) (w : xwork) (df : frame) (srcs : list barray)
  : outcome (list barray) :=
  let xo := w_xoff w in let yo := w_yoff w in
  let cols n c := n / (f_max_h df * DCTSIZE) * c_h c in
  let rows n c := n / (f_max_v df * DCTSIZE) * c_v c in
  let W := s_W s in let H := s_H s in
  let run f := match w_arrays w with Some dsts => per_comp f (f_comps df) srcs dsts | None => Undef end in
  match x_transform i with
  | NONE =>
    if (W <? w_out_w w) || (H <? w_out_h w) then Undef (* crop extension: not modelled *)
    else if negb (xo =? 0) || negb (yo =? 0) then run (fun c => do_crop c xo yo) else Ret srcs
  | FLIP_H =>
    if negb (yo =? 0) || x_slow_hflip i then run (fun c => do_flip_h c xo yo (cols W c))
    else per_comp (fun c _ a => do_flip_h_no_crop c xo (cols W c) a) (f_comps df) srcs srcs
  | FLIP_V => run (fun c => do_flip_v c xo yo (rows H c))
  | TRANSPOSE => run (fun c => do_transpose c xo yo)
  | TRANSVERSE => run (fun c => do_transverse c xo yo (cols H c) (rows W c))
  | ROT_90 => run (fun c => do_rot_90 c xo yo (cols H c))
  | ROT_180 => run (fun c => do_rot_180 c xo yo (cols W c) (rows H c))
  | ROT_270 => run (fun c => do_rot_270 c xo yo (rows W c))
  end.

(* The sequence of calls an application makes (transupp.h:179-217, jpegtran.c:585-719,
   turbojpeg.c:2780-2890); None = request_workspace returned FALSE.  Gives the
   destination frame, its quantization tables and the coefficient arrays to be written. *)
Definition transcode (s : source) (i : xinfo) (srcs : list barray)
  : outcome (option (frame * list (option (list Z)) * list barray)) :=
  w <- request_workspace s i ;;
  match w with
  | None => Ret None
  | Some w =>
    d <- adjust_parameters s i w ;;
    df <- c_initial_setup (mkCP (d_W d) (d_H d) (Z.of_nat (length (f_comps (s_frame s)))) (s_prec s) false (d_samps d)) ;;
    out <- execute_transform s i w df srcs ;;
    Ret (Some (df, d_quant d, out))
  end.
