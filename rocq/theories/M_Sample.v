(* M_Sample.v -- model of jdsample.c (upsampling) and jcsample.c (downsampling).

   A sample row is a list of Z; an array of row pointers is a partial function Z -> option row (so that the
   context rows at index -1 and below / above the group are expressible); reading a row or a sample that does
   not exist is Undef.  An output row is the list of the samples stored so far, with a capacity: storing past
   the capacity is Undef.  Every value that is shifted and stored is checked to fit a 32-bit signed int
   (otherwise Undef), which is the narrowest type the expressions are evaluated in; since all partial sums are
   sums of non-negative terms they fit as well.  The SIMD variants selected on some CPUs are not modelled. *)
From Verif Require Import Base.

Notation row := (list Z).
Definition rows := Z -> option row.

Definition rget (rs : rows) (i : Z) : outcome row := match rs i with Some r => Ret r | None => Undef end.

(* conversion to _JSAMPLE: unsigned char (8), short (12), unsigned short (16) *)
Definition jsample (p v : Z) : Z := if p =? 8 then u8 v else if p =? 12 then s16 v else u16 v.

(* "*outptr++ = v" *)
Definition put (cap : Z) (out : row) (v : Z) : outcome row :=
  if Z.of_nat (length out) <? cap then Ret (out ++ [v]) else Undef.

(* "*outptr++ = (_JSAMPLE)(e >> sh)" *)
Definition emit (p cap : Z) (out : row) (e sh : Z) : outcome row :=
  if (- 2 ^ 31 <=? e) && (e <? 2 ^ 31) then put cap out (jsample p (Z.shiftr e sh)) else Undef.

(* storing a finished row in the output array of n rows *)
Definition putrow (n : Z) (outs : list row) (r : row) : outcome (list row) :=
  if Z.of_nat (length outs) <? n then Ret (outs ++ [r]) else Undef.

(* "while (cond) body" with an explicit bound on the number of rounds; running out of it is Undef *)
Fixpoint while_loop {S} (fuel : nat) (cond : S -> bool) (body : S -> outcome S) (s : S) : outcome S :=
  if cond s then
    match fuel with O => Undef | Datatypes.S f => s' <- body s ;; while_loop f cond body s' end
  else Ret s.

(* jutils.c:101-123 _jcopy_sample_rows, one row: memcpy of num_cols samples; bytes not yet written may not be read *)
Definition copy_row (num_cols : Z) (r : row) : outcome row :=
  if num_cols <=? Z.of_nat (length r) then Ret (firstn (Z.to_nat num_cols) r) else Undef.

(* ------------------------------------------------------------------ *)
(* Upsampling *)

(* parameters of the upsampler that depend on the component: jpegint.h / jpeglib.h fields of cinfo and compptr *)
Record ucfg := { u_prec : Z;            (* BITS_IN_JSAMPLE *)
  u_max_h : Z; u_max_v : Z;             (* cinfo->max_{h,v}_samp_factor *)
  u_h : Z; u_v : Z;                     (* compptr->{h,v}_samp_factor *)
  u_dct : Z; u_min_dct : Z;             (* compptr->_DCT_scaled_size, cinfo->_min_DCT_scaled_size *)
  u_ow : Z;                             (* cinfo->output_width *)
  u_dw : Z;                             (* compptr->downsampled_width *)
  u_fancy : bool;                       (* cinfo->do_fancy_upsampling *)
  u_needed : bool                       (* compptr->component_needed *) }.

(* jdsample.c:526-530: width of a row of color_buf[ci], jround_up(output_width, max_h_samp_factor) *)
Definition u_cap (c : ucfg) : Z :=
  let a := u_ow c + u_max_h c - 1 in a - a mod u_max_h c.

(* jdsample.c:170-180: one output row of int_upsample; h_expand copies of each input sample until output_width
   is reached or passed *)
Definition int_up_row (c : ucfg) (h_expand : Z) (inp : row) : outcome row :=
  '(_, out) <- while_loop (Z.to_nat (u_ow c)) (fun '(_, out) => Z.of_nat (length out) <? u_ow c)
    (fun '(pos, out) =>
       invalue <- aget inp pos ;;
       out <- for_loop (Z.to_nat h_expand) 0 (fun _ out => put (u_cap c) out invalue) out ;;
       Ret (pos + 1, out)) (0, []) ;;
  Ret out.

(* jdsample.c:153-191 int_upsample *)
Definition int_upsample (c : ucfg) (h_expand v_expand : Z) (inp : rows) : outcome (list row) :=
  '(_, outs) <- while_loop (Z.to_nat (u_max_v c)) (fun '(_, outs) => Z.of_nat (length outs) <? u_max_v c)
    (fun '(inrow, outs) =>
       r <- rget inp inrow ;;
       o <- int_up_row c h_expand r ;;
       outs <- putrow (u_max_v c) outs o ;;
       outs <- (if 1 <? v_expand then
                  d <- copy_row (u_ow c) o ;;
                  for_loop (Z.to_nat (v_expand - 1)) 0 (fun _ outs => putrow (u_max_v c) outs d) outs
                else Ret outs) ;;
       Ret (inrow + 1, outs)) (0, []) ;;
  Ret outs.

(* jdsample.c:211-219 / 243-250: one row, two copies of each sample *)
Definition h2_up_row (c : ucfg) (inp : row) : outcome row :=
  '(_, out) <- while_loop (Z.to_nat (u_ow c)) (fun '(_, out) => Z.of_nat (length out) <? u_ow c)
    (fun '(pos, out) =>
       invalue <- aget inp pos ;;
       out <- put (u_cap c) out invalue ;;
       out <- put (u_cap c) out invalue ;;
       Ret (pos + 1, out)) (0, []) ;;
  Ret out.

(* jdsample.c:199-221 h2v1_upsample *)
Definition h2v1_upsample (c : ucfg) (inp : rows) : outcome (list row) :=
  for_loop (Z.to_nat (u_max_v c)) 0 (fun inrow outs =>
    r <- rget inp inrow ;;
    o <- h2_up_row c r ;;
    putrow (u_max_v c) outs o) [].

(* jdsample.c:229-257 h2v2_upsample *)
Definition h2v2_upsample (c : ucfg) (inp : rows) : outcome (list row) :=
  '(_, outs) <- while_loop (Z.to_nat (u_max_v c)) (fun '(_, outs) => Z.of_nat (length outs) <? u_max_v c)
    (fun '(inrow, outs) =>
       r <- rget inp inrow ;;
       o <- h2_up_row c r ;;
       outs <- putrow (u_max_v c) outs o ;;
       d <- copy_row (u_ow c) o ;;
       outs <- putrow (u_max_v c) outs d ;;
       Ret (inrow + 1, outs)) (0, []) ;;
  Ret outs.

(* jdsample.c:284-303: one row of h2v1_fancy_upsample.  The loop counter is the position of inptr; the number of
   rounds downsampled_width - 2 is computed in the unsigned type JDIMENSION. *)
Definition h2v1_fancy_row (c : ucfg) (inp : row) : outcome row :=
  let p := u_prec c in let cap := u_cap c in
  invalue <- aget inp 0 ;;
  out <- emit p cap [] invalue 0 ;;
  n <- aget inp 1 ;;
  out <- emit p cap out (invalue * 3 + n + 2) 2 ;;
  out <- for_loop (Z.to_nat (u32 (u_dw c - 2))) 1 (fun pos out =>
           a <- aget inp pos ;; let invalue := a * 3 in
           l <- aget inp (pos - 1) ;;
           out <- emit p cap out (invalue + l + 1) 2 ;;
           r <- aget inp (pos + 1) ;;
           emit p cap out (invalue + r + 2) 2) out ;;
  let pos := u32 (u_dw c - 2) + 1 in
  invalue <- aget inp pos ;;
  l <- aget inp (pos - 1) ;;
  out <- emit p cap out (invalue * 3 + l + 1) 2 ;;
  emit p cap out invalue 0.

(* jdsample.c:274-305 h2v1_fancy_upsample *)
Definition h2v1_fancy_upsample (c : ucfg) (inp : rows) : outcome (list row) :=
  for_loop (Z.to_nat (u_max_v c)) 0 (fun inrow outs =>
    r <- rget inp inrow ;;
    o <- h2v1_fancy_row c r ;;
    putrow (u_max_v c) outs o) [].

(* jdsample.c:343-347: one row of h1v2_fancy_upsample *)
Definition h1v2_fancy_row (c : ucfg) (bias : Z) (in0 in1 : row) : outcome row :=
  for_loop (Z.to_nat (u_dw c)) 0 (fun pos out =>
    a <- aget in0 pos ;; b <- aget in1 pos ;;
    emit (u_prec c) (u_cap c) out (a * 3 + b + bias) 2) [].

(* jdsample.c:315-351 h1v2_fancy_upsample *)
Definition h1v2_fancy_upsample (c : ucfg) (inp : rows) : outcome (list row) :=
  '(_, outs) <- while_loop (Z.to_nat (u_max_v c)) (fun '(_, outs) => Z.of_nat (length outs) <? u_max_v c)
    (fun '(inrow, outs) =>
       outs <- for_loop 2 0 (fun v outs =>
                 in0 <- rget inp inrow ;;
                 in1 <- (if v =? 0 then rget inp (inrow - 1) else rget inp (inrow + 1)) ;;
                 let bias := if v =? 0 then 1 else 2 in
                 o <- h1v2_fancy_row c bias in0 in1 ;;
                 putrow (u_max_v c) outs o) outs ;;
       Ret (inrow + 1, outs)) (0, []) ;;
  Ret outs.

(* jdsample.c:388-411: one row of h2v2_fancy_upsample *)
Definition h2v2_fancy_row (c : ucfg) (in0 in1 : row) : outcome row :=
  let p := u_prec c in let cap := u_cap c in
  a <- aget in0 0 ;; b <- aget in1 0 ;; let thiscolsum := a * 3 + b in
  a <- aget in0 1 ;; b <- aget in1 1 ;; let nextcolsum := a * 3 + b in
  out <- emit p cap [] (thiscolsum * 4 + 8) 4 ;;
  out <- emit p cap out (thiscolsum * 3 + nextcolsum + 7) 4 ;;
  '(out, lastcolsum, thiscolsum) <- for_loop (Z.to_nat (u32 (u_dw c - 2))) 2 (fun pos '(out, lastcolsum, thiscolsum) =>
      a <- aget in0 pos ;; b <- aget in1 pos ;; let nextcolsum := a * 3 + b in
      out <- emit p cap out (thiscolsum * 3 + lastcolsum + 8) 4 ;;
      out <- emit p cap out (thiscolsum * 3 + nextcolsum + 7) 4 ;;
      Ret (out, thiscolsum, nextcolsum)) (out, thiscolsum, nextcolsum) ;;
  out <- emit p cap out (thiscolsum * 3 + lastcolsum + 8) 4 ;;
  emit p cap out (thiscolsum * 4 + 7) 4.

(* jdsample.c:362-415 h2v2_fancy_upsample *)
Definition h2v2_fancy_upsample (c : ucfg) (inp : rows) : outcome (list row) :=
  '(_, outs) <- while_loop (Z.to_nat (u_max_v c)) (fun '(_, outs) => Z.of_nat (length outs) <? u_max_v c)
    (fun '(inrow, outs) =>
       outs <- for_loop 2 0 (fun v outs =>
                 in0 <- rget inp inrow ;;
                 in1 <- (if v =? 0 then rget inp (inrow - 1) else rget inp (inrow + 1)) ;;
                 o <- h2v2_fancy_row c in0 in1 ;;
                 putrow (u_max_v c) outs o) outs ;;
       Ret (inrow + 1, outs)) (0, []) ;;
  Ret outs.

Inductive umethod := UNoop | UFull | UH2V1F | UH2V1 | UH1V2F | UH2V2F | UH2V2 | UInt (h v : Z).

(* jdsample.c:440-523, the per-component selection in _jinit_upsampler (SIMD absent) *)
Definition u_select (c : ucfg) : outcome umethod :=
  let do_fancy := u_fancy c && (1 <? u_min_dct c) in
  if u_min_dct c =? 0 then Undef else
  let h_in := (u_h c * u_dct c) / u_min_dct c in
  let v_in := (u_v c * u_dct c) / u_min_dct c in
  let h_out := u_max_h c in
  let v_out := u_max_v c in
  if negb (u_needed c) then Ret UNoop
  else if (h_in =? h_out) && (v_in =? v_out) then Ret UFull
  else if (h_in * 2 =? h_out) && (v_in =? v_out) then
    Ret (if do_fancy && (2 <? u_dw c) then UH2V1F else UH2V1)
  else if (h_in =? h_out) && (v_in * 2 =? v_out) && do_fancy then Ret UH1V2F
  else if (h_in * 2 =? h_out) && (v_in * 2 =? v_out) then
    Ret (if do_fancy && (2 <? u_dw c) then UH2V2F else UH2V2)
  else if (h_in =? 0) || (v_in =? 0) then Undef
  else if (h_out mod h_in =? 0) && (v_out mod v_in =? 0) then
    Ret (UInt (u8 (h_out / h_in)) (u8 (v_out / v_in)))
  else Error JERR_OTHER (* JERR_FRACT_SAMPLE_NOTIMPL *).

(* jdsample.c:497, 508: does the component make the main controller supply context rows? *)
Definition u_context (m : umethod) : bool := match m with UH1V2F | UH2V2F => true | _ => false end.

(* jdsample.c:74-79: sep_upsample's call of the method on one row group; fullsize_upsample (127-133) returns the
   input rows themselves, noop_upsample (140-145) NULL *)
Definition u_run (c : ucfg) (m : umethod) (inp : rows) : outcome rows :=
  match m with
  | UNoop => Ret (fun _ => None)
  | UFull => Ret inp
  | _ =>
    outs <- match m with
            | UH2V1F => h2v1_fancy_upsample c inp
            | UH2V1 => h2v1_upsample c inp
            | UH1V2F => h1v2_fancy_upsample c inp
            | UH2V2F => h2v2_fancy_upsample c inp
            | UH2V2 => h2v2_upsample c inp
            | UInt h v => int_upsample c h v inp
            | _ => Undef
            end ;;
    Ret (fun i => if i <? 0 then None else nth_error outs (Z.to_nat i))
  end.

(* ------------------------------------------------------------------ *)
(* Downsampling *)

Record dcfg := { d_prec : Z; d_max_h : Z; d_max_v : Z; d_h : Z; d_v : Z;
  d_iw : Z;                             (* cinfo->image_width *)
  d_ocols : Z;                          (* compptr->width_in_blocks * data_unit *)
  d_sf : Z                              (* cinfo->smoothing_factor *) }.

(* jcsample.c:98-118 expand_right_edge on one row; the row (buffer) must be output_cols wide and hold at least one
   sample, because ptr[-1] is read *)
Definition expand_row (input_cols output_cols : Z) (r : row) : outcome row :=
  let numcols := output_cols - input_cols in
  if 0 <? numcols then
    pixval <- aget r (input_cols - 1) ;;
    if output_cols <=? Z.of_nat (length r) then
      Ret (firstn (Z.to_nat input_cols) r ++ repeat pixval (Z.to_nat numcols) ++ skipn (Z.to_nat output_cols) r)
    else Undef
  else Ret r.

(* jcsample.c:98-118 expand_right_edge on rows lo .. lo + n - 1.  Row pointers that alias (the context buffer of
   jcprepct.c) are treated as separate rows: expanding a row twice changes nothing. *)
Definition expand_right_edge (rs : rows) (lo : Z) (n : Z) (input_cols output_cols : Z) : outcome rows :=
  for_loop (Z.to_nat n) lo (fun i rs =>
    r <- rget rs i ;;
    r' <- expand_row input_cols output_cols r ;;
    Ret (fun j => if j =? i then Some r' else rs j)) rs.

(* jcsample.c:155-195 int_downsample *)
Definition int_downsample (c : dcfg) (inp : rows) : outcome (list row) :=
  if (d_h c =? 0) || (d_v c =? 0) then Undef else
  let h_expand := d_max_h c / d_h c in
  let v_expand := d_max_v c / d_v c in
  let numpix := h_expand * v_expand in
  let numpix2 := numpix / 2 in
  if numpix =? 0 then Undef else
  inp <- expand_right_edge inp 0 (d_max_v c) (d_iw c) (d_ocols c * h_expand) ;;
  for_loop (Z.to_nat (d_v c)) 0 (fun outrow outs =>
    let inrow := outrow * v_expand in
    o <- for_loop (Z.to_nat (d_ocols c)) 0 (fun outcol out =>
           let outcol_h := outcol * h_expand in
           outvalue <- for_loop (Z.to_nat v_expand) 0 (fun v acc =>
                         r <- rget inp (inrow + v) ;;
                         for_loop (Z.to_nat h_expand) 0 (fun h acc =>
                           s <- aget r (outcol_h + h) ;; Ret (acc + s)) acc) 0 ;;
           put (d_ocols c) out (jsample (d_prec c) ((outvalue + numpix2) / numpix))) [] ;;
    putrow (d_v c) outs o) [].

(* jcsample.c:204-217 fullsize_downsample: copy image_width samples of each row, then expand in the output *)
Definition fullsize_downsample (c : dcfg) (inp : rows) : outcome (list row) :=
  for_loop (Z.to_nat (d_max_v c)) 0 (fun i outs =>
    r <- rget inp i ;;
    o <- copy_row (d_iw c) r ;;
    if d_iw c <=? d_ocols c then
      (* the output row is a buffer of output_cols samples of which the first image_width were just written *)
      o <- expand_row (d_iw c) (d_ocols c) (o ++ repeat 0 (Z.to_nat (d_ocols c - d_iw c))) ;;
      putrow (d_v c) outs o
    else Undef) [].

(* jcsample.c:233-264 h2v1_downsample *)
Definition h2v1_downsample (c : dcfg) (inp : rows) : outcome (list row) :=
  inp <- expand_right_edge inp 0 (d_max_v c) (d_iw c) (d_ocols c * 2) ;;
  for_loop (Z.to_nat (d_v c)) 0 (fun outrow outs =>
    r <- rget inp outrow ;;
    '(o, _) <- for_loop (Z.to_nat (d_ocols c)) 0 (fun outcol '(out, bias) =>
           a <- aget r (2 * outcol) ;; b <- aget r (2 * outcol + 1) ;;
           out <- emit (d_prec c) (d_ocols c) out (a + b + bias) 1 ;;
           Ret (out, Z.lxor bias 1)) ([], 0) ;;
    putrow (d_v c) outs o) [].

(* jcsample.c:273-308 h2v2_downsample *)
Definition h2v2_downsample (c : dcfg) (inp : rows) : outcome (list row) :=
  inp <- expand_right_edge inp 0 (d_max_v c) (d_iw c) (d_ocols c * 2) ;;
  for_loop (Z.to_nat (d_v c)) 0 (fun outrow outs =>
    let inrow := outrow * 2 in
    r0 <- rget inp inrow ;; r1 <- rget inp (inrow + 1) ;;
    '(o, _) <- for_loop (Z.to_nat (d_ocols c)) 0 (fun outcol '(out, bias) =>
           a0 <- aget r0 (2 * outcol) ;; b0 <- aget r0 (2 * outcol + 1) ;;
           a1 <- aget r1 (2 * outcol) ;; b1 <- aget r1 (2 * outcol + 1) ;;
           out <- emit (d_prec c) (d_ocols c) out (a0 + b0 + a1 + b1 + bias) 2 ;;
           Ret (out, Z.lxor bias 3)) ([], 1) ;;
    putrow (d_v c) outs o) [].

(* jcsample.c:359-368, 372-388, 391-398: one output sample of h2v2_smooth_downsample; pos is the position of the
   four pointers, lft / rgt the offsets of the left and right neighbour columns (0 / 1 at the edges) *)
Definition h2v2_smooth_px (c : dcfg) (in0 in1 above below : row) (pos lft rgt : Z) (out : row) : outcome row :=
  let memberscale := 16384 - d_sf c * 80 in
  let neighscale := d_sf c * 16 in
  a0 <- aget in0 pos ;; a1 <- aget in0 (pos + 1) ;; b0 <- aget in1 pos ;; b1 <- aget in1 (pos + 1) ;;
  let membersum := a0 + a1 + b0 + b1 in
  u0 <- aget above pos ;; u1 <- aget above (pos + 1) ;; d0 <- aget below pos ;; d1 <- aget below (pos + 1) ;;
  l0 <- aget in0 (pos + lft) ;; r0 <- aget in0 (pos + rgt) ;;
  l1 <- aget in1 (pos + lft) ;; r1 <- aget in1 (pos + rgt) ;;
  let neighsum := u0 + u1 + d0 + d1 + l0 + r0 + l1 + r1 in
  let neighsum := neighsum + neighsum in
  ul <- aget above (pos + lft) ;; ur <- aget above (pos + rgt) ;;
  dl <- aget below (pos + lft) ;; dr <- aget below (pos + rgt) ;;
  let neighsum := neighsum + (ul + ur + dl + dr) in
  let membersum := membersum * memberscale + neighsum * neighscale in
  emit (d_prec c) (d_ocols c) out (membersum + 32768) 16.

(* jcsample.c:320-402 h2v2_smooth_downsample *)
Definition h2v2_smooth_downsample (c : dcfg) (inp : rows) : outcome (list row) :=
  inp <- expand_right_edge inp (-1) (d_max_v c + 2) (d_iw c) (d_ocols c * 2) ;;
  for_loop (Z.to_nat (d_v c)) 0 (fun outrow outs =>
    let inrow := outrow * 2 in
    in0 <- rget inp inrow ;; in1 <- rget inp (inrow + 1) ;;
    above <- rget inp (inrow - 1) ;; below <- rget inp (inrow + 2) ;;
    o <- h2v2_smooth_px c in0 in1 above below 0 0 2 [] ;;
    o <- for_loop (Z.to_nat (u32 (d_ocols c - 2))) 1 (fun k o =>
           h2v2_smooth_px c in0 in1 above below (2 * k) (-1) 2 o) o ;;
    o <- h2v2_smooth_px c in0 in1 above below (2 * (u32 (d_ocols c - 2) + 1)) (-1) 1 o ;;
    putrow (d_v c) outs o) [].

(* jcsample.c:411-470 fullsize_smooth_downsample *)
Definition fullsize_smooth_downsample (c : dcfg) (inp : rows) : outcome (list row) :=
  inp <- expand_right_edge inp (-1) (d_max_v c + 2) (d_iw c) (d_ocols c) ;;
  let memberscale := 65536 - d_sf c * 512 in
  let neighscale := d_sf c * 64 in
  let final membersum neighsum out :=
    emit (d_prec c) (d_ocols c) out (membersum * memberscale + neighsum * neighscale + 32768) 16 in
  for_loop (Z.to_nat (d_v c)) 0 (fun outrow outs =>
    r <- rget inp outrow ;; above <- rget inp (outrow - 1) ;; below <- rget inp (outrow + 1) ;;
    u <- aget above 0 ;; d <- aget below 0 ;; m <- aget r 0 ;;
    let colsum := u + d + m in
    let membersum := m in
    u <- aget above 1 ;; d <- aget below 1 ;; m <- aget r 1 ;;
    let nextcolsum := u + d + m in
    o <- final membersum (colsum + (colsum - membersum) + nextcolsum) [] ;;
    '(o, lastcolsum, colsum) <- for_loop (Z.to_nat (u32 (d_ocols c - 2))) 1 (fun k '(o, lastcolsum, colsum) =>
        membersum <- aget r k ;;
        u <- aget above (k + 1) ;; d <- aget below (k + 1) ;; m <- aget r (k + 1) ;;
        let nextcolsum := u + d + m in
        o <- final membersum (lastcolsum + (colsum - membersum) + nextcolsum) o ;;
        Ret (o, colsum, nextcolsum)) (o, colsum, nextcolsum) ;;
    membersum <- aget r (u32 (d_ocols c - 2) + 1) ;;
    o <- final membersum (lastcolsum + (colsum - membersum) + colsum) o ;;
    putrow (d_v c) outs o) [].

Inductive dmethod := DFull | DFullSmooth | DH2V1 | DH2V2 | DH2V2Smooth | DInt.

(* jcsample.c:484-541, the per-component selection in _jinit_downsampler (SIMD absent) *)
Definition d_select (c : dcfg) : outcome dmethod :=
  if (d_h c =? d_max_h c) && (d_v c =? d_max_v c) then
    Ret (if d_sf c =? 0 then DFull else DFullSmooth)
  else if (d_h c * 2 =? d_max_h c) && (d_v c =? d_max_v c) then Ret DH2V1
  else if (d_h c * 2 =? d_max_h c) && (d_v c * 2 =? d_max_v c) then
    Ret (if d_sf c =? 0 then DH2V2 else DH2V2Smooth)
  else if (d_h c =? 0) || (d_v c =? 0) then Undef
  else if (d_max_h c mod d_h c =? 0) && (d_max_v c mod d_v c =? 0) then Ret DInt
  else Error JERR_OTHER (* JERR_FRACT_SAMPLE_NOTIMPL *).

(* jcsample.c:495, 518 *)
Definition d_context (m : dmethod) : bool := match m with DFullSmooth | DH2V2Smooth => true | _ => false end.

(* jcsample.c:127-145: sep_downsample's call of the method for one row group *)
Definition d_run (c : dcfg) (m : dmethod) (inp : rows) : outcome (list row) :=
  match m with
  | DFull => fullsize_downsample c inp
  | DFullSmooth => fullsize_smooth_downsample c inp
  | DH2V1 => h2v1_downsample c inp
  | DH2V2 => h2v2_downsample c inp
  | DH2V2Smooth => h2v2_smooth_downsample c inp
  | DInt => int_downsample c inp
  end.
