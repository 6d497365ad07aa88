(* S_Xform.v -- what the lossless transforms mean, independently of transupp.c. *)
From Verif Require Import Base M_Geom M_Xform.

(* A component as the decoder sees it: coefficient (r,c) (r = vertical, c = horizontal
   frequency) of the block in block row y, block column x. *)
Definition plane : Type := Z -> Z -> Z -> Z -> Z.

(* the array shows plane P on the blocks that belong to the component *)
Definition carries (c : comp) (a : barray) (P : plane) : Prop :=
  forall y x, 0 <= y < c_height_in_blocks c -> 0 <= x < c_width_in_blocks c ->
  exists b, ba_blk a y x = Some b /\ length b = 64%nat /\
    forall r q, 0 <= r < 8 -> 0 <= q < 8 -> nth (Z.to_nat (8 * r + q)) b 0 = P y x r q.

(* which symmetry a transform is: transposition first, then mirroring left-right,
   then mirroring top-bottom *)
Definition sym (t : xform) : bool * bool * bool :=
  match t with
  | NONE => (false, false, false)
  | FLIP_H => (false, true, false)
  | FLIP_V => (false, false, true)
  | ROT_180 => (false, true, true)
  | TRANSPOSE => (true, false, false)
  | ROT_90 => (true, true, false)
  | ROT_270 => (true, false, true)
  | TRANSVERSE => (true, true, true)
  end.

(* mirror the first n positions, leave the others where they are *)
Definition mirror (on : bool) (n k : Z) : Z := if on && (k <? n) then n - 1 - k else k.
(* mirroring a cosine of odd frequency changes its sign *)
Definition msign (on : bool) (n k freq v : Z) : Z := if on && (k <? n) && Z.odd freq then - v else v.

(* The transformed plane; nx, ny = how many block columns and rows of the result belong
   to whole iMCUs (the others are not mirrored). *)
Definition sym_plane (t : xform) (nx ny : Z) (P : plane) : plane :=
  let '(tr, fx, fy) := sym t in
  fun y x r q =>
    let sy := mirror fy ny y in
    let sx := mirror fx nx x in
    msign fx nx x q (msign fy ny y r (if tr then P sx sy q r else P sy sx r q)).

Definition crop_plane (dx dy : Z) (P : plane) : plane := fun y x r q => P (y + dy) (x + dx) r q.

(* A source image: dimensions, components, coefficient arrays, as jpeg_read_header and
   jpeg_read_coefficients leave them (jdcoefct.c:842-868: arrays padded to iMCUs). *)
Definition source_ok (s : source) (samps : list samp) (srcs : list barray) : Prop :=
  d_initial_setup (mkSof (s_W s) (s_H s) (s_prec s) false samps) = Ret (s_frame s) /\
  Forall2 (fun c a =>
    ba_rows a = jround_up (c_height_in_blocks c) (c_v c) /\
    ba_cols a = jround_up (c_width_in_blocks c) (c_h c) /\
    c_v c <= ba_maxaccess a /\
    forall y x, 0 <= y < ba_rows a -> 0 <= x < ba_cols a -> exists b, ba_blk a y x = Some b /\ length b = 64%nat)
    (f_comps (s_frame s)) srcs.
(* no coefficient is -32768, whose negation is not a JCOEF (valid coefficients are far smaller) *)
Definition coefs_ok (srcs : list barray) : Prop :=
  Forall (fun a => forall y x b, ba_blk a y x = Some b -> Forall (fun v => -32768 < v < 32768) b) srcs.
Definition quants_ok (s : source) : Prop :=
  Forall (fun q => match q with Some q => length q = 64%nat | None => True end) (s_quant s).

(* ---------------- the requested region ---------------- *)
(* One axis of a crop specification WxH+X+Y on an image of size [out]: where the region
   starts and how long it is; None if it is not inside the image. *)
Definition region (out len : Z) (len_set : crop_code) (off : Z) (off_set : crop_code) : option (Z * Z) :=
  let off := match off_set with UNSET => 0 | _ => off end in
  let len := match len_set with UNSET => out - off | _ => len end in
  let start := match off_set with NEG => out - len - off | _ => off end in
  if (0 <? len) && (0 <=? start) && (start + len <=? out) then Some (start, len) else None.
(* Its effective position: the iMCU it starts in, and the size of the output, which
   begins at that iMCU boundary and ends where the region ends (FORCE: has the
   requested size). *)
Definition placed (out imcu : Z) (crop : option (Z * crop_code * Z * crop_code)) : option (Z * Z) :=
  match crop with
  | None => Some (0, out)
  | Some (len, len_set, off, off_set) =>
    match region out len len_set off off_set with
    | None => None
    | Some (start, ln) => Some (start / imcu, match len_set with FORCE => ln | _ => ln + start mod imcu end)
    end
  end.
Definition x_axis (i : xinfo) :=
  match x_crop i with Some c => Some (cr_width c, cr_width_set c, cr_xoffset c, cr_xoffset_set c) | None => None end.
Definition y_axis (i : xinfo) :=
  match x_crop i with Some c => Some (cr_height c, cr_height_set c, cr_yoffset c, cr_yoffset_set c) | None => None end.

(* orientation of the result *)
Definition is_tr (t : xform) : bool := fst (fst (sym t)).
Definition mirrors_x (t : xform) : bool := snd (fst (sym t)).
Definition mirrors_y (t : xform) : bool := snd (sym t).
Definition full_w (s : source) (t : xform) : Z := if is_tr t then s_H s else s_W s.
Definition full_h (s : source) (t : xform) : Z := if is_tr t then s_W s else s_H s.
(* one component is left: then it is written with sampling factors 1x1 *)
Definition single (s : source) (i : xinfo) : bool :=
  (length (f_comps (s_frame s)) =? 1)%nat || (x_gray i && s_ycc s && (length (f_comps (s_frame s)) =? 3)%nat).
Definition imcu_w (s : source) (i : xinfo) : Z :=
  if single s i then 8 else 8 * (if is_tr (x_transform i) then f_max_v (s_frame s) else f_max_h (s_frame s)).
Definition imcu_h (s : source) (i : xinfo) : Z :=
  if single s i then 8 else 8 * (if is_tr (x_transform i) then f_max_h (s_frame s) else f_max_v (s_frame s)).
(* trimming drops a partial iMCU at an edge that is mirrored *)
Definition trimmed (on : bool) (size off imcu full : Z) : Z :=
  if on && (0 <? size / imcu) && (off + size / imcu =? full / imcu) then size / imcu * imcu else size.

(* crop numbers are JDIMENSIONs and the region is not larger than the image *)
Definition crop_ok (s : source) (i : xinfo) : Prop :=
  match x_crop i with
  | None => True
  | Some c =>
    0 <= cr_width c < 2 ^ 32 /\ 0 <= cr_height c < 2 ^ 32 /\
    0 <= cr_xoffset c < 2 ^ 32 /\ 0 <= cr_yoffset c < 2 ^ 32 /\
    (cr_width_set c <> UNSET -> cr_width c <= full_w s (x_transform i)) /\
    (cr_height_set c <> UNSET -> cr_height c <= full_h s (x_transform i))
  end.
(* grayscale reduction is only possible for YCbCr or grayscale with a full-size Y *)
Definition gray_ok (s : source) (i : xinfo) : Prop :=
  x_gray i = true ->
  ((s_ycc s = true /\ length (f_comps (s_frame s)) = 3%nat) \/ (s_grayscale s = true /\ length (f_comps (s_frame s)) = 1%nat)) /\
  exists c rest, f_comps (s_frame s) = c :: rest /\ c_h c = f_max_h (s_frame s) /\ c_v c = f_max_v (s_frame s).
(* the transform asks for mirrored axes that are whole iMCUs *)
Definition aligned (s : source) (i : xinfo) : Prop :=
  (mirrors_x (x_transform i) = true -> full_w s (x_transform i) mod imcu_w s i = 0) /\
  (mirrors_y (x_transform i) = true -> full_h s (x_transform i) mod imcu_h s i = 0).

(* the arrays show these planes, component by component *)
Definition shows_planes (cs : list comp) (arrs : list barray) (Ps : list plane) : Prop :=
  forall ci c P, nth_error cs ci = Some c -> nth_error Ps ci = Some P ->
  exists a, nth_error arrs ci = Some a /\ carries c a P.

(* ---------------- the group of symmetries ---------------- *)
(* Applying t1 and then t2 is one of the eight transforms again. *)
Definition compose (t1 t2 : xform) : xform :=
  match t1, t2 with
  | NONE, t => t | t, NONE => t
  | FLIP_H, FLIP_H => NONE | FLIP_H, FLIP_V => ROT_180 | FLIP_H, ROT_180 => FLIP_V
  | FLIP_V, FLIP_H => ROT_180 | FLIP_V, FLIP_V => NONE | FLIP_V, ROT_180 => FLIP_H
  | ROT_180, FLIP_H => FLIP_V | ROT_180, FLIP_V => FLIP_H | ROT_180, ROT_180 => NONE
  | FLIP_H, TRANSPOSE => ROT_270 | FLIP_H, ROT_90 => TRANSVERSE | FLIP_H, ROT_270 => TRANSPOSE | FLIP_H, TRANSVERSE => ROT_90
  | FLIP_V, TRANSPOSE => ROT_90 | FLIP_V, ROT_90 => TRANSPOSE | FLIP_V, ROT_270 => TRANSVERSE | FLIP_V, TRANSVERSE => ROT_270
  | ROT_180, TRANSPOSE => TRANSVERSE | ROT_180, ROT_90 => ROT_270 | ROT_180, ROT_270 => ROT_90 | ROT_180, TRANSVERSE => TRANSPOSE
  | TRANSPOSE, FLIP_H => ROT_90 | TRANSPOSE, FLIP_V => ROT_270 | TRANSPOSE, ROT_180 => TRANSVERSE
  | TRANSPOSE, TRANSPOSE => NONE | TRANSPOSE, ROT_90 => FLIP_H | TRANSPOSE, ROT_270 => FLIP_V | TRANSPOSE, TRANSVERSE => ROT_180
  | ROT_90, FLIP_H => TRANSPOSE | ROT_90, FLIP_V => TRANSVERSE | ROT_90, ROT_180 => ROT_270
  | ROT_90, TRANSPOSE => FLIP_V | ROT_90, ROT_90 => ROT_180 | ROT_90, ROT_270 => NONE | ROT_90, TRANSVERSE => FLIP_H
  | ROT_270, FLIP_H => TRANSVERSE | ROT_270, FLIP_V => TRANSPOSE | ROT_270, ROT_180 => ROT_90
  | ROT_270, TRANSPOSE => FLIP_H | ROT_270, ROT_90 => NONE | ROT_270, ROT_270 => ROT_180 | ROT_270, TRANSVERSE => FLIP_V
  | TRANSVERSE, FLIP_H => ROT_270 | TRANSVERSE, FLIP_V => ROT_90 | TRANSVERSE, ROT_180 => TRANSPOSE
  | TRANSVERSE, TRANSPOSE => ROT_180 | TRANSVERSE, ROT_90 => FLIP_V | TRANSVERSE, ROT_270 => FLIP_H | TRANSVERSE, TRANSVERSE => NONE
  end.
Definition inverse (t : xform) : xform := match t with ROT_90 => ROT_270 | ROT_270 => ROT_90 | t => t end.

(* Where the sample in row Y, column X of the result (w columns, h rows) comes from. *)
Definition src_pos (t : xform) (w h Y X : Z) : Z * Z :=
  match t with
  | NONE => (Y, X)
  | FLIP_H => (Y, w - 1 - X)
  | FLIP_V => (h - 1 - Y, X)
  | ROT_180 => (h - 1 - Y, w - 1 - X)
  | TRANSPOSE => (X, Y)
  | ROT_90 => (w - 1 - X, Y)          (* clockwise: the left column becomes the top row *)
  | ROT_270 => (X, h - 1 - Y)
  | TRANSVERSE => (w - 1 - X, h - 1 - Y)
  end.

(* the sampling factors of the result *)
Definition out_samp (one : bool) (t : xform) (c : comp) : Z * Z :=
  if one then (1, 1) else if is_tr t then (c_v c, c_h c) else (c_h c, c_v c).

(* the coefficients an array holds *)
Definition plane_of (a : barray) : plane := fun y x r q =>
  match ba_blk a y x with Some b => nth (Z.to_nat (8 * r + q)) b 0 | None => 0 end.
(* entry for vertical frequency r and horizontal frequency c *)
Definition table_at (q : list Z) (r c : Z) : Z := nth (Z.to_nat (8 * r + c)) q 0.

(* both dimensions are whole iMCUs *)
Definition whole (s : source) (one : bool) : Prop :=
  s_W s mod (8 * (if one then 1 else f_max_h (s_frame s))) = 0 /\
  s_H s mod (8 * (if one then 1 else f_max_v (s_frame s))) = 0.
(* the result of a transform, read back by a decompressor *)
Definition reread (s : source) (df : frame) (q : list (option (list Z))) : source :=
  mkSrc (f_width df) (f_height df) df (s_ycc s) (s_grayscale s) (s_prec s) q.
(* the blocks that belong to the components are the same *)
Definition same_blocks (cs : list comp) (l l' : list barray) : Prop :=
  forall ci c, nth_error cs ci = Some c -> exists a a', nth_error l ci = Some a /\ nth_error l' ci = Some a' /\
  forall y x, 0 <= y < c_height_in_blocks c -> 0 <= x < c_width_in_blocks c ->
    ba_blk a y x <> None /\ ba_blk a y x = ba_blk a' y x.
