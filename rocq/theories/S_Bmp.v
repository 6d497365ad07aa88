(* S_Bmp.v -- the BMP file format: fields at byte offsets, numbers with the less
   significant byte first, palette entries and pixels in the order blue, green, red. *)
From Verif Require Import Base M_Pnm S_Pnm M_Bmp.

Definition byte (f : list Z) (o : Z) : Z := nth (Z.to_nat o) f 0.
Definition le2 (f : list Z) (o : Z) : Z := byte f o + 256 * byte f (o + 1).
Definition le4 (f : list Z) (o : Z) : Z := le2 f o + 65536 * le2 f (o + 2).

(* where the fields are: hs = 12 is the OS/2 1.x header, 40 Windows, 64 OS/2 2.x *)
Definition f_offset (f : list Z) : Z := le4 f 10.
Definition f_hsize (f : list Z) : Z := le4 f 14.
Definition f_old (f : list Z) : bool := f_hsize f =? 12.
Definition f_width (f : list Z) : Z := if f_old f then le2 f 18 else le4 f 18.
Definition f_height (f : list Z) : Z := if f_old f then le2 f 20 else le4 f 22.
Definition f_planes (f : list Z) : Z := if f_old f then le2 f 22 else le2 f 26.
Definition f_bpp (f : list Z) : Z := if f_old f then le2 f 24 else le2 f 28.
Definition f_compression (f : list Z) : Z := if f_old f then 0 else le4 f 30.
Definition f_xppm (f : list Z) : Z := le4 f 38.
Definition f_yppm (f : list Z) : Z := le4 f 42.
(* palette: none, or 256 entries unless the header gives another number *)
Definition f_esize (f : list Z) : Z := if f_bpp f =? 8 then (if f_old f then 3 else 4) else 0.
Definition f_colors (f : list Z) : Z :=
  if f_old f then 256 else if le4 f 46 =? 0 then 256 else le4 f 46.
Definition f_pal (f : list Z) (t : Z) : Z * Z * Z :=
  let o := 14 + f_hsize f + t * f_esize f in (byte f (o + 2), byte f (o + 1), byte f o).
Definition gray_palette (f : list Z) : Prop :=
  forall t, 0 <= t < f_colors f -> let '(r, g, b) := f_pal f t in r = g /\ g = b.
(* rows are padded to a multiple of four bytes *)
Definition f_rowbytes (f : list Z) : Z := (f_width f * (f_bpp f / 8) + 3) / 4 * 4.
(* pixel i of the y-th row in the file: red, green, blue and alpha *)
Definition f_pixel (f : list Z) (y i : Z) : Z * Z * Z * Z :=
  let o := f_offset f + y * f_rowbytes f in
  if f_bpp f =? 8 then (f_pal f (byte f (o + i)), 255)
  else if f_bpp f =? 24 then (byte f (o + 3 * i + 2), byte f (o + 3 * i + 1), byte f (o + 3 * i), 255)
  else (byte f (o + 4 * i + 2), byte f (o + 4 * i + 1), byte f (o + 4 * i), byte f (o + 4 * i + 3)).

(* an uncompressed file of 8, 24 or 32 bits per pixel, complete *)
Definition bmp_file (f : list Z) : Prop :=
  bytes f /\ byte f 0 = 66 /\ byte f 1 = 77 /\
  (f_hsize f = 12 \/ f_hsize f = 40 \/ f_hsize f = 64) /\
  (f_bpp f = 8 \/ f_bpp f = 24 \/ (f_bpp f = 32)) /\
  f_planes f = 1 /\ f_compression f = 0 /\
  1 <= f_width f <= 250000000 /\ 1 <= f_height f < 2 ^ 31 /\
  (f_bpp f = 8 -> f_colors f <= 256) /\
  14 + f_hsize f + (if f_bpp f =? 8 then f_colors f * f_esize f else 0) <= f_offset f < 2 ^ 31 /\
  f_offset f + f_height f * f_rowbytes f <= Z.of_nat (length f) /\
  (f_bpp f = 8 -> forall y i, 0 <= y < f_height f -> 0 <= i < f_width f ->
     byte f (f_offset f + y * f_rowbytes f + i) < f_colors f).

(* the colour space the reader settles on for the one asked for, None if it has none *)
Inductive settles (f : list Z) (cs : Z) : option Z -> Prop :=
| st_gray : f_bpp f = 8 -> gray_palette f -> cs = JCS_UNKNOWN \/ cs = JCS_RGB \/ cs = JCS_GRAYSCALE ->
    settles f cs (Some JCS_GRAYSCALE)
| st_other : IsExtRGB cs = true \/ cs = JCS_CMYK -> (f_bpp f = 8 -> gray_palette f -> cs <> JCS_RGB) -> settles f cs (Some cs)
| st_8 : f_bpp f = 8 -> ~ gray_palette f -> cs = JCS_UNKNOWN -> settles f cs (Some JCS_EXT_RGB)
| st_24 : f_bpp f = 24 -> cs = JCS_UNKNOWN -> settles f cs (Some 8)
| st_32 : f_bpp f = 32 -> cs = JCS_UNKNOWN -> settles f cs (Some 13)
| st_none : IsExtRGB cs = false -> cs <> JCS_CMYK -> cs <> JCS_UNKNOWN ->
    (f_bpp f = 8 -> gray_palette f -> cs <> JCS_GRAYSCALE) -> settles f cs None.

(* pixel i of a row in colour space cs holds r, g, b, and alpha a if it has alpha *)
Definition shows (cs : Z) (row : rowbuf) (i : Z) (px : Z * Z * Z * Z) : Prop :=
  let '(r, g, b, a) := px in
  let at_ (ps : Z) (k : Z) := nth_error row (Z.to_nat (i * ps + k)) in
  if cs =? JCS_GRAYSCALE then at_ 1 0 = Some (Some r)
  else if cs =? JCS_CMYK then
    let '(c, m, y, k) := rgb_to_cmyk 255 r g b in
    at_ 4 0 = Some (Some c) /\ at_ 4 1 = Some (Some m) /\ at_ 4 2 = Some (Some y) /\ at_ 4 3 = Some (Some k)
  else exists ri gi bi ai ps, aget t_red cs = Ret ri /\ aget t_green cs = Ret gi /\ aget t_blue cs = Ret bi /\ aget t_alpha cs = Ret ai /\ aget t_psize cs = Ret ps /\
    at_ ps ri = Some (Some r) /\ at_ ps gi = Some (Some g) /\ at_ ps bi = Some (Some b) /\
    (0 <= ai -> at_ ps ai = Some (Some a)).

(* room for one row: w pixels of cs, rounded up to a multiple of four *)
Definition room (cs w : Z) : Z := (w * components cs + 3) / 4 * 4.

(* ---- the writer ---- *)
(* the colour a row holds for column i: an index into the colour map, or a pixel of
   the output colour space (wpix: S_Pnm.v; CMYK converted, gray repeated) *)
Definition wsees (p : wparm) (row : list Z) (i : Z) : Z * Z * Z :=
  match w_map p with
  | Some m => nth (Z.to_nat (nth (Z.to_nat i) row 0)) m (0, 0, 0)
  | None => wpix 8 (w_cs p) row (Z.to_nat i)
  end.
(* what djpeg can hand to the writer: complete rows of bytes, at most 65535 by 65535 *)
Definition writable (p : wparm) (rows : list (list Z)) : Prop :=
  (w_cs p = JCS_GRAYSCALE \/ IsExtRGB (w_cs p) = true \/ (w_cs p = JCS_CMYK /\ w_map p = None)) /\
  1 <= w_w p <= 65535 /\ 1 <= w_h p <= 65535 /\ Z.of_nat (length rows) = w_h p /\
  Forall (fun row => bytes row /\ w_w p * (match w_map p with Some _ => 1 | None => components (w_cs p) end) <= Z.of_nat (length row)) rows /\
  match w_map p with
  | Some m => (length m <= 256)%nat /\ Forall (fun e => let '(r, g, b) := e in 0 <= r <= 255 /\ 0 <= g <= 255 /\ 0 <= b <= 255) m
  | None => True
  end /\
  match w_dens p with Some (x, y) => 0 <= x <= 65535 /\ 0 <= y <= 65535 | None => True end.
