(* S_Targa.v -- the Targa file format *)
From Verif Require Import Base M_Pnm S_Pnm S_Bmp.

(* what the bytes of a pixel mean *)
Inductive tkind := KGray | KMapped | KRgb15 | KRgb24 | KRgb32.
Definition kind_bytes (k : tkind) : Z := match k with KGray | KMapped => 1 | KRgb15 => 2 | KRgb24 => 3 | KRgb32 => 4 end.
(* 0..31 to 0..255, to the nearest *)
Definition expand5 (v : Z) : Z := (2 * 255 * v + 31) / (2 * 31).
(* a pixel is a list of bytes, as in the file; its components in the compressor's order *)
Definition tga_colour (k : tkind) (cmap : list (Z * Z * Z)) (px : list Z) : list Z :=
  match k with
  | KGray => [byte px 0]
  | KMapped => let '(r, g, b) := nth (Z.to_nat (byte px 0)) cmap (0, 0, 0) in [r; g; b]
  | KRgb15 => let v := le2 px 0 in [expand5 (v / 1024 mod 32); expand5 (v / 32 mod 32); expand5 (v mod 32)]
  | KRgb24 | KRgb32 => [byte px 2; byte px 1; byte px 0]
  end.

(* run-length packets: up to 128 different pixels, or one pixel up to 128 times *)
Inductive packet := Raw (ps : list (list Z)) | Run (n : nat) (p : list Z).
Definition packet_pixels (k : packet) : list (list Z) := match k with Raw ps => ps | Run n p => repeat p n end.
Definition packet_bytes (k : packet) : list Z :=
  match k with
  | Raw ps => (Z.of_nat (length ps) - 1) :: concat ps
  | Run n p => (128 + (Z.of_nat n - 1)) :: p
  end.
Definition packet_ok (k : packet) : Prop := (1 <= length (packet_pixels k) <= 128)%nat.
(* the pixels stored in a piece of the file *)
Definition stored (rle : bool) (data : list Z) (pxs : list (list Z)) : Prop :=
  if rle then exists ks, Forall packet_ok ks /\ data = flat_map packet_bytes ks /\ pxs = flat_map packet_pixels ks
  else data = concat pxs.

(* a file: 18 bytes of header, identification, colour map, pixels, anything *)
Definition tga_file (f : list Z) (k : tkind) (rle up : bool) (w h : Z) (cmap : list (Z * Z * Z)) (pxs : list (list Z)) : Prop :=
  exists hd id data tail,
    f = hd ++ id ++ flat_map (fun '(r, g, b) => [b; g; r]) cmap ++ data ++ tail /\
    length hd = 18%nat /\ bytes f /\ byte hd 0 = Z.of_nat (length id) /\
    (* a colour map is announced by its length; type 1 says it is used *)
    le2 hd 5 = Z.of_nat (length cmap) /\ (length cmap <= 256)%nat /\
    (cmap <> [] -> byte hd 1 <= 1 /\ le2 hd 3 = 0 /\ byte hd 7 = 24) /\ (cmap = [] -> byte hd 1 = 0) /\ (k = KMapped -> byte hd 1 = 1) /\
    byte hd 2 = (if rle then 8 else 0) + (match k with KMapped => 1 | KGray => 3 | _ => 2 end) /\
    le2 hd 12 = w /\ le2 hd 14 = h /\ 1 <= w /\ 1 <= h /\
    (byte hd 16 = 8 * kind_bytes k \/ (k = KRgb15 /\ byte hd 16 = 15)) /\
    (* the descriptor byte: not interlaced; bit 5 says top-down *)
    byte hd 17 < 64 /\ byte hd 17 / 32 = (if up then 0 else 1) /\
    stored rle data pxs /\ Forall (fun p => Z.of_nat (length p) = kind_bytes k) pxs /\ w * h <= Z.of_nat (length pxs) /\
    (k = KMapped -> Forall (fun p => byte p 0 < Z.of_nat (length cmap)) pxs).
