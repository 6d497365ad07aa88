(* S_GifInter.v -- interlaced GIF images (GIF89a specification, appendix E), independent of the reader *)
From Verif Require Import Base.

(* the rows of an image in the order in which an interlaced file holds them:
   every 8th row from row 0, every 8th from row 4, every 4th from row 2, every 2nd from row 1 *)
Definition rows_at (rows : list (list Z)) (step start : Z) : list (list Z) :=
  map (fun r => nth r rows []) (filter (fun r => Z.of_nat r mod step =? start) (seq 0 (length rows))).
Definition in_passes (rows : list (list Z)) : list (list Z) :=
  rows_at rows 8 0 ++ rows_at rows 8 4 ++ rows_at rows 4 2 ++ rows_at rows 2 1.

(* a file in the layout of the writer (signature and screen descriptor: 13 bytes, the last three being flags,
   background and aspect; colour table of 2^(low 3 bits of the flags + 1) entries; image descriptor of 10 bytes, the
   last being its flags): the same file with the image's interlace flag set *)
Definition interlaced (file : list Z) : list Z :=
  let entries := 2 ^ (nth 10 file 0 mod 8 + 1) in
  let flags := Z.to_nat (13 + 3 * entries + 9) in
  firstn flags file ++ [nth flags file 0 + 64] ++ skipn (S flags) file.
