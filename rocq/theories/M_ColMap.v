(* M_ColMap.v -- djpeg -map: reading a colour map from a GIF or PPM file (rdcolmap.c),
   8-bit samples.  A file is the list of its bytes.  The error code
   JERR_BAD_CMAP_FILE is JERR_OTHER. *)
From Verif Require Import Base M_Pnm.

(* rdcolmap.c:50-76 add_map_entry; the map is the list of its entries, room for 256 *)
Definition add_map_entry (m : list (Z * Z * Z)) (r g b : Z) : outcome (list (Z * Z * Z)) :=
  if existsb (fun '(x, y, z) => (x =? r) && (y =? g) && (z =? b)) m then Ret m
  else if 256 <=? Z.of_nat (length m) then Error JERR_OTHER
  else Ret (m ++ [(u8 r, u8 g, u8 b)]).

(* n times three bytes and add_map_entry: rdcolmap.c:108-119 and 220-230 *)
Fixpoint raw_entries (n : nat) (l : list Z) (m : list (Z * Z * Z)) : outcome (list (Z * Z * Z)) :=
  match n with
  | O => Ret m
  | S n =>
    match l with
    | r :: g :: b :: l => m <- add_map_entry m r g b ;; raw_entries n l m
    | _ => Error JERR_OTHER
    end
  end.
(* rdcolmap.c:79-120 read_gif_map; l is the file after the first byte: header[i] is byte i - 1 of it *)
Definition read_gif_map (l : list Z) : outcome (list (Z * Z * Z)) :=
  if Z.of_nat (length l) <? 12 then Error JERR_OTHER
  else
    h1 <- aget l 0 ;; h2 <- aget l 1 ;; h10 <- aget l 9 ;;
    if negb (h1 =? 73) || negb (h2 =? 70) then Error JERR_OTHER
    else if Z.land h10 128 =? 0 then Error JERR_OTHER
    else
      let colormaplen := Z.shiftl 2 (Z.land h10 7) in
      raw_entries (Z.to_nat colormaplen) (skipn 12 l) [].

(* rdcolmap.c:126-141 pbm_getc; None is EOF *)
Fixpoint skip_line (l : list Z) : option Z * list Z :=
  match l with
  | [] => (None, [])
  | c :: l => if c =? 10 then (Some c, l) else skip_line l
  end.
Definition pbm_getc (l : list Z) : option Z * list Z :=
  match l with
  | [] => (None, [])
  | c :: l => if c =? 35 then skip_line l else (Some c, l)
  end.
(* rdcolmap.c:144-172 read_pbm_integer; the number of turns of either loop is bounded by
   the length of the file (every turn but the last takes a byte) *)
Fixpoint skip_space (n : nat) (l : list Z) : outcome (Z * list Z) :=
  match n with
  | O => Undef
  | S n =>
    match pbm_getc l with
    | (None, _) => Error JERR_OTHER
    | (Some c, l) => if (c =? 32) || (c =? 9) || (c =? 10) || (c =? 13) then skip_space n l else Ret (c, l)
    end
  end.
Fixpoint more_digits (n : nat) (l : list Z) (val : Z) : outcome (Z * list Z) :=
  match n with
  | O => Undef
  | S n =>
    match pbm_getc l with
    | (Some c, l) => if (48 <=? c) && (c <=? 57) then more_digits n l (u32 (u32 (val * 10) + (c - 48))) else Ret (val, l)
    | (None, l) => Ret (val, l)
    end
  end.
Definition read_pbm_integer (l : list Z) : outcome (Z * list Z) :=
  '(c, l) <- skip_space (S (length l)) l ;;
  if (c <? 48) || (57 <? c) then Error JERR_OTHER
  else more_digits (S (length l)) l (c - 48).

(* rdcolmap.c:204-216; the samples are ints *)
Fixpoint text_entries (n : nat) (l : list Z) (m : list (Z * Z * Z)) : outcome (list (Z * Z * Z)) :=
  match n with
  | O => Ret m
  | S n =>
    '(r, l) <- read_pbm_integer l ;; '(g, l) <- read_pbm_integer l ;; '(b, l) <- read_pbm_integer l ;;
    m <- add_map_entry m (s32 r) (s32 g) (s32 b) ;; text_entries n l m
  end.
(* rdcolmap.c:178-237 read_ppm_map; l is the file after the first byte.  The two nested
   loops run w * h times. *)
Definition read_ppm_map (l : list Z) : outcome (list (Z * Z * Z)) :=
  let '(c, l) := match l with [] => (-1, []) | c :: l => (c, l) end in
  '(w, l) <- read_pbm_integer l ;; '(h, l) <- read_pbm_integer l ;; '(maxval, l) <- read_pbm_integer l ;;
  if (w <=? 0) || (h <=? 0) || (maxval <=? 0) then Error JERR_OTHER
  else if negb (maxval =? 255) then Error JERR_OTHER
  else if c =? 51 then text_entries (Z.to_nat (w * h)) l []
  else if c =? 54 then raw_entries (Z.to_nat (w * h)) l []
  else Error JERR_OTHER.

(* rdcolmap.c:245-270 _read_color_map *)
Definition read_color_map (file : list Z) : outcome (list (Z * Z * Z)) :=
  match file with
  | c :: l => if c =? 71 then read_gif_map l else if c =? 80 then read_ppm_map l else Error JERR_OTHER
  | [] => Error JERR_OTHER
  end.
