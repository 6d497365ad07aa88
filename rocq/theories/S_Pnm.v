(* S_Pnm.v -- the PNM text format, and what an image row means. *)
From Verif Require Import Base M_Pnm.

Definition prec_ok (p : Z) : Prop := p = 8 \/ p = 12 \/ p = 16.
Definition bytes (l : list Z) : Prop := Forall (fun b => 0 <= b <= 255) l.
Definition cs_ok (cs : Z) : Prop := 0 <= cs <= 16.

(* separators: a white-space character, or a comment up to the end of its line *)
Inductive blank : list Z -> Prop :=
| bl_ws : forall ch, In ch [32; 9; 10; 13] -> blank [ch]
| bl_comment : forall text, Forall (fun ch => ch <> 10) text -> blank ([35] ++ text ++ [10]).
Inductive blanks : list Z -> Prop :=
| bls_nil : blanks []
| bls_cons : forall a b, blank a -> blanks b -> blanks (a ++ b).
(* a decimal number, most significant digit first *)
Definition digits (ds : list Z) : Prop := ds <> [] /\ Forall (fun d => 48 <= d <= 57) ds.
Definition value (ds : list Z) : Z := fold_left (fun a d => 10 * a + (d - 48)) ds 0.
(* numbers written as text: each preceded by any separators and followed by one *)
Inductive text : list Z -> list Z -> Prop :=
| tx_nil : text [] []
| tx_cons : forall b1 ds b2 ns t, blanks b1 -> digits ds -> blank b2 -> text ns t ->
    text (value ds :: ns) (b1 ++ ds ++ b2 ++ t).
Lemma text_one : forall b1 ds b2, blanks b1 -> digits ds -> blank b2 -> text [value ds] (b1 ++ ds ++ b2).
Proof. intros. rewrite <- (app_nil_r b2). apply tx_cons; auto. constructor. Qed.

(* sample v of a file with the given maxval, as a p-bit sample: nearest integer to
   v * MAXJSAMPLE / maxval; samples above maxval (possible in the byte formats and
   with one-digit text samples) become 0 *)
Definition scaled (p maxval v : Z) : Z := if v <=? maxval then (2 * (v * maxj p) + maxval) / (2 * maxval) else 0.

(* the samples (r,g,b) of pixel i in a row of the file: gray files have one sample *)
Definition pix (n : nat) (ss : list Z) (i : nat) : Z * Z * Z :=
  if (n =? 1)%nat then (nth i ss 0, nth i ss 0, nth i ss 0)
  else (nth (3 * i) ss 0, nth (3 * i + 1) ss 0, nth (3 * i + 2) ss 0).

(* pixel i of a row in colour space cs holds r, g, b *)
Definition holds (p cs : Z) (row : rowbuf) (i : nat) (rgb : Z * Z * Z) : Prop :=
  let '(r, g, b) := rgb in
  let at_ (ps : Z) (k : Z) := nth_error row (Z.to_nat (Z.of_nat i * ps + k)) in
  if cs =? JCS_GRAYSCALE then at_ 1 0 = Some (Some r)
  else if cs =? JCS_CMYK then
    let '(c, m, y, k) := rgb_to_cmyk (maxj p) r g b in
    at_ 4 0 = Some (Some c) /\ at_ 4 1 = Some (Some m) /\ at_ 4 2 = Some (Some y) /\ at_ 4 3 = Some (Some k)
  else exists ri gi bi ai ps, aget t_red cs = Ret ri /\ aget t_green cs = Ret gi /\ aget t_blue cs = Ret bi /\ aget t_alpha cs = Ret ai /\ aget t_psize cs = Ret ps /\
    at_ ps ri = Some (Some r) /\ at_ ps gi = Some (Some g) /\ at_ ps bi = Some (Some b) /\
    (0 <= ai -> at_ ps ai = Some (Some (maxj p))).

(* what follows the header: n samples per pixel row, as text, bytes, or two-byte
   words with the more significant byte first *)
Definition body (fmt maxval : Z) (ns bs : list Z) : Prop :=
  if (fmt =? 50) || (fmt =? 51) then text ns bs /\ Forall (fun n => 0 <= n <= maxval) ns
  else if maxval <=? 255 then bs = ns /\ Forall (fun n => 0 <= n <= 255) ns
  else bs = flat_map (fun n => [n / 256; n mod 256]) ns /\ Forall (fun n => 0 <= n <= maxval) ns.
(* samples per pixel in the file *)
Definition spp (fmt : Z) : nat := if (fmt =? 51) || (fmt =? 54) then 3 else 1.
(* the colour space the reader settles on; None if it cannot do it *)
Definition target (fmt cs : Z) : option Z :=
  if (spp fmt =? 1)%nat then
    if (cs =? JCS_UNKNOWN) || (cs =? JCS_RGB) || (cs =? JCS_GRAYSCALE) then Some JCS_GRAYSCALE
    else if IsExtRGB cs || (cs =? JCS_CMYK) then Some cs else None
  else if cs =? JCS_UNKNOWN then Some JCS_EXT_RGB
  else if IsExtRGB cs || (cs =? JCS_CMYK) then Some cs else None.
Definition map3 (f : Z -> Z) (x : Z * Z * Z) : Z * Z * Z := let '(a, b, c) := x in (f a, f b, f c).
(* pixel i of a complete row handed to the writer *)
Definition wpix (p cs : Z) (row : list Z) (i : nat) : Z * Z * Z :=
  let at_ (ps k : Z) := nth (Z.to_nat (Z.of_nat i * ps + k)) row 0 in
  if cs =? JCS_GRAYSCALE then (at_ 1 0, at_ 1 0, at_ 1 0)
  else if cs =? JCS_CMYK then cmyk_to_rgb (maxj p) (at_ 4 0) (at_ 4 1) (at_ 4 2) (at_ 4 3)
  else match aget t_red cs, aget t_green cs, aget t_blue cs, aget t_psize cs with
       | Ret ri, Ret gi, Ret bi, Ret ps => (at_ ps ri, at_ ps gi, at_ ps bi)
       | _, _, _, _ => (0, 0, 0)
       end.
Definition components (cs : Z) : Z :=
  if cs =? JCS_GRAYSCALE then 1 else if cs =? JCS_CMYK then 4 else nth (Z.to_nat cs) t_psize 0.
