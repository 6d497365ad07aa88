(* S_ColMap.v -- colour map files and what djpeg -map makes of them *)
From Verif Require Import Base S_Pnm S_Quant.

(* each colour once, in the order of the first appearances *)
Definition same_colour (a b : Z * Z * Z) : {a = b} + {a <> b}.
Proof. decide equality; [apply Z.eq_dec|decide equality; apply Z.eq_dec]. Defined.
Fixpoint first_seen (l : list (Z * Z * Z)) : list (Z * Z * Z) :=
  match l with
  | [] => []
  | c :: l => c :: filter (fun d => if same_colour c d then false else true) (first_seen l)
  end.
Definition rgb_bytes (l : list (Z * Z * Z)) : list Z := flat_map (fun '(r, g, b) => [r; g; b]) l.

(* GIF: "GIF", version and screen size (7 bytes), a byte with bit 7 set whose low three
   bits n give the number of colours 2 to the n+1, two more bytes, the colours *)
Definition gif_map_file (f : list Z) (cs : list (Z * Z * Z)) : Prop :=
  exists x flags y rest, f = [71; 73; 70] ++ x ++ [flags] ++ y ++ rgb_bytes cs ++ rest /\ length x = 7%nat /\ length y = 2%nat /\
    128 <= flags /\ Z.of_nat (length cs) = 2 ^ (flags mod 8 + 1).

(* PPM: numbers are preceded by white space and comments and end with one more character,
   a comment, or the file *)
Definition space (c : Z) : Prop := c = 32 \/ c = 9 \/ c = 10 \/ c = 13.
Inductive gap : list Z -> Prop :=
| gap_nil : gap []
| gap_space : forall c l, space c -> gap l -> gap (c :: l)
| gap_comment : forall t l, ~ In 10 t -> gap l -> gap (35 :: t ++ 10 :: l).
Fixpoint value (acc : Z) (ds : list Z) : Z := match ds with [] => acc | d :: ds => value (10 * acc + (d - 48)) ds end.
Definition digits (ds : list Z) : Prop := ds <> [] /\ Forall (fun d => 48 <= d <= 57) ds.
(* what ends a number, given what follows in the file *)
Inductive ending : list Z -> list Z -> Prop :=
| end_char : forall c rest, c <> 35 -> ~ 48 <= c <= 57 -> ending [c] rest
| end_comment : forall t rest, ~ In 10 t -> ending (35 :: t ++ [10]) rest
| end_file : ending [] [].
(* text f is a number with value v < 2^32 followed by rest *)
Definition number (f : list Z) (v : Z) (rest : list Z) : Prop :=
  exists g ds e, f = g ++ ds ++ e ++ rest /\ gap g /\ digits ds /\ ending e rest /\ v = value 0 ds /\ v < 2 ^ 32.
Inductive numbers : list Z -> list Z -> list Z -> Prop :=
| numbers_nil : forall f, numbers f [] f
| numbers_cons : forall f v f' vs rest, number f v f' -> numbers f' vs rest -> numbers f (v :: vs) rest.
(* "P6" or "P3", width, height and 255, then the colours as bytes or as numbers *)
Definition ppm_map_file (f : list Z) (text : bool) (cs : list (Z * Z * Z)) : Prop :=
  exists l body w h, f = [80; if text then 51 else 54] ++ l /\ numbers l [w; h; 255] body /\ 1 <= w /\ 1 <= h /\ Z.of_nat (length cs) = w * h /\
    (if text then exists rest, numbers body (rgb_bytes cs) rest else exists rest, body = rgb_bytes cs ++ rest).
