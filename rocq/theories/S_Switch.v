(* S_Switch.v -- the text files cjpeg reads for -qtables and -scans *)
From Verif Require Import Base S_Script.

(* a comment, from # to the end of its line, is not there (the end of the line is) *)
Fixpoint uncomment (inside : bool) (f : list Z) : list Z :=
  match f with
  | [] => []
  | c :: f =>
    if c =? 10 then c :: uncomment false f
    else if inside || (c =? 35) then uncomment true f
    else c :: uncomment false f
  end.
Definition white (c : Z) : Prop := c = 32 \/ 9 <= c <= 13.
Definition digit (c : Z) : Prop := 48 <= c <= 57.
Definition whites (s : list Z) : Prop := Forall white s.
Fixpoint decimal (acc : Z) (ds : list Z) : Z := match ds with [] => acc | d :: ds => decimal (10 * acc + (d - 48)) ds end.
(* numbers up to 2^63 - 1 are read; they are then stored in 32 bits *)
Definition number (ds : list Z) (v : Z) : Prop := ds <> [] /\ Forall digit ds /\ v = decimal 0 ds /\ v < 2 ^ 63.

(* ---- -scans ---- *)
(* what follows a number: white space and a semicolon, a colon or the end of the file; or
   a separator, which is white space before the next digit, or any one other character
   with white space before it *)
Inductive mark := Separator | Colon | Semicolon | End.
Inductive after : list Z -> mark -> list Z -> Prop :=
| after_end : forall w, whites w -> after w End []
| after_semicolon : forall w r, whites w -> after (w ++ 59 :: r) Semicolon r
| after_colon : forall w r, whites w -> after (w ++ 58 :: r) Colon r
| after_white : forall w d r, whites w -> w <> [] -> digit d -> after (w ++ d :: r) Separator (d :: r)
| after_other : forall w c r, whites w -> ~ white c -> ~ digit c -> c <> 58 -> c <> 59 -> after (w ++ c :: r) Separator r.
Definition item (s : list Z) (v : Z) (m : mark) (r : list Z) : Prop :=
  exists w ds t, s = w ++ ds ++ t /\ whites w /\ number ds v /\ after t m r.
(* numbers with separators between them *)
Inductive items : list Z -> list Z -> mark -> list Z -> Prop :=
| items_last : forall s v m r, item s v m r -> m <> Separator -> items s [v] m r
| items_more : forall s v r vs m r', item s v Separator r -> items r vs m r' -> items s (v :: vs) m r'.
(* components; or components : Ss Se Ah Al; *)
Inductive entry : list Z -> scan -> list Z -> Prop :=
| entry_plain : forall s cs m r, items s cs m r -> (length cs <= 4)%nat -> m = Semicolon \/ m = End ->
    entry s (mkScan (map s32 cs) 0 63 0 0) r
| entry_progressive : forall s cs r a b c d m r', items s cs Colon r -> (length cs <= 4)%nat -> items r [a; b; c; d] m r' -> m = Semicolon \/ m = End ->
    entry s (mkScan (map s32 cs) (s32 a) (s32 b) (s32 c) (s32 d)) r'.
Inductive script_text : list Z -> list scan -> Prop :=
| script_end : forall s, whites s -> script_text s []
| script_entry : forall s e r es, entry s e r -> script_text r es -> script_text s (e :: es).

(* ---- -qtables ---- *)
(* numbers, each with any white space before it and any one character that is no digit after it *)
Inductive values : list Z -> list Z -> list Z -> Prop :=
| values_nil : forall s, values s [] s
| values_char : forall w ds v c s vs r, whites w -> number ds v -> ~ digit c -> values s vs r -> values (w ++ ds ++ c :: s) (v :: vs) r
| values_last : forall w ds v vs r, whites w -> number ds v -> values [] vs r -> values (w ++ ds) (v :: vs) r.
Definition tables_text (s : list Z) (tables : list (list Z)) : Prop :=
  (exists r, values s (concat tables) r /\ whites r) /\ Forall (fun t => length t = 64%nat) tables.
(* jpeg_add_quant_table's scaling: percent, rounded, within the range *)
Definition scaled (percent : Z) (baseline : bool) (v : Z) : Z :=
  Z.max 1 (Z.min (if baseline then 255 else 32767) ((u32 v * percent + 50) / 100)).

(* no number of more than 18 digits *)
Definition short_numbers (s : list Z) : Prop := forall a ds b, s = a ++ ds ++ b -> Forall digit ds -> (length ds <= 18)%nat.
