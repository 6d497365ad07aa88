(* S_Stream.v -- independent specification of entropy-coded segments as bit streams *)
From Verif Require Import Base S_Huff.

(* An entropy-coded segment (T.81 B.1.1.5): data bytes up to the next marker, where FF 00 stands
   for the data byte FF; extra FF fill bytes may precede the code byte.
   [seg susp ff bs]: bs the bytes at hand, ff = "an FF has just been read".  At the end of the
   bytes a suspending source has nothing more to say (None), any other source continues with an
   EOI marker (217).  Result: data bytes, then the marker that ends them and what follows it. *)
Fixpoint seg (susp ff : bool) (bs : list Z) : list Z * option (Z * list Z) :=
  match bs with
  | [] => ([], if susp then None else Some (217, []))
  | b :: r =>
    if b =? 255 then seg susp true r
    else if ff then
      (if b =? 0 then let '(d, t) := seg susp false r in (255 :: d, t) else ([], Some (b, r)))
    else let '(d, t) := seg susp false r in (b :: d, t)
  end.

(* byte stuffing, as written by an encoder *)
Fixpoint stuff (bs : list Z) : list Z :=
  match bs with
  | [] => []
  | b :: r => if b =? 255 then 255 :: 0 :: stuff r else b :: stuff r
  end.

(* A bit stream is a total function; [bits_at S p n] = the n bits from position p on. *)
Definition bits_at (S : nat -> bool) (p n : nat) : list bool := map (fun i => S (p + i)%nat) (seq 0 n).

Fixpoint bits_eqb (a b : list bool) : bool :=
  match a, b with
  | [], [] => true
  | x :: a', y :: b' => Bool.eqb x y && bits_eqb a' b'
  | _, _ => false
  end.

(* which code of the table starts at position p *)
Definition code_at (bits : list Z) (S : nat -> bool) (p : nat) : option nat :=
  find (fun k => bits_eqb (code_word (code_sizes bits) k) (bits_at S p (nth k (code_sizes bits) 0%nat)))
       (seq 0 (length (code_sizes bits))).

(* decode one symbol at p: (symbol, position after it); an invalid code is 17 bits that stand for 0 *)
Definition dec_symbol (bits vals : list Z) (S : nat -> bool) (p : nat) : Z * nat :=
  match code_at bits S p with
  | Some k => (nth k vals (-1), (p + nth k (code_sizes bits) 0)%nat)
  | None => (0, (p + 17)%nat)
  end.

(* T.81 F.1.2.1/F.2.2.1 EXTEND: the value of n additional bits *)
Definition extend (n : nat) (v : Z) : Z :=
  if v <? 2 ^ (Z.of_nat n - 1) then v - 2 ^ Z.of_nat n + 1 else v.

(* a finite bit string continued with zeros *)
Definition zstream (l : list bool) (i : nat) : bool := nth i l false.

(* ---- Reference decoder over a bit stream (T.81 F.2.2) ----
   Each function returns its value, the position after it, and whether only valid codes were met. *)
Definition ref_sym (bits vals : list Z) (S : nat -> bool) (p : nat) : Z * nat * bool :=
  (fst (dec_symbol bits vals S p), snd (dec_symbol bits vals S p),
   match code_at bits S p with Some _ => true | None => false end).

(* F.2.2.1: DC difference *)
Definition ref_dc (bits vals : list Z) (S : nat -> bool) (p : nat) : Z * nat * bool :=
  let '(s, p1, ok) := ref_sym bits vals S p in
  if s =? 0 then (0, p1, ok)
  else (extend (Z.to_nat s) (bval (bits_at S p1 (Z.to_nat s))), (p1 + Z.to_nat s)%nat, ok).

(* F.2.2.2: AC coefficients, as pairs (zig-zag index, value); k = next index *)
Fixpoint ref_ac (fuel : nat) (bits vals : list Z) (S : nat -> bool) (p k : nat)
  : list (nat * Z) * nat * bool :=
  match fuel with
  | O => ([], p, true)
  | Datatypes.S f =>
    if (k <? 64)%nat then
      let '(rs, p1, ok) := ref_sym bits vals S p in
      let r := Z.to_nat (rs / 16) in
      let s := Z.to_nat (rs mod 16) in
      if (s =? 0)%nat then
        if (r =? 15)%nat then
          let '(l, p2, ok2) := ref_ac f bits vals S p1 (k + 16) in (l, p2, ok && ok2)
        else ([], p1, ok)
      else
        let '(l, p2, ok2) := ref_ac f bits vals S (p1 + s) (k + r + 1) in
        (((k + r)%nat, extend s (bval (bits_at S p1 s))) :: l, p2, ok && ok2)
    else ([], p, true)
  end.

(* a block: DC difference, then AC coefficients *)
Definition ref_block (dcb dcv acb acv : list Z) (S : nat -> bool) (p : nat)
  : Z * list (nat * Z) * nat * bool :=
  let '(diff, p1, ok1) := ref_dc dcb dcv S p in
  let '(l, p2, ok2) := ref_ac 64 acb acv S p1 1 in
  (diff, l, p2, ok1 && ok2).
