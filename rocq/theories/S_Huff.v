(* S_Huff.v -- independent specification of JPEG Huffman coding (ITU-T T.81),
   written without reference to the C code or its model. *)
From Verif Require Import Base.

(* A code specification: BITS gives for each length 1..16 the number of codes of that
   length, HUFFVAL the symbols in order of increasing code length (T.81 B.2.4.2). *)

(* number of codes of length l *)
Definition ncodes (bits : list Z) (l : nat) : nat := Z.to_nat (nth l bits 0).

(* T.81 Figure C.1: the code lengths, in order *)
Definition code_sizes (bits : list Z) : list nat :=
  flat_map (fun l => repeat l (ncodes bits l)) (seq 1 16).

(* Weight of the codes, in units of 2^-16 (Kraft sum) *)
Fixpoint kraft (sizes : list nat) : Z :=
  match sizes with [] => 0 | s :: t => 2 ^ (16 - Z.of_nat s) + kraft t end.

(* T.81 Annex C: the k-th code, as a number.  Canonical assignment: the k-th code
   begins where the space taken by the previous codes ends. *)
Definition code_value (sizes : list nat) (k : nat) : Z :=
  kraft (firstn k sizes) / 2 ^ (16 - Z.of_nat (nth k sizes 0%nat)).

(* the k-th code, as a bit string, most significant bit first *)
Definition code_word (sizes : list nat) (k : nat) : list bool :=
  bits_of (nth k sizes 0%nat) (code_value sizes k).

(* The code assignment of a table: [sym_code bits vals s w] says symbol s has code word w. *)
Definition sym_code (bits vals : list Z) (s : Z) (w : list bool) : Prop :=
  exists k, (k < length (code_sizes bits))%nat /\ nth k vals (-1) = s /\
            w = code_word (code_sizes bits) k.

(* Table validity: at most 256 codes; the codes fit, with the all-ones code left unused
   (Kraft sum strictly below 1). *)
Definition code_space_ok (bits : list Z) : Prop :=
  (length (code_sizes bits) <= 256)%nat /\ kraft (code_sizes bits) < 2 ^ 16.

Definition prefix {A} (a b : list A) : Prop := exists c, b = a ++ c.

(* the symbols that the table lists *)
Definition listed (bits vals : list Z) : list Z := firstn (length (code_sizes bits)) vals.

Definition symbols_ok (maxsym : Z) (syms : list Z) : Prop :=
  NoDup syms /\ Forall (fun s => s <= maxsym) syms.

(* DC symbols are difference categories: 0..15 in the DCT modes, 0..16 in lossless mode;
   AC symbols are arbitrary run/size bytes. *)
Definition max_symbol (lossless isDC : bool) : Z :=
  if isDC then (if lossless then 16 else 15) else 255.

(* A table usable for encoding: codes fit, symbols distinct and in range. *)
Definition enc_table_ok (lossless isDC : bool) (bits vals : list Z) : Prop :=
  code_space_ok bits /\ symbols_ok (max_symbol lossless isDC) (listed bits vals).

(* A table usable for decoding: codes fit, DC symbols in range (duplicates tolerated). *)
Definition dec_table_ok (lossless isDC : bool) (bits vals : list Z) : Prop :=
  code_space_ok bits /\
  (isDC = true -> Forall (fun s => s <= max_symbol lossless true) (listed bits vals)).

(* the code word of symbol s as a function: its first occurrence in the table ([] if not listed) *)
Definition table_code (bits vals : list Z) (s : Z) : list bool :=
  match find (fun k => nth k vals (-1) =? s) (seq 0 (length (code_sizes bits))) with
  | Some k => code_word (code_sizes bits) k
  | None => []
  end.
