(* S_Icc.v -- what an embedded ICC profile is, independent of the code
   (ICC.1:2010 annex B.4; layout quoted in the header comment of jcicc.c). *)
From Verif Require Import Base M_Icc.
From Coq Require Import Permutation.

(* One chunk: its sequence number, the number of chunks it announces, its part
   of the profile. *)
Record chunk := mkChunk { ck_seq : Z; ck_count : Z; ck_data : list Z }.

(* "ICC_PROFILE" followed by a zero byte *)
Definition icc_string : list Z := [73; 67; 67; 95; 80; 82; 79; 70; 73; 76; 69; 0].

(* An APP2 segment holding that chunk. *)
Definition holds_chunk (m : saved_marker) (k : chunk) : Prop :=
  sm_marker m = 226 /\
  sm_data m = icc_string ++ ck_seq k :: ck_count k :: ck_data k.

(* The chunks found among a list of segments, in order. *)
Inductive icc_chunks : list saved_marker -> list chunk -> Prop :=
| ic_nil : icc_chunks [] []
| ic_skip m l C : (forall k, ~ holds_chunk m k) -> icc_chunks l C -> icc_chunks (m :: l) C
| ic_take m k l C : holds_chunk m k -> icc_chunks l C -> icc_chunks (m :: l) (k :: C).

(* 1, 2, ..., n *)
Definition numbers (n : nat) : list Z := map (fun i => Z.of_nat i) (seq 1 n).

(* [out] is the profile described by the chunks C: sorted by sequence number
   they are numbered 1..n, all announce n, and out is their concatenation. *)
Definition assembled (C : list chunk) (out : list Z) : Prop :=
  exists S, Permutation S C /\ map ck_seq S = numbers (length C) /\
    Forall (fun k => ck_count k = Z.of_nat (length C)) C /\
    out = concat (map ck_data S).

(* A marker segment in the file: FF, code, two length bytes (counting
   themselves), the data. *)
Definition segment (m : saved_marker) : list Z :=
  let n := Z.of_nat (length (sm_data m)) + 2 in
  255 :: sm_marker m :: n / 256 :: n mod 256 :: sm_data m.

(* Saved markers as the library stores them: bytes, at most 65533 of them. *)
Definition marker_ok (m : saved_marker) : Prop :=
  Forall (fun b => 0 <= b < 256) (sm_data m) /\ Z.of_nat (length (sm_data m)) <= 65533.
