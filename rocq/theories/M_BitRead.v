(* M_BitRead.v -- bit reading and Huffman symbol decoding (jdhuff.c/h), shared by the sequential,
   progressive and lossless decoders.  64-bit build: BIT_BUF_SIZE = 64, MIN_GET_BITS = 57. *)
From Verif Require Import Base M_HuffTbl M_Source.

Inductive jwarn : Set := JWRN_HIT_MARKER | JWRN_HUFF_BAD_CODE.

(* bitread_working_state (jdhuff.h:101-113) plus the fields of cinfo/entropy the bit reader
   touches, plus the rest [ust] of the decoder's working state. *)
Record dst (U : Type) := mkD {
  gbuf : Z; bleft : Z; dsrc : source; unread : Z; insuff : bool; warns : list jwarn; ust : U }.
Arguments mkD {U} _ _ _ _ _ _ _.
Arguments gbuf {U} _. Arguments bleft {U} _. Arguments dsrc {U} _. Arguments unread {U} _.
Arguments insuff {U} _. Arguments warns {U} _. Arguments ust {U} _.

(* result of a routine that may suspend: Done = finished, Susp = "return FALSE" in state s *)
Inductive dres (U A : Type) : Type := Done (a : A) (s : dst U) | Susp (s : dst U).
Arguments Done {U A} _ _. Arguments Susp {U A} _.

Definition DM (U A : Type) : Type := dst U -> outcome (dres U A).
Definition dret {U A} (a : A) : DM U A := fun s => Ret (Done a s).
Definition dbind {U A B} (m : DM U A) (f : A -> DM U B) : DM U B :=
  fun s => match m s with
           | Ret (Done a s') => f a s'
           | Ret (Susp s') => Ret (Susp s')
           | Error e => Error e
           | Undef => Undef
           end.
Definition dlift {U A} (o : outcome A) : DM U A :=
  fun s => match o with Ret a => Ret (Done a s) | Error e => Error e | Undef => Undef end.
Definition dmod {U} (f : U -> U) : DM U unit :=
  fun s => Ret (Done tt (mkD (gbuf s) (bleft s) (dsrc s) (unread s) (insuff s) (warns s) (f (ust s)))).
Definition dget {U} : DM U U := fun s => Ret (Done (ust s) s).
Notation "x <~ m ;; k" := (dbind m (fun x => k))
  (at level 61, m at next level, right associativity).
Notation "m ;~ k" := (dbind m (fun _ => k)) (at level 61, right associativity).

(* jdhuff.c:300-349: the loading loop "while (bits_left < MIN_GET_BITS)".
   Some m = stopped at marker m, None = loop ran to completion. *)
Fixpoint fill_loop {U} (fuel : nat) : DM U (option Z) :=
  fun s =>
  match fuel with
  | O => Undef
  | S f =>
    if bleft s <? 57 then
      match next_byte (dsrc s) with
      | None => Ret (Susp s)
      | Some (c, s1) =>
        if c =? 255 then
          match skip_ff (src_size s1 + 4) s1 with
          | None => Undef
          | Some None => Ret (Susp s)
          | Some (Some (c2, s2)) =>
            if c2 =? 0 then
              fill_loop f (mkD (u64 (Z.lor (Z.shiftl (gbuf s) 8) 255)) (bleft s + 8) s2
                               (unread s) (insuff s) (warns s) (ust s))
            else Ret (Done (Some c2) (mkD (gbuf s) (bleft s) s2 c2 (insuff s) (warns s) (ust s)))
          end
        else fill_loop f (mkD (u64 (Z.lor (Z.shiftl (gbuf s) 8) c)) (bleft s + 8) s1
                              (unread s) (insuff s) (warns s) (ust s))
      end
    else Ret (Done None s)
  end.

(* jdhuff.c:350-372 no_more_bytes *)
Definition no_more_bytes {U} (nbits : Z) : DM U unit :=
  fun s =>
  if bleft s <? nbits then
    if 57 <? bleft s then Undef
    else Ret (Done tt (mkD (u64 (Z.shiftl (gbuf s) (57 - bleft s))) 57 (dsrc s) (unread s) true
                       (if insuff s then warns s else JWRN_HIT_MARKER :: warns s) (ust s)))
  else Ret (Done tt s).

(* jdhuff.c:287-382 jpeg_fill_bit_buffer *)
Definition jpeg_fill_bit_buffer {U} (nbits : Z) : DM U unit :=
  fun s =>
  if unread s =? 0 then
    (m <~ fill_loop 9 ;;
     match m with None => dret tt | Some _ => no_more_bytes nbits end) s
  else no_more_bytes nbits s.

(* jdhuff.h CHECK_BIT_BUFFER *)
Definition check_bit_buffer {U} (nbits : Z) : DM U unit :=
  fun s => if bleft s <? nbits then jpeg_fill_bit_buffer nbits s else Ret (Done tt s).

(* jdhuff.h GET_BITS: undefined if the shift count is out of range.  The C code masks after
   truncating to int, which is the same for nbits <= 30. *)
Definition get_bits {U} (nbits : Z) : DM U Z :=
  fun s =>
  let b := bleft s - nbits in
  if (nbits <? 0) || (30 <? nbits) || (b <? 0) || (63 <? b) then Undef
  else Ret (Done (Z.land (Z.shiftr (gbuf s) b) (2 ^ nbits - 1))
             (mkD (gbuf s) b (dsrc s) (unread s) (insuff s) (warns s) (ust s))).

(* jdhuff.h PEEK_BITS / DROP_BITS *)
Definition peek_bits {U} (nbits : Z) : DM U Z :=
  fun s =>
  let b := bleft s - nbits in
  if (nbits <? 0) || (30 <? nbits) || (b <? 0) || (63 <? b) then Undef
  else Ret (Done (Z.land (Z.shiftr (gbuf s) b) (2 ^ nbits - 1)) s).
Definition drop_bits {U} (nbits : Z) : DM U unit :=
  fun s => if bleft s <? nbits then Undef
           else Ret (Done tt (mkD (gbuf s) (bleft s - nbits) (dsrc s) (unread s) (insuff s) (warns s) (ust s))).
Definition dbits_left {U} : DM U Z := fun s => Ret (Done (bleft s) s).
Definition dwarn {U} (w : jwarn) : DM U unit :=
  fun s => Ret (Done tt (mkD (gbuf s) (bleft s) (dsrc s) (unread s) (insuff s) (w :: warns s) (ust s))).

(* a table cell that was never initialised reads as undefined *)
Definition tget (l : list (option Z)) (i : Z) : outcome Z :=
  o <- aget l i ;; match o with Some v => Ret v | None => Undef end.

(* jdhuff.c:454-459: while (code > maxcode[l]) { code <<= 1; CHECK(1); code |= GET_BITS(1); l++ } *)
Fixpoint huff_slow_loop {U} (fuel : nat) (htbl : d_derived_tbl) (l code : Z) : DM U (Z * Z) :=
  match fuel with
  | O => fun _ => Undef
  | S f =>
    m <~ dlift (tget (maxcode htbl) l) ;;
    if m <? code then
      check_bit_buffer 1 ;~
      b <~ get_bits 1 ;;
      huff_slow_loop f htbl (l + 1) (Z.lor (Z.shiftl code 1) b)
    else dret (l, code)
  end.

(* jdhuff.c:436-474 jpeg_huff_decode *)
Definition jpeg_huff_decode {U} (htbl : d_derived_tbl) (min_bits : Z) : DM U Z :=
  check_bit_buffer min_bits ;~
  code <~ get_bits min_bits ;;
  lc <~ huff_slow_loop 18 htbl min_bits code ;;
  (if 16 <? fst lc then dwarn JWRN_HUFF_BAD_CODE ;~ dret 0
   else
     vo <~ dlift (tget (valoffset htbl) (fst lc)) ;;
     dlift (aget (hval (dpub htbl)) (snd lc + vo))).

(* jdhuff.h HUFF_DECODE *)
Definition huff_decode {U} (htbl : d_derived_tbl) : DM U Z :=
  bl <~ dbits_left ;;
  (if bl <? 8 then jpeg_fill_bit_buffer 0 else dret tt) ;~
  bl' <~ dbits_left ;;
  if bl' <? 8 then jpeg_huff_decode htbl 1
  else
    look <~ peek_bits 8 ;;
    e <~ dlift (aget (dlookup htbl) look) ;;
    let nb := Z.shiftr e 8 in
    if nb <=? 8 then drop_bits nb ;~ dret (Z.land e 255)
    else jpeg_huff_decode htbl nb.

(* jdhuff.c:483-487 HUFF_EXTEND (AVOID_TABLES variant): x + (((x - (1<<(s-1))) >> 31) & ((-1<<s)+1)) *)
Definition HUFF_EXTEND (x s : Z) : Z :=
  s32 (x + Z.land (Z.shiftr (x - Z.shiftl 1 (s - 1)) 31) (Z.shiftl (-1) s + 1)).
