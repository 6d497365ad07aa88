(* M_Wrcom.v -- wrjpgcom.c and rdjpgcom.c: inserting and displaying comments.
   A file is the list of its bytes.  Messages on stderr, option parsing and rdjpgcom -verbose are not modelled.
   ERREXIT is Error: JERR_INPUT_EOF for "Premature EOF", JERR_BAD_LENGTH for "Erroneous JPEG marker length",
   JERR_NO_SOI for "Not a JPEG file", JERR_OTHER otherwise. *)
From Verif Require Import Base.

Definition MAX_COM_LENGTH : Z := 65000.   (* wrjpgcom.c:51 *)

(* wrjpgcom.c:76-85, rdjpgcom.c:63-72 read_1_byte *)
Definition wread1 (i : list Z) : outcome (Z * list Z) :=
  match i with [] => Error JERR_INPUT_EOF | c :: r => Ret (c, r) end.
(* wrjpgcom.c:89-101, rdjpgcom.c:76-88 read_2_bytes *)
Definition wread2 (i : list Z) : outcome (Z * list Z) :=
  '(c1, r1) <- wread1 i ;; '(c2, r2) <- wread1 r1 ;; Ret (Z.shiftl c1 8 + c2, r2).
(* wrjpgcom.c:112-117 write_2_bytes, 119-124 write_marker *)
Definition write2 (v : Z) : list Z := [Z.land (Z.shiftr v 8) 255; Z.land v 255].
Definition write_marker (m : Z) : list Z := [255; m].

(* wrjpgcom.c:171-195, rdjpgcom.c:128-152 next_marker; the loops consume a byte per turn *)
Fixpoint find_ff (i : list Z) : outcome (list Z) :=
  match i with
  | [] => Error JERR_INPUT_EOF
  | c :: r => if negb (c =? 255) then find_ff r else Ret r
  end.
Fixpoint skip_ff (i : list Z) : outcome (Z * list Z) :=
  match i with
  | [] => Error JERR_INPUT_EOF
  | c :: r => if c =? 255 then skip_ff r else Ret (c, r)
  end.
Definition next_marker (i : list Z) : outcome (Z * list Z) := r <- find_ff i ;; skip_ff r.

(* wrjpgcom.c:206-216, rdjpgcom.c:163-173 first_marker; EOF is not FF *)
Definition first_marker (i : list Z) : outcome (list Z) :=
  match i with
  | c1 :: c2 :: r => if negb (c1 =? 255) || negb (c2 =? 216) then Error JERR_NO_SOI else Ret r
  | _ => Error JERR_NO_SOI
  end.

(* wrjpgcom.c:242-245 / 261-264: n bytes *)
Fixpoint take_bytes (n : nat) (i : list Z) : outcome (list Z * list Z) :=
  match n with
  | O => Ret ([], i)
  | S k => '(c, r) <- wread1 i ;; '(l, r2) <- take_bytes k r ;; Ret (c :: l, r2)
  end.
(* wrjpgcom.c:228-246 copy_variable: bytes written and rest of the input *)
Definition copy_variable (i : list Z) : outcome (list Z * list Z) :=
  '(len, r) <- wread2 i ;;
  if len <? 2 then Error JERR_BAD_LENGTH
  else '(l, r2) <- take_bytes (Z.to_nat (len - 2)) r ;; Ret (write2 len ++ l, r2).
(* wrjpgcom.c:248-265 skip_variable *)
Definition skip_variable (i : list Z) : outcome (list Z) :=
  '(len, r) <- wread2 i ;;
  if len <? 2 then Error JERR_BAD_LENGTH
  else '(_, r2) <- take_bytes (Z.to_nat (len - 2)) r ;; Ret r2.

(* the SOFn cases of wrjpgcom.c:290-302, rdjpgcom.c:339-351 *)
Definition is_SOF (m : Z) : bool :=
  (192 <=? m) && (m <=? 207) && negb (m =? 196) && negb (m =? 200) && negb (m =? 204).

(* wrjpgcom.c:284-326: the loop of scan_JPEG_header; every turn consumes at least two bytes *)
Fixpoint scan_header (fuel : nat) (keep : bool) (i : list Z) : outcome (Z * list Z * list Z) :=
  match fuel with
  | O => Undef
  | S f =>
    '(m, r) <- next_marker i ;;
    if is_SOF m then Ret (m, [], r)
    else if m =? 218 then Error JERR_OTHER
    else if m =? 217 then Ret (m, [], r)
    else if (m =? 254) && negb keep then r2 <- skip_variable r ;; scan_header f keep r2
    else '(w, r2) <- copy_variable r ;;
         '(m', w', r3) <- scan_header f keep r2 ;; Ret (m', write_marker m ++ w ++ w', r3)
  end.

(* wrjpgcom.c:552-572: what main writes for a comment text already collected *)
Definition wrjpgcom (keep : bool) (comment file : list Z) : outcome (list Z) :=
  if MAX_COM_LENGTH <? Z.of_nat (length comment) then Error JERR_OTHER
  else
    r <- first_marker file ;;
    '(m, w, r2) <- scan_header (S (length r)) keep r ;;
    Ret (write_marker 216 ++ w ++
         (if 0 <? Z.of_nat (length comment) then write_marker 254 ++ write2 (Z.of_nat (length comment) + 2) ++ comment else []) ++
         write_marker m ++ r2).

(* ---- rdjpgcom, not verbose; isprint is the C library's, for the locale in force ---- *)
(* printf("\\%03o") of a byte *)
Definition octal3 (c : Z) : list Z := [92; 48 + c / 64; 48 + (c / 8) mod 8; 48 + c mod 8].
(* rdjpgcom.c:228-251 *)
Fixpoint show_com (raw : bool) (isprint : Z -> bool) (last : Z) (l : list Z) : list Z :=
  match l with
  | [] => []
  | ch :: t =>
    (if raw then [ch]
     else if ch =? 13 then [10]
     else if ch =? 10 then (if negb (last =? 13) then [10] else [])
     else if ch =? 92 then [92; 92]
     else if isprint ch then [ch]
     else octal3 ch) ++ show_com raw isprint ch t
  end.
(* rdjpgcom.c:211-256 process_COM *)
Definition process_COM (raw : bool) (isprint : Z -> bool) (i : list Z) : outcome (list Z * list Z) :=
  '(len, r) <- wread2 i ;;
  if len <? 2 then Error JERR_BAD_LENGTH
  else '(l, r2) <- take_bytes (Z.to_nat (len - 2)) r ;; Ret (show_com raw isprint 0 l ++ [10], r2).
(* rdjpgcom.c:333-383 with verbose = 0: the text written to stdout *)
Fixpoint rd_scan (fuel : nat) (raw : bool) (isprint : Z -> bool) (i : list Z) : outcome (list Z) :=
  match fuel with
  | O => Undef
  | S f =>
    '(m, r) <- next_marker i ;;
    if (m =? 218) || (m =? 217) then Ret []
    else if m =? 254 then '(t, r2) <- process_COM raw isprint r ;; t' <- rd_scan f raw isprint r2 ;; Ret (t ++ t')
    else r2 <- skip_variable r ;; rd_scan f raw isprint r2
  end.
Definition rdjpgcom (raw : bool) (isprint : Z -> bool) (file : list Z) : outcome (list Z) :=
  r <- first_marker file ;; rd_scan (S (length r)) raw isprint r.
