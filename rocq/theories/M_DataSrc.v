(* M_DataSrc.v -- data source managers of jdatasrc.c / jdatasrc-tj.c with their
   real entry points (the entropy-decoder models use the simpler M_Source). *)
From Verif Require Import Base.

(* jdatasrc.c:29-36 my_source_mgr.  [q_buf] = next_input_byte[0..bytes_in_buffer);
   [q_file] = bytes fread has not delivered yet; [q_orc] = how many bytes each
   successful fread returns (at least 1, at most INPUT_BUF_SIZE; any other
   number in the oracle is clipped); [q_mem] = memory source (no file). *)
Record src := mkQ { q_mem : bool; q_buf : list Z; q_file : list Z; q_orc : list nat;
                    q_start : bool; q_warn : nat }.

Definition INPUT_BUF_SIZE : nat := 4096.

(* fread(buffer, 1, INPUT_BUF_SIZE, infile): 0 only at end of file *)
Definition fread_count (s : src) : nat :=
  Nat.min (length (q_file s)) (Nat.max 1 (Nat.min INPUT_BUF_SIZE (hd INPUT_BUF_SIZE (q_orc s)))).

(* jdatasrc.c:99-122 fill_input_buffer (stdio) *)
Definition fill_stdio (s : src) : outcome src :=
  let nbytes := fread_count s in
  let got := firstn nbytes (q_file s) in
  let rest := skipn nbytes (q_file s) in
  if Nat.eqb nbytes 0 then
    if q_start s then Error JERR_INPUT_EMPTY
    else Ret (mkQ (q_mem s) [255; 217] rest (tl (q_orc s)) false (S (q_warn s)))
  else Ret (mkQ (q_mem s) got rest (tl (q_orc s)) false (q_warn s)).

(* jdatasrc.c:124-144 fill_mem_input_buffer *)
Definition fill_mem (s : src) : outcome src :=
  Ret (mkQ (q_mem s) [255; 217] (q_file s) (q_orc s) (q_start s) (S (q_warn s))).

Definition fill (s : src) : outcome src := if q_mem s then fill_mem s else fill_stdio s.

(* jdatasrc.c:158-179 skip_input_data: while (num_bytes > bytes_in_buffer) ... *)
Fixpoint skip_loop (fuel : nat) (s : src) (num : Z) : outcome (src * Z) :=
  if num <=? Z.of_nat (length (q_buf s)) then Ret (s, num)
  else match fuel with
       | O => Undef
       | S f =>
         let num := num - Z.of_nat (length (q_buf s)) in
         s <- fill s ;; skip_loop f s num
       end.
Definition skip_input_data (s : src) (num : Z) : outcome src :=
  if 0 <? num then
    '(s, n) <- skip_loop (Z.to_nat num + 1) s num ;;
    Ret (mkQ (q_mem s) (skipn (Z.to_nat n) (q_buf s)) (q_file s) (q_orc s) (q_start s) (q_warn s))
  else Ret s.

(* jdmarker.c:64-101 MAKE_BYTE_AVAIL + GETJOCTET, jdhuff.c:301-312: one byte *)
Definition input_byte (s : src) : outcome (Z * src) :=
  s <- (match q_buf s with [] => fill s | _ => Ret s end) ;;
  match q_buf s with
  | b :: r => Ret (b, mkQ (q_mem s) r (q_file s) (q_orc s) (q_start s) (q_warn s))
  | [] => Undef
  end.

(* jdatasrc.c:47-58 init_source / 60-64 init_mem_source (start of each image) *)
Definition init_source (s : src) : src :=
  if q_mem s then s
  else mkQ (q_mem s) (q_buf s) (q_file s) (q_orc s) true (q_warn s).

(* jdatasrc.c:212-247 jpeg_stdio_src *)
Definition jpeg_stdio_src (file : list Z) (orc : list nat) : src :=
  mkQ false [] file orc false 0.

(* jdatasrc.c:257-291 jpeg_mem_src: NULL or empty input is an error *)
Definition jpeg_mem_src (inbuffer : option (list Z)) : outcome src :=
  match inbuffer with
  | None => Error JERR_INPUT_EMPTY
  | Some d => if Nat.eqb (length d) 0 then Error JERR_INPUT_EMPTY
              else Ret (mkQ true d [] [] false 0)
  end.

(* What a decoder asks of its source. *)
Inductive request := ReadByte | Skip (n : Z) | NewImage.

(* Serve requests; the result lists the bytes read. *)
Fixpoint serve (s : src) (l : list request) : outcome (list Z * src) :=
  match l with
  | [] => Ret ([], s)
  | ReadByte :: l =>
    '(b, s) <- input_byte s ;; '(bs, s) <- serve s l ;; Ret (b :: bs, s)
  | Skip n :: l => s <- skip_input_data s n ;; serve s l
  | NewImage :: l => serve (init_source s) l
  end.
