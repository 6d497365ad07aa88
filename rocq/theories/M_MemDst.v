(* M_MemDst.v -- data destination managers: jdatadst.c (stdio and memory) and
   jdatadst-tj.c (TurboJPEG memory destination). *)
From Verif Require Import Base.

(* ------------------------------------------------------------------ *)
(* C heap: live malloc blocks.  A byte that was never stored is None. *)
Definition block := list (option Z).
Definition heap := list (nat * block).

Fixpoint hget (h : heap) (a : nat) : option block :=
  match h with
  | [] => None
  | (b, x) :: t => if Nat.eqb a b then Some x else hget t a
  end.
Fixpoint hset (h : heap) (a : nat) (x : block) : heap :=
  match h with
  | [] => []
  | (b, y) :: t => if Nat.eqb a b then (b, x) :: t else (b, y) :: hset t a x
  end.
Fixpoint hdel (h : heap) (a : nat) : heap :=
  match h with
  | [] => []
  | (b, y) :: t => if Nat.eqb a b then t else (b, y) :: hdel t a
  end.

(* jdatadst.c:52-61 / jdatadst-tj.c my_mem_destination_mgr plus the caller's two
   variables *outbuffer and *outsize and the heap.  [d_orc]: what successive
   malloc calls will answer (None or an address already in use = NULL). *)
Record dst := mkDst {
  d_heap : heap;
  d_orc : list (option nat);
  d_outbuffer : option nat;    (* *outbuffer, NULL = None *)
  d_outsize : Z;               (* *outsize *)
  d_newbuffer : option nat;
  d_buffer : option nat;
  d_bufsize : Z;
  d_next : option nat * Z;     (* pub.next_output_byte *)
  d_free : Z;                  (* pub.free_in_buffer *)
  d_alloc : bool
}.

(* malloc: a block bigger than PTRDIFF_MAX is refused (glibc); otherwise the
   oracle decides; the block is a fresh, uninitialised one. *)
Definition malloc (s : dst) (size : Z) : dst * option nat :=
  let fail o := (mkDst (d_heap s) o (d_outbuffer s) (d_outsize s) (d_newbuffer s)
                   (d_buffer s) (d_bufsize s) (d_next s) (d_free s) (d_alloc s), None) in
  match d_orc s with
  | [] => fail []
  | None :: o => fail o
  | Some a :: o =>
    if (2 ^ 63 <=? size) || (match hget (d_heap s) a with Some _ => true | None => false end)
    then fail o
    else (mkDst ((a, repeat None (Z.to_nat size)) :: d_heap s) o (d_outbuffer s) (d_outsize s)
            (d_newbuffer s) (d_buffer s) (d_bufsize s) (d_next s) (d_free s) (d_alloc s), Some a)
  end.

(* free(p): NULL is ignored, a pointer that is not live is undefined *)
Definition free (h : heap) (p : option nat) : outcome heap :=
  match p with
  | None => Ret h
  | Some a => match hget h a with Some _ => Ret (hdel h a) | None => Undef end
  end.

(* memcpy(to, from, n) between blocks *)
Definition memcpy (h : heap) (to from : option nat) (n : Z) : outcome heap :=
  match to, from with
  | Some t, Some f =>
    match hget h t, hget h f with
    | Some bt, Some bf =>
      if (Z.of_nat (length bt) <? n) || (Z.of_nat (length bf) <? n) then Undef
      else Ret (hset h t (firstn (Z.to_nat n) bf ++ skipn (Z.to_nat n) bt))
    | _, _ => Undef
    end
  | _, _ => Undef
  end.

Definition OUTPUT_BUF_SIZE := 4096.

(* jdatadst.c:121-147 empty_mem_output_buffer; [tj]: jdatadst-tj.c:85-113, with
   the extra "if (!dest->alloc) ERREXIT(cinfo, JERR_BUFFER_SIZE)". *)
Definition empty_mem_output_buffer (tj : bool) (s : dst) : outcome dst :=
  if tj && negb (d_alloc s) then Error JERR_BUFFER_SIZE
  else
    let nextsize := u64 (d_bufsize s * 2) in
    let '(s, nextbuffer) := malloc s nextsize in
    match nextbuffer with
    | None => Error JERR_OUT_OF_MEMORY
    | Some a =>
      h <- memcpy (d_heap s) (Some a) (d_buffer s) (d_bufsize s) ;;
      h <- free h (d_newbuffer s) ;;
      Ret (mkDst h (d_orc s) (d_outbuffer s) (d_outsize s)
             (Some a) (Some a) nextsize (Some a, d_bufsize s) (d_bufsize s) (d_alloc s))
    end.

(* jcmarker.c:114-125 emit_byte; jchuff.c/jcarith.c store bytes by the same
   protocol: store, advance, and call empty_output_buffer when the count hits 0. *)
Definition put_byte (tj : bool) (s : dst) (v : Z) : outcome dst :=
  match fst (d_next s) with
  | None => Undef
  | Some a =>
    match hget (d_heap s) a with
    | None => Undef
    | Some b =>
      b <- aset b (snd (d_next s)) (Some v) ;;
      let s' := mkDst (hset (d_heap s) a b) (d_orc s) (d_outbuffer s) (d_outsize s)
                  (d_newbuffer s) (d_buffer s) (d_bufsize s)
                  (Some a, snd (d_next s) + 1) (u64 (d_free s - 1)) (d_alloc s) in
      if d_free s' =? 0 then empty_mem_output_buffer tj s' else Ret s'
    end
  end.

Fixpoint put_bytes (tj : bool) (s : dst) (w : list Z) : outcome dst :=
  match w with
  | [] => Ret s
  | v :: w => s <- put_byte tj s v ;; put_bytes tj s w
  end.

(* jdatadst.c:177-184 term_mem_destination; jdatadst-tj.c:126-133 *)
Definition term_mem_destination (tj : bool) (s : dst) : dst :=
  mkDst (d_heap s) (d_orc s)
    (if negb tj || d_alloc s then d_buffer s else d_outbuffer s)
    (u64 (d_bufsize s - d_free s))
    (d_newbuffer s) (d_buffer s) (d_bufsize s) (d_next s) (d_free s) (d_alloc s).

Definition opt_eqb (a b : option nat) : bool :=
  match a, b with Some x, Some y => Nat.eqb x y | None, None => true | _, _ => false end.

(* jdatadst.c:237-277 jpeg_mem_dest_internal, on a manager of this kind (the
   test for a foreign manager is not modelled).  The caller's variables are
   already in the state. *)
Definition jpeg_mem_dest (s : dst) : outcome dst :=
  let s := mkDst (d_heap s) (d_orc s) (d_outbuffer s) (d_outsize s)
             None (d_buffer s) (d_bufsize s) (d_next s) (d_free s) (d_alloc s) in
  s <- (match d_outbuffer s, d_outsize s =? 0 with
        | Some _, false => Ret s
        | _, _ =>
          let '(s, a) := malloc s OUTPUT_BUF_SIZE in
          match a with
          | None => Error JERR_OUT_OF_MEMORY
          | Some a =>
            Ret (mkDst (d_heap s) (d_orc s) (Some a) OUTPUT_BUF_SIZE (Some a)
                   (d_buffer s) (d_bufsize s) (d_next s) (d_free s) (d_alloc s))
          end
        end) ;;
  Ret (mkDst (d_heap s) (d_orc s) (d_outbuffer s) (d_outsize s) (d_newbuffer s)
         (d_outbuffer s) (d_outsize s) (d_outbuffer s, 0) (d_outsize s) (d_alloc s)).

(* jdatadst-tj.c:147-202 jpeg_mem_dest_tj.  A new manager has newbuffer =
   buffer = NULL; afterwards the fields persist from image to image. *)
Definition jpeg_mem_dest_tj (s : dst) (alloc : bool) : outcome dst :=
  let reused := opt_eqb (d_buffer s) (d_outbuffer s)
                && negb (opt_eqb (d_outbuffer s) None) && alloc in
  let s := mkDst (d_heap s) (d_orc s) (d_outbuffer s) (d_outsize s)
             (d_newbuffer s) (d_buffer s) (d_bufsize s) (d_next s) (d_free s) alloc in
  s <- (match d_outbuffer s, d_outsize s =? 0 with
        | Some _, false => Ret s
        | _, _ =>
          if alloc then
            let '(s, a) := malloc s OUTPUT_BUF_SIZE in
            match a with
            | None => Error JERR_OUT_OF_MEMORY
            | Some a =>
              Ret (mkDst (d_heap s) (d_orc s) (Some a) OUTPUT_BUF_SIZE (Some a)
                     (d_buffer s) (d_bufsize s) (d_next s) (d_free s) (d_alloc s))
            end
          else Error JERR_BUFFER_SIZE
        end) ;;
  let bufsize := if negb reused then d_outsize s else d_bufsize s in
  Ret (mkDst (d_heap s) (d_orc s) (d_outbuffer s) (d_outsize s) (d_newbuffer s)
         (d_outbuffer s) bufsize (d_outbuffer s, 0) bufsize (d_alloc s)).

(* One image: set the destination up, write the bytes of the datastream,
   terminate (jpeg_finish_compress, jcapimin.c:177-229). *)
Definition image_mem (s : dst) (w : list Z) : outcome dst :=
  s <- jpeg_mem_dest s ;; s <- put_bytes false s w ;; Ret (term_mem_destination false s).
Definition image_tj (alloc : bool) (s : dst) (w : list Z) : outcome dst :=
  s <- jpeg_mem_dest_tj s alloc ;; s <- put_bytes true s w ;; Ret (term_mem_destination true s).

(* ------------------------------------------------------------------ *)
(* stdio destination, jdatadst.c:39-47: [f_buf] = the 4096-byte buffer,
   [f_file] = bytes written to the FILE, [f_ok] = what each fwrite will do *)
Record fdst := mkF { f_buf : block; f_next : Z; f_free : Z; f_file : list (option Z);
                     f_ok : list bool }.

(* jdatadst.c:62-74 init_destination *)
Definition init_destination (file : list (option Z)) (ok : list bool) : fdst :=
  mkF (repeat None 4096) 0 OUTPUT_BUF_SIZE file ok.

(* fwrite(buffer, 1, n, outfile): all or a failure *)
Definition fwrite (f : fdst) (n : Z) : outcome fdst :=
  match f_ok f with
  | true :: o =>
    Ret (mkF (f_buf f) (f_next f) (f_free f)
           (f_file f ++ firstn (Z.to_nat n) (f_buf f)) o)
  | _ => Error JERR_FILE_WRITE
  end.

(* jdatadst.c:106-119 empty_output_buffer *)
Definition empty_output_buffer (f : fdst) : outcome fdst :=
  f <- fwrite f OUTPUT_BUF_SIZE ;;
  Ret (mkF (f_buf f) 0 OUTPUT_BUF_SIZE (f_file f) (f_ok f)).

Definition f_put (f : fdst) (v : Z) : outcome fdst :=
  b <- aset (f_buf f) (f_next f) (Some v) ;;
  let f := mkF b (f_next f + 1) (u64 (f_free f - 1)) (f_file f) (f_ok f) in
  if f_free f =? 0 then empty_output_buffer f else Ret f.

Fixpoint f_puts (f : fdst) (w : list Z) : outcome fdst :=
  match w with
  | [] => Ret f
  | v :: w => f <- f_put f v ;; f_puts f w
  end.

(* jdatadst.c:160-175 term_destination (ferror = a failed flush) *)
Definition term_destination (f : fdst) : outcome fdst :=
  let datacount := OUTPUT_BUF_SIZE - f_free f in
  f <- (if 0 <? datacount then fwrite f datacount else Ret f) ;;
  match f_ok f with
  | true :: o => Ret (mkF (f_buf f) (f_next f) (f_free f) (f_file f) o)
  | _ => Error JERR_FILE_WRITE
  end.
