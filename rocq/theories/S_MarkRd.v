(* S_MarkRd.v -- what a caller of the header parser relies on (C31), stated without the reader's routines: the limits the
   tables, the frame and the scan description obey, and the histories the parser is used in. *)
From Verif Require Import Base M_MarkRd.

Definition byte_val (x : Z) : Prop := 0 <= x <= 255.
Definition Each {A} (P : A -> Prop) (l : list (option A)) : Prop := forall n x, nth_error l n = Some (Some x) -> P x.
(* a quantization table is 64 16-bit values *)
Definition legal_quant (t : list Z) : Prop := length t = 64%nat /\ forall k v, nth_error t k = Some v -> 0 <= v <= 65535.
(* a Huffman table is counts for lengths 1..16 (entry 0 unused) that sum to at most 256, and 256 symbol slots *)
Definition legal_huff (h : list Z * list Z) : Prop :=
  length (fst h) = 17%nat /\ length (snd h) = 256%nat /\ fold_right Z.add 0 (fst h) <= 256 /\
  (forall k v, nth_error (fst h) k = Some v -> byte_val v) /\ (forall k v, nth_error (snd h) k = Some v -> byte_val v).
Definition legal_tables (s : rst) : Prop :=
  length (qt s) = 4%nat /\ Each legal_quant (qt s) /\ length (dch s) = 4%nat /\ Each legal_huff (dch s) /\ length (ach s) = 4%nat /\ Each legal_huff (ach s) /\
  length (aL s) = 16%nat /\ length (aU s) = 16%nat /\ length (aK s) = 16%nat /\
  (forall k a b c, nth_error (aL s) k = Some a -> nth_error (aU s) k = Some b -> nth_error (aK s) k = Some c ->
     0 <= a <= 15 /\ 0 <= b <= 15 /\ byte_val c /\ (saw_SOI s = true -> a <= b)) /\
  0 <= ri s <= 65535.
(* the frame header: a non-empty image with 1..255 components, described by exactly that many entries *)
Definition legal_comp (c : comp) : Prop := byte_val (c_id c) /\ 0 <= c_h c <= 15 /\ 0 <= c_v c <= 15 /\ byte_val (c_q c) /\ 0 <= c_dc c <= 15 /\ 0 <= c_ac c <= 15.
Definition legal_frame (s : rst) : Prop :=
  1 <= height s <= 65535 /\ 1 <= width s <= 65535 /\ 1 <= ncomp s <= 255 /\
  exists cs, comps s = Some cs /\ Z.of_nat (length cs) = ncomp s /\ Forall legal_comp cs.
(* the scan header: 1..4 distinct components of the frame, byte spectral limits, 4-bit successive approximation *)
Definition legal_scan (s : rst) : Prop :=
  1 <= nscan s <= 4 /\ length (cur s) = 4%nat /\
  (forall i, (Z.of_nat i < nscan s) -> exists ci, nth_error (cur s) i = Some (Some ci) /\ 0 <= ci < ncomp s) /\
  (forall i j ci, Z.of_nat i < nscan s -> Z.of_nat j < nscan s -> nth_error (cur s) i = Some (Some ci) -> nth_error (cur s) j = Some (Some ci) -> i = j) /\
  byte_val (rSs s) /\ byte_val (rSe s) /\ 0 <= rAh s <= 15 /\ 0 <= rAl s <= 15.

Definition bytes (l : list Z) : Prop := Forall byte_val l.
(* any use of one decompression object, as far as the marker reader is concerned *)
Inductive used : rst -> list Z -> Prop :=
| u_init l : bytes l -> used init_rst l                                            (* jpeg_create_decompress, jpeg_*_src *)
| u_save s l c lim s' : used s l -> 0 <= lim -> jpeg_save_markers c lim s = Ret s' -> used s' l
| u_feed s l f : used s l -> bytes f -> used (fst (feed s l f)) (snd (feed s l f))    (* more input arrives *)
| u_susp s l s' l' : used s l -> read_markers s l = RSusp s' l' -> used s' l'
| u_done s l r s' l' m rest n : used s l -> read_markers s l = ROk r s' l' ->
    byte_val m -> bytes rest -> 0 <= n -> used (set_next_rst (set_unread s' m) n) rest   (* the entropy decoder reads on, and may stop at any marker *)
| u_err s l e s' rest : used s l -> read_markers s l = RErr e s' -> bytes rest ->
    used (set_saved (set_skip (reset_marker_reader s') 0) []) rest                 (* jpeg_abort after an error, then a new source *)
| u_reset s l rest : used s l -> bytes rest -> used (set_saved (set_skip (reset_marker_reader s) 0) []) rest.
