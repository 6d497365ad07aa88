(* M_Coef.v -- the coefficient controllers: jccoefct.c, jctrans.c, jdcoefct.c.

   The DCT and the entropy coder are abstracted: the forward DCT is a function
   from the sample position of a block's top left corner to its coefficients, the
   entropy coder is a channel that carries MCUs (lists of blocks) in order and may
   refuse (suspend) at any MCU, as told by an oracle. *)
From Verif Require Import Base M_Geom.
Open Scope nat_scope.

(* a block: the DC coefficient and the 63 AC coefficients *)
Definition block : Type := Z * list Z.
Definition zeros : list Z := repeat 0%Z 63.

(* The dimensions of a component of the scan / frame (M_Geom.v), as naturals. *)
Record kc := mkKc { k_idx : nat; k_h : nat; k_v : nat; k_wib : nat; k_hib : nat; k_DS : nat;
                    k_MW : nat; k_MH : nat; k_MSW : nat; k_lcw : nat; k_lrh : nat }.
Record ks := mkKs { k_comps : list kc; k_cols : nat; k_T : nat }.
Definition kc_of (sc : scomp) : kc :=
  let c := s_comp sc in
  mkKc (Z.to_nat (c_index c)) (Z.to_nat (c_h c)) (Z.to_nat (c_v c))
       (Z.to_nat (c_width_in_blocks c)) (Z.to_nat (c_height_in_blocks c)) (Z.to_nat (c_DCT_scaled_size c))
       (Z.to_nat (s_MCU_width sc)) (Z.to_nat (s_MCU_height sc)) (Z.to_nat (s_MCU_sample_width sc))
       (Z.to_nat (s_last_col_width sc)) (Z.to_nat (s_last_row_height sc)).
Definition ks_of (f : frame) (s : scan) : ks :=
  mkKs (map kc_of (s_comps s)) (Z.to_nat (s_MCUs_per_row s)) (Z.to_nat (f_total_iMCU_rows f)).

Fixpoint foldM {A S} (f : A -> S -> outcome S) (l : list A) (s : S) : outcome S :=
  match l with [] => Ret s | a :: t => s' <- f a s ;; foldM f t s' end.

(* Virtual arrays, one per component; None = never written.  Each is padded to a
   multiple of the sampling factors (jccoefct.c:586-592, jdcoefct.c:852-858). *)
Definition varr : Type := nat -> nat -> nat -> option block.
Definition nround_up (a b : nat) : nat := (a + (b - 1)) - (a + (b - 1)) mod b.
(* jmemmgr.c:1019-1023 access_virt_barray: v_samp_factor rows from iMCU row [row] *)
Definition access (c : kc) (row : nat) : outcome unit :=
  if nround_up (k_hib c) (k_v c) <? row * k_v c + k_v c then Error JERR_BAD_VIRTUAL_ACCESS else Ret tt.
Definition vget (a : varr) (c : kc) (r b : nat) : outcome block :=
  if (nround_up (k_hib c) (k_v c) <=? r) || (nround_up (k_wib c) (k_h c) <=? b) then Undef
  else match a (k_idx c) r b with Some x => Ret x | None => Undef end.
Definition vset (a : varr) (c : kc) (r b : nat) (x : block) : outcome varr :=
  if (nround_up (k_hib c) (k_v c) <=? r) || (nround_up (k_wib c) (k_h c) <=? b) then Undef
  else Ret (fun i r' b' => if (i =? k_idx c) && (r' =? r) && (b' =? b) then Some x else a i r' b').

(* MCU_buffer: C_MAX_BLOCKS_IN_MCU blocks, filled from index 0 on *)
Definition put (buf l : list block) : outcome (list block) :=
  if 10 <? length buf + length l then Undef else Ret (buf ++ l).
Definition dc_at (buf : list block) (i : nat) : outcome Z :=
  match nth_error buf i with Some b => Ret (fst b) | None => Undef end.
(* index blkn - 1 *)
Definition dc_before (buf : list block) : outcome Z :=
  match length buf with O => Undef | S n => dc_at buf n end.

(* ---------------- compressor ---------------- *)
Record est := mkE { e_row : nat; e_ctr : nat; e_vo : nat; e_rows : nat;
                    e_orc : list bool; e_out : list (list block) }.

Section Scan.
Variable s : ks.

(* jccoefct.c:78-101 = jctrans.c:249-272 start_iMCU_row (the number of MCU rows) *)
Definition rows_per_iMCU (row : nat) : nat :=
  if 1 <? length (k_comps s) then 1
  else match k_comps s with
       | c :: _ => if row <? k_T s - 1 then k_v c else k_lrh c
       | [] => 0
       end.
(* jccoefct.c:108-114, jctrans.c:279-289 start_pass_coef *)
Definition e_start (orc : list bool) : est := mkE 0 0 0 (rows_per_iMCU 0) orc [].

(* encode_mcu(cinfo, MCU_buffer), called through the entropy module *)
Definition encode_mcu (m : list block) (e : est) : bool * est :=
  if hd true (e_orc e)
  then (true, mkE (e_row e) (e_ctr e) (e_vo e) (e_rows e) (tl (e_orc e)) (e_out e ++ [m]))
  else (false, mkE (e_row e) (e_ctr e) (e_vo e) (e_rows e) (tl (e_orc e)) (e_out e)).

(* The loop over an iMCU row, common to compress_data (jccoefct.c:163-233),
   compress_output (jccoefct.c:521-552) and jctrans.c:316-374; [build row yoffset
   MCU_col_num] makes the MCU. *)
Section Loop.
Variable build : nat -> nat -> nat -> outcome (list block).
Fixpoint col_loop (n col yo : nat) (e : est) : outcome (bool * est) :=
  match n with
  | O => Ret (true, e)
  | S n =>
    m <- build (e_row e) yo col ;;
    let (ok, e) := encode_mcu m e in
    if ok then col_loop n (col + 1) yo e
    else Ret (false, mkE (e_row e) col yo (e_rows e) (e_orc e) (e_out e))
  end.
Fixpoint row_loop (n yo : nat) (e : est) : outcome (bool * est) :=
  match n with
  | O => Ret (true, e)
  | S n =>
    '(ok, e) <- col_loop (k_cols s - e_ctr e) (e_ctr e) yo e ;;
    if ok then row_loop n (yo + 1) (mkE (e_row e) 0 (e_vo e) (e_rows e) (e_orc e) (e_out e))
    else Ret (false, e)
  end.
Definition imcu_row (e : est) : outcome (bool * est) :=
  '(ok, e) <- row_loop (e_rows e - e_vo e) (e_vo e) e ;;
  if ok then Ret (true, mkE (e_row e + 1) 0 0 (rows_per_iMCU (e_row e + 1)) (e_orc e) (e_out e))
  else Ret (false, e).
End Loop.

(* MCU_buffer[blkn + bi][0][0] = MCU_buffer[blkn + bi - 1][0][0] after zeroing *)
Fixpoint dummies_chain (n : nat) (buf : list block) : outcome (list block) :=
  match n with
  | O => Ret buf
  | S n => d <- dc_before buf ;; buf <- put buf [(d, zeros)] ;; dummies_chain n buf
  end.

(* forward_DCT on [n] blocks from sample row y, column x of component ci
   (jcdctmgr.c, abstracted): F ci y x is the block with that top left corner *)
Definition fdct (F : nat -> nat -> nat -> block) (ci y x n : nat) : list block :=
  map (fun i => F ci y (x + i * 8)) (seq 0 n).

(* jccoefct.c:177-222: one row of blocks of one component.  [input_buf] holds the
   samples of iMCU row [row], hence the offset row * v_samp * DCTSIZE. *)
Definition cd_brow (F : nat -> nat -> nat -> block) (row yo col : nat) (c : kc) (yindex : nat)
    (buf : list block) : outcome (list block) :=
  let blockcnt := if col <? k_cols s - 1 then k_MW c else k_lcw c in
  let xpos := col * k_MSW c in
  let ypos := yo * 8 + yindex * 8 in
  if (row <? k_T s - 1) || (yo + yindex <? k_lrh c) then
    buf <- put buf (fdct F (k_idx c) (row * k_v c * 8 + ypos) xpos blockcnt) ;;
    if blockcnt <? k_MW c then dummies_chain (k_MW c - blockcnt) buf else Ret buf
  else
    d <- dc_before buf ;;
    put buf (repeat (d, zeros) (k_MW c)).
Definition cd_build (F : nat -> nat -> nat -> block) (row yo col : nat) : outcome (list block) :=
  foldM (fun c buf => foldM (cd_brow F row yo col c) (seq 0 (k_MH c)) buf) (k_comps s) [].
(* jccoefct.c:148-239 compress_data *)
Definition compress_data (F : nat -> nat -> nat -> block) (e : est) : outcome (bool * est) :=
  imcu_row (cd_build F) e.

(* jccoefct.c:526-538 *)
Definition co_brow (a : varr) (row yo col : nat) (c : kc) (yindex : nat) (buf : list block)
  : outcome (list block) :=
  let start_col := col * k_MW c in
  foldM (fun xindex buf => b <- vget a c (row * k_v c + (yindex + yo)) (start_col + xindex) ;; put buf [b])
        (seq 0 (k_MW c)) buf.
Definition co_build (a : varr) (row yo col : nat) : outcome (list block) :=
  foldM (fun c buf => foldM (co_brow a row yo col c) (seq 0 (k_MH c)) buf) (k_comps s) [].
(* jccoefct.c:499-553 compress_output *)
Definition compress_output (a : varr) (e : est) : outcome (bool * est) :=
  _ <- foldM (fun c _ => access c (e_row e)) (k_comps s) tt ;;
  imcu_row (co_build a) e.

(* jctrans.c:333-359 *)
Definition ct_brow (a : varr) (row yo col : nat) (c : kc) (yindex : nat) (buf : list block)
  : outcome (list block) :=
  let start_col := col * k_MW c in
  let blockcnt := if col <? k_cols s - 1 then k_MW c else k_lcw c in
  let n := if (row <? k_T s - 1) || (yindex + yo <? k_lrh c) then blockcnt else 0 in
  buf <- foldM (fun xindex buf => b <- vget a c (row * k_v c + (yindex + yo)) (start_col + xindex) ;; put buf [b])
               (seq 0 n) buf ;;
  dummies_chain (k_MW c - n) buf.
Definition ct_build (a : varr) (row yo col : nat) : outcome (list block) :=
  foldM (fun c buf => foldM (ct_brow a row yo col c) (seq 0 (k_MH c)) buf) (k_comps s) [].
(* jctrans.c:302-375 compress_output *)
Definition trans_output (a : varr) (e : est) : outcome (bool * est) :=
  _ <- foldM (fun c _ => access c (e_row e)) (k_comps s) tt ;;
  imcu_row (ct_build a) e.

(* jccoefct.c:276-349 compress_first_pass, for one component of the frame *)
Definition fp_rows (c : kc) (row : nat) : nat :=
  if row <? k_T s - 1 then k_v c
  else let r := k_hib c mod k_v c in if r =? 0 then k_v c else r.
Definition fp_ndummy (c : kc) : nat :=
  let n := k_wib c mod k_h c in if 0 <? n then k_h c - n else n.
(* a real block row: the DCT, then dummies at the right *)
Definition fp_brow (F : nat -> nat -> nat -> block) (row : nat) (c : kc) (br : nat) (a : varr) : outcome varr :=
  let r := row * k_v c + br in
  a <- foldM (fun b a => vset a c r b (F (k_idx c) (row * k_v c * 8 + br * 8) (0 + b * 8))) (seq 0 (k_wib c)) a ;;
  let nd := fp_ndummy c in
  if 0 <? nd then
    last <- (match k_wib c with O => Undef | S n => vget a c r n end) ;;
    foldM (fun bi a => vset a c r (k_wib c + bi) (fst last, zeros)) (seq 0 nd) a
  else Ret a.
(* a dummy block row *)
Definition fp_drow (row : nat) (c : kc) (br : nat) (a : varr) : outcome varr :=
  let r := row * k_v c + br in
  let across := k_wib c + fp_ndummy c in
  foldM (fun mcu a =>
      last <- (match br with O => Undef | S q => vget a c (row * k_v c + q) (mcu * k_h c + (k_h c - 1)) end) ;;
      foldM (fun bi a => vset a c r (mcu * k_h c + bi) (fst last, zeros)) (seq 0 (k_h c)) a)
    (seq 0 (across / k_h c)) a.
Definition fp_comp (F : nat -> nat -> nat -> block) (row : nat) (c : kc) (a : varr) : outcome varr :=
  _ <- access c row ;;
  let br := fp_rows c row in
  a <- foldM (fp_brow F row c) (seq 0 br) a ;;
  if row =? k_T s - 1 then foldM (fp_drow row c) (seq br (k_v c - br)) a else Ret a.
Definition compress_first_pass (F : nat -> nat -> nat -> block) (all : list kc) (a : varr) (e : est)
  : outcome (bool * varr * est) :=
  a <- foldM (fp_comp F (e_row e)) all a ;;
  '(ok, e) <- compress_output a e ;;
  Ret (ok, a, e).

(* ---------------- decompressor ---------------- *)
Record dst := mkDst { d_row : nat; d_ctr : nat; d_vo : nat; d_rows : nat;
                      d_orc : list bool; d_in : list (list block) }.
(* jdcoefct.h:66-86 start_iMCU_row, jdcoefct.c:46-50 start_input_pass *)
Definition d_rows_per_iMCU (row : nat) : nat :=
  if 1 <? length (k_comps s) then 1
  else match k_comps s with
       | c :: _ => if row <? k_T s - 1 then k_v c else k_lrh c
       | [] => 0
       end.
Definition d_start (orc : list bool) (inp : list (list block)) : dst := mkDst 0 0 0 (d_rows_per_iMCU 0) orc inp.

(* decode_mcu(cinfo, MCU_buffer): FALSE when the oracle says so or when no MCU is
   left; simplification: a refused call leaves the blocks alone *)
Definition decode_mcu (d : dst) : option (list block) * dst :=
  let d' := mkDst (d_row d) (d_ctr d) (d_vo d) (d_rows d) (tl (d_orc d)) (d_in d) in
  if hd true (d_orc d) then
    match d_in d with
    | [] => (None, d')
    | m :: t => (Some m, mkDst (d_row d) (d_ctr d) (d_vo d) (d_rows d) (tl (d_orc d)) t)
    end
  else (None, d').

Inductive dret := ROW_COMPLETED | SCAN_COMPLETED | SUSPENDED.

(* The loop over an iMCU row, common to decompress_onepass (jdcoefct.c:95-166) and
   consume_data (jdcoefct.c:217-250); [store row yoffset MCU_col_num mcu] puts the
   blocks where they belong. *)
Section DLoop.
Variable A : Type.
Variable store : nat -> nat -> nat -> list block -> A -> outcome A.
Fixpoint d_col_loop (n col yo : nat) (d : dst) (a : A) : outcome (bool * dst * A) :=
  match n with
  | O => Ret (true, d, a)
  | S n =>
    match decode_mcu d with
    | (None, d) => Ret (false, mkDst (d_row d) col yo (d_rows d) (d_orc d) (d_in d), a)
    | (Some m, d) => a <- store (d_row d) yo col m a ;; d_col_loop n (col + 1) yo d a
    end
  end.
Fixpoint d_row_loop (n yo : nat) (d : dst) (a : A) : outcome (bool * dst * A) :=
  match n with
  | O => Ret (true, d, a)
  | S n =>
    '(ok, d, a) <- d_col_loop (k_cols s - d_ctr d) (d_ctr d) yo d a ;;
    if ok : bool then d_row_loop n (yo + 1) (mkDst (d_row d) 0 (d_vo d) (d_rows d) (d_orc d) (d_in d)) a
    else Ret (false, d, a)
  end.
Definition d_imcu_row (d : dst) (a : A) : outcome (dret * dst * A) :=
  '(ok, d, a) <- d_row_loop (d_rows d - d_vo d) (d_vo d) d a ;;
  if ok : bool then
    let row := d_row d + 1 in
    if row <? k_T s then Ret (ROW_COMPLETED, mkDst row 0 0 (d_rows_per_iMCU row) (d_orc d) (d_in d), a)
    else Ret (SCAN_COMPLETED, mkDst row (d_ctr d) (d_vo d) (d_rows d) (d_orc d) (d_in d), a)
  else Ret (SUSPENDED, d, a).
End DLoop.

(* jdcoefct.c:222-234: the blocks of the MCU go to MCU_buffer[0], [1], ... *)
Definition cs_brow (row yo col : nat) (c : kc) (yindex : nat) (p : list block * varr) : outcome (list block * varr) :=
  let start_col := col * k_MW c in
  foldM (fun xindex (p : list block * varr) => let (m, a) := p in
      match m with
      | [] => Undef
      | b :: m => a <- vset a c (row * k_v c + (yindex + yo)) (start_col + xindex) b ;; Ret (m, a)
      end) (seq 0 (k_MW c)) p.
Definition cs_store (row yo col : nat) (m : list block) (a : varr) : outcome varr :=
  '(rest, a) <- foldM (fun c p => foldM (cs_brow row yo col c) (seq 0 (k_MH c)) p) (k_comps s) (m, a) ;;
  match rest with [] => Ret a | _ => Undef end.
(* jdcoefct.c:193-259 consume_data *)
Definition consume_data (d : dst) (a : varr) : outcome (dret * dst * varr) :=
  _ <- foldM (fun c _ => access c (d_row d)) (k_comps s) tt ;;
  d_imcu_row varr cs_store d a.

(* What is handed to the inverse DCT: component, sample row and column of the
   output plane, coefficients.  [output_buf] is the strip of iMCU row [row]. *)
Record ev := mkEv { v_ci : nat; v_y : nat; v_x : nat; v_blk : block }.

(* jdcoefct.c:117-163.  [first], [last]: master->first_iMCU_col / last_iMCU_col;
   [needed]: component_needed. *)
Variable first last : nat.
Variable needed : nat -> bool.
Definition op_brow (row yo col : nat) (m : list block) (c : kc) (yindex : nat) (p : nat * list ev)
  : outcome (nat * list ev) :=
  let (blkn, l) := p in
  let useful_width := if col <? k_cols s - 1 then k_MW c else k_lcw c in
  let start_col := (col - first) * k_MSW c in
  l <- (if (row <? k_T s - 1) || (yo + yindex <? k_lrh c) then
          foldM (fun xindex l =>
              match nth_error m (blkn + xindex) with
              | None => Undef
              | Some b => Ret (l ++ [mkEv (k_idx c) (row * k_v c * k_DS c + yo * k_DS c + yindex * k_DS c)
                                        (start_col + xindex * k_DS c) b])
              end) (seq 0 useful_width) l
        else Ret l) ;;
  Ret (blkn + k_MW c, l).
Definition op_store (row yo col : nat) (m : list block) (l : list ev) : outcome (list ev) :=
  if (first <=? col) && (col <=? last) then
    '(_, l) <- foldM (fun c p =>
        if needed (k_idx c) then foldM (op_brow row yo col m c) (seq 0 (k_MH c)) p
        else let (blkn, l) := p in Ret (blkn + k_MW c * k_MH c, l)) (k_comps s) (0, l) ;;
    Ret l
  else Ret l.
(* jdcoefct.c:83-176 decompress_onepass *)
Definition decompress_onepass (d : dst) (l : list ev) : outcome (dret * dst * list ev) :=
  d_imcu_row (list ev) op_store d l.

End Scan.

(* jdcoefct.c:282-325: output of iMCU row [row] from the virtual arrays, for the
   components [all] of the frame.  Simplification: the input is taken to be far
   enough ahead (lines 282-288). *)
Definition dd_comp (T : nat) (firstc lastc : nat -> nat) (needed : nat -> bool) (a : varr) (row : nat) (c : kc)
    (l : list ev) : outcome (list ev) :=
  if needed (k_idx c) then
    _ <- access c row ;;
    let block_rows := if row <? T - 1 then k_v c
                      else let r := k_hib c mod k_v c in if r =? 0 then k_v c else r in
    foldM (fun br l =>
      foldM (fun i l =>
          b <- vget a c (row * k_v c + br) (firstc (k_idx c) + i) ;;
          Ret (l ++ [mkEv (k_idx c) (row * k_v c * k_DS c + br * k_DS c) (i * k_DS c) b]))
        (seq 0 (lastc (k_idx c) + 1 - firstc (k_idx c))) l) (seq 0 block_rows) l
  else Ret l.
Definition decompress_data (T : nat) (firstc lastc : nat -> nat) (needed : nat -> bool) (all : list kc) (a : varr)
    (row : nat) (l : list ev) : outcome (list ev) :=
  foldM (dd_comp T firstc lastc needed a row) all l.
