(* M_DMain.v -- jdmainct.c: the decompressor's main controller, with and without
   context rows, feeding the separate upsampler of jdsample.c.

   One component is modelled (all components go through the same steps with
   their own row-group height).  A sample row is represented by its row number
   within the component, counted from the top of the image; what a row contains
   is decided by the coefficient controller and the IDCT, not here.  Row
   pointers are modelled as pointers: the context case permutes and aliases
   pointer lists, so the model keeps the lists and the workspace separately. *)
From Verif Require Import Base.
Open Scope nat_scope.

(* Constants of an output pass: min_DCT_scaled_size M, max_v_samp_factor v,
   rows of this component per row group rg, output_height O, total_iMCU_rows T,
   downsampled_height dh, need_context_rows *)
Record dcfg := mkG { g_M : nat; g_v : nat; g_rg : nat; g_O : nat; g_T : nat; g_dh : nat;
                     g_context : bool }.

(* An array of pointers, indices 0 .. size-1 (index 0 is xbuffer[-rgroup]);
   None = not initialised.  The workspace maps a row slot to the row stored there. *)
Definition ptrs := nat -> option nat.
Definition work := nat -> option nat.

Definition fset {A} (f : nat -> A) (i : nat) (x : A) : nat -> A :=
  fun j => if j =? i then x else f j.

(* for (i = 0; i < n; i++) f[dst + i] = f[src + i] *)
Fixpoint copy_loop (n i : nat) (dst src : nat) (f : ptrs) : ptrs :=
  match n with O => f | S m => copy_loop m (S i) dst src (fset f (dst + i) (f (src + i))) end.
(* for (i = 0; i < n; i++) f[dst + i] = f[src] *)
Fixpoint dup_loop (n i : nat) (dst src : nat) (f : ptrs) : ptrs :=
  match n with O => f | S m => dup_loop m (S i) dst src (fset f (dst + i) (f src)) end.
(* for (i = 0; i < n; i++) f[dst + i] = src + i   (addresses of workspace rows) *)
Fixpoint addr_loop (n i : nat) (dst src : nat) (f : ptrs) : ptrs :=
  match n with O => f | S m => addr_loop m (S i) dst src (fset f (dst + i) (Some (src + i))) end.

Inductive cstate := CTX_PREPARE_FOR_IMCU | CTX_PROCESS_IMCU | CTX_POSTPONED_ROW.

(* jdmainct.h:22-42 my_main_controller (one component).  In the pointer lists
   index i+rg stands for xbuf[i], as the C code offsets the list by rgroup. *)
Record dmain := mkM { m_full : bool; m_rgc : nat; m_x0 : ptrs; m_x1 : ptrs; m_which : bool;
                      m_cs : cstate; m_avail : nat; m_ctr : nat; m_ws : work }.

(* jdsample.h my_upsampler: next_row_out, rows_to_go and color_buf.  Depending on
   the method color_buf either points at the input rows (fullsize_upsample) or
   was computed from them when it was filled; both are kept: u_ptr = the rows
   pointed at, u_val = the rows seen at fill time (with context: one row above,
   the row group, one row below -- the context methods h2v2_fancy_upsample and
   h1v2_fancy_upsample, jdsample.c:316-420, look at input rows -1 .. rg). *)
Record dups := mkU { u_next : nat; u_togo : nat; u_ptr : list nat; u_val : list nat }.

(* An emitted output line: which row of the conversion buffer, what the buffer
   was computed from, and what a pointing buffer reads now *)
Record line := mkL { l_row : nat; l_val : list nat; l_now : list nat }.

Section Cfg.
Variable c : dcfg.
Notation M := (g_M c).
Notation v := (g_v c).
Notation rg := (g_rg c).

(* jdmainct.c:174-214 make_funny_pointers *)
Definition make_funny_pointers (m : dmain) : dmain :=
  let x0 := addr_loop (rg * (M + 2)) 0 rg 0 (m_x0 m) in
  let x1 := addr_loop (rg * (M + 2)) 0 rg 0 (m_x1 m) in
  let x1 := addr_loop (rg * 2) 0 (rg + rg * (M - 2)) (rg * M) x1 in
  let x1 := addr_loop (rg * 2) 0 (rg + rg * M) (rg * (M - 2)) x1 in
  let x0 := dup_loop rg 0 0 rg x0 in
  mkM (m_full m) (m_rgc m) x0 x1 (m_which m) (m_cs m) (m_avail m) (m_ctr m) (m_ws m).

(* jdmainct.h:52-76 set_wraparound_pointers.  The C loop does the four
   assignments for each i; they touch disjoint positions, so the model does the
   two "above" and the two "below" loops one after the other. *)
Definition wrap1 (x : ptrs) : ptrs :=
  let x := copy_loop rg 0 0 (rg + rg * (M + 1)) x in
  copy_loop rg 0 (rg + rg * (M + 2)) rg x.
Definition set_wraparound_pointers (m : dmain) : dmain :=
  mkM (m_full m) (m_rgc m) (wrap1 (m_x0 m)) (wrap1 (m_x1 m)) (m_which m) (m_cs m) (m_avail m)
      (m_ctr m) (m_ws m).

(* jdmainct.c:217-255 set_bottom_pointers *)
Definition rows_left : nat :=
  let h := rg * M in let r := g_dh c mod h in if r =? 0 then h else r.
Definition set_bottom_pointers (m : dmain) : dmain :=
  let x := if m_which m then m_x1 m else m_x0 m in
  let x := dup_loop (rg * 2) 0 (rg + rows_left) (rg + (rows_left - 1)) x in
  mkM (m_full m) (m_rgc m) (if m_which m then m_x0 m else x) (if m_which m then x else m_x1 m)
      (m_which m) (m_cs m) ((rows_left - 1) / rg + 1) (m_ctr m) (m_ws m).

(* jdmainct.c:262-294 start_pass_main (JBUF_PASS_THRU) and jdsample.c:36-50
   start_pass_upsample *)
Definition start_pass_main (m : dmain) : dmain :=
  let m := if g_context c then
             let m := make_funny_pointers m in
             mkM (m_full m) (m_rgc m) (m_x0 m) (m_x1 m) false CTX_PREPARE_FOR_IMCU (m_avail m) 0 (m_ws m)
           else m in
  mkM false 0 (m_x0 m) (m_x1 m) (m_which m) (m_cs m) (m_avail m) (m_ctr m) (m_ws m).
Definition start_pass_upsample : dups := mkU v (g_O c) [] [].

(* *decompress_data into the row pointers p[0 .. rg*M): row i of iMCU row number
   r (from 0) is component row r*rg*M + i.  A missing pointer is undefined. *)
Fixpoint decompress_rows (n i base : nat) (p : nat -> option nat) (ws : work) : outcome work :=
  match n with
  | O => Ret ws
  | S n' => match p i with
            | None => Undef
            | Some s => decompress_rows n' (S i) base p (fset ws s (Some (base + i)))
            end
  end.

(* the row read through pointer index i *)
Definition deref (p : nat -> option nat) (ws : work) (i : nat) : outcome nat :=
  match p i with
  | Some s => match ws s with Some r => Ret r | None => Undef end
  | None => Undef
  end.
Fixpoint mapM {A B} (f : A -> outcome B) (l : list A) : outcome (list B) :=
  match l with
  | [] => Ret []
  | a :: t => b <- f a ;; bs <- mapM f t ;; Ret (b :: bs)
  end.
Definition slot_of (p : nat -> option nat) (i : nat) : outcome nat :=
  match p i with Some s => Ret s | None => Undef end.
Definition slot_val (ws : work) (s : nat) : outcome nat :=
  match ws s with Some r => Ret r | None => Undef end.

(* jdsample.c:61-112 sep_upsample on the pointer list p (index 0 = first row
   passed; with context, rows -1 and rg are looked at too).  [first] is
   the index of the row group's first row in p.  Returns the number of rows
   emitted in addition. *)
Definition sep_upsample (p : nat -> option nat) (ws : work) (rgc : nat) (first : nat)
    (u : dups) (out_ctr out_avail : nat) : outcome (dups * nat * list line * nat) :=
  u <- (if v <=? u_next u then
          own <- mapM (slot_of p) (seq first rg) ;;
          val <- (if g_context c then mapM (deref p ws) (seq (first - 1) (rg + 2))
                  else mapM (deref p ws) (seq first rg)) ;;
          Ret (mkU 0 (u_togo u) own val)
        else Ret u) ;;
  let num_rows := v - u_next u in
  let num_rows := if u_togo u <? num_rows then u_togo u else num_rows in
  let avail := out_avail - out_ctr in
  let num_rows := if avail <? num_rows then avail else num_rows in
  now <- mapM (slot_val ws) (u_ptr u) ;;
  let lines := map (fun j => mkL j (u_val u) now) (seq (u_next u) num_rows) in
  let next := u_next u + num_rows in
  Ret (mkU next (u_togo u - num_rows) (u_ptr u) (u_val u), out_ctr + num_rows, lines,
       if v <=? next then S rgc else rgc).

(* state of the output pass; d_orc: what each decompress_data call answers
   (false = suspended); d_row = output_iMCU_row *)
Record dst := mkD { d_main : dmain; d_ups : dups; d_orc : list bool; d_row : nat; d_lines : list line }.

(* jdmainct.c:301-334 process_data_simple_main *)
Definition process_simple (d : dst) (out_avail : nat) : outcome (dst * nat) :=
  let m := d_main d in
  '(m, orc, row, ok) <-
    (if m_full m then Ret (m, d_orc d, d_row d, true)
     else if negb (hd true (d_orc d)) then Ret (m, tl (d_orc d), d_row d, false)
     else
       ws <- decompress_rows (rg * M) 0 (d_row d * (rg * M)) (fun i => Some i) (m_ws m) ;;
       Ret (mkM true (m_rgc m) (m_x0 m) (m_x1 m) (m_which m) (m_cs m) (m_avail m) (m_ctr m) ws,
            tl (d_orc d), S (d_row d), true)) ;;
  if negb ok then Ret (mkD m (d_ups d) orc row (d_lines d), 0)
  else
    '(u, out, ls, rgc) <- sep_upsample (fun i => Some i) (m_ws m) (m_rgc m) (m_rgc m * rg) (d_ups d) 0 out_avail ;;
    let '(full, rgc) := if M <=? rgc then (false, 0) else (true, rgc) in
    Ret (mkD (mkM full rgc (m_x0 m) (m_x1 m) (m_which m) (m_cs m) (m_avail m) (m_ctr m) (m_ws m))
             u orc row (d_lines d ++ ls), out).

Definition xbuf (m : dmain) : ptrs := if m_which m then m_x1 m else m_x0 m.

Definition with_cs (m : dmain) (cs : cstate) : dmain :=
  mkM (m_full m) (m_rgc m) (m_x0 m) (m_x1 m) (m_which m) cs (m_avail m) (m_ctr m) (m_ws m).
Definition with_rgc (m : dmain) (k : nat) : dmain :=
  mkM (m_full m) k (m_x0 m) (m_x1 m) (m_which m) (m_cs m) (m_avail m) (m_ctr m) (m_ws m).

(* post_process_data on xbuffer[whichptr]; the row group starts at list index
   rg + rowgroup_ctr * rg *)
Definition post (d : dst) (out out_avail : nat) : outcome (dst * nat) :=
  let m := d_main d in
  '(u, out, ls, rgc) <- sep_upsample (xbuf m) (m_ws m) (m_rgc m) (rg + m_rgc m * rg) (d_ups d) out out_avail ;;
  Ret (mkD (with_rgc m rgc) u (d_orc d) (d_row d) (d_lines d ++ ls), out).

(* jdmainct.c:370-408: cases CTX_PREPARE_FOR_IMCU and CTX_PROCESS_IMCU *)
Definition ctx_process (d : dst) (out out_avail : nat) : outcome (dst * nat) :=
  '(d, out) <- post d out out_avail ;;
  let m := d_main d in
  if m_rgc m <? m_avail m then Ret (d, out)
  else
    let m := if m_ctr m =? 1 then set_wraparound_pointers m else m in
    Ret (mkD (mkM false (M + 1) (m_x0 m) (m_x1 m) (negb (m_which m)) CTX_POSTPONED_ROW (M + 2)
                  (m_ctr m) (m_ws m)) (d_ups d) (d_orc d) (d_row d) (d_lines d), out).
Definition ctx_prepare (d : dst) (out out_avail : nat) : outcome (dst * nat) :=
  let m := d_main d in
  let m := mkM (m_full m) 0 (m_x0 m) (m_x1 m) (m_which m) (m_cs m) (M - 1) (m_ctr m) (m_ws m) in
  let m := if m_ctr m =? g_T c then set_bottom_pointers m else m in
  let m := with_cs m CTX_PROCESS_IMCU in
  ctx_process (mkD m (d_ups d) (d_orc d) (d_row d) (d_lines d)) out out_avail.

(* jdmainct.c:336-410 process_data_context_main *)
Definition process_context (d : dst) (out_avail : nat) : outcome (dst * nat) :=
  let m := d_main d in
  '(m, orc, row, ok) <-
    (if m_full m then Ret (m, d_orc d, d_row d, true)
     else if negb (hd true (d_orc d)) then Ret (m, tl (d_orc d), d_row d, false)
     else
       ws <- decompress_rows (rg * M) 0 (d_row d * (rg * M)) (fun i => xbuf m (rg + i)) (m_ws m) ;;
       Ret (mkM true (m_rgc m) (m_x0 m) (m_x1 m) (m_which m) (m_cs m) (m_avail m) (S (m_ctr m)) ws,
            tl (d_orc d), S (d_row d), true)) ;;
  let d := mkD m (d_ups d) orc row (d_lines d) in
  if negb ok then Ret (d, 0)
  else
    match m_cs m with
    | CTX_POSTPONED_ROW =>
      '(d, out) <- post d 0 out_avail ;;
      if m_rgc (d_main d) <? m_avail (d_main d) then Ret (d, out)
      else
        let d := mkD (with_cs (d_main d) CTX_PREPARE_FOR_IMCU) (d_ups d) (d_orc d) (d_row d) (d_lines d) in
        if out_avail <=? out then Ret (d, out) else ctx_prepare d out out_avail
    | CTX_PREPARE_FOR_IMCU => ctx_prepare d 0 out_avail
    | CTX_PROCESS_IMCU => ctx_process d 0 out_avail
    end.

Definition process_data (d : dst) (out_avail : nat) : outcome (dst * nat) :=
  if g_context c then process_context d out_avail else process_simple d out_avail.

(* the start of an output pass (memory contents before it are arbitrary) *)
Definition start_pass (m0 : dmain) (orc : list bool) : dst :=
  mkD (start_pass_main m0) start_pass_upsample orc 0 [].
End Cfg.
