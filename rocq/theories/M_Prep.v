(* M_Prep.v -- compressor front end: jpeg_write_scanlines, the main controller
   (jcmainct.c) and the preprocessor (jcprepct.c), simple and context modes, with a
   compressor back end that may suspend.

   Rows are represented by where they come from: a colour-converted row by the
   number of the image row it was converted from, a downsampled row by the list of
   rows the downsampler could see (the row group; with context rows also the row
   groups above and below) and its number within the group.  One component is
   modelled; the components are handled identically and independently. *)
From Verif Require Import Base.
Open Scope nat_scope.

(* p_ctx = downsample->need_context_rows; p_v = max_v_samp_factor; p_w =
   compptr->v_samp_factor; p_du = data_unit (8, or 1 in lossless mode) = row
   groups per iMCU row; p_H = image_height *)
Record pcfg := mkPC { p_ctx : bool; p_v : nat; p_w : nat; p_du : nat; p_H : nat }.
Definition orow : Type := (list nat * nat)%type.

(* x_nbr, x_togo, x_trg, x_stop, x_cb: next_buf_row, rows_to_go, this_row_group,
   next_buf_stop, color_buf (the true buffer); x_cur, x_rgc, x_susp, x_ob:
   cur_iMCU_row, rowgroup_ctr, suspended, buffer of the main controller;
   x_y = next_scanline; x_log = the calls to compress_data, latest first: the iMCU
   row, the buffer passed, whether it was taken *)
Record pst := mkP { x_nbr : nat; x_togo : nat; x_trg : nat; x_stop : nat; x_cb : nat -> option nat;
  x_cur : nat; x_rgc : nat; x_susp : bool; x_ob : nat -> option orow;
  x_y : nat; x_log : list (nat * list (option orow) * bool) }.

Section Cfg.
Variable c : pcfg.
Notation v := (p_v c).

(* jcmaster.c initial_setup: total_iMCU_rows = ceil(image_height / (max_v * data_unit)) *)
Definition total : nat := (p_H c + p_v c * p_du c - 1) / (p_v c * p_du c).

(* jcprepct.c:268-312 create_context_buffer: color_buf[i] for -v <= i < 4v, as an
   index into the true buffer of 3v rows; without context rows 0 <= i < v *)
Definition cbi (i : Z) : outcome nat :=
  let V := Z.of_nat v in
  if p_ctx c then
    if ((- V <=? i) && (i <? 0))%Z then Ret (Z.to_nat (2 * V + (i + V)))
    else if ((0 <=? i) && (i <? 3 * V))%Z then Ret (Z.to_nat i)
    else if ((3 * V <=? i) && (i <? 4 * V))%Z then Ret (Z.to_nat (i - 3 * V))
    else Undef
  else if ((0 <=? i) && (i <? V))%Z then Ret (Z.to_nat i) else Undef.
Definition cbget (b : nat -> option nat) (i : Z) : outcome nat :=
  j <- cbi i ;; match b j with Some t => Ret t | None => Undef end.
Definition cbset (b : nat -> option nat) (i : Z) (t : nat) : outcome (nat -> option nat) :=
  j <- cbi i ;; Ret (fun k => if k =? j then Some t else b k).

(* color_convert of numrows rows into color_buf starting at dst; the caller's
   rows scanlines[0..avail-1] are image rows y0, y0+1, ... *)
Fixpoint convert (n : nat) (y0 avail src dst : nat) (b : nat -> option nat) : outcome (nat -> option nat) :=
  match n with
  | O => Ret b
  | S n => if src <? avail then b <- cbset b (Z.of_nat dst) (y0 + src) ;; convert n y0 avail (S src) (S dst) b else Undef
  end.

(* jcprepct.c:112-124 expand_bottom_edge on color_buf: rows [row, row+n) become
   copies of row input_rows - 1 *)
Fixpoint expand_cb (n : nat) (input_rows row : nat) (b : nat -> option nat) : outcome (nat -> option nat) :=
  match n with
  | O => Ret b
  | S n => t <- cbget b (Z.of_nat input_rows - 1) ;; b <- cbset b (Z.of_nat row) t ;; expand_cb n input_rows (S row) b
  end.
(* the same on the main buffer, rows [row, row+n) of du*w *)
Definition obset (o : nat -> option orow) (i : nat) (r : orow) : outcome (nat -> option orow) :=
  if i <? p_du c * p_w c then Ret (fun k => if k =? i then Some r else o k) else Undef.
Fixpoint expand_ob (n : nat) (input_rows row : nat) (o : nat -> option orow) : outcome (nat -> option orow) :=
  match n with
  | O => Ret o
  | S n => match input_rows with
           | O => Undef
           | S q => match o q with
                    | Some r => o <- obset o row r ;; expand_ob n input_rows (S row) o
                    | None => Undef
                    end
           end
  end.

(* what the downsampler can see *)
Fixpoint window (n : nat) (i : Z) (b : nat -> option nat) : outcome (list nat) :=
  match n with
  | O => Ret []
  | S n => t <- cbget b i ;; l <- window n (i + 1) b ;; Ret (t :: l)
  end.
Fixpoint putrows (n k : nat) (win : list nat) (base : nat) (o : nat -> option orow) : outcome (nat -> option orow) :=
  match n with
  | O => Ret o
  | S n => o <- obset o (base + k) (win, k) ;; putrows n (S k) win base o
  end.
(* jcsample.c:149-181 sep_downsample: row group starting at in_row of color_buf
   into row group out_group of the output.  With context rows the methods look at
   the rows next to the group (jcsample.c:347-470); all rows of the groups above
   and below are recorded here. *)
Definition downsample (in_row : nat) (out_group : nat) (b : nat -> option nat) (o : nat -> option orow) : outcome (nat -> option orow) :=
  win <- (if p_ctx c then window (3 * v) (Z.of_nat in_row - Z.of_nat v) b else window v (Z.of_nat in_row) b) ;;
  putrows (p_w c) 0 win (out_group * p_w c) o.

(* jcprepct.c:137-193 pre_process_data.  in_ctr = *in_row_ctr; x_rgc is
   *out_row_group_ctr, data_unit = out_row_groups_avail *)
Fixpoint pre_simple (fuel y0 avail in_ctr : nat) (s : pst) : outcome (pst * nat) :=
  match fuel with
  | O => Undef
  | S fuel =>
    if (in_ctr <? avail) && (x_rgc s <? p_du c) then
      let inrows := avail - in_ctr in
      let numrows := Nat.min (v - x_nbr s) inrows in
      b <- convert numrows y0 avail in_ctr (x_nbr s) (x_cb s) ;;
      let in_ctr := in_ctr + numrows in
      let nbr := x_nbr s + numrows in
      let togo := x_togo s - numrows in
      '(b, nbr) <- (if (togo =? 0) && (nbr <? v)
                    then b <- expand_cb (v - nbr) nbr nbr b ;; Ret (b, v)
                    else Ret (b, nbr)) ;;
      '(o, nbr, rgc) <- (if nbr =? v
                         then o <- downsample 0 (x_rgc s) b (x_ob s) ;; Ret (o, 0, S (x_rgc s))
                         else Ret (x_ob s, nbr, x_rgc s)) ;;
      if (togo =? 0) && (rgc <? p_du c) then
        o <- expand_ob ((p_du c - rgc) * p_w c) (rgc * p_w c) (rgc * p_w c) o ;;
        Ret (mkP nbr togo (x_trg s) (x_stop s) b (x_cur s) (p_du c) (x_susp s) o (x_y s) (x_log s), in_ctr)
      else
        pre_simple fuel y0 avail in_ctr (mkP nbr togo (x_trg s) (x_stop s) b (x_cur s) rgc (x_susp s) o (x_y s) (x_log s))
    else Ret (s, in_ctr)
  end.

(* jcprepct.c:216-222: pad above the image with copies of its first row *)
Fixpoint pad_top (n row : nat) (b : nat -> option nat) : outcome (nat -> option nat) :=
  match n with
  | O => Ret b
  | S n => t <- cbget b 0 ;; b <- cbset b (- Z.of_nat row) t ;; pad_top n (S row) b
  end.

(* jcprepct.c:202-261 pre_process_context *)
Fixpoint pre_context (fuel y0 avail in_ctr : nat) (s : pst) : outcome (pst * nat) :=
  match fuel with
  | O => Undef
  | S fuel =>
    if x_rgc s <? p_du c then
      let ds (b : nat -> option nat) (nbr togo in_ctr : nat) : outcome (pst * nat) :=
        if nbr =? x_stop s then
          o <- downsample (x_trg s) (x_rgc s) b (x_ob s) ;;
          let trg := x_trg s + v in
          let trg := if 3 * v <=? trg then 0 else trg in
          let nbr := if 3 * v <=? nbr then 0 else nbr in
          pre_context fuel y0 avail in_ctr
            (mkP nbr togo trg (nbr + v) b (x_cur s) (S (x_rgc s)) (x_susp s) o (x_y s) (x_log s))
        else
          pre_context fuel y0 avail in_ctr
            (mkP nbr togo (x_trg s) (x_stop s) b (x_cur s) (x_rgc s) (x_susp s) (x_ob s) (x_y s) (x_log s)) in
      if in_ctr <? avail then
        let numrows := Nat.min (x_stop s - x_nbr s) (avail - in_ctr) in
        b <- convert numrows y0 avail in_ctr (x_nbr s) (x_cb s) ;;
        b <- (if x_togo s =? p_H c then pad_top v 1 b else Ret b) ;;
        ds b (x_nbr s + numrows) (x_togo s - numrows) (in_ctr + numrows)
      else if negb (x_togo s =? 0) then Ret (s, in_ctr)
      else if x_nbr s <? x_stop s then
        b <- expand_cb (x_stop s - x_nbr s) (x_nbr s) (x_nbr s) (x_cb s) ;;
        ds b (x_stop s) (x_togo s) in_ctr
      else ds (x_cb s) (x_nbr s) (x_togo s) in_ctr
    else Ret (s, in_ctr)
  end.

Definition pre_process (y0 avail in_ctr : nat) (s : pst) : outcome (pst * nat) :=
  if p_ctx c then pre_context ((avail - in_ctr) + (p_du c - x_rgc s) + 1) y0 avail in_ctr s
  else pre_simple (avail - in_ctr + 1) y0 avail in_ctr s.

(* jcmainct.c:84-131 process_data_simple_main.  [orc] says, call by call, whether
   compress_data takes the whole iMCU row (true) or suspends (false) *)
Fixpoint process_main (fuel y0 avail in_ctr : nat) (orc : list bool) (s : pst) : outcome (pst * nat * list bool) :=
  match fuel with
  | O => Undef
  | S fuel =>
    if x_cur s <? total then
      '(s, in_ctr) <- (if x_rgc s <? p_du c then pre_process y0 avail in_ctr s else Ret (s, in_ctr)) ;;
      if negb (x_rgc s =? p_du c) then Ret (s, in_ctr, orc)
      else
        let '(ok, orc) := match orc with [] => (true, []) | b :: t => (b, t) end in
        let log := (x_cur s, map (x_ob s) (seq 0 (p_du c * p_w c)), ok) :: x_log s in
        if ok then
          let in_ctr := if x_susp s then S in_ctr else in_ctr in
          process_main fuel y0 avail in_ctr orc
            (mkP (x_nbr s) (x_togo s) (x_trg s) (x_stop s) (x_cb s) (S (x_cur s)) 0 false (x_ob s) (x_y s) log)
        else if x_susp s then
          Ret (mkP (x_nbr s) (x_togo s) (x_trg s) (x_stop s) (x_cb s) (x_cur s) (x_rgc s) true (x_ob s) (x_y s) log, in_ctr, orc)
        else match in_ctr with
             | O => Undef                            (* the unsigned counter would wrap *)
             | S i => Ret (mkP (x_nbr s) (x_togo s) (x_trg s) (x_stop s) (x_cb s) (x_cur s) (x_rgc s) true (x_ob s) (x_y s) log, i, orc)
             end
    else Ret (s, in_ctr, orc)
  end.

(* jcapistd.c:91-139 _jpeg_write_scanlines: the caller passes image rows
   next_scanline, next_scanline + 1, ...  Returns the number of lines accepted. *)
Definition write_scanlines (n : nat) (orc : list bool) (s : pst) : outcome (pst * nat * list bool) :=
  let num := Nat.min n (p_H c - x_y s) in
  '(s, k, orc) <- process_main (total - x_cur s + 1) (x_y s) num 0 orc s ;;
  Ret (mkP (x_nbr s) (x_togo s) (x_trg s) (x_stop s) (x_cb s) (x_cur s) (x_rgc s) (x_susp s) (x_ob s) (x_y s + k) (x_log s), k, orc).

(* jcprepct.c:85-107 start_pass_prep, jcmainct.c:58-76 start_pass_main *)
Definition pstart (cb : nat -> option nat) (ob : nat -> option orow) : pst :=
  mkP 0 (p_H c) 0 (2 * v) cb 0 0 false ob 0 [].
End Cfg.
