(* T_Bmp.v -- C58: the BMP reader and writer. *)
From Verif Require Import Base M_Pnm S_Pnm M_Bmp S_Bmp P_Bmp P_Bmp2 P_Bmp3 P_Bmp4 P_Bmp5 P_Bmp6 P_Bmp7 P_Bmp8 P_Bmp9 P_BmpRej.

(* any bytes: an error or an image of the announced size, never undefined behaviour *)
Theorem C58_safe : forall cs inv maxpix f, bytes f ->
  (exists e, start_input_bmp cs inv maxpix f = Error e) \/
  exists src, start_input_bmp cs inv maxpix f = Ret src /\
    1 <= b_w src < 2 ^ 31 /\ 1 <= b_h src < 2 ^ 31 /\ (maxpix = 0 \/ b_w src * b_h src <= maxpix) /\
    b_comps src = components (b_cs src) /\ b_w src * b_comps src <= 1000000000 /\
    forall (inv' : bool) (buf : rowbuf), room (b_cs src) (b_w src) <= Z.of_nat (length buf) ->
      (exists e, get_rows inv' src buf = Error e) \/
      exists rows, get_rows inv' src buf = Ret rows /\ Z.of_nat (length rows) = b_h src /\
        forall row, In row rows -> length row = length buf /\ forall i, 0 <= i < b_w src -> exists px, shows (b_cs src) row i px.
Proof.
  intros cs inv maxpix f Hb. destruct (start_safe_b cs inv maxpix f Hb) as [E|(src & E & OK & MP & k & Hk & Hf)]; [left; exact E|]. right. exists src. split; [exact E|].
  pose proof OK as (Hbpp & Hw & Hh & Hco & Hwc & _). split; [exact Hw|]. split; [exact Hh|]. split; [exact MP|]. split; [symmetry; apply comps_eq, Hco|]. split; [exact Hwc|].
  intros inv' buf Hr. destruct (rows_cases src f k inv' buf OK Hb Hk Hf Hr) as [(e & X & _)|(rows & X & L & A)]; [left; exists e; exact X|].
  right. exists rows. split; [exact X|]. split; [lia|]. intros row Hrow. destruct (In_nth_error _ _ Hrow) as (y & Hy). destruct (A y row Hy) as (A1 & A2). split; [exact A1|]. intros i Hi. destruct (A2 i Hi) as (px & _ & S). exists px. exact S.
Qed.
Print Assumptions C58_safe.

(* a well-formed file: its dimensions, and each pixel in the colour space settled on;
   inv: the rows of the file are from the bottom up *)
Theorem C58_read : forall cs inv maxpix f c buf, bmp_file f -> (maxpix = 0 \/ f_width f * f_height f <= maxpix) -> settles f cs (Some c) ->
  room c (f_width f) <= Z.of_nat (length buf) ->
  exists src rows, start_input_bmp cs inv maxpix f = Ret src /\ b_w src = f_width f /\ b_h src = f_height f /\ b_cs src = c /\ b_comps src = components c /\
    get_rows inv src buf = Ret rows /\ Z.of_nat (length rows) = f_height f /\
    forall y row i, nth_error rows y = Some row -> 0 <= i < f_width f ->
      shows c row i (f_pixel f (if inv then f_height f - 1 - Z.of_nat y else Z.of_nat y) i).
Proof.
  intros cs inv maxpix f c buf H MP Se Hr. destruct (read_ok cs inv maxpix f c buf H MP Se Hr) as (src & rows & A1 & A2 & A3 & A4 & A5 & _ & A7 & A8 & A9).
  exists src, rows. split; [exact A1|]. split; [exact A2|]. split; [exact A3|]. split; [exact A4|]. split; [exact A5|]. split; [exact A7|]. split; [exact A8|exact A9].
Qed.
Print Assumptions C58_read.

Theorem C58_no_conversion : forall cs inv maxpix f, bmp_file f -> (maxpix = 0 \/ f_width f * f_height f <= maxpix) -> settles f cs None ->
  start_input_bmp cs inv maxpix f = Error JERR_BAD_IN_COLORSPACE.
Proof. exact start_refuses. Qed.
Print Assumptions C58_no_conversion.

(* the files written are well formed and hold the rows given *)
Theorem C58_write : forall p inv rows, writable p rows ->
  exists f, write_bmp p inv rows = Ret f /\ bmp_file f /\ f_old f = w_os2 p /\ f_width f = w_w p /\ f_height f = w_h p /\
    f_bpp f = (match w_map p with Some _ => 8 | None => if w_cs p =? JCS_GRAYSCALE then 8 else 24 end) /\
    Z.of_nat (length f) = f_offset f + f_height f * f_rowbytes f /\
    (Z.of_nat (length f) < 2 ^ 32 -> le4 f 2 = Z.of_nat (length f)) /\
    (forall y i, 0 <= y < w_h p -> 0 <= i < w_w p ->
       f_pixel f y i = (wsees p (nth (Z.to_nat (if inv then w_h p - 1 - y else y)) rows []) i, 255)) /\
    (forall x y, w_os2 p = false -> w_dens p = Some (x, y) -> f_xppm f = 100 * x /\ f_yppm f = 100 * y).
Proof.
  intros p inv rows H. exists (ofile p rows inv). split; [exact (write_ok p inv rows H)|]. split; [exact (ofile_ok p rows inv H)|].
  split; [apply F_old|]. split; [apply (F_width p rows H)|]. split; [apply (F_height p rows H)|]. split.
  { unfold ofile. rewrite F_bpp. unfold bppv. destruct (full_cases p rows H) as [(F1 & F2 & F3)|[(F1 & m & F3)|(F1 & F3 & F4)]]; rewrite F1, F3; [|reflexivity|rewrite F4; reflexivity].
    destruct (Z.eqb_spec (w_cs p) JCS_GRAYSCALE) as [E|E]; [|reflexivity]. rewrite E in F2. destruct F2; discriminate. }
  split.
  { rewrite (ofile_len p rows H). unfold ofile. rewrite F_offset, (F_height p rows H), (F_rowbytes p rows H). reflexivity. }
  split.
  { intros K. rewrite (ofile_len p rows H) in *. unfold ofile. change (2 ^ 32) with 4294967296 in K. rewrite (F_size p rows H) by lia. lia. }
  split.
  { intros y i Hy Hi. rewrite <- (orow_nth p rows inv y H Hy). apply (ofile_pixel p rows H); assumption. }
  intros x y O D. unfold ofile. rewrite (F_xppm p rows H _ O), (F_yppm p rows H _ O), D. lia.
Qed.
Print Assumptions C58_write.

(* reading back what was written *)
Theorem C58_roundtrip : forall p (inv : bool) rows f cs c buf, writable p rows -> write_bmp p inv rows = Ret f -> settles f cs (Some c) ->
  room c (w_w p) <= Z.of_nat (length buf) ->
  exists src out, start_input_bmp cs inv 0 f = Ret src /\ b_w src = w_w p /\ b_h src = w_h p /\ b_cs src = c /\
    (forall x y, w_os2 p = false -> w_dens p = Some (x, y) -> 1 <= x -> 1 <= y -> b_dens src = Some (x, y)) /\
    get_rows inv src buf = Ret out /\ length out = length rows /\
    forall y row row' i, nth_error out y = Some row -> nth_error rows y = Some row' -> 0 <= i < w_w p -> shows c row i (wsees p row' i, 255).
Proof.
  intros p inv rows f cs c buf H E Se Hr. rewrite (write_ok p inv rows H) in E. fold (ofile p rows inv) in E. injection E as <-.
  assert (FW : f_width (ofile p rows inv) = w_w p) by apply (F_width p rows H). assert (FH : f_height (ofile p rows inv) = w_h p) by apply (F_height p rows H).
  destruct (read_ok cs inv 0 _ c buf (ofile_ok p rows inv H) (or_introl eq_refl) Se ltac:(rewrite FW; exact Hr)) as (src & out & A1 & A2 & A3 & A4 & A5 & A6 & A7 & A8 & A9).
  rewrite FW, FH in *. exists src, out. split; [exact A1|]. split; [exact A2|]. split; [exact A3|]. split; [exact A4|]. split.
  { intros x y O D Hx Hy. rewrite A6. exact (f_dens_w p rows inv x y H O D Hx Hy). }
  split; [exact A7|]. pose proof H as (_ & _ & _ & L & _). split; [lia|]. intros y row row' i Hy Hy' Hi. specialize (A9 y row i Hy Hi).
  assert (Ly : (y < length out)%nat) by (apply nth_error_Some; rewrite Hy; discriminate).
  rewrite (ofile_pixel p rows H) in A9 by (destruct inv; lia). rewrite (orow_nth p rows inv _ H) in A9 by (destruct inv; lia).
  replace (Z.to_nat (if inv then w_h p - 1 - (if inv then w_h p - 1 - Z.of_nat y else Z.of_nat y) else if inv then w_h p - 1 - Z.of_nat y else Z.of_nat y)) with y in A9 by (destruct inv; lia).
  rewrite (nth_error_nth _ _ _ Hy') in A9. exact A9.
Qed.
Print Assumptions C58_roundtrip.

(* an index outside the palette is an error *)
Theorem C58_bad_index : forall src io c, b_bpp src = 8 -> 0 <= c < Z.of_nat (length io) -> Z.of_nat (length (b_cmap src)) <= byte io c ->
  fetch src io c = Error JERR_OTHER.
Proof. exact read_bad_index. Qed.
Print Assumptions C58_bad_index.

(* nothing else is accepted: a file whose reading starts has the magic bytes, a header of
   12, 40 or 64 bytes, one plane, 8, 24 or 32 bits, no compression, at most 256 palette
   entries, and the pixel data begins after the header and palette and inside the file *)
Theorem C58_accepts : forall cs inv maxpix f src, bytes f -> start_input_bmp cs inv maxpix f = Ret src ->
  byte f 0 = 66 /\ byte f 1 = 77 /\ (f_hsize f = 12 \/ f_hsize f = 40 \/ f_hsize f = 64) /\ (f_bpp f = 8 \/ f_bpp f = 24 \/ f_bpp f = 32) /\
  f_planes f = 1 /\ f_compression f = 0 /\ b_w src = f_width f /\ b_h src = f_height f /\ b_bpp src = f_bpp f /\ (f_bpp f = 8 -> taken_colors f <= 256) /\
  14 + f_hsize f + (if f_bpp f =? 8 then taken_colors f * f_esize f else 0) <= f_offset f <= Z.of_nat (length f).
Proof. exact start_inv. Qed.
Print Assumptions C58_accepts.

(* ---- non-vacuity ---- *)
Definition ex_p : wparm := mkW JCS_RGB 3 2 None false (Some (72, 96)).
Definition ex_rows : list (list Z) := [[1; 2; 3; 4; 5; 6; 7; 8; 9]; [10; 20; 30; 40; 50; 60; 70; 80; 90]].
Example C58_ex_writable : writable ex_p ex_rows.
Proof.
  unfold writable, ex_p, ex_rows. cbn [w_cs w_w w_h w_map w_os2 w_dens length]. split; [right; left; reflexivity|]. split; [lia|]. split; [lia|]. split; [reflexivity|]. split; [|split; [exact Logic.I|lia]].
  constructor; [split; [unfold bytes; repeat (apply Forall_cons; [lia|]); apply Forall_nil|apply Z.leb_le; vm_compute; reflexivity]|]. constructor; [split; [unfold bytes; repeat (apply Forall_cons; [lia|]); apply Forall_nil|apply Z.leb_le; vm_compute; reflexivity]|constructor].
Qed.
Definition ex_f : list Z := match write_bmp ex_p true ex_rows with Ret f => f | _ => [] end.
Example C58_ex_file : ex_f = [66;77;78;0;0;0;0;0;0;0;54;0;0;0; 40;0;0;0;3;0;0;0;2;0;0;0;1;0;24;0;0;0;0;0;0;0;0;0;32;28;0;0;128;37;0;0;0;0;0;0;0;0;0;0;
   30;20;10;60;50;40;90;80;70;0;0;0; 3;2;1;6;5;4;9;8;7;0;0;0].
Proof. vm_compute. reflexivity. Qed.
Example C58_ex_settles : settles ex_f 2 (Some 2) /\ settles ex_f 0 (Some 8) /\ settles ex_f 1 None.
Proof.
  assert (E : f_bpp ex_f = 24) by (vm_compute; reflexivity). split; [|split].
  - apply st_other; [left; reflexivity|]. rewrite E. discriminate.
  - apply st_24; [exact E|reflexivity].
  - apply st_none; [reflexivity|discriminate|discriminate|rewrite E; discriminate].
Qed.
Example C58_ex_read : (src <- start_input_bmp 2 true 6 ex_f ;; rows <- get_rows true src (repeat None 12) ;; Ret (b_w src, b_h src, b_dens src, rows)) =
  Ret (3, 2, Some (72, 96), map (fun r => map Some r ++ [None; None; None]) ex_rows).
Proof. vm_compute. reflexivity. Qed.
Example C58_ex_errors : start_input_bmp 2 true 5 ex_f = Error JERR_IMAGE_TOO_BIG /\ start_input_bmp 1 true 0 ex_f = Error JERR_BAD_IN_COLORSPACE /\ start_input_bmp 2 true 0 (firstn 50 ex_f) = Error JERR_INPUT_EOF.
Proof. split; [|split]; vm_compute; reflexivity. Qed.

(* FINDING: rows that need no conversion are copied with their padding, so a row
   buffer of exactly width * components bytes is overrun; the room that the theorems
   ask for comes from the memory manager's rounding *)
Example C58_padding_refuted : exists src, start_input_bmp 0 true 0 ex_f = Ret src /\ b_comps src * b_w src = 9 /\ get_rows true src (repeat None 9) = Undef.
Proof. eexists. split; [vm_compute; reflexivity|]. split; vm_compute; reflexivity. Qed.
(* FINDING: the width check admits a width whose padded row is 2^32 bytes, that is 0 *)
Example C58_row_wraps_refuted : read_layout 24 1431655765 8 = Ret (8, 3, 0).
Proof. vm_compute. reflexivity. Qed.
(* FINDING: a negative number of colours is taken for 256 *)
Definition ex_neg : list Z := [66;77;0;0;0;0;0;0;0;0;54;4;0;0; 40;0;0;0;1;0;0;0;1;0;0;0;1;0;8;0;0;0;0;0;0;0;0;0;0;0;0;0;0;0;0;0;255;255;255;255;0;0;0;0] ++ repeat 7 1024 ++ [200; 0; 0; 0].
Example C58_negative_colors_refuted : exists src, start_input_bmp 6 false 0 ex_neg = Ret src /\ length (b_cmap src) = 256%nat /\ s32 (le4 ex_neg 46) = -1.
Proof. eexists. split; [vm_compute; reflexivity|]. split; vm_compute; reflexivity. Qed.
