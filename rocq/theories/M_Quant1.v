(* M_Quant1.v -- one-pass colour quantizer (jquant1.c), 8-bit samples.
   An input row is given as its component planes (the code reads the same samples interleaved). *)
From Verif Require Import Base.

(* jquant1.c:204-208: temp = iroot ** nc *)
Definition ipow (b : Z) (nc : nat) : Z := Nat.iter (nc - 1) (fun t => t * b) b.
(* jquant1.c:203-209: do { iroot++ ... } while (temp <= max_colors), followed by iroot-- *)
Fixpoint iroot_loop (fuel : nat) (iroot max_colors : Z) (nc : nat) : outcome Z :=
  match fuel with
  | O => Undef
  | S fuel => let iroot := iroot + 1 in if ipow iroot nc <=? max_colors then iroot_loop fuel iroot max_colors nc else Ret (iroot - 1)
  end.
(* jquant1.c:229-240: one pass of the for loop, over the component order js *)
Fixpoint incr_pass (js : list Z) (N : list Z) (total max_colors : Z) (changed : bool) : outcome (list Z * Z * bool) :=
  match js with
  | [] => Ret (N, total, changed)
  | j :: js =>
    nj <- aget N j ;;
    let temp := total / nj * (nj + 1) in
    if max_colors <? temp then Ret (N, total, changed) else
    N <- aset N j (nj + 1) ;; incr_pass js N temp max_colors true
  end.
(* jquant1.c:227-241: do ... while (changed) *)
Fixpoint incr_loop (fuel : nat) (js : list Z) (N : list Z) (total max_colors : Z) : outcome (list Z * Z) :=
  match fuel with
  | O => Undef
  | S fuel => '(N, total, changed) <- incr_pass js N total max_colors false ;; if changed : bool then incr_loop fuel js N total max_colors else Ret (N, total)
  end.
(* jquant1.c:184-244 select_ncolors, after the checks of _jinit_1pass_quantizer (jquant1.c:846-852);
   rgb: out_color_space == JCS_RGB, where the order is green, red, blue *)
Definition select_ncolors (rgb : bool) (nc : nat) (desired : Z) : outcome (list Z * Z) :=
  if (4 <? nc)%nat then Error JERR_QUANT_COMPONENTS else
  if 256 <? desired then Error JERR_QUANT_MANY_COLORS else
  iroot <- iroot_loop (Z.to_nat 300) 1 desired nc ;;
  if iroot <? 2 then Error JERR_QUANT_FEW_COLORS else
  let js := if rgb then [1; 0; 2] else map Z.of_nat (seq 0 nc) in
  incr_loop (Z.to_nat 300) js (repeat iroot nc) (Nat.iter nc (fun t => t * iroot) 1) desired.

(* jquant1.c:247-259 output_value *)
Definition output_value (j maxj : Z) : Z := (j * 255 + maxj / 2) / maxj.
(* jquant1.c:262-270 largest_input_value *)
Definition largest_input_value (j maxj : Z) : Z := ((2 * j + 1) * 255 + maxj) / (2 * maxj).

(* jquant1.c:306-320: entries of one component; the ptr loop makes ceil((total - j*blksize)/blkdist) turns *)
Definition fill_row (total blkdist nci : Z) (row : list Z) : outcome (list Z) :=
  let blksize := blkdist / nci in
  for_loop (Z.to_nat nci) 0 (fun j row =>
    let val := output_value j (nci - 1) in
    for_loop (Z.to_nat ((total - j * blksize + blkdist - 1) / blkdist)) 0 (fun t row =>
      let ptr := j * blksize + t * blkdist in
      for_loop (Z.to_nat blksize) 0 (fun k row => aset row (ptr + k) (u8 val)) row) row) row.
(* jquant1.c:273-330 create_colormap; garbage: initial contents of the rows *)
Fixpoint create_rows (total blkdist : Z) (N : list Z) (garbage : list Z) : outcome (list (list Z)) :=
  match N with
  | [] => Ret []
  | nci :: t => row <- fill_row total blkdist nci garbage ;; rest <- create_rows total (blkdist / nci) t garbage ;; Ret (row :: rest)
  end.
Definition create_colormap (total : Z) (N : list Z) (garbage : list Z) : outcome (list (list Z)) := create_rows total total N garbage.

(* a colorindex row: the table and the index of its element 0 *)
Record cindex := mkCI { ci_tab : list Z; ci_off : Z }.
Definition ci_get (c : cindex) (x : Z) : outcome Z := aget (ci_tab c) (x + ci_off c).
(* jquant1.c:381-382: while (j > k) *)
Fixpoint advance (fuel : nat) (maxj j val k : Z) : outcome (Z * Z) :=
  if k <? j then match fuel with O => Undef | S fuel => advance fuel maxj j (val + 1) (largest_input_value (val + 1) maxj) end else Ret (val, k).
(* jquant1.c:375-392: one row, padded (by repeating the end values 255 times) for ordered dither *)
Definition index_row (padded : bool) (nci blksize : Z) : outcome cindex :=
  '(tab, _, _) <- for_loop 256 0 (fun j '(tab, val, k) =>
      '(val, k) <- advance 256 (nci - 1) j val k ;; Ret (tab ++ [u8 (val * blksize)], val, k)) ([], 0, largest_input_value 0 (nci - 1)) ;;
  if padded : bool then lo <- aget tab 0 ;; hi <- aget tab 255 ;; Ret (mkCI (repeat lo 255 ++ tab ++ repeat hi 255) 255) else Ret (mkCI tab 0).
(* jquant1.c:334-394 create_colorindex *)
Fixpoint create_colorindex (padded : bool) (blksize : Z) (N : list Z) : outcome (list cindex) :=
  match N with
  | [] => Ret []
  | nci :: t => let blksize := blksize / nci in c <- index_row padded nci blksize ;; rest <- create_colorindex padded blksize t ;; Ret (c :: rest)
  end.

(* jquant1.c:84-106 base_dither_matrix *)
Definition base_dither_matrix : list (list Z) := [
  [   0; 192;  48; 240;  12; 204;  60; 252;   3; 195;  51; 243;  15; 207;  63; 255 ];
  [ 128;  64; 176; 112; 140;  76; 188; 124; 131;  67; 179; 115; 143;  79; 191; 127 ];
  [  32; 224;  16; 208;  44; 236;  28; 220;  35; 227;  19; 211;  47; 239;  31; 223 ];
  [ 160;  96; 144;  80; 172; 108; 156;  92; 163;  99; 147;  83; 175; 111; 159;  95 ];
  [   8; 200;  56; 248;   4; 196;  52; 244;  11; 203;  59; 251;   7; 199;  55; 247 ];
  [ 136;  72; 184; 120; 132;  68; 180; 116; 139;  75; 187; 123; 135;  71; 183; 119 ];
  [  40; 232;  24; 216;  36; 228;  20; 212;  43; 235;  27; 219;  39; 231;  23; 215 ];
  [ 168; 104; 152;  88; 164; 100; 148;  84; 171; 107; 155;  91; 167; 103; 151;  87 ];
  [   2; 194;  50; 242;  14; 206;  62; 254;   1; 193;  49; 241;  13; 205;  61; 253 ];
  [ 130;  66; 178; 114; 142;  78; 190; 126; 129;  65; 177; 113; 141;  77; 189; 125 ];
  [  34; 226;  18; 210;  46; 238;  30; 222;  33; 225;  17; 209;  45; 237;  29; 221 ];
  [ 162;  98; 146;  82; 174; 110; 158;  94; 161;  97; 145;  81; 173; 109; 157;  93 ];
  [  10; 202;  58; 250;   6; 198;  54; 246;   9; 201;  57; 249;   5; 197;  53; 245 ];
  [ 138;  74; 186; 122; 134;  70; 182; 118; 137;  73; 185; 121; 133;  69; 181; 117 ];
  [  42; 234;  26; 218;  38; 230;  22; 214;  41; 233;  25; 217;  37; 229;  21; 213 ];
  [ 170; 106; 154;  90; 166; 102; 150;  86; 169; 105; 153;  89; 165; 101; 149;  85 ] ].
(* jquant1.c:402-430 make_odither_array; create_odither_tables makes one per component (equal ones are shared) *)
Definition odither_value (ncolors b : Z) : Z :=
  let den := 2 * 256 * (ncolors - 1) in
  let num := (256 - 1 - 2 * b) * 255 in
  if num <? 0 then - ((- num) / den) else num / den.
Definition make_odither_array (ncolors : Z) : list (list Z) := map (map (odither_value ncolors)) base_dither_matrix.

(* jquant1.c:465-520: sum of the table entries of one pixel *)
Fixpoint pixsum (tabs : list cindex) (planes : list (list Z)) (col acc : Z) : outcome Z :=
  match tabs, planes with
  | [], _ => Ret acc
  | t :: ts, p :: ps => x <- aget p col ;; v <- ci_get t x ;; pixsum ts ps col (acc + v)
  | _, [] => Undef
  end.
(* jquant1.c:465-520 color_quantize and color_quantize3 (the same with nc = 3) on one row *)
Definition color_quantize (tabs : list cindex) (planes : list (list Z)) (width : nat) : outcome (list Z) :=
  for_loop width 0 (fun col out => c <- pixsum tabs planes col 0 ;; Ret (out ++ [u8 c])) [].

(* jquant1.c:545-570: one component of quantize_ord_dither; dither: the active row of its dither array *)
Definition ord_comp (t : cindex) (dither plane : list Z) (width : nat) (out : list Z) : outcome (list Z) :=
  '(out, _) <- for_loop width 0 (fun col '(out, col_index) =>
     x <- aget plane col ;; d <- aget dither col_index ;; v <- ci_get t (x + d) ;;
     o <- aget out col ;; out <- aset out col (u8 (o + v)) ;;
     Ret (out, Z.land (col_index + 1) 15)) (out, 0) ;; Ret out.
Fixpoint ord_comps (tabs : list cindex) (ods : list (list (list Z))) (row_index : Z) (planes : list (list Z)) (width : nat) (out : list Z) : outcome (list Z) :=
  match tabs, ods, planes with
  | [], _, _ => Ret out
  | t :: ts, od :: ods, p :: ps => d <- aget od row_index ;; out <- ord_comp t d p width out ;; ord_comps ts ods row_index ps width out
  | _, _, _ => Undef
  end.
(* jquant1.c:522-575 quantize_ord_dither: rows, with the row index kept between them *)
Fixpoint quantize_ord_dither (tabs : list cindex) (ods : list (list (list Z))) (row_index : Z) (rows : list (list (list Z))) (width : nat) : outcome (list (list Z)) :=
  match rows with
  | [] => Ret []
  | r :: t => o <- ord_comps tabs ods row_index r width (repeat 0 width) ;;
      os <- quantize_ord_dither tabs ods (Z.land (row_index + 1) 15) t width ;; Ret (o :: os)
  end.
(* jquant1.c:600-618: pixel sum in quantize3_ord_dither *)
Fixpoint ord_pixsum (tabs : list cindex) (dithers planes : list (list Z)) (col col_index acc : Z) : outcome Z :=
  match tabs, dithers, planes with
  | [], _, _ => Ret acc
  | t :: ts, d :: ds, p :: ps => x <- aget p col ;; e <- aget d col_index ;; v <- ci_get t (x + e) ;; ord_pixsum ts ds ps col col_index (acc + v)
  | _, _, _ => Undef
  end.
(* jquant1.c:578-625 quantize3_ord_dither on one row (the caller's component count is 3) *)
Fixpoint dither_rows (ods : list (list (list Z))) (row_index : Z) : outcome (list (list Z)) :=
  match ods with [] => Ret [] | od :: t => d <- aget od row_index ;; ds <- dither_rows t row_index ;; Ret (d :: ds) end.
Definition ord3_row (tabs : list cindex) (ods : list (list (list Z))) (row_index : Z) (planes : list (list Z)) (width : nat) : outcome (list Z) :=
  ds <- dither_rows ods row_index ;;
  '(out, _) <- for_loop width 0 (fun col '(out, col_index) =>
     c <- ord_pixsum tabs ds planes col col_index 0 ;; Ret (out ++ [u8 c], Z.land (col_index + 1) 15)) ([], 0) ;; Ret out.

(* jdmaster.c prepare_range_limit_table: clamping for -256 .. 639 *)
Definition range_limit1 (x : Z) : outcome Z := if (x <? -256) || (639 <? x) then Undef else Ret (Z.max 0 (Z.min 255 x)).
(* jquant1.c:628-724: one component of quantize_fs_dither *)
Record fs1 := mkFs1 { h_e : list Z; h_cur : Z; h_below : Z; h_bprev : Z; h_idx : Z; h_pos : Z; h_out : list Z }.
Definition fs1_pixel (t : cindex) (cmap plane : list Z) (dir : Z) (st : fs1) : outcome fs1 :=
  e <- aget (h_e st) (h_idx st + dir) ;;
  let cur := Z.shiftr (h_cur st + e + 8) 4 in
  x <- aget plane (h_pos st) ;;
  cur <- range_limit1 (cur + x) ;;
  pixcode <- ci_get t cur ;;
  o <- aget (h_out st) (h_pos st) ;; out <- aset (h_out st) (h_pos st) (u8 (o + u8 pixcode)) ;;
  p <- aget cmap pixcode ;;
  let cur := cur - p in
  let bnexterr := cur in let delta := cur * 2 in
  let cur := cur + delta in
  es <- aset (h_e st) (h_idx st) (s16 (h_bprev st + cur)) ;;
  let cur := cur + delta in
  let bprev := h_below st + cur in
  let cur := cur + delta in
  Ret (mkFs1 es cur bnexterr bprev (h_idx st + dir) (h_pos st + dir) out).
Definition fs1_comp (t : cindex) (cmap plane : list Z) (odd : bool) (width : nat) (errs out : list Z) : outcome (list Z * list Z) :=
  let w := Z.of_nat width in
  let dir := if odd then -1 else 1 in
  st <- for_loop width 0 (fun _ st => fs1_pixel t cmap plane dir st) (mkFs1 errs 0 0 0 (if odd then w + 1 else 0) (if odd then w - 1 else 0) out) ;;
  es <- aset (h_e st) (h_idx st) (s16 (h_bprev st)) ;; Ret (es, h_out st).
Fixpoint fs1_comps (tabs : list cindex) (cmap planes : list (list Z)) (odd : bool) (width : nat) (errs : list (list Z)) (out : list Z) : outcome (list (list Z) * list Z) :=
  match tabs, cmap, planes, errs with
  | [], _, _, _ => Ret ([], out)
  | t :: ts, c :: cs, p :: ps, e :: es =>
      '(e, out) <- fs1_comp t c p odd width e out ;; '(es, out) <- fs1_comps ts cs ps odd width es out ;; Ret (e :: es, out)
  | _, _, _, _ => Undef
  end.
(* jquant1.c:628-730 quantize_fs_dither: rows; on_odd_row flips *)
Fixpoint quantize_fs_dither (tabs : list cindex) (cmap : list (list Z)) (odd : bool) (rows : list (list (list Z))) (width : nat) (errs : list (list Z)) : outcome (list (list Z)) :=
  match rows with
  | [] => Ret []
  | r :: t => '(errs, o) <- fs1_comps tabs cmap r odd width errs (repeat 0 width) ;;
      os <- quantize_fs_dither tabs cmap (negb odd) t width errs ;; Ret (o :: os)
  end.
