(* T_Color.v -- C23, C24, C25 *)
From Verif Require Import Base M_RangeLimit T_RangeLimit M_Color.

(* ------------------------------------------------------------------ *)
(* specification *)

Definition sample (p v : Z) : Prop := 0 <= v < 2 ^ p.

(* |x - n/100000| <= e/100000 *)
Definition near (x n e : Z) : Prop := Z.abs (100000 * x - n) <= e.

(* CCIR 601 / JFIF equations, in units of 1/100000 *)
Definition Y_exact (r g b : Z) := 29900 * r + 58700 * g + 11400 * b.
Definition Cb_exact (c r g b : Z) := - 16874 * r - 33126 * g + 50000 * b + 100000 * c.
Definition Cr_exact (c r g b : Z) := 50000 * r - 41869 * g - 8131 * b + 100000 * c.

(* ------------------------------------------------------------------ *)

Definition ty r g b := (19595 * r + 38470 * g + 7471 * b + 32768) / 65536.
Definition tcb c r g b := (- 11059 * r - 21709 * g + 32768 * b + c * 65536 + 32767) / 65536.
Definition tcr c r g b := (32768 * r - 27439 * g - 5329 * b + c * 65536 + 32767) / 65536.

Lemma FIXs : FIX 29900 = 19595 /\ FIX 58700 = 38470 /\ FIX 11400 = 7471 /\ FIX 16874 = 11059 /\ FIX 33126 = 21709
  /\ FIX 50000 = 32768 /\ FIX 41869 = 27439 /\ FIX 8131 = 5329 /\ FIX 140200 = 91881 /\ FIX 177200 = 116130
  /\ FIX 71414 = 46802 /\ FIX 34414 = 22554.
Proof. vm_compute. repeat split; reflexivity. Qed.

Lemma p_cases p : p = 8 \/ p = 12 -> 2 ^ p = 2 * 2 ^ (p - 1) /\ 128 <= 2 ^ (p - 1) <= 2048 /\ 1 <= p.
Proof. intros [-> | ->]; cbn; lia. Qed.

Lemma ycc_tab p : p = 8 \/ p = 12 -> exists t, rgb_ycc_start p = Ret t /\
  forall i, 0 <= i < 2 ^ p ->
    t (i + 0 * 2 ^ p) = Some (19595 * i) /\ t (i + 1 * 2 ^ p) = Some (38470 * i) /\
    t (i + 2 * 2 ^ p) = Some (7471 * i + 32768) /\ t (i + 3 * 2 ^ p) = Some (- 11059 * i) /\
    t (i + 4 * 2 ^ p) = Some (- 21709 * i) /\
    t (i + 5 * 2 ^ p) = Some (32768 * i + 2 ^ (p - 1) * 65536 + 32768 - 1) /\
    t (i + 6 * 2 ^ p) = Some (- 27439 * i) /\ t (i + 7 * 2 ^ p) = Some (- 5329 * i).
Proof.
  intros Hp. destruct (p_cases p Hp) as (E & Hc & H1).
  destruct FIXs as (F1 & F2 & F3 & F4 & F5 & F6 & F7 & F8 & _).
  unfold rgb_ycc_start, ycc_size, maxsample, centersample, ONE_HALF. cbn zeta.
  rewrite F1, F2, F3, F4, F5, F6, F7, F8. rewrite Z.shiftl_mul_pow2 by lia. change (2 ^ 16) with 65536.
  replace (2 ^ p - 1 + 1) with (2 ^ p) by lia. set (M := 2 ^ p) in *. set (C := 2 ^ (p - 1)) in *.
  unfold tfill at 8. bools. cbn [bind]. unfold tfill at 7. bools. cbn [bind].
  unfold tfill at 6. bools. cbn [bind]. unfold tfill at 5. bools. cbn [bind].
  unfold tfill at 4. bools. cbn [bind]. unfold tfill at 3. bools. cbn [bind].
  unfold tfill at 2. bools. cbn [bind]. unfold tfill at 1. bools.
  eexists. split; [reflexivity|]. intros i Hi. cbv beta.
  repeat match goal with |- _ /\ _ => split end; bools; f_equal; lia.
Qed.

Lemma to_sample_id p v : p = 8 \/ p = 12 -> 0 <= v < 2 ^ p -> to_sample p v = v.
Proof. intros [-> | ->] H; unfold to_sample; cbn [Z.eqb Pos.eqb]; [apply u8_id; auto|].
  unfold s16. change (2 ^ 12) with 4096 in H. rewrite Z.mod_small; lia. Qed.

Ltac divs := repeat match goal with
  | |- context [?a / 65536] =>
      let q := fresh "q" in
      pose proof (Z.div_mod a 65536 ltac:(lia)); pose proof (Z.mod_pos_bound a 65536 ltac:(lia));
      set (q := a / 65536) in *; clearbody q
  | H : context [?a / 65536] |- _ =>
      let q := fresh "q" in
      pose proof (Z.div_mod a 65536 ltac:(lia)); pose proof (Z.mod_pos_bound a 65536 ltac:(lia));
      set (q := a / 65536) in *; clearbody q
  end.

Lemma rgb_ycc_pixel_ok p : p = 8 \/ p = 12 -> exists t, rgb_ycc_start p = Ret t /\
  forall r g b, sample p r -> sample p g -> sample p b ->
    rgb_ycc_pixel p t r g b = Ret (ty r g b, tcb (2 ^ (p - 1)) r g b, tcr (2 ^ (p - 1)) r g b) /\
    sample p (ty r g b) /\ sample p (tcb (2 ^ (p - 1)) r g b) /\ sample p (tcr (2 ^ (p - 1)) r g b) /\
    lookup3 p t r g b 0 1 2 = Ret (ty r g b).
Proof.
  intros Hp. destruct (p_cases p Hp) as (E & Hc & H1).
  destruct (ycc_tab p Hp) as (t & Et & K). exists t. split; [auto|]. intros r g b Hr Hg Hb.
  unfold sample in *.
  assert (S1 : 0 <= ty r g b < 2 ^ p) by (unfold ty; divs; lia).
  assert (S2 : 0 <= tcb (2 ^ (p - 1)) r g b < 2 ^ p) by (unfold tcb; divs; lia).
  assert (S3 : 0 <= tcr (2 ^ (p - 1)) r g b < 2 ^ p) by (unfold tcr; divs; lia).
  destruct (K r Hr) as (r0 & r1 & r2 & r3 & r4 & r5 & r6 & r7).
  destruct (K g Hg) as (g0 & g1 & g2 & g3 & g4 & g5 & g6 & g7).
  destruct (K b Hb) as (b0 & b1 & b2 & b3 & b4 & b5 & b6 & b7).
  unfold rgb_ycc_pixel, lookup3, tget, ycc_size. cbn zeta.
  replace (maxsample p + 1) with (2 ^ p) by (unfold maxsample; lia).
  bools. rewrite ?r0, ?r3, ?r5, ?g1, ?g4, ?g6, ?b2, ?b5, ?b7. cbn [bind].
  rewrite !Z.shiftr_div_pow2 by lia. change (2 ^ 16) with 65536.
  replace (19595 * r + 38470 * g + (7471 * b + 32768)) with (19595 * r + 38470 * g + 7471 * b + 32768) by ring.
  replace (- 11059 * r + - 21709 * g + (32768 * b + 2 ^ (p - 1) * 65536 + 32768 - 1))
    with (- 11059 * r - 21709 * g + 32768 * b + 2 ^ (p - 1) * 65536 + 32767) by ring.
  replace (32768 * r + 2 ^ (p - 1) * 65536 + 32768 - 1 + - 27439 * g + - 5329 * b)
    with (32768 * r - 27439 * g - 5329 * b + 2 ^ (p - 1) * 65536 + 32767) by ring.
  fold (ty r g b) (tcb (2 ^ (p - 1)) r g b) (tcr (2 ^ (p - 1)) r g b).
  rewrite !to_sample_id by auto. auto 6.
Qed.

(* RGB -> YCbCr: no table overrun, results are legal samples, equal to the JFIF equations within 0.6 *)
Theorem C23_rgb_to_ycc : forall p, p = 8 \/ p = 12 -> exists t, rgb_ycc_start p = Ret t /\
  forall r g b, sample p r -> sample p g -> sample p b ->
    exists y cb cr, rgb_ycc_pixel p t r g b = Ret (y, cb, cr) /\ sample p y /\ sample p cb /\ sample p cr /\
      near y (Y_exact r g b) 60000 /\ near cb (Cb_exact (2 ^ (p - 1)) r g b) 60000 /\
      near cr (Cr_exact (2 ^ (p - 1)) r g b) 60000.
Proof.
  intros p Hp. destruct (rgb_ycc_pixel_ok p Hp) as (t & E & K). exists t. split; [auto|].
  intros r g b Hr Hg Hb. destruct (K r g b Hr Hg Hb) as (P & S1 & S2 & S3 & _).
  do 3 eexists. split; [apply P|]. do 3 (split; [auto|]).
  destruct (p_cases p Hp) as (E2 & Hc & _). unfold near, Y_exact, Cb_exact, Cr_exact, sample, ty, tcb, tcr in *.
  repeat split; divs; lia.
Qed.

(* sharper for 8 bits: within 0.506, i.e. the correctly rounded value except near ties *)
Theorem C23_rgb_to_ycc_8bit : exists t, rgb_ycc_start 8 = Ret t /\
  forall r g b, sample 8 r -> sample 8 g -> sample 8 b ->
    exists y cb cr, rgb_ycc_pixel 8 t r g b = Ret (y, cb, cr) /\
      near y (Y_exact r g b) 50400 /\ near cb (Cb_exact 128 r g b) 50600 /\ near cr (Cr_exact 128 r g b) 50600.
Proof.
  destruct (rgb_ycc_pixel_ok 8 ltac:(auto)) as (t & E & K). exists t. split; [auto|].
  intros r g b Hr Hg Hb. destruct (K r g b Hr Hg Hb) as (P & S1 & S2 & S3 & _).
  do 3 eexists. split; [apply P|].
  unfold near, Y_exact, Cb_exact, Cr_exact, sample, ty, tcb, tcr in *.
  change (2 ^ 8) with 256 in *. change (2 ^ (8 - 1)) with 128 in *.
  repeat split; divs; lia.
Qed.

Theorem C23_gray_is_exact : forall p, p = 8 \/ p = 12 -> exists t, rgb_ycc_start p = Ret t /\
  forall v, sample p v -> rgb_ycc_pixel p t v v v = Ret (v, 2 ^ (p - 1), 2 ^ (p - 1)).
Proof.
  intros p Hp. destruct (rgb_ycc_pixel_ok p Hp) as (t & E & K). exists t. split; [auto|].
  intros v Hv. destruct (K v v v Hv Hv Hv) as (P & _). rewrite P. f_equal.
  assert (ty v v v = v) as -> by (unfold ty; divs; lia).
  assert (tcb (2 ^ (p - 1)) v v v = 2 ^ (p - 1)) as -> by (unfold tcb; divs; lia).
  assert (tcr (2 ^ (p - 1)) v v v = 2 ^ (p - 1)) as -> by (unfold tcr; divs; lia).
  reflexivity.
Qed.

(* ------------------------------------------------------------------ *)
(* decompressor side *)

Lemma dtab_ok p f : 1 <= p -> exists t, dtab p f = Ret t /\
  forall i, sample p i -> tget (dtab_size p) t i = Ret (f (i - 2 ^ (p - 1))).
Proof.
  intros Hp. assert (0 < 2 ^ p) by (apply Z.pow_pos_nonneg; lia).
  unfold dtab, tfill, dtab_size, maxsample, centersample. bools. eexists. split; [reflexivity|].
  intros i Hi. unfold sample in Hi. unfold tget. bools. now rewrite Z.sub_0_r.
Qed.

Definition dr c cr := (91881 * (cr - c) + 32768) / 65536.
Definition db c cb := (116130 * (cb - c) + 32768) / 65536.
Definition dg c cb cr := (- 22554 * (cb - c) + 32768 + - 46802 * (cr - c)) / 65536.

Lemma ycc_rgb_pixel_ok p : p = 8 \/ p = 12 -> exists rl t, prepare_range_limit_table p = Ret rl /\
  build_ycc_rgb_table p = Ret t /\
  forall y cb cr, sample p y -> sample p cb -> sample p cr ->
    let c := 2 ^ (p - 1) in
    ycc_rgb_pixel p rl t y cb cr = Ret (clamp p (y + dr c cr), clamp p (y + dg c cb cr), clamp p (y + db c cb)) /\
    forall k, ycck_cmyk_pixel p rl t y cb cr k =
      Ret [2 ^ p - 1 - clamp p (y + dr c cr); 2 ^ p - 1 - clamp p (y + dg c cb cr); 2 ^ p - 1 - clamp p (y + db c cb); k].
Proof.
  intros Hp. destruct (p_cases p Hp) as (E & Hc & H1).
  destruct (C44_simple_table_clamps p H1) as (rl & Erl & Krl). exists rl.
  unfold build_ycc_rgb_table.
  destruct (dtab_ok p (fun x => Z.shiftr (FIX 140200 * x + ONE_HALF) 16) H1) as (t1 & E1 & K1).
  destruct (dtab_ok p (fun x => Z.shiftr (FIX 177200 * x + ONE_HALF) 16) H1) as (t2 & E2 & K2).
  destruct (dtab_ok p (fun x => - FIX 71414 * x) H1) as (t3 & E3 & K3).
  destruct (dtab_ok p (fun x => - FIX 34414 * x + ONE_HALF) H1) as (t4 & E4 & K4).
  rewrite E1. cbn [bind]. rewrite E2. cbn [bind]. rewrite E3. cbn [bind]. rewrite E4. cbn [bind].
  eexists. split; [auto|]. split; [reflexivity|]. intros y cb cr Hy Hcb Hcr. cbn zeta.
  destruct FIXs as (_ & _ & _ & _ & _ & _ & _ & _ & F1 & F2 & F3 & F4).
  unfold ycc_rgb_pixel, ycck_cmyk_pixel. cbn [Cr_r Cb_b Cr_g Cb_g].
  rewrite K1, K2, K3, K4 by auto. cbn [bind]. rewrite F1, F2, F3, F4. unfold ONE_HALF.
  rewrite !Z.shiftr_div_pow2 by lia. change (2 ^ 16) with 65536.
  change (- (22554)) with (-22554). change (- (46802)) with (-46802).
  fold (dr (2 ^ (p - 1)) cr) (db (2 ^ (p - 1)) cb) (dg (2 ^ (p - 1)) cb cr).
  set (C := 2 ^ (p - 1)) in *. unfold sample in *. rewrite E in *.
  assert (- (2 * C) <= dr C cr < 2 * C) by (unfold dr; divs; lia).
  assert (- (2 * C) + 20 <= dg C cb cr < 2 * C) by (unfold dg; divs; lia).
  assert (- (2 * C) <= db C cb < 2 * C) by (unfold db; divs; lia).
  unfold maxsample in *. rewrite E in *.
  split; [rewrite !Krl by lia; reflexivity|]. intros k. rewrite !Krl by lia. cbn [bind].
  assert (Q : forall v, clamp p (2 * C - 1 - v) = 2 * C - 1 - clamp p v) by (intros; unfold clamp; rewrite E; lia).
  now rewrite !Q.
Qed.

Theorem C23_ycc_to_rgb : forall p, p = 8 \/ p = 12 -> exists rl t, prepare_range_limit_table p = Ret rl /\
  build_ycc_rgb_table p = Ret t /\
  forall y cb cr, sample p y -> sample p cb -> sample p cr ->
    exists r g b, ycc_rgb_pixel p rl t y cb cr = Ret (r, g, b) /\ sample p r /\ sample p g /\ sample p b /\
      (* the JFIF equations, before clamping, within 0.6 *)
      exists r0 g0 b0, r = clamp p r0 /\ g = clamp p g0 /\ b = clamp p b0 /\
        near r0 (100000 * y + 140200 * (cr - 2 ^ (p - 1))) 60000 /\
        near g0 (100000 * y - 34414 * (cb - 2 ^ (p - 1)) - 71414 * (cr - 2 ^ (p - 1))) 60000 /\
        near b0 (100000 * y + 177200 * (cb - 2 ^ (p - 1))) 60000.
Proof.
  intros p Hp. destruct (ycc_rgb_pixel_ok p Hp) as (rl & t & E1 & E2 & K). exists rl, t.
  split; [auto|]. split; [auto|]. intros y cb cr Hy Hcb Hcr. destruct (K y cb cr Hy Hcb Hcr) as (P & _).
  do 3 eexists. split; [apply P|]. destruct (p_cases p Hp) as (E & Hc & H1).
  unfold sample, clamp in *. do 3 (split; [lia|]).
  do 3 eexists. do 3 (split; [reflexivity|]). unfold near, dr, dg, db. set (C := 2 ^ (p - 1)) in *.
  repeat split; divs; lia.
Qed.

Theorem C23_gray_stays_gray : forall p, p = 8 \/ p = 12 -> exists rl t, prepare_range_limit_table p = Ret rl /\
  build_ycc_rgb_table p = Ret t /\
  forall y, sample p y -> ycc_rgb_pixel p rl t y (2 ^ (p - 1)) (2 ^ (p - 1)) = Ret (y, y, y).
Proof.
  intros p Hp. destruct (ycc_rgb_pixel_ok p Hp) as (rl & t & E1 & E2 & K). exists rl, t.
  split; [auto|]. split; [auto|]. intros y Hy. destruct (p_cases p Hp) as (E & Hc & H1).
  unfold sample in *. destruct (K y (2 ^ (p - 1)) (2 ^ (p - 1))) as (P & _); try lia.
  rewrite P. unfold dr, dg, db. rewrite Z.sub_diag. rewrite !Z.mul_0_r, Z.add_0_l, Z.add_0_r.
  change (32768 / 65536) with 0. rewrite Z.add_0_r. replace (clamp p y) with y by (unfold clamp; lia). reflexivity.
Qed.

(* ------------------------------------------------------------------ *)
(* C24 *)

Lemma round_trip_bound p : p = 8 \/ p = 12 -> forall r g b, sample p r -> sample p g -> sample p b ->
  let c := 2 ^ (p - 1) in let y := ty r g b in let cb := tcb c r g b in let cr := tcr c r g b in
  let e := if p =? 8 then 1 else 2 in
  Z.abs (y + dr c cr - r) <= e /\ Z.abs (y + dg c cb cr - g) <= e /\ Z.abs (y + db c cb - b) <= e.
Proof.
  intros [-> | ->] r g b Hr Hg Hb; unfold sample in *; cbn zeta.
  - change (2 ^ 8) with 256 in *. change (2 ^ (8 - 1)) with 128. cbn [Z.eqb Pos.eqb].
    unfold dr, dg, db, ty, tcb, tcr. repeat split; divs; lia.
  - change (2 ^ 12) with 4096 in *. change (2 ^ (12 - 1)) with 2048. cbn [Z.eqb Pos.eqb].
    unfold dr, dg, db, ty, tcb, tcr. repeat split; divs; lia.
Qed.

Lemma clamp_close p x r e : sample p r -> Z.abs (x - r) <= e -> Z.abs (clamp p x - r) <= e.
Proof. unfold sample, clamp. lia. Qed.

(* converting to YCbCr and back changes a channel by at most 1 (8-bit) or 2 (12-bit) levels *)
Theorem C24_round_trip : forall p, p = 8 \/ p = 12 ->
  exists t rl d, rgb_ycc_start p = Ret t /\ prepare_range_limit_table p = Ret rl /\ build_ycc_rgb_table p = Ret d /\
  forall r g b, sample p r -> sample p g -> sample p b ->
    exists y cb cr r' g' b', rgb_ycc_pixel p t r g b = Ret (y, cb, cr) /\
      ycc_rgb_pixel p rl d y cb cr = Ret (r', g', b') /\
      let e := if p =? 8 then 1 else 2 in
      Z.abs (r' - r) <= e /\ Z.abs (g' - g) <= e /\ Z.abs (b' - b) <= e.
Proof.
  intros p Hp. destruct (rgb_ycc_pixel_ok p Hp) as (t & Et & Kt).
  destruct (ycc_rgb_pixel_ok p Hp) as (rl & d & E1 & E2 & K). exists t, rl, d. do 3 (split; [auto|]).
  intros r g b Hr Hg Hb. destruct (Kt r g b Hr Hg Hb) as (P & S1 & S2 & S3 & _).
  destruct (K _ _ _ S1 S2 S3) as (P' & _). do 6 eexists. split; [apply P|]. split; [apply P'|].
  pose proof (round_trip_bound p Hp r g b Hr Hg Hb) as (B1 & B2 & B3). cbn zeta.
  split; [|split]; apply clamp_close; auto.
Qed.

(* the 8-bit constant is the best possible *)
Example C24_bound_attained : exists t rl d, rgb_ycc_start 8 = Ret t /\ prepare_range_limit_table 8 = Ret rl /\
  build_ycc_rgb_table 8 = Ret d /\ rgb_ycc_pixel 8 t 0 0 1 = Ret (0, 128, 128) /\ ycc_rgb_pixel 8 rl d 0 128 128 = Ret (0, 0, 0).
Proof. do 3 eexists. do 3 (split; [vm_compute; reflexivity|]). vm_compute. auto. Qed.

(* ------------------------------------------------------------------ *)
(* C25.  What the names of the pixel formats mean. *)
Inductive channel := R | G | B | X.
Definition layout (cs : colorspace) : list channel :=
  match cs with
  | JCS_RGB | JCS_EXT_RGB => [R; G; B] | JCS_EXT_RGBX | JCS_EXT_RGBA => [R; G; B; X]
  | JCS_EXT_BGR => [B; G; R] | JCS_EXT_BGRX | JCS_EXT_BGRA => [B; G; R; X]
  | JCS_EXT_XBGR | JCS_EXT_ABGR => [X; B; G; R] | JCS_EXT_XRGB | JCS_EXT_ARGB => [X; R; G; B]
  end.
(* a pixel (r,g,b) with padding value x in the given format; a row of pixels *)
Definition pack1 (cs : colorspace) (px : Z * Z * Z * Z) : list Z :=
  let '(r, g, b, x) := px in map (fun c => match c with R => r | G => g | B => b | X => x end) (layout cs).
Definition pack (cs : colorspace) (row : list (Z * Z * Z * Z)) : list Z := flat_map (pack1 cs) row.
Definition opaque (p : Z) (px : Z * Z * Z) : Z * Z * Z * Z := (px, 2 ^ p - 1).

Ltac fmt_cases cs := destruct cs; cbn [fmt_of FMT_RGB FMT_RGBX FMT_BGR FMT_BGRX FMT_XBGR FMT_XRGB f_red f_green f_blue f_size f_alpha].

Lemma read_pixel cs r g b x rest :
  let f := fmt_of cs in let l := pack1 cs (r, g, b, x) ++ rest in
  aget l (f_red f) = Ret r /\ aget l (f_green f) = Ret g /\ aget l (f_blue f) = Ret b /\
  skipn (Z.to_nat (f_size f)) l = rest.
Proof. destruct cs; cbn; auto. Qed.

(* the components stored for a row of pixels: the same for every format and padding *)
Definition ycc_of_row (p : Z) (t : tblmem) :=
  fix go (row : list (Z * Z * Z * Z)) : outcome (list Z * list Z * list Z) :=
    match row with
    | [] => Ret ([], [], [])
    | (r, g, b, _) :: row => '(y, cb, cr) <- rgb_ycc_pixel p t (RANGE_LIMIT p r) (RANGE_LIMIT p g) (RANGE_LIMIT p b) ;;
       '(ys, cbs, crs) <- go row ;; Ret (y :: ys, cb :: cbs, cr :: crs)
    end.

Lemma ycc_row_pack p t cs : forall row rest,
  rgb_ycc_row p t (fmt_of cs) (length row) (pack cs row ++ rest) = ycc_of_row p t row.
Proof.
  induction row as [|[[[r g] b] x] row IH]; intros rest; [reflexivity|].
  cbn [pack flat_map length rgb_ycc_row ycc_of_row]. rewrite <- app_assoc.
  destruct (read_pixel cs r g b x (pack cs row ++ rest)) as (A & B0 & C & D). 
  fold (pack cs row). rewrite A, B0, C, D. cbn [bind]. now rewrite IH.
Qed.

(* same colours, any formats, any padding: same components *)
Theorem C25_input_format_independent : forall p t cs1 cs2 row1 row2 rest1 rest2, 
  map fst row1 = map fst row2 ->
  rgb_ycc_row p t (fmt_of cs1) (length row1) (pack cs1 row1 ++ rest1) =
  rgb_ycc_row p t (fmt_of cs2) (length row2) (pack cs2 row2 ++ rest2).
Proof.
  intros p t cs1 cs2 row1 row2 rest1 rest2 E. rewrite !ycc_row_pack.
  revert row2 E. induction row1 as [|[[[r g] b] x] row1 IH]; intros [|[[[r' g'] b'] x'] row2] E; try discriminate; auto.
  cbn in E. injection E as -> -> -> E. cbn [ycc_of_row]. now rewrite (IH row2 E).
Qed.

Theorem C25_input_gray_format_independent : forall p t cs1 cs2 row1 row2 rest1 rest2, 
  map fst row1 = map fst row2 ->
  rgb_gray_row p t (fmt_of cs1) (length row1) (pack cs1 row1 ++ rest1) =
  rgb_gray_row p t (fmt_of cs2) (length row2) (pack cs2 row2 ++ rest2).
Proof.
  intros p t cs1 cs2. induction row1 as [|[[[r g] b] x] row1 IH]; intros [|[[[r' g'] b'] x'] row2] rest1 rest2 E;
    try discriminate; auto.
  cbn in E. injection E as -> -> -> E. cbn [pack flat_map length rgb_gray_row]. rewrite <- !app_assoc.
  destruct (read_pixel cs1 r' g' b' x (pack cs1 row1 ++ rest1)) as (A & B0 & C & D).
  destruct (read_pixel cs2 r' g' b' x' (pack cs2 row2 ++ rest2)) as (A' & B' & C' & D').
  fold (pack cs1 row1) (pack cs2 row2). rewrite A, B0, C, D, A', B', C', D'. cbn [bind]. 
  now rewrite (IH row2 rest1 rest2 E).
Qed.

(* RGB stored as RGB: exact planes *)
Theorem C25_input_rgb_exact : forall cs row rest,
  rgb_rgb_row (fmt_of cs) (length row) (pack cs row ++ rest) =
  Ret (map (fun '(r, _, _, _) => r) row, map (fun '(_, g, _, _) => g) row, map (fun '(_, _, b, _) => b) row).
Proof.
  intros cs. induction row as [|[[[r g] b] x] row IH]; intros rest; [reflexivity|].
  cbn [pack flat_map length rgb_rgb_row map]. rewrite <- app_assoc.
  destruct (read_pixel cs r g b x (pack cs row ++ rest)) as (A & B0 & C & D). 
  fold (pack cs row). rewrite A, B0, C, D. cbn [bind]. now rewrite IH.
Qed.

(* output: the row of pixels in the requested format, padding set to the maximum, and nothing after
   the last pixel is touched *)
Lemma store_pixel_ok p cs r g b outptr : (length (layout cs) <= length outptr)%nat ->
  store_pixel p (fmt_of cs) r g b outptr = Ret (pack1 cs (opaque p (r, g, b)) ++ skipn (length (layout cs)) outptr).
Proof.
  intros H. destruct cs; cbn [layout length] in H;
  (destruct outptr as [|o0 [|o1 [|o2 [|o3 o]]]]; cbn [length] in H; try lia);
  unfold store_pixel, fmt_of, FMT_RGB, FMT_RGBX, FMT_BGR, FMT_BGRX, FMT_XBGR, FMT_XRGB;
  cbn [f_red f_green f_blue f_size f_alpha];
  repeat (rewrite aset_ok by (rewrite ?length_upd; cbn [length]; lia); cbn [bind]); reflexivity.
Qed.

Lemma skipn_skipn_ {A} (l : list A) : forall a b, skipn a (skipn b l) = skipn (b + a) l.
Proof. intros a b; revert l; induction b as [|b IH]; intros l; [reflexivity|]. destruct l; cbn [skipn Nat.add]; [apply skipn_nil|apply IH]. Qed.
Lemma skipn_len_app {A} (a b : list A) n : length a = n -> skipn n (a ++ b) = b.
Proof. intros <-. rewrite skipn_app, skipn_all, Nat.sub_diag. reflexivity. Qed.
Lemma firstn_len_app {A} (a b : list A) n : length a = n -> firstn n (a ++ b) = a.
Proof. intros <-. rewrite firstn_app, firstn_all, Nat.sub_diag, firstn_O. apply app_nil_r. Qed.

Lemma out_row_ok p cs : forall cols (px : list (Z * Z * Z)) outptr,
  cols = map Ret px -> (length px * length (layout cs) <= length outptr)%nat ->
  out_row p (fmt_of cs) cols outptr = Ret (pack cs (map (opaque p) px) ++ skipn (length px * length (layout cs)) outptr).
Proof.
  assert (Hsz : Z.to_nat (f_size (fmt_of cs)) = length (layout cs)) by (destruct cs; reflexivity).
  intros cols px. revert cols. induction px as [|[[r g] b] px IH]; intros cols outptr -> H; [reflexivity|].
  cbn [map out_row bind length Nat.mul] in *. rewrite store_pixel_ok by lia. cbn [bind]. rewrite Hsz.
  assert (Hl : length (pack1 cs (opaque p (r, g, b))) = length (layout cs)) by (unfold pack1, opaque; apply map_length).
  rewrite (skipn_len_app _ _ _ Hl), (firstn_len_app _ _ _ Hl).
  rewrite (IH _ _ eq_refl) by (rewrite skipn_length; lia). cbn [bind].
  unfold pack. cbn [flat_map]. rewrite <- app_assoc. do 3 f_equal.
  rewrite skipn_skipn_. f_equal.
Qed.

Theorem C25_output_ycc : forall p, p = 8 \/ p = 12 -> exists rl t, prepare_range_limit_table p = Ret rl /\
  build_ycc_rgb_table p = Ret t /\
  forall in0 in1 in2 num_cols, Forall (sample p) in0 -> Forall (sample p) in1 -> Forall (sample p) in2 ->
    (num_cols <= length in0)%nat -> (num_cols <= length in1)%nat -> (num_cols <= length in2)%nat ->
    exists pixels, length pixels = num_cols /\
      (forall c, (c < num_cols)%nat -> ycc_rgb_pixel p rl t (nth c in0 0) (nth c in1 0) (nth c in2 0) = Ret (nth c pixels (0, 0, 0))) /\
      forall cs outptr, (num_cols * length (layout cs) <= length outptr)%nat ->
        ycc_rgb_row p rl t (fmt_of cs) num_cols in0 in1 in2 outptr =
          Ret (pack cs (map (opaque p) pixels) ++ skipn (num_cols * length (layout cs)) outptr).
Proof.
  intros p Hp. destruct (ycc_rgb_pixel_ok p Hp) as (rl & t & E1 & E2 & K). exists rl, t.
  split; [auto|]. split; [auto|]. intros in0 in1 in2 n F0 F1 F2 L0 L1 L2.
  pose (f c := let y := nth c in0 0 in let cb := nth c in1 0 in let cr := nth c in2 0 in let c := 2 ^ (p - 1) in
     (clamp p (y + dr c cr), clamp p (y + dg c cb cr), clamp p (y + db c cb))).
  assert (Hf : forall c, (c < n)%nat -> ycc_rgb_pixel p rl t (nth c in0 0) (nth c in1 0) (nth c in2 0) = Ret (f c)).
  { intros c Hc. rewrite Forall_forall in *. apply K; [apply F0|apply F1|apply F2]; apply nth_In; lia. }
  exists (map f (seq 0 n)). split; [now rewrite map_length, seq_length|]. split.
  - intros c Hc. rewrite Hf by auto. f_equal. 
    rewrite (nth_indep _ (0, 0, 0) (f 0%nat)) by (rewrite map_length, seq_length; lia).
    rewrite map_nth, seq_nth by lia. reflexivity.
  - intros cs outptr Ho. unfold ycc_rgb_row.
    rewrite (out_row_ok p cs _ (map f (seq 0 n)) outptr).
    + now rewrite map_length, seq_length.
    + rewrite map_map. apply map_ext_in. intros c Hc. apply in_seq in Hc.
      rewrite !(aget_nth _ _ 0) by lia. rewrite !Nat2Z.id. cbn [bind]. apply Hf. lia.
    + now rewrite map_length, seq_length.
Qed.


Theorem C25_output_gray : forall p cs num_cols in0 outptr, (num_cols <= length in0)%nat ->
  (num_cols * length (layout cs) <= length outptr)%nat ->
  gray_rgb_row p (fmt_of cs) num_cols in0 outptr =
    Ret (pack cs (map (fun v => (v, v, v, 2 ^ p - 1)) (firstn num_cols in0)) ++ skipn (num_cols * length (layout cs)) outptr).
Proof.
  intros p cs n in0 outptr L Ho. unfold gray_rgb_row.
  rewrite (out_row_ok p cs _ (map (fun v => (v, v, v)) (firstn n in0)) outptr).
  - rewrite map_length, firstn_length_le by auto. now rewrite map_map.
  - assert (E : firstn n in0 = map (fun c => nth c in0 0) (seq 0 n)).
    { apply nth_ext with (d := 0) (d' := nth 0 in0 0); [rewrite firstn_length_le, map_length, seq_length; auto|].
      intros k Hk. rewrite firstn_length_le in Hk by auto.
      rewrite (map_nth (fun c => nth c in0 0) (seq 0 n) 0%nat), seq_nth by auto. rewrite <- (firstn_skipn n in0) at 2.
      rewrite app_nth1 by (rewrite firstn_length_le; auto). reflexivity. }
    rewrite E, !map_map. apply map_ext_in. intros c Hc. apply in_seq in Hc.
    rewrite (aget_nth _ _ 0) by lia. rewrite Nat2Z.id. reflexivity.
  - now rewrite map_length, firstn_length_le.
Qed.

(* no-conversion paths: planes are exactly the interleaved samples, and interleaving them again
   restores the row *)
Lemma null_plane_ok nc : forall n ci inptr, (0 < nc)%nat -> (ci < nc)%nat -> (n * nc <= length inptr)%nat ->
  null_plane nc (Z.of_nat ci) n inptr = Ret (map (fun col => nth (col * nc + ci) inptr 0) (seq 0 n)).
Proof.
  induction n as [|n IH]; intros ci inptr Hnc Hci Hl; [reflexivity|].
  cbn [null_plane seq map Nat.mul Nat.add] in *. rewrite (aget_nth _ _ 0) by lia. rewrite Nat2Z.id. cbn [bind].
  rewrite (IH ci (skipn nc inptr)) by (try rewrite skipn_length; lia). cbn [bind]. do 2 f_equal.
  rewrite <- seq_shift, map_map. apply map_ext. intros c. 
  rewrite <- (firstn_skipn nc inptr) at 2. rewrite app_nth2; rewrite firstn_length_le by lia; [|cbn; lia].
  f_equal. cbn [Nat.mul]. lia.
Qed.

Theorem C25_null_convert_planes : forall nc num_cols inptr, (0 < nc)%nat -> (num_cols * nc <= length inptr)%nat ->
  exists planes, null_convert_c nc nc 0 num_cols inptr = Ret planes /\ length planes = nc /\
    forall ci, (ci < nc)%nat -> length (nth ci planes []) = num_cols /\
      forall col, (col < num_cols)%nat -> nth col (nth ci planes []) 0 = nth (col * nc + ci) inptr 0.
Proof.
  intros nc n inptr Hnc Hl.
  assert (G : forall k ci0, (ci0 + k = nc)%nat -> null_convert_c nc k (Z.of_nat ci0) n inptr =
     Ret (map (fun ci => map (fun col => nth (col * nc + ci) inptr 0) (seq 0 n)) (seq ci0 k))).
  { induction k as [|k IH]; intros ci0 E; [reflexivity|]. cbn [null_convert_c seq map].
    rewrite null_plane_ok by lia. cbn [bind]. replace (Z.of_nat ci0 + 1) with (Z.of_nat (S ci0)) by lia.
    rewrite IH by lia. reflexivity. }
  eexists. split; [apply (G nc 0%nat); lia|]. split; [now rewrite map_length, seq_length|].
  intros ci Hci.
  pose (F := fun ci => map (fun col => nth (col * nc + ci) inptr 0) (seq 0 n)).
  assert (EF : nth ci (map F (seq 0 nc)) [] = F ci).
  { rewrite (nth_indep _ [] (F 0%nat)) by (rewrite map_length, seq_length; lia). rewrite map_nth, seq_nth by lia. reflexivity. }
  fold F. rewrite EF. split; [unfold F; now rewrite map_length, seq_length|].
  intros col Hcol. unfold F. rewrite (nth_indep _ 0 (nth (0 * nc + ci) inptr 0)) by (rewrite map_length, seq_length; lia).
  rewrite (map_nth (fun col => nth (col * nc + ci) inptr 0)), seq_nth by lia. reflexivity.
Qed.

Definition null_pixel (c : Z) : list (list Z) -> outcome (list Z) :=
  fix go (pl : list (list Z)) : outcome (list Z) :=
    match pl with [] => Ret [] | q :: pl => v <- aget q c ;; vs <- go pl ;; Ret (v :: vs) end.
Lemma null_pixel_ok c planes : (forall q, In q planes -> (c < length q)%nat) ->
  null_pixel (Z.of_nat c) planes = Ret (map (fun q => nth c q 0) planes).
Proof.
  induction planes as [|q pl IH]; intros H; [reflexivity|]. cbn [null_pixel map].
  rewrite (aget_nth _ _ 0) by (specialize (H q (or_introl eq_refl)); lia). rewrite Nat2Z.id. cbn [bind].
  change (vs <- null_pixel (Z.of_nat c) pl ;; Ret (nth c q 0 :: vs) = Ret (nth c q 0 :: map (fun q => nth c q 0) pl)). rewrite IH by (intros; apply H; right; auto). reflexivity.
Qed.

Theorem C25_null_convert_round_trip : forall nc num_cols inptr, (0 < nc)%nat -> length inptr = (num_cols * nc)%nat ->
  exists planes, null_convert_c nc nc 0 num_cols inptr = Ret planes /\
    null_convert_d_row planes (map Z.of_nat (seq 0 num_cols)) = Ret inptr.
Proof.
  intros nc n inptr Hnc Hl. destruct (C25_null_convert_planes nc n inptr Hnc ltac:(lia)) as (planes & E & Lp & K).
  exists planes. split; [auto|].
  assert (G : forall m c0, (c0 + m <= n)%nat -> null_convert_d_row planes (map Z.of_nat (seq c0 m)) =
            Ret (firstn (m * nc) (skipn (c0 * nc) inptr))).
  { induction m as [|m IH]; intros c0 Hm; [cbn; now rewrite ?firstn_O|].
    cbn [seq map null_convert_d_row]. fold (null_pixel (Z.of_nat c0)).
    rewrite null_pixel_ok.
    2:{ intros q Hq. destruct (In_nth _ _ [] Hq) as (ci & Hci & <-). rewrite Lp in Hci. destruct (K ci Hci) as (-> & _). lia. }
    cbn [bind]. rewrite IH by lia. cbn [bind]. f_equal.
    assert (EP : map (fun q => nth c0 q 0) planes = firstn nc (skipn (c0 * nc) inptr)).
    { apply nth_ext with (d := 0) (d' := 0).
      - rewrite map_length, Lp, firstn_length_le; auto. rewrite skipn_length. nia.
      - intros ci Hci. rewrite map_length, Lp in Hci.
        rewrite (nth_indep _ 0 (nth c0 [] 0)) by (rewrite map_length; lia).
        rewrite (map_nth (fun q => nth c0 q 0)). destruct (K ci Hci) as (_ & ->); [|lia].
        rewrite <- (firstn_skipn (c0 * nc) inptr) at 1. rewrite app_nth2; rewrite firstn_length_le by nia; [|lia].
        replace (c0 * nc + ci - c0 * nc)%nat with ci by lia.
        rewrite <- (firstn_skipn nc (skipn (c0 * nc) inptr)) at 1. rewrite app_nth1; auto.
        rewrite firstn_length_le; [lia|]. rewrite skipn_length. nia. }
    rewrite EP. replace (S m * nc)%nat with (nc + m * nc)%nat by lia.
    replace (S c0 * nc)%nat with (c0 * nc + nc)%nat by lia. rewrite <- skipn_skipn_.
    assert (Lx : (nc <= length (skipn (c0 * nc) inptr))%nat) by (rewrite skipn_length; nia).
    set (x := skipn (c0 * nc) inptr) in *.
    transitivity (firstn (nc + m * nc) (firstn nc x ++ skipn nc x)); [|now rewrite firstn_skipn].
    rewrite firstn_app, firstn_firstn, firstn_length_le by auto. 
    replace (Nat.min (nc + m * nc) nc) with nc by lia. now replace (nc + m * nc - nc)%nat with (m * nc)%nat by lia. }
  rewrite (G n 0%nat) by lia. cbn [Nat.mul skipn]. rewrite <- Hl, firstn_all. reflexivity.
Qed.

Example C25_nonvacuous :
  pack JCS_EXT_XBGR [(1, 2, 3, 9); (4, 5, 6, 8)] = [9; 3; 2; 1; 8; 6; 5; 4] /\
  rgb_rgb_row (fmt_of JCS_EXT_XBGR) 2 [9; 3; 2; 1; 8; 6; 5; 4] = Ret ([1; 4], [2; 5], [3; 6]) /\
  gray_rgb_row 8 (fmt_of JCS_EXT_BGRA) 2 [7; 8] (repeat 0 9) = Ret [7; 7; 7; 255; 8; 8; 8; 255; 0].
Proof. vm_compute. auto. Qed.

Print Assumptions C23_rgb_to_ycc.
Print Assumptions C23_rgb_to_ycc_8bit.
Print Assumptions C23_gray_is_exact.
Print Assumptions C23_ycc_to_rgb.
Print Assumptions C23_gray_stays_gray.
Print Assumptions C24_round_trip.
Print Assumptions C25_input_format_independent.
Print Assumptions C25_input_gray_format_independent.
Print Assumptions C25_input_rgb_exact.
Print Assumptions C25_output_ycc.
Print Assumptions C25_output_gray.
Print Assumptions C25_null_convert_planes.
Print Assumptions C25_null_convert_round_trip.
