(* T_GifSafe.v -- C52: the GIF reader on arbitrary bytes *)
From Verif Require Import Base M_Gif P_GifBits P_GifSafe.

Definition d3 : Z * Z * Z := (0, 0, 0).
Lemma cmap_rel : forall n i inp cm cm' gray, Forall isbyte inp -> length cm = Z.to_nat 256 -> length cm' = Z.to_nat 256 -> 0 <= i -> i + Z.of_nat n <= 256 -> agree d3 i cm cm' ->
  orel (fun x x' => let '(c, g, r) := x in let '(c', g', r') := x' in g = g' /\ r = r' /\ length c = Z.to_nat 256 /\ length c' = Z.to_nat 256 /\ agree d3 (i + Z.of_nat n) c c' /\ Forall isbyte r /\ (length r <= length inp)%nat)
    (ReadColorMap n i inp cm gray) (ReadColorMap n i inp cm' gray).
Proof.
  induction n as [|n IH]; intros i inp cm cm' gray HI L1 L2 Hi Hn HA; cbn [ReadColorMap].
  - cbn [orel]. rewrite Z.add_0_r. auto 10.
  - destruct inp as [|r [|g [|b rest]]]; try reflexivity. rewrite !aset_ok by lia. cbn [bind].
    eapply orel_impl; [apply IH; rewrite ?length_upd; auto; try lia|].
    + exact (Forall_inv_tail (Forall_inv_tail (Forall_inv_tail HI))).
    + intros k Hk. destruct (Z.eq_dec k i) as [->|N]; [rewrite !nth_upd_eq by lia; reflexivity|]. rewrite !nth_upd_neq by lia. apply HA. lia.
    + intros [[c gr] q] [[c' gr'] q'] (G1 & G2 & G3 & G4 & G5 & G6 & G7). split; [exact G1|]. split; [exact G2|]. split; [exact G3|]. split; [exact G4|].
      split; [replace (i + Z.of_nat (S n)) with (i + 1 + Z.of_nat n) by lia; exact G5|]. split; [exact G6|]. cbn [length]. lia.
Qed.

Lemma pad_rel : forall n i cm cm', length cm = Z.to_nat 256 -> length cm' = Z.to_nat 256 -> 0 <= i -> i + Z.of_nat n <= 256 -> agree d3 i cm cm' ->
  orel (fun c c' => length c = Z.to_nat 256 /\ length c' = Z.to_nat 256 /\ agree d3 (i + Z.of_nat n) c c') (pad_cmap n i cm) (pad_cmap n i cm').
Proof.
  induction n as [|n IH]; intros i cm cm' L1 L2 Hi Hn HA; cbn [pad_cmap].
  - cbn [orel]. rewrite Z.add_0_r. auto 10.
  - rewrite !aset_ok by lia. cbn [bind]. eapply orel_impl; [apply IH; rewrite ?length_upd; auto; try lia|].
    + intros k Hk. destruct (Z.eq_dec k i) as [->|N]; [rewrite !nth_upd_eq by lia; reflexivity|]. rewrite !nth_upd_neq by lia. apply HA. lia.
    + intros c c' (G1 & G2 & G3). split; [exact G1|]. split; [exact G2|]. replace (i + Z.of_nat (S n)) with (i + 1 + Z.of_nat n) by lia. exact G3.
Qed.

Lemma low7 fl : 0 <= Z.land fl 7 < 8.
Proof. change 7 with (Z.ones 3). rewrite Z.land_ones by lia. apply Z.mod_pos_bound. reflexivity. Qed.
Lemma cmsize fl : 2 <= Z.shiftl 2 (Z.land fl 7) <= 256.
Proof.
  pose proof (low7 fl). rewrite Z.shiftl_mul_pow2 by lia. assert (1 <= 2 ^ Z.land fl 7) by (apply (Z.pow_le_mono_r 2 0); lia).
  assert (2 ^ Z.land fl 7 <= 2 ^ 7) by (apply Z.pow_le_mono_r; lia). change (2 ^ 7) with 128 in *. lia.
Qed.

Definition hrel (h h' : ghdr) : Prop :=
  h_w h = h_w h' /\ h_h h = h_h h' /\ h_inter h = h_inter h' /\ h_ics h = h_ics h' /\ h_cmlen h = h_cmlen h' /\ h_gs h = h_gs h' /\ h_warn h = h_warn h' /\ h_rest h = h_rest h' /\
  length (h_cm h) = Z.to_nat 256 /\ length (h_cm h') = Z.to_nat 256 /\ 2 <= h_ics h <= 8 /\ 0 <= h_cmlen h <= 256 /\ Forall isbyte (h_rest h) /\ 1 <= h_w h /\ 1 <= h_h h.

Lemma word_rel l o : Forall isbyte l -> 0 <= o -> o + 1 < Z.of_nat (length l) -> exists v, LM_to_uint l o = Ret v /\ 0 <= v.
Proof.
  intros HF H1 H2. unfold LM_to_uint. rewrite (aget_ok l o 0), (aget_ok l (o + 1) 0) by lia. cbn [bind]. eexists. split; [reflexivity|].
  pose proof (Forall_nth_ok isbyte l (Z.to_nat o) 0 HF ltac:(lia)) as B1. pose proof (Forall_nth_ok isbyte l (Z.to_nat (o + 1)) 0 HF ltac:(lia)) as B2. unfold isbyte in *.
  rewrite Z.shiftl_mul_pow2 by lia. change (2 ^ 8) with 256. lia.
Qed.

Lemma scan_rel : forall fuel inp cm cm' cl gs wn, Forall isbyte inp -> (length inp < fuel)%nat -> length cm = Z.to_nat 256 -> length cm' = Z.to_nat 256 -> 0 <= cl <= 256 -> agree d3 cl cm cm' ->
  orel (fun h h' => hrel h h' /\ agree d3 (h_cmlen h) (h_cm h) (h_cm h')) (scan_image fuel inp cm cl gs wn) (scan_image fuel inp cm' cl gs wn).
Proof.
  induction fuel as [|fuel IH]; intros inp cm cm' cl gs wn HI Hf L1 L2 Hc HA; [lia|]. cbn [scan_image]. destruct inp as [|c r]; [reflexivity|].
  pose proof (Forall_inv_tail HI) as Hr. cbn [length] in Hf. destruct (c =? 59); [reflexivity|]. destruct (c =? 33).
  - destruct r as [|x r1]; [reflexivity|]. pose proof (Forall_inv_tail Hr) as Hr1. cbn [length] in Hf. eapply orel_bind; [apply skip_ok; [exact Hr1|lia]|].
    intros a a' (-> & G1 & G2). apply IH; auto. lia.
  - destruct (negb (c =? 44)); [apply IH; auto; lia|]. destruct (Nat.ltb_spec (length r) 9) as [Hl|Hl]; [reflexivity|]. cbn zeta.
    set (hdr := firstn 9 r). assert (Lh : length hdr = 9%nat) by (unfold hdr; rewrite firstn_length; lia). assert (Fh : Forall isbyte hdr) by (apply Forall_firstn_ok; exact Hr).
    set (r1 := skipn 9 r). assert (Fr1 : Forall isbyte r1) by (apply Forall_skipn_ok; exact Hr).
    destruct (word_rel hdr 4 Fh ltac:(lia) ltac:(lia)) as (w & -> & Hw). cbn [bind]. destruct (word_rel hdr 6 Fh ltac:(lia) ltac:(lia)) as (h & -> & Hh). cbn [bind].
    destruct (Z.eqb_spec w 0); [reflexivity|]. destruct (Z.eqb_spec h 0); [reflexivity|]. cbn [orb]. rewrite (aget_ok hdr 8 0) by lia. cbn [bind]. set (fl := nth (Z.to_nat 8) hdr 0).
    eapply (orel_bind (fun x x' => let '(c2, n2, g2, r2) := x in let '(c2', n2', g2', r2') := x' in n2 = n2' /\ g2 = g2' /\ r2 = r2' /\ length c2 = Z.to_nat 256 /\ length c2' = Z.to_nat 256 /\ 0 <= n2 <= 256 /\ agree d3 n2 c2 c2' /\ Forall isbyte r2)).
    + destruct (negb (Z.land fl 128 =? 0)).
      * pose proof (cmsize fl) as CS. eapply orel_bind; [apply (cmap_rel (Z.to_nat (Z.shiftl 2 (Z.land fl 7))) 0 r1 cm cm' true); auto; try lia; intros k Hk; lia|].
        intros [[cc gg] rr] [[cc' gg'] rr'] (-> & -> & G3 & G4 & G5 & G6 & _). cbn [orel]. rewrite Z2Nat.id, Z.add_0_l in G5 by lia. auto 15 with zarith.
      * cbn [orel]. auto 15.
    + intros [[[c2 n2] g2] r2] [[[c2' n2'] g2'] r2'] (-> & -> & -> & G1 & G2 & G3 & G4 & G5). destruct r2' as [|ics r3]; [reflexivity|].
      destruct (Z.ltb_spec ics 2); [reflexivity|]. destruct (Z.ltb_spec 8 ics); [reflexivity|]. cbn [orb orel]. unfold hrel. cbn [h_w h_h h_inter h_ics h_cm h_cmlen h_gs h_warn h_rest].
      split; [|exact G4]. pose proof (Forall_inv_tail G5). auto 20 with zarith.
Qed.

Lemma start_rel file cm cm' : Forall isbyte file -> length cm = Z.to_nat 256 -> length cm' = Z.to_nat 256 ->
  orel (fun h h' => hrel h h' /\ agree d3 (2 ^ h_ics h) (h_cm h) (h_cm h')) (start_input_gif file cm) (start_input_gif file cm').
Proof.
  intros HI L1 L2. unfold start_input_gif. destruct (Nat.ltb_spec (length file) 6) as [Hl|Hl]; [reflexivity|]. cbn zeta. destruct (negb _); [reflexivity|].
  set (f1 := skipn 6 file). assert (F1 : Forall isbyte f1) by (apply Forall_skipn_ok; exact HI). destruct (Nat.ltb_spec (length f1) 7) as [Hl1|Hl1]; [reflexivity|].
  set (hdr := firstn 7 f1). assert (Lh : length hdr = 7%nat) by (unfold hdr; rewrite firstn_length; lia). assert (Fh : Forall isbyte hdr) by (apply Forall_firstn_ok; exact F1).
  set (f2 := skipn 7 f1). assert (F2 : Forall isbyte f2) by (apply Forall_skipn_ok; exact F1).
  destruct (word_rel hdr 0 Fh ltac:(lia) ltac:(lia)) as (w & -> & Hw). cbn [bind]. destruct (word_rel hdr 2 Fh ltac:(lia) ltac:(lia)) as (h & -> & Hh). cbn [bind].
  destruct (Z.eqb_spec w 0); [reflexivity|]. destruct (Z.eqb_spec h 0); [reflexivity|]. cbn [orb]. rewrite (aget_ok hdr 4 0) by lia. cbn [bind]. set (fl := nth (Z.to_nat 4) hdr 0).
  eapply (orel_bind (fun x x' => let '(c2, n2, g2, r2) := x in let '(c2', n2', g2', r2') := x' in n2 = n2' /\ g2 = g2' /\ r2 = r2' /\ length c2 = Z.to_nat 256 /\ length c2' = Z.to_nat 256 /\ 0 <= n2 <= 256 /\ agree d3 n2 c2 c2' /\ Forall isbyte r2)).
  - destruct (negb (Z.land fl 128 =? 0)).
    + pose proof (cmsize fl) as CS. eapply orel_bind; [apply (cmap_rel (Z.to_nat (Z.shiftl 2 (Z.land fl 7))) 0 f2 cm cm' true); auto; try lia; intros k Hk; lia|].
      intros [[cc gg] rr] [[cc' gg'] rr'] (-> & -> & G3 & G4 & G5 & G6 & _). cbn [orel]. rewrite Z2Nat.id, Z.add_0_l in G5 by lia. auto 15 with zarith.
    + cbn [orel]. assert (agree d3 0 cm cm') by (intros k Hk; lia). auto 15 with zarith.
  - intros [[[c2 n2] g2] r2] [[[c2' n2'] g2'] r2'] (-> & -> & -> & G1 & G2 & G3 & G4 & G5).
    eapply orel_bind; [apply (scan_rel (S (length r2')) r2' c2 c2' n2' g2' []); auto|].
    intros hd hd' (HR & HA). destruct HR as (R1 & R2 & R3 & R4 & R5 & R6 & R7 & R8 & R9 & R10 & R11 & R12 & R13 & R14 & R15).
    rewrite <- R5, <- R4. assert (P : 4 <= 2 ^ h_ics hd <= 256) by (split; [change 4 with (2 ^ 2)|change 256 with (2 ^ 8)]; apply Z.pow_le_mono_r; lia).
    eapply orel_bind; [apply (pad_rel (Z.to_nat (2 ^ h_ics hd - h_cmlen hd)) (h_cmlen hd) (h_cm hd) (h_cm hd')); auto; lia|].
    intros c3 c3' (Q1 & Q2 & Q3). cbn [orel]. unfold hrel. cbn [h_w h_h h_inter h_ics h_cm h_cmlen h_gs h_warn h_rest]. split; [auto 20|].
    intros k Hk. apply Q3. lia.
Qed.

Lemma map_rel gs cm cm' n : length cm = Z.to_nat 256 -> length cm' = Z.to_nat 256 -> n <= 256 -> agree d3 n cm cm' -> forall l, Forall (fun c => 0 <= c < n) l ->
  orel eq (map_pixels gs cm l) (map_pixels gs cm' l).
Proof.
  intros L1 L2 Hn HA. induction l as [|c l IH]; intros HF; [reflexivity|]. cbn [map_pixels]. pose proof (Forall_inv HF) as Hc. cbn beta in Hc.
  rewrite (aget_ok cm c d3), (aget_ok cm' c d3) by lia. cbn [bind]. rewrite (HA c Hc). destruct (nth (Z.to_nat c) cm' d3) as [[r g] b].
  eapply orel_bind; [apply IH; exact (Forall_inv_tail HF)|]. intros a a' ->. reflexivity.
Qed.

Lemma rows_rel hd hd' : hrel hd hd' -> agree d3 (2 ^ h_ics hd) (h_cm hd) (h_cm hd') -> forall n b b' z z', brel b b' -> zrel (h_ics hd) z z' ->
  orel (fun x x' => fst x = fst x' /\ brel (snd x) (snd x')) (get_rows n hd b z) (get_rows n hd' b' z').
Proof.
  intros (R1 & R2 & R3 & R4 & R5 & R6 & R7 & R8 & R9 & R10 & R11 & R12 & R13 & R14 & R15) HA. induction n as [|n IH]; intros b b' z z' HB HZ; cbn [get_rows].
  - cbn [orel fst snd]. auto.
  - rewrite <- R1, <- R4, <- R6. eapply orel_bind; [apply (read_bytes_rel (h_ics hd) R11); eauto|]. intros [[l b1] z1] [[l' b1'] z1'] (<- & HB1 & HZ1 & HF & _).
    assert (P : 2 ^ h_ics hd <= 256) by (change 256 with (2 ^ 8); apply Z.pow_le_mono_r; lia).
    eapply orel_bind; [apply (map_rel (h_gs hd) (h_cm hd) (h_cm hd') (2 ^ h_ics hd)); auto|]. intros row row' <-.
    eapply orel_bind; [apply (IH b1 b1' z1 z1' HB1 HZ1)|]. intros [rs b2] [rs' b2'] (E & HB2). cbn [fst snd orel] in *. subst rs'. auto.
Qed.

Lemma load_rel hd hd' : hrel hd hd' -> forall n b b' z z', brel b b' -> zrel (h_ics hd) z z' ->
  orel (fun x x' => fst x = fst x' /\ brel (snd x) (snd x') /\ length (fst x) = n /\ Forall (Forall (fun c => 0 <= c < 2 ^ h_ics hd)) (fst x)) (load_rows n hd b z) (load_rows n hd' b' z').
Proof.
  intros (R1 & R2 & R3 & R4 & R5 & R6 & R7 & R8 & R9 & R10 & R11 & R12 & R13 & R14 & R15). induction n as [|n IH]; intros b b' z z' HB HZ; cbn [load_rows].
  - cbn [orel fst snd length]. auto.
  - rewrite <- R1, <- R4. eapply orel_bind; [apply (read_bytes_rel (h_ics hd) R11); eauto|]. intros [[l b1] z1] [[l' b1'] z1'] (<- & HB1 & HZ1 & HF & _).
    eapply orel_bind; [apply (IH b1 b1' z1 z1' HB1 HZ1)|]. intros [rs b2] [rs' b2'] (E & HB2 & HL & HR). cbn [fst snd orel length] in *. subst rs'. auto.
Qed.
Lemma place_ok : forall h cur, 0 <= cur < h -> 0 <= interlaced_row h cur < h.
Proof.
  intros h cur H. unfold interlaced_row. cbv zeta. rewrite !Z.shiftr_div_pow2 by lia. change (2 ^ 3) with 8. change (2 ^ 2) with 4. change (2 ^ 1) with 2.
  replace (Z.land cur 7) with (cur mod 8) by (change 7 with (Z.ones 3); rewrite Z.land_ones by lia; reflexivity).
  destruct (Z.eqb_spec (cur mod 8) 0) as [E|N0]; [|destruct (Z.eqb_spec (cur mod 8) 4) as [E|N4]; [|destruct (Z.eqb_spec (cur mod 8) 2) as [E|N2]; [|destruct (Z.eqb_spec (cur mod 8) 6) as [E|N6]]]]; cbn [orb]; Z.div_mod_to_equations; lia.
Qed.
Lemma inter_rel hd hd' img : hrel hd hd' -> agree d3 (2 ^ h_ics hd) (h_cm hd) (h_cm hd') -> length img = Z.to_nat (h_h hd) -> Forall (Forall (fun c => 0 <= c < 2 ^ h_ics hd)) img ->
  forall n cur, 0 <= cur -> cur + Z.of_nat n <= h_h hd -> orel eq (get_interlaced n cur hd img) (get_interlaced n cur hd' img).
Proof.
  intros (R1 & R2 & R3 & R4 & R5 & R6 & R7 & R8 & R9 & R10 & R11 & R12 & R13 & R14 & R15) HA HL HF. induction n as [|n IH]; intros cur Hc Hn; cbn [get_interlaced]; [reflexivity|].
  rewrite <- R2, <- R6. pose proof (place_ok (h_h hd) cur ltac:(lia)) as P. rewrite (aget_ok img (interlaced_row (h_h hd) cur) []) by lia. cbn [bind].
  assert (P2 : 2 ^ h_ics hd <= 256) by (change 256 with (2 ^ 8); apply Z.pow_le_mono_r; lia).
  eapply orel_bind; [apply (map_rel (h_gs hd) (h_cm hd) (h_cm hd') (2 ^ h_ics hd)); auto|].
  - rewrite Forall_forall in HF. apply HF. apply nth_In. lia.
  - intros row row' <-. eapply orel_bind; [apply IH; lia|]. intros rs rs' <-. reflexivity.
Qed.

Definition reader_areas (cm : list (Z * Z * Z)) (buf head tail : list Z) : Prop :=
  length cm = Z.to_nat 256 /\ length buf = 260%nat /\ Forall isbyte buf /\ length head = Z.to_nat 4096 /\ length tail = Z.to_nat 4096.

(* C52: on any file whatever, reading never goes outside an array or loops, and what is delivered (size, colour space,
   pixels, warnings or the error) does not depend on what uninitialised memory contained *)
Theorem C52_gif_reader_safe : forall file cm buf head tail cm' buf' head' tail',
  Forall isbyte file -> reader_areas cm buf head tail -> reader_areas cm' buf' head' tail' ->
  gif_read file cm buf head tail <> Undef /\
  gif_read file cm buf head tail = gif_read file cm' buf' head' tail'.
Proof.
  intros file cm buf head tail cm' buf' head' tail' HF (A1 & A2 & A3 & A4 & A5) (B1 & B2 & B3 & B4 & B5).
  assert (K : orel eq (gif_read file cm buf head tail) (gif_read file cm' buf' head' tail')).
  { unfold gif_read. eapply orel_bind; [apply (start_rel file cm cm' HF A1 B1)|]. intros hd hd' (HR & HA).
    pose proof HR as (R1 & R2 & R3 & R4 & R5 & R6 & R7 & R8 & R9 & R10 & R11 & R12 & R13 & R14 & R15). rewrite <- R3. 
    unfold init_grd. rewrite !aset_ok by (rewrite ?length_upd; lia). cbn [bind]. rewrite !aset_ok by (rewrite ?length_upd; lia). cbn [bind]. rewrite <- R8, <- R4, <- R2, <- R1, <- R6, <- R7.
    set (bi := mkGR (h_rest hd) _ _ _ _ _ _ _). set (bi' := mkGR (h_rest hd) (upd (upd buf' _ _) _ _) _ _ _ _ _ _).
    assert (HB0 : brel bi bi').
    { unfold bi, bi'. constructor; cbn [r_in r_buf r_lbyte r_lbit r_cbit r_first r_oob r_warn]; rewrite ?length_upd; auto; try lia.
      + apply Forall_upd; [apply Forall_upd; [exact A3|]|]; unfold isbyte; lia.
      + apply Forall_upd; [apply Forall_upd; [exact B3|]|]; unfold isbyte; lia.
      + intros i Hi. destruct buf as [|p0 [|p1 bf]]; try discriminate. destruct buf' as [|q0 [|q1 bf']]; try discriminate. assert (i = 0 \/ i = 1) as [->| ->] by lia; reflexivity. }
    assert (HZ0 : zrel (h_ics hd) (init_glz (h_ics hd) head tail) (init_glz (h_ics hd) head' tail')).
    { assert (P : 4 <= 2 ^ h_ics hd <= 256) by (split; [change 4 with (2 ^ 2)|change 256 with (2 ^ 8)]; apply Z.pow_le_mono_r; lia).
      unfold init_glz, ReInitLZW. constructor; cbn [z_size z_limit z_max z_head z_tail z_stack z_old z_fc]; auto; try lia. left. lia. }
    destruct (h_inter hd).
    - eapply orel_bind; [apply (load_rel hd hd' HR (Z.to_nat (h_h hd)) _ _ _ _ HB0 HZ0)|]. intros [img b1] [img' b1'] (E & HB & HL & HF2). cbn [fst snd] in *. subst img'.
      eapply orel_bind; [apply (inter_rel hd hd' img HR HA HL HF2); lia|]. intros rs rs' <-. cbn [orel]. rewrite (br_w _ _ HB). reflexivity.
    - eapply orel_bind; [apply (rows_rel hd hd' HR HA _ _ _ _ _ HB0 HZ0)|].
  intros [rs b1] [rs' b1'] (E & HB). cbn [fst snd] in *. subst rs'. cbn [orel]. rewrite (br_w _ _ HB). reflexivity. }
  destruct (gif_read file cm buf head tail), (gif_read file cm' buf' head' tail'); cbn [orel] in K; try contradiction; subst; split; congruence.
Qed.
Print Assumptions C52_gif_reader_safe.

(* non-vacuity: a hostile file: undefined codes, end code at once, no more data *)
Example C52_nonvacuous :
  let file := [71; 73; 70; 56; 55; 97; 2; 0; 9; 0; 0; 0; 0; 44; 0; 0; 0; 0; 2; 0; 9; 0; 0; 2; 2; 252; 255; 0; 59] in
  Forall isbyte file /\ reader_areas (repeat (5, 6, 7) (Z.to_nat 256)) (repeat 255 260) (repeat (-7) (Z.to_nat 4096)) (repeat 99999 (Z.to_nat 4096)) /\
  match gif_read file (repeat (5, 6, 7) (Z.to_nat 256)) (repeat 255 260) (repeat (-7) (Z.to_nat 4096)) (repeat 99999 (Z.to_nat 4096)) with
  | Ret (2, 9, false, rows, w) => rows = repeat (repeat 128 6) 9 /\ In JWRN_GIF_BADDATA w /\ In JWRN_GIF_NOMOREDATA w
  | _ => False end.
Proof.
  cbn zeta. split; [repeat constructor; unfold isbyte; lia|]. split.
  - split; [apply repeat_length|]. split; [apply repeat_length|]. split; [|split; apply repeat_length]. apply Forall_forall. intros y Hy. apply repeat_spec in Hy. subst. unfold isbyte. lia.
  - vm_compute. auto 20.
Qed.
