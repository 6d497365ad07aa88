(* P_XformG.v -- geometry of the lossless transforms: the computed sizes fit the arrays. *)
From Verif Require Import Base M_Geom M_Xform S_Xform P_Xform T_Geom.

Definition cd (a b : Z) : Z := (a + b - 1) / b.
Lemma cd_spec a b : 0 < b -> b * (cd a b - 1) < a <= b * cd a b.
Proof. intros Hb. unfold cd. pose proof (Z.div_mod (a + b - 1) b). pose proof (Z.mod_pos_bound (a + b - 1) b). nia. Qed.
Lemma cd_le a b q : 0 < b -> a <= b * q -> cd a b <= q.
Proof. intros Hb H. pose proof (cd_spec a b Hb). nia. Qed.
Lemma cd_ge a b q : 0 < b -> b * (q - 1) < a -> q <= cd a b.
Proof. intros Hb H. pose proof (cd_spec a b Hb). nia. Qed.
Lemma cd_uniq a b q : 0 < b -> b * (q - 1) < a <= b * q -> cd a b = q.
Proof. intros Hb H. apply Z.le_antisymm; [apply cd_le|apply cd_ge]; lia. Qed.
Lemma jdiv_cd a b : 0 <= a -> a < 2 ^ 31 -> 0 < b -> u32 (jdiv_round_up a b) = cd a b.
Proof.
  intros. rewrite jdiv_u32 by lia. unfold jdiv_round_up, cd. apply Z.quot_div_nonneg; lia.
Qed.
Lemma jround_cd a b : 0 <= a -> 0 < b -> jround_up a b = cd a b * b.
Proof.
  intros. unfold jround_up, cd. rewrite Z.rem_mod_nonneg by lia.
  replace (a + (b - 1)) with (a + b - 1) by lia. pose proof (Z.div_mod (a + b - 1) b). lia.
Qed.
Lemma cd_mul w h i : 0 < h -> 0 < i -> cd (w * h) i <= cd w i * h.
Proof. intros. apply cd_le; [lia|]. pose proof (cd_spec w i). nia. Qed.
Lemma cd_mul_up w h i : 0 < h -> 0 < i -> cd w i * h <= cd (cd (w * h) i) h * h.
Proof.
  intros. assert (cd w i <= cd (cd (w * h) i) h); [|nia]. apply cd_ge; [lia|].
  assert (h * (cd w i - 1) + 1 <= cd (w * h) i); [|lia]. apply cd_ge; [lia|].
  pose proof (cd_spec w i H0). nia.
Qed.
Lemma cd_same w h : 0 < h -> cd (w * h) (h * 8) = cd w 8.
Proof. intros. apply cd_uniq; [lia|]. pose proof (cd_spec w 8 ltac:(lia)). nia. Qed.
Lemma cd_up a b : 0 < b -> a <= cd a b * b.
Proof. intros. pose proof (cd_spec a b H). lia. Qed.
Lemma cd_off xo i ow full : 0 < i -> xo * i + ow <= full -> xo + cd ow i <= cd full i.
Proof. intros. apply cd_ge; [lia|]. pose proof (cd_spec ow i H). nia. Qed.
Lemma cd_floor full i : 0 < i -> full / i <= cd full i.
Proof.
  intros. apply cd_ge; [lia|]. pose proof (Z.div_mod full i). pose proof (Z.mod_pos_bound full i). nia.
Qed.
Lemma cd_vis xo i ow full h : 0 < i -> 0 < h -> xo * i + ow <= full -> xo * h + cd (ow * h) i <= cd (full * h) i.
Proof. intros. apply cd_ge; [lia|]. pose proof (cd_spec (ow * h) i H). nia. Qed.
Lemma cd_floor_vis full i h : 0 < i -> 0 < h -> full / i * h <= cd (full * h) i.
Proof.
  intros. apply cd_ge; [lia|]. pose proof (Z.div_mod full i). pose proof (Z.mod_pos_bound full i). nia.
Qed.
Lemma cd_exact full i h : 0 < i -> 0 < h -> full mod i = 0 -> cd (full * h) i = full / i * h.
Proof.
  intros. apply cd_uniq; [lia|]. pose proof (Z.div_mod full i). nia.
Qed.
Lemma cd_nonneg a b : 0 <= a -> 0 < b -> 0 <= cd a b.
Proof. intros. apply cd_ge; [lia|]. nia. Qed.

(* ---------------- frames ---------------- *)
Lemma d_dims_nth W H mh mv du l : forall k ci c, nth_error (d_dims W H mh mv du k l) ci = Some c ->
  exists sp, nth_error l ci = Some sp /\ c_h c = h_samp sp /\ c_v c = v_samp sp /\
    c_width_in_blocks c = u32 (jdiv_round_up (W * h_samp sp) (mh * du)) /\
    c_height_in_blocks c = u32 (jdiv_round_up (H * v_samp sp) (mv * du)).
Proof.
  induction l as [|sp l IH]; intros k [|ci] c E; cbn [d_dims nth_error] in E; try discriminate.
  - injection E as <-. exists sp. cbn. auto.
  - apply (IH _ _ _ E).
Qed.
Lemma d_dims_samps W H mh mv du l : forall k, map (fun c => mkSamp (c_h c) (c_v c)) (d_dims W H mh mv du k l) = l.
Proof. induction l as [|[a b] l IH]; intros k; cbn; [reflexivity|]. now rewrite IH. Qed.
Lemma d_dims_len W H mh mv du l : forall k, length (d_dims W H mh mv du k l) = length l.
Proof. induction l as [|sp l IH]; intros k; cbn; [reflexivity|]. now rewrite IH. Qed.

Definition swap (p : samp) : samp := mkSamp (v_samp p) (h_samp p).
Lemma max_samp_swap l : forall a b, max_samp (map swap l) b a = match max_samp l a b with Ret (x, y) => Ret (y, x) | Error e => Error e | Undef => Undef end.
Proof.
  induction l as [|[x y] l IH]; intros a b; cbn [map max_samp swap h_samp v_samp]; [reflexivity|].
  replace ((y <=? 0) || (MAX_SAMP_FACTOR <? y) || (x <=? 0) || (MAX_SAMP_FACTOR <? x))
    with ((x <=? 0) || (MAX_SAMP_FACTOR <? x) || (y <=? 0) || (MAX_SAMP_FACTOR <? y))
    by (destruct (x <=? 0), (MAX_SAMP_FACTOR <? x), (y <=? 0), (MAX_SAMP_FACTOR <? y); reflexivity).
  destruct ((x <=? 0) || (MAX_SAMP_FACTOR <? x) || (y <=? 0) || (MAX_SAMP_FACTOR <? y)); [reflexivity|]. apply IH.
Qed.

Definition prec_ok (p : Z) : Prop := p = 8 \/ p = 12 \/ p = 16.
Lemma prec_bool p : negb (p =? 8) && negb (p =? 12) && negb (p =? 16) = false <-> prec_ok p.
Proof.
  unfold prec_ok. destruct (Z.eqb_spec p 8); destruct (Z.eqb_spec p 12); destruct (Z.eqb_spec p 16); cbn; split; intros; auto; try discriminate. lia.
Qed.

Lemma d_setup_inv W H prec samps f : d_initial_setup (mkSof W H prec false samps) = Ret f ->
  exists mh mv, max_samp samps 1 1 = Ret (mh, mv) /\ 1 <= W <= 65500 /\ 1 <= H <= 65500 /\ prec_ok prec /\
    (1 <= length samps <= 10)%nat /\
    f = mkFrame W H false mh mv (d_dims W H mh mv 8 0 samps) (u32 (jdiv_round_up H (mv * 8))).
Proof.
  unfold d_initial_setup. cbn [q_width q_height q_precision q_lossless q_samps]. unfold JPEG_MAX_DIMENSION, MAX_COMPONENTS.
  destruct ((H <=? 0) || (W <=? 0) || (Z.of_nat (length samps) <=? 0)) eqn:B1; [discriminate|].
  destruct ((65500 <? H) || (65500 <? W)) eqn:B2; [discriminate|].
  destruct (negb (prec =? 8) && negb (prec =? 12) && negb (prec =? 16)) eqn:B3; [discriminate|].
  destruct (Z.ltb_spec 10 (Z.of_nat (length samps))); [discriminate|].
  destruct (max_samp samps 1 1) as [[mh mv]|e|] eqn:Em; cbn [bind]; try discriminate. intros E; injection E as <-.
  rewrite !orb_false_iff, !Z.leb_gt in B1. rewrite orb_false_iff, !Z.ltb_ge in B2. apply prec_bool in B3.
  exists mh, mv. split; [reflexivity|]. split; [lia|]. split; [lia|]. split; [exact B3|]. split; [lia|reflexivity].
Qed.
Lemma c_setup_ok W H n prec samps mh mv : 1 <= W <= 65500 -> 1 <= H <= 65500 -> 1 <= n <= 10 -> prec_ok prec ->
  (1 <= length samps <= 10)%nat -> max_samp samps 1 1 = Ret (mh, mv) ->
  c_initial_setup (mkCP W H n prec false samps) =
  Ret (mkFrame W H false mh mv (d_dims W H mh mv 8 0 samps) (u32 (jdiv_round_up H (mv * 8)))).
Proof.
  intros HW HH Hn Hp Hl Em. unfold c_initial_setup. cbn [p_width p_height p_input_components p_precision p_lossless p_samps].
  unfold JPEG_MAX_DIMENSION, MAX_COMPONENTS, DCTSIZE.
  rewrite (proj2 (Z.leb_gt H 0)), (proj2 (Z.leb_gt W 0)), (proj2 (Z.leb_gt _ 0)), (proj2 (Z.leb_gt n 0)) by lia.
  rewrite (proj2 (Z.ltb_ge _ H)), (proj2 (Z.ltb_ge _ W)) by lia. cbn [orb].
  rewrite u32_id, Z.eqb_refl by nia. cbn [negb]. rewrite (proj2 (prec_bool prec) Hp).
  rewrite (proj2 (Z.ltb_ge 10 _)) by lia. rewrite Em. cbn [bind]. now rewrite dims_same.
Qed.

(* ---------------- crop ---------------- *)
Lemma crop_axis_ok t out len ls off os : 0 < out < 2 ^ 31 -> 0 <= len < 2 ^ 32 -> 0 <= off < 2 ^ 32 ->
  (ls <> UNSET -> len <= out) ->
  crop_axis t out len ls off os =
  match region out len ls off os with Some (st, ln) => Ret (ln, st) | None => Error JERR_BAD_CROP_SPEC end.
Proof.
  intros Ho Hl Hf HE. unfold crop_axis, region.
  set (xo := match os with UNSET => 0 | _ => off end). assert (Hxo : 0 <= xo < 2 ^ 32) by (subst xo; destruct os; lia).
  assert (HL : ls = UNSET \/ ls <> UNSET) by (destruct ls; [now left|right; discriminate..]).
  destruct HL as [-> |HL].
  - destruct (Z.leb_spec out xo) as [L|L].
    + cbn [bind]. rewrite (proj2 (Z.ltb_ge 0 (out - xo))) by lia. reflexivity.
    + cbn [bind]. rewrite u32_id by lia. rewrite (proj2 (Z.ltb_lt 0 (out - xo))) by lia.
      rewrite (proj2 (Z.ltb_ge out (out - xo))) by lia. rewrite (u32_id (out - (out - xo))), (u32_id (out - (out - xo) - xo)) by lia.
      cbn [andb].
      destruct os; try (rewrite (proj2 (Z.leb_le 0 xo)), (proj2 (Z.leb_le (xo + (out - xo)) out)) by lia; reflexivity).
      rewrite (proj2 (Z.leb_le 0 (out - (out - xo) - xo))), (proj2 (Z.leb_le (out - (out - xo) - xo + (out - xo)) out)) by lia. reflexivity.
  - specialize (HE HL).
    assert (E : (match ls with UNSET => if out <=? xo then Error JERR_BAD_CROP_SPEC else Ret (u32 (out - xo))
       | _ => if out <? len
              then if negb (is_none t) || (len <=? xo) || (u32 (len - out) <? xo) then Error JERR_BAD_CROP_SPEC else Ret len
              else if (out <=? xo) || (len <=? 0) || (u32 (out - len) <? xo) then Error JERR_BAD_CROP_SPEC else Ret len end)
      = if (0 <? len) && (xo + len <=? out) then Ret len else Error JERR_BAD_CROP_SPEC).
    { rewrite (proj2 (Z.ltb_ge out len)) by lia. rewrite (u32_id (out - len)) by lia.
      destruct ls; try congruence;
      (destruct (Z.leb_spec out xo); destruct (Z.leb_spec len 0); destruct (Z.ltb_spec 0 len); destruct (Z.ltb_spec (out - len) xo);
        destruct (Z.leb_spec (xo + len) out); try lia; reflexivity). }
    rewrite E. assert (E2 : (match ls with UNSET => out - xo | _ => len end) = len) by (destruct ls; congruence).
    rewrite E2. destruct (Z.ltb_spec 0 len); cbn [andb bind]; [|reflexivity].
    destruct os.
    all: destruct (Z.leb_spec (xo + len) out); cbn [bind].
    all: try (rewrite (proj2 (Z.leb_le 0 xo)) by lia; reflexivity).
    1: { rewrite (proj2 (Z.ltb_ge out len)) by lia. rewrite (u32_id (out - len)), (u32_id (out - len - xo)) by lia.
         rewrite (proj2 (Z.leb_le 0 (out - len - xo))), (proj2 (Z.leb_le (out - len - xo + len) out)) by lia. reflexivity. }
    rewrite (proj2 (Z.leb_gt 0 (out - len - xo))) by lia. reflexivity.
Qed.

Lemma region_inv out len ls off os st ln : region out len ls off os = Some (st, ln) -> 0 < ln /\ 0 <= st /\ st + ln <= out.
Proof.
  unfold region. destruct (_ && _) eqn:B; [|discriminate]. intros E; injection E as <- <-.
  rewrite !andb_true_iff in B. lia.
Qed.
Lemma placed_inv out imcu cr xo ow : 0 < out -> 0 < imcu -> placed out imcu cr = Some (xo, ow) ->
  0 <= xo /\ 0 < ow /\ xo * imcu + ow <= out.
Proof.
  intros Ho Hi. destruct cr as [[[[len ls] off] os]|]; cbn [placed].
  - destruct (region out len ls off os) as [[st ln]|] eqn:R; [|discriminate].
    intros E; injection E as <- <-. pose proof (region_inv _ _ _ _ _ _ _ R).
    pose proof (Z.div_mod st imcu ltac:(lia)). pose proof (Z.mod_pos_bound st imcu ltac:(lia)).
    assert (0 <= st / imcu) by (apply Z.div_pos; lia).
    destruct ls; nia.
  - intros E; injection E as <- <-. lia.
Qed.
Lemma trim_ok (on : bool) size off imcu full : 0 < imcu -> 0 < size -> 0 <= off -> off * imcu + size <= full -> full < 2 ^ 31 ->
  (if on then trim_edge size off imcu full else size) = trimmed on size off imcu full /\
  0 < trimmed on size off imcu full <= size.
Proof.
  intros Hi Hs Ho Hf Hb. unfold trim_edge, trimmed.
  pose proof (Z.div_mod size imcu ltac:(lia)) as D. pose proof (Z.mod_pos_bound size imcu ltac:(lia)) as B.
  assert (0 <= size / imcu) by (apply Z.div_pos; lia).
  assert (size / imcu <= size) by nia. assert (off <= full) by nia.
  assert (off + size / imcu <= full) by nia.
  rewrite (u32_id (off + size / imcu)), (u32_id (size / imcu * imcu)) by nia.
  destruct on; cbn [andb]; [|lia].
  destruct (Z.ltb_spec 0 (size / imcu)); cbn [andb]; [|lia].
  destruct (off + size / imcu =? full / imcu); [|lia]. split; [reflexivity|nia].
Qed.

(* ---------------- one component ---------------- *)
Definition blkS (a : barray) (y x : Z) : blk64 := match ba_blk a y x with Some b => b | None => junk end.

Lemma cneg_id x : -32768 < x < 32768 -> cneg x = - x.
Proof. intros. unfold cneg, s16. rewrite Z.mod_small by lia. lia. Qed.
Lemma sg_msign fx fy cx cy q r v : -32768 < v < 32768 ->
  sg (xorb ((fx && cx) && Z.odd q) ((fy && cy) && Z.odd r)) v =
  (if (fx && cx) && Z.odd q then - (if (fy && cy) && Z.odd r then - v else v) else (if (fy && cy) && Z.odd r then - v else v)).
Proof.
  intros. destruct ((fx && cx) && Z.odd q); destruct ((fy && cy) && Z.odd r); cbn [xorb sg]; rewrite ?cneg_id by lia; lia.
Qed.

Section OneComp.
Variables c c' : comp.
Variables a d : barray.
Variables FW FH IW IH xo yo ow oh : Z.
Variable P : plane.
Variable tr : bool.
Notation h' := (c_h c').
Notation v' := (c_v c').
Hypothesis Hh : 0 < h'.
Hypothesis Hv : 0 < v'.
Hypothesis HIW : 0 < IW.
Hypothesis HIH : 0 < IH.
Hypothesis Hxo : 0 <= xo.
Hypothesis Hyo : 0 <= yo.
Hypothesis How : 0 < ow.
Hypothesis Hoh : 0 < oh.
Hypothesis HFW : xo * IW + ow <= FW.
Hypothesis HFH : yo * IH + oh <= FH.
Hypothesis Hw' : c_width_in_blocks c' = cd (ow * h') IW.
Hypothesis Hh' : c_height_in_blocks c' = cd (oh * v') IH.
Hypothesis Hw : c_width_in_blocks c = if tr then cd (FH * v') IH else cd (FW * h') IW.
Hypothesis Hht : c_height_in_blocks c = if tr then cd (FW * h') IW else cd (FH * v') IH.
Hypothesis HR : (if tr then cd FW IW * h' else cd FH IH * v') <= ba_rows a.
Hypothesis HC : (if tr then cd FH IH * v' else cd FW IW * h') <= ba_cols a.
Hypothesis HM : (if tr then h' else v') <= ba_maxaccess a.
Hypothesis Hfull : forall y x, 0 <= y < ba_rows a -> 0 <= x < ba_cols a -> exists b, ba_blk a y x = Some b /\ length b = 64%nat.
Hypothesis Hcoef : forall y x b, ba_blk a y x = Some b -> Forall (fun v => -32768 < v < 32768) b.
Hypothesis HP : carries c a P.

Lemma blkS_ok y x : 0 <= y < ba_rows a -> 0 <= x < ba_cols a -> ba_blk a y x = Some (blkS a y x) /\ length (blkS a y x) = 64%nat.
Proof. intros Hy Hx. destruct (Hfull y x Hy Hx) as (b & E & L). unfold blkS. rewrite E. auto. Qed.
Lemma vis y x r q : 0 <= y < c_height_in_blocks c -> 0 <= x < c_width_in_blocks c -> 0 <= r < 8 -> 0 <= q < 8 ->
  co (blkS a y x) r q = P y x r q /\ -32768 < P y x r q < 32768.
Proof.
  intros Hy Hx Hr Hq. destruct (HP y x Hy Hx) as (b & E & L & N). unfold co, blkS. rewrite E, N by auto.
  split; [reflexivity|]. pose proof (Hcoef y x b E) as F. rewrite Forall_forall in F. apply F. rewrite <- N by auto.
  apply nth_In. lia.
Qed.

Lemma Fg_carries t fx fy d' : sym t = (tr, fx, fy) ->
  (forall y x, 0 <= y < c_height_in_blocks c' -> 0 <= x < c_width_in_blocks c' ->
     ba_blk d' y x = Some (Fg tr fx fy (FW / IW * h') (FH / IH * v') (xo * h') (yo * v') (blkS a) y x)) ->
  carries c' d' (crop_plane (xo * h') (yo * v') (sym_plane t (FW / IW * h') (FH / IH * v') P)).
Proof.
  intros Et HB y x Hy Hx. rewrite HB by auto. eexists. split; [reflexivity|].
  split; [apply tab64_len|]. intros r q Hr Hq. change (nth (Z.to_nat (8 * r + q)) ?b 0) with (co b r q).
  unfold Fg, gen_op. rewrite co_tab64 by auto. unfold crop_plane, sym_plane. rewrite Et.
  unfold msign, mirror. rewrite (Z.add_comm x), (Z.add_comm y).
  pose proof (cd_vis xo IW ow FW h' HIW Hh HFW) as V1. pose proof (cd_vis yo IH oh FH v' HIH Hv HFH) as V2.
  pose proof (cd_floor_vis FW IW h' HIW Hh) as V3. pose proof (cd_floor_vis FH IH v' HIH Hv) as V4.
  rewrite Hw' in Hx. rewrite Hh' in Hy.
  pose proof (Z.mul_nonneg_nonneg xo h' Hxo ltac:(lia)). pose proof (Z.mul_nonneg_nonneg yo v' Hyo ltac:(lia)).
  set (CW := FW / IW * h') in *. set (CH := FH / IH * v') in *.
  set (xc := xo * h') in *. set (yc := yo * v') in *.
  set (sx := if fx && (xc + x <? CW) then CW - 1 - (xc + x) else xc + x).
  set (sy := if fy && (yc + y <? CH) then CH - 1 - (yc + y) else yc + y).
  replace (if fx && (xc + x <? CW) then CW - xc - x - 1 else xc + x) with sx by (subst sx; destruct (fx && (xc + x <? CW)); lia).
  replace (if fy && (yc + y <? CH) then CH - yc - y - 1 else yc + y) with sy by (subst sy; destruct (fy && (yc + y <? CH)); lia).
  assert (Hsx : 0 <= sx < cd (FW * h') IW).
  { subst sx. destruct fx; cbn [andb]; [destruct (Z.ltb_spec (xc + x) CW)|]; lia. }
  assert (Hsy : 0 <= sy < cd (FH * v') IH).
  { subst sy. destruct fy; cbn [andb]; [destruct (Z.ltb_spec (yc + y) CH)|]; lia. }
  clearbody sx sy.
  destruct tr.
  - destruct (vis sx sy q r) as (E & B); try lia. rewrite E. apply (sg_msign fx fy _ _ q r); exact B.
  - destruct (vis sy sx r q) as (E & B); try lia. rewrite E. apply (sg_msign fx fy _ _ q r); exact B.
Qed.

Section Ws.
Hypothesis HdR : ba_rows d = cd oh IH * v'.
Hypothesis HdC : ba_cols d = cd ow IW * h'.
Hypothesis HdM : v' <= ba_maxaccess d.

Lemma wib_nx : 0 <= c_width_in_blocks c' <= cd ow IW * h'.
Proof. rewrite Hw'. split; [apply cd_nonneg; nia|now apply cd_mul]. Qed.
Lemma hib_ny : 0 <= c_height_in_blocks c' <= cd oh IH * v'.
Proof. rewrite Hh'. split; [apply cd_nonneg; nia|now apply cd_mul]. Qed.
Lemma FW_pos : 0 <= FW / IW. Proof. apply Z.div_pos; nia. Qed.
Lemma FH_pos : 0 <= FH / IH. Proof. apply Z.div_pos; nia. Qed.
Lemma nx_ok : (xo + cd ow IW) * h' <= cd FW IW * h'.
Proof. apply Z.mul_le_mono_nonneg_r; [lia|]. now apply cd_off. Qed.
Lemma ny_ok : (yo + cd oh IH) * v' <= cd FH IH * v'.
Proof. apply Z.mul_le_mono_nonneg_r; [lia|]. now apply cd_off. Qed.
Lemma M_ok : FW / IW * h' <= cd FW IW * h'.
Proof. apply Z.mul_le_mono_nonneg_r; [lia|]. now apply cd_floor. Qed.
Lemma N_ok : FH / IH * v' <= cd FH IH * v'.
Proof. apply Z.mul_le_mono_nonneg_r; [lia|]. now apply cd_floor. Qed.

Definition good (t : xform) (o : outcome barray) : Prop := exists d', o = Ret d' /\
  carries c' d' (crop_plane (xo * h') (yo * v') (sym_plane t (FW / IW * h') (FH / IH * v') P)).

Lemma result_good t fx fy o : sym t = (tr, fx, fy) ->
  result c' d o (Fg tr fx fy (FW / IW * h') (FH / IH * v') (xo * h') (yo * v') (blkS a)) -> good t o.
Proof.
  intros Et (d' & E & _ & HB). exists d'. split; [exact E|]. now apply Fg_carries with (fx := fx) (fy := fy).
Qed.

Lemma all_good : 
  (tr = false -> good NONE (do_crop c' xo yo a d)) /\
  (tr = false -> good FLIP_H (do_flip_h c' xo yo (FW / IW * h') a d)) /\
  (tr = false -> good FLIP_V (do_flip_v c' xo yo (FH / IH * v') a d)) /\
  (tr = false -> good ROT_180 (do_rot_180 c' xo yo (FW / IW * h') (FH / IH * v') a d)) /\
  (tr = true -> good TRANSPOSE (do_transpose c' xo yo a d)) /\
  (tr = true -> good ROT_90 (do_rot_90 c' xo yo (FW / IW * h') a d)) /\
  (tr = true -> good ROT_270 (do_rot_270 c' xo yo (FH / IH * v') a d)) /\
  (tr = true -> good TRANSVERSE (do_transverse c' xo yo (FW / IW * h') (FH / IH * v') a d)).
Proof.
  pose proof wib_nx. pose proof hib_ny. pose proof FW_pos. pose proof FH_pos.
  pose proof nx_ok. pose proof ny_ok. pose proof M_ok. pose proof N_ok.
  assert (E1 : forall y x, 0 <= y < ba_rows a -> 0 <= x < ba_cols a -> ba_blk a y x = Some (blkS a y x)) by (intros; now apply blkS_ok).
  assert (E2 : forall y x, 0 <= y < ba_rows a -> 0 <= x < ba_cols a -> length (blkS a y x) = 64%nat) by (intros; now apply blkS_ok).
  split; [intros T|split; [intros T|split; [intros T|split; [intros T|split; [intros T|split; [intros T|split; intros T]]]]]].
  - eapply result_good; [rewrite T; reflexivity|]. rewrite T. pose proof HR as HR'; pose proof HC as HC'; pose proof HM as HM'; rewrite T in HR', HC', HM'.
    apply (do_crop_ok c' xo yo (cd ow IW) (cd oh IH)); auto; lia.
  - eapply result_good; [rewrite T; reflexivity|]. rewrite T. pose proof HR as HR'; pose proof HC as HC'; pose proof HM as HM'; rewrite T in HR', HC', HM'.
    apply (do_flip_h_ok c' xo yo (cd ow IW) (cd oh IH) (FW / IW)); auto; lia.
  - eapply result_good; [rewrite T; reflexivity|]. rewrite T. pose proof HR as HR'; pose proof HC as HC'; pose proof HM as HM'; rewrite T in HR', HC', HM'.
    apply (do_flip_v_ok c' xo yo (cd ow IW) (cd oh IH) (FH / IH)); auto; lia.
  - eapply result_good; [rewrite T; reflexivity|]. rewrite T. pose proof HR as HR'; pose proof HC as HC'; pose proof HM as HM'; rewrite T in HR', HC', HM'.
    apply (do_rot_180_ok c' xo yo (cd ow IW) (cd oh IH) (FW / IW) (FH / IH)); auto; lia.
  - eapply result_good; [rewrite T; reflexivity|]. rewrite T. pose proof HR as HR'; pose proof HC as HC'; pose proof HM as HM'; rewrite T in HR', HC', HM'.
    apply (do_transpose_ok c' xo yo (cd ow IW) (cd oh IH)); auto; lia.
  - eapply result_good; [rewrite T; reflexivity|]. rewrite T. pose proof HR as HR'; pose proof HC as HC'; pose proof HM as HM'; rewrite T in HR', HC', HM'.
    apply (do_rot_90_ok c' xo yo (cd ow IW) (cd oh IH) (FW / IW)); auto; lia.
  - eapply result_good; [rewrite T; reflexivity|]. rewrite T. pose proof HR as HR'; pose proof HC as HC'; pose proof HM as HM'; rewrite T in HR', HC', HM'.
    apply (do_rot_270_ok c' xo yo (cd ow IW) (cd oh IH) (FH / IH)); auto; lia.
  - eapply result_good; [rewrite T; reflexivity|]. rewrite T. pose proof HR as HR'; pose proof HC as HC'; pose proof HM as HM'; rewrite T in HR', HC', HM'.
    apply (do_transverse_ok c' xo yo (cd ow IW) (cd oh IH) (FW / IW) (FH / IH)); auto; lia.
Qed.
End Ws.

Lemma inplace_good : tr = false -> yo = 0 -> good FLIP_H (do_flip_h_no_crop c' xo (FW / IW * h') a).
Proof.
  intros T Y. pose proof wib_nx. pose proof hib_ny. pose proof FW_pos.
  pose proof nx_ok. pose proof ny_ok. pose proof M_ok. pose proof HR as HR'; pose proof HC as HC'; pose proof HM as HM'; rewrite T in HR', HC', HM'.
  destruct (do_flip_h_no_crop_ok c' xo (cd ow IW) (cd oh IH) (FW / IW) a (blkS a)) as (d' & E & _ & HB); auto; try lia.
  { intros; now apply blkS_ok. } { intros; now apply blkS_ok. }
  exists d'. split; [exact E|]. eapply Fg_carries; [rewrite T; reflexivity|].
  intros y x Hy Hx. rewrite HB by auto. f_equal. rewrite T, Y. reflexivity.
Qed.

(* no arrays touched *)
Lemma none_good : tr = false -> xo = 0 -> yo = 0 -> good NONE (Ret a).
Proof.
  intros T X Y. exists a. split; [reflexivity|]. intros y x Hy Hx.
  assert (A1 : 0 * IW + ow <= FW) by (rewrite <- X; exact HFW). assert (A2 : 0 * IH + oh <= FH) by (rewrite <- Y; exact HFH).
  pose proof (cd_vis 0 IW ow FW h' HIW Hh A1). pose proof (cd_vis 0 IH oh FH v' HIH Hv A2).
  pose proof Hw as Hw2; pose proof Hht as Hht2; rewrite T in Hw2, Hht2.
  destruct (HP y x) as (b & E & L & N); try lia. exists b. split; [exact E|]. split; [exact L|].
  intros r q Hr Hq. rewrite N by auto. unfold crop_plane, sym_plane. cbn [sym].
  unfold msign, mirror. cbn [andb]. rewrite X, Y. f_equal; lia.
Qed.
End OneComp.

(* ---------------- the whole transform ---------------- *)
Lemma per_comp_ok f cs : forall (R : nat -> comp -> barray -> Prop) srcs dsts,
  (length cs <= length srcs)%nat -> (length cs <= length dsts)%nat ->
  (forall ci c a d, nth_error cs ci = Some c -> nth_error srcs ci = Some a -> nth_error dsts ci = Some d ->
     exists d', f c a d = Ret d' /\ R ci c d') ->
  exists outs, per_comp f cs srcs dsts = Ret outs /\
    forall ci c, nth_error cs ci = Some c -> exists o, nth_error outs ci = Some o /\ R ci c o.
Proof.
  induction cs as [|c cs IH]; intros R srcs dsts L1 L2 HF.
  - exists dsts. split; [reflexivity|]. intros [|ci] c E; discriminate E.
  - destruct srcs as [|a srcs]; [cbn in L1; lia|]. destruct dsts as [|d dsts]; [cbn in L2; lia|]. cbn [per_comp].
    destruct (HF 0%nat c a d) as (d' & E & HR); [reflexivity..|]. rewrite E. cbn [bind].
    destruct (IH (fun ci => R (Datatypes.S ci)) srcs dsts) as (outs & E2 & HO); [cbn in L1; lia|cbn in L2; lia| |].
    { intros ci c1 a1 d1 E1 E2 E3. apply (HF (Datatypes.S ci) c1 a1); assumption. }
    rewrite E2. cbn [bind]. eexists. split; [reflexivity|]. intros [|ci] c1 E3; cbn [nth_error] in *.
    + injection E3 as <-. eauto.
    + eauto.
Qed.
Lemma nth_error_combine {A B} (l : list A) : forall (l' : list B) n x, nth_error (combine l l') n = Some x ->
  nth_error l n = Some (fst x) /\ nth_error l' n = Some (snd x).
Proof.
  induction l as [|a l IH]; intros [|b l'] [|n] x E; cbn in *; try discriminate.
  - injection E as <-. auto.
  - now apply IH.
Qed.
Lemma nth_error_firstn {A} (l : list A) : forall n k x, nth_error (firstn n l) k = Some x -> nth_error l k = Some x.
Proof.
  induction l as [|a l IH]; intros [|n] [|k] x E; cbn in *; try discriminate; auto. eauto.
Qed.

Lemma transpose_quants_ok l : Forall (fun q => match q with Some q => length q = 64%nat | None => True end) l ->
  transpose_quants l = Ret (map (option_map (fun q => tab64 (fun r c => co q c r))) l).
Proof.
  induction 1 as [|[q|] l Hq _ IH]; cbn [transpose_quants map option_map]; [reflexivity| |].
  - rewrite transpose_quant_op by exact Hq. cbn [bind]. rewrite IH. reflexivity.
  - rewrite IH. reflexivity.
Qed.

Definition dsamps (s : source) (i : xinfo) (samps : list samp) : list samp :=
  if single s i then [mkSamp 1 1] else if is_tr (x_transform i) then map swap samps else samps.

Lemma transposes_tr t : transposes t = is_tr t. Proof. destruct t; reflexivity. Qed.

Lemma single_ncomp s i : (if x_gray i && s_ycc s && (Z.of_nat (length (f_comps (s_frame s))) =? 3) then 1
   else Z.of_nat (length (f_comps (s_frame s)))) =? 1 = single s i.
Proof.
  unfold single. destruct (Nat.eqb_spec (length (f_comps (s_frame s))) 3) as [E|E];
  destruct (Z.eqb_spec (Z.of_nat (length (f_comps (s_frame s)))) 3) as [E'|E']; try lia.
  - rewrite E. destruct (x_gray i && s_ycc s); reflexivity.
  - rewrite !andb_false_r, orb_false_r.
    destruct (Nat.eqb_spec (length (f_comps (s_frame s))) 1); destruct (Z.eqb_spec (Z.of_nat (length (f_comps (s_frame s)))) 1); lia.
Qed.

Lemma perfect_aligned s i :
  (if single s i then perfect_transform (s_W s) (s_H s) 8 8 (x_transform i)
   else perfect_transform (s_W s) (s_H s) (f_max_h (s_frame s) * 8) (f_max_v (s_frame s) * 8) (x_transform i)) = true <-> aligned s i.
Proof.
  unfold aligned, full_w, full_h, imcu_w, imcu_h. rewrite (Z.mul_comm (f_max_h _)), (Z.mul_comm (f_max_v _)).
  destruct (single s i); destruct (x_transform i); cbn [perfect_transform sym is_tr mirrors_x mirrors_y fst snd];
  rewrite ?andb_true_iff, ?Z.eqb_eq; intuition congruence.
Qed.

Section Whole.
Variable s : source.
Variable samps : list samp.
Variable srcs : list barray.
Variable i : xinfo.
Variable Ps : list plane.
Variables xo yo ow oh : Z.
Notation t := (x_transform i).
Notation FW := (full_w s t).
Notation FH := (full_h s t).
Notation IW := (imcu_w s i).
Notation IH := (imcu_h s i).
Hypothesis Hsrc : source_ok s samps srcs.
Hypothesis Hcoef : coefs_ok srcs.
Hypothesis Hq : quants_ok s.
Hypothesis Hcrop : crop_ok s i.
Hypothesis Hgray : gray_ok s i.
Hypothesis Hperf : x_perfect i = true -> aligned s i.
Hypothesis Hps : shows_planes (f_comps (s_frame s)) srcs Ps.
Hypothesis Hpl : length Ps = length (f_comps (s_frame s)).
Hypothesis Hpx : placed FW IW (x_axis i) = Some (xo, ow).
Hypothesis Hpy : placed FH IH (y_axis i) = Some (yo, oh).

Notation ow' := (trimmed (x_trim i && mirrors_x t) ow xo IW FW).
Notation oh' := (trimmed (x_trim i && mirrors_y t) oh yo IH FH).

Lemma src_facts : exists mh mv, max_samp samps 1 1 = Ret (mh, mv) /\ 1 <= s_W s <= 65500 /\ 1 <= s_H s <= 65500 /\
  prec_ok (s_prec s) /\ (1 <= length samps <= 10)%nat /\ 1 <= mh <= 4 /\ 1 <= mv <= 4 /\
  (forall sp, In sp samps -> 1 <= h_samp sp <= 4 /\ 1 <= v_samp sp <= 4 /\ h_samp sp <= mh /\ v_samp sp <= mv) /\
  s_frame s = mkFrame (s_W s) (s_H s) false mh mv (d_dims (s_W s) (s_H s) mh mv 8 0 samps) (u32 (jdiv_round_up (s_H s) (mv * 8))).
Proof.
  destruct Hsrc as (E & _). destruct (d_setup_inv _ _ _ _ _ E) as (mh & mv & Em & HW & HH & Hp & Hl & Ef).
  destruct (max_samp_spec samps 1 1 mh mv ltac:(lia) ltac:(lia) Em) as (S1 & S2 & S3 & _).
  exists mh, mv. auto 12.
Qed.

Lemma max_single sp mh mv : max_samp [sp] 1 1 = Ret (mh, mv) -> h_samp sp = mh /\ v_samp sp = mv.
Proof.
  cbn [max_samp]. destruct (_ || _) eqn:B; [discriminate|]. intros E; injection E as <- <-.
  rewrite !orb_false_iff, !Z.leb_gt in B. lia.
Qed.

Lemma dsamps_max : exists mh' mv', max_samp (dsamps s i samps) 1 1 = Ret (mh', mv') /\ IW = mh' * 8 /\ IH = mv' * 8 /\
  1 <= mh' <= 4 /\ 1 <= mv' <= 4 /\ (1 <= length (dsamps s i samps) <= 10)%nat.
Proof.
  destruct src_facts as (mh & mv & Em & _ & _ & _ & Hl & Hmh & Hmv & _ & Ef).
  unfold dsamps, imcu_w, imcu_h. rewrite Ef. cbn [f_max_h f_max_v].
  destruct (single s i).
  - exists 1, 1. split; [reflexivity|]. cbn [length]. lia.
  - destruct (is_tr t).
    + exists mv, mh. rewrite max_samp_swap, Em, map_length. split; [reflexivity|]. lia.
    + exists mh, mv. split; [exact Em|]. lia.
Qed.

Lemma FW_range : 1 <= FW <= 65500. Proof. destruct src_facts as (? & ? & ? & ? & ? & _). unfold full_w. destruct (is_tr t); lia. Qed.
Lemma FH_range : 1 <= FH <= 65500. Proof. destruct src_facts as (? & ? & ? & ? & ? & _). unfold full_h. destruct (is_tr t); lia. Qed.
Lemma IW_pos : 8 <= IW <= 32. Proof. destruct dsamps_max as (? & ? & _ & -> & _ & ? & _). lia. Qed.
Lemma IH_pos : 8 <= IH <= 32. Proof. destruct dsamps_max as (? & ? & _ & _ & -> & _ & ? & _). lia. Qed.
Lemma x_place : 0 <= xo /\ 0 < ow /\ xo * IW + ow <= FW.
Proof. pose proof FW_range. pose proof IW_pos. apply (placed_inv FW IW (x_axis i)); auto; lia. Qed.
Lemma y_place : 0 <= yo /\ 0 < oh /\ yo * IH + oh <= FH.
Proof. pose proof FH_range. pose proof IH_pos. apply (placed_inv FH IH (y_axis i)); auto; lia. Qed.
Lemma x_trimmed : (if x_trim i && mirrors_x t then trim_edge ow xo IW FW else ow) = ow' /\ 0 < ow' <= ow.
Proof. pose proof FW_range. pose proof IW_pos. pose proof x_place. apply trim_ok; lia. Qed.
Lemma y_trimmed : (if x_trim i && mirrors_y t then trim_edge oh yo IH FH else oh) = oh' /\ 0 < oh' <= oh.
Proof. pose proof FH_range. pose proof IH_pos. pose proof y_place. apply trim_ok; lia. Qed.

Definition need : bool := match t with
              | NONE => negb (xo =? 0) || negb (yo =? 0)
              | FLIP_H => negb (yo =? 0) || x_slow_hflip i
              | _ => true
              end.
Definition ncomp : Z := Z.of_nat (length (dsamps s i samps)).

Lemma ncomp_eq : (if x_gray i && s_ycc s && (Z.of_nat (length (f_comps (s_frame s))) =? 3) then 1 else Z.of_nat (length (f_comps (s_frame s)))) = ncomp.
Proof.
  pose proof (single_ncomp s i) as E. unfold ncomp, dsamps.
  destruct (single s i) eqn:Es.
  - apply Z.eqb_eq in E. rewrite E. reflexivity.
  - apply Z.eqb_neq in E. destruct (x_gray i && s_ycc s && (Z.of_nat (length (f_comps (s_frame s))) =? 3)); [lia|].
    destruct src_facts as (mh & mv & _ & _ & _ & _ & _ & _ & _ & _ & Ef). rewrite Ef. cbn [f_comps].
    rewrite d_dims_len. destruct (is_tr t); now rewrite ?map_length.
Qed.

Lemma request_ok : request_workspace s i = Ret (Some (mkXW ncomp ow' oh' IW IH xo yo
   (if need then Some (workspace ncomp (is_tr t) ow' oh' IW IH (f_comps (s_frame s))) else None))).
Proof.
  unfold request_workspace. rewrite ncomp_eq. fold DCTSIZE.
  assert (Es : (ncomp =? 1) = single s i) by (rewrite <- ncomp_eq; apply single_ncomp).
  assert (Ep : x_perfect i && negb (if ncomp =? 1 then perfect_transform (s_W s) (s_H s) DCTSIZE DCTSIZE t
     else perfect_transform (s_W s) (s_H s) (f_max_h (s_frame s) * DCTSIZE) (f_max_v (s_frame s) * DCTSIZE) t) = false).
  { rewrite Es. destruct (x_perfect i) eqn:P; [|reflexivity]. cbn [andb].
    pose proof (proj2 (perfect_aligned s i) (Hperf eq_refl)) as PA. unfold DCTSIZE. rewrite PA. reflexivity. }
  rewrite Ep, transposes_tr.
  replace (if ncomp =? 1 then DCTSIZE else if is_tr t then f_max_v (s_frame s) * DCTSIZE else f_max_h (s_frame s) * DCTSIZE) with IW
    by (rewrite Es; unfold imcu_w, DCTSIZE; destruct (single s i), (is_tr t); lia).
  replace (if ncomp =? 1 then DCTSIZE else if is_tr t then f_max_h (s_frame s) * DCTSIZE else f_max_v (s_frame s) * DCTSIZE) with IH
    by (rewrite Es; unfold imcu_h, DCTSIZE; destruct (single s i), (is_tr t); lia).
  fold FW FH. change (if is_tr t then s_H s else s_W s) with FW. change (if is_tr t then s_W s else s_H s) with FH.
  pose proof FW_range as RW. pose proof FH_range as RH. pose proof IW_pos as PW. pose proof IH_pos as PH.
  assert (EC : (match x_crop i with
     | Some cr =>
       '(cw, xo) <- crop_axis t FW (cr_width cr) (cr_width_set cr) (cr_xoffset cr) (cr_xoffset_set cr) ;;
       '(ch, yo) <- crop_axis t FH (cr_height cr) (cr_height_set cr) (cr_yoffset cr) (cr_yoffset_set cr) ;;
       Ret (crop_out FW cw (cr_width_set cr) xo IW, crop_out FH ch (cr_height_set cr) yo IH, xo / IW, yo / IH)
     | None => Ret (FW, FH, 0, 0)
     end) = Ret (ow, oh, xo, yo)).
  { unfold x_axis in Hpx. unfold y_axis in Hpy. unfold crop_ok in Hcrop. destruct (x_crop i) as [cr|].
    - destruct Hcrop as (C1 & C2 & C3 & C4 & C5 & C6).
      rewrite (crop_axis_ok t FW) by (auto; lia). rewrite (crop_axis_ok t FH) by (auto; lia).
      cbn [placed] in Hpx, Hpy.
      destruct (region FW _ _ _ _) as [[st ln]|] eqn:R1; [|discriminate].
      destruct (region FH _ _ _ _) as [[st2 ln2]|] eqn:R2; [|discriminate]. cbn [bind].
      injection Hpx as <- <-. injection Hpy as <- <-.
      pose proof (region_inv _ _ _ _ _ _ _ R1). pose proof (region_inv _ _ _ _ _ _ _ R2).
      pose proof (Z.mod_pos_bound st IW ltac:(lia)). pose proof (Z.mod_pos_bound st2 IH ltac:(lia)).
      unfold crop_out. rewrite (proj2 (Z.ltb_ge FW ln)), (proj2 (Z.ltb_ge FH ln2)) by lia. rewrite !u32_id by lia.
      reflexivity.
    - cbn [placed] in Hpx, Hpy. injection Hpx as <- <-. injection Hpy as <- <-. reflexivity. }
  rewrite EC. cbn [bind].
  pose proof x_trimmed as (T1 & T1'). pose proof y_trimmed as (T2 & T2').
  assert (E1 : (if x_trim i then match t with FLIP_H | ROT_180 => trim_edge ow xo IW (s_W s)
      | TRANSVERSE | ROT_90 => trim_edge ow xo IW (s_H s) | _ => ow end else ow) = ow').
  { rewrite <- T1. unfold full_w. destruct (x_trim i); [|reflexivity]. destruct t; reflexivity. }
  assert (E2 : (if x_trim i then match t with FLIP_V | ROT_180 => trim_edge oh yo IH (s_H s)
      | TRANSVERSE | ROT_270 => trim_edge oh yo IH (s_W s) | _ => oh end else oh) = oh').
  { rewrite <- T2. unfold full_h. destruct (x_trim i); [|reflexivity]. destruct t; reflexivity. }
  rewrite E1, E2. do 2 f_equal. 
  assert (En : match t with NONE => negb (xo =? 0) || negb (yo =? 0) || (s_W s <? ow') || (s_H s <? oh')
     | FLIP_H => negb (yo =? 0) || x_slow_hflip i | _ => true end = need).
  { unfold need. pose proof x_place as X. pose proof y_place as Y. unfold full_w, full_h in X, Y. revert X Y T1' T2'. destruct t; cbn [sym is_tr fst snd]; try reflexivity. intros X Y T1' T2'.
    rewrite (proj2 (Z.ltb_ge (s_W s) _)), (proj2 (Z.ltb_ge (s_H s) _)) by nia. now rewrite !orb_false_r. }
  rewrite En. reflexivity.
Qed.

Definition dquant : list (option (list Z)) :=
  if is_tr t then map (option_map (fun q => tab64 (fun r c => co q c r))) (s_quant s) else s_quant s.

Lemma adjust_ok arrs : adjust_parameters s i (mkXW ncomp ow' oh' IW IH xo yo arrs) = Ret (mkDst ow' oh' (dsamps s i samps) dquant).
Proof.
  unfold adjust_parameters. cbn [w_ncomp w_out_w w_out_h]. rewrite transposes_tr.
  destruct src_facts as (mh & mv & _ & _ & _ & _ & Hl & _ & _ & _ & Ef).
  assert (Ecop : map (fun c => mkSamp (c_h c) (c_v c)) (f_comps (s_frame s)) = samps) by (rewrite Ef; apply d_dims_samps).
  rewrite Ecop.
  assert (Elen : length (f_comps (s_frame s)) = length samps) by (rewrite Ef; apply d_dims_len).
  assert (Es : (ncomp =? 1) = single s i) by (rewrite <- ncomp_eq; apply single_ncomp).
  assert (EA : (if x_gray i then
       match f_comps (s_frame s) with
       | c0 :: _ =>
         if ((s_ycc s && (Z.of_nat (length (f_comps (s_frame s))) =? 3)) || (s_grayscale s && (Z.of_nat (length (f_comps (s_frame s))) =? 1)))
            && (c_h c0 =? f_max_h (s_frame s)) && (c_v c0 =? f_max_v (s_frame s))
         then Ret [mkSamp 1 1]
         else Error JERR_CONVERSION_NOTIMPL
       | [] => Error JERR_CONVERSION_NOTIMPL
       end
     else if ncomp =? 1 then Ret (mkSamp 1 1 :: tl samps)
     else Ret samps) = Ret (if single s i then [mkSamp 1 1] else samps)).
  { unfold gray_ok in Hgray. rewrite Es. unfold single. destruct (x_gray i) eqn:G.
    - destruct (Hgray eq_refl) as (HG & c & rest & Ec & E1 & E2).
      destruct (f_comps (s_frame s)) as [|c0 r0] eqn:Ecs; [discriminate|]. injection Ec as -> ->.
      rewrite E1, E2, !Z.eqb_refl, !andb_true_r.
      destruct HG as [(Y & L)|(Y & L)]; rewrite Y, L.
      + cbn. reflexivity.
      + cbn. rewrite orb_true_r. reflexivity.
    - cbn [andb]. rewrite orb_false_r. destruct (Nat.eqb_spec (length (f_comps (s_frame s))) 1) as [E|E]; [|reflexivity].
      destruct samps as [|sp [|? ?]]; cbn in *; try lia. reflexivity. }
  rewrite EA. cbn [bind]. unfold dsamps, dquant. destruct (is_tr t).
  - rewrite (transpose_quants_ok _ Hq). cbn [bind]. destruct (single s i); reflexivity.
  - destruct (single s i); reflexivity.
Qed.

Definition dframe : frame :=
  match max_samp (dsamps s i samps) 1 1 with
  | Ret (mh, mv) => mkFrame ow' oh' false mh mv (d_dims ow' oh' mh mv 8 0 (dsamps s i samps)) (u32 (jdiv_round_up oh' (mv * 8)))
  | _ => s_frame s
  end.

Lemma setup_ok : c_initial_setup (mkCP ow' oh' (Z.of_nat (length (f_comps (s_frame s)))) (s_prec s) false (dsamps s i samps)) = Ret dframe.
Proof.
  destruct dsamps_max as (mh' & mv' & Em & EW & EH & Hmh & Hmv & Hl).
  destruct src_facts as (mh & mv & _ & HW & HH & Hp & Hl2 & _ & _ & _ & Ef).
  pose proof x_trimmed as (_ & T1). pose proof y_trimmed as (_ & T2). pose proof x_place. pose proof y_place.
  pose proof FW_range. pose proof FH_range. pose proof IW_pos. pose proof IH_pos.
  assert (0 <= xo * IW) by nia. assert (0 <= yo * IH) by nia.
  unfold dframe. rewrite Em. apply c_setup_ok; auto; try lia.
  rewrite Ef. cbn [f_comps]. rewrite d_dims_len. lia.
Qed.

(* a destination component, its source component and array *)
Lemma comp_facts ci c' : nth_error (f_comps dframe) ci = Some c' ->
  exists c a P, nth_error (f_comps (s_frame s)) ci = Some c /\ nth_error srcs ci = Some a /\ nth_error Ps ci = Some P /\
   carries c a P /\ 0 < c_h c' /\ 0 < c_v c' /\
   c_width_in_blocks c' = cd (ow' * c_h c') IW /\ c_height_in_blocks c' = cd (oh' * c_v c') IH /\
   c_width_in_blocks c = (if is_tr t then cd (FH * c_v c') IH else cd (FW * c_h c') IW) /\
   c_height_in_blocks c = (if is_tr t then cd (FW * c_h c') IW else cd (FH * c_v c') IH) /\
   (if is_tr t then cd FW IW * c_h c' else cd FH IH * c_v c') <= ba_rows a /\
   (if is_tr t then cd FH IH * c_v c' else cd FW IW * c_h c') <= ba_cols a /\
   (if is_tr t then c_h c' else c_v c') <= ba_maxaccess a /\
   (forall y x, 0 <= y < ba_rows a -> 0 <= x < ba_cols a -> exists b, ba_blk a y x = Some b /\ length b = 64%nat) /\
   (forall y x b, ba_blk a y x = Some b -> Forall (fun v => -32768 < v < 32768) b) /\
   c_h c' = (if single s i then 1 else if is_tr t then c_v c else c_h c) /\
   c_v c' = (if single s i then 1 else if is_tr t then c_h c else c_v c) /\ c_h c' <= 4 /\ c_v c' <= 4.
Proof.
  destruct dsamps_max as (mh' & mv' & Em & EW & EH & Hmh & Hmv & Hl).
  destruct src_facts as (mh & mv & Ems & HW & HH & Hp & Hl2 & Hmh2 & Hmv2 & HS & Ef).
  pose proof x_trimmed as (_ & T1). pose proof y_trimmed as (_ & T2). pose proof x_place as PX. pose proof y_place as PY.
  pose proof FW_range as RW. pose proof FH_range as RH. pose proof IW_pos as PW. pose proof IH_pos as PH.
  assert (0 <= xo * IW) by nia. assert (0 <= yo * IH) by nia.
  unfold dframe. rewrite Em. cbn [f_comps]. intros E.
  destruct (d_dims_nth _ _ _ _ _ _ _ _ _ E) as (sp & Esp & Eh & Ev & Ew & Ehb).
  assert (Hin : In sp (dsamps s i samps)) by (eapply nth_error_In; exact Esp).
  assert (Hsp : exists sq, nth_error samps ci = Some sq /\ h_samp sp = (if single s i then 1 else if is_tr t then v_samp sq else h_samp sq) /\
     v_samp sp = (if single s i then 1 else if is_tr t then h_samp sq else v_samp sq) /\
     (single s i = true -> ci = 0%nat /\ h_samp sq = mh /\ v_samp sq = mv)).
  { unfold dsamps in Esp. destruct (single s i) eqn:Es.
    - destruct ci as [|ci]; [|destruct ci; discriminate Esp]. injection Esp as <-.
      destruct samps as [|sq rest] eqn:Esa; [cbn in Hl2; lia|]. exists sq. split; [reflexivity|]. split; [reflexivity|]. split; [reflexivity|].
      intros _. split; [reflexivity|]. unfold single in Es. apply orb_true_iff in Es. destruct Es as [Es|Es].
      + apply Nat.eqb_eq in Es. rewrite Ef in Es. cbn [f_comps] in Es. rewrite d_dims_len in Es.
        destruct rest; [|discriminate Es]. now apply max_single.
      + rewrite !andb_true_iff in Es. destruct Es as ((G & _) & _). destruct (Hgray G) as (_ & c0 & r0 & E0 & E1 & E2).
        rewrite Ef in E0, E1, E2. cbn [f_comps f_max_h f_max_v d_dims] in E0, E1, E2. injection E0 as <- <-.
        cbn [c_h c_v] in E1, E2. auto.
    - destruct (is_tr t).
      + rewrite nth_error_map in Esp. destruct (nth_error samps ci) as [sq|] eqn:E1; [|discriminate Esp]. injection Esp as <-.
        exists sq. split; [reflexivity|]. split; [reflexivity|]. split; [reflexivity|]. discriminate.
      + exists sp. split; [exact Esp|]. split; [reflexivity|]. split; [reflexivity|]. discriminate. }
  destruct Hsp as (sq & Esq & Eh2 & Ev2 & Hsin).
  destruct (HS sq (nth_error_In _ _ Esq)) as (Q1 & Q2 & Q3 & Q4).
  assert (Hlt : (ci < length samps)%nat) by (apply nth_error_Some; congruence).
  destruct (nth_error (f_comps (s_frame s)) ci) as [c|] eqn:Ec.
  2:{ apply nth_error_None in Ec. rewrite Ef in Ec. cbn [f_comps] in Ec. rewrite d_dims_len in Ec. lia. }
  destruct (nth_error Ps ci) as [P|] eqn:EP.
  2:{ apply nth_error_None in EP. rewrite Hpl, Ef in EP. cbn [f_comps] in EP. rewrite d_dims_len in EP. lia. }
  destruct (Hps ci c P Ec EP) as (a & Ea & Hc).
  exists c, a, P. split; [reflexivity|]. split; [exact Ea|]. split; [reflexivity|]. split; [exact Hc|].
  assert (Ha : ba_rows a = jround_up (c_height_in_blocks c) (c_v c) /\ ba_cols a = jround_up (c_width_in_blocks c) (c_h c) /\
     c_v c <= ba_maxaccess a /\ forall y x, 0 <= y < ba_rows a -> 0 <= x < ba_cols a -> exists b, ba_blk a y x = Some b /\ length b = 64%nat).
  { destruct Hsrc as (_ & F2). revert Ec Ea. generalize ci. clear -F2. induction F2 as [|x y l l' HR _ IHF]; intros [|k] E1 E2; try discriminate.
    - injection E1 as ->. injection E2 as ->. exact HR.
    - cbn [nth_error] in E1, E2. apply (IHF k E1 E2). }
  destruct Ha as (A1 & A2 & A3 & A4).
  assert (Hcf : forall y x b, ba_blk a y x = Some b -> Forall (fun v => -32768 < v < 32768) b).
  { unfold coefs_ok in Hcoef. rewrite Forall_forall in Hcoef. apply Hcoef. eapply nth_error_In; exact Ea. }
  rewrite Ef in Ec. cbn [f_comps] in Ec. destruct (d_dims_nth _ _ _ _ _ _ _ _ _ Ec) as (sq' & Esq' & Fh & Fv & Fw & Fhb).
  assert (sq' = sq) by congruence. subst sq'.
  assert (B : 1 <= h_samp sp <= 4 /\ 1 <= v_samp sp <= 4) by (rewrite Eh2, Ev2; destruct (single s i), (is_tr t); lia).
  destruct B as (B1 & B2).
  rewrite jdiv_cd in Ew by nia. rewrite jdiv_cd in Ehb by nia.
  rewrite jdiv_cd in Fw by nia. rewrite jdiv_cd in Fhb by nia.
  rewrite <- Eh in B1, Ew. rewrite <- Ev in B2, Ehb. rewrite <- EW in Ew. rewrite <- EH in Ehb.
  split; [lia|]. split; [lia|]. split; [exact Ew|]. split; [exact Ehb|].
  assert (Fw0 : 0 <= c_width_in_blocks c) by (rewrite Fw; apply cd_nonneg; nia).
  assert (Fh0 : 0 <= c_height_in_blocks c) by (rewrite Fhb; apply cd_nonneg; nia).
  rewrite jround_cd in A1 by lia. rewrite jround_cd in A2 by lia. rewrite Fw in A2 |- *. rewrite Fhb in A1 |- *.
  rewrite Fh in A2 |- *. rewrite Fv in A1, A3 |- *. rewrite Eh, Ev, Eh2, Ev2.
  assert (EIW : single s i = false -> IW = (if is_tr t then mv else mh) * 8).
  { intros Hs. unfold imcu_w. rewrite Hs, Ef. cbn [f_max_h f_max_v]. destruct (is_tr t); lia. }
  assert (EIH : single s i = false -> IH = (if is_tr t then mh else mv) * 8).
  { intros Hs. unfold imcu_h. rewrite Hs, Ef. cbn [f_max_h f_max_v]. destruct (is_tr t); lia. }
  assert (EI1 : single s i = true -> IW = 8 /\ IH = 8) by (intros Hs; unfold imcu_w, imcu_h; now rewrite Hs).
  unfold full_w, full_h in *.
  destruct (single s i) eqn:Es.
  - destruct (Hsin eq_refl) as (-> & S1 & S2). destruct (EI1 eq_refl) as (I1 & I2). rewrite I1, I2.
    rewrite S1 in *. rewrite S2 in *. rewrite !cd_same in * by lia.
    pose proof (cd_up (cd (s_H s) 8) mv ltac:(lia)). pose proof (cd_up (cd (s_W s) 8) mh ltac:(lia)).
    rewrite !Z.mul_1_r.
    destruct (is_tr t); auto 15 with zarith.
  - rewrite (EIW eq_refl), (EIH eq_refl). 
    pose proof (cd_mul_up (s_W s) (h_samp sq) (mh * 8) ltac:(lia) ltac:(lia)) as U1.
    pose proof (cd_mul_up (s_H s) (v_samp sq) (mv * 8) ltac:(lia) ltac:(lia)) as U2.
    destruct (is_tr t).
    + split; [reflexivity|]. split; [reflexivity|]. split; [lia|]. split; [lia|]. split; [lia|]. split; [exact A4|]. split; [exact Hcf|]. lia.
    + split; [reflexivity|]. split; [reflexivity|]. split; [lia|]. split; [lia|]. split; [lia|]. split; [exact A4|]. split; [exact Hcf|]. lia.
Qed.

Definition out_planes : list plane :=
  map (fun '(c, P) => crop_plane (xo * c_h c) (yo * c_v c) (sym_plane t (FW / IW * c_h c) (FH / IH * c_v c) P))
      (combine (f_comps dframe) Ps).

Notation goodc ci c' o := (exists P, nth_error Ps ci = Some P /\
  carries c' o (crop_plane (xo * c_h c') (yo * c_v c') (sym_plane t (FW / IW * c_h c') (FH / IH * c_v c') P))).

Lemma ws_len : length (workspace ncomp (is_tr t) ow' oh' IW IH (f_comps (s_frame s))) = length (f_comps dframe).
Proof.
  unfold workspace. rewrite map_length, firstn_length.
  destruct dsamps_max as (mh' & mv' & Em & _). unfold dframe. rewrite Em. cbn [f_comps]. rewrite d_dims_len.
  unfold ncomp. rewrite Nat2Z.id. apply Nat.min_l.
  destruct src_facts as (mh & mv & _ & _ & _ & _ & Hl2 & _ & _ & _ & Ef). rewrite Ef. cbn [f_comps]. rewrite d_dims_len.
  unfold dsamps. destruct (single s i); [cbn; lia|]. destruct (is_tr t); rewrite ?map_length; lia.
Qed.
Lemma comps_len : (length (f_comps dframe) <= length srcs)%nat.
Proof.
  destruct (le_lt_dec (length (f_comps dframe)) (length srcs)) as [L|L]; [exact L|exfalso].
  destruct (nth_error (f_comps dframe) (length srcs)) as [c'|] eqn:E.
  - destruct (comp_facts _ _ E) as (c & a & P & _ & Ea & _). assert (length srcs < length srcs)%nat by (apply nth_error_Some; congruence). lia.
  - apply nth_error_None in E. lia.
Qed.
Lemma ws_nth ci c' d : nth_error (f_comps dframe) ci = Some c' ->
  nth_error (workspace ncomp (is_tr t) ow' oh' IW IH (f_comps (s_frame s))) ci = Some d ->
  ba_rows d = cd oh' IH * c_v c' /\ ba_cols d = cd ow' IW * c_h c' /\ c_v c' <= ba_maxaccess d.
Proof.
  intros Ec Ed. destruct (comp_facts _ _ Ec) as (c & a & P & E1 & _ & _ & _ & _ & _ & _ & _ & _ & _ & _ & _ & _ & _ & _ & Hh & Hv & _).
  unfold workspace in Ed. rewrite nth_error_map in Ed.
  destruct (nth_error (firstn (Z.to_nat ncomp) (f_comps (s_frame s))) ci) as [c1|] eqn:E2; [|discriminate Ed].
  apply nth_error_firstn in E2. rewrite E1 in E2. injection E2 as <-. cbn [option_map] in Ed. injection Ed as <-.
  assert (Es : (ncomp =? 1) = single s i) by (rewrite <- ncomp_eq; apply single_ncomp).
  rewrite Es. cbn [ba_rows ba_cols ba_maxaccess request_virt_barray]. rewrite <- Hh, <- Hv.
  pose proof x_trimmed as (_ & T1). pose proof y_trimmed as (_ & T2). pose proof x_place. pose proof y_place.
  pose proof FW_range. pose proof FH_range. pose proof IW_pos. pose proof IH_pos.
  assert (0 <= xo * IW) by nia. assert (0 <= yo * IH) by nia.
  rewrite !jdiv_cd by lia. lia.
Qed.

Lemma execute_ok : exists outs, execute_transform s i (mkXW ncomp ow' oh' IW IH xo yo
   (if need then Some (workspace ncomp (is_tr t) ow' oh' IW IH (f_comps (s_frame s))) else None)) dframe srcs = Ret outs /\
  forall ci c', nth_error (f_comps dframe) ci = Some c' -> exists o, nth_error outs ci = Some o /\ goodc ci c' o.
Proof.
  pose proof x_trimmed as (_ & T1). pose proof y_trimmed as (_ & T2). pose proof x_place as PX. pose proof y_place as PY.
  pose proof FW_range as RW. pose proof FH_range as RH. pose proof IW_pos as PW. pose proof IH_pos as PH.
  pose proof comp_facts as CF. pose proof ws_len as LW. pose proof comps_len as LC.
  assert (EI : f_max_h dframe * 8 = IW /\ f_max_v dframe * 8 = IH).
  { destruct dsamps_max as (mh' & mv' & Em & EW & EH & _). unfold dframe. rewrite Em. cbn [f_max_h f_max_v]. lia. }
  destruct EI as (EI1 & EI2).
  unfold execute_transform. cbn [w_xoff w_yoff w_out_w w_out_h w_arrays]. unfold DCTSIZE. rewrite EI1, EI2.
  assert (HX : xo * IW + ow' <= FW) by lia. assert (HY : yo * IH + oh' <= FH) by lia.
  assert (AG : forall ci c' a d, nth_error (f_comps dframe) ci = Some c' -> nth_error srcs ci = Some a ->
     nth_error (workspace ncomp (is_tr t) ow' oh' IW IH (f_comps (s_frame s))) ci = Some d ->
     exists P, nth_error Ps ci = Some P /\
     (is_tr t = false -> good c' FW FH IW IH xo yo P NONE (do_crop c' xo yo a d)) /\
     (is_tr t = false -> good c' FW FH IW IH xo yo P FLIP_H (do_flip_h c' xo yo (FW / IW * c_h c') a d)) /\
     (is_tr t = false -> good c' FW FH IW IH xo yo P FLIP_V (do_flip_v c' xo yo (FH / IH * c_v c') a d)) /\
     (is_tr t = false -> good c' FW FH IW IH xo yo P ROT_180 (do_rot_180 c' xo yo (FW / IW * c_h c') (FH / IH * c_v c') a d)) /\
     (is_tr t = true -> good c' FW FH IW IH xo yo P TRANSPOSE (do_transpose c' xo yo a d)) /\
     (is_tr t = true -> good c' FW FH IW IH xo yo P ROT_90 (do_rot_90 c' xo yo (FW / IW * c_h c') a d)) /\
     (is_tr t = true -> good c' FW FH IW IH xo yo P ROT_270 (do_rot_270 c' xo yo (FH / IH * c_v c') a d)) /\
     (is_tr t = true -> good c' FW FH IW IH xo yo P TRANSVERSE (do_transverse c' xo yo (FW / IW * c_h c') (FH / IH * c_v c') a d))).
  { intros ci c' a d Ec Ea Ed. destruct (ws_nth _ _ _ Ec Ed) as (D1 & D2 & D3).
    destruct (comp_facts _ _ Ec) as (c & a0 & P & E1 & E2 & E3 & H1 & H2 & H3 & H4 & H5 & H6 & H7 & H8 & H9 & H10 & H11 & H12 & _).
    rewrite Ea in E2. injection E2 as <-. exists P. split; [exact E3|].
    apply (all_good c c' a d FW FH IW IH xo yo ow' oh' P (is_tr t)); auto; lia. }
  assert (RUN : forall f, (forall ci c' a d, nth_error (f_comps dframe) ci = Some c' -> nth_error srcs ci = Some a ->
       nth_error (workspace ncomp (is_tr t) ow' oh' IW IH (f_comps (s_frame s))) ci = Some d ->
       exists d', f c' a d = Ret d' /\ goodc ci c' d') ->
     exists outs, per_comp f (f_comps dframe) srcs (workspace ncomp (is_tr t) ow' oh' IW IH (f_comps (s_frame s))) = Ret outs /\
     forall ci c', nth_error (f_comps dframe) ci = Some c' -> exists o, nth_error outs ci = Some o /\ goodc ci c' o).
  { intros f HF. apply (per_comp_ok f (f_comps dframe) (fun ci c' o => goodc ci c' o)); [exact LC|lia|exact HF]. }
  unfold need. unfold full_w, full_h in *.
  destruct t eqn:Et; cbn [is_tr sym fst snd] in *.
  - (* NONE *)
    rewrite (proj2 (Z.ltb_ge (s_W s) _)), (proj2 (Z.ltb_ge (s_H s) _)) by nia. cbn [orb].
    destruct (negb (xo =? 0) || negb (yo =? 0)) eqn:EN.
    + apply RUN. intros ci c' a d Ec Ea Ed. destruct (AG ci c' a d Ec Ea Ed) as (P & EP & G & _).
      destruct (G eq_refl) as (d' & E & HC). exists d'. split; [exact E|]. exists P. auto.
    + apply orb_false_iff in EN. destruct EN as (N1 & N2). apply negb_false_iff, Z.eqb_eq in N1, N2.
      exists srcs. split; [reflexivity|]. intros ci c' Ec.
      destruct (CF _ _ Ec) as (c & a & P & E1 & E2 & E3 & H1 & H2 & H3 & H4 & H5 & H6 & H7 & H8 & H9 & H10 & H11 & H12 & _).
      exists a. split; [exact E2|]. exists P. split; [exact E3|].
      destruct (none_good c c' a (s_W s) (s_H s) IW IH xo yo (trimmed (x_trim i && mirrors_x NONE) ow xo IW (s_W s)) (trimmed (x_trim i && mirrors_y NONE) oh yo IH (s_H s)) P false) as (d' & E & HC); auto; try lia.
      injection E as <-. exact HC.
  - (* FLIP_H *)
    destruct (negb (yo =? 0) || x_slow_hflip i) eqn:EN.
    + apply RUN. intros ci c' a d Ec Ea Ed. destruct (AG ci c' a d Ec Ea Ed) as (P & EP & _ & G & _).
      destruct (G eq_refl) as (d' & E & HC). exists d'. split; [exact E|]. exists P. auto.
    + apply orb_false_iff in EN. destruct EN as (N1 & N2). apply negb_false_iff, Z.eqb_eq in N1.
      apply (per_comp_ok _ (f_comps dframe) (fun ci c' o => exists P, nth_error Ps ci = Some P /\
        carries c' o (crop_plane (xo * c_h c') (yo * c_v c') (sym_plane FLIP_H (s_W s / IW * c_h c') (s_H s / IH * c_v c') P)))); [exact LC|exact LC|].
      intros ci c' a d Ec Ea Ed. assert (d = a) by congruence. subst d.
      destruct (CF _ _ Ec) as (c & a0 & P & E1 & E2 & E3 & H1 & H2 & H3 & H4 & H5 & H6 & H7 & H8 & H9 & H10 & H11 & H12 & _).
      rewrite Ea in E2. injection E2 as <-.
      destruct (inplace_good c c' a (s_W s) (s_H s) IW IH xo yo (trimmed (x_trim i && mirrors_x FLIP_H) ow xo IW (s_W s)) (trimmed (x_trim i && mirrors_y FLIP_H) oh yo IH (s_H s)) P false) as (d' & E & HC); auto; try lia.
      exists d'. split; [exact E|]. exists P. auto.
  - apply RUN. intros ci c' a d Ec Ea Ed. destruct (AG ci c' a d Ec Ea Ed) as (P & EP & _ & _ & G & _).
    destruct (G eq_refl) as (d' & E & HC). exists d'. split; [exact E|]. exists P. auto.
  - apply RUN. intros ci c' a d Ec Ea Ed. destruct (AG ci c' a d Ec Ea Ed) as (P & EP & _ & _ & _ & _ & G & _).
    destruct (G eq_refl) as (d' & E & HC). exists d'. split; [exact E|]. exists P. auto.
  - apply RUN. intros ci c' a d Ec Ea Ed. destruct (AG ci c' a d Ec Ea Ed) as (P & EP & _ & _ & _ & _ & _ & _ & _ & G).
    destruct (G eq_refl) as (d' & E & HC). exists d'. split; [exact E|]. exists P. auto.
  - apply RUN. intros ci c' a d Ec Ea Ed. destruct (AG ci c' a d Ec Ea Ed) as (P & EP & _ & _ & _ & _ & _ & G & _).
    destruct (G eq_refl) as (d' & E & HC). exists d'. split; [exact E|]. exists P. auto.
  - apply RUN. intros ci c' a d Ec Ea Ed. destruct (AG ci c' a d Ec Ea Ed) as (P & EP & _ & _ & _ & G & _).
    destruct (G eq_refl) as (d' & E & HC). exists d'. split; [exact E|]. exists P. auto.
  - apply RUN. intros ci c' a d Ec Ea Ed. destruct (AG ci c' a d Ec Ea Ed) as (P & EP & _ & _ & _ & _ & _ & _ & G & _).
    destruct (G eq_refl) as (d' & E & HC). exists d'. split; [exact E|]. exists P. auto.
Qed.

Lemma transcode_ok : exists outs, transcode s i srcs = Ret (Some (dframe, dquant, outs)) /\
  shows_planes (f_comps dframe) outs out_planes.
Proof.
  destruct execute_ok as (outs & E & HO). exists outs. split.
  - unfold transcode. rewrite request_ok. cbn [bind]. rewrite adjust_ok. cbn [bind d_W d_H d_samps d_quant].
    rewrite setup_ok. cbn [bind]. rewrite E. reflexivity.
  - intros ci c' P' Ec EP. destruct (HO ci c' Ec) as (o & Eo & P & E1 & HC). exists o. split; [exact Eo|].
    unfold out_planes in EP. rewrite nth_error_map in EP.
    destruct (nth_error (combine (f_comps dframe) Ps) ci) as [[c1 P1]|] eqn:E2; [|discriminate EP].
    cbn [option_map] in EP. injection EP as <-. apply nth_error_combine in E2. cbn [fst snd] in E2.
    destruct E2 as (E2 & E3). rewrite Ec in E2. injection E2 as <-. rewrite E1 in E3. injection E3 as <-. exact HC.
Qed.
End Whole.
