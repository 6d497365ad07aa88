(* T_Xform.v -- lossless transforms (C34) and lossless crop (C35). *)
From Coq Require Import Reals.
From Verif Require Import Base M_Geom M_Xform S_Xform S_Pixel P_Xform P_XformG P_Pixel T_Geom.
Open Scope Z_scope.

Lemma shown s samps srcs : source_ok s samps srcs -> shows_planes (f_comps (s_frame s)) srcs (map plane_of srcs) /\
  length (map plane_of srcs) = length (f_comps (s_frame s)).
Proof.
  intros (E & F). destruct (d_setup_inv _ _ _ _ _ E) as (mh & mv & Em & HW & HH & Hp & Hl & Ef).
  destruct (max_samp_spec samps 1 1 mh mv ltac:(lia) ltac:(lia) Em) as (S1 & S2 & S3 & _).
  split.
  - intros ci c P Ec EP. rewrite nth_error_map in EP. destruct (nth_error srcs ci) as [a|] eqn:Ea; [|discriminate EP].
    cbn [option_map] in EP. injection EP as <-. exists a. split; [reflexivity|].
    assert (B : 1 <= c_h c /\ 1 <= c_v c /\ 0 <= c_width_in_blocks c /\ 0 <= c_height_in_blocks c).
    { rewrite Ef in Ec. cbn [f_comps] in Ec. destruct (d_dims_nth _ _ _ _ _ _ _ _ _ Ec) as (sq & Esq & Fh & Fv & Fw & Fhb).
      destruct (S1 sq (nth_error_In _ _ Esq)) as (Q1 & Q2 & _). rewrite Fw, Fhb, Fh, Fv.
      split; [lia|]. split; [lia|]. split; unfold u32; apply Z.mod_pos_bound; lia. }
    destruct B as (B1 & B2 & B3 & B4).
    assert (H : ba_rows a = jround_up (c_height_in_blocks c) (c_v c) /\ ba_cols a = jround_up (c_width_in_blocks c) (c_h c) /\
      forall y x, 0 <= y < ba_rows a -> 0 <= x < ba_cols a -> exists b, ba_blk a y x = Some b /\ length b = 64%nat).
    { clear -F Ec Ea. revert ci Ec Ea. induction F as [|x y l l' HR _ IHF]; intros [|k] E1 E2; try discriminate.
      - injection E1 as ->. injection E2 as ->. destruct HR as (H1 & H2 & _ & H4). auto.
      - cbn [nth_error] in E1, E2. apply (IHF k E1 E2). }
    destruct H as (H1 & H2 & H4). rewrite jround_cd in H1, H2 by lia.
    pose proof (cd_up (c_height_in_blocks c) (c_v c) ltac:(lia)). pose proof (cd_up (c_width_in_blocks c) (c_h c) ltac:(lia)).
    intros y x Hy Hx. destruct (H4 y x ltac:(lia) ltac:(lia)) as (b & Eb & Lb). exists b. split; [exact Eb|]. split; [exact Lb|].
    intros r q _ _. unfold plane_of. now rewrite Eb.
  - rewrite map_length. clear -F. induction F; cbn; congruence.
Qed.

(* The result of any transform, with any crop region: dimensions, sampling factors, and
   every block of every component. *)
Theorem C35_crop_transform : forall s samps srcs i xo yo ow oh,
  source_ok s samps srcs -> coefs_ok srcs -> quants_ok s -> crop_ok s i -> gray_ok s i ->
  (x_perfect i = true -> aligned s i) ->
  let t := x_transform i in
  let FW := full_w s t in let FH := full_h s t in
  let IW := imcu_w s i in let IH := imcu_h s i in
  placed FW IW (x_axis i) = Some (xo, ow) -> placed FH IH (y_axis i) = Some (yo, oh) ->
  exists df q outs, transcode s i srcs = Ret (Some (df, q, outs)) /\
    f_width df = trimmed (x_trim i && mirrors_x t) ow xo IW FW /\
    f_height df = trimmed (x_trim i && mirrors_y t) oh yo IH FH /\
    map (fun c => (c_h c, c_v c)) (f_comps df) =
      (if single s i then [(1, 1)] else map (out_samp false t) (f_comps (s_frame s))) /\
    8 * f_max_h df = imcu_w s i /\ 8 * f_max_v df = imcu_h s i /\
    (exists samps', d_initial_setup (mkSof (f_width df) (f_height df) (s_prec s) false samps') = Ret df) /\
    forall ci c', nth_error (f_comps df) ci = Some c' ->
      exists a o, nth_error srcs ci = Some a /\ nth_error outs ci = Some o /\
      carries c' o (crop_plane (xo * c_h c') (yo * c_v c')
                     (sym_plane t (FW / IW * c_h c') (FH / IH * c_v c') (plane_of a))).
Proof.
  intros s samps srcs i xo yo ow oh Hsrc Hcoef Hq Hcrop Hgray Hperf t FW FH IW IH Hpx Hpy.
  destruct (shown _ _ _ Hsrc) as (Hps & Hpl).
  destruct (transcode_ok s samps srcs i (map plane_of srcs) xo yo ow oh Hsrc Hcoef Hq Hcrop Hgray Hperf Hps Hpl Hpx Hpy) as (outs & E & HO).
  eexists _, _, outs. split; [exact E|]. clear E.
  destruct (dsamps_max s samps srcs i _ Hsrc Hpl) as (mh' & mv' & Em & EI1 & EI2 & _).
  assert (Ed : dframe s samps i xo yo ow oh = mkFrame (trimmed (x_trim i && mirrors_x t) ow xo IW FW) (trimmed (x_trim i && mirrors_y t) oh yo IH FH) false mh' mv'
     (d_dims (trimmed (x_trim i && mirrors_x t) ow xo IW FW) (trimmed (x_trim i && mirrors_y t) oh yo IH FH) mh' mv' 8 0 (dsamps s i samps))
     (u32 (jdiv_round_up (trimmed (x_trim i && mirrors_y t) oh yo IH FH) (mv' * 8)))) by (unfold dframe; rewrite Em; reflexivity).
  split; [rewrite Ed; reflexivity|]. split; [rewrite Ed; reflexivity|].
  split.
  { rewrite Ed. cbn [f_comps].
    assert (G : forall l W H mh mv du k, map (fun c => (c_h c, c_v c)) (d_dims W H mh mv du k l) = map (fun sp => (h_samp sp, v_samp sp)) l).
    { induction l as [|sp l IHl]; intros; cbn; [reflexivity|]. now rewrite IHl. }
    rewrite G. unfold dsamps. destruct (single s i); [reflexivity|].
    destruct Hsrc as (E & _). destruct (d_setup_inv _ _ _ _ _ E) as (mh & mv & _ & _ & _ & _ & _ & Ef). rewrite Ef. cbn [f_comps].
    assert (G2 : map (out_samp false (x_transform i)) (d_dims (s_W s) (s_H s) mh mv 8 0 samps) =
       map (fun p => if is_tr (x_transform i) then (snd p, fst p) else p) (map (fun c => (c_h c, c_v c)) (d_dims (s_W s) (s_H s) mh mv 8 0 samps))).
    { rewrite map_map. apply map_ext. intros c. unfold out_samp. destruct (is_tr _); reflexivity. }
    fold t in G2 |- *. rewrite G2, G. destruct (is_tr t); rewrite ?map_map; apply map_ext; reflexivity. }
  split; [rewrite Ed; cbn [f_max_h]; lia|]. split; [rewrite Ed; cbn [f_max_v]; lia|].
  split.
  { exists (dsamps s i samps).
    pose proof (setup_ok s samps srcs i _ xo yo ow oh Hsrc Hpl Hpx Hpy) as ES.
    destruct (C37_frame_agree _ _ ES) as (_ & E2). cbn [p_width p_height p_precision p_lossless p_samps] in E2.
    rewrite Ed in *. cbn [f_width f_height]. exact E2. }
  intros ci c' Ec.
  destruct (comp_facts s samps srcs i (map plane_of srcs) xo yo ow oh Hsrc Hcoef Hgray Hps Hpl Hpx Hpy ci c' Ec)
    as (c & a & P & E1 & E2 & E3 & _).
  rewrite nth_error_map, E2 in E3. cbn [option_map] in E3. injection E3 as <-.
  destruct (HO ci c' (crop_plane (xo * c_h c') (yo * c_v c') (sym_plane t (FW / IW * c_h c') (FH / IH * c_v c') (plane_of a))) Ec) as (o & Eo & HC).
  { unfold out_planes. rewrite nth_error_map.
    assert (Ecb : forall {A B} (l : list A) (l' : list B) n x y, nth_error l n = Some x -> nth_error l' n = Some y -> nth_error (combine l l') n = Some (x, y)).
    { induction l as [|? ? IHl]; intros [|? l'] [|n] ? ? A1 A2; cbn in *; try discriminate; [congruence|]. now apply IHl. }
    rewrite (Ecb _ _ _ _ _ _ (plane_of a) Ec); [reflexivity|]. rewrite nth_error_map, E2. reflexivity. }
  exists a, o. auto.
Qed.
Print Assumptions C35_crop_transform.

(* equal coefficients, equal blocks *)
Lemma block_eq (b b' : list Z) : length b = 64%nat -> length b' = 64%nat ->
  (forall r q, 0 <= r < 8 -> 0 <= q < 8 -> nth (Z.to_nat (8 * r + q)) b 0 = nth (Z.to_nat (8 * r + q)) b' 0) -> b = b'.
Proof.
  intros L L' H. apply (nth_ext _ _ 0 0); [congruence|]. intros n Hn.
  pose proof (Z.div_mod (Z.of_nat n) 8 ltac:(lia)). pose proof (Z.mod_pos_bound (Z.of_nat n) 8 ltac:(lia)).
  specialize (H (Z.of_nat n / 8) (Z.of_nat n mod 8) ltac:(split; [apply Z.div_pos; lia|apply Z.div_lt_upper_bound; lia]) ltac:(lia)).
  replace (Z.to_nat (8 * (Z.of_nat n / 8) + Z.of_nat n mod 8)) with n in H by lia. exact H.
Qed.

(* Cropping alone copies blocks. *)
Theorem C35_crop : forall s samps srcs i xo yo ow oh,
  source_ok s samps srcs -> coefs_ok srcs -> quants_ok s -> crop_ok s i -> gray_ok s i -> x_transform i = NONE ->
  placed (s_W s) (imcu_w s i) (x_axis i) = Some (xo, ow) -> placed (s_H s) (imcu_h s i) (y_axis i) = Some (yo, oh) ->
  exists df outs, transcode s i srcs = Ret (Some (df, s_quant s, outs)) /\
    f_width df = ow /\ f_height df = oh /\
    forall ci c', nth_error (f_comps df) ci = Some c' ->
      exists a o, nth_error srcs ci = Some a /\ nth_error outs ci = Some o /\
      forall y x, 0 <= y < c_height_in_blocks c' -> 0 <= x < c_width_in_blocks c' ->
        ba_blk o y x <> None /\ ba_blk o y x = ba_blk a (y + yo * c_v c') (x + xo * c_h c').
Proof.
  intros s samps srcs i xo yo ow oh Hsrc Hcoef Hq Hcrop Hgray Ht Hpx Hpy.
  assert (Hperf : x_perfect i = true -> aligned s i) by (intros _; unfold aligned; rewrite Ht; split; discriminate).
  assert (Hpx' : placed (full_w s (x_transform i)) (imcu_w s i) (x_axis i) = Some (xo, ow)) by (rewrite Ht; exact Hpx).
  assert (Hpy' : placed (full_h s (x_transform i)) (imcu_h s i) (y_axis i) = Some (yo, oh)) by (rewrite Ht; exact Hpy).
  destruct (shown _ _ _ Hsrc) as (Hps & Hpl).
  destruct (transcode_ok s samps srcs i (map plane_of srcs) xo yo ow oh Hsrc Hcoef Hq Hcrop Hgray Hperf Hps Hpl Hpx' Hpy') as (outs & E & HO).
  destruct (C35_crop_transform s samps srcs i xo yo ow oh Hsrc Hcoef Hq Hcrop Hgray Hperf Hpx' Hpy') as (df & q & outs' & E' & EW & EH & _ & _ & _ & _ & HC).
  rewrite E in E'. injection E' as <- <- <-. exists (dframe s samps i xo yo ow oh), outs.
  split; [rewrite E; unfold dquant; rewrite Ht; reflexivity|].
  split; [rewrite EW, Ht; cbn [mirrors_x sym fst snd]; now rewrite andb_false_r|].
  split; [rewrite EH, Ht; cbn [mirrors_y sym fst snd]; now rewrite andb_false_r|].
  intros ci c' Ec. destruct (HC ci c' Ec) as (a & o & Ea & Eo & HCa). exists a, o. split; [exact Ea|]. split; [exact Eo|].
  destruct (comp_facts s samps srcs i (map plane_of srcs) xo yo ow oh Hsrc Hcoef Hgray Hps Hpl Hpx' Hpy' ci c' Ec)
    as (c & a0 & P & E1 & E2 & E3 & _ & P1 & P2 & W1 & W2 & W3 & W4 & R1 & R2 & _ & HA & _ ).
  rewrite Ea in E2. injection E2 as <-.
  pose proof (x_place s samps srcs i _ xo ow Hsrc Hpl Hpx') as (X1 & X2 & X3). pose proof (y_place s samps srcs i _ yo oh Hsrc Hpl Hpy') as (Y1 & Y2 & Y3).
  pose proof (IW_pos s samps srcs i _ Hsrc Hpl) as PW. pose proof (IH_pos s samps srcs i _ Hsrc Hpl) as PH.
  rewrite Ht in *. cbn [is_tr sym fst snd mirrors_x mirrors_y] in *. rewrite !andb_false_r in *. unfold trimmed in W1, W2. cbn [andb] in W1, W2.
  intros y x Hy Hx. destruct (HCa y x Hy Hx) as (b & Eb & Lb & Hb). split; [rewrite Eb; discriminate|].
  pose proof (cd_vis xo (imcu_w s i) ow (full_w s NONE) (c_h c') ltac:(lia) P1 X3) as V1.
  pose proof (cd_vis yo (imcu_h s i) oh (full_h s NONE) (c_v c') ltac:(lia) P2 Y3) as V2.
  pose proof (cd_mul (full_w s NONE) (c_h c') (imcu_w s i) P1 ltac:(lia)) as V3.
  pose proof (cd_mul (full_h s NONE) (c_v c') (imcu_h s i) P2 ltac:(lia)) as V4.
  assert (0 <= xo * c_h c') by nia. assert (0 <= yo * c_v c') by nia.
  destruct (HA (y + yo * c_v c') (x + xo * c_h c') ltac:(lia) ltac:(lia)) as (b' & Eb' & Lb').
  rewrite Eb, Eb'. f_equal. apply block_eq; [exact Lb|exact Lb'|]. intros r q0 Hr Hq0.
  rewrite (Hb r q0 Hr Hq0). unfold crop_plane, sym_plane, plane_of, msign, mirror. cbn [sym andb]. now rewrite Eb'.
Qed.
Print Assumptions C35_crop.

(* The output starts at the iMCU boundary at or before the requested start and ends
   where the requested region ends; every requested sample is in it. *)
Theorem C35_region : forall out imcu len ls off os xo ow, 0 < imcu ->
  placed out imcu (Some (len, ls, off, os)) = Some (xo, ow) ->
  exists start n, region out len ls off os = Some (start, n) /\
    0 <= start /\ 0 < n /\ start + n <= out /\
    (ls <> UNSET -> n = len) /\ (os = POS \/ os = FORCE -> start = off) /\ (os = NEG -> start + n + off = out) /\
    (os = UNSET -> start = 0) /\ (ls = UNSET -> os <> NEG -> start + n = out) /\
    xo * imcu <= start < (xo + 1) * imcu /\
    (ls <> FORCE -> xo * imcu + ow = start + n) /\ (ls = FORCE -> ow = len).
Proof.
  intros out imcu len ls off os xo ow Hi. cbn [placed].
  destruct (region out len ls off os) as [[st ln]|] eqn:R; [|discriminate]. intros E; injection E as <- Eo.
  exists st, ln. split; [reflexivity|]. pose proof (region_inv _ _ _ _ _ _ _ R) as (A & B & C).
  pose proof (Z.div_mod st imcu ltac:(lia)) as D. pose proof (Z.mod_pos_bound st imcu ltac:(lia)).
  split; [exact B|]. split; [exact A|]. split; [exact C|].
  unfold region in R. destruct (_ && _) in R; [|discriminate]. injection R as E1 E2.
  destruct ls, os; cbn in *; repeat split; intros; try congruence; try (destruct H0; congruence); try nia.
Qed.
Print Assumptions C35_region.

(* A region that is not inside the image is refused. *)
Theorem C35_bad_crop : forall s samps srcs i cr,
  source_ok s samps srcs -> x_crop i = Some cr -> crop_ok s i -> (x_perfect i = true -> aligned s i) ->
  region (full_w s (x_transform i)) (cr_width cr) (cr_width_set cr) (cr_xoffset cr) (cr_xoffset_set cr) = None \/
  region (full_h s (x_transform i)) (cr_height cr) (cr_height_set cr) (cr_yoffset cr) (cr_yoffset_set cr) = None ->
  transcode s i srcs = Error JERR_BAD_CROP_SPEC.
Proof.
  intros s samps srcs i cr Hsrc Ec Hcrop Hperf HN. destruct (shown _ _ _ Hsrc) as (Hps & Hpl).
  pose proof (FW_range s samps srcs i _ Hsrc Hpl) as RW. pose proof (FH_range s samps srcs i _ Hsrc Hpl) as RH.
  unfold crop_ok in Hcrop. rewrite Ec in Hcrop. destruct Hcrop as (C1 & C2 & C3 & C4 & C5 & C6).
  unfold transcode, request_workspace. rewrite single_ncomp.
  assert (Ep : x_perfect i && negb (if single s i then perfect_transform (s_W s) (s_H s) DCTSIZE DCTSIZE (x_transform i)
       else perfect_transform (s_W s) (s_H s) (f_max_h (s_frame s) * DCTSIZE) (f_max_v (s_frame s) * DCTSIZE) (x_transform i)) = false).
  { destruct (x_perfect i) eqn:X; [|reflexivity]. pose proof (proj2 (perfect_aligned s i) (Hperf eq_refl)) as PA.
    unfold DCTSIZE. rewrite PA. reflexivity. }
  rewrite Ep, Ec, transposes_tr. fold (full_w s (x_transform i)). fold (full_h s (x_transform i)).
  rewrite crop_axis_ok by (auto; lia).
  destruct (region (full_w s (x_transform i)) _ _ _ _) as [[a b]|]; [|reflexivity].
  destruct HN as [HN|HN]; [discriminate|]. cbn [bind]. rewrite crop_axis_ok by (auto; lia). rewrite HN. reflexivity.
Qed.
Print Assumptions C35_bad_crop.

(* ---------------- C34: the eight symmetries ---------------- *)
Lemma trimmed_whole (on : bool) size imcu : 0 < imcu -> (on = true -> size mod imcu = 0) -> trimmed on size 0 imcu size = size.
Proof.
  intros Hi H. unfold trimmed. destruct on; cbn [andb]; [|reflexivity]. specialize (H eq_refl).
  pose proof (Z.div_mod size imcu ltac:(lia)). destruct (_ && _); lia.
Qed.

(* Without a crop region: the result has the (transposed) dimensions and every component
   is the transformed component, mirrored as a whole. *)
Theorem C34_symmetry : forall s samps srcs i,
  source_ok s samps srcs -> coefs_ok srcs -> quants_ok s -> gray_ok s i -> x_crop i = None -> aligned s i ->
  let t := x_transform i in
  exists df q outs, transcode s i srcs = Ret (Some (df, q, outs)) /\
    f_width df = full_w s t /\ f_height df = full_h s t /\
    map (fun c => (c_h c, c_v c)) (f_comps df) =
      (if single s i then [(1, 1)] else map (out_samp false t) (f_comps (s_frame s))) /\
    q = (if is_tr t then map (option_map (fun q => map (fun k => table_at q (Z.of_nat k mod 8) (Z.of_nat k / 8)) (seq 0 64))) (s_quant s)
         else s_quant s) /\
    8 * f_max_h df = imcu_w s i /\ 8 * f_max_v df = imcu_h s i /\
    (exists samps', d_initial_setup (mkSof (f_width df) (f_height df) (s_prec s) false samps') = Ret df) /\
    forall ci c', nth_error (f_comps df) ci = Some c' ->
      exists c a o, nth_error (f_comps (s_frame s)) ci = Some c /\ nth_error srcs ci = Some a /\ nth_error outs ci = Some o /\
      c_width_in_blocks c' = (if is_tr t then c_height_in_blocks c else c_width_in_blocks c) /\
      c_height_in_blocks c' = (if is_tr t then c_width_in_blocks c else c_height_in_blocks c) /\
      carries c a (plane_of a) /\
      carries c' o (sym_plane t (c_width_in_blocks c') (c_height_in_blocks c') (plane_of a)).
Proof.
  intros s samps srcs i Hsrc Hcoef Hq Hgray Hc Hal t.
  assert (Hcrop : crop_ok s i) by (unfold crop_ok; now rewrite Hc).
  assert (Hpx : placed (full_w s (x_transform i)) (imcu_w s i) (x_axis i) = Some (0, full_w s (x_transform i))) by (unfold x_axis; now rewrite Hc).
  assert (Hpy : placed (full_h s (x_transform i)) (imcu_h s i) (y_axis i) = Some (0, full_h s (x_transform i))) by (unfold y_axis; now rewrite Hc).
  destruct (shown _ _ _ Hsrc) as (Hps & Hpl).
  set (FW := full_w s t). set (FH := full_h s t). fold t in Hpx, Hpy. fold FW FH in Hpx, Hpy.
  destruct (transcode_ok s samps srcs i (map plane_of srcs) 0 0 FW FH Hsrc Hcoef Hq Hcrop Hgray (fun _ => Hal) Hps Hpl Hpx Hpy) as (outs & E & HO).
  destruct (C35_crop_transform s samps srcs i 0 0 FW FH Hsrc Hcoef Hq Hcrop Hgray (fun _ => Hal) Hpx Hpy) as (df & q & outs' & E' & EW & EH & ES & EI1 & EI2 & ED & HC).
  rewrite E in E'. injection E' as <- <- <-. eexists _, _, outs. split; [exact E|].
  pose proof (IW_pos s samps srcs i _ Hsrc Hpl) as PW. pose proof (IH_pos s samps srcs i _ Hsrc Hpl) as PH.
  destruct Hal as (A1 & A2).
  fold t in EW, EH, A1, A2. fold FW in EW, A1. fold FH in EH, A2.
  assert (TW : trimmed (x_trim i && mirrors_x t) FW 0 (imcu_w s i) FW = FW).
  { apply trimmed_whole; [lia|]. intros B. apply andb_true_iff in B. apply A1, B. }
  assert (TH : trimmed (x_trim i && mirrors_y t) FH 0 (imcu_h s i) FH = FH).
  { apply trimmed_whole; [lia|]. intros B. apply andb_true_iff in B. apply A2, B. }
  split; [rewrite EW; exact TW|]. split; [rewrite EH; exact TH|]. split; [exact ES|].
  split.
  { unfold dquant. fold t. destruct (is_tr t); [|reflexivity]. apply map_ext. intros [q0|]; [|reflexivity]. reflexivity. }
  split; [exact EI1|]. split; [exact EI2|]. split; [exact ED|].
  intros ci c' Ec.
  destruct (HC ci c' Ec) as (a & o & Ea & Eo & HCa).
  destruct (comp_facts s samps srcs i (map plane_of srcs) 0 0 FW FH Hsrc Hcoef Hgray Hps Hpl Hpx Hpy ci c' Ec)
    as (c & a0 & P & E1 & E2 & E3 & HP & P1 & P2 & W1 & W2 & W3 & W4 & _ ).
  rewrite Ea in E2. injection E2 as <-. rewrite nth_error_map, Ea in E3. injection E3 as <-.
  fold t in W1, W2, W3, W4, HCa. fold FW in W1, W2, W3, W4, HCa. fold FH in W1, W2, W3, W4, HCa. rewrite TW in W1. rewrite TH in W2.
  exists c, a, o. split; [exact E1|]. split; [exact Ea|]. split; [exact Eo|].
  split; [rewrite W1, W3, W4; destruct (is_tr t); reflexivity|]. split; [rewrite W2, W3, W4; destruct (is_tr t); reflexivity|].
  split; [exact HP|].
  intros y x Hy Hx. destruct (HCa y x Hy Hx) as (b & Eb & Lb & Hb). exists b. split; [exact Eb|]. split; [exact Lb|].
  intros r q0 Hr Hq0. rewrite (Hb r q0 Hr Hq0). unfold crop_plane. rewrite !Z.mul_0_l, !Z.add_0_r.
  assert (M1 : mirrors_x t = true -> c_width_in_blocks c' = FW / imcu_w s i * c_h c').
  { intros B. rewrite W1. apply cd_exact; auto; lia. }
  assert (M2 : mirrors_y t = true -> c_height_in_blocks c' = FH / imcu_h s i * c_v c').
  { intros B. rewrite W2. apply cd_exact; auto; lia. }
  revert M1 M2. unfold mirrors_x, mirrors_y, sym_plane, msign, mirror. destruct (sym t) as [[tr fx] fy]. cbn [fst snd].
  destruct fx, fy; cbn [andb]; intros M1 M2; rewrite ?M1, ?M2 by reflexivity; reflexivity.
Qed.
Print Assumptions C34_symmetry.

(* A perfect transform is refused exactly when a mirrored dimension is not whole iMCUs. *)
Theorem C34_perfect : forall s i, x_perfect i = true ->
  (request_workspace s i = Ret None <-> ~ aligned s i).
Proof.
  intros s i Hp. unfold request_workspace. rewrite single_ncomp, Hp. cbn [andb].
  pose proof (perfect_aligned s i) as PA. unfold DCTSIZE.
  destruct (if single s i then _ else _); cbn [negb].
  - split; [|intros H; exfalso; apply H, PA; reflexivity].
    intros E. exfalso. revert E. destruct (x_crop i) as [cr|]; [|cbn [bind]; discriminate].
    destruct (crop_axis _ _ _ _ _ _) as [[? ?]| |]; cbn [bind]; try discriminate.
    destruct (crop_axis _ _ _ _ _ _) as [[? ?]| |]; cbn [bind]; try discriminate.
  - split; [|reflexivity]. intros _ H. apply PA in H. discriminate.
Qed.
Print Assumptions C34_perfect.

(* Trimming leaves no unmirrored edge: when the mirrored axis has at least one whole
   iMCU, the result is exactly the whole iMCUs. *)
Theorem C34_trim : forall s samps srcs i,
  source_ok s samps srcs -> coefs_ok srcs -> quants_ok s -> gray_ok s i -> x_crop i = None ->
  x_perfect i = false -> x_trim i = true ->
  let t := x_transform i in
  let size (m : bool) full imcu := if m then full / imcu * imcu else full in
  (mirrors_x t = true -> imcu_w s i <= full_w s t) -> (mirrors_y t = true -> imcu_h s i <= full_h s t) ->
  exists df q outs, transcode s i srcs = Ret (Some (df, q, outs)) /\
    f_width df = size (mirrors_x t) (full_w s t) (imcu_w s i) /\
    f_height df = size (mirrors_y t) (full_h s t) (imcu_h s i) /\
    forall ci c', nth_error (f_comps df) ci = Some c' ->
      exists a o, nth_error srcs ci = Some a /\ nth_error outs ci = Some o /\
      carries c' o (sym_plane t (c_width_in_blocks c') (c_height_in_blocks c') (plane_of a)).
Proof.
  intros s samps srcs i Hsrc Hcoef Hq Hgray Hc Hnp Htr t size LX LY.
  assert (Hcrop : crop_ok s i) by (unfold crop_ok; now rewrite Hc).
  assert (Hpx : placed (full_w s (x_transform i)) (imcu_w s i) (x_axis i) = Some (0, full_w s (x_transform i))) by (unfold x_axis; now rewrite Hc).
  assert (Hpy : placed (full_h s (x_transform i)) (imcu_h s i) (y_axis i) = Some (0, full_h s (x_transform i))) by (unfold y_axis; now rewrite Hc).
  destruct (shown _ _ _ Hsrc) as (Hps & Hpl).
  set (FW := full_w s t) in *. set (FH := full_h s t) in *. fold t in Hpx, Hpy. fold FW FH in Hpx, Hpy.
  assert (Hperf : x_perfect i = true -> aligned s i) by (rewrite Hnp; discriminate).
  destruct (transcode_ok s samps srcs i (map plane_of srcs) 0 0 FW FH Hsrc Hcoef Hq Hcrop Hgray Hperf Hps Hpl Hpx Hpy) as (outs & E & HO).
  destruct (C35_crop_transform s samps srcs i 0 0 FW FH Hsrc Hcoef Hq Hcrop Hgray Hperf Hpx Hpy) as (df & q & outs' & E' & EW & EH & ES & EI1 & EI2 & ED & HC).
  rewrite E in E'. injection E' as <- <- <-. eexists _, _, outs. split; [exact E|].
  pose proof (IW_pos s samps srcs i _ Hsrc Hpl) as PW. pose proof (IH_pos s samps srcs i _ Hsrc Hpl) as PH.
  fold t in EW, EH. fold FW in EW. fold FH in EH. rewrite Htr in EW, EH. cbn [andb] in EW, EH.
  assert (T : forall (on : bool) full imcu, 0 < imcu -> (on = true -> imcu <= full) -> trimmed on full 0 imcu full = size on full imcu).
  { intros on full imcu Hi Hl. unfold trimmed, size. destruct on; cbn [andb]; [|reflexivity]. specialize (Hl eq_refl).
    assert (1 <= full / imcu) by (apply Z.div_le_lower_bound; lia).
    rewrite (proj2 (Z.ltb_lt 0 (full / imcu))) by lia. rewrite Z.add_0_l, Z.eqb_refl. reflexivity. }
  rewrite T in EW by (auto; lia). rewrite T in EH by (auto; lia).
  split; [exact EW|]. split; [exact EH|].
  intros ci c' Ec.
  destruct (HC ci c' Ec) as (a & o & Ea & Eo & HCa).
  destruct (comp_facts s samps srcs i (map plane_of srcs) 0 0 FW FH Hsrc Hcoef Hgray Hps Hpl Hpx Hpy ci c' Ec)
    as (c & a0 & P & E1 & E2 & E3 & HP & P1 & P2 & W1 & W2 & _ ).
  fold t in W1, W2, HCa. fold FW in W1, W2, HCa. fold FH in W1, W2, HCa. rewrite Htr in W1, W2. cbn [andb] in W1, W2.
  rewrite T in W1 by (auto; lia). rewrite T in W2 by (auto; lia).
  exists a, o. split; [exact Ea|]. split; [exact Eo|].
  intros y x Hy Hx. destruct (HCa y x Hy Hx) as (b & Eb & Lb & Hb). exists b. split; [exact Eb|]. split; [exact Lb|].
  intros r q0 Hr Hq0. rewrite (Hb r q0 Hr Hq0). unfold crop_plane. rewrite !Z.mul_0_l, !Z.add_0_r.
  assert (M1 : mirrors_x t = true -> c_width_in_blocks c' = FW / imcu_w s i * c_h c').
  { intros B. rewrite W1, B. unfold size. rewrite cd_exact; [now rewrite Z.div_mul by lia|lia|exact P1|]. now rewrite Z.mod_mul by lia. }
  assert (M2 : mirrors_y t = true -> c_height_in_blocks c' = FH / imcu_h s i * c_v c').
  { intros B. rewrite W2, B. unfold size. rewrite cd_exact; [now rewrite Z.div_mul by lia|lia|exact P2|]. now rewrite Z.mod_mul by lia. }
  revert M1 M2. unfold mirrors_x, mirrors_y, sym_plane, msign, mirror. destruct (sym t) as [[tr fx] fy]. cbn [fst snd].
  destruct fx, fy; cbn [andb]; intros M1 M2; rewrite ?M1, ?M2 by reflexivity; reflexivity.
Qed.
Print Assumptions C34_trim.

(* Decoded with the ideal inverse DCT, every sample of the result is the sample of the
   original that the symmetry says. *)
Theorem C34_pixels : forall s samps srcs i k q,
  source_ok s samps srcs -> coefs_ok srcs -> quants_ok s -> gray_ok s i -> x_crop i = None -> aligned s i ->
  nth_error (s_quant s) k = Some (Some q) ->
  exists df qs outs q', transcode s i srcs = Ret (Some (df, qs, outs)) /\ nth_error qs k = Some (Some q') /\
    forall ci c', nth_error (f_comps df) ci = Some c' ->
      exists a o, nth_error srcs ci = Some a /\ nth_error outs ci = Some o /\
      let w := 8 * c_width_in_blocks c' in let h := 8 * c_height_in_blocks c' in
      forall Y X, 0 <= Y < h -> 0 <= X < w ->
        let '(Y0, X0) := src_pos (x_transform i) w h Y X in
        sample_at (table_at q') (plane_of o) Y X = sample_at (table_at q) (plane_of a) Y0 X0.
Proof.
  intros s samps srcs i k q Hsrc Hcoef Hq Hgray Hc Hal Hk.
  destruct (C34_symmetry s samps srcs i Hsrc Hcoef Hq Hgray Hc Hal) as (df & qs & outs & E & _ & _ & _ & Eq & _ & _ & _ & HC).
  set (t := x_transform i) in *.
  exists df, qs, outs, (if is_tr t then map (fun k => table_at q (Z.of_nat k mod 8) (Z.of_nat k / 8)) (seq 0 64) else q).
  split; [exact E|].
  split. { rewrite Eq. destruct (is_tr t); [|exact Hk]. rewrite nth_error_map, Hk. reflexivity. }
  intros ci c' Ec. destruct (HC ci c' Ec) as (c & a & o & _ & Ea & Eo & _ & _ & _ & Ho). exists a, o.
  split; [exact Ea|]. split; [exact Eo|]. intros w h Y X HY HX.
  pose proof (sample_sym t (c_width_in_blocks c') (c_height_in_blocks c') (table_at q) (plane_of a) Y X HY HX) as SS.
  destruct (src_pos t w h Y X) as [Y0 X0] eqn:EP. fold w h in SS. rewrite EP in SS. cbn [fst snd] in SS. rewrite <- SS.
  unfold sample_at. apply sum8_ext. intros r Hr. apply sum8_ext. intros u Hu.
  assert (By : 0 <= Y / 8 < c_height_in_blocks c') by (split; [apply Z.div_pos; lia|apply Z.div_lt_upper_bound; lia]).
  assert (Bx : 0 <= X / 8 < c_width_in_blocks c') by (split; [apply Z.div_pos; lia|apply Z.div_lt_upper_bound; lia]).
  destruct (Ho _ _ By Bx) as (b & Eb & Lb & Hb). unfold plane_of at 1. rewrite Eb, (Hb r u Hr Hu).
  f_equal. f_equal. f_equal. f_equal. unfold tq. destruct (is_tr t); [|reflexivity].
  apply (co_tab64 (fun r c => table_at q c r) r u Hr Hu).
Qed.
Print Assumptions C34_pixels.

(* ---------------- the group laws ---------------- *)
Theorem C34_group : 
  (forall t1 t2 t3, compose (compose t1 t2) t3 = compose t1 (compose t2 t3)) /\
  (forall t, compose NONE t = t /\ compose t NONE = t) /\
  (forall t, compose t (inverse t) = NONE /\ compose (inverse t) t = NONE) /\
  (* flips, transpositions and the half turn are involutions, a quarter turn has order 4 *)
  (forall t, compose t t = NONE <-> t <> ROT_90 /\ t <> ROT_270) /\
  compose (compose ROT_90 ROT_90) (compose ROT_90 ROT_90) = NONE /\ compose ROT_90 ROT_90 = ROT_180 /\
  (* where a sample of the result of t1, then t2, comes from: w x h is the size of the result *)
  (forall t1 t2 w h Y X,
     let '(Y1, X1) := src_pos t2 w h Y X in
     src_pos t1 (if is_tr t2 then h else w) (if is_tr t2 then w else h) Y1 X1 = src_pos (compose t1 t2) w h Y X).
Proof.
  split; [intros [] [] []; reflexivity|].
  split; [intros []; split; reflexivity|]. split; [intros []; split; reflexivity|].
  split; [intros []; cbn; split; intros H; try split; try discriminate; try reflexivity; destruct H as (? & ?); congruence|].
  split; [reflexivity|]. split; [reflexivity|].
  intros [] [] w h Y X; cbn [src_pos is_tr sym compose fst snd]; f_equal; lia.
Qed.
Print Assumptions C34_group.

Lemma sym_plane_ext t nx ny P P' y x r q :
  (forall sy sx, 0 <= sy < (if is_tr t then nx else ny) -> 0 <= sx < (if is_tr t then ny else nx) -> forall r q, 0 <= r < 8 -> 0 <= q < 8 -> P sy sx r q = P' sy sx r q) ->
  0 <= y < ny -> 0 <= x < nx -> 0 <= r < 8 -> 0 <= q < 8 ->
  sym_plane t nx ny P y x r q = sym_plane t nx ny P' y x r q.
Proof.
  intros H Hy Hx Hr Hq. unfold is_tr in H. unfold sym_plane. destruct (sym t) as [[tr fx] fy]. cbn [fst snd] in H.
  unfold msign, mirror. rewrite (proj2 (Z.ltb_lt y ny)), (proj2 (Z.ltb_lt x nx)) by lia.
  destruct tr; rewrite H; try reflexivity; try lia; destruct fx, fy; cbn [andb]; lia.
Qed.
Lemma sym_compose t1 t2 nx ny P y x r q : 0 <= y < ny -> 0 <= x < nx ->
  sym_plane t2 nx ny (sym_plane t1 (if is_tr t2 then ny else nx) (if is_tr t2 then nx else ny) P) y x r q =
  sym_plane (compose t1 t2) nx ny P y x r q.
Proof.
  intros Hy Hx.
  assert (L : forall a n, 0 <= a < n -> (a <? n) = true /\ (n - 1 - a <? n) = true /\ n - 1 - (n - 1 - a) = a).
  { intros a n H. rewrite !Z.ltb_lt. lia. }
  destruct (L y ny Hy) as (Y1 & Y2 & Y3). destruct (L x nx Hx) as (X1 & X2 & X3).
  destruct t1, t2; unfold sym_plane, msign, mirror; cbn [compose sym is_tr fst snd andb];
    repeat (rewrite ?Y1, ?Y2, ?Y3, ?X1, ?X2, ?X3; cbn [andb]); try reflexivity;
    destruct (Z.odd r), (Z.odd q); cbn [andb]; rewrite ?Z.opp_involutive; reflexivity.
Qed.

Lemma frame_determined W H prec l l' f f' :
  d_initial_setup (mkSof W H prec false l) = Ret f -> d_initial_setup (mkSof W H prec false l') = Ret f' ->
  map (fun c => (c_h c, c_v c)) (f_comps f) = map (fun c => (c_h c, c_v c)) (f_comps f') -> f = f' /\ l = l'.
Proof.
  intros E E' HM. destruct (d_setup_inv _ _ _ _ _ E) as (mh & mv & _ & _ & _ & _ & _ & Ef).
  destruct (d_setup_inv _ _ _ _ _ E') as (mh' & mv' & _ & _ & _ & _ & _ & Ef').
  assert (L : l = l').
  { rewrite <- (d_dims_samps W H mh mv 8 l 0), <- (d_dims_samps W H mh' mv' 8 l' 0).
    rewrite Ef, Ef' in HM. cbn [f_comps] in HM.
    assert (G : forall cs, map (fun c => mkSamp (c_h c) (c_v c)) cs = map (fun p => mkSamp (fst p) (snd p)) (map (fun c => (c_h c, c_v c)) cs)).
    { intros cs. rewrite map_map. reflexivity. }
    rewrite !G, HM. reflexivity. }
  split; [|exact L]. subst l'. congruence.
Qed.

Definition tr_table (q : list Z) : list Z := map (fun k => table_at q (Z.of_nat k mod 8) (Z.of_nat k / 8)) (seq 0 64).
Lemma tr_tr q : length q = 64%nat -> tr_table (tr_table q) = q.
Proof.
  intros L. apply block_eq; [unfold tr_table; now rewrite map_length, seq_length|exact L|]. intros r c Hr Hc.
  pose proof (co_tab64 (fun r c => table_at (tr_table q) c r) r c Hr Hc) as H1. cbv beta in H1.
  pose proof (co_tab64 (fun r c => table_at q c r) c r Hc Hr) as H2. cbv beta in H2.
  etransitivity; [exact H1|]. etransitivity; [exact H2|]. reflexivity.
Qed.
Lemma is_tr_compose t1 t2 : is_tr (compose t1 t2) = xorb (is_tr t1) (is_tr t2). Proof. destruct t1, t2; reflexivity. Qed.

Lemma whole_aligned s i : x_gray i = false -> whole s (length (f_comps (s_frame s)) =? 1)%nat -> 
  full_w s (x_transform i) mod imcu_w s i = 0 /\ full_h s (x_transform i) mod imcu_h s i = 0.
Proof.
  intros G (A & B). unfold full_w, full_h, imcu_w, imcu_h, single. rewrite G. cbn [andb]. rewrite orb_false_r.
  destruct (length (f_comps (s_frame s)) =? 1)%nat; destruct (is_tr (x_transform i)); auto.
Qed.

(* Doing t1, writing the file, reading it back and doing t2 gives exactly what doing the
   composed transform once gives: frame, quantization tables, every block. *)
Theorem C34_compose : forall s samps srcs i1 i2 i3 df1 q1 outs1 samps2 srcs2,
  source_ok s samps srcs -> coefs_ok srcs -> quants_ok s ->
  x_gray i1 = false -> x_gray i2 = false -> x_gray i3 = false ->
  x_crop i1 = None -> x_crop i2 = None -> x_crop i3 = None ->
  whole s (length (f_comps (s_frame s)) =? 1)%nat ->
  x_transform i3 = compose (x_transform i1) (x_transform i2) ->
  transcode s i1 srcs = Ret (Some (df1, q1, outs1)) ->
  source_ok (reread s df1 q1) samps2 srcs2 -> coefs_ok srcs2 -> same_blocks (f_comps df1) outs1 srcs2 ->
  exists df q outs2 outs3,
    transcode (reread s df1 q1) i2 srcs2 = Ret (Some (df, q, outs2)) /\
    transcode s i3 srcs = Ret (Some (df, q, outs3)) /\
    same_blocks (f_comps df) outs2 outs3.
Proof.
  intros s samps srcs i1 i2 i3 df1 q1 outs1 samps2 srcs2 Hsrc Hcoef Hq G1 G2 G3 C1 C2 C3 Hw Et E1 Hsrc2 Hcoef2 Hsame.
  set (t1 := x_transform i1) in *. set (t2 := x_transform i2) in *.
  assert (NG : forall s i, x_gray i = false -> gray_ok s i) by (intros ? ? H; unfold gray_ok; rewrite H; discriminate).
  assert (AL : forall s i, full_w s (x_transform i) mod imcu_w s i = 0 /\ full_h s (x_transform i) mod imcu_h s i = 0 -> aligned s i)
    by (intros ? ? (? & ?); unfold aligned; auto).
  pose proof (whole_aligned s i1 G1 Hw) as A1. pose proof (whole_aligned s i3 G3 Hw) as A3.
  destruct (C34_symmetry s samps srcs i1 Hsrc Hcoef Hq (NG _ _ G1) C1 (AL _ _ A1)) as (df1' & q1' & outs1' & E1' & W1 & H1 & S1 & Q1 & IW1 & IH1 & D1 & B1).
  rewrite E1 in E1'. injection E1' as <- <- <-. fold t1 in W1, H1, S1, Q1, A1.
  destruct (C34_symmetry s samps srcs i3 Hsrc Hcoef Hq (NG _ _ G3) C3 (AL _ _ A3)) as (df3 & q3 & outs3 & E3 & W3 & H3 & S3 & Q3 & _ & _ & (l3 & D3) & B3).
  rewrite Et in W3, H3, S3, Q3.
  set (s2 := reread s df1 q1) in *.
  assert (Q1' : q1 = if is_tr t1 then map (option_map tr_table) (s_quant s) else s_quant s) by exact Q1.
  assert (Hq2 : quants_ok s2).
  { unfold quants_ok, s2. cbn [reread s_quant]. rewrite Q1'. destruct (is_tr t1); [|exact Hq].
    unfold quants_ok in Hq. rewrite Forall_forall in *. intros x Hx. apply in_map_iff in Hx. destruct Hx as ([q0|] & <- & _); cbn [option_map]; [|exact I].
    unfold tr_table. now rewrite map_length, seq_length. }
  assert (Len : length (f_comps df1) = length (f_comps (s_frame s))).
  { pose proof (f_equal (@length _) S1) as L. rewrite map_length in L. rewrite L. unfold single. rewrite G1. cbn [andb]. rewrite orb_false_r.
    destruct (Nat.eqb_spec (length (f_comps (s_frame s))) 1); [now cbn|]. now rewrite map_length. }
  assert (Hw2 : whole s2 (length (f_comps (s_frame s2)) =? 1)%nat).
  { unfold whole, s2. cbn [reread s_W s_H s_frame]. rewrite Len. rewrite W1, H1.
    destruct A1 as (A1 & A1'). rewrite <- IW1 in A1. rewrite <- IH1 in A1'.
    destruct (Nat.eqb_spec (length (f_comps (s_frame s))) 1) as [E|E]; [|auto].
    unfold imcu_w, imcu_h, single in IW1, IH1. rewrite E in IW1, IH1. cbn [Nat.eqb orb] in IW1, IH1.
    rewrite IW1 in A1. rewrite IH1 in A1'. auto. }
  pose proof (whole_aligned s2 i2 G2 Hw2) as A2.
  destruct (C34_symmetry s2 samps2 srcs2 i2 Hsrc2 Hcoef2 Hq2 (NG _ _ G2) C2 (AL _ _ A2)) as (df2 & q2 & outs2 & E2 & W2 & H2 & S2 & Q2 & _ & _ & (l2 & D2) & B2).
  fold t2 in W2, H2, S2, Q2.
  assert (EW : f_width df2 = f_width df3).
  { rewrite W2, W3. unfold full_w. rewrite is_tr_compose. unfold s2. cbn [reread s_W s_H]. rewrite W1, H1. unfold full_w, full_h.
    destruct (is_tr t1), (is_tr t2); reflexivity. }
  assert (EH : f_height df2 = f_height df3).
  { rewrite H2, H3. unfold full_h. rewrite is_tr_compose. unfold s2. cbn [reread s_W s_H]. rewrite W1, H1. unfold full_w, full_h.
    destruct (is_tr t1), (is_tr t2); reflexivity. }
  assert (ES : map (fun c => (c_h c, c_v c)) (f_comps df2) = map (fun c => (c_h c, c_v c)) (f_comps df3)).
  { rewrite S2, S3. unfold single. rewrite G2, G3. unfold s2. cbn [reread s_frame]. rewrite Len. cbn [andb]. rewrite !orb_false_r.
    unfold single in S1. rewrite G1 in S1. cbn [andb] in S1. rewrite orb_false_r in S1.
    destruct (length (f_comps (s_frame s)) =? 1)%nat; [reflexivity|].
    assert (G : map (out_samp false t2) (f_comps df1) = map (fun p => if is_tr t2 then (snd p, fst p) else p) (map (fun c => (c_h c, c_v c)) (f_comps df1))).
    { rewrite map_map. apply map_ext. intros c. unfold out_samp. destruct (is_tr t2); reflexivity. }
    rewrite G, S1, map_map. apply map_ext. intros c. unfold out_samp. rewrite is_tr_compose. destruct (is_tr t1), (is_tr t2); reflexivity. }
  rewrite EW, EH in D2. destruct (frame_determined _ _ _ _ _ _ _ D2 D3 ES) as (Ef & _). subst df3.
  assert (Eq : q2 = q3).
  { assert (Q2' : q2 = if is_tr t2 then map (option_map tr_table) q1 else q1) by exact Q2.
    assert (Q3' : q3 = if is_tr (compose t1 t2) then map (option_map tr_table) (s_quant s) else s_quant s) by exact Q3.
    rewrite Q2', Q3', Q1', is_tr_compose. destruct (is_tr t1), (is_tr t2); cbn [xorb]; try reflexivity.
    rewrite map_map. clear -Hq. unfold quants_ok in Hq. induction Hq as [|x l Hx _ IHl]; [reflexivity|]. cbn [map]. rewrite IHl. f_equal.
    destruct x as [q|]; [|reflexivity]. cbn [option_map]. now rewrite tr_tr. }
  rewrite <- Eq in E3. exists df2, q2, outs2, outs3. split; [exact E2|]. split; [exact E3|].
  intros ci c' Ec. destruct (B2 ci c' Ec) as (c1 & a2 & o2 & Ec1 & Ea2 & Eo2 & V1 & V2 & _ & P2).
  destruct (B3 ci c' Ec) as (c & a & o3 & Ec0 & Ea & Eo3 & _ & _ & _ & P3). rewrite Et in P3.
  unfold s2 in Ec1. cbn [reread s_frame] in Ec1.
  destruct (B1 ci c1 Ec1) as (c0 & a' & o1 & _ & Ea' & Eo1 & _ & _ & _ & P1). rewrite Ea in Ea'. injection Ea' as <-.
  destruct (Hsame ci c1 Ec1) as (o1' & a2' & Eo1' & Ea2' & HB). rewrite Eo1 in Eo1'. injection Eo1' as <-. rewrite Ea2 in Ea2'. injection Ea2' as <-.
  exists o2, o3. split; [exact Eo2|]. split; [exact Eo3|]. intros y x Hy Hx.
  destruct (P2 y x Hy Hx) as (b2 & Eb2 & L2 & N2). destruct (P3 y x Hy Hx) as (b3 & Eb3 & L3 & N3).
  rewrite Eb2, Eb3. split; [discriminate|]. f_equal. apply block_eq; [exact L2|exact L3|]. intros r q Hr Hq'.
  rewrite (N2 r q Hr Hq'), (N3 r q Hr Hq'). fold t1 in P1. fold t2 in V1, V2 |- *.
  rewrite <- sym_compose by assumption. apply sym_plane_ext; [|assumption..].
  intros sy sx Hsy Hsx r' q' Hr' Hq''.
  assert (Wc : c_width_in_blocks c1 = (if is_tr t2 then c_height_in_blocks c' else c_width_in_blocks c')) by (destruct (is_tr t2); congruence).
  assert (Hc : c_height_in_blocks c1 = (if is_tr t2 then c_width_in_blocks c' else c_height_in_blocks c')) by (destruct (is_tr t2); congruence).
  assert (R1 : 0 <= sy < c_height_in_blocks c1) by (rewrite Hc; exact Hsy).
  assert (R2 : 0 <= sx < c_width_in_blocks c1) by (rewrite Wc; exact Hsx).
  destruct (P1 sy sx R1 R2) as (b1 & Eb1 & _ & N1). destruct (HB sy sx R1 R2) as (_ & EB). rewrite Eb1 in EB.
  unfold plane_of at 1. rewrite <- EB. rewrite (N1 r' q' Hr' Hq''), Wc, Hc. reflexivity.
Qed.
Print Assumptions C34_compose.

(* ---------------- a concrete image meets the hypotheses ---------------- *)
(* 32x16, 4:2:0, 3 components *)
Definition ex_samps : list samp := [mkSamp 2 2; mkSamp 1 1; mkSamp 1 1].
Definition ex_frame : frame :=
  match d_initial_setup (mkSof 32 16 8 false ex_samps) with Ret f => f | _ => mkFrame 0 0 false 0 0 [] 0 end.
Definition ex_blk (k y x : Z) : blk64 := map (fun n => (k + 13 * y + 7 * x + Z.of_nat n) mod 200 - 100) (seq 0 64).
Definition ex_arr (c : comp) (k : Z) : barray :=
  mkBA (jround_up (c_height_in_blocks c) (c_v c)) (jround_up (c_width_in_blocks c) (c_h c)) (c_v c) (fun y x => Some (ex_blk k y x)).
Definition ex_q : list Z := map (fun n => Z.of_nat n + 1) (seq 0 64).
Definition ex_src : source := mkSrc 32 16 ex_frame true false 8 [Some ex_q; None].
Definition ex_srcs : list barray := map (fun c => ex_arr c (c_index c * 31)) (f_comps ex_frame).

Example ex_source_ok : source_ok ex_src ex_samps ex_srcs /\ coefs_ok ex_srcs /\ quants_ok ex_src /\ whole ex_src false.
Proof.
  split.
  { split; [vm_compute; reflexivity|]. unfold ex_srcs, ex_src. cbn [s_frame]. induction (f_comps ex_frame) as [|c l IHl]; [constructor|].
    constructor; [|exact IHl]. cbn [ba_rows ba_cols ba_maxaccess ex_arr]. split; [reflexivity|]. split; [reflexivity|]. split; [lia|].
    intros y x _ _. eexists; split; [reflexivity|]. unfold ex_blk. now rewrite map_length, seq_length. }
  split.
  { unfold coefs_ok, ex_srcs. rewrite Forall_map. apply Forall_forall. intros c _ y x b E. cbn [ba_blk ex_arr] in E. injection E as <-.
    unfold ex_blk. rewrite Forall_map. apply Forall_forall. intros n _.
    pose proof (Z.mod_pos_bound (c_index c * 31 + 13 * y + 7 * x + Z.of_nat n) 200 ltac:(lia)). lia. }
  split; [repeat constructor|]. vm_compute. auto.
Qed.
(* a quarter turn, perfect: 16x32 with the vertical factors exchanged *)
Example ex_rot90 :
  match transcode ex_src (mkXI ROT_90 true false false None false) ex_srcs with
  | Ret (Some (df, q, outs)) => f_width df = 16 /\ f_height df = 32 /\ length outs = 3%nat
  | _ => False
  end.
Proof. vm_compute. auto. Qed.
(* crop 10x8+20+3: starts in iMCU column 1, and is 14x11 *)
Example ex_crop : 
  match transcode ex_src (mkXI NONE false false false (Some (mkCrop 10 POS 8 POS 20 POS 3 POS)) false) ex_srcs with
  | Ret (Some (df, q, outs)) => f_width df = 14 /\ f_height df = 11 /\
     map (fun a => ba_blk a 0 0) outs = [Some (ex_blk 0 0 2); Some (ex_blk 31 0 1); Some (ex_blk 62 0 1)]
  | _ => False
  end.
Proof. vm_compute. auto. Qed.
Example ex_bad : transcode ex_src (mkXI NONE false false false (Some (mkCrop 10 POS 8 POS 23 POS 3 POS)) false) ex_srcs = Error JERR_BAD_CROP_SPEC.
Proof. vm_compute. reflexivity. Qed.
