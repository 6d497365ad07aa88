(* T_Sample.v -- C46: up- and downsampling *)
From Verif Require Import Base M_Sample S_Sample P_Sample P_SampleD.

(* ------------------------------------------------------------------ *)
(* what the callers guarantee *)

(* decompressor: precision; 16-bit data is lossless, where no scaling exists; sampling factors 1..4; the component
   has u_dw = ceil(output_width / H) columns, H and V being the ratios of the output to the component resolution *)
Definition h_group (c : ucfg) := (u_h c * u_dct c) / u_min_dct c.
Definition v_group (c : ucfg) := (u_v c * u_dct c) / u_min_dct c.

Definition up_ok (c : ucfg) (H V : Z) : Prop :=
  prec (u_prec c) /\ (u_prec c = 16 -> u_min_dct c = 1) /\ 1 <= u_min_dct c /\
  1 <= u_max_h c <= 4 /\ 1 <= u_max_v c <= 4 /\ 1 <= h_group c /\ 1 <= v_group c /\
  h_group c * H = u_max_h c /\ v_group c * V = u_max_v c /\
  1 <= u_ow c < 2 ^ 30 /\ H * (u_dw c - 1) < u_ow c <= H * u_dw c /\ u_needed c = true.

(* the main controller supplies the rows of the group, and one row above and below if the method asks for context *)
Definition supplied (c : ucfg) (m : umethod) (inp : rows) : Prop :=
  if u_context m then have (u_prec c) (-1) (v_group c + 1) (u_dw c) inp
  else have (u_prec c) 0 (v_group c) (u_dw c) inp.

Lemma shows_px m ow outs Q y x : shows m ow outs Q -> 0 <= y < m -> 0 <= x < ow ->
  px (fun i => if i <? 0 then None else nth_error outs (Z.to_nat i)) y x = Q y x.
Proof. intros (_ & H) Hy Hx. destruct (H y Hy) as (r & E & _ & V). unfold px.
  rewrite (proj2 (Z.ltb_ge y 0)) by lia. rewrite E. auto. Qed.

Lemma ceil_unique a b q : 0 < b -> b * (q - 1) < a <= b * q -> ceil_div a b = q.
Proof. intros Hb H. pose proof (ceil_div_spec a b Hb). nia. Qed.

Lemma grp g H m : 1 <= g -> 1 <= m <= 4 -> g * H = m -> 1 <= H <= 4.
Proof. intros. assert (1 <= H) by nia. assert (H <= 4) by nia. lia. Qed.

Lemma dwpos H ow w : 1 <= H -> 1 <= ow <= H * w -> 1 <= w.
Proof. intros. nia. Qed.

Ltac eqbs := repeat match goal with
  | |- context [?a =? ?b] => destruct (Z.eqb_spec a b); try lia
  end; cbn [andb orb negb].

(* Every component the decompressor accepts is upsampled without touching memory outside the rows supplied and the
   output buffer, and each output sample is the one the specification names. *)
Theorem C46_upsample_exact : forall c H V, up_ok c H V ->
  exists m, u_select c = Ret m /\
    forall inp, supplied c m inp ->
      exists outs, u_run c m inp = Ret outs /\
        forall y x, 0 <= y < u_max_v c -> 0 <= x < u_ow c ->
          px outs y x = up_spec (u_fancy c && (1 <? u_min_dct c)) H V (u_dw c) (px inp) y x.
Proof.
  intros c H V (Hp & H16 & Hmd & Hmh & Hmv & Hgh & Hgv & EH & EV & How & Hdw & Hn).
  assert (HH : 1 <= H <= 4) by (apply (grp _ _ _ Hgh Hmh EH)). assert (HV : 1 <= V <= 4) by (apply (grp _ _ _ Hgv Hmv EV)).
  assert (Hdw1 : 1 <= u_dw c) by (apply (dwpos H (u_ow c)); lia).
  assert (Dh : u_max_h c mod H = 0) by (rewrite <- EH; apply Z_mod_mult).
  assert (Dv : u_max_v c mod V = 0) by (rewrite <- EV; apply Z_mod_mult).
  assert (QV : u_max_v c / V = v_group c) by (rewrite <- EV; apply Z.div_mul; lia).
  pose proof (ceil_unique (u_ow c) H (u_dw c) ltac:(lia) Hdw) as CE.
  pose proof (cap_mult c H (u_dw c) ltac:(lia) ltac:(lia) Dh ltac:(lia)) as CAP.
  unfold u_select. rewrite Hn. cbn [negb]. destruct (Z.eqb_spec (u_min_dct c) 0); [lia|].
  fold (h_group c) (v_group c). set (fancy := u_fancy c && (1 <? u_min_dct c)).
  assert (F12 : fancy = true -> u_prec c = 8 \/ u_prec c = 12).
  { intros F. apply andb_prop in F. destruct F as (_ & F). apply Z.ltb_lt in F. destruct Hp as [? | [? | Q]]; auto. specialize (H16 Q). lia. }
  assert (BOX : forall outs inp, shows (u_max_v c) (u_ow c) outs (box_up H V (px inp)) ->
    forall y x, 0 <= y < u_max_v c -> 0 <= x < u_ow c ->
      px (fun i => if i <? 0 then None else nth_error outs (Z.to_nat i)) y x = box_up H V (px inp) y x).
  { intros outs inp S y x Hy Hx. apply (shows_px _ _ _ _ _ _ S); auto. }
  assert (E1 : (h_group c =? u_max_h c) = (H =? 1)) by (destruct (Z.eqb_spec (h_group c) (u_max_h c)), (Z.eqb_spec H 1); auto; nia).
  assert (E2 : (v_group c =? u_max_v c) = (V =? 1)) by (destruct (Z.eqb_spec (v_group c) (u_max_v c)), (Z.eqb_spec V 1); auto; nia).
  assert (E3 : (h_group c * 2 =? u_max_h c) = (H =? 2)) by (destruct (Z.eqb_spec (h_group c * 2) (u_max_h c)), (Z.eqb_spec H 2); auto; nia).
  assert (E4 : (v_group c * 2 =? u_max_v c) = (V =? 2)) by (destruct (Z.eqb_spec (v_group c * 2) (u_max_v c)), (Z.eqb_spec V 2); auto; nia).
  rewrite E1, E2, E3, E4. clear E1 E2 E3 E4. unfold up_spec.
  destruct (Z.eqb_spec H 1) as [-> |N1]; [destruct (Z.eqb_spec V 1) as [-> |M1]|]; cbn [andb].
  - (* full size *)
    eexists. split; [reflexivity|]. intros inp HS. cbn [u_run]. exists inp. split; [reflexivity|]. intros y x Hy Hx.
    change (1 =? 2) with false. rewrite !andb_false_r. cbn [andb]. unfold box_up. rewrite !Z.div_1_r. reflexivity.
  - (* 1 x V *)
    change (1 =? 2) with false. change (1 =? 1) with true. rewrite !andb_false_r, ?andb_true_r. cbn [andb].
    destruct (Z.eqb_spec V 2) as [-> |M2]; cbn [andb].
    + destruct fancy eqn:F.
      * eexists. split; [reflexivity|]. unfold supplied. cbn [u_context u_run]. intros inp HS.
        rewrite Z.mul_1_l in *.
        destruct (h1v2_fancy_ok c inp (F12 eq_refl) ltac:(lia) ltac:(lia) ltac:(lia) ltac:(lia) ltac:(lia)) as (outs & -> & S).
        { rewrite QV. exact HS. }
        cbn [bind]. eexists. split; [reflexivity|]. intros y x Hy Hx. apply (shows_px _ _ _ _ _ _ S); auto.
      * destruct (Z.eqb_spec (h_group c) 0), (Z.eqb_spec (v_group c) 0); try lia. cbn [orb].
        rewrite (proj2 (Z.eqb_eq (u_max_h c mod h_group c) 0)) by (rewrite <- EH, Z.mul_comm; apply Z_mod_mult).
        rewrite (proj2 (Z.eqb_eq (u_max_v c mod v_group c) 0)) by (rewrite <- EV, Z.mul_comm; apply Z_mod_mult). cbn [andb].
        replace (u_max_h c / h_group c) with 1 by (rewrite <- EH, Z.mul_comm, Z.div_mul; lia).
        replace (u_max_v c / v_group c) with 2 by (rewrite <- EV, Z.mul_comm, Z.div_mul; lia).
        eexists. split; [reflexivity|]. unfold supplied. cbn [u_context u_run]. intros inp HS. change (u8 1) with 1. change (u8 2) with 2.
        destruct (int_upsample_ok c 1 2 inp (u_prec c) (u_dw c)) as (outs & -> & S); try lia. { rewrite QV. exact HS. }
        cbn [bind]. eexists. split; [reflexivity|]. apply BOX; auto.
    + rewrite ?andb_false_r. cbn [andb].
      destruct (Z.eqb_spec (h_group c) 0), (Z.eqb_spec (v_group c) 0); try lia. cbn [orb].
      rewrite (proj2 (Z.eqb_eq (u_max_h c mod h_group c) 0)) by (rewrite <- EH, Z.mul_comm; apply Z_mod_mult).
      rewrite (proj2 (Z.eqb_eq (u_max_v c mod v_group c) 0)) by (rewrite <- EV, Z.mul_comm; apply Z_mod_mult). cbn [andb].
      replace (u_max_h c / h_group c) with 1 by (rewrite <- EH, Z.mul_comm, Z.div_mul; lia).
      replace (u_max_v c / v_group c) with V by (rewrite <- EV, Z.mul_comm, Z.div_mul; lia).
      eexists. split; [reflexivity|]. unfold supplied. cbn [u_context u_run]. intros inp HS.
      replace (u8 1) with 1 by reflexivity. replace (u8 V) with V by (symmetry; apply Z.mod_small; lia).
      destruct (int_upsample_ok c 1 V inp (u_prec c) (u_dw c)) as (outs & -> & S); try lia. { rewrite QV. exact HS. }
      cbn [bind]. eexists. split; [reflexivity|]. apply BOX; auto.
  - destruct (Z.eqb_spec H 2) as [-> |N2]; cbn [andb].
    + (* 2 x V *)
      rewrite ?andb_true_r, ?andb_false_r. cbn [andb].
      destruct (Z.eqb_spec V 1) as [-> |M1]; [|destruct (Z.eqb_spec V 2) as [-> |M2]]; cbn [andb]; rewrite ?andb_true_r, ?andb_false_r; cbn [andb].
      * change (1 =? 2) with false. rewrite ?andb_false_r. cbn [andb].
        destruct (fancy && (2 <? u_dw c)) eqn:F.
        -- apply andb_prop in F. destruct F as (F & W2). apply Z.ltb_lt in W2. rewrite F in *.
           eexists. split; [reflexivity|]. unfold supplied. cbn [u_context u_run]. intros inp HS.
           destruct (h2v1_fancy_ok c inp (F12 eq_refl) ltac:(lia) ltac:(lia) ltac:(lia) ltac:(lia)) as (outs & -> & S).
           { rewrite <- EV, Z.mul_1_r. exact HS. }
           cbn [bind]. eexists. split; [reflexivity|]. intros y x Hy Hx. apply (shows_px _ _ _ _ _ _ S); auto.
        -- eexists. split; [reflexivity|]. unfold supplied. cbn [u_context u_run]. intros inp HS.
           destruct (h2v1_upsample_ok c inp (u_prec c) (u_dw c)) as (outs & -> & S); try lia. { rewrite <- EV, Z.mul_1_r. exact HS. }
           cbn [bind]. eexists. split; [reflexivity|]. apply BOX; auto.
      * change (2 =? 1) with false. rewrite ?andb_false_r. cbn [andb]. destruct (fancy && (2 <? u_dw c)) eqn:F.
        -- apply andb_prop in F. destruct F as (F & W2). apply Z.ltb_lt in W2. rewrite F in *.
           eexists. split; [reflexivity|]. unfold supplied. cbn [u_context u_run]. intros inp HS.
           destruct (h2v2_fancy_ok c inp (F12 eq_refl) ltac:(lia) ltac:(lia) ltac:(lia) ltac:(lia) ltac:(lia)) as (outs & -> & S).
           { rewrite QV. exact HS. }
           cbn [bind]. eexists. split; [reflexivity|]. intros y x Hy Hx. apply (shows_px _ _ _ _ _ _ S); auto.
        -- eexists. split; [reflexivity|]. unfold supplied. cbn [u_context u_run]. intros inp HS. rewrite h2v2_upsample_eq.
           destruct (int_upsample_ok c 2 2 inp (u_prec c) (u_dw c)) as (outs & -> & S); try lia. { rewrite QV. exact HS. }
           cbn [bind]. eexists. split; [reflexivity|]. apply BOX; auto.
      * destruct (Z.eqb_spec (h_group c) 0), (Z.eqb_spec (v_group c) 0); try lia. cbn [orb].
        rewrite (proj2 (Z.eqb_eq (u_max_h c mod h_group c) 0)) by (rewrite <- EH, Z.mul_comm; apply Z_mod_mult).
        rewrite (proj2 (Z.eqb_eq (u_max_v c mod v_group c) 0)) by (rewrite <- EV, Z.mul_comm; apply Z_mod_mult). cbn [andb].
        replace (u_max_h c / h_group c) with 2 by (rewrite <- EH, Z.mul_comm, Z.div_mul; lia).
        replace (u_max_v c / v_group c) with V by (rewrite <- EV, Z.mul_comm, Z.div_mul; lia).
        eexists. split; [reflexivity|]. unfold supplied. cbn [u_context u_run]. intros inp HS.
        replace (u8 2) with 2 by reflexivity. replace (u8 V) with V by (symmetry; apply Z.mod_small; lia).
        destruct (int_upsample_ok c 2 V inp (u_prec c) (u_dw c)) as (outs & -> & S); try lia. { rewrite QV. exact HS. }
        cbn [bind]. eexists. split; [reflexivity|]. apply BOX; auto.
    + rewrite ?andb_false_r. cbn [andb].
      destruct (Z.eqb_spec (h_group c) 0), (Z.eqb_spec (v_group c) 0); try lia. cbn [orb].
      rewrite (proj2 (Z.eqb_eq (u_max_h c mod h_group c) 0)) by (rewrite <- EH, Z.mul_comm; apply Z_mod_mult).
      rewrite (proj2 (Z.eqb_eq (u_max_v c mod v_group c) 0)) by (rewrite <- EV, Z.mul_comm; apply Z_mod_mult). cbn [andb].
      replace (u_max_h c / h_group c) with H by (rewrite <- EH, Z.mul_comm, Z.div_mul; lia).
      replace (u_max_v c / v_group c) with V by (rewrite <- EV, Z.mul_comm, Z.div_mul; lia).
      eexists. split; [reflexivity|]. unfold supplied. cbn [u_context u_run]. intros inp HS.
      replace (u8 H) with H by (symmetry; apply Z.mod_small; lia). replace (u8 V) with V by (symmetry; apply Z.mod_small; lia).
      destruct (int_upsample_ok c H V inp (u_prec c) (u_dw c)) as (outs & -> & S); try lia. { rewrite QV. exact HS. }
      cbn [bind]. eexists. split; [reflexivity|]. apply BOX; auto.
Qed.

(* Replication (no fancy upsampling): each output sample is exactly the input sample it lies in. *)
Theorem C46_replicate : forall c H V, up_ok c H V -> u_fancy c = false \/ u_min_dct c = 1 ->
  exists m, u_select c = Ret m /\
    forall inp, supplied c m inp ->
      exists outs, u_run c m inp = Ret outs /\
        forall y x, 0 <= y < u_max_v c -> 0 <= x < u_ow c -> px outs y x = px inp (y / V) (x / H).
Proof.
  intros c H V OK NF. destruct (C46_upsample_exact c H V OK) as (m & E & K). exists m. split; [exact E|].
  intros inp S. destruct (K inp S) as (outs & R & Q). exists outs. split; [exact R|]. intros y x Hy Hx. rewrite Q by auto.
  replace (u_fancy c && (1 <? u_min_dct c)) with false; [reflexivity|].
  destruct NF as [-> | ->]; [reflexivity|]. rewrite andb_false_r. reflexivity. Qed.

(* Any upsampling: the output sample lies within the bounds of the (at most four) samples it is made of: the one it
   lies in and its neighbours on the side of the output sample along the doubled axes. *)
Theorem C46_upsample_range : forall c H V, up_ok c H V ->
  exists m, u_select c = Ret m /\
    forall inp, supplied c m inp ->
      exists outs, u_run c m inp = Ret outs /\
        forall y x lo hi, 0 <= y < u_max_v c -> 0 <= x < u_ow c ->
          (forall dy dx, dy = 0 \/ V = 2 /\ dy = side y -> dx = 0 \/ H = 2 /\ dx = side x ->
             lo <= edge (u_dw c) (px inp) (y / V + dy) (x / H + dx) <= hi) ->
          lo <= px outs y x <= hi.
Proof.
  intros c H V OK. destruct (C46_upsample_exact c H V OK) as (m & E & K). exists m. split; [exact E|].
  intros inp S. destruct (K inp S) as (outs & R & Q). exists outs. split; [exact R|]. intros y x lo hi Hy Hx B. rewrite Q by auto. clear Q.
  destruct OK as (Hp & H16 & Hmd & Hmh & Hmv & Hgh & Hgv & EH & EV & How & Hdw & Hn).
  assert (HH : 1 <= H <= 4) by (apply (grp _ _ _ Hgh Hmh EH)). assert (HV : 1 <= V <= 4) by (apply (grp _ _ _ Hgv Hmv EV)).
  assert (XB : 0 <= x / H < u_dw c). { split; [apply Z.div_pos; lia|]. apply Z.div_lt_upper_bound; lia. }
  set (P := px inp) in *. set (w := u_dw c) in *. unfold up_spec.
  pose proof (B 0 0 (or_introl eq_refl) (or_introl eq_refl)) as B00. rewrite !Z.add_0_r in B00.
  destruct (_ && (1 <? u_min_dct c)); cbn [andb].
  2:{ unfold box_up. rewrite <- (edge_in w P (y / V) (x / H)) by lia. exact B00. }
  destruct (Z.eqb_spec H 2) as [-> |]; cbn [andb].
  - pose proof (B 0 (side x) (or_introl eq_refl) (or_intror (conj eq_refl eq_refl))) as B01. rewrite Z.add_0_r in B01.
    change (2 =? 1) with false. cbn [andb].
    destruct (Z.eqb_spec V 1) as [-> |]; [|destruct (Z.eqb_spec V 2) as [-> |]]; cbn [andb].
    + change (1 =? 2) with false. cbn [andb]. rewrite Z.div_1_r in *. destruct (2 <? w); cbn [andb].
      * unfold tri_h. destruct (Z.even x); dodiv.
      * unfold box_up. rewrite <- (edge_in w P (y / 1) (x / 2)), Z.div_1_r by lia. exact B00.
    + pose proof (B (side y) 0 (or_intror (conj eq_refl eq_refl)) (or_introl eq_refl)) as B10. rewrite Z.add_0_r in B10.
      pose proof (B (side y) (side x) (or_intror (conj eq_refl eq_refl)) (or_intror (conj eq_refl eq_refl))) as B11.
      destruct (2 <? w); cbn [andb].
      * unfold tri_h, tri_v. destruct (Z.even x); dodiv.
      * unfold box_up. rewrite <- (edge_in w P (y / 2) (x / 2)) by lia. exact B00.
    + unfold box_up. rewrite <- (edge_in w P (y / V) (x / 2)) by lia. exact B00.
  - destruct (Z.eqb_spec H 1) as [-> |]; cbn [andb].
    + destruct (Z.eqb_spec V 2) as [-> |].
      * pose proof (B (side y) 0 (or_intror (conj eq_refl eq_refl)) (or_introl eq_refl)) as B10. rewrite Z.add_0_r in B10.
        rewrite Z.div_1_r in *. rewrite edge_in in B00, B10 by lia. unfold tri_v. destruct (Z.even y); dodiv.
      * unfold box_up. rewrite <- (edge_in w P (y / V) (x / 1)) by lia. exact B00.
    + unfold box_up. rewrite <- (edge_in w P (y / V) (x / H)) by lia. exact B00.
Qed.

(* A component whose resolution does not divide the output resolution is refused, never upsampled wrongly. *)
Theorem C46_upsample_fractional : forall c, 1 <= u_min_dct c -> 1 <= h_group c -> 1 <= v_group c -> u_needed c = true ->
  ~ ((h_group c | u_max_h c) /\ (v_group c | u_max_v c)) -> u_select c = Error JERR_OTHER.
Proof.
  intros c Hmd Hh Hv Hn ND. unfold u_select. rewrite Hn. destruct (Z.eqb_spec (u_min_dct c) 0); [lia|]. cbn [negb].
  fold (h_group c) (v_group c).
  assert (D : forall a b k, b = a * k -> (a | b)) by (intros a b k ->; exists k; lia).
  assert (EH : (h_group c | u_max_h c) -> (v_group c | u_max_v c) -> False) by tauto.
  destruct (Z.eqb_spec (h_group c) (u_max_h c)), (Z.eqb_spec (v_group c) (u_max_v c)),
    (Z.eqb_spec (h_group c * 2) (u_max_h c)), (Z.eqb_spec (v_group c * 2) (u_max_v c)); cbn [andb];
    try (exfalso; apply EH; (apply D with (k := 1); lia) || (apply D with (k := 2); lia)); try (exfalso; lia).
  all: destruct (Z.eqb_spec (h_group c) 0), (Z.eqb_spec (v_group c) 0); try lia; cbn [orb].
  all: destruct (Z.eqb_spec (u_max_h c mod h_group c) 0), (Z.eqb_spec (u_max_v c mod v_group c) 0); cbn [andb]; auto.
  all: exfalso; apply EH; apply Z.mod_divide; lia.
Qed.

(* ------------------------------------------------------------------ *)
(* downsampling *)

(* compressor: the component has 1/H x 1/V of the input resolution; its padded width times H covers the image;
   smoothing is off for 16-bit (lossless) data, and with smoothing (lossy only) there are at least 8 columns *)
Definition down_ok (c : dcfg) (H V : Z) : Prop :=
  prec (d_prec c) /\ (d_prec c = 16 -> d_sf c = 0) /\ 0 <= d_sf c <= 100 /\
  1 <= d_h c /\ 1 <= d_v c /\ 1 <= H /\ 1 <= V /\ d_h c * H = d_max_h c /\ d_v c * V = d_max_v c /\
  1 <= d_iw c <= d_ocols c * H /\ d_ocols c < 2 ^ 30 /\ (d_sf c <> 0 -> 8 <= d_ocols c).

(* rows of the group (with context rows if asked for), in buffers as wide as the padded component needs *)
Definition d_supplied (c : dcfg) (H : Z) (m : dmethod) (inp : rows) : Prop :=
  if d_context m then dhave (d_prec c) (-1) (d_max_v c + 1) (d_iw c) (d_ocols c * H) inp
  else dhave (d_prec c) 0 (d_max_v c) (d_iw c) (d_ocols c * H) inp.

(* smoothing is applied to full-size and to exactly halved components only *)
Definition smoothed (c : dcfg) (H V : Z) : bool :=
  negb (d_sf c =? 0) && ((H =? 1) && (V =? 1) || (H =? 2) && (V =? 2)).

Lemma nearest_div d n b : 0 < d -> 0 <= b -> d - 2 <= 2 * b <= d -> nearest d n ((n + b) / d).
Proof. intros Hd Hb H. unfold nearest. pose proof (Z.div_mod (n + b) d ltac:(lia)). pose proof (Z.mod_pos_bound (n + b) d Hd).
  set (q := (n + b) / d) in *. set (r := (n + b) mod d) in *. clearbody q r. lia. Qed.

Lemma box_11 P y x : box_sum 1 1 P y x = P y x.
Proof. unfold box_sum. change (Z.to_nat 1) with 1%nat. cbn [sumz]. change (Z.of_nat 0) with 0. rewrite !Z.mul_1_l, !Z.add_0_r, Z.add_0_l. reflexivity. Qed.
Lemma box_22 P y x : box_sum 2 2 P y x = P (2 * y) (2 * x) + P (2 * y) (2 * x + 1) + P (2 * y + 1) (2 * x) + P (2 * y + 1) (2 * x + 1).
Proof. unfold box_sum. change (Z.to_nat 2) with 2%nat. cbn [sumz]. change (Z.of_nat 0) with 0. change (Z.of_nat 1) with 1.
  rewrite !Z.add_0_r, !Z.add_0_l. lia. Qed.

(* Every component the compressor accepts is downsampled in bounds, and each of its samples -- including the padding
   to whole blocks -- is the mean, rounded to a nearest integer, of the (smoothed) image samples it covers, the image
   being continued to the right by its last column. *)
Theorem C46_downsample_exact : forall c H V, down_ok c H V ->
  exists m, d_select c = Ret m /\
    forall inp, d_supplied c H m inp ->
      exists outs, d_run c m inp = Ret outs /\ Z.of_nat (length outs) = d_v c /\
        forall y, 0 <= y < d_v c -> exists r, nth_error outs (Z.to_nat y) = Some r /\
          forall x, 0 <= x < d_ocols c ->
            let P := edge (d_iw c) (px inp) in
            if smoothed c H V then nearest (1024 * (H * V)) (box_sum H V (smooth (d_sf c) P) y x) (nth (Z.to_nat x) r 0)
            else nearest (H * V) (box_sum H V P y x) (nth (Z.to_nat x) r 0).
Proof.
  intros c H V (Hp & H16 & Hs & Hdh & Hdv & HH & HV & EH & EV & Hi & Hoc & H8).
  assert (FIN : forall outs Q (P : pic) b, shows (d_v c) (d_ocols c) outs Q ->
    (forall y x, (if b : bool then nearest (1024 * (H * V)) (box_sum H V (smooth (d_sf c) P) y x) (Q y x) else nearest (H * V) (box_sum H V P y x) (Q y x))) ->
    Z.of_nat (length outs) = d_v c /\
        forall y, 0 <= y < d_v c -> exists r, nth_error outs (Z.to_nat y) = Some r /\
          forall x, 0 <= x < d_ocols c -> if b then nearest (1024 * (H * V)) (box_sum H V (smooth (d_sf c) P) y x) (nth (Z.to_nat x) r 0)
            else nearest (H * V) (box_sum H V P y x) (nth (Z.to_nat x) r 0)).
  { intros outs Q P b (L & S) N. split; [exact L|]. intros y Hy. destruct (S y Hy) as (r & E & _ & W). exists r. split; [exact E|].
    intros x Hx. rewrite (W x Hx). apply N. }
  assert (E1 : (d_h c =? d_max_h c) = (H =? 1)) by (destruct (Z.eqb_spec (d_h c) (d_max_h c)), (Z.eqb_spec H 1); auto; nia).
  assert (E2 : (d_v c =? d_max_v c) = (V =? 1)) by (destruct (Z.eqb_spec (d_v c) (d_max_v c)), (Z.eqb_spec V 1); auto; nia).
  assert (E3 : (d_h c * 2 =? d_max_h c) = (H =? 2)) by (destruct (Z.eqb_spec (d_h c * 2) (d_max_h c)), (Z.eqb_spec H 2); auto; nia).
  assert (E4 : (d_v c * 2 =? d_max_v c) = (V =? 2)) by (destruct (Z.eqb_spec (d_v c * 2) (d_max_v c)), (Z.eqb_spec V 2); auto; nia).
  unfold d_select. rewrite E1, E2, E3, E4. clear E1 E2 E3 E4. unfold smoothed.
  assert (P12 : d_sf c <> 0 -> d_prec c = 8 \/ d_prec c = 12).
  { intros F. destruct Hp as [? | [? | Q]]; auto. specialize (H16 Q). lia. }
  destruct ((H =? 1) && (V =? 1)) eqn:C1.
  { apply andb_prop in C1. destruct C1 as (C1 & C2). apply Z.eqb_eq in C1, C2. subst H V. cbn [orb]. rewrite Z.mul_1_r in *.
    destruct (Z.eqb_spec (d_sf c) 0) as [S0 |S0]; cbn [negb andb]; eexists; (split; [reflexivity|]); unfold d_supplied; cbn [d_context d_run]; intros inp HA.
    - rewrite Z.mul_1_r in HA. destruct (fullsize_ok c inp (d_prec c) Hp ltac:(lia) ltac:(lia) ltac:(lia)) as (outs & -> & S).
      { intros y Hy. destruct (HA y Hy) as (r & ? & ? & ? & ?). exists r. auto. }
      eexists. split; [reflexivity|]. apply (FIN _ _ _ false S). intros y x. rewrite box_11. unfold nearest.
      set (a := edge _ _ _ _). clearbody a. lia.
    - rewrite Z.mul_1_r in HA. destruct (full_smooth_ok c inp (P12 S0) Hs ltac:(lia) ltac:(lia) ltac:(lia) ltac:(lia) HA) as (outs & -> & S).
      eexists. split; [reflexivity|]. apply (FIN _ _ _ true S). intros y x. rewrite box_11. apply nearest_div; lia. }
  destruct ((H =? 2) && (V =? 1)) eqn:C2.
  { apply andb_prop in C2. destruct C2 as (C2 & C3). apply Z.eqb_eq in C2, C3. subst H V. cbn [andb orb]. rewrite andb_false_r.
    eexists. split; [reflexivity|]. unfold d_supplied; cbn [d_context d_run]; intros inp HA.
    destruct (h2v1_down_ok c inp Hp ltac:(lia) ltac:(lia) ltac:(lia) HA) as (outs & -> & S).
    eexists. split; [reflexivity|]. apply (FIN _ _ _ false S). intros y x. pose proof (Z.mod_pos_bound x 2 ltac:(lia)). apply nearest_div; lia. }
  destruct ((H =? 2) && (V =? 2)) eqn:C4.
  { apply andb_prop in C4. destruct C4 as (C4 & C5). apply Z.eqb_eq in C4, C5. subst H V. cbn [orb]. rewrite andb_true_r.
    destruct (Z.eqb_spec (d_sf c) 0) as [S0 |S0]; cbn [negb]; eexists; (split; [reflexivity|]); unfold d_supplied; cbn [d_context d_run]; intros inp HA.
    - destruct (h2v2_down_ok c inp Hp ltac:(lia) ltac:(lia) ltac:(lia) HA) as (outs & -> & S).
      eexists. split; [reflexivity|]. apply (FIN _ _ _ false S). intros y x. pose proof (Z.mod_pos_bound x 2 ltac:(lia)). apply nearest_div; lia.
    - destruct (h2v2_smooth_ok c inp (P12 S0) Hs ltac:(lia) ltac:(lia) ltac:(lia) ltac:(lia) HA) as (outs & -> & S).
      eexists. split; [reflexivity|]. apply (FIN _ _ _ true S). intros y x. rewrite box_22. apply nearest_div; lia. }
  cbn [orb]. rewrite andb_false_r.
  destruct (Z.eqb_spec (d_h c) 0), (Z.eqb_spec (d_v c) 0); try lia. cbn [orb].
  rewrite (proj2 (Z.eqb_eq (d_max_h c mod d_h c) 0)) by (rewrite <- EH, Z.mul_comm; apply Z_mod_mult).
  rewrite (proj2 (Z.eqb_eq (d_max_v c mod d_v c) 0)) by (rewrite <- EV, Z.mul_comm; apply Z_mod_mult). cbn [andb].
  eexists. split; [reflexivity|]. unfold d_supplied; cbn [d_context d_run]; intros inp HA.
  destruct (int_down_ok c inp H V Hp ltac:(lia) ltac:(lia) ltac:(lia) ltac:(lia) EH EV Hi HA) as (outs & -> & S).
  eexists. split; [reflexivity|]. apply (FIN _ _ _ false S). intros y x. assert (0 < H * V) by nia.
  set (N := H * V) in *. apply nearest_div; [lia|apply Z.div_pos; lia|]. dodiv.
Qed.

Lemma nearest_range d n o lo hi : 0 < d -> nearest d n o -> d * lo <= n <= d * hi -> lo <= o <= hi.
Proof. unfold nearest. intros Hd N B. split; nia. Qed.

(* ... and lies within the bounds of the image samples it is made of: those it covers and, with smoothing, their
   immediate neighbours. *)
Theorem C46_downsample_range : forall c H V, down_ok c H V ->
  exists m, d_select c = Ret m /\
    forall inp, d_supplied c H m inp ->
      exists outs, d_run c m inp = Ret outs /\
        forall y x lo hi, 0 <= y < d_v c -> 0 <= x < d_ocols c ->
          (forall y' x', V * y - Z.min 1 (d_sf c) <= y' < V * y + V + Z.min 1 (d_sf c) ->
                         H * x - Z.min 1 (d_sf c) <= x' < H * x + H + Z.min 1 (d_sf c) ->
             lo <= edge (d_iw c) (px inp) y' x' <= hi) ->
          exists r, nth_error outs (Z.to_nat y) = Some r /\ lo <= nth (Z.to_nat x) r 0 <= hi.
Proof.
  intros c H V OK. destruct (C46_downsample_exact c H V OK) as (m & E & K). exists m. split; [exact E|].
  intros inp S. destruct (K inp S) as (outs & R & _ & Q). exists outs. split; [exact R|]. intros y x lo hi Hy Hx B.
  destruct (Q y Hy) as (r & Er & W). exists r. split; [exact Er|]. specialize (W x Hx). cbn zeta in W.
  destruct OK as (Hp & H16 & Hs & Hdh & Hdv & HH & HV & EH & EV & Hi & Hoc & H8).
  set (P := edge (d_iw c) (px inp)) in *. set (o := nth (Z.to_nat x) r 0) in *. assert (0 < H * V) by nia.
  destruct (smoothed c H V) eqn:SM.
  - unfold smoothed in SM. apply andb_prop in SM. destruct SM as (SF & _). destruct (Z.eqb_spec (d_sf c) 0); [discriminate|].
    apply (nearest_range (1024 * (H * V)) _ o lo hi ltac:(lia) W).
    pose proof (box_sum_bound H V (smooth (d_sf c) P) y x (1024 * lo) (1024 * hi) ltac:(lia) ltac:(lia)) as BB.
    rewrite !Z.mul_assoc. rewrite !Z.mul_assoc in BB. enough (1024 * lo * H * V <= box_sum H V (smooth (d_sf c) P) y x <= 1024 * hi * H * V) by nia.
    apply BB. intros v h Hv Hh. apply smooth_bound; auto. intros dy dx Hdy Hdx. apply B; lia.
  - apply (nearest_range (H * V) _ o lo hi ltac:(lia) W). rewrite !(Z.mul_comm (H * V)).
    apply box_sum_bound; try lia. intros v h Hv Hh. apply B; lia.
Qed.

Theorem C46_downsample_fractional : forall c, 1 <= d_h c -> 1 <= d_v c ->
  ~ ((d_h c | d_max_h c) /\ (d_v c | d_max_v c)) -> d_select c = Error JERR_OTHER.
Proof.
  intros c Hh Hv ND. unfold d_select.
  assert (D : forall a b k, b = a * k -> (a | b)) by (intros a b k ->; exists k; lia).
  assert (EH : (d_h c | d_max_h c) -> (d_v c | d_max_v c) -> False) by tauto.
  destruct (Z.eqb_spec (d_h c) (d_max_h c)), (Z.eqb_spec (d_v c) (d_max_v c)),
    (Z.eqb_spec (d_h c * 2) (d_max_h c)), (Z.eqb_spec (d_v c * 2) (d_max_v c)); cbn [andb];
    try (exfalso; apply EH; (apply D with (k := 1); lia) || (apply D with (k := 2); lia)); try (exfalso; lia).
  all: destruct (Z.eqb_spec (d_h c) 0), (Z.eqb_spec (d_v c) 0); try lia; cbn [orb].
  all: destruct (Z.eqb_spec (d_max_h c mod d_h c) 0), (Z.eqb_spec (d_max_v c mod d_v c) 0); cbn [andb]; auto.
  all: exfalso; apply EH; apply Z.mod_divide; lia.
Qed.

(* A constant area is preserved exactly by down- followed by upsampling: special case lo = hi of the range theorems. *)
Corollary C46_constant : forall c H V v, up_ok c H V -> exists m, u_select c = Ret m /\
  forall inp, supplied c m inp -> (forall y x, -1 <= y <= v_group c -> 0 <= x < u_dw c -> px inp y x = v) ->
  exists outs, u_run c m inp = Ret outs /\ forall y x, 0 <= y < u_max_v c -> 0 <= x < u_ow c -> px outs y x = v.
Proof.
  intros c H V v OK. destruct (C46_upsample_range c H V OK) as (m & E & K). exists m. split; [exact E|].
  intros inp S C. destruct (K inp S) as (outs & R & Q). exists outs. split; [exact R|]. intros y x Hy Hx.
  destruct OK as (Hp & H16 & Hmd & Hmh & Hmv & Hgh & Hgv & EH & EV & How & Hdw & Hn).
  pose proof (grp _ _ _ Hgh Hmh EH). pose proof (grp _ _ _ Hgv Hmv EV). assert (1 <= u_dw c) by (apply (dwpos H (u_ow c)); lia).
  enough (v <= px outs y x <= v) by lia. apply Q; auto. intros dy dx Hdy _. unfold edge. rewrite C; [lia| |unfold clampz; lia].
  assert (0 <= y / V < v_group c). { split; [apply Z.div_pos; lia|]. apply Z.div_lt_upper_bound; lia. }
  unfold side in Hdy. destruct (Z.even y); lia.
Qed.

(* ------------------------------------------------------------------ *)
(* the hypotheses are met by real configurations *)

Definition ex_rows (l : list (list Z)) : rows := fun i => if i <? -1 then None else nth_error l (Z.to_nat (i + 1)).

(* 4:2:0 chroma, image 5 pixels wide, fancy upsampling *)
Definition ex_up := {| u_prec := 8; u_max_h := 2; u_max_v := 2; u_h := 1; u_v := 1; u_dct := 8; u_min_dct := 8;
  u_ow := 5; u_dw := 3; u_fancy := true; u_needed := true |}.
Example ex_up_ok : up_ok ex_up 2 2.
Proof. unfold up_ok, prec, h_group, v_group. cbn. repeat split; auto; try lia; discriminate. Qed.
Definition ex_in := ex_rows [[10; 20; 30]; [50; 60; 255]; [70; 0; 90]].
Example ex_up_supplied : supplied ex_up UH2V2F ex_in.
Proof. intros y Hy. change (v_group ex_up) with 1 in Hy. assert (y = -1 \/ y = 0 \/ y = 1) as [-> | [-> | ->]] by lia; cbn; eexists; (split; [reflexivity|]); (split; [cbn; lia|]);
  intros x Hx; assert (x = 0 \/ x = 1 \/ x = 2) as [-> | [-> | ->]] by lia; vm_compute; (split; [discriminate|reflexivity]). Qed.
Example ex_up_run : u_select ex_up = Ret UH2V2F /\ exists o, u_run ex_up UH2V2F ex_in = Ret o /\
  o 0 = Some [40; 42; 48; 87; 162; 199] /\ o 1 = Some [55; 52; 48; 87; 172; 214].
Proof. split; [reflexivity|]. eexists. split; [vm_compute; reflexivity|]. split; vm_compute; reflexivity. Qed.

(* 4:2:0 chroma with smoothing factor 50, image 3 pixels wide padded to 8 samples *)
Definition ex_dn := {| d_prec := 8; d_max_h := 2; d_max_v := 2; d_h := 1; d_v := 1; d_iw := 3; d_ocols := 8; d_sf := 50 |}.
Example ex_dn_ok : down_ok ex_dn 2 2.
Proof. unfold down_ok, prec. cbn. repeat split; auto; try lia; discriminate. Qed.
Definition ex_din := ex_rows (map (fun l => l ++ repeat 7 13) [[10; 20; 30]; [50; 60; 255]; [70; 0; 90]; [1; 2; 3]]).
Example ex_dn_run : d_select ex_dn = Ret DH2V2Smooth /\ d_run ex_dn DH2V2Smooth ex_din = Ret [[47; 143; 150; 150; 150; 150; 150; 150]].
Proof. split; [reflexivity|]. vm_compute. reflexivity. Qed.

Print Assumptions C46_upsample_exact.
Print Assumptions C46_downsample_exact.
Print Assumptions C46_upsample_range.
Print Assumptions C46_downsample_range.
