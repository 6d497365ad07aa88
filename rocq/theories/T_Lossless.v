(* T_Lossless.v -- C26: lossless prediction *)
From Verif Require Import Base M_Lossless S_Lossless.

Definition smp (v : Z) : Prop := 0 <= v < 65536.

Lemma land_mod x : Z.land x 65535 = x mod 65536.
Proof. change 65535 with (Z.ones 16). rewrite Z.land_ones by lia. reflexivity. Qed.

Lemma undiff_one d v p : cong16 d (v - p) -> smp v -> Z.land (d + p) 65535 = v.
Proof.
  intros H Hv. rewrite land_mod. unfold cong16 in H. rewrite <- Z.add_mod_idemp_l, H, Z.add_mod_idemp_l by lia.
  replace (v - p + p) with v by lia. apply Z.mod_small. exact Hv.
Qed.

Lemma undiff1d_loop_ok : forall row ra ds, Forall smp row -> Forall2 cong16 ds (diff1d_loop ra row) ->
  undiff1d_loop ra ds = row.
Proof.
  induction row as [|v row IH]; intros ra ds Hs H; cbn [diff1d_loop] in H; inversion H as [|d ? ds' ? H1 H2]; subst; cbn [undiff1d_loop]; auto.
  cbn zeta. rewrite (undiff_one d v ra H1 (Forall_inv Hs)). f_equal. apply IH; auto. exact (Forall_inv_tail Hs).
Qed.
Lemma undiff1d_ok init row ds : Forall smp row -> Forall2 cong16 ds (DIFFERENCE_1D init row) -> UNDIFFERENCE_1D init ds = row.
Proof.
  destruct row as [|v row]; cbn [DIFFERENCE_1D]; intros Hs H; inversion H as [|d ? ds' ? H1 H2]; subst; auto.
  cbn [UNDIFFERENCE_1D]. rewrite (undiff_one d v init H1 (Forall_inv Hs)). f_equal. apply undiff1d_loop_ok; auto. exact (Forall_inv_tail Hs).
Qed.
Lemma undiff2d_loop_ok psv : forall row prev ra rb ds, length prev = length row -> Forall smp row ->
  Forall2 cong16 ds (diff2d_loop psv ra rb row prev) -> undiff2d_loop psv ra rb ds prev = row.
Proof.
  induction row as [|v row IH]; intros [|b prev] ra rb ds L Hs H; try discriminate; cbn [diff2d_loop] in H;
    inversion H as [|d ? ds' ? H1 H2]; subst; cbn [undiff2d_loop]; auto.
  cbn zeta. rewrite (undiff_one d v _ H1 (Forall_inv Hs)). f_equal. apply IH; auto. exact (Forall_inv_tail Hs).
Qed.
Lemma undiff2d_ok psv row prev ds : length prev = length row -> Forall smp row ->
  Forall2 cong16 ds (DIFFERENCE_2D psv row prev) -> UNDIFFERENCE_2D psv ds prev = row.
Proof.
  destruct row as [|v row]; destruct prev as [|b prev]; try discriminate; cbn [DIFFERENCE_2D]; intros L Hs H; inversion H as [|d ? ds' ? H1 H2]; subst; auto.
  cbn [UNDIFFERENCE_2D]. cbn zeta. rewrite (undiff_one d v b H1 (Forall_inv Hs)). f_equal. apply undiff2d_loop_ok; auto. exact (Forall_inv_tail Hs).
Qed.

(* agreement of the two sides between rows *)
Definition agree (w : nat) (ri rr : Z) (e : lenc) (togo : Z) (d : ldec) : Prop :=
  (le_first e = false -> le_prev e = ld_prev d /\ length (le_prev e) = w /\ ld_first d = false /\ (ri <> 0 -> le_togo e = togo /\ 0 < togo)) /\
  (le_first e = true -> (ld_first d = true /\ (ri <> 0 -> le_togo e = togo)) \/ (ri <> 0 /\ togo = 0)) /\
  (ri <> 0 -> le_first e = true -> le_togo e = rr) /\ (0 <= le_togo e <= rr).

Lemma downscale_map al row : 0 <= al -> downscale al row = map (fun s => s / 2 ^ al) row.
Proof.
  intros H. unfold downscale. destruct (Z.eqb_spec al 0) as [->|E].
  - induction row; cbn; auto. rewrite Z.div_1_r. f_equal. exact IHrow.
  - apply map_ext. intros a. apply Z.shiftr_div_pow2. lia.
Qed.

Definition valid_image (P : Z) (w : nat) (rows : list (list Z)) : Prop :=
  Forall (fun r => length r = w /\ Forall (fun s => 0 <= s < 2 ^ P) r) rows.

Lemma upscale_ok P al row : 1 <= P <= 16 -> 0 <= al < P -> Forall (fun s => 0 <= s < 2 ^ P) row ->
  upscale P al (map (fun s => s / 2 ^ al) row) = map (fun s => s / 2 ^ al * 2 ^ al) row.
Proof.
  intros HP Ha H. unfold upscale. rewrite map_map. apply map_ext_in. intros s Hs. rewrite Forall_forall in H. specialize (H s Hs).
  assert (Hp : 0 < 2 ^ al) by (apply Z.pow_pos_nonneg; lia).
  assert (E : (if al =? 0 then s / 2 ^ al else Z.shiftl (s / 2 ^ al) al) = s / 2 ^ al * 2 ^ al).
  { destruct (Z.eqb_spec al 0) as [->|]; [rewrite Z.mul_1_r; reflexivity|]. apply Z.shiftl_mul_pow2. lia. }
  rewrite E. assert (Hb : 0 <= s / 2 ^ al * 2 ^ al < 2 ^ P).
  { pose proof (Z.mul_div_le s (2 ^ al) Hp). pose proof (Z.div_pos s (2 ^ al) ltac:(lia) Hp). nia. }
  unfold sample_cast, u8, s16, u16. set (v := s / 2 ^ al * 2 ^ al) in *.
  destruct (Z.leb_spec P 8).
  { apply Z.mod_small. assert (2 ^ P <= 2 ^ 8) by (apply Z.pow_le_mono_r; lia). lia. }
  destruct (Z.leb_spec P 12).
  { assert (2 ^ P <= 2 ^ 12) by (apply Z.pow_le_mono_r; lia). change (2 ^ 12) with 4096 in *. change (2 ^ 15) with 32768. change (2 ^ 16) with 65536.
    rewrite Z.mod_small by lia. lia. }
  apply Z.mod_small. assert (2 ^ P <= 2 ^ 16) by (apply Z.pow_le_mono_r; lia). lia.
Qed.

Lemma smp_down P al row : 1 <= P <= 16 -> 0 <= al < P -> Forall (fun s => 0 <= s < 2 ^ P) row ->
  Forall smp (map (fun s => s / 2 ^ al) row).
Proof.
  intros HP Ha H. apply Forall_map. eapply Forall_impl; [|exact H]. cbn beta. intros s Hs.
  assert (Hp : 0 < 2 ^ al) by (apply Z.pow_pos_nonneg; lia).
  assert (2 ^ P <= 2 ^ 16) by (apply Z.pow_le_mono_r; lia). change (2 ^ 16) with 65536 in *.
  unfold smp. split; [apply Z.div_pos; lia|]. apply Z.le_lt_trans with s; [|lia]. apply Z.div_le_upper_bound; auto. nia.
Qed.

Lemma u32_pred x : 0 < x < 2 ^ 32 -> u32 (x - 1) = x - 1.
Proof. intros H. unfold u32. apply Z.mod_small. lia. Qed.

Lemma rows_round P al psv ri rr w : 1 <= P <= 16 -> 0 <= al < P -> 0 <= rr < 2 ^ 32 -> (ri <> 0 -> 0 < rr) ->
  forall rows e togo d dss, valid_image P w rows -> agree w ri rr e togo d ->
  Forall2 (Forall2 cong16) dss (enc_rows P al psv ri rr e rows) ->
  dec_rows P al psv ri rr togo d dss = map (map (fun s => s / 2 ^ al * 2 ^ al)) rows.
Proof.
  intros HP Ha Hrr Hr. induction rows as [|row rows IH]; intros e togo d dss Hv Hag H; cbn [enc_rows] in H.
  - inversion H; subst. reflexivity.
  - destruct (Forall_inv Hv) as [Lr Vr]. pose proof (Forall_inv_tail Hv) as Hv'.
    destruct (enc_row P al psv ri rr e row) as [ds0 e'] eqn:E. inversion H as [|ds ? dss' ? H1 H2]; subst. clear H.
    cbn [dec_rows map]. unfold enc_row in E. rewrite downscale_map in E by lia.
    set (cur := map (fun s => s / 2 ^ al) row) in *.
    assert (Hs : Forall smp cur) by (apply (smp_down P); auto).
    assert (Lc : length cur = length row) by (unfold cur; apply map_length).
    destruct (predict_difference P al psv ri rr e cur) as [ds1 e1] eqn:E1. inversion E; subst ds1 e'. clear E.
    destruct Hag as (A1 & A2 & A3 & A4).
    set (restart := negb (ri =? 0) && (togo =? 0)) in *.
    (* the undifferencer restores the row *)
    assert (G : predict_undifference P al psv (if restart then mkLD true (ld_prev d) else d) ds = (cur, mkLD false cur)).
    { unfold predict_difference in E1. unfold predict_undifference. destruct (le_first e) eqn:Ef.
      - inversion E1; subst ds0 e1. specialize (A2 eq_refl).
        assert (Ef' : ld_first (if restart then mkLD true (ld_prev d) else d) = true).
        { destruct A2 as [[A _]|[B1 B2]]; [destruct restart; auto|]. subst togo. subst restart.
          destruct (Z.eqb_spec ri 0); [congruence|]. reflexivity. }
        rewrite Ef'. rewrite (undiff1d_ok _ cur ds Hs H1). reflexivity.
      - destruct (A1 eq_refl) as (B1 & B2 & B3 & B4).
        assert (Hre : restart = false).
        { subst restart. destruct (Z.eqb_spec ri 0); auto. destruct (B4 n) as [_ B5]. destruct (Z.eqb_spec togo 0); auto; lia. }
        rewrite Hre, B3, <- B1.
        destruct (psv =? 1); inversion E1; subst ds0 e1.
        + rewrite (undiff1d_ok _ cur ds Hs H1). reflexivity.
        + rewrite (undiff2d_ok psv cur _ ds) by (auto; congruence). reflexivity. }
    rewrite G. f_equal.
    + apply upscale_ok; auto.
    + eapply IH; eauto. clear IH G H2.
      assert (Ee : e1 = account ri rr e false).
      { unfold predict_difference in E1. destruct (le_first e); [|destruct (psv =? 1)]; inversion E1; reflexivity. }
      subst e1. unfold account. unfold agree. cbn [le_first le_togo le_prev ld_first ld_prev].
      destruct (Z.eqb_spec ri 0) as [Er|Er].
      * cbn [le_first le_togo le_prev]. repeat split; auto; intros; try congruence; try lia.
      * assert (Ht : 0 < le_togo e).
        { destruct (le_first e) eqn:Ef; [rewrite A3; auto|]. destruct (A1 eq_refl) as (_ & _ & _ & B4). destruct (B4 Er). lia. }
        assert (Htog : (if restart then rr else togo) = le_togo e).
        { subst restart. destruct (Z.eqb_spec ri 0); [congruence|]. destruct (le_first e) eqn:Ef.
          - destruct (A2 eq_refl) as [[B1 B2]|[B1 B2]].
            + rewrite (B2 Er) in *. destruct (Z.eqb_spec togo 0); cbn; lia.
            + subst togo. cbn. symmetry. apply A3; auto.
          - destruct (A1 eq_refl) as (_ & _ & _ & B4). destruct (B4 Er) as [B5 B6]. destruct (Z.eqb_spec togo 0); cbn; lia. }
        rewrite Htog, u32_pred by lia.
        destruct (Z.eqb_spec (le_togo e - 1) 0) as [Et|Et]; cbn [reset_predictor le_first le_togo le_prev].
        -- split; [discriminate|]. split; [intros _; right; auto|]. split; [auto|lia].
        -- split; [|split; [discriminate|split; [discriminate|lia]]].
           intros _. split; auto. split; [congruence|]. split; auto. intros _. split; [reflexivity|lia].
Qed.

(* ---- C26 ---- *)
(* Round trip: for every precision 2..16, point transform, predictor and restart interval, every
   image of any size, and whatever was in the row buffers before: if the decoder receives
   differences equal modulo 2^16 to those the encoder computed, it returns every sample with its
   Al low-order bits cleared. *)
Theorem C26_round_trip : forall P al psv ri mpr w rows junk junk' diffs recv,
  1 <= P <= 16 -> 0 <= al < P -> 1 <= psv <= 7 -> 1 <= mpr < 2 ^ 32 -> 0 <= ri < 2 ^ 32 ->
  valid_image P w rows ->
  enc_component P al psv ri mpr junk rows = Ret diffs ->
  Forall2 (Forall2 cong16) recv diffs ->
  dec_component P al psv ri mpr junk' recv = Ret (point_up al (point_down al rows)).
Proof.
  intros P al psv ri mpr w rows junk junk' diffs recv HP Ha Hpsv Hm Hri Hv He Hrecv.
  unfold enc_component, start_pass_lossless_c in He. unfold dec_component, lossless_params_ok.
  destruct (Z.ltb_spec psv 1); [lia|]. destruct (Z.ltb_spec 7 psv); [lia|]. destruct (Z.ltb_spec al 0); [lia|]. destruct (Z.leb_spec P al); [lia|].
  cbn [orb negb Z.eqb]. destruct (Z.eqb_spec (ri mod mpr) 0) as [E|E]; cbn [negb bind] in He |- *; [|discriminate].
  assert (Ed : enc_rows P al psv ri (ri / mpr) (reset_predictor (ri / mpr) junk) rows = diffs) by congruence. subst diffs. f_equal. unfold point_up, point_down. rewrite map_map.
  assert (Hq : 0 <= ri / mpr) by (apply Z.div_pos; lia).
  assert (Hq2 : ri / mpr <= ri) by (apply Z.div_le_upper_bound; [lia|nia]).
  rewrite (rows_round P al psv ri (ri / mpr) w) with (rows := rows) (e := reset_predictor (ri / mpr) junk); auto; try lia.
  - apply map_ext. intros r. rewrite map_map. reflexivity.
  - intros Hn. pose proof (Z.div_mod ri mpr ltac:(lia)). nia.
  - unfold agree, reset_predictor. cbn [le_first le_togo le_prev ld_first ld_prev].
    split; [discriminate|]. split; [intros _; left; auto|]. split; [auto|lia].
Qed.
Print Assumptions C26_round_trip.

(* with point transform 0 the image comes back unchanged *)
Corollary C26_exact : forall P psv ri mpr w rows junk junk' diffs recv,
  1 <= P <= 16 -> 1 <= psv <= 7 -> 1 <= mpr < 2 ^ 32 -> 0 <= ri < 2 ^ 32 ->
  valid_image P w rows -> enc_component P 0 psv ri mpr junk rows = Ret diffs ->
  Forall2 (Forall2 cong16) recv diffs ->
  dec_component P 0 psv ri mpr junk' recv = Ret rows.
Proof.
  intros P psv ri mpr w rows junk junk' diffs recv HP Hpsv Hm Hri Hv He Hr.
  rewrite (C26_round_trip P 0 psv ri mpr w rows junk junk' diffs recv) by (auto; lia). f_equal.
  unfold point_up, point_down. rewrite map_map. rewrite <- (map_id rows) at 2. apply map_ext. intros r. rewrite map_map.
  rewrite <- (map_id r) at 2. apply map_ext. intros s. rewrite Z.div_1_r. apply Z.mul_1_r.
Qed.
Print Assumptions C26_exact.

(* ---- the differences are those of T.81 ---- *)
Lemma PREDICTOR_H1 psv Ra Rb Rc : 1 <= psv <= 7 -> PREDICTOR psv Ra Rb Rc = table_H1 psv Ra Rb Rc.
Proof.
  intros H. unfold PREDICTOR. rewrite !Z.shiftr_div_pow2 by lia. change (2 ^ 1) with 2.
  assert (psv = 1 \/ psv = 2 \/ psv = 3 \/ psv = 4 \/ psv = 5 \/ psv = 6 \/ psv = 7) as C by lia.
  repeat (destruct C as [->|C]; [reflexivity|]). subst. reflexivity.
Qed.

Lemma diff1d_nth : forall row ra x, (x < length row)%nat ->
  nth x (diff1d_loop ra row) 0 = nth x row 0 - match x with O => ra | S x' => nth x' row 0 end.
Proof.
  induction row as [|v row IH]; intros ra x Hx; cbn [length] in Hx; [lia|]. destruct x as [|x]; cbn [diff1d_loop nth]; auto.
  rewrite IH by lia. destruct x; reflexivity.
Qed.
Lemma diff2d_nth psv : forall row prev ra rb x, length prev = length row -> (x < length row)%nat ->
  nth x (diff2d_loop psv ra rb row prev) 0 =
  nth x row 0 - PREDICTOR psv (match x with O => ra | S x' => nth x' row 0 end) (nth x prev 0)
                          (match x with O => rb | S x' => nth x' prev 0 end).
Proof.
  induction row as [|v row IH]; intros [|b prev] ra rb x L Hx; cbn [length] in *; try lia. destruct x as [|x]; cbn [diff2d_loop nth]; auto.
  rewrite IH by lia. destruct x; reflexivity.
Qed.
Lemma diff1d_len row ra : length (diff1d_loop ra row) = length row.
Proof. revert ra. induction row; intros; cbn; auto. Qed.
Lemma diff2d_len psv : forall row prev ra rb, length prev = length row -> length (diff2d_loop psv ra rb row prev) = length row.
Proof. induction row as [|v row IH]; intros [|b prev] ra rb L; cbn in *; try lia. rewrite IH; lia. Qed.


Lemma enc_rows_spec P al psv ri rr w img : 1 <= psv <= 7 -> 0 <= al < P -> 0 <= rr < 2 ^ 32 -> (ri <> 0 -> 0 < rr) -> (1 <= w)%nat ->
  forall rows y e,
  (forall i, (i < length rows)%nat -> nth (y + i) img [] = map (fun s => s / 2 ^ al) (nth i rows [])) ->
  Forall (fun r => length r = w) rows ->
  le_first e = interval_start (if ri =? 0 then 0 else Z.to_nat rr) y ->
  (ri <> 0 -> le_togo e = rr - Z.of_nat y mod rr) ->
  (le_first e = false -> (0 < y)%nat /\ le_prev e = nth (y - 1) img [] /\ length (le_prev e) = w) ->
  forall i x, (i < length rows)%nat -> (x < w)%nat ->
  length (enc_rows P al psv ri rr e rows) = length rows /\
  length (nth i (enc_rows P al psv ri rr e rows) []) = w /\
  nth x (nth i (enc_rows P al psv ri rr e rows) []) 0 =
    pixel img (y + i) x - prediction P al psv (if ri =? 0 then 0 else Z.to_nat rr) img (y + i) x.
Proof.
  intros Hpsv Ha Hrr Hr Hw. induction rows as [|row rows IH]; intros y e Himg Hlen Hf Ht Hp i x Hi Hx; cbn [length] in Hi; [lia|].
  cbn [enc_rows]. destruct (enc_row P al psv ri rr e row) as [ds e'] eqn:E.
  unfold enc_row in E. rewrite downscale_map in E by lia. set (cur := map (fun s => s / 2 ^ al) row) in *.
  assert (Ecur : nth y img [] = cur). { specialize (Himg 0%nat ltac:(cbn; lia)). rewrite Nat.add_0_r in Himg. exact Himg. }
  assert (Lc : length cur = w) by (unfold cur; rewrite map_length; exact (Forall_inv Hlen)).
  destruct (predict_difference P al psv ri rr e cur) as [ds1 e1] eqn:E1. inversion E; subst ds1 e'. clear E.
  assert (Ee : e1 = account ri rr e false).
  { unfold predict_difference in E1. destruct (le_first e); [|destruct (psv =? 1)]; inversion E1; reflexivity. }
  set (K := (if ri =? 0 then 0%nat else Z.to_nat rr)) in *.
  (* this row *)
  assert (Hrow : length ds = w /\ forall x, (x < w)%nat -> nth x ds 0 = pixel img y x - prediction P al psv K img y x).
  { unfold prediction. rewrite <- Hf. unfold predict_difference in E1. destruct (le_first e) eqn:Ef.
    - assert (Eds : ds = DIFFERENCE_1D (INITIAL_PREDICTORx P al) cur) by congruence. subst ds.
      destruct cur as [|c0 cur']; [cbn in Lc; lia|]. cbn [DIFFERENCE_1D length] in *. rewrite diff1d_len. split; [lia|].
      intros x0 Hx0. unfold pixel. rewrite Ecur. destruct x0 as [|x0]; cbn [nth].
      + unfold INITIAL_PREDICTORx. rewrite Z.shiftl_mul_pow2 by lia. lia.
      + rewrite diff1d_nth by lia. destruct x0; reflexivity.
    - destruct (Hp eq_refl) as (P0 & P1 & P2).
      assert (E2 : ds = if psv =? 1 then DIFFERENCE_1D (hd 0 (le_prev e)) cur else DIFFERENCE_2D psv cur (le_prev e)) by (destruct (psv =? 1); congruence).
      destruct cur as [|c0 cur'] eqn:Ec; [cbn in Lc; lia|]. destruct (le_prev e) as [|b0 prev'] eqn:Eb; [cbn in P2; lia|]. cbn [length] in *.
      destruct (Z.eqb_spec psv 1) as [->|Hn]; subst ds; cbn [DIFFERENCE_1D DIFFERENCE_2D hd length].
      + rewrite diff1d_len. split; [lia|]. intros x0 Hx0. unfold pixel. rewrite Ecur, <- P1. destruct x0 as [|x0]; cbn [nth table_H1]; [lia|].
        rewrite diff1d_nth by lia. destruct x0; reflexivity.
      + rewrite diff2d_len by lia. split; [lia|]. intros x0 Hx0. unfold pixel. rewrite Ecur, <- P1. destruct x0 as [|x0]; cbn [nth]; [lia|].
        rewrite diff2d_nth by lia. rewrite PREDICTOR_H1 by lia. destruct x0; reflexivity. }
  assert (Hy : (K = 0%nat <-> ri = 0)).
  { unfold K. destruct (Z.eqb_spec ri 0); [tauto|]. specialize (Hr n). split; [lia|congruence]. }
  (* next state *)
  assert (Hnext : le_first e1 = interval_start K (y + 1) /\ (ri <> 0 -> le_togo e1 = rr - Z.of_nat (y + 1) mod rr)).
  { subst e1. unfold account, interval_start. destruct (Z.eqb_spec ri 0) as [Er|Er].
    - destruct K; [|lia]. cbn [le_first]. split; [|congruence]. destruct (Nat.eqb_spec (y + 1) 0); auto; lia.
    - destruct K as [|k] eqn:EK; [lia|]. rewrite <- EK. specialize (Ht Er). specialize (Hr Er).
      assert (Hk : Z.of_nat K = rr) by (unfold K; destruct (Z.eqb_spec ri 0); [congruence|lia]).
      pose proof (Z.mod_pos_bound (Z.of_nat y) rr Hr) as Hb.
      assert (Hstep : Z.of_nat (y + 1) mod rr = if Z.of_nat y mod rr + 1 =? rr then 0 else Z.of_nat y mod rr + 1).
      { rewrite Nat2Z.inj_add. change (Z.of_nat 1) with 1. rewrite <- Z.add_mod_idemp_l by lia.
        destruct (Z.eqb_spec (Z.of_nat y mod rr + 1) rr) as [->|]; [apply Z.mod_same; lia|apply Z.mod_small; lia]. }
      assert (Hnm : ((y + 1) mod K =? 0)%nat = (Z.of_nat (y + 1) mod rr =? 0)).
      { rewrite <- Hk, <- Nat2Z.inj_mod. destruct (Nat.eqb_spec ((y + 1) mod K) 0) as [->|N]; [reflexivity|].
        destruct (Z.eqb_spec (Z.of_nat ((y + 1) mod K)) 0); auto; lia. }
      rewrite Hnm, Hstep, Ht, u32_pred by lia.
      destruct (Z.eqb_spec (Z.of_nat y mod rr + 1) rr) as [E3|E3].
      + replace (rr - Z.of_nat y mod rr - 1) with 0 by lia. cbn [Z.eqb]. unfold reset_predictor. cbn [le_first le_togo]. split; [reflexivity|intros; lia].
      + destruct (Z.eqb_spec (rr - Z.of_nat y mod rr - 1) 0); [lia|]. destruct (Z.eqb_spec (Z.of_nat y mod rr + 1) 0); [lia|].
        cbn [le_first le_togo]. split; [reflexivity|intros; lia]. }
  set (e2 := mkLE (le_first e1) (le_togo e1) cur).
  assert (IH' : forall i x, (i < length rows)%nat -> (x < w)%nat ->
      length (enc_rows P al psv ri rr e2 rows) = length rows /\ length (nth i (enc_rows P al psv ri rr e2 rows) []) = w /\
      nth x (nth i (enc_rows P al psv ri rr e2 rows) []) 0 = pixel img (y + 1 + i) x - prediction P al psv K img (y + 1 + i) x).
  { intros i0 x0 Hi0 Hx0. apply IH; auto.
    - intros j Hj. specialize (Himg (S j) ltac:(cbn [length]; lia)). cbn [nth] in Himg. rewrite <- Himg. f_equal. lia.
    - exact (Forall_inv_tail Hlen).
    - apply Hnext.
    - apply Hnext.
    - intros _. unfold e2. cbn [le_prev]. split; [lia|]. split; [|exact Lc]. rewrite <- Ecur. f_equal. lia. }
  split.
  - cbn [length]. f_equal. destruct rows as [|r1 rows]; [reflexivity|]. apply (IH' 0%nat x); cbn; lia.
  - destruct i as [|i]; cbn [nth].
    + rewrite Nat.add_0_r. destruct Hrow as [R1 R2]. auto.
    + replace (y + S i)%nat with (y + 1 + i)%nat by lia. destruct (IH' i x ltac:(lia) Hx) as (_ & B & C). auto.
Qed.

(* The differences sent are sample minus prediction, the prediction being that of T.81 H.1.2.1:
   2^(P-Pt-1) at the start of a restart interval, Ra along its first row, Rb down the first column,
   the selected predictor of Table H.1 elsewhere. *)
Theorem C26_differences : forall P al psv ri mpr w rows junk diffs,
  0 <= al < P -> 1 <= psv <= 7 -> 1 <= mpr < 2 ^ 32 -> 0 <= ri < 2 ^ 32 -> (1 <= w)%nat ->
  Forall (fun r => length r = w) rows ->
  enc_component P al psv ri mpr junk rows = Ret diffs ->
  ri mod mpr = 0 /\ length diffs = length rows /\
  forall y x, (y < length rows)%nat -> (x < w)%nat ->
    length (nth y diffs []) = w /\
    pixel diffs y x = pixel (point_down al rows) y x -
                      prediction P al psv (Z.to_nat (ri / mpr)) (point_down al rows) y x.
Proof.
  intros P al psv ri mpr w rows junk diffs Ha Hpsv Hm Hri Hw Hlen He.
  unfold enc_component, start_pass_lossless_c in He.
  destruct (Z.eqb_spec (ri mod mpr) 0) as [E|E]; cbn [negb bind] in He; [|discriminate]. split; [exact E|].
  assert (Ed : enc_rows P al psv ri (ri / mpr) (reset_predictor (ri / mpr) junk) rows = diffs) by congruence. clear He. subst diffs.
  assert (Hq : 0 <= ri / mpr) by (apply Z.div_pos; lia).
  assert (Hq2 : ri / mpr <= ri) by (apply Z.div_le_upper_bound; [lia|nia]).
  assert (Hq3 : ri <> 0 -> 0 < ri / mpr) by (intros Hn; pose proof (Z.div_mod ri mpr ltac:(lia)); nia).
  assert (EK : (if ri =? 0 then 0%nat else Z.to_nat (ri / mpr)) = Z.to_nat (ri / mpr)).
  { destruct (Z.eqb_spec ri 0) as [->|]; auto. }
  assert (G : forall y x, (y < length rows)%nat -> (x < w)%nat ->
     length (enc_rows P al psv ri (ri / mpr) (reset_predictor (ri / mpr) junk) rows) = length rows /\
     length (nth y (enc_rows P al psv ri (ri / mpr) (reset_predictor (ri / mpr) junk) rows) []) = w /\
     nth x (nth y (enc_rows P al psv ri (ri / mpr) (reset_predictor (ri / mpr) junk) rows) []) 0 =
     pixel (point_down al rows) (0 + y) x - prediction P al psv (if ri =? 0 then 0 else Z.to_nat (ri / mpr)) (point_down al rows) (0 + y) x).
  { intros y x Hy Hx. apply enc_rows_spec with (w := w); auto; try lia.
    - intros i Hi. unfold point_down. cbn [Nat.add].
      change (@nil Z) with (map (fun s : Z => s / 2 ^ al) []) at 1. apply map_nth.
    - cbn [reset_predictor le_first]. unfold interval_start. destruct (Z.eqb_spec ri 0); [reflexivity|].
      destruct (Z.to_nat (ri / mpr)); [reflexivity|]. rewrite Nat.mod_0_l by lia. reflexivity.
    - intros _. cbn [reset_predictor le_togo]. change (Z.of_nat 0) with 0. destruct (Z.eq_dec (ri / mpr) 0) as [->|]; [reflexivity|]. rewrite Z.mod_0_l by lia. lia.
    - discriminate. }
  split.
  - destruct rows as [|r rows]; [reflexivity|]. apply (G 0%nat 0%nat); cbn; lia.
  - intros y x Hy Hx. destruct (G y x Hy Hx) as (_ & B & C). split; auto. rewrite EK in C. exact C.
Qed.
Print Assumptions C26_differences.

(* a restart interval that is not a whole number of rows is refused *)
Theorem C26_bad_restart : forall P al psv ri mpr junk rows, ri mod mpr <> 0 ->
  enc_component P al psv ri mpr junk rows = Error JERR_BAD_RESTART.
Proof.
  intros. unfold enc_component, start_pass_lossless_c. destruct (Z.eqb_spec (ri mod mpr) 0); [congruence|]. reflexivity.
Qed.
Print Assumptions C26_bad_restart.

(* Non-vacuity: 3 columns, 4 rows, predictor 4, point transform 1, restart every 2 rows; the
   received differences are the ones sent, reduced to -32767..32768 *)
Definition ex_img : list (list Z) := [[255; 0; 17]; [3; 200; 255]; [0; 0; 128]; [77; 78; 0]].
Example C26_nonvacuous :
  valid_image 8 3 ex_img /\
  enc_component 8 1 4 6 3 [9; 9; 9] ex_img =
    Ret [[127 - 64; -127; 8]; [1 - 127; 100 - (1 + 0 - 127); 127 - (100 + 8 - 0)]; [-64; 0; 64]; [38; 39 - 38; 0 - (39 + 64 - 0)]] /\
  dec_component 8 1 4 6 3 [1; 2; 3]
    [[63; -127; 8]; [-126; 226; 19]; [-64; 0; 64 - 65536]; [38; 1; -103]] =
    Ret [[254; 0; 16]; [2; 200; 254]; [0; 0; 128]; [76; 78; 0]].
Proof.
  split; [|split; vm_compute; reflexivity].
  unfold valid_image, ex_img. repeat constructor; cbn; lia.
Qed.
