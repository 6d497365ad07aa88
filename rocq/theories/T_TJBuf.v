(* T_TJBuf.v -- C49: TurboJPEG buffer sizes. *)
From Verif Require Import Base M_TJBuf S_TJBuf.
From Coq Require Import Znumtheory.

(* ---- PAD ---- *)
Lemma sint_ok x : -2147483648 <= x <= INT_MAX -> sint x = Ret x.
Proof. intros H. unfold sint. rewrite (proj2 (Z.leb_le _ _)), (proj2 (Z.leb_le _ _)) by lia. reflexivity. Qed.
Lemma ull_small x : 0 <= x < 2 ^ 64 -> ull x = x.
Proof. intros. unfold ull. now apply Z.mod_small. Qed.
Lemma padded_fun v p m m' : 0 < p -> padded v p m -> padded v p m' -> m = m'.
Proof.
  intros Hp [[a ->] A] [[b ->] B]. assert (H : (a - b) * p < 1 * p) by lia. assert (H' : (b - a) * p < 1 * p) by lia.
  apply Z.mul_lt_mono_pos_r in H; [|lia]. apply Z.mul_lt_mono_pos_r in H'; [|lia]. assert (a = b) by lia. now subst.
Qed.
Lemma pad_val v k : 0 <= k -> padded v (2 ^ k) (Z.land (v + 2 ^ k - 1) (Z.lnot (2 ^ k - 1))).
Proof.
  intros Hk. assert (0 < 2 ^ k) by (apply Z.pow_pos_nonneg; lia).
  replace (2 ^ k - 1) with (Z.ones k) by (rewrite Z.ones_equiv; lia). rewrite <- Z.ldiff_land, Z.ldiff_ones_r by lia.
  rewrite Z.shiftl_mul_pow2, Z.shiftr_div_pow2 by lia.
  set (a := v + 2 ^ k - 1). pose proof (Z.div_mod a (2 ^ k) ltac:(lia)). pose proof (Z.mod_pos_bound a (2 ^ k) ltac:(lia)).
  split; [exists (a / 2 ^ k); reflexivity|]. subst a. lia.
Qed.
Lemma PAD_int_ok v k : 0 <= k <= 30 -> 0 <= v -> v + 2 ^ k <= INT_MAX ->
  exists m, PAD_int v (2 ^ k) = Ret m /\ padded v (2 ^ k) m.
Proof.
  intros Hk Hv Hs. assert (1 <= 2 ^ k <= 2 ^ 30) by (split; [apply (Z.pow_le_mono_r 2 0 k); lia|apply Z.pow_le_mono_r; lia]).
  exists (Z.land (v + 2 ^ k - 1) (Z.lnot (2 ^ k - 1))). split; [|apply pad_val; lia].
  unfold PAD_int, INT_MAX in *. rewrite (sint_ok (v + 2 ^ k)) by (unfold INT_MAX; lia). cbn [bind].
  rewrite (sint_ok (v + 2 ^ k - 1)) by (unfold INT_MAX; lia). cbn [bind]. rewrite sint_ok by (unfold INT_MAX; lia). reflexivity.
Qed.
Lemma PAD_ull_ok v k : 0 <= k <= 2 -> 0 <= v <= INT_MAX -> exists m, PAD_ull v (2 ^ k) = Ret m /\ padded v (2 ^ k) m.
Proof.
  intros Hk Hv. unfold INT_MAX in *. assert (1 <= 2 ^ k <= 2 ^ 2) by (split; [apply (Z.pow_le_mono_r 2 0 k); lia|apply Z.pow_le_mono_r; lia]).
  pose proof (pad_val v k ltac:(lia)) as P. eexists. split; [|exact P].
  unfold PAD_ull. rewrite sint_ok by (unfold INT_MAX; lia). cbn [bind]. f_equal. rewrite (ull_small (v + 2 ^ k - 1)) by lia.
  destruct P as [_ P]. unfold ull. rewrite <- (Z.land_ones _ 64) by lia. rewrite <- (Z.land_ones _ 64) by lia.
  rewrite Z.land_assoc, <- Z.land_assoc, Z.land_diag. rewrite Z.land_ones by lia. apply Z.mod_small. lia.
Qed.

(* IS_POW2 recognises the powers of two *)
Lemma is_pow2_spec x : 1 <= x -> IS_POW2 x = true <-> exists k, 0 <= k /\ x = 2 ^ k.
Proof.
  intros Hx. unfold IS_POW2. rewrite Z.eqb_eq. split.
  - intros H. exists (Z.log2 x). split; [apply Z.log2_nonneg|]. destruct (Z.log2_spec x ltac:(lia)) as [L U].
    destruct (Z.eq_dec x (2 ^ Z.log2 x)) as [|N]; [assumption|exfalso].
    assert (L1 : Z.log2 (x - 1) = Z.log2 x) by (apply Z.log2_unique; [apply Z.log2_nonneg|lia]).
    assert (B : Z.testbit (Z.land x (x - 1)) (Z.log2 x) = true).
    { rewrite Z.land_spec, Z.bit_log2 by lia. rewrite <- L1. rewrite Z.bit_log2; [reflexivity|].
      assert (0 < 2 ^ Z.log2 x) by (apply Z.pow_pos_nonneg; [lia|apply Z.log2_nonneg]). lia. }
    rewrite H, Z.testbit_0_l in B. discriminate.
  - intros (k & Hk & ->). apply Z.bits_inj'. intros n Hn. rewrite Z.land_spec, Z.testbit_0_l.
    replace (2 ^ k - 1) with (Z.ones k) by (rewrite Z.ones_equiv; lia).
    rewrite Z.pow2_bits_eqb by lia. destruct (Z.eqb_spec k n) as [<- |]; [|reflexivity].
    rewrite Z.ones_spec_high by lia. reflexivity.
Qed.

(* ---- plane dimensions ---- *)
Definition is_int (x : Z) : Prop := - 2147483648 <= x <= INT_MAX.
Definition log_h (s : subs) : Z := match s with S422 | S420 => 1 | S411 => 2 | _ => 0 end.
Definition log_v (s : subs) : Z := match s with S420 | S440 => 1 | S441 => 2 | _ => 0 end.
Lemma hfac_log s : hfac s = 2 ^ log_h s /\ 0 <= log_h s <= 2. Proof. destruct s; cbn; lia. Qed.
Lemma vfac_log s : vfac s = 2 ^ log_v s /\ 0 <= log_v s <= 2. Proof. destruct s; cbn; lia. Qed.
Lemma subs_inv ss s : subs_of ss = Some s -> 0 <= ss < 7 /\
  aget tjMCUWidth ss = Ret (8 * hfac s) /\ aget tjMCUHeight ss = Ret (8 * vfac s) /\ (ss =? TJSAMP_GRAY) = (nplanes s =? 1).
Proof.
  unfold subs_of. destruct (Z.ltb_spec ss 0); [destruct (Z.to_nat ss); discriminate|].
  intros E. assert (ss < 7).
  { destruct (Z.lt_ge_cases ss 7); [assumption|]. rewrite nth_overflow in E by (cbn; lia). discriminate. }
  assert (C : ss = 0 \/ ss = 1 \/ ss = 2 \/ ss = 3 \/ ss = 4 \/ ss = 5 \/ ss = 6) by lia.
  split; [lia|]. repeat (destruct C as [-> |C]; [cbn in E; injection E as <-; cbn; auto|]). subst ss. cbn in E. injection E as <-. cbn. auto.
Qed.
Lemma subs_some ss : 0 <= ss < 7 -> exists s, subs_of ss = Some s.
Proof.
  intros H. assert (C : ss = 0 \/ ss = 1 \/ ss = 2 \/ ss = 3 \/ ss = 4 \/ ss = 5 \/ ss = 6) by lia.
  repeat (destruct C as [-> |C]; [eexists; reflexivity|]). subst ss. eexists; reflexivity.
Qed.

(* common part of the two functions *)
Lemma plane_dim_ok comp dim k m : 0 <= k <= 2 -> 1 <= dim <= INT_MAX -> padded dim (2 ^ k) m ->
  plane_dim comp dim (2 ^ k) (if comp =? 0 then m else ull (m * 8) / (8 * 2 ^ k)) /\ 1 <= (if comp =? 0 then m else ull (m * 8) / (8 * 2 ^ k)).
Proof.
  intros Hk Hd P. unfold INT_MAX in *. assert (1 <= 2 ^ k <= 2 ^ 2) by (split; [apply (Z.pow_le_mono_r 2 0 k); lia|apply Z.pow_le_mono_r; lia]).
  pose proof P as [[a Ea] B]. destruct (comp =? 0) eqn:E.
  - split; [exists m; rewrite E; auto|lia].
  - rewrite ull_small by lia. subst m. replace (a * 2 ^ k * 8) with (a * (8 * 2 ^ k)) by ring. rewrite Z.div_mul by lia.
    split; [exists (a * 2 ^ k); rewrite E; split; [exact P|reflexivity]|]. nia.
Qed.
Lemma plane_dim_fun comp dim fac d d' : 0 < fac -> plane_dim comp dim fac d -> plane_dim comp dim fac d' -> d = d'.
Proof.
  intros Hf (m & P & E) (m' & P' & E'). pose proof (padded_fun _ _ _ _ Hf P P'). subst m'. destruct (comp =? 0); [congruence|nia].
Qed.

(* The plane width (height) functions return the exact dimension, or report an error when an
   argument is invalid or the exact value does not fit in an int; they never overflow. *)
Theorem C49_plane_width : forall comp width ss, is_int comp -> is_int width -> is_int ss ->
  (forall d, tj3YUVPlaneWidth comp width ss = Ret d <->
     exists s, subs_of ss = Some s /\ 1 <= width /\ 0 <= comp < nplanes s /\ plane_dim comp width (hfac s) d /\ d <= INT_MAX) /\
  tj3YUVPlaneWidth comp width ss <> Undef.
Proof.
  intros comp width ss Hc Hw Hs. unfold is_int in *. unfold tj3YUVPlaneWidth.
  destruct (Z.ltb_spec width 1); cbn [orb].
  { split; [|discriminate]. intros d. split; [discriminate|]. intros (s & _ & ? & _). lia. }
  destruct (Z.ltb_spec ss 0); cbn [orb].
  { split; [|discriminate]. intros d. split; [discriminate|]. intros (s & E & _). apply subs_inv in E. lia. }
  unfold TJ_NUMSAMP. destruct (Z.leb_spec 7 ss).
  { split; [|discriminate]. intros d. split; [discriminate|]. intros (s & E & _). apply subs_inv in E. lia. }
  destruct (subs_some ss ltac:(lia)) as (s & Es). destruct (subs_inv ss s Es) as (_ & Ew & Eh & Eg). rewrite Eg.
  assert (En : (if nplanes s =? 1 then 1 else 3) = nplanes s) by (destruct s; reflexivity). rewrite En.
  destruct (hfac_log s) as (F & K). rewrite Ew. cbn [bind].
  destruct (Z.ltb_spec comp 0); cbn [orb].
  { split; [|discriminate]. intros d. split; [discriminate|]. intros (s' & _ & _ & ? & _). lia. }
  destruct (Z.leb_spec (nplanes s) comp).
  { split; [|discriminate]. intros d. split; [discriminate|]. intros (s' & E & _ & ? & _). rewrite Es in E. injection E as <-. lia. }
  rewrite Z.mul_comm, Z.div_mul by lia. rewrite F. destruct (PAD_ull_ok width (log_h s) K ltac:(lia)) as (m & Em & P). rewrite Em. cbn [bind].
  rewrite (Z.mul_comm (2 ^ log_h s) 8).
  destruct (plane_dim_ok comp width (log_h s) m K ltac:(lia) P) as (D & D1). set (r := if comp =? 0 then m else _) in *.
  destruct (Z.ltb_spec INT_MAX r).
  - split; [|discriminate]. intros d. split; [discriminate|]. intros (s' & E & _ & _ & D' & Hd). rewrite Es in E. injection E as <-.
    rewrite F in D'. rewrite (plane_dim_fun comp width (2 ^ log_h s) d r) in Hd; [lia| |assumption|assumption]. rewrite <- F. destruct s; cbn; lia.
  - split; [|discriminate]. intros d. split.
    + intros E. injection E as <-. exists s. rewrite F. auto 8.
    + intros (s' & E & _ & _ & D' & Hd). rewrite Es in E. injection E as <-. rewrite F in D'.
      rewrite (plane_dim_fun comp width (2 ^ log_h s) d r); [reflexivity| |assumption|assumption]. rewrite <- F. destruct s; cbn; lia.
Qed.
Print Assumptions C49_plane_width.
Theorem C49_plane_height : forall comp height ss, is_int comp -> is_int height -> is_int ss ->
  (forall d, tj3YUVPlaneHeight comp height ss = Ret d <->
     exists s, subs_of ss = Some s /\ 1 <= height /\ 0 <= comp < nplanes s /\ plane_dim comp height (vfac s) d /\ d <= INT_MAX) /\
  tj3YUVPlaneHeight comp height ss <> Undef.
Proof.
  intros comp height ss Hc Hw Hs. unfold is_int in *. unfold tj3YUVPlaneHeight.
  destruct (Z.ltb_spec height 1); cbn [orb].
  { split; [|discriminate]. intros d. split; [discriminate|]. intros (s & _ & ? & _). lia. }
  destruct (Z.ltb_spec ss 0); cbn [orb].
  { split; [|discriminate]. intros d. split; [discriminate|]. intros (s & E & _). apply subs_inv in E. lia. }
  unfold TJ_NUMSAMP. destruct (Z.leb_spec 7 ss).
  { split; [|discriminate]. intros d. split; [discriminate|]. intros (s & E & _). apply subs_inv in E. lia. }
  destruct (subs_some ss ltac:(lia)) as (s & Es). destruct (subs_inv ss s Es) as (_ & Ew & Eh & Eg). rewrite Eg.
  assert (En : (if nplanes s =? 1 then 1 else 3) = nplanes s) by (destruct s; reflexivity). rewrite En.
  destruct (vfac_log s) as (F & K). rewrite Eh. cbn [bind].
  destruct (Z.ltb_spec comp 0); cbn [orb].
  { split; [|discriminate]. intros d. split; [discriminate|]. intros (s' & _ & _ & ? & _). lia. }
  destruct (Z.leb_spec (nplanes s) comp).
  { split; [|discriminate]. intros d. split; [discriminate|]. intros (s' & E & _ & ? & _). rewrite Es in E. injection E as <-. lia. }
  rewrite Z.mul_comm, Z.div_mul by lia. rewrite F. destruct (PAD_ull_ok height (log_v s) K ltac:(lia)) as (m & Em & P). rewrite Em. cbn [bind].
  rewrite (Z.mul_comm (2 ^ log_v s) 8).
  destruct (plane_dim_ok comp height (log_v s) m K ltac:(lia) P) as (D & D1). set (r := if comp =? 0 then m else _) in *.
  destruct (Z.ltb_spec INT_MAX r).
  - split; [|discriminate]. intros d. split; [discriminate|]. intros (s' & E & _ & _ & D' & Hd). rewrite Es in E. injection E as <-.
    rewrite F in D'. rewrite (plane_dim_fun comp height (2 ^ log_v s) d r) in Hd; [lia| |assumption|assumption]. rewrite <- F. destruct s; cbn; lia.
  - split; [|discriminate]. intros d. split.
    + intros E. injection E as <-. exists s. rewrite F. auto 8.
    + intros (s' & E & _ & _ & D' & Hd). rewrite Es in E. injection E as <-. rewrite F in D'.
      rewrite (plane_dim_fun comp height (2 ^ log_v s) d r); [reflexivity| |assumption|assumption]. rewrite <- F. destruct s; cbn; lia.
Qed.
Print Assumptions C49_plane_height.

(* ---- YUV buffers ---- *)
(* plane i of an image: width, height and row stride (rows padded to a multiple of align) *)
Definition layout (s : subs) (width align height i pw ph st : Z) : Prop :=
  plane_dim i width (hfac s) pw /\ plane_dim i height (vfac s) ph /\ padded pw align st.
Definition pow2 (a : Z) : Prop := exists k, 0 <= k /\ a = 2 ^ k.

Lemma pow2_int a : pow2 a -> a <= INT_MAX -> exists k, 0 <= k <= 30 /\ a = 2 ^ k.
Proof.
  intros (k & Hk & ->) H. exists k. split; [|reflexivity]. split; [lia|]. destruct (Z.le_gt_cases k 30); [assumption|].
  assert (2 ^ 31 <= 2 ^ k) by (apply Z.pow_le_mono_r; lia). unfold INT_MAX in H. lia.
Qed.
Lemma PAD_int_cases v k m : 0 <= k <= 30 -> 0 <= v -> padded v (2 ^ k) m ->
  (v + 2 ^ k <= INT_MAX /\ PAD_int v (2 ^ k) = Ret m) \/ (INT_MAX < v + 2 ^ k /\ PAD_int v (2 ^ k) = Undef).
Proof.
  intros Hk Hv P. assert (0 < 2 ^ k) by (apply Z.pow_pos_nonneg; lia). destruct (Z.le_gt_cases (v + 2 ^ k) INT_MAX) as [L|L].
  - left. split; [assumption|]. destruct (PAD_int_ok v k Hk Hv L) as (m' & E & P'). rewrite (padded_fun _ _ _ _ H P P'). exact E.
  - right. split; [assumption|]. unfold PAD_int, sint at 1. rewrite (proj2 (Z.leb_gt (v + 2 ^ k) INT_MAX)) by lia. rewrite andb_false_r. reflexivity.
Qed.
Lemma plane_dim_pos i dim fac d : 1 <= dim -> 0 < fac -> plane_dim i dim fac d -> 1 <= d.
Proof. intros H F (m & (_ & B) & E). destruct (i =? 0); [lia|nia]. Qed.
Lemma fac_pos s : 0 < hfac s /\ 0 < vfac s. Proof. destruct s; cbn; lia. Qed.

Lemma width_cases i width ss s d : is_int width -> 1 <= width -> subs_of ss = Some s -> 0 <= i < nplanes s -> plane_dim i width (hfac s) d ->
  (d <= INT_MAX /\ or0 (tj3YUVPlaneWidth i width ss) = Ret d) \/ (INT_MAX < d /\ or0 (tj3YUVPlaneWidth i width ss) = Ret 0).
Proof.
  intros Hw H1 Es Hi D. pose proof (subs_inv _ _ Es) as (B & _). assert (nplanes s <= 3) by (destruct s; cbn; lia).
  destruct (C49_plane_width i width ss) as (C & U); [unfold is_int, INT_MAX; lia|assumption|unfold is_int, INT_MAX; lia|].
  destruct (Z.le_gt_cases d INT_MAX) as [L|L].
  - left. split; [assumption|]. rewrite (proj2 (C d)); [reflexivity|]. exists s. auto 8.
  - right. split; [assumption|]. destruct (tj3YUVPlaneWidth i width ss) as [d'| |] eqn:E; [|reflexivity|congruence].
    destruct (proj1 (C d') eq_refl) as (s' & E' & _ & _ & D' & L'). rewrite Es in E'. injection E' as <-.
    rewrite (plane_dim_fun _ _ _ _ _ (proj1 (fac_pos s)) D D') in L. lia.
Qed.
Lemma height_cases i height ss s d : is_int height -> 1 <= height -> subs_of ss = Some s -> 0 <= i < nplanes s -> plane_dim i height (vfac s) d ->
  (d <= INT_MAX /\ or0 (tj3YUVPlaneHeight i height ss) = Ret d) \/ (INT_MAX < d /\ or0 (tj3YUVPlaneHeight i height ss) = Ret 0).
Proof.
  intros Hw H1 Es Hi D. pose proof (subs_inv _ _ Es) as (B & _). assert (nplanes s <= 3) by (destruct s; cbn; lia).
  destruct (C49_plane_height i height ss) as (C & U); [unfold is_int, INT_MAX; lia|assumption|unfold is_int, INT_MAX; lia|].
  destruct (Z.le_gt_cases d INT_MAX) as [L|L].
  - left. split; [assumption|]. rewrite (proj2 (C d)); [reflexivity|]. exists s. auto 8.
  - right. split; [assumption|]. destruct (tj3YUVPlaneHeight i height ss) as [d'| |] eqn:E; [|reflexivity|congruence].
    destruct (proj1 (C d') eq_refl) as (s' & E' & _ & _ & D' & L'). rewrite Es in E'. injection E' as <-.
    rewrite (plane_dim_fun _ _ _ _ _ (proj2 (fac_pos s)) D D') in L. lia.
Qed.

Section YUV.
Variables width align height ss : Z.
Variable s : subs.
Variables pw ph st : Z -> Z.
Hypothesis Hw : is_int width /\ 1 <= width.
Hypothesis Hh : is_int height /\ 1 <= height.
Hypothesis Ha : pow2 align /\ align <= INT_MAX.
Hypothesis Hs : subs_of ss = Some s.
Hypothesis HL : forall i, 0 <= i < nplanes s -> layout s width align height i (pw i) (ph i) (st i).

Lemma yuv_step i is r : 0 <= i < nplanes s ->
  (pw i <= INT_MAX /\ ph i <= INT_MAX /\ 0 < st i <= INT_MAX /\ 0 < ph i /\
     yuv_sum width align height ss (i :: is) r = yuv_sum width align height ss is (ull (r + st i * ph i))) \/
  ((INT_MAX < pw i \/ INT_MAX < ph i) /\ exists e, yuv_sum width align height ss (i :: is) r = Error e) \/
  (INT_MAX < pw i + align /\ yuv_sum width align height ss (i :: is) r = Undef).
Proof.
  intros Hi. destruct (HL i Hi) as (D1 & D2 & P). destruct (pow2_int align (proj1 Ha) (proj2 Ha)) as (k & Hk & Ek).
  pose proof (plane_dim_pos i width _ _ (proj2 Hw) (proj1 (fac_pos s)) D1) as P1.
  pose proof (plane_dim_pos i height _ _ (proj2 Hh) (proj2 (fac_pos s)) D2) as P2.
  assert (1 <= align <= 2 ^ 30) by (rewrite Ek; split; [apply (Z.pow_le_mono_r 2 0 k); lia|apply Z.pow_le_mono_r; lia]).
  cbn [yuv_sum].
  destruct (width_cases i width ss s (pw i) (proj1 Hw) (proj2 Hw) Hs Hi D1) as [(L1 & E1)|(L1 & E1)]; rewrite E1; cbn [bind].
  - rewrite Ek in P |- *. destruct (PAD_int_cases (pw i) k (st i) Hk ltac:(lia) P) as [(L & E)|(L & E)]; rewrite E; cbn [bind].
    2: { right. right. rewrite <- Ek in *. auto. }
    destruct (height_cases i height ss s (ph i) (proj1 Hh) (proj2 Hh) Hs Hi D2) as [(L2 & E2)|(L2 & E2)]; rewrite E2; cbn [bind].
    + left. rewrite (proj2 (Z.eqb_neq _ _)), (proj2 (Z.eqb_neq _ _)) by lia. cbn [orb].
      destruct P as [_ P]. rewrite <- Ek in *. unfold INT_MAX in *. split; [lia|]. split; [lia|]. split; [lia|]. split; [lia|].
      rewrite !(ull_small (st i)), !(ull_small (ph i)) by lia. rewrite (ull_small (st i * ph i)) by nia. reflexivity.
    + right. left. split; [auto|]. rewrite orb_true_r. eauto.
  - right. left. split; [auto|]. rewrite Ek. destruct (PAD_int_ok 0 k Hk ltac:(lia)) as (m & E & _); [rewrite <- Ek; unfold INT_MAX; lia|].
    rewrite E. cbn [bind].
    destruct (height_cases i height ss s (ph i) (proj1 Hh) (proj2 Hh) Hs Hi D2) as [(L2 & E2)|(L2 & E2)]; rewrite E2; cbn [bind Z.eqb orb]; eauto.
Qed.

Definition plane_sum : Z := if nplanes s =? 1 then st 0 * ph 0 else st 0 * ph 0 + st 1 * ph 1 + st 2 * ph 2.

(* tj3YUVBufSize: the exact sum of the plane sizes, or an error when a dimension does not fit in an
   int.  The only other possibility is overflow of the padded row, see the refutation below. *)
Theorem C49_yuv_bufsize :
  match tj3YUVBufSize width align height ss with
  | Ret n => n = plane_sum /\ n < 2 ^ 64
  | Error _ => exists i, 0 <= i < nplanes s /\ (INT_MAX < pw i \/ INT_MAX < ph i)
  | Undef => exists i, 0 <= i < nplanes s /\ INT_MAX < pw i + align
  end.
Proof.
  destruct (subs_inv ss s Hs) as (B & _ & _ & Eg). unfold tj3YUVBufSize.
  assert (1 <= align) by (destruct Ha as [(k & Hk & ->) _]; apply (Z.pow_le_mono_r 2 0 k); lia).
  rewrite (proj2 (is_pow2_spec align ltac:(lia)) (proj1 Ha)). unfold TJ_NUMSAMP.
  rewrite (proj2 (Z.ltb_ge align 1)), (proj2 (Z.ltb_ge ss 0)), (proj2 (Z.leb_gt 7 ss)) by lia. cbn [negb orb]. rewrite Eg. unfold plane_sum.
  destruct (nplanes s =? 1) eqn:En.
  - assert (N : nplanes s = 1) by lia.
    destruct (yuv_step 0 [] 0 ltac:(lia)) as [(A1 & A2 & A3 & A4 & E)|[(A & e & E)|(A & E)]]; rewrite E; cbn [yuv_sum].
    + unfold INT_MAX in *. rewrite ull_small by nia. nia.
    + exists 0. split; [lia|auto].
    + exists 0. split; [lia|auto].
  - assert (N : nplanes s = 3) by (destruct s; cbn in *; congruence || reflexivity).
    destruct (yuv_step 0 [1; 2] 0 ltac:(lia)) as [(A1 & A2 & A3 & A4 & E)|[(A & e & E)|(A & E)]]; rewrite E;
      [|exists 0; split; [lia|auto]|exists 0; split; [lia|auto]].
    destruct (yuv_step 1 [2] (ull (0 + st 0 * ph 0)) ltac:(lia)) as [(B1 & B2 & B3 & B4 & E1)|[(A & e & E1)|(A & E1)]]; rewrite E1;
      [|exists 1; split; [lia|auto]|exists 1; split; [lia|auto]].
    destruct (yuv_step 2 [] (ull (ull (0 + st 0 * ph 0) + st 1 * ph 1)) ltac:(lia)) as [(C1 & C2 & C3 & C4 & E2)|[(A & e & E2)|(A & E2)]]; rewrite E2;
      [|exists 2; split; [lia|auto]|exists 2; split; [lia|auto]].
    cbn [yuv_sum]. unfold INT_MAX in *.
    assert (0 <= st 0 * ph 0 <= 2 ^ 62) by nia. assert (0 <= st 1 * ph 1 <= 2 ^ 62) by nia. assert (0 <= st 2 * ph 2 <= 2 ^ 62) by nia.
    rewrite (ull_small (0 + _)) by lia. rewrite (ull_small (0 + _ + _)) by lia. rewrite ull_small by lia. lia.
Qed.
End YUV.
Print Assumptions C49_yuv_bufsize.

Theorem C49_yuv_bufsize_invalid : forall width align height ss,
  align < 1 \/ ~ pow2 align \/ subs_of ss = None -> exists e, tj3YUVBufSize width align height ss = Error e.
Proof.
  intros width align height ss H. unfold tj3YUVBufSize. destruct (Z.ltb_spec align 1); cbn [orb]; [eauto|].
  destruct (IS_POW2 align) eqn:E; cbn [negb orb]; [|eauto]. destruct H as [|[N|N]]; [lia| |].
  - exfalso. apply N. now apply is_pow2_spec.
  - destruct (Z.ltb_spec ss 0); cbn [orb]; [eauto|]. destruct (Z.leb_spec TJ_NUMSAMP ss); [eauto|].
    destruct (subs_some ss ltac:(unfold TJ_NUMSAMP in *; lia)) as (s & Es). congruence.
Qed.

(* Defect: the padded row is computed in int before anything is checked. *)
Theorem C49_yuv_bufsize_refuted : tj3YUVBufSize (2 ^ 30 + 1) (2 ^ 30) 1 0 = Undef /\ pow2 (2 ^ 30) /\ 2 ^ 30 + 1 <= INT_MAX.
Proof. split; [reflexivity|]. split; [exists 30; lia|reflexivity || (unfold INT_MAX; lia)]. Qed.

(* ---- the planes in one buffer ---- *)
(* address of sample x of row r of plane i *)
Definition sample_at (planes : list (Z * Z)) (i r x : Z) : Z :=
  fst (nth (Z.to_nat i) planes (0, 0)) + r * snd (nth (Z.to_nat i) planes (0, 0)) + x.

Lemma padded_ex v k : 0 <= k -> exists m, padded v (2 ^ k) m.
Proof. intros Hk. eexists. apply (pad_val v k Hk). Qed.
Lemma row_lt st h r x pw : 0 <= r < h -> 0 <= x < pw -> pw <= st -> 0 <= r * st + x < st * h.
Proof. intros. nia. Qed.
Lemma row_inj st r x r' x' : 0 <= x < st -> 0 <= x' < st -> r * st + x = r' * st + x' -> r = r' /\ x = x'.
Proof.
  intros H H' E. assert (r = r'); [|subst; lia].
  rewrite (Z.div_unique_pos (r * st + x) st r x) by lia. symmetry. apply (Z.div_unique_pos _ st r' x'); lia.
Qed.
Lemma chroma_same i width fac d d' : 0 < i -> 0 < fac -> plane_dim i width fac d -> plane_dim 1 width fac d' -> d = d'.
Proof.
  intros Hi Hf (m & P & E) (m' & P' & E'). pose proof (padded_fun _ _ _ _ Hf P P'). subst m'.
  rewrite (proj2 (Z.eqb_neq i 0)) in E by lia. cbn in E'. nia.
Qed.
Lemma dim_bound i v k d : 0 <= k <= 2 -> 1 <= v <= 65500 -> plane_dim i v (2 ^ k) d -> 1 <= d <= 65504.
Proof.
  intros Hk Hv (m & (_ & B) & E). assert (1 <= 2 ^ k <= 2 ^ 2) by (split; [apply (Z.pow_le_mono_r 2 0 k); lia|apply Z.pow_le_mono_r; lia]).
  destruct (i =? 0); [lia|nia].
Qed.

(* For every image a JPEG file can hold (dimensions up to 65500), every subsampling and every
   alignment: the library either reports that the image is too large, or lays the planes out so that
   every sample of every plane has its own byte inside a buffer of tj3YUVBufSize bytes. *)
Theorem C49_planes_tile : forall width align height ss s pw ph st,
  1 <= width <= 65500 -> 1 <= height <= 65500 -> pow2 align /\ align <= INT_MAX -> subs_of ss = Some s ->
  (forall i, 0 <= i < nplanes s -> layout s width align height i (pw i) (ph i) (st i)) ->
  match yuv_planes width align height ss with
  | Ret l => exists n, tj3YUVBufSize width align height ss = Ret n /\
      (forall i r x, 0 <= i < nplanes s -> 0 <= r < ph i -> 0 <= x < pw i -> 0 <= sample_at l i r x < n) /\
      (forall i r x i' r' x', 0 <= i < nplanes s -> 0 <= r < ph i -> 0 <= x < pw i ->
         0 <= i' < nplanes s -> 0 <= r' < ph i' -> 0 <= x' < pw i' ->
         sample_at l i r x = sample_at l i' r' x' -> i = i' /\ r = r' /\ x = x') /\
      Forall (fun p => (align | snd p)) l
  | Error _ => INT_MAX < st 0 * ph 0 \/ INT_MAX < st 1 * ph 1
  | Undef => False
  end.
Proof.
  intros width align height ss s pw ph st Hw Hh Ha Hs HL.
  assert (Iw : is_int width /\ 1 <= width) by (unfold is_int, INT_MAX; lia).
  assert (Ih : is_int height /\ 1 <= height) by (unfold is_int, INT_MAX; lia).
  pose proof (C49_yuv_bufsize width align height ss s pw ph st Iw Ih Ha Hs HL) as SZ.
  destruct (pow2_int align (proj1 Ha) (proj2 Ha)) as (k & Hk & Ek).
  assert (A : 1 <= align <= 2 ^ 30) by (rewrite Ek; split; [apply (Z.pow_le_mono_r 2 0 k); lia|apply Z.pow_le_mono_r; lia]).
  assert (B : forall i, 0 <= i < nplanes s -> 1 <= pw i <= 65504 /\ 1 <= ph i <= 65504 /\ pw i <= st i < pw i + align /\ (align | st i)).
  { intros i Hi. destruct (HL i Hi) as (D1 & D2 & (Dv & P)). destruct (hfac_log s) as (F1 & K1). destruct (vfac_log s) as (F2 & K2).
    rewrite F1 in D1. rewrite F2 in D2. split; [now apply (dim_bound i width (log_h s))|]. split; [now apply (dim_bound i height (log_v s))|]. auto. }
  assert (GS : exists n, tj3YUVBufSize width align height ss = Ret n /\ n = plane_sum s ph st).
  { destruct (tj3YUVBufSize width align height ss) as [n|e|].
    - exists n. split; [reflexivity|apply SZ].
    - exfalso. destruct SZ as (i & Hi & [C|C]); specialize (B i Hi); unfold INT_MAX in *; lia.
    - exfalso. destruct SZ as (i & Hi & C). specialize (B i Hi). unfold INT_MAX in *. lia. }
  destruct GS as (n & En & Ens). clear SZ.
  assert (N : nplanes s = 1 \/ nplanes s = 3) by (destruct s; auto).
  destruct (subs_inv ss s Hs) as (_ & _ & _ & Eg).
  assert (W : forall i, 0 <= i < nplanes s -> or0 (tj3YUVPlaneWidth i width ss) = Ret (pw i) /\ or0 (tj3YUVPlaneHeight i height ss) = Ret (ph i) /\ PAD_int (pw i) align = Ret (st i)).
  { intros i Hi. destruct (HL i Hi) as (D1 & D2 & P). pose proof (B i Hi) as (B1 & B2 & _).
    split; [destruct (width_cases i width ss s (pw i) (proj1 Iw) (proj2 Iw) Hs Hi D1) as [(_ & E)|(L & _)]; [exact E|unfold INT_MAX in *; lia]|].
    split; [destruct (height_cases i height ss s (ph i) (proj1 Ih) (proj2 Ih) Hs Hi D2) as [(_ & E)|(L & _)]; [exact E|unfold INT_MAX in *; lia]|].
    rewrite Ek in P |- *. destruct (PAD_int_cases (pw i) k (st i) Hk ltac:(lia) P) as [(_ & E)|(L & _)]; [exact E|]. rewrite <- Ek in *. unfold INT_MAX in *. lia. }
  unfold yuv_planes. rewrite (proj2 (is_pow2_spec align ltac:(lia)) (proj1 Ha)).
  rewrite (proj2 (Z.leb_gt width 0)), (proj2 (Z.ltb_ge align 1)), (proj2 (Z.leb_gt height 0)) by lia. cbn [negb orb].
  destruct (W 0 ltac:(lia)) as (W0 & H0 & P0). rewrite W0, H0. cbn [bind]. rewrite P0. cbn [bind]. rewrite Eg.
  pose proof (B 0 ltac:(lia)) as (B1 & B2 & B3 & B4). unfold plane_sum in Ens.
  destruct (nplanes s =? 1) eqn:E1.
  - assert (N1 : nplanes s = 1) by lia. exists n. split; [exact En|]. rewrite N1. split; [|split].
    + intros i r x Hi Hr Hx. assert (i = 0) by lia. subst i. unfold sample_at. cbn [Z.to_nat nth fst snd]. pose proof (row_lt (st 0) (ph 0) r x (pw 0) Hr Hx ltac:(lia)). lia.
    + intros i r x i' r' x' Hi Hr Hx Hi' Hr' Hx' E. assert (i = 0) by lia. assert (i' = 0) by lia. subst i i'. split; [reflexivity|].
      unfold sample_at in E. cbn [Z.to_nat nth fst snd] in E. apply (row_inj (st 0)); lia.
    + constructor; [exact B4|constructor].
  - assert (N3 : nplanes s = 3) by lia.
    destruct (W 1 ltac:(lia)) as (W1 & H1 & P1). rewrite W1, H1. cbn [bind]. rewrite P1. cbn [bind].
    pose proof (B 1 ltac:(lia)) as (B5 & B6 & B7 & B8). pose proof (B 2 ltac:(lia)) as (B9 & B10 & B11 & B12).
    assert (E2 : pw 2 = pw 1 /\ ph 2 = ph 1).
    { destruct (HL 1 ltac:(lia)) as (D1 & D2 & _). destruct (HL 2 ltac:(lia)) as (D3 & D4 & _). destruct (fac_pos s) as (F1 & F2).
      split; [apply (chroma_same 2 width (hfac s))|apply (chroma_same 2 height (vfac s))]; auto; lia. }
    destruct E2 as (E2 & E3).
    assert (E4 : st 2 = st 1).
    { destruct (HL 1 ltac:(lia)) as (_ & _ & Q1). destruct (HL 2 ltac:(lia)) as (_ & _ & Q2). rewrite E2 in Q2. apply (padded_fun (pw 1) align); [lia|assumption|assumption]. }
    assert (0 <= st 0 * ph 0 < 2 ^ 62) by nia. assert (0 <= st 1 * ph 1 < 2 ^ 62) by nia.
    rewrite (ull_small (st 0)), (ull_small (ph 0)), (ull_small (st 1)), (ull_small (ph 1)) by lia.
    rewrite (ull_small (st 0 * ph 0)), (ull_small (st 1 * ph 1)) by lia.
    destruct (Z.ltb_spec INT_MAX (st 0 * ph 0)); cbn [orb]; [left; assumption|].
    destruct (Z.ltb_spec INT_MAX (st 1 * ph 1)); [right; assumption|].
    rewrite !sint_ok by lia. cbn [bind].
    exists n. split; [exact En|]. rewrite E3, E4 in Ens. rewrite N3.
    assert (AD : forall i r x, 0 <= i < 3 -> 0 <= r < ph i -> 0 <= x < pw i ->
       let l := [(0, st 0); (st 0 * ph 0, st 1); (st 0 * ph 0 + st 1 * ph 1, st 1)] in
       exists o, sample_at l i r x = o + (r * st i + x) /\ 0 <= x < st i /\ 0 <= r * st i + x < st i * ph i /\
         (i = 0 /\ o = 0 \/ i = 1 /\ o = st 0 * ph 0 \/ i = 2 /\ o = st 0 * ph 0 + st 1 * ph 1)).
    { intros i r x Hi Hr Hx l. assert (C : i = 0 \/ i = 1 \/ i = 2) by lia. destruct C as [-> |[-> | ->]]; unfold sample_at, l; change (Z.to_nat 0) with 0%nat; change (Z.to_nat 1) with 1%nat; change (Z.to_nat 2) with 2%nat; cbn [nth fst snd].
      - exists 0. split; [ring|]. split; [lia|]. split; [apply (row_lt (st 0) (ph 0) r x (pw 0)); lia|]. auto.
      - exists (st 0 * ph 0). split; [ring|]. split; [lia|]. split; [apply (row_lt (st 1) (ph 1) r x (pw 1)); lia|]. auto.
      - exists (st 0 * ph 0 + st 1 * ph 1). rewrite E4. split; [ring|]. split; [lia|]. split; [apply (row_lt (st 1) (ph 2) r x (pw 2)); lia|]. auto. }
    cbn zeta in AD. split; [|split].
    + intros i r x Hi Hr Hx. destruct (AD i r x Hi Hr Hx) as (o & Eo & _ & Bo & [(-> & ->)|[(-> & ->)|(-> & ->)]]); rewrite Eo; try rewrite E4 in *; try rewrite E3 in *; lia.
    + intros i r x i' r' x' Hi Hr Hx Hi' Hr' Hx' E.
      destruct (AD i r x Hi Hr Hx) as (o & Eo & Xo & Bo & Co). destruct (AD i' r' x' Hi' Hr' Hx') as (o' & Eo' & Xo' & Bo' & Co').
      rewrite Eo, Eo' in E. assert (i = i' /\ o = o') as (<- & <-).
      { destruct Co as [(-> & ->)|[(-> & ->)|(-> & ->)]]; destruct Co' as [(-> & ->)|[(-> & ->)|(-> & ->)]]; try rewrite E4 in *; try rewrite E3 in *; try (split; reflexivity); exfalso; lia. }
      split; [reflexivity|]. apply (row_inj (st i)); lia.
    + constructor; [exact B4|]. constructor; [exact B8|]. constructor; [exact B8|constructor].
Qed.
Print Assumptions C49_planes_tile.

(* ---- one plane ---- *)
Theorem C49_plane_size : forall comp width stride height ss s pw ph, is_int width -> is_int height -> is_int stride ->
  1 <= width -> 1 <= height -> subs_of ss = Some s -> 0 <= comp < nplanes s ->
  plane_dim comp width (hfac s) pw -> plane_dim comp height (vfac s) ph ->
  let st := if stride =? 0 then pw else Z.abs stride in
  match tj3YUVPlaneSize comp width stride height ss with
  | Ret n => n = st * (ph - 1) + pw /\ n < 2 ^ 64 /\ forall r x, 0 <= r < ph -> 0 <= x < pw -> 0 <= r * st + x < n
  | Error _ => INT_MAX < pw \/ INT_MAX < ph
  | Undef => stride = - 2147483648          (* abs(INT_MIN) *)
  end.
Proof.
  intros comp width stride height ss s pw ph Iw Ih Is Hw Hh Hs Hc D1 D2 st. unfold tj3YUVPlaneSize.
  destruct (subs_inv ss s Hs) as (B & _). unfold TJ_NUMSAMP.
  rewrite (proj2 (Z.ltb_ge width 1)), (proj2 (Z.ltb_ge height 1)), (proj2 (Z.ltb_ge ss 0)), (proj2 (Z.leb_gt 7 ss)) by lia. cbn [orb].
  pose proof (plane_dim_pos comp width _ _ Hw (proj1 (fac_pos s)) D1) as P1. pose proof (plane_dim_pos comp height _ _ Hh (proj2 (fac_pos s)) D2) as P2.
  destruct (width_cases comp width ss s pw Iw Hw Hs Hc D1) as [(L1 & E1)|(L1 & E1)]; rewrite E1; cbn [bind];
  destruct (height_cases comp height ss s ph Ih Hh Hs Hc D2) as [(L2 & E2)|(L2 & E2)]; rewrite E2; cbn [bind Z.eqb orb].
  2: rewrite orb_true_r; auto.
  2, 3: auto.
  rewrite (proj2 (Z.eqb_neq _ _)), (proj2 (Z.eqb_neq _ _)) by lia. cbn [orb].
  assert (G : forall q, q = st -> 0 <= st <= INT_MAX ->
    match (stride <- Ret q ;; h <- sint (ph - 1) ;; Ret (ull (ull (ull stride * ull h) + pw))) with
    | Ret n => n = st * (ph - 1) + pw /\ n < 2 ^ 64 /\ forall r x, 0 <= r < ph -> 0 <= x < pw -> 0 <= r * st + x < n
    | Error _ => INT_MAX < pw \/ INT_MAX < ph | Undef => stride = - 2147483648 end).
  { intros q -> Hst. unfold INT_MAX in *. cbn [bind]. rewrite sint_ok by (unfold INT_MAX; lia). cbn [bind].
    rewrite (ull_small st), (ull_small (ph - 1)) by lia. assert (0 <= st * (ph - 1) <= 2 ^ 62) by nia.
    rewrite (ull_small (st * (ph - 1))) by lia. rewrite ull_small by lia. split; [reflexivity|]. split; [lia|].
    intros r x Hr Hx. nia. }
  subst st. unfold is_int in Is. destruct (Z.eqb_spec stride 0).
  - apply G; [reflexivity|lia].
  - destruct (Z.eq_dec stride (- 2147483648)) as [-> |Ne]; [cbn; auto|]. rewrite sint_ok by (unfold INT_MAX in *; lia). apply G; [reflexivity|unfold INT_MAX in *; lia].
Qed.
Print Assumptions C49_plane_size.

(* ---- JPEG buffers ---- *)
Theorem C49_jpeg_bufsize : forall width height ss s w h, is_int width -> is_int height -> 1 <= width -> 1 <= height ->
  (subs_of ss = Some s \/ ss = -1 /\ s = S444) ->
  padded width (8 * hfac s) w -> padded height (8 * vfac s) h ->
  (* neither padded dimension nor their product may exceed an int *)
  width + 8 * hfac s <= INT_MAX -> height + 8 * vfac s <= INT_MAX -> w * h <= INT_MAX ->
  exists g, grid_samples s width height g /\ tj3JPEGBufSize width height ss = Ret (2 * g + 2048).
Proof.
  intros width height ss s w h Iw Ih Hw Hh Hs Pw Ph Fw Fh Fq.
  assert (Q : exists ss', subs_of ss' = Some s /\ -1 <= ss < 7 /\ (if ss =? TJSAMP_UNKNOWN then TJSAMP_444 else ss) = ss').
  { destruct Hs as [E|(-> & ->)].
    - exists ss. pose proof (subs_inv _ _ E) as (B & _). split; [exact E|]. split; [lia|]. unfold TJSAMP_UNKNOWN. rewrite (proj2 (Z.eqb_neq _ _)) by lia. reflexivity.
    - exists 0. split; [reflexivity|]. split; [lia|reflexivity]. }
  destruct Q as (ss' & Es & Bs & Eq). destruct (subs_inv _ _ Es) as (B & Ew & Eh & Eg).
  unfold tj3JPEGBufSize, TJSAMP_UNKNOWN in *. rewrite (proj2 (Z.ltb_ge width 1)), (proj2 (Z.ltb_ge height 1)), (proj2 (Z.ltb_ge ss (-1))) by lia.
  unfold TJ_NUMSAMP. rewrite (proj2 (Z.leb_gt 7 ss)) by lia. cbn [orb]. rewrite Eq. cbn zeta. rewrite Ew, Eh, Eg. cbn [bind].
  destruct (hfac_log s) as (F1 & K1). destruct (vfac_log s) as (F2 & K2).
  assert (R1 : 8 * hfac s = 2 ^ (3 + log_h s)) by (rewrite F1, Z.pow_add_r by lia; reflexivity).
  assert (R2 : 8 * vfac s = 2 ^ (3 + log_v s)) by (rewrite F2, Z.pow_add_r by lia; reflexivity).
  assert (M : sint (8 * hfac s * (8 * vfac s)) = Ret (8 * hfac s * (8 * vfac s))) by (destruct s; reflexivity). rewrite M. cbn [bind].
  assert (E1 : PAD_int width (8 * hfac s) = Ret w).
  { rewrite R1 in *. destruct (PAD_int_cases width (3 + log_h s) w ltac:(lia) ltac:(lia) Pw) as [(_ & E)|(L & _)]; [exact E|lia]. }
  assert (E2 : PAD_int height (8 * vfac s) = Ret h).
  { rewrite R2 in *. destruct (PAD_int_cases height (3 + log_v s) h ltac:(lia) ltac:(lia) Ph) as [(_ & E)|(L & _)]; [exact E|lia]. }
  rewrite E1, E2. cbn [bind]. destruct Pw as ((a & Ea) & Bw). destruct Ph as ((b & Eb) & Bh).
  assert (1 <= w * h) by nia. rewrite sint_ok by (unfold INT_MAX in *; lia). cbn [bind]. unfold INT_MAX in *. rewrite (ull_small (w * h)) by lia.
  exists (match s with S444 => 3 * (w * h) | SGray => w * h | _ => 64 * a * b * (hfac s * vfac s + 2) end).
  split.
  - exists w, h. split; [split; [exists a; exact Ea|exact Bw]|]. split; [split; [exists b; exact Eb|exact Bh]|]. subst w h. destruct s; cbn [hfac vfac nplanes]; ring.
  - f_equal. assert (C : w * h = 64 * a * b * (hfac s * vfac s)) by (subst w h; ring).
    assert (CF : (if nplanes s =? 1 then 0 else 4 * 64 / (8 * hfac s * (8 * vfac s))) = match s with S444 => 4 | S422 | S440 => 2 | SGray => 0 | _ => 1 end)
      by (destruct s; reflexivity).
    rewrite CF. set (wh := w * h) in *. clearbody wh. clear -C Fq H.
    set (ab := a * b). replace (64 * a * b) with (64 * ab) in * by (unfold ab; ring). clearbody ab.
    destruct s; cbn [hfac vfac] in C |- *; rewrite (ull_small (wh * _)) by lia; rewrite ull_small by lia; lia.
Qed.
Print Assumptions C49_jpeg_bufsize.

(* Defect: the product of the padded dimensions is computed in int (turbojpeg.c:916), so for images the
   format allows (up to 65500 x 65500) the size overflows instead of being computed or rejected. *)
Theorem C49_jpeg_bufsize_refuted : exists width height, 1 <= width <= 65500 /\ 1 <= height <= 65500 /\ tj3JPEGBufSize width height 2 = Undef.
Proof. exists 65500, 65500. split; [lia|]. split; [lia|reflexivity]. Qed.

(* ---- non-vacuity ---- *)
Example ex_yuv : tj3YUVBufSize 35 4 39 2 = Ret (36 * 40 + 2 * (20 * 20)) /\ yuv_planes 35 4 39 2 = Ret [(0, 36); (1440, 20); (1840, 20)] /\
  tj3YUVPlaneSize 1 35 0 39 2 = Ret 360 /\ tj3JPEGBufSize 35 39 2 = Ret (48 * 48 * 3 + 2048).
Proof. split; [reflexivity|]. split; [reflexivity|]. split; reflexivity. Qed.
Lemma padded_intro v p q : v <= q * p < v + p -> padded v p (q * p).
Proof. intros H. split; [exists q; reflexivity|exact H]. Qed.
Example ex_layout : layout S420 35 4 39 0 36 40 36 /\ layout S420 35 4 39 1 18 20 20.
Proof.
  split; (split; [|split]).
  - exists 36. split; [apply (padded_intro 35 2 18); lia|reflexivity].
  - exists 40. split; [apply (padded_intro 39 2 20); lia|reflexivity].
  - apply (padded_intro 36 4 9); lia.
  - exists 36. split; [apply (padded_intro 35 2 18); lia|reflexivity].
  - exists 40. split; [apply (padded_intro 39 2 20); lia|reflexivity].
  - apply (padded_intro 18 4 5); lia.
Qed.
