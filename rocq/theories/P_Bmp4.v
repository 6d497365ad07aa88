(* P_Bmp4.v -- proofs about the BMP reader: colour spaces and rows *)
From Verif Require Import Base M_Pnm S_Pnm P_Pnm P_Pnm2 P_Pnm3 P_Pnm4 M_Bmp S_Bmp P_Bmp P_Bmp2 P_Bmp3.

Lemma ext_comps : forall cs, IsExtRGB cs = true -> aget t_psize cs = Ret (components cs) /\ 3 <= components cs <= 4 /\ comps_of cs (components cs).
Proof.
  intros cs K. destruct (psize_ext cs K) as (ps & E & P & R). destruct (ext_ne cs K) as (N1 & N2).
  assert (C : components cs = ps).
  { unfold components. destruct (Z.eqb_spec cs JCS_GRAYSCALE); [contradiction|]. destruct (Z.eqb_spec cs JCS_CMYK); [contradiction|]. destruct (aget_Ret _ _ _ 0 E) as (_ & X). exact X. }
  rewrite C. split; [exact E|]. split; [exact P|]. right; right. split; [exact K|exact E].
Qed.

(* what read_layout does with the colour space *)
Definition cs2 (f : list Z) (cs : Z) : Z :=
  let c := cs1 f cs in if c =? JCS_UNKNOWN then (if f_bpp f =? 8 then JCS_EXT_RGB else if f_bpp f =? 24 then 8 else 13) else c.
Lemma bmp_small : forall f, bmp_file f -> f_width f * (f_bpp f / 8) <= 1000000000 /\ pad4 (f_width f * (f_bpp f / 8)) = f_rowbytes f /\ 0 <= f_rowbytes f <= 1000000000 /\
  f_width f * (f_bpp f / 8) <= f_rowbytes f.
Proof.
  intros f H. destruct H as (_ & _ & _ & _ & Hbpp & _ & _ & Hw & _). assert (K : 1 <= f_bpp f / 8 <= 4) by (destruct Hbpp as [->|[->| ->]]; cbn; lia).
  assert (B : f_width f * (f_bpp f / 8) <= 1000000000) by nia. split; [exact B|]. destruct (pad4_small (f_width f * (f_bpp f / 8)) ltac:(nia)) as (P & Q).
  unfold f_rowbytes. rewrite <- P. split; [reflexivity|]. split; [|lia]. split; [apply pad4_nonneg|]. rewrite P.
  change 1000000000 with (250000000 * 4). apply Z.mul_le_mono_nonneg_r; [lia|]. apply Z.lt_succ_r. apply Z.div_lt_upper_bound; lia.
Qed.
Lemma start_rest : forall cs inv maxpix f c, bmp_file f -> (maxpix = 0 \/ f_width f * f_height f <= maxpix) ->
  cs2 f cs = c -> (IsExtRGB c = true \/ c = JCS_CMYK \/ (c = JCS_GRAYSCALE /\ f_bpp f = 8 /\ f_gray f = true)) ->
  start_input_bmp cs inv maxpix f = Ret (mkB (f_bpp f) (f_width f) (f_height f) c (components c) (f_rowbytes f) (f_cmap f) (f_dens f) (zs (f_offset f) f)) /\ comps_of c (components c).
Proof.
  intros cs inv maxpix f c H MP E K. rewrite start_head by assumption.
  assert (CC : comps_of c (components c)).
  { destruct K as [K|[->|(-> & _)]]; [apply ext_comps, K|right; left; split; reflexivity|left; split; reflexivity]. }
  assert (G : (f_bpp f =? 8) && (cs1 f cs =? JCS_GRAYSCALE) && negb (f_gray f) = false).
  { unfold cs2 in E. cbv zeta in E. destruct (Z.eqb_spec (cs1 f cs) JCS_GRAYSCALE) as [X|X]; [|rewrite andb_false_r; reflexivity]. rewrite X in E. cbn in E. subst c.
    destruct K as [K|[K|(_ & _ & K)]]; [discriminate K|discriminate K|rewrite K; apply andb_false_r]. }
  rewrite G. destruct (bmp_small f H) as (S1 & S2 & S3 & S4). unfold read_layout. cbv zeta.
  change (if cs1 f cs =? JCS_UNKNOWN then (if f_bpp f =? 8 then JCS_EXT_RGB else if f_bpp f =? 24 then 8 else 13) else cs1 f cs) with (cs2 f cs). rewrite E.
  pose proof H as HH. destruct HH as (_ & _ & _ & _ & Hbpp & _ & _ & Hw & _). pose proof (comps_pos _ _ CC) as CP.
  assert (KK : (if f_bpp f =? 8 then 1 else if f_bpp f =? 24 then 3 else 4) = f_bpp f / 8) by (destruct Hbpp as [->|[->| ->]]; reflexivity). rewrite KK.
  assert (A : (if IsExtRGB c then aget t_psize c else if (f_bpp f =? 8) && (c =? JCS_GRAYSCALE) then Ret 1 else if c =? JCS_CMYK then Ret 4 else Error JERR_BAD_IN_COLORSPACE) = Ret (components c)).
  { destruct K as [K|[->|(-> & -> & _)]]; [rewrite K; apply ext_comps, K| |reflexivity]. cbn. rewrite andb_false_r. reflexivity. }
  rewrite A. cbn [bind]. assert (W : negb (f_bpp f =? 8) && (4294967295 <? f_width f * (f_bpp f / 8)) = false).
  { destruct (Z.ltb_spec 4294967295 (f_width f * (f_bpp f / 8))); [lia|apply andb_false_r]. }
  rewrite W. cbn [bind]. rewrite S2. unfold MAX_ALLOC_CHUNK. destruct (Z.ltb_spec 1000000000 (f_rowbytes f)); [lia|]. rewrite andb_false_r.
  destruct (Z.ltb_spec 4294967295 (f_width f * components c)); [nia|]. destruct (Z.ltb_spec 1000000000 (f_width f * components c)); [nia|]. split; [reflexivity|exact CC].
Qed.
Lemma start_settles : forall cs inv maxpix f c, bmp_file f -> (maxpix = 0 \/ f_width f * f_height f <= maxpix) -> settles f cs (Some c) ->
  start_input_bmp cs inv maxpix f = Ret (mkB (f_bpp f) (f_width f) (f_height f) c (components c) (f_rowbytes f) (f_cmap f) (f_dens f) (zs (f_offset f) f)) /\ comps_of c (components c).
Proof.
  intros cs inv maxpix f c H MP S. inversion S as [E G K X|K G X|E G K X|E K X|E K X|]; subst.
  - apply gray_iff in G. apply start_rest; [exact H|exact MP| |right; right; split; [reflexivity|]; split; assumption].
    unfold cs2, cs1. rewrite E, G. destruct K as [->|[->| ->]]; reflexivity.
  - apply start_rest; [exact H|exact MP| |tauto]. unfold cs2, cs1. destruct (Z.eqb_spec c JCS_UNKNOWN) as [U|U]; [subst c; destruct K as [K|K]; discriminate K|]. cbn [orb].
    destruct (Z.eqb_spec (f_bpp f) 8) as [E|E]; [|destruct (Z.eqb_spec c JCS_UNKNOWN); [contradiction|reflexivity]].
    destruct (f_gray f) eqn:F; [|rewrite andb_false_r; destruct (Z.eqb_spec c JCS_UNKNOWN); [contradiction|reflexivity]].
    apply gray_iff in F. specialize (G E F). destruct (Z.eqb_spec c JCS_RGB); [contradiction|]. cbn [andb]. destruct (Z.eqb_spec c JCS_UNKNOWN); [contradiction|reflexivity].
  - apply start_rest; [exact H|exact MP| |left; reflexivity]. unfold cs2, cs1. rewrite E. assert (F : f_gray f = false). { destruct (f_gray f) eqn:F; [|reflexivity]. apply gray_iff in F. contradiction. } rewrite F. reflexivity.
  - apply start_rest; [exact H|exact MP| |left; reflexivity]. unfold cs2, cs1. rewrite E. reflexivity.
  - apply start_rest; [exact H|exact MP| |left; reflexivity]. unfold cs2, cs1. rewrite E. reflexivity.
Qed.
Lemma start_refuses : forall cs inv maxpix f, bmp_file f -> (maxpix = 0 \/ f_width f * f_height f <= maxpix) -> settles f cs None ->
  start_input_bmp cs inv maxpix f = Error JERR_BAD_IN_COLORSPACE.
Proof.
  intros cs inv maxpix f H MP S. rewrite start_head by assumption. inversion S as [| | | | |K1 K2 K3 K4]; subst.
  assert (R : cs <> JCS_RGB) by (intros ->; discriminate K1).
  assert (C1 : cs1 f cs = cs). { unfold cs1. destruct (Z.eqb_spec cs JCS_UNKNOWN); [contradiction|]. destruct (Z.eqb_spec cs JCS_RGB); [contradiction|]. cbn [orb andb]. destruct (f_bpp f =? 8); reflexivity. }
  rewrite C1. unfold read_layout. destruct (Z.eqb_spec cs JCS_UNKNOWN); [contradiction|]. cbv zeta. rewrite K1.
  destruct (Z.eqb_spec (f_bpp f) 8) as [E|E]; cbn [andb].
  - destruct (Z.eqb_spec cs JCS_GRAYSCALE) as [G|G]; cbn [andb].
    + destruct (f_gray f) eqn:F; [|reflexivity]. apply gray_iff in F. elim (K4 E F G).
    + destruct (Z.eqb_spec cs JCS_CMYK); [contradiction|]. reflexivity.
  - destruct (Z.eqb_spec cs JCS_CMYK); [contradiction|]. reflexivity.
Qed.
