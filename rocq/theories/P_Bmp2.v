(* P_Bmp2.v -- proofs about the BMP reader: the header *)
From Verif Require Import Base M_Pnm S_Pnm P_Pnm P_Pnm2 P_Pnm3 M_Bmp S_Bmp P_Bmp.

Definition densv (x y : Z) : option (Z * Z) :=
  if (0 <? s32 x) && (0 <? s32 y) then Some (u16 (Z.quot (s32 x) 100), u16 (Z.quot (s32 y) 100)) else None.
Lemma info12 : forall f, 26 <= zlen f -> read_info 12 (slice 14 12 f) =
  if le2 f 24 =? 8 then Ret (le2 f 18, le2 f 20, le2 f 22, le2 f 24, 0, 3, None)
  else if (le2 f 24 =? 24) || (le2 f 24 =? 32) then Ret (le2 f 18, le2 f 20, le2 f 22, le2 f 24, 0, 0, None) else Error JERR_OTHER.
Proof. intros f H. unfold read_info. change (12 =? 12) with true. cbv iota. rewrite !get2_slice by lia. reflexivity. Qed.
Lemma info40 : forall f hs, hs = 40 \/ hs = 64 -> 14 + hs <= zlen f -> read_info hs (slice 14 hs f) =
  if negb ((le2 f 28 =? 8) || (le2 f 28 =? 24) || (le2 f 28 =? 32)) then Error JERR_OTHER
  else if negb (le4 f 30 =? 0) then Error JERR_OTHER
  else Ret (s32 (le4 f 18), s32 (le4 f 22), le2 f 26, le2 f 28, s32 (le4 f 46), (if le2 f 28 =? 8 then 4 else 0), densv (le4 f 38) (le4 f 42)).
Proof.
  intros f hs K H. unfold read_info. replace (hs =? 12) with false by (destruct K as [->| ->]; reflexivity). replace ((hs =? 40) || (hs =? 64)) with true by (destruct K as [->| ->]; reflexivity).
  rewrite !get2_slice, !get4_slice by lia. reflexivity.
Qed.

Lemma le4_word : forall f o, byte f o + 256 * byte f (o + 1) + 65536 * (byte f (o + 2) + 256 * byte f (o + 3)) = le4 f o.
Proof. intros. unfold le4, le2. replace (o + 2 + 1) with (o + 3) by lia. reflexivity. Qed.

Definition b_ok (src : bsrc) : Prop :=
  (b_bpp src = 8 \/ b_bpp src = 24 \/ b_bpp src = 32) /\ 1 <= b_w src < 2 ^ 31 /\ 1 <= b_h src < 2 ^ 31 /\
  comps_of (b_cs src) (b_comps src) /\ b_w src * b_comps src <= 1000000000 /\
  (b_bpp src = 8 -> b_w src <= b_rw src) /\
  (b_bpp src = 24 -> b_rw src = pad4 (b_w src * 3)) /\ (b_bpp src = 32 -> b_rw src = pad4 (b_w src * 4)) /\
  (b_bpp src <> 8 -> 3 <= b_comps src) /\ 0 <= b_rw src /\ 0 <= b_cs src <= 16.

Lemma pad4_small : forall x, 0 <= x <= 4000000000 -> pad4 x = (x + 3) / 4 * 4 /\ x <= pad4 x <= x + 3.
Proof.
  intros x H. unfold pad4, u32. change (2 ^ 32) with 4294967296. pose proof (Z.div_mod (x + 3) 4 ltac:(lia)). pose proof (Z.mod_pos_bound (x + 3) 4 ltac:(lia)).
  rewrite Z.mod_small by lia. lia.
Qed.
Lemma pad4_nonneg : forall x, 0 <= pad4 x.
Proof. intros. unfold pad4, u32. apply Z.mod_pos_bound. reflexivity. Qed.

Lemma psize_ext : forall cs, IsExtRGB cs = true -> exists ps, aget t_psize cs = Ret ps /\ 3 <= ps <= 4 /\ 0 <= cs <= 16.
Proof.
  intros cs K. destruct (layout_ex cs K) as (ri & gi & bi & ai & ps & L). destruct L as (_ & _ & _ & _ & L5 & L6 & _). exists ps. split; [exact L5|]. split; [exact L6|].
  unfold IsExtRGB, JCS_RGB in K. destruct (Z.eqb_spec cs 2); [lia|]. cbn [orb] in K. apply andb_true_iff in K. rewrite !Z.leb_le in K. lia.
Qed.

Lemma layout_cases : forall bpp w cs, (bpp = 8 \/ bpp = 24 \/ bpp = 32) -> 1 <= w < 2 ^ 31 ->
  (exists e, read_layout bpp w cs = Error e) \/
  exists cs' n, read_layout bpp w cs = Ret (cs', n, pad4 (w * (bpp / 8))) /\ comps_of cs' n /\ (bpp <> 8 -> 3 <= n) /\ 0 <= cs' <= 16.
Proof.
  intros bpp w cs Hb Hw. unfold read_layout.
  set (cs' := if cs =? JCS_UNKNOWN then _ else cs).
  assert (KK : (if bpp =? 8 then 1 else if bpp =? 24 then 3 else 4) = bpp / 8) by (destruct Hb as [->|[->| ->]]; reflexivity). rewrite KK.
  assert (D : forall n, comps_of cs' n -> 0 <= cs' <= 16 -> (bpp <> 8 -> 3 <= n) ->
    (exists e, (if negb (bpp =? 8) && (4294967295 <? w * (bpp / 8)) then Error JERR_WIDTH_OVERFLOW else Ret (cs', n, pad4 (w * (bpp / 8)))) = Error e) \/
    exists cs2 n2, (if negb (bpp =? 8) && (4294967295 <? w * (bpp / 8)) then Error JERR_WIDTH_OVERFLOW else Ret (cs', n, pad4 (w * (bpp / 8)))) = Ret (cs2, n2, pad4 (w * (bpp / 8))) /\ comps_of cs2 n2 /\ (bpp <> 8 -> 3 <= n2) /\ 0 <= cs2 <= 16).
  { intros n C R N. destruct (Z.eqb_spec bpp 8) as [E|E]; cbn [negb andb].
    - right. exists cs', n. split; [reflexivity|]. split; [exact C|]. split; [intros X; contradiction|exact R].
    - destruct (Z.ltb_spec 4294967295 (w * (bpp / 8))); [left; eexists; reflexivity|]. right. exists cs', n. split; [reflexivity|]. split; [exact C|]. split; [exact N|exact R]. }
  clearbody cs'. destruct (IsExtRGB cs') eqn:X.
  - destruct (psize_ext cs' X) as (ps & E & P & R). rewrite E. cbn [bind]. apply D; [|exact R|lia]. right; right. split; assumption.
  - destruct ((bpp =? 8) && (cs' =? JCS_GRAYSCALE)) eqn:Y.
    + apply andb_true_iff in Y. destruct Y as (Y8 & Y). apply Z.eqb_eq in Y, Y8. cbn [bind]. apply D; [left; split; [exact Y|reflexivity]|unfold JCS_GRAYSCALE in *; lia|lia].
    + destruct (Z.eqb_spec cs' JCS_CMYK) as [Z|Z]; [|left; eexists; reflexivity]. cbn [bind]. apply D; [right; left; split; [exact Z|reflexivity]|unfold JCS_CMYK in *; lia|lia].
Qed.

Lemma comps_range : forall cs n, comps_of cs n -> 1 <= n <= 4.
Proof. exact comps_pos. Qed.

Lemma start_tail_safe : forall bpp w h cs inv cmap dens l, (bpp = 8 \/ bpp = 24 \/ bpp = 32) -> 1 <= w < 2 ^ 31 -> 1 <= h < 2 ^ 31 ->
  let r := '(cs, comps, rw) <- read_layout bpp w cs ;;
          if negb inv && (MAX_ALLOC_CHUNK <? rw) then Error JERR_OUT_OF_MEMORY
          else if 4294967295 <? w * comps then Error JERR_WIDTH_OVERFLOW
          else if MAX_ALLOC_CHUNK <? w * comps then Error JERR_OUT_OF_MEMORY
          else Ret (mkB bpp w h cs comps rw cmap dens l) in
  (exists e, r = Error e) \/ exists src, r = Ret src /\ b_ok src /\ b_w src = w /\ b_h src = h /\ b_file src = l.
Proof.
  intros bpp w h cs inv cmap dens l Hb Hw Hh r. unfold r. clear r. destruct (layout_cases bpp w cs Hb Hw) as [(e & ->)|(cs' & n & -> & C & W & R)]; [left; eexists; reflexivity|]. cbn [bind].
  destruct (negb inv && (MAX_ALLOC_CHUNK <? pad4 (w * (bpp / 8)))); [left; eexists; reflexivity|].
  destruct (4294967295 <? w * n); [left; eexists; reflexivity|]. destruct (Z.ltb_spec MAX_ALLOC_CHUNK (w * n)); [left; eexists; reflexivity|].
  right. eexists. split; [reflexivity|]. unfold b_ok. cbn. split; [|split; [reflexivity|split; reflexivity]]. unfold MAX_ALLOC_CHUNK in *.
  split; [exact Hb|]. split; [exact Hw|]. split; [exact Hh|]. split; [exact C|]. split; [assumption|]. split.
  { intros ->. change (8 / 8) with 1. pose proof (pad4_small (w * 1)) as P. change (2 ^ 31) with 2147483648 in Hw. lia. }
  split; [intros ->; reflexivity|]. split; [intros ->; reflexivity|]. split; [exact W|]. split; [apply pad4_nonneg|exact R].
Qed.

Lemma start_safe_b : forall cs inv maxpix f, bytes f ->
  (exists e, start_input_bmp cs inv maxpix f = Error e) \/
  exists src, start_input_bmp cs inv maxpix f = Ret src /\ b_ok src /\ (maxpix = 0 \/ b_w src * b_h src <= maxpix) /\ exists k, 0 <= k <= zlen f /\ b_file src = zs k f.
Proof.
  intros cs inv maxpix f Hb. unfold start_input_bmp. change (take 14 f) with (take 14 (zs 0 f)).
  destruct (take_cases f 0 14 ltac:(lia) ltac:(lia) ltac:(lia)) as [(-> & _)|(L14 & ->)]; [left; eexists; reflexivity|]. cbn [bind].
  rewrite get2_slice, get4_slice by lia. cbn [bind]. destruct (negb (le2 f (0 + 0) =? 19778)); [left; eexists; reflexivity|]. cbn [Z.add].
  destruct (take_cases f 14 4 ltac:(lia) ltac:(lia) ltac:(lia)) as [(-> & _)|(L18 & ->)]; [left; eexists; reflexivity|]. cbn [bind].
  rewrite get4_slice by lia. cbn [bind Z.add Pos.add Pos.succ]. set (off := s32 (le4 f 10)). set (hs := s32 (le4 f 14)).
  destruct ((hs <? 12) || (64 <? hs) || (off <? hs + 14)) eqn:HS; [left; eexists; reflexivity|].
  apply orb_false_iff in HS. destruct HS as (HS & HO). apply orb_false_iff in HS. destruct HS as (HS1 & HS2). apply Z.ltb_ge in HO, HS1, HS2.
  destruct (take_cases f 18 (hs - 4) ltac:(lia) ltac:(lia) ltac:(lia)) as [(-> & _)|(L & ->)]; [left; eexists; reflexivity|]. cbn [bind].
  replace 18 with (14 + 4) at 1 2 by reflexivity. rewrite slice_app by lia. replace (4 + (hs - 4)) with hs by lia. replace (18 + (hs - 4)) with (14 + hs) in * by lia.
  assert (INFO : (exists e, read_info hs (slice 14 hs f) = Error e) \/ exists w h pl bpp cu es dens, read_info hs (slice 14 hs f) = Ret (w, h, pl, bpp, cu, es, dens) /\
     (bpp = 8 \/ bpp = 24 \/ bpp = 32) /\ w < 2 ^ 31 /\ h < 2 ^ 31 /\ (0 < es -> 3 <= es <= 4)).
  { destruct (Z.eqb_spec hs 12) as [E|E].
    - clearbody hs. subst hs. rewrite info12 by lia. pose proof (le2_range f 18 Hb). pose proof (le2_range f 20 Hb). change (2 ^ 31) with 2147483648.
      destruct (Z.eqb_spec (le2 f 24) 8).
      + right. do 7 eexists. split; [reflexivity|]. lia.
      + destruct ((le2 f 24 =? 24) || (le2 f 24 =? 32)) eqn:X; [|left; eexists; reflexivity]. apply orb_true_iff in X. rewrite !Z.eqb_eq in X. right. do 7 eexists. split; [reflexivity|]. lia.
    - assert (G : hs = 40 \/ hs = 64 \/ (hs <> 40 /\ hs <> 64)) by lia. destruct G as [G|[G|G]].
      3:{ left. unfold read_info. destruct (Z.eqb_spec hs 12); [contradiction|]. destruct (Z.eqb_spec hs 40); [lia|]. destruct (Z.eqb_spec hs 64); [lia|]. eexists; reflexivity. }
      all: rewrite info40 by (try tauto; lia); destruct ((le2 f 28 =? 8) || (le2 f 28 =? 24) || (le2 f 28 =? 32)) eqn:X; cbn [negb]; [|left; eexists; reflexivity];
        destruct (le4 f 30 =? 0); cbn [negb]; [|left; eexists; reflexivity]; apply orb_true_iff in X; rewrite orb_true_iff, !Z.eqb_eq in X; right; do 7 eexists; (split; [reflexivity|]);
        pose proof (s32_range (le4 f 18)); pose proof (s32_range (le4 f 22)); (split; [tauto|]); (split; [lia|]); (split; [lia|]); destruct (le2 f 28 =? 8); lia. }
  destruct INFO as [(e & ->)|(w & h & pl & bpp & cu & es & dens & -> & Hbpp & Hw & Hh & Hes)]; [left; eexists; reflexivity|]. cbn [bind].
  destruct ((w <=? 0) || (h <=? 0)) eqn:WH; [left; eexists; reflexivity|]. apply orb_false_iff in WH. rewrite !Z.leb_gt in WH.
  destruct (negb (maxpix =? 0) && (maxpix <? w * h)) eqn:MP; [left; eexists; reflexivity|].
  assert (MP' : maxpix = 0 \/ w * h <= maxpix).
  { apply andb_false_iff in MP. destruct MP as [MP|MP]; [left; apply negb_false_iff, Z.eqb_eq in MP; exact MP|right; apply Z.ltb_ge in MP; exact MP]. }
  destruct (negb (pl =? 1)); [left; eexists; reflexivity|].
  assert (TAIL : forall cs' cmap pad k, 0 <= k <= zlen f ->
    let r := (if pad <? 0 then Error JERR_OTHER else
      '(_, l) <- take pad (zs k f) ;;
      '(cs, comps, rw) <- read_layout bpp w cs' ;;
          if negb inv && (MAX_ALLOC_CHUNK <? rw) then Error JERR_OUT_OF_MEMORY
          else if 4294967295 <? w * comps then Error JERR_WIDTH_OVERFLOW
          else if MAX_ALLOC_CHUNK <? w * comps then Error JERR_OUT_OF_MEMORY
          else Ret (mkB bpp w h cs comps rw cmap dens l)) in
    (exists e, r = Error e) \/ exists src, r = Ret src /\ b_ok src /\ (maxpix = 0 \/ b_w src * b_h src <= maxpix) /\ exists k, 0 <= k <= zlen f /\ b_file src = zs k f).
  { intros cs' cmap pad k Hk. destruct (Z.ltb_spec pad 0); [left; eexists; reflexivity|].
    destruct (take_cases f k pad ltac:(lia) ltac:(lia) ltac:(lia)) as [(-> & _)|(Lp & ->)]; [left; eexists; reflexivity|]. cbn [bind]. cbv zeta.
    destruct (start_tail_safe bpp w h cs' inv cmap dens (zs (k + pad) f) Hbpp ltac:(lia) ltac:(lia)) as [(e & ->)|(src & -> & A & B & C & FK)]; [left; eexists; reflexivity|].
    right. exists src. split; [reflexivity|]. split; [exact A|]. split; [rewrite B, C; exact MP'|]. exists (k + pad). split; [lia|exact FK]. }
  destruct (Z.ltb_spec 0 es).
  - specialize (Hes ltac:(assumption)). destruct (256 <? cu); [left; eexists; reflexivity|]. set (n := if cu <=? 0 then 256 else cu).
    destruct (cmap_cases f es (Z.to_nat n) (14 + hs) Hes ltac:(lia)) as [(-> & _)|(Lc & ->)]; [left; eexists; reflexivity|]. cbn [bind].
    match goal with |- context [if ?c && negb ?g then Error _ else _] => destruct (c && negb g) end; [left; eexists; reflexivity|]. cbn [bind]. apply TAIL. lia.
  - cbn [bind]. apply TAIL. lia.
Qed.
