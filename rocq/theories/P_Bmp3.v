(* P_Bmp3.v -- proofs about the BMP reader: well-formed headers *)
From Verif Require Import Base M_Pnm S_Pnm P_Pnm P_Pnm2 P_Pnm3 M_Bmp S_Bmp P_Bmp P_Bmp2.

(* the header fields once they are read *)
Definition f_cmap (f : list Z) : list (Z * Z * Z) :=
  if f_bpp f =? 8 then map (fun t => f_pal f (Z.of_nat t)) (seq 0 (Z.to_nat (f_colors f))) else [].
Definition f_dens (f : list Z) : option (Z * Z) := if f_old f then None else densv (f_xppm f) (f_yppm f).
Definition f_gray (f : list Z) : bool := forallb (fun t => isgray (f_pal f (Z.of_nat t))) (seq 0 (Z.to_nat (f_colors f))).

Lemma gray_iff : forall f, f_gray f = true <-> gray_palette f.
Proof.
  intros f. unfold f_gray, gray_palette. rewrite forallb_forall. split; intros H.
  - intros t Ht. specialize (H (Z.to_nat t)). rewrite in_seq in H. specialize (H ltac:(lia)). rewrite Z2Nat.id in H by lia.
    destruct (f_pal f t) as [[r g] b]. unfold isgray in H. apply andb_true_iff in H. rewrite !Z.eqb_eq in H. split; [symmetry; tauto|symmetry; tauto].
  - intros t Ht. apply in_seq in Ht. specialize (H (Z.of_nat t) ltac:(lia)). destruct (f_pal f (Z.of_nat t)) as [[r g] b]. unfold isgray. rewrite andb_true_iff, !Z.eqb_eq. split; symmetry; tauto.
Qed.

(* colour space after the palette *)
Definition cs1 (f : list Z) (cs : Z) : Z :=
  if f_bpp f =? 8 then (if ((cs =? JCS_UNKNOWN) || (cs =? JCS_RGB)) && f_gray f then JCS_GRAYSCALE else cs) else cs.

Lemma start_head : forall cs inv maxpix f, bmp_file f -> (maxpix = 0 \/ f_width f * f_height f <= maxpix) ->
  start_input_bmp cs inv maxpix f =
  if (f_bpp f =? 8) && (cs1 f cs =? JCS_GRAYSCALE) && negb (f_gray f) then Error JERR_BAD_IN_COLORSPACE
  else '(cs', comps, rw) <- read_layout (f_bpp f) (f_width f) (cs1 f cs) ;;
       if negb inv && (MAX_ALLOC_CHUNK <? rw) then Error JERR_OUT_OF_MEMORY
       else if 4294967295 <? f_width f * comps then Error JERR_WIDTH_OVERFLOW
       else if MAX_ALLOC_CHUNK <? f_width f * comps then Error JERR_OUT_OF_MEMORY
       else Ret (mkB (f_bpp f) (f_width f) (f_height f) cs' comps rw (f_cmap f) (f_dens f) (zs (f_offset f) f)).
Proof.
  intros cs inv maxpix f H MP. destruct H as (Hb & B0 & B1 & Hs & Hbpp & Hpl & Hcomp & Hw & Hh & Hcol & Hoff & Hlen & _).
  change (2 ^ 31) with 2147483648 in *.
  assert (RB : 0 <= f_rowbytes f).
  { unfold f_rowbytes. assert (0 <= f_bpp f / 8) by (destruct Hbpp as [->|[->| ->]]; cbn; lia). pose proof (Z.div_pos (f_width f * (f_bpp f / 8) + 3) 4 ltac:(nia) ltac:(lia)). lia. }
  assert (ES : f_bpp f = 8 -> 3 <= f_esize f <= 4) by (intros E; unfold f_esize; rewrite E; destruct (f_old f); cbn; lia).
  assert (CO : 0 < f_colors f).
  { unfold f_colors. destruct (f_old f); [lia|]. destruct (Z.eqb_spec (le4 f 46) 0); [lia|]. pose proof (le4_range f 46 Hb). lia. }
  assert (OF : 14 + f_hsize f + (if f_bpp f =? 8 then f_colors f * f_esize f else 0) <= f_offset f <= zlen f) by nia.
  assert (OF2 : 14 + f_hsize f <= f_offset f).
  { destruct (Z.eqb_spec (f_bpp f) 8) as [E|E]; [specialize (ES E); nia|lia]. }
  unfold start_input_bmp. change (take 14 f) with (take 14 (zs 0 f)). rewrite take_ok by lia. cbn [bind].
  rewrite get2_slice, get4_slice by lia. cbn [bind Z.add Pos.add Pos.succ].
  replace (le2 f 0) with 19778 by (unfold le2; cbn [Z.add]; rewrite B0, B1; reflexivity). change (negb (19778 =? 19778)) with false. cbv iota.
  rewrite take_ok by lia. cbn [bind]. rewrite get4_slice by lia. cbn [bind Z.add Pos.add Pos.succ].
  fold (f_offset f). fold (f_hsize f). rewrite (s32_small (f_offset f)), (s32_small (f_hsize f)) by lia.
  destruct (Z.ltb_spec (f_hsize f) 12); [lia|]. destruct (Z.ltb_spec 64 (f_hsize f)); [lia|]. destruct (Z.ltb_spec (f_offset f) (f_hsize f + 14)); [lia|]. cbn [orb].
  rewrite take_ok by lia. cbn [bind]. replace 18 with (14 + 4) at 1 2 by reflexivity. rewrite slice_app by lia.
  replace (4 + (f_hsize f - 4)) with (f_hsize f) by lia. replace (14 + 4 + (f_hsize f - 4)) with (14 + f_hsize f) by lia. replace (18 + (f_hsize f - 4)) with (14 + f_hsize f) by lia.
  assert (INFO : exists cu es, read_info (f_hsize f) (slice 14 (f_hsize f) f) = Ret (f_width f, f_height f, 1, f_bpp f, cu, es, f_dens f) /\
    es = f_esize f /\ (f_bpp f = 8 -> (256 <? cu) = false /\ (if cu <=? 0 then 256 else cu) = f_colors f)).
  { unfold f_dens, f_colors, f_esize, f_width, f_height, f_bpp, f_planes, f_compression, f_colors in *. destruct (Z.eqb_spec (f_hsize f) 12) as [E|E]; [assert (O : f_old f = true) by (unfold f_old; rewrite E; reflexivity)|assert (O : f_old f = false) by (unfold f_old; apply Z.eqb_neq; exact E)];
      rewrite O in *.
    - rewrite E, info12 by lia. rewrite Hpl. destruct Hbpp as [K|[K|K]]; rewrite K in *; do 2 eexists; (split; [reflexivity|]); (split; [reflexivity|]); intros X; try lia. split; reflexivity.
    - rewrite info40 by lia. rewrite Hpl, Hcomp. destruct Hbpp as [K|[K|K]]; rewrite K in *; cbn [Z.eqb Pos.eqb orb negb]; rewrite (s32_small (le4 f 18)), (s32_small (le4 f 22)) by lia;
        do 2 eexists; (split; [reflexivity|]); (split; [reflexivity|]); intros X; try lia.
      specialize (Hcol eq_refl). pose proof (le4_range f 46 Hb) as R. destruct (Z.eqb_spec (le4 f 46) 0) as [Z0|Z0].
      + rewrite Z0. split; reflexivity.
      + rewrite s32_small by lia. destruct (Z.ltb_spec 256 (le4 f 46)); [lia|]. destruct (Z.leb_spec (le4 f 46) 0); [lia|]. split; reflexivity. }
  destruct INFO as (cu & es & -> & -> & Hcu). cbn [bind].
  destruct (Z.leb_spec (f_width f) 0); [lia|]. destruct (Z.leb_spec (f_height f) 0); [lia|]. cbn [orb].
  assert (MP' : negb (maxpix =? 0) && (maxpix <? f_width f * f_height f) = false).
  { destruct MP as [->|MP]; [reflexivity|]. destruct (Z.ltb_spec maxpix (f_width f * f_height f)); [lia|]. apply andb_false_r. }
  rewrite MP'. change (negb (1 =? 1)) with false. cbv iota.
  unfold cs1, f_cmap in *. destruct (Z.eqb_spec (f_bpp f) 8) as [E8|E8].
  - specialize (ES E8). destruct (Hcu E8) as (C1 & C2). destruct (Z.ltb_spec 0 (f_esize f)); [|lia]. rewrite C1, C2.
    destruct (cmap_cases f (f_esize f) (Z.to_nat (f_colors f)) (14 + f_hsize f) ltac:(lia) ltac:(lia)) as [(_ & X)|(_ & ->)]; [rewrite Z2Nat.id in X by lia; lia|].
    cbn [bind]. rewrite Z2Nat.id by lia.
    change (forallb (fun t => isgray (pent f (14 + f_hsize f) (f_esize f) (Z.of_nat t))) (seq 0 (Z.to_nat (f_colors f)))) with (f_gray f). cbn [andb].
    match goal with |- context [if ?c && negb (f_gray f) then Error _ else _] => destruct (c && negb (f_gray f)) end; [reflexivity|]. cbn [bind].
    match goal with |- context [if ?c <? 0 then _ else _] => destruct (Z.ltb_spec c 0) end; [lia|].
    rewrite take_ok by lia. cbn [bind].
    replace (14 + f_hsize f + f_colors f * f_esize f + (f_offset f - (f_hsize f + 14) - f_colors f * f_esize f)) with (f_offset f) by lia. reflexivity.
  - replace (f_esize f) with 0 by (unfold f_esize; destruct (Z.eqb_spec (f_bpp f) 8); [contradiction|reflexivity]). change (0 <? 0) with false. cbv iota. cbn [bind andb].
    destruct (Z.ltb_spec (f_offset f - (f_hsize f + 14)) 0); [lia|]. rewrite take_ok by lia. cbn [bind].
    replace (14 + f_hsize f + (f_offset f - (f_hsize f + 14))) with (f_offset f) by lia. reflexivity.
Qed.
