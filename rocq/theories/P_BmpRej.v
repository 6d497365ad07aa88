(* P_BmpRej.v -- what a file accepted by the BMP reader must contain *)
From Verif Require Import Base M_Pnm S_Pnm P_Pnm P_Pnm2 P_Pnm3 M_Bmp S_Bmp P_Bmp P_Bmp2.

Lemma take_inv : forall {B} f k n (g : list Z * list Z -> outcome B) r, 0 <= k -> 0 <= n -> k <= zlen f -> bind (take n (zs k f)) g = Ret r ->
  k + n <= zlen f /\ g (slice k n f, zs (k + n) f) = Ret r.
Proof. intros B f k n g r H0 H1 H2 E. destruct (take_cases f k n H0 H1 H2) as [(X & _)|(L & X)]; rewrite X in E; [discriminate E|]. cbn [bind] in E. split; [lia|exact E]. Qed.
Lemma tail_inv : forall bpp w h cs' inv cmap dens pad k f src, 0 <= k <= zlen f ->
  (if pad <? 0 then Error JERR_OTHER else
      '(_, l) <- take pad (zs k f) ;;
      '(cs, comps, rw) <- read_layout bpp w cs' ;;
          if negb inv && (MAX_ALLOC_CHUNK <? rw) then Error JERR_OUT_OF_MEMORY
          else if 4294967295 <? w * comps then Error JERR_WIDTH_OVERFLOW
          else if MAX_ALLOC_CHUNK <? w * comps then Error JERR_OUT_OF_MEMORY
          else Ret (mkB bpp w h cs comps rw cmap dens l)) = Ret src ->
  0 <= pad /\ k + pad <= zlen f /\ b_w src = w /\ b_h src = h /\ b_bpp src = bpp.
Proof.
  intros bpp w h cs' inv cmap dens pad k f src Hk E. destruct (Z.ltb_spec pad 0); [discriminate E|]. apply take_inv in E; [|lia|lia|lia]. destruct E as (L & E).
  destruct (read_layout bpp w cs') as [[[cs comps] rw]| |]; cbn [bind] in E; [|discriminate E|discriminate E].
  destruct (negb inv && (MAX_ALLOC_CHUNK <? rw)); [discriminate E|]. destruct (4294967295 <? w * comps); [discriminate E|]. destruct (MAX_ALLOC_CHUNK <? w * comps); [discriminate E|].
  injection E as <-. cbn [b_w b_h b_bpp]. split; [lia|]. split; [lia|]. split; [reflexivity|]. split; reflexivity.
Qed.
Lemma magic_bytes : forall f, bytes f -> le2 f 0 = 19778 -> byte f 0 = 66 /\ byte f 1 = 77.
Proof. intros f Hb E. unfold le2 in E. change (0 + 1) with 1 in E. pose proof (byte_range f 0 Hb). pose proof (byte_range f 1 Hb). lia. Qed.
Lemma s32_pos : forall x, 0 <= x < 2 ^ 32 -> 0 < s32 x -> s32 x = x /\ x < 2 ^ 31.
Proof. intros x H P. pose proof (s32_range x). rewrite (s32_eq x H ltac:(lia)) in *. lia. Qed.
Lemma s32_neg : forall x, 0 <= x < 2 ^ 32 -> s32 x <= 0 -> x = 0 \/ 2 ^ 31 <= x.
Proof. intros x H P. destruct (Z.lt_ge_cases x (2 ^ 31)) as [L|L]; [|right; exact L]. rewrite s32_small in P by lia. left. lia. Qed.

(* the number of palette entries the reader takes from the file *)
Definition taken_colors (f : list Z) : Z := if f_old f then 256 else if (le4 f 46 =? 0) || (2 ^ 31 <=? le4 f 46) then 256 else le4 f 46.
Lemma start_inv : forall cs inv maxpix f src, bytes f -> start_input_bmp cs inv maxpix f = Ret src ->
  byte f 0 = 66 /\ byte f 1 = 77 /\ (f_hsize f = 12 \/ f_hsize f = 40 \/ f_hsize f = 64) /\ (f_bpp f = 8 \/ f_bpp f = 24 \/ f_bpp f = 32) /\
  f_planes f = 1 /\ f_compression f = 0 /\ b_w src = f_width f /\ b_h src = f_height f /\ b_bpp src = f_bpp f /\ (f_bpp f = 8 -> taken_colors f <= 256) /\
  14 + f_hsize f + (if f_bpp f =? 8 then taken_colors f * f_esize f else 0) <= f_offset f <= zlen f.
Proof.
  intros cs inv maxpix f src Hb E. unfold start_input_bmp in E. change (take 14 f) with (take 14 (zs 0 f)) in E.
  apply take_inv in E; [|lia|lia|lia]. destruct E as (L14 & E).
  rewrite get2_slice, get4_slice in E by lia. cbn [bind] in E. destruct (negb (le2 f (0 + 0) =? 19778)) eqn:MG; [discriminate E|]. apply negb_false_iff, Z.eqb_eq in MG. cbn [Z.add] in E, MG.
  destruct (magic_bytes f Hb MG) as (B0 & B1). apply take_inv in E; [|lia|lia|lia]. destruct E as (L18 & E).
  rewrite get4_slice in E by lia. cbn [bind Z.add Pos.add Pos.succ] in E. pose proof (le4_range f 10 Hb) as R10. pose proof (le4_range f 14 Hb) as R14.
  destruct ((s32 (le4 f 14) <? 12) || (64 <? s32 (le4 f 14)) || (s32 (le4 f 10) <? s32 (le4 f 14) + 14)) eqn:HS; [discriminate E|].
  apply orb_false_iff in HS. destruct HS as (HS & HO). apply orb_false_iff in HS. destruct HS as (HS1 & HS2). apply Z.ltb_ge in HO, HS1, HS2.
  destruct (s32_pos _ R14 ltac:(lia)) as (EH & _). destruct (s32_pos _ R10 ltac:(lia)) as (EO & _). rewrite EH, EO in *.
  apply take_inv in E; [|lia|lia|lia]. destruct E as (L & E).
  replace 18 with (14 + 4) in E at 1 by reflexivity. rewrite slice_app in E by lia. replace (4 + (le4 f 14 - 4)) with (le4 f 14) in E by lia. replace (18 + (le4 f 14 - 4)) with (14 + le4 f 14) in * by lia.
  set (hs := le4 f 14) in *.
  assert (INFO : (hs = 12 \/ hs = 40 \/ hs = 64) /\ (f_bpp f = 8 \/ f_bpp f = 24 \/ f_bpp f = 32) /\ f_compression f = 0 /\
    exists w h cu dens, read_info hs (slice 14 hs f) = Ret (w, h, f_planes f, f_bpp f, cu, f_esize f, dens) /\ (0 < w -> w = f_width f) /\ (0 < h -> h = f_height f) /\
     (cu <= 256 -> (if cu <=? 0 then 256 else cu) = taken_colors f)).
  { unfold f_bpp, f_compression, f_planes, f_width, f_height, f_esize, taken_colors, f_bpp, f_old, f_hsize. fold hs. destruct (read_info hs (slice 14 hs f)) as [i| |] eqn:RI; [|discriminate E|discriminate E]. clear E.
    destruct (Z.eqb_spec hs 12) as [E12|N12].
    - rewrite E12, info12 in RI by lia. split; [left; exact E12|]. destruct (Z.eqb_spec (le2 f 24) 8) as [E8|N8].
      + split; [left; exact E8|]. split; [reflexivity|]. injection RI as <-. do 4 eexists. split; [reflexivity|]. split; [reflexivity|]. split; reflexivity.
      + destruct ((le2 f 24 =? 24) || (le2 f 24 =? 32)) eqn:X; [|discriminate RI]. apply orb_true_iff in X. rewrite !Z.eqb_eq in X. split; [right; exact X|]. split; [reflexivity|].
        injection RI as <-. do 4 eexists. split; [reflexivity|]. split; [reflexivity|]. split; reflexivity.
    - assert (G : hs = 40 \/ hs = 64 \/ (hs <> 40 /\ hs <> 64)) by lia.
      assert (G' : hs = 40 \/ hs = 64).
      { destruct G as [G|[G|(G1 & G2)]]; [left; exact G|right; exact G|]. unfold read_info in RI. destruct (Z.eqb_spec hs 12); [contradiction|]. destruct (Z.eqb_spec hs 40); [contradiction|]. destruct (Z.eqb_spec hs 64); [contradiction|]. discriminate RI. }
      clear G. rewrite (info40 f hs G') in RI by lia. split; [right; exact G'|].
      destruct ((le2 f 28 =? 8) || (le2 f 28 =? 24) || (le2 f 28 =? 32)) eqn:X; cbn [negb] in RI; [|discriminate RI]. rewrite !orb_true_iff, !Z.eqb_eq in X. split; [tauto|].
      destruct (Z.eqb_spec (le4 f 30) 0) as [E30|]; cbn [negb] in RI; [|discriminate RI]. split; [exact E30|]. injection RI as <-. do 4 eexists. split; [reflexivity|].
      pose proof (le4_range f 18 Hb) as R18. pose proof (le4_range f 22 Hb) as R22. pose proof (le4_range f 46 Hb) as R46.
      split; [intros P; apply (s32_pos _ R18 P)|]. split; [intros P; apply (s32_pos _ R22 P)|]. intros _. destruct (Z.leb_spec (s32 (le4 f 46)) 0) as [P|P].
      + destruct (s32_neg _ R46 P) as [-> |Q]; [reflexivity|]. destruct (Z.eqb_spec (le4 f 46) 0); [reflexivity|]. rewrite (proj2 (Z.leb_le _ _) Q). reflexivity.
      + destruct (s32_pos _ R46 P) as (X2 & Q). rewrite X2 in P |- *. destruct (Z.eqb_spec (le4 f 46) 0); [lia|]. destruct (Z.leb_spec (2 ^ 31) (le4 f 46)); [lia|reflexivity]. }
  destruct INFO as (HH & HB & HC & w & h & cu & dens & RI & EW & EH2 & EC). rewrite RI in E. cbn [bind] in E.
  destruct ((w <=? 0) || (h <=? 0)) eqn:WH; [discriminate E|]. apply orb_false_iff in WH. rewrite !Z.leb_gt in WH. specialize (EW (proj1 WH)). specialize (EH2 (proj2 WH)).
  destruct (negb (maxpix =? 0) && (maxpix <? w * h)); [discriminate E|].
  destruct (negb (f_planes f =? 1)) eqn:PL; [discriminate E|]. apply negb_false_iff, Z.eqb_eq in PL.
  split; [exact B0|]. split; [exact B1|]. split; [exact HH|]. split; [exact HB|]. split; [exact PL|]. split; [exact HC|]. rewrite <- EW, <- EH2.
  assert (TC : 0 <= taken_colors f). { unfold taken_colors. pose proof (le4_range f 46 Hb). destruct (f_old f); [lia|]. destruct ((le4 f 46 =? 0) || (2 ^ 31 <=? le4 f 46)); lia. }
  destruct (Z.ltb_spec 0 (f_esize f)) as [P|P].
  - assert (E8 : f_bpp f = 8) by (unfold f_esize in P; destruct (Z.eqb_spec (f_bpp f) 8); [assumption|lia]). assert (ES : 3 <= f_esize f <= 4) by (unfold f_esize; rewrite E8; destruct (f_old f); change (8 =? 8) with true; cbv iota; lia).
    rewrite E8 in *. change (8 =? 8) with true. cbv iota. destruct (Z.ltb_spec 256 cu) as [|CU]; [discriminate E|]. rewrite (EC CU) in E.
    destruct (cmap_cases f (f_esize f) (Z.to_nat (taken_colors f)) (14 + hs) ES ltac:(lia)) as [(X & _)|(Lc & X)]; rewrite X in E; [discriminate E|]. cbn [bind] in E. rewrite Z2Nat.id in * by lia.
    match type of E with context [if ?c && negb ?g then Error _ else _] => destruct (c && negb g) end; [discriminate E|]. cbn [bind] in E.
    apply tail_inv in E; [|lia]. destruct E as (E1 & E2 & E3 & E4 & E5). split; [exact E3|]. split; [exact E4|]. split; [exact E5|]. split.
    + intros _. rewrite <- (EC CU). destruct (cu <=? 0); lia.
    + unfold f_offset, f_hsize. fold hs. lia.
  - assert (N8 : f_bpp f <> 8) by (unfold f_esize in P; intros E8; rewrite E8 in P; destruct (f_old f); change (8 =? 8) with true in P; cbv iota in P; lia).
    cbn [bind] in E. apply tail_inv in E; [|lia]. destruct E as (E1 & E2 & E3 & E4 & E5). split; [exact E3|]. split; [exact E4|]. split; [exact E5|]. split; [intros X; contradiction|].
    destruct (Z.eqb_spec (f_bpp f) 8); [contradiction|]. unfold f_offset, f_hsize. fold hs. lia.
Qed.
