(* P_Bmp8.v -- proofs about the BMP writer: the file it writes *)
From Verif Require Import Base M_Pnm S_Pnm P_Pnm P_Pnm2 P_Pnm3 P_Pnm4 M_Bmp S_Bmp P_Bmp P_Bmp2 P_Bmp3 P_Bmp7.

Definition esz (p : wparm) : Z := if w_os2 p then 3 else 4.
Definition ent (p : wparm) : Z := if full_color p then 0 else 256.
Definition hsz (p : wparm) : Z := 14 + (if w_os2 p then 12 else 40) + ent p * esz p.
Definition hdr (p : wparm) : list Z :=
  ([66; 77] ++ put4 (hsz p + out_row_width p * w_h p) ++ [0; 0; 0; 0] ++ put4 (hsz p)) ++
  (if w_os2 p then put2 12 ++ [0; 0] ++ put2 (w_w p) ++ put2 (w_h p) ++ put2 1 ++ put2 (bppv p)
   else put2 40 ++ [0; 0] ++ put4 (w_w p) ++ put4 (w_h p) ++ put2 1 ++ put2 (bppv p) ++
        [0; 0; 0; 0] ++ [0; 0; 0; 0] ++
        match w_dens p with Some (x, y) => put4 (x * 100) ++ put4 (y * 100) | None => [0; 0; 0; 0; 0; 0; 0; 0] end ++
        put2 (ent p) ++ [0; 0] ++ [0; 0; 0; 0]).
Definition wpal (p : wparm) : list (Z * Z * Z) :=
  let m := match w_map p with Some m => m | None => map (fun i => (Z.of_nat i, Z.of_nat i, Z.of_nat i)) (seq 0 256) end in
  m ++ repeat (0, 0, 0) (256 - length m).
Definition cmb (p : wparm) : list Z := if full_color p then [] else flat_map (cmap_entry (esz p)) (wpal p).

Lemma byte_app1 : forall a b o, 0 <= o < zlen a -> byte (a ++ b) o = byte a o.
Proof. intros. unfold byte. apply app_nth1. lia. Qed.
Lemma byte_app2 : forall a b o, zlen a <= o -> byte (a ++ b) o = byte b (o - zlen a).
Proof. intros. unfold byte. rewrite app_nth2 by lia. f_equal. lia. Qed.

Lemma cme_len : forall p e, length (cmap_entry (esz p) e) = Z.to_nat (esz p).
Proof. intros p [[r g] b]. unfold cmap_entry, esz. destruct (w_os2 p); reflexivity. Qed.
Lemma map_short : forall p rows, writable p rows -> match w_map p with Some m => (length m <= 256)%nat | None => True end.
Proof. intros p rows (_ & _ & _ & _ & _ & H & _). destruct (w_map p); [apply H|exact Logic.I]. Qed.
Lemma wpal_len : forall p rows, writable p rows -> length (wpal p) = 256%nat.
Proof.
  intros p rows H. apply map_short in H. unfold wpal. cbv zeta. rewrite app_length, repeat_length. destruct (w_map p) as [m|]; [lia|]. rewrite map_length, seq_length. reflexivity.
Qed.
Lemma hdr_len : forall p, zlen (hdr p) = if w_os2 p then 26 else 54.
Proof. intros p. unfold hdr. destruct (w_os2 p); [reflexivity|]. destruct (w_dens p) as [[x y]|]; reflexivity. Qed.
Lemma cmb_len : forall p rows, writable p rows -> zlen (cmb p) = ent p * esz p.
Proof.
  intros p rows H. unfold cmb, ent. destruct (full_color p); [reflexivity|]. rewrite (flat_len _ _ _ (cme_len p)), (wpal_len p rows H). unfold esz. destruct (w_os2 p); reflexivity.
Qed.

Lemma write_ok : forall p inv rows, writable p rows -> write_bmp p inv rows = Ret (hdr p ++ cmb p ++ flat_map (rowb p) (if inv then rev rows else rows)).
Proof.
  intros p inv rows H. pose proof H as HH. destruct HH as (Hc & _). unfold write_bmp.
  assert (C : (w_cs p =? JCS_GRAYSCALE) || IsExtRGB (w_cs p) || negb (is_mapped p) && (w_cs p =? JCS_CMYK) = true).
  { unfold is_mapped. destruct Hc as [->|[->|(-> & ->)]]; [reflexivity|rewrite orb_true_r; reflexivity|reflexivity]. }
  rewrite C. assert (HD : write_header p = Ret (hdr p ++ cmb p)).
  { unfold write_header, hdr, cmb, hsz, ent, esz, bppv. cbv zeta. destruct (full_color p); [cbn [bind]; rewrite !app_nil_r; reflexivity|]. unfold write_colormap. fold (wpal p). cbv zeta.
    pose proof (map_short p rows H) as MS. match goal with |- context [256 <? ?x] => assert (X : (256 <? x) = false) end.
    { apply Z.ltb_ge. destruct (w_map p) as [m|]; [lia|]. rewrite map_length, seq_length. lia. }
    rewrite X. cbn [bind]. rewrite <- app_assoc. reflexivity. }
  rewrite HD. cbn [bind]. rewrite (write_rows_ok p rows) by first [exact H | intros r Hr; destruct inv; [apply in_rev; exact Hr|exact Hr]].
  cbn [bind]. rewrite <- app_assoc. reflexivity.
Qed.

Section F.
Variables (p : wparm) (rows : list (list Z)).
Hypothesis H : writable p rows.
Lemma w_dims : 1 <= w_w p <= 65535 /\ 1 <= w_h p <= 65535.
Proof. destruct H as (_ & A & B & _). split; assumption. Qed.
Lemma hsz_range : 26 <= hsz p <= 1078.
Proof. unfold hsz, ent, esz. destruct (w_os2 p), (full_color p); lia. Qed.
Lemma F_offset : forall X, f_offset (hdr p ++ X) = hsz p.
Proof.
  intros X. etransitivity; [|apply put4_val; pose proof hsz_range; lia]. unfold f_offset, hdr. destruct (w_os2 p); [reflexivity|]. destruct (w_dens p) as [[x y]|]; reflexivity.
Qed.
Lemma F_size : forall X, hsz p + out_row_width p * w_h p < 4294967296 -> le4 (hdr p ++ X) 2 = hsz p + out_row_width p * w_h p.
Proof.
  intros X K. etransitivity; [|apply put4_val]. { unfold hdr. destruct (w_os2 p); [reflexivity|]. destruct (w_dens p) as [[x y]|]; reflexivity. }
  pose proof hsz_range. destruct w_dims. destruct (out_width_val p ltac:(assumption)) as (_ & B). unfold bppv in B. assert (0 <= out_row_width p) by (destruct (full_color p); [change (24 / 8) with 3 in B|change (8 / 8) with 1 in B]; lia). nia.
Qed.
Lemma F_hsize : forall X, f_hsize (hdr p ++ X) = if w_os2 p then 12 else 40.
Proof. intros X. unfold f_hsize, hdr. destruct (w_os2 p); [reflexivity|]. destruct (w_dens p) as [[x y]|]; reflexivity. Qed.
Lemma F_old : forall X, f_old (hdr p ++ X) = w_os2 p.
Proof. intros X. unfold f_old. rewrite F_hsize. destruct (w_os2 p); reflexivity. Qed.
Lemma F_width : forall X, f_width (hdr p ++ X) = w_w p.
Proof.
  intros X. unfold f_width. rewrite F_old. destruct w_dims as (A & B). unfold hdr. destruct (w_os2 p).
  - etransitivity; [|apply put2_val; lia]. reflexivity.
  - etransitivity; [|apply put4_val; lia]. destruct (w_dens p) as [[x y]|]; reflexivity.
Qed.
Lemma F_height : forall X, f_height (hdr p ++ X) = w_h p.
Proof.
  intros X. unfold f_height. rewrite F_old. destruct w_dims as (A & B). unfold hdr. destruct (w_os2 p).
  - etransitivity; [|apply put2_val; lia]. reflexivity.
  - etransitivity; [|apply put4_val; lia]. destruct (w_dens p) as [[x y]|]; reflexivity.
Qed.
Lemma F_bpp : forall X, f_bpp (hdr p ++ X) = bppv p.
Proof.
  intros X. unfold f_bpp. rewrite F_old. unfold hdr, bppv. destruct (w_os2 p), (full_color p); try reflexivity; destruct (w_dens p) as [[x y]|]; reflexivity.
Qed.
Lemma F_planes : forall X, f_planes (hdr p ++ X) = 1.
Proof. intros X. unfold f_planes. rewrite F_old. unfold hdr. destruct (w_os2 p); [reflexivity|]. destruct (w_dens p) as [[x y]|]; reflexivity. Qed.
Lemma F_comp : forall X, f_compression (hdr p ++ X) = 0.
Proof. intros X. unfold f_compression. rewrite F_old. unfold hdr. destruct (w_os2 p); [reflexivity|]. destruct (w_dens p) as [[x y]|]; reflexivity. Qed.
Lemma F_colors : forall X, f_colors (hdr p ++ X) = 256.
Proof.
  intros X. unfold f_colors. rewrite F_old. unfold hdr, ent. destruct (w_os2 p); [reflexivity|]. destruct (full_color p), (w_dens p) as [[x y]|]; reflexivity.
Qed.
Lemma F_xppm : forall X, w_os2 p = false -> f_xppm (hdr p ++ X) = match w_dens p with Some (x, y) => x * 100 | None => 0 end.
Proof.
  intros X O. destruct H as (_ & _ & _ & _ & _ & _ & D). unfold f_xppm, hdr. rewrite O. destruct (w_dens p) as [[x y]|]; [|reflexivity]. etransitivity; [|apply put4_val; lia]. reflexivity.
Qed.
Lemma F_yppm : forall X, w_os2 p = false -> f_yppm (hdr p ++ X) = match w_dens p with Some (x, y) => y * 100 | None => 0 end.
Proof.
  intros X O. destruct H as (_ & _ & _ & _ & _ & _ & D). unfold f_yppm, hdr. rewrite O. destruct (w_dens p) as [[x y]|]; [|reflexivity]. etransitivity; [|apply put4_val; lia]. reflexivity.
Qed.
Lemma F_rowbytes : forall X, f_rowbytes (hdr p ++ X) = out_row_width p.
Proof. intros X. unfold f_rowbytes. rewrite F_width, F_bpp. destruct w_dims as (A & _). destruct (out_width_val p A) as (-> & _). reflexivity. Qed.
Lemma hc_len : zlen (hdr p ++ cmb p) = hsz p.
Proof. rewrite app_length, Nat2Z.inj_add, (cmb_len p rows H), hdr_len. unfold hsz. destruct (w_os2 p); lia. Qed.

Lemma F_pal : forall X t, bppv p = 8 -> 0 <= t < 256 -> f_pal (hdr p ++ cmb p ++ X) t = nth (Z.to_nat t) (wpal p) (0, 0, 0).
Proof.
  intros X t E8 Ht. unfold f_pal. cbv zeta. unfold f_esize. rewrite F_hsize, F_bpp, F_old, E8. change (8 =? 8) with true. cbv iota.
  assert (FC : full_color p = false) by (unfold bppv in E8; destruct (full_color p); [discriminate E8|reflexivity]).
  pose proof (cmb_len p rows H) as CL. unfold ent in CL. rewrite FC in CL.
  assert (HE : 14 + (if w_os2 p then 12 else 40) = zlen (hdr p)) by (rewrite hdr_len; destruct (w_os2 p); reflexivity). rewrite HE. fold (esz p).
  assert (ES : 3 <= esz p <= 4) by (unfold esz; destruct (w_os2 p); lia).
  assert (TE : 0 <= t * esz p /\ t * esz p + 3 <= 256 * esz p) by nia.
  rewrite !(byte_app2 (hdr p)) by lia. rewrite !byte_app1 by lia.
  assert (N : forall j, (j < 3)%nat -> byte (cmb p) (t * esz p + Z.of_nat j) = nth j (cmap_entry (esz p) (nth (Z.to_nat t) (wpal p) (0, 0, 0))) 0).
  { intros j Hj. unfold byte, cmb. rewrite FC. replace (Z.to_nat (t * esz p + Z.of_nat j)) with (Z.to_nat t * Z.to_nat (esz p) + j)%nat by (rewrite Z2Nat.inj_add, Z2Nat.inj_mul by lia; lia).
    apply (flat_nth _ _ (cme_len p)); [rewrite (wpal_len p rows H); lia|lia]. }
  replace (zlen (hdr p) + t * esz p + 2 - zlen (hdr p)) with (t * esz p + Z.of_nat 2) by lia. replace (zlen (hdr p) + t * esz p + 1 - zlen (hdr p)) with (t * esz p + Z.of_nat 1) by lia.
  replace (zlen (hdr p) + t * esz p - zlen (hdr p)) with (t * esz p + Z.of_nat 0) by lia. rewrite !N by lia. destruct (nth (Z.to_nat t) (wpal p) (0, 0, 0)) as [[r g] b]. unfold cmap_entry, esz. destruct (w_os2 p); reflexivity.
Qed.
Lemma wpal_nth : forall t, 0 <= t < 256 -> nth (Z.to_nat t) (wpal p) (0, 0, 0) = match w_map p with Some m => nth (Z.to_nat t) m (0, 0, 0) | None => (t, t, t) end.
Proof.
  intros t Ht. unfold wpal. cbv zeta. destruct (w_map p) as [m|].
  - destruct (Nat.lt_ge_cases (Z.to_nat t) (length m)); [apply app_nth1; assumption|]. rewrite app_nth2 by assumption. rewrite nth_repeat, nth_overflow by assumption. reflexivity.
  - rewrite app_nth1 by (rewrite map_length, seq_length; lia). rewrite (nth_indep _ (0, 0, 0) (Z.of_nat 0, Z.of_nat 0, Z.of_nat 0)) by (rewrite map_length, seq_length; lia).
    rewrite (map_nth (fun i => (Z.of_nat i, Z.of_nat i, Z.of_nat i))), seq_nth by lia. rewrite Nat.add_0_l, Z2Nat.id by lia. reflexivity.
Qed.

Definition ofile (inv : bool) : list Z := hdr p ++ cmb p ++ flat_map (rowb p) (if inv then rev rows else rows).
Definition orow (inv : bool) (y : nat) : list Z := nth y (if inv then rev rows else rows) [].

Lemma orw_pos : 0 <= out_row_width p <= 196608 /\ w_w p * (bppv p / 8) <= out_row_width p.
Proof. destruct w_dims as (A & _). destruct (out_width_val p A) as (_ & B). unfold bppv in *. destruct (full_color p); [change (24 / 8) with 3 in *|change (8 / 8) with 1 in *]; lia. Qed.
Lemma rows_len : forall inv : bool, zlen (if inv then rev rows else rows) = w_h p.
Proof. intros inv. destruct H as (_ & _ & _ & L & _). destruct inv; [rewrite rev_length|]; exact L. Qed.
Lemma ofile_len : forall inv, zlen (ofile inv) = hsz p + w_h p * out_row_width p.
Proof.
  intros inv. unfold ofile. rewrite app_assoc, app_length, Nat2Z.inj_add, hc_len. destruct w_dims as (A & B). rewrite (flat_len _ _ _ (fun r => rowb_len p r A)), Nat2Z.inj_mul, rows_len. destruct orw_pos. lia.
Qed.
Lemma ofile_row : forall inv y o, (Z.of_nat y < w_h p) -> 0 <= o < out_row_width p -> byte (ofile inv) (hsz p + Z.of_nat y * out_row_width p + o) = byte (rowb p (orow inv y)) o.
Proof.
  intros inv y o Hy Ho. unfold ofile. pose proof orw_pos as OP. destruct w_dims as (A & B). rewrite app_assoc, byte_app2 by (rewrite hc_len; nia). rewrite hc_len. unfold byte.
  replace (Z.to_nat (hsz p + Z.of_nat y * out_row_width p + o - hsz p)) with (y * Z.to_nat (out_row_width p) + Z.to_nat o)%nat by (rewrite <- (Nat2Z.id y) at 1; rewrite <- Z2Nat.inj_mul, <- Z2Nat.inj_add by nia; f_equal; lia).
  apply (flat_nth _ _ (fun r => rowb_len p r A)); [pose proof (rows_len inv); lia|lia].
Qed.
Lemma orow_in : forall inv y, Z.of_nat y < w_h p -> In (orow inv y) rows.
Proof. intros inv y Hy. unfold orow. pose proof (rows_len inv) as L. assert (K : In (nth y (if inv then rev rows else rows) []) (if inv then rev rows else rows)) by (apply nth_In; lia). destruct inv; [apply in_rev; exact K|exact K]. Qed.
Lemma in_bytes : forall r, In r rows -> bytes r.
Proof. intros r Hr. destruct H as (_ & _ & _ & _ & F & _). rewrite Forall_forall in F. apply (F r Hr). Qed.

Lemma ofile_pixel : forall inv y i, 0 <= y < w_h p -> 0 <= i < w_w p -> f_pixel (ofile inv) y i = (wsees p (orow inv (Z.to_nat y)) i, 255).
Proof.
  intros inv y i Hy Hi. pose proof orw_pos as (OP & OW).
  assert (OF : f_offset (ofile inv) = hsz p) by apply F_offset. assert (RB : f_rowbytes (ofile inv) = out_row_width p) by apply F_rowbytes.
  assert (BP : f_bpp (ofile inv) = bppv p) by apply F_bpp. set (n := Z.to_nat y).
  assert (R : forall o, 0 <= o < out_row_width p -> byte (ofile inv) (hsz p + y * out_row_width p + o) = byte (rowb p (orow inv n)) o).
  { intros o Ho. rewrite <- (ofile_row inv n o ltac:(lia) Ho). do 4 f_equal. unfold n. lia. }
  unfold f_pixel. cbv zeta. rewrite OF, RB, BP.
  destruct (full_cases p rows H) as [(F1 & F2 & F3)|FM].
  - assert (B24 : bppv p = 24) by (unfold bppv; rewrite F1; reflexivity). rewrite B24 in *. change (24 / 8) with 3 in OW. cbn [Z.eqb Pos.eqb].
    pose proof (rowb_full p (orow inv n) i F1 Hi) as RF.
    replace (hsz p + y * out_row_width p + 3 * i + 2) with (hsz p + y * out_row_width p + (3 * i + 2)) by lia.
    replace (hsz p + y * out_row_width p + 3 * i + 1) with (hsz p + y * out_row_width p + (3 * i + 1)) by lia.
    rewrite !R by lia. unfold wsees. rewrite F3, <- RF. reflexivity.
  - assert (F1 : full_color p = false) by tauto. assert (B8 : bppv p = 8) by (unfold bppv; rewrite F1; reflexivity). rewrite B8 in *. change (8 / 8) with 1 in OW. cbn [Z.eqb Pos.eqb].
    rewrite R by lia. rewrite (rowb_index p _ i F1 Hi).
    pose proof (byte_range (orow inv n) i (in_bytes _ (orow_in inv n ltac:(lia)))) as B. unfold byte in B. unfold ofile. rewrite F_pal by lia. rewrite wpal_nth by lia.
    unfold wsees. destruct FM as [(_ & m & ->)|(_ & -> & E)]; [reflexivity|]. unfold wpix. rewrite E, Z.eqb_refl. cbv zeta. replace (Z.to_nat (Z.of_nat (Z.to_nat i) * 1 + 0)) with (Z.to_nat i) by lia. reflexivity.
Qed.
End F.
