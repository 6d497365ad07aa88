(* P_Bmp6.v -- proofs about the BMP reader: whole files *)
From Verif Require Import Base M_Pnm S_Pnm P_Pnm P_Pnm2 P_Pnm3 P_Pnm4 M_Bmp S_Bmp P_Bmp P_Bmp2 P_Bmp3 P_Bmp4 P_Bmp5.

Lemma fetch_pixel : forall f src y c e, bmp_file f -> b_bpp src = f_bpp f -> b_w src = f_width f -> b_rw src = f_rowbytes f -> b_cmap src = f_cmap f ->
  0 <= Z.of_nat y < f_height f -> 0 <= c < f_width f -> (fetch src (frow src f (f_offset f) y) c = Ret e <-> e = f_pixel f (Z.of_nat y) c) /\
  forall x, fetch src (frow src f (f_offset f) y) c <> Error x.
Proof.
  intros f src y c e H E1 E2 E3 E4 Hy Hc. destruct (bmp_small f H) as (_ & _ & S3 & S4). pose proof H as HH. destruct HH as (Hb & _ & _ & Hs & Hbpp & _ & _ & Hw & Hh & Hcol & Hoff & Hlen & Hidx).
  assert (OF : 0 <= f_offset f).
  { pose proof (le4_range f 10 Hb). unfold f_offset. lia. }
  assert (IN : f_offset f + Z.of_nat y * f_rowbytes f + f_rowbytes f <= zlen f) by nia.
  assert (K0 : 0 <= f_offset f + Z.of_nat y * f_rowbytes f) by nia.
  assert (A : fetch src (frow src f (f_offset f) y) c = Ret (f_pixel f (Z.of_nat y) c)).
  { unfold fetch, frow, f_pixel. rewrite E1, E3. destruct Hbpp as [B|[B|B]]; rewrite B in *; cbn [Z.eqb Pos.eqb]; (replace (8 / 8) with 1 in * by reflexivity); (replace (24 / 8) with 3 in * by reflexivity); (replace (32 / 8) with 4 in * by reflexivity).
    - rewrite aget_slice by lia. cbn [bind]. specialize (Hidx eq_refl (Z.of_nat y) c Hy Hc). set (t := byte f _) in *. assert (T : 0 <= t) by (apply byte_range, Hb).
      rewrite E4. unfold f_cmap. rewrite B. change (8 =? 8) with true. cbv iota. rewrite map_length, seq_length. destruct (Z.leb_spec (Z.of_nat (Z.to_nat (f_colors f))) t); [lia|].
      rewrite (aget_nth _ _ (f_pal f (Z.of_nat 0))) by (rewrite map_length, seq_length; lia). rewrite (map_nth (fun t => f_pal f (Z.of_nat t))), seq_nth by lia. cbn [bind]. rewrite Nat.add_0_l, Z2Nat.id by lia.
      destruct (f_pal f t) as [[r g] b]. reflexivity.
    - rewrite !aget_slice by lia. cbn [bind]. rewrite !Z.add_assoc. reflexivity.
    - rewrite !aget_slice by lia. cbn [bind]. rewrite !Z.add_assoc. reflexivity. }
  rewrite A. split; [|discriminate]. split; [intros X; injection X; auto|intros ->; reflexivity].
Qed.

Lemma read_ok : forall cs inv maxpix f c buf, bmp_file f -> (maxpix = 0 \/ f_width f * f_height f <= maxpix) -> settles f cs (Some c) ->
  room c (f_width f) <= zlen buf ->
  exists src rows, start_input_bmp cs inv maxpix f = Ret src /\ b_w src = f_width f /\ b_h src = f_height f /\ b_cs src = c /\ b_comps src = components c /\ b_dens src = f_dens f /\
    get_rows inv src buf = Ret rows /\ Z.of_nat (length rows) = f_height f /\
    forall y row i, nth_error rows y = Some row -> 0 <= i < f_width f ->
      shows c row i (f_pixel f (if inv then f_height f - 1 - Z.of_nat y else Z.of_nat y) i).
Proof.
  intros cs inv maxpix f c buf H MP Se Hr. destruct (start_settles cs inv maxpix f c H MP Se) as (E & CC). pose proof H as HH. destruct HH as (Hb & _ & _ & Hs & Hbpp & _ & _ & Hw & Hh & Hcol & Hoff & Hlen & Hidx).
  destruct (start_safe_b cs inv maxpix f Hb) as [(e & X)|(src & X & OK & _)]; [congruence|]. rewrite E in X. injection X as <-. destruct (bmp_small f H) as (_ & _ & S3 & S4).
  set (src := mkB _ _ _ _ _ _ _ _ _) in *. assert (OF : 0 <= f_offset f) by (pose proof (le4_range f 10 Hb); unfold f_offset; lia).
  destruct (rows_cases src f (f_offset f) inv buf OK Hb ltac:(nia) eq_refl Hr) as [(e & _ & [K|(y & Y1 & c' & e' & Y2 & Y3)])|(rows & R & L & A)].
  - cbn in K. lia.
  - exfalso. cbn in Y1, Y2. destruct (fetch_pixel f src y c' (0, 0, 0, 0) H eq_refl eq_refl eq_refl eq_refl ltac:(lia) Y2) as (_ & F). exact (F e' Y3).
  - exists src, rows. split; [exact E|]. do 5 (split; [reflexivity|]). split; [exact R|]. cbn in L. split; [lia|]. intros y row i K Hi.
    assert (Ly : (y < length rows)%nat) by (apply nth_error_Some; rewrite K; discriminate).
    destruct (A y row K) as (_ & G). destruct (G i Hi) as (px & G1 & G2). cbn in G2. cbn [b_h src] in G1.
    destruct (fetch_pixel f src (if inv then Z.to_nat (f_height f) - 1 - y else y) i px H eq_refl eq_refl eq_refl eq_refl ltac:(destruct inv; lia) Hi) as (F & _). apply F in G1.
    replace (if inv then f_height f - 1 - Z.of_nat y else Z.of_nat y) with (Z.of_nat (if inv then Z.to_nat (f_height f) - 1 - y else y)) by (destruct inv; lia). rewrite <- G1. exact G2.
Qed.

(* ---- an index outside the palette ---- *)
Lemma read_bad_index : forall src io c, b_bpp src = 8 -> 0 <= c < zlen io -> Z.of_nat (length (b_cmap src)) <= byte io c -> fetch src io c = Error JERR_OTHER.
Proof. intros src io c E Hc Hi. unfold fetch. rewrite E. cbn [Z.eqb Pos.eqb]. rewrite (aget_nth _ _ 0) by lia. cbn [bind]. unfold byte in Hi. destruct (Z.leb_spec (zlen (b_cmap src)) (nth (Z.to_nat c) io 0)); [reflexivity|lia]. Qed.
