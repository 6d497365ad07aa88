(* P_Bmp7.v -- proofs about the BMP writer: rows and palette *)
From Verif Require Import Base M_Pnm S_Pnm P_Pnm P_Pnm2 P_Pnm3 P_Pnm4 M_Bmp S_Bmp P_Bmp P_Bmp2 P_Bmp3.

Definition bgr (e : Z * Z * Z) : list Z := let '(r, g, b) := e in [b; g; r].
Definition wpx (cs : Z) (row : list Z) (i : nat) : list Z := bgr (wpix 8 cs row i).
Lemma wpx_len : forall cs row i, length (wpx cs row i) = 3%nat.
Proof. intros. unfold wpx, bgr. destruct (wpix 8 cs row i) as [[r g] b]. reflexivity. Qed.

Lemma put_cols_ok : forall cs row, cs = JCS_CMYK \/ IsExtRGB cs = true -> forall n i0, Z.of_nat (i0 + n) * components cs <= Z.of_nat (length row) ->
  put_cols cs n (Z.of_nat i0 * components cs) row = Ret (flat_map (wpx cs row) (seq i0 n)).
Proof.
  intros cs row Hc. induction n as [|n IH]; intros i0 Hl; [reflexivity|]. cbn [put_cols seq flat_map].
  specialize (IH (S i0) ltac:(lia)). replace (Z.of_nat (S i0) * components cs) with (Z.of_nat i0 * components cs + components cs) in IH by lia.
  assert (CC : comps_of cs (components cs)) by (apply comps_components; unfold wcs; tauto). pose proof (comps_pos _ _ CC) as Cp.
  unfold wpx at 1. unfold wpix. destruct Hc as [->|He].
  - cbn [Z.eqb JCS_CMYK JCS_GRAYSCALE Pos.eqb]. change (components JCS_CMYK) with 4 in *. rewrite (aget_in row) by lia. rewrite !(aget_in row) by lia. cbn [bind].
    change (maxj 8) with 255. rewrite !Z.add_0_r. destruct (cmyk_to_rgb 255 _ _ _ _) as [[r g] b]. change 4 with (Z.pos 4) in IH. rewrite IH. reflexivity.
  - destruct (ext_ne cs He) as (N1 & N2). destruct (Z.eqb_spec cs JCS_CMYK); [contradiction|]. destruct (Z.eqb_spec cs JCS_GRAYSCALE); [contradiction|].
    destruct (layout_ex cs He) as (ri & gi & bi & ai & ps & L1 & L2 & L3 & L4 & L5 & Q1 & Q2 & Q3 & Q4 & _). rewrite L1, L2, L3, L5. cbn [bind].
    assert (PC : ps = components cs). { destruct CC as [(-> & _)|[(-> & _)|(_ & X)]]; [contradiction|contradiction|congruence]. } rewrite PC in *.
    rewrite !(aget_in row) by nia. cbn [bind]. rewrite IH. cbn [bind]. reflexivity.
Qed.

(* the bytes of a row *)
Definition rowb (p : wparm) (row : list Z) : list Z :=
  (if full_color p then flat_map (wpx (w_cs p) row) (seq 0 (Z.to_nat (w_w p))) else map (fun i => nth i row 0) (seq 0 (Z.to_nat (w_w p)))) ++
  repeat 0 (Z.to_nat (out_row_width p - data_width p)).
Definition bppv (p : wparm) : Z := if full_color p then 24 else 8.
Lemma data_width_val : forall p, 1 <= w_w p <= 65535 -> data_width p = w_w p * (bppv p / 8).
Proof. intros p H. unfold data_width, bppv, u32. destruct (full_color p); [change (24 / 8) with 3; change (2 ^ 32) with 4294967296; rewrite Z.mod_small by lia; reflexivity|change (8 / 8) with 1; lia]. Qed.
Lemma out_width_val : forall p, 1 <= w_w p <= 65535 -> out_row_width p = (w_w p * (bppv p / 8) + 3) / 4 * 4 /\ w_w p * (bppv p / 8) <= out_row_width p <= w_w p * (bppv p / 8) + 3.
Proof.
  intros p H. unfold out_row_width. rewrite data_width_val by exact H. apply pad4_small. unfold bppv. destruct (full_color p); [change (24 / 8) with 3|change (8 / 8) with 1]; lia.
Qed.
Lemma rowb_len : forall p row, 1 <= w_w p <= 65535 -> length (rowb p row) = Z.to_nat (out_row_width p).
Proof.
  intros p row H. unfold rowb. rewrite app_length, repeat_length. destruct (out_width_val p H) as (_ & B). rewrite (data_width_val p H). unfold bppv in *. destruct (full_color p).
  - rewrite (flat_len _ _ _ (wpx_len (w_cs p) row)), seq_length. change (24 / 8) with 3 in *. lia.
  - rewrite map_length, seq_length. change (8 / 8) with 1 in *. lia.
Qed.

Lemma full_cases : forall p rows, writable p rows -> (full_color p = true /\ (w_cs p = JCS_CMYK \/ IsExtRGB (w_cs p) = true) /\ w_map p = None) \/
  (full_color p = false /\ (exists m, w_map p = Some m)) \/ (full_color p = false /\ w_map p = None /\ w_cs p = JCS_GRAYSCALE).
Proof.
  intros p rows H. destruct H as (Hc & _). unfold full_color, is_mapped. destruct (w_map p) as [m|] eqn:M.
  - right; left. destruct Hc as [->|[Hc|(_ & Hc)]]; [|rewrite Hc; destruct (ext_ne _ Hc) as (_ & N); destruct (Z.eqb_spec (w_cs p) JCS_CMYK); [contradiction|]|discriminate Hc]; (split; [reflexivity|exists m; reflexivity]).
  - destruct Hc as [->|[Hc|(Hc & _)]].
    + right; right. auto.
    + left. rewrite Hc. auto.
    + left. rewrite Hc. auto.
Qed.

Lemma write_row_ok : forall p rows row, writable p rows -> In row rows -> write_row p row = Ret (rowb p row).
Proof.
  intros p rows row H Hin. pose proof (full_cases p rows H) as FC. destruct H as (Hc & Hw & _ & _ & Hr & _). rewrite Forall_forall in Hr. destruct (Hr row Hin) as (Hb & Hl).
  unfold write_row, rowb. destruct FC as [(-> & F2 & F3)|[(-> & m & F3)|(-> & F3 & F4)]]; rewrite F3 in Hl.
  - change 0 with (Z.of_nat 0 * components (w_cs p)). rewrite (put_cols_ok (w_cs p) row F2 (Z.to_nat (w_w p)) 0) by (rewrite Nat.add_0_l, Z2Nat.id by lia; exact Hl). reflexivity.
  - destruct (Nat.ltb_spec (length row) (Z.to_nat (w_w p))); [lia|]. cbn [bind]. do 2 f_equal. apply nth_ext with (d := 0) (d' := 0); [rewrite firstn_length, map_length, seq_length; lia|].
    intros i Hi. rewrite firstn_length in Hi. rewrite nth_firstnz by lia. rewrite (nth_indep (map _ _) 0 (nth 0%nat row 0)) by (rewrite map_length, seq_length; lia). rewrite (map_nth (fun i => nth i row 0)), seq_nth by lia. reflexivity.
  - rewrite F4 in Hl. change (components JCS_GRAYSCALE) with 1 in Hl. destruct (Nat.ltb_spec (length row) (Z.to_nat (w_w p))); [lia|]. cbn [bind]. do 2 f_equal. apply nth_ext with (d := 0) (d' := 0); [rewrite firstn_length, map_length, seq_length; lia|].
    intros i Hi. rewrite firstn_length in Hi. rewrite nth_firstnz by lia. rewrite (nth_indep (map _ _) 0 (nth 0%nat row 0)) by (rewrite map_length, seq_length; lia). rewrite (map_nth (fun i => nth i row 0)), seq_nth by lia. reflexivity.
Qed.
Lemma write_rows_ok : forall p rows rs, writable p rows -> (forall r, In r rs -> In r rows) -> write_rows p rs = Ret (flat_map (rowb p) rs).
Proof.
  intros p rows. induction rs as [|r rs IH]; intros H Hin; [reflexivity|]. cbn [write_rows flat_map]. rewrite (write_row_ok p rows r H) by (apply Hin; left; reflexivity). cbn [bind].
  rewrite IH; [reflexivity|exact H|]. intros x Hx. apply Hin. right. exact Hx.
Qed.

(* the bytes of a pixel of a row *)
Lemma rowb_full : forall p row i, full_color p = true -> 0 <= i < w_w p ->
  (byte (rowb p row) (3 * i + 2), byte (rowb p row) (3 * i + 1), byte (rowb p row) (3 * i)) = wpix 8 (w_cs p) row (Z.to_nat i).
Proof.
  intros p row i F Hi. unfold rowb, byte. rewrite F.
  assert (N : forall j, (j < 3)%nat -> nth (Z.to_nat (3 * i) + j) (flat_map (wpx (w_cs p) row) (seq 0 (Z.to_nat (w_w p))) ++ repeat 0 (Z.to_nat (out_row_width p - data_width p))) 0 = nth j (wpx (w_cs p) row (Z.to_nat i)) 0).
  { intros j Hj. replace (Z.to_nat (3 * i)) with (Z.to_nat i * 3)%nat by lia. rewrite app_nth1 by (rewrite (flat_len _ _ _ (wpx_len (w_cs p) row)), seq_length; lia).
    rewrite (flat_nth _ _ (wpx_len (w_cs p) row) _ _ _ 0%nat) by (rewrite ?seq_length; lia). rewrite seq_nth by lia. reflexivity. }
  pose proof (N 0%nat ltac:(lia)) as N0. pose proof (N 1%nat ltac:(lia)) as N1. pose proof (N 2%nat ltac:(lia)) as N2. rewrite Nat.add_0_r in N0.
  replace (Z.to_nat (3 * i + 2)) with (Z.to_nat (3 * i) + 2)%nat by lia. replace (Z.to_nat (3 * i + 1)) with (Z.to_nat (3 * i) + 1)%nat by lia.
  rewrite N0, N1, N2. unfold wpx, bgr. destruct (wpix 8 (w_cs p) row (Z.to_nat i)) as [[r g] b]. reflexivity.
Qed.
Lemma rowb_index : forall p row i, full_color p = false -> 0 <= i < w_w p -> byte (rowb p row) i = nth (Z.to_nat i) row 0.
Proof.
  intros p row i F Hi. unfold rowb, byte. rewrite F. rewrite app_nth1 by (rewrite map_length, seq_length; lia).
  rewrite (nth_indep (map _ _) 0 (nth 0%nat row 0)) by (rewrite map_length, seq_length; lia). rewrite (map_nth (fun i => nth i row 0)), seq_nth by lia. reflexivity.
Qed.

Lemma wpix_bytes : forall cs row i, bytes row -> let '(r, g, b) := wpix 8 cs row i in 0 <= r <= 255 /\ 0 <= g <= 255 /\ 0 <= b <= 255.
Proof. intros cs row i H. apply (wpix_range 8 cs row i); [left; reflexivity|exact H]. Qed.
Lemma rowb_bytes : forall p row, bytes row -> bytes (rowb p row).
Proof.
  intros p row H. unfold rowb, bytes. apply Forall_app. split; [|apply Forall_forall; intros x Hx; apply repeat_spec in Hx; lia]. destruct (full_color p).
  - apply Forall_forall. intros x Hx. apply in_flat_map in Hx. destruct Hx as (i & _ & Hx). unfold wpx, bgr in Hx. pose proof (wpix_bytes (w_cs p) row i H) as W. destruct (wpix 8 (w_cs p) row i) as [[r g] b]. cbn [In] in Hx. lia.
  - apply Forall_forall. intros x Hx. apply in_map_iff in Hx. destruct Hx as (i & <- & _). apply (byte_range row (Z.of_nat i)) in H. unfold byte in H. rewrite Nat2Z.id in H. exact H.
Qed.
Lemma put2_val : forall v, 0 <= v < 65536 -> Z.land v 255 + 256 * Z.land (Z.shiftr v 8) 255 = v.
Proof.
  intros v H. change 255 with (Z.ones 8). rewrite !Z.land_ones, !Z.shiftr_div_pow2 by lia. change (2 ^ 8) with 256.
  assert (0 <= v / 256 < 256) by (split; [apply Z.div_pos; lia|apply Z.div_lt_upper_bound; lia]). rewrite (Z.mod_small (v / 256)) by lia. pose proof (Z.div_mod v 256 ltac:(lia)). lia.
Qed.
Lemma put4_val : forall v, 0 <= v < 4294967296 -> Z.land v 255 + 256 * Z.land (Z.shiftr v 8) 255 + 65536 * (Z.land (Z.shiftr v 16) 255 + 256 * Z.land (Z.shiftr v 24) 255) = v.
Proof.
  intros v H. change 255 with (Z.ones 8). rewrite !Z.land_ones, !Z.shiftr_div_pow2 by lia. change (2 ^ 8) with 256. change (2 ^ 16) with 65536. change (2 ^ 24) with 16777216.
  replace 65536 with (256 * 256) at 2 by reflexivity. replace 16777216 with (256 * 256 * 256) by reflexivity. rewrite <- !Z.div_div by lia.
  set (a := v / 256). set (b := a / 256). set (c := b / 256). pose proof (Z.div_mod v 256 ltac:(lia)). pose proof (Z.div_mod a 256 ltac:(lia)). pose proof (Z.div_mod b 256 ltac:(lia)).
  assert (0 <= a < 16777216) by (unfold a; split; [apply Z.div_pos; lia|apply Z.div_lt_upper_bound; lia]).
  assert (0 <= b < 65536) by (unfold b; split; [apply Z.div_pos; lia|apply Z.div_lt_upper_bound; lia]).
  assert (0 <= c < 256) by (unfold c; split; [apply Z.div_pos; lia|apply Z.div_lt_upper_bound; lia]). rewrite (Z.mod_small c) by lia. fold a in H0. fold b in H1. fold c in H2. lia.
Qed.
Lemma land255 : forall v, 0 <= Z.land v 255 <= 255.
Proof. intros v. change 255 with (Z.ones 8) at 1 2. rewrite Z.land_ones by lia. change (2 ^ 8) with 256. pose proof (Z.mod_pos_bound v 256 ltac:(lia)). cbn. lia. Qed.
