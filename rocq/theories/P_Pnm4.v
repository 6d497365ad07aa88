(* P_Pnm4.v -- the PNM writer *)
From Verif Require Import Base M_Pnm S_Pnm P_Pnm P_Pnm2 P_Pnm3.

Lemma value_snoc : forall ds d, value (ds ++ [d]) = 10 * value ds + (d - 48).
Proof. intros ds d. unfold value. rewrite fold_left_app. reflexivity. Qed.
Lemma dec_ok : forall fuel n, 0 <= n -> (Z.to_nat n < fuel)%nat -> digits (dec fuel n) /\ value (dec fuel n) = n.
Proof.
  induction fuel as [|fuel IH]; intros n Hn Hf; [lia|]. cbn [dec]. destruct (Z.ltb_spec n 10).
  - split; [split; [discriminate|constructor; [lia|constructor]]|]. unfold value. cbn [fold_left]. lia.
  - pose proof (Z.div_mod n 10 ltac:(lia)) as D. pose proof (Z.mod_pos_bound n 10 ltac:(lia)) as B.
    assert (Q : 0 <= n / 10 < n) by (split; [apply Z.div_pos; lia|apply Z.div_lt; lia]).
    destruct (IH (n / 10) ltac:(lia) ltac:(lia)) as ((A1 & A2) & A3). split.
    + split; [destruct (dec fuel (n / 10)); discriminate|]. apply Forall_app. split; [exact A2|constructor; [lia|constructor]].
    + rewrite value_snoc, A3. lia.
Qed.
Lemma pdec_ok : forall n, 0 <= n -> digits (pdec n) /\ value (pdec n) = n.
Proof. intros n Hn. apply dec_ok; [exact Hn|lia]. Qed.

Lemma header_text : forall w h m, 0 <= w -> 0 <= h -> 0 <= m -> text [w; h; m] ([10] ++ pdec w ++ [32] ++ pdec h ++ [10] ++ pdec m ++ [10]).
Proof.
  intros w h m Hw Hh Hm. destruct (pdec_ok w Hw) as (A1 & A2). destruct (pdec_ok h Hh) as (B1 & B2). destruct (pdec_ok m Hm) as (C1 & C2).
  rewrite <- A2 at 1. rewrite <- B2 at 1. rewrite <- C2 at 1.
  assert (W32 : blank [32]) by (constructor; cbn; auto). assert (W10 : blank [10]) by (constructor; cbn; auto).
  apply tx_cons; [rewrite <- (app_nil_r [10]); apply bls_cons; [exact W10|constructor]|exact A1|exact W32|].
  change (pdec h ++ [10] ++ pdec m ++ [10]) with ([] ++ pdec h ++ [10] ++ pdec m ++ [10]). apply tx_cons; [constructor|exact B1|exact W10|].
  change (pdec m ++ [10]) with ([] ++ pdec m ++ [10] ++ []). apply tx_cons; [constructor|exact C1|exact W10|constructor].
Qed.

Definition wsamp (p cs : Z) (row : list Z) (i : nat) : list Z :=
  let '(r, g, b) := wpix p cs row i in if cs =? JCS_GRAYSCALE then [r] else [r; g; b].

Lemma aget_in : forall (l : list Z) i, 0 <= i < Z.of_nat (length l) -> aget l i = Ret (nth (Z.to_nat i) l 0).
Proof. intros l i Hi. unfold aget. destruct (Z.ltb_spec i 0); [lia|]. rewrite (nth_error_nth' l 0) by lia. reflexivity. Qed.

Definition wcs (cs : Z) : Prop := cs = JCS_GRAYSCALE \/ cs = JCS_CMYK \/ IsExtRGB cs = true.
Lemma comps_components : forall cs, wcs cs -> comps_of cs (components cs).
Proof.
  intros cs [->|[->|He]]; [left; split; reflexivity|right; left; split; reflexivity|right; right]. split; [exact He|].
  destruct (ext_ne cs He) as (N1 & N2). unfold components. destruct (Z.eqb_spec cs JCS_GRAYSCALE); [contradiction|]. destruct (Z.eqb_spec cs JCS_CMYK); [contradiction|].
  apply aget_in. unfold IsExtRGB, JCS_RGB in He. destruct (Z.eqb_spec cs 2); [cbn; lia|]. cbn [orb] in He. apply andb_true_iff in He. rewrite !Z.leb_le in He. cbn. lia.
Qed.

Lemma put_row_ok : forall p cs row, wcs cs -> forall n i0, Z.of_nat (i0 + n) * components cs <= Z.of_nat (length row) ->
  put_row p cs n (Z.of_nat i0 * components cs) row = Ret (flat_map (put_sample p) (flat_map (wsamp p cs row) (seq i0 n))).
Proof.
  intros p cs row Hc. induction n as [|n IH]; intros i0 Hl; [reflexivity|]. cbn [put_row seq flat_map].
  specialize (IH (S i0) ltac:(lia)). replace (Z.of_nat (S i0) * components cs) with (Z.of_nat i0 * components cs + components cs) in IH by lia.
  pose proof (comps_pos _ _ (comps_components cs Hc)) as Cp.
  rewrite flat_map_app. unfold wsamp at 1. unfold wpix. destruct Hc as [->|[->|He]].
  - rewrite Z.eqb_refl. change (components JCS_GRAYSCALE) with 1 in *. rewrite aget_in by lia. cbn [bind]. rewrite IH. cbn [bind]. rewrite Z.add_0_r. cbn [flat_map app]. rewrite app_nil_r. reflexivity.
  - change (JCS_CMYK =? JCS_GRAYSCALE) with false in *. rewrite Z.eqb_refl in *. cbv iota. change (components JCS_CMYK) with 4 in *.
    rewrite !aget_in by lia. cbn [bind]. rewrite Z.add_0_r. destruct (cmyk_to_rgb _ _ _ _ _) as [[r g] b]. rewrite IH. cbn [bind]. cbn [flat_map app]. rewrite app_nil_r. rewrite <- !app_assoc. reflexivity.
  - destruct (ext_ne cs He) as (N1 & N2). destruct (Z.eqb_spec cs JCS_GRAYSCALE); [contradiction|]. destruct (Z.eqb_spec cs JCS_CMYK); [contradiction|].
    pose proof (comps_components cs (or_intror (or_intror He))) as [(X & _)|[(X & _)|(_ & Hn)]]; [contradiction|contradiction|].
    destruct (layout_ex cs He) as (ri & gi & bi & ai & ps & L1 & L2 & L3 & L4 & L5 & Q1 & Q2 & Q3 & Q4 & _). assert (ps = components cs) by congruence. subst ps.
    rewrite L1, L2, L3, L5. cbn [bind]. rewrite !aget_in by lia. cbn [bind]. rewrite IH. cbn [bind]. cbn [flat_map app]. rewrite app_nil_r. rewrite <- !app_assoc. reflexivity.
Qed.

Lemma put_rows_ok : forall p cs w rows, wcs cs -> 0 <= w -> Forall (fun row => w * components cs <= Z.of_nat (length row)) rows ->
  put_rows p cs w rows = Ret (flat_map (put_sample p) (flat_map (fun row => flat_map (wsamp p cs row) (seq 0 (Z.to_nat w))) rows)).
Proof.
  intros p cs w rows Hc Hw F. induction F as [|row rows F1 F2 IH]; [reflexivity|]. cbn [put_rows flat_map].
  pose proof (put_row_ok p cs row Hc (Z.to_nat w) 0 ltac:(rewrite Nat.add_0_l, Z2Nat.id by exact Hw; exact F1)) as E. cbn [Z.of_nat Z.mul] in E. rewrite E. cbn [bind].
  rewrite IH. cbn [bind]. rewrite flat_map_app. reflexivity.
Qed.

Lemma put_body : forall p fmt ns, prec_ok p -> istext fmt = false -> Forall (fun n => 0 <= n <= maxj p) ns -> body fmt (maxj p) ns (flat_map (put_sample p) ns).
Proof.
  intros p fmt ns Hp Et F. unfold body. fold (istext fmt). rewrite Et. destruct (maxj_val p Hp) as [(-> & E)|[(-> & E)|(-> & E)]]; rewrite E in *.
  - change (255 <=? 255) with true. cbv iota. split; [|exact F]. clear F. induction ns as [|n ns IH]; [reflexivity|]. cbn [flat_map]. rewrite IH. reflexivity.
  - change (4095 <=? 255) with false. cbv iota. split; [|exact F]. induction F as [|n ns F1 F2 IH]; [reflexivity|]. cbn [flat_map]. rewrite IH. f_equal. unfold put_sample. change (12 =? 8) with false. cbv iota.
    rewrite Z.shiftr_div_pow2 by lia. change 255 with (Z.ones 8). rewrite !Z.land_ones by lia. change (2 ^ 8) with 256.
    assert (D : 0 <= n / 256 < 256) by (split; [apply Z.div_pos; lia|apply Z.div_lt_upper_bound; lia]). rewrite (Z.mod_small (n / 256)) by exact D. reflexivity.
  - change (65535 <=? 255) with false. cbv iota. split; [|exact F]. induction F as [|n ns F1 F2 IH]; [reflexivity|]. cbn [flat_map]. rewrite IH. f_equal. unfold put_sample. change (16 =? 8) with false. cbv iota.
    rewrite Z.shiftr_div_pow2 by lia. change 255 with (Z.ones 8). rewrite !Z.land_ones by lia. change (2 ^ 8) with 256.
    assert (D : 0 <= n / 256 < 256) by (split; [apply Z.div_pos; lia|apply Z.div_lt_upper_bound; lia]). rewrite (Z.mod_small (n / 256)) by exact D. reflexivity.
Qed.

Lemma wpix_range : forall p cs row i, prec_ok p -> Forall (fun v => 0 <= v <= maxj p) row -> let '(r, g, b) := wpix p cs row i in 0 <= r <= maxj p /\ 0 <= g <= maxj p /\ 0 <= b <= maxj p.
Proof.
  intros p cs row i Hp F. assert (HM : 255 <= maxj p) by (destruct (maxj_val p Hp) as [(_ & ->)|[(_ & ->)|(_ & ->)]]; lia).
  assert (N : forall k, 0 <= nth k row 0 <= maxj p).
  { intros k. destruct (Nat.lt_ge_cases k (length row)) as [K|K]; [exact (proj1 (Forall_forall _ _) F _ (nth_In _ 0 K))|rewrite nth_overflow by exact K; lia]. }
  unfold wpix. destruct (cs =? JCS_GRAYSCALE); [split; [apply N|split; apply N]|]. destruct (cs =? JCS_CMYK).
  - unfold cmyk_to_rgb. set (M := maxj p) in *. clearbody M.
    assert (G : forall a k, 0 <= a <= M -> 0 <= k <= M -> 0 <= (2 * (a * k) + M) / (2 * M) <= M).
    { intros a k Ha Hk. split; [apply Z.div_pos; nia|]. apply Z.lt_succ_r, Z.div_lt_upper_bound; [lia|]. assert (a * k <= M * M) by nia. nia. }
    split; [apply G; apply N|split; apply G; apply N].
  - destruct (aget t_red cs), (aget t_green cs), (aget t_blue cs), (aget t_psize cs); try (split; [apply N|split; apply N]); lia.
Qed.

Lemma wsamp_len : forall p cs row i, length (wsamp p cs row i) = if cs =? JCS_GRAYSCALE then 1%nat else 3%nat.
Proof. intros p cs row i. unfold wsamp. destruct (wpix p cs row i) as [[r g] b]. destruct (cs =? JCS_GRAYSCALE); reflexivity. Qed.

Lemma flat_len : forall {A} (f : A -> list Z) k l, (forall x, length (f x) = k) -> length (flat_map f l) = (length l * k)%nat.
Proof. intros A f k l Hf. induction l as [|x l IH]; [reflexivity|]. cbn [flat_map length]. rewrite app_length, Hf, IH. lia. Qed.
Lemma flat_skip : forall {A} (f : A -> list Z) k, (forall x, length (f x) = k) -> forall y l, skipn (y * k) (flat_map f l) = flat_map f (skipn y l).
Proof.
  intros A f k Hf. induction y as [|y IH]; intros l; [reflexivity|]. destruct l as [|x l]; [cbn [flat_map]; rewrite !skipn_nil; reflexivity|].
  cbn [flat_map skipn]. rewrite skipn_app, Hf. rewrite (skipn_all2 (f x)) by (rewrite Hf; lia). cbn [app]. replace (S y * k - k)%nat with (y * k)%nat by lia. apply IH.
Qed.
Lemma nth_skip : forall (l : list Z) a b, nth (a + b) l 0 = nth b (skipn a l) 0.
Proof. intros l a. revert l. induction a as [|a IH]; intros l b; [reflexivity|]. destruct l as [|x l]; [destruct b; reflexivity|]. cbn [skipn]. apply (IH l b). Qed.
Lemma flat_nth : forall {A} (f : A -> list Z) k, (forall x, length (f x) = k) -> forall l i j d, (i < length l)%nat -> (j < k)%nat ->
  nth (i * k + j) (flat_map f l) 0 = nth j (f (nth i l d)) 0.
Proof.
  intros A f k Hf l i j d Hi Hj. rewrite nth_skip, (flat_skip f k Hf).
  destruct (skipn i l) as [|x t] eqn:E; [assert (length (skipn i l) = 0%nat) by (rewrite E; reflexivity); rewrite skipn_length in *; lia|].
  cbn [flat_map]. rewrite app_nth1 by (rewrite Hf; exact Hj). f_equal. f_equal.
  rewrite <- (firstn_skipn i l), E. rewrite app_nth2 by (rewrite firstn_length; lia). rewrite firstn_length. replace (i - Nat.min i (length l))%nat with 0%nat by lia. reflexivity.
Qed.

Lemma pix_flat : forall p cs fmt row w i tl, spp fmt = (if (cs =? JCS_GRAYSCALE)%Z then 1%nat else 3%nat) -> (i < w)%nat ->
  pix (spp fmt) (flat_map (wsamp p cs row) (seq 0 w) ++ tl) i = wpix p cs row i.
Proof.
  intros p cs fmt row w i tl Hs Hi.
  assert (Nn : forall j, (j < if (cs =? JCS_GRAYSCALE)%Z then 1%nat else 3%nat)%nat -> nth (i * (if (cs =? JCS_GRAYSCALE)%Z then 1%nat else 3%nat) + j) (flat_map (wsamp p cs row) (seq 0 w) ++ tl) 0 = nth j (wsamp p cs row i) 0).
  { intros j Hj. rewrite app_nth1.
    - rewrite (flat_nth (wsamp p cs row) _ (wsamp_len p cs row) (seq 0 w) i j 0%nat); [|rewrite seq_length; exact Hi|exact Hj]. rewrite seq_nth by exact Hi. reflexivity.
    - rewrite (flat_len _ _ _ (wsamp_len p cs row)), seq_length. destruct (cs =? JCS_GRAYSCALE); lia. }
  rewrite Hs. revert Nn. generalize (flat_map (wsamp p cs row) (seq 0 w) ++ tl). intros L Nn. clear Hs. unfold wsamp in Nn. unfold wpix in *. destruct (Z.eqb_spec cs JCS_GRAYSCALE) as [Eg|Ng].
  - unfold pix. cbn [Nat.eqb]. specialize (Nn 0%nat ltac:(lia)). rewrite Nat.mul_1_r, Nat.add_0_r in Nn. rewrite Nn. reflexivity.
  - unfold pix. cbn [Nat.eqb].
    pose proof (Nn 0%nat ltac:(lia)) as N0. pose proof (Nn 1%nat ltac:(lia)) as N1. pose proof (Nn 2%nat ltac:(lia)) as N2. rewrite Nat.add_0_r in N0. rewrite Nat.mul_comm in N0, N1, N2.
    rewrite N0, N1, N2. destruct (if cs =? JCS_CMYK then _ else _) as [[r g] b]. reflexivity.
Qed.
