(* P_Quant1.v *)
From Verif Require Import Base M_Quant1 S_Quant P_Trellis.

Definition prodZ (l : list Z) : Z := fold_right Z.mul 1 l.
Lemma prodZ_pos l : Forall (fun x => 2 <= x) l -> 1 <= prodZ l.
Proof. induction 1; cbn [prodZ fold_right]; [lia|]. unfold prodZ in IHForall. nia. Qed.
Lemma prodZ_upd l j v : (j < length l)%nat -> prodZ (upd l j v) * nth j l 0 = prodZ l * v.
Proof.
  revert j. induction l as [|a l IH]; intros j H; [cbn in H; lia|]. destruct j as [|j]; cbn [upd nth prodZ fold_right]; fold (prodZ l); [ring|]. cbn [length] in H. specialize (IH j ltac:(lia)). fold (prodZ (upd l j v)). 
  transitivity (a * (prodZ (upd l j v) * nth j l 0)); [ring|]. rewrite IH. ring.
Qed.
Lemma prodZ_div l j : (j < length l)%nat -> exists q, prodZ l = nth j l 0 * q.
Proof.
  revert j. induction l as [|a l IH]; intros j H; [cbn in H; lia|]. destruct j as [|j]; cbn [nth prodZ fold_right]; fold (prodZ l); [eexists; reflexivity|]. destruct (IH j ltac:(cbn in H; lia)) as [q ->]. exists (a * q). ring.
Qed.
Lemma Forall_upd (P : Z -> Prop) l j v : Forall P l -> P v -> Forall P (upd l j v).
Proof. intros H Hv. revert j. induction H; intros [|j]; cbn [upd]; constructor; auto. Qed.

(* ---- select_ncolors ---- *)
Lemma incr_pass_ok mx nc : forall js N total ch, Forall (fun j => 0 <= j < Z.of_nat nc) js -> length N = nc -> Forall (fun x => 2 <= x) N -> total = prodZ N -> total <= mx ->
  sat (fun r => let '(N', t', c') := r in length N' = nc /\ Forall (fun x => 2 <= x) N' /\ t' = prodZ N' /\ t' <= mx /\ total <= t' /\ (c' = true -> ch = true \/ total < t')) (incr_pass js N total mx ch).
Proof.
  induction js as [|j js IH]; intros N total ch HJ HL HF HT HM; cbn [incr_pass].
  - cbn [sat]. split; [exact HL|]. split; [exact HF|]. split; [exact HT|]. split; [exact HM|]. split; [lia|]. intros ->. left. reflexivity.
  - assert (Rj : 0 <= j < Z.of_nat nc) by exact (Forall_inv HJ). rewrite (aget_nth _ _ 0) by lia. cbn [bind]. set (nj := nth (Z.to_nat j) N 0).
    assert (Nj : 2 <= nj). { rewrite Forall_forall in HF. apply HF, nth_In. lia. }
    destruct (prodZ_div N (Z.to_nat j) ltac:(lia)) as [q Eq]. fold nj in Eq. assert (D : total / nj = q) by (rewrite HT, Eq, Z.mul_comm; apply Z.div_mul; lia). rewrite D.
    pose proof (prodZ_pos N HF) as PP.
    destruct (Z.ltb_spec mx (q * (nj + 1))) as [G|G]; cbn [sat].
    + split; [exact HL|]. split; [exact HF|]. split; [exact HT|]. split; [exact HM|]. split; [lia|]. intros ->. left. reflexivity.
    + rewrite aset_ok by lia. cbn [bind]. assert (PU : prodZ (upd N (Z.to_nat j) (nj + 1)) = q * (nj + 1)).
      { pose proof (prodZ_upd N (Z.to_nat j) (nj + 1) ltac:(lia)) as U. fold nj in U. rewrite Eq in U. assert (nj * (prodZ (upd N (Z.to_nat j) (nj + 1)) - q * (nj + 1)) = 0) by lia. apply Z.mul_eq_0 in H. lia. }
      eapply sat_imp; [apply (IH (upd N (Z.to_nat j) (nj + 1)) (q * (nj + 1)) true (Forall_inv_tail HJ)); [rewrite length_upd; exact HL|apply Forall_upd; [exact HF|lia]|symmetry; exact PU|exact G]|].
      intros [[N' t'] c'] (A1 & A2 & A3 & A4 & A5 & A6). assert (total < q * (nj + 1)) by (rewrite HT, Eq; nia). split; [exact A1|]. split; [exact A2|]. split; [exact A3|]. split; [exact A4|]. split; [lia|]. intros _. right. lia.
Qed.
Lemma incr_loop_ok mx nc js : Forall (fun j => 0 <= j < Z.of_nat nc) js -> forall fuel N total, length N = nc -> Forall (fun x => 2 <= x) N -> total = prodZ N -> total <= mx -> mx - total < Z.of_nat fuel ->
  sat (fun r => let '(N', t') := r in length N' = nc /\ Forall (fun x => 2 <= x) N' /\ t' = prodZ N' /\ t' <= mx) (incr_loop fuel js N total mx).
Proof.
  intros HJ. induction fuel as [|fuel IH]; intros N total HL HF HT HM HFU; [lia|]. cbn [incr_loop].
  eapply sat_bind; [apply (incr_pass_ok mx nc js N total false HJ HL HF HT HM)|]. intros [[N' t'] c'] (A1 & A2 & A3 & A4 & A5 & A6). destruct c'.
  - destruct (A6 eq_refl) as [X|X]; [discriminate X|]. apply IH; try assumption. lia.
  - cbn [sat]. split; [exact A1|]. split; [exact A2|]. split; [exact A3|exact A4].
Qed.
Lemma ipow_pow b nc : (1 <= nc)%nat -> ipow b nc = b ^ Z.of_nat nc.
Proof.
  intros H. unfold ipow. destruct nc as [|k]; [lia|]. replace (S k - 1)%nat with k by lia. clear H. induction k as [|k IH]; [cbn [Nat.iter nat_rect]; change (Z.of_nat 1) with 1; rewrite Z.pow_1_r; reflexivity|].
  change (Nat.iter (S k) (fun t => t * b) b) with (Nat.iter k (fun t => t * b) b * b). rewrite IH. replace (Z.of_nat (S (S k))) with (Z.succ (Z.of_nat (S k))) by lia. rewrite Z.pow_succ_r by lia. ring.
Qed.
Lemma iroot_ok mx nc : (1 <= nc)%nat -> forall fuel i, 1 <= i -> (i = 1 \/ i ^ Z.of_nat nc <= mx) -> mx - i < Z.of_nat fuel -> 0 < Z.of_nat fuel ->
  sat (fun r => 1 <= r /\ (r = 1 \/ r ^ Z.of_nat nc <= mx)) (iroot_loop fuel i mx nc).
Proof.
  intros Hn. induction fuel as [|fuel IH]; intros i Hi HP HF HF0; [lia|]. cbn [iroot_loop]. rewrite ipow_pow by exact Hn. destruct (Z.leb_spec ((i + 1) ^ Z.of_nat nc) mx) as [G|G].
  - assert (i + 1 <= (i + 1) ^ Z.of_nat nc). { rewrite <- (Z.pow_1_r (i + 1)) at 1. apply Z.pow_le_mono_r; lia. }
    apply IH; [lia|right; exact G|lia|lia].
  - cbn [sat]. replace (i + 1 - 1) with i by lia. split; [exact Hi|exact HP].
Qed.
Lemma iter_prod b nc : Nat.iter nc (fun t => t * b) 1 = prodZ (repeat b nc).
Proof. induction nc as [|nc IH]; [reflexivity|]. change (Nat.iter (S nc) (fun t => t * b) 1) with (Nat.iter nc (fun t => t * b) 1 * b). rewrite IH. cbn [repeat prodZ fold_right]. fold (prodZ (repeat b nc)). ring. Qed.
Lemma prod_repeat b nc : prodZ (repeat b nc) = b ^ Z.of_nat nc.
Proof. induction nc as [|nc IH]; [reflexivity|]. cbn [repeat prodZ fold_right]. fold (prodZ (repeat b nc)). rewrite IH. replace (Z.of_nat (S nc)) with (Z.succ (Z.of_nat nc)) by lia. rewrite Z.pow_succ_r by lia. reflexivity. Qed.

Lemma select_ok rgb nc desired : (1 <= nc)%nat -> (rgb = true -> nc = 3%nat) ->
  match select_ncolors rgb nc desired with
  | Ret (N, total) => length N = nc /\ (nc <= 4)%nat /\ Forall (fun x => 2 <= x) N /\ total = prodZ N /\ total <= desired <= 256
  | Error e => (4 < nc)%nat /\ e = JERR_QUANT_COMPONENTS \/ 256 < desired /\ e = JERR_QUANT_MANY_COLORS \/ desired < 2 ^ Z.of_nat nc /\ e = JERR_QUANT_FEW_COLORS
  | Undef => False
  end.
Proof.
  intros Hn Hr. unfold select_ncolors. destruct (Nat.ltb_spec 4 nc) as [G|G]; [left; split; [exact G|reflexivity]|]. destruct (Z.ltb_spec 256 desired) as [G2|G2]; [right; left; split; [exact G2|reflexivity]|].
  pose proof (iroot_ok desired nc Hn (Z.to_nat 300) 1 ltac:(lia) ltac:(left; reflexivity) ltac:(lia) ltac:(lia)) as IR.
  assert (IX : forall r, iroot_loop (Z.to_nat 300) 1 desired nc = Ret r -> r < 2 -> desired < 2 ^ Z.of_nat nc).
  { intros r E Hr2. change (Z.to_nat 300) with (S (Z.to_nat 299)) in E. cbn [iroot_loop] in E. rewrite ipow_pow in E by exact Hn. change (1 + 1) with 2 in E. destruct (Z.leb_spec (2 ^ Z.of_nat nc) desired) as [G3|G3]; [|exact G3].
    pose proof (iroot_ok desired nc Hn (Z.to_nat 299) 2) as IQ. exfalso.
    assert (forall fuel i r, iroot_loop fuel i desired nc = Ret r -> i <= r) as MONO. { clear. induction fuel as [|f IH]; intros i r H; [discriminate H|]. cbn [iroot_loop] in H. destruct (_ <=? _); [apply IH in H; lia|inversion H; lia]. }
    apply MONO in E. lia. }
  destruct (iroot_loop (Z.to_nat 300) 1 desired nc) as [r|e|]; cbn [sat] in IR; [|contradiction|contradiction]. cbn [bind]. destruct (Z.ltb_spec r 2) as [G3|G3]; [right; right; split; [apply (IX r eq_refl G3)|reflexivity]|].
  destruct IR as [_ [IR|IR]]; [lia|].
  assert (HJ : Forall (fun j => 0 <= j < Z.of_nat nc) (if rgb then [1; 0; 2] else map Z.of_nat (seq 0 nc))).
  { destruct rgb; [rewrite (Hr eq_refl); constructor; [lia|constructor; [lia|constructor; [lia|constructor]]]|]. apply Forall_forall. intros x Hx. apply in_map_iff in Hx. destruct Hx as (y & <- & Hy). apply in_seq in Hy. lia. }
  rewrite iter_prod.
  pose proof (incr_loop_ok desired nc _ HJ (Z.to_nat 300) (repeat r nc) (prodZ (repeat r nc))) as Q. rewrite repeat_length in Q.
  assert (FR : Forall (fun x => 2 <= x) (repeat r nc)) by (apply Forall_forall; intros x Hx; apply repeat_spec in Hx; lia).
  specialize (Q eq_refl FR eq_refl ltac:(rewrite prod_repeat; exact IR) ltac:(pose proof (prodZ_pos _ FR); lia)).
  destruct (incr_loop _ _ _ _ _) as [[N t]|e|]; cbn [sat] in Q; [|contradiction|contradiction]. destruct Q as (A & B & C & D). split; [exact A|]. split; [lia|]. split; [exact B|]. split; [exact C|]. lia.
Qed.

(* ---- levels ---- *)
Definition lvl (M x v : Z) : Prop := 0 <= v <= M /\ x <= largest_input_value v M /\ (v = 0 \/ largest_input_value (v - 1) M < x).
Lemma ov_bounds j M : 1 <= M -> 2 * M * output_value j M <= 2 * (j * 255) + M /\ 2 * (j * 255) - M + 1 <= 2 * M * output_value j M.
Proof.
  intros H. unfold output_value. pose proof (Z.div_mod (j * 255 + M / 2) M ltac:(lia)). pose proof (Z.mod_pos_bound (j * 255 + M / 2) M ltac:(lia)).
  pose proof (Z.div_mod M 2 ltac:(lia)). pose proof (Z.mod_pos_bound M 2 ltac:(lia)). nia.
Qed.
Lemma ov_mono j k M : 1 <= M -> j <= k -> output_value j M <= output_value k M.
Proof. intros H1 H2. unfold output_value. apply Z.div_le_mono; lia. Qed.
Lemma ov_sample j M : 1 <= M -> 0 <= j <= M -> 0 <= output_value j M <= 255.
Proof. intros H1 H2. pose proof (ov_bounds j M H1). nia. Qed.
Lemma liv_bounds j M : 1 <= M -> 2 * M * largest_input_value j M <= (2 * j + 1) * 255 + M /\ (2 * j + 1) * 255 - M + 1 <= 2 * M * largest_input_value j M.
Proof. intros H. unfold largest_input_value. pose proof (Z.div_mod ((2 * j + 1) * 255 + M) (2 * M) ltac:(lia)). pose proof (Z.mod_pos_bound ((2 * j + 1) * 255 + M) (2 * M) ltac:(lia)). lia. Qed.

Lemma up_mid M v x : 1 <= M -> x <= largest_input_value v M -> 2 * x - output_value v M - output_value (v + 1) M <= 1.
Proof.
  intros H Hx. pose proof (liv_bounds v M H) as [B _]. pose proof (ov_bounds v M H) as [_ L1]. pose proof (ov_bounds (v + 1) M H) as [_ L2].
  assert (2 * M * x <= 2 * M * largest_input_value v M) by nia.
  assert (Q : 2 * M * (2 * x - output_value v M - output_value (v + 1) M) < 2 * M * 2) by lia. apply Z.mul_lt_mono_pos_l in Q; lia.
Qed.
Lemma lo_mid M v x : 1 <= M -> largest_input_value (v - 1) M < x -> output_value v M + output_value (v - 1) M - 2 * x <= 0.
Proof.
  intros H Hx. pose proof (liv_bounds (v - 1) M H) as [_ B]. pose proof (ov_bounds v M H) as [L1 _]. pose proof (ov_bounds (v - 1) M H) as [L2 _].
  assert (2 * M * (largest_input_value (v - 1) M + 1) <= 2 * M * x) by nia.
  assert (Q : 2 * M * (output_value v M + output_value (v - 1) M - 2 * x) < 2 * M * 1) by lia. apply Z.mul_lt_mono_pos_l in Q; lia.
Qed.
Lemma lvl_best M x v u : 1 <= M -> lvl M x v -> 0 <= u <= M -> Z.abs (x - output_value v M) <= Z.abs (x - output_value u M) + 1.
Proof.
  intros H (V1 & V2 & V3) Hu. destruct (Z.lt_trichotomy u v) as [L|[->|L]]; [|lia|].
  - destruct V3 as [V3|V3]; [lia|]. pose proof (lo_mid M v x H V3). pose proof (ov_mono u (v - 1) M H ltac:(lia)). pose proof (ov_mono (v - 1) v M H ltac:(lia)). lia.
  - pose proof (up_mid M v x H V2). pose proof (ov_mono (v + 1) u M H ltac:(lia)). pose proof (ov_mono v (v + 1) M H ltac:(lia)). lia.
Qed.
Lemma lvl_gap M x v : 1 <= M -> lvl M x v -> 0 <= x <= 255 -> Z.abs (x - output_value v M) <= 255 / (2 * M) + 1.
Proof.
  intros H (V1 & V2 & V3) Hx. pose proof (ov_bounds v M H) as [L1 L2]. pose proof (liv_bounds v M H) as [B1 _].
  assert (A1 : x - output_value v M - 1 <= 255 / (2 * M)).
  { apply Z.div_le_lower_bound; [lia|]. assert (2 * M * x <= 2 * M * largest_input_value v M) by nia. lia. }
  assert (A2 : output_value v M - x - 1 <= 255 / (2 * M)).
  { apply Z.div_le_lower_bound; [lia|]. destruct V3 as [->|V3]; [assert (0 <= 2 * M * x) by nia; lia|]. pose proof (liv_bounds (v - 1) M H) as [_ B2]. assert (2 * M * (largest_input_value (v - 1) M + 1) <= 2 * M * x) by nia. lia. }
  lia.
Qed.

(* ---- colour map ---- *)
Lemma divmod_uniq b a k a' k' : 0 <= k < b -> 0 <= k' < b -> a * b + k = a' * b + k' -> a = a' /\ k = k'.
Proof. intros H1 H2 E. assert (A : a = a') by (rewrite (Z.div_unique_pos (a * b + k) b a k) by lia; rewrite E; symmetry; apply (Z.div_unique_pos _ b a' k'); lia). subst. lia. Qed.

Definition row_ok (total blkdist nci : Z) (row : list Z) : Prop :=
  Z.of_nat (length row) = total /\
  forall b v r, 0 <= b -> 0 <= v < nci -> 0 <= r < blkdist / nci -> b * blkdist + v * (blkdist / nci) + r < total -> g row (b * blkdist + v * (blkdist / nci) + r) = output_value v (nci - 1).

Lemma fill_ok total blkdist nci row : 2 <= nci -> blkdist = nci * (blkdist / nci) -> 1 <= blkdist / nci -> (exists q, 0 <= q /\ total = q * blkdist) -> Z.of_nat (length row) = total ->
  sat (row_ok total blkdist nci) (fill_row total blkdist nci row).
Proof.
  intros Hn HB Hbs (q & Hq & HT) HL. unfold fill_row. set (bs := blkdist / nci) in *. cbv zeta.
  set (inv := fun (j t k : Z) (r : list Z) => Z.of_nat (length r) = total /\
     forall j' t' k', 0 <= j' < nci -> 0 <= t' < q -> 0 <= k' < bs -> (j' < j \/ j' = j /\ (t' < t \/ t' = t /\ k' < k)) -> g r (j' * bs + t' * blkdist + k') = output_value j' (nci - 1)).
  assert (IMP : forall j t k j2 t2 k2 r, inv j t k r -> (forall j' t' k', 0 <= j' < nci -> 0 <= t' < q -> 0 <= k' < bs -> (j' < j2 \/ j' = j2 /\ (t' < t2 \/ t' = t2 /\ k' < k2)) -> (j' < j \/ j' = j /\ (t' < t \/ t' = t /\ k' < k))) -> inv j2 t2 k2 r).
  { intros j t k j2 t2 k2 r [I1 I2] H. split; [exact I1|]. intros j' t' k' A B C D. apply I2; try assumption. apply H; assumption. }
  eapply sat_imp. 1: apply (sat_for (fun j r => inv j 0 0 r)).
  - split; [exact HL|]. intros; lia.
  - intros j r Hj HI. rewrite Z2Nat.id in Hj by lia.
    assert (CT : (total - j * bs + blkdist - 1) / blkdist = q) by (symmetry; apply (Z.div_unique_pos _ blkdist q (blkdist - 1 - j * bs)); nia). rewrite CT.
    eapply sat_imp. 1: apply (sat_for (fun t r => inv j t 0 r)).
    + exact HI.
    + intros t r1 Ht HI1. rewrite Z2Nat.id in Ht by lia.
      eapply sat_imp. 1: apply (sat_for (fun k r => inv j t k r)).
      * exact HI1.
      * intros k r2 Hk [I1 I2]. rewrite Z2Nat.id in Hk by lia.
        assert (RP : 0 <= j * bs + t * blkdist + k < total). { assert (0 <= j * bs) by nia. assert (0 <= t * blkdist) by nia. assert (t * blkdist <= (q - 1) * blkdist) by nia. assert (j * bs + k < blkdist) by nia. nia. }
        apply sat_aset; [lia|]. split; [rewrite length_upd; exact I1|]. intros j' t' k' A B C D.
        rewrite g_upd; [|lia|assert (0 <= j' * bs) by nia; assert (0 <= t' * blkdist) by nia; lia].
        pose proof (ov_sample j (nci - 1) ltac:(lia) ltac:(lia)).
        destruct (Z.eqb_spec (j * bs + t * blkdist + k) (j' * bs + t' * blkdist + k')) as [E|NE].
        -- assert (E2 : (t * nci + j) * bs + k = (t' * nci + j') * bs + k') by nia. apply divmod_uniq in E2; [|lia|lia]. destruct E2 as [E3 E4]. apply divmod_uniq in E3; [|lia|lia]. destruct E3 as [E3 E5]. rewrite u8_id by lia. congruence.
        -- apply I2; try assumption. destruct D as [D|[D [D2|[D2 D3]]]]; [left; exact D|right; split; [exact D|left; exact D2]|]. right. split; [exact D|]. right. split; [exact D2|]. destruct (Z.eq_dec k' k) as [->|N2]; [exfalso; apply NE; congruence|lia].
      * intros r2 HI2. eapply IMP; [exact HI2|]. intros. rewrite Z2Nat.id by lia. lia.
    + intros r1 HI1. eapply IMP; [exact HI1|]. intros. rewrite Z2Nat.id by lia. lia.
  - intros r [I1 I2]. split; [exact I1|]. fold bs. intros b v k Hb Hv Hk HR. rewrite Z2Nat.id in I2 by lia. replace (b * blkdist + v * bs + k) with (v * bs + b * blkdist + k) by lia.
    apply I2; try lia. assert (0 <= v * bs) by nia. nia.
Qed.

Fixpoint rows_ok (total blkdist : Z) (N : list Z) (rows : list (list Z)) : Prop :=
  match N, rows with
  | [], [] => True
  | n :: N, r :: rows => row_ok total blkdist n r /\ rows_ok total (blkdist / n) N rows
  | _, _ => False
  end.
Lemma prod_div n N : 2 <= n -> prodZ (n :: N) / n = prodZ N.
Proof. intros H. cbn [prodZ fold_right]. rewrite Z.mul_comm. apply Z.div_mul. lia. Qed.
Lemma rows_create total garbage : Z.of_nat (length garbage) = total -> forall N, Forall (fun x => 2 <= x) N -> (exists q, 0 <= q /\ total = q * prodZ N) -> sat (rows_ok total (prodZ N) N) (create_rows total (prodZ N) N garbage).
Proof.
  intros HG. induction N as [|n N IH]; intros HF (q & Hq & HT); [exact Logic.I|]. cbn [create_rows]. assert (Hn : 2 <= n) by exact (Forall_inv HF). pose proof (prodZ_pos N (Forall_inv_tail HF)) as PP.
  assert (E : prodZ (n :: N) = n * prodZ N) by reflexivity.
  eapply sat_bind; [apply fill_ok; [exact Hn|rewrite prod_div by exact Hn; exact E|rewrite prod_div by exact Hn; exact PP|exists q; split; [exact Hq|exact HT]|exact HG]|].
  intros r HR. rewrite prod_div by exact Hn. eapply sat_bind; [apply IH; [exact (Forall_inv_tail HF)|exists (q * n); split; [nia|rewrite HT, E; ring]]|]. intros rs HRS. cbn [sat rows_ok]. rewrite prod_div by exact Hn. split; assumption.
Qed.

(* ---- colour index ---- *)
Definition tab_ok (padded : bool) (nci blk : Z) (c : cindex) : Prop :=
  forall x, (if padded then -255 <= x <= 510 else 0 <= x <= 255) -> exists v, ci_get c x = Ret (v * blk) /\ lvl (nci - 1) (clamp x) v.

Lemma liv_top M : 1 <= M -> 255 <= largest_input_value M M.
Proof. intros H. unfold largest_input_value. apply Z.div_le_lower_bound; lia. Qed.
Lemma advance_ok M j : 1 <= M -> j <= 255 -> forall fuel v, 0 <= v <= M -> M - v <= Z.of_nat fuel -> (v = 0 \/ largest_input_value (v - 1) M < j) ->
  sat (fun r => lvl M j (fst r) /\ snd r = largest_input_value (fst r) M) (advance fuel M j v (largest_input_value v M)).
Proof.
  intros HM Hj. induction fuel as [|f IH]; intros v Hv Hf H; cbn [advance]; destruct (Z.ltb_spec (largest_input_value v M) j) as [G|G].
  - assert (v = M) by lia. subst v. pose proof (liv_top M HM). lia.
  - cbn [sat fst snd]. split; [split; [exact Hv|split; [exact G|exact H]]|reflexivity].
  - destruct (Z.eq_dec v M) as [->|N]; [pose proof (liv_top M HM); lia|]. apply IH; [lia|lia|]. right. replace (v + 1 - 1) with v by lia. exact G.
  - cbn [sat fst snd]. split; [split; [exact Hv|split; [exact G|exact H]]|reflexivity].
Qed.
Lemma index_row_ok padded nci blk : 2 <= nci -> 1 <= blk -> nci * blk <= 256 -> sat (tab_ok padded nci blk) (index_row padded nci blk).
Proof.
  intros Hn Hb Hp. unfold index_row. set (M := nci - 1) in *. assert (HM : 1 <= M <= 255) by (unfold M; nia).
  eapply sat_bind with (P := fun st => let '(tab, _, _) := st in length tab = 256%nat /\ forall x, 0 <= x < 256 -> exists v, g tab x = v * blk /\ lvl M x v).
  - eapply sat_imp. 1: apply (sat_for (fun j st => let '(tab, v, k) := st in length tab = Z.to_nat j /\ 0 <= v <= M /\ k = largest_input_value v M /\ (v = 0 \/ largest_input_value (v - 1) M < j) /\ forall x, 0 <= x < j -> exists v, g tab x = v * blk /\ lvl M x v)).
    + split; [reflexivity|]. split; [lia|]. split; [reflexivity|]. split; [left; reflexivity|]. intros; lia.
    + intros j [[tab v] k] Hj (L & V & -> & W & T). change (0 + Z.of_nat 256) with 256 in Hj.
      eapply sat_bind; [apply (advance_ok M j ltac:(lia) ltac:(lia) 256 v V ltac:(lia) W)|]. intros [v2 k2] [LV E]. cbn [fst snd] in *. cbn [sat]. pose proof LV as (V1 & V2 & V3).
      split; [rewrite app_length; cbn [length]; lia|]. split; [exact V1|]. split; [exact E|]. split; [destruct V3; [left; assumption|right; lia]|].
      intros x Hx. unfold g. destruct (Z.eq_dec x j) as [->|N].
      * exists v2. rewrite app_nth2 by lia. replace (Z.to_nat j - length tab)%nat with 0%nat by lia. cbn [nth]. rewrite u8_id by (unfold M in *; nia). split; [reflexivity|exact LV].
      * rewrite app_nth1 by lia. apply T. lia.
    + intros [[tab v] k] (L & V & _ & W & T). change (0 + Z.of_nat 256) with 256 in *. split; [exact L|exact T].
  - intros [[tab v0] k0] [L T]. assert (G0 : forall x, 0 <= x <= 255 -> clamp x = x) by (unfold clamp; lia). destruct padded.
    + rewrite !aget_g by lia. cbn [bind sat]. intros x Hx. destruct (T (clamp x) ltac:(unfold clamp; lia)) as (v & E & LV). exists v. split; [|exact LV]. unfold ci_get. cbn [ci_tab ci_off].
      rewrite aget_g by (rewrite !app_length, !repeat_length; lia). f_equal. rewrite <- E. unfold g.
      destruct (Z.lt_ge_cases x 0) as [X|X]; [rewrite app_nth1 by (rewrite repeat_length; lia); rewrite nth_repeat_lt by lia; f_equal; unfold clamp; lia|].
      rewrite app_nth2 by (rewrite repeat_length; lia). rewrite repeat_length. destruct (Z.lt_ge_cases x 256) as [Y|Y]; [rewrite app_nth1 by lia; f_equal; rewrite G0; lia|].
      rewrite app_nth2 by lia. rewrite nth_repeat_lt by lia. f_equal. unfold clamp. lia.
    + cbn [sat]. intros x Hx. destruct (T x ltac:(lia)) as (v & E & LV). exists v. rewrite G0 by lia. split; [|exact LV]. unfold ci_get. cbn [ci_tab ci_off]. rewrite Z.add_0_r, aget_g by lia. f_equal. exact E.
Qed.
Fixpoint tabs_ok (padded : bool) (N : list Z) (tabs : list cindex) : Prop :=
  match N, tabs with
  | [], [] => True
  | n :: N, t :: ts => tab_ok padded n (prodZ N) t /\ tabs_ok padded N ts
  | _, _ => False
  end.
Lemma colorindex_ok padded : forall N, Forall (fun x => 2 <= x) N -> prodZ N <= 256 -> sat (tabs_ok padded N) (create_colorindex padded (prodZ N) N).
Proof.
  induction N as [|n N IH]; intros HF HP; [exact Logic.I|]. cbn [create_colorindex]. assert (Hn : 2 <= n) by exact (Forall_inv HF). pose proof (prodZ_pos N (Forall_inv_tail HF)) as PP. rewrite prod_div by exact Hn.
  assert (E : prodZ (n :: N) = n * prodZ N) by reflexivity. eapply sat_bind; [apply index_row_ok; [exact Hn|exact PP|lia]|]. intros t HT. eapply sat_bind; [apply IH; [exact (Forall_inv_tail HF)|nia]|]. intros ts HTS. cbn [sat tabs_ok]. split; assumption.
Qed.

(* ---- from codes to palette entries ---- *)
Fixpoint enc (N vs : list Z) : Z := match N, vs with _ :: N, v :: vs => v * prodZ N + enc N vs | _, _ => 0 end.
Fixpoint good (P : Z -> Z -> Z -> Prop) (N : list Z) (planes : list (list Z)) (vs : list Z) (col : Z) : Prop :=
  match N, planes, vs with
  | [], _, [] => True
  | n :: N, p :: ps, v :: vs => (0 <= v < n /\ P n (g p col) v) /\ good P N ps vs col
  | _, _, _ => False
  end.
Lemma enc_bound P : forall N planes vs col, Forall (fun x => 2 <= x) N -> good P N planes vs col -> 0 <= enc N vs < prodZ N.
Proof.
  induction N as [|n N IH]; intros planes vs col HF HG; [cbn [enc prodZ fold_right]; lia|]. destruct planes as [|p ps], vs as [|v vs]; try contradiction. cbn [good] in HG. destruct HG as [[HV _] HG]. cbn [enc]. specialize (IH ps vs col (Forall_inv_tail HF) HG).
  change (prodZ (n :: N)) with (n * prodZ N). nia.
Qed.
Definition entry (row : list Z) (n total k v : Z) : Prop :=
  Z.of_nat (length row) = total /\ g row k = output_value v (n - 1) /\ forall k', 0 <= k' < total -> exists u, 0 <= u <= n - 1 /\ g row k' = output_value u (n - 1).
Lemma row_entry total blk n row : 2 <= n -> 1 <= blk -> (exists q, 0 <= q /\ total = q * (n * blk)) -> row_ok total (n * blk) n row -> forall b v r, 0 <= b -> 0 <= v < n -> 0 <= r < blk -> b * (n * blk) + (v * blk + r) < total -> entry row n total (b * (n * blk) + (v * blk + r)) v.
Proof.
  intros Hn Hb (q & Hq & HT) [R1 R2] b v r Hb0 Hv Hr HK. rewrite (Z.mul_comm n blk), Z.div_mul in R2 by lia. rewrite (Z.mul_comm blk n) in R2. split; [exact R1|]. split; [rewrite Z.add_assoc; apply R2; lia|].
  intros k' Hk'. set (m := k' mod (n * blk)). assert (NB : 0 < n * blk) by nia. pose proof (Z.div_mod k' (n * blk) ltac:(lia)) as D1. pose proof (Z.mod_pos_bound k' (n * blk) NB) as D2. fold m in D1, D2.
  pose proof (Z.div_mod m blk ltac:(lia)) as D3. pose proof (Z.mod_pos_bound m blk ltac:(lia)) as D4. exists (m / blk).
  assert (0 <= m / blk) by (apply Z.div_pos; lia). assert (m / blk < n) by (apply Z.div_lt_upper_bound; lia). assert (0 <= k' / (n * blk)) by (apply Z.div_pos; lia).
  split; [lia|]. replace k' with (k' / (n * blk) * (n * blk) + m / blk * blk + m mod blk) at 1 by lia. apply R2; try lia.
Qed.
Lemma codes_entry P total : forall N rows planes vs col b, Forall (fun x => 2 <= x) N -> (exists q, 0 <= q /\ total = q * prodZ N) -> rows_ok total (prodZ N) N rows -> good P N planes vs col ->
  0 <= b -> b * prodZ N + enc N vs < total ->
  forall i, (i < length N)%nat -> exists v, P (nth i N 0) (g (nth i planes []) col) v /\ entry (nth i rows []) (nth i N 0) total (b * prodZ N + enc N vs) v.
Proof.
  induction N as [|n N IH]; intros rows planes vs col b HF (q & Hq & HT) HR HG Hb HK i Hi; [cbn in Hi; lia|].
  destruct rows as [|r rows], planes as [|p ps], vs as [|v vs]; try contradiction. destruct HR as [HR1 HR2]. destruct HG as [[HV HP] HG]. assert (Hn : 2 <= n) by exact (Forall_inv HF). pose proof (prodZ_pos N (Forall_inv_tail HF)) as PP.
  pose proof (enc_bound P N ps vs col (Forall_inv_tail HF) HG) as EB. change (prodZ (n :: N)) with (n * prodZ N) in *. cbn [enc] in *. destruct i as [|i]; cbn [nth].
  - exists v. split; [exact HP|]. apply (row_entry total (prodZ N) n r Hn PP); try assumption. exists q. split; assumption.
  - rewrite (Z.mul_comm n (prodZ N)), Z.div_mul in HR2 by lia. replace (b * (n * prodZ N) + (v * prodZ N + enc N vs)) with ((b * n + v) * prodZ N + enc N vs) in * by ring.
    apply (IH rows ps vs col (b * n + v)); try assumption; [exact (Forall_inv_tail HF)|exists (q * n); split; [nia|rewrite HT; ring]|nia|cbn in Hi; lia].
Qed.
Lemma entry_best row n total k v y : 2 <= n -> entry row n total k v -> 0 <= k < total -> lvl (n - 1) y v -> near_best row y k.
Proof.
  intros Hn (E1 & E2 & E3) Hk HL. split; [lia|]. intros k' Hk'. rewrite E1 in Hk'. destruct (E3 k' Hk') as (u & U1 & U2). unfold g in E2, U2. rewrite E2, U2. apply lvl_best; [lia|exact HL|exact U1].
Qed.

(* ---- no dithering ---- *)
Definition samples (width : nat) (p : list Z) : Prop := length p = width /\ Forall sample p.
Lemma samples_get width p col : samples width p -> 0 <= col < Z.of_nat width -> aget p col = Ret (g p col) /\ sample (g p col).
Proof. intros [L F] H. split; [apply aget_g; lia|]. unfold g. rewrite Forall_forall in F. apply F, nth_In. lia. Qed.

Definition Pnone (n x v : Z) : Prop := lvl (n - 1) x v.
Lemma lvl_range n x v : lvl (n - 1) x v -> 0 <= v < n.
Proof. intros [H _]. lia. Qed.
Lemma clamp_id x : sample x -> clamp x = x.
Proof. unfold sample, clamp. lia. Qed.
Lemma pixsum_ok width col : 0 <= col < Z.of_nat width -> forall N tabs planes acc, tabs_ok false N tabs -> length planes = length N -> Forall (samples width) planes ->
  sat (fun r => exists vs, good Pnone N planes vs col /\ r = acc + enc N vs) (pixsum tabs planes col acc).
Proof.
  intros Hc. induction N as [|n N IH]; intros tabs planes acc HT HL HS; destruct tabs as [|t ts]; try contradiction; cbn [pixsum]; [exists []; split; [exact Logic.I|cbn [enc]; lia]|].
  destruct planes as [|p ps]; [discriminate HL|]. destruct (samples_get width p col (Forall_inv HS) Hc) as [-> SM]. cbn [bind]. destruct HT as [HT1 HT2]. destruct (HT1 (g p col) ltac:(exact SM)) as (v & -> & LV). cbn [bind]. rewrite (clamp_id _ SM) in LV.
  eapply sat_imp; [apply (IH ts ps (acc + v * prodZ N) HT2 ltac:(cbn in HL; lia) (Forall_inv_tail HS))|]. intros r (vs & G & ->). exists (v :: vs). split; [cbn [good]; split; [split; [apply (lvl_range _ _ _ LV)|exact LV]|exact G]|cbn [enc]; lia].
Qed.
Definition outs_ok (P : Z -> Z -> Z -> Prop) (N : list Z) (planes : list (list Z)) (width : nat) (out : list Z) : Prop :=
  length out = width /\ forall col, 0 <= col < Z.of_nat width -> exists vs, good P N planes vs col /\ g out col = enc N vs.
Lemma g_snoc l x j : 0 <= j <= Z.of_nat (length l) -> g (l ++ [x]) j = if j =? Z.of_nat (length l) then x else g l j.
Proof. intros H. unfold g. destruct (Z.eqb_spec j (Z.of_nat (length l))) as [->|N]; [rewrite Nat2Z.id, app_nth2 by lia; rewrite Nat.sub_diag; reflexivity|apply app_nth1; lia]. Qed.

Lemma color_quantize_ok N tabs planes width : Forall (fun x => 2 <= x) N -> prodZ N <= 256 -> tabs_ok false N tabs -> length planes = length N -> Forall (samples width) planes ->
  sat (outs_ok Pnone N planes width) (color_quantize tabs planes width).
Proof.
  intros HF HP HT HL HS. unfold color_quantize.
  eapply sat_imp. 1: apply (sat_for (fun c out => Z.of_nat (length out) = c /\ forall col, 0 <= col < c -> exists vs, good Pnone N planes vs col /\ g out col = enc N vs)).
  - split; [reflexivity|]. intros; lia.
  - intros c out Hc [L O]. eapply sat_bind; [apply (pixsum_ok width c ltac:(lia) N tabs planes 0 HT HL HS)|]. intros r (vs & G & ->). cbn [sat]. split; [rewrite app_length; cbn [length]; lia|].
    intros col Hcol. rewrite g_snoc by lia. destruct (Z.eqb_spec col (Z.of_nat (length out))) as [->|NE]; [|apply O; lia]. exists vs. rewrite L. split; [exact G|]. pose proof (enc_bound _ _ _ _ _ HF G). apply u8_id. lia.
  - intros out [L O]. cbn [Z.add] in L, O. split; [lia|exact O].
Qed.

(* ---- components one after the other ---- *)
(* out' adds one component's code to out *)
Definition added (Q : Z -> Z -> Prop) (blk : Z) (plane : list Z) (width : nat) (out out' : list Z) : Prop :=
  length out' = width /\ forall col, 0 <= col < Z.of_nat width -> exists v, Q (g plane col) v /\ g out' col = g out col + v * blk.
Definition room (b : Z) (width : nat) (out : list Z) : Prop := length out = width /\ forall col, 0 <= col < Z.of_nat width -> 0 <= g out col /\ g out col + b <= 256.

(* ---- ordered dithering ---- *)
Definition small_dither (n d : Z) : Prop := 2 * (n - 1) * Z.abs d <= 255.
Definition Pord (n x v : Z) : Prop := exists d, small_dither n d /\ lvl (n - 1) (clamp (x + d)) v.
Lemma base_range : Forall (fun r => length r = 16%nat /\ Forall (fun x => 0 <= x <= 255) r) base_dither_matrix.
Proof. unfold base_dither_matrix. repeat (constructor; [split; [reflexivity|repeat (constructor; [lia|]); constructor]|]). constructor. Qed.
Lemma odither_ok n b : 2 <= n -> 0 <= b <= 255 -> small_dither n (odither_value n b).
Proof.
  intros Hn Hb. unfold small_dither, odither_value. cbv zeta. set (den := 2 * 256 * (n - 1)). assert (HD : 0 < den) by (unfold den; lia).
  assert (Q : forall a, 0 <= a <= 255 * 255 -> 2 * (n - 1) * Z.abs (a / den) <= 255). { intros a Ha. assert (0 <= a / den) by (apply Z.div_pos; lia). rewrite Z.abs_eq by lia. pose proof (Z.mul_div_le a den HD) as M. unfold den in *. nia. }
  destruct (Z.ltb_spec ((256 - 1 - 2 * b) * 255) 0); [rewrite Z.abs_opp; apply Q; lia|apply Q; lia].
Qed.
Definition dith_row (n : Z) (d : list Z) : Prop := length d = 16%nat /\ Forall (small_dither n) d.
Lemma odither_rows n ri : 2 <= n -> 0 <= ri < 16 -> exists d, aget (make_odither_array n) ri = Ret d /\ dith_row n d.
Proof.
  intros Hn Hr. unfold make_odither_array. rewrite (aget_nth _ _ (map (odither_value n) [])) by (rewrite map_length; cbn [length base_dither_matrix]; lia). rewrite map_nth. eexists. split; [reflexivity|].
  pose proof base_range as B. rewrite Forall_forall in B. destruct (B (nth (Z.to_nat ri) base_dither_matrix [])) as [L F]; [apply nth_In; cbn [length base_dither_matrix]; lia|].
  split; [rewrite map_length; exact L|]. apply Forall_map. eapply Forall_impl; [|exact F]. intros a Ha. apply odither_ok; [exact Hn|exact Ha].
Qed.
Lemma small_abs n d : 2 <= n -> small_dither n d -> -255 <= d <= 255.
Proof. unfold small_dither. intros. nia. Qed.
Lemma land15 x : 0 <= x -> 0 <= Z.land x 15 < 16.
Proof. intros H. change 15 with (Z.ones 4). rewrite Z.land_ones by lia. apply Z.mod_pos_bound. lia. Qed.

Lemma dith_get n d ci : dith_row n d -> 0 <= ci < 16 -> aget d ci = Ret (g d ci) /\ small_dither n (g d ci).
Proof. intros [L F] H. split; [apply aget_g; lia|]. unfold g. rewrite Forall_forall in F. apply F, nth_In. lia. Qed.

Lemma ord_comp_ok n blk t d plane width out : 2 <= n -> 1 <= blk -> tab_ok true n blk t -> dith_row n d -> samples width plane -> room (n * blk) width out ->
  sat (added (Pord n) blk plane width out) (ord_comp t d plane width out).
Proof.
  intros Hn Hb HT HD HS [RL RB]. unfold ord_comp.
  eapply sat_bind with (P := fun st => added (Pord n) blk plane width out (fst st)).
  - eapply sat_imp. 1: apply (sat_for (fun c st => let '(o, ci) := st in length o = width /\ 0 <= ci < 16 /\ forall col, 0 <= col < Z.of_nat width -> if col <? c then exists v, Pord n (g plane col) v /\ g o col = g out col + v * blk else g o col = g out col)).
    + split; [exact RL|]. split; [lia|]. intros col Hcol. destruct (Z.ltb_spec col 0); [lia|reflexivity].
    + intros c [o ci] Hc (L & CI & O). destruct (samples_get width plane c HS ltac:(lia)) as [-> SM]. cbn [bind]. destruct (dith_get n d ci HD CI) as [-> SD]. cbn [bind]. pose proof (small_abs n _ Hn SD) as AB.
      destruct (HT (g plane c + g d ci)) as (v & -> & LV); [unfold sample in SM; lia|]. cbn [bind]. rewrite aget_g by lia. cbn [bind]. rewrite aset_ok by lia. cbn [bind sat]. split; [rewrite length_upd; exact L|]. split; [apply land15; lia|].
      intros col Hcol. rewrite g_upd by lia. destruct (Z.eqb_spec c col) as [<-|NE].
      * destruct (Z.ltb_spec c (c + 1)); [|lia]. exists v. split; [exists (g d ci); split; [exact SD|exact LV]|]. pose proof (O c ltac:(lia)) as Oc. destruct (Z.ltb_spec c c); [lia|]. rewrite Oc. pose proof (RB c ltac:(lia)). pose proof (lvl_range _ _ _ LV). apply u8_id. nia.
      * specialize (O col Hcol). destruct (Z.ltb_spec col c), (Z.ltb_spec col (c + 1)); try lia; exact O.
    + intros [o ci] (L & CI & O). cbn [fst]. split; [exact L|]. intros col Hcol. specialize (O col Hcol). destruct (Z.ltb_spec col (0 + Z.of_nat width)); [exact O|lia].
  - intros [o ci] A. exact A.
Qed.

Lemma room_added (Q : Z -> Z -> Prop) n blk plane width out out' : 2 <= n -> 1 <= blk -> (forall x v, Q x v -> 0 <= v < n) -> room (n * blk) width out -> added Q blk plane width out out' -> room blk width out'.
Proof.
  intros Hn Hb HQ [R1 R2] [A1 A2]. split; [exact A1|]. intros col Hcol. destruct (A2 col Hcol) as (v & V1 & ->). destruct (R2 col Hcol). pose proof (HQ _ _ V1). nia.
Qed.
Lemma Pord_range n x v : Pord n x v -> 0 <= v < n.
Proof. intros (d & _ & H). apply (lvl_range _ _ _ H). Qed.

Lemma ord_comps_ok width ri : 0 <= ri < 16 -> forall N tabs planes out, Forall (fun x => 2 <= x) N -> tabs_ok true N tabs -> length planes = length N -> Forall (samples width) planes -> room (prodZ N) width out ->
  sat (fun o => length o = width /\ forall col, 0 <= col < Z.of_nat width -> exists vs, good Pord N planes vs col /\ g o col = g out col + enc N vs) (ord_comps tabs (map make_odither_array N) ri planes width out).
Proof.
  intros Hri. induction N as [|n N IH]; intros tabs planes out HF HT HL HS HR; destruct tabs as [|t ts]; try contradiction; cbn [ord_comps map].
  - cbn [sat]. split; [exact (proj1 HR)|]. intros col Hcol. exists []. split; [exact Logic.I|cbn [enc]; lia].
  - destruct planes as [|p ps]; [discriminate HL|]. destruct HT as [HT1 HT2]. assert (Hn : 2 <= n) by exact (Forall_inv HF). pose proof (prodZ_pos N (Forall_inv_tail HF)) as PP.
    destruct (odither_rows n ri Hn Hri) as (d & -> & HD). cbn [bind].
    eapply sat_bind; [apply (ord_comp_ok n (prodZ N) t d p width out Hn PP HT1 HD (Forall_inv HS) HR)|]. intros out' HA. pose proof (room_added _ n (prodZ N) p width out out' Hn PP (Pord_range n) HR HA) as HR'.
    eapply sat_imp; [apply (IH ts ps out' (Forall_inv_tail HF) HT2 ltac:(cbn in HL; lia) (Forall_inv_tail HS) HR')|]. intros o [O1 O2]. split; [exact O1|]. intros col Hcol. destruct (O2 col Hcol) as (vs & G & E). destruct HA as [_ HA]. destruct (HA col Hcol) as (v & V & E2).
    exists (v :: vs). split; [cbn [good]; split; [split; [apply (Pord_range _ _ _ V)|exact V]|exact G]|cbn [enc]; lia].
Qed.
Lemma room_zero N width : prodZ N <= 256 -> room (prodZ N) width (repeat 0 width).
Proof. intros H. split; [apply repeat_length|]. intros col Hcol. unfold g. rewrite nth_repeat_lt by lia. lia. Qed.
Lemma ord_ok width N tabs : Forall (fun x => 2 <= x) N -> prodZ N <= 256 -> tabs_ok true N tabs -> forall rows ri, 0 <= ri < 16 -> Forall (fun planes => length planes = length N /\ Forall (samples width) planes) rows ->
  sat (Forall2 (fun planes out => outs_ok Pord N planes width out) rows) (quantize_ord_dither tabs (map make_odither_array N) ri rows width).
Proof.
  intros HF HP HT. induction rows as [|r rows IH]; intros ri Hri HR; [constructor|]. cbn [quantize_ord_dither]. destruct (Forall_inv HR) as [L S1].
  eapply sat_bind; [apply (ord_comps_ok width ri Hri N tabs r (repeat 0 width) HF HT L S1 (room_zero N width HP))|]. intros o [O1 O2]. eapply sat_bind; [apply (IH _ (land15 (ri + 1) ltac:(lia)) (Forall_inv_tail HR))|]. intros os HO. cbn [sat]. constructor; [|exact HO].
  split; [exact O1|]. intros col Hcol. destruct (O2 col Hcol) as (vs & G & E). exists vs. split; [exact G|]. rewrite E. unfold g at 1. rewrite nth_repeat_lt by lia. lia.
Qed.

(* quantize3_ord_dither *)
Lemma dither_rows_ok ri : 0 <= ri < 16 -> forall N, Forall (fun x => 2 <= x) N -> sat (fun ds => Forall2 dith_row N ds) (dither_rows (map make_odither_array N) ri).
Proof.
  intros Hri. induction N as [|n N IH]; intros HF; [constructor|]. cbn [dither_rows map]. destruct (odither_rows n ri (Forall_inv HF) Hri) as (d & -> & HD). cbn [bind]. eapply sat_bind; [apply IH; exact (Forall_inv_tail HF)|]. intros ds H. constructor; assumption.
Qed.
Lemma ord_pixsum_ok width col ci : 0 <= col < Z.of_nat width -> 0 <= ci < 16 -> forall N tabs ds planes acc, Forall (fun x => 2 <= x) N -> tabs_ok true N tabs -> Forall2 dith_row N ds -> length planes = length N -> Forall (samples width) planes ->
  sat (fun r => exists vs, good Pord N planes vs col /\ r = acc + enc N vs) (ord_pixsum tabs ds planes col ci acc).
Proof.
  intros Hc Hci. induction N as [|n N IH]; intros tabs ds planes acc HF HT HD HL HS; destruct tabs as [|t ts]; try contradiction; cbn [ord_pixsum]; [exists []; split; [exact Logic.I|cbn [enc]; lia]|].
  destruct planes as [|p ps]; [discriminate HL|]. inversion HD as [|n' d N' ds' HD1 HD2]; subst. destruct (samples_get width p col (Forall_inv HS) Hc) as [-> SM]. cbn [bind]. destruct (dith_get n d ci HD1 Hci) as [-> SD]. cbn [bind]. pose proof (small_abs n _ (Forall_inv HF) SD) as AB.
  destruct HT as [HT1 HT2]. destruct (HT1 (g p col + g d ci)) as (v & -> & LV); [unfold sample in SM; lia|]. cbn [bind].
  eapply sat_imp; [apply (IH ts ds' ps (acc + v * prodZ N) (Forall_inv_tail HF) HT2 HD2 ltac:(cbn in HL; lia) (Forall_inv_tail HS))|]. intros r (vs & G & ->). exists (v :: vs). split; [cbn [good]; split; [split; [apply (lvl_range _ _ _ LV)|exists (g d ci); split; [exact SD|exact LV]]|exact G]|cbn [enc]; lia].
Qed.
Lemma ord3_ok width N tabs ri planes : 0 <= ri < 16 -> Forall (fun x => 2 <= x) N -> prodZ N <= 256 -> tabs_ok true N tabs -> length planes = length N -> Forall (samples width) planes ->
  sat (outs_ok Pord N planes width) (ord3_row tabs (map make_odither_array N) ri planes width).
Proof.
  intros Hri HF HP HT HL HS. unfold ord3_row. eapply sat_bind; [apply (dither_rows_ok ri Hri N HF)|]. intros ds HD.
  eapply sat_bind with (P := fun st => outs_ok Pord N planes width (fst st)); [|intros [o ci] A; exact A].
  eapply sat_imp. 1: apply (sat_for (fun c st => let '(out, ci) := st in Z.of_nat (length out) = c /\ 0 <= ci < 16 /\ forall col, 0 <= col < c -> exists vs, good Pord N planes vs col /\ g out col = enc N vs)).
  - split; [reflexivity|]. split; [lia|]. intros; lia.
  - intros c [out ci] Hc (L & CI & O). eapply sat_bind; [apply (ord_pixsum_ok width c ci ltac:(lia) CI N tabs ds planes 0 HF HT HD HL HS)|]. intros r (vs & G & ->). cbn [sat]. split; [rewrite app_length; cbn [length]; lia|]. split; [apply land15; lia|].
    intros col Hcol. rewrite g_snoc by lia. destruct (Z.eqb_spec col (Z.of_nat (length out))) as [->|NE]; [|apply O; lia]. exists vs. rewrite L. split; [exact G|]. pose proof (enc_bound _ _ _ _ _ HF G). apply u8_id. lia.
  - intros [out ci] (L & CI & O). cbn [fst]. cbn [Z.add] in L, O. split; [lia|exact O].
Qed.

(* ---- Floyd-Steinberg ---- *)
Definition gap (n : Z) : Z := 255 / (2 * (n - 1)) + 1.
Lemma gap_range n : 2 <= n -> 1 <= gap n <= 128.
Proof. intros H. unfold gap. assert (0 <= 255 / (2 * (n - 1))) by (apply Z.div_pos; lia). assert (255 / (2 * (n - 1)) < 128) by (apply Z.div_lt_upper_bound; lia). lia. Qed.
Definition Pfs (n x v : Z) : Prop := exists y, sample y /\ Z.abs (x - y) <= gap n /\ lvl (n - 1) y v.
Lemma Pfs_range n x v : Pfs n x v -> 0 <= v < n.
Proof. intros (y & _ & _ & H). apply (lvl_range _ _ _ H). Qed.

Definition err_ok (n : Z) (width : nat) (e : list Z) : Prop := length e = (width + 2)%nat /\ forall q, 0 <= q < Z.of_nat width + 2 -> - (9 * gap n) <= g e q <= 9 * gap n.
Definition fs1_inv (n blk : Z) (plane out : list Z) (odd : bool) (width : nat) (i : Z) (st : fs1) : Prop :=
  let w := Z.of_nat width in
  err_ok n width (h_e st) /\ - (7 * gap n) <= h_cur st <= 7 * gap n /\ - gap n <= h_below st <= gap n /\ - (6 * gap n) <= h_bprev st <= 6 * gap n /\
  h_idx st = (if odd then w + 1 - i else i) /\ h_pos st = (if odd then w - 1 - i else i) /\ length (h_out st) = width /\
  forall col, 0 <= col < w -> if (if odd then w - i <=? col else col <? i) then exists v, Pfs n (g plane col) v /\ g (h_out st) col = g out col + v * blk else g (h_out st) col = g out col.

(* the rows of the palette at the premultiplied codes *)
Definition row_at (n blk : Z) (row : list Z) : Prop := Z.of_nat (length row) >= n * blk /\ forall v, 0 <= v < n -> g row (v * blk) = output_value v (n - 1).

Lemma fs1_pixel_ok n blk t cmap plane out odd width i st : 2 <= n -> 1 <= blk -> n * blk <= 256 -> tab_ok false n blk t -> row_at n blk cmap -> samples width plane -> room (n * blk) width out -> 0 <= i < Z.of_nat width ->
  fs1_inv n blk plane out odd width i st -> sat (fs1_inv n blk plane out odd width (i + 1)) (fs1_pixel t cmap plane (if odd then -1 else 1) st).
Proof.
  intros Hn Hb Hnb HT [HC1 HC2] HS [RL RB] Hi ([E1 E2] & C & B & BP & F & G & LO & O). unfold fs1_pixel. pose proof (gap_range n Hn) as GR. set (gp := gap n) in *.
  set (j := h_idx st + (if odd then -1 else 1)).
  assert (RJ : 0 <= j < Z.of_nat width + 2) by (unfold j; rewrite F; destruct odd; lia). assert (RI : 0 <= h_idx st < Z.of_nat width + 2) by (rewrite F; destruct odd; lia).
  assert (RP : 0 <= h_pos st < Z.of_nat width) by (rewrite G; destruct odd; lia).
  rewrite aget_g by lia. cbn [bind]. pose proof (E2 j RJ) as EJ. destruct (samples_get width plane (h_pos st) HS RP) as [-> SM]. cbn [bind].
  rewrite Z.shiftr_div_pow2 by lia. change (2 ^ 4) with 16. set (cu := (h_cur st + g (h_e st) j + 8) / 16). pose proof (Z.div_mod (h_cur st + g (h_e st) j + 8) 16 ltac:(lia)) as D1. pose proof (Z.mod_pos_bound (h_cur st + g (h_e st) j + 8) 16 ltac:(lia)) as D2. fold cu in D1.
  assert (CU : - gp <= cu <= gp) by lia. unfold sample in SM. unfold range_limit1. destruct (Z.ltb_spec (cu + g plane (h_pos st)) (-256)); [lia|]. destruct (Z.ltb_spec 639 (cu + g plane (h_pos st))); [lia|]. cbn [orb bind].
  set (y := Z.max 0 (Z.min 255 (cu + g plane (h_pos st)))). assert (SY : sample y) by (unfold sample, y; lia). destruct (HT y ltac:(exact SY)) as (v & -> & LV). rewrite (clamp_id _ SY) in LV. cbn [bind]. pose proof (lvl_range _ _ _ LV) as RV.
  rewrite aget_g by lia. cbn [bind]. rewrite aset_ok by lia. cbn [bind]. assert (0 <= v * blk < n * blk) by nia. rewrite aget_g by lia. cbn [bind]. rewrite HC2 by lia.
  pose proof (lvl_gap (n - 1) y v ltac:(lia) LV ltac:(exact SY)) as GP. fold (gap n) in GP. fold gp in GP. set (er := y - output_value v (n - 1)) in *.
  rewrite aset_ok by lia. cbn [bind sat]. unfold fs1_inv. cbn [h_e h_cur h_below h_bprev h_idx h_pos h_out]. fold gp. split; [|split; [lia|split; [lia|split; [lia|split; [unfold j; rewrite F; destruct odd; lia|split; [rewrite G; destruct odd; lia|split; [rewrite length_upd; exact LO|]]]]]]].
  - split; [rewrite length_upd; exact E1|]. intros q Hq. rewrite g_upd by lia. specialize (E2 q Hq). fold gp in E2 |- *. destruct (h_idx st =? q); [|exact E2]. rewrite s16_id by (unfold s16r; lia). lia.
  - intros col Hcol. rewrite g_upd by lia. destruct (Z.eqb_spec (h_pos st) col) as [<-|NE].
    + assert (X : (if odd then Z.of_nat width - (i + 1) <=? h_pos st else h_pos st <? i + 1) = true) by (rewrite G; destruct odd; [apply Z.leb_le|apply Z.ltb_lt]; lia). rewrite X. exists v. split; [exists y; split; [exact SY|]; split; [fold gp; unfold y; lia|exact LV]|].
      specialize (O (h_pos st) RP). assert (X2 : (if odd then Z.of_nat width - i <=? h_pos st else h_pos st <? i) = false) by (rewrite G; destruct odd; [apply Z.leb_gt|apply Z.ltb_ge]; lia). rewrite X2 in O. rewrite O. pose proof (RB (h_pos st) RP). rewrite (u8_id (v * blk)) by lia. apply u8_id. lia.
    + specialize (O col Hcol). assert (X : (if odd then Z.of_nat width - (i + 1) <=? col else col <? i + 1) = (if odd then Z.of_nat width - i <=? col else col <? i)).
      { rewrite G in NE. destruct odd; [destruct (Z.leb_spec (Z.of_nat width - (i + 1)) col), (Z.leb_spec (Z.of_nat width - i) col); try lia; reflexivity|destruct (Z.ltb_spec col (i + 1)), (Z.ltb_spec col i); try lia; reflexivity]. }
      rewrite X. exact O.
Qed.
Lemma fs1_comp_ok n blk t cmap plane odd width errs out : 2 <= n -> 1 <= blk -> n * blk <= 256 -> tab_ok false n blk t -> row_at n blk cmap -> samples width plane -> room (n * blk) width out -> err_ok n width errs ->
  sat (fun r => err_ok n width (fst r) /\ added (Pfs n) blk plane width out (snd r)) (fs1_comp t cmap plane odd width errs out).
Proof.
  intros Hn Hb Hnb HT HC HS HR HE. unfold fs1_comp. cbv zeta. pose proof (gap_range n Hn) as GR.
  eapply sat_bind with (P := fs1_inv n blk plane out odd width (Z.of_nat width)).
  - eapply sat_imp. 1: apply (sat_for (fs1_inv n blk plane out odd width)).
    + unfold fs1_inv. cbn [h_e h_cur h_below h_bprev h_idx h_pos h_out]. split; [exact HE|]. split; [lia|]. split; [lia|]. split; [lia|]. split; [destruct odd; lia|]. split; [destruct odd; lia|]. split; [exact (proj1 HR)|].
      intros col Hcol. assert (X : (if odd then Z.of_nat width - 0 <=? col else col <? 0) = false) by (destruct odd; [apply Z.leb_gt|apply Z.ltb_ge]; lia). rewrite X. reflexivity.
    + intros i st Hi HI. apply fs1_pixel_ok; assumption.
    + intros st H. exact H.
  - intros st ([E1 E2] & C & B & BP & F & G & LO & O). assert (RI : 0 <= h_idx st < Z.of_nat width + 2) by (rewrite F; destruct odd; lia). rewrite aset_ok by lia. cbn [bind sat fst snd]. rewrite s16_id by (unfold s16r; lia). split.
    + split; [rewrite length_upd; exact E1|]. intros q Hq. rewrite g_upd by lia. specialize (E2 q Hq). destruct (h_idx st =? q); lia.
    + split; [exact LO|]. intros col Hcol. specialize (O col Hcol). assert (X : (if odd then Z.of_nat width - Z.of_nat width <=? col else col <? Z.of_nat width) = true) by (destruct odd; [apply Z.leb_le|apply Z.ltb_lt]; lia). rewrite X in O. exact O.
Qed.
Fixpoint rows_at (N : list Z) (rows : list (list Z)) : Prop :=
  match N, rows with [], [] => True | n :: N, r :: rs => row_at n (prodZ N) r /\ rows_at N rs | _, _ => False end.
Lemma rows_ok_at total : forall N rows, Forall (fun x => 2 <= x) N -> (exists q, 1 <= q /\ total = q * prodZ N) -> rows_ok total (prodZ N) N rows -> rows_at N rows.
Proof.
  induction N as [|n N IH]; intros rows HF (q & Hq & HT) HR; destruct rows as [|r rs]; try contradiction; [exact Logic.I|]. destruct HR as [[R1 R2] HR]. assert (Hn : 2 <= n) by exact (Forall_inv HF). pose proof (prodZ_pos N (Forall_inv_tail HF)) as PP. rewrite prod_div in * by exact Hn.
  change (prodZ (n :: N)) with (n * prodZ N) in *. split; [split; [nia|]|apply IH; [exact (Forall_inv_tail HF)|exists (q * n); split; [nia|rewrite HT; ring]|exact HR]].
  intros v Hv. specialize (R2 0 v 0 ltac:(lia) Hv ltac:(lia)). rewrite Z.mul_0_l, Z.add_0_l, Z.add_0_r in R2. apply R2. rewrite HT. assert (v * prodZ N < n * prodZ N) by (apply Z.mul_lt_mono_pos_r; lia). assert (1 * (n * prodZ N) <= q * (n * prodZ N)) by (apply Z.mul_le_mono_nonneg_r; [nia|lia]). lia.
Qed.
Lemma fs1_comps_ok width odd : forall N tabs rows planes errs out, Forall (fun x => 2 <= x) N -> prodZ N <= 256 -> tabs_ok false N tabs -> rows_at N rows -> length planes = length N -> Forall (samples width) planes -> Forall2 (fun n e => err_ok n width e) N errs -> room (prodZ N) width out ->
  sat (fun r => Forall2 (fun n e => err_ok n width e) N (fst r) /\ length (snd r) = width /\ forall col, 0 <= col < Z.of_nat width -> exists vs, good Pfs N planes vs col /\ g (snd r) col = g out col + enc N vs) (fs1_comps tabs rows planes odd width errs out).
Proof.
  induction N as [|n N IH]; intros tabs rows planes errs out HF HP HT HRW HL HS HE HR; destruct tabs as [|t ts]; try contradiction; cbn [fs1_comps].
  - cbn [sat fst snd]. split; [constructor|]. split; [exact (proj1 HR)|]. intros col Hcol. exists []. split; [exact Logic.I|cbn [enc]; lia].
  - destruct planes as [|p ps]; [discriminate HL|]. destruct rows as [|rw rs]; try contradiction. inversion HE as [|n' e N' es HE1 HE2]; subst. destruct HT as [HT1 HT2]. destruct HRW as [HW1 HW2]. assert (Hn : 2 <= n) by exact (Forall_inv HF). pose proof (prodZ_pos N (Forall_inv_tail HF)) as PP.
    assert (EP : prodZ (n :: N) = n * prodZ N) by reflexivity. rewrite EP in *.
    eapply sat_bind; [apply (fs1_comp_ok n (prodZ N) t rw p odd width e out Hn PP HP HT1 HW1 (Forall_inv HS) HR HE1)|]. intros [e' out'] [HE' HA]. cbn [fst snd] in *. pose proof (room_added _ n (prodZ N) p width out out' Hn PP (Pfs_range n) HR HA) as HR'.
    eapply sat_bind; [apply (IH ts rs ps es out' (Forall_inv_tail HF) ltac:(nia) HT2 HW2 ltac:(cbn in HL; lia) (Forall_inv_tail HS) HE2 HR')|]. intros [es' o] (O0 & O1 & O2). cbn [fst snd sat] in *. split; [constructor; assumption|]. split; [exact O1|].
    intros col Hcol. destruct (O2 col Hcol) as (vs & G & E). destruct HA as [_ HA]. destruct (HA col Hcol) as (v & V & E2). exists (v :: vs). split; [cbn [good]; split; [split; [apply (Pfs_range _ _ _ V)|exact V]|exact G]|cbn [enc]; lia].
Qed.
Lemma fs1_ok width N tabs cm : Forall (fun x => 2 <= x) N -> prodZ N <= 256 -> tabs_ok false N tabs -> rows_at N cm -> forall rows odd errs, Forall2 (fun n e => err_ok n width e) N errs -> Forall (fun planes => length planes = length N /\ Forall (samples width) planes) rows ->
  sat (Forall2 (fun planes out => outs_ok Pfs N planes width out) rows) (quantize_fs_dither tabs cm odd rows width errs).
Proof.
  intros HF HP HT HC. induction rows as [|r rows IH]; intros odd errs HE HR; [constructor|]. cbn [quantize_fs_dither]. destruct (Forall_inv HR) as [L S1].
  eapply sat_bind; [apply (fs1_comps_ok width odd N tabs cm r errs (repeat 0 width) HF HP HT HC L S1 HE (room_zero N width HP))|]. intros [errs' o] (O0 & O1 & O2). cbn [fst snd] in *. eapply sat_bind; [apply (IH (negb odd) errs' O0 (Forall_inv_tail HR))|]. intros os HO. cbn [sat]. constructor; [|exact HO].
  split; [exact O1|]. intros col Hcol. destruct (O2 col Hcol) as (vs & G & E). exists vs. split; [exact G|]. rewrite E. unfold g at 1. rewrite nth_repeat_lt by lia. lia.
Qed.
