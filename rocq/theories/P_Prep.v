(* P_Prep.v -- the preprocessor *)
From Verif Require Import Base M_Prep S_Prep.
Open Scope nat_scope.

Section P.
Variable c : pcfg.
Hypothesis Hc : pcfg_ok c.
Notation v := (p_v c).
Notation w := (p_w c).
Notation du := (p_du c).
Notation H := (p_H c).
Definition cap : nat := if p_ctx c then 3 * v else v.

Lemma Hv : 1 <= v. Proof. apply Hc. Qed.
Lemma Hw : 1 <= w. Proof. apply Hc. Qed.
Lemma Hdu : 1 <= du. Proof. apply Hc. Qed.
Lemma HH : 1 <= H. Proof. apply Hc. Qed.

Lemma ceil_iff : forall h d r, 1 <= d -> (r < (h + d - 1) / d <-> r * d < h).
Proof.
  intros h d r Hd. pose proof (Nat.div_mod (h + d - 1) d ltac:(lia)) as E. pose proof (Nat.mod_upper_bound (h + d - 1) d ltac:(lia)) as B.
  set (q := (h + d - 1) / d) in *. set (m := (h + d - 1) mod d) in *. clearbody q m. split; intros L.
  - assert (d * (r + 1) <= d * q) by (apply Nat.mul_le_mono_l; lia). lia.
  - destruct (Nat.lt_ge_cases r q) as [K|K]; [exact K|exfalso]. assert (d * q <= d * r) by (apply Nat.mul_le_mono_l; lia). lia.
Qed.
Lemma total_iff : forall r, r < total c <-> r * (v * du) < H.
Proof. intros r. unfold total. apply ceil_iff. pose proof Hv. pose proof Hdu. nia. Qed.
Lemma groups_iff : forall g, g < real_groups c <-> g * v < H.
Proof. intros g. unfold real_groups. apply ceil_iff. exact Hv. Qed.

Lemma cbi_id : forall i, i < cap -> cbi c (Z.of_nat i) = Ret i.
Proof.
  intros i Hi. unfold cbi, cap in *. destruct (p_ctx c).
  - destruct (Z.leb_spec (- Z.of_nat v) (Z.of_nat i)); destruct (Z.ltb_spec (Z.of_nat i) 0); cbn [andb]; try lia.
    destruct (Z.leb_spec 0 (Z.of_nat i)); destruct (Z.ltb_spec (Z.of_nat i) (3 * Z.of_nat v)); cbn [andb]; try lia.
    rewrite Nat2Z.id. reflexivity.
  - destruct (Z.leb_spec 0 (Z.of_nat i)); destruct (Z.ltb_spec (Z.of_nat i) (Z.of_nat v)); cbn [andb]; try lia.
    rewrite Nat2Z.id. reflexivity.
Qed.
Lemma cbset_ok : forall b i t, i < cap -> cbset c b (Z.of_nat i) t = Ret (fun k => if k =? i then Some t else b k).
Proof. intros b i t Hi. unfold cbset. rewrite cbi_id by exact Hi. reflexivity. Qed.
Lemma cbget_ok : forall b z i t, cbi c z = Ret i -> b i = Some t -> cbget c b z = Ret t.
Proof. intros b z i t E1 E2. unfold cbget. rewrite E1. cbn [bind]. rewrite E2. reflexivity. Qed.

Definition between (a i b : nat) : bool := (a <=? i) && (i <? b).
Lemma between_spec : forall a i b, Bool.reflect (a <= i < b) (between a i b).
Proof.
  intros a i b. apply Bool.iff_reflect. unfold between. rewrite Bool.andb_true_iff, Nat.leb_le, Nat.ltb_lt. reflexivity.
Qed.

Lemma convert_ok : forall n y0 avail src dst b, src + n <= avail -> dst + n <= cap ->
  exists b', convert c n y0 avail src dst b = Ret b' /\
    forall i, b' i = if between dst i (dst + n) then Some (y0 + src + (i - dst)) else b i.
Proof.
  induction n as [|n IH]; intros y0 avail src dst b H1 H2.
  - exists b. split; [reflexivity|]. intros i. destruct (between_spec dst i (dst + 0)); [lia|reflexivity].
  - cbn [convert]. destruct (Nat.ltb_spec src avail) as [_|K]; [|lia]. rewrite cbset_ok by lia. cbn [bind].
    destruct (IH y0 avail (S src) (S dst) (fun k => if k =? dst then Some (y0 + src) else b k)) as (b' & E & Q); [lia|lia|].
    exists b'. split; [exact E|]. intros i. rewrite Q.
    destruct (between_spec (S dst) i (S dst + n)); destruct (between_spec dst i (dst + S n)); try lia.
    + f_equal. lia.
    + destruct (Nat.eqb_spec i dst); [f_equal; lia|lia].
    + destruct (Nat.eqb_spec i dst); [lia|reflexivity].
Qed.

Lemma expand_cb_ok : forall n inp row b js t, cbi c (Z.of_nat inp - 1) = Ret js -> b js = Some t -> row + n <= cap ->
  exists b', expand_cb c n inp row b = Ret b' /\ forall i, b' i = if between row i (row + n) then Some t else b i.
Proof.
  induction n as [|n IH]; intros inp row b js t E1 E2 H2.
  - exists b. split; [reflexivity|]. intros i. destruct (between_spec row i (row + 0)); [lia|reflexivity].
  - cbn [expand_cb]. rewrite (cbget_ok b _ js t E1 E2). cbn [bind]. rewrite cbset_ok by lia. cbn [bind].
    destruct (IH inp (S row) (fun k => if k =? row then Some t else b k) js t) as (b' & E & Q); [exact E1| |lia|].
    { destruct (js =? row); [reflexivity|exact E2]. }
    exists b'. split; [exact E|]. intros i. rewrite Q.
    destruct (between_spec (S row) i (S row + n)); destruct (between_spec row i (row + S n)); try lia; [reflexivity| |].
    + destruct (Nat.eqb_spec i row); [reflexivity|lia].
    + destruct (Nat.eqb_spec i row); [lia|reflexivity].
Qed.

Lemma window_ok : forall b f n i k0, (forall k, k0 <= k < k0 + n -> cbget c b (i + Z.of_nat (k - k0)) = Ret (f k)) ->
  window c n i b = Ret (map f (seq k0 n)).
Proof.
  intros b f. induction n as [|n IH]; intros i k0 Q; [reflexivity|]. cbn [window seq map].
  pose proof (Q k0 ltac:(lia)) as Q0. rewrite Nat.sub_diag in Q0. cbn [Z.of_nat] in Q0. rewrite Z.add_0_r in Q0. rewrite Q0. cbn [bind].
  rewrite (IH (i + 1)%Z (S k0)); [reflexivity|]. intros k Hk. rewrite <- (Q k) by lia. f_equal. lia.
Qed.

Lemma putrows_ok : forall n k win base o, base + k + n <= du * w ->
  exists o', putrows c n k win base o = Ret o' /\ forall i, o' i = if between (base + k) i (base + k + n) then Some (win, i - base) else o i.
Proof.
  induction n as [|n IH]; intros k win base o Q.
  - exists o. split; [reflexivity|]. intros i. destruct (between_spec (base + k) i (base + k + 0)); [lia|reflexivity].
  - cbn [putrows]. unfold obset. destruct (Nat.ltb_spec (base + k) (du * w)) as [_|K]; [|lia]. cbn [bind].
    destruct (IH (S k) win base (fun j => if j =? base + k then Some (win, k) else o j)) as (o' & E & R); [lia|].
    exists o'. split; [exact E|]. intros i. rewrite R.
    destruct (between_spec (base + S k) i (base + S k + n)); destruct (between_spec (base + k) i (base + k + S n)); try lia; [reflexivity| |].
    + destruct (Nat.eqb_spec i (base + k)); [do 2 f_equal; lia|lia].
    + destruct (Nat.eqb_spec i (base + k)); [lia|reflexivity].
Qed.

Lemma expand_ob_ok : forall n q row o r, o q = Some r -> row + n <= du * w ->
  exists o', expand_ob c n (S q) row o = Ret o' /\ forall i, o' i = if between row i (row + n) then Some r else o i.
Proof.
  induction n as [|n IH]; intros q row o r E1 Q.
  - exists o. split; [reflexivity|]. intros i. destruct (between_spec row i (row + 0)); [lia|reflexivity].
  - cbn [expand_ob]. rewrite E1. unfold obset. destruct (Nat.ltb_spec row (du * w)) as [_|K]; [|lia]. cbn [bind].
    destruct (IH q (S row) (fun j => if j =? row then Some r else o j) r) as (o' & E & R); [|lia|].
    { destruct (q =? row); [reflexivity|exact E1]. }
    exists o'. split; [exact E|]. intros i. rewrite R.
    destruct (between_spec (S row) i (S row + n)); destruct (between_spec row i (row + S n)); try lia; [reflexivity| |].
    + destruct (Nat.eqb_spec i row); [reflexivity|lia].
    + destruct (Nat.eqb_spec i row); [lia|reflexivity].
Qed.

Lemma clamp_in : forall q, q < H -> clampy H (Z.of_nat q) = q.
Proof. intros q K. unfold clampy. lia. Qed.
Lemma clamp_hi : forall q, (Z.of_nat H - 1 <= q)%Z -> clampy H q = H - 1.
Proof. intros q K. pose proof HH. unfold clampy. lia. Qed.
Lemma clamp_lo : forall q, (q <= 0)%Z -> clampy H q = 0.
Proof. intros q K. pose proof HH. unfold clampy. lia. Qed.

(* the rows of iMCU row [cur] filled so far *)
Definition OB (s : pst) (cur rgc : nat) : Prop := forall i, i < rgc * w -> x_ob s i = Some (comp_row c (cur * (du * w) + i)).

Lemma row_split : forall cur rgc k, k < w -> (cur * (du * w) + (rgc * w + k)) / w = cur * du + rgc /\ (cur * (du * w) + (rgc * w + k)) mod w = k.
Proof.
  intros cur rgc k Hk. pose proof Hw. replace (cur * (du * w) + (rgc * w + k)) with (k + (cur * du + rgc) * w) by lia.
  split; [rewrite Nat.div_add by lia; rewrite Nat.div_small by exact Hk; lia|rewrite Nat.mod_add by lia; apply Nat.mod_small, Hk].
Qed.

(* downsampling row group g = cur*du + rgc *)
Lemma ds_ok : forall in_row cur rgc b o, rgc < du -> (p_ctx c = false -> (cur * du + rgc) * v < H) ->
  (forall i, i < rgc * w -> o i = Some (comp_row c (cur * (du * w) + i))) ->
  (forall k, k < cap -> cbget c b ((if p_ctx c then Z.of_nat in_row - Z.of_nat v else Z.of_nat in_row) + Z.of_nat k)
     = Ret (clampy H ((if p_ctx c then (Z.of_nat (cur * du + rgc) - 1) * Z.of_nat v else Z.of_nat (cur * du + rgc) * Z.of_nat v) + Z.of_nat k))) ->
  exists o', downsample c in_row rgc b o = Ret o' /\
    forall i, i < (rgc + 1) * w -> o' i = Some (comp_row c (cur * (du * w) + i)).
Proof.
  intros in_row cur rgc b o Hr Hreal Ho Hb. unfold downsample.
  assert (E : (if p_ctx c then window c (3 * v) (Z.of_nat in_row - Z.of_nat v) b else window c v (Z.of_nat in_row) b) = Ret (group_rows c (cur * du + rgc))).
  { unfold group_rows, cap in *. destruct (p_ctx c); apply window_ok; intros k Hk; rewrite Nat.sub_0_r; apply Hb; lia. }
  rewrite E. cbn [bind]. destruct (putrows_ok w 0 (group_rows c (cur * du + rgc)) (rgc * w) o) as (o' & E2 & Q).
  { rewrite Nat.add_0_r. assert ((rgc + 1) * w <= du * w) by (apply Nat.mul_le_mono_r; lia). lia. }
  exists o'. split; [exact E2|]. intros i Hi. rewrite Q, Nat.add_0_r. destruct (between_spec (rgc * w) i (rgc * w + w)) as [B|B].
  - f_equal. replace i with (rgc * w + (i - rgc * w)) at 2 by lia. unfold comp_row.
    destruct (row_split cur rgc (i - rgc * w) ltac:(lia)) as (D & M). rewrite D, M.
    destruct (p_ctx c) eqn:Ex; cbn [orb]; [reflexivity|]. destruct (Nat.ltb_spec (cur * (du * w) + (rgc * w + (i - rgc * w))) (real_groups c * w)) as [_|K]; [reflexivity|].
    exfalso. pose proof (proj2 (groups_iff (cur * du + rgc)) (Hreal eq_refl)) as G.
    assert ((cur * du + rgc + 1) * w <= real_groups c * w) by (apply Nat.mul_le_mono_r; lia). lia.
  - apply Ho. lia.
Qed.
End P.
