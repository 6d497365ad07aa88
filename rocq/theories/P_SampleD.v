(* P_SampleD.v -- proofs about the downsampling half of M_Sample *)
From Verif Require Import Base M_Sample S_Sample P_Sample.

(* rows lo..hi-1 exist, are buffers of at least oc samples, and their first iw samples are of precision p *)
Definition dhave (p lo hi iw oc : Z) (rs : rows) : Prop :=
  forall y, lo <= y < hi -> exists r, rs y = Some r /\ oc <= Z.of_nat (length r) /\ iw <= Z.of_nat (length r) /\
    forall x, 0 <= x < iw -> 0 <= nth (Z.to_nat x) r 0 < 2 ^ p.

Lemma expand_row_ok p iw oc r : 1 <= iw <= oc -> oc <= Z.of_nat (length r) ->
  (forall x, 0 <= x < iw -> 0 <= nth (Z.to_nat x) r 0 < 2 ^ p) ->
  exists r', expand_row iw oc r = Ret r' /\ Z.of_nat (length r') = Z.of_nat (length r) /\
    rowf p oc r' (fun x => nth (Z.to_nat (clampz 0 (iw - 1) x)) r 0).
Proof.
  intros Hi HL HV. unfold expand_row. destruct (Z.ltb_spec 0 (oc - iw)).
  - rewrite (aget_nth r (iw - 1) 0) by lia. cbn [bind]. rewrite (proj2 (Z.leb_le _ _)) by lia.
    eexists. split; [reflexivity|].
    set (pv := nth (Z.to_nat (iw - 1)) r 0).
    assert (L1 : length (firstn (Z.to_nat iw) r) = Z.to_nat iw) by (rewrite firstn_length; lia).
    split. { rewrite !app_length, repeat_length, skipn_length, L1. lia. }
    intros x Hx. split.
    + rewrite (aget_nth _ x 0) by (rewrite !app_length, repeat_length, skipn_length, L1; lia). f_equal.
      destruct (Z.lt_ge_cases x iw).
      * rewrite app_nth1 by lia. replace (clampz 0 (iw - 1) x) with x by (unfold clampz; lia).
        rewrite <- (firstn_skipn (Z.to_nat iw) r) at 2. rewrite app_nth1 by lia. reflexivity.
      * rewrite app_nth2 by lia. replace (clampz 0 (iw - 1) x) with (iw - 1) by (unfold clampz; lia). fold pv.
        rewrite app_nth1 by (rewrite repeat_length; lia). rewrite (nth_indep _ 0 pv) by (rewrite repeat_length; lia). apply nth_repeat.
    + apply HV. unfold clampz; lia.
  - exists r. split; [reflexivity|]. split; [reflexivity|]. intros x Hx.
    replace (clampz 0 (iw - 1) x) with x by (unfold clampz; lia). split; [apply aget_nth; lia|apply HV; lia].
Qed.

Lemma expand_ok p lo n iw oc rs : 1 <= iw <= oc -> 0 <= n -> dhave p lo (lo + n) iw oc rs ->
  exists rs', expand_right_edge rs lo n iw oc = Ret rs' /\
    forall y, lo <= y < lo + n -> exists r, rget rs' y = Ret r /\ rowf p oc r (edge iw (px rs) y).
Proof.
  intros Hi Hn HA. unfold expand_right_edge.
  destruct (for_inv (fun j s => (forall y, lo <= y < j -> exists r, rget s y = Ret r /\ rowf p oc r (edge iw (px rs) y)) /\
    (forall y, j <= y -> s y = rs y)) (Z.to_nat n) lo (fun i rs =>
    r <- rget rs i ;; r' <- expand_row iw oc r ;; Ret (fun j => if j =? i then Some r' else rs j)) rs) as (s & E & HP & _).
  - intros j s Hj (H1 & H2). destruct (HA j ltac:(lia)) as (r & E & L1 & L2 & V).
    unfold rget at 1. rewrite (H2 j ltac:(lia)), E. cbn [bind].
    destruct (expand_row_ok p iw oc r Hi L1 V) as (r' & -> & L & R). cbn [bind]. eexists. split; [reflexivity|]. split.
    + intros y Hy. unfold rget. destruct (Z.eqb_spec y j) as [-> |N].
      * exists r'. split; [reflexivity|]. intros x Hx. destruct (R x Hx) as (A & B). unfold edge, px. rewrite E. auto.
      * apply H1. lia.
    + intros y Hy. destruct (Z.eqb_spec y j); [lia|]. apply H2. lia.
  - split; [intros; lia|auto].
  - exists s. split; [exact E|]. intros y Hy. apply HP. lia.
Qed.

(* every output row of a downsampling loop *)
Lemma rows_loop m ow g Q body : 0 <= m ->
  (forall j, 0 <= j < m -> body j (tab j g) = Ret (tab (j + 1) g)) ->
  (forall y, 0 <= y < m -> exists n f, g y = tab n f /\ ow <= n /\ forall x, 0 <= x < ow -> f x = Q y x) ->
  exists outs, for_loop (Z.to_nat m) 0 body [] = Ret outs /\ shows m ow outs Q.
Proof.
  intros Hm HB HQ. pose proof (for_tab (fun k => tab k g) (Z.to_nat m) 0 body) as E. cbn beta in E. rewrite tab_0 in E.
  rewrite E by (intros j Hj; apply HB; lia). eexists. split; [reflexivity|].
  rewrite Z2Nat.id, Z.add_0_l by lia. now apply shows_tab. Qed.

Lemma fullsize_ok c inp p : prec p -> d_v c = d_max_v c -> 1 <= d_iw c <= d_ocols c -> 0 <= d_max_v c ->
  dhave p 0 (d_max_v c) (d_iw c) (d_iw c) inp ->
  exists outs, fullsize_downsample c inp = Ret outs /\ shows (d_v c) (d_ocols c) outs (edge (d_iw c) (px inp)).
Proof.
  intros Hp Ev Hi Hm HA. unfold fullsize_downsample. rewrite Ev. set (oc := d_ocols c) in *. set (iw := d_iw c) in *.
  apply (rows_loop _ _ (fun y => tab oc (edge iw (px inp) y))); auto.
  - intros j Hj. destruct (HA j Hj) as (r & E & L1 & _ & V). unfold rget. rewrite E. cbn [bind].
    unfold copy_row. rewrite (proj2 (Z.leb_le iw _)) by lia. cbn [bind]. rewrite (proj2 (Z.leb_le _ _)) by lia.
    assert (LF : length (firstn (Z.to_nat iw) r) = Z.to_nat iw) by (rewrite firstn_length; lia).
    assert (NF : forall x, 0 <= x < iw -> nth (Z.to_nat x) (firstn (Z.to_nat iw) r ++ repeat 0 (Z.to_nat (oc - iw))) 0 = nth (Z.to_nat x) r 0).
    { intros x Hx. rewrite app_nth1 by lia. rewrite <- (firstn_skipn (Z.to_nat iw) r) at 2. rewrite app_nth1 by lia. reflexivity. }
    destruct (expand_row_ok p iw oc (firstn (Z.to_nat iw) r ++ repeat 0 (Z.to_nat (oc - iw))) Hi) as (r' & -> & L & R).
    { rewrite app_length, repeat_length. lia. } { intros x Hx. rewrite NF by lia. auto. }
    cbn [bind]. apply putrow_tab; [lia|].
    rewrite app_length, repeat_length, LF in L.
    apply nth_ext with (d := 0) (d' := 0).
    + pose proof (tab_len oc (edge iw (px inp) j) ltac:(lia)). lia.
    + intros n Hn. destruct (R (Z.of_nat n) ltac:(lia)) as (A & _). apply aget_Ret with (d := 0) in A. rewrite Nat2Z.id in A.
      destruct A as (_ & ->). rewrite NF by (unfold clampz; lia).
      pose proof (nth_tab oc (edge iw (px inp) j) (Z.of_nat n) ltac:(lia)) as Q. rewrite Nat2Z.id in Q. rewrite Q.
      unfold edge, px. rewrite E. reflexivity.
  - intros y Hy. eexists _, _. split; [reflexivity|]. split; [lia|]. auto.
Qed.

Lemma lxor1 j : Z.lxor (j mod 2) 1 = (j + 1) mod 2.
Proof. pose proof (Z.mod_pos_bound j 2 ltac:(lia)). rewrite Z.add_mod by lia.
  assert (j mod 2 = 0 \/ j mod 2 = 1) as [-> | ->] by lia; reflexivity. Qed.
Lemma lxor3 j : Z.lxor (1 + j mod 2) 3 = 1 + (j + 1) mod 2.
Proof. pose proof (Z.mod_pos_bound j 2 ltac:(lia)). rewrite Z.add_mod by lia.
  assert (j mod 2 = 0 \/ j mod 2 = 1) as [-> | ->] by lia; reflexivity. Qed.

Lemma h2v1_down_ok c inp : let p := d_prec c in prec p -> d_v c = d_max_v c -> 1 <= d_iw c <= d_ocols c * 2 -> 0 <= d_max_v c ->
  dhave p 0 (d_max_v c) (d_iw c) (d_ocols c * 2) inp ->
  exists outs, h2v1_downsample c inp = Ret outs /\ shows (d_v c) (d_ocols c) outs
    (fun y x => (box_sum 2 1 (edge (d_iw c) (px inp)) y x + x mod 2) / 2).
Proof.
  intros p Hp Ev Hi Hm HA. pose proof (prec_pow p Hp). unfold h2v1_downsample. rewrite Ev. set (oc := d_ocols c) in *. set (iw := d_iw c) in *.
  destruct (expand_ok p 0 (d_max_v c) iw (oc * 2) inp Hi Hm HA) as (rs & -> & HR). cbn [bind].
  set (P := edge iw (px inp)) in *.
  apply (rows_loop _ _ (fun y => tab oc (fun x => (box_sum 2 1 P y x + x mod 2) / 2))); auto.
  - intros j Hj. destruct (HR j Hj) as (r & -> & R). cbn [bind].
    set (g := fun x => (box_sum 2 1 P j x + x mod 2) / 2).
    match goal with |- context [for_loop ?n ?i ?b _] => pose proof (for_tab (fun k => (tab k g, k mod 2)) n i b) as E end.
    cbn beta iota in E. rewrite tab_0 in E. change (0 mod 2) with 0 in E. rewrite E.
    + cbn [bind]. rewrite Z2Nat.id, Z.add_0_l by lia. apply putrow_tab; [lia|reflexivity].
    + intros k Hk. destruct (R (2 * k) ltac:(lia)) as (-> & B0). destruct (R (2 * k + 1) ltac:(lia)) as (-> & B1). cbn [bind].
      assert (G : g k = (P j (2 * k) + P j (2 * k + 1) + k mod 2) / 2).
      { unfold g, box_sum. change (Z.to_nat 1) with 1%nat. change (Z.to_nat 2) with 2%nat. cbn [sumz].
        change (Z.of_nat 0) with 0. change (Z.of_nat 1) with 1. rewrite !Z.add_0_r, !Z.add_0_l, Z.mul_1_l. reflexivity. }
      pose proof (Z.mod_pos_bound k 2 ltac:(lia)).
      rewrite (emit_tab p oc k g); [|auto|lia|lia|lia|rewrite G; reflexivity| rewrite G; set (kk := k mod 2) in *; dodiv].
      cbn [bind]. rewrite lxor1. reflexivity.
  - intros y Hy. eexists _, _. split; [reflexivity|]. split; [lia|]. auto.
Qed.

Lemma h2v2_down_ok c inp : let p := d_prec c in prec p -> d_v c * 2 = d_max_v c -> 1 <= d_iw c <= d_ocols c * 2 -> 0 <= d_max_v c ->
  dhave p 0 (d_max_v c) (d_iw c) (d_ocols c * 2) inp ->
  exists outs, h2v2_downsample c inp = Ret outs /\ shows (d_v c) (d_ocols c) outs
    (fun y x => (box_sum 2 2 (edge (d_iw c) (px inp)) y x + (1 + x mod 2)) / 4).
Proof.
  intros p Hp Ev Hi Hm HA. pose proof (prec_pow p Hp). unfold h2v2_downsample. set (oc := d_ocols c) in *. set (iw := d_iw c) in *.
  destruct (expand_ok p 0 (d_max_v c) iw (oc * 2) inp Hi Hm HA) as (rs & -> & HR). cbn [bind].
  set (P := edge iw (px inp)) in *.
  apply (rows_loop _ _ (fun y => tab oc (fun x => (box_sum 2 2 P y x + (1 + x mod 2)) / 4))); [lia| |].
  - intros j Hj. cbn zeta. destruct (HR (j * 2) ltac:(lia)) as (r & -> & R). cbn [bind].
    destruct (HR (j * 2 + 1) ltac:(lia)) as (r1 & -> & R1). cbn [bind].
    set (g := fun x => (box_sum 2 2 P j x + (1 + x mod 2)) / 4).
    match goal with |- context [for_loop ?n ?i ?b _] => pose proof (for_tab (fun k => (tab k g, 1 + k mod 2)) n i b) as E end.
    cbn beta iota in E. rewrite tab_0 in E. change (1 + 0 mod 2) with 1 in E. rewrite E.
    + cbn [bind]. rewrite Z2Nat.id, Z.add_0_l by lia. apply putrow_tab; [lia|reflexivity].
    + intros k Hk. destruct (R (2 * k) ltac:(lia)) as (-> & B0). destruct (R (2 * k + 1) ltac:(lia)) as (-> & B1).
      destruct (R1 (2 * k) ltac:(lia)) as (-> & B2). destruct (R1 (2 * k + 1) ltac:(lia)) as (-> & B3). cbn [bind].
      assert (G : g k = (P (j * 2) (2 * k) + P (j * 2) (2 * k + 1) + P (j * 2 + 1) (2 * k) + P (j * 2 + 1) (2 * k + 1) + (1 + k mod 2)) / 4).
      { unfold g, box_sum. change (Z.to_nat 2) with 2%nat. cbn [sumz].
        change (Z.of_nat 0) with 0. change (Z.of_nat 1) with 1. rewrite !Z.add_0_r, !Z.add_0_l. rewrite (Z.mul_comm j 2). f_equal. lia. }
      pose proof (Z.mod_pos_bound k 2 ltac:(lia)).
      rewrite (emit_tab p oc k g); [|auto|lia|lia|lia|rewrite G; reflexivity| rewrite G; set (kk := k mod 2) in *; dodiv].
      cbn [bind]. rewrite lxor3. reflexivity.
  - intros y Hy. eexists _, _. split; [reflexivity|]. split; [lia|]. auto.
Qed.

Lemma sumz_bound n f lo hi : (forall i, 0 <= i < Z.of_nat n -> lo <= f i <= hi) -> lo * Z.of_nat n <= sumz n f <= hi * Z.of_nat n.
Proof. induction n as [|n IH]; intros H; cbn [sumz]; [lia|]. pose proof (H (Z.of_nat n) ltac:(lia)).
  pose proof (IH ltac:(intros; apply H; lia)). lia. Qed.

Lemma box_sum_bound H V P y x lo hi : 0 <= H -> 0 <= V ->
  (forall v h, 0 <= v < V -> 0 <= h < H -> lo <= P (V * y + v) (H * x + h) <= hi) ->
  lo * (H * V) <= box_sum H V P y x <= hi * (H * V).
Proof. intros HH HV B. unfold box_sum.
  pose proof (sumz_bound (Z.to_nat V) (fun v => sumz (Z.to_nat H) (fun h => P (V * y + v) (H * x + h))) (lo * H) (hi * H)) as Q.
  rewrite !Z2Nat.id in Q by lia. rewrite !Z.mul_assoc. apply Q. intros v Hv.
  pose proof (sumz_bound (Z.to_nat H) (fun h => P (V * y + v) (H * x + h)) lo hi) as Q2. rewrite !Z2Nat.id in Q2 by lia. apply Q2.
  intros; apply B; auto. Qed.

Lemma sum_loop n f body a : (forall j acc, 0 <= j < Z.of_nat n -> body j acc = Ret (acc + f j)) ->
  for_loop n 0 body a = Ret (a + sumz n f).
Proof. intros H. pose proof (for_tab (fun k => a + sumz (Z.to_nat k) f) n 0 body) as E. cbn beta in E.
  change (sumz (Z.to_nat 0) f) with 0 in E. rewrite Z.add_0_r in E. rewrite E.
  - rewrite Z.add_0_l, Nat2Z.id. reflexivity.
  - intros j Hj. rewrite H by lia. replace (Z.to_nat (j + 1)) with (S (Z.to_nat j)) by lia. cbn [sumz].
    rewrite Z2Nat.id by lia. f_equal. lia. Qed.

Lemma int_down_ok c inp H V : let p := d_prec c in prec p -> 0 < H -> 0 < V -> 0 < d_h c -> 0 < d_v c ->
  d_h c * H = d_max_h c -> d_v c * V = d_max_v c -> 1 <= d_iw c <= d_ocols c * H ->
  dhave p 0 (d_max_v c) (d_iw c) (d_ocols c * H) inp ->
  exists outs, int_downsample c inp = Ret outs /\ shows (d_v c) (d_ocols c) outs
    (fun y x => (box_sum H V (edge (d_iw c) (px inp)) y x + H * V / 2) / (H * V)).
Proof.
  intros p Hp HH HV Hdh Hdv Eh Ev Hi HA. pose proof (prec_pow p Hp) as PP. unfold int_downsample.
  destruct (Z.eqb_spec (d_h c) 0); [lia|]. destruct (Z.eqb_spec (d_v c) 0); [lia|]. cbn [orb].
  assert (EH : d_max_h c / d_h c = H) by (rewrite <- Eh, Z.mul_comm; apply Z.div_mul; lia).
  assert (EV : d_max_v c / d_v c = V) by (rewrite <- Ev, Z.mul_comm; apply Z.div_mul; lia).
  rewrite EH, EV. cbn zeta. assert (0 < H * V) by nia. destruct (Z.eqb_spec (H * V) 0); [lia|].
  set (oc := d_ocols c) in *. set (iw := d_iw c) in *. set (N := H * V) in *.
  destruct (expand_ok p 0 (d_max_v c) iw (oc * H) inp Hi ltac:(nia) HA) as (rs & -> & HR). cbn [bind].
  set (P := edge iw (px inp)) in *.
  apply (rows_loop _ _ (fun y => tab oc (fun x => (box_sum H V P y x + N / 2) / N))); [lia| |].
  - intros j Hj. cbn zeta.
    set (g := fun x => (box_sum H V P j x + N / 2) / N).
    match goal with |- context [for_loop ?n ?i ?b _] => pose proof (for_tab (fun k => tab k g) n i b) as E end.
    cbn beta iota in E. rewrite tab_0 in E. rewrite E.
    + cbn [bind]. assert (0 <= oc) by nia. rewrite Z2Nat.id, Z.add_0_l by lia. apply putrow_tab; [lia|reflexivity].
    + intros k Hk.
      rewrite (sum_loop (Z.to_nat V) (fun v => sumz (Z.to_nat H) (fun h => P (V * j + v) (H * k + h)))).
      * cbn [bind]. rewrite Z.add_0_l. change (sumz (Z.to_nat V) _) with (box_sum H V P j k). fold (g k).
        apply put_tab; [lia|]. apply jsample_id; auto. fold p.
        assert (BB : 0 * N <= box_sum H V P j k <= (2 ^ p - 1) * N).
        { apply box_sum_bound; try lia. intros v h Hv Hh. destruct (HR (V * j + v) ltac:(nia)) as (r & _ & R).
          destruct (R (H * k + h) ltac:(nia)) as (_ & B). lia. }
        fold N. unfold g. assert (0 <= N / 2 < N) by dodiv. split; [apply Z.div_pos; lia|]. apply Z.div_lt_upper_bound; nia.
      * intros v acc Hv. destruct (HR (j * V + v) ltac:(nia)) as (r & -> & R). cbn [bind].
        rewrite (sum_loop (Z.to_nat H) (fun h => P (V * j + v) (H * k + h))); [reflexivity|].
        intros h acc2 Hh. destruct (R (k * H + h) ltac:(nia)) as (-> & _). cbn [bind]. do 3 f_equal; lia.
  - intros y Hy. eexists _, _. split; [reflexivity|]. split; [lia|]. auto.
Qed.

(* smoothing *)
Definition s4 sf P y x := smooth sf P (2 * y) (2 * x) + smooth sf P (2 * y) (2 * x + 1)
  + smooth sf P (2 * y + 1) (2 * x) + smooth sf P (2 * y + 1) (2 * x + 1).

Lemma smooth_bound sf P y x lo hi : 0 <= sf <= 100 ->
  (forall dy dx, -1 <= dy <= 1 -> -1 <= dx <= 1 -> lo <= P (y + dy) (x + dx) <= hi) ->
  1024 * lo <= smooth sf P y x <= 1024 * hi.
Proof.
  intros Hs B. unfold smooth.
  pose proof (B (-1) (-1) ltac:(lia) ltac:(lia)) as B1. pose proof (B (-1) 0 ltac:(lia) ltac:(lia)) as B2. pose proof (B (-1) 1 ltac:(lia) ltac:(lia)) as B3.
  pose proof (B 0 (-1) ltac:(lia) ltac:(lia)) as B4. pose proof (B 0 0 ltac:(lia) ltac:(lia)) as B5. pose proof (B 0 1 ltac:(lia) ltac:(lia)) as B6.
  pose proof (B 1 (-1) ltac:(lia) ltac:(lia)) as B7. pose proof (B 1 0 ltac:(lia) ltac:(lia)) as B8. pose proof (B 1 1 ltac:(lia) ltac:(lia)) as B9.
  clear B. rewrite !Z.add_0_r in *. change (y + -1) with (y - 1) in *. change (x + -1) with (x - 1) in *.
  set (N := P (y - 1) (x - 1) + P (y - 1) x + P (y - 1) (x + 1) + P y (x - 1) + P y (x + 1) + P (y + 1) (x - 1) + P (y + 1) x + P (y + 1) (x + 1)) in *.
  assert (8 * lo <= N <= 8 * hi) by lia. clearbody N. set (c := P y x) in *. clearbody c. clear - Hs B5 H. split; nia.
Qed.

Lemma s4_bound sf P y x lo hi : 0 <= sf <= 100 ->
  (forall dy dx, -1 <= dy <= 2 -> -1 <= dx <= 2 -> lo <= P (2 * y + dy) (2 * x + dx) <= hi) ->
  4096 * lo <= s4 sf P y x <= 4096 * hi.
Proof.
  intros Hs B. unfold s4.
  assert (forall a b, (a = 0 \/ a = 1) -> (b = 0 \/ b = 1) -> 1024 * lo <= smooth sf P (2 * y + a) (2 * x + b) <= 1024 * hi).
  { intros a b Ha Hb. apply smooth_bound; auto. intros dy dx H1 H2.
    replace (2 * y + a + dy) with (2 * y + (a + dy)) by lia. replace (2 * x + b + dx) with (2 * x + (b + dx)) by lia. apply B; lia. }
  pose proof (H 0 0 ltac:(auto) ltac:(auto)). pose proof (H 0 1 ltac:(auto) ltac:(auto)).
  pose proof (H 1 0 ltac:(auto) ltac:(auto)). pose proof (H 1 1 ltac:(auto) ltac:(auto)). rewrite !Z.add_0_r in *. lia.
Qed.

Definition g4 sf P y x := (s4 sf P y x + 2048) / 4096.
Definition g1 sf P y x := (smooth sf P y x + 512) / 1024.

Lemma div_scale16 a : (16 * a + 32768) / 65536 = (a + 2048) / 4096.
Proof. replace (16 * a + 32768) with (16 * (a + 2048)) by lia. rewrite <- (Z.div_mul_cancel_l (a + 2048) 4096 16) by lia. reflexivity. Qed.
Lemma div_scale64 a : (64 * a + 32768) / 65536 = (a + 512) / 1024.
Proof. replace (64 * a + 32768) with (64 * (a + 512)) by lia. rewrite <- (Z.div_mul_cancel_l (a + 512) 1024 64) by lia. reflexivity. Qed.

(* one smoothed sample; the pointers stand at column 2k of rows a (above), i0, i1, b (below) *)
Lemma smooth_px_ok c i0 i1 a b P y k lft rgt : let p := d_prec c in let oc := d_ocols c in
  (p = 8 \/ p = 12) -> 0 <= d_sf c <= 100 -> 0 <= k < oc ->
  rowf p (oc * 2) i0 (P (2 * y)) -> rowf p (oc * 2) i1 (P (2 * y + 1)) -> rowf p (oc * 2) a (P (2 * y - 1)) -> rowf p (oc * 2) b (P (2 * y + 2)) ->
  (forall dy dx, -1 <= dy <= 2 -> -1 <= dx <= 2 -> 0 <= P (2 * y + dy) (2 * k + dx) < 2 ^ p) ->
  0 <= 2 * k + lft < oc * 2 -> 0 <= 2 * k + rgt < oc * 2 ->
  (forall dy, -1 <= dy <= 2 -> P (2 * y + dy) (2 * k + lft) = P (2 * y + dy) (2 * k - 1)) ->
  (forall dy, -1 <= dy <= 2 -> P (2 * y + dy) (2 * k + rgt) = P (2 * y + dy) (2 * k + 2)) ->
  h2v2_smooth_px c i0 i1 a b (2 * k) lft rgt (tab k (g4 (d_sf c) P y)) = Ret (tab (k + 1) (g4 (d_sf c) P y)).
Proof.
  intros p oc Hp Hs Hk R0 R1 RA RB B Hl Hr EL ER. pose proof (pow_prec _ Hp) as PP. unfold h2v2_smooth_px. cbn zeta.
  assert (V0 : forall x, 0 <= x < oc * 2 -> aget i0 x = Ret (P (2 * y) x)) by (intros x Hx; apply R0; auto).
  assert (V1 : forall x, 0 <= x < oc * 2 -> aget i1 x = Ret (P (2 * y + 1) x)) by (intros x Hx; apply R1; auto).
  assert (VA : forall x, 0 <= x < oc * 2 -> aget a x = Ret (P (2 * y - 1) x)) by (intros x Hx; apply RA; auto).
  assert (VB : forall x, 0 <= x < oc * 2 -> aget b x = Ret (P (2 * y + 2) x)) by (intros x Hx; apply RB; auto).
  rewrite !V0, !V1, !VA, !VB by lia. cbn [bind].
  pose proof (EL 0 ltac:(lia)) as E1. pose proof (EL 1 ltac:(lia)) as E2. pose proof (EL (-1) ltac:(lia)) as E3. pose proof (EL 2 ltac:(lia)) as E4.
  pose proof (ER 0 ltac:(lia)) as F1. pose proof (ER 1 ltac:(lia)) as F2. pose proof (ER (-1) ltac:(lia)) as F3. pose proof (ER 2 ltac:(lia)) as F4.
  rewrite Z.add_0_r in E1, F1. change (2 * y + -1) with (2 * y - 1) in E3, F3.
  rewrite E1, E2, E3, E4, F1, F2, F3, F4.
  pose proof (s4_bound (d_sf c) P y k 0 (2 ^ p - 1) Hs ltac:(intros; pose proof (B dy dx ltac:(lia) ltac:(lia)); lia)) as SB.
  match goal with |- emit _ _ _ ?e _ = _ => assert (EE : e = 16 * s4 (d_sf c) P y k + 32768) end.
  { unfold s4, smooth. replace (2 * y + 1 - 1) with (2 * y) by lia. replace (2 * y + 1 + 1) with (2 * y + 2) by lia.
    replace (2 * k + 1 - 1) with (2 * k) by lia. replace (2 * k + 1 + 1) with (2 * k + 2) by lia. ring. }
  rewrite EE. fold oc p.
  apply emit_tab; try lia; [unfold prec; tauto| |].
  - change (2 ^ 16) with 65536. unfold g4. apply div_scale16.
  - unfold g4. split; [apply Z.div_pos; lia|]. apply Z.div_lt_upper_bound; lia.
Qed.

Lemma h2v2_smooth_ok c inp : let p := d_prec c in (p = 8 \/ p = 12) -> 0 <= d_sf c <= 100 -> 2 <= d_ocols c < 2 ^ 30 ->
  d_v c * 2 = d_max_v c -> 1 <= d_iw c <= d_ocols c * 2 -> 0 <= d_max_v c ->
  dhave p (-1) (d_max_v c + 1) (d_iw c) (d_ocols c * 2) inp ->
  exists outs, h2v2_smooth_downsample c inp = Ret outs /\ shows (d_v c) (d_ocols c) outs (g4 (d_sf c) (edge (d_iw c) (px inp))).
Proof.
  intros p Hp Hs Hoc Ev Hi Hm HA. unfold h2v2_smooth_downsample. set (oc := d_ocols c) in *. set (iw := d_iw c) in *.
  destruct (expand_ok p (-1) (d_max_v c + 2) iw (oc * 2) inp Hi ltac:(lia)) as (rs & -> & HR).
  { replace (-1 + (d_max_v c + 2)) with (d_max_v c + 1) by lia. exact HA. }
  cbn [bind]. set (P := edge iw (px inp)) in *.
  assert (EU : u32 (oc - 2) = oc - 2) by (apply u32_id; lia). rewrite EU.
  assert (PC : forall y x x', clampz 0 (iw - 1) x = clampz 0 (iw - 1) x' -> P y x = P y x').
  { intros y x x' E. unfold P, edge. rewrite E. reflexivity. }
  assert (PB : forall y x, -1 <= y < d_max_v c + 1 -> 0 <= P y x < 2 ^ p).
  { intros y x Hy. destruct (HR y ltac:(lia)) as (r & _ & R). destruct (R (clampz 0 (iw - 1) x) ltac:(unfold clampz; lia)) as (_ & Q).
    rewrite (PC y x (clampz 0 (iw - 1) x)); [exact Q|unfold clampz; lia]. }
  apply (rows_loop _ _ (fun y => tab oc (g4 (d_sf c) P y))); [lia| |].
  - intros y Hy. cbn zeta. rewrite (Z.mul_comm y 2).
    destruct (HR (2 * y) ltac:(lia)) as (i0 & -> & R0). cbn [bind].
    destruct (HR (2 * y + 1) ltac:(lia)) as (i1 & -> & R1). cbn [bind].
    destruct (HR (2 * y - 1) ltac:(lia)) as (a & -> & RA). cbn [bind].
    destruct (HR (2 * y + 2) ltac:(lia)) as (b & -> & RB). cbn [bind].
    assert (BB : forall k dy dx, -1 <= dy <= 2 -> -1 <= dx <= 2 -> 0 <= P (2 * y + dy) (2 * k + dx) < 2 ^ p).
    { intros k dy dx H1 H2. apply PB. lia. }
    set (g := g4 (d_sf c) P y). rewrite <- (tab_0 g).
    assert (Q0 : h2v2_smooth_px c i0 i1 a b 0 0 2 (tab 0 g) = Ret (tab (0 + 1) g)).
    { apply (smooth_px_ok c i0 i1 a b P y 0 0 2); auto; try (fold oc; lia). intros dy Hdy. apply PC. unfold clampz. lia. }
    rewrite Q0.
    cbn [bind]. change (0 + 1) with 1.
    rewrite (for_tab (fun k => tab k g)).
    2:{ intros k Hk. unfold g. apply smooth_px_ok; auto; fold oc; lia. }
    cbn [bind]. rewrite Z2Nat.id by lia. replace (1 + (oc - 2)) with (oc - 1) by lia. replace (oc - 2 + 1) with (oc - 1) by lia.
    unfold g at 1. rewrite (smooth_px_ok c i0 i1 a b P y (oc - 1) (-1) 1); auto; try (fold oc; lia).
    2:{ intros dy Hdy. apply PC. fold oc. unfold clampz. lia. }
    cbn [bind]. replace (oc - 1 + 1) with oc by lia. apply putrow_tab; [lia|reflexivity].
  - intros y Hy. eexists _, _. split; [reflexivity|]. split; [lia|]. auto.
Qed.

Lemma full_smooth_ok c inp : let p := d_prec c in (p = 8 \/ p = 12) -> 0 <= d_sf c <= 100 -> 2 <= d_ocols c < 2 ^ 30 ->
  d_v c = d_max_v c -> 1 <= d_iw c <= d_ocols c -> 0 <= d_max_v c ->
  dhave p (-1) (d_max_v c + 1) (d_iw c) (d_ocols c) inp ->
  exists outs, fullsize_smooth_downsample c inp = Ret outs /\ shows (d_v c) (d_ocols c) outs (g1 (d_sf c) (edge (d_iw c) (px inp))).
Proof.
  intros p Hp Hs Hoc Ev Hi Hm HA. pose proof (pow_prec _ Hp) as PP. unfold fullsize_smooth_downsample. set (oc := d_ocols c) in *. set (iw := d_iw c) in *.
  destruct (expand_ok p (-1) (d_max_v c + 2) iw oc inp Hi ltac:(lia)) as (rs & -> & HR).
  { replace (-1 + (d_max_v c + 2)) with (d_max_v c + 1) by lia. exact HA. }
  cbn [bind]. set (P := edge iw (px inp)) in *. cbn zeta.
  assert (EU : u32 (oc - 2) = oc - 2) by (apply u32_id; lia). rewrite EU.
  assert (PC : forall y x x', clampz 0 (iw - 1) x = clampz 0 (iw - 1) x' -> P y x = P y x').
  { intros y x x' E. unfold P, edge. rewrite E. reflexivity. }
  assert (PB : forall y x, -1 <= y < d_max_v c + 1 -> 0 <= P y x < 2 ^ p).
  { intros y x Hy. destruct (HR y ltac:(lia)) as (r & _ & R). destruct (R (clampz 0 (iw - 1) x) ltac:(unfold clampz; lia)) as (_ & Q).
    rewrite (PC y x (clampz 0 (iw - 1) x)); [exact Q|unfold clampz; lia]. }
  apply (rows_loop _ _ (fun y => tab oc (g1 (d_sf c) P y))); [lia| |].
  - intros y Hy.
    destruct (HR y ltac:(lia)) as (r & -> & R0). cbn [bind].
    destruct (HR (y - 1) ltac:(lia)) as (a & -> & RA). cbn [bind].
    destruct (HR (y + 1) ltac:(lia)) as (b & -> & RB). cbn [bind].
    assert (V0 : forall x, 0 <= x < oc -> aget r x = Ret (P y x)) by (intros x Hx; apply R0; auto).
    assert (VA : forall x, 0 <= x < oc -> aget a x = Ret (P (y - 1) x)) by (intros x Hx; apply RA; auto).
    assert (VB : forall x, 0 <= x < oc -> aget b x = Ret (P (y + 1) x)) by (intros x Hx; apply RB; auto).
    rewrite (VA 0), (VB 0), (V0 0), (VA 1), (VB 1), (V0 1) by lia. cbn [bind].
    set (g := g1 (d_sf c) P y). rewrite <- (tab_0 g).
    set (cs := fun x => P (y - 1) x + P (y + 1) x + P y x).
    assert (SB : forall x, 1024 * 0 <= smooth (d_sf c) P y x <= 1024 * (2 ^ p - 1)).
    { intros x. apply smooth_bound; auto. intros dy dx H1 H2. pose proof (PB (y + dy) (x + dx) ltac:(lia)). lia. }
    assert (STEP : forall k L R M, 0 <= k < oc -> M = P y k -> L = cs (k - 1) -> R = cs (k + 1) ->
      emit p oc (tab k g) (M * (65536 - d_sf c * 512) + (L + (cs k - M) + R) * (d_sf c * 64) + 32768) 16 = Ret (tab (k + 1) g)).
    { intros k L R M Hk -> -> ->.
      match goal with |- emit _ _ _ ?e _ = _ => assert (EE : e = 64 * smooth (d_sf c) P y k + 32768) by (unfold smooth, cs; ring) end.
      rewrite EE. pose proof (SB k). apply emit_tab; try lia; [unfold prec; tauto| |].
      - change (2 ^ 16) with 65536. unfold g, g1. apply div_scale64.
      - unfold g, g1. split; [apply Z.div_pos; lia|]. apply Z.div_lt_upper_bound; lia. }
    change (P (y - 1) 0 + P (y + 1) 0 + P y 0) with (cs 0). change (P (y - 1) 1 + P (y + 1) 1 + P y 1) with (cs 1). fold p.
    assert (CC : forall x x', clampz 0 (iw - 1) x = clampz 0 (iw - 1) x' -> cs x = cs x').
    { intros x x' E. unfold cs. rewrite (PC (y - 1) x x' E), (PC (y + 1) x x' E), (PC y x x' E). reflexivity. }
    rewrite (STEP 0 (cs 0) (cs 1)); [|lia|reflexivity|apply CC; unfold clampz; lia|reflexivity].
    cbn [bind]. change (0 + 1) with 1.
    match goal with |- context [for_loop ?n ?i ?bb _] =>
      pose proof (for_tab (fun k => (tab k g, cs (k - 1), cs k)) n i bb) as E end.
    cbn beta iota in E. change (1 - 1) with 0 in E. rewrite E; clear E.
    + cbn [bind]. rewrite Z2Nat.id by lia. replace (1 + (oc - 2)) with (oc - 1) by lia. replace (oc - 2 + 1) with (oc - 1) by lia.
      rewrite (V0 (oc - 1)) by lia. cbn [bind].
      rewrite (STEP (oc - 1) (cs (oc - 1 - 1)) (cs (oc - 1))); [|lia|reflexivity|reflexivity|apply CC; unfold clampz; lia].
      cbn [bind]. replace (oc - 1 + 1) with oc by lia. apply putrow_tab; [lia|reflexivity].
    + intros k Hk. rewrite (V0 k), (VA (k + 1)), (VB (k + 1)), (V0 (k + 1)) by lia. cbn [bind].
      change (P (y - 1) (k + 1) + P (y + 1) (k + 1) + P y (k + 1)) with (cs (k + 1)).
      rewrite (STEP k (cs (k - 1)) (cs (k + 1))); [|lia|reflexivity|reflexivity|reflexivity].
      cbn [bind]. replace (k + 1 - 1) with k by lia. reflexivity.
  - intros y Hy. eexists _, _. split; [reflexivity|]. split; [lia|]. auto.
Qed.
