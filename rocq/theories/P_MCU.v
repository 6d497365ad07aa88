(* P_MCU.v -- proofs about M_Coef.v *)
From Verif Require Import Base M_Geom M_Coef S_MCU.
From Coq Require Import Arith.
Open Scope nat_scope.

Lemma foldM_app : forall A S (f : A -> S -> outcome S) l1 l2 s, foldM f (l1 ++ l2) s = (s' <- foldM f l1 s ;; foldM f l2 s').
Proof. intros A S f. induction l1 as [|a l1 IH]; intros l2 s; cbn; [reflexivity|]. destruct (f a s); cbn; auto. Qed.
Lemma foldM_flat : forall A B S (f : B -> S -> outcome S) (g : A -> list B) l s,
  foldM f (flat_map g l) s = foldM (fun a s => foldM f (g a) s) l s.
Proof.
  intros A B S f g. induction l as [|a l IH]; intros s; cbn [flat_map foldM]; [reflexivity|].
  rewrite foldM_app. destruct (foldM f (g a) s); cbn; auto.
Qed.
Lemma foldM_map : forall A B S (f : B -> S -> outcome S) (g : A -> B) l s,
  foldM f (map g l) s = foldM (fun a s => f (g a) s) l s.
Proof. intros A B S f g. induction l as [|a l IH]; intros s; cbn; [reflexivity|]. destruct (f (g a) s); cbn; auto. Qed.
Lemma foldM_ext : forall A S (f g : A -> S -> outcome S) l s, (forall a s, In a l -> f a s = g a s) -> foldM f l s = foldM g l s.
Proof.
  intros A S f g. induction l as [|a l IH]; intros s H; cbn; [reflexivity|]. rewrite H by (left; reflexivity).
  destruct (g a s); cbn; auto. apply IH. intros; apply H. right. assumption.
Qed.

Lemma round_up_eq : forall a b q, 1 <= b -> b * q < a + b -> a <= b * q -> nround_up a b = b * q.
Proof.
  intros a b q Hb H1 H2. unfold nround_up.
  pose proof (Nat.div_mod (a + (b - 1)) b ltac:(lia)) as D.
  pose proof (Nat.mod_upper_bound (a + (b - 1)) b ltac:(lia)) as M.
  set (d := (a + (b - 1)) / b) in *. set (r := (a + (b - 1)) mod b) in *. clearbody d r.
  assert (d = q) by nia. subst d. lia.
Qed.

(* ---------------------------------------------------------------- *)
(* the padded coefficient array *)
Definition padA (A : nat -> nat -> nat -> block) (c : kc) (r b : nat) : block :=
  let row := fun r b => if b <? k_wib c then A (k_idx c) r b else (fst (A (k_idx c) r (k_wib c - 1)), zeros) in
  if r <? k_hib c then row r b
  else (fst (row (k_hib c - 1) (b / k_h c * k_h c + k_h c - 1)), zeros).

Lemma padA_real : forall A c r b, r < k_hib c -> b < k_wib c -> padA A c r b = A (k_idx c) r b.
Proof.
  intros A c r b H1 H2. unfold padA. cbv zeta. rewrite (proj2 (Nat.ltb_lt _ _) H1), (proj2 (Nat.ltb_lt _ _) H2). reflexivity.
Qed.
Lemma padA_dummy_row : forall A c r b, 1 <= k_h c -> 1 <= r -> k_hib c <= r -> 
  padA A c r b = (fst (padA A c (r - 1) (b / k_h c * k_h c + k_h c - 1)), zeros).
Proof.
  intros A c r b Hh Hr H. unfold padA. cbv zeta. rewrite (proj2 (Nat.ltb_ge _ _) H).
  destruct (Nat.ltb_spec (r - 1) (k_hib c)) as [L|L].
  - replace (r - 1) with (k_hib c - 1) by lia. reflexivity.
  - cbn [fst]. set (q := b / k_h c). f_equal. f_equal.
    replace ((q * k_h c + k_h c - 1) / k_h c) with q; [reflexivity|].
    apply (Nat.div_unique _ _ _ (k_h c - 1)); nia.
Qed.

Section Scan.
Variable s : ks.
Hypothesis Hs : scan_ok s.
Variable A : nat -> nat -> nat -> block.

Lemma single_dec : single s \/ ~ single s.
Proof. unfold single. destruct (Nat.eq_dec (length (k_comps s)) 1); auto. Qed.
Lemma MW_pos : forall c, In c (k_comps s) -> 1 <= k_MW c.
Proof. intros c H. pose proof (ko_lcw s c (so_comps s Hs c H)). lia. Qed.
Lemma MH_pos : forall c, In c (k_comps s) -> 1 <= k_MH c.
Proof.
  intros c H. pose proof (so_comps s Hs c H) as K.
  destruct single_dec as [Q|Q]; [destruct (ko_one s c K Q)|destruct (ko_many s c K Q)]; pose proof (ko_v s c K); lia.
Qed.
Lemma single_comps : single s -> exists c, k_comps s = [c].
Proof. unfold single. destruct (k_comps s) as [|c [|? ?]]; try discriminate. eauto. Qed.
Lemma rows_eq : forall c, In c (k_comps s) -> mcu_rows s = if Nat.eq_dec (length (k_comps s)) 1 then k_hib c else k_T s.
Proof.
  intros c H. unfold mcu_rows. destruct (k_comps s) as [|c0 [|c1 l]]; [destruct H| |].
  - destruct H as [-> |[]]. cbn. destruct (Nat.eq_dec 1 1); congruence.
  - destruct (Nat.eq_dec _ 1) as [W|W]; [cbn in W; lia|reflexivity].
Qed.

(* row [yoffset] of iMCU row [row] is MCU row [myof row + yoffset] *)
Definition myof (row : nat) : nat :=
  match k_comps s with [c] => row * k_v c | _ => row end.
Definition rows_in (row : nat) : nat := rows_per_iMCU s row.
Lemma rows_in_d : forall row, d_rows_per_iMCU s row = rows_in row.
Proof. reflexivity. Qed.
Lemma rows_pos : forall row, 1 <= rows_in row.
Proof.
  intros row. unfold rows_in, rows_per_iMCU. destruct (1 <? length (k_comps s)); [lia|].
  pose proof (so_ne s Hs) as NE. destruct (k_comps s) as [|c l] eqn:E; [congruence|].
  assert (K : kc_ok s c) by (apply (so_comps s Hs); rewrite E; left; reflexivity).
  destruct (row <? k_T s - 1); [exact (ko_v s c K)|exact (proj1 (ko_lrh s c K))].
Qed.
Lemma myof_next : forall row, row < k_T s -> myof row + rows_in row = if row + 1 <? k_T s then myof (row + 1) else mcu_rows s.
Proof.
  intros row Hr. unfold myof, rows_in, rows_per_iMCU, mcu_rows.
  pose proof (so_ne s Hs) as NE. destruct (k_comps s) as [|c [|c2 l]] eqn:E; [congruence| |].
  - assert (K : kc_ok s c) by (apply (so_comps s Hs); rewrite E; left; reflexivity).
    change (1 <? length [c]) with false. cbv iota. rewrite (ko_hib s c K).
    destruct (Nat.ltb_spec row (k_T s - 1)), (Nat.ltb_spec (row + 1) (k_T s)); try lia.
    replace row with (k_T s - 1) by lia. ring.
  - change (1 <? length (c :: c2 :: l)) with true. cbv iota. destruct (Nat.ltb_spec (row + 1) (k_T s)); lia.
Qed.

(* the block row used by the code is the one of the specification *)
Lemma brow_eq : forall row yo c yi, row < k_T s -> yo < rows_in row -> In c (k_comps s) -> yi < k_MH c ->
  row * k_v c + (yi + yo) = (myof row + yo) * k_MH c + yi.
Proof.
  intros row yo c yi Hr Hy Hc Hi. pose proof (so_comps s Hs c Hc) as K.
  unfold myof, rows_in, rows_per_iMCU in *.
  destruct single_dec as [Q|Q].
  - destruct (ko_one s c K Q) as [_ E1]. destruct (single_comps Q) as [c0 E]. rewrite E in *. destruct Hc as [-> |[]].
    rewrite E1 in *. assert (yi = 0) by lia. subst. lia.
  - destruct (ko_many s c K Q) as [_ E1]. rewrite E1 in *.
    assert (L : (1 <? length (k_comps s)) = true).
    { apply Nat.ltb_lt. unfold single in Q. pose proof (so_ne s Hs). destruct (k_comps s) as [|? [|? ?]]; cbn in *; try congruence; lia. }
    rewrite L in Hy. assert (yo = 0) by lia. subst. unfold single in Q.
    destruct (k_comps s) as [|? [|? ?]]; [destruct Hc|cbn in Q; lia|]. lia.
Qed.
(* ... and the tests for the bottom edge agree *)
Lemma brow_real : forall row yo c yi, row < k_T s -> yo < rows_in row -> In c (k_comps s) -> yi < k_MH c ->
  (row <? k_T s - 1) || (yo + yi <? k_lrh c) = (row * k_v c + (yi + yo) <? k_hib c).
Proof.
  intros row yo c yi Hr Hy Hc Hi. pose proof (so_comps s Hs c Hc) as K. rewrite (ko_hib s c K).
  assert (B : yi + yo < k_v c).
  { unfold rows_in, rows_per_iMCU in Hy. destruct single_dec as [Q|Q].
    - destruct (ko_one s c K Q) as [_ E1]. destruct (single_comps Q) as [c0 E]. rewrite E in *. destruct Hc as [-> |[]].
      change (1 <? length [c]) with false in Hy. cbv iota in Hy. pose proof (ko_lrh s c K). destruct (row <? k_T s - 1); lia.
    - destruct (ko_many s c K Q) as [_ E1]. rewrite E1 in *.
      assert (L : (1 <? length (k_comps s)) = true).
      { apply Nat.ltb_lt. unfold single in Q. pose proof (so_ne s Hs). destruct (k_comps s) as [|? [|? ?]]; cbn in *; try congruence; lia. }
      rewrite L in Hy. lia. }
  destruct (Nat.ltb_spec row (k_T s - 1)), (Nat.ltb_spec (yo + yi) (k_lrh c)),
    (Nat.ltb_spec (row * k_v c + (yi + yo)) (k_v c * (k_T s - 1) + k_lrh c)); cbn [orb]; try reflexivity; exfalso; try nia.
Qed.

(* number of real blocks of a row of the MCU *)
Definition cnt (c : kc) (col : nat) : nat := if col <? k_cols s - 1 then k_MW c else k_lcw c.
Lemma cnt_range : forall c col, In c (k_comps s) -> 1 <= cnt c col <= k_MW c.
Proof. intros c col H. pose proof (so_comps s Hs c H) as K. pose proof (ko_lcw s c K). unfold cnt. destruct (col <? k_cols s - 1); lia. Qed.
Lemma cnt_real : forall c col x, In c (k_comps s) -> col < k_cols s -> x < k_MW c -> (col * k_MW c + x < k_wib c <-> x < cnt c col).
Proof.
  intros c col x H Hc Hx. pose proof (so_comps s Hs c H) as K. rewrite (ko_wib s c K). pose proof (ko_lcw s c K).
  unfold cnt. destruct (Nat.ltb_spec col (k_cols s - 1)).
  - assert (col * k_MW c + k_MW c <= k_MW c * (k_cols s - 1)) by nia. lia.
  - assert (col = k_cols s - 1) by lia. subst. nia.
Qed.

Definition rowpad (c : kc) (r col : nat) : list block := map (fun dx => padA A c r (col * k_MW c + dx)) (seq 0 (k_MW c)).
Lemma rowpad_length : forall c r col, length (rowpad c r col) = k_MW c.
Proof. intros. unfold rowpad. rewrite map_length, seq_length. reflexivity. Qed.

Lemma rowpad_real : forall c r col, In c (k_comps s) -> col < k_cols s -> r < k_hib c ->
  rowpad c r col = map (fun dx => A (k_idx c) r (col * k_MW c + dx)) (seq 0 (cnt c col)) ++
    repeat (fst (A (k_idx c) r (col * k_MW c + (cnt c col - 1))), zeros) (k_MW c - cnt c col).
Proof.
  intros c r col H Hc Hr. unfold rowpad. pose proof (cnt_range c col H) as R.
  assert (SQ : seq 0 (k_MW c) = seq 0 (cnt c col) ++ seq (0 + cnt c col) (k_MW c - cnt c col)) by (rewrite <- seq_app; f_equal; lia).
  rewrite SQ, map_app. clear SQ. f_equal.
  - apply map_ext_in. intros x Hx. apply in_seq in Hx. apply padA_real; [exact Hr|].
    apply (cnt_real c col x H Hc); lia.
  - assert (E : forall x, cnt c col <= x < k_MW c ->
      padA A c r (col * k_MW c + x) = (fst (A (k_idx c) r (col * k_MW c + (cnt c col - 1))), zeros)).
    { intros x Hx. unfold padA. cbv zeta. rewrite (proj2 (Nat.ltb_lt _ _) Hr).
      destruct (Nat.ltb_spec (col * k_MW c + x) (k_wib c)) as [L|L].
      - apply (cnt_real c col x H Hc) in L; lia.
      - replace (k_wib c - 1) with (col * k_MW c + (cnt c col - 1)); [reflexivity|].
        pose proof (proj2 (cnt_real c col (cnt c col - 1) H Hc ltac:(lia)) ltac:(lia)) as Q.
        destruct (Nat.eq_dec (cnt c col) (k_MW c)) as [W|W]; [lia|].
        assert (Q2 : ~ (col * k_MW c + cnt c col < k_wib c)).
        { rewrite (cnt_real c col (cnt c col) H Hc) by lia. lia. }
        lia. }
    cbn [Nat.add]. revert E. generalize (fst (A (k_idx c) r (col * k_MW c + (cnt c col - 1))), zeros). intros v E.
    assert (G : forall k m, cnt c col <= m -> m + k <= k_MW c -> map (fun dx => padA A c r (col * k_MW c + dx)) (seq m k) = repeat v k).
    { induction k as [|k IH]; intros m H1 H2; [reflexivity|]. cbn. f_equal; [apply E; lia|apply IH; lia]. }
    apply G; lia.
Qed.

Lemma rowpad_dummy : forall c r col, In c (k_comps s) -> col < k_cols s -> 1 <= r -> k_hib c <= r -> k_MW c = k_h c ->
  rowpad c r col = repeat (fst (padA A c (r - 1) (col * k_MW c + (k_MW c - 1))), zeros) (k_MW c).
Proof.
  intros c r col H Hc Hr1 Hr EW. pose proof (so_comps s Hs c H) as K. pose proof (ko_h s c K) as Hh.
  unfold rowpad. assert (G : forall k m, m + k <= k_MW c -> map (fun dx => padA A c r (col * k_MW c + dx)) (seq m k) =
    repeat (fst (padA A c (r - 1) (col * k_MW c + (k_MW c - 1))), zeros) k).
  { induction k as [|k IH]; intros m H2; [reflexivity|]. cbn [seq map repeat]. f_equal; [|apply IH; lia].
    rewrite padA_dummy_row by lia.
    replace ((col * k_MW c + m) / k_h c) with col by (apply (Nat.div_unique _ _ _ m); [lia|rewrite EW; ring]).
    rewrite EW. f_equal. f_equal. f_equal. lia. }
  apply G. lia.
Qed.

(* the MCU as a list of padded rows *)
Definition mpad (my mx : nat) : list block :=
  flat_map (fun c => flat_map (fun dy => rowpad c (my * k_MH c + dy) mx) (seq 0 (k_MH c))) (k_comps s).
Lemma mpad_pos : forall my mx, mpad my mx = map (fun p => match p with (c, r, b) => padA A c r b end) (pos s my mx).
Proof.
  intros my mx. unfold mpad, pos. rewrite !flat_map_concat_map, concat_map, map_map. f_equal. apply map_ext. intros c.
  rewrite !flat_map_concat_map, concat_map, map_map. f_equal. apply map_ext. intros dy. unfold rowpad. rewrite map_map. reflexivity.
Qed.

(* a builder that makes each block row right makes the MCU right *)
Definition last_dc (buf : list block) (d : Z) : Prop := exists b, nth_error buf (length buf - 1) = Some b /\ fst b = d /\ buf <> [].
Lemma last_dc_app : forall buf l b, last_dc (buf ++ l ++ [b]) (fst b).
Proof.
  intros buf l b. exists b. rewrite app_assoc. split; [|split; [reflexivity|]].
  - rewrite app_length. cbn [length]. rewrite nth_error_app2 by lia. replace (_ - _) with 0 by lia. reflexivity.
  - destruct (buf ++ l); discriminate.
Qed.
Lemma dc_before_last : forall buf d, last_dc buf d -> dc_before buf = Ret d.
Proof.
  intros buf d (b & E & <- & NE). unfold dc_before, dc_at. destruct buf as [|x t]; [congruence|].
  cbn [length] in *. replace (S (length t) - 1) with (length t) in E by lia. rewrite E. reflexivity.
Qed.

Definition brow_ok (f : kc -> nat -> list block -> outcome (list block)) (my col : nat) : Prop :=
  forall c dy buf, In c (k_comps s) -> dy < k_MH c -> length buf + k_MW c <= 10 ->
    (my * k_MH c + dy < k_hib c \/ last_dc buf (fst (padA A c (my * k_MH c + dy - 1) (col * k_MW c + (k_MW c - 1)))) /\
       k_hib c <= my * k_MH c + dy /\ 1 <= my * k_MH c + dy /\ k_MW c = k_h c) ->
    f c dy buf = Ret (buf ++ rowpad c (my * k_MH c + dy) col).

(* the first block row of a component in an MCU is real; others may be dummies *)
Lemma first_real : forall c my, In c (k_comps s) -> my < mcu_rows s -> my * k_MH c < k_hib c.
Proof.
  intros c my H Hm. pose proof (so_comps s Hs c H) as K. rewrite (rows_eq c H) in Hm.
  pose proof (ko_lrh s c K). pose proof (ko_hib s c K). pose proof (ko_v s c K).
  destruct (Nat.eq_dec _ 1) as [Q|Q].
  - destruct (ko_one s c K Q) as [_ ->]. lia.
  - destruct (ko_many s c K Q) as [_ ->]. nia.
Qed.
Lemma dummy_many : forall c my dy, In c (k_comps s) -> my < mcu_rows s -> dy < k_MH c -> k_hib c <= my * k_MH c + dy -> k_MW c = k_h c.
Proof.
  intros c my dy H Hm Hd Hr. pose proof (so_comps s Hs c H) as K. rewrite (rows_eq c H) in Hm.
  destruct (Nat.eq_dec _ 1) as [Q|Q].
  - destruct (ko_one s c K Q) as [_ E]. rewrite E in *. lia.
  - exact (proj1 (ko_many s c K Q)).
Qed.

Lemma build_comp : forall f my col c, brow_ok f my col -> In c (k_comps s) -> my < mcu_rows s -> forall n buf,
  n <= k_MH c -> length buf + n * k_MW c <= 10 ->
  foldM (f c) (seq 0 n) buf = Ret (buf ++ flat_map (fun dy => rowpad c (my * k_MH c + dy) col) (seq 0 n)).
Proof.
  intros f my col c Hf H Hm. induction n as [|n IH]; intros buf Hn Hl; [cbn; rewrite app_nil_r; reflexivity|].
  replace (S n) with (n + 1) by lia. rewrite seq_app, foldM_app, flat_map_app. cbn [Nat.add seq].
  rewrite IH by lia. cbn [bind foldM flat_map]. rewrite app_nil_r.
  assert (LF : length (flat_map (fun dy => rowpad c (my * k_MH c + dy) col) (seq 0 n)) = n * k_MW c).
  { clear. generalize 0. induction n as [|n IH]; intros m; [reflexivity|]. cbn [seq flat_map]. rewrite app_length, rowpad_length, IH. lia. }
  rewrite Hf; [cbn [bind]; rewrite <- app_assoc; reflexivity|exact H|lia|rewrite app_length, LF; lia|].
  destruct (Nat.ltb_spec (my * k_MH c + n) (k_hib c)) as [L|L]; [left; exact L|right].
  pose proof (first_real c my H Hm) as F0. destruct n as [|n]; [lia|].
  split; [|split; [exact L|split; [lia|exact (dummy_many c my (S n) H Hm ltac:(lia) L)]]].
  replace (S n) with (n + 1) at 1 by lia. rewrite seq_app, flat_map_app. cbn [Nat.add seq flat_map]. rewrite app_nil_r.
  replace (my * k_MH c + S n - 1) with (my * k_MH c + n) by lia.
  pose proof (MW_pos c H) as MW. 
  assert (SQ : rowpad c (my * k_MH c + n) col = map (fun dx => padA A c (my * k_MH c + n) (col * k_MW c + dx)) (seq 0 (k_MW c - 1)) ++
    [padA A c (my * k_MH c + n) (col * k_MW c + (k_MW c - 1))]).
  { unfold rowpad. assert (SQ : seq 0 (k_MW c) = seq 0 (k_MW c - 1) ++ seq (0 + (k_MW c - 1)) 1) by (rewrite <- seq_app; f_equal; lia).
    rewrite SQ, map_app. reflexivity. }
  rewrite SQ. rewrite app_assoc. apply last_dc_app.
Qed.

Lemma sum_app : forall a b, sum (a ++ b) = sum a + sum b.
Proof. unfold sum. induction a as [|x a IH]; intros b; cbn [app fold_right]; [reflexivity|]. rewrite IH. lia. Qed.
Lemma mpad_part_length : forall l my mx,
  length (flat_map (fun c => flat_map (fun dy => rowpad c (my * k_MH c + dy) mx) (seq 0 (k_MH c))) l) =
  sum (map (fun c => k_MW c * k_MH c) l).
Proof.
  induction l as [|c l IH]; intros my mx; [reflexivity|]. cbn [flat_map map sum fold_right]. rewrite app_length, IH.
  unfold sum. f_equal. clear. generalize (k_MH c) at 2 3 as n. intros n. generalize 0 as m.
  induction n as [|n IH]; intros m; [cbn; lia|]. cbn [seq flat_map]. rewrite app_length, rowpad_length, IH. lia.
Qed.

Lemma build_ok : forall f my col, brow_ok f my col -> my < mcu_rows s ->
  foldM (fun c buf => foldM (f c) (seq 0 (k_MH c)) buf) (k_comps s) [] = Ret (mpad my col).
Proof.
  intros f my col Hf Hm. unfold mpad.
  assert (G : forall l pre, pre ++ l = k_comps s ->
    foldM (fun c buf => foldM (f c) (seq 0 (k_MH c)) buf) l
      (flat_map (fun c => flat_map (fun dy => rowpad c (my * k_MH c + dy) col) (seq 0 (k_MH c))) pre)
    = Ret (flat_map (fun c => flat_map (fun dy => rowpad c (my * k_MH c + dy) col) (seq 0 (k_MH c))) (pre ++ l))).
  { induction l as [|c l IH]; intros pre E; cbn [foldM]; [rewrite app_nil_r; reflexivity|].
    assert (Hc : In c (k_comps s)) by (rewrite <- E; apply in_or_app; right; left; reflexivity).
    rewrite (build_comp f my col c Hf Hc Hm (k_MH c)); [|lia|].
    - cbn [bind]. specialize (IH (pre ++ [c])). rewrite <- app_assoc in IH. cbn [app] in IH.
      rewrite flat_map_app in IH. cbn [flat_map] in IH. rewrite app_nil_r in IH. apply IH. exact E.
    - rewrite mpad_part_length. pose proof (so_max s Hs) as M. rewrite <- E, map_app, sum_app in M. cbn [map sum fold_right] in M. lia. }
  exact (G (k_comps s) [] eq_refl).
Qed.

(* the specification is the padded MCU *)
Definition ldc (p : Z) (l : list block) : Z := match rev l with [] => p | b :: _ => fst b end.
Lemma ldc_cons : forall p b l, ldc p (b :: l) = ldc (fst b) l.
Proof. intros p b l. unfold ldc. cbn [rev]. destruct (rev l); reflexivity. Qed.
Lemma fill_app : forall l1 l2 p, fill p (l1 ++ l2) = fill p l1 ++ fill (ldc p (fill p l1)) l2.
Proof.
  induction l1 as [|o l1 IH]; intros l2 p; [reflexivity|].
  destruct o as [b|]; cbn [app fill]; rewrite IH, ldc_cons; reflexivity.
Qed.
Lemma fill_some : forall l p, fill p (map Some l) = l.
Proof. induction l as [|b l IH]; intros p; cbn; [reflexivity|]. f_equal. apply IH. Qed.
Lemma fill_none : forall n p, fill p (repeat None n) = repeat (p, zeros) n.
Proof. induction n as [|n IH]; intros p; cbn; [reflexivity|]. f_equal. apply IH. Qed.
Lemma ldc_last : forall p l d, last_dc l d -> ldc p l = d.
Proof.
  intros p l d (b & E & <- & NE). unfold ldc. destruct (rev l) as [|x t] eqn:R.
  - apply (f_equal (@rev block)) in R. rewrite rev_involutive in R. cbn in R. congruence.
  - apply (f_equal (@rev block)) in R. rewrite rev_involutive in R. cbn in R. rewrite R, app_length in E. cbn [length] in E.
    rewrite nth_error_app2 in E by lia. replace (_ - _) with 0 in E by lia. cbn in E. congruence.
Qed.

(* an intermediate "builder" that appends according to the specification *)
Definition spec_brow (my col : nat) (c : kc) (dy : nat) (buf : list block) : outcome (list block) :=
  Ret (buf ++ fill (ldc 0%Z buf) (map (real A) (map (fun dx => (c, my * k_MH c + dy, col * k_MW c + dx)) (seq 0 (k_MW c))))).
Lemma spec_brow_ok : forall my col, col < k_cols s -> brow_ok (spec_brow my col) my col.
Proof.
  intros my col Hcol c dy buf H Hd Hl Hr. unfold spec_brow. f_equal. f_equal.
  set (r := my * k_MH c + dy) in *. pose proof (cnt_range c col H) as R.
  rewrite map_map.
  destruct Hr as [Hr|(LD & Hr & Hr1 & EW)].
  - rewrite (rowpad_real c r col H Hcol Hr).
    assert (SQ : seq 0 (k_MW c) = seq 0 (cnt c col) ++ seq (0 + cnt c col) (k_MW c - cnt c col)) by (rewrite <- seq_app; f_equal; lia).
    rewrite SQ, map_app, fill_app. clear SQ.
    assert (E1 : map (fun x => real A (c, r, col * k_MW c + x)) (seq 0 (cnt c col)) =
       map Some (map (fun dx => A (k_idx c) r (col * k_MW c + dx)) (seq 0 (cnt c col)))).
    { rewrite map_map. apply map_ext_in. intros x Hx. apply in_seq in Hx. unfold real.
      rewrite (proj2 (Nat.ltb_lt _ _) Hr). rewrite (proj2 (Nat.ltb_lt _ _)) by (apply (cnt_real c col x H Hcol); lia). reflexivity. }
    assert (E2 : forall k m, cnt c col <= m -> m + k <= k_MW c -> map (fun x => real A (c, r, col * k_MW c + x)) (seq m k) = repeat None k).
    { induction k as [|k IH]; intros m H1 H2; [reflexivity|]. cbn [seq map repeat]. f_equal; [|apply IH; lia].
      unfold real. destruct (Nat.ltb_spec (col * k_MW c + m) (k_wib c)) as [L|L]; [|rewrite andb_false_r; reflexivity].
      apply (cnt_real c col m H Hcol) in L; lia. }
    rewrite E1, E2 by lia. rewrite fill_some, fill_none. f_equal. f_equal. f_equal. apply ldc_last.
    assert (SQ : seq 0 (cnt c col) = seq 0 (cnt c col - 1) ++ [cnt c col - 1]).
    { replace (cnt c col) with ((cnt c col - 1) + 1) at 1 by lia. rewrite seq_app. reflexivity. }
    rewrite SQ, map_app. cbn [map]. exact (last_dc_app [] _ _).
  - rewrite (rowpad_dummy c r col H Hcol Hr1 Hr EW).
    assert (E2 : map (fun x => real A (c, r, col * k_MW c + x)) (seq 0 (k_MW c)) = repeat None (k_MW c)).
    { generalize 0 as m. generalize (k_MW c) at 2 3 as k. induction k as [|k IH]; intros m; [reflexivity|].
      cbn [seq map repeat]. f_equal; [|apply IH]. unfold real. rewrite (proj2 (Nat.ltb_ge _ _) Hr). reflexivity. }
    rewrite E2, fill_none, (ldc_last _ _ _ LD). reflexivity.
Qed.
Lemma foldM_fill : forall {X} (g : X -> list (option block)) l buf,
  foldM (fun x buf => Ret (buf ++ fill (ldc 0%Z buf) (g x))) l buf = Ret (buf ++ fill (ldc 0%Z buf) (flat_map g l)).
Proof.
  intros X g. induction l as [|x l IH]; intros buf; cbn [foldM flat_map fill]; [rewrite app_nil_r; reflexivity|].
  cbn [bind]. rewrite IH, fill_app, app_assoc. do 2 f_equal. f_equal.
  unfold ldc at 1 2. rewrite rev_app_distr. unfold ldc. destruct (rev (fill _ (g x))) as [|b t] eqn:R; reflexivity.
Qed.
Lemma mcu_spec_pad : forall my mx, my < mcu_rows s -> mx < k_cols s -> mcu_spec s A my mx = mpad my mx.
Proof.
  intros my mx Hm Hx. pose proof (build_ok _ my mx (spec_brow_ok my mx Hx) Hm) as E.
  unfold spec_brow in E.
  assert (E2 : foldM (fun c buf => foldM (fun dy buf => Ret (buf ++ fill (ldc 0%Z buf)
     (map (real A) (map (fun dx => (c, my * k_MH c + dy, mx * k_MW c + dx)) (seq 0 (k_MW c)))))) (seq 0 (k_MH c)) buf) (k_comps s) []
     = Ret (mcu_spec s A my mx)).
  { rewrite (foldM_ext _ _ _ (fun c buf => Ret (buf ++ fill (ldc 0%Z buf) (flat_map (fun dy =>
       map (real A) (map (fun dx => (c, my * k_MH c + dy, mx * k_MW c + dx)) (seq 0 (k_MW c)))) (seq 0 (k_MH c)))))).
    - rewrite (foldM_fill (fun c => flat_map (fun dy => map (real A) (map (fun dx => (c, my * k_MH c + dy, mx * k_MW c + dx)) (seq 0 (k_MW c)))) (seq 0 (k_MH c)))).
      cbn [app]. f_equal. unfold mcu_spec, pos. change (ldc 0%Z []) with 0%Z. f_equal.
      rewrite !flat_map_concat_map, concat_map, map_map. f_equal. apply map_ext. intros c.
      rewrite !flat_map_concat_map, concat_map, map_map. reflexivity.
    - intros c buf _. apply (foldM_fill (fun dy => map (real A) (map (fun dx => (c, my * k_MH c + dy, mx * k_MW c + dx)) (seq 0 (k_MW c))))). }
  rewrite E2 in E. congruence.
Qed.

End Scan.
