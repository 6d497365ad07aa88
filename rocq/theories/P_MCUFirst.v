(* P_MCUFirst.v -- compress_first_pass fills the virtual arrays *)
From Verif Require Import Base M_Geom M_Coef S_MCU P_MCU P_MCUPass.
From Coq Require Import Arith.
Open Scope nat_scope.

(* the frame-level facts about a component *)
Record fc_ok (T : nat) (c : kc) : Prop := mkFc {
  fc_h : 1 <= k_h c; fc_v : 1 <= k_v c; fc_w : 1 <= k_wib c; fc_T : 1 <= T;
  fc_lo : k_v c * (T - 1) < k_hib c; fc_hi : k_hib c <= k_v c * T }.

Section First.
Variable s : ks.
Notation T := (k_T s).
Variable F : nat -> nat -> nat -> block.
Definition AF : nat -> nat -> nat -> block := fun ci r b => F ci (r * 8) (b * 8).

Definition wid (c : kc) : nat := nround_up (k_wib c) (k_h c).
Lemma wid_eq : forall c, fc_ok T c -> k_wib c + fp_ndummy c = wid c /\ wid c / k_h c * k_h c = wid c /\ k_wib c <= wid c.
Proof.
  intros c K. pose proof (fc_h T c K) as Hh. pose proof (fc_w T c K) as Hw. unfold fp_ndummy, wid.
  pose proof (Nat.div_mod (k_wib c) (k_h c) ltac:(lia)) as D. pose proof (Nat.mod_upper_bound (k_wib c) (k_h c) ltac:(lia)) as M.
  set (q := k_wib c / k_h c) in *. set (r := k_wib c mod k_h c) in *.
  destruct (Nat.ltb_spec 0 r) as [L|L].
  - assert (E : nround_up (k_wib c) (k_h c) = k_h c * (q + 1)) by (apply round_up_eq; nia).
    rewrite E. rewrite (Nat.mul_comm (k_h c) (q + 1)), Nat.div_mul by lia. nia.
  - assert (E : nround_up (k_wib c) (k_h c) = k_h c * q) by (apply round_up_eq; nia).
    rewrite E. rewrite (Nat.mul_comm (k_h c) q), Nat.div_mul by lia. nia.
Qed.
Lemma hei_eq : forall c, fc_ok T c -> nround_up (k_hib c) (k_v c) = k_v c * T.
Proof. intros c [? ? ? ? ? ?]. apply round_up_eq; nia. Qed.

Lemma vset_ok : forall a c r b x, r < nround_up (k_hib c) (k_v c) -> b < wid c ->
  exists a', vset a c r b x = Ret a' /\ forall i r' b', a' i r' b' = if (i =? k_idx c) && (r' =? r) && (b' =? b) then Some x else a i r' b'.
Proof.
  intros a c r b x H1 H2. unfold vset. fold (wid c). rewrite (proj2 (Nat.leb_gt _ _) H1), (proj2 (Nat.leb_gt _ _) H2). cbn [orb].
  eexists. split; [reflexivity|]. reflexivity.
Qed.
Lemma vset_row : forall c r off (g : nat -> block) n m a, r < nround_up (k_hib c) (k_v c) -> off + m + n <= wid c ->
  exists a', foldM (fun b a => vset a c r (off + b) (g b)) (seq m n) a = Ret a' /\
    forall i r' b', a' i r' b' = if (i =? k_idx c) && (r' =? r) && (off + m <=? b') && (b' <? off + m + n) then Some (g (b' - off)) else a i r' b'.
Proof.
  intros c r off g. induction n as [|n IH]; intros m a Hr Hw; cbn [seq foldM].
  - exists a. split; [reflexivity|]. intros i r' b'. destruct (i =? k_idx c), (r' =? r); cbn [andb]; try reflexivity.
    destruct (Nat.leb_spec (off + m) b'), (Nat.ltb_spec b' (off + m + 0)); cbn [andb]; try reflexivity; lia.
  - destruct (vset_ok a c r (off + m) (g m) Hr ltac:(lia)) as (a1 & -> & E1). cbn [bind].
    destruct (IH (S m) a1 Hr ltac:(lia)) as (a2 & -> & E2). exists a2. split; [reflexivity|].
    intros i r' b'. rewrite E2, E1. destruct (i =? k_idx c), (r' =? r); cbn [andb]; try reflexivity.
    destruct (Nat.leb_spec (off + S m) b'), (Nat.ltb_spec b' (off + S m + n)), (Nat.leb_spec (off + m) b'),
      (Nat.ltb_spec b' (off + m + S n)), (Nat.eqb_spec b' (off + m)); cbn [andb]; try reflexivity; try lia.
    subst. do 2 f_equal. lia.
Qed.

Definition upto (c : kc) (lo n : nat) (a a' : varr) : Prop := forall i r b,
  a' i r b = if (i =? k_idx c) && (lo <=? r) && (r <? lo + n) && (b <? wid c) then Some (padA AF c r b) else a i r b.
Lemma upto_trans : forall c lo n m a a1 a2, upto c lo n a a1 -> upto c (lo + n) m a1 a2 -> upto c lo (n + m) a a2.
Proof.
  intros c lo n m a a1 a2 H1 H2 i r b. rewrite H2, H1. destruct (i =? k_idx c), (b <? wid c); rewrite ?andb_false_r, ?andb_true_r; cbn [andb]; try reflexivity.
  destruct (Nat.leb_spec (lo + n) r), (Nat.ltb_spec r (lo + n + m)), (Nat.leb_spec lo r), (Nat.ltb_spec r (lo + n)),
    (Nat.ltb_spec r (lo + (n + m))); cbn [andb]; try reflexivity; lia.
Qed.

Lemma fp_brow_ok : forall row c br a, fc_ok T c -> row * k_v c + br < k_hib c -> exists a',
  fp_brow F row c br a = Ret a' /\ upto c (row * k_v c + br) 1 a a'.
Proof.
  intros row c br a K Hr. unfold fp_brow. set (r := row * k_v c + br) in *.
  destruct (wid_eq c K) as (W1 & W2 & W3). pose proof (hei_eq c K) as HE. pose proof (fc_hi T c K). pose proof (fc_w T c K).
  assert (Hr' : r < nround_up (k_hib c) (k_v c)) by lia.
  destruct (vset_row c r 0 (fun b => F (k_idx c) (row * k_v c * 8 + br * 8) (0 + b * 8)) (k_wib c) 0 a Hr' ltac:(lia)) as (a1 & E1 & Q1).
  cbn [Nat.add] in E1 |- *. rewrite E1. cbn [bind].
  assert (RowE : forall b, F (k_idx c) (row * k_v c * 8 + br * 8) (b * 8) = AF (k_idx c) r b).
  { intros b. unfold AF, r. f_equal. ring. }
  destruct (Nat.ltb_spec 0 (fp_ndummy c)) as [L|L].
  - assert (EL : vget a1 c r (k_wib c - 1) = Ret (AF (k_idx c) r (k_wib c - 1))).
    { apply vget_ok; [exact Hr'|fold (wid c); lia|]. rewrite Q1, !Nat.eqb_refl. cbn [andb].
      rewrite (proj2 (Nat.leb_le _ _)) by lia. rewrite (proj2 (Nat.ltb_lt _ _)) by lia. cbn [andb].
      rewrite Nat.sub_0_r. cbn [Nat.add]. rewrite RowE. reflexivity. }
    replace (match k_wib c with 0 => Undef | S n => vget a1 c r n end) with (vget a1 c r (k_wib c - 1))
      by (destruct (k_wib c) as [|w]; [lia|f_equal; lia]).
    rewrite EL. cbn [bind].
    destruct (vset_row c r (k_wib c) (fun _ => (fst (AF (k_idx c) r (k_wib c - 1)), zeros)) (fp_ndummy c) 0 a1 Hr' ltac:(lia)) as (a2 & E2 & Q2).
    rewrite E2. exists a2. split; [reflexivity|]. intros i r' b. rewrite Q2, Q1.
    destruct (Nat.eqb_spec i (k_idx c)) as [-> |]; cbn [andb]; [|reflexivity].
    destruct (Nat.eqb_spec r' r) as [-> |N]; cbn [andb].
    + rewrite Nat.leb_refl. rewrite (proj2 (Nat.ltb_lt r (r + 1))) by lia. cbn [andb].
      unfold padA. cbv zeta. rewrite (proj2 (Nat.ltb_lt r (k_hib c))) by lia.
      destruct (Nat.leb_spec (k_wib c + 0) b), (Nat.ltb_spec b (k_wib c + 0 + fp_ndummy c)), (Nat.leb_spec (0 + 0) b),
        (Nat.ltb_spec b (0 + 0 + k_wib c)), (Nat.ltb_spec b (wid c)), (Nat.ltb_spec b (k_wib c)); cbn [andb]; try reflexivity; try lia.
      rewrite Nat.sub_0_r. cbn [Nat.add]. rewrite RowE. reflexivity.
    + destruct (Nat.leb_spec r r'), (Nat.ltb_spec r' (r + 1)); cbn [andb]; try reflexivity; lia.
  - exists a1. split; [reflexivity|]. intros i r' b. rewrite Q1.
    destruct (Nat.eqb_spec i (k_idx c)) as [-> |]; cbn [andb]; [|reflexivity].
    destruct (Nat.eqb_spec r' r) as [-> |N]; cbn [andb].
    + rewrite Nat.leb_refl. rewrite (proj2 (Nat.ltb_lt r (r + 1))) by lia. cbn [andb].
      unfold padA. cbv zeta. rewrite (proj2 (Nat.ltb_lt r (k_hib c))) by lia.
      destruct (Nat.leb_spec (0 + 0) b), (Nat.ltb_spec b (0 + 0 + k_wib c)), (Nat.ltb_spec b (wid c)), (Nat.ltb_spec b (k_wib c)); cbn [andb]; try reflexivity; try lia.
      rewrite Nat.sub_0_r. cbn [Nat.add]. rewrite RowE. reflexivity.
    + destruct (Nat.leb_spec r r'), (Nat.ltb_spec r' (r + 1)); cbn [andb]; try reflexivity; lia.
Qed.

Lemma fp_drow_ok : forall row c br a, fc_ok T c -> 1 <= br -> k_hib c <= row * k_v c + br -> row * k_v c + br < k_v c * T ->
  (forall b, b < wid c -> a (k_idx c) (row * k_v c + br - 1) b = Some (padA AF c (row * k_v c + br - 1) b)) ->
  exists a', fp_drow row c br a = Ret a' /\ upto c (row * k_v c + br) 1 a a'.
Proof.
  intros row c br a K Hb Hr HT Ha. unfold fp_drow. set (r := row * k_v c + br) in *.
  destruct (wid_eq c K) as (W1 & W2 & W3). pose proof (hei_eq c K) as HE. pose proof (fc_w T c K). pose proof (fc_h T c K).
  assert (Hr' : r < nround_up (k_hib c) (k_v c)) by lia. rewrite W1.
  assert (G : forall n m a0, m + n <= wid c / k_h c ->
    (forall b, b < wid c -> a0 (k_idx c) (r - 1) b = Some (padA AF c (r - 1) b)) ->
    exists a', foldM (fun mcu a =>
      last <- (match br with O => Undef | S q => vget a c (row * k_v c + q) (mcu * k_h c + (k_h c - 1)) end) ;;
      foldM (fun bi a => vset a c r (mcu * k_h c + bi) (fst last, zeros)) (seq 0 (k_h c)) a) (seq m n) a0 = Ret a' /\
    forall i r' b, a' i r' b = if (i =? k_idx c) && (r' =? r) && (m * k_h c <=? b) && (b <? (m + n) * k_h c)
                               then Some (padA AF c r b) else a0 i r' b).
  { induction n as [|n IH]; intros m a0 Hm Hprev; cbn [seq foldM].
    - exists a0. split; [reflexivity|]. intros i r' b. rewrite Nat.add_0_r.
      destruct (Nat.leb_spec (m * k_h c) b), (Nat.ltb_spec b (m * k_h c)); rewrite ?andb_false_r; try reflexivity; lia.
    - assert (MB : m * k_h c + k_h c <= wid c) by nia.
      assert (EV : vget a0 c (r - 1) (m * k_h c + (k_h c - 1)) = Ret (padA AF c (r - 1) (m * k_h c + (k_h c - 1)))).
      { apply vget_ok; [lia|fold (wid c); lia|]. apply Hprev. lia. }
      replace (match br with 0 => Undef | S q => vget a0 c (row * k_v c + q) (m * k_h c + (k_h c - 1)) end)
        with (vget a0 c (r - 1) (m * k_h c + (k_h c - 1))) by (unfold r; destruct br as [|q]; [lia|f_equal; lia]).
      rewrite EV. cbn [bind].
      destruct (vset_row c r (m * k_h c) (fun _ => (fst (padA AF c (r - 1) (m * k_h c + (k_h c - 1))), zeros)) (k_h c) 0 a0 Hr' ltac:(lia))
        as (a1 & E1 & Q1). rewrite E1. cbn [bind].
      destruct (IH (S m) a1 ltac:(lia)) as (a2 & E2 & Q2).
      { intros b Hb'. rewrite Q1. rewrite Nat.eqb_refl. rewrite (proj2 (Nat.eqb_neq (r - 1) r)) by lia. cbn [andb]. apply Hprev. exact Hb'. }
      rewrite E2. exists a2. split; [reflexivity|]. intros i r' b. rewrite Q2, Q1.
      destruct (Nat.eqb_spec i (k_idx c)) as [-> |]; cbn [andb]; [|reflexivity].
      destruct (Nat.eqb_spec r' r) as [-> |N]; cbn [andb]; [|reflexivity].
      assert (EP : m * k_h c <= b < m * k_h c + k_h c -> padA AF c r b = (fst (padA AF c (r - 1) (m * k_h c + (k_h c - 1))), zeros)).
      { intros Hb'. rewrite padA_dummy_row by (try lia; exact Hr).
        replace (b / k_h c) with m by (apply (Nat.div_unique _ _ _ (b - m * k_h c)); [lia|rewrite (Nat.mul_comm (k_h c)); lia]).
        do 3 f_equal. lia. }
      replace ((S m + n) * k_h c) with ((m + S n) * k_h c) by lia.
      assert (S m * k_h c = m * k_h c + k_h c) by lia.
      assert ((m + S n) * k_h c = m * k_h c + k_h c + n * k_h c) by lia.
      destruct (Nat.leb_spec (S m * k_h c) b), (Nat.ltb_spec b ((m + S n) * k_h c)), (Nat.leb_spec (m * k_h c + 0) b),
        (Nat.ltb_spec b (m * k_h c + 0 + k_h c)), (Nat.leb_spec (m * k_h c) b); cbn [andb]; try reflexivity; try lia.
      rewrite EP by lia. reflexivity. }
  destruct (G (wid c / k_h c) 0 a ltac:(lia)) as (a' & E & Q); [exact Ha|]. exists a'. split; [exact E|].
  intros i r' b. rewrite Q. cbn [Nat.mul Nat.add]. rewrite W2.
  destruct (Nat.eqb_spec i (k_idx c)) as [-> |]; cbn [andb]; [|reflexivity].
  destruct (Nat.eqb_spec r' r) as [-> |N]; cbn [andb].
  - rewrite Nat.leb_refl. rewrite (proj2 (Nat.ltb_lt r (r + 1))) by lia. reflexivity.
  - destruct (Nat.leb_spec r r'), (Nat.ltb_spec r' (r + 1)); cbn [andb]; try reflexivity; lia.
Qed.

Lemma upto_0 : forall c lo a, upto c lo 0 a a.
Proof.
  intros c lo a i r b. destruct (Nat.leb_spec lo r), (Nat.ltb_spec r (lo + 0)); rewrite ?andb_false_r; cbn [andb]; try reflexivity; try lia;
    rewrite ?andb_false_r; reflexivity.
Qed.
Lemma fp_rows_spec : forall row c, fc_ok T c -> row < T ->
    1 <= fp_rows s c row <= k_v c /\ row * k_v c + fp_rows s c row <= k_hib c /\
    (row < T - 1 -> fp_rows s c row = k_v c) /\ (row = T - 1 -> row * k_v c + fp_rows s c row = k_hib c).
Proof.
  intros row c K HT. pose proof (fc_v T c K) as Hv. pose proof (fc_lo T c K) as Hlo. pose proof (fc_hi T c K) as Hhi.
  unfold fp_rows. destruct (Nat.ltb_spec row (T - 1)).
    - assert (row * k_v c + k_v c <= k_v c * (T - 1)) by nia. lia.
    - assert (row = T - 1) by lia. subst row.
      pose proof (Nat.div_mod (k_hib c) (k_v c) ltac:(lia)) as D. pose proof (Nat.mod_upper_bound (k_hib c) (k_v c) ltac:(lia)) as M.
      set (q := k_hib c / k_v c) in *. set (m := k_hib c mod k_v c) in *. clearbody q m.
      assert (EM : k_v c * T = k_v c * (T - 1) + k_v c) by nia. rewrite (Nat.mul_comm (T - 1)).
      destruct (Nat.eqb_spec m 0).
      + assert (q = T) by nia. subst q. lia.
      + assert (q = T - 1) by nia. subst q. lia.
Qed.
Lemma fp_comp_ok : forall row c a, fc_ok T c -> row < T -> exists a', fp_comp s F row c a = Ret a' /\ upto c (row * k_v c) (k_v c) a a'.
Proof.
  intros row c a K HT. unfold fp_comp.
  pose proof (hei_eq c K) as HE. pose proof (fc_v T c K) as Hv. pose proof (fc_lo T c K) as Hlo. pose proof (fc_hi T c K) as Hhi.
  assert (HA : access c row = Ret tt).
  { unfold access. rewrite HE. rewrite (proj2 (Nat.ltb_ge _ _)); [reflexivity|nia]. }
  rewrite HA. cbn [bind].
  pose proof (fp_rows_spec row c K HT) as BR.
  destruct BR as (B1 & B2 & B3 & B4).
  assert (G1 : forall n m a0, row * k_v c + m + n <= k_hib c -> exists a', foldM (fp_brow F row c) (seq m n) a0 = Ret a' /\
     upto c (row * k_v c + m) n a0 a').
  { induction n as [|n IH]; intros m a0 Hn; cbn [seq foldM]; [exists a0; split; [reflexivity|apply upto_0]|].
    destruct (fp_brow_ok row c m a0 K ltac:(lia)) as (a1 & -> & U1). cbn [bind].
    destruct (IH (S m) a1 ltac:(lia)) as (a2 & -> & U2). exists a2. split; [reflexivity|].
    apply (upto_trans c _ 1 n a0 a1 a2 U1). replace (row * k_v c + m + 1) with (row * k_v c + S m) by lia. exact U2. }
  destruct (G1 (fp_rows s c row) 0 a ltac:(lia)) as (a1 & -> & U1). cbn [bind]. rewrite Nat.add_0_r in U1.
  destruct (Nat.eqb_spec row (T - 1)) as [ER|NR].
  - specialize (B4 ER).
    assert (G2 : forall n m a0, fp_rows s c row <= m -> m + n <= k_v c ->
      (forall b, b < wid c -> a0 (k_idx c) (row * k_v c + m - 1) b = Some (padA AF c (row * k_v c + m - 1) b)) ->
      exists a', foldM (fp_drow row c) (seq m n) a0 = Ret a' /\ upto c (row * k_v c + m) n a0 a').
    { induction n as [|n IH]; intros m a0 Hm Hn H0; cbn [seq foldM]; [exists a0; split; [reflexivity|apply upto_0]|].
      assert (HL : row * k_v c + m < k_v c * T) by (subst row; nia).
      destruct (fp_drow_ok row c m a0 K ltac:(lia) ltac:(lia) HL H0) as (a2 & -> & U2). cbn [bind].
      destruct (IH (S m) a2 ltac:(lia) ltac:(lia)) as (a3 & -> & U3).
      { intros b Hb. rewrite U2. rewrite Nat.eqb_refl. rewrite (proj2 (Nat.leb_le _ _)) by lia.
        rewrite (proj2 (Nat.ltb_lt _ _)) by lia. rewrite (proj2 (Nat.ltb_lt _ _) Hb). cbn [andb]. reflexivity. }
      exists a3. split; [reflexivity|]. apply (upto_trans c _ 1 n a0 a2 a3 U2).
      replace (row * k_v c + m + 1) with (row * k_v c + S m) by lia. exact U3. }
    destruct (G2 (k_v c - fp_rows s c row) (fp_rows s c row) a1 ltac:(lia) ltac:(lia)) as (a2 & -> & U2).
    { intros b Hb. rewrite U1. rewrite Nat.eqb_refl. rewrite (proj2 (Nat.leb_le _ _)) by lia.
      rewrite (proj2 (Nat.ltb_lt _ _)) by lia. rewrite (proj2 (Nat.ltb_lt _ _) Hb). cbn [andb]. reflexivity. }
    exists a2. split; [reflexivity|]. replace (k_v c) with (fp_rows s c row + (k_v c - fp_rows s c row)) at 2 by lia.
    exact (upto_trans _ _ _ _ _ _ _ U1 U2).
  - exists a1. split; [reflexivity|]. rewrite <- (B3 ltac:(lia)) at 2. exact U1.
Qed.

Lemma fp_all_ok2 : forall row all a, (forall c, In c all -> fc_ok T c) -> NoDup (map k_idx all) -> row < T ->
  exists a', foldM (fp_comp s F row) all a = Ret a' /\
    (forall c r b, In c all -> row * k_v c <= r < row * k_v c + k_v c -> b < wid c -> a' (k_idx c) r b = Some (padA AF c r b)) /\
    (forall i r b, (forall c, In c all -> i = k_idx c -> ~ row * k_v c <= r < row * k_v c + k_v c) -> a' i r b = a i r b).
Proof.
  intros row. induction all as [|c all IH]; intros a Hf Hn HT; cbn [foldM].
  - exists a. split; [reflexivity|]. split; [intros c r b []|reflexivity].
  - destruct (fp_comp_ok row c a (Hf c (or_introl eq_refl)) HT) as (a1 & -> & U1). cbn [bind].
    cbn [map] in Hn. inversion Hn as [|x l N1 N2]; subst.
    destruct (IH a1 (fun c H => Hf c (or_intror H)) N2 HT) as (a2 & E2 & P1 & P2). exists a2. split; [exact E2|]. split.
    + intros c0 r b [<- |Hc] Hr Hb; [|apply P1; assumption]. rewrite P2.
      * rewrite U1, Nat.eqb_refl. rewrite (proj2 (Nat.leb_le _ _)) by lia. rewrite (proj2 (Nat.ltb_lt _ _)) by lia.
        rewrite (proj2 (Nat.ltb_lt _ _) Hb). reflexivity.
      * intros c' Hc' Q. exfalso. apply N1. rewrite Q. apply in_map. exact Hc'.
    + intros i r b Hi. rewrite P2 by (intros c' Hc'; apply Hi; right; exact Hc'). rewrite U1.
      destruct (Nat.eqb_spec i (k_idx c)) as [Q|Q]; cbn [andb]; [|reflexivity]. specialize (Hi c (or_introl eq_refl) Q).
      destruct (Nat.leb_spec (row * k_v c) r), (Nat.ltb_spec r (row * k_v c + k_v c)); cbn [andb]; try reflexivity. lia.
Qed.
End First.
