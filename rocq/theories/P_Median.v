(* P_Median.v -- proofs about the histogram pass and about boxes *)
From Verif Require Import Base M_Pnm M_Quant2 M_Median S_Quant S_Median.
From Coq Require Import Permutation.

(* ---- ranges and slabs ---- *)
Lemma in_zr : forall a b x, In x (zr a b) <-> a <= x <= b.
Proof.
  intros a b x. unfold zr. rewrite in_map_iff. split.
  - intros (i & <- & Hi). apply in_seq in Hi. lia.
  - intros H. exists (Z.to_nat (x - a)). split; [lia|]. apply in_seq. lia.
Qed.
Lemma nodup_zr : forall a b, NoDup (zr a b).
Proof. intros a b. unfold zr. apply FinFun.Injective_map_NoDup; [intros i j; lia|apply seq_NoDup]. Qed.
Lemma in_slab : forall a0 b0 a1 b1 a2 b2 c0 c1 c2, In (c0, c1, c2) (slab a0 b0 a1 b1 a2 b2) <-> a0 <= c0 <= b0 /\ a1 <= c1 <= b1 /\ a2 <= c2 <= b2.
Proof.
  intros. unfold slab. rewrite in_flat_map. split.
  - intros (x & Hx & H). apply in_flat_map in H. destruct H as (y & Hy & H). apply in_map_iff in H. destruct H as (z & E & Hz). injection E as -> -> ->. rewrite in_zr in Hx, Hy, Hz. tauto.
  - intros (H0 & H1 & H2). exists c0. split; [apply in_zr; exact H0|]. apply in_flat_map. exists c1. split; [apply in_zr; exact H1|]. apply in_map_iff. exists c2. split; [reflexivity|apply in_zr; exact H2].
Qed.
Lemma nodup_app : forall {A} (l1 l2 : list A), NoDup l1 -> NoDup l2 -> (forall x, In x l1 -> ~ In x l2) -> NoDup (l1 ++ l2).
Proof.
  induction l1 as [|x l1 IH]; intros l2 H1 H2 D; [exact H2|]. inversion H1 as [|? ? Nx H1']; subst. cbn [app]. constructor.
  - intros H. apply in_app_iff in H. destruct H as [H|H]; [contradiction|]. apply (D x); [left; reflexivity|exact H].
  - apply IH; [exact H1'|exact H2|]. intros y Hy. apply D. right. exact Hy.
Qed.
Lemma nodup_flat : forall {A B} (f : A -> list B) (l : list A), NoDup l -> (forall x, NoDup (f x)) -> (forall x y z, In z (f x) -> In z (f y) -> x = y) -> NoDup (flat_map f l).
Proof.
  intros A B f l H F D. induction H as [|x l Nx H IH]; [constructor|]. cbn [flat_map]. apply nodup_app; [apply F|exact IH|].
  intros z Hz Hz'. apply in_flat_map in Hz'. destruct Hz' as (y & Hy & Hz'). rewrite (D _ _ _ Hz Hz') in Nx. contradiction.
Qed.
Lemma nodup_slab : forall a0 b0 a1 b1 a2 b2, NoDup (slab a0 b0 a1 b1 a2 b2).
Proof.
  intros. unfold slab. apply nodup_flat; [apply nodup_zr| |].
  - intros x. apply nodup_flat; [apply nodup_zr| |].
    + intros y. apply FinFun.Injective_map_NoDup; [intros i j E; congruence|apply nodup_zr].
    + intros y y' z H1 H2. apply in_map_iff in H1, H2. destruct H1 as (? & <- & _). destruct H2 as (? & E & _). congruence.
  - intros x x' z H1 H2. apply in_flat_map in H1, H2. destruct H1 as (? & _ & H1). destruct H2 as (? & _ & H2). apply in_map_iff in H1, H2. destruct H1 as (? & <- & _). destruct H2 as (? & E & _). congruence.
Qed.

(* ---- prescan ---- *)
Definition hc (h : hist) (c : Z * Z * Z) : Z := let '(a, b, d) := c in h a b d.
Definition inh (c : Z * Z * Z) : Prop := let '(a, b, d) := c in 0 <= a < 32 /\ 0 <= b < 64 /\ 0 <= d < 32.
Lemma inh_iff : forall a b d, in_hist a b d = true <-> inh (a, b, d).
Proof. intros. unfold in_hist, inh. rewrite !andb_true_iff, !Z.leb_le, !Z.ltb_lt. tauto. Qed.
Lemma cell_in : forall p, colour p -> inh (cell p).
Proof.
  intros [[a b] d] (Ha & Hb & Hd). unfold cell, inh, sample in *. repeat split; try (apply Z.div_pos; lia); apply Z.div_lt_upper_bound; lia.
Qed.
Lemma cell_shift : forall p, let '(a, b, d) := p in (Z.shiftr a C0_SHIFT, Z.shiftr b C1_SHIFT, Z.shiftr d C2_SHIFT) = cell p.
Proof. intros [[a b] d]. unfold cell, C0_SHIFT, C1_SHIFT, C2_SHIFT. rewrite !Z.shiftr_div_pow2 by lia. reflexivity. Qed.

Lemma prescan_px_ok : forall h p, colour p -> (forall c, inh c -> 0 <= hc h c <= 65535) ->
  exists h', prescan_px h p = Ret h' /\ forall c, inh c -> hc h' c = Z.min 65535 (hc h c + (if same_cell (cell p) c then 1 else 0)).
Proof.
  intros h p Hp Hh. pose proof (cell_in p Hp) as CI. pose proof (cell_shift p) as CS. destruct p as [[a b] d]. unfold prescan_px. destruct (cell (a, b, d)) as [[c0 c1] c2] eqn:CE. injection CS as -> -> ->.
  unfold hget. rewrite (proj2 (inh_iff c0 c1 c2) CI). cbn [bind]. unfold hset. rewrite (proj2 (inh_iff c0 c1 c2) CI). eexists. split; [reflexivity|].
  intros [[x y] z] Hc. unfold hc at 1. pose proof (Hh _ CI) as B. unfold hc in B. pose proof (Hh _ Hc) as B2. destruct (same_cell (c0, c1, c2) (x, y, z)) as [E|N].
  - injection E as -> -> ->. rewrite !Z.eqb_refl. cbn [andb]. unfold hc. set (v := h x y z) in *. unfold u16. change (2 ^ 16) with 65536.
    destruct (Z.eq_dec v 65535) as [->|Nv].
    + reflexivity.
    + rewrite (Z.mod_small (v + 1)) by lia. destruct (Z.leb_spec (v + 1) 0); [lia|]. rewrite Z.mod_small by lia. lia.
  - unfold hc in *. destruct ((x =? c0) && (y =? c1) && (z =? c2)) eqn:E; [|lia]. rewrite !andb_true_iff, !Z.eqb_eq in E. destruct E as ((-> & ->) & ->). elim N. reflexivity.
Qed.
Lemma prescan_ok : forall ps h, Forall colour ps -> (forall c, inh c -> 0 <= hc h c <= 65535) ->
  exists h', prescan h ps = Ret h' /\ forall c, inh c -> hc h' c = Z.min 65535 (hc h c + Z.of_nat (count_occ same_cell (map cell ps) c)).
Proof.
  induction ps as [|p ps IH]; intros h Hp Hh; cbn [prescan map].
  - exists h. split; [reflexivity|]. intros c Hc. cbn [count_occ]. specialize (Hh c Hc). lia.
  - inversion Hp as [|? ? P1 P2]; subst. destruct (prescan_px_ok h p P1 Hh) as (h1 & -> & A1). cbn [bind].
    destruct (IH h1 P2) as (h2 & -> & A2). { intros c Hc. rewrite A1 by exact Hc. specialize (Hh c Hc). destruct (same_cell (cell p) c); lia. }
    exists h2. split; [reflexivity|]. intros c Hc. rewrite A2, A1 by exact Hc. cbn [count_occ]. specialize (Hh c Hc). destruct (same_cell (cell p) c); lia.
Qed.
Lemma prescan_weight : forall ps, Forall colour ps -> exists h, prescan (fun _ _ _ => 0) ps = Ret h /\ forall c, inh c -> hc h c = weight ps c.
Proof.
  intros ps H. destruct (prescan_ok ps (fun _ _ _ => 0) H) as (h & E & A). { intros [[a b] d] _. unfold hc. lia. }
  exists h. split; [exact E|]. intros c Hc. rewrite A by exact Hc. destruct c as [[a b] d]. reflexivity.
Qed.
Lemma occ_cells : forall ps h c, Forall colour ps -> inh c -> hc h c = weight ps c -> (occ h c = true <-> In c (cells_of ps)).
Proof.
  intros ps h c H Hc E. unfold cells_of. rewrite nodup_In. rewrite (count_occ_In same_cell). unfold occ. destruct c as [[a b] d]. unfold hc in E. rewrite E. unfold weight.
  rewrite negb_true_iff, Z.eqb_neq. lia.
Qed.

(* ---- shrinking ---- *)
Lemma find_first : forall (f : Z -> bool) (l : list Z) x, find f l = Some x -> In x l /\ f x = true.
Proof. intros f l x H. apply find_some in H. exact H. Qed.
Lemma shrink_lo_ok : forall f lo hi, lo <= hi -> (exists y, lo <= y <= hi /\ f y = true) ->
  lo <= shrink_lo f lo hi <= hi /\ f (shrink_lo f lo hi) = true /\ forall y, lo <= y <= hi -> f y = true -> shrink_lo f lo hi <= y.
Proof.
  intros f lo hi Hl (y0 & Hy & Fy). unfold shrink_lo. destruct (Z.ltb_spec lo hi).
  - assert (G : forall n a, (forall y, a <= y < a + Z.of_nat n -> f y = true -> exists x, find f (map (fun i => a + Z.of_nat i) (seq 0 n)) = Some x /\ a <= x <= y) ).
    { induction n as [|n IH]; intros a y Ha Ff; [lia|]. cbn [seq map find]. rewrite Z.add_0_r. destruct (f a) eqn:Fa; [exists a; split; [reflexivity|lia]|].
      rewrite <- seq_shift, map_map. assert (y <> a) by congruence.
      destruct (IH (a + 1) y ltac:(lia) Ff) as (x & Ex & Hx). exists x. split; [|lia]. rewrite <- Ex. f_equal. apply map_ext. intros i. lia. }
    assert (G' : forall y, lo <= y <= hi -> f y = true -> exists x, find f (zr lo hi) = Some x /\ lo <= x <= y) by (intros y Hy' Fy'; apply G; [lia|exact Fy']).
    destruct (G' y0 Hy Fy) as (x & Ex & Hx). rewrite Ex. destruct (find_first _ _ _ Ex) as (_ & Fx). split; [lia|]. split; [exact Fx|].
    intros y Hy' Fy'. destruct (G' y Hy' Fy') as (x' & Ex' & Hx'). assert (x' = x) by congruence. lia.
  - assert (y0 = lo) by lia. subst y0. split; [lia|]. split; [exact Fy|]. intros y Hy' _. lia.
Qed.
Lemma zr_snoc : forall a b, a <= b -> zr a b = zr a (b - 1) ++ [b].
Proof.
  intros a b H. unfold zr. replace (Z.to_nat (b - a + 1)) with (Z.to_nat (b - 1 - a + 1) + 1)%nat by lia. rewrite seq_app, map_app. cbn [seq map Nat.add]. f_equal. f_equal. lia.
Qed.
Lemma shrink_hi_ok : forall f lo hi, lo <= hi -> (exists y, lo <= y <= hi /\ f y = true) ->
  lo <= shrink_hi f lo hi <= hi /\ f (shrink_hi f lo hi) = true /\ forall y, lo <= y <= hi -> f y = true -> y <= shrink_hi f lo hi.
Proof.
  intros f lo hi Hl (y0 & Hy & Fy). unfold shrink_hi. destruct (Z.ltb_spec lo hi).
  - assert (G : forall n b, Z.to_nat (b - lo) = n -> lo <= b -> forall y, lo <= y <= b -> f y = true -> exists x, find f (rev (zr lo b)) = Some x /\ y <= x <= b).
    { induction n as [|n IH]; intros b En Hb y Hy' Fy'; rewrite zr_snoc, rev_app_distr by lia; cbn [rev app find].
      - assert (y = b) by lia. subst y. rewrite Fy'. exists b. split; [reflexivity|lia].
      - destruct (f b) eqn:Fb; [exists b; split; [reflexivity|lia]|]. assert (y <> b) by congruence. destruct (IH (b - 1) ltac:(lia) ltac:(lia) y ltac:(lia) Fy') as (x & Ex & Hx). exists x. split; [exact Ex|lia]. }
    specialize (G _ hi eq_refl Hl). destruct (G y0 Hy Fy) as (x & Ex & Hx). rewrite Ex. destruct (find_first _ _ _ Ex) as (_ & Fx). split; [lia|]. split; [exact Fx|].
    intros y Hy' Fy'. destruct (G y Hy' Fy') as (x' & Ex' & Hx'). assert (x' = x) by congruence. lia.
  - assert (y0 = hi) by lia. subst y0. split; [lia|]. split; [exact Fy|]. intros y Hy' _. lia.
Qed.

(* ---- boxes ---- *)
Definition ib (a0 b0 a1 b1 a2 b2 : Z) (c : Z * Z * Z) : Prop := let '(x, y, z) := c in a0 <= x <= b0 /\ a1 <= y <= b1 /\ a2 <= z <= b2.
Lemma in_slab_ib : forall a0 b0 a1 b1 a2 b2 c, In c (slab a0 b0 a1 b1 a2 b2) <-> ib a0 b0 a1 b1 a2 b2 c.
Proof. intros. destruct c as [[x y] z]. apply in_slab. Qed.
Lemma ex_slab : forall h a0 b0 a1 b1 a2 b2, existsb (occ h) (slab a0 b0 a1 b1 a2 b2) = true <-> exists c, occ h c = true /\ ib a0 b0 a1 b1 a2 b2 c.
Proof.
  intros. rewrite existsb_exists. split; intros (c & A & B); exists c; rewrite in_slab_ib in *; tauto.
Qed.
Tactic Notation "shrink_step" constr(H) :=
  let B := fresh "B" in let E := fresh "E" in let M := fresh "M" in
  destruct H as (B & E & M);
  [match goal with c : (Z * Z * Z)%type, Ic : ib _ _ _ _ _ _ _ |- _ => destruct c as [[? ?] ?]; unfold ib in Ic; lia end
  |match goal with c : (Z * Z * Z)%type, Oc : occ _ _ = true, Ic : ib _ _ _ _ _ _ _ |- _ => destruct c as [[x y] z]; unfold ib in Ic;
     first [exists x; split; [lia|]; apply ex_slab; exists (x, y, z); unfold ib; split; [exact Oc|lia] | exists y; split; [lia|]; apply ex_slab; exists (x, y, z); unfold ib; split; [exact Oc|lia] | exists z; split; [lia|]; apply ex_slab; exists (x, y, z); unfold ib; split; [exact Oc|lia]] end
  |split; [exact B|]; apply ex_slab in E; split; [|exact E];
   intros [[u v] w] O; unfold ib; split; [|lia];
   intros IB; repeat apply conj; try lia; (apply M; [lia|]); apply ex_slab; exists (u, v, w); unfold ib; (split; [exact O|lia])].
Lemma step_a0 : forall h a0 b0 a1 b1 a2 b2, (exists c, occ h c = true /\ ib a0 b0 a1 b1 a2 b2 c) ->
  let a' := shrink_lo (fun x => existsb (occ h) (slab x x a1 b1 a2 b2)) a0 b0 in
  a0 <= a' <= b0 /\ (forall c, occ h c = true -> (ib a0 b0 a1 b1 a2 b2 c <-> ib a' b0 a1 b1 a2 b2 c)) /\ exists c, occ h c = true /\ ib a' a' a1 b1 a2 b2 c.
Proof. intros h a0 b0 a1 b1 a2 b2 (c & Oc & Ic). cbv zeta. shrink_step (shrink_lo_ok (fun x => existsb (occ h) (slab x x a1 b1 a2 b2)) a0 b0). Qed.
Lemma step_b0 : forall h a0 b0 a1 b1 a2 b2, (exists c, occ h c = true /\ ib a0 b0 a1 b1 a2 b2 c) ->
  let a' := shrink_hi (fun x => existsb (occ h) (slab x x a1 b1 a2 b2)) a0 b0 in
  a0 <= a' <= b0 /\ (forall c, occ h c = true -> (ib a0 b0 a1 b1 a2 b2 c <-> ib a0 a' a1 b1 a2 b2 c)) /\ exists c, occ h c = true /\ ib a' a' a1 b1 a2 b2 c.
Proof. intros h a0 b0 a1 b1 a2 b2 (c & Oc & Ic). cbv zeta. shrink_step (shrink_hi_ok (fun x => existsb (occ h) (slab x x a1 b1 a2 b2)) a0 b0). Qed.
Lemma step_a1 : forall h a0 b0 a1 b1 a2 b2, (exists c, occ h c = true /\ ib a0 b0 a1 b1 a2 b2 c) ->
  let a' := shrink_lo (fun x => existsb (occ h) (slab a0 b0 x x a2 b2)) a1 b1 in
  a1 <= a' <= b1 /\ (forall c, occ h c = true -> (ib a0 b0 a1 b1 a2 b2 c <-> ib a0 b0 a' b1 a2 b2 c)) /\ exists c, occ h c = true /\ ib a0 b0 a' a' a2 b2 c.
Proof. intros h a0 b0 a1 b1 a2 b2 (c & Oc & Ic). cbv zeta. shrink_step (shrink_lo_ok (fun x => existsb (occ h) (slab a0 b0 x x a2 b2)) a1 b1). Qed.
Lemma step_b1 : forall h a0 b0 a1 b1 a2 b2, (exists c, occ h c = true /\ ib a0 b0 a1 b1 a2 b2 c) ->
  let a' := shrink_hi (fun x => existsb (occ h) (slab a0 b0 x x a2 b2)) a1 b1 in
  a1 <= a' <= b1 /\ (forall c, occ h c = true -> (ib a0 b0 a1 b1 a2 b2 c <-> ib a0 b0 a1 a' a2 b2 c)) /\ exists c, occ h c = true /\ ib a0 b0 a' a' a2 b2 c.
Proof. intros h a0 b0 a1 b1 a2 b2 (c & Oc & Ic). cbv zeta. shrink_step (shrink_hi_ok (fun x => existsb (occ h) (slab a0 b0 x x a2 b2)) a1 b1). Qed.
Lemma step_a2 : forall h a0 b0 a1 b1 a2 b2, (exists c, occ h c = true /\ ib a0 b0 a1 b1 a2 b2 c) ->
  let a' := shrink_lo (fun x => existsb (occ h) (slab a0 b0 a1 b1 x x)) a2 b2 in
  a2 <= a' <= b2 /\ (forall c, occ h c = true -> (ib a0 b0 a1 b1 a2 b2 c <-> ib a0 b0 a1 b1 a' b2 c)) /\ exists c, occ h c = true /\ ib a0 b0 a1 b1 a' a' c.
Proof. intros h a0 b0 a1 b1 a2 b2 (c & Oc & Ic). cbv zeta. shrink_step (shrink_lo_ok (fun x => existsb (occ h) (slab a0 b0 a1 b1 x x)) a2 b2). Qed.
Lemma step_b2 : forall h a0 b0 a1 b1 a2 b2, (exists c, occ h c = true /\ ib a0 b0 a1 b1 a2 b2 c) ->
  let a' := shrink_hi (fun x => existsb (occ h) (slab a0 b0 a1 b1 x x)) a2 b2 in
  a2 <= a' <= b2 /\ (forall c, occ h c = true -> (ib a0 b0 a1 b1 a2 b2 c <-> ib a0 b0 a1 b1 a2 a' c)) /\ exists c, occ h c = true /\ ib a0 b0 a1 b1 a' a' c.
Proof. intros h a0 b0 a1 b1 a2 b2 (c & Oc & Ic). cbv zeta. shrink_step (shrink_hi_ok (fun x => existsb (occ h) (slab a0 b0 a1 b1 x x)) a2 b2). Qed.

Definition inb (b : box) : Z * Z * Z -> Prop := ib (c0min b) (c0max b) (c1min b) (c1max b) (c2min b) (c2max b).
Definition bcells (h : hist) (b : box) : list (Z * Z * Z) := filter (occ h) (slab (c0min b) (c0max b) (c1min b) (c1max b) (c2min b) (c2max b)).
Definition nonempty (h : hist) (b : box) : Prop := exists c, occ h c = true /\ inb b c.
Definition fits (b : box) : Prop := inh (c0min b, c1min b, c2min b) /\ inh (c0max b, c1max b, c2max b).
Definition width0 (s : scales) (b : box) : Z := Z.shiftl (c0max b - c0min b) C0_SHIFT * C0_SCALE s.
Definition width1 (s : scales) (b : box) : Z := Z.shiftl (c1max b - c1min b) C1_SHIFT * C1_SCALE s.
Definition width2 (s : scales) (b : box) : Z := Z.shiftl (c2max b - c2min b) C2_SHIFT * C2_SCALE s.
Record good (s : scales) (h : hist) (b : box) : Prop := {
  g_fits : fits b;
  g_a0 : exists c, occ h c = true /\ inb b c /\ fst (fst c) = c0min b;
  g_b0 : exists c, occ h c = true /\ inb b c /\ fst (fst c) = c0max b;
  g_a1 : exists c, occ h c = true /\ inb b c /\ snd (fst c) = c1min b;
  g_b1 : exists c, occ h c = true /\ inb b c /\ snd (fst c) = c1max b;
  g_a2 : exists c, occ h c = true /\ inb b c /\ snd c = c2min b;
  g_b2 : exists c, occ h c = true /\ inb b c /\ snd c = c2max b;
  g_vol : volume b = width0 s b * width0 s b + width1 s b * width1 s b + width2 s b * width2 s b;
  g_cnt : colorcount b = Z.of_nat (length (bcells h b))
}.
Lemma bcells_in : forall h b c, In c (bcells h b) <-> occ h c = true /\ inb b c.
Proof. intros. unfold bcells. rewrite filter_In, in_slab_ib. unfold inb. tauto. Qed.
Lemma nodup_bcells : forall h b, NoDup (bcells h b).
Proof. intros. apply NoDup_filter, nodup_slab. Qed.

Lemma update_box_ok : forall s h b, fits b -> nonempty h b ->
  exists b', update_box s h b = Ret b' /\ good s h b' /\ forall c, occ h c = true -> (inb b c <-> inb b' c).
Proof.
  intros s h [a0 b0 a1 b1 a2 b2 v cc] [F1 F2] N. unfold nonempty, inb in N. cbn [c0min c0max c1min c1max c2min c2max] in *.
  unfold update_box. rewrite (proj2 (inh_iff a0 a1 a2) F1), (proj2 (inh_iff b0 b1 b2) F2). cbn [andb negb].
  destruct (step_a0 _ _ _ _ _ _ _ N) as (L1 & E1 & T1). set (a0' := shrink_lo _ a0 b0) in *.
  assert (N1 : exists c, occ h c = true /\ ib a0' b0 a1 b1 a2 b2 c) by (destruct N as (c & O & IC); exists c; split; [exact O|apply E1; assumption]).
  destruct (step_b0 _ _ _ _ _ _ _ N1) as (L2 & E2 & T2). set (b0' := shrink_hi _ a0' b0) in *.
  assert (N2 : exists c, occ h c = true /\ ib a0' b0' a1 b1 a2 b2 c) by (destruct N1 as (c & O & IC); exists c; split; [exact O|apply E2; assumption]).
  destruct (step_a1 _ _ _ _ _ _ _ N2) as (L3 & E3 & T3). set (a1' := shrink_lo _ a1 b1) in *.
  assert (N3 : exists c, occ h c = true /\ ib a0' b0' a1' b1 a2 b2 c) by (destruct N2 as (c & O & IC); exists c; split; [exact O|apply E3; assumption]).
  destruct (step_b1 _ _ _ _ _ _ _ N3) as (L4 & E4 & T4). set (b1' := shrink_hi _ a1' b1) in *.
  assert (N4 : exists c, occ h c = true /\ ib a0' b0' a1' b1' a2 b2 c) by (destruct N3 as (c & O & IC); exists c; split; [exact O|apply E4; assumption]).
  destruct (step_a2 _ _ _ _ _ _ _ N4) as (L5 & E5 & T5). set (a2' := shrink_lo _ a2 b2) in *.
  assert (N5 : exists c, occ h c = true /\ ib a0' b0' a1' b1' a2' b2 c) by (destruct N4 as (c & O & IC); exists c; split; [exact O|apply E5; assumption]).
  destruct (step_b2 _ _ _ _ _ _ _ N5) as (L6 & E6 & T6). set (b2' := shrink_hi _ a2' b2) in *.
  cbv zeta in L1, L2, L3, L4, L5, L6. 
  assert (A : forall c, occ h c = true -> (ib a0 b0 a1 b1 a2 b2 c <-> ib a0' b0' a1' b1' a2' b2' c)).
  { intros c O. rewrite (E1 c O), (E2 c O), (E3 c O), (E4 c O), (E5 c O), (E6 c O). tauto. }
  eexists. split; [reflexivity|]. split; [|exact A].
  assert (W : forall c x0 y0 x1 y1 x2 y2, occ h c = true -> ib x0 y0 x1 y1 x2 y2 c -> a0 <= x0 -> y0 <= b0 -> a1 <= x1 -> y1 <= b1 -> a2 <= x2 -> y2 <= b2 -> ib a0' b0' a1' b1' a2' b2' c).
  { intros [[x y] z] x0 y0 x1 y1 x2 y2 O IC. intros. apply A; [exact O|]. unfold ib in *. lia. }
  constructor; unfold inb, fits; cbn [c0min c0max c1min c1max c2min c2max volume colorcount].
  - unfold inh in *. lia.
  - destruct T1 as (c & O & T). exists c. split; [exact O|]. split; [apply (W _ _ _ _ _ _ _ O T); lia|]. destruct c as [[x y] z]. unfold ib in T. cbn [fst snd]. lia.
  - destruct T2 as (c & O & T). exists c. split; [exact O|]. split; [apply (W _ _ _ _ _ _ _ O T); lia|]. destruct c as [[x y] z]. unfold ib in T. cbn [fst snd]. lia.
  - destruct T3 as (c & O & T). exists c. split; [exact O|]. split; [apply (W _ _ _ _ _ _ _ O T); lia|]. destruct c as [[x y] z]. unfold ib in T. cbn [fst snd]. lia.
  - destruct T4 as (c & O & T). exists c. split; [exact O|]. split; [apply (W _ _ _ _ _ _ _ O T); lia|]. destruct c as [[x y] z]. unfold ib in T. cbn [fst snd]. lia.
  - destruct T5 as (c & O & T). exists c. split; [exact O|]. split; [apply (W _ _ _ _ _ _ _ O T); lia|]. destruct c as [[x y] z]. unfold ib in T. cbn [fst snd]. lia.
  - destruct T6 as (c & O & T). exists c. split; [exact O|]. split; [apply (W _ _ _ _ _ _ _ O T); lia|]. destruct c as [[x y] z]. unfold ib in T. cbn [fst snd]. lia.
  - reflexivity.
  - reflexivity.
Qed.

(* ---- splitting ---- *)
Definition scales_pos (s : scales) : Prop := 1 <= C0_SCALE s /\ 1 <= C1_SCALE s /\ 1 <= C2_SCALE s.
Lemma good_le : forall s h b, good s h b -> c0min b <= c0max b /\ c1min b <= c1max b /\ c2min b <= c2max b.
Proof. intros s h b G. destruct (g_a0 _ _ _ G) as ([[x y] z] & _ & IB & _). unfold inb, ib in IB. lia. Qed.
Lemma widths : forall s b, scales_pos s -> c0min b <= c0max b -> c1min b <= c1max b -> c2min b <= c2max b ->
  (0 <= width0 s b /\ (width0 s b = 0 <-> c0min b = c0max b)) /\ (0 <= width1 s b /\ (width1 s b = 0 <-> c1min b = c1max b)) /\ (0 <= width2 s b /\ (width2 s b = 0 <-> c2min b = c2max b)).
Proof.
  intros s b (P0 & P1 & P2) L0 L1 L2. unfold width0, width1, width2, C0_SHIFT, C1_SHIFT, C2_SHIFT. rewrite !Z.shiftl_mul_pow2 by lia. change (2 ^ 3) with 8. change (2 ^ 2) with 4.
  split; [|split]; (split; [nia|split; intros; nia]).
Qed.
Lemma volume_pos : forall s h b, scales_pos s -> good s h b ->
  0 <= volume b /\ (volume b = 0 <-> c0min b = c0max b /\ c1min b = c1max b /\ c2min b = c2max b).
Proof.
  intros s h b SP G. destruct (good_le _ _ _ G) as (L0 & L1 & L2). destruct (widths s b SP L0 L1 L2) as ((A0 & B0) & (A1 & B1) & (A2 & B2)).
  rewrite (g_vol _ _ _ G). split; [nia|]. split.
  - intros E. split; [apply B0; nia|]. split; [apply B1; nia|apply B2; nia].
  - intros (E0 & E1 & E2). apply B0 in E0. apply B1 in E1. apply B2 in E2. rewrite E0, E1, E2. reflexivity.
Qed.
Lemma axis_ok : forall s h rgb b, scales_pos s -> good s h b -> 0 < volume b ->
  (split_axis s rgb b = 0 /\ c0min b < c0max b) \/ (split_axis s rgb b = 1 /\ c1min b < c1max b) \/ (split_axis s rgb b = 2 /\ c2min b < c2max b).
Proof.
  intros s h rgb b SP G V. destruct (good_le _ _ _ G) as (L0 & L1 & L2). destruct (widths s b SP L0 L1 L2) as ((A0 & B0) & (A1 & B1) & (A2 & B2)).
  rewrite (g_vol _ _ _ G) in V. unfold split_axis. fold (width0 s b) (width1 s b) (width2 s b).
  assert (W : 0 < width0 s b \/ 0 < width1 s b \/ 0 < width2 s b) by nia.
  destruct rgb.
  - destruct (Z.ltb_spec (width1 s b) (width0 s b)).
    + destruct (Z.ltb_spec (width0 s b) (width2 s b)); [right; right|left]; split; (reflexivity || lia).
    + destruct (Z.ltb_spec (width1 s b) (width2 s b)); [right; right|right; left]; split; (reflexivity || lia).
  - destruct (Z.ltb_spec (width1 s b) (width2 s b)).
    + destruct (Z.ltb_spec (width2 s b) (width0 s b)); [left|right; right]; split; (reflexivity || lia).
    + destruct (Z.ltb_spec (width1 s b) (width0 s b)); [left|right; left]; split; (reflexivity || lia).
Qed.
Lemma quot_mid : forall a b, 0 <= a -> a < b -> a <= Z.quot (b + a) 2 < b.
Proof. intros a b Ha Hb. rewrite Z.quot_div_nonneg by lia. pose proof (Z.div_mod (b + a) 2 ltac:(lia)). pose proof (Z.mod_pos_bound (b + a) 2 ltac:(lia)). lia. Qed.
Lemma split_ok : forall s h rgb b, scales_pos s -> good s h b -> 0 < volume b ->
  exists x y, split_box s rgb b = (x, y) /\ fits x /\ fits y /\ nonempty h x /\ nonempty h y /\
    forall c, (inb b c <-> inb x c \/ inb y c) /\ ~ (inb x c /\ inb y c).
Proof.
  intros s h rgb b SP G V. pose proof (axis_ok s h rgb b SP G V) as A. pose proof (good_le _ _ _ G) as L. pose proof (g_fits _ _ _ G) as F.
  destruct (g_a0 _ _ _ G) as (p0 & Op0 & Ip0 & Ep0). destruct (g_b0 _ _ _ G) as (q0 & Oq0 & Iq0 & Eq0).
  destruct (g_a1 _ _ _ G) as (p1 & Op1 & Ip1 & Ep1). destruct (g_b1 _ _ _ G) as (q1 & Oq1 & Iq1 & Eq1).
  destruct (g_a2 _ _ _ G) as (p2 & Op2 & Ip2 & Ep2). destruct (g_b2 _ _ _ G) as (q2 & Oq2 & Iq2 & Eq2).
  clear G V. destruct b as [a0 b0 a1 b1 a2 b2 v cc]. unfold split_box, nonempty, fits, inb, inh in *. cbn [c0min c0max c1min c1max c2min c2max] in *.
  destruct A as [(E & K)|[(E & K)|(E & K)]]; rewrite E; cbn [Z.eqb]; clear E.
  - pose proof (quot_mid a0 b0 ltac:(lia) K) as Q. set (lb := Z.quot (b0 + a0) 2) in *. clearbody lb. eexists _, _. split; [reflexivity|]. cbn [c0min c0max c1min c1max c2min c2max].
    split; [lia|]. split; [lia|]. split; [exists p0; split; [exact Op0|]; destruct p0 as [[x y] z]; unfold ib in *; cbn [fst snd] in *; lia|]. split; [exists q0; split; [exact Oq0|]; destruct q0 as [[x y] z]; unfold ib in *; cbn [fst snd] in *; lia|].
    intros [[x y] z]. unfold ib. lia.
  - pose proof (quot_mid a1 b1 ltac:(lia) K) as Q. set (lb := Z.quot (b1 + a1) 2) in *. clearbody lb. eexists _, _. split; [reflexivity|]. cbn [c0min c0max c1min c1max c2min c2max].
    split; [lia|]. split; [lia|]. split; [exists p1; split; [exact Op1|]; destruct p1 as [[x y] z]; unfold ib in *; cbn [fst snd] in *; lia|]. split; [exists q1; split; [exact Oq1|]; destruct q1 as [[x y] z]; unfold ib in *; cbn [fst snd] in *; lia|].
    intros [[x y] z]. unfold ib. lia.
  - pose proof (quot_mid a2 b2 ltac:(lia) K) as Q. set (lb := Z.quot (b2 + a2) 2) in *. clearbody lb. eexists _, _. split; [reflexivity|]. cbn [c0min c0max c1min c1max c2min c2max].
    split; [lia|]. split; [lia|]. split; [exists p2; split; [exact Op2|]; destruct p2 as [[x y] z]; unfold ib in *; cbn [fst snd] in *; lia|]. split; [exists q2; split; [exact Oq2|]; destruct q2 as [[x y] z]; unfold ib in *; cbn [fst snd] in *; lia|].
    intros [[x y] z]. unfold ib. lia.
Qed.
Lemma halves : forall s h rgb b, scales_pos s -> good s h b -> 0 < volume b ->
  exists x y x' y', split_box s rgb b = (x, y) /\ update_box s h x = Ret x' /\ update_box s h y = Ret y' /\ good s h x' /\ good s h y' /\
    Permutation (bcells h x' ++ bcells h y') (bcells h b).
Proof.
  intros s h rgb b SP G V. destruct (split_ok s h rgb b SP G V) as (x & y & E & Fx & Fy & Nx & Ny & C).
  destruct (update_box_ok s h x Fx Nx) as (x' & Ux & Gx & Cx). destruct (update_box_ok s h y Fy Ny) as (y' & Uy & Gy & Cy).
  exists x, y, x', y'. split; [exact E|]. split; [exact Ux|]. split; [exact Uy|]. split; [exact Gx|]. split; [exact Gy|].
  apply NoDup_Permutation.
  - apply nodup_app; [apply nodup_bcells|apply nodup_bcells|]. intros c H1 H2. apply bcells_in in H1, H2. destruct H1 as (O & H1). destruct H2 as (_ & H2). apply (proj2 (C c)). rewrite (Cx c O), (Cy c O). tauto.
  - apply nodup_bcells.
  - intros c. rewrite in_app_iff, !bcells_in. split.
    + intros [(O & H)|(O & H)]; (split; [exact O|]); apply (proj1 (C c)); [left; apply Cx; assumption|right; apply Cy; assumption].
    + intros (O & H). apply (proj1 (C c)) in H. destruct H as [H|H]; [left; split; [exact O|apply Cx; assumption]|right; split; [exact O|apply Cy; assumption]].
Qed.

(* ---- choosing ---- *)
Lemma biggest_none : forall key ok bs i, biggest key ok bs i 0 None = None -> Forall (fun b => (0 <? key b) && ok b = false) bs.
Proof.
  assert (K : forall key ok bs i m w, biggest key ok bs i m (Some w) <> None).
  { induction bs as [|b bs IH]; intros i m w; cbn [biggest]; [discriminate|]. destruct ((m <? key b) && ok b); apply IH. }
  induction bs as [|b bs IH]; intros i H; [constructor|]. cbn [biggest] in H. destruct ((0 <? key b) && ok b) eqn:E; [elim (K _ _ _ _ _ _ H)|]. constructor; [exact E|apply (IH _ H)].
Qed.
Lemma biggest_some : forall key ok all bs i m w j, 0 <= m -> (forall k, nth_error all (i + k) = nth_error bs k) ->
  (forall w', w = Some w' -> exists b, nth_error all w' = Some b /\ 0 < key b /\ ok b = true) ->
  biggest key ok bs i m w = Some j -> exists b, nth_error all j = Some b /\ 0 < key b /\ ok b = true.
Proof.
  induction bs as [|b bs IH]; intros i m w j Hm HA HW H; cbn [biggest] in H; [apply HW; exact H|].
  assert (HA' : forall k, nth_error all (S i + k) = nth_error bs k) by (intros k; pose proof (HA (S k)) as X; rewrite <- plus_n_Sm in X; exact X).
  destruct ((m <? key b) && ok b) eqn:E.
  - apply andb_true_iff in E. destruct E as (E1 & E2). apply Z.ltb_lt in E1. apply (IH (S i) (key b) (Some i) j ltac:(lia) HA') in H; [exact H|]. intros w' Ew. injection Ew as <-. exists b. split; [specialize (HA 0%nat); rewrite Nat.add_0_r in HA; exact HA|]. split; [lia|exact E2].
  - exact (IH (S i) m w j Hm HA' HW H).
Qed.

(* ---- the loop ---- *)
Definition groups (h : hist) (bs : list box) : list (list (Z * Z * Z)) := map (bcells h) bs.
Lemma split_at : forall {A} (l : list A) i x, nth_error l i = Some x -> exists p q, l = p ++ x :: q /\ length p = i.
Proof. intros A l i x H. apply nth_error_split in H. exact H. Qed.
Lemma upd_mid : forall {A} (a : list A) x b y, upd (a ++ x :: b) (length a) y = a ++ y :: b.
Proof. intros A a x b y. induction a as [|h a IH]; cbn; [reflexivity|f_equal; exact IH]. Qed.
Lemma median_cut_ok : forall s rgb h desired, scales_pos s -> forall n bs, Forall (good s h) bs ->
  exists bs', median_cut s rgb h desired n bs = Ret bs' /\ Forall (good s h) bs' /\ Permutation (concat (groups h bs')) (concat (groups h bs)) /\
    (length bs' = (length bs + n)%nat \/ (Forall (fun b => volume b = 0) bs' /\ (length bs' <= length bs + n)%nat)).
Proof.
  intros s rgb h desired SP. induction n as [|n IH]; intros bs G; cbn [median_cut].
  - exists bs. split; [reflexivity|]. split; [exact G|]. split; [apply Permutation_refl|]. left. lia.
  - assert (PICK : forall j, (if Z.of_nat (length bs) * 2 <=? desired then find_biggest_color_pop bs else find_biggest_volume bs) = Some j -> exists b, nth_error bs j = Some b /\ 0 < volume b).
    { intros j H. destruct (Z.of_nat (length bs) * 2 <=? desired).
      - destruct (biggest_some colorcount (fun b => 0 <? volume b) bs bs 0%nat 0 None j ltac:(lia) (fun k => eq_refl) ltac:(discriminate) H) as (b & N & _ & V). exists b. split; [exact N|]. apply Z.ltb_lt. exact V.
      - destruct (biggest_some volume (fun _ => true) bs bs 0%nat 0 None j ltac:(lia) (fun k => eq_refl) ltac:(discriminate) H) as (b & N & V & _). exists b. split; [exact N|exact V]. }
    destruct (if Z.of_nat (length bs) * 2 <=? desired then find_biggest_color_pop bs else find_biggest_volume bs) as [j|] eqn:E.
    + destruct (PICK j eq_refl) as (b & Nb & V). rewrite Nb. destruct (split_at bs j b Nb) as (p & q & -> & Lp).
      apply Forall_app in G. destruct G as (Gp & Gq). inversion Gq as [|? ? Gb Gq']; subst.
      destruct (halves s h rgb b SP Gb V) as (x & y & x' & y' & -> & -> & Ux & Gx & Gy & P). cbn [bind]. rewrite Ux. cbn [bind].
      rewrite upd_mid. destruct (IH ((p ++ x' :: q) ++ [y'])) as (bs' & -> & G' & P' & L').
      { apply Forall_app. split; [apply Forall_app; split; [exact Gp|constructor; assumption]|constructor; [exact Gy|constructor]]. }
      exists bs'. split; [reflexivity|]. split; [exact G'|]. split.
      * apply (Permutation_trans P'). unfold groups. rewrite !map_app, !concat_app. cbn [map concat]. rewrite app_nil_r.
        rewrite <- !app_assoc. apply Permutation_app_head.
        apply (Permutation_trans (l' := bcells h x' ++ bcells h y' ++ concat (map (bcells h) q))).
        { apply Permutation_app_head. apply Permutation_app_comm. }
        rewrite app_assoc. apply Permutation_app_tail. exact P.
      * destruct L' as [L'|(Z0 & L')]; [left|right; split; [exact Z0|]]; repeat (rewrite ?app_length in *; cbn [length] in *); lia.
    + exists bs. split; [reflexivity|]. split; [exact G|]. split; [apply Permutation_refl|]. right. split; [|lia].
      destruct (Z.of_nat (length bs) * 2 <=? desired).
      * pose proof (biggest_none _ _ _ _ E) as K. rewrite Forall_forall in K, G |- *. intros b Hb. specialize (K b Hb). specialize (G b Hb).
        apply andb_false_iff in K. destruct (volume_pos s h b SP G) as (V & _). destruct K as [K|K].
        { apply Z.ltb_ge in K. rewrite (g_cnt _ _ _ G) in K. destruct (g_a0 _ _ _ G) as (c & O & IB & _). assert (X : In c (bcells h b)) by (apply bcells_in; split; assumption). destruct (bcells h b); [destruct X|cbn [length] in K; lia]. }
        apply Z.ltb_ge in K. lia.
      * pose proof (biggest_none _ _ _ _ E) as K. rewrite Forall_forall in K, G |- *. intros b Hb. specialize (K b Hb). specialize (G b Hb).
        destruct (volume_pos s h b SP G) as (V & _). rewrite andb_true_r in K. apply Z.ltb_ge in K. lia.
Qed.
Lemma single_cell : forall s h b, scales_pos s -> good s h b -> volume b = 0 -> length (bcells h b) = 1%nat.
Proof.
  intros s h b SP G V. apply (proj2 (volume_pos s h b SP G)) in V. destruct (g_a0 _ _ _ G) as (c & O & IB & _).
  assert (X : In c (bcells h b)) by (apply bcells_in; split; assumption). pose proof (nodup_bcells h b) as ND.
  assert (U : forall d, In d (bcells h b) -> d = c).
  { intros [[x y] z] Hd. apply bcells_in in Hd. destruct Hd as (_ & Hd). destruct c as [[u v] w]. unfold inb, ib in *. f_equal; [f_equal; lia|lia]. }
  destruct (bcells h b) as [|d [|e l]]; [destruct X|reflexivity|]. inversion ND as [|? ? Nd _]; subst. elim Nd. rewrite (U d (or_introl eq_refl)), (U e (or_intror (or_introl eq_refl))). left. reflexivity.
Qed.
Lemma group_nonempty : forall s h b, good s h b -> bcells h b <> [].
Proof. intros s h b G E. destruct (g_a0 _ _ _ G) as (c & O & IB & _). assert (X : In c (bcells h b)) by (apply bcells_in; split; assumption). rewrite E in X. destruct X. Qed.
Lemma concat_length_ge : forall {A} (l : list (list A)), Forall (fun g => g <> []) l -> (length l <= length (concat l))%nat.
Proof.
  intros A l H. induction H as [|g l Hg H IH]; [cbn; lia|]. cbn [concat length]. rewrite app_length. destruct g; [congruence|]. cbn [length]. lia.
Qed.
Lemma concat_length_1 : forall {A} (l : list (list A)), Forall (fun g => length g = 1%nat) l -> length (concat l) = length l.
Proof. intros A l H. induction H as [|g l Hg H IH]; [reflexivity|]. cbn [concat length]. rewrite app_length, Hg, IH. reflexivity. Qed.

(* ---- the colour of a box ---- *)
Lemma zsum_shift : forall l a, fold_left Z.add l a = a + fold_left Z.add l 0.
Proof. induction l as [|x l IH]; intros a; cbn [fold_left]; [lia|]. rewrite (IH (a + x)), (IH (0 + x)). lia. Qed.
Lemma zsum_total : forall f g l, (forall c, In c l -> g c = f c) -> zsum (map g l) = total f l.
Proof.
  intros f g l. unfold zsum. induction l as [|c l IH]; intros H; [reflexivity|]. cbn [map fold_left total]. rewrite zsum_shift, IH by (intros d Hd; apply H; right; exact Hd). rewrite H by (left; reflexivity). lia.
Qed.
Lemma total_bound : forall (w f : Z * Z * Z -> Z) l, (forall c, In c l -> 1 <= w c /\ 0 <= f c <= 255) -> 0 <= total (fun c => f c * w c) l <= 255 * total w l.
Proof.
  intros w f l. induction l as [|c l IH]; intros H; cbn [total]; [lia|]. specialize (IH (fun d Hd => H d (or_intror Hd))). pose proof (H c (or_introl eq_refl)). nia.
Qed.
Lemma total_pos : forall (w : Z * Z * Z -> Z) l, (forall c, In c l -> 1 <= w c) -> Z.of_nat (length l) <= total w l.
Proof.
  intros w l. induction l as [|c l IH]; intros H; cbn [total length]; [lia|]. specialize (IH (fun d Hd => H d (or_intror Hd))). pose proof (H c (or_introl eq_refl)). lia.
Qed.
Lemma rdiv_half : forall t m, 0 < m -> 0 <= t -> (t + Z.shiftr m 1) / m = rdiv t m.
Proof.
  intros t m Hm Ht. unfold rdiv. rewrite Z.shiftr_div_pow2 by lia. change (2 ^ 1) with 2.
  pose proof (Z.div_mod m 2 ltac:(lia)). pose proof (Z.mod_pos_bound m 2 ltac:(lia)). set (q := m / 2) in *. set (e := m mod 2) in *. clearbody q e.
  pose proof (Z.div_mod (2 * t + m) (2 * m) ltac:(lia)) as D. pose proof (Z.mod_pos_bound (2 * t + m) (2 * m) ltac:(lia)) as R0. set (Q := (2 * t + m) / (2 * m)) in *. set (R := (2 * t + m) mod (2 * m)) in *. clearbody Q R.
  symmetry. apply (Z.div_unique _ _ Q (t + q - m * Q)); [left|lia]. rewrite <- Z.mul_assoc in D. set (p := m * Q) in *. clearbody p. lia.
Qed.
Lemma rdiv_bound : forall t m, 0 < m -> 0 <= t <= 255 * m -> 0 <= rdiv t m <= 255.
Proof. intros t m Hm Ht. unfold rdiv. split; [apply Z.div_pos; lia|]. apply Z.lt_succ_r. apply Z.div_lt_upper_bound; lia. Qed.
Lemma compute_color_ok : forall h w b, bcells h b <> [] -> (forall c, In c (bcells h b) -> 1 <= w c /\ hc h c = w c /\ inh c) ->
  compute_color h b = Ret (mean w (bcells h b)) /\ colour (mean w (bcells h b)).
Proof.
  intros h w b NE H. unfold compute_color. fold (bcells h b). set (l := bcells h b) in *. clearbody l.
  assert (T : zsum (map (fun '(c0, c1, c2) => h c0 c1 c2) l) = total w l) by (apply zsum_total; intros [[x y] z] Hc; apply (H _ Hc)).
  assert (B0 : forall c, In c l -> 1 <= w c /\ 0 <= fst (fst (centre c)) <= 255) by (intros [[x y] z] Hc; pose proof (H _ Hc) as (A & _ & B); unfold inh in B; unfold centre; cbn [fst snd]; lia).
  assert (B1 : forall c, In c l -> 1 <= w c /\ 0 <= snd (fst (centre c)) <= 255) by (intros [[x y] z] Hc; pose proof (H _ Hc) as (A & _ & B); unfold inh in B; unfold centre; cbn [fst snd]; lia).
  assert (B2 : forall c, In c l -> 1 <= w c /\ 0 <= snd (centre c) <= 255) by (intros [[x y] z] Hc; pose proof (H _ Hc) as (A & _ & B); unfold inh in B; unfold centre; cbn [fst snd]; lia).
  apply total_bound in B0, B1, B2.
  assert (T0 : zsum (map (fun '(c0, c1, c2) => (Z.shiftl c0 C0_SHIFT + Z.shiftr (Z.shiftl 1 C0_SHIFT) 1) * h c0 c1 c2) l) = total (fun c => fst (fst (centre c)) * w c) l).
  { apply zsum_total. intros [[x y] z] Hc. pose proof (H _ Hc) as (_ & A & _). unfold hc in A. rewrite A. unfold centre, C0_SHIFT. cbn [fst snd]. rewrite Z.shiftl_mul_pow2 by lia. change (Z.shiftr (Z.shiftl 1 3) 1) with 4. change (2 ^ 3) with 8. lia. }
  assert (T1 : zsum (map (fun '(c0, c1, c2) => (Z.shiftl c1 C1_SHIFT + Z.shiftr (Z.shiftl 1 C1_SHIFT) 1) * h c0 c1 c2) l) = total (fun c => snd (fst (centre c)) * w c) l).
  { apply zsum_total. intros [[x y] z] Hc. pose proof (H _ Hc) as (_ & A & _). unfold hc in A. rewrite A. unfold centre, C1_SHIFT. cbn [fst snd]. rewrite Z.shiftl_mul_pow2 by lia. change (Z.shiftr (Z.shiftl 1 2) 1) with 2. change (2 ^ 2) with 4. lia. }
  assert (T2 : zsum (map (fun '(c0, c1, c2) => (Z.shiftl c2 C2_SHIFT + Z.shiftr (Z.shiftl 1 C2_SHIFT) 1) * h c0 c1 c2) l) = total (fun c => snd (centre c) * w c) l).
  { apply zsum_total. intros [[x y] z] Hc. pose proof (H _ Hc) as (_ & A & _). unfold hc in A. rewrite A. unfold centre, C2_SHIFT. cbn [fst snd]. rewrite Z.shiftl_mul_pow2 by lia. change (Z.shiftr (Z.shiftl 1 3) 1) with 4. change (2 ^ 3) with 8. lia. }
  rewrite T, T0, T1, T2.
  assert (P : 1 <= total w l). { pose proof (total_pos w l (fun c Hc => proj1 (H c Hc))). destruct l; [congruence|]. cbn [length] in *. lia. }
  rewrite (proj2 (Z.eqb_neq _ _)) by lia. rewrite !rdiv_half by lia.
  pose proof (rdiv_bound _ (total w l) ltac:(lia) B0) as R0. pose proof (rdiv_bound _ (total w l) ltac:(lia) B1) as R1. pose proof (rdiv_bound _ (total w l) ltac:(lia) B2) as R2.
  unfold u8. rewrite !Z.mod_small by (change (2 ^ 8) with 256; lia). split; [reflexivity|]. unfold mean, colour, sample. cbv zeta. lia.
Qed.
Lemma compute_colors_ok : forall h w bs, Forall (fun b => bcells h b <> [] /\ forall c, In c (bcells h b) -> 1 <= w c /\ hc h c = w c /\ inh c) bs ->
  compute_colors h bs = Ret (map (mean w) (groups h bs)) /\ Forall colour (map (mean w) (groups h bs)).
Proof.
  intros h w bs H. induction H as [|b bs (N & Hb) H IH]; [split; [reflexivity|constructor]|]. destruct IH as (E & F). destruct (compute_color_ok h w b N Hb) as (E1 & F1).
  cbn [compute_colors groups map]. rewrite E1, E. cbn [bind]. split; [reflexivity|]. constructor; assumption.
Qed.
