(* P_Mem.v -- invariant of the memory manager. *)
From Verif Require Import Base M_Mem.
From Coq Require Import Permutation Znumtheory.

(* ---- lists whose elements are pairwise related ---- *)
Fixpoint pairwise {A} (R : A -> A -> Prop) (l : list A) : Prop :=
  match l with [] => True | x :: l => Forall (R x) l /\ pairwise R l end.
Section Pw.
Context {A : Type} (R : A -> A -> Prop).
Hypothesis Rsym : forall x y, R x y -> R y x.
Lemma pw_perm l l' : Permutation l l' -> pairwise R l -> pairwise R l'.
Proof.
  induction 1 as [|x l l' P IH|x y l|l1 l2 l3 P1 IH1 P2 IH2]; intros H.
  - exact I.
  - destruct H as [H1 H2]. split; [|auto]. now rewrite <- P.
  - destruct H as [H1 [H2 H3]]. inversion H1; subst. split; [constructor; auto|]. split; assumption.
  - auto.
Qed.
Lemma pw_in l x y : pairwise R l -> In x l -> In y l -> x = y \/ R x y.
Proof.
  induction l as [|z l IH]; intros H Hx Hy; [destruct Hx|]. destruct H as [H1 H2]. rewrite Forall_forall in H1.
  destruct Hx as [<- |Hx], Hy as [<- |Hy]; auto.
Qed.
Lemma pw_app l1 l2 : pairwise R (l1 ++ l2) -> pairwise R l1 /\ pairwise R l2.
Proof.
  induction l1 as [|x l1 IH]; intros H; [split; [exact I|exact H]|]. destruct H as [H1 H2]. apply Forall_app in H1. destruct H1.
  destruct (IH H2). split; [split; assumption|assumption].
Qed.
Lemma pw_filter f l : pairwise R l -> pairwise R (filter f l).
Proof.
  induction l as [|x l IH]; intros H; [exact I|]. destruct H as [H1 H2]. cbn [filter]. destruct (f x); [|auto].
  split; [|auto]. rewrite Forall_forall in *. intros y Hy. apply filter_In in Hy. now apply H1.
Qed.
End Pw.
Lemma pw_map {A B} (R : B -> B -> Prop) (f : A -> B) l : pairwise R (map f l) -> pairwise (fun x y => R (f x) (f y)) l.
Proof.
  induction l as [|x l IH]; intros H; [exact I|]. destruct H as [H1 H2]. split; [|auto]. rewrite Forall_map in H1. exact H1.
Qed.

(* ---- blocks ---- *)
Definition apart (b c : Z * Z) : Prop := fst b + snd b <= fst c \/ fst c + snd c <= fst b.
Lemma apart_sym b c : apart b c -> apart c b. Proof. unfold apart. lia. Qed.
Definition block_ok (b : Z * Z) : Prop := 0 < fst b /\ 0 < snd b /\ fst b + snd b < SIZE_MAX1.
Definition heap_ok (h : list (Z * Z)) : Prop := pairwise apart h /\ Forall block_ok h.
Lemma heap_ok_perm h h' : Permutation h h' -> heap_ok h -> heap_ok h'.
Proof. intros P [H1 H2]. split; [exact (pw_perm apart apart_sym _ _ P H1)|now rewrite <- P]. Qed.

Lemma malloc_spec n s r s' : malloc n s = (r, s') -> 0 < n -> heap_ok (heap s) ->
  smalls s' = smalls s /\ larges s' = larges s /\ total s' = total s /\ ctl s' = ctl s /\ objs s' = objs s /\
  match r with
  | Some a => heap s' = (a, n) :: heap s /\ heap_ok (heap s')
  | None => heap s' = heap s
  end.
Proof.
  intros E Hn [H1 H2]. unfold malloc in E. destruct (orc s) as [|[a|] o]; try (injection E as <- <-; cbn; auto 8; fail).
  destruct (_ && _) eqn:B; injection E as <- <-; cbn; [|auto 8]. do 5 (split; [reflexivity|]). split; [reflexivity|].
  apply andb_prop in B. destruct B as [B B3]. apply andb_prop in B. destruct B as [B1 B2].
  split; [split; [|assumption]|constructor; [|assumption]].
  - rewrite forallb_forall in B3. apply Forall_forall. intros b Hb. specialize (B3 b Hb). apply negb_true_iff in B3. unfold overlap in B3. unfold apart. cbn [fst snd].
    apply andb_false_iff in B3. destruct B3 as [B3|B3]; apply Z.ltb_ge in B3; lia.
  - split; cbn [fst snd]; lia.
Qed.

Lemma remove_ok a n h : heap_ok h -> In (a, n) h -> exists h', remove_block a h = Some h' /\ Permutation h ((a, n) :: h').
Proof.
  intros H. induction h as [|b h IH]; intros Hi; [destruct Hi|]. cbn [remove_block].
  destruct (Z.eqb_spec (fst b) a) as [E|E].
  - exists h. split; [reflexivity|]. destruct Hi as [<- |Hi]; [reflexivity|]. exfalso.
    destruct H as [[H1 _] H2]. rewrite Forall_forall in H1. specialize (H1 _ Hi). inversion H2 as [|? ? B1 B2]; subst. rewrite Forall_forall in B2. specialize (B2 _ Hi).
    unfold apart, block_ok in *. cbn [fst snd] in *. lia.
  - destruct Hi as [-> |Hi]; [cbn in E; congruence|]. destruct IH as (h' & E' & P); [destruct H as [[_ H1] H2]; inversion H2; split; assumption|assumption|].
    rewrite E'. exists (b :: h'). split; [reflexivity|]. rewrite P. apply perm_swap.
Qed.

(* ---- the pools ---- *)
Lemma sel_put {A} pool (x : A * A) y : sel pool (put pool x y) = y.
Proof. unfold sel, put. destruct (pool =? 0); reflexivity. Qed.
Lemma put_put {A} pool (x : A * A) y z : put pool (put pool x y) z = put pool x z.
Proof. unfold put. destruct (pool =? 0); reflexivity. Qed.
Lemma put_sel {A} pool (x : A * A) : put pool x (sel pool x) = x.
Proof. unfold sel, put. destruct x, (pool =? 0); reflexivity. Qed.
Lemma sel_other {A} pool q (x : A * A) y : (pool = 0 \/ pool = 1) -> (q = 0 \/ q = 1) -> q <> pool -> sel q (put pool x y) = sel q x.
Proof. intros [-> | ->] [-> | ->] N; try congruence; reflexivity. Qed.

Section Al.
Variable al : Z.
Hypothesis Hal : exists k, 3 <= k <= 6 /\ al = 2 ^ k.
Lemma al_pos : 8 <= al <= 64.
Proof. destruct Hal as (k & Hk & ->). assert (k = 3 \/ k = 4 \/ k = 5 \/ k = 6) as [-> |[-> |[-> | ->]]] by lia; lia. Qed.

Definition size_of (p : phdr) : Z := p_used p + p_left p + HDR + al - 1.
Definition block (p : phdr) : Z * Z := (p_addr p, size_of p).
Definition both (x : list phdr * list phdr) : list phdr := fst x ++ snd x.
Definition pools (s : mst) : list phdr := both (smalls s) ++ both (larges s).
Definition bsum (h : list (Z * Z)) : Z := fold_right (fun b a => snd b + a) 0 h.

Definition pool_ok (p : phdr) : Prop := 0 <= p_used p /\ 0 <= p_left p /\ (al | p_used p).
Definition in_pool (s : mst) (o : obj) (p : phdr) : Prop :=
  In p (sel (o_pool o) (smalls s) ++ sel (o_pool o) (larges s)) /\ p_addr p = o_base o /\
  data_ptr al (p_addr p) <= o_addr o /\ o_addr o + o_size o <= data_ptr al (p_addr p) + p_used p.
Definition obj_ok (s : mst) (o : obj) : Prop :=
  (o_pool o = 0 \/ o_pool o = 1) /\ 0 <= o_size o /\ (al | o_addr o) /\ exists p, in_pool s o p.
Definition oapart (o o' : obj) : Prop := o_addr o + o_size o <= o_addr o' \/ o_addr o' + o_size o' <= o_addr o.
Lemma oapart_sym o o' : oapart o o' -> oapart o' o. Proof. unfold oapart. lia. Qed.

Record Inv (others : list (Z * Z)) (s : mst) : Prop := mkInv {
  I_heap : Permutation (heap s) (others ++ (ctl s, MGR) :: map block (pools s));
  I_ok : heap_ok (heap s);
  I_pool : Forall pool_ok (pools s);
  I_obj : Forall (obj_ok s) (objs s);
  I_apart : pairwise oapart (objs s);
  I_total : total s = (MGR + bsum (map block (pools s))) mod 2 ^ 64 }.

Lemma both_put pool (x : list phdr * list phdr) : exists R, forall l, Permutation (both (put pool x l)) (l ++ R).
Proof.
  unfold both, put. destruct (pool =? 0); cbn [fst snd].
  - exists (snd x). reflexivity.
  - exists (fst x). intros l. apply Permutation_app_comm.
Qed.
Lemma pools_small s pool : exists R, (forall l, Permutation (pools (set_small s pool l)) (l ++ R)) /\ Permutation (pools s) (sel pool (smalls s) ++ R).
Proof.
  destruct (both_put pool (smalls s)) as (R & HR). exists (R ++ both (larges s)).
  assert (G : forall l, Permutation (pools (set_small s pool l)) (l ++ R ++ both (larges s))).
  { intros l. unfold pools. cbn [set_small smalls larges]. rewrite HR, app_assoc. reflexivity. }
  split; [exact G|]. rewrite <- G. unfold pools. cbn [set_small smalls larges]. now rewrite put_sel.
Qed.
Lemma pools_large s pool : exists R, (forall l, Permutation (pools (set_large s pool l)) (l ++ R)) /\ Permutation (pools s) (sel pool (larges s) ++ R).
Proof.
  destruct (both_put pool (larges s)) as (R & HR). exists (R ++ both (smalls s)).
  assert (G : forall l, Permutation (pools (set_large s pool l)) (l ++ R ++ both (smalls s))).
  { intros l. unfold pools. cbn [set_large smalls larges]. rewrite HR. rewrite (app_assoc l R). apply Permutation_app_comm. }
  split; [exact G|]. rewrite <- G. unfold pools. cbn [set_large smalls larges]. now rewrite put_sel.
Qed.
Lemma sel_in_pools s pool p : In p (sel pool (smalls s) ++ sel pool (larges s)) -> In p (pools s).
Proof.
  unfold pools, both, sel. intros H. destruct (pool =? 0); rewrite !in_app_iff in *; tauto.
Qed.
Lemma bsum_perm h h' : Permutation h h' -> bsum h = bsum h'.
Proof. induction 1; cbn [bsum fold_right] in *; unfold bsum in *; lia. Qed.
Lemma bsum_app h h' : bsum (h ++ h') = bsum h + bsum h'.
Proof. induction h as [|b h IH]; cbn [app bsum fold_right] in *; unfold bsum in *; lia. Qed.

(* position of the data area *)
Lemma data_spec a : let d := data_ptr al a in (al | d) /\ a + HDR <= d <= a + HDR + al - 1.
Proof.
  pose proof al_pos. unfold data_ptr. cbn zeta. set (d := a + HDR). pose proof (Z.mod_pos_bound d al ltac:(lia)) as B.
  destruct (Z.eqb_spec (d mod al) 0) as [E|E].
  - split; [apply Z.mod_divide; lia|lia].
  - split; [|lia]. exists (d / al + 1). pose proof (Z.div_mod d al ltac:(lia)). lia.
Qed.
(* an object lies inside its pool's block, after the header *)
Lemma obj_in_block s o p : Forall pool_ok (pools s) -> in_pool s o p -> p_addr p + HDR <= o_addr o /\ o_addr o + o_size o <= fst (block p) + snd (block p).
Proof.
  intros Hp (Hi & Ea & H1 & H2). rewrite Forall_forall in Hp. specialize (Hp p (sel_in_pools _ _ _ Hi)). destruct Hp as (U & L & _).
  destruct (data_spec (p_addr p)) as (_ & D). cbn zeta in D. unfold block, size_of. cbn [fst snd]. lia.
Qed.
Lemma pools_apart others s p q : Inv others s -> In p (pools s) -> In q (pools s) -> p = q \/ apart (block p) (block q).
Proof.
  intros I Hp Hq. pose proof (heap_ok_perm _ _ (I_heap _ _ I) (I_ok _ _ I)) as [W _].
  apply pw_app in W. destruct W as [_ [_ W]]. apply pw_map in W.
  exact (pw_in _ (fun x y => apart_sym (block x) (block y)) _ _ _ W Hp Hq).
Qed.
Lemma pool_addr_inj others s p q : Inv others s -> In p (pools s) -> In q (pools s) -> p_addr p = p_addr q -> p = q.
Proof.
  intros I Hp Hq E. destruct (pools_apart others s p q I Hp Hq) as [|A]; [assumption|exfalso].
  pose proof (I_pool _ _ I) as PO. rewrite Forall_forall in PO. pose proof (PO p Hp) as (U1 & L1 & _). pose proof (PO q Hq) as (U2 & L2 & _).
  pose proof al_pos. unfold apart, block, size_of, HDR in A. cbn [fst snd] in A. lia.
Qed.

(* ---- rounding ---- *)
Lemma round_up_ok a k : 0 <= k <= 30 -> 0 <= a <= 2 ^ 32 -> let r := round_up_pow2 a (2 ^ k) in (2 ^ k | r) /\ a <= r < a + 2 ^ k.
Proof.
  intros Hk Ha. assert (P : 1 <= 2 ^ k <= 2 ^ 30) by (split; [apply (Z.pow_le_mono_r 2 0 k); lia|apply Z.pow_le_mono_r; lia]).
  assert (V : (2 ^ k | Z.land (a + 2 ^ k - 1) (Z.lnot (2 ^ k - 1))) /\ a <= Z.land (a + 2 ^ k - 1) (Z.lnot (2 ^ k - 1)) < a + 2 ^ k).
  { replace (2 ^ k - 1) with (Z.ones k) by (rewrite Z.ones_equiv; lia). rewrite <- Z.ldiff_land, Z.ldiff_ones_r by lia.
    rewrite Z.shiftl_mul_pow2, Z.shiftr_div_pow2 by lia. set (b := a + 2 ^ k - 1).
    pose proof (Z.div_mod b (2 ^ k) ltac:(lia)). pose proof (Z.mod_pos_bound b (2 ^ k) ltac:(lia)).
    split; [exists (b / 2 ^ k); reflexivity|]. subst b. lia. }
  cbn zeta. replace (round_up_pow2 a (2 ^ k)) with (Z.land (a + 2 ^ k - 1) (Z.lnot (2 ^ k - 1))); [exact V|].
  unfold round_up_pow2, u64. rewrite (Z.mod_small (a + 2 ^ k - 1)) by lia. rewrite <- (Z.land_ones _ 64) by lia. rewrite Z.land_assoc.
  rewrite Z.land_ones by lia. symmetry. apply Z.mod_small. lia.
Qed.
Lemma round_al a : 0 <= a <= MAX_ALLOC_CHUNK -> let r := round_up_pow2 a al in (al | r) /\ a <= r < a + al.
Proof. intros Ha. destruct Hal as (k & Hk & ->). apply round_up_ok; unfold MAX_ALLOC_CHUNK in *; lia. Qed.

(* ---- adding a pool ---- *)
(* a freshly malloc'ed block becomes a pool with no object in it *)
Lemma inv_new_pool others s s' a n p (big : bool) pool : Inv others s -> (pool = 0 \/ pool = 1) ->
  smalls s' = smalls s -> larges s' = larges s -> total s' = total s -> ctl s' = ctl s -> objs s' = objs s ->
  heap s' = (a, n) :: heap s -> heap_ok (heap s') -> block p = (a, n) -> pool_ok p ->
  forall l1 l2, sel pool (if big then larges s else smalls s) = l1 ++ l2 ->
  Inv others (add_total (if big then set_large s' pool (l1 ++ p :: l2) else set_small s' pool (l1 ++ p :: l2)) n).
Proof.
  intros I Hpool E1 E2 E3 E4 E5 E6 HH Hb Hp l1 l2 Hl.
  set (s2 := if big then set_large s' pool (l1 ++ p :: l2) else set_small s' pool (l1 ++ p :: l2)).
  assert (PP : Permutation (pools s2) (p :: pools s)).
  { unfold s2. destruct big.
    - destruct (pools_large s' pool) as (R & HR & HR0). rewrite HR. assert (P0 : pools s = pools s') by (unfold pools; now rewrite E1, E2).
      rewrite P0, HR0, E2, Hl, <- !app_assoc. cbn [app]. symmetry. apply (Permutation_middle l1).
    - destruct (pools_small s' pool) as (R & HR & HR0). rewrite HR. assert (P0 : pools s = pools s') by (unfold pools; now rewrite E1, E2).
      rewrite P0, HR0, E1, Hl, <- !app_assoc. cbn [app]. symmetry. apply (Permutation_middle l1). }
  assert (F : heap s2 = heap s' /\ ctl s2 = ctl s' /\ total s2 = total s' /\ objs s2 = objs s') by (unfold s2; destruct big; auto).
  destruct F as (F1 & F2 & F3 & F4).
  assert (PT : pools (add_total s2 n) = pools s2) by reflexivity.
  constructor; rewrite ?PT; cbn [add_total heap ctl objs total].
  - rewrite F1, F2, E6, E4, PP. cbn [map]. rewrite Hb, (I_heap _ _ I).
    rewrite !(Permutation_middle others). apply Permutation_app_head. apply perm_swap.
  - now rewrite F1.
  - rewrite PP. constructor; [exact Hp|apply (I_pool _ _ I)].
  - rewrite F4, E5. eapply Forall_impl; [|apply (I_obj _ _ I)]. intros o (Q1 & Q2 & Q3 & q & Q4 & Q5).
    split; [exact Q1|]. split; [exact Q2|]. split; [exact Q3|]. exists q. split; [|exact Q5].
    cbn [add_total smalls larges]. apply in_app_iff in Q4. apply in_app_iff.
    unfold s2. destruct big; cbn [set_large set_small smalls larges]; rewrite ?E1, ?E2.
    + destruct Q4 as [Q4|Q4]; [now left|right]. destruct (Z.eq_dec (o_pool o) pool) as [EE|N].
      * rewrite EE in Q4 |- *. rewrite sel_put. rewrite Hl in Q4. rewrite in_app_iff in *. cbn [In]. tauto.
      * now rewrite sel_other.
    + destruct Q4 as [Q4|Q4]; [left|now right]. destruct (Z.eq_dec (o_pool o) pool) as [EE|N].
      * rewrite EE in Q4 |- *. rewrite sel_put. rewrite Hl in Q4. rewrite in_app_iff in *. cbn [In]. tauto.
      * now rewrite sel_other.
  - rewrite F4, E5. apply (I_apart _ _ I).
  - rewrite F3, E3, (I_total _ _ I). unfold u64. rewrite Zplus_mod_idemp_l. f_equal.
    rewrite (bsum_perm _ _ (Permutation_map block PP)). cbn [map]. rewrite Hb. cbn [bsum fold_right snd]. unfold bsum. lia.
Qed.

(* ---- taking space from a pool ---- *)
Definition outside (s : mst) (others : list (Z * Z)) (a n : Z) : Prop :=
  (* apart from every other live block, from the manager's own block and from every pool header *)
  Forall (fun b => apart (a, n) b) others /\ apart (a, n) (ctl s, MGR) /\ Forall (fun p => apart (a, n) (p_addr p, HDR)) (pools s).

Lemma inv_bump others s pool l1 h l2 size sz (big : bool) : Inv others s -> (pool = 0 \/ pool = 1) ->
  sel pool (if big then larges s else smalls s) = l1 ++ h :: l2 -> 0 <= size <= sz -> (al | sz) -> sz <= p_left h ->
  let h' := mkP (p_addr h) (p_used h + sz) (p_left h - sz) in
  let a := data_ptr al (p_addr h) + p_used h in
  let s' := add_obj (if big then set_large s pool (l1 ++ h' :: l2) else set_small s pool (l1 ++ h' :: l2)) (mkO pool (p_addr h) a size) in
  Inv others s' /\ (al | a) /\ In (block h) (map block (pools s)) /\ fst (block h) <= a /\ a + size <= fst (block h) + snd (block h) /\
  Forall (oapart (mkO pool (p_addr h) a size)) (objs s) /\ outside s others a size.
Proof.
  intros I Hpool Hl Hs Hsz Hleft h' a s'.
  assert (Hin : In h (sel pool (smalls s) ++ sel pool (larges s))).
  { apply in_app_iff. destruct big; rewrite Hl; [right|left]; apply in_app_iff; right; now left. }
  pose proof (sel_in_pools _ _ _ Hin) as HinP.
  pose proof (I_pool _ _ I) as PO. assert (POh : pool_ok h) by (rewrite Forall_forall in PO; now apply PO). destruct POh as (U & L & DU).
  destruct (data_spec (p_addr h)) as (D1 & D2). cbn zeta in D2. pose proof al_pos as AP.
  assert (PP : exists R, Permutation (pools s) (h :: R) /\ Permutation (pools s') (h' :: R)).
  { unfold s'. destruct big.
    - destruct (pools_large s pool) as (R & HR & HR0). exists (l1 ++ l2 ++ R). split.
      + rewrite HR0, Hl, <- app_assoc. cbn [app]. symmetry. apply Permutation_middle.
      + change (pools (add_obj ?x ?y)) with (pools x). rewrite HR, <- app_assoc. cbn [app]. symmetry. apply Permutation_middle.
    - destruct (pools_small s pool) as (R & HR & HR0). exists (l1 ++ l2 ++ R). split.
      + rewrite HR0, Hl, <- app_assoc. cbn [app]. symmetry. apply Permutation_middle.
      + change (pools (add_obj ?x ?y)) with (pools x). rewrite HR, <- app_assoc. cbn [app]. symmetry. apply Permutation_middle. }
  destruct PP as (R & PP1 & PP2).
  assert (Bh : block h' = block h) by (unfold block, size_of, h'; cbn [p_addr p_used p_left]; f_equal; lia).
  assert (PB : Permutation (map block (pools s')) (map block (pools s))) by (rewrite PP1, PP2; cbn [map]; rewrite Bh; reflexivity).
  assert (F : heap s' = heap s /\ ctl s' = ctl s /\ total s' = total s /\ objs s' = mkO pool (p_addr h) a size :: objs s) by (unfold s'; destruct big; auto).
  destruct F as (F1 & F2 & F3 & F4).
  assert (Da : (al | a)) by (apply Z.divide_add_r; assumption).
  assert (InB : p_addr h + HDR <= a /\ a + size <= fst (block h) + snd (block h)) by (unfold block, size_of; cbn [fst snd]; unfold a; lia).
  (* every pool that shares the block's address is h itself *)
  assert (OA : Forall (oapart (mkO pool (p_addr h) a size)) (objs s)).
  { apply Forall_forall. intros o Ho. pose proof (I_obj _ _ I) as IO. rewrite Forall_forall in IO. destruct (IO o Ho) as (_ & S0 & _ & q & Hq).
    pose proof (obj_in_block s o q PO Hq) as (B1 & B2). destruct Hq as (Hq & Eq & C1 & C2). pose proof (sel_in_pools _ _ _ Hq) as HqP.
    unfold oapart. cbn [o_addr o_size]. destruct (pools_apart others s h q I HinP HqP) as [<- |AA].
    - right. unfold a. lia.
    - unfold apart in AA. unfold block at 1 3 in AA. cbn [fst snd] in AA. unfold block at 1 in AA. cbn [fst] in AA. unfold block at 1 in B2. cbn [fst] in B2.
      unfold block at 1 in InB. cbn [fst] in InB. unfold HDR in *. unfold block in AA, InB, B2. cbn [fst snd] in AA, InB, B2. lia. }
  split; [|split; [exact Da|split; [now apply in_map|split; [unfold block; cbn [fst]; unfold HDR in *; lia|split; [apply InB|split; [exact OA|]]]]]].
  - constructor.
    + rewrite F1, F2, PB. apply (I_heap _ _ I).
    + rewrite F1. apply (I_ok _ _ I).
    + rewrite PP2. rewrite PP1 in PO. inversion PO; subst. constructor; [|assumption]. unfold pool_ok, h'. cbn [p_used p_left].
      split; [lia|]. split; [lia|]. now apply Z.divide_add_r.
    + rewrite F4. constructor.
      * split; [exact Hpool|]. cbn [o_size o_addr o_pool]. split; [lia|]. split; [exact Da|]. exists h'. unfold in_pool. cbn [o_base o_addr o_size o_pool p_addr p_used h'].
        split; [|split; [reflexivity|unfold a; lia]]. unfold s'. apply in_app_iff. destruct big; cbn [add_obj set_large set_small smalls larges]; rewrite sel_put; [right|left]; apply in_app_iff; right; now left.
      * eapply Forall_impl; [|apply (I_obj _ _ I)]. intros o (Q1 & Q2 & Q3 & q & Q4 & Q5 & Q6 & Q7).
        split; [exact Q1|]. split; [exact Q2|]. split; [exact Q3|].
        assert (G : exists q', In q' (sel (o_pool o) (smalls s') ++ sel (o_pool o) (larges s')) /\ p_addr q' = p_addr q /\ p_used q <= p_used q').
        { assert (GL : forall A B (f : list phdr), In q (A ++ B) -> forall A', (In q A -> exists q', In q' A' /\ p_addr q' = p_addr q /\ p_used q <= p_used q') -> exists q', In q' (A' ++ B) /\ p_addr q' = p_addr q /\ p_used q <= p_used q').
          { intros A B _ H A' K. apply in_app_iff in H. destruct H as [H|H]; [destruct (K H) as (q' & K1 & K2)|exists q]; [exists q'|]; (split; [apply in_app_iff; auto|auto || (split; [reflexivity|lia])]). }
          assert (GR : forall A B, In q (A ++ B) -> forall B', (In q B -> exists q', In q' B' /\ p_addr q' = p_addr q /\ p_used q <= p_used q') -> exists q', In q' (A ++ B') /\ p_addr q' = p_addr q /\ p_used q <= p_used q').
          { intros A B H B' K. apply in_app_iff in H. destruct H as [H|H]; [exists q|destruct (K H) as (q' & K1 & K2); exists q']; (split; [apply in_app_iff; auto|auto || (split; [reflexivity|lia])]). }
          assert (GM : In q (l1 ++ h :: l2) -> exists q', In q' (l1 ++ h' :: l2) /\ p_addr q' = p_addr q /\ p_used q <= p_used q').
          { intros H. apply in_app_iff in H. destruct H as [H|[<- |H]].
            - exists q. split; [apply in_app_iff; auto|split; [reflexivity|lia]].
            - exists h'. split; [apply in_app_iff; right; now left|]. unfold h'. cbn. split; [reflexivity|lia].
            - exists q. split; [apply in_app_iff; right; now right|split; [reflexivity|lia]]. }
          unfold s'. destruct big; cbn [add_obj set_large set_small smalls larges].
          - apply (GR _ _ Q4). intros H. destruct (Z.eq_dec (o_pool o) pool) as [EE|N]; [rewrite EE in H |- *; rewrite sel_put; rewrite Hl in H; now apply GM|].
            rewrite sel_other by assumption. exists q. split; [assumption|split; [reflexivity|lia]].
          - apply (GL _ _ [] Q4). intros H. destruct (Z.eq_dec (o_pool o) pool) as [EE|N]; [rewrite EE in H |- *; rewrite sel_put; rewrite Hl in H; now apply GM|].
            rewrite sel_other by assumption. exists q. split; [assumption|split; [reflexivity|lia]]. }
        destruct G as (q' & G1 & G2 & G3). exists q'. unfold in_pool. rewrite G2. split; [exact G1|]. split; [exact Q5|]. lia.
    + rewrite F4. split; [exact OA|apply (I_apart _ _ I)].
    + rewrite F3, (I_total _ _ I), (bsum_perm _ _ PB). reflexivity.
  - (* the new object against the rest of the heap *)
    pose proof (heap_ok_perm _ _ (I_heap _ _ I) (I_ok _ _ I)) as [W _].
    assert (InH : In (block h) (others ++ (ctl s, MGR) :: map block (pools s))) by (apply in_app_iff; right; right; now apply in_map).
    assert (GG : forall b, In b (others ++ (ctl s, MGR) :: map block (pools s)) -> b <> block h -> apart (a, size) b).
    { intros b Hb N. destruct (pw_in apart apart_sym _ _ _ W Hb InH) as [|AA]; [congruence|]. unfold apart in *. cbn [fst snd] in *. destruct InB as (Q1 & Q2). unfold block in Q2, AA. cbn [fst snd] in *. unfold HDR in Q1. lia. }
    assert (NB : forall b, In b others \/ b = (ctl s, MGR) -> b <> block h).
    { intros b Hb E. subst b. clear GG InH. revert W HinP. generalize (pools s) as ps. intros ps W HinP. clear -W HinP Hb U L AP Hal.
      assert (X : Forall (fun b => apart b (block h)) (others ++ [(ctl s, MGR)])).
      { replace (others ++ (ctl s, MGR) :: map block ps) with ((others ++ [(ctl s, MGR)]) ++ map block ps) in W by (rewrite <- app_assoc; reflexivity).
        apply (in_map block) in HinP. revert W. generalize (others ++ [(ctl s, MGR)]) as os. induction os as [|o os IH]; intros W; [constructor|].
        destruct W as [W1 W2]. constructor; [|auto]. rewrite Forall_forall in W1. apply W1. apply in_app_iff. now right. }
      rewrite Forall_forall in X. assert (In (block h) (others ++ [(ctl s, MGR)])) as Y by (apply in_app_iff; destruct Hb as [Hb|Hb]; [now left|right; rewrite Hb; now left]).
      specialize (X _ Y). unfold apart, block, size_of, HDR in X. cbn [fst snd] in X. lia. }
    split; [|split].
    + apply Forall_forall. intros b Hb. apply GG; [apply in_app_iff; now left|apply NB; now left].
    + apply GG; [apply in_app_iff; right; now left|apply NB; now right].
    + apply Forall_forall. intros q Hq. destruct (pools_apart others s h q I HinP Hq) as [<- |AA].
      * unfold apart. cbn [fst snd]. lia.
      * unfold apart in *. cbn [fst snd]. pose proof PO as PO'. rewrite Forall_forall in PO'. destruct (PO' q Hq) as (Uq & Lq & _).
        unfold block, size_of in AA. cbn [fst snd] in AA. unfold block, size_of in InB. cbn [fst snd] in InB. unfold HDR in *. lia.
Qed.

(* ---- allocation ---- *)
(* everything but malloc's future answers is unchanged *)
Definition same (s s' : mst) : Prop :=
  heap s' = heap s /\ smalls s' = smalls s /\ larges s' = larges s /\ total s' = total s /\ ctl s' = ctl s /\ objs s' = objs s.
Lemma same_refl s : same s s. Proof. unfold same. auto 8. Qed.
Lemma same_trans s1 s2 s3 : same s1 s2 -> same s2 s3 -> same s1 s3.
Proof. unfold same. intros (A1 & A2 & A3 & A4 & A5 & A6) (B1 & B2 & B3 & B4 & B5 & B6). rewrite B1, B2, B3, B4, B5, B6. auto 8. Qed.
Lemma same_inv others s s' : same s s' -> Inv others s -> Inv others s'.
Proof.
  intros (A1 & A2 & A3 & A4 & A5 & A6) [I1 I2 I3 I4 I5 I6].
  assert (P : pools s' = pools s) by (unfold pools; now rewrite A2, A3).
  constructor; rewrite ?P, ?A1, ?A4, ?A5, ?A6; try assumption.
  eapply Forall_impl; [|exact I4]. unfold obj_ok, in_pool. rewrite A2, A3. auto.
Qed.

Lemma find_pool_spec sz l b r : find_pool sz l = (b, r) -> l = b ++ r /\ match r with h :: _ => sz <= p_left h | [] => True end.
Proof.
  revert b r. induction l as [|h l IH]; intros b r E; cbn [find_pool] in E; [injection E as <- <-; auto|].
  destruct (Z.leb_spec sz (p_left h)); [injection E as <- <-; auto|].
  destruct (find_pool sz l) as [b' r'] eqn:E'. injection E as <- <-. destruct (IH _ _ eq_refl) as [-> H']. auto.
Qed.

Lemma get_slop_S f m slop s : get_slop (S f) m slop s =
  let '(r, s) := malloc (m + slop) s in
  match r with
  | Some a => (Ok (a, slop), s)
  | None => let slop := slop / 2 in if slop <? MIN_SLOP then (Err JERR_OUT_OF_MEMORY, s) else get_slop f m slop s
  end.
Proof. reflexivity. Qed.
Lemma get_slop_spec fuel : forall m slop s r s', get_slop (S fuel) m slop s = (r, s') -> 0 < m -> 0 <= slop < MIN_SLOP * 2 ^ Z.of_nat (S fuel) -> heap_ok (heap s) ->
  match r with
  | Ok (a, sl) => 0 <= sl <= slop /\ smalls s' = smalls s /\ larges s' = larges s /\ total s' = total s /\ ctl s' = ctl s /\ objs s' = objs s /\
                  heap s' = (a, m + sl) :: heap s /\ heap_ok (heap s')
  | Err e => e = JERR_OUT_OF_MEMORY /\ same s s'
  | Ub => False
  end.
Proof.
  induction fuel as [|f IH]; intros m slop s r s' E Hm Hs Hh; rewrite get_slop_S in E; cbn zeta in E; destruct (malloc (m + slop) s) as [q s1] eqn:EM;
    destruct (malloc_spec _ _ _ _ EM ltac:(lia) Hh) as (A1 & A2 & A3 & A4 & A5 & A6); destruct q as [a|];
    try (injection E as <- <-; destruct A6; split; [lia|auto 9]; fail).
  - destruct (Z.ltb_spec (slop / 2) MIN_SLOP) as [L|L]; [injection E as <- <-; unfold same; auto 9|].
    exfalso. unfold MIN_SLOP in *. change (Z.of_nat 1) with 1 in Hs. assert (slop / 2 < 50) by (apply Z.div_lt_upper_bound; lia). lia.
  - destruct (Z.ltb_spec (slop / 2) MIN_SLOP) as [L|L]; [injection E as <- <-; unfold same; auto 9|].
    assert (Hh1 : heap_ok (heap s1)) by (rewrite A6; exact Hh).
    assert (Hs1 : 0 <= slop / 2 < MIN_SLOP * 2 ^ Z.of_nat (S f)).
    { split; [apply Z.div_pos; lia|]. apply Z.div_lt_upper_bound; [lia|]. rewrite (Nat2Z.inj_succ (S f)), Z.pow_succ_r in Hs by lia. lia. }
    specialize (IH m (slop / 2) s1 r s' E Hm Hs1 Hh1). destruct r as [[a' sl]|e|].
    + destruct IH as (B0 & B1 & B2 & B3 & B4 & B5 & B6 & B7). rewrite B1, B2, B3, B4, B5, A1, A2, A3, A4, A5.
      assert (slop / 2 <= slop) by (apply Z.div_le_upper_bound; lia). rewrite A6 in B6. split; [lia|auto 9].
    + destruct IH as [-> IH]. split; [reflexivity|]. apply (same_trans _ s1); [unfold same; auto 8|exact IH].
    + exact IH.
Qed.
Opaque get_slop.

(* what a successful allocation of size bytes at address a in the given pool means *)
Definition alloc_ok (others : list (Z * Z)) (s s' : mst) (pool size a : Z) : Prop :=
  Inv others s' /\ (al | a) /\ (exists b, objs s' = mkO pool (fst b) a size :: objs s /\ In b (heap s') /\ fst b <= a /\ a + size <= fst b + snd b) /\
  Forall (oapart (mkO pool 0 a size)) (objs s) /\ outside s' others a size.

Lemma bump_ok others s pool l1 h l2 size sz (big : bool) : Inv others s -> (pool = 0 \/ pool = 1) ->
  sel pool (if big then larges s else smalls s) = l1 ++ h :: l2 -> 0 <= size <= sz -> (al | sz) -> sz <= p_left h ->
  let h' := mkP (p_addr h) (p_used h + sz) (p_left h - sz) in
  let a := data_ptr al (p_addr h) + p_used h in
  alloc_ok others s (add_obj (if big then set_large s pool (l1 ++ h' :: l2) else set_small s pool (l1 ++ h' :: l2)) (mkO pool (p_addr h) a size)) pool size a.
Proof.
  intros I Hpool Hl Hs Hsz Hleft h' a. destruct (inv_bump others s pool l1 h l2 size sz big I Hpool Hl Hs Hsz Hleft) as (B1 & B2 & B3 & B4 & B5 & B6 & B7).
  fold h' in B1. fold a in B1, B2, B4, B5, B6, B7. unfold alloc_ok. split; [exact B1|]. split; [exact B2|]. split; [|split].
  - exists (block h). split; [destruct big; reflexivity|]. split; [|auto].
    assert (HH : heap (add_obj (if big then set_large s pool (l1 ++ h' :: l2) else set_small s pool (l1 ++ h' :: l2)) (mkO pool (p_addr h) a size)) = heap s) by (destruct big; reflexivity).
    rewrite HH, (I_heap _ _ I). apply in_app_iff. right. now right.
  - exact B6.
  - destruct B7 as (C1 & C2 & C3). unfold outside. split; [exact C1|]. split; [destruct big; exact C2|].
    (* the headers have not moved *)
    assert (MM : exists R, Permutation (pools s) (h :: R) /\ Permutation (pools (add_obj (if big then set_large s pool (l1 ++ h' :: l2) else set_small s pool (l1 ++ h' :: l2)) (mkO pool (p_addr h) a size))) (h' :: R)).
    { destruct big; change (pools (add_obj ?x ?y)) with (pools x).
      - destruct (pools_large s pool) as (R & HR & HR0). exists (l1 ++ l2 ++ R). rewrite HR, HR0, Hl, <- !app_assoc. cbn [app]. split; symmetry; apply Permutation_middle.
      - destruct (pools_small s pool) as (R & HR & HR0). exists (l1 ++ l2 ++ R). rewrite HR, HR0, Hl, <- !app_assoc. cbn [app]. split; symmetry; apply Permutation_middle. }
    destruct MM as (R & M1 & M2). rewrite M1 in C3. rewrite M2. inversion C3; subst. constructor; assumption.
Qed.

Lemma alloc_ok_objs others s1 s2 s' pool size a t : alloc_ok others s1 t pool size a -> objs s1 = objs s2 -> t = s' -> alloc_ok others s2 s' pool size a.
Proof. intros H E <-. unfold alloc_ok in *. rewrite <- E. exact H. Qed.
Lemma pool_cond pool : (pool <? 0) || (JPOOL_NUMPOOLS <=? pool) = false -> pool = 0 \/ pool = 1.
Proof. intros E. apply orb_false_iff in E. unfold JPOOL_NUMPOOLS in E. lia. Qed.

Lemma alloc_small_ok others pool size s : Inv others s -> 0 <= size -> let '(r, s') := alloc_small al pool size s in
  match r with Ok a => alloc_ok others s s' pool size a | Err _ => same s s' | Ub => False end.
Proof.
  intros I Hs. unfold alloc_small. destruct (Z.ltb_spec MAX_ALLOC_CHUNK size) as [L|L]; [apply same_refl|].
  destruct (round_al size ltac:(lia)) as (D & R). cbn zeta in R. set (sz := round_up_pow2 size al) in *.
  destruct (Z.ltb_spec MAX_ALLOC_CHUNK (HDR + sz + al - 1)) as [L2|L2]; [apply same_refl|].
  destruct (_ || _) eqn:PC; [apply same_refl|]. apply pool_cond in PC. pose proof al_pos as AP.
  destruct (find_pool sz (sel pool (smalls s))) as [before rest] eqn:EF. apply find_pool_spec in EF. destruct EF as [EF RF].
  destruct rest as [|h after].
  - cbn zeta. rewrite app_nil_r in EF. set (m := HDR + sz + al - 1) in *.
    set (sl := if MAX_ALLOC_CHUNK - m <? _ then _ else _).
    assert (SL : 0 <= sl <= 16000).
    { subst sl. set (x := match before with [] => _ | _ => _ end). assert (0 <= x <= 16000) by (subst x; unfold first_pool_slop, extra_pool_slop; destruct before, (pool =? 0); lia).
      destruct (Z.ltb_spec (MAX_ALLOC_CHUNK - m) x); lia. }
    destruct (get_slop 20 m sl s) as [r s1] eqn:EG.
    assert (Hm : 0 < m) by (subst m; unfold HDR; lia).
    assert (SL2 : 0 <= sl < MIN_SLOP * 2 ^ Z.of_nat 20) by (change (MIN_SLOP * 2 ^ Z.of_nat 20) with 52428800; lia).
    pose proof (get_slop_spec 19 m sl s r s1 EG Hm SL2 (I_ok _ _ I)) as G.
    destruct r as [[a sl']|e|]; [|apply G|exact G].
    destruct G as (G0 & G1 & G2 & G3 & G4 & G5 & G6 & G7). cbn [p_addr p_used p_left].
    set (h := mkP a 0 (sz + sl')). set (s2 := add_total (set_small s1 pool (before ++ h :: [])) (m + sl')).
    assert (I2 : Inv others s2).
    { apply (inv_new_pool others s s1 a (m + sl') h false pool I PC G1 G2 G3 G4 G5 G6 G7) with (l1 := before) (l2 := []).
      - unfold block, size_of, h. cbn [p_addr p_used p_left]. f_equal. subst m. lia.
      - unfold pool_ok, h. cbn [p_used p_left]. split; [lia|]. split; [lia|apply Z.divide_0_r].
      - rewrite app_nil_r. exact EF. }
    assert (SE : sel pool (smalls s2) = before ++ h :: []) by (unfold s2; cbn [add_total set_small smalls]; apply sel_put).
    assert (LF : sz <= p_left h) by (unfold h; cbn [p_left]; lia).
    pose proof (bump_ok others s2 pool before h [] size sz false I2 PC SE ltac:(lia) D LF) as B. cbn zeta in B.
    apply (alloc_ok_objs _ _ _ _ _ _ _ _ B); [exact G5|]. unfold s2, add_obj, set_small, add_total, h. cbn [p_addr p_used p_left smalls larges heap total ctl orc objs].
    now rewrite put_put.
  - pose proof (bump_ok others s pool before h after size sz false I PC EF ltac:(lia) D RF) as B. exact B.
Qed.
Lemma alloc_large_ok others pool size s : Inv others s -> 0 <= size -> let '(r, s') := alloc_large al pool size s in
  match r with Ok a => alloc_ok others s s' pool size a | Err _ => same s s' | Ub => False end.
Proof.
  intros I Hs. unfold alloc_large. destruct (Z.ltb_spec MAX_ALLOC_CHUNK size) as [L|L]; [apply same_refl|].
  destruct (round_al size ltac:(lia)) as (D & R). cbn zeta in R. set (sz := round_up_pow2 size al) in *.
  destruct (Z.ltb_spec MAX_ALLOC_CHUNK (HDR + sz + al - 1)) as [L2|L2]; [apply same_refl|].
  destruct (_ || _) eqn:PC; [apply same_refl|]. apply pool_cond in PC. pose proof al_pos as AP.
  destruct (malloc (sz + HDR + al - 1) s) as [r s1] eqn:EM.
  assert (Hm : 0 < sz + HDR + al - 1) by (unfold HDR; lia).
  destruct (malloc_spec _ _ _ _ EM Hm (I_ok _ _ I)) as (G1 & G2 & G3 & G4 & G5 & G6).
  destruct r as [a|]; [|unfold same; auto 8]. destruct G6 as [G6 G7]. set (m := sz + HDR + al - 1) in *.
  set (h := mkP a 0 sz). set (l := sel pool (larges s)). set (s2 := add_total (set_large s1 pool ([] ++ h :: l)) m).
  assert (I2 : Inv others s2).
  { apply (inv_new_pool others s s1 a m h true pool I PC G1 G2 G3 G4 G5 G6 G7) with (l1 := []) (l2 := l).
    - unfold block, size_of, h. cbn [p_addr p_used p_left]. f_equal; try (subst m; lia).
    - unfold pool_ok, h. cbn [p_used p_left]. split; [lia|]. split; [lia|apply Z.divide_0_r].
    - reflexivity. }
  assert (SE : sel pool (larges s2) = [] ++ h :: l) by (unfold s2; cbn [add_total set_large larges]; apply sel_put).
  assert (LF : sz <= p_left h) by (unfold h; cbn [p_left]; lia).
  pose proof (bump_ok others s2 pool [] h l size sz true I2 PC SE ltac:(lia) D LF) as B. cbn zeta in B.
  assert (EA : data_ptr al (p_addr h) + p_used h = data_ptr al a) by (unfold h; cbn [p_addr p_used]; lia). rewrite EA in B.
  apply (alloc_ok_objs _ _ _ _ _ _ _ _ B); [exact G5|]. unfold s2, add_obj, set_large, add_total, h, l. cbn [p_addr p_used p_left smalls larges heap total ctl orc objs].
  rewrite put_put, G2, Z.add_0_l, Z.sub_diag. reflexivity.
Qed.

(* ---- release ---- *)
Lemma free_list_ok l : forall s X T, Permutation (heap s) (X ++ map block l) -> heap_ok (heap s) -> total s = T mod 2 ^ 64 ->
  exists h', free_list al l s = (Ok tt, mkM h' (smalls s) (larges s) ((T - bsum (map block l)) mod 2 ^ 64) (ctl s) (orc s) (objs s)) /\
  Permutation h' X /\ heap_ok h'.
Proof.
  induction l as [|p l IH]; intros s X T P Hh Ht.
  - exists (heap s). cbn [map bsum fold_right free_list]. rewrite app_nil_r in P. rewrite Z.sub_0_r, <- Ht. destruct s; auto.
  - cbn [map] in P. assert (Hin : In (p_addr p, size_of p) (heap s)) by (rewrite P; apply in_app_iff; right; now left).
    destruct (remove_ok _ _ _ Hh Hin) as (h1 & E1 & P1). cbn [free_list]. rewrite E1.
    set (s1 := mkM h1 _ _ _ _ _ _).
    assert (Hh1 : heap_ok (heap s1)).
    { destruct (heap_ok_perm _ _ P1 Hh) as [[_ W] F]. inversion F; subst. split; assumption. }
    assert (PP : Permutation (heap s1) (X ++ map block l)).
    { cbn [s1 heap]. rewrite P1 in P. rewrite <- Permutation_middle in P. exact (Permutation_cons_inv P). }
    destruct (IH s1 X (T - size_of p) PP Hh1) as (h' & E2 & P2 & H2).
    { cbn [s1 total]. rewrite Ht. unfold u64, size_of. rewrite Zminus_mod_idemp_l. reflexivity. }
    exists h'. rewrite E2. cbn [s1 smalls larges ctl orc objs map bsum fold_right block snd]. split; [|auto]. do 2 f_equal. unfold bsum. f_equal. lia.
Qed.

Definition keep (pool : Z) (s : mst) : list obj := filter (fun o => negb (o_pool o =? pool)) (objs s).
Lemma sel_nil_pool pool q (x : list phdr * list phdr) : (pool = 0 \/ pool = 1) -> (q = 0 \/ q = 1) -> q <> pool -> sel q (put pool x []) = sel q x.
Proof. apply sel_other. Qed.

Lemma free_pool_ok others pool s : Inv others s -> (pool = 0 \/ pool = 1) ->
  exists h', free_pool al pool s = (Ok tt, mkM h' (put pool (smalls s) []) (put pool (larges s) [])
      ((MGR + bsum (map block (pools (set_small (set_large s pool []) pool [])))) mod 2 ^ 64) (ctl s) (orc s) (keep pool s)) /\
    Inv others (snd (free_pool al pool s)).
Proof.
  intros I Hpool. unfold free_pool.
  assert (PC : (pool <? 0) || (JPOOL_NUMPOOLS <=? pool) = false) by (unfold JPOOL_NUMPOOLS; destruct Hpool as [-> | ->]; reflexivity). rewrite PC.
  set (s0 := set_large s pool []). set (l1 := sel pool (larges s)). set (l2 := sel pool (smalls s)). set (t := set_small s0 pool []).
  destruct (pools_large s pool) as (R1 & HR1 & HR1'). specialize (HR1 []). fold s0 in HR1. cbn [app] in HR1. fold l1 in HR1'.
  destruct (pools_small s0 pool) as (R2 & HR2 & HR2'). specialize (HR2 []). fold t in HR2. cbn [app] in HR2. change (smalls s0) with (smalls s) in HR2'. fold l2 in HR2'.
  assert (PP : Permutation (pools s) (pools t ++ l2 ++ l1)).
  { rewrite HR1', <- HR1, HR2', HR2. rewrite (Permutation_app_comm l1). rewrite (Permutation_app_comm l2 R2). rewrite <- app_assoc. reflexivity. }
  set (X := others ++ (ctl s, MGR) :: map block (pools t)).
  assert (P0 : Permutation (heap s0) ((X ++ map block l2) ++ map block l1)).
  { change (heap s0) with (heap s). rewrite (I_heap _ _ I), PP, !map_app. unfold X. rewrite <- !app_assoc. reflexivity. }
  assert (T0 : total s0 = (MGR + bsum (map block (pools t)) + bsum (map block l2) + bsum (map block l1)) mod 2 ^ 64).
  { change (total s0) with (total s). rewrite (I_total _ _ I). f_equal. rewrite (bsum_perm _ _ (Permutation_map block PP)), !map_app, !bsum_app. lia. }
  destruct (free_list_ok l1 s0 _ _ P0 (I_ok _ _ I) T0) as (h1 & E1 & P1 & H1). rewrite E1.
  cbn [smalls larges heap total ctl orc objs]. set (s1 := set_small _ pool []).
  change (sel pool (smalls s0)) with l2.
  destruct (free_list_ok l2 s1 X (MGR + bsum (map block (pools t)) + bsum (map block l2)) P1 H1) as (h2 & E2 & P2 & H2).
  { cbn [s1 set_small total]. f_equal. lia. }
  rewrite E2. cbn [smalls larges heap total ctl orc objs s1 set_small s0 set_large snd].
  exists h2. split; [do 2 f_equal; f_equal; lia|].
  assert (PE : forall h a b c d, pools (mkM h (put pool (smalls s) []) (put pool (larges s) []) a b c d) = pools t) by reflexivity.
  constructor; rewrite ?PE; cbn [smalls larges heap total ctl orc objs].
  - exact P2.
  - exact H2.
  - pose proof (I_pool _ _ I) as PO. rewrite PP in PO. apply Forall_app in PO. apply PO.
  - pose proof (I_obj _ _ I) as IO. rewrite Forall_forall in IO. apply Forall_forall. intros o Ho. apply filter_In in Ho. destruct Ho as [Ho N]. apply negb_true_iff, Z.eqb_neq in N.
    destruct (IO o Ho) as (Q1 & Q2 & Q3 & q & Q4 & Q5). split; [exact Q1|]. split; [exact Q2|]. split; [exact Q3|]. exists q. split; [|exact Q5].
    cbn [smalls larges]. rewrite !sel_nil_pool by assumption. exact Q4.
  - apply pw_filter. apply (I_apart _ _ I).
  - f_equal. lia.
Qed.

Lemma self_destruct_ok others s : Inv others s -> exists s', self_destruct al s = (Ok tt, s') /\ Permutation (heap s') others.
Proof.
  intros I. unfold self_destruct. destruct (free_pool_ok others 1 s I (or_intror eq_refl)) as (h1 & E1 & I1). rewrite E1 in I1 |- *. cbn [snd] in I1.
  match type of I1 with Inv _ ?x => set (s1 := x) in * end.
  destruct (free_pool_ok others 0 s1 I1 (or_introl eq_refl)) as (h2 & E2 & I2). rewrite E2 in I2 |- *. cbn [snd] in I2.
  match type of I2 with Inv _ ?x => set (s2 := x) in * end.
  assert (PN : pools s2 = []) by reflexivity.
  pose proof (I_heap _ _ I2) as P2. rewrite PN in P2. cbn [map] in P2.
  assert (Hin : In (ctl s2, MGR) (heap s2)) by (rewrite P2; apply in_app_iff; right; now left).
  destruct (remove_ok _ _ _ (I_ok _ _ I2) Hin) as (h' & E3 & P3). rewrite E3. eexists. split; [reflexivity|]. cbn [heap].
  rewrite P3 in P2. rewrite <- Permutation_cons_append in P2. exact (Permutation_cons_inv P2).
Qed.

Lemma init_ok others orc s : heap_ok others -> jinit_memory_mgr others orc = Some s -> Inv others s.
Proof.
  intros Hh E. unfold jinit_memory_mgr in E. set (s0 := mkM others ([], []) ([], []) 0 0 orc []) in E.
  destruct (malloc MGR s0) as [r s1] eqn:EM. destruct (malloc_spec _ _ _ _ EM ltac:(reflexivity) Hh) as (_ & _ & _ & _ & _ & G6).
  destruct r as [a|]; [|discriminate]. injection E as <-. destruct G6 as [G6 G7].
  constructor; cbn [heap ctl objs total smalls larges pools both fst snd app map].
  - rewrite G6. cbn [s0 heap]. apply Permutation_cons_append.
  - exact G7.
  - constructor.
  - constructor.
  - exact Logic.I.
  - reflexivity.
Qed.

(* ---- row arrays ---- *)
Lemma pw_app_intro {A} (R : A -> A -> Prop) l1 l2 : pairwise R l1 -> pairwise R l2 -> (forall x y, In x l1 -> In y l2 -> R x y) -> pairwise R (l1 ++ l2).
Proof.
  induction l1 as [|x l1 IH]; intros H1 H2 H; [exact H2|]. destruct H1 as [Ha Hb]. split.
  - apply Forall_app. split; [exact Ha|]. apply Forall_forall. intros y Hy. apply H; [now left|exact Hy].
  - apply IH; [exact Hb|exact H2|]. intros a b Ha' Hb'. apply H; [now right|exact Hb'].
Qed.
Definition rapart (width r r' : Z) : Prop := r + width <= r' \/ r' + width <= r.
Lemma chunk_rows w width n : 0 < width -> forall k, pairwise (rapart width) (map (fun i => w + Z.of_nat i * width) (seq k n)).
Proof.
  intros Hw. induction n as [|n IH]; intros k; [exact I|]. cbn [seq map]. split; [|apply IH].
  apply Forall_map, Forall_forall. intros i Hi. apply in_seq in Hi. left. nia.
Qed.
Definition rows_ok (pool width : Z) (news : list obj) (rows : list Z) : Prop :=
  Forall (fun r => (al | r) /\ exists o, In o news /\ o_addr o <= r /\ r + width <= o_addr o + o_size o) rows /\ pairwise (rapart width) rows.

Lemma get_rows_ok others pool width : 0 < width -> (al | width) -> forall fuel rpc left s, Inv others s -> left <= Z.of_nat fuel -> 0 <= left -> (0 < left -> 0 < rpc) ->
  let '(r, s') := get_rows al fuel pool width rpc left s in
  Inv others s' /\ (exists news, objs s' = news ++ objs s /\ Forall (fun o => o_pool o = pool) news /\
    match r with Ok rows => Z.of_nat (length rows) = left /\ rows_ok pool width news rows | Err _ => True | Ub => False end).
Proof.
  intros Hw Dw. induction fuel as [|f IH]; intros rpc left s I Hf Hl Hr; cbn [get_rows].
  - assert (left = 0) by lia. subst left. change (0 <=? 0) with true. cbn [negb]. split; [exact I|]. exists []. split; [reflexivity|]. split; [constructor|].
    split; [reflexivity|]. split; [constructor|exact Logic.I].
  - destruct (Z.leb_spec left 0) as [L|L].
    { assert (left = 0) by lia. subst left. split; [exact I|]. exists []. split; [reflexivity|]. split; [constructor|].
      split; [reflexivity|]. split; [constructor|exact Logic.I]. }
    set (n := Z.min rpc left). assert (Hn : 0 < n <= left) by (subst n; lia). pose proof (Z.mul_nonneg_nonneg n width ltac:(lia) ltac:(lia)) as Hnw.
    pose proof (alloc_large_ok others pool (n * width) s I Hnw) as A. destruct (alloc_large al pool (n * width) s) as [r1 s1]. destruct r1 as [w|e|].
    + destruct A as (I1 & Dwk & (b & Ob & _) & _ & _).
      specialize (IH n (left - n) s1 I1 ltac:(lia) ltac:(lia) ltac:(lia)).
      destruct (get_rows al f pool width n (left - n) s1) as [r2 s2]. destruct IH as (I2 & news & On & Pn & IHr).
      split; [exact I2|]. exists (news ++ [mkO pool (fst b) w (n * width)]). split; [rewrite On, Ob, <- app_assoc; reflexivity|].
      split; [apply Forall_app; split; [exact Pn|constructor; [reflexivity|constructor]]|].
      destruct r2 as [rows|e|]; [|exact IHr|exact IHr]. destruct IHr as (Ln & Rn & Wn).
      split; [rewrite app_length, map_length, seq_length; lia|].
      assert (CR : forall r, In r (map (fun i => w + Z.of_nat i * width) (seq 0 (Z.to_nat n))) -> (al | r) /\ w <= r /\ r + width <= w + n * width).
      { intros r Hi. apply in_map_iff in Hi. destruct Hi as (i & <- & Hi). apply in_seq in Hi. split.
        - apply Z.divide_add_r; [exact Dwk|]. apply Z.divide_mul_r. exact Dw.
        - assert (Z.of_nat i + 1 <= n) by lia. nia. }
      split.
      * apply Forall_app. split.
        -- apply Forall_forall. intros r Hi. destruct (CR r Hi) as (C1 & C2 & C3). split; [exact C1|]. exists (mkO pool (fst b) w (n * width)). split; [apply in_app_iff; right; now left|cbn; lia].
        -- eapply Forall_impl; [|exact Rn]. intros r (C1 & o & C2 & C3). split; [exact C1|]. exists o. split; [apply in_app_iff; now left|exact C3].
      * apply pw_app_intro; [apply chunk_rows; exact Hw|exact Wn|]. intros x y Hx Hy. destruct (CR x Hx) as (_ & C2 & C3).
        rewrite Forall_forall in Rn. destruct (Rn y Hy) as (_ & o & Ho & C4 & C5).
        pose proof (I_apart _ _ I2) as W. rewrite On, Ob in W.
        assert (X : oapart o (mkO pool (fst b) w (n * width))).
        { clear -W Ho. induction news as [|q news IH]; [destruct Ho|]. destruct W as [W1 W2]. destruct Ho as [-> |Ho]; [|auto].
          rewrite Forall_forall in W1. apply W1. apply in_app_iff. right. now left. }
        unfold oapart in X. cbn [o_addr o_size] in X. unfold rapart. lia.
    + pose proof (same_inv _ _ _ A I) as I1. destruct A as (_ & _ & _ & _ & _ & A6). split; [exact I1|]. exists []. split; [exact A6|]. split; [constructor|exact Logic.I].
    + destruct A.
Qed.

Lemma get_array_ok others pool width numrows s : Inv others s -> 0 < width -> (al | width) -> 0 <= numrows ->
  let '(r, s') := get_array al pool width numrows s in
  Inv others s' /\ (exists news, objs s' = news ++ objs s /\ Forall (fun o => o_pool o = pool) news /\
    match r with Ok rows => Z.of_nat (length rows) = numrows /\ rows_ok pool width news rows | Err _ => True | Ub => False end).
Proof.
  intros I Hw Dw Hn. unfold get_array.
  assert (NIL : forall e : jerr, Inv others s /\ exists news, objs s = news ++ objs s /\ Forall (fun o => o_pool o = pool) news /\ True).
  { intros _. split; [exact I|]. exists []. split; [reflexivity|]. split; [constructor|exact Logic.I]. }
  destruct (Z.eqb_spec width 0); [lia|]. set (lt := (MAX_ALLOC_CHUNK - HDR) / width). destruct (Z.leb_spec lt 0); [apply NIL; exact JERR_WIDTH_OVERFLOW|].
  set (rpc := if lt <? numrows then lt else numrows).
  pose proof (alloc_small_ok others pool (numrows * 8) s I ltac:(lia)) as A. destruct (alloc_small al pool (numrows * 8) s) as [r1 s1]. destruct r1 as [w|e|].
  - destruct A as (I1 & _ & (b & Ob & _) & _). assert (Hr : 0 < numrows -> 0 < rpc) by (intros; subst rpc; destruct (Z.ltb_spec lt numrows); lia).
    pose proof (get_rows_ok others pool width Hw Dw (Z.to_nat numrows) rpc numrows s1 I1 ltac:(lia) Hn Hr) as G.
    destruct (get_rows al (Z.to_nat numrows) pool width rpc numrows s1) as [r2 s2]. destruct G as (I2 & news & On & Pn & Gr).
    split; [exact I2|]. exists (news ++ [mkO pool (fst b) w (numrows * 8)]). split; [rewrite On, Ob, <- app_assoc; reflexivity|].
    split; [apply Forall_app; split; [exact Pn|constructor; [reflexivity|constructor]]|].
    destruct r2 as [rows|e|]; [|exact Gr|exact Gr]. destruct Gr as (Ln & Rn & Wn). split; [exact Ln|]. split; [|exact Wn].
    eapply Forall_impl; [|exact Rn]. intros r (C1 & o & C2 & C3). split; [exact C1|]. exists o. split; [apply in_app_iff; now left|exact C3].
  - pose proof (same_inv _ _ _ A I) as I1. destruct A as (_ & _ & _ & _ & _ & A6). split; [exact I1|]. exists []. split; [exact A6|]. split; [constructor|exact Logic.I].
  - destruct A.
Qed.
Lemma alloc_sarray_ok others pool z w numrows s : Inv others s -> (z = 1 \/ z = 2) -> 0 < w < 2 ^ 32 -> 0 <= numrows ->
  let '(r, s') := alloc_sarray al pool z w numrows s in
  Inv others s' /\ (exists news, objs s' = news ++ objs s /\ Forall (fun o => o_pool o = pool) news /\
    match r with Ok rows => Z.of_nat (length rows) = numrows /\ rows_ok pool (w * z) news rows | Err _ => True | Ub => False end).
Proof.
  intros I Hz Hw Hn. unfold alloc_sarray.
  assert (NIL : Inv others s /\ exists news, objs s = news ++ objs s /\ Forall (fun o => o_pool o = pool) news /\ True).
  { split; [exact I|]. exists []. split; [reflexivity|]. split; [constructor|exact Logic.I]. }
  destruct (negb _); [exact NIL|]. destruct (Z.ltb_spec MAX_ALLOC_CHUNK w) as [L|L]; [exact NIL|].
  assert (K : exists k, 0 <= k <= 30 /\ 2 * al / z = 2 ^ k /\ 2 ^ k * z = 2 * al /\ 2 ^ k <= 128).
  { destruct Hal as (k & Hk & ->). assert (k = 3 \/ k = 4 \/ k = 5 \/ k = 6) as KK by lia. destruct Hz as [-> | ->].
    - exists (k + 1). destruct KK as [-> |[-> |[-> | ->]]]; cbn; split; try lia; auto; split; try reflexivity; lia.
    - exists k. destruct KK as [-> |[-> |[-> | ->]]]; cbn; split; try lia; auto; split; try reflexivity; lia. }
  destruct K as (k & Hk & Ek & Ek2 & Ek3). rewrite Ek. destruct (round_up_ok w k Hk ltac:(lia)) as (D & R). cbn zeta in R. set (w' := round_up_pow2 w (2 ^ k)) in *.
  unfold MAX_ALLOC_CHUNK in L. assert (U : u32 w' = w') by (apply Z.mod_small; lia). rewrite U.
  assert (Dw : (al | w' * z)). { destruct D as (q & ->). exists (q * 2). rewrite <- Z.mul_assoc, Ek2. lia. }
  assert (Hw' : 0 < w' * z) by (destruct Hz; subst z; lia).
  pose proof (get_array_ok others pool (w' * z) numrows s I Hw' Dw Hn) as G. destruct (get_array al pool (w' * z) numrows s) as [r s']. destruct G as (G1 & news & G2 & G3 & G4).
  split; [exact G1|]. exists news. split; [exact G2|]. split; [exact G3|]. destruct r as [rows|e|]; auto. destruct G4 as (G4 & G5 & G6).
  assert (WW : w * z <= w' * z) by (destruct Hz; subst z; lia).
  split; [exact G4|]. split.
  - eapply Forall_impl; [|exact G5]. intros r (C1 & o & C2 & C3 & C4). split; [exact C1|]. exists o. split; [exact C2|lia].
  - clear -G6 WW. induction rows as [|x rows IH]; [exact G6|]. destruct G6 as [G6 G7]. split; [|auto]. eapply Forall_impl; [|exact G6]. unfold rapart. intros a. lia.
Qed.
Lemma alloc_barray_ok others pool w numrows s : Inv others s -> 0 < w -> 0 <= numrows ->
  let '(r, s') := alloc_barray al pool w numrows s in
  Inv others s' /\ (exists news, objs s' = news ++ objs s /\ Forall (fun o => o_pool o = pool) news /\
    match r with Ok rows => Z.of_nat (length rows) = numrows /\ rows_ok pool (w * 128) news rows | Err _ => True | Ub => False end).
Proof.
  intros I Hw Hn. unfold alloc_barray.
  assert (D : (al | 128)). { destruct Hal as (k & Hk & ->). exists (2 ^ (7 - k)). rewrite <- Z.pow_add_r by lia. replace (7 - k + k) with 7 by lia. reflexivity. }
  destruct (negb _).
  - split; [exact I|]. exists []. split; [reflexivity|]. split; [constructor|exact Logic.I].
  - apply get_array_ok; [exact I|lia|now apply Z.divide_mul_r|exact Hn].
Qed.
End Al.
