(* P_Trellis.v *)
From Verif Require Import Base M_HuffDec M_HuffEnc M_Trellis S_Block S_Trellis P_Gather.

Definition sat {A} (P : A -> Prop) (m : outcome A) : Prop := match m with Ret x => P x | _ => False end.
Lemma sat_bind {A B} (P : A -> Prop) (Q : B -> Prop) (m : outcome A) (f : A -> outcome B) :
  sat P m -> (forall x, P x -> sat Q (f x)) -> sat Q (bind m f).
Proof. destruct m; cbn; auto; contradiction. Qed.
Lemma sat_for {A} (P : Z -> A -> Prop) (body : Z -> A -> outcome A) : forall n lo s, P lo s ->
  (forall i s, lo <= i < lo + Z.of_nat n -> P i s -> sat (P (i + 1)) (body i s)) -> sat (P (lo + Z.of_nat n)) (for_loop n lo body s).
Proof.
  induction n as [|n IH]; intros lo s H0 HB; cbn [for_loop].
  - cbn. replace (lo + 0) with lo by lia. exact H0.
  - eapply sat_bind; [apply (HB lo s); [lia|exact H0]|]. intros s' H'. replace (lo + Z.of_nat (S n)) with (lo + 1 + Z.of_nat n) by lia. apply IH; [exact H'|]. intros i s1 Hi. apply HB. lia.
Qed.
Lemma sat_imp {A} (P Q : A -> Prop) m : sat P m -> (forall x, P x -> Q x) -> sat Q m.
Proof. destruct m; cbn; auto. Qed.

Definition g (l : list Z) (i : Z) : Z := nth (Z.to_nat i) l 0.
Definition gb (l : list bool) (i : Z) : bool := nth (Z.to_nat i) l false.
Definition no (i : Z) : Z := Z.of_nat (nth (Z.to_nat i) zigzag 0%nat).

Lemma aget_g l i : 0 <= i < Z.of_nat (length l) -> aget l i = Ret (g l i).
Proof. intros H. unfold g. apply aget_nth. lia. Qed.
Lemma aget_gb l i : 0 <= i < Z.of_nat (length l) -> aget l i = Ret (gb l i).
Proof. intros H. unfold gb. apply aget_nth. lia. Qed.
Lemma g_upd l i j x : 0 <= i < Z.of_nat (length l) -> 0 <= j -> g (upd l (Z.to_nat i) x) j = if i =? j then x else g l j.
Proof.
  intros H Hj. unfold g. destruct (Z.eqb_spec i j) as [->|N]; [apply nth_upd_eq; lia|]. apply nth_upd_neq. lia.
Qed.
Lemma gb_upd l i j x : 0 <= i < Z.of_nat (length l) -> 0 <= j -> gb (upd l (Z.to_nat i) x) j = if i =? j then x else gb l j.
Proof.
  intros H Hj. unfold gb. destruct (Z.eqb_spec i j) as [->|N]; [apply nth_upd_eq; lia|]. apply nth_upd_neq. lia.
Qed.
Lemma no_ok i : 0 <= i < 64 -> aget jpeg_natural_order i = Ret (no i).
Proof.
  intros H. rewrite (aget_nth _ _ 0) by (cbn [length jpeg_natural_order]; lia). unfold no. rewrite natural_order_zz by lia. reflexivity.
Qed.
Lemma no_range i : 0 <= i < 64 -> 0 <= no i < 64.
Proof. intros H. unfold no. pose proof (zigzag_lt64 (Z.to_nat i) ltac:(lia)). lia. Qed.
Lemma no_inj i j : 0 <= i < 64 -> 0 <= j < 64 -> no i = no j -> i = j.
Proof.
  intros Hi Hj E. assert (N : forallb (fun a => forallb (fun b => negb (nth a zigzag 0%nat =? nth b zigzag 0%nat)%nat || (a =? b)%nat) (seq 0 64)) (seq 0 64) = true) by (vm_compute; reflexivity).
  rewrite forallb_forall in N. specialize (N (Z.to_nat i) ltac:(apply in_seq; lia)). rewrite forallb_forall in N. specialize (N (Z.to_nat j) ltac:(apply in_seq; lia)).
  unfold no in E. apply Nat2Z.inj in E. rewrite E, Nat.eqb_refl in N. cbn [negb orb] in N. apply Nat.eqb_eq in N. lia.
Qed.
Lemma no_0 i : 0 <= i < 64 -> no i = 0 -> i = 0.
Proof. intros H E. apply no_inj; [lia|lia|]. rewrite E. reflexivity. Qed.
Lemma coef_g blk k : coef blk k = g blk (no k).
Proof. unfold coef, g, no. rewrite Nat2Z.id. reflexivity. Qed.

Lemma sat_aset l i x (Q : list Z -> Prop) : 0 <= i < Z.of_nat (length l) -> Q (upd l (Z.to_nat i) x) -> sat Q (aset l i x).
Proof. intros H HQ. rewrite aset_ok by lia. exact HQ. Qed.

(* quantization arithmetic *)
Lemma rounded_div x q : 0 <= x -> 0 < q -> q mod 2 = 0 -> rounded x q ((x + q / 2) / q).
Proof.
  intros Hx Hq E. unfold rounded. pose proof (Z.div_mod q 2). pose proof (Z.div_mod (x + q / 2) q). pose proof (Z.mod_pos_bound (x + q / 2) q Hq). nia.
Qed.
Definition s16r (x : Z) : Prop := - 2 ^ 15 <= x < 2 ^ 15.
Lemma s16_id x : s16r x -> s16 x = x.
Proof. unfold s16r, s16. intros H. rewrite Z.mod_small; lia. Qed.
Lemma sign_val v : s16r v -> Z.shiftr v 31 = if v <? 0 then -1 else 0.
Proof.
  unfold s16r. intros H. rewrite Z.shiftr_div_pow2 by lia. destruct (Z.ltb_spec v 0).
  - symmetry. apply (Z.div_unique_pos v (2 ^ 31) (-1) (v + 2 ^ 31)); lia.
  - apply Z.div_small. lia.
Qed.
Lemma sign_apply c v : s16r v -> Z.lxor c (Z.shiftr v 31) - Z.shiftr v 31 = if v <? 0 then - c else c.
Proof.
  intros H. rewrite (sign_val v H). destruct (v <? 0).
  - rewrite Z.lxor_m1_r. unfold Z.lnot. lia.
  - rewrite Z.lxor_0_r. lia.
Qed.

Lemma cand_spec num qval k : 0 < qval -> num = Z.log2 qval + 1 -> 0 <= k < num ->
  1 <= candidate num qval k <= qval /\ Z.log2 (candidate num qval k) + 1 = k + 1.
Proof.
  intros Hq -> Hk. unfold candidate. destruct (Z.ltb_spec k (Z.log2 qval + 1 - 1)).
  - rewrite Z.shiftl_mul_pow2 by lia. replace (2 * 2 ^ k) with (2 ^ (k + 1)) by (rewrite Z.pow_add_r by lia; lia).
    pose proof (Z.pow_le_mono_r 2 (k + 1) (Z.log2 qval) ltac:(lia) ltac:(lia)). pose proof (Z.log2_spec qval Hq). pose proof (Z.pow_le_mono_r 2 1 (k + 1) ltac:(lia) ltac:(lia)).
    split; [lia|]. replace (2 ^ (k + 1) - 1) with (Z.pred (2 ^ (k + 1))) by lia. rewrite Z.log2_pred_pow2 by lia. lia.
  - split; [lia|]. lia.
Qed.

Section AC.
Variables (o : oracle) (p : params) (Ss : Z) (ehufsi qtbl : list Z).
Hypothesis HS : 1 <= Ss <= p_Se p.
Hypothesis HSe : p_Se p <= 63.
Hypothesis HP : 0 <= p_precision p <= 12.
Hypothesis HE : length ehufsi = 256%nat.
Hypothesis HQL : length qtbl = 64%nat.
Hypothesis HQ : forall z, 0 <= z < 64 -> 1 <= g qtbl z <= 65535.
Hypothesis F2 : forall bi i j k s, lt_cand o bi i j k s false = false.
Hypothesis F3 : forall bi i, lt_last o bi i false = false.
Variables (bi : Z) (src blk0 : list Z).
Hypothesis HSrc : length src = 64%nat.
Hypothesis HSr : forall z, 0 <= z < 64 -> s16r (g src z).

Definition vals (blk : list Z) : Prop :=
  length blk = 64%nat /\
  (forall i, Ss <= i <= p_Se p -> toward_zero (g src (no i)) (g qtbl (no i)) (g blk (no i))) /\
  (forall z, 0 <= z < 64 -> (forall i, Ss <= i <= p_Se p -> z <> no i) -> g blk z = g blk0 z).
Definition link (blk rs : list Z) (fl : list bool) (q : Z) : Prop :=
  g blk (no q) <> 0 /\ size_of (g blk (no q)) <= p_precision p + 2 /\
  Ss - 1 <= g rs q < q /\ (g rs q = Ss - 1 \/ g blk (no (g rs q)) <> 0) /\ gb fl (g rs q) = true /\
  has_code ehufsi (16 * ((q - g rs q - 1) mod 16) + size_of (g blk (no q))) /\ (16 <= q - g rs q - 1 -> has_code ehufsi 240).
Definition Inv (bnd : Z) (st : acst) : Prop :=
  let '(blk, rs, fl) := st in
  vals blk /\ length rs = 64%nat /\ length fl = 64%nat /\ gb fl (Ss - 1) = true /\
  (forall q, Ss <= q < 64 -> gb fl q = true -> q < bnd /\ link blk rs fl q).

Lemma zero_tz s qq : 1 <= qq -> toward_zero s qq 0.
Proof.
  intros H. exists ((Z.abs s + (8 * qq) / 2) / (8 * qq)). split; [apply rounded_div; [lia|lia|]|].
  - replace (8 * qq) with ((4 * qq) * 2) by lia. apply Z.mod_mul. lia.
  - split; [|lia]. rewrite Z.abs_0. apply Z.div_pos; [|lia]. pose proof (Z.div_pos (8 * qq) 2). lia.
Qed.

Lemma vals_set blk i c : vals blk -> Ss <= i <= p_Se p -> toward_zero (g src (no i)) (g qtbl (no i)) c -> vals (upd blk (Z.to_nat (no i)) c).
Proof.
  intros (L & V1 & V2) Hi T. pose proof (no_range i ltac:(lia)). split; [rewrite length_upd; exact L|]. split.
  - intros k Hk. pose proof (no_range k ltac:(lia)). rewrite g_upd by lia. destruct (Z.eqb_spec (no i) (no k)) as [E|E]; [rewrite <- E; exact T|apply V1; exact Hk].
  - intros z Hz N. rewrite g_upd by lia. destruct (Z.eqb_spec (no i) z) as [E|E]; [exfalso; apply (N i Hi); congruence|]. apply V2; assumption.
Qed.

(* writing position i and above leaves the links below *)
Lemma link_set blk rs fl q i c j : Ss <= q < i -> i < 64 -> length blk = 64%nat -> length rs = 64%nat -> length fl = 64%nat ->
  link blk rs fl q -> link (upd blk (Z.to_nat (no i)) c) (upd rs (Z.to_nat i) j) (upd fl (Z.to_nat i) true) q.
Proof.
  intros Hq Hi LB LR LF (H1 & H2 & H3 & H4 & H5 & H6 & H7). pose proof (no_range i ltac:(lia)). pose proof (no_range q ltac:(lia)). unfold link.
  rewrite (g_upd rs i q) by lia. destruct (Z.eqb_spec i q); [lia|]. pose proof (no_range (g rs q) ltac:(lia)).
  assert (A : forall m, 0 <= m < i -> g (upd blk (Z.to_nat (no i)) c) (no m) = g blk (no m)).
  { intros m Hm. pose proof (no_range m ltac:(lia)). rewrite g_upd by lia. destruct (Z.eqb_spec (no i) (no m)) as [E|E]; [|reflexivity]. apply no_inj in E; lia. }
  rewrite !A by lia. rewrite gb_upd by lia. destruct (Z.eqb_spec i (g rs q)); [lia|].
  split; [exact H1|]. split; [exact H2|]. split; [exact H3|]. split; [exact H4|]. split; [exact H5|]. split; [exact H6|exact H7].
Qed.
Lemma link_set0 blk rs fl q i c : Ss <= q < i -> i < 64 -> length blk = 64%nat -> length rs = 64%nat -> length fl = 64%nat ->
  link blk rs fl q -> link (upd blk (Z.to_nat (no i)) c) rs fl q.
Proof.
  intros Hq Hi LB LR LF (H1 & H2 & H3 & H4 & H5 & H6 & H7). pose proof (no_range i ltac:(lia)). pose proof (no_range q ltac:(lia)). unfold link.
  pose proof (no_range (g rs q) ltac:(lia)).
  assert (A : forall m, 0 <= m < i -> g (upd blk (Z.to_nat (no i)) c) (no m) = g blk (no m)).
  { intros m Hm. pose proof (no_range m ltac:(lia)). rewrite g_upd by lia. destruct (Z.eqb_spec (no i) (no m)) as [E|E]; [|reflexivity]. apply no_inj in E; lia. }
  rewrite !A by lia.
  split; [exact H1|]. split; [exact H2|]. split; [exact H3|]. split; [exact H4|]. split; [exact H5|]. split; [exact H6|exact H7].
Qed.

Lemma size_sign c v : size_of (if v <? 0 then - c else c) = size_of c.
Proof. unfold size_of. destruct (v <? 0); [|reflexivity]. rewrite Z.abs_opp. destruct (Z.eqb_spec (- c) 0), (Z.eqb_spec c 0); try lia; reflexivity. Qed.

Lemma try_ok i j v qval num : Ss <= i <= p_Se p -> Ss - 1 <= j < i -> v = g src (no i) -> 0 < qval ->
  qval <= (Z.abs v + (8 * g qtbl (no i)) / 2) / (8 * g qtbl (no i)) -> num = Z.log2 qval + 1 -> num <= p_precision p + 2 -> qval < 2 ^ 15 ->
  (16 <= i - j - 1 -> has_code ehufsi 240) ->
  forall st, Inv (i + 1) st -> (j = Ss - 1 \/ g (fst (fst st)) (no j) <> 0) ->
  sat (fun st' => Inv (i + 1) st' /\ (forall m, 0 <= m < i -> g (fst (fst st')) (no m) = g (fst (fst st)) (no m))) (try_candidates o ehufsi bi i j (no i) (Z.shiftr v 31) num qval (Z.land (i - 1 - j) 15) st).
Proof.
  intros Hi Hj Ev Hq0 Hq En Hn H15 HZ st HI HJ. pose proof (no_range i ltac:(lia)) as RNi. pose proof (HSr (no i) RNi) as SR. rewrite <- Ev in SR. pose proof (HQ (no i) RNi) as RQ.
  assert (RL : Z.land (i - 1 - j) 15 = (i - j - 1) mod 16). { change 15 with (Z.ones 4). rewrite Z.land_ones by lia. f_equal. lia. }
  pose proof (Z.mod_pos_bound (i - j - 1) 16 ltac:(lia)) as MB. unfold try_candidates. rewrite RL.
  assert (RN0 : 0 < num) by (pose proof (Z.log2_nonneg qval); lia).
  eapply sat_imp. 1: apply (sat_for (fun _ st' => Inv (i + 1) st' /\ (forall m, 0 <= m < i -> g (fst (fst st')) (no m) = g (fst (fst st)) (no m)))).
  - split; [exact HI|reflexivity].
  - intros k [[blk rs] fl] Hk [I2 SAME]. rewrite Z2Nat.id in Hk by lia. rewrite aget_g by lia. cbn [bind].
    destruct (Z.eqb_spec (g ehufsi (16 * ((i - j - 1) mod 16) + (k + 1))) 0) as [E0|E0]; [split; assumption|].
    destruct I2 as (V & LR & LF & FS & LK). assert (LB : length blk = 64%nat) by apply V. rewrite !aget_gb by lia. cbn [bind].
    destruct (lt_cand o bi i j k (gb fl i) (gb fl j)) eqn:EL; [|split; [split; [exact V|auto]|exact SAME]].
    assert (FJ : gb fl j = true). { destruct (gb fl j); [reflexivity|]. rewrite F2 in EL. discriminate. }
    destruct (cand_spec num qval k Hq0 En ltac:(lia)) as [C1 C2]. rewrite sign_apply by exact SR.
    rewrite s16_id. 2:{ unfold s16r. destruct (v <? 0); lia. }
    set (c := if v <? 0 then - candidate num qval k else candidate num qval k).
    assert (CS : size_of c = k + 1). { unfold c. rewrite size_sign. unfold size_of. destruct (Z.eqb_spec (candidate num qval k) 0); [lia|]. rewrite Z.abs_eq by lia. exact C2. }
    assert (CN : c <> 0). { unfold c. destruct (v <? 0); lia. }
    rewrite aset_ok by lia. cbn [bind]. rewrite aset_ok by lia. cbn [bind]. rewrite aset_ok by lia. cbn [bind sat].
    assert (SAME2 : forall m, 0 <= m < i -> g (upd blk (Z.to_nat (no i)) c) (no m) = g blk (no m)).
    { intros m Hm. pose proof (no_range m ltac:(lia)). rewrite g_upd by lia. destruct (Z.eqb_spec (no i) (no m)) as [E|E]; [|reflexivity]. apply no_inj in E; lia. }
    split; [|intros m Hm; cbn [fst]; rewrite SAME2 by lia; apply SAME; lia]. split; [|split; [rewrite length_upd; exact LR|split; [rewrite length_upd; exact LF|split]]].
    + apply vals_set; [exact V|exact Hi|]. exists ((Z.abs v + (8 * g qtbl (no i)) / 2) / (8 * g qtbl (no i))). rewrite <- Ev. split; [|split].
      * apply rounded_div; [lia|lia|]. replace (8 * g qtbl (no i)) with ((4 * g qtbl (no i)) * 2) by lia. apply Z.mod_mul. lia.
      * unfold c. destruct (v <? 0); lia.
      * unfold c. destruct (Z.ltb_spec v 0); nia.
    + rewrite gb_upd by lia. destruct (i =? Ss - 1); [reflexivity|exact FS].
    + intros q Hq2. rewrite gb_upd by lia. destruct (Z.eqb_spec i q) as [<-|NE].
      * intros _. split; [lia|]. unfold link. rewrite (g_upd rs i i) by lia. rewrite Z.eqb_refl. pose proof (no_range j ltac:(lia)).
        rewrite (g_upd blk (no i) (no i)) by lia. rewrite Z.eqb_refl. rewrite gb_upd by lia. destruct (Z.eqb_spec i j); [lia|].
        split; [exact CN|]. split; [rewrite CS; lia|]. split; [lia|]. split; [|split; [exact FJ|split; [rewrite CS; exact E0|exact HZ]]].
        destruct HJ as [HJ|HJ]; [left; exact HJ|right]. rewrite SAME2 by lia. specialize (SAME j ltac:(lia)). cbn [fst] in SAME. rewrite SAME. exact HJ.
      * intros F. destruct (LK q Hq2 F) as [B K]. split; [exact B|]. apply link_set; auto; lia.
  - intros x Hx. exact Hx.
Qed.

Lemma ac_step_ok i st : Ss <= i <= p_Se p -> Inv i st -> sat (Inv (i + 1)) (ac_step o p Ss ehufsi qtbl src bi i st).
Proof.
  intros Hi. destruct st as [[blk rs] fl]. intros I. pose proof I as (V & LR & LF & FS & LK). assert (LB : length blk = 64%nat) by apply V.
  pose proof (no_range i ltac:(lia)) as RNi. pose proof (HSr (no i) RNi) as SR. pose proof (HQ (no i) RNi) as RQ. unfold ac_step.
  rewrite no_ok by lia. cbn [bind]. rewrite !aget_g by lia. cbn [bind]. unfold quant_of. destruct (Z.eqb_spec (8 * g qtbl (no i)) 0); [lia|]. cbn [bind].
  set (v := g src (no i)) in *. set (q := g qtbl (no i)) in *. unfold s16r in SR.
  unfold i32 at 1. destruct (Z.leb_spec (- 2 ^ 31) (Z.abs v * Z.abs v)); [|nia]. destruct (Z.ltb_spec (Z.abs v * Z.abs v) (2 ^ 31)); [|nia]. cbn [andb bind].
  set (Q := (Z.abs v + 8 * q / 2) / (8 * q)). assert (H4 : 8 * q / 2 = 4 * q). { replace (8 * q) with (4 * q * 2) by lia. apply Z.div_mul. lia. }
  assert (HQ0 : 0 <= Q). { unfold Q. apply Z.div_pos; lia. } assert (HQd : Q * (8 * q) <= Z.abs v + 4 * q). { unfold Q. rewrite H4. rewrite Z.mul_comm. apply Z.mul_div_le. lia. }
  destruct (Z.eqb_spec Q 0) as [EQ|NQ].
  { rewrite aset_ok by lia. cbn [bind sat]. split; [|split; [exact LR|split; [exact LF|split; [exact FS|]]]].
    - apply vals_set; [exact V|exact Hi|]. apply zero_tz. fold q. lia.
    - intros k Hk F. destruct (LK k Hk F) as [B K]. split; [lia|]. apply link_set0; auto; lia. }
  set (lim := Z.shiftl 1 (p_precision p + 2)). assert (EL : lim = 2 ^ (p_precision p + 2)) by (unfold lim; rewrite Z.shiftl_mul_pow2 by lia; lia).
  set (qv := if lim <=? Q then lim - 1 else Q). assert (L4 : 4 <= lim). { rewrite EL, Z.pow_add_r by lia. pose proof (Z.pow_pos_nonneg 2 (p_precision p)). lia. }
  assert (R1 : 0 < qv <= Q /\ qv < lim). { unfold qv. destruct (Z.leb_spec lim Q); lia. }
  assert (Q12 : Q <= 4098) by nia.
  unfold JPEG_NBITS. destruct (Z.ltb_spec qv 0); [lia|]. destruct (Z.ltb_spec 65535 qv); [lia|]. cbn [orb]. destruct (Z.eqb_spec qv 0); [lia|]. cbn [bind].
  assert (NB : Z.log2 qv + 1 <= p_precision p + 2). { assert (Z.log2 qv < p_precision p + 2); [|lia]. apply Z.log2_lt_pow2; [lia|]. rewrite <- EL. lia. }
  pose proof (Z.log2_nonneg qv) as LN.
  assert (CD : check_dists (Z.log2 qv + 1) qv (8 * q) (Z.abs v) = Ret tt).
  { assert (SS : sat (fun _ : unit => True) (check_dists (Z.log2 qv + 1) qv (8 * q) (Z.abs v))).
    { unfold check_dists. apply (sat_for (fun (_ : Z) (_ : unit) => True)); [exact Logic.I|]. intros k u Hk _. rewrite Z2Nat.id in Hk by lia.
      destruct (cand_spec (Z.log2 qv + 1) qv k ltac:(lia) eq_refl ltac:(lia)) as [C1 _]. set (c := candidate _ _ _) in *. clearbody c.
      assert (4 * q <= Z.abs v) by nia. assert (D : - 32768 <= c * (8 * q) - Z.abs v <= 32768) by nia.
      unfold i32 at 1. destruct (Z.leb_spec (- 2 ^ 31) (c * (8 * q) - Z.abs v)); [|lia]. destruct (Z.ltb_spec (c * (8 * q) - Z.abs v) (2 ^ 31)); [|lia]. cbn [andb bind].
      set (d := c * (8 * q) - Z.abs v) in *. clearbody d. unfold i32. destruct (Z.leb_spec (- 2 ^ 31) (d * d)); [|nia]. destruct (Z.ltb_spec (d * d) (2 ^ 31)); [|nia]. exact Logic.I. }
    destruct (check_dists _ _ _ _) as [[]| |]; [reflexivity|contradiction|contradiction]. }
  rewrite CD. cbn [bind].
  assert (IN : Inv (i + 1) (blk, rs, fl)). { split; [exact V|]. split; [exact LR|]. split; [exact LF|]. split; [exact FS|]. intros k Hk F. destruct (LK k Hk F). split; [lia|assumption]. }
  eapply sat_imp. 1: apply (sat_for (fun _ st => Inv (i + 1) st)).
  - exact IN.
  - intros j [[b r] f] Hj IJ. rewrite Z2Nat.id in Hj by lia. pose proof (no_range j ltac:(lia)). rewrite no_ok by lia. cbn [bind]. assert (LB2 : length b = 64%nat) by apply IJ. rewrite aget_g by lia. cbn [bind].
    destruct (negb (j =? Ss - 1) && (g b (no j) =? 0)) eqn:E1; [exact IJ|].
    destruct (negb (Z.shiftr (i - 1 - j) 4 =? 0) && (g ehufsi 240 =? 0)) eqn:E2; [exact IJ|].
    eapply sat_imp. 1: apply (try_ok i j v qv (Z.log2 qv + 1)); auto; try lia.
    + fold q Q. lia.
    + intros G. rewrite Z.shiftr_div_pow2 in E2 by lia. change (2 ^ 4) with 16 in E2. assert (1 <= (i - 1 - j) / 16) by (apply Z.div_le_lower_bound; lia).
      destruct (Z.eqb_spec ((i - 1 - j) / 16) 0); [lia|]. cbn [negb andb] in E2. apply Z.eqb_neq in E2. exact E2.
    + cbn [fst]. destruct (Z.eqb_spec j (Ss - 1)); [left; assumption|]. cbn [negb andb] in E1. apply Z.eqb_neq in E1. right. exact E1.
    + intros x [Hx _]. exact Hx.
  - intros x Hx. exact Hx.
Qed.

Lemma find_last_ok blk rs fl : Inv (p_Se p + 1) (blk, rs, fl) ->
  sat (fun last => Ss - 1 <= last <= p_Se p /\ (last = Ss - 1 \/ gb fl last = true)) (find_last o Ss (p_Se p) bi blk fl).
Proof.
  intros (V & LR & LF & FS & LK). assert (LB : length blk = 64%nat) by apply V. unfold find_last.
  eapply sat_imp. 1: apply (sat_for (fun i last => Ss - 1 <= last < i /\ (last = Ss - 1 \/ gb fl last = true))).
  - split; [lia|left; reflexivity].
  - intros i last Hi [A B]. rewrite Z2Nat.id in Hi by lia. pose proof (no_range i ltac:(lia)). rewrite no_ok by lia. cbn [bind]. rewrite aget_g by lia. cbn [bind].
    destruct (negb (g blk (no i) =? 0)); [|cbn [sat]; split; [lia|exact B]]. rewrite aget_gb by lia. cbn [bind sat].
    destruct (lt_last o bi i (gb fl i)) eqn:E; [|split; [lia|exact B]]. split; [lia|]. right. destruct (gb fl i); [reflexivity|]. rewrite F3 in E. discriminate.
  - intros x [A B]. rewrite Z2Nat.id in A by lia. split; [lia|exact B].
Qed.

(* ---- zeroing out ---- *)
Lemma zero_until_ok last : Ss - 1 <= last -> forall fuel i blk, last <= i <= p_Se p -> i - last < Z.of_nat fuel -> vals blk ->
  sat (fun '(i', b) => i' = last /\ vals b /\ (forall m, last < m <= i -> g b (no m) = 0) /\ (forall m, 0 <= m < 64 -> m <= last \/ i < m -> g b (no m) = g blk (no m)))
      (zero_until fuel last i blk).
Proof.
  intros HL. induction fuel as [|fuel IH]; intros i blk Hi Hf V; [lia|]. cbn [zero_until]. assert (LB : length blk = 64%nat) by apply V.
  destruct (Z.ltb_spec last i) as [G|G].
  - pose proof (no_range i ltac:(lia)). rewrite no_ok by lia. cbn [bind]. rewrite aset_ok by lia. cbn [bind].
    assert (V' : vals (upd blk (Z.to_nat (no i)) 0)). { apply vals_set; [exact V|lia|]. apply zero_tz. apply (HQ (no i)). lia. }
    eapply sat_imp; [apply IH; [lia|lia|exact V']|]. intros [i' b] (E & VB & Z1 & S1). split; [exact E|]. split; [exact VB|].
    assert (A : forall m, 0 <= m < 64 -> g (upd blk (Z.to_nat (no i)) 0) (no m) = if i =? m then 0 else g blk (no m)).
    { intros m Hm. pose proof (no_range m ltac:(lia)). rewrite g_upd by lia. destruct (Z.eqb_spec i m) as [->|N]; [rewrite Z.eqb_refl; reflexivity|].
      destruct (Z.eqb_spec (no i) (no m)) as [E2|E2]; [apply no_inj in E2; lia|reflexivity]. }
    split.
    + intros m Hm. destruct (Z.eq_dec m i) as [->|N]; [|apply Z1; lia]. rewrite S1 by lia. rewrite A by lia. rewrite Z.eqb_refl. reflexivity.
    + intros m Hm D. rewrite S1 by lia. rewrite A by lia. destruct (Z.eqb_spec i m); [lia|reflexivity].
  - cbn [sat]. split; [lia|]. split; [exact V|]. split; [intros m Hm; lia|reflexivity].
Qed.

Definition chain (rs blk : list Z) (i last : Z) : Prop :=
  forall q, i < q <= p_Se p -> g blk (no q) <> 0 ->
    Ss - 1 <= g rs q < q /\ (forall m, g rs q < m < q -> i < m -> g blk (no m) = 0) /\ (i < g rs q -> g blk (no (g rs q)) <> 0) /\ (g rs q <= i -> g rs q = last) /\
    size_of (g blk (no q)) <= p_precision p + 2 /\ has_code ehufsi (16 * ((q - g rs q - 1) mod 16) + size_of (g blk (no q))) /\ (16 <= q - g rs q - 1 -> has_code ehufsi 240).

Lemma zero_runs_ok blk1 rs fl : Inv (p_Se p + 1) (blk1, rs, fl) -> forall fuel i last blk, Z.max (i + 2) 1 <= Z.of_nat fuel -> Ss - 1 <= last <= i -> i <= p_Se p ->
  (last = Ss - 1 \/ gb fl last = true) -> vals blk -> (forall m, 0 <= m <= i -> g blk (no m) = g blk1 (no m)) -> chain rs blk i last ->
  sat (fun b => vals b /\ chain rs b (Ss - 1) (Ss - 1)) (zero_runs fuel Ss last i blk rs).
Proof.
  intros (V1 & LR & LF & FS & LK). induction fuel as [|fuel IH]; intros i last blk Hf HL Hi HK V SAME CH; [lia|]. cbn [zero_runs].
  destruct (Z.leb_spec Ss i) as [G|G].
  - eapply sat_bind; [apply (zero_until_ok last); [lia|lia|lia|exact V]|]. intros [i' b] (-> & VB & Z1 & S1).
    rewrite aget_g by lia. cbn [bind].
    assert (CH2 : chain rs b last last).
    { intros q Hq NZ. assert (Q : i < q). { destruct (Z.le_gt_cases q i); [|lia]. rewrite Z1 in NZ by lia. congruence. }
      rewrite S1 in NZ by lia. destruct (CH q ltac:(lia) NZ) as (C1 & C2 & C3 & C4 & C5 & C6 & C7). rewrite (S1 q) by lia.
      split; [exact C1|]. split; [|split; [|split; [|split; [exact C5|split; [exact C6|exact C7]]]]].
      - intros m Hm Lm. destruct (Z.le_gt_cases m i); [apply Z1; lia|]. rewrite S1 by lia. apply C2; lia.
      - intros Hg. destruct (Z.le_gt_cases (g rs q) i) as [E|E]; [specialize (C4 E); lia|]. rewrite S1 by lia. apply C3. lia.
      - intros Hg. apply C4. lia. }
    destruct HK as [->|HK].
    + destruct fuel as [|fuel]; [lia|]. cbn [zero_runs]. destruct (Z.leb_spec Ss (Ss - 1 - 1)); [lia|]. cbn [sat]. split; [exact VB|exact CH2].
    + destruct (Z.eq_dec last (Ss - 1)) as [->|NL].
      { destruct fuel as [|fuel]; [lia|]. cbn [zero_runs]. destruct (Z.leb_spec Ss (Ss - 1 - 1)); [lia|]. cbn [sat]. split; [exact VB|exact CH2]. }
      destruct (LK last ltac:(lia) HK) as [_ (K1 & K2 & K3 & K4 & K5 & K6 & K7)].
      assert (SB : forall m, 0 <= m <= last -> g b (no m) = g blk1 (no m)). { intros m Hm. rewrite S1 by lia. apply SAME. lia. }
      apply IH; [lia|lia|lia| |exact VB|intros m Hm; apply SB; lia|].
      * right. exact K5.
      * intros q Hq NZ. destruct (Z.eq_dec q last) as [->|NE].
        -- rewrite (SB last) by lia. split; [exact K3|]. split; [intros m Hm Lm; lia|]. split; [intros; lia|]. split; [reflexivity|]. split; [exact K2|]. split; [exact K6|exact K7].
        -- destruct (CH2 q ltac:(lia) NZ) as (C1 & C2 & C3 & C4 & C5 & C6 & C7). split; [exact C1|].
           assert (NZL : g b (no last) <> 0) by (rewrite SB by lia; exact K1).
           assert (GL : last <= g rs q). { destruct (Z.le_gt_cases (g rs q) last) as [E|E]; [rewrite (C4 E); lia|lia]. }
           split; [intros m Hm Lm; apply C2; lia|]. split; [|split; [intros; lia|split; [exact C5|split; [exact C6|exact C7]]]].
           intros _. destruct (Z.eq_dec (g rs q) last) as [->|NN]; [exact NZL|apply C3; lia].
  - cbn [sat]. split; [exact V|]. assert (i = Ss - 1) by lia. assert (last = Ss - 1) by lia. subst i last. exact CH.
Qed.

Lemma chain_encodable rs b : chain rs b (Ss - 1) (Ss - 1) -> encodable ehufsi Ss (p_Se p) (p_precision p + 2) b.
Proof.
  intros CH k Hk NZ. rewrite coef_g in NZ. destruct (CH k ltac:(lia) NZ) as (C1 & C2 & C3 & C4 & C5 & C6 & C7). exists (g rs k).
  split; [exact C1|]. rewrite !coef_g. split; [|split; [|split; [exact C5|split; [exact C6|exact C7]]]].
  - destruct (Z.eq_dec (g rs k) (Ss - 1)); [left; assumption|right]. apply C3. lia.
  - intros m Hm. rewrite coef_g. apply C2; lia.
Qed.

Lemma ac_block_ok rs : vals blk0 -> length rs = 64%nat ->
  sat (fun '(b, rs', e) => vals b /\ encodable ehufsi Ss (p_Se p) (p_precision p + 2) b /\ length rs' = 64%nat /\ 0 <= e <= 2) (ac_block o p Ss ehufsi qtbl bi src blk0 rs).
Proof.
  intros V0 LR. unfold ac_block. rewrite aset_ok by (cbn [length repeat]; lia). cbn [bind].
  eapply sat_bind.
  - apply (sat_for (fun i st => Inv i st)).
    + split; [exact V0|]. split; [exact LR|]. split; [rewrite length_upd; reflexivity|]. split.
      * rewrite gb_upd by (cbn [length repeat]; lia). rewrite Z.eqb_refl. reflexivity.
      * intros q Hq. rewrite gb_upd by (cbn [length repeat]; lia). destruct (Z.eqb_spec (Ss - 1) q); [lia|]. unfold gb. rewrite nth_repeat_lt by lia. discriminate.
    + intros i st Hi. apply ac_step_ok. rewrite Z2Nat.id in Hi by lia. lia.
  - intros [[b1 rs1] fl1] I1. rewrite Z2Nat.id in I1 by lia. replace (Ss + (p_Se p - Ss + 1)) with (p_Se p + 1) in I1 by lia.
    eapply sat_bind; [apply (find_last_ok b1 rs1 fl1 I1)|]. intros last [L1 L2].
    eapply sat_bind.
    + apply (zero_runs_ok b1 rs1 fl1 I1); [lia|lia|lia|exact L2|apply I1|reflexivity|]. intros q Hq. lia.
    + intros b [VB CH]. cbn [sat]. split; [exact VB|]. split; [apply (chain_encodable rs1); exact CH|]. split; [apply I1|].
      destruct (last <? p_Se p), (last =? Ss - 1); lia.
Qed.

Lemma zero_band_ok b : vals b -> sat (fun b' => vals b' /\ encodable ehufsi Ss (p_Se p) (p_precision p + 2) b') (zero_band Ss (p_Se p) b).
Proof.
  intros V. unfold zero_band. eapply sat_imp. 1: apply (sat_for (fun i b => vals b /\ forall m, Ss <= m < i -> g b (no m) = 0)).
  - split; [exact V|]. intros m Hm. lia.
  - intros i b1 Hi [V1 Z1]. rewrite Z2Nat.id in Hi by lia. pose proof (no_range i ltac:(lia)). assert (LB : length b1 = 64%nat) by apply V1. rewrite no_ok by lia. cbn [bind]. rewrite aset_ok by lia. cbn [sat].
    split; [apply vals_set; [exact V1|lia|apply zero_tz; apply (HQ (no i)); lia]|]. intros m Hm. pose proof (no_range m ltac:(lia)). rewrite g_upd by lia.
    destruct (Z.eqb_spec (no i) (no m)) as [E|E]; [reflexivity|]. apply Z1. destruct (Z.eq_dec m i); [congruence|lia].
  - intros x [VX ZX]. split; [exact VX|]. intros k Hk NZ. rewrite coef_g, ZX in NZ by lia. congruence.
Qed.
End AC.
