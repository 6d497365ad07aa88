(* P_Scans.v -- one scan of a progressive script, on whole coefficient arrays; independent of the entropy coder *)
From Coq Require Import Arith.
From Verif Require Import Base M_Coef S_MCU P_MCU P_MCUPass P_MCUDec P_MCUStore M_Scans S_Script S_Block S_Prog S_Scans.
Local Open Scope Z_scope.

(* ---- lists ---- *)
Lemma F2_nth {X Y} (R : X -> Y -> Prop) : forall l l', length l = length l' ->
  (forall j x y, nth_error l j = Some x -> nth_error l' j = Some y -> R x y) -> Forall2 R l l'.
Proof.
  induction l as [|a l IH]; intros [|b l'] L H; cbn in L; try lia; constructor; [exact (H 0%nat a b eq_refl eq_refl)|]. apply IH; [lia|]. intros j x y X1 Y1. exact (H (S j) x y X1 Y1).
Qed.
Lemma nth_combine {X Y} : forall (l : list X) (l' : list Y) j x y, nth_error (combine l l') j = Some (x, y) <-> nth_error l j = Some x /\ nth_error l' j = Some y.
Proof.
  induction l as [|a l IH]; intros [|b l'] [|j] x y; cbn; split; try (intros [? ?]; discriminate); try discriminate.
  - injection 1 as <- <-. auto.
  - intros [H1 H2]. injection H1 as <-. injection H2 as <-. reflexivity.
  - apply IH.
  - apply IH.
Qed.
Lemma nth_seq n j k : nth_error (seq 0 n) j = Some k -> j = k /\ (k < n)%nat.
Proof.
  intros H. assert (L : (j < n)%nat) by (rewrite <- (seq_length n 0); apply nth_error_Some; congruence). apply nth_error_nth with (d := 0%nat) in H. rewrite seq_nth in H by exact L. lia.
Qed.
Lemma nth_seq_some n j : (j < n)%nat -> nth_error (seq 0 n) j = Some j.
Proof. intros L. destruct (nth_error (seq 0 n) j) as [k|] eqn:E; [destruct (nth_seq _ _ _ E); congruence|]. apply nth_error_None in E. rewrite seq_length in E. lia. Qed.

(* ---- blocks ---- *)
Lemma zz_0 a l : zz (a :: l) 0 = a.
Proof. reflexivity. Qed.
Lemma zz_tail a a' l k : 1 <= k < 64 -> zz (a :: l) k = zz (a' :: l) k.
Proof.
  intros H. assert (T : forallb (fun k => negb (Nat.eqb (nth k zigzag 0%nat) 0)) (seq 1 63) = true) by (vm_compute; reflexivity).
  rewrite forallb_forall in T. specialize (T (Z.to_nat k) ltac:(apply in_seq; lia)). unfold zz. destruct (nth (Z.to_nat k) zigzag 0%nat); [discriminate|reflexivity].
Qed.
Lemma blk_len b : length (snd b) = 63%nat -> length (blk_of b) = 64%nat.
Proof. intros H. unfold blk_of. cbn [length]. lia. Qed.
Lemma blk_to l : length l = 64%nat -> blk_of (to_blk l) = l /\ length (snd (to_blk l)) = 63%nat.
Proof. destruct l as [|a l]; [discriminate|]. cbn. intros H. split; [reflexivity|lia]. Qed.

(* ---- scripts ---- *)
Lemma last_snoc pre s c k : last_covering (pre ++ [s]) c k = if coversb s c k then Some s else last_covering pre c k.
Proof. unfold last_covering. rewrite rev_app_distr. reflexivity. Qed.
Lemma coversb_iff s c k : coversb s c k = true <-> covers s c k.
Proof.
  unfold coversb, covers. rewrite !andb_true_iff, !Z.leb_le, existsb_exists. split.
  - intros [[(x & H & E) H1] H2]. apply Z.eqb_eq in E. subst x. auto.
  - intros [H [H1 H2]]. split; [split; [|exact H1]|exact H2]. exists c. split; [exact H|apply Z.eqb_refl].
Qed.
Lemma last_in pre c k p : last_covering pre c k = Some p -> In p pre /\ covers p c k.
Proof. intros H. apply find_some in H. destruct H as [H1 H2]. split; [apply in_rev; exact H1|apply coversb_iff; exact H2]. Qed.

Section Step.
Variables (B : Z) (H W : nat -> nat) (A : arrays).
Hypothesis HB : exists t, 0 < t /\ B = t * 16384 /\ B <= 32768.

(* what the arrays hold after the scans [pre] *)
Definition holds (pre : list scan) (D : arrays) : Prop :=
  forall i r b, length (snd (D i r b)) = 63%nat /\
    ((r < H i)%nat -> (b < W i)%nat -> forall k, 0 <= k < 64 -> coef (D i r b) k = known pre (Z.of_nat i) k (coef (A i r b) k)) /\
    match last_covering pre (Z.of_nat i) 0 with
    | None => fst (D i r b) = 0
    | Some p => - B <= fst (D i r b) < B /\ exists q, fst (D i r b) = q * 2 ^ Al p
    end.
Lemma holds_nil : holds [] zero_arrays.
Proof.
  intros i r b. split; [reflexivity|]. split; [|reflexivity]. intros _ _ k Hk. cbn [last_covering known]. unfold known, last_covering. cbn [rev find]. unfold coef, zero_arrays, zeros. cbn [fst snd].
  change (0 :: repeat 0 63) with (repeat 0 64). unfold zz. apply nth_repeat.
Qed.

Variables (pre : list scan) (s : scan) (g : ks) (nc maxA : Z).
Hypothesis OK : progressive_scan_ok nc maxA pre s.
Hypothesis PRE : forall p, In p pre -> 0 <= Al p.
Hypothesis MA : maxA <= 13.
Hypothesis GO : scan_ok g.
Hypothesis GC : map (fun c => Z.of_nat (k_idx c)) (k_comps g) = comps s.
Hypothesis GD : forall c, In c (k_comps g) -> k_hib c = H (k_idx c) /\ k_wib c = W (k_idx c).
Notation N := (mcu_rows g * k_cols g)%nat.
Notation SZ := (sum (map (fun c => k_MW c * k_MH c) (k_comps g)))%nat.
Notation P k := (pos g (k / k_cols g) (k mod k_cols g)).

Lemma params : 0 <= Al s <= 13 /\ (Ah s = 0 \/ Ah s = Al s + 1) /\ (Ss s = 0 /\ Se s = 0 \/ 1 <= Ss s /\ Ss s <= Se s /\ Se s <= 63 /\ length (k_comps g) = 1%nat).
Proof.
  destruct OK as ((CL & _) & S1 & S2 & A1 & A2 & D1 & D2 & R). split; [lia|]. split.
  - destruct (comps s) as [|c cs] eqn:E; [cbn in CL; lia|]. specialize (R c (Ss s)). assert (CV : covers s c (Ss s)) by (unfold covers; rewrite E; split; [left; reflexivity|lia]). specialize (R CV). destruct (last_covering pre c (Ss s)); lia.
  - destruct (Z.eq_dec (Ss s) 0) as [Z0|Z0]; [left; auto|right]. destruct (D2 Z0) as [D3 _]. rewrite <- GC, map_length in D3. split; [lia|]. split; [lia|]. split; [lia|exact D3].
Qed.
Lemma in_comps c : In c (k_comps g) -> In (Z.of_nat (k_idx c)) (comps s).
Proof. intros I. rewrite <- GC. exact (in_map (fun c => Z.of_nat (k_idx c)) _ _ I). Qed.
Lemma comps_in i : In (Z.of_nat i) (comps s) -> exists c, In c (k_comps g) /\ k_idx c = i.
Proof. rewrite <- GC. intros I. apply in_map_iff in I. destruct I as (c & E & I). exists c. split; [exact I|lia]. Qed.

(* ---- geometry ---- *)
Lemma members_len : length (members g) = SZ.
Proof.
  unfold members. assert (G : forall (l : list kc) n, length (flat_map (fun p => repeat (Z.of_nat (fst p)) (k_MW (snd p) * k_MH (snd p))) (combine (seq n (length l)) l)) = sum (map (fun c => k_MW c * k_MH c)%nat l)).
  { induction l as [|c l IH]; intros n; [reflexivity|]. cbn [length seq combine flat_map map sum fold_right fst snd]. rewrite app_length, repeat_length, IH. reflexivity. }
  apply G.
Qed.
Lemma members_in m : In m (members g) -> 0 <= m < Z.of_nat (length (k_comps g)).
Proof.
  unfold members. intros I. apply in_flat_map in I. destruct I as ([n c] & I & R). apply repeat_spec in R. cbn [fst] in R. subst m. apply in_combine_l in I. apply in_seq in I. lia.
Qed.
Lemma single_real k c r b : length (k_comps g) = 1%nat -> (k < N)%nat -> In (c, r, b) (P k) -> (r < k_hib c)%nat /\ (b < k_wib c)%nat.
Proof.
  intros S1 K I. pose proof I as I2. apply (in_pos g) in I. destruct I as (dy & dx & Hc & Hy & Hx & -> & ->). destruct (pos_bounds g GO k c _ _ K I2) as (_ & _ & _ & _ & _ & B1 & B2).
  pose proof (so_comps g GO c Hc) as KC. destruct (ko_one g c KC S1) as [E1 E2]. rewrite E1, E2 in *. pose proof (ko_wib g c KC) as E3. rewrite E1 in E3. pose proof (ko_lcw g c KC) as E4. rewrite E1 in E4.
  assert (M : mcu_rows g = k_hib c). { unfold mcu_rows. destruct (k_comps g) as [|x [|]]; [discriminate| |discriminate]. destruct Hc as [->|[]]. reflexivity. }
  rewrite M in B1. split; [lia|]. pose proof (so_cols g GO). lia.
Qed.
Lemma placed_iff ms c r b x : well_formed g ms -> In (c, r, b, x) (placed g ms) <-> exists k j, (k < N)%nat /\ nth_error (P k) j = Some (c, r, b) /\ nth_error (nth k ms []) j = Some x.
Proof.
  intros [WL WM]. unfold placed. rewrite in_flat_map. split.
  - intros (k & K & I). apply in_seq in K. apply In_nth_error in I. destruct I as (j & I). apply nth_combine in I. exists k, j. split; [lia|exact I].
  - intros (k & j & K & I). exists k. split; [apply in_seq; lia|]. apply nth_error_In with (n := j). apply nth_combine. exact I.
Qed.
Lemma mcu_len ms k : well_formed g ms -> (k < N)%nat -> length (nth k ms []) = SZ.
Proof. intros [WL WM] K. apply WM. apply nth_In. lia. Qed.
Lemma stored_spec news D : well_formed g (map (map to_blk) news) ->
  (forall c r b x, In (c, r, b, x) (placed g (map (map to_blk) news)) -> stored g news D (k_idx c) r b = x) /\
  (forall i r b, (forall c x, In (c, r, b, x) (placed g (map (map to_blk) news)) -> i <> k_idx c) -> stored g news D i r b = D i r b).
Proof.
  intros WF. unfold stored. assert (ND : NoDup (map key (placed g (map (map to_blk) news)))) by (unfold placed; rewrite (proj1 WF); exact (keys_NoDup g GO _ WF _ (le_n _))).
  revert ND. generalize (placed g (map (map to_blk) news)). clear WF news. intros l. revert D. induction l as [|[[[c r] b] x] l IH]; intros D ND; cbn [fold_left]; [split; [intros ? ? ? ? []|reflexivity]|].
  cbn [map key] in ND. inversion ND as [|? ? N1 N2]; subst. destruct (IH (write1 D (c, r, b, x)) N2) as [I1 I2]. split.
  - intros c' r' b' x' [E|I]; [|exact (I1 _ _ _ _ I)]. injection E as <- <- <- <-. rewrite I2; [cbn [write1]; rewrite !Nat.eqb_refl; reflexivity|]. intros c' x' I' E. apply N1. apply in_map_iff. exists (c', r, b, x'). split; [cbn; congruence|exact I'].
  - intros i r' b' NI. rewrite I2; [|intros c' x' I'; apply (NI c' x'); right; exact I']. cbn [write1]. destruct (Nat.eqb_spec i (k_idx c)) as [E1|]; [|reflexivity]. destruct (Nat.eqb_spec r' r) as [E2|]; [|reflexivity]. destruct (Nat.eqb_spec b' b) as [E3|]; [|reflexivity].
    exfalso. subst. exact (NI c x (or_introl eq_refl) eq_refl).
Qed.

Lemma all_placed ms c r b : well_formed g ms -> In c (k_comps g) -> (r < k_hib c)%nat -> (b < k_wib c)%nat -> exists x, In (c, r, b, x) (placed g ms).
Proof.
  intros WF Hc Hr Hb. pose proof (so_comps g GO c Hc) as K. pose proof (so_cols g GO) as HCo. pose proof (MW_pos g GO c Hc) as MW1. pose proof (MH_pos g GO c Hc) as MH1.
  set (my := (r / k_MH c)%nat). set (mx := (b / k_MW c)%nat).
  assert (B1 : (my < mcu_rows g)%nat).
  { unfold my. apply Nat.div_lt_upper_bound; [lia|]. rewrite (rows_eq g c Hc). pose proof (ko_hib g c K). pose proof (ko_lrh g c K). pose proof (so_T g GO).
    destruct (Nat.eq_dec _ 1) as [Q|Q]; [destruct (ko_one g c K Q) as [_ ->]; lia|destruct (ko_many g c K Q) as [_ ->]; nia]. }
  assert (B2 : (mx < k_cols g)%nat).
  { unfold mx. apply Nat.div_lt_upper_bound; [lia|]. pose proof (ko_wib g c K). pose proof (ko_lcw g c K). nia. }
  set (k := (my * k_cols g + mx)%nat). assert (Hk : (k < N)%nat) by (unfold k; nia). destruct (mcu_at g my mx B2) as [D1 D2]. fold k in D1, D2.
  assert (IP : In (c, r, b) (P k)).
  { rewrite D1, D2. apply in_pos. exists (r mod k_MH c)%nat, (b mod k_MW c)%nat. split; [exact Hc|].
    pose proof (Nat.mod_upper_bound r (k_MH c) ltac:(lia)). pose proof (Nat.mod_upper_bound b (k_MW c) ltac:(lia)). pose proof (Nat.div_mod r (k_MH c) ltac:(lia)). pose proof (Nat.div_mod b (k_MW c) ltac:(lia)). unfold my, mx. lia. }
  apply In_nth_error in IP. destruct IP as (j & IP). assert (Lj : (j < length (nth k ms []))%nat) by (rewrite (mcu_len ms k WF Hk), <- (pos_length g (k / k_cols g) (k mod k_cols g)); apply nth_error_Some; congruence).
  destruct (nth_error (nth k ms []) j) as [x|] eqn:Ex; [|apply nth_error_None in Ex; lia]. exists x. apply placed_iff; [exact WF|]. exists k, j. auto.
Qed.

(* ---- the blocks sent, with the dummies of a DC refinement scan replaced by what they mean to the decoder ---- *)
Definition realb (q : kc * nat * nat) : bool := match q with (c, r, b) => (r <? k_hib c)%nat && (b <? k_wib c)%nat end.
Definition adj (D : arrays) (q : kc * nat * nat) (x : block) : block :=
  if realb q || negb (Ss s =? 0) || (Ah s =? 0) then x
  else match q with (c, r, b) => (fst (D (k_idx c) r b) + (fst x / 2 ^ Al s) mod 2 * 2 ^ Al s, snd x) end.
Definition adjusted (D : arrays) (ms : list (list block)) : list (list block) :=
  map (fun k => map (fun qx => adj D (fst qx) (snd qx)) (combine (P k) (nth k ms []))) (seq 0 N).

Variables (D : arrays) (ms : list (list block)).
Hypothesis INV : holds pre D.
Hypothesis SND : sends_image B g A ms.

Lemma dc_multiple v : - B <= v < B -> - B <= v / 2 ^ Al s * 2 ^ Al s < B.
Proof.
  intros V. destruct HB as (t & T0 & TB & _). destruct params as (AL & _ & _). assert (E : exists u, B = u * 2 ^ Al s).
  { exists (t * 2 ^ (14 - Al s)). rewrite <- Z.mul_assoc, <- Z.pow_add_r by lia. replace (14 - Al s + Al s) with 14 by lia. exact TB. }
  destruct E as (u & EU). assert (0 < 2 ^ Al s) by (apply Z.pow_pos_nonneg; lia). pose proof (Z.div_mod v (2 ^ Al s) ltac:(lia)). pose proof (Z.mod_pos_bound v (2 ^ Al s) ltac:(lia)).
  assert (- u <= v / 2 ^ Al s) by (apply Z.div_le_lower_bound; nia). nia.
Qed.

(* old and new source of each block against what the decoder holds *)
Definition pair_ok (x o : block) : Prop :=
  block_src (blk_of x) /\ block_before (Ss s) (Se s) (Ah s) (blk_of x) (blk_of o) /\ - B <= fst x < B.
Lemma adj_ok k j c r b x : (k < N)%nat -> nth_error (P k) j = Some (c, r, b) -> nth_error (nth k ms []) j = Some x -> pair_ok (adj D (c, r, b) x) (D (k_idx c) r b).
Proof.
  intros K EP EX. destruct SND as [WF SI]. assert (IP : In (c, r, b) (P k)) by (apply nth_error_In with (n := j); exact EP).
  assert (Hc : In c (k_comps g)) by (apply (pos_bounds g GO k c r b K IP)).
  destruct (SI c r b x ltac:(apply placed_iff; [exact WF|]; exists k, j; auto)) as ((X1 & X2 & X3) & XA).
  destruct (INV (k_idx c) r b) as (I1 & I2 & I3). destruct (GD c Hc) as [GH GW]. pose proof params as (AL & AH & SE). destruct OK as (_ & S1 & S2 & A1 & A2 & D1 & D2 & R). clear OK.
  unfold adj, pair_ok. destruct (realb (c, r, b)) eqn:RB; cbn [orb].
  - cbn [realb] in RB. apply andb_prop in RB. destruct RB as [RB1 RB2]. apply Nat.ltb_lt in RB1. apply Nat.ltb_lt in RB2. specialize (XA RB1 RB2). subst x. rewrite GH in RB1. rewrite GW in RB2. specialize (I2 RB1 RB2).
    split; [split; [apply blk_len; exact X1|exact X2]|]. split; [|exact X3]. split; [apply blk_len; exact I1|]. intros i Hi Bi. specialize (I2 i Hi). unfold coef in I2. unfold blk_of. rewrite I2. unfold known.
    specialize (R (Z.of_nat (k_idx c)) i (conj (in_comps c Hc) Bi)). destruct (last_covering pre (Z.of_nat (k_idx c)) i) as [p|].
    + destruct R as [R1 R2]. destruct (Z.eqb_spec (Ah s) 0); [lia|]. rewrite R1. reflexivity.
    + rewrite R. reflexivity.
  - destruct (Z.eqb_spec (Ss s) 0) as [SS|SS]; cbn [negb orb].
    2: { exfalso. destruct SE as [SE|(_ & _ & _ & SE)]; [lia|]. destruct (single_real k c r b SE K IP) as [Q1 Q2]. cbn [realb] in RB. apply Nat.ltb_lt in Q1. apply Nat.ltb_lt in Q2. rewrite Q1, Q2 in RB. discriminate. }
    assert (B0 : Ss s <= 0 <= Se s) by lia. specialize (R (Z.of_nat (k_idx c)) 0 (conj (in_comps c Hc) B0)). specialize (D1 SS). destruct (Z.eqb_spec (Ah s) 0) as [A0|A0]; cbn [orb].
    + split; [split; [apply blk_len; exact X1|exact X2]|]. split; [|exact X3]. split; [apply blk_len; exact I1|]. intros i Hi Bi. assert (i = 0) by lia. subst i. rewrite A0. cbn [Z.eqb]. unfold blk_of. rewrite zz_0.
      destruct (last_covering pre (Z.of_nat (k_idx c)) 0) as [p|]; [lia|exact I3].
    + destruct (last_covering pre (Z.of_nat (k_idx c)) 0) as [p|] eqn:LC; [|lia]. destruct R as [R1 R2]. destruct I3 as [I3 (q & Q)]. cbn [fst snd].
      assert (EP2 : 2 ^ Al p = 2 * 2 ^ Al s) by (replace (Al p) with (Z.succ (Al s)) by lia; apply Z.pow_succ_r; lia). assert (P0 : 0 < 2 ^ Al s) by (apply Z.pow_pos_nonneg; lia).
      pose proof (Z.mod_pos_bound (fst x / 2 ^ Al s) 2 ltac:(lia)) as MB. set (bit := (fst x / 2 ^ Al s) mod 2) in *. set (t := 2 ^ Al s) in *.
      assert (RG : - B <= fst (D (k_idx c) r b) + bit * t < B).
      { destruct HB as (u & U0 & UB & _). assert (EB : exists w, B = w * 2 ^ Al p). { exists (u * 2 ^ (14 - Al p)). rewrite <- Z.mul_assoc, <- Z.pow_add_r by lia. replace (14 - Al p + Al p) with 14 by lia. exact UB. }
        destruct EB as (w & EB). rewrite EP2 in EB, Q. rewrite Q in *. rewrite EB in *. clear - I3 P0 MB. assert (q < w) by (apply (Z.mul_lt_mono_pos_r (2 * t)); lia). assert (0 <= bit * t <= t) by nia. assert (- w <= q) by (apply (Z.mul_le_mono_pos_r _ _ (2 * t)); lia). nia. }
      split; [|split; [|exact RG]].
      * split; [apply blk_len; exact X1|]. intros i Hi. destruct (Z.eq_dec i 0) as [->|]; [unfold blk_of; rewrite zz_0; cbn [fst]; destruct HB as (? & ? & ? & ?); lia|]. unfold blk_of. cbn [fst snd]. rewrite (zz_tail _ (fst x)) by lia. apply (X2 i Hi).
      * split; [apply blk_len; exact I1|]. intros i Hi Bi. assert (i = 0) by lia. subst i. destruct (Z.eqb_spec (Ah s) 0); [lia|]. unfold blk_of. rewrite !zz_0. cbn [fst snd]. unfold at_prec, dc_at. cbn [Z.eqb]. rewrite R1, EP2, Q, EP2.
        replace ((q * (2 * t) + bit * t) / (2 * t)) with q; [lia|]. apply Z.div_unique with (r := bit * t); nia.
Qed.

Lemma adjusted_nth k : (k < N)%nat -> nth k (adjusted D ms) [] = map (fun qx => adj D (fst qx) (snd qx)) (combine (P k) (nth k ms [])).
Proof.
  intros K. unfold adjusted. rewrite nth_indep with (d' := (fun k => map (fun qx => adj D (fst qx) (snd qx)) (combine (P k) (nth k ms []))) 0%nat) by (rewrite map_length, seq_length; exact K).
  rewrite (map_nth (fun k => map (fun qx => adj D (fst qx) (snd qx)) (combine (P k) (nth k ms [])))), seq_nth by exact K. reflexivity.
Qed.
Lemma held_nth k : (k < N)%nat -> nth k (held g D) [] = map (fun q => match q with (c, r, b) => D (k_idx c) r b end) (P k).
Proof.
  intros K. unfold held. rewrite nth_indep with (d' := (fun k => map (fun q => match q with (c, r, b) => D (k_idx c) r b end) (P k)) 0%nat) by (rewrite map_length, seq_length; exact K).
  rewrite (map_nth (fun k => map (fun q => match q with (c, r, b) => D (k_idx c) r b end) (P k))), seq_nth by exact K. reflexivity.
Qed.
Lemma adjusted_len : length (adjusted D ms) = N.
Proof. unfold adjusted. rewrite map_length, seq_length. reflexivity. Qed.
Lemma held_len : length (held g D) = N.
Proof. unfold held. rewrite map_length, seq_length. reflexivity. Qed.
Lemma adj_at k j x : (k < N)%nat -> nth_error (nth k (adjusted D ms) []) j = Some x <-> exists q y, nth_error (P k) j = Some q /\ nth_error (nth k ms []) j = Some y /\ x = adj D q y.
Proof.
  intros K. rewrite adjusted_nth by exact K. rewrite nth_error_map. split.
  - destruct (nth_error (combine (P k) (nth k ms [])) j) as [[q y]|] eqn:E; cbn [option_map]; [|discriminate]. apply nth_combine in E. intros X. injection X as <-. exists q, y. cbn [fst snd]. split; [apply E|]. split; [apply E|reflexivity].
  - intros (q & y & E1 & E2 & ->). rewrite (proj2 (nth_combine _ _ _ q y)) by auto. reflexivity.
Qed.
Lemma held_at k j o : (k < N)%nat -> nth_error (nth k (held g D) []) j = Some o <-> exists c r b, nth_error (P k) j = Some (c, r, b) /\ o = D (k_idx c) r b.
Proof.
  intros K. rewrite held_nth by exact K. rewrite nth_error_map. split.
  - destruct (nth_error (P k) j) as [[[c r] b]|] eqn:E; cbn [option_map]; [|discriminate]. intros X. injection X as <-. exists c, r, b. auto.
  - intros (c & r & b & E & ->). rewrite E. reflexivity.
Qed.
Lemma P_len k : length (P k) = SZ.
Proof. apply pos_length. Qed.
Lemma row_lens k : (k < N)%nat -> length (nth k (adjusted D ms) []) = SZ /\ length (nth k (held g D) []) = SZ.
Proof.
  intros K. rewrite adjusted_nth, held_nth by exact K. rewrite !map_length, combine_length, P_len, (mcu_len ms k (proj1 SND) K). lia.
Qed.

(* the hypothesis of the scan round trips *)
Definition mcu_ready (m o : list (Z * list Z)) : Prop :=
  Forall2 (fun x y => fst x = fst y /\ 0 <= fst x < Z.of_nat (length (k_comps g)) /\ block_src (snd x) /\ block_before (Ss s) (Se s) (Ah s) (snd x) (snd y) /\ - B <= zz (snd x) 0 < B) m o /\
  (Ss s <> 0 -> length m = 1%nat).
Lemma SZ_one : Ss s <> 0 -> SZ = 1%nat.
Proof.
  intros S0. destruct params as (_ & _ & SE). assert (L1 : length (k_comps g) = 1%nat) by (destruct SE as [[SE _]|(_ & _ & _ & SE)]; [contradiction|exact SE]).
  pose proof (so_comps g GO) as KC. assert (SI : single g) by exact L1. destruct (k_comps g) as [|c [|]] eqn:E; try discriminate. destruct (ko_one g c (KC c (or_introl eq_refl)) SI) as [E1 E2]. cbn [map sum fold_right]. rewrite E1, E2. reflexivity.
Qed.
Lemma ready : Forall2 mcu_ready (map (tagged g) (adjusted D ms)) (map (tagged g) (held g D)).
Proof.
  apply F2_nth; [rewrite !map_length, adjusted_len, held_len; reflexivity|]. intros k m o M O. rewrite nth_error_map in M, O.
  destruct (nth_error (adjusted D ms) k) as [m1|] eqn:M1; cbn [option_map] in M; [|discriminate]. injection M as <-. destruct (nth_error (held g D) k) as [o1|] eqn:O1; cbn [option_map] in O; [|discriminate]. injection O as <-.
  assert (K : (k < N)%nat) by (rewrite <- adjusted_len; apply nth_error_Some; congruence). apply nth_error_nth with (d := []) in M1. apply nth_error_nth with (d := []) in O1. destruct (row_lens k K) as [L1 L2]. rewrite M1 in L1. rewrite O1 in L2.
  split.
  - apply F2_nth; [unfold tagged; rewrite !combine_length, !map_length; lia|]. intros j [t x] [u y] X Y. unfold tagged in X, Y. apply nth_combine in X. apply nth_combine in Y. destruct X as [X1 X2], Y as [Y1 Y2]. cbn [fst snd]. split; [congruence|]. split; [apply members_in; apply nth_error_In with (n := j); exact X1|].
    rewrite nth_error_map in X2, Y2. destruct (nth_error m1 j) as [x1|] eqn:X3; cbn [option_map] in X2; [|discriminate]. injection X2 as <-. destruct (nth_error o1 j) as [y1|] eqn:Y3; cbn [option_map] in Y2; [|discriminate]. injection Y2 as <-.
    rewrite <- M1 in X3. rewrite <- O1 in Y3. apply (adj_at k j x1 K) in X3. apply (held_at k j y1 K) in Y3. destruct X3 as (q & z & Q1 & Q2 & ->). destruct Y3 as (c & r & b & R1 & ->). rewrite R1 in Q1. injection Q1 as <-.
    destruct (adj_ok k j c r b z K R1 Q2) as (G1 & G2 & G3). split; [exact G1|]. split; [exact G2|]. unfold blk_of. rewrite zz_0. exact G3.
  - intros S0. unfold tagged. rewrite combine_length, map_length, members_len, L1, (SZ_one S0). reflexivity.
Qed.

(* what the scan leaves in the arrays *)
Definition mcu_done (m o : list (Z * list Z)) (n : list (list Z)) : Prop :=
  length m = length n /\ length o = length n /\
  forall j x y z, nth_error m j = Some x -> nth_error o j = Some y -> nth_error n j = Some z -> block_after (Ss s) (Se s) (Al s) (snd x) (snd y) z.
Lemma done_holds news : length news = N ->
  (forall k m o n, nth_error (map (tagged g) (adjusted D ms)) k = Some m -> nth_error (map (tagged g) (held g D)) k = Some o -> nth_error news k = Some n -> mcu_done m o n) ->
  holds (pre ++ [s]) (stored g news D).
Proof.
  intros LN DN.
  assert (RW : forall k, (k < N)%nat -> length (nth k news []) = SZ /\
    forall j c r b y z, nth_error (P k) j = Some (c, r, b) -> nth_error (nth k ms []) j = Some y -> nth_error (nth k news []) j = Some z -> block_after (Ss s) (Se s) (Al s) (blk_of (adj D (c, r, b) y)) (blk_of (D (k_idx c) r b)) z).
  { intros k K. destruct (row_lens k K) as [L1 L2].
    assert (E1 : nth_error (map (tagged g) (adjusted D ms)) k = Some (tagged g (nth k (adjusted D ms) []))) by (rewrite nth_error_map, (nth_error_nth' (adjusted D ms) [] (n := k)) by (rewrite adjusted_len; exact K); reflexivity).
    assert (E2 : nth_error (map (tagged g) (held g D)) k = Some (tagged g (nth k (held g D) []))) by (rewrite nth_error_map, (nth_error_nth' (held g D) [] (n := k)) by (rewrite held_len; exact K); reflexivity).
    assert (E3 : nth_error news k = Some (nth k news [])) by (apply nth_error_nth'; lia).
    destruct (DN k _ _ _ E1 E2 E3) as (D1 & D2 & D3). split; [rewrite <- D1; unfold tagged; rewrite combine_length, map_length, members_len, L1; lia|].
    intros j c r b y z HP HY HZ. assert (LJ : (j < SZ)%nat) by (rewrite <- (P_len k); apply nth_error_Some; congruence).
    destruct (nth_error (members g) j) as [t|] eqn:T; [|apply nth_error_None in T; rewrite members_len in T; lia].
    specialize (D3 j (t, blk_of (adj D (c, r, b) y)) (t, blk_of (D (k_idx c) r b)) z). cbn [snd] in D3. apply D3; [| |exact HZ].
    - unfold tagged. apply nth_combine. split; [exact T|]. rewrite nth_error_map. rewrite (proj2 (adj_at k j (adj D (c, r, b) y) K)); [reflexivity|]. exists (c, r, b), y. auto.
    - unfold tagged. apply nth_combine. split; [exact T|]. rewrite nth_error_map. rewrite (proj2 (held_at k j (D (k_idx c) r b) K)); [reflexivity|]. exists c, r, b. auto. }
  assert (WF : well_formed g (map (map to_blk) news)).
  { split; [rewrite map_length; exact LN|]. intros m I. apply in_map_iff in I. destruct I as (n & <- & I). rewrite map_length. apply In_nth_error in I. destruct I as (k & I). assert (K : (k < N)%nat) by (rewrite <- LN; apply nth_error_Some; congruence).
    destruct (RW k K) as [R _]. apply nth_error_nth with (d := []) in I. rewrite I in R. exact R. }
  destruct (stored_spec news D WF) as [ST1 ST2]. destruct SND as [WS SI]. pose proof params as (AL & AH & SE). pose proof OK as (_ & S1 & S2 & A1 & A2 & D1 & D2 & R). assert (P0 : 0 < 2 ^ Al s) by (apply Z.pow_pos_nonneg; lia).
  (* where a block comes from *)
  assert (PL : forall c r b x, In (c, r, b, x) (placed g (map (map to_blk) news)) -> exists k j y z, (k < N)%nat /\ nth_error (P k) j = Some (c, r, b) /\ nth_error (nth k ms []) j = Some y /\ x = to_blk z /\
     block_after (Ss s) (Se s) (Al s) (blk_of (adj D (c, r, b) y)) (blk_of (D (k_idx c) r b)) z).
  { intros c r b x I. apply (placed_iff _ c r b x WF) in I. destruct I as (k & j & K & I1 & I2). destruct (RW k K) as [L RWk].
    change (@nil block) with (map to_blk []) in I2. rewrite map_nth, nth_error_map in I2. destruct (nth_error (nth k news []) j) as [z|] eqn:Z1; cbn [option_map] in I2; [|discriminate]. injection I2 as <-.
    assert (LJ : (j < length (nth k ms []))%nat) by (rewrite (mcu_len ms k WS K), <- (P_len k); apply nth_error_Some; congruence). destruct (nth_error (nth k ms []) j) as [y|] eqn:Y1; [|apply nth_error_None in Y1; lia].
    exists k, j, y, z. split; [exact K|]. split; [exact I1|]. split; [exact Y1|]. split; [reflexivity|]. exact (RWk j c r b y z I1 Y1 Z1). }
  intros i r b. destruct (INV i r b) as (I1 & I2 & I3).
  assert (DEC : (exists c x, In (c, r, b, x) (placed g (map (map to_blk) news)) /\ i = k_idx c) \/ forall c x, In (c, r, b, x) (placed g (map (map to_blk) news)) -> i <> k_idx c).
  { destruct (Exists_dec (fun q : kc * nat * nat * block => match q with (c, r', b', _) => i = k_idx c /\ r' = r /\ b' = b end) (placed g (map (map to_blk) news))) as [E|E].
    - intros [[[c r'] b'] x]. destruct (Nat.eq_dec i (k_idx c)); [|right; tauto]. destruct (Nat.eq_dec r' r); [|right; tauto]. destruct (Nat.eq_dec b' b); [left; tauto|right; tauto].
    - left. apply Exists_exists in E. destruct E as ([[[c r'] b'] x] & E1 & E2 & -> & ->). exists c, x. auto.
    - right. intros c x I E'. apply E. apply Exists_exists. exists (c, r, b, x). auto. }
  destruct DEC as [(c & x & IX & ->)|NI].
  - rewrite (ST1 c r b x IX). destruct (PL c r b x IX) as (k & j & y & z & K & HP & HY & -> & [LZ BA]). destruct (blk_to z LZ) as [EZ LZ2]. destruct (SI c r b y ltac:(apply placed_iff; [exact WS|]; exists k, j; auto)) as ((Y1 & Y2 & Y3) & YA).
    assert (Hc : In c (k_comps g)) by (apply (pos_bounds g GO k c r b K); apply nth_error_In with (n := j); exact HP). destruct (GD c Hc) as [GH GW]. pose proof (in_comps c Hc) as IC.
    assert (CV : forall k0, coversb s (Z.of_nat (k_idx c)) k0 = (Ss s <=? k0) && (k0 <=? Se s)).
    { intros k0. unfold coversb. replace (existsb (Z.eqb (Z.of_nat (k_idx c))) (comps s)) with true; [reflexivity|]. symmetry. apply existsb_exists. exists (Z.of_nat (k_idx c)). split; [exact IC|apply Z.eqb_refl]. }
    split; [exact LZ2|]. split.
    + intros Hr Hb k0 Hk0. unfold coef at 1. change (fst (to_blk z) :: snd (to_blk z)) with (blk_of (to_blk z)). rewrite EZ, (BA k0 Hk0). unfold known. rewrite last_snoc, CV.
      assert (EA : adj D (c, r, b) y = A (k_idx c) r b). { rewrite <- YA by (rewrite ?GH, ?GW; assumption). unfold adj. cbn [realb]. rewrite GH, GW. destruct (Nat.ltb_spec r (H (k_idx c))); [|lia]. destruct (Nat.ltb_spec b (W (k_idx c))); [|lia]. reflexivity. }
      destruct ((Ss s <=? k0) && (k0 <=? Se s)); [rewrite EA; reflexivity|]. exact (I2 Hr Hb k0 Hk0).
    + destruct (adj_ok k j c r b y K HP HY) as (_ & _ & RG). specialize (BA 0 ltac:(lia)). rewrite <- EZ in BA. unfold blk_of in BA. rewrite !zz_0 in BA. rewrite last_snoc, CV. destruct ((Ss s <=? 0) && (0 <=? Se s)).
      * unfold at_prec, dc_at in BA. cbn [Z.eqb] in BA. rewrite BA. split; [apply dc_multiple; exact RG|]. eexists. reflexivity.
      * rewrite BA. exact I3.
  - rewrite (ST2 i r b NI). split; [exact I1|]. split.
    + intros Hr Hb k0 Hk0. rewrite (I2 Hr Hb k0 Hk0). unfold known. rewrite last_snoc. destruct (coversb s (Z.of_nat i) k0) eqn:CV; [|reflexivity]. exfalso. apply coversb_iff in CV. destruct CV as [CV _]. apply comps_in in CV. destruct CV as (c & Hc & <-). destruct (GD c Hc) as [GH GW].
      rewrite <- GH in Hr. rewrite <- GW in Hb. destruct (all_placed (map (map to_blk) news) c r b WF Hc Hr Hb) as (x & IX). exact (NI c x IX eq_refl).
    + rewrite last_snoc. destruct (coversb s (Z.of_nat i) 0) eqn:CV; [|exact I3]. apply coversb_iff in CV. specialize (R (Z.of_nat i) 0 CV). destruct (last_covering pre (Z.of_nat i) 0) as [p|].
      * destruct I3 as [I3 (q & Q)]. split; [exact I3|]. exists (2 * q). rewrite Q. destruct R as [R1 R2]. replace (Al p) with (Z.succ (Al s)) by lia. rewrite Z.pow_succ_r by lia. lia.
      * rewrite I3. split; [destruct HB as (t & T0 & -> & _); lia|]. exists 0. reflexivity.
Qed.
End Step.
