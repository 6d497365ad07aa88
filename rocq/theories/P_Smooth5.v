(* P_Smooth5.v -- properties of the specification and of smoothing_ok. *)
From Verif Require Import Base M_Smooth S_Smooth P_Smooth P_Smooth2 P_Smooth3 P_Smooth4.

Lemma find_target k t : find (fun t => (t_pos t =? k)%nat) targets = Some t ->
  In t targets /\ t_pos t = k.
Proof.
  intros H. pose proof (find_some _ _ H) as [H1 H2]. split; [exact H1|].
  apply Nat.eqb_eq. exact H2.
Qed.

Lemma smoothed_changed q cb D old k : smoothed q cb D old k <> old k ->
  (k = 0%nat /\ only_dc_known cb = true) \/
  (exists t, In t targets /\ t_pos t = k /\ cb (t_index t) <> 0 /\ old k = 0 /\
     (only_dc_known cb = true \/ t_other t <> None)).
Proof.
  unfold smoothed. destruct (Nat.eqb_spec k 0) as [->|Hk].
  - destruct (only_dc_known cb); [left; split; reflexivity|intros H; exfalso; apply H; reflexivity].
  - intros H. right.
    destruct (find _ targets) as [t|] eqn:Ef; [|exfalso; apply H; reflexivity].
    destruct (find_target _ _ Ef) as [Hin Hp].
    exists t. split; [exact Hin|]. split; [exact Hp|].
    destruct (weights_for _ t) as [w|] eqn:Ew; [|exfalso; apply H; reflexivity].
    destruct (Z.eqb_spec (cb (t_index t)) 0) as [E1|E1]; cbn [negb andb] in H;
      [exfalso; apply H; reflexivity|].
    destruct (Z.eqb_spec (old k) 0) as [E2|E2]; [|exfalso; apply H; reflexivity].
    split; [exact E1|]. split; [exact E2|].
    unfold weights_for in Ew. destruct (only_dc_known cb); [left; reflexivity|right; congruence].
Qed.

Lemma targets_index t : In t targets -> (1 <= t_index t <= 9)%nat.
Proof.
  unfold targets. intros H.
  repeat (destruct H as [<-|H]; [cbn [t_index]; lia|]). destruct H.
Qed.

Lemma smoothed_identity q cb D old k :
  (forall i, (1 <= i <= 9)%nat -> cb i = 0) -> smoothed q cb D old k = old k.
Proof.
  intros H. destruct (Z.eq_dec (smoothed q cb D old k) (old k)) as [E|E]; [exact E|exfalso].
  destruct (smoothed_changed _ _ _ _ _ E) as [[_ Ho]|(t & Hin & _ & Hne & _)].
  - unfold only_dc_known in Ho. cbn [seq forallb] in Ho. rewrite (H 1%nat) in Ho by lia.
    discriminate Ho.
  - apply Hne. apply H. apply targets_index. exact Hin.
Qed.

Lemma predicted_bounded al num q : 0 < al -> 0 < q -> Z.abs (predicted al num q) < 2 ^ al.
Proof.
  intros Ha Hq. unfold predicted. cbv zeta.
  pose proof (rounded_nonneg num q Hq). destruct (Z.ltb_spec 0 al); [|lia].
  pose proof (Z.pow_pos_nonneg 2 al ltac:(lia) ltac:(lia)).
  rewrite Z.abs_mul. destruct (Z.abs_spec (Z.min (rounded num q) (2 ^ al - 1)));
  destruct (Z.sgn_spec num) as [[_ E]|[[_ E]|[_ E]]]; rewrite E; cbn [Z.abs]; lia.
Qed.

Lemma predicted_zero al q : 0 < q -> predicted al 0 q = 0.
Proof. intros. unfold predicted. cbn [Z.sgn]. reflexivity. Qed.

Lemma predicted_exact x q : 0 < q -> predicted 0 (q * (256 * x)) q = x.
Proof.
  intros Hq. unfold predicted. cbv zeta. change (0 <? 0) with false. cbv iota.
  unfold rounded. rewrite Z.abs_mul, (Z.abs_eq q) by lia. rewrite Z.abs_mul. change (Z.abs 256) with 256.
  replace (q * (256 * Z.abs x) + 128 * q) with (128 * q + Z.abs x * (256 * q)) by ring.
  rewrite Z.div_add by lia. rewrite Z.div_small by lia. rewrite Z.add_0_l.
  rewrite Z.sgn_mul, Z.sgn_mul, (Z.sgn_pos q) by lia. cbn [Z.sgn]. 
  destruct x; cbn [Z.sgn Z.abs]; lia.
Qed.

Lemma wsum_const w x : wsum w (fun _ _ => x) = x * wsum w (fun _ _ => 1).
Proof. unfold wsum, offsets. cbn [map zsum fold_right]. ring. Qed.

Lemma flat_weights t w od : In t targets -> weights_for od t = Some w -> wsum w (fun _ _ => 1) = 0.
Proof.
  unfold targets. intros H Hw.
  repeat (destruct H as [<-|H];
    [destruct od; cbn [weights_for t_dc_only t_other] in Hw;
     first [discriminate Hw | injection Hw as <-; vm_compute; reflexivity]|]).
  destruct H.
Qed.

Lemma smoothed_flat q cb D old k x : 
  (forall k, In k [0; 1; 8; 16; 9; 2; 3; 10; 17; 24]%nat -> 0 < q k) ->
  (forall i j, In i offsets -> In j offsets -> D i j = x) -> r16 x -> old 0%nat = x ->
  smoothed q cb D old k = old k.
Proof.
  intros Hq HD Hx H0. unfold smoothed. cbv zeta. destruct (Nat.eqb_spec k 0) as [->|Hk].
  - destruct (only_dc_known cb); [|reflexivity].
    rewrite (wsum_ext _ D (fun _ _ => x) HD), wsum_const.
    change (wsum (weight W_00) (fun _ _ => 1)) with 256.
    replace (x * 256) with (256 * x) by ring. rewrite predicted_exact by (apply Hq; left; reflexivity).
    rewrite s16_id by exact Hx. congruence.
  - destruct (find _ targets) as [t|] eqn:Ef; [|reflexivity].
    destruct (find_target _ _ Ef) as [Hin Hp].
    destruct (weights_for _ t) as [w|] eqn:Ew; [|reflexivity].
    destruct (negb (cb (t_index t) =? 0)); cbn [andb]; [|reflexivity].
    destruct (Z.eqb_spec (old k) 0) as [E|E]; [|reflexivity].
    rewrite (wsum_ext w D (fun _ _ => x) HD), wsum_const, (flat_weights _ _ _ Hin Ew).
    rewrite Z.mul_0_r, Z.mul_0_r, predicted_zero; [rewrite E; reflexivity|].
    apply Hq. subst k. clear - Hin. unfold targets in Hin.
    repeat (destruct Hin as [<-|Hin]; [cbn; tauto|]). destruct Hin.
Qed.

(* smoothing_ok *)
Definition comp_smoothable (c : scomp) : Prop :=
  (exists q, sc_quant c = Some q /\ quant_nonzero q = true) /\ 0 <= nth 0 (sc_bits c) 0.
Definition comp_inexact (c : scomp) : Prop :=
  exists i, (1 <= i <= 9)%nat /\ nth i (sc_bits c) 0 <> 0.

Lemma latch_useful n c l p u : latch_comp n c = (l, p, u) -> (u = true <-> comp_inexact c).
Proof.
  unfold latch_comp. intros H. apply pair_equal_spec in H. destruct H as [_ <-].
  rewrite existsb_exists. split.
  - intros (i & Hi & E). apply in_seq in Hi. unfold SAVED_COEFS in Hi. exists i. split; [lia|].
    apply negb_true_iff, Z.eqb_neq in E. exact E.
  - intros (i & Hi & E). exists i. split; [apply in_seq; unfold SAVED_COEFS; lia|].
    apply negb_true_iff, Z.eqb_neq. exact E.
Qed.

Definition latch_of (n : Z) (c : scomp) : list Z := fst (fst (latch_comp n c)).
Definition prev_of (n : Z) (c : scomp) : list Z := snd (fst (latch_comp n c)).

Lemma smoothing_loop_spec n cs : forall u,
  match smoothing_loop n cs u with
  | None => ~ Forall comp_smoothable cs
  | Some (ls, ps, r) =>
      Forall comp_smoothable cs /\ ls = map (latch_of n) cs /\ ps = map (prev_of n) cs /\
      (r = true <-> (u = true \/ Exists comp_inexact cs))
  end.
Proof.
  induction cs as [|c t IH]; intros u; cbn [smoothing_loop].
  - split; [apply Forall_nil|]. split; [reflexivity|]. split; [reflexivity|].
    rewrite Exists_nil. tauto.
  - destruct (sc_quant c) as [q|] eqn:Eq.
    2:{ intros H. apply Forall_cons_iff in H. destruct H as [[(q & E & _) _] _]. congruence. }
    destruct (quant_nonzero q) eqn:En; cbn [negb].
    2:{ intros H. apply Forall_cons_iff in H. destruct H as [[(q' & E & E') _] _].
        rewrite Eq in E. injection E as <-. congruence. }
    destruct (Z.ltb_spec (nth 0 (sc_bits c) 0) 0) as [Hl|Hl].
    { intros H. apply Forall_cons_iff in H. destruct H as [[_ H] _]. lia. }
    destruct (latch_comp n c) as [[l p] u'] eqn:El.
    pose proof (latch_useful _ _ _ _ _ El) as Hu.
    specialize (IH (u || u')). destruct (smoothing_loop n t (u || u')) as [[[ls ps] r]|].
    + destruct IH as (H1 & H2 & H3 & H4).
      split; [apply Forall_cons; [split; [exists q; split; assumption|exact Hl]|exact H1]|].
      split; [cbn [map]; unfold latch_of at 1; rewrite El, H2; reflexivity|].
      split; [cbn [map]; unfold prev_of at 1; rewrite El, H3; reflexivity|].
      rewrite H4, orb_true_iff, Hu, Exists_cons. tauto.
    + intros H. apply IH. apply Forall_cons_iff in H. exact (proj2 H).
Qed.

Lemma start_output_pass_spec dbs prog bits n cs ls ps :
  start_output_pass dbs prog bits n cs = Some (ls, ps) <->
  (dbs = true /\ prog = true /\ bits = true /\ Forall comp_smoothable cs /\
   Exists comp_inexact cs /\ ls = map (latch_of n) cs /\ ps = map (prev_of n) cs).
Proof.
  unfold start_output_pass, smoothing_ok.
  pose proof (smoothing_loop_spec n cs false) as H.
  destruct dbs; [|split; [discriminate|intros (E & _); discriminate E]].
  destruct prog; cbn [negb orb]; [|split; [discriminate|intros (_ & E & _); discriminate E]].
  destruct bits; cbn [negb]; [|split; [discriminate|intros (_ & _ & E & _); discriminate E]].
  destruct (smoothing_loop n cs false) as [[[ls' ps'] r]|].
  - destruct H as (H1 & -> & -> & H4). destruct r.
    + split.
      * intros E. injection E as <- <-. destruct H4 as [H4 _]. destruct (H4 eq_refl) as [?|?]; [discriminate|].
        tauto.
      * intros (_ & _ & _ & _ & _ & -> & ->). reflexivity.
    + split; [discriminate|]. intros (_ & _ & _ & _ & Hx & _).
      destruct H4 as [_ H4]. discriminate (H4 (or_intror Hx)).
  - split; [discriminate|]. intros (_ & _ & _ & Hx & _). exfalso. apply H. exact Hx.
Qed.

(* transposition *)
Definition tpos (k : nat) : nat := (8 * (k mod 8) + k / 8)%nat.
Definition tindex (i : nat) : nat := nth i [0; 2; 1; 5; 4; 3; 9; 8; 7; 6]%nat i.

Lemma wsum_transposed w D : wsum (transposed w) (fun i j => D j i) = wsum w D.
Proof. unfold wsum, offsets, transposed. cbn [map zsum fold_right]. ring. Qed.
Lemma wsum_transposed' w D : wsum w (fun i j => D j i) = wsum (transposed w) D.
Proof. unfold wsum, offsets, transposed. cbn [map zsum fold_right]. ring. Qed.

Lemma wsum_ext_w w1 w2 D :
  (forall i j, In i offsets -> In j offsets -> w1 i j = w2 i j) -> wsum w1 D = wsum w2 D.
Proof.
  intros H. unfold wsum. f_equal. apply map_ext_in. intros i Hi. f_equal. apply map_ext_in.
  intros j Hj. rewrite H by assumption. reflexivity.
Qed.

Ltac offs := unfold offsets in *;
  intros ? ? [<-|[<-|[<-|[<-|[<-|[]]]]]] [<-|[<-|[<-|[<-|[<-|[]]]]]]; vm_compute; reflexivity.

Lemma wsum_sym11c D : wsum (weight W_11c) (fun i j => D j i) = wsum (weight W_11c) D.
Proof. rewrite wsum_transposed'. apply wsum_ext_w. offs. Qed.
Lemma wsum_sym11n D : wsum (weight W_11n) (fun i j => D j i) = wsum (weight W_11n) D.
Proof. rewrite wsum_transposed'. apply wsum_ext_w. offs. Qed.
Lemma wsum_sym00 D : wsum (weight W_00) (fun i j => D j i) = wsum (weight W_00) D.
Proof. rewrite wsum_transposed'. apply wsum_ext_w. offs. Qed.

Lemma only_dc_tr cb : only_dc_known (fun i => cb (tindex i)) = only_dc_known cb.
Proof.
  unfold only_dc_known. cbn [seq forallb tindex nth].
  destruct (cb 1%nat =? -1), (cb 2%nat =? -1), (cb 3%nat =? -1), (cb 4%nat =? -1), (cb 5%nat =? -1),
    (cb 6%nat =? -1), (cb 7%nat =? -1), (cb 8%nat =? -1), (cb 9%nat =? -1); reflexivity.
Qed.

Lemma tpos_invol k : (k < 64)%nat -> tpos (tpos k) = k.
Proof. intros Hk. do 64 (destruct k as [|k]; [reflexivity|]). lia. Qed.

Lemma smoothed_other q cb D old k :
  k <> 0%nat -> find (fun t => (t_pos t =? k)%nat) targets = None -> smoothed q cb D old k = old k.
Proof.
  intros H0 Hf. unfold smoothed. destruct (Nat.eqb_spec k 0); [contradiction|].
  rewrite Hf. reflexivity.
Qed.

Lemma smoothed_target q cb D old k i t :
  find (fun t => (t_pos t =? k)%nat) targets = Some t -> t_index t = i -> k <> 0%nat ->
  smoothed q cb D old k =
    match weights_for (only_dc_known cb) t with
    | None => old k
    | Some w => if negb (cb i =? 0) && (old k =? 0)
                then s16 (predicted (cb i) (q 0%nat * wsum w D) (q k)) else old k
    end.
Proof.
  intros Hf <- H0. unfold smoothed. destruct (Nat.eqb_spec k 0); [contradiction|].
  rewrite Hf. reflexivity.
Qed.

Ltac tcase a b i j t t' :=
  change (tpos a) with b;
  eapply eq_trans; [exact (smoothed_target _ _ _ _ a i t eq_refl eq_refl ltac:(discriminate))|];
  symmetry;
  eapply eq_trans; [exact (smoothed_target _ _ _ _ b j t' eq_refl eq_refl ltac:(discriminate))|];
  rewrite only_dc_tr; change (tindex i) with j; change (tpos a) with b; change (tpos 0) with 0%nat;
  match goal with |- context [only_dc_known ?c] => destruct (only_dc_known c) end;
  cbv beta iota delta [weights_for t_dc_only t_other t];
  cbv beta iota delta [weights_for t_dc_only t_other t'];
  first [reflexivity | rewrite wsum_sym11c; reflexivity | rewrite wsum_sym11n; reflexivity
        | rewrite wsum_transposed; reflexivity | rewrite wsum_transposed'; reflexivity].

Definition T1 := mktarget 1 0 1 (weight W_01c) (Some (weight W_01n)).
Definition T2 := mktarget 2 1 0 (transposed (weight W_01c)) (Some (transposed (weight W_01n))).
Definition T3 := mktarget 3 2 0 (weight W_20c) (Some (weight W_20n)).
Definition T4 := mktarget 4 1 1 (weight W_11c) (Some (weight W_11n)).
Definition T5 := mktarget 5 0 2 (transposed (weight W_20c)) (Some (transposed (weight W_20n))).
Definition T6 := mktarget 6 0 3 (weight W_03) None.
Definition T7 := mktarget 7 1 2 (weight W_12) None.
Definition T8 := mktarget 8 2 1 (transposed (weight W_12)) None.
Definition T9 := mktarget 9 3 0 (transposed (weight W_03)) None.

Lemma smoothed_transpose q cb D old k : (k < 64)%nat ->
  smoothed (fun k => q (tpos k)) (fun i => cb (tindex i)) (fun i j => D j i)
           (fun k => old (tpos k)) k
  = smoothed q cb D old (tpos k).
Proof.
  intros Hk.
  destruct (Nat.eq_dec k 0) as [->|N0].
  { change (tpos 0) with 0%nat. unfold smoothed. cbn [Nat.eqb]. rewrite only_dc_tr, wsum_sym00.
    change (tpos 0) with 0%nat. reflexivity. }
  destruct (Nat.eq_dec k 1) as [->|N1]; [tcase 1%nat 8%nat 1%nat 2%nat T1 T2|].
  destruct (Nat.eq_dec k 8) as [->|N2]; [tcase 8%nat 1%nat 2%nat 1%nat T2 T1|].
  destruct (Nat.eq_dec k 16) as [->|N3]; [tcase 16%nat 2%nat 3%nat 5%nat T3 T5|].
  destruct (Nat.eq_dec k 9) as [->|N4]; [tcase 9%nat 9%nat 4%nat 4%nat T4 T4|].
  destruct (Nat.eq_dec k 2) as [->|N5]; [tcase 2%nat 16%nat 5%nat 3%nat T5 T3|].
  destruct (Nat.eq_dec k 3) as [->|N6]; [tcase 3%nat 24%nat 6%nat 9%nat T6 T9|].
  destruct (Nat.eq_dec k 10) as [->|N7]; [tcase 10%nat 17%nat 7%nat 8%nat T7 T8|].
  destruct (Nat.eq_dec k 17) as [->|N8]; [tcase 17%nat 10%nat 8%nat 7%nat T8 T7|].
  destruct (Nat.eq_dec k 24) as [->|N9]; [tcase 24%nat 3%nat 9%nat 6%nat T9 T6|].
  rewrite (smoothed_other _ _ _ _ k) by (try assumption; apply find_none; assumption).
  assert (F : forall a, tpos k = a -> k = tpos a) by (intros a <-; symmetry; apply tpos_invol; exact Hk).
  rewrite (smoothed_other _ _ _ _ (tpos k)); [reflexivity| |];
    [|apply find_none]; intros E; apply F in E; vm_compute in E; contradiction.
Qed.
