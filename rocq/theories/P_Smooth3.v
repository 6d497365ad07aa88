(* P_Smooth3.v -- the sliding registers hold the clamped neighbourhood. *)
From Verif Require Import Base M_Smooth S_Smooth P_Smooth P_Smooth2.

Lemma mapm_ok {A B} (f : A -> outcome B) (g : A -> B) l :
  (forall x, In x l -> f x = Ret (g x)) -> mapm f l = Ret (map g l).
Proof.
  induction l as [|x t IH]; intros H; [reflexivity|].
  cbn [mapm map]. rewrite H by (left; reflexivity). cbn [bind].
  rewrite IH by (intros y Hy; apply H; right; exact Hy). reflexivity.
Qed.

Lemma mapm_ex {A B} (f : A -> outcome B) l :
  (forall x, In x l -> exists y, f x = Ret y) ->
  exists ys, mapm f l = Ret ys /\ length ys = length l /\
    forall n x, nth_error l n = Some x -> exists y, nth_error ys n = Some y /\ f x = Ret y.
Proof.
  induction l as [|x t IH]; intros H.
  - exists []. split; [reflexivity|]. split; [reflexivity|]. intros [|n] x Hx; discriminate Hx.
  - destruct (H x (or_introl eq_refl)) as [y Hy].
    destruct IH as (ys & E & L & N); [intros z Hz; apply H; right; exact Hz|].
    exists (y :: ys). cbn [mapm]. rewrite Hy. cbn [bind]. rewrite E. cbn [bind].
    split; [reflexivity|]. split; [cbn [length]; rewrite L; reflexivity|].
    intros [|n] z Hz.
    + cbn [nth_error] in *. injection Hz as <-. exists y. split; [reflexivity|exact Hy].
    + cbn [nth_error] in *. apply N; exact Hz.
Qed.

Lemma wsum_ext w D1 D2 :
  (forall i j, In i offsets -> In j offsets -> D1 i j = D2 i j) -> wsum w D1 = wsum w D2.
Proof.
  intros H. unfold wsum. f_equal. apply map_ext_in. intros i Hi. f_equal. apply map_ext_in.
  intros j Hj. rewrite H by assumption. reflexivity.
Qed.

Lemma smoothed_ext q cb D1 D2 o1 o2 k :
  (forall i j, In i offsets -> In j offsets -> D1 i j = D2 i j) ->
  (forall k, o1 k = o2 k) ->
  smoothed q cb D1 o1 k = smoothed q cb D2 o2 k.
Proof.
  intros H Ho. unfold smoothed. rewrite Ho.
  rewrite (wsum_ext (weight W_00) D1 D2 H).
  destruct (find _ targets) as [t|]; [|reflexivity].
  destruct (weights_for _ t) as [w|]; [|reflexivity].
  rewrite (wsum_ext w D1 D2 H). reflexivity.
Qed.

Lemma regs_eq (i a b c d e a' b' c' d' e' : Z) :
  a = a' -> b = b' -> c = c' -> d = d' -> e = e' ->
  Ret (i, [a; b; c; d; e]) = Ret (i, [a'; b'; c'; d'; e']).
Proof. intros -> -> -> -> ->. reflexivity. Qed.

Section Regs.
Variables (win : barray) (g : sgeom) (N : Z) (D : Z -> Z -> Z) (B : Z -> Z -> list Z).
Hypothesis Hdc : forall i c, 0 <= i < N -> 0 <= c < g_wb g -> dc_at win i c = Ret (D i c).
Hypothesis Hbk : forall i c, 0 <= i < N -> 0 <= c < g_wb g -> block_at win i c = Ret (B i c).
Hypothesis HB : forall i c, 0 <= i < N -> 0 <= c < g_wb g -> length (B i c) = 64%nat.
Hypothesis HD : forall i c, 0 <= i < N -> 0 <= c < g_wb g -> r16 (D i c).
Hypothesis Hf : 0 <= g_first g.
Hypothesis Hfl : g_first g <= g_last g.
Hypothesis Hlw : g_last g < g_wb g.

Let C (i z : Z) : Z := D i (clamp (g_first g) (g_wb g - 1) z).

Definition pre (b i : Z) : list Z :=
  if b =? g_first g then [C i b; C i b; C i b; C i b; C i b]
  else [C i (b - 2); C i (b - 1); C i b; C i (b + 1); C i (b + 1)].
Definition post (b i : Z) : list Z :=
  [C i (b - 2); C i (b - 1); C i b; C i (b + 1); C i (b + 2)].

Lemma C_eq i a b : clamp (g_first g) (g_wb g - 1) a = clamp (g_first g) (g_wb g - 1) b ->
  C i a = C i b.
Proof. intros H. unfold C. rewrite H. reflexivity. Qed.

Lemma reg_update_ok b i :
  0 <= i < N -> g_first g <= b <= g_last g ->
  reg_update win g b (i, pre b i) = Ret (i, post b i).
Proof.
  intros Hi Hb. unfold reg_update, pre, post.
  destruct (Z.eqb_spec b (g_first g)) as [E|E]; cbn [andb].
  - destruct (Z.ltb_spec b (g_wb g - 1)).
    + rewrite Hdc by lia. cbn [bind nth].
      destruct (Z.ltb_spec (b + 1) (g_wb g - 1)).
      * rewrite Hdc by lia. cbn [bind nth].
        replace (D i (b + 1)) with (C i (b + 1)) by (unfold C; f_equal; unfold clamp; lia).
        replace (D i (b + 2)) with (C i (b + 2)) by (unfold C; f_equal; unfold clamp; lia).
        apply regs_eq; apply C_eq; unfold clamp; lia.
      * cbn [bind].
        replace (D i (b + 1)) with (C i (b + 1)) by (unfold C; f_equal; unfold clamp; lia).
        apply regs_eq; apply C_eq; unfold clamp; lia.
    + destruct (Z.ltb_spec (b + 1) (g_wb g - 1)); [lia|]. cbn [bind].
      apply regs_eq; apply C_eq; unfold clamp; lia.
  - cbn [bind]. destruct (Z.ltb_spec (b + 1) (g_wb g - 1)).
    + rewrite Hdc by lia. cbn [bind nth].
      replace (D i (b + 2)) with (C i (b + 2)) by (unfold C; f_equal; unfold clamp; lia).
      reflexivity.
    + cbn [bind].
      apply regs_eq; apply C_eq; unfold clamp; lia.
Qed.

Lemma reg_shift_ok b i :
  g_first g <= b -> reg_shift (i, post b i) = (i, pre (b + 1) i).
Proof.
  intros Hb. unfold reg_shift, post, pre. cbn [nth].
  destruct (Z.eqb_spec (b + 1) (g_first g)); [lia|].
  replace (b + 1 - 2) with (b - 1) by ring. replace (b + 1 - 1) with b by ring.
  replace (b + 1 + 1) with (b + 2) by ring. reflexivity.
Qed.

Lemma C_r16 i z : 0 <= i < N -> r16 (C i z).
Proof. intros H. apply HD; [exact H|]. unfold clamp. lia. Qed.

Lemma window_nbh b i0 i1 i2 i3 i4 i j :
  In i offsets -> In j offsets ->
  nbh (concat (map snd (map (fun i => (i, post b i)) [i0; i1; i2; i3; i4]))) i j
  = C (nth (Z.to_nat (i + 2)) [i0; i1; i2; i3; i4] 0) (b + j).
Proof.
  intros Hi Hj. cbn [map snd concat app post]. unfold offsets in *.
  assert (E2 : b + -2 = b - 2) by ring. assert (E1 : b + -1 = b - 1) by ring.
  assert (E0 : b + 0 = b) by ring.
  unfold nbh.
  destruct Hi as [<-|[<-|[<-|[<-|[<-|[]]]]]]; destruct Hj as [<-|[<-|[<-|[<-|[<-|[]]]]]];
  repeat match goal with |- context [Z.to_nat ?e] =>
    let v := eval vm_compute in (Z.to_nat e) in change (Z.to_nat e) with v end;
  cbn [nth]; rewrite ?E2, ?E1, ?E0; reflexivity.
Qed.

Lemma smooth_cols_ok q cb cur i0 i1 i2 i3 i4 :
  quants_ok q -> 0 <= cur < N ->
  Forall (fun i => 0 <= i < N) [i0; i1; i2; i3; i4] ->
  forall n b, g_first g <= b -> b + Z.of_nat n <= g_last g + 1 ->
  exists outs, smooth_cols n win g q cb cur b (map (fun i => (i, pre b i)) [i0; i1; i2; i3; i4])
    = Ret outs /\ length outs = n /\
    forall t, (t < n)%nat -> length (nth t outs []) = 64%nat /\
      forall k, nth k (nth t outs []) 0 =
        smoothed (fun k => nth k q 0) (fun i => nth i cb 0)
          (fun i j => C (nth (Z.to_nat (i + 2)) [i0; i1; i2; i3; i4] 0) (b + Z.of_nat t + j))
          (fun k => nth k (B cur (b + Z.of_nat t)) 0) k.
Proof.
  intros Hq Hc Hidx. induction n as [|n IH]; intros b Hb Hn.
  - exists []. split; [reflexivity|]. split; [reflexivity|]. intros t Ht; lia.
  - cbn [smooth_cols]. rewrite Hbk by lia. cbn [bind].
    rewrite (mapm_ok _ (fun ir => (fst ir, post b (fst ir)))).
    2:{ intros x Hx. apply in_map_iff in Hx. destruct Hx as (i & <- & Hin). cbn [fst].
        rewrite Forall_forall in Hidx. apply reg_update_ok; [apply Hidx; exact Hin|lia]. }
    cbn [bind]. rewrite (map_map (fun i => (i, pre b i))). cbn [fst].
    destruct (smooth_block_ok q cb
       (concat (map snd (map (fun i => (i, post b i)) [i0; i1; i2; i3; i4]))) (B cur b))
      as (out & Eo & Lo & No).
    + exact Hq.
    + reflexivity.
    + cbn [map snd concat app post].
      repeat (apply Forall_cons_iff in Hidx; destruct Hidx as [? Hidx]).
      repeat (apply Forall_cons; [apply C_r16; assumption|]). apply Forall_nil.
    + apply HB; lia.
    + rewrite Eo. cbn [bind].
      rewrite (map_map (fun i => (i, post b i))).
      rewrite (map_ext_in _ (fun i => (i, pre (b + 1) i)))
        by (intros; apply reg_shift_ok; exact Hb).
      destruct (IH (b + 1) ltac:(lia) ltac:(lia)) as (outs & E & L & T).
      rewrite E. cbn [bind]. exists (out :: outs).
      split; [reflexivity|]. split; [cbn [length]; rewrite L; reflexivity|].
      intros [|t] Ht.
      * cbn [nth]. split; [exact Lo|]. intros k. rewrite No.
        apply smoothed_ext.
        -- intros i j Hi Hj. rewrite window_nbh by assumption.
           replace (b + Z.of_nat 0 + j) with (b + j) by lia. reflexivity.
        -- intros k'. replace (b + Z.of_nat 0) with b by lia. reflexivity.
      * cbn [nth]. destruct (T t ltac:(lia)) as [T1 T2]. split; [exact T1|]. intros k. rewrite T2.
        replace (b + 1 + Z.of_nat t) with (b + Z.of_nat (S t)) by lia. reflexivity.
Qed.

Lemma reg_init_ok i : 0 <= i < N -> reg_init win g i = Ret (pre (g_first g) i).
Proof.
  intros Hi. unfold reg_init, pre. rewrite Hdc by lia. cbn [bind]. rewrite Z.eqb_refl.
  replace (C i (g_first g)) with (D i (g_first g)); [reflexivity|].
  unfold C. f_equal. unfold clamp. lia.
Qed.
End Regs.
