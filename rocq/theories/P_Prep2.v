(* P_Prep2.v -- pre_process_data and pre_process_context *)
From Verif Require Import Base M_Prep S_Prep P_Prep.
Open Scope nat_scope.

Section P.
Variable c : pcfg.
Hypothesis Hc : pcfg_ok c.
Notation v := (p_v c).
Notation w := (p_w c).
Notation du := (p_du c).
Notation H := (p_H c).
Notation grp s := (x_cur s * p_du c + x_rgc s).

(* unchanged by preprocessing *)
Definition frame (s s' : pst) : Prop := x_cur s' = x_cur s /\ x_susp s' = x_susp s /\ x_y s' = x_y s /\ x_log s' = x_log s.

Definition SInv (s : pst) (n : nat) : Prop :=
  n <= H /\ x_togo s = H - n /\ x_rgc s <= du /\ x_cur s <= total c /\
  (n < H -> x_nbr s < v /\ n = grp s * v + x_nbr s /\
     (forall i, i < x_nbr s -> x_cb s i = Some (grp s * v + i)) /\ OB c s (x_cur s) (x_rgc s)) /\
  (n = H -> x_cur s < total c -> x_rgc s = du /\ S (x_cur s) = total c /\ OB c s (x_cur s) du).

Lemma pre_simple_ok : p_ctx c = false -> forall fuel y0 avail i s, SInv s (y0 + i) -> y0 + avail <= H -> avail - i < fuel ->
  x_cur s < total c ->
  exists s' i', pre_simple c fuel y0 avail i s = Ret (s', i') /\ SInv s' (y0 + i') /\ frame s s' /\
    i <= i' /\ (i' <= avail \/ i' = i) /\ (x_rgc s' = du \/ avail <= i' /\ y0 + i' < H) /\ (x_rgc s < du -> x_rgc s' = du -> i < i').
Proof.
  intros Hx. pose proof (Hv c Hc) as HV. pose proof (Hw c Hc) as HW. pose proof (Hdu c Hc) as HD.
  assert (Ecap : cap c = v) by (unfold cap; rewrite Hx; reflexivity).
  induction fuel as [|fuel IH]; intros y0 avail i s Inv Hay Hf Hcur; [lia|].
  cbn [pre_simple]. destruct (Nat.ltb_spec i avail) as [Hi|Hi].
  2:{ cbn [andb]. exists s, i. split; [reflexivity|]. split; [exact Inv|]. split; [unfold frame; auto|]. split; [lia|]. split; [right; reflexivity|].
      split; [|lia]. destruct Inv as (N1 & N2 & N3 & N4 & N5 & N6). destruct (Nat.eq_dec (y0 + i) H) as [K|K].
      - left. exact (proj1 (N6 K Hcur)).
      - right. split; [exact Hi|lia]. }
  destruct (Nat.ltb_spec (x_rgc s) du) as [Hr|Hr]; cbn [andb].
  2:{ exists s, i. split; [reflexivity|]. split; [exact Inv|]. split; [unfold frame; auto|]. split; [lia|]. split; [right; reflexivity|].
      destruct Inv as (N1 & N2 & N3 & N4 & N5 & N6). split; [left; lia|lia]. }
  destruct Inv as (N1 & N2 & N3 & N4 & N5 & N6). destruct (N5 ltac:(lia)) as (B1 & B2 & B3 & B4). clear N5 N6.
  set (nr := Nat.min (v - x_nbr s) (avail - i)). assert (Hnr : 1 <= nr /\ nr <= v - x_nbr s /\ nr <= avail - i) by (unfold nr; lia).
  destruct (convert_ok c nr y0 avail i (x_nbr s) (x_cb s)) as (b & Eb & Qb); [lia|rewrite Ecap; lia|]. rewrite Eb. cbn [bind].
  set (g := grp s) in *.
  assert (Cb : forall k, k < x_nbr s + nr -> b k = Some (g * v + k)).
  { intros k Hk. rewrite Qb. destruct (between_spec (x_nbr s) k (x_nbr s + nr)) as [K|K]; [f_equal; lia|apply B3; lia]. }
  assert (Hlow : g * v < H) by lia.
  rewrite N2. replace (H - (y0 + i) - nr) with (H - (y0 + (i + nr))) by lia.
  destruct (Nat.eqb_spec (H - (y0 + (i + nr))) 0) as [Hz|Hz]; cbn [andb].
  - (* the bottom of the image *)
    assert (Eh : y0 + (i + nr) = H) by lia.
    assert (Full : exists b2, (if x_nbr s + nr <? v then b0 <- expand_cb c (v - (x_nbr s + nr)) (x_nbr s + nr) (x_nbr s + nr) b ;; Ret (b0, v)
                     else Ret (b, x_nbr s + nr)) = Ret (b2, v) /\ forall k, k < v -> b2 k = Some (clampy H (Z.of_nat (g * v + k)))).
    { destruct (Nat.ltb_spec (x_nbr s + nr) v) as [K|K].
      - destruct (expand_cb_ok c (v - (x_nbr s + nr)) (x_nbr s + nr) (x_nbr s + nr) b (x_nbr s + nr - 1) (g * v + (x_nbr s + nr - 1))) as (b2 & E2 & Q2);
          [|apply Cb; lia|rewrite Ecap; lia|].
        { replace (Z.of_nat (x_nbr s + nr) - 1)%Z with (Z.of_nat (x_nbr s + nr - 1)) by lia. apply cbi_id. rewrite Ecap. lia. }
        exists b2. rewrite E2. split; [reflexivity|]. intros k Hk. rewrite Q2. destruct (between_spec (x_nbr s + nr) k (x_nbr s + nr + (v - (x_nbr s + nr)))) as [K2|K2].
        + rewrite (clamp_hi c Hc) by lia. f_equal. lia.
        + rewrite (clamp_in c) by lia. apply Cb. lia.
      - exists b. split; [do 2 f_equal; lia|]. intros k Hk. rewrite (clamp_in c) by lia. apply Cb. lia. }
    destruct Full as (b2 & E2 & C2). rewrite E2. cbn [bind]. rewrite Nat.eqb_refl.
    destruct (ds_ok c Hc 0 (x_cur s) (x_rgc s) b2 (x_ob s) Hr) as (o & Eo & Qo).
    { intros _. exact Hlow. } { exact B4. }
    { rewrite Hx, Ecap. intros k Hk. cbn [Z.of_nat Z.add]. rewrite (cbget_ok c b2 _ k (clampy H (Z.of_nat (g * v + k)))); [|apply cbi_id; lia|apply C2, Hk].
      do 2 f_equal. fold g. lia. }
    rewrite Eo. cbn [bind].
    assert (Hlast : S (x_cur s) = total c).
    { assert (~ S (x_cur s) < total c); [|lia]. rewrite (total_iff c Hc). 
      assert ((g + 1) * v <= (S (x_cur s)) * (v * du)); [|lia]. unfold g. replace (S (x_cur s) * (v * du)) with ((x_cur s * du + du) * v) by lia. apply Nat.mul_le_mono_r. lia. }
    assert (Hg : g = real_groups c - 1).
    { assert (g < real_groups c) by (apply (groups_iff c Hc); exact Hlow). assert (~ g + 1 < real_groups c); [|lia]. rewrite (groups_iff c Hc). lia. }
    destruct (Nat.ltb_spec (S (x_rgc s)) du) as [Hs|Hs].
    + assert (Erow : S (x_rgc s) * w = S (x_rgc s * w + (w - 1))) by lia.
      destruct (expand_ob_ok c ((du - S (x_rgc s)) * w) (x_rgc s * w + (w - 1)) (S (x_rgc s) * w) o (comp_row c (x_cur s * (du * w) + (x_rgc s * w + (w - 1))))) as (o2 & Eo2 & Qo2).
      { apply Qo. lia. } { rewrite <- Nat.mul_add_distr_r. apply Nat.mul_le_mono_r. lia. }
      rewrite <- Erow in Eo2. rewrite Eo2. cbn [bind]. eexists _, (i + nr). split; [reflexivity|]. rewrite Eh.
      split; [|split; [unfold frame; auto|]].
      * unfold SInv. cbn [x_togo x_rgc x_cur x_nbr x_cb x_ob]. split; [lia|]. split; [lia|]. split; [lia|]. split; [lia|]. split; [lia|].
        intros _ _. split; [reflexivity|]. split; [exact Hlast|]. unfold OB. cbn [x_ob]. intros k Hk. rewrite Qo2.
        destruct (between_spec (S (x_rgc s) * w) k (S (x_rgc s) * w + (du - S (x_rgc s)) * w)) as [K|K].
        -- f_equal. unfold comp_row. rewrite Hx. cbn [orb]. destruct (row_split c Hc (x_cur s) (x_rgc s) (w - 1) ltac:(lia)) as (D & M). fold g in D.
           assert (G1 : real_groups c * w = (g + 1) * w) by (f_equal; assert (g < real_groups c) by (apply (groups_iff c Hc); exact Hlow); lia).
           assert (G2 : x_cur s * (du * w) + S (x_rgc s) * w = (g + 1) * w) by (unfold g; lia).
           destruct (Nat.ltb_spec (x_cur s * (du * w) + (x_rgc s * w + (w - 1))) (real_groups c * w)) as [_|A]; [|lia].
           destruct (Nat.ltb_spec (x_cur s * (du * w) + k) (real_groups c * w)) as [A|_]; [lia|]. rewrite D, M, <- Hg. reflexivity.
        -- apply Qo. assert (S (x_rgc s) * w + (du - S (x_rgc s)) * w = du * w) by (rewrite <- Nat.mul_add_distr_r; f_equal; lia). lia.
      * cbn [x_rgc]. split; [lia|]. split; [left; lia|]. split; [left; reflexivity|lia].
    + assert (Er : S (x_rgc s) = du) by lia. 
      match goal with |- exists s' i', pre_simple c fuel _ _ _ ?t = _ /\ _ => set (s1 := t) end.
      destruct (IH y0 avail (i + nr) s1) as (s' & i' & E & I' & F' & L1 & L2 & L3 & L4).
      { rewrite Eh. unfold SInv, s1. cbn [x_togo x_rgc x_cur x_nbr x_cb x_ob]. split; [lia|]. split; [lia|]. split; [lia|]. split; [lia|]. split; [lia|].
        intros _ _. split; [exact Er|]. split; [exact Hlast|]. unfold OB. cbn [x_ob]. intros k Hk. apply Qo. rewrite Nat.add_1_r, Er. exact Hk. }
      { exact Hay. } { lia. } { exact Hcur. }
      exists s', i'. split; [exact E|]. split; [exact I'|]. split; [exact F'|]. split; [lia|]. split; [left; lia|]. split; [exact L3|lia].
  - (* more rows to come *)
    cbn [bind]. destruct (Nat.eqb_spec (x_nbr s + nr) v) as [Hq|Hq].
    + destruct (ds_ok c Hc 0 (x_cur s) (x_rgc s) b (x_ob s) Hr) as (o & Eo & Qo).
      { intros _. exact Hlow. } { exact B4. }
      { rewrite Hx, Ecap. intros k Hk. cbn [Z.of_nat Z.add]. rewrite (cbget_ok c b _ k (g * v + k)); [|apply cbi_id; lia|apply Cb; lia].
        f_equal. fold g. replace (Z.of_nat g * Z.of_nat v + Z.of_nat k)%Z with (Z.of_nat (g * v + k)) by lia. rewrite (clamp_in c) by lia. reflexivity. }
      rewrite Eo. cbn [bind].
      match goal with |- exists s' i', pre_simple c fuel _ _ _ ?t = _ /\ _ => set (s1 := t) end.
      destruct (IH y0 avail (i + nr) s1) as (s' & i' & E & I' & F' & L1 & L2 & L3 & L4).
      { unfold SInv, s1. cbn [x_togo x_rgc x_cur x_nbr x_cb x_ob]. split; [lia|]. split; [lia|]. split; [lia|]. split; [lia|]. split; [|lia].
        intros _. split; [lia|]. split; [fold g in B2; unfold g in *; lia|]. split; [lia|]. unfold OB. cbn [x_ob]. intros k Hk. apply Qo. lia. }
      { exact Hay. } { lia. } { exact Hcur. }
      exists s', i'. split; [exact E|]. split; [exact I'|]. split; [exact F'|]. split; [lia|]. split; [left; lia|]. split; [exact L3|lia].
    + cbn [bind].
      match goal with |- exists s' i', pre_simple c fuel _ _ _ ?t = _ /\ _ => set (s1 := t) end.
      destruct (IH y0 avail (i + nr) s1) as (s' & i' & E & I' & F' & L1 & L2 & L3 & L4).
      { unfold SInv, s1. cbn [x_togo x_rgc x_cur x_nbr x_cb x_ob]. split; [lia|]. split; [lia|]. split; [lia|]. split; [lia|]. split; [|lia].
        intros _. split; [lia|]. split; [fold g; lia|]. split; [|exact B4]. intros k Hk. apply Cb, Hk. }
      { exact Hay. } { lia. } { exact Hcur. }
      exists s', i'. split; [exact E|]. split; [exact I'|]. split; [exact F'|]. split; [lia|]. split; [left; lia|]. split; [exact L3|lia].
Qed.
End P.
