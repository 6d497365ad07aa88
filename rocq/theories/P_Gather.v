(* P_Gather.v -- statistics pass: counts = symbol uses *)
From Verif Require Import Base M_HuffTbl S_Huff S_Stream S_Block P_HuffTbl P_BitRead P_HuffDec M_HuffDec M_HuffEnc P_HuffEnc P_HuffScan M_GenTbl M_Gather S_Gather.

Definition tally (c : list Z) (syms : list Z) : list Z :=
  fold_left (fun c s => upd c (Z.to_nat s) (nth (Z.to_nat s) c 0 + 1)) syms c.
Definition occ (syms : list Z) (s : Z) : Z := Z.of_nat (length (filter (Z.eqb s) syms)).

Lemma tally_length syms : forall c, length (tally c syms) = length c.
Proof. induction syms as [|s syms IH]; intros c; cbn; auto. unfold tally in IH. rewrite IH. apply length_upd. Qed.
Lemma tally_app a b c : tally c (a ++ b) = tally (tally c a) b.
Proof. unfold tally. apply fold_left_app. Qed.
Lemma tally_cons s a c : tally c (s :: a) = tally (tally c [s]) a.
Proof. reflexivity. Qed.

Lemma nth_tally s : 0 <= s -> forall syms c, Forall (fun x => 0 <= x < Z.of_nat (length c)) syms ->
  nth (Z.to_nat s) (tally c syms) 0 = nth (Z.to_nat s) c 0 + occ syms s.
Proof.
  intros Hs. induction syms as [|x syms IH]; intros c HF; unfold occ; cbn [filter length].
  - cbn. lia.
  - inversion HF; subst. rewrite tally_cons, IH.
    2:{ rewrite tally_length; auto. }
    unfold occ. cbn [tally fold_left]. destruct (Z.eqb_spec s x) as [->|Hne].
    + rewrite nth_upd_eq by lia. cbn [length]. lia.
    + rewrite nth_upd_neq by lia. lia.
Qed.

Lemma bump_spec c i : 0 <= i < Z.of_nat (length c) -> bump c i = Ret (tally c [i]).
Proof.
  intros H. unfold bump. rewrite (aget_nth c i 0) by lia. cbn [bind]. rewrite aset_ok by lia. reflexivity.
Qed.

Lemma bit_length_spec : forall fuel v n, 0 <= v < 2 ^ Z.of_nat fuel -> bit_length fuel v n = Ret (n + Z.of_nat (category v)).
Proof.
  induction fuel as [|f IH]; intros v n Hv.
  - change (2 ^ Z.of_nat 0) with 1 in Hv. replace v with 0 by lia. cbn. f_equal. lia.
  - cbn [bit_length]. destruct (Z.eqb_spec v 0) as [->|Hne]; [cbn; f_equal; lia|].
    rewrite Nat2Z.inj_succ, Z.pow_succ_r in Hv by lia.
    rewrite Z.shiftr_div_pow2 by lia. change (2 ^ 1) with 2.
    rewrite IH by (split; [apply Z.div_pos; lia|apply Z.div_lt_upper_bound; lia]).
    f_equal. unfold category. destruct (Z.eqb_spec v 0); [lia|].
    rewrite (Z.abs_eq v) by lia.
    destruct (Z.eqb_spec (v / 2) 0) as [E|E].
    + assert (v = 1) by (pose proof (Z.div_mod v 2 ltac:(lia)); pose proof (Z.mod_pos_bound v 2 ltac:(lia)); lia).
      subst. cbn. lia.
    + assert (0 < v / 2) by (pose proof (Z.div_pos v 2 ltac:(lia) ltac:(lia)); lia).
      rewrite (Z.abs_eq (v / 2)) by lia.
      assert (Z.log2 v = Z.log2 (v / 2) + 1).
      { rewrite (Z.div_mod v 2) at 1 by lia. pose proof (Z.mod_pos_bound v 2 ltac:(lia)).
        assert (Hm : v mod 2 = 0 \/ v mod 2 = 1) by lia. destruct Hm as [->| ->].
        - rewrite Z.add_0_r, Z.log2_double by lia. lia.
        - rewrite Z.log2_succ_double by lia. lia. }
      pose proof (Z.log2_nonneg (v / 2)). rewrite !Z2Nat.id by lia. lia.
Qed.

Lemma category_abs v : category (Z.abs v) = category v.
Proof. unfold category. replace (Z.abs (Z.abs v)) with (Z.abs v) by lia. destruct (Z.eqb_spec (Z.abs v) 0), (Z.eqb_spec v 0); auto; lia. Qed.

Lemma count_zrl_spec : forall q fuel r ac, (q <= fuel)%nat -> (r < 16)%nat -> length ac = 257%nat ->
  count_zrl fuel (Z.of_nat (16 * q + r)) ac = Ret (Z.of_nat r, tally ac (repeat 240 q)).
Proof.
  induction q as [|q IH]; intros fuel r ac Hf Hr L.
  - destruct fuel; cbn [count_zrl]; destruct (Z.ltb_spec 15 (Z.of_nat (16 * 0 + r))); try lia; cbn [repeat tally fold_left]; do 2 f_equal; lia.
  - destruct fuel as [|fuel]; [lia|]. cbn [count_zrl]. destruct (Z.ltb_spec 15 (Z.of_nat (16 * S q + r))); [|lia].
    rewrite bump_spec by lia. cbn [bind].
    replace (Z.of_nat (16 * S q + r) - 16) with (Z.of_nat (16 * q + r)) by lia.
    rewrite IH by (auto; try lia; rewrite tally_length; auto). reflexivity.
Qed.

Lemma natural_order_zz : forall k, (k < 64)%nat -> nth k jpeg_natural_order 0 = Z.of_nat (nth k zigzag 0%nat).
Proof.
  assert (H : forallb (fun k => nth k jpeg_natural_order 0 =? Z.of_nat (nth k zigzag 0%nat)) (seq 0 64) = true) by (vm_compute; reflexivity).
  intros k Hk. rewrite forallb_forall in H. apply Z.eqb_eq, H. apply in_seq. lia.
Qed.
Lemma zigzag_lt64 k : (k < 64)%nat -> (nth k zigzag 0 < 64)%nat.
Proof.
  assert (H : forallb (fun k => nth k zigzag 0 <? 64)%nat (seq 0 64) = true) by (vm_compute; reflexivity).
  intros Hk. rewrite forallb_forall in H. apply Nat.ltb_lt, H. apply in_seq. lia.
Qed.
Lemma zigzag_length : length zigzag = 64%nat. Proof. vm_compute; reflexivity. Qed.

Lemma skipn_nth_cons {A} (l : list A) k d : (k < length l)%nat -> skipn k l = nth k l d :: skipn (S k) l.
Proof. revert k. induction l as [|a l IH]; intros [|k] H; cbn in *; try lia; auto. apply IH; lia. Qed.

Definition eob (r : Z) : list Z := if 0 <? r then [0] else [].

Lemma ac_symbols_range mcb : (mcb <= 15)%nat -> forall l r, Forall (fun v => (category v <= mcb)%nat) l ->
  Forall (fun s => 0 <= s < 256) (ac_symbols r l).
Proof.
  intros Hm. induction l as [|v l IH]; intros r HF; cbn [ac_symbols].
  - destruct r; repeat constructor; lia.
  - inversion HF; subst. destruct (v =? 0); auto.
    apply Forall_app. split; [apply Forall_forall; intros x Hx; apply repeat_spec in Hx; lia|].
    constructor; auto. pose proof (Nat.mod_upper_bound r 16 ltac:(lia)). lia.
Qed.

Lemma ac_loop_spec mcb blk : (mcb <= 14)%nat -> length blk = 64%nat -> Forall coef16 blk ->
  forall n k r ac, (k + n = 64)%nat -> (r < k)%nat -> length ac = 257%nat ->
  let vs := map (fun i => nth i blk 0) (skipn k zigzag) in
  match for_loop n (Z.of_nat k) (htest_ac (Z.of_nat mcb) blk) (Z.of_nat r, ac) with
  | Ret (r', ac') => Forall (fun v => (category v <= mcb)%nat) vs /\ length ac' = 257%nat /\ 0 <= r' /\
                     tally ac' (eob r') = tally ac (ac_symbols r vs)
  | Error e => e = JERR_BAD_DCT_COEF /\ ~ Forall (fun v => (category v <= mcb)%nat) vs
  | Undef => False
  end.
Proof.
  intros Hm Lb H16. induction n as [|n IH]; intros k r ac Hk Hr La; cbn zeta.
  - replace k with (length zigzag) by (rewrite zigzag_length; lia). rewrite skipn_all. cbn [for_loop map ac_symbols].
    split; [constructor|]. split; auto. split; [lia|]. unfold eob. destruct r; reflexivity.
  - rewrite (skipn_nth_cons zigzag k 0%nat) by (rewrite zigzag_length; lia). cbn [map ac_symbols for_loop].
    unfold htest_ac at 1. rewrite (aget_nth jpeg_natural_order _ 0) by (cbn [length jpeg_natural_order]; lia). cbn [bind].
    rewrite Nat2Z.id, natural_order_zz by lia.
    pose proof (zigzag_lt64 k ltac:(lia)) as Hz. set (z := nth k zigzag 0%nat) in *.
    rewrite (aget_nth blk _ 0) by lia. cbn [bind]. rewrite Nat2Z.id. set (v := nth z blk 0) in *.
    assert (Hv : coef16 v) by (rewrite Forall_forall in H16; apply H16; apply nth_In; lia). unfold coef16 in Hv.
    replace (Z.of_nat k + 1) with (Z.of_nat (S k)) by lia.
    destruct (Z.eqb_spec v 0) as [E0|E0].
    + cbn [bind]. replace (Z.of_nat r + 1) with (Z.of_nat (S r)) by lia.
      specialize (IH (S k) (S r) ac ltac:(lia) ltac:(lia) La). cbn zeta in IH.
      destruct (for_loop n _ _ _) as [[r' ac']|e|]; auto.
      * destruct IH as (I1 & I2). split; auto. constructor; auto. rewrite E0. cbn. lia.
      * destruct IH as (I1 & I2). split; auto. intros HF. inversion HF; subst. auto.
    + assert (Hq : (r / 16 <= 4)%nat) by (enough (r / 16 < 4)%nat by lia; apply Nat.div_lt_upper_bound; lia).
      assert (Ez : count_zrl 4 (Z.of_nat r) ac = Ret (Z.of_nat (r mod 16), tally ac (repeat 240 (r / 16)))).
      { rewrite <- (count_zrl_spec (r / 16) 4 (r mod 16) ac Hq) by (auto; apply Nat.mod_upper_bound; lia).
        do 2 f_equal. apply Nat.div_mod. lia. }
      rewrite Ez. cbn [bind].
      assert (Eb : bit_length 32 (Z.shiftr (Z.abs v) 1) 1 = Ret (Z.of_nat (category v))).
      { pose proof (bit_length_spec 33 (Z.abs v) 0 ltac:(lia)) as HB. cbn [bit_length] in HB.
        destruct (Z.eqb_spec (Z.abs v) 0); [lia|]. rewrite category_abs in HB. exact HB. }
      rewrite Eb. cbn [bind]. destruct (Z.ltb_spec (Z.of_nat mcb) (Z.of_nat (category v))) as [Hc|Hc].
      * cbn [bind]. split; auto. intros HF. inversion HF; subst. lia.
      * rewrite bump_spec.
        2:{ rewrite tally_length, La, Z.shiftl_mul_pow2 by lia. pose proof (Nat.mod_upper_bound r 16 ltac:(lia)). lia. }
        cbn [bind]. specialize (IH (S k) 0%nat (tally (tally ac (repeat 240 (r / 16))) [Z.shiftl (Z.of_nat (r mod 16)) 4 + Z.of_nat (category v)])).
        change (Z.of_nat 0) with 0 in IH. specialize (IH ltac:(lia) ltac:(lia)). rewrite !tally_length in IH. specialize (IH La). cbn zeta in IH.
        destruct (for_loop n _ _ _) as [[r' ac']|e|]; auto.
        -- destruct IH as (I1 & I2 & I3 & I4). split; [constructor; auto; lia|]. split; auto. split; auto.
           rewrite I4. rewrite tally_app. rewrite (tally_cons (16 * _ + _)).
           do 4 f_equal. rewrite Z.shiftl_mul_pow2 by lia. lia.
        -- destruct IH as (I1 & I2). split; auto. intros HF. inversion HF; subst. auto.
Qed.

Lemma htest_spec mcb blk pred dc ac : (mcb <= 14)%nat -> length blk = 64%nat -> Forall coef16 blk -> coef16 pred ->
  length dc = 257%nat -> length ac = 257%nat ->
  match htest_one_block (Z.of_nat mcb) blk pred dc ac with
  | Ret (dc', ac') => block_in_range mcb pred blk /\ dc' = tally dc [Z.of_nat (category (nth 0 blk 0 - pred))] /\
                      ac' = tally ac (ac_symbols 0 (tl (zz blk)))
  | Error e => e = JERR_BAD_DCT_COEF /\ ~ block_in_range mcb pred blk
  | Undef => False
  end.
Proof.
  intros Hm Lb H16 Hp Ld La. unfold htest_one_block. rewrite (aget_nth blk 0 0) by lia. cbn [bind]. change (Z.to_nat 0) with 0%nat.
  assert (H0 : coef16 (nth 0 blk 0)) by (rewrite Forall_forall in H16; apply H16; apply nth_In; lia).
  unfold coef16 in *. set (v := nth 0 blk 0 - pred) in *.
  rewrite bit_length_spec by (unfold v; change (2 ^ Z.of_nat 32) with 4294967296; lia). cbn [bind]. rewrite category_abs, Z.add_0_l.
  destruct (Z.ltb_spec (Z.of_nat mcb + 1) (Z.of_nat (category v))) as [Hc|Hc].
  - split; auto. intros [H _]. fold v in H. lia.
  - rewrite bump_spec by lia. cbn [bind].
    pose proof (ac_loop_spec mcb blk Hm Lb H16 63 1 0 ac eq_refl ltac:(lia) La) as H. cbn zeta in H.
    change (Z.of_nat 1) with 1 in H. change (Z.of_nat 0) with 0 in H.
    replace (map (fun i => nth i blk 0) (skipn 1 zigzag)) with (tl (zz blk)) in H by reflexivity.
    destruct (for_loop 63 1 _ _) as [[r' ac']|e|]; cbn [bind]; auto.
    + destruct H as (I1 & I2 & I3 & I4). unfold eob in I4. destruct (0 <? r') eqn:Er.
      * rewrite bump_spec by lia. cbn [bind]. split; [split; [fold v; lia|auto]|]. split; auto.
      * split; [split; [fold v; lia|auto]|]. split; auto.
    + destruct H as [-> H]. split; auto. intros [_ H']. auto.
Qed.

(* ---- counts of all tables ---- *)
Definition cnt_rel (s : gst) (L : list use) : Prop :=
  length (g_dcs s) = 4%nat /\ length (g_acs s) = 4%nat /\
  (forall t, (t < 4)%nat -> length (nth t (g_dcs s) []) = 257%nat /\ length (nth t (g_acs s) []) = 257%nat) /\
  (forall t x, (t < 4)%nat -> 0 <= x < 257 ->
     nth (Z.to_nat x) (nth t (g_dcs s) []) 0 = uses L (true, t, x) /\
     nth (Z.to_nat x) (nth t (g_acs s) []) 0 = uses L (false, t, x)).

Lemma uses_app a b u : uses (a ++ b) u = uses a u + uses b u.
Proof. unfold uses. rewrite filter_app, app_length. lia. Qed.
Lemma use_eqb_spec a b : reflect (a = b) (use_eqb a b).
Proof.
  destruct a as [[a1 a2] a3], b as [[b1 b2] b3]. unfold use_eqb. cbn [fst snd].
  destruct (Bool.eqb_spec a1 b1), (Nat.eqb_spec a2 b2), (Z.eqb_spec a3 b3); cbn; constructor; congruence.
Qed.
Lemma uses_map_same d t x l : uses (map (fun s => (d, t, s)) l) (d, t, x) = occ l x.
Proof.
  unfold uses, occ. f_equal. induction l as [|a l IH]; cbn [map filter]; auto.
  destruct (use_eqb_spec (d, t, x) (d, t, a)) as [E|E], (Z.eqb_spec x a); cbn [length]; congruence.
Qed.
Lemma uses_map_other d t l u : fst u <> (d, t) -> uses (map (fun s => (d, t, s)) l) u = 0.
Proof.
  intros H. unfold uses. induction l as [|a l IH]; cbn [map filter]; auto.
  destruct (use_eqb_spec u (d, t, a)) as [->|E]; auto. cbn in H. congruence.
Qed.
Lemma nth_repeat_any {A} (a : A) n i : nth i (repeat a n) a = a.
Proof. revert i. induction n as [|n IH]; intros [|i]; cbn; auto. Qed.

Lemma start_rel nc ri : cnt_rel (start_pass_gather nc ri) [].
Proof.
  unfold start_pass_gather. split; [|split; [|split]]; cbn [g_dcs g_acs]; try apply repeat_length.
  - intros t Ht. rewrite (nth_repeat_lt _ _ 4 t) by auto. rewrite repeat_length. auto.
  - intros t x Ht Hx. rewrite (nth_repeat_lt _ _ 4 t) by auto. rewrite nth_repeat_any. auto.
Qed.

Definition gblk_ok (nc : nat) (b : gblk) : Prop :=
  (g_ci b < nc)%nat /\ (g_dct b < 4)%nat /\ (g_act b < 4)%nat /\ length (g_coef b) = 64%nat /\ Forall coef16 (g_coef b).

Lemma nth_upd_any {A} (l : list A) n m x d : nth m (upd l n x) d = if (m =? n)%nat then (if (n <? length l)%nat then x else nth m l d) else nth m l d.
Proof.
  destruct (Nat.eqb_spec m n) as [->|H]; [|apply nth_upd_neq; auto].
  destruct (Nat.ltb_spec n (length l)); [apply nth_upd_eq; auto|]. rewrite !nth_overflow; auto. rewrite length_upd. lia.
Qed.

Definition use_ok (mcb : nat) (u : use) : Prop :=
  0 <= snd u < 256 /\ (fst (fst u) = true -> snd u <= Z.of_nat mcb + 1) /\
  (fst (fst u) = false -> snd u = 240 \/ snd u mod 16 <= Z.of_nat mcb).

Lemma ac_symbols_low mcb : (mcb <= 15)%nat -> forall l r, Forall (fun v => (category v <= mcb)%nat) l ->
  Forall (fun s => s = 240 \/ s mod 16 <= Z.of_nat mcb) (ac_symbols r l).
Proof.
  intros Hm. induction l as [|v l IH]; intros r HF; cbn [ac_symbols].
  - destruct r; constructor; [right; cbn; lia|constructor].
  - inversion HF; subst. destruct (v =? 0); auto.
    apply Forall_app. split; [apply Forall_forall; intros x Hx; apply repeat_spec in Hx; auto|].
    constructor; auto. right. rewrite Z.add_comm, (Z.mul_comm 16), Z.mod_add by lia. rewrite Z.mod_small; lia.
Qed.

Lemma gather_blocks_spec mcb nc : (mcb <= 14)%nat -> forall bs s L preds,
  Forall (gblk_ok nc) bs -> cnt_rel s L -> g_last s = preds -> length preds = nc -> Forall coef16 preds ->
  match gather_blocks (Z.of_nat mcb) bs s with
  | Ret s' => mcu_fits mcb preds bs /\ cnt_rel s' (L ++ fst (mcu_uses preds bs)) /\ g_last s' = snd (mcu_uses preds bs) /\
              length (g_last s') = nc /\ Forall coef16 (g_last s') /\ g_togo s' = g_togo s /\
              Forall (use_ok mcb) (fst (mcu_uses preds bs))
  | Error e => e = JERR_BAD_DCT_COEF /\ ~ mcu_fits mcb preds bs
  | Undef => False
  end.
Proof.
  intros Hm. induction bs as [|b bs IH]; intros s L preds HF HR HL Hn H16; cbn [gather_blocks mcu_uses mcu_fits fst snd].
  - rewrite app_nil_r, HL. auto 10.
  - inversion HF as [|? ? (B1 & B2 & B3 & B4 & B5) HF']; subst preds. subst. destruct HR as (R1 & R2 & R3 & R4).
    rewrite (aget_nth (g_last s) _ 0) by lia. cbn [bind]. rewrite Nat2Z.id.
    rewrite (aget_nth (g_dcs s) _ []) by lia. cbn [bind]. rewrite Nat2Z.id.
    rewrite (aget_nth (g_acs s) _ []) by lia. cbn [bind]. rewrite Nat2Z.id.
    set (pred := nth (g_ci b) (g_last s) 0).
    assert (Hp : coef16 pred) by (unfold pred; rewrite Forall_forall in H16; apply H16; apply nth_In; auto).
    pose proof (htest_spec mcb (g_coef b) pred (nth (g_dct b) (g_dcs s) []) (nth (g_act b) (g_acs s) []) Hm B4 B5 Hp) as H.
    specialize (H (proj1 (R3 _ B2)) (proj2 (R3 _ B3))).
    destruct (htest_one_block _ _ _ _ _) as [[dc' ac']|e|]; cbn [bind]; auto.
    2:{ destruct H as [-> H]. split; auto. intros [H' _]. apply H. exact H'. }
    destruct H as (H1 & -> & ->).
    rewrite aset_ok by lia. cbn [bind]. rewrite aset_ok by lia. cbn [bind].
    rewrite (aget_nth (g_coef b) 0 0) by lia. cbn [bind]. rewrite aset_ok by lia. cbn [bind].
    change (Z.to_nat 0) with 0%nat. rewrite !Nat2Z.id.
    set (preds' := upd (g_last s) (g_ci b) (nth 0 (g_coef b) 0)) in *.
    set (syms := ac_symbols 0 (tl (zz (g_coef b)))).
    set (cat := Z.of_nat (category (nth 0 (g_coef b) 0 - pred))).
    destruct H1 as [H1 H2].
    assert (Hsy : Forall (fun x => 0 <= x < 256) syms) by (eapply ac_symbols_range; [|exact H2]; lia).
    assert (Hsl := ac_symbols_low mcb ltac:(lia) _ 0%nat H2). fold syms in Hsl.
    match goal with |- context [gather_blocks _ bs ?x] => set (s1 := x) end.
    assert (R' : cnt_rel s1 (L ++ block_uses pred b)).
    { unfold s1. split; [|split; [|split]]; cbn [g_dcs g_acs]; rewrite ?length_upd; auto.
      - intros t Ht. rewrite !nth_upd_any, R1, R2. destruct (R3 _ B2), (R3 _ B3).
        destruct (R3 _ Ht). split; [destruct (t =? g_dct b)%nat|destruct (t =? g_act b)%nat]; auto.
        + destruct (g_dct b <? 4)%nat; [rewrite tally_length; auto|auto].
        + destruct (g_act b <? 4)%nat; [rewrite tally_length; auto|auto].
      - intros t x Ht Hx. rewrite !nth_upd_any, R1, R2.
        rewrite (proj2 (Nat.ltb_lt _ _) B2), (proj2 (Nat.ltb_lt _ _) B3).
        rewrite !uses_app. unfold block_uses. fold cat. fold syms.
        change ((true, g_dct b, cat) :: map (fun s => (false, g_act b, s)) syms)
          with (map (fun s => (true, g_dct b, s)) [cat] ++ map (fun s => (false, g_act b, s)) syms).
        rewrite !uses_app. destruct (R4 t x Ht Hx) as [Ra Rb].
        rewrite (uses_map_other false (g_act b) _ (true, t, x)) by (cbn; congruence).
        rewrite (uses_map_other true (g_dct b) _ (false, t, x)) by (cbn; congruence).
        split.
        + destruct (Nat.eqb_spec t (g_dct b)) as [->|Hne].
          * rewrite nth_tally, uses_map_same, Ra; try lia. repeat constructor; unfold cat; destruct (R3 _ B2); lia.
          * rewrite uses_map_other, Ra by (cbn; congruence). lia.
        + destruct (Nat.eqb_spec t (g_act b)) as [->|Hne].
          * rewrite nth_tally, uses_map_same, Rb; try lia. eapply Forall_impl; [|exact Hsy]. cbn beta. intros a Ha. destruct (R3 _ B3). lia.
          * rewrite uses_map_other, Rb by (cbn; congruence). lia. }
    assert (C16 : coef16 (nth 0 (g_coef b) 0)) by (rewrite Forall_forall in B5; apply B5; apply nth_In; lia).
    specialize (IH s1 (L ++ block_uses pred b) preds' HF' R' eq_refl).
    unfold preds' in IH at 1. rewrite length_upd in IH. specialize (IH eq_refl). fold preds' in IH.
    specialize (IH (Forall_upd _ _ _ _ H16 C16)).
    destruct (gather_blocks _ bs s1) as [s'|e|]; auto.
    + destruct IH as (I0 & I1 & I2 & I3 & I4 & I5 & I6). destruct (mcu_uses preds' bs) as [w p'] eqn:Ew. cbn [fst snd] in *.
      split; [split; [split|]; auto|]. split; [rewrite app_assoc; auto|]. split; auto. split; auto. split; auto. split; auto.
      apply Forall_app. split; auto. unfold block_uses. constructor.
      * unfold use_ok; cbn [fst snd]. fold cat. split; [unfold cat; lia|]. split; [unfold cat; lia|discriminate].
      * apply Forall_map. rewrite Forall_forall in *. intros x Hx. unfold use_ok; cbn [fst snd]. fold syms in Hx. specialize (Hsy x Hx). specialize (Hsl x Hx). cbn beta in *. split; [auto|]. split; [discriminate|auto].
    + destruct IH as [-> I]. split; auto. intros [_ H']. auto.
Qed.

(* ---- restart intervals ---- *)
Fixpoint run_pairs (nc ri k : nat) (preds : list Z) (ms : list (list gblk)) : list (list Z * list gblk) :=
  match ms with
  | [] => []
  | m :: r =>
    let p := if (negb (ri =? 0) && (k =? 0))%nat then repeat 0 nc else preds in
    let k' := if (negb (ri =? 0) && (k =? 0))%nat then ri else k in
    (p, m) :: run_pairs nc ri (k' - 1) (snd (mcu_uses p m)) r
  end.

Lemma run_pairs_short nc ri : forall ms k p, (ri = 0 \/ length ms <= k)%nat -> run_pairs nc ri k p ms = with_preds p ms.
Proof.
  induction ms as [|m ms IH]; intros k p H; cbn [run_pairs with_preds]; auto. cbn [length] in H.
  assert (E : (negb (ri =? 0) && (k =? 0))%nat = false).
  { destruct H as [->|H]; auto. destruct (Nat.eqb_spec k 0); [lia|apply andb_false_r]. }
  rewrite E. f_equal. apply IH. destruct H; [auto|right; lia].
Qed.
Lemma run_pairs_split nc ri : (ri <> 0)%nat -> forall k ms p, (k <= length ms)%nat ->
  run_pairs nc ri k p ms = with_preds p (firstn k ms) ++ run_pairs nc ri ri (repeat 0 nc) (skipn k ms).
Proof.
  intros Hr. induction k as [|k IH]; intros ms p H.
  - cbn [firstn skipn with_preds app]. destruct ms as [|m ms]; cbn [run_pairs]; auto.
    destruct (Nat.eqb_spec ri 0); [lia|]. cbn [negb andb Nat.eqb]. reflexivity.
  - destruct ms as [|m ms]; [cbn in H; lia|]. cbn [firstn skipn with_preds app run_pairs].
    replace (negb (ri =? 0) && (S k =? 0))%nat with false by (cbn; now rewrite andb_false_r).
    f_equal. cbn [Nat.sub]. rewrite Nat.sub_0_r. apply IH. cbn in H; lia.
Qed.
Lemma run_pairs_scan nc ri : forall fuel ms, (length ms < fuel)%nat ->
  run_pairs nc ri ri (repeat 0 nc) ms = flat_map (with_preds (repeat 0 nc)) (intervals fuel ri ms).
Proof.
  induction fuel as [|f IH]; intros ms H; [lia|]. cbn [intervals].
  destruct (Nat.eqb_spec ri 0) as [->|Hr]; cbn [orb].
  - cbn [flat_map]. rewrite app_nil_r. apply run_pairs_short; auto.
  - destruct (Nat.leb_spec (length ms) ri).
    + cbn [flat_map]. rewrite app_nil_r. apply run_pairs_short; auto.
    + rewrite run_pairs_split by lia. cbn [flat_map]. rewrite <- IH by (rewrite skipn_length; lia). reflexivity.
Qed.

Lemma map_const0 (l : list Z) : map (fun _ => 0) l = repeat 0 (length l).
Proof. induction l; cbn; congruence. Qed.

Definition ruses (pms : list (list Z * list gblk)) : list use := flat_map (fun pm => fst (mcu_uses (fst pm) (snd pm))) pms.

Lemma gather_mcus_spec mcb nc ri : (mcb <= 14)%nat -> forall ms s L k,
  Forall (Forall (gblk_ok nc)) ms -> cnt_rel s L -> length (g_last s) = nc -> Forall coef16 (g_last s) ->
  (ri <> 0%nat -> g_togo s = Z.of_nat k) ->
  let ps := run_pairs nc ri k (g_last s) ms in
  match gather_mcus (Z.of_nat mcb) (Z.of_nat ri) ms s with
  | Ret s' => Forall (fun pm => mcu_fits mcb (fst pm) (snd pm)) ps /\ cnt_rel s' (L ++ ruses ps) /\ Forall (use_ok mcb) (ruses ps)
  | Error e => e = JERR_BAD_DCT_COEF /\ ~ Forall (fun pm => mcu_fits mcb (fst pm) (snd pm)) ps
  | Undef => False
  end.
Proof.
  intros Hm. induction ms as [|m ms IH]; intros s L k HF HR Hl H16 Hk; cbn zeta; cbn [gather_mcus run_pairs ruses flat_map].
  - split; [constructor|]. rewrite app_nil_r. auto.
  - inversion HF as [|? ? HF1 HF2]; subst. unfold encode_mcu_gather.
    set (c := (negb (ri =? 0) && (k =? 0))%nat).
    set (p := if c then repeat 0 (length (g_last s)) else g_last s).
    match goal with |- context [gather_blocks _ m ?x] => set (s1 := x) end.
    assert (Hs1 : g_dcs s1 = g_dcs s /\ g_acs s1 = g_acs s /\ g_last s1 = p /\ (ri <> 0%nat -> g_togo s1 = Z.of_nat ((if c then ri else k) - 1))).
    { unfold s1, p, c. destruct (Z.eqb_spec (Z.of_nat ri) 0); destruct (Nat.eqb_spec ri 0); try lia; cbn [negb andb]; auto.
      - split; auto. split; auto. split; auto. intros; lia.
      - rewrite Hk by auto. destruct (Z.eqb_spec (Z.of_nat k) 0); destruct (Nat.eqb_spec k 0); try lia; cbn [g_dcs g_acs g_last g_togo]; rewrite ?map_const0; split; auto; split; auto; split; auto; intros; lia. }
    destruct Hs1 as (S1 & S2 & S3 & S4).
    assert (R1 : cnt_rel s1 L) by (unfold cnt_rel; rewrite S1, S2; exact HR).
    assert (P1 : length p = length (g_last s)) by (unfold p; destruct c; [apply repeat_length|auto]).
    assert (P2 : Forall coef16 p).
    { unfold p. destruct c; auto. apply Forall_forall. intros x Hx. apply repeat_spec in Hx. subst. unfold coef16. lia. }
    pose proof (gather_blocks_spec mcb (length (g_last s)) Hm m s1 L p HF1 R1 S3 P1 P2) as H.
    destruct (gather_blocks _ m s1) as [s'|e|]; cbn [bind]; auto.
    + destruct H as (H0 & H1 & H2 & H3 & H4 & H5 & H6).
      specialize (IH s' (L ++ fst (mcu_uses p m)) ((if c then ri else k) - 1)%nat).
      rewrite H3 in IH. specialize (IH HF2 H1 eq_refl H4). rewrite H5 in IH. specialize (IH S4). cbn zeta in IH. rewrite H2 in IH.
      destruct (gather_mcus _ _ ms s') as [s2|e|]; auto.
      * destruct IH as (I1 & I2 & I3). split; [constructor; auto|]. rewrite app_assoc. split; auto. apply Forall_app; auto.
      * destruct IH as [-> I]. split; auto. intros HF'. inversion HF'; subst. auto.
    + destruct H as [-> H]. split; auto. intros HF'. inversion HF'; subst. auto.
Qed.

Lemma gather_scan_spec mcb nc ri ms : (mcb <= 14)%nat -> Forall (Forall (gblk_ok nc)) ms ->
  match gather_scan (Z.of_nat mcb) (Z.of_nat ri) nc ms with
  | Ret s => scan_fits mcb nc ri ms /\ cnt_rel s (scan_uses nc ri ms) /\ Forall (use_ok mcb) (scan_uses nc ri ms)
  | Error e => e = JERR_BAD_DCT_COEF /\ ~ scan_fits mcb nc ri ms
  | Undef => False
  end.
Proof.
  intros Hm HF. unfold gather_scan.
  pose proof (gather_mcus_spec mcb nc ri Hm ms (start_pass_gather nc (Z.of_nat ri)) [] ri HF (start_rel nc (Z.of_nat ri))) as H.
  cbn [start_pass_gather g_last g_togo] in H. rewrite repeat_length in H. specialize (H eq_refl).
  specialize (H ltac:(apply Forall_forall; intros x Hx; apply repeat_spec in Hx; subst; unfold coef16; lia) ltac:(auto)).
  cbn zeta in H. rewrite (run_pairs_scan nc ri (S (length ms)) ms) in H by lia. exact H.
Qed.
