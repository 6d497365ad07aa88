(* P_EncTbl.v -- derived encoder tables and the specification's codes *)
From Verif Require Import Base M_HuffTbl S_Huff S_Stream S_Block P_HuffTbl P_BitRead P_HuffDec M_HuffEnc P_HuffEnc P_HuffScan.

Lemma derived_ct_ok lossless isDC t d : huff_type_ok t = true ->
  jpeg_make_c_derived_tbl lossless isDC (Some t) = Ret d -> ct_ok d.
Proof.
  intros Ht E. destruct (huff_type_ok_inv t Ht) as (Hb1 & Hb2 & Hv1 & Hv2).
  destruct (c_derived_spec lossless isDC t Ht) as [[Hok (d' & E' & Hc)]|[_ E']]; rewrite E' in E; [|discriminate].
  inversion E; subst d'. destruct Hok as [[Hl HK] [Hnd _]]. destruct Hc as (L1 & L2 & C1 & C2).
  pose proof (code_sizes_ok (hbits t)) as Hs. set (sz := code_sizes (hbits t)) in *.
  split; [auto|]. split; [auto|]. intros i Hi.
  destruct (in_dec Z.eq_dec (Z.of_nat i) (firstn (length sz) (hval t))) as [Hin|Hout].
  - destruct (In_firstn_nth (hval t) (length sz) _ ltac:(lia) Hin) as (k & Hk & Ek).
    destruct (C1 k Hk) as [D1 D2]. rewrite Ek, Nat2Z.id in D1, D2.
    exists (nth k sz 0%nat). rewrite D1, D2. pose proof (sizes_nth sz k Hs Hk).
    pose proof (code_value_bound sz k Hs HK Hk). repeat split; lia.
  - destruct (C2 (Z.of_nat i) ltac:(lia) Hout) as [D1 D2]. rewrite Nat2Z.id in D1, D2.
    exists 0%nat. rewrite D1, D2. cbn. lia.
Qed.

Lemma derived_code lossless isDC t d s : huff_type_ok t = true ->
  jpeg_make_c_derived_tbl lossless isDC (Some t) = Ret d -> 0 <= s < 256 ->
  ecode d s = table_code (hbits t) (hval t) s.
Proof.
  intros Ht E Hs0. destruct (huff_type_ok_inv t Ht) as (Hb1 & Hb2 & Hv1 & Hv2).
  destruct (c_derived_spec lossless isDC t Ht) as [[Hok (d' & E' & Hc)]|[_ E']]; rewrite E' in E; [|discriminate].
  inversion E; subst d'. destruct Hok as [[Hl HK] _]. destruct Hc as (L1 & L2 & C1 & C2).
  unfold table_code, ecode. set (sz := code_sizes (hbits t)) in *.
  destruct (find _ _) as [k|] eqn:Ef.
  - apply find_some in Ef. destruct Ef as [Hk Ek]. apply in_seq in Hk. apply Z.eqb_eq in Ek. subst s.
    destruct (C1 k ltac:(lia)) as [-> ->]. now rewrite Nat2Z.id.
  - destruct (C2 s Hs0) as [-> _]; [|reflexivity]. intros Hin.
    destruct (In_firstn_nth (hval t) (length sz) _ ltac:(lia) Hin) as (k & Hk & Ek).
    pose proof (find_none _ _ Ef k ltac:(apply in_seq; lia)) as HN. cbn beta in HN.
    rewrite Ek, Z.eqb_refl in HN. discriminate.
Qed.

(* two codes that agree on bytes give the same coding *)
Definition code_eq (f g : Z -> list bool) : Prop := forall s, 0 <= s < 256 -> f s = g s.

Lemma enc_ac_ext f g : code_eq f g -> forall l r, Forall (fun v => (category v <= 15)%nat) l ->
  enc_ac f r l = enc_ac g r l.
Proof.
  intros H. induction l as [|v l IH]; intros r Hl; cbn [enc_ac].
  - destruct r; auto. apply H. lia.
  - inversion Hl; subst. destruct (v =? 0); [apply IH; auto|].
    rewrite (H 240) by lia. rewrite (H (16 * _ + _)).
    + rewrite IH by auto. reflexivity.
    + pose proof (Nat.mod_upper_bound r 16). lia.
Qed.

Lemma enc_block_ext f g f' g' pred blk : code_eq f f' -> code_eq g g' ->
  (category (nth 0 blk 0%Z - pred) <= 15)%nat -> Forall (fun v => (category v <= 15)%nat) (tl (zz blk)) ->
  enc_block f g pred blk = enc_block f' g' pred blk.
Proof.
  intros H1 H2 H3 H4. unfold enc_block, enc_dc. rewrite (H1 (Z.of_nat _)) by lia.
  rewrite (enc_ac_ext g g') by auto. reflexivity.
Qed.

Definition sb_eq (a b : sblk) : Prop :=
  s_ci a = s_ci b /\ s_coef a = s_coef b /\ code_eq (s_dcc a) (s_dcc b) /\ code_eq (s_acc a) (s_acc b).

Lemma enc_mcu_ext mcb : (mcb <= 14)%nat -> forall m m' pr, Forall2 sb_eq m m' -> mcu_in_range mcb pr m ->
  enc_mcu pr m = enc_mcu pr m'.
Proof.
  intros Hm m m' pr H. revert pr. induction H as [|a b m m' (E1 & E2 & E3 & E4) HF IH]; intros pr Hr; cbn [enc_mcu]; auto.
  cbn [mcu_in_range] in Hr. destruct Hr as [[R1 R2] R3]. rewrite <- E1, <- E2. rewrite (IH _ R3).
  destruct (enc_mcu _ m') as [w p']. f_equal. f_equal. apply enc_block_ext; auto; [lia|].
  eapply Forall_impl; [|exact R2]. cbn beta. intros; lia.
Qed.

(* all MCUs of a segment in range *)
Fixpoint seg_in_range (mcb : nat) (pr : list Z) (ms : list (list sblk)) : Prop :=
  match ms with
  | [] => True
  | m :: r => mcu_in_range mcb pr m /\ seg_in_range mcb (snd (enc_mcu pr m)) r
  end.

Lemma enc_mcus_ext mcb : (mcb <= 14)%nat -> forall ms ms' pr, Forall2 (Forall2 sb_eq) ms ms' -> seg_in_range mcb pr ms ->
  enc_mcus pr ms = enc_mcus pr ms'.
Proof.
  intros Hm ms ms' pr H. revert pr. induction H as [|a b m m' E HF IH]; intros pr Hr; cbn [enc_mcus]; auto.
  destruct Hr as [R1 R2]. rewrite <- (enc_mcu_ext mcb Hm a b pr E R1). destruct (enc_mcu pr a) as [w p'].
  f_equal. apply IH. exact R2.
Qed.

Lemma seg_ok mcb nc : (mcb <= 14)%nat -> forall ms pr, Forall (mcu_ok mcb nc) ms -> pr_ok mcb pr ->
  seg_in_range mcb pr (map (map to_sb) ms).
Proof.
  intros Hm. induction ms as [|m ms IH]; intros pr Hok Hp; cbn [map seg_in_range]; auto.
  inversion Hok; subst. destruct (mcu_ok_range mcb nc Hm m pr) as (R1 & R2 & R3); auto.
Qed.

Lemma Forall2_firstn {A B} (P : A -> B -> Prop) n l l' : Forall2 P l l' -> Forall2 P (firstn n l) (firstn n l').
Proof. intros H. revert n. induction H; intros [|n]; cbn; constructor; auto. Qed.
Lemma Forall2_skipn {A B} (P : A -> B -> Prop) n l l' : Forall2 P l l' -> Forall2 P (skipn n l) (skipn n l').
Proof. intros H. revert n. induction H; intros [|n]; cbn; auto. Qed.
Lemma Forall_firstn {A} (P : A -> Prop) n l : Forall P l -> Forall P (firstn n l).
Proof. intros H. revert n. induction H; intros [|n]; cbn; auto. Qed.
Lemma Forall_skipn {A} (P : A -> Prop) n l : Forall P l -> Forall P (skipn n l).
Proof. intros H. revert n. induction H; intros [|n]; cbn; auto. Qed.
Lemma Forall2_length' {A B} (P : A -> B -> Prop) l l' : Forall2 P l l' -> length l = length l'.
Proof. induction 1; cbn; auto. Qed.

Lemma pr0_ok mcb nc : pr_ok mcb (repeat 0 nc).
Proof.
  apply Forall_forall. intros x Hx. apply repeat_spec in Hx. subst.
  assert (0 < 2 ^ Z.of_nat mcb) by (apply Z.pow_pos_nonneg; lia). lia.
Qed.

Lemma scan_bytes_ext mcb nc ri es ms' : (mcb <= 14)%nat -> Forall (mcu_ok mcb nc) es ->
  Forall2 (Forall2 sb_eq) (map (map to_sb) es) ms' ->
  scan_bytes nc ri (map (map to_sb) es) = scan_bytes nc ri ms'.
Proof.
  intros Hm Hok H2. unfold scan_bytes. f_equal.
  rewrite (Forall2_length' _ _ _ H2). generalize (S (length ms')) as fuel. intros fuel. revert es ms' Hok H2.
  induction fuel as [|f IH]; intros es ms' Hok H2; [reflexivity|]. cbn [intervals].
  rewrite (Forall2_length' _ _ _ H2). destruct ((ri =? 0) || (length ms' <=? ri))%nat.
  - cbn [map]. do 2 f_equal. eapply enc_mcus_ext; eauto. eapply seg_ok; eauto. apply pr0_ok.
  - cbn [map]. rewrite firstn_map, skipn_map. f_equal.
    + f_equal. eapply enc_mcus_ext; eauto; rewrite <- ?firstn_map.
      * apply Forall2_firstn. exact H2.
      * rewrite firstn_map. eapply seg_ok; eauto; [|apply pr0_ok]. apply Forall_firstn. exact Hok.
    + apply IH; [apply Forall_skipn; auto|]. rewrite <- skipn_map. apply Forall2_skipn. exact H2.
Qed.
