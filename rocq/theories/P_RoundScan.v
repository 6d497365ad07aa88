(* P_RoundScan.v -- decoding what was encoded: blocks, MCUs, restart intervals, scans *)
From Verif Require Import Base M_HuffTbl M_Source M_BitRead M_HuffDec M_HuffFast S_Huff S_Stream S_Block S_Coef P_HuffTbl P_HuffTblD
  P_BitRead P_HuffSym P_HuffDec P_HuffFast P_HuffMcu P_Marker P_DecRef P_Reach P_Frame P_Resume P_HuffEnc P_HuffScan P_EncTbl P_Round T_HuffEnc.

(* ---- what may be coded: every symbol needed has a code ---- *)
Definition blk_codable (pred : Z) (u : ublk) : Prop :=
  has_code (hbits (u_dc u)) (hval (u_dc u)) (Z.of_nat (category (nth 0 (u_coef u) 0 - pred))) /\
  Forall (has_code (hbits (u_ac u)) (hval (u_ac u))) (ac_symbols 0 (tl (zz (u_coef u)))).
Fixpoint mcu_codable (preds : list Z) (m : list ublk) : Prop :=
  match m with
  | [] => True
  | u :: r => blk_codable (nth (u_ci u) preds 0) u /\ mcu_codable (upd preds (u_ci u) (nth 0 (u_coef u) 0)) r
  end.
Fixpoint mcus_codable (preds : list Z) (ms : list (list ublk)) : Prop :=
  match ms with
  | [] => True
  | m :: r => mcu_codable preds m /\ mcus_codable (snd (enc_mcu preds (map spec_blk m))) r
  end.

(* a decoder block set up for the same component and tables *)
Definition dec_of (nc : nat) (u : ublk) (x : rblk * blkcfg) : Prop :=
  r_dc (fst x) = u_dc u /\ r_ac (fst x) = u_ac u /\ b_ci (snd x) = Z.of_nat (u_ci u) /\
  b_dcneed (snd x) = true /\ b_acneed (snd x) = true /\ b_have (snd x) = true /\ blk_ok (fst x) (snd x) nc.

Definition blk16 (u : ublk) : Prop := length (u_coef u) = 64%nat /\ coef16 (nth 0 (u_coef u) 0) /\
  Forall (fun v => (category v <= 15)%nat) (tl (zz (u_coef u))).

(* ---- blocks ---- *)
Definition blk_outs (bn : Z) (u : ublk) : list (Z * Z * Z) :=
  (bn, 0, nth 0 (u_coef u) 0) :: ac_outs bn (nz 1 (tl (zz (u_coef u)))).
Fixpoint mcu_outs (bn : Z) (m : list ublk) : list (Z * Z * Z) :=
  match m with [] => [] | u :: r => blk_outs bn u ++ mcu_outs (bn + 1) r end.

Lemma ref_block_enc S p u x nc pred : dec_of nc u x -> blk16 u -> blk_codable pred u ->
  starts S p (enc_block (s_dcc (spec_blk u)) (s_acc (spec_blk u)) pred (u_coef u)) ->
  ref_block (hbits (r_dc (fst x))) (hval (r_dc (fst x))) (hbits (r_ac (fst x))) (hval (r_ac (fst x))) S p =
  (nth 0 (u_coef u) 0 - pred, nz 1 (tl (zz (u_coef u))),
   (p + length (enc_block (s_dcc (spec_blk u)) (s_acc (spec_blk u)) pred (u_coef u)))%nat, true).
Proof.
  intros (D1 & D2 & D3 & D4 & D5 & D6 & (B1 & B2 & B3)) (L1 & L2 & L3) (C1 & C2) Hst.
  rewrite D1, D2 in *. cbn [spec_blk s_dcc s_acc] in *. unfold enc_block in *.
  destruct (starts_app _ _ _ _ Hst) as [H1 H2].
  destruct B1 as (_ & (K1 & _) & _). destruct B2 as (_ & (K2 & _) & _).
  unfold ref_block. rewrite (ref_dc_enc _ _ _ _ _ K1 C1 H1).
  rewrite (ref_ac_enc _ _ _ K2 (tl (zz (u_coef u))) 64 _ 1 0); auto.
  rewrite app_length, Nat.add_assoc. reflexivity.
Qed.

Lemma s32_coef v : coef16 v -> s32 v = v.
Proof. unfold coef16, s32. intros H. change (2 ^ 31) with 2147483648. change (2 ^ 32) with 4294967296. rewrite Z.mod_small by lia. lia. Qed.
Lemma s16_coef v : coef16 v -> s16 v = v.
Proof. unfold coef16, s16. intros H. change (2 ^ 15) with 32768. change (2 ^ 16) with 65536. rewrite Z.mod_small by lia. lia. Qed.

Lemma ref_mcu_enc S nc : forall m rbs bn preds p,
  Forall2 (dec_of nc) m rbs -> Forall blk16 m -> mcu_codable preds m ->
  starts S p (fst (enc_mcu preds (map spec_blk m))) ->
  ref_mcu bn rbs preds S p =
  (snd (enc_mcu preds (map spec_blk m)), mcu_outs bn m, (p + length (fst (enc_mcu preds (map spec_blk m))))%nat, true).
Proof.
  induction m as [|u m IH]; intros rbs bn preds p HF H16 Hc Hst; inversion HF as [|? x ? rbs' Hx HF']; subst; cbn [ref_mcu map enc_mcu mcu_outs].
  - cbn. now rewrite Nat.add_0_r.
  - destruct x as [rb b]. inversion H16 as [|? ? Hu H16']; subst. destruct Hc as [Hc1 Hc2].
    cbn [map enc_mcu] in Hst. cbn [spec_blk s_ci s_coef] in Hst |- *.
    specialize (IH rbs' (bn + 1) (upd preds (u_ci u) (nth 0 (u_coef u) 0))).
    destruct (enc_mcu (upd preds (u_ci u) (nth 0 (u_coef u) 0)) (map spec_blk m)) as [w p'] eqn:Ee. cbn [fst snd] in Hst, IH |- *.
    destruct (starts_app _ _ _ _ Hst) as [H1 H2].
    pose proof (ref_block_enc S p u (rb, b) nc _ Hx Hu Hc1 H1) as Hrb. cbn [fst] in Hrb. rewrite Hrb. clear Hrb.
    destruct Hx as (D1 & D2 & D3 & D4 & D5 & D6 & D7). cbn [fst snd] in *.
    rewrite D4, D5, D6. unfold dc_outs. rewrite D4, D6. cbn [andb].
    unfold set_dc. rewrite D3, Nat2Z.id. destruct Hu as (L1 & L2 & L3).
    replace (nth 0 (u_coef u) 0 - nth (u_ci u) preds 0 + nth (u_ci u) preds 0) with (nth 0 (u_coef u) 0) by lia.
    rewrite s32_coef, s16_coef by auto.
    rewrite IH; auto. rewrite app_length, Nat.add_assoc. reflexivity.
Qed.

(* ---- the stores leave the coefficients ---- *)
Lemma nat_order_zigzag k : (k < 64)%nat -> nth k jpeg_natural_order 0 = Z.of_nat (nth k zigzag 0%nat).
Proof. intros H. do 64 (destruct k as [|k]; [vm_compute; reflexivity|]). lia. Qed.
Lemma zigzag_len : length zigzag = 64%nat. Proof. reflexivity. Qed.
Lemma zigzag_nodup : NoDup zigzag.
Proof.
  assert (H : (if list_eq_dec Nat.eq_dec (nodup Nat.eq_dec zigzag) zigzag then true else false) = true) by (vm_compute; reflexivity).
  destruct (list_eq_dec _ _ _) as [E|E]; [|discriminate]. rewrite <- E. apply NoDup_nodup.
Qed.
Lemma zigzag_onto i : (i < 64)%nat -> exists j, (j < 64)%nat /\ nth j zigzag 0%nat = i.
Proof.
  intros H. assert (E : In i zigzag).
  { assert (G : forallb (fun i => existsb (Nat.eqb i) zigzag) (seq 0 64) = true) by (vm_compute; reflexivity).
    rewrite forallb_forall in G. specialize (G i ltac:(apply in_seq; lia)). apply existsb_exists in G.
    destruct G as (x & Hx & Ex). apply Nat.eqb_eq in Ex. now subst x. }
  destruct (In_nth _ _ 0%nat E) as (j & Hj & Ej). rewrite zigzag_len in Hj. eauto.
Qed.

Lemma last_store_other : forall l bn bn' i, bn <> bn' -> last_store (ac_outs bn' l) bn i = None.
Proof.
  induction l as [|[k v] l IH]; intros bn bn' i H; cbn [ac_outs map last_store]; auto.
  change (map _ l) with (ac_outs bn' l). rewrite IH by auto. destruct (Z.eqb_spec bn bn'); [congruence|reflexivity].
Qed.

Lemma nz_store bn : forall l k j, (k + length l <= 64)%nat -> Forall coef16 l -> (j < 64)%nat ->
  last_store (ac_outs bn (nz k l)) bn (nth j jpeg_natural_order 0) =
  if (k <=? j)%nat && (j <? k + length l)%nat && negb (nth (j - k) l 0 =? 0) then Some (nth (j - k) l 0) else None.
Proof.
  induction l as [|v l IH]; intros k j Hk Hc Hj; cbn [nz length].
  - cbn [ac_outs map last_store]. destruct (Nat.leb_spec k j), (Nat.ltb_spec j (k + 0)); cbn; auto. lia.
  - inversion Hc as [|? ? Hv Hc']; subst. cbn [length] in Hk.
    assert (G : last_store (ac_outs bn (nz (S k) l)) bn (nth j jpeg_natural_order 0) =
      if (k <? j)%nat && (j <? k + S (length l))%nat && negb (nth (j - k) (v :: l) 0 =? 0) then Some (nth (j - k) (v :: l) 0) else None).
    { rewrite IH by (auto; lia). destruct (Nat.leb_spec (S k) j); destruct (Nat.ltb_spec k j); try lia; [|reflexivity].
      replace (j - k)%nat with (S (j - S k)) by lia. cbn [nth]. replace (S k + length l)%nat with (k + S (length l))%nat by lia. reflexivity. }
    destruct (Z.eqb_spec v 0) as [->|Hz].
    + rewrite G. destruct (Nat.ltb_spec k j); destruct (Nat.leb_spec k j); try lia; auto; cbn [andb].
      assert (j = k) by lia. subst j. rewrite Nat.sub_diag. cbn [nth]. cbn [Z.eqb negb]. now rewrite andb_false_r.
    + cbn [ac_outs map last_store fst snd]. change (map _ (nz (S k) l)) with (ac_outs bn (nz (S k) l)). rewrite G, Z.eqb_refl.
      rewrite !nat_order_zigzag by lia. destruct (Nat.ltb_spec k j) as [L|L].
      * destruct (Nat.leb_spec k j); [|lia]. cbn [andb].
        destruct ((j <? k + S (length l))%nat && negb (nth (j - k) (v :: l) 0 =? 0)); auto. destruct (Z.eqb_spec (Z.of_nat (nth j zigzag 0%nat)) (Z.of_nat (nth k zigzag 0%nat))) as [E|]; auto.
        exfalso. apply Nat2Z.inj in E. apply (proj1 (NoDup_nth zigzag 0%nat) zigzag_nodup) in E; rewrite ?zigzag_len; lia.
      * cbn [andb]. destruct (Nat.leb_spec k j) as [L2|L2].
        -- assert (j = k) by lia. subst j. rewrite Z.eqb_refl, Nat.sub_diag. cbn [nth]. destruct (Nat.ltb_spec k (k + S (length l))); [|lia].
           destruct (Z.eqb_spec v 0); [congruence|]. cbn. now rewrite s16_coef.
        -- cbn [andb]. destruct (Z.eqb_spec (Z.of_nat (nth j zigzag 0%nat)) (Z.of_nat (nth k zigzag 0%nat))) as [E|]; auto.
           exfalso. apply Nat2Z.inj in E. apply (proj1 (NoDup_nth zigzag 0%nat) zigzag_nodup) in E; rewrite ?zigzag_len; lia.
Qed.

Lemma zz_nth blk j : (j < 64)%nat -> nth j (zz blk) 0 = nth (nth j zigzag 0%nat) blk 0.
Proof. intros H. unfold zz. rewrite (nth_indep _ 0 (nth 0%nat blk 0)) by (rewrite map_length, zigzag_len; auto). apply (map_nth (fun i => nth i blk 0)). Qed.

Lemma coef16_category v : (category v <= 15)%nat -> coef16 v.
Proof. intros H. apply category_le in H. unfold coef16. change (2 ^ Z.of_nat 15) with 32768 in H. lia. Qed.

Lemma blk_outs_coef bn u i : blk16 u -> (i < 64)%nat ->
  coef (blk_outs bn u) bn (Z.of_nat i) = nth i (u_coef u) 0.
Proof.
  intros (L1 & L2 & L3) Hi. destruct (zigzag_onto i Hi) as (j & Hj & <-).
  unfold coef, blk_outs. cbn [last_store].
  rewrite <- nat_order_zigzag by auto.
  rewrite nz_store; [|change (length (tl (zz (u_coef u)))) with 63%nat; lia| |exact Hj].
  2:{ eapply Forall_impl; [|exact L3]. intros v Hv. apply coef16_category. exact Hv. }
  change (length (tl (zz (u_coef u)))) with 63%nat.
  rewrite nat_order_zigzag, <- zz_nth by auto. rewrite Z.eqb_refl. cbn [andb].
  destruct j as [|j].
  - cbn [Nat.leb andb]. change (Z.of_nat (nth 0 zigzag 0%nat)) with 0. cbn [Z.eqb]. rewrite zz_nth by lia. reflexivity.
  - cbn [Nat.leb]. replace (S j - 1)%nat with j by lia. destruct (Nat.ltb_spec (S j) (1 + 63)); [|lia]. cbn [andb].
    assert (E : nth j (tl (zz (u_coef u))) 0 = nth (S j) (zz (u_coef u)) 0) by reflexivity. rewrite E.
    destruct (Z.eqb_spec (nth (S j) (zz (u_coef u)) 0) 0) as [->|]; cbn [negb]; auto.
    destruct (Z.eqb_spec (Z.of_nat (nth (S j) zigzag 0%nat)) 0) as [E2|]; auto.
    exfalso. assert (E3 : nth (S j) zigzag 0%nat = nth 0 zigzag 0%nat) by (change (nth 0 zigzag 0%nat) with 0%nat; lia).
    apply (proj1 (NoDup_nth zigzag 0%nat) zigzag_nodup) in E3; rewrite ?zigzag_len; lia.
Qed.

Lemma mcu_outs_lt : forall m bn bn' i, bn' < bn -> last_store (mcu_outs bn m) bn' i = None.
Proof.
  induction m as [|u m IH]; intros bn bn' i H; cbn [mcu_outs]; auto. rewrite last_store_app, IH by lia.
  unfold blk_outs. cbn [last_store]. rewrite last_store_other by lia. destruct (Z.eqb_spec bn' bn); [lia|reflexivity].
Qed.

Lemma mcu_outs_coef : forall m bn j i u, Forall blk16 m -> nth_error m j = Some u -> (i < 64)%nat ->
  coef (mcu_outs bn m) (bn + Z.of_nat j) (Z.of_nat i) = nth i (u_coef u) 0.
Proof.
  induction m as [|u0 m IH]; intros bn j i u H16 Hn Hi; [destruct j; discriminate|].
  inversion H16; subst. cbn [mcu_outs]. unfold coef. rewrite last_store_app. destruct j as [|j].
  - cbn in Hn. inversion Hn; subst u0. rewrite mcu_outs_lt by lia. rewrite Z.add_0_r. apply blk_outs_coef; auto.
  - cbn [nth_error] in Hn. specialize (IH (bn + 1) j i u H2 Hn Hi). unfold coef in IH.
    replace (bn + Z.of_nat (S j)) with (bn + 1 + Z.of_nat j) by lia.
    destruct (last_store (mcu_outs (bn + 1) m) _ _); auto.
    unfold blk_outs. cbn [last_store]. rewrite last_store_other by lia. destruct (Z.eqb_spec (bn + 1 + Z.of_nat j) bn); [lia|]. exact IH.
Qed.

(* ---- segments ---- *)
Lemma seg_stuff u D m rest : m <> 0 -> m <> 255 -> seg u false (stuff D ++ 255 :: m :: rest) = (D, Some (m, rest)).
Proof.
  intros H0 H1. induction D as [|b D IH]; cbn [stuff app seg].
  - cbn [Z.eqb Pos.eqb]. rewrite (proj2 (Z.eqb_neq m 255) H1), (proj2 (Z.eqb_neq m 0) H0). reflexivity.
  - destruct (Z.eqb_spec b 255) as [->|Hb].
    + cbn [app seg Z.eqb Pos.eqb]. rewrite IH. reflexivity.
    + cbn [app seg]. rewrite (proj2 (Z.eqb_neq b 255) Hb), IH. reflexivity.
Qed.

Lemma clean_stuff D m rest : m <> 0 -> m <> 255 -> clean (stuff D ++ 255 :: m :: rest).
Proof.
  intros H0 H1 u buf r E Hst. rewrite (seg_stuff u D m rest H0 H1). cbn [fst].
  revert buf E Hst. induction D as [|b D IH]; intros buf E Hst; cbn [stuff app] in E.
  - destruct buf as [|c buf]; [discriminate|]. cbn [app] in E. injection E as <- E. cbn [fstop fseg Z.eqb Pos.eqb] in *.
    destruct buf as [|c buf]; [discriminate|]. cbn [app] in E. injection E as <- E. destruct m; congruence.
  - destruct (Z.eqb_spec b 255) as [->|Hb].
    + destruct buf as [|c buf]; [discriminate|]. cbn [app] in E. injection E as <- E. cbn [fstop fseg Z.eqb Pos.eqb] in *.
      destruct buf as [|c buf]; [discriminate|]. cbn [app] in E. injection E as <- E. f_equal. eapply IH; eauto.
    + destruct buf as [|c buf]; [discriminate|]. cbn [app] in E. injection E as <- E. cbn [fstop fseg] in *.
      rewrite (proj2 (Z.eqb_neq b 255) Hb) in *. f_equal. eapply IH; eauto.
Qed.

Lemma stuff_suffix : forall D a b, stuff D = a ++ b -> exists D', b = stuff D'.
Proof.
  induction D as [|x D IH]; intros a b E; cbn [stuff] in E.
  - destruct a; [|discriminate]. exists []. exact (eq_sym E).
  - destruct a as [|y a]; [exists (x :: D); cbn [stuff]; now rewrite E|].
    destruct (Z.eqb_spec x 255) as [->|Hx].
    + cbn [app] in E. injection E as <- E. destruct a as [|z a]; [exists (0 :: D); cbn [stuff Z.eqb]; exact (eq_sym E)|].
      cbn [app] in E. injection E as <- E. eapply IH; eauto.
    + cbn [app] in E. injection E as <- E. eapply IH; eauto.
Qed.

(* a position in the input from which the decoder still sees the end of the segment is clean *)
Definition qpos (W : list Z) (s : source) : Prop := src_bytes s = [217] \/ src_bytes s = [] \/ exists a, W = a ++ src_bytes s.
Lemma qpos_next W s c s' : qpos W s -> next_byte s = Some (c, s') -> qpos W s'.
Proof.
  intros H E. destruct (next_byte_some _ _ _ E) as [_ [Hb|(_ & _ & _ & Hb)]]; [|left; exact Hb].
  destruct H as [H|[H|(a & H)]].
  - rewrite H in Hb. inversion Hb. right. left. congruence.
  - rewrite H in Hb. discriminate.
  - right. right. exists (a ++ [c]). rewrite <- app_assoc. cbn [app]. congruence.
Qed.

Lemma short_clean bs : bs = [217] \/ bs = [] -> clean bs.
Proof.
  intros H u buf r E Hs. exfalso. destruct H as [-> | ->].
  - destruct buf as [|c [|d buf]]; cbn in E; try discriminate. inversion E; subst. discriminate.
  - destruct buf; [|discriminate]. discriminate.
Qed.

Lemma qpos_clean D m rest s : m <> 0 -> m <> 255 -> qpos (stuff D ++ 255 :: m :: rest) s ->
  snd (seg false false (src_bytes s)) = Some (m, rest) -> clean (src_bytes s).
Proof.
  intros H0 H1 [H|[H|(a & H)]] Ht; [apply short_clean; auto..|].
  destruct (app_split _ _ _ _ H) as [(c & Ec & Eb)|(c & Ea & Eb)].
  - rewrite Eb. destruct (stuff_suffix _ _ _ Ec) as (D' & ->). apply clean_stuff; auto.
  - destruct c as [|x c].
    + cbn [app] in Eb. rewrite <- Eb. apply (clean_stuff [] m rest); auto.
    + cbn [app] in Eb. inversion Eb as [[E1 E2]]. destruct c as [|x2 c].
      * cbn [app] in E2. rewrite <- E2 in *. cbn [seg] in Ht. rewrite (proj2 (Z.eqb_neq m 255) H1) in Ht.
        destruct (seg false false rest) as [d t] eqn:Es. cbn [snd] in Ht. subst t.
        destruct (seg_tail_len false rest false m rest ltac:(now rewrite Es)) as [L|(_ & -> & ->)]; [lia|].
        apply short_clean. auto.
      * cbn [app] in E2. inversion E2 as [[E3 E4]].
        destruct (seg_tail_len false _ false m rest Ht) as [L|(_ & -> & ->)].
        -- rewrite E4, app_length in L. lia.
        -- symmetry in E4. apply app_eq_nil in E4. destruct E4 as [_ ->]. apply short_clean. auto.
Qed.

Lemma bits_of_firstn8 l : bits_of 8 (bval (firstn 8 (l ++ repeat true 7))) = firstn 8 (l ++ repeat true 7) \/ l = [].
Proof.
  destruct l as [|b l]; auto. left. apply bits_of_bval_n. rewrite firstn_length, app_length. cbn [length]. rewrite repeat_length. lia.
Qed.

Lemma pack_bits : forall fuel l, (length l <= fuel)%nat -> exists pad, bytes_to_bits (pack fuel l) = l ++ pad /\ (length pad < 8)%nat.
Proof.
  induction fuel as [|f IH]; intros l Hl.
  - destruct l; [|cbn in Hl; lia]. exists []. cbn. split; auto. lia.
  - cbn [pack]. destruct l as [|b l]; [exists []; cbn; split; auto; lia|].
    set (l0 := b :: l) in *. assert (Hne : l0 <> []) by discriminate.
    change (bytes_to_bits (bval (firstn 8 (l0 ++ repeat true 7)) :: pack f (skipn 8 l0))) with
      (bits_of 8 (bval (firstn 8 (l0 ++ repeat true 7))) ++ bytes_to_bits (pack f (skipn 8 l0))).
    destruct (bits_of_firstn8 l0) as [->|]; [|congruence].
    destruct (le_lt_dec 8 (length l0)) as [L|L].
    + destruct (IH (skipn 8 l0)) as (pad & -> & Hp). { rewrite skipn_length. unfold l0 in *. cbn [length] in *. lia. }
      exists pad. split; auto. rewrite firstn_app. replace (8 - length l0)%nat with 0%nat by lia. rewrite firstn_O, app_nil_r.
      rewrite app_assoc, firstn_skipn. reflexivity.
    + rewrite (skipn_all2 l0) by lia. replace (pack f []) with (@nil Z) by (destruct f; reflexivity). cbn [bytes_to_bits flat_map]. rewrite app_nil_r.
      rewrite firstn_app, firstn_all2 by lia. eexists. split; [reflexivity|]. rewrite firstn_length, repeat_length.
      assert (1 <= length l0)%nat by (unfold l0; cbn; lia). lia.
Qed.

Lemma segment_bits l : exists D pad, segment_bytes l = stuff D /\ bytes_to_bits D = l ++ pad /\ (length pad < 8)%nat.
Proof. destruct (pack_bits (length l) l ltac:(lia)) as (pad & H1 & H2). exists (pack (length l) l), pad. auto. Qed.

(* ---- scans ---- *)
Section Scan.
Variables (nc ri : nat) (m : Z) (rest : list Z).
Hypothesis Hm0 : m <> 0.
Hypothesis Hm1 : m <> 255.
Hypothesis Hri : Z.of_nat ri < 2 ^ 32.

Definition specm (l : list (list ublk)) := map (map spec_blk) l.
Definition segb (l : list (list ublk)) : list Z := segment_bytes (enc_mcus (repeat 0 nc) (specm l)).
Definition rest_bytes (i : Z) (l : list (list ublk)) : list Z :=
  join_rst i (map segb (intervals (S (length l)) ri l)) ++ 255 :: m :: rest.
Definition tail_of (i : Z) (l : list (list ublk)) : option (Z * list Z) :=
  match l with [] => Some (m, rest) | _ => Some (208 + i mod 8, rest_bytes (i + 1) l) end.
Definition first_len (l : list (list ublk)) : nat := if (ri =? 0)%nat then length l else ri.

Lemma intervals_fuel {A} : forall f f' (l : list A), (length l < f)%nat -> (length l < f')%nat -> intervals f ri l = intervals f' ri l.
Proof.
  induction f as [|f IH]; intros f' l H H'; [lia|]. destruct f' as [|f']; [lia|]. cbn [intervals].
  destruct (Nat.eqb_spec ri 0); cbn [orb]; auto. destruct (Nat.leb_spec (length l) ri); auto. f_equal.
  apply IH; rewrite skipn_length; lia.
Qed.

Lemma intervals_unfold {A} (l : list A) : intervals (S (length l)) ri l =
  if ((ri =? 0) || (length l <=? ri))%nat then [l] else firstn ri l :: intervals (S (length (skipn ri l))) ri (skipn ri l).
Proof.
  assert (E : forall f, intervals (S f) ri l = if ((ri =? 0) || (length l <=? ri))%nat then [l] else firstn ri l :: intervals f ri (skipn ri l)) by reflexivity.
  rewrite E. destruct (Nat.eqb_spec ri 0); cbn [orb]; auto. destruct (Nat.leb_spec (length l) ri); auto. f_equal.
  apply intervals_fuel; rewrite skipn_length; lia.
Qed.

Lemma intervals_nonempty {A} (l : list A) n : intervals (S n) ri l <> [].
Proof. cbn [intervals]. destruct (_ || _); discriminate. Qed.

Lemma seg_rest i l : exists D pad,
  seg false false (rest_bytes i l) = (D, tail_of i (skipn (first_len l) l)) /\
  bytes_to_bits D = enc_mcus (repeat 0 nc) (specm (firstn (first_len l) l)) ++ pad.
Proof.
  unfold rest_bytes, first_len. rewrite intervals_unfold.
  assert (G : forall n, (length l <= n)%nat -> exists D pad, seg false false (join_rst i (map segb [l]) ++ 255 :: m :: rest) = (D, tail_of i (skipn n l)) /\
     bytes_to_bits D = enc_mcus (repeat 0 nc) (specm (firstn n l)) ++ pad).
  { intros n Hn. cbn [map join_rst]. destruct (segment_bits (enc_mcus (repeat 0 nc) (specm l))) as (D & pad & E1 & E2 & _).
    exists D, pad. unfold segb. rewrite E1, seg_stuff by auto. rewrite skipn_all2, firstn_all2 by lia. auto. }
  destruct (Nat.eqb_spec ri 0); cbn [orb]; [apply G; lia|]. destruct (Nat.leb_spec (length l) ri); [apply G; lia|]. clear G.
  destruct (segment_bits (enc_mcus (repeat 0 nc) (specm (firstn ri l)))) as (D & pad & E1 & E2 & _).
  exists D, pad. split; [|exact E2]. cbn [map join_rst].
  destruct (map segb (intervals (S (length (skipn ri l))) ri (skipn ri l))) as [|s0 r0] eqn:Em.
  { exfalso. apply map_eq_nil in Em. apply (intervals_nonempty _ _ Em). }
  unfold segb at 1. rewrite E1, <- !app_assoc. cbn [app].
  pose proof (Z.mod_pos_bound i 8 ltac:(lia)).
  rewrite seg_stuff by lia. f_equal. unfold tail_of. destruct (skipn ri l) as [|x y] eqn:Es.
  - exfalso. assert (length (skipn ri l) = 0%nat) by (rewrite Es; reflexivity). rewrite skipn_length in *. lia.
  - unfold rest_bytes. rewrite <- Em. reflexivity.
Qed.

Definition codable (t : nat) (preds : list Z) (ms : list (list ublk)) : Prop :=
  mcus_codable preds (firstn t ms) /\ Forall (mcus_codable (repeat 0 nc)) (intervals (S (length (skipn t ms))) ri (skipn t ms)).

Definition rinv (t : nat) (i : Z) (ms : list (list ublk)) (st : rstate) : Prop :=
  (exists pad, rs_bits st = enc_mcus (rs_dcs st) (specm (firstn t ms)) ++ pad) /\ rs_tail st = tail_of i (skipn t ms) /\
  rs_ins st = false /\ (ri <> 0%nat -> rs_togo st = Z.of_nat t) /\ rs_num st = i mod 8 /\ (ri = 0%nat -> (length ms <= t)%nat) /\
  (ri <> 0%nat -> t <= ri)%nat /\ length (rs_dcs st) = nc /\ codable t (rs_dcs st) ms.

Lemma codable_restart l : codable 0 (repeat 0 nc) l -> codable (first_len l) (repeat 0 nc) l.
Proof.
  intros [_ H]. cbn [skipn] in H. rewrite intervals_unfold in H. unfold codable, first_len.
  destruct (Nat.eqb_spec ri 0); cbn [orb] in H.
  - rewrite firstn_all2, skipn_all2 by lia. split; [exact (Forall_inv H)|]. rewrite intervals_unfold. cbn. rewrite orb_true_r. repeat constructor.
  - destruct (Nat.leb_spec (length l) ri).
    + rewrite firstn_all2, skipn_all2 by lia. split; [exact (Forall_inv H)|]. rewrite intervals_unfold. cbn. rewrite orb_true_r. repeat constructor.
    + split; [exact (Forall_inv H)|exact (Forall_inv_tail H)].
Qed.

Lemma rinv_restart i ms st : ri <> 0%nat -> ms <> [] -> rinv 0 i ms st ->
  exists st', ref_restart false (Z.of_nat ri) st = Some st' /\ rinv ri (i + 1) ms st'.
Proof.
  intros Hr Hne ((pad & H1) & H2 & H3 & H4 & H5 & H6 & H7 & H8 & H9). unfold ref_restart. rewrite H2. cbn [skipn]. unfold tail_of. destruct ms as [|m0 ms]; [congruence|].
  rewrite H5. unfold restart_ref. rewrite Z.eqb_refl. eexists. split; [reflexivity|].
  destruct (seg_rest (i + 1) (m0 :: ms)) as (D & pad' & E1 & E2). cbn [Z.eqb].
  assert (Ef : first_len (m0 :: ms) = ri). { unfold first_len. destruct (Nat.eqb_spec ri 0); [lia|auto]. }
  rewrite Ef in *. unfold rinv. cbn [rs_bits rs_tail rs_ins rs_togo rs_num rs_dcs]. rewrite E1. cbn [fst snd]. rewrite H8.
  split; [exists pad'; exact E2|]. split; [reflexivity|]. split; [reflexivity|]. split; [auto|].
  split. { rewrite <- (Z.add_mod_idemp_l i 1 8) by lia. reflexivity. }
  split; [lia|]. split; [lia|]. split; [apply repeat_length|].
  destruct H9 as [_ H9]. rewrite <- Ef. apply codable_restart. split; [exact I|exact H9].
Qed.

Lemma enc_mcu_len : forall bs preds, length (snd (enc_mcu preds bs)) = length preds.
Proof.
  induction bs as [|b bs IH]; intros preds; cbn [enc_mcu]; auto. specialize (IH (upd preds (s_ci b) (nth 0 (s_coef b) 0))).
  destruct (enc_mcu _ bs) as [w p']. cbn [snd] in *. now rewrite IH, length_upd.
Qed.

Lemma rinv_body t i m0 ms st rbs togo' : (1 <= t)%nat -> rinv t i (m0 :: ms) st -> Forall2 (dec_of nc) m0 rbs -> Forall blk16 m0 ->
  (ri <> 0%nat -> togo' = Z.of_nat t - 1) ->
  exists st', ref_body rbs st togo' = (mcu_outs 0 m0, st') /\ rinv (t - 1) i ms st'.
Proof.
  intros Ht ((pad & H1) & H2 & H3 & H4 & H5 & H6 & H7 & H8 & H9) HF H16 Htg.
  destruct t as [|t]; [lia|]. replace (S t - 1)%nat with t by lia. cbn [firstn specm map enc_mcus skipn] in *.
  fold (specm (firstn t ms)) in H1. unfold codable in H9. cbn [firstn skipn mcus_codable] in H9. destruct H9 as [[C1 C2] C3].
  unfold ref_body. rewrite H3.
  assert (Es : snd (enc_mcu (rs_dcs st) (map spec_blk m0)) = snd (enc_mcu (rs_dcs st) (map spec_blk m0))) by reflexivity.
  pose proof (ref_mcu_enc (zstream (rs_bits st)) nc m0 rbs 0 (rs_dcs st) 0 HF H16 C1) as HR.
  pose proof (enc_mcu_len (map spec_blk m0) (rs_dcs st)) as Hlen.
  destruct (enc_mcu (rs_dcs st) (map spec_blk m0)) as [w p'] eqn:Ee. cbn [fst snd] in *.
  rewrite <- app_assoc in H1. rewrite HR. 2:{ rewrite H1. apply (starts_zstream []). }
  eexists. split; [reflexivity|]. cbn [Nat.add]. unfold rinv. cbn [rs_bits rs_tail rs_ins rs_togo rs_num rs_dcs].
  split. { exists pad. rewrite H1, skipn_app, Nat.sub_diag, skipn_all2 by lia. reflexivity. }
  split; [exact H2|]. split. { apply Nat.ltb_ge. rewrite H1, app_length. lia. }
  split; [intros Hr; rewrite Htg by auto; lia|]. split; [exact H5|]. split; [intros Hr; specialize (H6 Hr); cbn [length] in H6; lia|].
  split; [intros Hr; specialize (H7 Hr); lia|]. split; [congruence|]. split; assumption.
Qed.

Lemma rinv_step t i m0 ms st rbs : rinv t i (m0 :: ms) st -> Forall2 (dec_of nc) m0 rbs -> Forall blk16 m0 ->
  exists st' t' i', ref_step false (Z.of_nat ri) rbs st = Some (mcu_outs 0 m0, st') /\ rinv t' i' ms st'.
Proof.
  intros HI HF H16. pose proof HI as ((pad & H1) & H2 & H3 & H4 & H5 & H6 & H7 & H8 & H9). rewrite ref_step_body.
  destruct (Nat.eq_dec ri 0) as [Er|Er].
  - rewrite Er. cbn [Z.of_nat Z.eqb negb andb].
    assert (Ht : (1 <= t)%nat) by (specialize (H6 Er); cbn [length] in H6; lia).
    destruct (rinv_body t i m0 ms st rbs (rs_togo st) Ht HI HF H16 ltac:(intros; lia)) as (st' & E & HI'). rewrite E. eauto.
  - destruct (Z.eqb_spec (Z.of_nat ri) 0); [lia|]. cbn [negb andb]. rewrite (H4 Er). specialize (H7 Er).
    destruct (Z.eqb_spec (Z.of_nat t) 0) as [Et|Et].
    + assert (t = 0%nat) by lia. subst t. destruct (rinv_restart i (m0 :: ms) st Er ltac:(discriminate) HI) as (st1 & E1 & HI1). rewrite E1.
      pose proof HI1 as (_ & _ & _ & K4 & _). rewrite (K4 Er).
      destruct (rinv_body ri (i + 1) m0 ms st1 rbs (u32 (Z.of_nat ri - 1)) ltac:(lia) HI1 HF H16) as (st' & E & HI').
      { intros _. apply u32_id. lia. }
      rewrite E. eauto.
    + destruct (rinv_body t i m0 ms st rbs (u32 (rs_togo st - 1)) ltac:(lia) HI HF H16) as (st' & E & HI').
      { intros _. rewrite (H4 Er). apply u32_id. lia. }
      rewrite E. eauto.
Qed.
End Scan.
