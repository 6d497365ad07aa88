(* P_PHuff3.v -- progressive Huffman: DC scans, runs of blocks, restart segments -- all in terms of the items emitted and asked for *)
From Verif Require P_ArithBlk P_ArithBlk3.
From Verif Require Import Base M_HuffTbl M_Source M_BitRead M_HuffEnc M_LossHuff M_HuffDec S_Huff S_Stream S_Block P_BitRead P_HuffDec P_HuffEnc P_HuffScan P_Round P_Gather P_Trellis S_Prog P_ArithBlk2 M_PHuff P_PHuff P_PHuff2.

Notation len l := (Z.of_nat (length l)).
Record pvalid (p : pscan) : Prop := mkPV {
  pv_mode : (pSs p = 0 /\ pSe p = 0) \/ (1 <= pSs p <= pSe p /\ pSe p <= 63 /\ length (pcomps p) = 1%nat);
  pv_al : 0 <= pAl p <= 13; pv_ah : pAh p = 0 \/ pAh p = pAl p + 1; pv_prec : 0 <= pprec p <= 12; pv_ri : 0 <= pri p }.
Definition blk_ok (p : pscan) (s o : Z * list Z) : Prop :=
  fst s = fst o /\ 0 <= fst s < len (pcomps p) /\ block_src (snd s) /\ block_before (pSs p) (pSe p) (pAh p) (snd s) (snd o).
Definition mcu_ok (p : pscan) (ss os : pmcu) : Prop := Forall2 (blk_ok p) ss os /\ (pSs p <> 0 -> length ss = 1%nat).
Definition mcu_after (p : pscan) (ss os : pmcu) (news : list (list Z)) : Prop :=
  Forall2 (fun so new => block_after (pSs p) (pSe p) (pAl p) (fst so) (snd so) new) (combine (map snd ss) (map snd os)) news.
Definition scan_after (p : pscan) (sss oss : list pmcu) (news : list (list (list Z))) : Prop :=
  Forall2 (fun so n => mcu_after p (fst so) (snd so) n) (combine sss oss) news.

(* coefficients the encoder refuses *)
Definition bad_blk (p : pscan) (b : list Z) : Prop := exists i, pSs p <= i <= pSe p /\ 2 ^ (pprec p + 2) <= Z.abs (zz b i) / 2 ^ pAl p.

Definition in16 (x : Z) : Prop := -32768 <= x <= 32767.
Definition dcok (p : pscan) (dcs : list Z) : Prop := length dcs = length (pcomps p) /\ Forall in16 dcs.

Lemma shiftr16 c Al : 0 <= Al -> in16 c -> in16 (Z.shiftr c Al).
Proof.
  intros H1 H2. unfold in16 in *. rewrite Z.shiftr_div_pow2 by lia. assert (0 < 2 ^ Al) by (apply Z.pow_pos_nonneg; lia). split; [apply Z.div_le_lower_bound; nia|apply Z.div_le_upper_bound; nia].
Qed.
Lemma zz0 b : length b = 64%nat -> aget b 0 = Ret (zz b 0).
Proof. intros L. rewrite P_ArithBlk.zz_g. change (no 0) with 0. apply aget_g. lia. Qed.
Lemma upd0_after p src old x : pSs p = 0 -> pSe p = 0 -> length old = 64%nat -> x = dc_at (pAl p) (zz src 0) -> block_after (pSs p) (pSe p) (pAl p) src old (upd old (Z.to_nat 0) x).
Proof.
  intros HSs HSe L ->. split; [rewrite length_upd; exact L|]. intros i Hi. rewrite !P_ArithBlk.zz_g. rewrite P_ArithBlk3.upd0 by assumption. rewrite HSs, HSe. destruct (Z.eqb_spec 0 i) as [<-|N].
  - cbn [Z.leb Z.compare andb]. reflexivity.
  - destruct (Z.leb_spec 0 i); destruct (Z.leb_spec i 0); cbn [andb]; try lia; reflexivity.
Qed.

Lemma dc_first_ok p : pvalid p -> pSs p = 0 -> pSe p = 0 -> pAh p = 0 -> forall ss os, Forall2 (blk_ok p) ss os -> forall dcs, dcok p dcs ->
  match penc_dc_first p dcs ss with
  | Ret (its, dcs') => Forall iok its /\ dcok p dcs' /\ exists news, mcu_after p ss os news /\ forall rest, pans (pdec_dc_first p dcs os) (its ++ rest) = Some ((news, dcs'), rest)
  | Error e => e = JERR_BAD_DCT_COEF /\ ~ Forall (fun '(_, b) => - 2 ^ (pprec p + 2) <= zz b 0 / 2 ^ pAl p < 2 ^ (pprec p + 2)) ss \/ (e = JERR_BAD_DCT_COEF /\ ~ Forall (fun x => - 2 ^ (pprec p + 2) <= x < 2 ^ (pprec p + 2)) dcs)
  | Undef => False
  end.
Proof.
  intros V HSs HSe HAh. pose proof (pv_al p V) as HAl. pose proof (pv_prec p V) as HPR. induction 1 as [|[ci src] [ci' old] ss os (E1 & E2 & (SL & SR) & (LO & BO)) F IH]; intros dcs [LD RD]; cbn [penc_dc_first pdec_dc_first].
  - split; [constructor|]. split; [split; assumption|]. exists []. split; [constructor|]. reflexivity.
  - cbn [fst snd] in *. subst ci'. pose proof (SR 0 ltac:(lia)) as R0. pose proof (shiftr16 (zz src 0) (pAl p) ltac:(lia) R0) as RS. unfold in16 in RS.
    assert (GC : exists d ac, aget (pcomps p) ci = Ret (d, ac)).
    { rewrite (aget_nth (pcomps p) ci (0, 0)) by lia. destruct (nth _ _ _). eauto. }
    destruct GC as (d & ac & GC). rewrite GC. cbn [bind plift pbind]. rewrite zz0 by exact SL. cbn [bind]. rewrite (aget_g dcs) by lia. cbn [bind].
    assert (RL : in16 (g dcs ci)) by (rewrite Forall_forall in RD; apply RD; unfold g; apply nth_In; lia). unfold in16 in RL.
    set (t2 := Z.shiftr (zz src 0) (pAl p)) in *. set (last := g dcs ci) in *. set (v := t2 - last).
    rewrite aset_ok by lia. cbn [bind].
    assert (SV : Z.shiftr v 31 = if v <? 0 then -1 else 0).
    { rewrite Z.shiftr_div_pow2 by lia. change (2 ^ 31) with 2147483648. destruct (Z.ltb_spec v 0).
      - symmetry. apply (Z.div_unique_pos v 2147483648 (-1) (v + 2147483648)); unfold v; lia.
      - apply Z.div_small. unfold v. lia. }
    rewrite SV. set (t3 := if v <? 0 then -1 else 0).
    assert (MG : Z.lxor v t3 - t3 = Z.abs v) by (unfold t3; destruct (Z.ltb_spec v 0); [rewrite Z.lxor_m1_r; unfold Z.lnot; lia|rewrite Z.lxor_0_r; lia]).
    assert (T2 : Z.lxor (Z.lxor v t3 - t3) t3 = if v <? 0 then v - 1 else v).
    { rewrite MG. unfold t3. destruct (Z.ltb_spec v 0); [rewrite Z.lxor_m1_r; unfold Z.lnot; lia|rewrite Z.lxor_0_r; lia]. }
    rewrite T2, MG. rewrite nbits_spec by (unfold v; lia). cbn [bind].
    destruct (Z.ltb_spec (pprec p + 2 + 1) (Z.of_nat (category v))) as [B|B].
    { assert (NV : ~ (- 2 ^ (pprec p + 3) < v < 2 ^ (pprec p + 3))). { intros X. assert (category v <= Z.to_nat (pprec p + 3))%nat by (apply category_le; rewrite Z2Nat.id by lia; exact X). lia. }
      assert (PW : 2 ^ (pprec p + 3) = 2 * 2 ^ (pprec p + 2)) by (rewrite <- Z.pow_succ_r by lia; f_equal; lia).
      assert (TD : t2 = zz src 0 / 2 ^ pAl p) by (unfold t2; apply Z.shiftr_div_pow2; lia).
      destruct (Z_lt_le_dec t2 (- 2 ^ (pprec p + 2))) as [C|C]; [left; split; [reflexivity|]; intros X; apply Forall_inv in X; cbn beta iota in X; lia|].
      destruct (Z_lt_le_dec t2 (2 ^ (pprec p + 2))) as [C2|C2]; [|left; split; [reflexivity|]; intros X; apply Forall_inv in X; cbn beta iota in X; lia].
      right. split; [reflexivity|]. intros X. rewrite Forall_forall in X. specialize (X last ltac:(unfold last, g; apply nth_In; lia)). unfold v in NV. lia. }
    assert (DC1 : dcok p (upd dcs (Z.to_nat ci) t2)) by (split; [rewrite length_upd; exact LD|]; apply Forall_forall; intros x Hx; apply In_nth with (d := 0) in Hx; destruct Hx as (j & J1 & <-); rewrite length_upd in J1; destruct (Nat.eq_dec j (Z.to_nat ci)) as [->|NJ]; [rewrite nth_upd_eq by lia; exact RS|rewrite nth_upd_neq by lia; rewrite Forall_forall in RD; apply RD; apply nth_In; lia]).
    specialize (IH _ DC1). destruct (penc_dc_first p (upd dcs (Z.to_nat ci) t2) ss) as [[its dcs']|er|]; cbn [bind]; [|destruct IH as [[IH1 IH2]|[IH1 IH2]]|contradiction].
    2:{ left. split; [exact IH1|]. intros X. apply IH2. apply Forall_inv_tail in X. exact X. }
    2:{ destruct (Z_le_gt_dec (- 2 ^ (pprec p + 2)) t2) as [C|C]; [destruct (Z_lt_le_dec t2 (2 ^ (pprec p + 2))) as [C2|C2]|].
        - right. split; [exact IH1|]. intros X. apply IH2. apply Forall_forall. intros x Hx. apply In_nth with (d := 0) in Hx. destruct Hx as (j & J1 & <-). rewrite length_upd in J1. destruct (Nat.eq_dec j (Z.to_nat ci)) as [->|NJ]; [rewrite nth_upd_eq by lia; lia|rewrite nth_upd_neq by lia; rewrite Forall_forall in X; apply X; apply nth_In; lia].
        - left. split; [exact IH1|]. intros X. apply Forall_inv in X. cbn beta iota in X. unfold t2 in C2. rewrite Z.shiftr_div_pow2 in C2 by lia. lia.
        - left. split; [exact IH1|]. intros X. apply Forall_inv in X. cbn beta iota in X. unfold t2 in C. rewrite Z.shiftr_div_pow2 in C by lia. lia. }
    destruct IH as (I1 & I2 & news & I3 & I4).
    assert (C16 : (category v <= 15)%nat) by lia.
    split; [|split; [exact I2|]].
    { constructor; [cbn; lia|]. apply Forall_app. split; [|exact I1]. destruct (Z.eqb_spec (Z.of_nat (category v)) 0); constructor; [cbn; lia|constructor]. }
    assert (EB : s16 (Z.shiftl t2 (pAl p)) = dc_at (pAl p) (zz src 0)).
    { unfold t2. rewrite Z.shiftr_div_pow2, Z.shiftl_mul_pow2 by lia. change (zz src 0 / 2 ^ pAl p * 2 ^ pAl p) with (dc_at (pAl p) (zz src 0)). apply s16_id. pose proof (P_ArithBlk3.dc_at_range (zz src 0) (pAl p) HAl R0). unfold s16r. lia. }
    exists (upd old (Z.to_nat 0) (dc_at (pAl p) (zz src 0)) :: news). split; [constructor; [cbn [fst snd]; apply upd0_after; auto|exact I3]|].
    intros rest. cbn [app]. rewrite pans_sym, pans_bind. rewrite <- app_assoc.
    assert (PV : pans (if Z.of_nat (category v) =? 0 then PDone 0 else PBits (Z.of_nat (category v)) (fun r => PDone (HUFF_EXTEND r (Z.of_nat (category v))))) ((if Z.of_nat (category v) =? 0 then [] else [IBits (u32 (if v <? 0 then v - 1 else v)) (Z.of_nat (category v))]) ++ its ++ rest) = Some (v, its ++ rest)).
    { destruct (Z.eqb_spec (Z.of_nat (category v)) 0) as [E0|E0].
      - assert (v = 0) as -> by (apply category_0; lia). reflexivity.
      - cbn [app]. rewrite pans_bits. cbn [pans]. do 2 f_equal. transitivity (HUFF_EXTEND ((if v <? 0 then v - 1 else v) mod 2 ^ Z.of_nat (category v)) (Z.of_nat (category v))).
        + f_equal. unfold u32. symmetry. rewrite <- (Znumtheory.Zmod_div_mod (2 ^ Z.of_nat (category v)) (2 ^ 32)); [reflexivity|apply Z.pow_pos_nonneg; lia|lia|]. exists (2 ^ (32 - Z.of_nat (category v))). rewrite <- Z.pow_add_r by lia. f_equal. lia.
        + apply huff_ext; [intros EV; apply E0; rewrite EV; reflexivity|lia]. }
    rewrite PV. cbv beta iota. cbn [plift pbind]. replace (v + last) with t2 by (unfold v; lia). rewrite aset_ok by lia. cbn [plift pbind].
    assert (NO : ((0 <=? last) && (2147483647 - last <? v)) || ((last <? 0) && (v <? -2147483648 - last)) = false).
    { apply orb_false_iff. split; apply andb_false_iff; right; apply Z.ltb_ge; unfold v; lia. }
    rewrite NO. rewrite EB. rewrite aset_ok by lia. cbn [plift pbind]. rewrite pans_bind, I4. reflexivity.
Qed.

Lemma dc_refine_ok p : pvalid p -> pSs p = 0 -> pSe p = 0 -> pAh p <> 0 -> forall ss os, Forall2 (blk_ok p) ss os ->
  exists its news, penc_dc_refine p ss = Ret its /\ Forall iok its /\ mcu_after p ss os news /\ forall rest, pans (pdec_dc_refine p os) (its ++ rest) = Some (news, rest).
Proof.
  intros V HSs HSe HAh. pose proof (pv_al p V) as HAl. assert (EA : pAh p = pAl p + 1) by (destruct (pv_ah p V); [contradiction|assumption]).
  induction 1 as [|[ci src] [ci' old] ss os (E1 & E2 & (SL & SR) & (LO & BO)) F (its & news & I1 & I2 & I3 & I4)]; cbn [penc_dc_refine pdec_dc_refine].
  - exists [], []. split; [reflexivity|]. split; [constructor|]. split; [constructor|]. reflexivity.
  - cbn [fst snd] in *. pose proof (SR 0 ltac:(lia)) as R0. rewrite zz0 by exact SL. cbn [bind]. rewrite I1. cbn [bind].
    specialize (BO 0 ltac:(lia) ltac:(lia)). destruct (Z.eqb_spec (pAh p) 0); [contradiction|]. unfold at_prec in BO. cbn [Z.eqb] in BO. rewrite EA in BO.
    set (c := zz src 0) in *. set (A := pAl p) in *. assert (P0 : 0 < 2 ^ A) by (apply Z.pow_pos_nonneg; lia). assert (PA : 2 ^ (A + 1) = 2 * 2 ^ A) by (rewrite Z.pow_add_r by lia; change (2 ^ 1) with 2; lia).
    assert (QH : c / 2 ^ (A + 1) = c / 2 ^ A / 2) by (rewrite PA, Z.mul_comm, <- Z.div_div by lia; reflexivity).
    pose proof (Z.div_mod (c / 2 ^ A) 2 ltac:(lia)) as DM. pose proof (Z.mod_pos_bound (c / 2 ^ A) 2 ltac:(lia)) as MB.
    pose proof (P_ArithBlk3.dc_at_range c A HAl R0) as RG.
    assert (BIT : u32 (Z.shiftr c A) mod 2 ^ 1 = (c / 2 ^ A) mod 2).
    { rewrite Z.shiftr_div_pow2 by lia. unfold u32. change (2 ^ 1) with 2. symmetry. rewrite <- (Znumtheory.Zmod_div_mod 2 (2 ^ 32)); [reflexivity|lia|lia|]. exists (2 ^ 31). reflexivity. }
    exists (IBits (u32 (Z.shiftr c A)) 1 :: its). destruct (Z.eqb_spec ((c / 2 ^ A) mod 2) 0) as [B|B].
    + exists (old :: news). split; [reflexivity|]. split; [constructor; [cbn; lia|exact I2]|]. split.
      * constructor; [|exact I3]. cbn [fst snd]. split; [exact LO|]. intros i Hi. rewrite HSs, HSe. destruct (Z.leb_spec 0 i); destruct (Z.leb_spec i 0); cbn [andb]; try reflexivity; try lia. assert (i = 0) as -> by lia. unfold at_prec. cbn [Z.eqb]. rewrite BO. fold c. unfold dc_at. fold A. rewrite QH, PA. assert (X : c / 2 ^ A = 2 * (c / 2 ^ A / 2)) by lia. rewrite X at 2. ring.
      * intros rest. cbn [app]. rewrite pans_bits, BIT, B. cbn [Z.eqb plift pbind]. rewrite pans_bind, I4. reflexivity.
    + exists (upd old (Z.to_nat 0) (dc_at A c) :: news). split; [reflexivity|]. split; [constructor; [cbn; lia|exact I2]|]. split; [constructor; [cbn [fst snd]; apply upd0_after; auto|exact I3]|].
      intros rest. cbn [app]. rewrite pans_bits, BIT. destruct (Z.eqb_spec ((c / 2 ^ A) mod 2) 0); [contradiction|]. rewrite zz0 by exact LO. cbn [bind]. rewrite BO.
      assert (EV : Z.lor (dc_at (A + 1) c) (Z.shiftl 1 A) = dc_at A c).
      { unfold dc_at. rewrite QH, PA. rewrite Z.shiftl_mul_pow2, Z.mul_1_l by lia. assert (X : c / 2 ^ A = 2 * (c / 2 ^ A / 2) + 1) by lia. set (q := c / 2 ^ A / 2) in *. rewrite X. replace (q * (2 * 2 ^ A)) with (Z.shiftl q (A + 1)) by (rewrite Z.shiftl_mul_pow2, PA by lia; ring). rewrite lor_shiftl_add by lia. rewrite PA. ring. }
      rewrite EV, s16_id by (unfold s16r; lia). rewrite aset_ok by lia. cbn [plift pbind]. rewrite pans_bind, I4. reflexivity.
Qed.
