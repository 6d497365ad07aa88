(* P_PHuff5.v -- progressive Huffman: DC runs, segments between restarts, whole scans as events *)
From Verif Require P_ArithBlk P_ArithBlk3.
From Verif Require Import Base M_HuffTbl M_Source M_BitRead M_HuffEnc M_LossHuff M_HuffDec S_Huff S_Stream S_Block P_BitRead P_HuffDec P_HuffEnc P_HuffScan P_Round P_Gather P_Trellis S_Prog P_ArithBlk2 M_PHuff P_PHuff P_PHuff2 P_PHuff3 P_PHuff4.

Definition dcrange (p : pscan) (x : Z) : Prop := - 2 ^ (pprec p + 2) <= x < 2 ^ (pprec p + 2).
Lemma aget_inv {A} (l : list A) i x : aget l i = Ret x -> 0 <= i /\ nth_error l (Z.to_nat i) = Some x.
Proof. unfold aget. destruct (Z.ltb_spec i 0); [discriminate|]. destruct (nth_error l (Z.to_nat i)) eqn:E; [|discriminate]. intros H1. injection H1 as <-. split; [lia|reflexivity]. Qed.
Lemma Forall_upd {A} (P : A -> Prop) (l : list A) n x : Forall P l -> P x -> Forall P (upd l n x).
Proof. intros F. revert n. induction F as [|y l H F IH]; intros [|n] HX; cbn [upd]; constructor; auto. Qed.
Lemma dc_first_range p : 0 <= pAl p -> forall ss dcs its dcs', penc_dc_first p dcs ss = Ret (its, dcs') -> Forall (fun cb => dcrange p (zz (snd cb) 0 / 2 ^ pAl p)) ss -> Forall (dcrange p) dcs -> Forall (dcrange p) dcs'.
Proof.
  intros HA. induction ss as [|[ci b] ss IH]; intros dcs its dcs' E R1 R2; cbn [penc_dc_first] in E.
  - injection E as _ <-. exact R2.
  - destruct (aget (pcomps p) ci) as [[t ac]| |]; cbn [bind] in E; try discriminate.
    destruct (aget b 0) as [dc| |] eqn:G; cbn [bind] in E; try discriminate. destruct (aget dcs ci) as [last| |]; cbn [bind] in E; try discriminate.
    unfold aset in E. destruct ((ci <? 0) || (Z.of_nat (length dcs) <=? ci)); cbn [bind] in E; try discriminate.
    destruct (JPEG_NBITS _) as [nb| |]; cbn [bind] in E; try discriminate. destruct (pprec p + 2 + 1 <? nb); [discriminate|].
    destruct (penc_dc_first p _ ss) as [[i2 d2]| |] eqn:E2; cbn [bind] in E; try discriminate. injection E as _ <-.
    refine (IH _ _ _ E2 (Forall_inv_tail R1) _). apply Forall_upd; [exact R2|]. apply Forall_inv in R1. cbn [snd] in R1. rewrite Z.shiftr_div_pow2 by lia.
    assert (dc = zz b 0) as ->; [|exact R1]. apply aget_inv in G. destruct G as [_ G]. unfold zz. change (nth (Z.to_nat 0) zigzag 0%nat) with (Z.to_nat 0). symmetry. apply nth_error_nth with (d := 0) in G. exact G.
Qed.

(* the tables a scan uses *)
Definition itbl (p : pscan) (i : item) : Prop :=
  match i with ISym t _ => if pSs p =? 0 then exists ci ac, aget (pcomps p) ci = Ret (t, ac) else act p = Ret t | IBits _ _ => True end.
Lemma dc_first_tbl p : pSs p = 0 -> forall ss dcs its dcs', penc_dc_first p dcs ss = Ret (its, dcs') -> Forall (itbl p) its.
Proof.
  intros H0. induction ss as [|[ci b] ss IH]; intros dcs its dcs' E; cbn [penc_dc_first] in E.
  - injection E as <- _. constructor.
  - destruct (aget (pcomps p) ci) as [[t ac]| |] eqn:GC; cbn [bind] in E; try discriminate.
    destruct (aget b 0) as [dc| |] eqn:G; cbn [bind] in E; try discriminate. destruct (aget dcs ci) as [last| |]; cbn [bind] in E; try discriminate.
    destruct (aset dcs ci _) as [d1| |]; cbn [bind] in E; try discriminate.
    destruct (JPEG_NBITS _) as [nb| |]; cbn [bind] in E; try discriminate. destruct (pprec p + 2 + 1 <? nb); [discriminate|].
    destruct (penc_dc_first p _ ss) as [[i2 d2]| |] eqn:E2; cbn [bind] in E; try discriminate. injection E as <- _.
    constructor; [cbn [itbl]; rewrite H0; cbn [Z.eqb]; eauto|]. apply Forall_app. split; [|exact (IH _ _ _ E2)]. destruct (nb =? 0); repeat constructor.
Qed.
Lemma dc_refine_tbl p : forall ss its, penc_dc_refine p ss = Ret its -> Forall (itbl p) its.
Proof.
  induction ss as [|[ci b] ss IH]; intros its E; cbn [penc_dc_refine] in E; [injection E as <-; constructor|].
  destruct (aget b 0); cbn [bind] in E; try discriminate. destruct (penc_dc_refine p ss); cbn [bind] in E; try discriminate. injection E as <-. constructor; [exact Logic.I|]. apply IH. reflexivity.
Qed.
Definition dcrun_post (p : pscan) (s : pst) (ss os : list pmcu) (r : list item * pst) : Prop :=
  let '(its, s') := r in
  p_run s' = 0 /\ p_be s' = [] /\ dcok p (p_dc s') /\ (Forall iok its /\ Forall (itbl p) its) /\ exists news, scan_after p ss os news /\
  forall rest, panss p (0, p_dc s) os (its ++ rest) = Some (news, rest).
Lemma range_dc p (m : pmcu) : pvalid p -> pSs p = 0 -> pSe p = 0 -> (Forall (fun cb => in_range p (snd cb)) m <-> Forall (fun cb => dcrange p (zz (snd cb) 0 / 2 ^ pAl p)) m).
Proof.
  intros V H1 H2. rewrite !Forall_forall. split; intros H x Hx; specialize (H x Hx).
  - apply (H 0). lia.
  - intros i Hi. assert (i = 0) as -> by lia. exact H.
Qed.
Lemma dc_run_ok p : pvalid p -> pSs p = 0 -> forall ss os, Forall2 (mcu_ok p) ss os -> forall s, p_run s = 0 -> p_be s = [] -> dcok p (p_dc s) ->
  sate (~ mcus_in_range p ss \/ ~ Forall (dcrange p) (p_dc s)) (dcrun_post p s ss os) (penc_mcus p s ss).
Proof.
  intros V N0. assert (HSe : pSe p = 0) by (destruct (pv_mode p V) as [[_ X]|[X _]]; lia). pose proof (pv_al p V) as HAl.
  induction 1 as [|m o ss os [M _] F IH]; intros s SR SB SD.
  - cbn [penc_mcus sate dcrun_post]. do 3 (split; [assumption|]). split; [split; constructor|]. exists []. split; [constructor|]. reflexivity.
  - cbn [penc_mcus]. unfold penc_mcu. destruct (Z.eqb_spec (pSs p) 0); [|contradiction]. destruct (Z.eqb_spec (pAh p) 0) as [H0|H0].
    + pose proof (dc_first_ok p V N0 HSe H0 m o M (p_dc s) SD) as D. destruct (penc_dc_first p (p_dc s) m) as [[its dcs']|er|] eqn:E; cbn [bind]; [| |contradiction].
      * destruct D as (D1 & D2 & n & D3 & D4). eapply sate_bind; [eapply sate_imp; [apply (IH (mkPst dcs' (p_run s) (p_be s)) SR SB D2)| |intros x Hx; exact Hx]|].
        -- intros [X|X]; [left|].
           { intros Y. apply X. apply Forall_inv_tail in Y. exact Y. }
           cbn [p_dc] in X. destruct (Forall_dec (dcrange p) ltac:(intros x; unfold dcrange; destruct (Z_le_dec (- 2 ^ (pprec p + 2)) x); destruct (Z_lt_dec x (2 ^ (pprec p + 2))); [left; lia|right; lia|right; lia|right; lia]) (p_dc s)) as [DS|DS]; [|right; exact DS].
           left. intros Y. apply X. apply Forall_inv in Y. rewrite range_dc in Y by assumption. exact (dc_first_range p ltac:(lia) _ _ _ _ E Y DS).
        -- intros [i2 s2] (P1 & P2 & P3 & (P4 & PT) & news & P5 & P6). cbn [sate dcrun_post]. do 3 (split; [assumption|]). split; [split; apply Forall_app; split; try assumption; exact (dc_first_tbl p N0 _ _ _ _ E)|]. exists (n :: news). split; [constructor; [exact D3|exact P5]|].
           intros rest. rewrite <- app_assoc. erewrite panss_cons; [rewrite P6; reflexivity|]. unfold pdec_mcu. destruct (Z.eqb_spec (pSs p) 0); [|contradiction]. destruct (Z.eqb_spec (pAh p) 0); [|contradiction]. cbn [fst snd]. rewrite pans_bind, D4. reflexivity.
      * cbn [sate]. destruct D as [[D1 D2]|[D1 D2]]; (split; [exact D1|]).
        -- left. intros Y. apply D2. apply Forall_inv in Y. rewrite range_dc in Y by assumption. rewrite Forall_forall in Y |- *. intros [ci b] Hx. exact (Y _ Hx).
        -- right. exact D2.
    + destruct (dc_refine_ok p V N0 HSe H0 m o M) as (its & n & D1 & D2 & D3 & D4). rewrite D1. cbn [bind]. eapply sate_bind; [eapply sate_imp; [apply (IH s SR SB SD)| |intros x Hx; exact Hx]|].
      * intros [X|X]; [left|right; exact X]. intros Y. apply X. apply Forall_inv_tail in Y. exact Y.
      * intros [i2 s2] (P1 & P2 & P3 & (P4 & PT) & news & P5 & P6). cbn [sate dcrun_post]. do 3 (split; [assumption|]). split; [split; apply Forall_app; split; try assumption; exact (dc_refine_tbl p _ _ D1)|]. exists (n :: news). split; [constructor; [exact D3|exact P5]|].
        intros rest. rewrite <- app_assoc. erewrite panss_cons; [rewrite P6; reflexivity|]. unfold pdec_mcu. destruct (Z.eqb_spec (pSs p) 0); [|contradiction]. destruct (Z.eqb_spec (pAh p) 0); [contradiction|]. rewrite pans_bind, D4. reflexivity.
Qed.

(* ---- segments ---- *)
Definition zeros (p : pscan) : list Z := map (fun _ => 0) (pcomps p).
Definition segfact (p : pscan) (ss os : list pmcu) (its : list item) (news : list (list (list Z))) : Prop :=
  length ss = length os /\ (Forall iok its /\ Forall (itbl p) its) /\ scan_after p ss os news /\ panss p (0, zeros p) os its = Some (news, []).
(* end of a segment: the pending run is written, and the state is reset *)
Definition preset (p : pscan) (s : pst) : pst := if pSs p =? 0 then mkPst (map (fun _ => 0) (p_dc s)) (p_run s) (p_be s) else mkPst (p_dc s) 0 [].
Lemma act_ok p : pvalid p -> exists a, act p = Ret a.
Proof.
  intros V. unfold act. destruct (Z.eqb_spec (pSs p) 0); [eauto|]. destruct (pv_mode p V) as [[X _]|(_ & _ & L)]; [contradiction|]. destruct (pcomps p) as [|[d a] [|]]; try discriminate. cbn. eauto.
Qed.
Lemma map_zero {A B} : forall (a : list A) (b : list B), length a = length b -> map (fun _ => 0) a = map (fun _ => 0) b.
Proof. induction a as [|x a IH]; intros [|y b] L; cbn in L; try discriminate; [reflexivity|]. cbn [map]. f_equal. apply IH. lia. Qed.
Lemma zeros_dcok p : dcok p (zeros p).
Proof. split; [apply map_length|]. apply Forall_forall. intros x Hx. apply in_map_iff in Hx. destruct Hx as (y & <- & _). unfold in16. lia. Qed.
Lemma zeros_range p : 0 <= pprec p -> Forall (dcrange p) (zeros p).
Proof. intros H. apply Forall_forall. intros x Hx. apply in_map_iff in Hx. destruct Hx as (y & <- & _). unfold dcrange. assert (0 < 2 ^ (pprec p + 2)) by (apply Z.pow_pos_nonneg; lia). lia. Qed.
Lemma seg_ok p a ss os : pvalid p -> act p = Ret a -> Forall2 (mcu_ok p) ss os ->
  sate (~ mcus_in_range p ss) (fun '(its, s) => exists e s', emit_eobrun a s = Ret (e, s') /\ preset p s' = pst0 p /\ exists news, segfact p ss os (its ++ e) news) (penc_mcus p (pst0 p) ss).
Proof.
  intros V A F. destruct (Z.eq_dec (pSs p) 0) as [H0|H0].
  - eapply sate_imp; [apply (dc_run_ok p V H0 ss os F (pst0 p) eq_refl eq_refl (zeros_dcok p))|..].
    + intros [X|X]; [exact X|]. exfalso. apply X. apply zeros_range. destruct (pv_prec p V). lia.
    + intros [its s] (P1 & P2 & [P3 _] & P4 & news & P5 & P6). exists [], (mkPst (p_dc s) 0 []). split.
      * rewrite emit_eobrun_gen by (try (intros; assumption); lia). unfold pending. rewrite P1. reflexivity.
      * split; [unfold preset, pst0; rewrite H0; cbn [Z.eqb p_dc p_run p_be]; f_equal; apply map_zero; exact P3|]. exists news. split; [exact (P_ArithBlk3.F2len F)|]. split; [rewrite app_nil_r; exact P4|]. split; [exact P5|]. apply P6.
  - eapply sate_imp; [apply (ac_run_ok p a V H0 A ss os F (pst0 p))|intros X; exact X|].
    + unfold st_ok, pst0. cbn [p_run p_be length]. split; [lia|]. split; [reflexivity|lia].
    + intros [its s] (P1 & P2 & P3 & news & P4 & P5 & _). exists (pending a s), (mkPst (p_dc s) 0 []). split; [apply emit_eobrun_spec; exact P1|]. split.
      * unfold preset. destruct (Z.eqb_spec (pSs p) 0); [contradiction|]. cbn [p_dc]. rewrite P3. reflexivity.
      * exists news. split; [exact (P_ArithBlk3.F2len F)|]. split; [|split; [exact P4|apply P5; reflexivity]]. assert (PI : Forall (iat a) (its ++ pending a s)) by (apply iat_app; [exact P2|apply pending_iat; destruct P1; lia]). split; (eapply Forall_impl; [|exact PI]; intros x [X Y]); [exact X|]. destruct x as [t sy|]; [|exact Logic.I]. cbn [itbl on_tbl] in *. destruct (Z.eqb_spec (pSs p) 0); [contradiction|]. subst t. exact A.
Qed.

(* ---- scans ---- *)
Inductive pev (p : pscan) : Z -> list pmcu -> list pmcu -> list event -> list (list (list Z)) -> Prop :=
| pev_last num ss os its news : (pri p = 0 \/ len ss <= pri p) -> segfact p ss os its news -> pev p num ss os (map EItem its ++ [EEnd]) news
| pev_seg num ss os its news ss2 os2 es news2 : pri p <> 0 -> len ss = pri p -> ss2 <> [] -> segfact p ss os its news -> pev p (Z.land (num + 1) 7) ss2 os2 es news2 ->
    pev p num (ss ++ ss2) (os ++ os2) (map EItem its ++ ERst num :: es) (news ++ news2).

Lemma penc_scan_prefix p num ss2 : forall ss1 s togo, (pri p = 0 \/ len ss1 <= togo) ->
  penc_scan p s togo num (ss1 ++ ss2) = ('(i, s') <- penc_mcus p s ss1 ;; r <- penc_scan p s' (if pri p =? 0 then togo else togo - len ss1) num ss2 ;; Ret (map EItem i ++ r)).
Proof.
  induction ss1 as [|m ss1 IH]; intros s togo H.
  - cbn [app penc_mcus bind length]. change (Z.of_nat 0) with 0. rewrite Z.sub_0_r. destruct (pri p =? 0); destruct (penc_scan p s togo num ss2); reflexivity.
  - cbn [length] in H. cbn [app penc_scan penc_mcus]. assert (N : negb (pri p =? 0) && (togo =? 0) = false) by (destruct H as [H|H]; [rewrite H; reflexivity|]; destruct (Z.eqb_spec togo 0); [lia|]; apply andb_false_r).
    rewrite N. cbn [bind]. destruct (penc_mcu p s m) as [[i s1]| |]; cbn [bind]; try reflexivity. rewrite IH by (destruct (Z.eqb_spec (pri p) 0); [left; assumption|right; destruct H; lia]).
    destruct (penc_mcus p s1 ss1) as [[j s2]| |]; cbn [bind]; try reflexivity. replace (if pri p =? 0 then if pri p =? 0 then togo else togo - 1 else (if pri p =? 0 then togo else togo - 1) - len ss1) with (if pri p =? 0 then togo else togo - len (m :: ss1)) by (destruct (pri p =? 0); [reflexivity|cbn [length]; lia]).
    destruct (penc_scan p s2 _ num ss2); cbn [bind]; try reflexivity. rewrite map_app, <- app_assoc. reflexivity.
Qed.
Lemma F2_app_inv {A B} (R : A -> B -> Prop) : forall a1 a2 b, Forall2 R (a1 ++ a2) b -> exists b1 b2, b = b1 ++ b2 /\ Forall2 R a1 b1 /\ Forall2 R a2 b2.
Proof. intros a1 a2 b H. apply Forall2_app_inv_l in H. destruct H as (b1 & b2 & H1 & H2 & H3). exists b1, b2. auto. Qed.

Lemma scan_events_ok p : pvalid p -> forall n ss os num, (length ss <= n)%nat -> Forall2 (mcu_ok p) ss os ->
  sate (~ mcus_in_range p ss) (fun es => exists news, pev p num ss os es news) (penc_scan p (pst0 p) (pri p) num ss).
Proof.
  intros V. destruct (act_ok p V) as [a A]. pose proof (pv_ri p V) as RI.
  induction n as [n IH] using lt_wf_ind. intros ss os num L F.
  assert (LAST : (pri p = 0 \/ len ss <= pri p) -> sate (~ mcus_in_range p ss) (fun es => exists news, pev p num ss os es news) (penc_scan p (pst0 p) (pri p) num ss)).
  { intros H. pose proof (penc_scan_prefix p num [] ss (pst0 p) (pri p) H) as Q. rewrite app_nil_r in Q. rewrite Q. clear Q. eapply sate_bind; [apply (seg_ok p a ss os V A F)|].
    intros [its s] (e & s' & E & _ & news & SF). cbn [penc_scan]. rewrite A. cbn [bind]. rewrite E. cbn [bind sate]. exists news. rewrite app_assoc, <- map_app. constructor; assumption. }
  destruct (Z.eq_dec (pri p) 0) as [P0|P0]; [apply LAST; left; exact P0|]. destruct (Z_le_gt_dec (len ss) (pri p)) as [H|H]; [apply LAST; right; exact H|]. clear LAST.
  assert (SP : exists ss1 ss2, ss = ss1 ++ ss2 /\ len ss1 = pri p /\ ss2 <> []).
  { exists (firstn (Z.to_nat (pri p)) ss), (skipn (Z.to_nat (pri p)) ss). split; [symmetry; apply firstn_skipn|]. split; [rewrite firstn_length; lia|]. intros X. apply (f_equal (@length _)) in X. rewrite skipn_length in X. cbn in X. lia. }
  destruct SP as (ss1 & ss2 & -> & L1 & NE). destruct (F2_app_inv _ _ _ _ F) as (os1 & os2 & -> & F1 & F2).
  rewrite penc_scan_prefix by (right; lia). destruct (Z.eqb_spec (pri p) 0); [contradiction|]. rewrite L1, Z.sub_diag.
  eapply sate_bind; [eapply sate_imp; [apply (seg_ok p a ss1 os1 V A F1)|intros X Y; apply X; apply Forall_app in Y; apply Y|intros x Hx; exact Hx]|].
  intros [its s] (e & s' & E & PR & news & SF).
  assert (PS : penc_scan p s 0 num ss2 = (r <- penc_scan p (pst0 p) (pri p) (Z.land (num + 1) 7) ss2 ;; Ret (map EItem e ++ ERst num :: r))).
  { destruct ss2 as [|m ss2]; [contradiction|]. cbn [penc_scan]. destruct (Z.eqb_spec (pri p) 0); [contradiction|]. cbn [negb andb Z.eqb]. rewrite A. cbn [bind]. rewrite E. cbn [bind]. fold (preset p s'). rewrite PR.
    cbn [andb]. destruct (penc_mcu p (pst0 p) m) as [[i s1]| |]; cbn [bind]; try reflexivity. destruct (penc_scan p s1 _ _ ss2); cbn [bind]; try reflexivity. f_equal. rewrite <- app_assoc. reflexivity. }
  rewrite PS. rewrite app_length in L. specialize (IH (length ss2) ltac:(lia) ss2 os2 (Z.land (num + 1) 7) ltac:(lia) F2).
  eapply sate_bind; [eapply sate_bind; [eapply sate_imp; [exact IH|intros X Y; apply X; apply Forall_app in Y; apply Y|intros x Hx; exact Hx]|]|].
  - intros es' (news2 & PV). cbn [sate]. instantiate (1 := fun r => exists es' news2, r = map EItem e ++ ERst num :: es' /\ pev p (Z.land (num + 1) 7) ss2 os2 es' news2). exists es', news2. auto.
  - intros r (es' & news2 & -> & PV). cbn [sate]. exists (news ++ news2). rewrite app_assoc, <- map_app. apply pev_seg; assumption.
Qed.
