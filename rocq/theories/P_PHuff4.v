(* P_PHuff4.v -- progressive Huffman: runs of MCUs and restart segments, in terms of the items emitted and asked for *)
From Verif Require P_ArithBlk P_ArithBlk3.
From Verif Require Import Base M_HuffTbl M_Source M_BitRead M_HuffEnc M_LossHuff M_HuffDec S_Huff S_Stream S_Block P_BitRead P_HuffDec P_HuffEnc P_HuffScan P_Round P_Gather P_Trellis S_Prog P_ArithBlk2 M_PHuff P_PHuff P_PHuff2 P_PHuff3.

(* the MCUs of a segment *)
Fixpoint penc_mcus (p : pscan) (s : pst) (ms : list pmcu) : outcome (list item * pst) :=
  match ms with
  | [] => Ret ([], s)
  | m :: ms => '(i, s) <- penc_mcu p s m ;; '(j, s) <- penc_mcus p s ms ;; Ret (i ++ j, s)
  end.
Fixpoint panss (p : pscan) (sv : dsav) (os : list pmcu) (l : list item) : option (list (list (list Z)) * list item) :=
  match os with
  | [] => Some ([], l)
  | o :: os => match pans (pdec_mcu p sv o) l with
      | Some ((n, sv), l) => match panss p sv os l with Some (ns, l) => Some (n :: ns, l) | None => None end
      | None => None end
  end.
(* the coefficients the encoder accepts *)
Definition in_range (p : pscan) (b : list Z) : Prop :=
  forall i, pSs p <= i <= pSe p -> if i =? 0 then - 2 ^ (pprec p + 2) <= zz b 0 / 2 ^ pAl p < 2 ^ (pprec p + 2) else Z.abs (zz b i) / 2 ^ pAl p < 2 ^ (pprec p + 2).
Definition mcus_in_range (p : pscan) (ss : list pmcu) : Prop := Forall (Forall (fun cb => in_range p (snd cb))) ss.

(* ---- AC scans ---- *)
Lemma ac_mcu_ok p a s m o : pvalid p -> pSs p <> 0 -> act p = Ret a -> mcu_ok p m o -> st_ok s ->
  sate (~ Forall (fun cb => in_range p (snd cb)) m) (fun r => exists dec old c e b new,
    encfact a s c e b r /\ blkfact dec a c e b old new /\ mcu_after p m o [new] /\
    forall run dcs, pdec_mcu p (run, dcs) o = pbind (dec run old) (fun '(run, blk) => PDone ([blk], (run, dcs)))) (penc_mcu p s m).
Proof.
  intros V N0 A [F L1] SK. specialize (L1 N0). pose proof (pv_al p V) as HAl. pose proof (pv_prec p V) as HPR. destruct (pv_mode p V) as [[X _]|(M1 & M2 & M3)]; [contradiction|].
  destruct F as [|[ci src] [ci' old] m o (E1 & E2 & (SL & SR) & (LO & BO)) F]; [discriminate|]. destruct m; [|discriminate]. inversion F; subst. cbn [fst snd] in *.
  unfold penc_mcu. destruct (Z.eqb_spec (pSs p) 0); [contradiction|]. rewrite A. cbn [bind].
  assert (SG : forall i, 0 <= i < 64 -> -32768 <= g src (no i) <= 32767) by (intros i Hi; rewrite <- P_ArithBlk.zz_g; apply SR; exact Hi).
  assert (DE : forall dec : Z -> list Z -> ptree (Z * list Z), (forall run, (if pAh p =? 0 then pdec_mcu_ac_first a (pSs p) (pSe p) (pAl p) run old else pdec_mcu_ac_refine a (pSs p) (pSe p) (pAl p) run old) = dec run old) ->
    forall run dcs, pdec_mcu p (run, dcs) [(ci', old)] = pbind (dec run old) (fun '(run, blk) => PDone ([blk], (run, dcs)))).
  { intros dec H run dcs. unfold pdec_mcu. destruct (Z.eqb_spec (pSs p) 0); [contradiction|]. rewrite A. cbn [plift pbind fst snd map]. rewrite H. reflexivity. }
  destruct (Z.eqb_spec (pAh p) 0) as [H0|H0].
  - eapply sate_imp; [apply (ac_first_ok src (pAl p) (pSe p) a (pprec p) SL SG ltac:(lia) ltac:(lia) HPR p s old (pSs p)); auto|..].
    + intros i Hi. rewrite <- P_ArithBlk.zz_g. apply BO; lia.
    + intros [i [B1 B2]] X. apply Forall_inv in X. cbn [snd] in X. specialize (X i B1). destruct (Z.eqb_spec i 0); [lia|]. rewrite P_ArithBlk.zz_g in X. unfold mag in B2. rewrite Z.shiftr_div_pow2 in B2 by lia. lia.
    + intros r (c & e & b & new & E & B & AF). exists (pdec_mcu_ac_first a (pSs p) (pSe p) (pAl p)), old, c, e, b, new. split; [exact E|]. split; [exact B|]. split; [|apply DE; intros; reflexivity].
      constructor; [|constructor]. cbn [fst snd]. apply P_ArithBlk3.after_at; [lia|exact AF].
  - assert (EA : pAh p = pAl p + 1) by (destruct (pv_ah p V); [contradiction|assumption]).
    assert (BF : before_from src (pAl p) (pSe p) (pSs p) old).
    { split; [exact LO|]. intros i Hi. rewrite <- P_ArithBlk.zz_g. rewrite (BO i ltac:(lia) Hi). unfold at_prec. destruct (Z.eqb_spec i 0); [lia|]. rewrite EA, P_ArithBlk.zz_g. reflexivity. }
    destruct (ac_refine_ok src (pAl p) (pSe p) a SL SG HAl ltac:(lia) (pSs p) ltac:(lia) p s old eq_refl eq_refl eq_refl ltac:(lia) SK BF) as (r & c & e & b & new & R & E & B & AF).
    rewrite R. exists (pdec_mcu_ac_refine a (pSs p) (pSe p) (pAl p)), old, c, e, b, new. split; [exact E|]. split; [exact B|]. split; [|apply DE; intros; reflexivity].
    constructor; [|constructor]. cbn [fst snd]. apply P_ArithBlk3.after_at; [lia|exact AF].
Qed.

Lemma panss_cons p sv o os l n sv' l' : pans (pdec_mcu p sv o) l = Some ((n, sv'), l') -> panss p sv (o :: os) l = match panss p sv' os l' with Some (ns, l) => Some (n :: ns, l) | None => None end.
Proof. intros H. cbn [panss]. rewrite H. reflexivity. Qed.

Definition acrun_post (p : pscan) (a : Z) (s : pst) (ss os : list pmcu) (r : list item * pst) : Prop :=
  let '(its, s') := r in
  st_ok s' /\ Forall (iat a) its /\ p_dc s' = p_dc s /\ exists news, scan_after p ss os news /\
  (p_run s = 0 -> forall dcs, panss p (0, dcs) os (its ++ pending a s') = Some (news, [])) /\
  (0 < p_run s -> exists E B T, its ++ pending a s' = eobi a E ++ buffered (p_be s ++ B) ++ T /\ p_run s <= E <= 32767 /\
    forall dcs, panss p (E - p_run s, dcs) os (buffered B ++ T) = Some (news, [])).

Lemma ac_run_ok p a : pvalid p -> pSs p <> 0 -> act p = Ret a -> forall ss os, Forall2 (mcu_ok p) ss os -> forall s, st_ok s ->
  sate (~ mcus_in_range p ss) (acrun_post p a s ss os) (penc_mcus p s ss).
Proof.
  intros V N0 A. induction 1 as [|m o ss os M F IH]; intros s SK.
  - cbn [penc_mcus sate acrun_post]. split; [exact SK|]. split; [constructor|]. split; [reflexivity|]. exists []. split; [constructor|]. split.
    + intros R dcs. cbn [panss app]. unfold pending. rewrite R. reflexivity.
    + intros R. exists (p_run s), [], []. rewrite !app_nil_r. split; [|split; [|reflexivity]].
      * cbn [app]. unfold pending. destruct (Z.ltb_spec 0 (p_run s)); [reflexivity|lia].
      * destruct SK as [SK _]. lia.
  - cbn [penc_mcus]. eapply sate_bind; [eapply sate_imp; [apply (ac_mcu_ok p a s m o V N0 A M SK)| |intros x Hx; exact Hx]|].
    { intros X Y. apply X. apply Forall_inv in Y. exact Y. }
    intros [i1 s1] (dec & old & c & e & b & new & (IC & EF) & (B1 & B2 & B3 & B4) & AF & DE).
    assert (S1 : st_ok s1).
    { destruct EF as [[EQ K]|[EQ K]]; injection EQ as _ ->; [exact K|]. unfold st_ok; cbn [p_run p_be length]. split; [lia|]. split; [reflexivity|lia]. }
    eapply sate_bind; [eapply sate_imp; [apply (IH s1 S1)| |intros x Hx; exact Hx]|].
    { intros X Y. apply X. apply Forall_inv_tail in Y. exact Y. }
    intros [i2 s2] (P1 & P2 & P3 & news & P4 & P5 & P6). cbn [sate acrun_post]. split; [exact P1|].
    assert (R0 : 0 <= p_run s <= 32767) by (destruct SK; lia).
    assert (RN : 0 <= p_run (enc_next s c e b) <= 32767) by (destruct EF as [[_ (K & _)]|[_ K]]; lia).
    assert (I1 : Forall (iat a) i1).
    { assert (Q : Forall (iat a) ((if nilb c then [] else pending a s) ++ c)) by (apply iat_app; [destruct (nilb c); [constructor|apply pending_iat; exact R0]|exact IC]).
      destruct EF as [[EQ K]|[EQ K]]; injection EQ as -> _; [exact Q|apply iat_app; [exact Q|apply pending_iat; exact RN]]. }
    split; [apply iat_app; assumption|]. split.
    { rewrite P3. destruct EF as [[EQ K]|[EQ K]]; injection EQ as _ ->; [|reflexivity]. unfold enc_next. destruct (nilb c); [reflexivity|]. destruct e; reflexivity. }
    exists ([new] :: news). split; [constructor; [exact AF|exact P4]|].
    assert (STEP : forall run dcs l run' l' ns, pans (dec run old) l = Some ((run', new), l') -> panss p (run', dcs) os l' = Some (ns, []) -> panss p (run, dcs) (o :: os) l = Some ([new] :: ns, [])).
    { intros run dcs l run' l' ns H1 H2. erewrite panss_cons; [rewrite H2; reflexivity|]. rewrite DE, pans_bind, H1. reflexivity. }
    destruct c as [|c0 c].
    + (* a block inside a run *)
      cbn [nilb app] in EF, RN. specialize (B1 eq_refl). subst e. unfold enc_next in EF, RN. cbn [nilb p_run] in EF, RN. specialize (B3 eq_refl). specialize (B4 eq_refl). cbn [app] in B3.
      destruct EF as [[EQ K]|[EQ K]]; injection EQ as -> ->.
      * cbn [p_run p_be] in P6. specialize (P6 ltac:(lia)). destruct P6 as (E & B & T & Q1 & Q2 & Q3). cbn [app]. split.
        -- intros R dcs. destruct SK as (_ & SK & _). rewrite (SK R) in Q1. rewrite Q1. cbn [app]. rewrite buffered_app, <- !app_assoc. eapply STEP; [apply B3; lia|]. replace (E - 1) with (E - (p_run s + 1)) by lia. apply Q3.
        -- intros R. exists E, (b ++ B), T. split; [rewrite Q1, <- app_assoc; reflexivity|]. split; [lia|]. intros dcs. rewrite buffered_app, <- app_assoc. eapply STEP; [apply B4; lia|]. replace (E - p_run s - 1) with (E - (p_run s + 1)) by lia. apply Q3.
      * cbn [p_run p_be] in K. unfold pending at 1 3. cbn [p_run p_be]. destruct (Z.ltb_spec 0 (p_run s + 1)); [|lia]. specialize (P5 eq_refl). rewrite <- !app_assoc. split.
        -- intros R dcs. destruct SK as (_ & SK & _). rewrite (SK R), R. cbn [app]. eapply STEP; [apply B3; lia|]. apply P5.
        -- intros R. exists (p_run s + 1), b, (i2 ++ pending a s2). split; [reflexivity|]. split; [lia|]. intros dcs. replace (p_run s + 1 - p_run s) with 1 by lia. eapply STEP; [apply B4; lia|]. apply P5.
    + (* a block with items of its own *)
      cbn [nilb] in EF. unfold enc_next in EF, RN. cbn [nilb] in EF, RN. set (c' := c0 :: c) in *. clearbody c'. clear B1 B4.
      assert (X : exists X, i1 ++ i2 ++ pending a s2 = pending a s ++ c' ++ X /\ forall dcs, panss p (0, dcs) (o :: os) (c' ++ X) = Some ([new] :: news, [])).
      { destruct e.
        - specialize (B3 eq_refl). destruct EF as [[EQ K]|[EQ K]]; injection EQ as -> ->.
          + cbn [p_run p_be] in P6. specialize (P6 ltac:(lia)). destruct P6 as (E & B & T & Q1 & Q2 & Q3). eexists. split; [rewrite <- !app_assoc; reflexivity|]. intros dcs. rewrite Q1, buffered_app, <- !app_assoc. eapply STEP; [apply B3; lia|apply Q3].
          + cbn [p_run p_be] in P5. specialize (P5 eq_refl). eexists. split; [rewrite <- !app_assoc; reflexivity|]. intros dcs. unfold pending at 1. cbn [p_run p_be Z.ltb Z.compare]. rewrite <- !app_assoc. eapply STEP; [apply B3; lia|apply P5].
        - specialize (B2 eq_refl). destruct EF as [[EQ K]|[EQ K]]; [|cbn [p_run] in K; lia]; injection EQ as -> ->. cbn [p_run p_be] in P5. specialize (P5 eq_refl). eexists. split; [rewrite <- !app_assoc; reflexivity|]. intros dcs. eapply STEP; [apply B2|apply P5]. }
      destruct X as (X & X1 & X2). rewrite <- !app_assoc. rewrite X1. split.
      * intros R dcs. unfold pending at 1. rewrite R. cbn [Z.ltb Z.compare app]. apply X2.
      * intros R. exists (p_run s), [], (c' ++ X). unfold pending at 1. destruct (Z.ltb_spec 0 (p_run s)); [|lia]. rewrite app_nil_r, <- !app_assoc. split; [reflexivity|]. split; [lia|]. intros dcs. rewrite Z.sub_diag. apply X2.
Qed.
