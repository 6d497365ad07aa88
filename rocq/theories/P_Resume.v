(* P_Resume.v -- suspension and resumption over a whole scan *)
From Verif Require Import Base M_HuffTbl M_Source M_BitRead M_HuffDec M_HuffFast P_HuffTbl P_HuffTblD S_Huff S_Stream P_BitRead P_HuffSym P_HuffDec P_HuffFast P_HuffMcu P_Marker P_DecRef P_Reach P_Frame S_Coef.

Lemma hfeed_app h a b : hfeed (hfeed h a) b = hfeed h (a ++ b).
Proof. unfold hfeed, feed. cbn. now rewrite app_assoc. Qed.

Lemma hfeed_ok h F : hd_ok h -> hsusp h = true -> Forall byte F -> hd_ok (hfeed h F).
Proof.
  intros [(A & B & C) D] Hs HF. split; [|exact D]. split; [exact A|]. split; [|exact C]. cbn [hfeed hd_st dsrc].
  unfold hsusp in Hs. split.
  - rewrite feed_bytes by auto. apply Forall_app. split; auto. apply B.
  - cbn [feed ssusp schunks]. apply B.
Qed.

Lemma slow_frame rbs h F s' tg : hd_ok h -> blks_ok rbs (hncomp h) -> insuff (hd_st h) = false -> hsusp h = true -> Forall byte F ->
  decode_mcu_slow (map snd rbs) (hd_st h) = Ret (Done tt s') ->
  exists o, souts (ust s') = houts h ++ o /\
    ref_body rbs (alpha (hfeed h F)) tg = (o, alpha (hfeed (mkHD s' tg (hd_num h) (hd_disc h)) F)).
Proof.
  intros Hh Hb Hi Hs HF E. destruct (fr_mcu_slow F (map snd rbs) (hd_st h) tt s' Hs E) as [_ E2].
  pose proof (slow_body rbs (hfeed h F) (hfeed_ok h F Hh Hs HF) Hb Hi) as H.
  change (hd_st (hfeed h F)) with (feedD F (hd_st h)) in H. rewrite E2 in H.
  destruct (H tg) as (_ & _ & _ & o & H1 & H2). exists o. split; [exact H1|]. rewrite H2. reflexivity.
Qed.

Lemma fast_frame rbs h F s' tg : hd_ok h -> blks_ok rbs (hncomp h) -> insuff (hd_st h) = false -> hsusp h = true -> Forall byte F ->
  unread (hd_st h) = 0 -> (512 * length rbs <= length (sbuf (dsrc (hd_st h))))%nat ->
  decode_mcu_fast (map snd rbs) (hd_st h) = Ret (true, s') ->
  exists o, souts (ust s') = houts h ++ o /\
    ref_body rbs (alpha (hfeed h F)) tg = (o, alpha (hfeed (mkHD s' tg (hd_num h) (hd_disc h)) F)).
Proof.
  intros Hh Hb Hi Hs HF Hu Hl E. pose proof (ff_mcu F (map snd rbs) (hd_st h) true s' Hs E) as E2.
  destruct (fast_body rbs (hfeed h F) (hfeed_ok h F Hh Hs HF) Hb Hi Hu) as (r & s2 & E3 & H).
  { cbn [hfeed hd_st dsrc feed sbuf]. rewrite app_length. lia. }
  change (hd_st (hfeed h F)) with (feedD F (hd_st h)) in E3. rewrite E2 in E3. inversion E3; subst r s2.
  destruct (H tg) as (_ & _ & _ & o & H1 & H2). exists o. split; [exact H1|]. rewrite H2. reflexivity.
Qed.

Lemma body_frame ri rbs h h' : hd_ok h -> blks_ok rbs (hncomp h) -> hsusp h = true ->
  decode_mcu_body ri (map snd rbs) h = Ret (true, h') ->
  exists y o, houts h' = houts h ++ y ++ o /\ (no_filled_zero (hbytes h) -> y = [] \/ y = o) /\
    forall F, Forall byte F -> ref_body rbs (alpha (hfeed h F)) (if ri =? 0 then hd_togo h else u32 (hd_togo h - 1)) = (o, alpha (hfeed h' F)).
Proof.
  intros Hh Hb Hs. unfold decode_mcu_body. rewrite map_length. set (tg := if ri =? 0 then hd_togo h else u32 (hd_togo h - 1)).
  destruct (insuff (hd_st h)) eqn:Hi; cbn [bind].
  - intros H. inversion H; subst h'. exists [], []. split; [unfold houts; cbn; now rewrite app_nil_r|]. split; auto.
    intros F HF. unfold ref_body, alpha, hfeed. cbn [hd_st insuff rs_ins rs_dcs rs_bits rs_tail rs_num hd_togo hd_num ust]. rewrite Hi. reflexivity.
  - cbn zeta.
    assert (G : forall y, let h0 := mkHD (mkD (gbuf (hd_st h)) (bleft (hd_st h)) (dsrc (hd_st h)) (unread (hd_st h)) false (warns (hd_st h))
                        (mkSq (sdc (ust (hd_st h))) (houts h ++ y))) (hd_togo h) (hd_num h) (hd_disc h) in
       (no_filled_zero (hbytes h) -> y = [] \/ y = fst (ref_body rbs (alpha h) tg)) ->
       bind (match decode_mcu_slow (map snd rbs) (hd_st h0) with
             | Ret (Done _ s') => Ret (true, s') | Ret (Susp s') => Ret (false, s') | Error e => Error e | Undef => Undef end)
            (fun '(ok, s) => if ok : bool then Ret (true, mkHD s tg (hd_num h) (hd_disc h))
                             else Ret (false, mkHD s (hd_togo h) (hd_num h) (hd_disc h))) = Ret (true, h') ->
       exists y o, houts h' = houts h ++ y ++ o /\ (no_filled_zero (hbytes h) -> y = [] \/ y = o) /\
         forall F, Forall byte F -> ref_body rbs (alpha (hfeed h F)) tg = (o, alpha (hfeed h' F))).
    { intros y h0 Hy E.
      assert (Hh0 : hd_ok h0). { destruct Hh as [(R1 & R2 & R3) R4]. split; [|exact R4]. split; [exact R1|]. split; [exact R2|]. discriminate. }
      assert (Ha : forall F, alpha (hfeed h0 F) = alpha (hfeed h F)) by (intros F; unfold alpha, hfeed, h0; cbn; rewrite Hi; reflexivity).
      destruct (decode_mcu_slow (map snd rbs) (hd_st h0)) as [[[] s'|s']| |] eqn:Ed; try discriminate.
      cbn [bind] in E. inversion E; subst h'.
      destruct (slow_frame rbs h0 [] s' tg Hh0 Hb eq_refl Hs ltac:(constructor) Ed) as (o & O1 & O2).
      exists y, o. split; [unfold houts at 1; cbn [hd_st]; rewrite O1; unfold houts at 1; cbn; now rewrite <- app_assoc|].
      split.
      - intros HC. specialize (Hy HC). rewrite Ha, hfeed_nil in O2. rewrite O2 in Hy. exact Hy.
      - intros F HF. destruct (slow_frame rbs h0 F s' tg Hh0 Hb eq_refl Hs HF Ed) as (o' & O1' & O2').
        rewrite O1 in O1'. apply app_inv_head in O1'. subst o'. rewrite Ha in O2'. exact O2'. }
    assert (Hh00 : hd_st h = mkD (gbuf (hd_st h)) (bleft (hd_st h)) (dsrc (hd_st h)) (unread (hd_st h)) false (warns (hd_st h))
                        (mkSq (sdc (ust (hd_st h))) (houts h ++ []))).
    { rewrite app_nil_r, <- Hi. unfold houts. destruct (hd_st h) as [? ? ? ? ? ? [? ?]]. reflexivity. }
    destruct (_ && _ && _) eqn:Ef.
    + apply andb_prop in Ef. destruct Ef as [Ef Eu]. apply andb_prop in Ef. destruct Ef as [Er El].
      apply Z.eqb_eq in Eu, Er. apply Z.leb_le in El.
      destruct (fast_body rbs h Hh Hb Hi Eu ltac:(lia)) as (r & s' & Ed & H). rewrite Ed. cbn [bind].
      destruct r; cbn [bind].
      * intros E. inversion E; subst h'.
        destruct (fast_frame rbs h [] s' tg Hh Hb Hi Hs ltac:(constructor) Eu ltac:(lia) Ed) as (o & O1 & O2).
        exists [], o. split; [exact O1|]. split; auto. intros F HF.
        destruct (fast_frame rbs h F s' tg Hh Hb Hi Hs HF Eu ltac:(lia) Ed) as (o' & O1' & O2').
        rewrite O1 in O1'. apply app_inv_head in O1'. subst o'. exact O2'.
      * destruct H as (A1 & y & A2 & A3). rewrite <- Eu in A2. rewrite A2. apply (G y). intros HC. right. specialize (A3 [] tg). rewrite hfeed_nil in A3. apply A3. apply nfz_hclean. exact HC.
    + specialize (G [] ltac:(auto)). cbn zeta in G. cbn [hd_st] in G. rewrite <- Hh00 in G. exact G.
Qed.

Lemma mcu_frame ri rbs h h' : hd_ok h -> blks_ok rbs (hncomp h) -> hsusp h = true ->
  decode_mcu ri (map snd rbs) h = Ret (true, h') ->
  exists y o, houts h' = houts h ++ y ++ o /\ (no_filled_zero (hbytes h) -> y = [] \/ y = o) /\
    forall F, Forall byte F -> ref_step true ri rbs (alpha (hfeed h F)) = Some (o, alpha (hfeed h' F)).
Proof.
  intros Hh Hb Hs. unfold decode_mcu. destruct (negb (ri =? 0) && (hd_togo h =? 0)) eqn:Er.
  - pose proof (process_restart_spec ri h Hh) as HR.
    pose proof (process_restart_reach (fun s => no_filled_zero (src_bytes s)) nfz_next ri h) as HQ.
    destruct (process_restart ri h) as [[[|] h1]| |]; cbn [bind negb]; try discriminate.
    destruct HR as (R1 & R2 & R3 & R4 & R5 & R6 & R7). rewrite <- R5 in Hb. intros E.
    destruct (body_frame ri rbs h1 h' R1 Hb ltac:(congruence) E) as (y & o & A1 & A2 & A3).
    exists y, o. split; [congruence|]. split; [intros HC; apply A2; apply HQ; exact HC|].
    intros F HF. rewrite ref_step_body. change (rs_togo (alpha (hfeed h F))) with (hd_togo h). rewrite Er, (R7 Hs).
    change (rs_togo (alpha (hfeed h1 F))) with (hd_togo h1). now rewrite A3.
  - cbn [bind negb]. intros E. destruct (body_frame ri rbs h h' Hh Hb Hs E) as (y & o & A1 & A2 & A3).
    exists y, o. split; auto. split; auto. intros F HF. rewrite ref_step_body.
    change (rs_togo (alpha (hfeed h F))) with (hd_togo h). rewrite Er.
    change (rs_togo (alpha (hfeed h F))) with (hd_togo h). now rewrite A3.
Qed.

(* ---- suspending versus non-suspending ---- *)
(* same data; if the suspending side does not know yet what follows, anything may *)
Definition rsim (a b : rstate) : Prop :=
  rs_dcs a = rs_dcs b /\ rs_bits a = rs_bits b /\ rs_ins a = rs_ins b /\ rs_togo a = rs_togo b /\ rs_num a = rs_num b /\
  (rs_tail a = None \/ rs_tail a = rs_tail b).

Lemma seg_fst_u : forall bs ff, fst (seg true ff bs) = fst (seg false ff bs) /\
  (snd (seg true ff bs) = None \/ snd (seg true ff bs) = snd (seg false ff bs)).
Proof.
  induction bs as [|b bs IH]; intros ff; cbn [seg]; [cbn; auto|].
  destruct (b =? 255); [apply IH|]. destruct ff; [destruct (b =? 0)|].
  - destruct (IH false) as [H1 H2]. destruct (seg true false bs), (seg false false bs). cbn in *. split; [congruence|auto].
  - cbn. auto.
  - destruct (IH false) as [H1 H2]. destruct (seg true false bs), (seg false false bs). cbn in *. split; [congruence|auto].
Qed.

Lemma resync_ref_u num : forall fuel m r x, resync_ref true fuel m r num = Some x -> resync_ref false fuel m r num = Some x.
Proof.
  induction fuel as [|f IH]; intros m r x; cbn [resync_ref]; auto.
  destruct (_ =? 1); auto. destruct (_ =? 2); auto.
  destruct (seg_fst_u r false) as [_ [H|H]]; [rewrite H; discriminate|]. rewrite H.
  destruct (snd (seg false false r)) as [[m' r']|]; auto.
Qed.
Lemma restart_ref_u num m r x : restart_ref true m r num = Some x -> restart_ref false m r num = Some x.
Proof. unfold restart_ref. destruct (m =? 208 + num); auto. apply resync_ref_u. Qed.

Lemma ref_restart_u ri a b a' : rsim a b -> ref_restart true ri a = Some a' ->
  exists b', ref_restart false ri b = Some b' /\ rsim a' b'.
Proof.
  intros (H1 & H2 & H3 & H4 & H5 & H6). unfold ref_restart. destruct H6 as [H6|H6]; [rewrite H6; discriminate|].
  rewrite <- H6, <- H5, <- H1, <- H3. destruct (rs_tail a) as [[m r]|]; [|discriminate].
  destruct (restart_ref true m r (rs_num a)) as [[un r']|] eqn:E; [|discriminate]. rewrite (restart_ref_u _ _ _ _ E).
  intros H. inversion H; subst a'. eexists. split; [reflexivity|]. unfold rsim. cbn [rs_dcs rs_bits rs_ins rs_togo rs_num rs_tail].
  destruct (seg_fst_u r' false) as [S1 S2]. rewrite S1.
  split; auto. split; auto. split; auto. split; auto. split; auto. destruct (un =? 0); auto.
Qed.

Lemma ref_step_u ri rbs a b o a' : rsim a b -> ref_step true ri rbs a = Some (o, a') ->
  exists b', ref_step false ri rbs b = Some (o, b') /\ rsim a' b'.
Proof.
  intros Hsim. rewrite !ref_step_body. pose proof Hsim as (H1 & H2 & H3 & H4 & H5 & H6). rewrite <- H4.
  assert (G : forall st st' tg, rsim st st' -> exists b', ref_body rbs st' tg = (fst (ref_body rbs st tg), b') /\ rsim (snd (ref_body rbs st tg)) b').
  { intros st st' tg (G1 & G2 & G3 & G4 & G5 & G6). unfold ref_body. rewrite <- G3. destruct (rs_ins st).
    - eexists. split; [reflexivity|]. unfold rsim. cbn. auto 10.
    - rewrite <- G1, <- G2. destruct (ref_mcu _ _ _ _ _) as [[[dcs oo] p'] ok]. eexists. split; [reflexivity|].
      unfold rsim. cbn. auto 10. }
  destruct (_ && _).
  - destruct (ref_restart true ri a) as [a1|] eqn:E; [|discriminate]. destruct (ref_restart_u ri a b a1 Hsim E) as (b1 & E2 & S2).
    rewrite E2. destruct (G a1 b1 (if ri =? 0 then rs_togo a1 else u32 (rs_togo a1 - 1)) S2) as (b' & G1 & G2).
    intros H. inversion H as [H0]. rewrite H0 in G1, G2. cbn [fst snd] in *. exists b'. split; auto.
    replace (rs_togo b1) with (rs_togo a1) by apply S2. now rewrite G1.
  - destruct (G a b (if ri =? 0 then rs_togo a else u32 (rs_togo a - 1)) Hsim) as (b' & G1 & G2).
    intros H. inversion H as [H0]. rewrite H0 in G1, G2. cbn [fst snd] in *. exists b'. split; auto. rewrite <- H4. now rewrite G1.
Qed.

(* ---- whole scans ---- *)
(* everything not yet consumed, including what is still to be delivered, is free of FF FF 00
   (needed only without restart intervals) *)
Definition qsusp (ri : Z) (F : list Z) (s : source) : Prop :=
  ssusp s = true /\ schunks s = [] /\ (ri <> 0 \/ no_filled_zero (sbuf s ++ F)).

Lemma qsusp_next ri F s c s' : qsusp ri F s -> next_byte s = Some (c, s') -> qsusp ri F s'.
Proof.
  intros (H1 & H2 & H3). unfold next_byte, fill_input_buffer. rewrite H1, H2. destruct (sbuf s) as [|b r] eqn:E; [discriminate|].
  intros H. inversion H; subst. split; [reflexivity|]. split; [reflexivity|]. cbn [sbuf]. destruct H3 as [H3|H3]; [now left|right].
  cbn [app] in H3. apply nfz_tl in H3. exact H3.
Qed.

Lemma qsusp_feed ri F f s : qsusp ri (f ++ F) s -> qsusp ri F (feed s f).
Proof. intros (H1 & H2 & H3). unfold qsusp, feed. cbn [ssusp schunks sbuf]. rewrite <- app_assoc. auto. Qed.

Lemma nfz_app_l a b : no_filled_zero (a ++ b) -> no_filled_zero a.
Proof. intros H l r E. apply (H l (r ++ b)). rewrite E, <- app_assoc. reflexivity. Qed.

Lemma qsusp_bytes ri F h : qsusp ri F (dsrc (hd_st h)) -> ri <> 0 \/ no_filled_zero (hbytes (hfeed h F)).
Proof.
  intros (H1 & H2 & [H3|H3]); [now left|right]. unfold hbytes, src_bytes. cbn [hfeed hd_st dsrc feed sbuf schunks].
  rewrite H2. cbn [flat_map]. now rewrite app_nil_r.
Qed.
Lemma qsusp_bytes0 ri F h : qsusp ri F (dsrc (hd_st h)) -> ri <> 0 \/ no_filled_zero (hbytes h).
Proof.
  intros (H1 & H2 & [H3|H3]); [now left|right]. unfold hbytes, src_bytes. rewrite H2. cbn [flat_map]. rewrite app_nil_r. eapply nfz_app_l, H3.
Qed.

(* non-suspending side *)
Definition qn (ri : Z) (s : source) : Prop := ri <> 0 \/ no_filled_zero (src_bytes s).
Lemma qn_next ri s c s' : qn ri s -> next_byte s = Some (c, s') -> qn ri s'.
Proof. intros [H|H] E; [now left|right]. eapply nfz_next; eassumption. Qed.

Lemma decode_mcu_nosusp ri rbs h : hd_ok h -> blks_ok rbs (hncomp h) -> hsusp h = false ->
  exists h', decode_mcu ri (map snd rbs) h = Ret (true, h').
Proof.
  intros Hh Hb Hs. pose proof (decode_mcu_refines ri rbs h Hh Hb) as H.
  destruct (decode_mcu ri (map snd rbs) h) as [[[|] h']| |]; try contradiction; eauto.
  destruct H as (_ & H & _). congruence.
Qed.

Definition fed_post (h h' : hdec) fs' (hn : hdec) ri (rbs : list (rblk * blkcfg)) : Prop :=
  exists hn', decode_mcu ri (map snd rbs) hn = Ret (true, hn') /\ same_coefs (houts h') (houts hn') /\
    hd_ok h' /\ hncomp h' = hncomp h /\ hd_ok hn' /\ hncomp hn' = hncomp h /\ hsusp hn' = false /\ qn ri (dsrc (hd_st hn')) /\
    qsusp ri (concat fs') (dsrc (hd_st h')) /\ Forall (Forall byte) fs' /\ rsim (alpha (hfeed h' (concat fs'))) (alpha hn').

Lemma Forall_concat_byte fs : Forall (Forall byte) fs -> Forall byte (concat fs).
Proof. induction 1; cbn; [constructor|]. apply Forall_app. auto. Qed.

Lemma mcu_fed_done ri rbs fs h h' hn :
  hd_ok h -> blks_ok rbs (hncomp h) -> qsusp ri (concat fs) (dsrc (hd_st h)) -> Forall (Forall byte) fs ->
  hd_ok hn -> hncomp hn = hncomp h -> hsusp hn = false -> qn ri (dsrc (hd_st hn)) -> houts hn = [] ->
  (forall o st', ref_step true ri rbs (alpha (hfeed h (concat fs))) = Some (o, st') ->
     exists b', ref_step false ri rbs (alpha hn) = Some (o, b') /\ rsim st' b') ->
  (forall o st', ref_step true ri rbs (alpha (hfeed h (concat fs))) = Some (o, st') -> covers (houts h) o) ->
  decode_mcu ri (map snd rbs) h = Ret (true, h') -> fed_post h h' fs hn ri rbs.
Proof.
  intros Hh Hb HQ HB Hn Hnc Hns HC Ho HS HX E.
  assert (Hs : hsusp h = true) by apply HQ.
  pose proof (decode_mcu_refines ri rbs h Hh Hb) as HR. rewrite E in HR. destruct HR as (R1 & R2 & R3 & y0 & o0 & R4 & R5 & R6 & R7).
  pose proof (mcu_reach (qsusp ri (concat fs)) (fun s c s' => qsusp_next ri _ s c s') ri rbs h Hh Hb HQ) as HQ'. rewrite E in HQ'.
  destruct (mcu_frame ri rbs h h' Hh Hb Hs E) as (y & o & A1 & A2 & A3).
  assert (A2' : y = [] \/ y = o).
  { destruct (qsusp_bytes0 _ _ _ HQ) as [Hr|Hr]; [|auto]. left.
    pose proof (A3 [] ltac:(constructor)) as A30. rewrite !hfeed_nil in A30. rewrite Hs, A30 in R5. inversion R5; subst o0.
    rewrite (R7 Hr) in R4. rewrite A1 in R4. cbn [app] in R4. apply app_inv_head in R4.
    change o with ([] ++ o) in R4 at 2. now apply app_inv_tail in R4. }
  specialize (A3 _ (Forall_concat_byte _ HB)).
  specialize (HX _ _ A3).
  destruct (HS _ _ A3) as (b' & B1 & B2).
  pose proof Hb as Hb'. rewrite <- Hnc in Hb'.
  pose proof (decode_mcu_refines ri rbs hn Hn Hb') as HN.
  pose proof (mcu_reach (qn ri) (qn_next ri) ri rbs hn Hn Hb' HC) as HCN.
  destruct (decode_mcu_nosusp ri rbs hn Hn Hb' Hns) as (hn' & En). rewrite En in HN, HCN.
  destruct HN as (N1 & N2 & N3 & yn & on & N4 & N5 & N6 & N7).
  assert (N6' : yn = [] \/ yn = on) by (destruct HC as [HC|HC]; auto using nfz_hclean).
  rewrite Hns, B1 in N5. inversion N5; subst on b'. exists hn'. split; [exact En|].
  split; [|split; [exact R1|split; [exact R3|split; [exact N1|split; [congruence|split; [congruence|split; [exact HCN|split; [exact HQ'|split; [exact HB|exact B2]]]]]]]]].
  rewrite A1, N4, Ho. cbn [app].
  apply same_coefs_trans with o.
  - rewrite app_assoc. apply covers_coef. apply covers_app; auto. destruct A2' as [->| ->]; [apply covers_nil|apply covers_self].
  - apply same_coefs_sym. apply covers_coef. destruct N6' as [->| ->]; [apply covers_nil|apply covers_self].
Qed.

Lemma mcu_fed_spec ri rbs : forall fs h h' fs' hn,
  hd_ok h -> blks_ok rbs (hncomp h) -> qsusp ri (concat fs) (dsrc (hd_st h)) -> Forall (Forall byte) fs ->
  hd_ok hn -> hncomp hn = hncomp h -> hsusp hn = false -> qn ri (dsrc (hd_st hn)) -> houts hn = [] ->
  (forall o st', ref_step true ri rbs (alpha (hfeed h (concat fs))) = Some (o, st') ->
     exists b', ref_step false ri rbs (alpha hn) = Some (o, b') /\ rsim st' b') ->
  (forall o st', ref_step true ri rbs (alpha (hfeed h (concat fs))) = Some (o, st') -> covers (houts h) o) ->
  decode_mcu_fed ri (map snd rbs) fs h = Ret (Some (h', fs')) -> fed_post h h' fs' hn ri rbs.
Proof.
  induction fs as [|f fs IH]; intros h h' fs' hn Hh Hb HQ HB Hn Hnc Hns HC Ho HS HX; cbn [decode_mcu_fed];
    destruct (decode_mcu ri (map snd rbs) h) as [[[|] h1]| |] eqn:E; cbn [bind]; try discriminate.
  - intros H. inversion H; subst h1 fs'. eapply mcu_fed_done; eassumption.
  - intros H. inversion H; subst h1 fs'. eapply mcu_fed_done; eassumption.
  - intros H. pose proof (decode_mcu_refines ri rbs h Hh Hb) as HR. rewrite E in HR.
    destruct HR as (R1 & R2 & R3 & R4 & R5 & y & o1 & R6 & R7 & R7' & R8).
    pose proof (qsusp_bytes _ _ _ HQ) as Hby.
    pose proof (mcu_reach (qsusp ri (concat (f :: fs))) (fun s c s' => qsusp_next ri _ s c s') ri rbs h Hh Hb HQ) as HQ'. rewrite E in HQ'.
    inversion HB; subst. cbn [concat] in *.
    assert (Eq : ref_step true ri rbs (alpha (hfeed (hfeed h1 f) (concat fs))) = ref_step true ri rbs (alpha (hfeed h (f ++ concat fs)))).
    { rewrite hfeed_app. apply R5. }
    assert (Hc1 : hncomp (hfeed h1 f) = hncomp h) by exact R4.
    destruct (IH (hfeed h1 f) h' fs' hn) as (hn' & P); auto.
    + apply hfeed_ok; auto.
    + now rewrite Hc1.
    + apply qsusp_feed. exact HQ'.
    + congruence.
    + intros o st'. rewrite Eq. apply HS.
    + intros o st'. rewrite Eq. intros Hr. change (houts (hfeed h1 f)) with (houts h1). rewrite R6.
      apply covers_app; [eapply HX; exact Hr|].
      apply covers_app. { destruct Hby as [Hby|Hby]; [rewrite (R7 Hby); apply covers_nil|].
        destruct (R7' _ _ _ (nfz_hclean _ Hby) Hr) as [->| ->]; [apply covers_nil|apply covers_self]. }
      destruct (R8 _ _ _ Hr) as (o2 & ->). apply covers_prefix.
    + exists hn'. rewrite Hc1 in P. exact P.
Qed.

Lemma scan_fed_spec ri : forall ms fs h l hn,
  hd_ok h -> Forall (fun m => blks_ok m (hncomp h)) ms -> qsusp ri (concat fs) (dsrc (hd_st h)) -> Forall (Forall byte) fs ->
  hd_ok hn -> hncomp hn = hncomp h -> hsusp hn = false -> qn ri (dsrc (hd_st hn)) ->
  rsim (alpha (hfeed h (concat fs))) (alpha hn) ->
  decode_scan_fed ri (map (map snd) ms) fs h = Ret (Some l) ->
  exists l' hn', decode_scan ri (map (map snd) ms) hn = Ret (l', hn', true) /\ Forall2 same_coefs l l'.
Proof.
  induction ms as [|m ms IH]; intros fs h l hn Hh Hb HQ HB Hn Hnc Hns HC HS; cbn [map decode_scan_fed decode_scan].
  - intros H. inversion H. exists [], hn. auto.
  - inversion Hb as [|? ? Hb1 Hb2]; subst.
    destruct (decode_mcu_fed ri (map snd m) fs (fresh_mcu h)) as [[[h1 fs1]|]| |] eqn:E; cbn [bind]; try discriminate.
    destruct (decode_scan_fed ri (map (map snd) ms) fs1 h1) as [[l2|]| |] eqn:E2; cbn [bind]; try discriminate.
    intros H. inversion H; subst l.
    destruct (mcu_fed_spec ri m fs (fresh_mcu h) h1 fs1 (fresh_mcu hn)) as (hn1 & P1 & P2 & P3 & P4 & P5 & P6 & P7 & P8 & P9 & P10 & P11); auto.
    + intros o st' Hr. apply (ref_step_u ri m (alpha (hfeed (fresh_mcu h) (concat fs)))); auto.
    + intros o st' _. apply covers_nil.
    + rewrite P1. cbn [bind negb].
      change (hncomp (fresh_mcu h)) with (hncomp h) in *. rewrite <- P4 in Hb2.
      destruct (IH fs1 h1 l2 hn1 P3 Hb2 P9 P10 P5 ltac:(congruence) P7 P8 P11 E2) as (l' & hn' & Q1 & Q2).
      rewrite Q1. cbn [bind]. eexists _, hn'. split; [reflexivity|]. constructor; auto.
Qed.
