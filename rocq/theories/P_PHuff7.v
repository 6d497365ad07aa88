(* P_PHuff7.v -- progressive Huffman: the decoder reads back a whole scan *)
From Verif Require P_ArithBlk P_ArithBlk3.
From Verif Require Import Base M_HuffTbl M_Source M_BitRead M_HuffEnc M_LossHuff M_HuffDec S_Huff S_Stream S_Block P_HuffTbl P_HuffTblD P_BitRead P_HuffSym P_HuffDec P_Marker P_HuffEnc P_HuffScan P_EncTbl P_Round P_RoundScan P_LossHuff P_LossDec T_LossHuff M_PHuff P_PHuff P_PHuff2 P_PHuff3 P_PHuff4 P_PHuff5 P_PHuff6.

(* the DC predictions keep their number *)
Lemma pans_lift {A} (o : outcome A) l a r : pans (plift o) l = Some (a, r) -> o = Ret a /\ r = l.
Proof. destruct o; cbn [plift pans]; try discriminate. intros H; injection H as <- <-. auto. Qed.
Lemma dc_first_len p : forall os dcs l bs dcs' r, pans (pdec_dc_first p dcs os) l = Some ((bs, dcs'), r) -> length dcs' = length dcs.
Proof.
  induction os as [|[ci blk] os IH]; intros dcs l bs dcs' r H; cbn [pdec_dc_first] in H.
  - cbn [pans] in H. injection H as _ <- _. reflexivity.
  - rewrite pans_bind in H. destruct (pans (plift (aget (pcomps p) ci)) l) as [[[t ac] l1]|]; [|discriminate]. cbn [pans] in H. destruct l1 as [|[t' sy|] l1]; try discriminate. destruct (t =? t'); [|discriminate].
    rewrite pans_bind in H. destruct (pans (if sy =? 0 then _ else _) l1) as [[x l2]|]; [|discriminate].
    rewrite pans_bind in H. destruct (pans (plift (aget dcs ci)) l2) as [[last l3]|]; [|discriminate].
    destruct (_ || _); [discriminate|]. rewrite pans_bind in H. destruct (pans (plift (aset dcs ci _)) l3) as [[d1 l4]|] eqn:E; [|discriminate]. apply pans_lift in E. destruct E as [E _].
    rewrite pans_bind in H. destruct (pans (plift (aset blk 0 _)) l4) as [[b1 l5]|]; [|discriminate]. rewrite pans_bind in H. destruct (pans (pdec_dc_first p d1 os) l5) as [[[b2 d2] l6]|] eqn:E2; [|discriminate].
    cbn [pans] in H. injection H as _ <- _. rewrite (IH _ _ _ _ _ E2). unfold aset in E. destruct (_ || _); [discriminate|]. injection E as <-. apply length_upd.
Qed.
Lemma mcu_len p sv o l n sv' r : pans (pdec_mcu p sv o) l = Some ((n, sv'), r) -> length (snd sv') = length (snd sv).
Proof.
  intros H. unfold pdec_mcu in H. destruct (pSs p =? 0).
  - destruct (pAh p =? 0); rewrite pans_bind in H.
    + destruct (pans (pdec_dc_first p (snd sv) o) l) as [[[bs dcs] l1]|] eqn:E; [|discriminate]. cbn [pans] in H. injection H as _ <- _. cbn [snd]. exact (dc_first_len _ _ _ _ _ _ _ E).
    + destruct (pans (pdec_dc_refine p o) l) as [[bs l1]|]; [|discriminate]. cbn [pans] in H. injection H as _ <- _. reflexivity.
  - rewrite pans_bind in H. destruct (pans (plift (act p)) l) as [[a l1]|]; [|discriminate]. destruct o as [|[ci blk] o]; [discriminate|]. rewrite pans_bind in H.
    destruct (pans _ l1) as [[[run b] l2]|]; [|discriminate]. cbn [pans] in H. injection H as _ <- _. reflexivity.
Qed.

Section Dec.
Variables (p : pscan) (isDC : bool) (et : etbls) (dt : dtbls).
Hypothesis ST : same_tables isDC et dt.
Hypothesis V : pvalid p.

(* within a segment *)
Lemma pdec_seg c W : cT c <> None -> forall os os2 items news h q, (pri p = 0 \/ len os <= pd_togo h) -> inv c W q q (pd_st h) -> panss p (pd_sav h) os items = Some (news, []) ->
  Forall iok items -> Forall (icoded et) items -> starts (cS c) q (ibitss et items) -> (q + length (ibitss et items) <= cL c)%nat ->
  exists s' sv', pdec_scan p dt (os ++ os2) h = ('(bl, h2, ok) <- pdec_scan p dt os2 (mkPD s' sv' (if pri p =? 0 then pd_togo h else pd_togo h - len os) (pd_num h) (pd_disc h)) ;; Ret (news ++ bl, h2, ok)) /\
    inv c W (q + length (ibitss et items)) (q + length (ibitss et items)) s' /\ length (snd sv') = length (snd (pd_sav h)).
Proof.
  intros HT. induction os as [|o os IH]; intros os2 items news h q TG HI PA K C HS HL.
  - cbn [panss] in PA. injection PA as <- ->. exists (pd_st h), (pd_sav h). cbn [ibitss flat_map length app]. rewrite Nat.add_0_r. split; [|auto]. change (Z.of_nat 0) with 0. rewrite Z.sub_0_r. destruct h as [st sv tg nm dc]. cbn [pd_st pd_sav pd_togo pd_num pd_disc]. destruct (pri p =? 0); destruct (pdec_scan p dt os2 _) as [[[bl h2] ok]| |]; reflexivity.
  - cbn [panss] in PA. destruct (pans (pdec_mcu p (pd_sav h) o) items) as [[[n sv1] it1]|] eqn:E; [|discriminate]. destruct (panss p sv1 os it1) as [[ns l2]|] eqn:E2; [|discriminate]. injection PA as <- ->.
    destruct (prun_ans isDC et dt ST _ c W HT items _ it1 q (pd_st h) E K C HI HS) as (s1 & used & PR & -> & I1).
    apply Forall_app in K. apply Forall_app in C. destruct K as [_ K], C as [_ C]. unfold ibitss in HS, HL. rewrite flat_map_app in HS, HL. fold (ibitss et used) in HS, HL. fold (ibitss et it1) in HS, HL. destruct (starts_app _ _ _ _ HS) as [S1 S2]. rewrite app_length in HL.
    cbn [length] in TG. cbn [app pdec_scan].
    assert (N : negb (pri p =? 0) && (pd_togo h =? 0) = false) by (destruct TG as [H|H]; [rewrite H; reflexivity|]; destruct (Z.eqb_spec (pd_togo h) 0); [lia|]; apply andb_false_r). rewrite N. cbn [bind negb].
    assert (Hin : insuff (pd_st h) = false) by (rewrite (i_ins _ _ _ _ _ HI); apply Nat.ltb_ge; lia). rewrite Hin. cbn [andb]. rewrite PR. cbn [bind].
    set (h1 := mkPD s1 sv1 _ _ _). destruct (IH os2 it1 ns h1 (q + length (ibitss et used))%nat) as (s' & sv' & D1 & D2 & D3); try assumption.
    { destruct (Z.eqb_spec (pri p) 0); [left; assumption|right]. unfold h1. cbn [pd_togo]. destruct TG; lia. }
    { lia. }
    exists s', sv'. rewrite D1. unfold h1. cbn [pd_togo pd_num pd_disc]. split; [|split].
    + replace (if pri p =? 0 then if pri p =? 0 then pd_togo h else pd_togo h - 1 else (if pri p =? 0 then pd_togo h else pd_togo h - 1) - len os) with (if pri p =? 0 then pd_togo h else pd_togo h - len (o :: os)) by (destruct (pri p =? 0); [reflexivity|cbn [length]; lia]).
      match goal with |- bind (bind ?X _) _ = bind ?Y _ => change Y with X; destruct X as [[[bl h2] ok]| |] end; reflexivity.
    + unfold ibitss at 1 2. rewrite flat_map_app. fold (ibitss et used). fold (ibitss et it1). rewrite app_length, Nat.add_assoc. exact D2.
    + rewrite D3. unfold h1. cbn [pd_sav]. exact (mcu_len _ _ _ _ _ _ _ E).
Qed.

Lemma scan_dec m rest : m <> 0 -> m <> 255 -> forall num ss os es news, pev p num ss os es news -> 0 <= num < 8 -> Forall (evcoded et) es ->
  forall src W gb disc, src_ok src -> ssusp src = false -> src_bytes src = evbytes et [] es ++ 255 :: m :: rest ->
  exists h', pdec_scan p dt os (mkPD (mkD gb 0 src 0 false W tt) (0, zeros p) (pri p) num disc) = Ret (news, h', true) /\ tail (pd_st h') = Some (m, rest) /\ ssusp (dsrc (pd_st h')) = false /\ warns (pd_st h') = W.
Proof.
  intros M0 M1. induction 1 as [num ss os its news H SF|num ss os its news ss2 os2 es news2 P0 L NE SF PV IH]; intros HN C src W gb disc S1 S2 SB; destruct SF as (SL & (SK & STB) & SA & SP).
  - apply Forall_app in C. destruct C as [C _]. rewrite Forall_map in C. rewrite evbytes_items in SB. cbn [evbytes app] in SB. rewrite app_nil_r in SB.
    destruct (segment_bits (ibitss et its)) as (D & pad & E1 & E2 & _). rewrite E1 in SB. assert (SG : seg false false (src_bytes src) = (D, Some (m, rest))) by (rewrite SB; apply seg_stuff; assumption).
    pose proof (inv_start src D (m, rest) gb W S1 S2 SG) as HI. set (c := mkCtx _ _ _ _) in HI. set (h := mkPD _ _ _ _ _).
    destruct (pdec_seg c W ltac:(discriminate) os [] its news h 0%nat) as (s' & sv' & D1 & D2 & _); try assumption.
    { cbn [h pd_togo]. rewrite <- SL. exact H. }
    { cbn [c cS]. rewrite E2. apply (starts_zstream []). }
    { cbn [c cL]. rewrite E2, app_length. lia. }
    rewrite app_nil_r in D1. rewrite D1. cbn [pdec_scan bind]. rewrite app_nil_r. eexists. split; [reflexivity|]. cbn [pd_st]. split; [rewrite (i_tail _ _ _ _ _ D2); reflexivity|]. split; [rewrite (i_susp _ _ _ _ _ D2); reflexivity|].
    apply (i_warn _ _ _ _ _ D2). rewrite (i_ins _ _ _ _ _ D2). apply Nat.ltb_ge. cbn [c cL]. rewrite E2, app_length. lia.
  - apply Forall_app in C. destruct C as [C CR]. rewrite Forall_map in C. apply Forall_inv_tail in CR. rewrite evbytes_items in SB. cbn [evbytes app] in SB.
    set (R := evbytes et [] es ++ 255 :: m :: rest) in *.
    destruct (segment_bits (ibitss et its)) as (D & pad & E1 & E2 & _). assert (SG : seg false false (src_bytes src) = (D, Some (208 + num, R))) by (rewrite SB, E1, <- app_assoc; cbn [app]; apply seg_stuff; lia).
    pose proof (inv_start src D (208 + num, R) gb W S1 S2 SG) as HI. set (c := mkCtx _ _ _ _) in HI. set (h := mkPD _ _ _ _ _).
    destruct (pdec_seg c W ltac:(discriminate) os os2 its news h 0%nat) as (s' & sv' & D1 & D2 & D3); try assumption.
    { right. cbn [h pd_togo]. lia. }
    { cbn [c cS]. rewrite E2. apply (starts_zstream []). }
    { cbn [c cL]. rewrite E2, app_length. lia. }
    rewrite D1. cbn [h pd_togo pd_num pd_disc]. destruct (Z.eqb_spec (pri p) 0); [contradiction|]. rewrite <- SL, L, Z.sub_diag.
    assert (NE2 : exists o os', os2 = o :: os').
    { destruct os2 as [|o os']; [|eauto]. exfalso. inversion PV as [? ? ? ? ? ? SF2|? ? ? ? ? ss3 os3 ? ? ? L3 ? SF2]; subst; destruct SF2 as (X & _); [destruct ss2; [apply NE; reflexivity|discriminate]|]. destruct os0; [|discriminate]. cbn in X. pose proof (pv_ri p V). destruct ss0; [cbn in L3; lia|discriminate]. }
    destruct NE2 as (o & os' & ->).
    (* the restart *)
    pose proof (read_restart_marker_spec (unread s') (dsrc s') (disc + bleft s' / 8) num (i_src _ _ _ _ _ D2) HN) as HR.
    pose proof (i_tail _ _ _ _ _ D2) as Htl. cbn [c cT] in Htl. unfold tail, sseg in Htl. pose proof (i_susp _ _ _ _ _ D2) as Hsu. cbn [c cU] in Hsu.
    assert (W1 : insuff s' = false) by (rewrite (i_ins _ _ _ _ _ D2); apply Nat.ltb_ge; cbn [c cL]; rewrite E2, app_length; lia).
    pose proof (i_warn _ _ _ _ _ D2 W1) as W2.
    unfold next_tail in HR. rewrite Htl in HR. rewrite Hsu in HR.
    assert (Href : restart_ref false (208 + num) R num = Some (0, R)) by (unfold restart_ref; rewrite Z.eqb_refl; reflexivity).
    destruct (read_restart_marker (unread s') (dsrc s') (disc + bleft s' / 8) num) as [[[[[un s2] d2] num2] [|]]|] eqn:ER; [|destruct HR as (_ & _ & HR & _); discriminate|contradiction].
    destruct HR as (R1 & R2 & R3 & m' & r' & R4 & R5). assert (X : restart_ref false m' r' num = restart_ref false (208 + num) R num) by (f_equal; congruence). rewrite X, Href in R5. injection R5 as <- R6.
    assert (PZ : map (fun _ => 0) (snd sv') = zeros p) by (apply map_zero; rewrite D3; cbn [h pd_sav snd]; apply map_length).
    assert (PS : pdec_scan p dt (o :: os') (mkPD s' sv' 0 num disc) = pdec_scan p dt (o :: os') (mkPD (mkD (gbuf s') 0 s2 0 false W tt) (0, zeros p) (pri p) (Z.land (num + 1) 7) d2)).
    { cbn [pdec_scan pd_togo]. destruct (Z.eqb_spec (pri p) 0); [contradiction|]. cbn [negb andb Z.eqb]. unfold pprocess_restart. cbn [pd_st pd_disc pd_num pd_sav]. rewrite ER. cbn [Z.eqb bind negb andb]. rewrite PZ, W2, R1, land7 by assumption. reflexivity. }
    rewrite PS. rewrite land7 in IH by assumption. rewrite land7 by assumption.
    destruct (IH ltac:(apply Z.mod_pos_bound; lia) CR s2 W (gbuf s') d2 R2 R3 (eq_sym R6)) as (h' & IE & IT & IS & IW). rewrite IE. cbn [bind]. exists h'. split; [reflexivity|]. auto.
Qed.
End Dec.
