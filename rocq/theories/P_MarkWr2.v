(* P_MarkWr2.v -- the reader undoes the writer: DRI, SOF, SOS, APP0, APP14, and whole headers. *)
From Verif Require Import Base M_HuffDec M_MarkRd P_MarkRd M_MarkWr S_MarkRd S_MarkWr P_MarkWr.

Lemma hi4 a b : 0 <= a < 16 -> 0 <= b < 16 -> 0 <= Z.shiftl a 4 + b < 256 /\ Z.land (Z.shiftr (Z.shiftl a 4 + b) 4) 15 = a /\ Z.land (Z.shiftl a 4 + b) 15 = b.
Proof.
  intros Ha Hb. rewrite Z.shiftl_mul_pow2, Z.shiftr_div_pow2 by lia. change 15 with (Z.ones 4). rewrite !Z.land_ones by lia. change (2 ^ 4) with 16. split; [lia|].
  rewrite Z.div_add_l by lia. rewrite (Z.div_small b) by lia. rewrite (Z.add_comm (a * 16)), Z.mod_add by lia. rewrite !Z.mod_small by lia. lia.
Qed.
(* ---- DRI ---- *)
Lemma dri_ok c s : saw_SOI s = true -> unread s = 0 -> 0 <= x_ri c <= 65535 -> rd s (emit_dri c) (set_unread (set_ri (set_disc s 0) (x_ri c)) 0).
Proof.
  intros A B C. unfold emit_dri. apply rd_seg; [exact A|exact B|lia|reflexivity|]. intros rest. rewrite <- app_assoc, pm_dri. unfold get_dri. rewrite byte2_e2 by lia. cbn [Z.eqb Pos.eqb negb]. rewrite byte2_e2 by lia. reflexivity.
Qed.
(* ---- SOS ---- *)
Lemma find_comp_ok cs cu nc a cc : forall n ci, 0 <= ci <= a -> a < ci + Z.of_nat n -> a < nc -> a < 4 -> (forall j p, 0 <= j < a -> nth_error cs (Z.to_nat j) = Some p -> c_id p <> cc) ->
  (exists p, nth_error cs (Z.to_nat a) = Some p /\ c_id p = cc) -> nth_error cu (Z.to_nat a) = Some None -> find_comp n ci cc cs cu nc = Ret (Some a).
Proof.
  induction n as [|n IH]; intros ci Hci Hn Ha H4 Hne (p & Ep & Ec) Hcu; [lia|]. cbn [find_comp]. unfold MAX_COMPS_IN_SCAN. destruct (Z.ltb_spec ci nc); [|lia]. destruct (Z.ltb_spec ci 4); [|lia]. cbn [andb].
  destruct (Z.eq_dec ci a) as [EE|NE].
  - rewrite EE. rewrite (aget_nth cs a p ltac:(lia) Ep). cbn [bind]. rewrite Ec, Z.eqb_refl. rewrite (aget_nth cu a None ltac:(lia) Hcu). reflexivity.
  - assert (LT : (Z.to_nat a < length cs)%nat) by (apply nth_error_Some; congruence). destruct (nth_error cs (Z.to_nat ci)) as [q|] eqn:Eq; [|apply nth_error_None in Eq; lia].
    rewrite (aget_nth cs ci q ltac:(lia) Eq). cbn [bind]. destruct (Z.eqb_spec cc (c_id q)) as [X|X]; [exfalso; apply (Hne ci q); [lia|exact Eq|congruence]|]. apply IH; try lia; auto. exists p; auto.
Qed.
Lemma already_ok cu a : forall n pi, 0 <= pi -> (forall j, pi <= j < pi + Z.of_nat n -> exists b, nth_error cu (Z.to_nat j) = Some (Some b) /\ b <> a) -> already n pi a cu = Ret false.
Proof.
  induction n as [|n IH]; intros pi Hpi H; [reflexivity|]. cbn [already]. destruct (H pi ltac:(lia)) as (b & Eb & Nb). rewrite (aget_nth cu pi _ Hpi Eb). cbn [bind]. destruct (Z.eqb_spec b a); [contradiction|]. apply IH; [lia|]. intros j Hj. apply H. lia.
Qed.
Definition sos_bytes (c : wst) (p : comp) : list Z := emit_byte (c_id p) ++ emit_byte (Z.shiftl (if need_dc c then c_dc p else 0) 4 + (if need_ac c then c_ac p else 0)).
Definition sel (td ta : Z) (r : comp) : comp := mkComp (c_id r) (c_h r) (c_v r) (c_q r) td ta.
Lemma same_nth xs cs i p : Forall2 same_comp xs cs -> nth_error xs i = Some p -> exists r, nth_error cs i = Some r /\ same_comp p r.
Proof. intros H. revert i. induction H as [|x y xs cs HX HF IH]; intros [|i] E; cbn in *; try discriminate; [injection E as <-; eauto|eauto]. Qed.
Lemma same_nth2 xs cs i r : Forall2 same_comp xs cs -> nth_error cs i = Some r -> exists p, nth_error xs i = Some p /\ same_comp p r.
Proof. intros H. revert i. induction H as [|x y xs cs HX HF IH]; intros [|i] E; cbn in *; try discriminate; [injection E as <-; eauto|eauto]. Qed.
Lemma same_upd xs cs i p r : Forall2 same_comp xs cs -> nth_error xs i = Some p -> same_comp p r -> Forall2 same_comp xs (upd cs i r).
Proof. intros H. revert i. induction H as [|x y xs cs HX HF IH]; intros [|i] E S; cbn in *; try discriminate; [injection E as <-; constructor; auto|constructor; eauto]. Qed.
Lemma ids_inj (xs : list comp) i j p q : NoDup (map c_id xs) -> nth_error xs i = Some p -> nth_error xs j = Some q -> c_id p = c_id q -> i = j.
Proof.
  intros N Ei Ej E. rewrite NoDup_nth_error in N. apply N.
  - rewrite map_length. eapply nth_lt; exact Ei.
  - rewrite !nth_error_map, Ei, Ej. cbn. now rewrite E.
Qed.
Lemma sos_comps_ok c : NoDup (map c_id (x_comps c)) -> Forall (fun p => byte_val (c_id p) /\ 0 <= c_dc p <= 15 /\ 0 <= c_ac p <= 15) (x_comps c) ->
  forall ix ps pre s cs, Forall2 (fun a p => nth_error (x_comps c) (Z.to_nat a) = Some p) ix ps ->
  comps s = Some cs -> Forall2 same_comp (x_comps c) cs -> ncomp s = Z.of_nat (length (x_comps c)) ->
  Forall (fun a => 0 <= a < Z.min 4 (Z.of_nat (length (x_comps c)))) ix ->
  (forall i j a b, (i < j)%nat -> nth_error (pre ++ ix) i = Some a -> nth_error (pre ++ ix) j = Some b -> a < b) -> (forall j a, nth_error (pre ++ ix) j = Some a -> Z.of_nat j <= a) ->
  (length (pre ++ ix) <= 4)%nat -> cur s = map Some pre ++ repeat None (4 - length pre) ->
  exists cs', Forall2 same_comp (x_comps c) cs' /\
    (forall a r, 0 <= a -> ~ In a ix -> nth_error cs (Z.to_nat a) = Some r -> nth_error cs' (Z.to_nat a) = Some r) /\
    (forall a p, In a ix -> nth_error (x_comps c) (Z.to_nat a) = Some p -> exists r, nth_error cs' (Z.to_nat a) = Some r /\ same_comp p r /\ c_dc r = (if need_dc c then c_dc p else 0) /\ c_ac r = (if need_ac c then c_ac p else 0)) /\
    forall k l0 rest, sos_comps (length ix) (Z.of_nat (length pre)) s l0 (flat_map (sos_bytes c) ps ++ rest) k =
      k (set_comps (set_cur s (map Some (pre ++ ix) ++ repeat None (4 - length (pre ++ ix)))) (Some cs')) rest.
Proof.
  intros ND BY. induction ix as [|a ix IH]; intros ps pre s cs HF HC HS HN HR HInc HGe H4 HCur; inversion HF as [|a' p ix' ps' Ep HF']; subst.
  - exists cs. split; [exact HS|]. split; [auto|]. split; [intros a p []|]. intros k l0 rest. cbn [flat_map app length sos_comps]. rewrite app_nil_r in *. rewrite <- HCur, <- HC. destruct s; reflexivity.
  - cbn [length sos_comps flat_map]. inversion HR as [|x y Ra HR']; subst. assert (BP : byte_val (c_id p) /\ 0 <= c_dc p <= 15 /\ 0 <= c_ac p <= 15) by (exact (Forall_nth_error _ _ _ _ BY Ep)). destruct BP as (B1 & B2 & B3). unfold byte_val in B1.
    set (td := if need_dc c then c_dc p else 0). set (ta := if need_ac c then c_ac p else 0). assert (T1 : 0 <= td < 16) by (subst td; destruct (need_dc c); lia). assert (T2 : 0 <= ta < 16) by (subst ta; destruct (need_ac c); lia).
    destruct (hi4 td ta T1 T2) as (V0 & V1 & V2).
    assert (EB : sos_bytes c p = [c_id p; Z.shiftl td 4 + ta]) by (unfold sos_bytes; rewrite !eb by (unfold td, ta in *; lia); reflexivity). 
    destruct (same_nth _ _ _ _ HS Ep) as (r & Er & SR). rewrite app_length in H4. cbn [length] in H4.
    assert (GA : Z.of_nat (length pre) <= a) by (apply (HGe (length pre)); rewrite nth_error_app2, Nat.sub_diag by lia; reflexivity).
    assert (CU : nth_error (cur s) (Z.to_nat a) = Some None).
    { rewrite HCur, nth_error_app2 by (rewrite map_length; lia). rewrite map_length. rewrite nth_error_repeat by lia. reflexivity. }
    assert (FC : find_comp 5 0 (c_id p) cs (cur s) (ncomp s) = Ret (Some a)).
    { apply find_comp_ok; [lia|lia|lia|lia| | |exact CU].
     1: { intros j q Hj Eq X. destruct (same_nth2 _ _ _ _ HS Eq) as (p' & Ep' & SP). destruct SP as (SP & _). assert (Z.to_nat j = Z.to_nat a); [|lia]. eapply ids_inj; eauto. congruence. }
     exists r. split; [exact Er|apply SR]. }
    assert (LC : length (cur s) = 4%nat) by (rewrite HCur, app_length, map_length, repeat_length; lia).
    pose proof (nth_lt _ _ _ Er) as LR.
    assert (CUR' : upd (cur s) (length pre) (Some a) = map Some (pre ++ [a]) ++ repeat None (4 - length (pre ++ [a]))).
    { apply list_ext. intros j. rewrite nth_upd by lia. rewrite HCur, map_app, app_length. cbn [length map]. destruct (Nat.eqb_spec j (length pre)) as [EE|NE].
      - rewrite EE. rewrite nth_error_app1 by (rewrite app_length, map_length; cbn; lia). rewrite nth_error_app2, map_length, Nat.sub_diag by (rewrite map_length; lia). reflexivity.
      - destruct (Nat.lt_ge_cases j (length pre)) as [H|H].
        + rewrite nth_error_app1 by (rewrite map_length; lia). rewrite nth_error_app1 by (rewrite app_length, map_length; cbn; lia). rewrite nth_error_app1 by (rewrite map_length; lia). reflexivity.
        + rewrite nth_error_app2 by (rewrite map_length; lia). rewrite nth_error_app2 by (rewrite app_length, map_length; cbn; lia). rewrite app_length, !map_length. cbn [length].
          destruct (Nat.lt_ge_cases j 4) as [J|J]; [rewrite !nth_error_repeat by lia; reflexivity|]. rewrite !(proj2 (nth_error_None _ _)) by (rewrite repeat_length; lia). reflexivity. }
    assert (AL : already (length pre) 0 a (map Some (pre ++ [a]) ++ repeat None (4 - length (pre ++ [a]))) = Ret false).
    { apply already_ok; [lia|]. intros j Hj. assert (JL : (Z.to_nat j < length pre)%nat) by lia. destruct (nth_error pre (Z.to_nat j)) as [b|] eqn:Eb; [|apply nth_error_None in Eb; lia]. exists b. split.
      - rewrite nth_error_app1 by (rewrite map_length, app_length; cbn; lia). rewrite nth_error_map, nth_error_app1 by lia. rewrite Eb. reflexivity.
      - assert (b < a); [|lia]. apply (HInc (Z.to_nat j) (length pre)); [lia|rewrite nth_error_app1 by lia; exact Eb|rewrite nth_error_app2, Nat.sub_diag by lia; reflexivity]. }
    assert (PA : (pre ++ [a]) ++ ix = pre ++ a :: ix) by (rewrite <- app_assoc; reflexivity).
    set (cs1 := upd cs (Z.to_nat a) (sel td ta r)).
    destruct (IH ps' (pre ++ [a]) (set_comps (set_cur s (map Some (pre ++ [a]) ++ repeat None (4 - length (pre ++ [a])))) (Some cs1)) cs1) as (cs' & I1 & I2 & I3 & I4).
    + exact HF'.
    + reflexivity.
    + eapply same_upd; eauto.
    + exact HN.
    + exact HR'.
    + rewrite PA. exact HInc.
    + rewrite PA. exact HGe.
    + rewrite PA, app_length. cbn [length]. lia.
    + reflexivity.
    + assert (NA : ~ In a ix). { intros X. apply In_nth_error in X. destruct X as (j & Ej). assert (a < a); [|lia]. apply (HInc (length pre) (S (length pre + j))%nat); [lia|rewrite nth_error_app2, Nat.sub_diag by lia; reflexivity|]. rewrite nth_error_app2 by lia. replace (S (length pre + j) - length pre)%nat with (S j) by lia. exact Ej. }
      exists cs'. split; [exact I1|]. split.
      { intros b q Hb NB Eq. apply I2; [exact Hb|intros X; apply NB; now right|]. subst cs1. rewrite nth_upd by lia. destruct (Nat.eqb_spec (Z.to_nat b) (Z.to_nat a)); [|exact Eq]. exfalso. apply NB. left. lia. }
      split.
      { intros b q [EE|Hin] Eq.
        - subst b. rewrite Ep in Eq. injection Eq as <-. exists (sel td ta r). split; [apply I2; [lia|exact NA|]; subst cs1; rewrite nth_upd by lia; now rewrite Nat.eqb_refl|]. split; [exact SR|]. split; reflexivity.
        - apply I3; auto. }
      intros k l0 rest. rewrite EB. cbn [app byte length sos_comps flat_map]. rewrite HC, FC. cbn [chk]. rewrite <- ?app_assoc.
      rewrite (aset_ok (cur s)) by lia. cbn [chk]. rewrite (aget_nth cs a r ltac:(lia) Er). cbn [chk]. rewrite aset_ok by lia. cbn [chk]. rewrite V1, V2.
      rewrite Nat2Z.id, CUR', AL. cbn [chk]. fold (sel td ta r). fold cs1. specialize (I4 k l0 rest).
      rewrite PA in I4. replace (Z.of_nat (length pre) + 1) with (Z.of_nat (length (pre ++ [a]))) by (rewrite app_length; cbn [length]; lia). rewrite I4. reflexivity.
Qed.
