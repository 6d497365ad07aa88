(* P_MarkWr3.v -- the reader undoes the writer: whole headers. *)
From Verif Require Import Base M_HuffDec M_MarkRd P_MarkRd M_MarkWr S_MarkRd S_MarkWr P_MarkWr P_MarkWr2.

Lemma get_all_ok {A} (l : list A) ix : Forall (fun a => 0 <= a < Z.of_nat (length l)) ix -> exists ps, get_all l ix = Ret ps /\ Forall2 (fun a p => nth_error l (Z.to_nat a) = Some p) ix ps.
Proof.
  induction 1 as [|a ix Ha HF (ps & E & F2)]; [exists []; split; [reflexivity|constructor]|]. cbn [get_all].
  destruct (nth_error l (Z.to_nat a)) as [p|] eqn:Ep; [|apply nth_error_None in Ep; lia]. rewrite (aget_nth l a p (proj1 Ha) Ep). cbn [bind]. rewrite E. exists (p :: ps). split; [reflexivity|constructor; auto].
Qed.
Lemma inc_ge (ix : list Z) : (forall i j a b, (i < j)%nat -> nth_error ix i = Some a -> nth_error ix j = Some b -> a < b) -> Forall (fun a => 0 <= a) ix -> forall j a, nth_error ix j = Some a -> Z.of_nat j <= a.
Proof.
  intros H F. induction j as [|j IH]; intros a E; [pose proof (Forall_nth_error _ _ _ _ F E) as X; cbn beta in X; lia|].
  destruct (nth_error ix j) as [b|] eqn:Eb; [|apply nth_error_None in Eb; pose proof (nth_lt _ _ _ E); lia]. specialize (IH b eq_refl). pose proof (H j (S j) b a ltac:(lia) Eb E). lia.
Qed.
Lemma scan_ps c : legal_scan_params c -> exists ps, scan_comps c = Ret ps /\ Forall2 (fun a p => nth_error (x_comps c) (Z.to_nat a) = Some p) (x_scan c) ps.
Proof. intros L. apply get_all_ok. eapply Forall_impl; [|exact (ls_rng _ L)]. cbn beta. intros; lia. Qed.
Lemma f2_kth c ps : Forall2 (fun a p => nth_error (x_comps c) (Z.to_nat a) = Some p) (x_scan c) ps -> forall k p, kth c k p <-> nth_error ps k = Some p.
Proof.
  unfold kth. generalize (x_scan c) as ix. induction 1 as [|a q ix ps E F IH]; intros [|k] p; cbn [nth_error].
  - split; [intros (x & X & _); discriminate|discriminate].
  - split; [intros (x & X & _); discriminate|discriminate].
  - split; [intros (x & X & Y); injection X as <-; congruence|]. intros X. exists a. split; [reflexivity|]. congruence.
  - apply IH.
Qed.
Lemma sos_ok c s cs ps : legal_params c -> legal_scan_params c -> Forall2 (fun a p => nth_error (x_comps c) (Z.to_nat a) = Some p) (x_scan c) ps -> scan_comps c = Ret ps ->
  saw_SOI s = true -> saw_SOF s = true -> unread s = 0 -> comps s = Some cs -> Forall2 same_comp (x_comps c) cs -> ncomp s = Z.of_nat (length (x_comps c)) ->
  exists o cs' x, emit_sos c = Ret o /\ Forall2 same_comp (x_comps c) cs' /\
    (forall a p, In a (x_scan c) -> nth_error (x_comps c) (Z.to_nat a) = Some p -> exists r, nth_error cs' (Z.to_nat a) = Some r /\ same_comp p r /\ c_dc r = (if need_dc c then c_dc p else 0) /\ c_ac r = (if need_ac c then c_ac p else 0)) /\
    forall f rest, read_loop (S f) s (o ++ rest) = ROk REACHED_SOS (set_unread (set_scan_no (set_next_rst (set_rAl (set_rAh (set_rSe (set_rSs
      (set_comps (set_cur (set_nscan (set_unread (set_disc s 0) 218) (Z.of_nat (length (x_scan c)))) (map Some (x_scan c) ++ repeat None (4 - length (x_scan c)))) (Some cs')) (x_Ss c)) (x_Se c)) (x_Ah c)) (x_Al c)) 0) x) 0) rest.
Proof.
  intros LP LS F2 HP S1 S2 HU HC HS HN. unfold emit_sos. rewrite HP. cbn [bind].
  assert (LEN : length ps = length (x_scan c)) by (clear -F2; induction F2; cbn; lia).
  destruct LS as [N1 N2 N3 B1 B2 B3 B4 _]. unfold byte_val in *.
  destruct (hi4 (x_Ah c) (x_Al c) ltac:(lia) ltac:(lia)) as (V0 & V1 & V2).
  assert (BY : Forall (fun p => byte_val (c_id p) /\ 0 <= c_dc p <= 15 /\ 0 <= c_ac p <= 15) (x_comps c)).
  { eapply Forall_impl; [|exact (lp_c _ LP)]. intros p (A1 & A2 & A3 & A4 & A5 & A6). split; [exact A1|]. destruct (x_arith c); lia. }
  rewrite LEN. set (n := Z.of_nat (length (x_scan c))) in *.
  set (s2 := set_cur (set_nscan (set_unread (set_disc s 0) 218) n) (repeat None 4)).
  eexists.
  destruct (sos_comps_ok c (lp_ids _ LP) BY (x_scan c) ps [] s2 cs F2) as (cs' & C1 & _ & C3 & C4); auto.
  { cbn [app]. apply inc_ge; [exact N2|]. eapply Forall_impl; [|exact N3]. cbn beta; intros; lia. }
  { cbn [app]. lia. }
  exists cs', (scan_no s + 1). split; [reflexivity|]. split; [exact C1|]. split; [exact C3|].
  intros f rest. rewrite em by lia. cbn [app read_loop]. rewrite HU, S1. change (0 =? 0) with true. cbn iota. unfold next_marker. cbn [next_marker_loop]. change (255 =? 255) with true. cbn iota. change (218 =? 255) with false. change (218 =? 0) with false. cbn [negb]. cbn iota.
  change (set_unread (set_disc s 0) 218) with (at_m s 218).
  assert (PM : forall l, process_marker (at_m s 218) l = match get_sos (at_m s 218) l with ROk _ s l => ROk (Some REACHED_SOS) (set_unread s 0) l | RSusp s l => RSusp s l | RErr e s => RErr e s | RUb => RUb end) by reflexivity.
  rewrite PM. unfold get_sos. change (saw_SOF (at_m s 218)) with (saw_SOF s). rewrite S2. cbn [negb].
  rewrite <- app_assoc. rewrite byte2_e2 by lia. rewrite <- app_assoc. rewrite (eb n) by lia. cbn [app byte].
  destruct (Z.eqb_spec (2 * n + 2 + 1 + 3) (n * 2 + 6)); [|lia]. destruct (Z.ltb_spec n 1); [lia|]. unfold MAX_COMPS_IN_SCAN. destruct (Z.ltb_spec 4 n); [lia|]. cbn [negb orb].
  replace (Z.to_nat n) with (length (x_scan c)) by lia.
  rewrite <- app_assoc. fold (sos_bytes c).
  change (at_m s 218) with (set_unread (set_disc s 0) 218). fold s2. change 0 with (Z.of_nat (length (@nil Z))) at 1. rewrite C4. cbn [app].
  rewrite <- !app_assoc, !eb by lia. cbn [app byte]. rewrite V1, V2. reflexivity.
Qed.
(* ---- what each phase leaves alone ---- *)
Definition appf (s : rst) := (saw_JFIF s, jf_maj s, jf_min s, dunit s, xdens s, ydens s, saw_Adobe s, transform s).
Definition fr (s : rst) := (saw_SOI s, saw_SOF s, prog s, arith s, lossless s, precision s, height s, width s, ncomp s, comps s).
Definition ar (s : rst) := (aL s, aU s, aK s).
Lemma keepT_fr s s' : keepT s s' -> fr s' = fr s /\ appf s' = appf s /\ ar s' = ar s /\ ri s' = ri s /\ proc_app s' = proc_app s.
Proof. intros (q & d & a & x & u & ->). split; [reflexivity|]. split; [reflexivity|]. split; [reflexivity|]. split; reflexivity. Qed.
Definition sosrd (s : rst) (o : list Z) (s' : rst) : Prop := exists n, (n <= length o)%nat /\ forall f rest, read_loop (n + f) s (o ++ rest) = ROk REACHED_SOS s' rest.
Lemma rd_sosrd s o1 s1 o2 s2 : rd s o1 s1 -> sosrd s1 o2 s2 -> sosrd s (o1 ++ o2) s2.
Proof. intros (_ & n & L & A) (m & M & B). exists (n + m)%nat. split; [rewrite app_length; lia|]. intros f rest. rewrite <- app_assoc, <- Nat.add_assoc. rewrite A. apply B. Qed.
Lemma sosrd_markers s o s' : sosrd s o s' -> forall rest, read_markers s (o ++ rest) = ROk REACHED_SOS s' rest.
Proof. intros (n & L & A) rest. unfold read_markers. rewrite app_length. replace (2 + (length o + length rest))%nat with (n + (2 + length o + length rest - n))%nat by lia. apply A. Qed.

Lemma qlen_sized (l : list (option (list Z))) : (forall n t, nth_error l n = Some (Some t) -> length t = 64%nat) <-> Forall qlen l.
Proof.
  split.
  - intros H. apply Forall_forall. intros x Hx. apply In_nth_error in Hx. destruct Hx as (n & E). destruct x; cbn; [eapply H; exact E|exact I].
  - intros H n t E. exact (Forall_nth_error _ _ _ _ H E).
Qed.
Lemma mk_J c s : legal_params c -> sized s -> saw_SOI s = true -> tables_synced c s -> J c s.
Proof.
  intros LP (Z1 & Z2 & Z3 & Z4 & _) S T. destruct LP. constructor; auto. now apply qlen_sized.
Qed.
Lemma J_sized c s : J c s -> length (aL s) = 16%nat -> length (aU s) = 16%nat -> length (aK s) = 16%nat -> sized s.
Proof. intros H A B C. destruct H. split; [assumption|]. split; [now apply qlen_sized|]. auto. Qed.
Lemma keepC_settings c s c' s' r : ph c s c' s' -> same_settings c (put_last_ri c' r).
Proof. intros P. destruct (p_c _ _ _ _ P) as (q & d & a & ->). destruct (p_v _ _ _ _ P) as (V1 & V2 & V3). split; [exists q, d, a, r; reflexivity|]. split; [exact V1|]. split; [exact V2|exact V3]. Qed.
Lemma ss_refl c : same_settings c c. Proof. split; [exists (x_q c), (x_dc c), (x_ac c), (x_last_ri c); destruct c; reflexivity|]. split; [reflexivity|]. split; reflexivity. Qed.
Lemma ss_trans a b c : same_settings a b -> same_settings b c -> same_settings a c.
Proof. intros ((q & d & x & r & ->) & A1 & A2 & A3) ((q' & d' & x' & r' & ->) & B1 & B2 & B3). split; [exists q', d', x', r'; reflexivity|]. split; [etransitivity; eassumption|]. split; etransitivity; eassumption. Qed.

Lemma paired_link D0 A0 : forall ps pre D A, Forall (fun p => 0 <= c_dc p /\ 0 <= c_ac p) ps ->
  (forall n, 0 <= n -> D n = D0 n || existsb (fun q => n =? c_dc q) pre) -> (forall n, 0 <= n -> A n = A0 n || existsb (fun q => n =? c_ac q) pre) ->
  (forall k p, nth_error (pre ++ ps) k = Some p -> D0 (c_dc p) = true \/ (exists j q, (j < k)%nat /\ nth_error (pre ++ ps) j = Some q /\ c_dc q = c_dc p) ->
     A0 (c_ac p) = true \/ (exists j q, (j < k)%nat /\ nth_error (pre ++ ps) j = Some q /\ c_ac q = c_ac p)) -> paired ps D A.
Proof.
  induction ps as [|p ps IH]; intros pre D A HF HD HA H; [exact I|]. inversion HF as [|x y (P1 & P2) HF']; subst. cbn [paired]. split.
  - intros X. rewrite HD in X by exact P1. rewrite HA by exact P2. apply orb_true_iff.
    assert (E : nth_error (pre ++ p :: ps) (length pre) = Some p) by (rewrite nth_error_app2, Nat.sub_diag by lia; reflexivity).
    destruct (H _ _ E) as [Y|(j & q & J1 & J2 & J3)].
    + apply orb_true_iff in X. destruct X as [X|X]; [now left|right]. apply existsb_exists in X. destruct X as (q & Hq & Eq). apply Z.eqb_eq in Eq. apply In_nth_error in Hq. destruct Hq as (j & Ej). exists j, q. pose proof (nth_lt _ _ _ Ej). split; [assumption|]. split; [rewrite nth_error_app1 by assumption; exact Ej|now symmetry].
    + now left.
    + right. apply existsb_exists. exists q. rewrite nth_error_app1 in J2 by exact J1. split; [eapply nth_error_In; exact J2|]. apply Z.eqb_eq. now symmetry.
  - apply (IH (pre ++ [p])); [exact HF'| | |].
    + intros n Hn. rewrite HD by exact Hn. rewrite existsb_app. cbn [existsb]. rewrite orb_false_r. now rewrite orb_assoc.
    + intros n Hn. rewrite HA by exact Hn. rewrite existsb_app. cbn [existsb]. rewrite orb_false_r. now rewrite orb_assoc.
    + rewrite <- app_assoc. exact H.
Qed.
(* ---- the tables of a scan ---- *)
Definition wsh_tables (c : wst) : outcome (wst * list Z) :=
  if x_arith c then o <- emit_dac c ;; Ret (c, o)
  else '(ok, c, o) <- emit_multi_dht c ;; if (ok : bool) then Ret (c, o) else ps <- scan_comps c ;; dht_all ps c.
Definition arith_has (c : wst) (s : rst) (p : comp) : Prop :=
  (need_dc c = true -> nth_error (aL s) (Z.to_nat (c_dc p)) = nth_error (x_L c) (Z.to_nat (c_dc p)) /\ nth_error (aU s) (Z.to_nat (c_dc p)) = nth_error (x_U c) (Z.to_nat (c_dc p))) /\
  (need_ac c = true -> nth_error (aK s) (Z.to_nat (c_ac p)) = nth_error (x_K c) (Z.to_nat (c_ac p))).
Definition huff_sent (c c' : wst) (p : comp) : Prop := (need_dc c || x_lossless c = true -> dc_sent c' (c_dc p)) /\ (need_ac c && negb (x_lossless c) = true -> ac_sent c' (c_ac p)).
Lemma need_dc_iff c : need_dc c = true <-> x_Ss c = 0 /\ x_Ah c = 0. Proof. unfold need_dc. rewrite andb_true_iff, !Z.eqb_eq. reflexivity. Qed.
Lemma need_ac_iff c : need_ac c = true <-> x_Se c <> 0. Proof. unfold need_ac. rewrite negb_true_iff, Z.eqb_neq. reflexivity. Qed.
Lemma wsh_tables_ok c s ps : legal_params c -> legal_scan_params c -> scan_tables c -> paired_tables c ->
  Forall2 (fun a p => nth_error (x_comps c) (Z.to_nat a) = Some p) (x_scan c) ps -> scan_comps c = Ret ps ->
  J c s -> length (aL s) = 16%nat -> length (aU s) = 16%nat -> length (aK s) = 16%nat -> unread s = 0 ->
  exists c' o s', wsh_tables c = Ret (c', o) /\ rd s o s' /\ J c' s' /\ same_settings c (put_last_ri c' (x_last_ri c)) /\ c' = put_last_ri c' (x_last_ri c) /\ fr s' = fr s /\ appf s' = appf s /\ ri s' = ri s /\
    length (aL s') = 16%nat /\ length (aU s') = 16%nat /\ length (aK s') = 16%nat /\
    mono c c' /\ (x_arith c = true -> Forall (arith_has c s') ps) /\ (x_arith c = false -> Forall (huff_sent c c') ps).
Proof.
  intros LP LS ST PT F2 HP HJ L1 L2 L3 HU. unfold wsh_tables.
  assert (LEN : length ps = length (x_scan c)) by (clear -F2; induction F2; cbn; lia).
  assert (PL : Forall (legal_wcomp (x_arith c)) ps).
  { apply Forall_forall. intros p Hp. apply In_nth_error in Hp. destruct Hp as (k & Ek). apply (f2_kth c ps F2) in Ek. destruct Ek as (a & _ & Ep). exact (Forall_nth_error _ _ _ _ (lp_c _ LP) Ep). }
  destruct (x_arith c) eqn:EA.
  - destruct (emit_dac_ok c s ps LP (j_soi _ _ HJ) HU L1 L2 L3 HP) as (o & s' & E & R & (L & U & K & x & Es & X1 & X2 & X3) & AH).
    { eapply Forall_impl; [|exact PL]. intros p (_ & _ & _ & _ & A5 & A6). lia. }
    rewrite E. cbn [bind]. exists c, o, s'. split; [reflexivity|]. split; [exact R|]. split; [rewrite Es; destruct HJ; constructor; assumption|].
    assert (C1 : c = put_last_ri c (x_last_ri c)) by (destruct c; reflexivity). split; [rewrite <- C1; apply ss_refl|]. split; [exact C1|]. rewrite Es. split; [reflexivity|]. split; [reflexivity|]. split; [reflexivity|]. split; [exact X1|]. split; [exact X2|]. split; [exact X3|]. split; [split; [auto|]; split; auto|]. split; [|discriminate].
    intros _. rewrite Es in AH. exact AH.
  - assert (RDY : Forall (fun p => (need_dc c || x_lossless c = true -> h_ready false c (c_dc p)) /\ (need_ac c && negb (x_lossless c) = true -> h_ready true c (c_ac p))) ps).
    { apply Forall_forall. intros p Hp. pose proof (proj1 (Forall_forall _ _) PL p Hp) as (_ & _ & _ & _ & A5 & A6). apply In_nth_error in Hp. destruct Hp as (k & Ek). apply (f2_kth c ps F2) in Ek. destruct (ST EA k p Ek) as [T1 T2].
      split; intros X.
      - split; [lia|]. apply T1. apply orb_true_iff in X. destruct X as [X|X]; [left; now apply need_dc_iff|now right].
      - split; [lia|]. apply T2. apply andb_true_iff in X. destruct X as [X Y]. split; [now apply need_ac_iff|now apply negb_true_iff]. }
    assert (SC : Forall scomp_ok ps) by (eapply Forall_impl; [|exact PL]; intros p (_ & _ & _ & _ & A5 & A6); split; lia).
    destruct (x_fastest c) eqn:EF.
    + unfold emit_multi_dht. rewrite EF. cbn [bind]. rewrite HP. cbn [bind].
      destruct (dht_all_ok ps c s HJ HU RDY) as (c' & o & s' & E & P & R & SE). rewrite E. exists c', o, s'. split; [reflexivity|]. split; [exact R|]. split; [exact (p_J _ _ _ _ P)|].
      split; [exact (keepC_settings _ _ _ _ _ P)|]. split; [destruct (p_c _ _ _ _ P) as (q & d & a & ->); destruct c; reflexivity|].
      destruct (keepT_fr _ _ (p_s _ _ _ _ P)) as (K1 & K2 & K3 & K4 & K5). injection K3 as K6 K7 K8. split; [exact K1|]. split; [exact K2|]. split; [exact K4|]. rewrite K6, K7, K8. split; [assumption|]. split; [assumption|]. split; [assumption|]. split; [exact (p_m _ _ _ _ P)|]. split; [discriminate|]. intros _. exact SE.
    + assert (NL : x_lossless c = false) by (destruct (x_lossless c) eqn:EL; [destruct (ls_lossless _ LS EL); congruence|reflexivity]).
      destruct (multi_dht_ok c s ps HJ HU HP) as (c' & o & s' & E & P & R & SE); auto.
      * pose proof (ls_n _ LS). lia.
      * eapply Forall_impl; [|exact RDY]. cbn beta. rewrite NL. cbn [negb]. intros p [A B]. rewrite orb_false_r, andb_true_r in *. auto.
      * intros N1 N2. apply (paired_link (sentb false c) (sentb true c) ps []); [eapply Forall_impl; [|exact SC]; intros p [A B]; lia|intros; cbn; now rewrite orb_false_r|intros; cbn; now rewrite orb_false_r|].
        cbn [app]. intros k p Ek HD. apply need_dc_iff in N1. apply need_ac_iff in N2. apply (f2_kth c ps F2) in Ek.
        destruct (PT EF EA (proj1 N1) (proj2 N1) N2 k p Ek) as [X|(j & q & Q1 & Q2 & Q3)].
        -- destruct HD as [X|(j & q & Q1 & Q2 & Q3)]; [left; now apply (sentb_iff false)|right; exists j, q; split; [exact Q1|]; split; [now apply (f2_kth c ps F2)|exact Q3]].
        -- left. now apply (sentb_iff true).
        -- right. exists j, q. split; [exact Q1|]. split; [now apply (f2_kth c ps F2)|exact Q3].
      * rewrite E. cbn [bind]. exists c', o, s'. split; [reflexivity|]. split; [exact R|]. split; [exact (p_J _ _ _ _ P)|].
        split; [exact (keepC_settings _ _ _ _ _ P)|]. split; [destruct (p_c _ _ _ _ P) as (q & d & a & ->); destruct c; reflexivity|].
        destruct (keepT_fr _ _ (p_s _ _ _ _ P)) as (K1 & K2 & K3 & K4 & K5). injection K3 as K6 K7 K8. split; [exact K1|]. split; [exact K2|]. split; [exact K4|]. rewrite K6, K7, K8. split; [assumption|]. split; [assumption|]. split; [assumption|]. split; [exact (p_m _ _ _ _ P)|]. split; [discriminate|]. intros _.
        eapply Forall_impl; [|exact SE]. cbn beta. intros p [A B]. unfold huff_sent. rewrite NL. cbn [negb]. rewrite orb_false_r, andb_true_r. auto.
Qed.
Lemma ss_fields c c' : same_settings c c' -> x_comps c' = x_comps c /\ x_scan c' = x_scan c /\ x_Ss c' = x_Ss c /\ x_Se c' = x_Se c /\ x_Ah c' = x_Ah c /\ x_Al c' = x_Al c /\ x_ri c' = x_ri c /\
  x_arith c' = x_arith c /\ x_lossless c' = x_lossless c /\ x_prog c' = x_prog c /\ x_prec c' = x_prec c /\ x_height c' = x_height c /\ x_width c' = x_width c /\ x_L c' = x_L c /\ x_U c' = x_U c /\ x_K c' = x_K c /\ x_fastest c' = x_fastest c.
Proof. intros ((q & d & a & r & ->) & _). repeat (split; [reflexivity|]). reflexivity. Qed.
Lemma kth_ss c c' k p : same_settings c c' -> kth c' k p <-> kth c k p.
Proof. intros H. destruct (ss_fields _ _ H) as (A & B & _). unfold kth. rewrite A, B. reflexivity. Qed.
Lemma each_hp (l l' : list (option htab)) : map (option_map (fun h => (h_bits h, h_val h))) l' = map (option_map (fun h => (h_bits h, h_val h))) l -> Each legal_htab l -> Each legal_htab l'.
Proof.
  intros E H n x X. pose proof (nth_map_eq _ _ _ n E) as Y. rewrite X in Y. cbn in Y. destruct (nth_error l n) as [[y|]|] eqn:Ey; cbn in Y; try discriminate. injection Y as Y1 Y2. specialize (H _ _ Ey). unfold legal_htab, ncodes in *. rewrite Y1, Y2. exact H.
Qed.
Lemma ss_legal c c' : same_settings c c' -> legal_params c -> legal_params c'.
Proof.
  intros H L. destruct H as ((q & d & a & r & Ec) & V1 & V2 & V3). 
  assert (E1 : length (x_q c') = length (x_q c)) by (rewrite <- (map_length (option_map q_val)), V1; apply map_length).
  assert (E2 : length (x_dc c') = length (x_dc c)) by (rewrite <- (map_length (option_map (fun h => (h_bits h, h_val h)))), V2; apply map_length).
  assert (E3 : length (x_ac c') = length (x_ac c)) by (rewrite <- (map_length (option_map (fun h => (h_bits h, h_val h)))), V3; apply map_length).
  destruct L as [? lp_q4]. constructor; try (rewrite Ec; assumption); try congruence; try (eapply each_hp; eassumption).
  intros n x X. pose proof (nth_map_eq _ _ _ n V1) as Y. rewrite X in Y. cbn in Y. destruct (nth_error (x_q c) n) as [[y|]|] eqn:Ey; cbn in Y; try discriminate. injection Y as Y. unfold legal_qtab. rewrite Y. exact (lp_q4 _ _ Ey).
Qed.
Lemma wsh_ok c s : legal_params c -> legal_scan_params c -> scan_tables c -> paired_tables c -> in_step c s ->
  exists c' o s', write_scan_header c = Ret (c', o) /\ sosrd s o s' /\ in_step c' s' /\ same_settings c c' /\ appf s' = appf s /\ scan_restored c' s' /\ mono c c'.
Proof.
  intros LP LS ST PT (FS & TS & SZ & HU). destruct (scan_ps c LS) as (ps & HP & F2). pose proof FS as (I1 & I2 & I3 & I4 & I5 & I6 & I7 & I8 & I9 & (cs & I10 & I11) & I12). pose proof SZ as (_ & _ & _ & _ & Z5 & Z6 & Z7).
  destruct (wsh_tables_ok c s ps LP LS ST PT F2 HP (mk_J c s LP SZ I1 TS) Z5 Z6 Z7 HU) as (c1 & o1 & s1 & E1 & R1 & J1 & SS1 & EC1 & Q1 & Q2 & Q3 & Q4 & Q5 & Q6 & MM & Q7 & Q8).
  unfold write_scan_header. fold (wsh_tables c). rewrite E1. cbn [bind]. rewrite <- EC1 in SS1.
  destruct (ss_fields _ _ SS1) as (X1 & X2 & X3 & X4 & X5 & X6 & X7 & X8 & X9 & X10 & X11 & X12 & X13 & X14 & X15 & X16 & X17).
  set (c2 := put_last_ri c1 (x_ri c1)).
  assert (SS2 : same_settings c c2). { destruct SS1 as ((q & d & a & r & ->) & V1 & V2 & V3). split; [exists q, d, a, (x_ri c); reflexivity|]. split; [exact V1|]. split; [exact V2|exact V3]. }
  assert (LR : x_last_ri c1 = x_last_ri c) by (rewrite EC1; reflexivity).
  injection Q1 as G1 G2 G3 G4 G5 G6 G7 G8 G9 G10.
  (* DRI *)
  assert (D : exists o2 s2, (if negb (x_ri c1 =? x_last_ri c1) then (c2, emit_dri c1) else (c1, [])) = (c2, o2) /\ rd s1 o2 s2 /\ exists x, s2 = set_unread (set_ri (set_disc s1 x) (x_ri c)) 0).
  { destruct (Z.eqb_spec (x_ri c1) (x_last_ri c1)) as [EQ|NE]; cbn [negb].
    - exists [], s1. split; [f_equal; subst c2; rewrite EQ, LR, <- EC1; reflexivity|]. split; [apply rd_refl; apply R1|]. exists (disc s1). pose proof (proj1 R1) as U. assert (W : ri s1 = x_ri c) by congruence. rewrite <- W, <- U. destruct s1; reflexivity.
    - eexists _, _. split; [reflexivity|]. split; [apply dri_ok; [congruence|apply R1|pose proof (lp_ri _ LP); lia]|]. exists 0. rewrite X7. reflexivity. }
  destruct D as (o2 & s2 & -> & R2 & x & Es2).
  assert (LP2 : legal_params c2) by (eapply ss_legal; eassumption).
  assert (LS2 : legal_scan_params c2).
  { destruct LS. destruct (ss_fields _ _ SS2) as (Y1 & Y2 & Y3 & Y4 & Y5 & Y6 & Y7 & Y8 & Y9 & Y10 & Y11 & Y12 & Y13 & Y14 & Y15 & Y16 & Y17). constructor; rewrite ?Y1, ?Y2, ?Y3, ?Y4, ?Y5, ?Y6, ?Y7, ?Y8, ?Y9, ?Y17; assumption. }
  assert (F2' : Forall2 (fun a p => nth_error (x_comps c2) (Z.to_nat a) = Some p) (x_scan c2) ps) by (change (x_comps c2) with (x_comps c1); change (x_scan c2) with (x_scan c1); rewrite X1, X2; exact F2).
  assert (HP2 : scan_comps c2 = Ret ps) by (unfold scan_comps in *; change (x_comps c2) with (x_comps c1); change (x_scan c2) with (x_scan c1); rewrite X1, X2; exact HP).
  destruct (sos_ok c2 s2 cs ps LP2 LS2 F2' HP2) as (o3 & cs' & y & E3 & C1 & C2 & C3).
  { subst s2. cbn. congruence. } { subst s2. cbn. congruence. } { apply R2. } { subst s2. cbn. congruence. } { change (x_comps c2) with (x_comps c1). rewrite X1. exact I11. } { subst s2. cbn. change (x_comps c2) with (x_comps c1). congruence. }
  rewrite E3. cbn [bind]. eexists c2, (o1 ++ o2 ++ o3), _. split; [reflexivity|]. split.
  { eapply rd_sosrd; [exact R1|]. eapply rd_sosrd; [exact R2|]. exists 1%nat. split; [|exact C3]. unfold emit_sos in E3. rewrite HP2 in E3. cbn [bind] in E3. injection E3 as <-. cbn [length app emit_marker emit_byte]. lia. }
  assert (TS2 : tables_synced c2 s2) by (subst s2; exact (j_sync _ _ J1)).
  split.
  { split; [|split; [|split; [|reflexivity]]].
    - subst s2. unfold frame_synced. cbn [saw_SOI saw_SOF prog arith lossless precision height width ncomp comps ri set_unread set_scan_no set_next_rst set_rAl set_rAh set_rSe set_rSs set_comps set_cur set_nscan set_disc set_ri].
      change (x_prog c2) with (x_prog c1); change (x_arith c2) with (x_arith c1); change (x_lossless c2) with (x_lossless c1); change (x_prec c2) with (x_prec c1); change (x_height c2) with (x_height c1); change (x_width c2) with (x_width c1); change (x_comps c2) with (x_comps c1).
      split; [congruence|]. split; [congruence|]. split; [congruence|]. split; [congruence|]. split; [intros; rewrite G5, X9; apply I5; congruence|]. split; [congruence|]. split; [congruence|]. split; [congruence|]. split; [congruence|]. split; [exists cs'; split; [reflexivity|exact C1]|]. cbn. now rewrite X7.
    - subst s2. exact TS2.
    - subst s2. pose proof (J_sized _ _ J1 Q4 Q5 Q6) as (H1 & H2 & H3 & H4 & H5). split; [exact H1|]. split; [exact H2|]. split; [exact H3|]. split; [exact H4|]. exact H5. }
  split; [exact SS2|]. split; [subst s2; exact Q2|].
  split; [|exact MM]. unfold scan_restored.
  split; [reflexivity|]. split; [reflexivity|]. split; [reflexivity|]. split; [reflexivity|]. split; [reflexivity|]. split; [reflexivity|]. split; [subst s2; cbn; now rewrite X7|].
  intros k p Hk. destruct Hk as (a & Ea & Ep). destruct (C2 a p (nth_error_In _ _ Ea) Ep) as (r & Er & SR & D1 & D2).
  exists cs', a, r. split; [reflexivity|]. split; [exact Ea|]. split; [exact Er|]. split; [exact SR|].
  assert (HPk : In p ps). { apply (nth_error_In _ k). apply (f2_kth c2 ps F2'). exists a; auto. }
  assert (ND : forall v, (x_Ss c2 = 0 /\ x_Ah c2 = 0) -> (if need_dc c2 then v else 0) = v) by (intros v H; rewrite (proj2 (need_dc_iff c2) H); reflexivity).
  split. { intros [H|H]; [rewrite D1; now apply ND|]. destruct (ls_lossless _ LS2 H) as (_ & _ & _ & H0). rewrite D1, (H0 a p (nth_error_In _ _ Ea) Ep). destruct (need_dc c2); reflexivity. }
  split. { intros [H _]. rewrite D2, (proj2 (need_ac_iff c2) H). reflexivity. }
  assert (NDC : need_dc c2 = need_dc c) by (unfold need_dc; change (x_Ss c2) with (x_Ss c1); change (x_Ah c2) with (x_Ah c1); rewrite X3, X5; reflexivity).
  assert (NAC : need_ac c2 = need_ac c) by (unfold need_ac; change (x_Se c2) with (x_Se c1); rewrite X4; reflexivity).
  pose proof (proj1 (Forall_forall _ _) (lp_c _ LP2) p (nth_error_In _ _ Ep)) as (_ & _ & _ & _ & RG1 & RG2).
  destruct TS2 as (_ & T2 & T3).
  split. { intros A U. assert (A0 : x_arith c = false) by (rewrite <- X8; exact A). pose proof (proj1 (Forall_forall _ _) (Q8 A0) p HPk) as [HS _]. subst s2. apply T2; [lia|]. apply HS. apply orb_true_iff. destruct U as [U|U]; [left; rewrite <- NDC; now apply need_dc_iff|right; rewrite <- X9; exact U]. }
  split. { intros A U. assert (A0 : x_arith c = false) by (rewrite <- X8; exact A). pose proof (proj1 (Forall_forall _ _) (Q8 A0) p HPk) as [_ HS]. subst s2. apply T3; [lia|]. apply HS. apply andb_true_iff. destruct U as [U1 U2]. split; [rewrite <- NAC; now apply need_ac_iff|rewrite <- X9; change (x_lossless c1) with (x_lossless c2); now rewrite U2]. }
  split. { intros A [U|U]. 
    - assert (A0 : x_arith c = true) by (rewrite <- X8; exact A). pose proof (proj1 (Forall_forall _ _) (Q7 A0) p HPk) as [HS _]. subst s2. change (x_L c2) with (x_L c1). change (x_U c2) with (x_U c1). rewrite X14, X15. apply HS. rewrite <- NDC. now apply need_dc_iff.
    - destruct (ls_lossless _ LS2 U) as (_ & B & _). congruence. }
  intros A [U _]. assert (A0 : x_arith c = true) by (rewrite <- X8; exact A). pose proof (proj1 (Forall_forall _ _) (Q7 A0) p HPk) as [_ HS]. subst s2. change (x_K c2) with (x_K c1). rewrite X16. apply HS. rewrite <- NAC. now apply need_ac_iff.
Qed.
