(* P_LossDec.v -- the lossless Huffman decoder reads back what the encoder writes *)
From Verif Require Import Base M_HuffTbl M_Source M_BitRead M_HuffEnc M_LossHuff S_Huff S_Stream S_Block S_LossHuff P_HuffTbl P_HuffTblD P_BitRead P_HuffSym P_HuffDec
  P_Marker P_HuffEnc P_HuffScan P_EncTbl P_Round P_RoundScan P_LossHuff.

(* a sample's table on the decoder side *)
Definition dtbl_ok (t : JHUFF_TBL) (dt : d_derived_tbl) : Prop :=
  huff_type_ok t = true /\ code_space_ok (hbits t) /\ d_inv t dt.
Definition tsmp (x : JHUFF_TBL * Z) : lsmp := mkSmp (table_code (hbits (fst x)) (hval (fst x))) (snd x).
Definition tcoded (x : JHUFF_TBL * Z) : Prop := has_code (hbits (fst x)) (hval (fst x)) (Z.of_nat (category (diff16 (snd x)))).

Lemma ref_sym_inv bits vals S p s q b : ref_sym bits vals S p = (s, q, b) ->
  fst (dec_symbol bits vals S p) = s /\ snd (dec_symbol bits vals S p) = q /\ (b = true -> forall W, sym_warn bits S p W = W).
Proof.
  unfold ref_sym, sym_warn. intros H. inversion H. split; auto. split; auto. destruct (code_at bits S p); auto. discriminate.
Qed.

Lemma decode_diff_enc c W p x dt (s : dst unit) : dtbl_ok (fst x) dt -> tcoded x -> inv c W p p s -> starts (cS c) p (enc_smp (tsmp x)) ->
  wp (decode_diff dt) s (fun v s' => v = diff16 (snd x) /\ inv c W (p + length (enc_smp (tsmp x))) (p + length (enc_smp (tsmp x))) s') (susp_post c s).
Proof.
  intros (Ht & Hc & Hd) Hcd HI Hst. destruct x as [t d]. unfold tcoded, tsmp, enc_smp in *. cbn [fst snd ls_code ls_diff] in *.
  set (v := diff16 d) in *. destruct (starts_app _ _ _ _ Hst) as [S1 S2].
  pose proof (ref_sym_code _ _ _ _ _ Hc Hcd S1) as HR. destruct (ref_sym_inv _ _ _ _ _ _ _ HR) as (R1 & R2 & R3).
  unfold decode_diff. apply wp_bind. eapply wp_mono; [apply (huff_decode_spec t dt Ht Hc Hd c W p s HI)| |auto].
  cbn beta. intros sy s1 (U1 & -> & I1). rewrite (R3 eq_refl) in I1. rewrite R1, R2 in *. rewrite app_length.
  destruct (Z.eqb_spec (Z.of_nat (category v)) 0) as [E0|E0].
  - assert (Ev : v = 0) by (apply category_0; lia). unfold wp, dret. rewrite Ev in *. split; [reflexivity|]. cbn [Z.eqb]. cbn [length extra_bits].
    replace (length (extra_bits 0)) with 0%nat by reflexivity. rewrite Nat.add_0_r. exact I1.
  - destruct (Z.eqb_spec (Z.of_nat (category v)) 16) as [E16|E16].
    + assert (Ev : v = 32768) by (apply cat16_iff; fold v; lia). unfold wp, dret. rewrite Ev in *. split; [reflexivity|]. cbn [length Z.eqb]. rewrite Nat.add_0_r. exact I1.
    + assert (N : v <> 32768) by (intros Ev; apply E16; rewrite Ev; reflexivity). destruct (Z.eqb_spec v 32768); [congruence|]. rewrite length_extra.
      pose proof (cat16 d) as C16. fold v in C16.
      assert (G : wp (check_bit_buffer (Z.of_nat (category v)) ;~ (r <~ get_bits (Z.of_nat (category v)) ;; dret (HUFF_EXTEND r (Z.of_nat (category v))))) s1
        (fun v0 s' => v0 = v /\ inv c W (p + length (table_code (hbits t) (hval t) (Z.of_nat (category v))) + category v) (p + length (table_code (hbits t) (hval t) (Z.of_nat (category v))) + category v) s')
        (susp_post c s1)).
      { assert (Ea : forall s0, (check_bit_buffer (Z.of_nat (category v)) ;~ (r <~ get_bits (Z.of_nat (category v)) ;; dret (HUFF_EXTEND r (Z.of_nat (category v))))) s0 =
           ((r <~ (check_bit_buffer (Z.of_nat (category v)) ;~ get_bits (Z.of_nat (category v))) ;; dret (HUFF_EXTEND r (Z.of_nat (category v))) : DM unit Z) s0)).
        { intros s0. unfold dbind. destruct (check_bit_buffer _ s0) as [[? ?|?]| |]; reflexivity. }
        eapply wp_run; [apply Ea|]. apply wp_bind. eapply wp_mono; [apply (take_spec c W _ (category v) s1 I1); lia| |auto].
        cbn beta. intros r s2 (-> & I2 & U2). unfold wp, dret. split; [|exact I2].
        unfold starts in S2. rewrite length_extra in S2. rewrite S2.
        rewrite HUFF_EXTEND_spec; [apply extend_extra; intros E; apply E0; rewrite E; reflexivity|lia|].
        pose proof (bval_range (extra_bits v)) as R. rewrite length_extra in R. exact R. }
      rewrite Nat.add_assoc. eapply wp_mono; [exact G|auto|].
      intros s2 (Q1 & Q2 & Q3 & Q4 & Q5). unfold susp_post. repeat split; auto. congruence.
Qed.

(* inside a segment that is followed by a marker there is no suspension *)
Definition mcu_pair (x : JHUFF_TBL * Z) (dt : d_derived_tbl) : Prop := dtbl_ok (fst x) dt /\ tcoded x.

Lemma ldecode_mcu_enc c W : cT c <> None -> forall m dts p (s : dst unit), Forall2 mcu_pair m dts -> inv c W p p s ->
  starts (cS c) p (enc_lmcu (map tsmp m)) ->
  exists s', ldecode_mcu dts s = Ret (Done (map (fun x => diff16 (snd x)) m) s') /\
    inv c W (p + length (enc_lmcu (map tsmp m))) (p + length (enc_lmcu (map tsmp m))) s'.
Proof.
  intros HT. induction m as [|x m IH]; intros dts p s HF HI Hst; inversion HF as [|? dt ? dts' [H1 H2] HF']; subst; cbn [ldecode_mcu map enc_lmcu flat_map].
  - exists s. unfold dret. cbn [length]. rewrite Nat.add_0_r. auto.
  - cbn [map enc_lmcu flat_map] in Hst. fold (enc_lmcu (map tsmp m)) in *. destruct (starts_app _ _ _ _ Hst) as [S1 S2].
    pose proof (decode_diff_enc c W p x dt s H1 H2 HI S1) as G. unfold wp in G. unfold dbind at 1.
    destruct (decode_diff dt s) as [[v s1|s1]| |]; try contradiction; [|exfalso; apply HT; apply G].
    destruct G as [-> I1]. destruct (IH dts' _ s1 HF' I1 S2) as (s2 & E2 & I2). unfold dbind. rewrite E2. unfold dret. exists s2. split; [reflexivity|].
    rewrite app_length, Nat.add_assoc. exact I2.
Qed.

Lemma ldecode_loop_enc c W : cT c <> None -> forall ms dms p (s : dst unit), Forall2 (Forall2 mcu_pair) ms dms -> inv c W p p s ->
  starts (cS c) p (enc_lrow (map (map tsmp) ms)) ->
  exists s', ldecode_loop dms s = Ret (map (map (fun x => diff16 (snd x))) ms, s') /\
    inv c W (p + length (enc_lrow (map (map tsmp) ms))) (p + length (enc_lrow (map (map tsmp) ms))) s'.
Proof.
  intros HT. induction ms as [|m ms IH]; intros dms p s HF HI Hst; inversion HF as [|? dm ? dms' H1 HF']; subst; cbn [ldecode_loop map enc_lrow flat_map].
  - exists s. cbn [length]. rewrite Nat.add_0_r. auto.
  - cbn [map enc_lrow flat_map] in Hst. fold (enc_lrow (map (map tsmp) ms)) in *. destruct (starts_app _ _ _ _ Hst) as [S1 S2].
    destruct (ldecode_mcu_enc c W HT m dm p s H1 HI S1) as (s1 & E1 & I1). rewrite E1.
    destruct (IH dms' _ s1 HF' I1 S2) as (s2 & E2 & I2). rewrite E2. cbn [bind]. exists s2. split; [reflexivity|].
    rewrite app_length, Nat.add_assoc. exact I2.
Qed.

Lemma F2_length {A B} (R : A -> B -> Prop) l l' : Forall2 R l l' -> length l = length l'.
Proof. induction 1; cbn; auto. Qed.

Lemma inv_start src D tl g w : src_ok src -> ssusp src = false -> seg false false (src_bytes src) = (D, Some tl) ->
  inv (mkCtx (zstream (bytes_to_bits D)) (length (bytes_to_bits D)) (Some tl) false) w 0 0 (mkD g 0 src 0 false w tt).
Proof.
  intros H1 H2 H3. constructor; cbn [bleft dsrc insuff unread warns cS cL cT cU]; unfold abits, tail, sseg; cbn [bleft dsrc insuff unread gbuf Z.eqb Z.to_nat bits_of app];
    rewrite ?H2, ?H3; cbn [fst snd]; auto; try lia; try discriminate.
Qed.

Section Scan.
Variables (rr : nat) (m : Z) (rest : list Z).
Hypothesis Hm0 : m <> 0.
Hypothesis Hm1 : m <> 255.
Variable mpr : nat.
Hypothesis Hmpr : (1 <= mpr)%nat.
Hypothesis Hri : Z.of_nat (rr * mpr) < 2 ^ 32.

Definition lrest (i : Z) (l : list (list (list lsmp))) : list Z :=
  join_rst i (map segf (intervals (S (length l)) rr l)) ++ 255 :: m :: rest.
Definition ltail (i : Z) (l : list (list (list lsmp))) : option (Z * list Z) :=
  match l with [] => Some (m, rest) | _ => Some (208 + i mod 8, lrest (i + 1) l) end.

Lemma lseg_rest i l : exists D pad,
  seg false false (lrest i l) = (D, ltail i (skipn (flen rr l) l)) /\ bytes_to_bits D = enc_lrows (firstn (flen rr l) l) ++ pad.
Proof.
  unfold lrest. rewrite join_unfold. unfold segf at 1.
  destruct (segment_bits (enc_lrows (firstn (flen rr l) l))) as (D & pad & E1 & E2 & _). exists D, pad. split; [|exact E2]. rewrite E1.
  unfold after, ltail. destruct (skipn (flen rr l) l) as [|x y] eqn:Es.
  - rewrite app_nil_r. apply seg_stuff; auto.
  - rewrite <- !app_assoc. cbn [app]. pose proof (Z.mod_pos_bound i 8 ltac:(lia)). rewrite seg_stuff by lia. reflexivity.
Qed.

Definition dec_rows_of (rows : list (list (list (JHUFF_TBL * Z)))) := map (map (map tsmp)) rows.

Lemma ldecode_rows_spec : forall rows drows h t i c W p,
  Forall2 (Forall2 (Forall2 mcu_pair)) rows drows -> 0 <= i ->
  inv c W p p (ld_st h) -> cU c = false -> cT c = ltail i (skipn t (dec_rows_of rows)) ->
  starts (cS c) p (enc_lrows (firstn t (dec_rows_of rows))) -> (p + length (enc_lrows (firstn t (dec_rows_of rows))) <= cL c)%nat ->
  ld_num h = i mod 8 -> (rr <> 0%nat -> ld_togo h = Z.of_nat t /\ (t <= rr)%nat) -> (rr = 0%nat -> (length rows <= t)%nat) ->
  exists out h', ldecode_rows (Z.of_nat (rr * mpr)) (Z.of_nat rr) drows h = Ret (out, h', true) /\
    map fst out = map (map (map (fun x => diff16 (snd x)))) rows /\
    forall j r z, nth_error out j = Some (r, z) -> z = (if (rr =? 0)%nat then false else (if (j <? t)%nat then false else ((j - t) mod rr =? 0)%nat)).
Proof.
  induction rows as [|row rows IH]; intros drows h t i c W p HF Hi HI HU HT Hst HL Hnum Htg Ht0; inversion HF as [|? drow ? drows' H1 HF']; subst.
  - exists [], h. split; [reflexivity|]. split; [reflexivity|]. intros j r z. destruct j; discriminate.
  - cbn [ldecode_rows].
    assert (Hr0 : Z.of_nat (rr * mpr) = 0 <-> rr = 0%nat) by (split; intros; nia).
    assert (Body : forall h1 t1 i1 c1 W1 p1 (rst : bool), inv c1 W1 p1 p1 (ld_st h1) -> cU c1 = false -> cT c1 = ltail i1 (skipn t1 (dec_rows_of rows)) -> 0 <= i1 ->
        starts (cS c1) p1 (enc_lrow (map (map tsmp) row) ++ enc_lrows (firstn t1 (dec_rows_of rows))) ->
        (p1 + length (enc_lrow (map (map tsmp) row) ++ enc_lrows (firstn t1 (dec_rows_of rows))) <= cL c1)%nat ->
        ld_num h1 = i1 mod 8 -> (rr <> 0%nat -> ld_togo h1 = Z.of_nat (S t1) /\ (S t1 <= rr)%nat) -> (rr = 0%nat -> (length rows <= t1)%nat) ->
        exists out h', ('(ls, z, e) <- decode_mcus drow (ld_st h1) ;;
           let h2 := mkLD' e (ld_togo h1) (ld_num h1) (ld_disc h1) in
           if negb (length ls =? length drow)%nat then Ret ([], h2, false)
           else
             let h3 := mkLD' e (if Z.of_nat (rr * mpr) =? 0 then ld_togo h1 else u32 (ld_togo h1 - 1)) (ld_num h1) (ld_disc h1) in
             '(out, h', ok') <- ldecode_rows (Z.of_nat (rr * mpr)) (Z.of_nat rr) drows' h3 ;;
             Ret ((ls, rst || z) :: out, h', ok')) = Ret ((map (map (fun x => diff16 (snd x))) row, rst) :: out, h', true) /\
          map fst out = map (map (map (fun x => diff16 (snd x)))) rows /\
          forall j r z, nth_error out j = Some (r, z) -> z = (if (rr =? 0)%nat then false else (if (j <? t1)%nat then false else ((j - t1) mod rr =? 0)%nat))).
    { intros h1 t1 i1 c1 W1 p1 rst K1 K2 K3 Ki K4 K5 K6 K7 K8. destruct (starts_app _ _ _ _ K4) as [S1 S2]. rewrite app_length in K5.
      assert (Hin : insuff (ld_st h1) = false) by (rewrite (i_ins _ _ _ _ _ K1); apply Nat.ltb_ge; lia).
      unfold decode_mcus. rewrite Hin.
      assert (HN : cT c1 <> None) by (rewrite K3; unfold ltail; destruct (skipn t1 (dec_rows_of rows)); intros HX; discriminate HX).
      destruct (ldecode_loop_enc c1 W1 HN row drow p1 (ld_st h1) H1 K1 S1) as (s1 & E1 & I1). rewrite E1. cbn [bind]. cbn zeta.
      rewrite map_length. rewrite (F2_length _ _ _ H1), Nat.eqb_refl. cbn [negb].
      set (h3 := mkLD' _ _ _ _).
      destruct (IH drows' h3 t1 i1 c1 W1 (p1 + length (enc_lrow (map (map tsmp) row)))%nat HF' Ki I1 K2 K3 S2 ltac:(lia) K6) as (out & h' & E2 & O1 & O2).
      { intros N. destruct (K7 N) as [A B]. unfold h3. cbn [ld_togo]. destruct (Z.eqb_spec (Z.of_nat (rr * mpr)) 0) as [X|X]; [exfalso; apply N; apply Hr0; exact X|].
        split; [|lia]. rewrite A, u32_id; [lia|]. nia. }
      { exact K8. }
      rewrite E2. cbn [bind]. rewrite orb_false_r. exists out, h'. auto. }
    destruct (Nat.eq_dec rr 0) as [Er|Er].
    + rewrite (proj2 Hr0 Er) in *. cbn [Z.eqb negb andb bind]. specialize (Ht0 Er). cbn [length] in Ht0. destruct t as [|t]; [lia|].
      destruct (Body h t i c W p false HI HU HT Hi Hst HL Hnum ltac:(congruence) ltac:(lia)) as (out & h' & E & O1 & O2). cbn [Z.eqb] in E. rewrite E.
      eexists; eexists. split; [reflexivity|]. cbn [map fst]. split; [f_equal; exact O1|]. intros j r z Hj. rewrite Er in *. cbn [Nat.eqb].
      destruct j as [|j]; cbn [nth_error] in Hj; [inversion Hj; reflexivity|]. apply (O2 j r z Hj).
    + destruct (Z.eqb_spec (Z.of_nat (rr * mpr)) 0) as [X|X]; [exfalso; apply Er; apply Hr0; exact X|]. cbn [negb andb].
      destruct (Htg Er) as [Htg1 Htg2]. destruct (Z.eqb_spec (ld_togo h) 0) as [Et|Et].
      * assert (t = 0%nat) by lia. subst t. cbn [skipn firstn dec_rows_of map ltail] in *.
        unfold lprocess_restart.
        pose proof (read_restart_marker_spec (unread (ld_st h)) (dsrc (ld_st h)) (ld_disc h + bleft (ld_st h) / 8) (ld_num h) (i_src _ _ _ _ _ HI) ltac:(rewrite Hnum; apply Z.mod_pos_bound; lia)) as HR.
        pose proof (i_tail _ _ _ _ _ HI) as Htl. rewrite HT in Htl. unfold tail, sseg in Htl.
        pose proof (i_susp _ _ _ _ _ HI) as Hsu. rewrite HU in Hsu.
        unfold next_tail in HR. rewrite Htl in HR. rewrite Hsu in *.
        assert (Href : restart_ref false (208 + i mod 8) (lrest (i + 1) (map (map tsmp) row :: map (map (map tsmp)) rows)) (ld_num h) = Some (0, lrest (i + 1) (map (map tsmp) row :: map (map (map tsmp)) rows))).
        { unfold restart_ref. rewrite Hnum, Z.eqb_refl. reflexivity. }
        destruct (read_restart_marker _ _ _ _) as [[[[[un s'] d'] num'] [|]]|]; [|destruct HR as (_ & _ & HR & _); discriminate|contradiction].
        destruct HR as (R1 & R2 & R3 & m' & r' & R4 & R5). replace m' with (208 + i mod 8) in R5 by congruence. replace r' with (lrest (i + 1) (map (map tsmp) row :: map (map (map tsmp)) rows)) in R5 by congruence. rewrite Href in R5. inversion R5 as [[R6 R7]]. subst un.
        cbn [bind negb Z.eqb].
        destruct (lseg_rest (i + 1) (map (map tsmp) row :: map (map (map tsmp)) rows)) as (D & pad & E1 & E2).
        assert (Ef : flen rr (map (map tsmp) row :: map (map (map tsmp)) rows) = rr) by (unfold flen; destruct (Nat.eqb_spec rr 0); [congruence|auto]).
        rewrite Ef in E1, E2. destruct rr as [|rr'] eqn:Err; [congruence|]. rewrite <- Err in *. rewrite Err in E1, E2. cbn [firstn skipn enc_lrows flat_map] in E1, E2.
        fold (enc_lrows (firstn rr' (map (map (map tsmp)) rows))) in E2.
        assert (ET : exists tl, ltail (i + 1) (skipn rr' (map (map (map tsmp)) rows)) = Some tl) by (unfold ltail; destruct (skipn _ _); eauto).
        destruct ET as (tl & ET). rewrite ET in E1.
        rewrite R7 in E1.
        set (h1 := mkLD' _ _ _ _).
        destruct (Body h1 rr' (i + 1) _ (warns (ld_st h)) 0%nat true (inv_start s' D tl (gbuf (ld_st h)) (warns (ld_st h)) R2 R3 E1)) as (out & h' & E & O1 & O2).
        { reflexivity. }
        { cbn [cT]. rewrite <- ET. reflexivity. }
        { lia. }
        { cbn [cS]. rewrite E2. apply (starts_zstream []). }
        { cbn [cL]. rewrite E2, (app_length _ pad). apply Nat.le_add_r. }
        { unfold h1. cbn [ld_num]. rewrite R1, Hnum. now rewrite Z.add_mod_idemp_l by lia. }
        { intros _. unfold h1. cbn [ld_togo]. rewrite Err. split; lia. }
        { intros; congruence. }
        rewrite E. eexists; eexists. split; [reflexivity|]. cbn [map fst]. split; [f_equal; exact O1|].
        intros j r z Hj. destruct (Nat.eqb_spec rr 0); [congruence|]. cbn [Nat.ltb Nat.leb]. rewrite Nat.sub_0_r.
        destruct j as [|j]; cbn [nth_error] in Hj; [inversion Hj; rewrite Nat.mod_0_l by lia; reflexivity|].
        rewrite (O2 j r z Hj). destruct (Nat.eqb_spec rr 0); [congruence|]. destruct (Nat.ltb_spec j rr') as [Hlt|Hge].
        -- rewrite Nat.mod_small by lia. reflexivity.
        -- f_equal. replace (S j) with ((j - rr') + 1 * rr)%nat by lia. rewrite Nat.mod_add by lia. reflexivity.
      * cbn [bind negb]. destruct t as [|t]; [lia|].
        destruct (Body h t i c W p false HI HU HT Hi Hst HL Hnum ltac:(intros _; lia) ltac:(congruence)) as (out & h' & E & O1 & O2).
        destruct (Z.eqb_spec (Z.of_nat (rr * mpr)) 0); [congruence|].
        eexists; eexists. split; [exact E|]. cbn [map fst]. split; [f_equal; exact O1|]. intros j r z Hj. destruct (Nat.eqb_spec rr 0); [congruence|].
        destruct j as [|j]; cbn [nth_error] in Hj; [inversion Hj; reflexivity|]. rewrite (O2 j r z Hj). destruct (Nat.eqb_spec rr 0); [congruence|].
        cbn [Nat.sub]. destruct (Nat.ltb_spec j t); destruct (Nat.ltb_spec (S j) (S t)); try lia; reflexivity.
Qed.

Lemma ldecode_scan_spec rows drows src : Forall2 (Forall2 (Forall2 mcu_pair)) rows drows -> src_ok src -> ssusp src = false ->
  src_bytes src = lscan_bytes rr (dec_rows_of rows) ++ 255 :: m :: rest ->
  exists out h', ldecode_scan (Z.of_nat (rr * mpr)) (Z.of_nat mpr) drows src = Ret (out, h', true) /\
    map fst out = map (map (map (fun x => diff16 (snd x)))) rows /\
    forall j r z, nth_error out j = Some (r, z) -> z = (if (rr =? 0)%nat then false else (if (j <? rr)%nat then false else (j mod rr =? 0)%nat)).
Proof.
  intros HF Hso Hsu Hb. unfold ldecode_scan. destruct (Z.eqb_spec (Z.of_nat mpr) 0); [lia|].
  assert (Em : Z.of_nat (rr * mpr) mod Z.of_nat mpr = 0) by (rewrite Nat2Z.inj_mul; apply Z.mod_mul; lia). rewrite Em. cbn [Z.eqb negb].
  assert (Ed : Z.of_nat (rr * mpr) / Z.of_nat mpr = Z.of_nat rr) by (rewrite Nat2Z.inj_mul; apply Z.div_mul; lia). rewrite Ed.
  change (lscan_bytes rr (dec_rows_of rows) ++ 255 :: m :: rest) with (lrest 0 (dec_rows_of rows)) in Hb.
  destruct (lseg_rest 0 (dec_rows_of rows)) as (D & pad & E1 & E2).
  assert (ET : exists tl, ltail 0 (skipn (flen rr (dec_rows_of rows)) (dec_rows_of rows)) = Some tl) by (unfold ltail; destruct (skipn _ _); eauto).
  destruct ET as (tl & ET). rewrite ET, <- Hb in E1.
  destruct (ldecode_rows_spec rows drows (mkLD' (mkD 0 0 src 0 false [] tt) (Z.of_nat rr) 0 0) (flen rr (dec_rows_of rows)) 0 _ [] 0%nat HF ltac:(lia) (inv_start src D tl 0 [] Hso Hsu E1)) as (out & h' & E & O1 & O2).
  { reflexivity. } { cbn [cT]. auto. } { cbn [cS]. rewrite E2. apply (starts_zstream []). } { cbn [cL]. rewrite E2, app_length. lia. } { reflexivity. }
  { intros N. unfold flen. cbn [ld_togo]. destruct (Nat.eqb_spec rr 0); [congruence|]. auto. }
  { intros ->. unfold flen, dec_rows_of. cbn. rewrite map_length. lia. }
  exists out, h'. split; [exact E|]. split; [exact O1|]. intros j r z Hj. rewrite (O2 j r z Hj). destruct (Nat.eqb_spec rr 0); auto.
  unfold flen. destruct (Nat.eqb_spec rr 0); [congruence|]. destruct (Nat.ltb_spec j rr); auto. f_equal.
  replace j with ((j - rr) + 1 * rr)%nat at 2 by lia. rewrite Nat.mod_add by lia. reflexivity.
Qed.
End Scan.
