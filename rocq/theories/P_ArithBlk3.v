(* P_ArithBlk3.v -- MCUs, segments, scans *)
From Verif Require Import Base M_HuffDec S_Block P_Gather P_Trellis P_Arith P_Arith2 P_Arith3 M_Arith M_ArithBlk S_Prog P_ArithBlk P_ArithBlk2.

Lemma tblK p t : pvalid p -> 0 <= t < 16 -> aget (aacK p) t = Ret (g (aacK p) t).
Proof. intros V H. apply aget_g. rewrite (pv_K p V). lia. Qed.

Lemma ac_first_ok p tbl Ss Se Al src blk : pvalid p -> 0 <= tbl < 16 -> 1 <= Ss <= Se -> Se <= 63 -> 0 <= Al -> length src = 64%nat -> (forall i, 0 <= i < 64 -> -32768 <= g src (no i) <= 32767) ->
  length blk = 64%nat -> (forall i, Ss <= i <= Se -> g blk (no i) = 0) ->
  sat (fun ds => Forall okc ds /\ exists new, (forall rest, ans (dec_ac_first p tbl Ss Se Al blk) (ds ++ rest) = Some (new, rest)) /\ after_from src Al Se Ss blk new) (enc_ac_first p tbl Ss Se Al src).
Proof.
  intros V HT HS HSe HAl SL SR LB B0. unfold enc_ac_first, dec_ac_first. destruct (find_ke_ok src SL 65 Se Al ltac:(lia) ltac:(lia)) as (ke & -> & K1 & K2 & K3). cbn [bind]. rewrite (tblK p tbl V HT). cbn [bind lift tbind].
  apply (ac_ok src (ACB tbl) Al Se SL SR HAl ltac:(lia) ltac:(unfold ACB; lia) (g (aacK p) tbl) ke K1 K2 K3); try lia; assumption.
Qed.

Lemma ac_refine_ok tbl Ss Se Al src blk : 0 <= tbl < 16 -> 1 <= Ss <= Se -> Se <= 63 -> 0 <= Al <= 13 -> length src = 64%nat -> (forall i, 0 <= i < 64 -> -32768 <= g src (no i) <= 32767) ->
  before_from src Al Se Ss blk ->
  sat (fun ds => Forall okc ds /\ exists new, (forall rest, ans (dec_ac_refine tbl Ss Se Al blk) (ds ++ rest) = Some (new, rest)) /\ after_from src Al Se Ss blk new) (enc_ac_refine tbl Ss Se (Al + 1) Al src).
Proof.
  intros HT HS HSe HAl SL SR BF. unfold enc_ac_refine, dec_ac_refine. destruct (find_ke_ok src SL 65 Se Al ltac:(lia) ltac:(lia)) as (ke & -> & K1 & K2 & K3). cbn [bind].
  destruct (find_ke_ok src SL 65 ke (Al + 1) ltac:(lia) ltac:(lia)) as (kexe & -> & X1 & X2 & X3). cbn [bind].
  destruct (kex_ok src Al Se SL Ss blk BF 65 Se ltac:(lia) ltac:(lia)) as (kexd & -> & Y1 & Y2 & Y3). cbn [lift tbind]. pose proof BF as [LB BF'].
  apply (acr_ok src (ACB tbl) Al Se SL SR ltac:(lia) ltac:(lia) ltac:(unfold ACB; lia) Ss ltac:(lia) ltac:(lia) ke kexe kexd K1 K2 K3 ltac:(lia)); try lia; [|exact BF].
  intros k Hk. destruct (Z.ltb_spec kexe k) as [A|A]; destruct (Z.ltb_spec kexd k) as [B|B]; try reflexivity; exfalso.
  - assert (NZ : mag (Al + 1) (g src (no kexd)) <> 0). { intros E. apply (Y3 ltac:(lia)). rewrite BF' by lia. apply mag_zero_at; [lia|exact E]. }
    destruct (Z.le_gt_cases kexd ke) as [C|C]; [apply NZ; apply X2; lia|]. apply NZ. rewrite (mag_half src Al SL). rewrite K2 by lia. reflexivity.
  - apply (X3 ltac:(lia)). apply (at_zero_mag src SL); try lia. rewrite <- BF' by lia. apply Y2. lia.
Qed.

Definition blk_ok (p : ascan) (s o : Z * list Z) : Prop :=
  fst s = fst o /\ 0 <= fst s < len (acomps p) /\ block_src (snd s) /\ block_before (aSs p) (aSe p) (aAh p) (snd s) (snd o) /\ (aSs p = 0 -> -16384 <= zz (snd s) 0 <= 16383).
Definition mcu_ok (p : ascan) (ss os : mcu) : Prop := Forall2 (blk_ok p) ss os /\ (aSs p <> 0 -> length ss = 1%nat).
Definition mcu_after (p : ascan) (ss os : mcu) (news : list (list Z)) : Prop :=
  Forall2 (fun so new => block_after (aSs p) (aSe p) (aAl p) (fst so) (snd so) new) (combine (map snd ss) (map snd os)) news.

Lemma no0 : no 0 = 0. Proof. reflexivity. Qed.
Lemma s16_cong x y : x mod 65536 = y mod 65536 -> s16 x = s16 y.
Proof. intros E. unfold s16. change (2 ^ 16) with 65536. rewrite <- (Zplus_mod_idemp_l x), E, Zplus_mod_idemp_l. reflexivity. Qed.
Lemma upd0 blk x i : length blk = 64%nat -> 0 <= i < 64 -> g (upd blk (Z.to_nat 0) x) (no i) = if 0 =? i then x else g blk (no i).
Proof. intros L H. rewrite <- no0 at 1. apply no_upd; lia. Qed.
Lemma after_at src Al Se Ss blk new : 1 <= Ss -> after_from src Al Se Ss blk new -> block_after Ss Se Al src blk new.
Proof.
  intros H (L & A). split; [exact L|]. intros i Hi. rewrite !zz_g, (A i Hi). destruct (Z.leb_spec Ss i); destruct (i <=? Se); cbn [andb]; try reflexivity. unfold at_prec. destruct (Z.eqb_spec i 0); [lia|reflexivity].
Qed.
Lemma dc_shift_range c Al : 0 <= Al -> -16384 <= c <= 16383 -> -16384 <= Z.shiftr c Al <= 16383.
Proof.
  intros H1 H2. rewrite Z.shiftr_div_pow2 by lia. assert (0 < 2 ^ Al) by (apply Z.pow_pos_nonneg; lia). split; [apply Z.div_le_lower_bound; nia|apply Z.div_le_upper_bound; nia].
Qed.
Lemma dc_at_range c Al : 0 <= Al <= 13 -> -32768 <= c <= 32767 -> -32768 <= dc_at Al c <= 32767.
Proof.
  intros H1 H2. unfold dc_at. assert (P : 0 < 2 ^ Al) by (apply Z.pow_pos_nonneg; lia). pose proof (Z.mul_div_le c (2 ^ Al) P). split; [|lia].
  assert (E : 32768 = 2 ^ (15 - Al) * 2 ^ Al) by (rewrite <- Z.pow_add_r by lia; replace (15 - Al + Al) with 15 by lia; reflexivity).
  assert (- 2 ^ (15 - Al) <= c / 2 ^ Al) by (apply Z.div_le_lower_bound; lia). nia.
Qed.

Lemma blocks_ok p : pvalid p -> (aprog p = false \/ aAh p = 0 /\ aSs p = 0) -> forall ss os, Forall2 (blk_ok p) ss os -> forall cx, cxok p cx ->
  sat (fun '(ds, cx') => Forall okc ds /\ cxok p cx' /\ exists news, mcu_after p ss os news /\ forall rest, ans (dec_blocks p (dcx cx) os) (ds ++ rest) = Some ((news, dcx cx'), rest)) (enc_blocks p cx ss).
Proof.
  intros V HM. assert (MODE : 0 <= aAl p <= 13 /\ aSs p = 0 /\ (aprog p = false /\ aSe p = 63 /\ aAl p = 0 \/ aprog p = true /\ aSe p = 0) /\ aAh p = 0).
  { destruct (pv_mode p V) as [(A & B & C & D & E)|(A & B & C & D)]; [split; [lia|]; split; [exact B|]; split; [left; auto|exact D]|]. destruct HM as [HM|[HM1 HM2]]; [congruence|]. split; [lia|]. split; [exact HM2|]. split; [right; split; [exact A|destruct B; lia]|exact HM1]. }
  clear HM. destruct MODE as (HAl & HSs & MODE & HAh).
  induction 1 as [|[ci src] [ci' old] ss os (E1 & E2 & (SL & SR) & (LO & BO) & DC) F2 IH]; intros cx CX.
  - cbn [enc_blocks sat]. split; [constructor|]. split; [exact CX|]. exists []. split; [constructor|]. intros rest. reflexivity.
  - cbn [fst snd] in *. subst ci'. specialize (DC HSs). rewrite zz_g, no0 in DC. cbn [enc_blocks]. rewrite (aget_g src) by lia. cbn [bind].
    set (m := if aprog p then Z.shiftr (g src 0) (aAl p) else g src 0). assert (HMm : -16384 <= m <= 16383) by (unfold m; destruct (aprog p); [apply dc_shift_range; lia|exact DC]).
    eapply sat_bind; [apply (dc_ok p cx ci m V CX E2 HMm)|]. intros [d1 cx1] (D1 & D2 & D3). destruct (comp_get p ci V E2) as (dt & at' & CG & _ & HAT). rewrite CG. cbn [bind].
    set (dcv := s16 (if aprog p then Z.shiftl (dmod m) (aAl p) else dmod m)).
    assert (DV : dcv = dc_at (aAl p) (g src 0)).
    { unfold dcv, m, dmod. assert (SG : s16r (g src 0)) by (unfold s16r; lia). destruct MODE as [(-> & _ & EA)|(-> & _)].
      - rewrite EA. unfold dc_at. change (2 ^ 0) with 1. rewrite Z.div_1_r, Z.mul_1_r. rewrite <- (s16_id (g src 0) SG) at 2. apply s16_cong. apply Z.mod_mod. lia.
      - pose proof (dc_at_range (g src 0) (aAl p) HAl ltac:(lia)) as R. rewrite <- (s16_id (dc_at (aAl p) (g src 0))) by (unfold s16r; lia). apply s16_cong. unfold dc_at. rewrite Z.shiftl_mul_pow2, Z.shiftr_div_pow2 by lia. apply Zmult_mod_idemp_l. }
    set (blk1 := upd old (Z.to_nat 0) dcv). assert (L1 : length blk1 = 64%nat) by (unfold blk1; rewrite length_upd; exact LO).
    assert (Q : sat (fun d2 => Forall okc d2 /\ exists new, (forall rest, ans (if aprog p then Done blk1 else dec_ac_first p at' 1 63 0 blk1) (d2 ++ rest) = Some (new, rest)) /\ block_after (aSs p) (aSe p) (aAl p) src old new) (if aprog p then Ret [] else enc_ac_first p at' 1 63 0 src)).
    { destruct MODE as [(-> & MSe & EA)|(-> & MSe)].
      - eapply sat_imp; [apply (ac_first_ok p at' 1 63 0 src blk1 V HAT); try lia; try assumption|].
        + intros i Hi. rewrite <- zz_g. apply SR. exact Hi.
        + intros i Hi. unfold blk1. rewrite upd0 by lia. destruct (Z.eqb_spec 0 i); [lia|]. rewrite <- zz_g, (BO i) by lia. rewrite HAh. reflexivity.
        + intros d2 (Q1 & new & Q2 & Q3 & Q4). split; [exact Q1|]. exists new. split; [exact Q2|]. split; [exact Q3|]. intros i Hi. rewrite !zz_g, (Q4 i Hi). rewrite HSs, MSe, EA. destruct (Z.leb_spec 0 i); [|lia]. destruct (Z.leb_spec i 63); [|lia]. cbn [andb]. unfold at_prec. rewrite andb_true_r. destruct (Z.leb_spec 1 i); destruct (Z.eqb_spec i 0); try lia.
          unfold blk1. rewrite upd0 by lia. destruct (Z.eqb_spec 0 i); [|lia]. rewrite DV, EA. replace i with 0 by lia. reflexivity.
      - cbn [sat]. split; [constructor|]. exists blk1. split; [intros rest; reflexivity|]. split; [exact L1|]. intros i Hi. rewrite !zz_g, HSs, MSe. unfold blk1. rewrite upd0 by lia. destruct (Z.leb_spec 0 i); [|lia]. cbn [andb]. destruct (Z.leb_spec i 0); destruct (Z.eqb_spec 0 i); try lia. subst i. unfold at_prec. cbn [Z.eqb]. rewrite no0. exact DV. }
    eapply sat_bind; [exact Q|]. intros d2 (Q1 & new & Q2 & Q3). eapply sat_bind; [apply (IH cx1 D2)|]. intros [d3 cx2] (R1 & R2 & news & R3 & R4). cbn [sat].
    split; [apply Forall_app; split; [exact D1|]; apply Forall_app; split; assumption|]. split; [exact R2|]. exists (new :: news). split; [constructor; [exact Q3|exact R3]|].
    intros rest. cbn [dec_blocks]. rewrite <- !app_assoc. rewrite ans_bind, D3. fold dcv. rewrite (aset_ok old 0 dcv) by lia. fold blk1. rewrite CG. cbn [lift tbind]. rewrite ans_bind, Q2. rewrite ans_bind, R4. reflexivity.
Qed.

Lemma dc_refine_ok p : pvalid p -> aprog p = true -> aSs p = 0 -> aAh p <> 0 -> forall ss os, Forall2 (blk_ok p) ss os ->
  sat (fun ds => Forall okc ds /\ exists news, mcu_after p ss os news /\ forall rest, ans (dec_dc_refine p os) (ds ++ rest) = Some (news, rest)) (enc_dc_refine p ss).
Proof.
  intros V HP HSs HAh. destruct (pv_mode p V) as [(A & _)|(_ & B & C & D)]; [congruence|]. assert (HSe : aSe p = 0) by lia. assert (EA : aAh p = aAl p + 1) by lia.
  induction 1 as [|[ci src] [ci' old] ss os (E1 & E2 & (SL & SR) & (LO & BO) & DC) F2 IH].
  - cbn [enc_dc_refine sat]. split; [constructor|]. exists []. split; [constructor|]. reflexivity.
  - cbn [fst snd] in *. cbn [enc_dc_refine]. rewrite (aget_g src) by lia. cbn [bind]. eapply sat_bind; [exact IH|]. intros ds (I1 & news & I2 & I3). cbn [sat]. split; [constructor; [unfold okc, FIX; cbn [fst]; lia|exact I1]|].
    set (b := negb (Z.land (Z.shiftr (g src 0) (aAl p)) 1 =? 0)).
    pose proof (BO 0 ltac:(lia) ltac:(lia)) as B0. destruct (Z.eqb_spec (aAh p) 0) as [Y|_]; [contradiction|]. rewrite !zz_g, no0 in B0. unfold at_prec in B0. cbn [Z.eqb] in B0. rewrite EA in B0.
    pose proof (SR 0 ltac:(lia)) as R0. rewrite zz_g, no0 in R0. set (c := g src 0) in *. assert (P : 0 < 2 ^ aAl p) by (apply Z.pow_pos_nonneg; lia).
    assert (PA : 2 ^ (aAl p + 1) = 2 * 2 ^ aAl p) by (rewrite Z.pow_add_r by lia; change (2 ^ 1) with 2; lia).
    assert (NEW : (if b then s16 (Z.lor (g old 0) (Z.shiftl 1 (aAl p))) else g old 0) = dc_at (aAl p) c).
    { unfold b. change 1 with (Z.ones 1) at 1. rewrite Z.land_ones, Z.shiftr_div_pow2 by lia. change (2 ^ 1) with 2. rewrite B0. unfold dc_at at 1 2.
      assert (DQ : c / 2 ^ (aAl p + 1) = c / 2 ^ aAl p / 2) by (rewrite PA, Z.div_div by lia; f_equal; lia). pose proof (Z.div_mod (c / 2 ^ aAl p) 2 ltac:(lia)) as DM. pose proof (Z.mod_pos_bound (c / 2 ^ aAl p) 2 ltac:(lia)) as DB.
      destruct (Z.eqb_spec ((c / 2 ^ aAl p) mod 2) 0) as [Y|Y]; cbn [negb].
      - rewrite DQ, PA. unfold dc_at. set (q := c / 2 ^ aAl p) in *. assert (q = 2 * (q / 2)) as E by lia. rewrite E at 2. ring.
      - rewrite <- (Z.shiftl_mul_pow2 _ (aAl p + 1)) by lia. rewrite Z.shiftl_1_l, lor_shiftl_add by lia. assert (E : c / 2 ^ (aAl p + 1) * 2 ^ (aAl p + 1) + 2 ^ aAl p = dc_at (aAl p) c).
        { rewrite DQ, PA. unfold dc_at. set (q := c / 2 ^ aAl p) in *. assert (q = 2 * (q / 2) + 1) as E by lia. rewrite E at 2. ring. }
        rewrite E. apply s16_id. pose proof (dc_at_range c (aAl p) C R0). unfold s16r. lia. }
    exists (upd old (Z.to_nat 0) (dc_at (aAl p) c) :: news). split.
    + constructor; [|exact I2]. cbn [fst snd]. split; [rewrite length_upd; exact LO|]. intros i Hi. rewrite !zz_g, upd0 by lia. rewrite HSs, HSe. destruct (Z.leb_spec 0 i); [|lia]. cbn [andb]. destruct (Z.eqb_spec 0 i) as [<-|N]; [reflexivity|]. destruct (Z.leb_spec i 0); [lia|reflexivity].
    + intros rest. cbn [dec_dc_refine app]. fold b. rewrite ans_ask.
      assert (L : (if b then c0 <- aget old 0 ;; aset old 0 (s16 (Z.lor c0 (Z.shiftl 1 (aAl p)))) else Ret old) = Ret (upd old (Z.to_nat 0) (dc_at (aAl p) c))).
      { destruct b; [rewrite (aget_g old) by lia; cbn [bind]; rewrite aset_ok by lia; rewrite NEW; reflexivity|]. rewrite <- NEW. f_equal. symmetry. apply (upd_same old (Z.to_nat 0) 0). }
      rewrite L. cbn [lift tbind]. rewrite ans_bind, I3. reflexivity.
Qed.

Lemma enc_mcu_ok p ss os cx : pvalid p -> mcu_ok p ss os -> cxok p cx ->
  sat (fun '(ds, cx') => Forall okc ds /\ cxok p cx' /\ exists news, mcu_after p ss os news /\ forall rest, ans (dec_mcu p (dcx cx) os) (ds ++ rest) = Some ((news, dcx cx'), rest)) (enc_mcu p cx ss).
Proof.
  intros V (F & ONE) CX. unfold enc_mcu, dec_mcu. destruct (aprog p) eqn:HP; cbn [negb orb]; [|apply blocks_ok; [exact V|left; exact HP|exact F|exact CX]].
  destruct (Z.eqb_spec (aAh p) 0) as [EA|EA]; destruct (Z.eqb_spec (aSs p) 0) as [ES|ES]; cbn [andb].
  - apply blocks_ok; [exact V|right; auto|exact F|exact CX].
  - specialize (ONE ES). destruct ss as [|[ci src] [|? ?]]; try discriminate. inversion F as [|? [ci' old] ? os' (E1 & E2 & (SL & SR) & (LO & BO) & DC) F2]; subst. inversion F2; subst. cbn [fst snd] in *.
    destruct (pv_mode p V) as [(X & _)|(_ & B & C & D)]; [congruence|]. destruct (comp_get p 0 V ltac:(lia)) as (dt & at' & -> & _ & HAT). cbn [bind lift tbind].
    eapply sat_bind; [apply (ac_first_ok p at' (aSs p) (aSe p) (aAl p) src old V HAT); try lia; try assumption|].
    + intros i Hi. rewrite <- zz_g. apply SR. exact Hi.
    + intros i Hi. rewrite <- zz_g, (BO i) by lia. rewrite EA. reflexivity.
    + intros ds (Q1 & new & Q2 & Q3). cbn [sat]. split; [exact Q1|]. split; [exact CX|]. exists [new]. split; [constructor; [apply after_at; [lia|exact Q3]|constructor]|]. intros rest. rewrite ans_bind, Q2. reflexivity.
  - eapply sat_bind; [apply (dc_refine_ok p V HP ES EA ss os F)|]. intros ds (Q1 & news & Q2 & Q3). cbn [sat]. split; [exact Q1|]. split; [exact CX|]. exists news. split; [exact Q2|]. intros rest. rewrite ans_bind, Q3. reflexivity.
  - specialize (ONE ES). destruct ss as [|[ci src] [|? ?]]; try discriminate. inversion F as [|? [ci' old] ? os' (E1 & E2 & (SL & SR) & (LO & BO) & DC) F2]; subst. inversion F2; subst. cbn [fst snd] in *.
    destruct (pv_mode p V) as [(X & _)|(_ & B & C & D)]; [congruence|]. destruct (comp_get p 0 V ltac:(lia)) as (dt & at' & -> & _ & HAT). cbn [bind lift tbind]. assert (aAh p = aAl p + 1) as EA1 by lia. rewrite EA1.
    eapply sat_bind; [apply (ac_refine_ok at' (aSs p) (aSe p) (aAl p) src old HAT); try lia; try assumption|].
    + intros i Hi. rewrite <- zz_g. apply SR. exact Hi.
    + split; [exact LO|]. intros i Hi. rewrite <- !zz_g, (BO i) by lia. destruct (Z.eqb_spec (aAh p) 0); [contradiction|]. rewrite EA1. unfold at_prec. destruct (Z.eqb_spec i 0); [lia|]. reflexivity.
    + intros ds (Q1 & new & Q2 & Q3). cbn [sat]. split; [exact Q1|]. split; [exact CX|]. exists [new]. split; [constructor; [apply after_at; [lia|exact Q3]|constructor]|]. intros rest. rewrite ans_bind, Q2. reflexivity.
Qed.

(* ---- segments ---- *)
Fixpoint enc_mcus (p : ascan) (cx : actx) (l : list mcu) : outcome (decs * actx) :=
  match l with [] => Ret ([], cx) | b :: l => '(d1, cx) <- enc_mcu p cx b ;; '(d2, cx) <- enc_mcus p cx l ;; Ret (d1 ++ d2, cx) end.
Fixpoint dec_mcus (p : ascan) (cx : actx) (l : list mcu) : dtree (list (list (list Z)) * actx) :=
  match l with [] => Done ([], cx) | b :: l => tbind (dec_mcu p cx b) (fun '(n, cx) => tbind (dec_mcus p cx l) (fun '(ns, cx) => Done (n :: ns, cx))) end.
Definition scan_after (p : ascan) (sss oss : list mcu) (news : list (list (list Z))) : Prop :=
  Forall2 (fun so n => mcu_after p (fst so) (snd so) n) (combine sss oss) news.

Lemma mcus_ok p : pvalid p -> forall sss oss, Forall2 (mcu_ok p) sss oss -> forall cx, cxok p cx ->
  sat (fun '(ds, cx') => Forall okc ds /\ cxok p cx' /\ exists news, scan_after p sss oss news /\ ans (dec_mcus p (dcx cx) oss) ds = Some ((news, dcx cx'), [])) (enc_mcus p cx sss).
Proof.
  intros V. induction 1 as [|ss os sss oss M F IH]; intros cx CX; cbn [enc_mcus dec_mcus].
  - cbn [sat]. split; [constructor|]. split; [exact CX|]. exists []. split; [constructor|reflexivity].
  - eapply sat_bind; [apply (enc_mcu_ok p ss os cx V M CX)|]. intros [d1 cx1] (A1 & A2 & n & A3 & A4). eapply sat_bind; [apply (IH cx1 A2)|]. intros [d2 cx2] (B1 & B2 & ns & B3 & B4). cbn [sat].
    split; [apply Forall_app; auto|]. split; [exact B2|]. exists (n :: ns). split; [constructor; [exact A3|exact B3]|]. rewrite ans_bind, A4, ans_bind, B4. reflexivity.
Qed.

Lemma encode_all_app d1 d2 : forall e b, encode_all (d1 ++ d2) e b = bind (encode_all d1 e b) (fun '(e, b) => encode_all d2 e b).
Proof.
  induction d1 as [|[c v] d1 IH]; intros e b; [reflexivity|]. cbn [app encode_all]. destruct (aget b c); cbn [bind]; try reflexivity. destruct (arith_encode e a v) as [[e' sv]| |]; cbn [bind]; try reflexivity. destruct (aset b c sv); cbn [bind]; [apply IH|reflexivity|reflexivity].
Qed.
Lemma enc_scan_seg p : forall seg rest out e b cx togo num ds cx' e' b', (ariv p = 0 \/ len seg <= togo) -> enc_mcus p cx seg = Ret (ds, cx') -> encode_all ds e b = Ret (e', b') ->
  enc_scan p out e b cx togo num (seg ++ rest) = enc_scan p out e' b' cx' (togo - (if ariv p =? 0 then 0 else len seg)) num rest.
Proof.
  induction seg as [|m seg IH]; intros rest out e b cx togo num ds cx' e' b' HT E1 E2.
  - cbn in E1. injection E1 as <- <-. cbn in E2. injection E2 as <- <-. cbn [app length]. f_equal. destruct (ariv p =? 0); lia.
  - cbn [enc_mcus] in E1. destruct (enc_mcu p cx m) as [[d1 cx1]| |] eqn:EM; cbn [bind] in E1; try discriminate. destruct (enc_mcus p cx1 seg) as [[d2 cx2]| |] eqn:EMS; cbn [bind] in E1; try discriminate. injection E1 as <- <-.
    rewrite encode_all_app in E2. destruct (encode_all d1 e b) as [[e1 b1]| |] eqn:EE; cbn [bind] in E2; try discriminate. cbn [app enc_scan].
    assert (NR : negb (ariv p =? 0) && (togo =? 0) = false). { destruct (Z.eqb_spec (ariv p) 0); [reflexivity|]. destruct (Z.eqb_spec togo 0); [|reflexivity]. cbn [length] in HT. lia. }
    rewrite NR, EM. cbn [bind]. rewrite EE. cbn [bind]. cbn [length] in *. rewrite (IH rest out e1 b1 cx1 _ num d2 cx2 e' b'); [|destruct (Z.eqb_spec (ariv p) 0); lia|exact EMS|exact E2]. f_equal. destruct (ariv p =? 0); lia.
Qed.

Lemma run_tree_bind {A B} (t : dtree A) (f : A -> dtree B) : forall d b, run_tree (tbind t f) d b = bind (run_tree t d b) (fun r => match r with None => Ret None | Some (a, d, b) => run_tree (f a) d b end).
Proof.
  induction t as [a| | |c k IH]; intros d b; cbn [tbind run_tree bind]; try reflexivity. destruct (aget b c); cbn [bind]; try reflexivity. destruct (arith_decode d a) as [[[v sv] d']| |]; cbn [bind]; try reflexivity. destruct (aset b c sv); cbn [bind]; [apply IH|reflexivity|reflexivity].
Qed.
Lemma run_ans {A} : forall ds (t : dtree A) a d b d' b', ans t ds = Some (a, []) -> decode_all (map fst ds) d b = Ret (map snd ds, d', b') -> run_tree t d b = Ret (Some (a, d', b')).
Proof.
  induction ds as [|[c v] ds IH]; intros t a d b d' b' HA HD; destruct t as [a0| | |ctx k]; cbn [ans] in HA; try discriminate.
  - injection HA as ->. cbn in HD. injection HD as <- <-. reflexivity.
  - destruct (Z.eqb_spec c ctx) as [->|]; [|discriminate]. cbn [map fst snd decode_all] in HD. cbn [run_tree]. destruct (aget b ctx); cbn [bind] in *; try discriminate. destruct (arith_decode d a0) as [[[v' sv] d1]| |]; cbn [bind] in *; try discriminate. destruct (aset b ctx sv) as [b1| |]; cbn [bind] in *; try discriminate.
    destruct (decode_all (map fst ds) d1 b1) as [[[vs d2] b2]| |] eqn:ED; cbn [bind] in HD; try discriminate. injection HD as -> -> -> ->. apply (IH (k v) a d1 b1 d' b' HA ED).
Qed.
Lemma dec_scan_seg p : forall seg rest d b cx togo num news cx' d' b', (ariv p = 0 \/ len seg <= togo) -> run_tree (dec_mcus p cx seg) d b = Ret (Some ((news, cx'), d', b')) ->
  dec_scan p d b cx togo num (seg ++ rest) = bind (dec_scan p d' b' cx' (togo - (if ariv p =? 0 then 0 else len seg)) num rest) (fun r => match r with None => Ret None | Some (bl, d) => Ret (Some (news ++ bl, d)) end).
Proof.
  induction seg as [|m seg IH]; intros rest d b cx togo num news cx' d' b' HT E.
  - cbn in E. injection E as <- <- <- <-. cbn [app length]. replace (togo - (if ariv p =? 0 then 0 else Z.of_nat 0)) with togo by (destruct (ariv p =? 0); lia). destruct (dec_scan p d b cx togo num rest) as [[[bl dd]|]| |]; reflexivity.
  - cbn [dec_mcus] in E. rewrite run_tree_bind in E. cbn [app dec_scan].
    assert (NR : negb (ariv p =? 0) && (togo =? 0) = false). { destruct (Z.eqb_spec (ariv p) 0); [reflexivity|]. destruct (Z.eqb_spec togo 0); [|reflexivity]. cbn [length] in HT. lia. }
    rewrite NR. cbn [bind]. destruct (run_tree (dec_mcu p cx m) d b) as [[[[[n cx1] d1] b1]|]| |]; cbn [bind] in *; try discriminate. rewrite run_tree_bind in E. destruct (run_tree (dec_mcus p cx1 seg) d1 b1) as [[[[[ns cx2] d2] b2]|]| |] eqn:ES; cbn [bind run_tree] in E; try discriminate. injection E as <- <- <- <-.
    cbn [length] in *. rewrite (IH rest d1 b1 cx1 _ num ns cx2 d2 b2); [|destruct (Z.eqb_spec (ariv p) 0); lia|exact ES].
    replace (togo - (if ariv p =? 0 then 0 else 1) - (if ariv p =? 0 then 0 else len seg)) with (togo - (if ariv p =? 0 then 0 else Z.of_nat (S (length seg)))) by (destruct (ariv p =? 0); lia).
    destruct (dec_scan p d2 b2 cx2 _ num rest) as [[[bl dd]|]| |]; reflexivity.
Qed.

(* ---- from the end of the data the next marker is found ---- *)
Definition finds (d : dstate) (mk : Z) (tl : list Z) : Prop := (d_marker d = mk /\ d_in d = tl) \/ (d_marker d = 0 /\ scan_marker false (d_in d) = Ret (mk, tl)).
Lemma scan_stuff mk tl fill : mk <> 0 -> mk <> 255 -> forall l, scan_marker false (stuff l ++ 255 :: repeat 255 fill ++ mk :: tl) = Ret (mk, tl).
Proof.
  intros M0 MF. induction l as [|x l IH].
  - cbn [stuff flat_map app scan_marker]. change (255 =? 255) with true. cbv iota. induction fill as [|fill IH]; cbn [repeat app scan_marker]; [|change (255 =? 255) with true; cbv iota; exact IH]. destruct (Z.eqb_spec mk 255); [contradiction|]. destruct (Z.eqb_spec mk 0); [contradiction|]. reflexivity.
  - rewrite stuff_cons. destruct (Z.eqb_spec x 255) as [->|N]; cbn [app scan_marker].
    + change (255 =? 255) with true. change (0 =? 255) with false. change (0 =? 0) with true. cbv iota. exact IH.
    + destruct (Z.eqb_spec x 255); [contradiction|]. exact IH.
Qed.
Lemma mark_finds St fill mk tl d : mk <> 0 -> mk <> 255 -> mark_ok St fill mk tl d -> finds d mk tl.
Proof. intros M0 MF (M & [(A & B & C)|(A & B & C)]); [right; split; [exact A|]; rewrite C; apply scan_stuff; assumption|left; auto]. Qed.

Lemma bins0_ok : Forall binv bins0 /\ length bins0 = Z.to_nat 5121.
Proof.
  split; [|vm_compute; reflexivity]. unfold bins0. apply Forall_app. split; [apply Forall_forall; intros x Hx; apply repeat_spec in Hx; subst; split; [lia|vm_compute; reflexivity]|]. constructor; [split; [lia|vm_compute; reflexivity]|constructor].
Qed.
Lemma ctx0_ok p : cxok p (ctx0 p) /\ dcx (ctx0 p) = ctx0 p.
Proof.
  unfold ctx0, cxok, dcx. cbn [fst snd]. rewrite !map_length. split.
  - split; [reflexivity|]. split; [reflexivity|]. split; apply Forall_forall; intros x Hx; apply in_map_iff in Hx; destruct Hx as (y & <- & _); lia.
  - f_equal. rewrite map_map. reflexivity.
Qed.

Lemma combine_app_eq {A B} : forall (a1 a2 : list A) (b1 b2 : list B), len a1 = len b1 -> combine (a1 ++ a2) (b1 ++ b2) = combine a1 b1 ++ combine a2 b2.
Proof. induction a1 as [|x a1 IH]; intros a2 [|y b1] b2 H; cbn in H; try lia; [reflexivity|]. cbn [app combine]. f_equal. apply IH. lia. Qed.
Lemma F2len {A B} {R : A -> B -> Prop} {l l'} : Forall2 R l l' -> length l = length l'.
Proof. induction 1; cbn [length]; congruence. Qed.
(* one segment *)
Lemma segment_ok p sss oss : pvalid p -> Forall2 (mcu_ok p) sss oss ->
  exists ds cx e b, enc_mcus p (ctx0 p) sss = Ret (ds, cx) /\ encode_all ds e_init bins0 = Ret (e, b) /\
    forall fill mk tl, mk <> 0 -> mk <> 255 -> exists news cxd d bd, run_tree (dec_mcus p (ctx0 p) oss) (d_init (finish_pass e ++ 255 :: repeat 255 fill ++ mk :: tl)) bins0 = Ret (Some ((news, cxd), d, bd)) /\ scan_after p sss oss news /\ finds d mk tl.
Proof.
  intros V F. destruct (ctx0_ok p) as [C1 C2]. destruct bins0_ok as [B1 B2]. pose proof (mcus_ok p V sss oss F (ctx0 p) C1) as M. rewrite C2 in M.
  destruct (enc_mcus p (ctx0 p) sss) as [[ds cx]| |]; cbn [sat] in M; try contradiction. destruct M as (OK & _ & news & SA & AN). exists ds, cx.
  pose proof (encode_all_ok ds e_init 0 0 bins0 einv_init ltac:(cbn; lia) B1) as E. rewrite B2 in E. specialize (E ltac:(rewrite Z2Nat.id by lia; exact OK)).
  destruct (encode_all ds e_init bins0) as [[e b]| |]; cbn [sat] in E; try contradiction. destruct E as (L & n & R & EI & A & _ & _). exists e, b. split; [reflexivity|]. split; [reflexivity|].
  intros fill mk tl M0 MF. destruct (finish_ok e L n EI A) as (St & -> & SB & W).
  destruct (decode_all_ok St fill mk tl SB M0 MF ds 0 65536 0 bins0 L (e_a e) n b R W ltac:(lia) B1 _ (init_ready St fill mk tl SB M0 MF) (init_mark St fill mk tl M0 MF)) as (d & D & _ & MK).
  exists news, (dcx cx), d, b. split; [apply (run_ans ds _ _ _ _ _ _ AN D)|]. split; [exact SA|]. apply (mark_finds St fill); assumption.
Qed.

Lemma scan_ok p : pvalid p -> forall N sss oss num, (length sss <= N)%nat -> 0 <= num < 8 -> Forall2 (mcu_ok p) sss oss ->
  exists bytes, (forall out, enc_scan p out e_init bins0 (ctx0 p) (ariv p) num sss = Ret (out ++ bytes)) /\
    forall fill mk tl, mk <> 0 -> mk <> 255 -> exists news d, dec_scan p (d_init (bytes ++ 255 :: repeat 255 fill ++ mk :: tl)) bins0 (ctx0 p) (ariv p) num oss = Ret (Some (news, d)) /\ scan_after p sss oss news /\ finds d mk tl.
Proof.
  intros V. induction N as [N IH] using lt_wf_ind. intros sss oss num HN HNUM F. pose proof (F2len F) as LEN.
  destruct (Z.eqb_spec (ariv p) 0) as [R0|R0]; [|destruct (Z.leb_spec (len sss) (ariv p)) as [RL|RL]].
  1,2: destruct (segment_ok p sss oss V F) as (ds & cx & e & b & E1 & E2 & SEG); exists (finish_pass e); split;
    [intros out; rewrite <- (app_nil_r sss), (enc_scan_seg p sss [] out e_init bins0 (ctx0 p) (ariv p) num ds cx e b) by (auto; lia); reflexivity|];
    intros fill mk tl M0 MF; destruct (SEG fill mk tl M0 MF) as (news & cxd & d & bd & RT & SA & FD); exists news, d; split; [|split; assumption];
    rewrite <- (app_nil_r oss), (dec_scan_seg p oss [] _ bins0 (ctx0 p) (ariv p) num news cxd d bd) by (auto; lia); cbn [dec_scan bind]; rewrite app_nil_r; reflexivity.
  pose proof (pv_ri p V) as RP. set (k := Z.to_nat (ariv p)). assert (Hk : (0 < k < length sss)%nat) by (unfold k; lia).
  assert (F1 : Forall2 (mcu_ok p) (firstn k sss) (firstn k oss) /\ Forall2 (mcu_ok p) (skipn k sss) (skipn k oss)).
  { clear - F. generalize k. induction F as [|x y l l' H F IH]; intros [|n]; cbn [firstn skipn]; split; try constructor; try assumption; try apply IH. }
  destruct F1 as [F1 F2]. destruct (segment_ok p (firstn k sss) (firstn k oss) V F1) as (ds & cx & e & b & E1 & E2 & SEG).
  assert (LS : len (firstn k sss) = ariv p) by (rewrite firstn_length; unfold k; lia). assert (LO : len (firstn k oss) = ariv p) by (rewrite firstn_length; unfold k; lia).
  assert (NR : 0 <= Z.land (num + 1) 7 < 8) by (change 7 with (Z.ones 3); rewrite Z.land_ones by lia; apply Z.mod_pos_bound; lia).
  destruct (IH (length (skipn k sss)) ltac:(rewrite skipn_length; lia) (skipn k sss) (skipn k oss) (Z.land (num + 1) 7) ltac:(lia) NR F2) as (bytes & B1 & B2).
  exists (finish_pass e ++ [255; 208 + num] ++ bytes). split.
  - intros out. rewrite <- (firstn_skipn k sss), (enc_scan_seg p _ _ out e_init bins0 (ctx0 p) (ariv p) num ds cx e b) by (auto; lia). destruct (Z.eqb_spec (ariv p) 0); [contradiction|]. rewrite LS, Z.sub_diag.
    specialize (B1 (out ++ finish_pass e ++ [255; 208 + num])). destruct (skipn k sss) as [|m rest] eqn:ESK; [apply (f_equal (@length mcu)) in ESK; rewrite skipn_length in ESK; cbn in ESK; lia|].
    cbn [enc_scan] in B1 |- *. destruct (Z.eqb_spec (ariv p) 0) as [|_]; [contradiction|]. cbn [negb andb] in *. destruct (Z.eqb_spec 0 0); [|lia]. rewrite B1, <- !app_assoc. reflexivity.
  - intros fill mk tl M0 MF. destruct (SEG 0%nat (208 + num) (bytes ++ 255 :: repeat 255 fill ++ mk :: tl) ltac:(lia) ltac:(lia)) as (news1 & cxd & d1 & bd & RT & SA1 & FD1). cbn [repeat app] in RT.
    destruct (B2 fill mk tl M0 MF) as (news2 & d2 & DS2 & SA2 & FD2). exists (news1 ++ news2), d2. split; [|split; [|exact FD2]].
    + rewrite <- (firstn_skipn k oss). replace ((finish_pass e ++ [255; 208 + num] ++ bytes) ++ 255 :: repeat 255 fill ++ mk :: tl) with (finish_pass e ++ 255 :: 208 + num :: bytes ++ 255 :: repeat 255 fill ++ mk :: tl) by (rewrite <- !app_assoc; reflexivity).
      rewrite (dec_scan_seg p _ _ _ bins0 (ctx0 p) (ariv p) num news1 cxd d1 bd) by (auto; lia). destruct (Z.eqb_spec (ariv p) 0); [contradiction|]. rewrite LO, Z.sub_diag.
      assert (RI : restart_input d1 num = Ret (bytes ++ 255 :: repeat 255 fill ++ mk :: tl)).
      { unfold restart_input. destruct FD1 as [[X1 X2]|[X1 X2]]; [destruct (Z.eqb_spec (d_marker d1) 0); [lia|]; cbn [bind]; rewrite X1, X2, Z.eqb_refl; reflexivity|]. rewrite X1. cbn [Z.eqb]. rewrite X2. cbn [bind]. rewrite Z.eqb_refl. reflexivity. }
      destruct (skipn k oss) as [|m rest] eqn:ESK; [apply (f_equal (@length mcu)) in ESK; rewrite skipn_length in ESK; cbn in ESK; lia|].
      cbn [dec_scan] in DS2 |- *. destruct (Z.eqb_spec (ariv p) 0) as [|_]; [contradiction|]. cbn [negb andb] in *. destruct (Z.eqb_spec 0 0); [|lia]. rewrite RI. cbn [bind] in *. rewrite DS2. reflexivity.
    + unfold scan_after in *. rewrite <- (firstn_skipn k sss), <- (firstn_skipn k oss). rewrite combine_app_eq by lia. apply Forall2_app; assumption.
Qed.
