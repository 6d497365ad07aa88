(* P_Scans2.v -- what a DC refinement scan sends depends only on the bit it sends of each block *)
From Verif Require Import Base M_Coef S_MCU M_HuffTbl M_HuffEnc M_Source M_HuffDec M_LossHuff M_PHuff M_ArithBlk M_Scans S_Script S_Block S_Prog S_Scans P_Scans.
Local Open Scope Z_scope.

Definition same_bit (Al : Z) (x y : Z * list Z) : Prop := fst x = fst y /\ exists a b l l', snd x = a :: l /\ snd y = b :: l' /\ (a / 2 ^ Al) mod 2 = (b / 2 ^ Al) mod 2.
Lemma F2_eq {X} : forall l l' : list X, Forall2 eq l l' -> l = l'.
Proof. induction 1; congruence. Qed.
Lemma land1 a : Z.land a 1 = a mod 2.
Proof. change 1 with (Z.ones 1). rewrite Z.land_ones by lia. reflexivity. Qed.
Lemma u32_bit a : Z.land (u32 a) 1 = a mod 2.
Proof. rewrite land1. unfold u32. symmetry. apply Znumtheory.Zmod_div_mod; [reflexivity|reflexivity|]. exists 2147483648. reflexivity. Qed.

(* ---- Huffman ---- *)
Definition ev_same (e e' : event) : Prop := e = e' \/ exists c c', e = EItem (IBits c 1) /\ e' = EItem (IBits c' 1) /\ Z.land c 1 = Z.land c' 1.
Lemma ev_refl es : Forall2 ev_same es es.
Proof. induction es; constructor; [left; reflexivity|assumption]. Qed.
Lemma out_same et es es' : Forall2 ev_same es es' -> forall v d, out_events et es v d = out_events et es' v d.
Proof.
  induction 1 as [|e e' es es' E F IH]; intros v d; [reflexivity|]. cbn [out_events]. assert (EQ : out_event et e v d = out_event et e' v d).
  { destruct E as [->|(c & c' & -> & -> & E)]; [reflexivity|]. cbn [out_event out_item]. unfold emit_bits. cbn [Z.eqb Z.ltb orb Z.compare Pos.compare Pos.compare_cont]. change (2 ^ 1 - 1) with 1. rewrite E. reflexivity. }
  rewrite EQ. destruct (out_event et e' v d) as [[v1 d1]| |]; cbn [bind]; [apply IH|reflexivity|reflexivity].
Qed.
Lemma refine_same p m m' : 0 <= pAl p -> Forall2 (same_bit (pAl p)) m m' ->
  exists i i', penc_dc_refine p m = Ret i /\ penc_dc_refine p m' = Ret i' /\ Forall2 ev_same (map EItem i) (map EItem i').
Proof.
  intros A0. induction 1 as [|[t x] [t' y] m m' E F IH]; [exists [], []; repeat split; constructor|]. destruct IH as (i & i' & I1 & I2 & I3). destruct E as (_ & a & b & l & l' & X & Y & BT). cbn [snd] in X, Y. subst x y. cbn [penc_dc_refine aget]. unfold aget. cbn [Z.ltb Z.compare Z.to_nat nth_error bind]. rewrite I1, I2. cbn [bind].
  eexists. eexists. split; [reflexivity|]. split; [reflexivity|]. cbn [map]. constructor; [|exact I3]. right. eexists. eexists. split; [reflexivity|]. split; [reflexivity|]. rewrite !u32_bit, !Z.shiftr_div_pow2 by exact A0. exact BT.
Qed.
Definition res_same (a b : outcome (list event)) : Prop :=
  match a, b with Ret x, Ret y => Forall2 ev_same x y | Error e, Error e' => e = e' | Undef, Undef => True | _, _ => False end.
Lemma scan_same p : pSs p = 0 -> pAh p <> 0 -> 0 <= pAl p -> forall ms ms', Forall2 (Forall2 (same_bit (pAl p))) ms ms' ->
  forall s togo num, res_same (penc_scan p s togo num ms) (penc_scan p s togo num ms').
Proof.
  intros S0 A0 L0. induction 1 as [|m m' ms ms' E F IH]; intros s togo num.
  - cbn [penc_scan]. destruct (act p) as [a| |]; cbn [bind]; try exact Logic.I; [|reflexivity]. destruct (emit_eobrun a s) as [[e st]| |]; cbn [bind res_same]; try exact Logic.I; [apply ev_refl|reflexivity].
  - cbn [penc_scan]. destruct (refine_same p m m' L0 E) as (i & i' & I1 & I2 & I3).
    assert (PM : forall st, penc_mcu p st m = Ret (i, st) /\ penc_mcu p st m' = Ret (i', st)).
    { intros st. unfold penc_mcu. rewrite S0. cbn [Z.eqb]. destruct (Z.eqb_spec (pAh p) 0); [contradiction|]. rewrite I1, I2. split; reflexivity. }
    match goal with |- res_same (bind ?X _) (bind ?Y _) => change Y with X; destruct X as [[[[e1 st] tg] nm]| |]; cbn [bind res_same]; [|reflexivity|exact Logic.I] end.
    destruct (PM st) as [P1 P2]. rewrite P1, P2. cbn [bind]. specialize (IH st (if pri p =? 0 then tg else tg - 1) nm).
    destruct (penc_scan p st (if pri p =? 0 then tg else tg - 1) nm ms) as [r| |], (penc_scan p st (if pri p =? 0 then tg else tg - 1) nm ms') as [r'| |]; cbn [bind res_same] in *; try exact IH; try contradiction.
    apply Forall2_app; [apply ev_refl|]. apply Forall2_app; [exact I3|exact IH].
Qed.
Lemma h_same p et ms ms' d : pSs p = 0 -> pAh p <> 0 -> 0 <= pAl p -> Forall2 (Forall2 (same_bit (pAl p))) ms ms' -> pencode_scan p et ms d = pencode_scan p et ms' d.
Proof.
  intros S0 A0 L0 F. unfold pencode_scan, scan_events. pose proof (scan_same p S0 A0 L0 ms ms' F (pst0 p) (pri p) 0) as R.
  destruct (penc_scan p (pst0 p) (pri p) 0 ms) as [r| |], (penc_scan p (pst0 p) (pri p) 0 ms') as [r'| |]; cbn [bind res_same] in *; try contradiction; [apply out_same; exact R|congruence|reflexivity].
Qed.

(* ---- arithmetic ---- *)
Lemma arefine_same p m m' : 0 <= aAl p -> Forall2 (same_bit (aAl p)) m m' -> enc_dc_refine p m = enc_dc_refine p m'.
Proof.
  intros A0. induction 1 as [|[t x] [t' y] m m' E F IH]; [reflexivity|]. destruct E as (_ & a & b & l & l' & X & Y & BT). cbn [snd] in X, Y. subst x y. cbn [enc_dc_refine]. unfold aget. cbn [Z.ltb Z.compare Z.to_nat nth_error bind]. rewrite IH, !land1, !Z.shiftr_div_pow2, BT by exact A0. reflexivity.
Qed.
Lemma a_same p ms ms' : aprog p = true -> aSs p = 0 -> aAh p <> 0 -> 0 <= aAl p -> Forall2 (Forall2 (same_bit (aAl p))) ms ms' -> encode_scan p ms = encode_scan p ms'.
Proof.
  intros PR S0 A0 L0 F. unfold encode_scan. generalize (@nil Z). generalize M_Arith.e_init, bins0, (ctx0 p), (ariv p), 0.
  induction F as [|m m' ms ms' E F IH]; intros e bins cx togo num out; [reflexivity|]. cbn [enc_scan].
  assert (EM : forall c, M_ArithBlk.enc_mcu p c m = M_ArithBlk.enc_mcu p c m').
  { intros c. unfold M_ArithBlk.enc_mcu. rewrite PR, S0. cbn [negb orb Z.eqb]. destruct (Z.eqb_spec (aAh p) 0); [contradiction|]. cbn [andb orb]. rewrite (arefine_same p m m' L0 E). reflexivity. }
  destruct (negb (ariv p =? 0) && (togo =? 0)); rewrite EM; (destruct (M_ArithBlk.enc_mcu p _ m') as [[ds cx']| |]; cbn [bind]; [|reflexivity|reflexivity]); (destruct (M_Arith.encode_all ds _ _) as [[e2 b2]| |]; cbn [bind]; [|reflexivity|reflexivity]); apply IH.
Qed.

(* ---- the adjusted blocks of P_Scans.v ---- *)
Section Adj.
Variables (B : Z) (A : arrays) (s : scan) (g : ks) (D : arrays) (ms : list (list block)).
Hypothesis SND : sends_image B g A ms.
Hypothesis GO : scan_ok g.
Lemma adjusted_id : Ss s <> 0 \/ Ah s = 0 -> adjusted s g D ms = ms.
Proof.
  intros C. destruct SND as [WF _]. apply F2_eq. apply F2_nth; [rewrite adjusted_len; symmetry; apply WF|]. intros k x y X Y. assert (K : (k < mcu_rows g * k_cols g)%nat) by (rewrite <- (adjusted_len s g D ms); apply nth_error_Some; congruence).
  apply nth_error_nth with (d := []) in X. apply nth_error_nth with (d := []) in Y. subst x y. rewrite adjusted_nth by exact K. pose proof (mcu_len g ms k WF K) as L. rewrite <- (P_len g k) in L.
  revert L. generalize (pos g (k / k_cols g) (k mod k_cols g)), (nth k ms []). induction l as [|q l IH]; intros [|z m] L; cbn in L; try lia; [reflexivity|]. cbn [combine map fst snd]. rewrite IH by lia. f_equal. unfold adj.
  destruct (realb q); [reflexivity|]. destruct C as [C| ->]; [destruct (Z.eqb_spec (Ss s) 0); [contradiction|reflexivity]|]. cbn [orb]. destruct (negb (Ss s =? 0)); reflexivity.
Qed.
Lemma adjusted_bits : Ss s = 0 -> Ah s <> 0 -> 0 <= Al s -> (forall c r b, In c (k_comps g) -> exists q, fst (D (k_idx c) r b) = q * (2 * 2 ^ Al s)) ->
  Forall2 (Forall2 (same_bit (Al s))) (map (tagged g) ms) (map (tagged g) (adjusted s g D ms)).
Proof.
  intros S0 A0 L0 MU. destruct SND as [WF SI]. apply F2_nth; [rewrite !map_length, adjusted_len; apply WF|]. intros k x y X Y. rewrite nth_error_map in X, Y.
  destruct (nth_error ms k) as [m|] eqn:M; cbn [option_map] in X; [|discriminate]. injection X as <-. destruct (nth_error (adjusted s g D ms) k) as [m'|] eqn:M'; cbn [option_map] in Y; [|discriminate]. injection Y as <-.
  assert (K : (k < mcu_rows g * k_cols g)%nat) by (rewrite <- (adjusted_len s g D ms); apply nth_error_Some; congruence). apply nth_error_nth with (d := []) in M. apply nth_error_nth with (d := []) in M'. subst m m'.
  assert (L : length (nth k ms []) = length (nth k (adjusted s g D ms) [])). { rewrite adjusted_nth by exact K. rewrite map_length, combine_length, P_len, (mcu_len g ms k WF K). lia. }
  apply F2_nth; [unfold tagged; rewrite !combine_length, !map_length, L; reflexivity|]. intros j [t x] [u y] X Y. unfold tagged in X, Y. apply nth_combine in X. apply nth_combine in Y. destruct X as [X1 X2], Y as [Y1 Y2]. split; [cbn; congruence|].
  rewrite nth_error_map in X2, Y2. destruct (nth_error (nth k ms []) j) as [x1|] eqn:X3; cbn [option_map] in X2; [|discriminate]. injection X2 as <-. destruct (nth_error (nth k (adjusted s g D ms) []) j) as [y1|] eqn:Y3; cbn [option_map] in Y2; [|discriminate]. injection Y2 as <-.
  apply (adj_at s g D ms k j y1 K) in Y3. destruct Y3 as ([[c r] b] & z & Q1 & Q2 & ->). rewrite X3 in Q2. injection Q2 as <-. cbn [snd]. unfold blk_of. exists (fst x1), (fst (adj s D (c, r, b) x1)), (snd x1), (snd (adj s D (c, r, b) x1)). split; [reflexivity|]. split; [reflexivity|].
  unfold adj. destruct (realb (c, r, b)); cbn [orb]; [reflexivity|]. rewrite S0. cbn [Z.eqb negb orb]. destruct (Z.eqb_spec (Ah s) 0); [contradiction|]. cbn [fst].
  destruct (MU c r b ltac:(apply (P_MCUStore.pos_bounds g GO k c r b K); apply nth_error_In with (n := j); exact Q1)) as (q & ->). assert (P0 : 0 < 2 ^ Al s) by (apply Z.pow_pos_nonneg; lia).
  pose proof (Z.mod_pos_bound (fst x1 / 2 ^ Al s) 2 ltac:(lia)) as MB. set (bit := (fst x1 / 2 ^ Al s) mod 2) in *. replace (q * (2 * 2 ^ Al s) + bit * 2 ^ Al s) with ((bit + q * 2) * 2 ^ Al s) by ring. rewrite Z.div_mul by lia. rewrite Z.mod_add by lia. symmetry. apply Z.mod_small. exact MB.
Qed.
End Adj.
