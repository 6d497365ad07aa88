(* P_Arith3.v -- the decoder follows the encoder's interval *)
From Verif Require Import Base M_Arith P_Trellis P_Arith P_Arith2.

Lemma stuff_cons x l : stuff (x :: l) = (if x =? 255 then [255; 0] else [x]) ++ stuff l.
Proof. reflexivity. Qed.

Lemma sign_all : forallb (fun sv => ((Z.shiftr sv 7 =? 0) || (Z.shiftr sv 7 =? 1)) && (Z.shiftr (Z.lxor sv 128) 7 =? 1 - Z.shiftr sv 7)) (map Z.of_nat (seq 0 256)) = true.
Proof. vm_compute. reflexivity. Qed.
Lemma sign_ok sv : binv sv -> (Z.shiftr sv 7 = 0 \/ Z.shiftr sv 7 = 1) /\ Z.shiftr (Z.lxor sv 128) 7 = 1 - Z.shiftr sv 7.
Proof.
  intros [R _]. pose proof sign_all as T. rewrite forallb_forall in T. specialize (T sv). cbv beta in T.
  assert (I1 : In sv (map Z.of_nat (seq 0 256))). { apply in_map_iff. exists (Z.to_nat sv). split; [lia|]. apply in_seq. lia. }
  specialize (T I1). apply andb_true_iff in T as [T A]. apply orb_true_iff in T. rewrite !Z.eqb_eq in *. auto.
Qed.

Section Dec.
Variables (S : list Z) (fill : nat) (mk : Z) (tl : list Z).
Hypotheses (SB : Forall byte S) (MK0 : mk <> 0) (MKF : mk <> 255).

Definition Rd (inp : list Z) (marker : Z) (M : nat) : Prop :=
  (marker = 0 /\ (M <= length S)%nat /\ inp = stuff (skipn M S) ++ 255 :: repeat 255 fill ++ mk :: tl) \/ (marker = mk /\ (length S <= M)%nat /\ inp = tl).
Definition DInv (d : dstate) (L a n : Z) : Prop :=
  0 <= d_ct d <= 7 /\ d_a d = a /\ exists M, 8 * Z.of_nat M = 16 + n + d_ct d /\ d_c d = pre S M - L * 2 ^ d_ct d /\ Rd (d_in d) (d_marker d) M.

Lemma nthb i : 0 <= nth i S 0 <= 255.
Proof. destruct (Nat.lt_ge_cases i (length S)) as [H|H]; [|rewrite nth_overflow by lia; lia]. pose proof SB as X. rewrite Forall_forall in X. apply X. apply nth_In. exact H. Qed.
Lemma skip_fill : forall k l, skip_ff (repeat 255 k ++ mk :: l) = Ret (mk, l).
Proof. induction k as [|k IH]; intros l; cbn [repeat app skip_ff]; [destruct (Z.eqb_spec mk 255); [contradiction|reflexivity]|]. change (255 =? 255) with true. cbv iota. apply IH. Qed.

Lemma next_data_ok d M : Rd (d_in d) (d_marker d) M ->
  exists inp marker, next_data d = Ret (nth M S 0, mkD (d_c d) (d_a d) (d_ct d) inp marker) /\ Rd inp marker (Datatypes.S M).
Proof.
  intros [(A & B & C)|(A & B & C)]; unfold next_data.
  - rewrite A, C. cbn [Z.eqb negb]. destruct (Nat.eq_dec M (length S)) as [E|E].
    + rewrite skipn_all2 by lia. cbn [stuff flat_map app]. change (255 =? 255) with true. cbv iota. rewrite skip_fill. cbn [bind]. destruct (Z.eqb_spec mk 0); [contradiction|]. rewrite nth_overflow by lia. exists tl, mk. split; [reflexivity|]. right. split; [reflexivity|]. split; [lia|reflexivity].
    + assert (SK : skipn M S = nth M S 0 :: skipn (Datatypes.S M) S). { assert (HL : (M < length S)%nat) by lia. clear - HL. revert M HL. induction S as [|x S' IH]; intros M HL; [cbn in HL; lia|]. destruct M as [|M]; [reflexivity|]. cbn [skipn nth]. apply IH. cbn in HL. lia. }
      rewrite SK, stuff_cons. destruct (Z.eqb_spec (nth M S 0) 255) as [E2|E2]; cbn [app].
      * change (255 =? 255) with true. cbv iota. cbn [skip_ff]. change (0 =? 255) with false. cbv iota. cbn [bind]. change (0 =? 0) with true. cbv iota. rewrite E2. do 2 eexists. split; [reflexivity|]. left. split; [reflexivity|]. split; [lia|reflexivity].
      * destruct (Z.eqb_spec (nth M S 0) 255); [contradiction|]. do 2 eexists. split; [reflexivity|]. left. split; [reflexivity|]. split; [lia|reflexivity].
  - destruct (Z.eqb_spec (d_marker d) 0) as [E|E]; [congruence|]. cbn [negb]. rewrite nth_overflow by lia. exists (d_in d), (d_marker d). split; [destruct d; reflexivity|]. right. split; [exact A|]. split; [lia|exact C].
Qed.

Lemma d_renorm_ok : forall fuel d L a n L' a' n', DInv d L a n -> 1 <= a -> 32768 <= a * 2 ^ Z.of_nat fuel -> Inorm L a n L' a' n' ->
  exists d', d_renorm fuel d = Ret d' /\ DInv d' L' a' n'.
Proof.
  induction fuel as [|fuel IH]; intros d L a n L' a' n' D A HF IN; cbn [d_renorm].
  - destruct D as (CT & DA & D). inversion IN; subst; [|cbn in HF; lia]. destruct (Z.ltb_spec (d_a d) 32768); [lia|]. exists d. split; [reflexivity|]. split; [exact CT|]. split; [reflexivity|exact D].
  - destruct D as (CT & DA & M & HM & HC & HR). destruct (Z.ltb_spec (d_a d) 32768) as [G|G].
    2:{ inversion IN; subst; [|lia]. exists d. split; [reflexivity|]. split; [exact CT|]. split; [reflexivity|]. exists M. auto. }
    assert (IN2 : Inorm (2 * L) (2 * a) (n + 1) L' a' n') by (inversion IN; subst; [lia|assumption]).
    assert (PF : 2 ^ Z.of_nat (Datatypes.S fuel) = 2 * 2 ^ Z.of_nat fuel) by (rewrite <- Z.pow_succ_r by lia; f_equal; lia). rewrite PF in HF.
    cbv zeta. cbn [d_ct]. destruct (Z.ltb_spec (d_ct d - 1) 0) as [E|E].
    + set (d1 := mkD (d_c d) (d_a d) (d_ct d - 1) (d_in d) (d_marker d)).
      destruct (next_data_ok d1 M HR) as (inp & marker & -> & R2). cbn [bind d_ct d_c d_a d_in d_marker d1]. assert (CT0 : d_ct d = 0) by lia. rewrite CT0. change (0 - 1 + 8 <? 0) with false. cbv iota. cbn [d_ct d_c d_a d_in d_marker].
      apply (IH _ (2 * L) (2 * a) (n + 1)); [|lia|lia|exact IN2]. split; [cbn [d_ct]; lia|]. cbn [d_a d_ct d_c d_in d_marker]. split; [rewrite Z.shiftl_mul_pow2 by lia; lia|]. exists (Datatypes.S M). split; [lia|]. split; [|exact R2].
      rewrite lor_shiftl_add by (change (2 ^ 8) with 256; pose proof (nthb M); lia). cbn [pre]. rewrite HC, CT0. change (0 - 1 + 8) with 7. change (2 ^ 7) with 128. change (2 ^ 0) with 1. change (2 ^ 8) with 256. ring.
    + cbn [bind d_c d_a d_ct d_in d_marker]. apply (IH _ (2 * L) (2 * a) (n + 1)); [|lia|lia|exact IN2]. split; [cbn [d_ct]; lia|]. cbn [d_a d_ct d_c d_in d_marker]. split; [rewrite Z.shiftl_mul_pow2 by lia; lia|]. exists M. split; [lia|]. split; [|exact HR].
      rewrite HC. replace (d_ct d) with (1 + (d_ct d - 1)) at 1 by lia. rewrite Z.pow_add_r by lia. change (2 ^ 1) with 2. ring.
Qed.

(* ---- the code register is inside the interval ---- *)
Lemma pre_mono M : forall k, pre S M * 256 ^ Z.of_nat k <= pre S (M + k) < (pre S M + 1) * 256 ^ Z.of_nat k.
Proof.
  induction k as [|k IH]; [rewrite Nat.add_0_r; change (256 ^ Z.of_nat 0) with 1; lia|]. rewrite <- plus_n_Sm. cbn [pre]. replace (Z.of_nat (Datatypes.S k)) with (Z.succ (Z.of_nat k)) by lia. rewrite Z.pow_succ_r by lia. pose proof (nthb (M + k)).
  set (p := 256 ^ Z.of_nat k) in *. set (q := pre S (M + k)) in *. set (r := pre S M) in *. clearbody p q r. clear - IH H. assert (r * (256 * p) = 256 * (r * p)) as -> by ring. assert ((r + 1) * (256 * p) = 256 * ((r + 1) * p)) as -> by ring. lia.
Qed.
Lemma window L a n ct M : Win S L a n -> 0 <= ct -> 8 * Z.of_nat M = 16 + n + ct -> L * 2 ^ ct <= pre S M < (L + a) * 2 ^ ct.
Proof.
  intros (K0 & HK & W) CT HM. specialize (W (M + K0)%nat ltac:(lia)). pose proof (pre_mono M K0) as PM. replace (8 * Z.of_nat (M + K0) - 16 - n) with (ct + 8 * Z.of_nat K0) in W by lia. rewrite Z.pow_add_r, !Z.mul_assoc in W by lia.
  change 256 with (2 ^ 8) in PM. rewrite <- Z.pow_mul_r in PM by lia. assert (PP : 0 < 2 ^ (8 * Z.of_nat K0)) by (apply Z.pow_pos_nonneg; lia). split.
  - assert (L * 2 ^ ct < pre S M + 1); [|lia]. apply (Z.mul_lt_mono_pos_r (2 ^ (8 * Z.of_nat K0))); [exact PP|]. eapply Z.le_lt_trans; [apply W|apply PM].
  - apply (Z.mul_lt_mono_pos_r (2 ^ (8 * Z.of_nat K0))); [exact PP|]. eapply Z.le_lt_trans; [apply PM|apply W].
Qed.

Definition Ready (d : dstate) (L a n : Z) : Prop := exists d', d_renorm 20 d = Ret d' /\ DInv d' L a n.

Lemma arith_decode_ok d L a n sv val L1 a1 sv1 : Ready d L a n -> 32768 <= a -> binv sv -> pre_step L a sv val = (L1, a1, sv1) -> Win S L1 a1 n ->
  exists d1, arith_decode d sv = Ret (val, sv1, d1) /\ DInv d1 L1 a1 n.
Proof.
  intros (d' & RN & CT & DA & M & HM & HC & HR) A B P W. assert (CT0 : 0 <= d_ct d') by lia; pose proof (window _ _ _ _ _ W CT0 HM) as WI. unfold arith_decode. rewrite RN. cbn [bind].
  destruct (tab_ok sv B) as (TG & Q & B1 & B2). rewrite TG. cbn [bind]. cbv zeta. fold (qeof sv) (lpsbin sv) (mpsbin sv). rewrite DA. rewrite Z.shiftl_mul_pow2 by lia.
  destruct (sign_ok sv B) as (SG & SX). rewrite SX. clear SX.
  assert (PC : 0 < 2 ^ d_ct d') by (apply Z.pow_pos_nonneg; lia).
  assert (UP : L1 = L + (a - qeof sv) -> (a - qeof sv) * 2 ^ d_ct d' <= d_c d'). { intros ->. rewrite HC. lia. }
  assert (LO : L1 = L -> a1 = a - qeof sv -> d_c d' < (a - qeof sv) * 2 ^ d_ct d'). { intros -> ->. rewrite HC. lia. }
  assert (D1 : forall c, (c = d_c d' /\ L1 = L \/ c = d_c d' - (a - qeof sv) * 2 ^ d_ct d' /\ L1 = L + (a - qeof sv)) -> DInv (mkD c a1 (d_ct d') (d_in d') (d_marker d')) L1 a1 n).
  { intros c HCC. split; [exact CT|]. split; [reflexivity|]. exists M. cbn [d_ct d_c d_in d_marker]. split; [exact HM|]. split; [|exact HR]. destruct HCC as [[-> ->]|[-> ->]]; rewrite HC; ring. }
  unfold pre_step in P. cbv zeta in P.
  assert (VM : (Z.b2z val =? Z.shiftr sv 7) = true -> negb (Z.shiftr sv 7 =? 0) = val). { intros E. apply Z.eqb_eq in E. rewrite <- E. destruct val; reflexivity. }
  assert (VL : (Z.b2z val =? Z.shiftr sv 7) = false -> negb (1 - Z.shiftr sv 7 =? 0) = val). { intros E. apply Z.eqb_neq in E. destruct SG as [G|G]; rewrite G in *; destruct val; try reflexivity; exfalso; apply E; reflexivity. }
  destruct (Z.b2z val =? Z.shiftr sv 7) eqn:EV; cbn [negb] in P.
  - rewrite (VM eq_refl). destruct (Z.leb_spec 32768 (a - qeof sv)) as [G|G].
    + injection P as <- <- <-. pose proof (LO eq_refl eq_refl). destruct (Z.leb_spec ((a - qeof sv) * 2 ^ d_ct d') (d_c d')); [lia|]. destruct (Z.ltb_spec (a - qeof sv) 32768); [lia|]. eexists. split; [reflexivity|]. apply D1. auto.
    + destruct (Z.ltb_spec (a - qeof sv) (qeof sv)) as [G2|G2]; injection P as <- <- <-.
      * pose proof (UP eq_refl). destruct (Z.leb_spec ((a - qeof sv) * 2 ^ d_ct d') (d_c d')); [|lia]. eexists. split; [reflexivity|]. apply D1. auto.
      * pose proof (LO eq_refl eq_refl). destruct (Z.leb_spec ((a - qeof sv) * 2 ^ d_ct d') (d_c d')); [lia|]. destruct (Z.ltb_spec (a - qeof sv) 32768); [|lia]. eexists. split; [reflexivity|]. apply D1. auto.
  - rewrite (VL eq_refl). destruct (Z.leb_spec (qeof sv) (a - qeof sv)) as [G2|G2]; injection P as <- <- <-.
    + pose proof (UP eq_refl). destruct (Z.leb_spec ((a - qeof sv) * 2 ^ d_ct d') (d_c d')); [|lia]. destruct (Z.ltb_spec (a - qeof sv) (qeof sv)); [lia|]. eexists. split; [reflexivity|]. apply D1. auto.
    + pose proof (LO eq_refl eq_refl). destruct (Z.leb_spec ((a - qeof sv) * 2 ^ d_ct d') (d_c d')); [lia|]. destruct (Z.ltb_spec (a - qeof sv) 32768); [|lia]. destruct (Z.ltb_spec (a - qeof sv) (qeof sv)); [|lia]. eexists. split; [reflexivity|]. apply D1. auto.
Qed.

Definition mark_ok (d : dstate) : Prop := exists M, Rd (d_in d) (d_marker d) M.
Lemma dinv_mark d L a n : DInv d L a n -> mark_ok d.
Proof. intros (_ & _ & M & _ & _ & H). exists M. exact H. Qed.
Lemma init_mark : mark_ok (d_init (stuff S ++ 255 :: repeat 255 fill ++ mk :: tl)).
Proof. exists 0%nat. left. split; [reflexivity|]. split; [lia|reflexivity]. Qed.

Lemma ready_step d1 L1 a1 n L2 a2 n2 : DInv d1 L1 a1 n -> 1 <= a1 -> Inorm L1 a1 n L2 a2 n2 -> Ready d1 L2 a2 n2.
Proof. intros D A IN. apply (d_renorm_ok 20 d1 L1 a1 n L2 a2 n2 D A); [change (2 ^ Z.of_nat 20) with 1048576; lia|exact IN]. Qed.

Lemma decode_all_ok ds L a n bins Lf af nf bins' : Run ds L a n bins Lf af nf bins' -> Win S Lf af nf -> 32768 <= a -> Forall binv bins ->
  forall d, Ready d L a n -> mark_ok d -> exists d', decode_all (map fst ds) d bins = Ret (map snd ds, d', bins') /\ Ready d' Lf af nf /\ mark_ok d'.
Proof.
  induction 1 as [|ctx val ds L a n bins sv L1 a1 sv1 L2 a2 n2 bins2 L3 a3 n3 bins3 G P SE IN R IH]; intros W A B d RD MK; [exists d; split; [reflexivity|split; assumption]|].
  assert (C : 0 <= ctx < len bins). { unfold aget in G. destruct (Z.ltb_spec ctx 0); [discriminate|]. destruct (nth_error bins (Z.to_nat ctx)) eqn:E; [|discriminate]. assert (Z.to_nat ctx < length bins)%nat by (apply nth_error_Some; congruence). lia. }
  assert (SV : binv sv). { rewrite (aget_nth bins ctx 0 C) in G. injection G as <-. rewrite Forall_forall in B. apply B. apply nth_In. lia. }
  pose proof (pre_step_in L a sv val SV A) as PI. rewrite P in PI. destruct PI as (I1 & I2 & I3 & I4).
  assert (B2 : Forall binv bins2).
  { rewrite (aset_ok bins ctx sv1 C) in SE. injection SE as <-. apply Forall_forall. intros x Hx. apply (In_nth _ _ 0) in Hx as (i & Hi & <-). rewrite length_upd in Hi. destruct (Nat.eq_dec i (Z.to_nat ctx)) as [->|NE].
    - rewrite nth_upd_eq by lia. exact I4.
    - rewrite nth_upd_neq by lia. rewrite Forall_forall in B. apply B. apply nth_In. lia. }
  assert (A2 : 32768 <= a2) by (eapply inorm_big; exact IN).
  assert (W1 : Win S L1 a1 n). { eapply win_nest; [apply inorm_nest; exact IN|]. eapply win_nest; [eapply run_nest; [exact R|exact A2|exact B2]|exact W]. }
  destruct (arith_decode_ok d L a n sv val L1 a1 sv1 RD A SV P W1) as (d1 & AD & D1).
  assert (R2 : Ready d1 L2 a2 n2) by (apply (ready_step d1 L1 a1 n); [exact D1|lia|exact IN]).
  destruct (IH W A2 B2 d1 R2 (dinv_mark _ _ _ _ D1)) as (d' & DA & R3 & M3). exists d'. split; [|split; assumption].
  cbn [map fst snd decode_all]. rewrite G. cbn [bind]. rewrite AD. cbn [bind]. rewrite SE. cbn [bind]. rewrite DA. reflexivity.
Qed.

Lemma init_ready : Ready (d_init (stuff S ++ 255 :: repeat 255 fill ++ mk :: tl)) 0 65536 0.
Proof.
  unfold Ready, d_init. set (inp := stuff S ++ _). assert (R0 : Rd inp 0 0) by (left; split; [reflexivity|split; [lia|reflexivity]]).
  change 20%nat with (Datatypes.S (Datatypes.S 18)). cbn [d_renorm d_a d_c d_ct d_in d_marker]. change (0 <? 32768) with true. change (-16 - 1 <? 0) with true. cbv iota.
  destruct (next_data_ok (mkD 0 0 (-16 - 1) inp 0) 0 R0) as (i1 & m1 & -> & R1). cbn [bind d_a d_c d_ct d_in d_marker]. change (-16 - 1 + 8 <? 0) with true. change (-16 - 1 + 8 + 1 =? 0) with false. cbv iota. cbn [d_a d_c d_ct d_in d_marker]. change (Z.shiftl 0 1) with 0. change (0 <? 32768) with true. change (-16 - 1 + 8 + 1 - 1 <? 0) with true. cbv iota.
  set (c1 := Z.lor (Z.shiftl 0 8) (nth 0 S 0)). assert (C1 : c1 = nth 0 S 0) by reflexivity. clearbody c1. subst c1.
  destruct (next_data_ok (mkD (nth 0 S 0) 0 (-16 - 1 + 8 + 1 - 1) i1 m1) 1 R1) as (i2 & m2 & -> & R2). cbn [bind d_a d_c d_ct d_in d_marker]. change (-16 - 1 + 8 + 1 - 1 + 8 <? 0) with true. change (-16 - 1 + 8 + 1 - 1 + 8 + 1 =? 0) with true. cbv iota. cbn [d_a d_c d_ct d_in d_marker]. change (Z.shiftl 32768 1) with 65536. change (65536 <? 32768) with false. cbv iota.
  eexists. split; [reflexivity|]. split; [cbn [d_ct]; lia|]. split; [reflexivity|]. exists 2%nat. cbn [d_a d_c d_ct d_in d_marker]. split; [reflexivity|]. split; [|exact R2].
  rewrite lor_shiftl_add by (change (2 ^ 8) with 256; pose proof (nthb 1); lia). change (2 ^ 8) with 256. cbn [pre]. lia.
Qed.
End Dec.

Lemma einv_init : EInv e_init 0 0.
Proof.
  exists []. unfold e_init. cbn [e_c e_a e_sc e_zc e_ct e_buf e_out]. split.
  - unfold Rep. cbn [e_c e_a e_sc e_zc e_ct e_buf e_out]. split; [lia|]. split; [lia|]. split; [lia|]. exists []. split; [reflexivity|]. split; [constructor|]. split; [auto|reflexivity].
  - split; [reflexivity|]. split; [reflexivity|]. split; [lia|]. split; [lia|]. split; [lia|]. split; [change (2 ^ (16 + 0)) with 65536; lia|lia].
Qed.
