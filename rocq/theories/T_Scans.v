(* T_Scans.v -- C19: decoding all scans of a progressive file gives back the coefficients of the image.

   Reading guide.  [known script c k v] (S_Scans.v) is what the scans of a script convey of a coefficient whose value is v;
   [sends_image B g A ms] says that ms are MCUs of a scan with geometry g over the coefficient arrays A, with any dummy blocks
   at the edges.  h_encode / h_decode_all are the progressive Huffman coder over arrays, a_encode / a_decode_all the arithmetic one. *)
From Verif Require M_Geom T_Geom T_MCU T_ArithBlk T_PHuff.
From Verif Require Import Base M_Coef S_MCU M_HuffTbl M_HuffEnc M_Source M_HuffDec M_LossHuff P_BitRead P_HuffScan M_PHuff M_ArithBlk M_Scans S_Script M_Script P_Script T_Script S_Block S_Prog S_Scans P_Scans P_Scans2.
Local Open Scope Z_scope.

(* ---- the specification ---- *)
(* the scan s of the frame that the compressor set up for the application's parameters p; T_MCU.coded: per_scan_setup succeeded *)
Definition geometry (p : M_Geom.cparams) (f : M_Geom.frame) (s : scan) (g : ks) : Prop :=
  exists l sc, T_MCU.coded p f l sc /\ map M_Geom.c_index l = comps s /\ g = ks_of f sc.
(* scan s as a Huffman-coded scan: same band and bit positions; tables derived from the same Huffman tables *)
Definition huff_scan (p : M_Geom.cparams) (f : M_Geom.frame) (s : scan) (h : hscan) : Prop :=
  geometry p f s (h_geo h) /\ pSs (h_par h) = Ss s /\ pSe (h_par h) = Se s /\ pAh (h_par h) = Ah s /\ pAl (h_par h) = Al s /\
  length (pcomps (h_par h)) = length (comps s) /\ 0 <= pprec (h_par h) <= 12 /\ 0 <= pri (h_par h) /\
  exists ts, T_PHuff.derived_from (h_par h) ts (h_et h) (h_dt h).
(* the compressor has written the scan for the image A, and the source holds those bytes, then a marker, then anything *)
Definition huff_written (A : arrays) (h : hscan) (src : source) : Prop :=
  exists ms d d' bytes m rest, sends_image 32768 (h_geo h) A ms /\ dest_ok d /\ dsusp d = false /\ h_encode h ms d = Ret d' /\ dout d' = dout d ++ bytes /\
    m <> 0 /\ m <> 255 /\ src_ok src /\ ssusp src = false /\ src_bytes src = bytes ++ 255 :: m :: rest.
(* the same with the arithmetic coder *)
Definition arith_scan (p : M_Geom.cparams) (f : M_Geom.frame) (s : scan) (h : ahscan) : Prop :=
  geometry p f s (a_geo h) /\ aSs (a_par h) = Ss s /\ aSe (a_par h) = Se s /\ aAh (a_par h) = Ah s /\ aAl (a_par h) = Al s /\ aprog (a_par h) = true /\
  length (acomps (a_par h)) = length (comps s) /\ 0 <= ariv (a_par h) /\
  (forall dc ac, In (dc, ac) (acomps (a_par h)) -> 0 <= dc < 16 /\ 0 <= ac < 16) /\
  length (adcL (a_par h)) = 16%nat /\ length (adcU (a_par h)) = 16%nat /\ length (aacK (a_par h)) = 16%nat.
Definition arith_written (A : arrays) (h : ahscan) (input : list Z) : Prop :=
  exists ms bytes fill m rest, sends_image 16384 (a_geo h) A ms /\ a_encode h ms = Ret bytes /\ m <> 0 /\ m <> 255 /\
    input = bytes ++ 255 :: repeat 255 fill ++ m :: rest.
(* every scan is a legal successor of those before it *)
Definition successive (nc maxA : Z) (script : list scan) : Prop := forall pre s post, script = pre ++ s :: post -> progressive_scan_ok nc maxA pre s.
(* block (r, b) of component number i is a block of the image *)
Definition in_image (f : M_Geom.frame) (i r b : nat) : Prop :=
  exists c, nth_error (M_Geom.f_comps f) i = Some c /\ (r < Z.to_nat (M_Geom.c_height_in_blocks c))%nat /\ (b < Z.to_nat (M_Geom.c_width_in_blocks c))%nat.
Definition components (f : M_Geom.frame) : Z := Z.of_nat (length (M_Geom.f_comps f)).

(* ---- links ---- *)
Definition Hf (f : M_Geom.frame) (i : nat) : nat := match nth_error (M_Geom.f_comps f) i with Some c => Z.to_nat (M_Geom.c_height_in_blocks c) | None => O end.
Definition Wf (f : M_Geom.frame) (i : nat) : nat := match nth_error (M_Geom.f_comps f) i with Some c => Z.to_nat (M_Geom.c_width_in_blocks c) | None => O end.
Lemma geometry_ok p f s g : geometry p f s g -> scan_ok g /\ map (fun c => Z.of_nat (k_idx c)) (k_comps g) = comps s /\
  forall c, In c (k_comps g) -> k_hib c = Hf f (k_idx c) /\ k_wib c = Wf f (k_idx c).
Proof.
  intros (l & sc & C & EC & ->). destruct (T_MCU.coded_scan p f l sc C) as (GO & _ & SC). split; [exact GO|]. destruct C as (E & _ & IN & _ & _).
  destruct (T_Geom.c_initial_ok p f E) as (_ & _ & _ & _ & _ & _ & _ & HI & _ & _).
  assert (X : forall x, In x (M_Geom.s_comps sc) -> exists k, nth_error (M_Geom.f_comps f) k = Some (M_Geom.s_comp x) /\ M_Geom.c_index (M_Geom.s_comp x) = Z.of_nat k).
  { intros x Hx. assert (I1 : In (M_Geom.s_comp x) (M_Geom.f_comps f)) by (apply IN; rewrite <- SC; apply in_map; exact Hx). apply In_nth_error in I1. destruct I1 as (k & I1). exists k. split; [exact I1|exact (HI k _ I1)]. }
  split.
  - rewrite <- EC, <- SC. cbn [ks_of k_comps]. rewrite !map_map. apply map_ext_in. intros x Hx. destruct (X x Hx) as (k & _ & I2). cbn [kc_of k_idx]. rewrite I2. lia.
  - intros c Hc. cbn [ks_of k_comps] in Hc. apply in_map_iff in Hc. destruct Hc as (x & <- & Hx). destruct (X x Hx) as (k & I1 & I2). unfold Hf, Wf. cbn [kc_of k_idx k_hib k_wib]. rewrite I2, Nat2Z.id, I1. split; reflexivity.
Qed.
Lemma F2_impl {X Y} (P Q : X -> Y -> Prop) l l' : Forall2 P l l' -> (forall x y, P x y -> Q x y) -> Forall2 Q l l'.
Proof. intros F I. induction F; constructor; auto. Qed.
Lemma bound_32768 : exists t, 0 < t /\ 32768 = t * 16384 /\ 32768 <= 32768.
Proof. exists 2. lia. Qed.
Lemma bound_16384 : exists t, 0 < t /\ 16384 = t * 16384 /\ 16384 <= 32768.
Proof. exists 1. lia. Qed.
Lemma multiples B H W A pre D s nc maxA g : holds B H W A pre D -> progressive_scan_ok nc maxA pre s -> map (fun c => Z.of_nat (k_idx c)) (k_comps g) = comps s ->
  Ss s = 0 -> Ah s <> 0 -> 0 <= Al s -> forall c (r b : nat), In c (k_comps g) -> exists q, fst (D (k_idx c) r b) = q * (2 * 2 ^ Al s).
Proof.
  intros IV OK GC S0 A0 L0 c r b Hc. destruct OK as (_ & S1 & _ & _ & _ & D1 & _ & R). assert (CV : covers s (Z.of_nat (k_idx c)) 0) by (split; [rewrite <- GC; exact (in_map (fun c => Z.of_nat (k_idx c)) _ _ Hc)|lia]). specialize (R _ _ CV).
  destruct (IV (k_idx c) r b) as (_ & _ & I3). destruct (last_covering pre (Z.of_nat (k_idx c)) 0) as [q|]; [|contradiction]. destruct I3 as [_ (u & U)]. exists u. rewrite U. f_equal. replace (Al q) with (Z.succ (Al s)) by lia. apply Z.pow_succ_r. exact L0.
Qed.

Lemma huff_step p f s h A src pre D nc maxA : maxA <= 13 -> progressive_scan_ok nc maxA pre s -> huff_scan p f s h -> huff_written A h src -> holds 32768 (Hf f) (Wf f) A pre D ->
  exists D', h_decode h src D = Ret (Some D') /\ holds 32768 (Hf f) (Wf f) A (pre ++ [s]) D'.
Proof.
  intros MA OK (G & E1 & E2 & E3 & E4 & E5 & E6 & E7 & ts & DF) (ms & d & d' & bytes & m & rest & SI & DK & DS & EN & DO & M0 & M1 & K1 & K2 & SB) IV.
  destruct (geometry_ok p f s (h_geo h) G) as (GO & GC & GD). destruct (params pre s (h_geo h) nc maxA OK MA GC) as (AL & AH & SE).
  assert (LC : length (k_comps (h_geo h)) = length (pcomps (h_par h))) by (rewrite E5, <- GC, map_length; reflexivity).
  assert (SP : T_PHuff.scan_params (h_par h)).
  { unfold T_PHuff.scan_params. rewrite E1, E2, E3, E4, <- LC. split; [exact SE|]. split; [exact AL|]. split; [exact AH|]. split; [exact E6|exact E7]. }
  pose proof (ready 32768 _ _ A bound_32768 pre s (h_geo h) nc maxA OK MA GO GC GD D ms IV SI) as RD.
  assert (F : Forall2 (T_PHuff.mcu_pair (h_par h)) (map (tagged (h_geo h)) (adjusted s (h_geo h) D ms)) (map (tagged (h_geo h)) (held (h_geo h) D))).
  { refine (F2_impl _ _ _ _ RD _). intros x y [F1 F2]. split; [|rewrite E1; exact F2]. refine (F2_impl _ _ _ _ F1 _). intros u v (U1 & U2 & U3 & U4 & _). split; [exact U1|]. split; [rewrite <- LC; exact U2|]. split; [exact U3|]. rewrite E1, E2, E3. exact U4. }
  assert (EN' : pencode_scan (h_par h) (h_et h) (map (tagged (h_geo h)) (adjusted s (h_geo h) D ms)) d = Ret d').
  { rewrite <- EN. unfold h_encode. destruct (Z.eq_dec (Ss s) 0) as [S0|S0]; [|rewrite (adjusted_id 32768 A s _ D ms SI (or_introl S0)); reflexivity]. destruct (Z.eq_dec (Ah s) 0) as [A0|A0]; [rewrite (adjusted_id 32768 A s _ D ms SI (or_intror A0)); reflexivity|].
    symmetry. apply h_same; [congruence|congruence|rewrite E4; lia|]. rewrite E4. apply (adjusted_bits 32768 A s _ D ms SI GO S0 A0); [lia|]. exact (multiples _ _ _ _ _ _ _ _ _ _ IV OK GC S0 A0 (proj1 AL)). }
  destruct (T_PHuff.C18_roundtrip (h_par h) ts (h_et h) (h_dt h) _ _ d d' SP DF F DK DS EN') as (bytes' & DO' & DEC). assert (bytes' = bytes) by (rewrite DO in DO'; exact (eq_sym (app_inv_head _ _ _ DO'))). subst bytes'.
  destruct (DEC m rest src M0 M1 K1 K2 SB) as (news & st & P1 & (P2 & P3 & P4) & _ & _). exists (stored (h_geo h) news D). unfold h_decode. rewrite P1. split; [reflexivity|].
  apply (done_holds 32768 _ _ A bound_32768 pre s (h_geo h) nc maxA OK MA GO GC GD D ms IV SI); [rewrite <- P3, map_length; apply held_len|].
  intros k x o n X O N1. destruct (P4 k x o n X O N1) as (R1 & R2 & R3). split; [exact R1|]. split; [exact R2|]. rewrite E1, E2, E4 in R3. exact R3.
Qed.
Lemma arith_step p f s h A inp pre D nc maxA : maxA <= 13 -> progressive_scan_ok nc maxA pre s -> arith_scan p f s h -> arith_written A h inp -> holds 16384 (Hf f) (Wf f) A pre D ->
  exists D', a_decode h inp D = Ret (Some D') /\ holds 16384 (Hf f) (Wf f) A (pre ++ [s]) D'.
Proof.
  intros MA OK (G & E1 & E2 & E3 & E4 & PR & E5 & E6 & E7) (ms & bytes & fill & m & rest & SI & EN & M0 & M1 & ->) IV.
  destruct (geometry_ok p f s (a_geo h) G) as (GO & GC & GD). destruct (params pre s (a_geo h) nc maxA OK MA GC) as (AL & AH & SE).
  assert (LC : length (k_comps (a_geo h)) = length (acomps (a_par h))) by (rewrite E5, <- GC, map_length; reflexivity).
  assert (SP : T_ArithBlk.scan_params (a_par h)).
  { split; [|split; [exact E6|exact E7]]. right. unfold T_ArithBlk.progressive. rewrite E1, E2, E3, E4, <- LC. split; [exact PR|]. split; [destruct SE as [SE|(Q1 & Q2 & Q3 & Q4)]; [left; exact SE|right; split; [lia|exact Q4]]|]. split; [exact AL|exact AH]. }
  pose proof (ready 16384 _ _ A bound_16384 pre s (a_geo h) nc maxA OK MA GO GC GD D ms IV SI) as RD.
  assert (F : Forall2 (T_ArithBlk.mcu_pair (a_par h)) (map (tagged (a_geo h)) (adjusted s (a_geo h) D ms)) (map (tagged (a_geo h)) (held (a_geo h) D))).
  { refine (F2_impl _ _ _ _ RD _). intros x y [F1 F2]. split; [|rewrite E1; exact F2]. refine (F2_impl _ _ _ _ F1 _). intros u v (U1 & U2 & U3 & U4 & U5). split; [exact U1|]. split; [rewrite <- LC; exact U2|]. split; [exact U3|]. rewrite E1, E2, E3. split; [exact U4|]. intros _. lia. }
  assert (EN' : encode_scan (a_par h) (map (tagged (a_geo h)) (adjusted s (a_geo h) D ms)) = Ret bytes).
  { rewrite <- EN. unfold a_encode. destruct (Z.eq_dec (Ss s) 0) as [S0|S0]; [|rewrite (adjusted_id 16384 A s _ D ms SI (or_introl S0)); reflexivity]. destruct (Z.eq_dec (Ah s) 0) as [A0|A0]; [rewrite (adjusted_id 16384 A s _ D ms SI (or_intror A0)); reflexivity|].
    symmetry. apply a_same; [exact PR|congruence|congruence|rewrite E4; lia|]. rewrite E4. apply (adjusted_bits 16384 A s _ D ms SI GO S0 A0); [lia|]. exact (multiples _ _ _ _ _ _ _ _ _ _ IV OK GC S0 A0 (proj1 AL)). }
  destruct (T_ArithBlk.C29_scan_roundtrip (a_par h) _ _ SP F) as (bytes' & DO' & DEC). rewrite EN' in DO'. injection DO' as <-.
  destruct (DEC fill m rest M0 M1) as (news & st & P1 & (P2 & P3 & P4) & _). exists (stored (a_geo h) news D). unfold a_decode. rewrite P1. split; [reflexivity|].
  apply (done_holds 16384 _ _ A bound_16384 pre s (a_geo h) nc maxA OK MA GO GC GD D ms IV SI); [rewrite <- P3, map_length; apply held_len|].
  intros k x o n X O N1. destruct (P4 k x o n X O N1) as (R1 & R2 & R3). split; [exact R1|]. split; [exact R2|]. rewrite E1, E2, E4 in R3. exact R3.
Qed.
Lemma huff_all p f A nc maxA : maxA <= 13 -> forall script hs, Forall2 (huff_scan p f) script hs -> forall srcs pre D, Forall2 (huff_written A) hs srcs ->
  (forall pre' s post, script = pre' ++ s :: post -> progressive_scan_ok nc maxA (pre ++ pre') s) -> holds 32768 (Hf f) (Wf f) A pre D ->
  exists D', h_decode_all (combine hs srcs) D = Ret (Some D') /\ holds 32768 (Hf f) (Wf f) A (pre ++ script) D'.
Proof.
  intros MA. induction 1 as [|s h script hs J F IH]; intros srcs pre D WR OK IV; inversion WR as [|? src ? srcs' W1 W2]; subst; cbn [combine h_decode_all].
  - exists D. rewrite app_nil_r. split; [reflexivity|exact IV].
  - pose proof (OK [] s script eq_refl) as OK1. rewrite app_nil_r in OK1. destruct (huff_step p f s h A src pre D nc maxA MA OK1 J W1 IV) as (D1 & E1 & I1). rewrite E1. cbn [bind].
    destruct (IH srcs' (pre ++ [s]) D1 W2) as (D2 & E2 & I2); [|exact I1|exists D2; split; [exact E2|rewrite <- app_assoc in I2; exact I2]]. intros pre' s' post ->. rewrite <- app_assoc. exact (OK (s :: pre') s' post eq_refl).
Qed.
Lemma arith_all p f A nc maxA : maxA <= 13 -> forall script hs, Forall2 (arith_scan p f) script hs -> forall srcs pre D, Forall2 (arith_written A) hs srcs ->
  (forall pre' s post, script = pre' ++ s :: post -> progressive_scan_ok nc maxA (pre ++ pre') s) -> holds 16384 (Hf f) (Wf f) A pre D ->
  exists D', a_decode_all (combine hs srcs) D = Ret (Some D') /\ holds 16384 (Hf f) (Wf f) A (pre ++ script) D'.
Proof.
  intros MA. induction 1 as [|s h script hs J F IH]; intros srcs pre D WR OK IV; inversion WR as [|? src ? srcs' W1 W2]; subst; cbn [combine a_decode_all].
  - exists D. rewrite app_nil_r. split; [reflexivity|exact IV].
  - pose proof (OK [] s script eq_refl) as OK1. rewrite app_nil_r in OK1. destruct (arith_step p f s h A src pre D nc maxA MA OK1 J W1 IV) as (D1 & E1 & I1). rewrite E1. cbn [bind].
    destruct (IH srcs' (pre ++ [s]) D1 W2) as (D2 & E2 & I2); [|exact I1|exists D2; split; [exact E2|rewrite <- app_assoc in I2; exact I2]]. intros pre' s' post ->. rewrite <- app_assoc. exact (OK (s :: pre') s' post eq_refl).
Qed.
Lemma in_image_dims f i r b : in_image f i r b -> (r < Hf f i)%nat /\ (b < Wf f i)%nat /\ Z.of_nat i < components f.
Proof. intros (c & E & R & Bb). unfold Hf, Wf, components. rewrite E. split; [exact R|]. split; [exact Bb|]. assert (i < length (M_Geom.f_comps f))%nat by (apply nth_error_Some; congruence). lia. Qed.

(* a complete script leaves nothing unknown *)
Lemma decreasing nc maxA script c k : successive nc maxA script -> forall p, last_covering script c k = Some p -> forall s, In s script -> covers s c k -> Al p <= Al s.
Proof.
  intros SU. assert (G : forall post pre, script = pre ++ post -> forall p, last_covering pre c k = Some p -> forall s, In s pre -> covers s c k -> Al p <= Al s).
  2: { intros p L s I C. apply (G [] script); [rewrite app_nil_r; reflexivity|exact L|exact I|exact C]. }
  intros post pre. revert post. induction pre as [|x pre IH] using rev_ind; intros post E p L s I C; [contradiction|]. rewrite last_snoc in L. destruct (coversb x c k) eqn:CX.
  - injection L as ->. apply in_app_iff in I. destruct I as [I|[->|[]]]; [|lia]. rewrite <- app_assoc in E. cbn [app] in E. apply coversb_iff in CX. destruct (SU pre p post E) as (_ & _ & _ & _ & _ & _ & _ & R). specialize (R c k CX).
    destruct (last_covering pre c k) as [q|] eqn:LQ; [specialize (IH (p :: post) E q eq_refl s I C); lia|]. exfalso. unfold last_covering in LQ. 
    assert (X : coversb s c k = false) by (apply (find_none _ _ LQ s); apply in_rev; rewrite rev_involutive; exact I). apply coversb_iff in C. congruence.
  - apply in_app_iff in I. destruct I as [I|[->|[]]]; [|apply coversb_iff in C; congruence]. rewrite <- app_assoc in E. exact (IH (x :: post) E p L s I C).
Qed.
Lemma complete_known nc maxA script c k v : successive nc maxA script -> complete nc script -> 0 <= c < nc -> 0 <= k < 64 -> known script c k v = v.
Proof.
  intros SU CO C0 K0. specialize (CO c k 0 C0 ltac:(lia) ltac:(lia)). destruct (filter (sends c k 0) script) as [|s l] eqn:FI; [discriminate|]. assert (IS : In s (filter (sends c k 0) script)) by (rewrite FI; left; reflexivity). apply filter_In in IS. destruct IS as [IS SE]. unfold sends in SE. apply andb_prop in SE. destruct SE as [SC SB].
  assert (NN : forall q, In q script -> 0 <= Al q). { intros q I. apply in_split in I. destruct I as (a & b & E). destruct (SU a q b E) as (_ & _ & _ & _ & X & _). lia. }
  assert (AS : Al s = 0). { pose proof (NN s IS). destruct (Ah s =? 0); [apply Z.leb_le in SB; lia|apply Z.eqb_eq in SB; exact SB]. }
  unfold known. destruct (last_covering script c k) as [p|] eqn:L.
  - pose proof (decreasing nc maxA script c k SU p L s IS ltac:(apply coversb_iff; exact SC)). pose proof (NN p (proj1 (last_in _ _ _ _ L))). replace (Al p) with 0 by lia. apply at_prec_0.
  - unfold last_covering in L. pose proof (find_none _ _ L s ltac:(apply in_rev; rewrite rev_involutive; exact IS)) as X. cbn in X. congruence.
Qed.
Lemma same_block D A : length (snd D) = 63%nat -> length (snd A) = 63%nat -> (forall k, 0 <= k < 64 -> coef D k = coef A k) -> D = A :> block.
Proof.
  intros L1 L2 E. assert (X : blk_of D = blk_of A) by (apply T_ArithBlk.zz_ext; [apply blk_len; exact L1|apply blk_len; exact L2|exact E]). unfold blk_of in X. injection X as X1 X2. destruct D, A. cbn in *. congruence.
Qed.

(* ---- theorems ---- *)
(* progressive display: after any number of scans every coefficient is known to exactly the precision the scans carried *)
Theorem C19_after_scans : forall p f maxA script hs srcs A, successive (components f) maxA script -> maxA <= 13 ->
  Forall2 (huff_scan p f) script hs -> Forall2 (huff_written A) hs srcs ->
  exists D, h_decode_all (combine hs srcs) zero_arrays = Ret (Some D) /\
    forall i r b, in_image f i r b -> length (snd (D i r b)) = 63%nat /\ forall k, 0 <= k < 64 -> coef (D i r b) k = known script (Z.of_nat i) k (coef (A i r b) k).
Proof.
  intros p f maxA script hs srcs A SU MA J WR. destruct (huff_all p f A _ maxA MA script hs J srcs [] zero_arrays WR SU (holds_nil _ _ _ _)) as (D & E & IV). exists D. split; [exact E|].
  intros i r b II. destruct (in_image_dims f i r b II) as (R & Bb & _). destruct (IV i r b) as (I1 & I2 & _). split; [exact I1|exact (I2 R Bb)].
Qed.
Theorem C19_arith_after_scans : forall p f maxA script hs inps A, successive (components f) maxA script -> maxA <= 13 ->
  Forall2 (arith_scan p f) script hs -> Forall2 (arith_written A) hs inps ->
  exists D, a_decode_all (combine hs inps) zero_arrays = Ret (Some D) /\
    forall i r b, in_image f i r b -> length (snd (D i r b)) = 63%nat /\ forall k, 0 <= k < 64 -> coef (D i r b) k = known script (Z.of_nat i) k (coef (A i r b) k).
Proof.
  intros p f maxA script hs srcs A SU MA J WR. destruct (arith_all p f A _ maxA MA script hs J srcs [] zero_arrays WR SU (holds_nil _ _ _ _)) as (D & E & IV). exists D. split; [exact E|].
  intros i r b II. destruct (in_image_dims f i r b II) as (R & Bb & _). destruct (IV i r b) as (I1 & I2 & _). split; [exact I1|exact (I2 R Bb)].
Qed.
(* a script the library accepts is of this kind *)
Lemma accepted nc prec script : 0 <= nc <= 10 -> wf script -> validate_script nc prec script = Ret Progressive -> successive nc (max_bit prec) (map scan_of script) /\ max_bit prec <= 13.
Proof.
  intros N W V. apply (proj1 (C14_validate_script nc prec script N W)) in V. destruct V as [_ [V _]]. split; [exact V|]. unfold max_bit. destruct (prec =? 12); lia.
Qed.
Definition image_blocks (f : M_Geom.frame) (A : arrays) : Prop := forall i r b, in_image f i r b -> length (snd (A i r b)) = 63%nat.
(* whole files: a script the library accepts and that sends every bit gives back every block of the image, exactly *)
Theorem C19_roundtrip : forall p f prec script hs srcs A, 0 <= components f <= 10 -> wf script -> validate_script (components f) prec script = Ret Progressive -> complete (components f) (map scan_of script) ->
  image_blocks f A -> Forall2 (huff_scan p f) (map scan_of script) hs -> Forall2 (huff_written A) hs srcs ->
  exists D, h_decode_all (combine hs srcs) zero_arrays = Ret (Some D) /\ forall i r b, in_image f i r b -> D i r b = A i r b.
Proof.
  intros p f prec script hs srcs A N W V CO IB J WR. destruct (accepted _ prec script N W V) as [SU MA]. destruct (C19_after_scans p f _ _ hs srcs A SU MA J WR) as (D & E & K). exists D. split; [exact E|].
  intros i r b II. destruct (K i r b II) as [K1 K2]. destruct (in_image_dims f i r b II) as (_ & _ & LT). apply same_block; [exact K1|exact (IB i r b II)|]. intros k Hk. rewrite (K2 k Hk). apply (complete_known (components f) (max_bit prec)); [exact SU|exact CO|lia|exact Hk].
Qed.
Theorem C19_arith_roundtrip : forall p f prec script hs inps A, 0 <= components f <= 10 -> wf script -> validate_script (components f) prec script = Ret Progressive -> complete (components f) (map scan_of script) ->
  image_blocks f A -> Forall2 (arith_scan p f) (map scan_of script) hs -> Forall2 (arith_written A) hs inps ->
  exists D, a_decode_all (combine hs inps) zero_arrays = Ret (Some D) /\ forall i r b, in_image f i r b -> D i r b = A i r b.
Proof.
  intros p f prec script hs srcs A N W V CO IB J WR. destruct (accepted _ prec script N W V) as [SU MA]. destruct (C19_arith_after_scans p f _ _ hs srcs A SU MA J WR) as (D & E & K). exists D. split; [exact E|].
  intros i r b II. destruct (K i r b II) as [K1 K2]. destruct (in_image_dims f i r b II) as (_ & _ & LT). apply same_block; [exact K1|exact (IB i r b II)|]. intros k Hk. rewrite (K2 k Hk). apply (complete_known (components f) (max_bit prec)); [exact SU|exact CO|lia|exact Hk].
Qed.
(* the MCUs the library's controllers send (C38) are of the kind required *)
Lemma fill_range B : 0 < B -> forall l prev, - B <= prev < B -> -32768 <= prev <= 32767 -> (forall x, In (Some x) l -> block_range B x) -> forall x, In x (fill prev l) -> block_range B x.
Proof.
  intros B0. induction l as [|[y|] l IH]; intros prev P1 P2 RL x I; cbn [fill] in I; [contradiction| |]; destruct I as [<- |I].
  - apply RL. left. reflexivity.
  - destruct (RL y (or_introl eq_refl)) as (_ & Y2 & Y3). refine (IH (fst y) Y3 _ _ x I); [exact (Y2 0 ltac:(lia))|]. intros z Hz. apply RL. right. exact Hz.
  - split; [reflexivity|]. split; [|exact P1]. intros k Hk. unfold coef. cbn [fst snd]. destruct (Z.eq_dec k 0) as [->|]; [rewrite zz_0; exact P2|]. rewrite (zz_tail prev 0) by lia. change (0 :: zeros) with (repeat 0 64). unfold zz. rewrite nth_repeat. lia.
  - refine (IH prev P1 P2 _ x I). intros z Hz. apply RL. right. exact Hz.
Qed.
Theorem C19_controllers : forall p f s g B A, geometry p f s g -> 0 < B -> (forall i r b, in_image f i r b -> block_range B (A i r b)) -> sends_image B g A (scan_mcus g A).
Proof.
  intros p f s g B A G B0 RA. destruct (geometry_ok p f s g G) as (GO & GC & GD). pose proof (T_MCU.scan_wf g A GO) as WF. split; [exact WF|]. intros c r b x I. split; [|intros R1 R2; exact (T_MCU.placed_real g A c r b x GO I R1 R2)].
  apply (placed_iff g _ c r b x WF) in I. destruct I as (k & j & K & I1 & I2). apply nth_error_In in I2. unfold scan_mcus in I2.
  rewrite nth_indep with (d' := (fun k => mcu_spec g A (k / k_cols g) (k mod k_cols g)) 0%nat) in I2 by (rewrite map_length, seq_length; exact K). rewrite (map_nth (fun k => mcu_spec g A (k / k_cols g) (k mod k_cols g))), seq_nth in I2 by exact K.
  unfold mcu_spec in I2. refine (fill_range B B0 _ 0 _ _ _ x I2); [lia|lia|]. intros y Hy. apply in_map_iff in Hy. destruct Hy as ([[c' r'] b'] & E & Hy). cbn [real] in E. destruct (Nat.ltb_spec r' (k_hib c')) as [R1|]; [|discriminate]. destruct (Nat.ltb_spec b' (k_wib c')) as [R2|]; [|discriminate]. cbn [andb] in E. injection E as <-.
  apply RA. cbn [Nat.add] in Hy. destruct (P_MCUStore.pos_bounds g GO k c' r' b' K Hy) as (Hc & _). destruct (GD c' Hc) as [E1 E2]. rewrite E1 in R1. rewrite E2 in R2. unfold Hf in R1. unfold Wf in R2. unfold in_image. destruct (nth_error (M_Geom.f_comps f) (k_idx c')) as [cc|]; [|lia]. exists cc. auto.
Qed.

(* ---- non-vacuity: a 20 x 20 image of two components, 4:2:0; DC first scans of the components apart, DC refinement interleaved
   (so that it meets dummy blocks the decoder has never seen), AC of the first component in two steps, all with restarts ---- *)
Definition ex_p : M_Geom.cparams := M_Geom.mkCP 20 20 2 8 false [M_Geom.mkSamp 2 2; M_Geom.mkSamp 1 1].
Definition ex_f : M_Geom.frame := match M_Geom.c_initial_setup ex_p with Ret f => f | _ => M_Geom.mkFrame 0 0 false 0 0 [] 0 end.
Definition ex_si : list scan_info := [mkSI 1 [0; 0; 0; 0] 0 0 0 1; mkSI 1 [1; 0; 0; 0] 0 0 0 1; mkSI 2 [0; 1; 0; 0] 0 0 1 0; mkSI 1 [0; 0; 0; 0] 1 63 0 1; mkSI 1 [1; 0; 0; 0] 1 63 0 0; mkSI 1 [0; 0; 0; 0] 1 63 1 0].
Definition ex_script : list scan := map scan_of ex_si.
Definition ex_l (s : scan) : list M_Geom.comp := map (fun c => nth (Z.to_nat c) (M_Geom.f_comps ex_f) (M_Geom.mkComp 0 0 0 0 0 0 0 0)) (comps s).
Definition ex_sc (s : scan) : M_Geom.scan := match M_Geom.c_per_scan_setup ex_f (ex_l s) with Ret sc => sc | _ => M_Geom.mkScan [] 0 0 0 [] end.
Definition ex_h (s : scan) : hscan :=
  mkHS (ks_of ex_f (ex_sc s)) (mkPS (Ss s) (Se s) (Ah s) (Al s) 8 3 (map (fun _ => (0, 1)) (comps s))) (T_PHuff.ex_et (Ss s =? 0)) (T_PHuff.ex_dt (Ss s =? 0)).
Definition ex_A : arrays := fun i r b => to_blk (T_PHuff.ex_blk (Z.of_nat (i * 5 + r * 3 + b))).
Definition ex_out (s : scan) : list Z := match h_encode (ex_h s) (scan_mcus (h_geo (ex_h s)) ex_A) T_PHuff.ex_dest with Ret d => dout d | _ => [] end.
Definition ex_src (s : scan) : source := mkSrc (tl (ex_out s) ++ [255; 217]) [] false.
Example C19_ex_script : wf ex_si /\ validate_script (components ex_f) 8 ex_si = Ret Progressive /\ components ex_f = 2.
Proof. split; [repeat constructor|]. split; [vm_compute; reflexivity|reflexivity]. Qed.
Example C19_ex_complete : complete (components ex_f) ex_script.
Proof.
  change (components ex_f) with 2. intros c k b Hc Hk Hb. assert (C : c = 0 \/ c = 1) by lia. assert (E : ex_script = [mkScan [0] 0 0 0 1; mkScan [1] 0 0 0 1; mkScan [0; 1] 0 0 1 0; mkScan [0] 1 63 0 1; mkScan [1] 1 63 0 0; mkScan [0] 1 63 1 0]) by (vm_compute; reflexivity). rewrite E. cbn [filter]. unfold sends, coversb. cbn [comps Ss Se Ah Al].
  assert (K : ((0 <=? k) = true /\ (k <=? 63) = true) /\ ((1 <=? k) = true /\ (k <=? 0) = false \/ (1 <=? k) = false /\ (k <=? 0) = true)) by lia.
  assert (Q : (0 <=? b) = true /\ ((1 <=? b) = true /\ (0 =? b) = false \/ (1 <=? b) = false /\ (0 =? b) = true)) by lia.
  destruct K as [[K1 K2] [[K3 K4]|[K3 K4]]], Q as [Q1 [[Q2 Q3]|[Q2 Q3]]], C as [->| ->]; rewrite ?K1, ?K2, ?K3, ?K4, ?Q1, ?Q2, ?Q3; reflexivity.
Qed.
Example C19_ex_scans : Forall2 (huff_scan ex_p ex_f) ex_script (map ex_h ex_script).
Proof.
  unfold ex_script, ex_si. cbn [map]. repeat first [apply Forall2_cons | apply Forall2_nil].
  all: match goal with |- huff_scan _ _ ?s _ => split; [exists (ex_l s), (ex_sc s); split; [|split; [vm_compute; reflexivity|reflexivity]] | split; [reflexivity|]; split; [reflexivity|]; split; [reflexivity|]; split; [reflexivity|]; split; [reflexivity|]; split; [cbn; lia|]; split; [cbn; lia|]] end.
  all: match goal with
       | |- T_MCU.coded _ _ _ _ => split; [vm_compute; reflexivity|]; split; [reflexivity|]; split; [|split; [|vm_compute; reflexivity]]
       | |- _ => idtac end.
  all: match goal with
       | |- NoDup _ => vm_compute; repeat constructor; cbn; intuition discriminate
       | |- incl _ _ => vm_compute; intuition
       | |- exists ts, T_PHuff.derived_from (h_par (ex_h ?s)) ts _ _ => exists (T_PHuff.ex_tabs (Ss s =? 0)); exact (proj1 (T_PHuff.C18_ex_tables (Ss s) (Se s) (Ah s) (Al s)))
       end.
Qed.
Definition rangeb (b : block) : bool := Nat.eqb (length (snd b)) 63 && forallb (fun k => (-16384 <=? coef b k) && (coef b k <? 16384)) (map Z.of_nat (seq 0 64)).
Lemma rangeb_ok B b : 16384 <= B -> rangeb b = true -> block_range B b.
Proof.
  intros HB H. apply andb_prop in H. destruct H as [H1 H2]. apply Nat.eqb_eq in H1. rewrite forallb_forall in H2. assert (G : forall k, 0 <= k < 64 -> -16384 <= coef b k < 16384).
  { intros k Hk. specialize (H2 k ltac:(apply in_map_iff; exists (Z.to_nat k); split; [lia|apply in_seq; lia])). apply andb_prop in H2. destruct H2 as [X Y]. apply Z.leb_le in X. apply Z.ltb_lt in Y. lia. }
  split; [exact H1|]. split; [intros k Hk; specialize (G k Hk); lia|]. specialize (G 0 ltac:(lia)). unfold coef in G. rewrite zz_0 in G. lia.
Qed.
Example C19_ex_image : forall B, 16384 <= B -> forall i r b, in_image ex_f i r b -> block_range B (ex_A i r b).
Proof.
  intros B HB i r b (c & E & R & Bb). apply rangeb_ok; [exact HB|].
  assert (T : forallb (fun i => forallb (fun r => forallb (fun b => rangeb (ex_A i r b)) (seq 0 5)) (seq 0 5)) (seq 0 2) = true) by (vm_compute; reflexivity).
  assert (L : (i < 2)%nat) by (change 2%nat with (length (M_Geom.f_comps ex_f)); apply nth_error_Some; congruence).
  assert (D : (r < 5)%nat /\ (b < 5)%nat). { destruct i as [|[|i]]; [| |lia]; vm_compute in E; injection E as <-; vm_compute in R, Bb; lia. }
  rewrite forallb_forall in T. specialize (T i ltac:(apply in_seq; lia)). rewrite forallb_forall in T. specialize (T r ltac:(apply in_seq; lia)). rewrite forallb_forall in T. exact (T b ltac:(apply in_seq; lia)).
Qed.
Example C19_ex_written : Forall2 (huff_written ex_A) (map ex_h ex_script) (map ex_src ex_script).
Proof.
  pose proof C19_ex_scans as SC. assert (T : forallb (fun s => match h_encode (ex_h s) (scan_mcus (h_geo (ex_h s)) ex_A) T_PHuff.ex_dest with Ret d => if list_eq_dec Z.eq_dec (dout d) (7 :: tl (dout d)) then forallb (fun b => (0 <=? b) && (b <? 256)) (tl (dout d)) else false | _ => false end) ex_script = true) by (vm_compute; reflexivity).
  revert T SC. generalize ex_script. induction l as [|s l IH]; intros T SC; cbn [map]; [constructor|]. cbn [map] in SC. inversion SC as [|? ? ? ? S1 S2]; subst. cbn [forallb] in T. apply andb_prop in T. destruct T as [T1 T2]. constructor; [|exact (IH T2 S2)].
  unfold huff_written, ex_src, ex_out. destruct (h_encode (ex_h s) (scan_mcus (h_geo (ex_h s)) ex_A) T_PHuff.ex_dest) as [d| |] eqn:E; try discriminate. destruct (list_eq_dec Z.eq_dec (dout d) (7 :: tl (dout d))) as [ED|]; [|discriminate].
  exists (scan_mcus (h_geo (ex_h s)) ex_A), T_PHuff.ex_dest, d, (tl (dout d)), 217, []. destruct S1 as (G & _). split; [apply (C19_controllers ex_p ex_f s); [exact G|lia|apply C19_ex_image; lia]|].
  destruct T_PHuff.C18_ex_dest as [X1 X2]. split; [exact X1|]. split; [exact X2|]. split; [exact E|]. split; [exact ED|]. split; [lia|]. split; [lia|]. split; [|split; [reflexivity|unfold src_bytes; cbn; apply app_nil_r]].
  split; [|intros Q; discriminate]. unfold src_bytes. cbn [sbuf schunks flat_map]. rewrite app_nil_r.
  apply Forall_app; split; [|repeat constructor; lia]. apply Forall_forall; intros x Hx; rewrite forallb_forall in T1; specialize (T1 x Hx); apply andb_prop in T1; destruct T1 as [Y1 Y2]; apply Z.leb_le in Y1; apply Z.ltb_lt in Y2; unfold byte; lia.
Qed.
(* so the theorem applies; and the run itself, dummies and all *)
Example C19_ex_roundtrip : exists D, h_decode_all (combine (map ex_h ex_script) (map ex_src ex_script)) zero_arrays = Ret (Some D) /\ forall i r b, in_image ex_f i r b -> D i r b = ex_A i r b.
Proof.
  apply (C19_roundtrip ex_p ex_f 8 ex_si); [rewrite (proj2 (proj2 C19_ex_script)); lia|apply C19_ex_script|apply C19_ex_script|exact C19_ex_complete| |exact C19_ex_scans|exact C19_ex_written].
  intros i r b II. apply (C19_ex_image 16384 ltac:(lia) i r b II).
Qed.

Print Assumptions C19_after_scans.
Print Assumptions C19_arith_after_scans.
Print Assumptions C19_roundtrip.
Print Assumptions C19_arith_roundtrip.
Print Assumptions C19_controllers.
