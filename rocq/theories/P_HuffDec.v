(* P_HuffDec.v -- decode_mcu_slow refines the reference decoder *)
From Verif Require Import Base M_HuffTbl S_Huff P_HuffTbl P_HuffTblD M_Source M_BitRead S_Stream P_BitRead P_HuffSym M_HuffDec.

Lemma extend_range n v : (1 <= n <= 16)%nat -> 0 <= v < 2 ^ Z.of_nat n ->
  - 2 ^ 16 < extend n v < 2 ^ 16.
Proof.
  intros Hn Hv. unfold extend.
  assert (2 ^ Z.of_nat n <= 2 ^ 16) by (apply Z.pow_le_mono_r; lia).
  destruct (v <? _); lia.
Qed.

Lemma s32_id x : - 2 ^ 31 <= x < 2 ^ 31 -> s32 x = x.
Proof. intros. unfold s32. rewrite Z.mod_small by lia. lia. Qed.
Lemma s16_id x : - 2 ^ 15 <= x < 2 ^ 15 -> s16 x = x.
Proof. intros. unfold s16. rewrite Z.mod_small by lia. lia. Qed.

Lemma HUFF_EXTEND_spec n v : (1 <= n <= 16)%nat -> 0 <= v < 2 ^ Z.of_nat n ->
  HUFF_EXTEND v (Z.of_nat n) = extend n v.
Proof.
  intros Hn Hv. unfold HUFF_EXTEND. pose proof (extend_range n v Hn Hv) as HE.
  assert (Hp : 2 ^ Z.of_nat n = 2 * 2 ^ (Z.of_nat n - 1)).
  { rewrite <- Z.pow_succ_r by lia. f_equal. lia. }
  assert (Hb : 0 < 2 ^ (Z.of_nat n - 1) <= 2 ^ 15).
  { split; [apply Z.pow_pos_nonneg; lia|apply Z.pow_le_mono_r; lia]. }
  rewrite !Z.shiftl_mul_pow2, Z.mul_1_l by lia.
  rewrite Z.shiftr_div_pow2 by lia.
  assert (E : v + Z.land ((v - 2 ^ (Z.of_nat n - 1)) / 2 ^ 31) (-1 * 2 ^ Z.of_nat n + 1) = extend n v).
  { unfold extend. destruct (Z.ltb_spec v (2 ^ (Z.of_nat n - 1))).
    - replace ((v - 2 ^ (Z.of_nat n - 1)) / 2 ^ 31) with (-1).
      + rewrite Z.land_m1_l. lia.
      + apply Z.div_unique with (r := v - 2 ^ (Z.of_nat n - 1) + 2 ^ 31); lia.
    - rewrite Z.div_small by lia. rewrite Z.land_0_l. lia. }
  rewrite E. apply s32_id. lia.
Qed.

(* reference view of a block: its tables *)
Record rblk := mkRB { r_dc : JHUFF_TBL; r_ac : JHUFF_TBL }.

Definition tbl_ok (isDC : bool) (t : JHUFF_TBL) (d : d_derived_tbl) : Prop :=
  huff_type_ok t = true /\ dec_table_ok false isDC (hbits t) (hval t) /\ d_inv t d.

Lemma dec_symbol_range isDC t d S p : tbl_ok isDC t d ->
  0 <= fst (dec_symbol (hbits t) (hval t) S p) <= 255 /\
  (isDC = true -> fst (dec_symbol (hbits t) (hval t) S p) <= 15).
Proof.
  intros (Ht & [Hc Hdc] & Hd). unfold dec_symbol.
  destruct (code_at (hbits t) S p) as [k|] eqn:E; cbn [fst]; [|lia].
  assert (Hk : (k < length (code_sizes (hbits t)))%nat).
  { unfold code_at in E. apply find_some in E. destruct E as [H _]. apply in_seq in H. lia. }
  destruct (huff_type_ok_inv t Ht) as (_ & _ & Hv1 & Hv2).
  destruct Hc as [Hlen _]. split; [specialize (Hv2 k ltac:(lia)); lia|].
  intros Hi. specialize (Hdc Hi). rewrite Forall_forall in Hdc. apply Hdc.
  unfold listed. apply nth_firstn_In; lia.
Qed.

Section Dec.
Notation DS := (dst sqst).

Definition post (c : ctx) (W : list jwarn) (p : nat) (ok : bool) (s : DS) : Prop :=
  exists W', inv c W' p p s /\ (ok = true -> W' = W).

Definition susp_ok (c : ctx) (s' : DS) : Prop :=
  cT c = None /\ cU c = true /\ unread s' = 0 /\ insuff s' = false.

(* suspension after making a prefix of the stores [full] *)
Definition susp_out (c : ctx) (s : DS) (full : list (Z * Z * Z)) (s' : DS) : Prop :=
  susp_ok c s' /\ exists o1 o2, souts (ust s') = souts (ust s) ++ o1 /\ full = o1 ++ o2.

Lemma susp_out_same c (s s' : DS) full : susp_ok c s' /\ ust s' = ust s -> susp_out c s full s'.
Proof. intros [H1 H2]. split; auto. exists [], full. rewrite H2, app_nil_r. auto. Qed.

Lemma inv_ust c W p q (s : DS) (u : sqst) : inv c W p q s ->
  inv c W p q (mkD (gbuf s) (bleft s) (dsrc s) (unread s) (insuff s) (warns s) u).
Proof. intros [H1 H2 H3 H4 H5 H6 H7 H8 H9 H10]. constructor; auto. Qed.

Lemma sym_step isDC t d c W p (s : DS) : tbl_ok isDC t d -> inv c W p p s ->
  wp (huff_decode d) s
    (fun v s' => ust s' = ust s /\
       let '(v', p', ok) := ref_sym (hbits t) (hval t) (cS c) p in
       v = v' /\ exists W', inv c W' p' p' s' /\ (ok = true -> W' = W))
    (fun s' => susp_ok c s' /\ ust s' = ust s).
Proof.
  intros (Ht & [Hc Hdc] & Hd) I. eapply wp_mono; [apply (huff_decode_spec t d Ht Hc Hd); exact I| |].
  - cbn beta. intros v s' (A & B & C). split; auto. unfold ref_sym. split; auto.
    eexists. split; [exact C|]. unfold sym_warn. destruct (code_at (hbits t) (cS c) p); [auto|discriminate].
  - intros s' (A1 & A2 & A3 & A4 & A5). repeat split; auto.
Qed.

Lemma take_step c W p n (s : DS) : inv c W p p s -> (1 <= n <= 30)%nat ->
  wp (check_bit_buffer (Z.of_nat n) ;~ get_bits (Z.of_nat n)) s
     (fun v s' => v = bval (bits_at (cS c) p n) /\ inv c W (p + n) (p + n) s' /\ ust s' = ust s)
     (fun s' => susp_ok c s' /\ ust s' = ust s).
Proof.
  intros I Hn. eapply wp_mono; [apply take_spec; eauto|auto|].
  intros s' (A1 & A2 & A3 & A4 & A5). repeat split; auto.
Qed.

Lemma dbind_assoc_run {A B C} (m : DM sqst A) (f : A -> DM sqst B) (g : B -> DM sqst C) s :
  dbind m (fun a => dbind (f a) g) s = dbind (dbind m f) g s.
Proof. unfold dbind. destruct (m s) as [[a s'|s']| |]; auto. Qed.

Definition set_dc (dcs : list Z) (ci : Z) (diff : Z) : list Z :=
  upd dcs (Z.to_nat ci) (s32 (diff + nth (Z.to_nat ci) dcs 0)).

Definition dc_outs (bn : Z) (b : blkcfg) (dcs : list Z) (diff : Z) : list (Z * Z * Z) :=
  if b_dcneed b && b_have b then [(bn, 0, s16 (s32 (diff + nth (Z.to_nat (b_ci b)) dcs 0)))] else [].

Lemma decode_dc_spec bn b t c W p (s : DS) :
  tbl_ok true t (b_dc b) -> 0 <= b_ci b < Z.of_nat (length (sdc (ust s))) -> inv c W p p s ->
  wp (decode_dc bn b) s
    (fun _ s' =>
       let '(diff, p', ok) := ref_dc (hbits t) (hval t) (cS c) p in
       ust s' = mkSq (if b_dcneed b then set_dc (sdc (ust s)) (b_ci b) diff else sdc (ust s))
                     (souts (ust s) ++ dc_outs bn b (sdc (ust s)) diff) /\
       post c W p' ok s')
    (fun s' => susp_ok c s' /\ ust s' = ust s).
Proof.
  intros Ht Hci I. unfold decode_dc. apply wp_bind.
  eapply wp_mono; [eapply sym_step; eauto| |auto]. cbn beta. intros s0 s1 (U1 & H1).
  unfold ref_dc. destruct (ref_sym (hbits t) (hval t) (cS c) p) as [[v' p1] ok] eqn:Er.
  destruct H1 as (-> & W1 & I1 & HW1).
  pose proof (dec_symbol_range true t (b_dc b) (cS c) p Ht) as [R1 R2]. specialize (R2 eq_refl).
  unfold ref_sym in Er. inversion Er; subst v' p1 ok. clear Er.
  set (v := fst (dec_symbol (hbits t) (hval t) (cS c) p)) in *.
  set (p1 := snd (dec_symbol (hbits t) (hval t) (cS c) p)) in *.
  set (ok := match code_at (hbits t) (cS c) p with Some _ => true | None => false end) in *.
  apply wp_bind.
  (* the difference *)
  eapply wp_mono with (P := fun x s2 => ust s2 = ust s /\
     let '(diff, p', ok') := (if v =? 0 then (0, p1, ok) else
        (extend (Z.to_nat v) (bval (bits_at (cS c) p1 (Z.to_nat v))), (p1 + Z.to_nat v)%nat, ok)) in
     x = diff /\ post c W p' ok' s2) (Q := fun s' => susp_ok c s' /\ ust s' = ust s); [| |auto].
  { destruct (Z.eqb_spec v 0).
    - unfold wp, dret. split; auto. split; auto. exists W1. auto.
    - eapply wp_run; [apply dbind_assoc_run|]. apply wp_bind.
      pose proof (take_step c W1 p1 (Z.to_nat v) s1 I1 ltac:(lia)) as T. rewrite Z2Nat.id in T by lia.
      eapply wp_mono; [exact T| |intros s' [Q1 Q2]; split; [auto|congruence]].
      cbn beta. intros x s2 (-> & I2 & U2). unfold wp, dret. split; [congruence|]. split.
      + rewrite <- (Z2Nat.id v) at 2 by lia. apply HUFF_EXTEND_spec; [lia|].
        pose proof (bval_range (bits_at (cS c) p1 (Z.to_nat v))) as R. rewrite length_bits_at in R. exact R.
      + exists W1. auto. }
  cbn beta. intros x s2 (U2 & H2).
  destruct (if v =? 0 then _ else _) as [[diff p'] ok']. destruct H2 as (-> & W2 & I2 & HW2).
  destruct (b_dcneed b) eqn:En.
  - apply wp_bind. unfold wp at 1, dget. apply wp_bind.
    eapply wp_lift; [apply (aget_nth _ _ 0); rewrite U2; lia|]. apply wp_bind.
    eapply wp_lift; [apply aset_ok; rewrite U2; lia|]. apply wp_bind.
    unfold wp at 1, dmod. cbn beta. rewrite U2. fold (set_dc (sdc (ust s)) (b_ci b) diff).
    unfold dc_outs. rewrite En. cbn [andb]. destruct (b_have b).
    + unfold out_put. cbn [Z.leb Z.ltb Z.compare andb]. unfold wp, dmod. cbn [ust sdc souts gbuf bleft dsrc unread insuff warns].
      split; auto. exists W2. split; auto. apply inv_ust. auto.
    + unfold wp, dret. cbn [ust sdc souts gbuf bleft dsrc unread insuff warns].
      rewrite app_nil_r. split; auto. exists W2. split; auto. apply inv_ust. auto.
  - unfold wp, dret, dc_outs. rewrite En. cbn [andb]. rewrite app_nil_r. split; [rewrite U2; destruct (ust s); reflexivity|].
    exists W2. auto.
Qed.

Definition ac_outs (bn : Z) (l : list (nat * Z)) : list (Z * Z * Z) :=
  map (fun e => (bn, nth (fst e) jpeg_natural_order 0, s16 (snd e))) l.

Lemma nat_order_range k : (k < 80)%nat -> 0 <= nth k jpeg_natural_order 0 < 64.
Proof.
  intros H. do 80 (destruct k as [|k]; [cbn; lia|]). lia.
Qed.

Lemma decode_ac_spec bn b t store : tbl_ok false t (b_ac b) ->
  forall fuel k c W p (s : DS),
  (1 <= k)%nat -> (k <= 79)%nat -> (64 - k < fuel)%nat -> inv c W p p s ->
  wp (decode_ac fuel bn b store (Z.of_nat k)) s
    (fun _ s' =>
       let '(l, p', ok) := ref_ac fuel (hbits t) (hval t) (cS c) p k in
       ust s' = mkSq (sdc (ust s)) (souts (ust s) ++ (if store then ac_outs bn l else [])) /\
       post c W p' ok s')
    (susp_out c s (if store then ac_outs bn (fst (fst (ref_ac fuel (hbits t) (hval t) (cS c) p k))) else [])).
Proof.
  intros Ht. induction fuel as [|f IH]; intros k c W p s Hk Hk2 Hf I; [lia|].
  cbn [decode_ac ref_ac].
  destruct (Z.ltb_spec (Z.of_nat k) 64) as [H64|H64]; destruct (Nat.ltb_spec k 64); try lia.
  2:{ unfold wp, dret. split; [|exists W; auto].
      destruct store; cbn; rewrite ?app_nil_r; destruct (ust s); reflexivity. }
  apply wp_bind. eapply wp_mono; [eapply sym_step; eauto| |intros s' Q; apply susp_out_same; exact Q].
  cbn beta. intros rs s1 (U1 & H1).
  pose proof (dec_symbol_range false t (b_ac b) (cS c) p Ht) as [R1 _].
  unfold ref_sym in *. 
  set (v := fst (dec_symbol (hbits t) (hval t) (cS c) p)) in *.
  set (p1 := snd (dec_symbol (hbits t) (hval t) (cS c) p)) in *.
  set (ok := match code_at (hbits t) (cS c) p with Some _ => true | None => false end) in *.
  destruct H1 as (-> & W1 & I1 & HW1).
  assert (Er : Z.shiftr v 4 = Z.of_nat (Z.to_nat (v / 16))).
  { rewrite Z.shiftr_div_pow2 by lia. change (2 ^ 4) with 16. rewrite Z2Nat.id; auto. apply Z.div_pos; lia. }
  assert (Es : Z.land v 15 = Z.of_nat (Z.to_nat (v mod 16))).
  { change 15 with (Z.ones 4). rewrite Z.land_ones by lia. change (2 ^ 4) with 16. rewrite Z2Nat.id; auto.
    apply Z.mod_pos_bound. lia. }
  rewrite Er, Es. assert (Hr : (Z.to_nat (v / 16) <= 15)%nat).
  { assert (v / 16 < 16) by (apply Z.div_lt_upper_bound; lia). lia. }
  assert (Hs : (Z.to_nat (v mod 16) <= 15)%nat).
  { pose proof (Z.mod_pos_bound v 16). lia. }
  set (r := Z.to_nat (v / 16)) in *. set (n := Z.to_nat (v mod 16)) in *.
  destruct (Z.eqb_spec (Z.of_nat n) 0); destruct (Nat.eqb_spec n 0); try lia; cbn [negb].
  - destruct (Z.eqb_spec (Z.of_nat r) 15); destruct (Nat.eqb_spec r 15); try lia; cbn [negb].
    + replace (Z.of_nat k + 15 + 1) with (Z.of_nat (k + 16)) by lia.
      eapply wp_mono; [eapply IH; [lia|lia|lia|exact I1]| |].
      2:{ intros s' (Q1 & o1 & o2 & Q2 & Q3). split; auto. exists o1, o2. split; [congruence|].
          destruct (ref_ac f _ _ _ p1 (k + 16)) as [[l p2] ok2]. exact Q3. }
      cbn beta. intros _ s2. destruct (ref_ac f _ _ _ p1 (k + 16)) as [[l p2] ok2].
      intros (U2 & W2 & I2 & HW2). split; [rewrite U2, U1; reflexivity|].
      exists W2. split; auto. intros Ho. apply andb_true_iff in Ho. destruct Ho as [O1 O2].
      rewrite (HW2 O2). auto.
    + unfold wp, dret. split; [|exists W1; auto].
      destruct store; cbn; rewrite ?app_nil_r, U1; destruct (ust s); reflexivity.
  - destruct (ref_ac f (hbits t) (hval t) (cS c) (p1 + n) (k + r + 1)) as [[l p2] ok2] eqn:Erec.
    replace (Z.of_nat k + Z.of_nat r) with (Z.of_nat (k + r)) by lia.
    replace (Z.of_nat (k + r) + 1) with (Z.of_nat (k + r + 1)) by lia.
    assert (Hend : forall s2 : DS, inv c W1 (p1 + n) (p1 + n) s2 ->
       ust s2 = mkSq (sdc (ust s)) (souts (ust s) ++ (if store then
          [(bn, nth (k + r) jpeg_natural_order 0, s16 (extend n (bval (bits_at (cS c) p1 n))))] else [])) ->
       wp (decode_ac f bn b store (Z.of_nat (k + r + 1))) s2
         (fun _ s' => ust s' = mkSq (sdc (ust s)) (souts (ust s) ++ (if store then
              ac_outs bn (((k + r)%nat, extend n (bval (bits_at (cS c) p1 n))) :: l) else [])) /\
            post c W p2 (ok && ok2) s')
         (susp_out c s (if store then ac_outs bn (((k + r)%nat, extend n (bval (bits_at (cS c) p1 n))) :: l) else []))).
    { intros s2 I2 U2. eapply wp_mono; [eapply IH; [lia|lia|lia|exact I2]| |].
      2:{ intros s' (Q1 & o1 & o2 & Q2 & Q3). split; auto. rewrite Erec in Q3. cbn [fst] in Q3. rewrite U2 in Q2. cbn [souts] in Q2.
          destruct store; cbn [ac_outs map].
          - eexists (_ :: o1), o2. split; [rewrite Q2, <- app_assoc; reflexivity|]. cbn [app]. f_equal. exact Q3.
          - exists o1, o2. split; auto. rewrite Q2. now rewrite app_nil_r. }
      cbn beta. intros _ s3. rewrite Erec. intros (U3 & W3 & I3 & HW3). split.
      - rewrite U3, U2. cbn [sdc souts]. f_equal. rewrite <- app_assoc. f_equal. destruct store; reflexivity.
      - exists W3. split; auto. intros Ho. apply andb_true_iff in Ho. destruct Ho as [O1 O2].
        rewrite (HW3 O2). auto. }
    assert (Hbv : 0 <= bval (bits_at (cS c) p1 n) < 2 ^ Z.of_nat n).
    { pose proof (bval_range (bits_at (cS c) p1 n)) as R. rewrite length_bits_at in R. exact R. }
    apply wp_bind. eapply wp_mono; [apply check_spec; [exact I1|lia]| |].
    2:{ intros s' (A1 & A2 & A3 & A4 & A5). apply susp_out_same. split; [repeat split; auto|congruence]. }
    cbn beta. intros _ s2 (I2 & L2 & U2). rewrite Nat2Z.id in I2. apply wp_bind.
    destruct store.
    + apply wp_bind. eapply wp_mono; [apply get_spec; [exact I2|exact L2|lia]| |intros ? []].
      cbn beta. intros x s3 (-> & I3 & U3). apply wp_bind.
      eapply wp_lift; [apply (aget_nth jpeg_natural_order _ 0); change (length jpeg_natural_order) with 80%nat; lia|].
      rewrite Nat2Z.id. pose proof (nat_order_range (k + r) ltac:(lia)) as Hno. unfold out_put.
      destruct (Z.leb_spec 0 (nth (k + r) jpeg_natural_order 0)); [|lia].
      destruct (Z.ltb_spec (nth (k + r) jpeg_natural_order 0) 64); [|lia]. cbn [andb].
      unfold wp at 1, dmod. apply Hend.
      * apply inv_ust. exact I3.
      * cbn [ust]. rewrite U3, U2, U1. rewrite HUFF_EXTEND_spec by (auto; lia). reflexivity.
    + unfold wp at 1, drop_bits. destruct (Z.ltb_spec (bleft s2) (Z.of_nat n)); [lia|].
      apply Hend.
      * apply inv_drop; auto.
      * cbn [ust]. rewrite U2, U1, app_nil_r. destruct (ust s); reflexivity.
Qed.
End Dec.

(* ---- blocks and MCUs ---- *)
Definition blk_ok (rb : rblk) (b : blkcfg) (ncomp : nat) : Prop :=
  tbl_ok true (r_dc rb) (b_dc b) /\ tbl_ok false (r_ac rb) (b_ac b) /\ 0 <= b_ci b < Z.of_nat ncomp.

(* reference decoding of the blocks of an MCU: final DC predictions, stores, position, validity *)
Fixpoint ref_mcu (bn : Z) (rbs : list (rblk * blkcfg)) (dcs : list Z) (S : nat -> bool) (p : nat)
  : list Z * list (Z * Z * Z) * nat * bool :=
  match rbs with
  | [] => (dcs, [], p, true)
  | (rb, b) :: r =>
    let '(diff, l, p1, ok1) := ref_block (hbits (r_dc rb)) (hval (r_dc rb)) (hbits (r_ac rb)) (hval (r_ac rb)) S p in
    let dcs1 := if b_dcneed b then set_dc dcs (b_ci b) diff else dcs in
    let '(dcs2, o, p2, ok2) := ref_mcu (bn + 1) r dcs1 S p1 in
    (dcs2, dc_outs bn b dcs diff ++ (if b_acneed b && b_have b then ac_outs bn l else []) ++ o, p2, ok1 && ok2)
  end.

Lemma decode_blocks_spec : forall rbs bn c W p (s : dst sqst),
  Forall (fun x => blk_ok (fst x) (snd x) (length (sdc (ust s)))) rbs -> inv c W p p s ->
  wp (decode_blocks bn (map snd rbs)) s
    (fun _ s' => let '(dcs', o, p', ok) := ref_mcu bn rbs (sdc (ust s)) (cS c) p in
       ust s' = mkSq dcs' (souts (ust s) ++ o) /\ post c W p' ok s')
    (susp_out c s (snd (fst (fst (ref_mcu bn rbs (sdc (ust s)) (cS c) p))))).
Proof.
  induction rbs as [|[rb b] r IH]; intros bn c W p s Hok I; cbn [map decode_blocks ref_mcu snd].
  - unfold wp, dret. rewrite app_nil_r. split; [destruct (ust s); reflexivity|]. exists W. auto.
  - inversion Hok as [|? ? Hb Hr]; subst. cbn [fst snd] in Hb. destruct Hb as (B1 & B2 & B3).
    unfold ref_block, decode_block.
    destruct (ref_dc (hbits (r_dc rb)) (hval (r_dc rb)) (cS c) p) as [[diff p1] ok1] eqn:E1.
    destruct (ref_ac 64 (hbits (r_ac rb)) (hval (r_ac rb)) (cS c) p1 1) as [[l p2] ok2] eqn:E2.
    apply wp_bind. apply wp_bind. eapply wp_mono; [eapply decode_dc_spec; eauto| |intros s' Q; apply susp_out_same; exact Q].
    cbn beta. intros _ s1. rewrite E1. intros (U1 & W1 & I1 & HW1).
    eapply wp_mono; [eapply (decode_ac_spec bn b (r_ac rb) _ B2 64 1); [lia|lia|lia|exact I1]| |].
    2:{ intros s' (Q1 & o1 & o2 & Q2 & Q3). split; auto. rewrite E2 in Q3. cbn [fst] in Q3. rewrite U1 in Q2. cbn [souts] in Q2.
        exists (dc_outs bn b (sdc (ust s)) diff ++ o1). destruct (ref_mcu (bn + 1) r _ (cS c) p2) as [[[dcs' o] p'] ok'].
        exists (o2 ++ o). split; [rewrite Q2; now rewrite app_assoc|]. cbn [fst snd]. rewrite Q3. now rewrite <- !app_assoc. }
    cbn beta. intros _ s2. rewrite E2. intros (U2 & W2 & I2 & HW2).
    assert (Hdc2 : sdc (ust s2) = if b_dcneed b then set_dc (sdc (ust s)) (b_ci b) diff else sdc (ust s)).
    { rewrite U2, U1. reflexivity. }
    eapply wp_mono; [eapply IH; [|exact I2]| |].
    + rewrite Hdc2. destruct (b_dcneed b); auto. unfold set_dc. now rewrite length_upd.
    + cbn beta. intros _ s3. rewrite Hdc2.
      destruct (ref_mcu (bn + 1) r _ (cS c) p2) as [[[dcs' o] p'] ok'].
      intros (U3 & W3 & I3 & HW3). split.
      * rewrite U3, U2, U1. cbn [souts sdc]. f_equal. now rewrite <- !app_assoc.
      * exists W3. split; auto. intros Ho. apply andb_true_iff in Ho. destruct Ho as [O1 O2].
        apply andb_true_iff in O1. destruct O1 as [O1 O1']. rewrite (HW3 O2), (HW2 O1'), (HW1 O1). reflexivity.
    + intros s' (Q1 & o1 & o2 & Q2 & Q3). split; auto. rewrite Hdc2 in Q3. rewrite U2, U1 in Q2. cbn [souts] in Q2.
      exists (dc_outs bn b (sdc (ust s)) diff ++ (if b_acneed b && b_have b then ac_outs bn l else []) ++ o1), o2.
      destruct (ref_mcu (bn + 1) r _ (cS c) p2) as [[[dcs' o] p'] ok']. cbn [fst snd] in *.
      split; [rewrite Q2; now rewrite <- !app_assoc|]. rewrite Q3. now rewrite <- !app_assoc.
Qed.
