(* P_HuffSym.v -- decoding of one Huffman symbol refines dec_symbol *)
From Verif Require Import Base M_HuffTbl S_Huff P_HuffTbl P_HuffTblD M_Source M_BitRead S_Stream P_BitRead.

Lemma bits_at_app S p m n : bits_at S p (m + n) = bits_at S p m ++ bits_at S (p + m) n.
Proof.
  apply list_nth_ext.
  - rewrite app_length, !length_bits_at. reflexivity.
  - rewrite length_bits_at. intros i Hi. rewrite bits_at_nth by auto.
    destruct (Nat.lt_ge_cases i m).
    + rewrite app_nth1 by (rewrite length_bits_at; auto). now rewrite bits_at_nth.
    + rewrite app_nth2 by (rewrite length_bits_at; auto). rewrite length_bits_at, bits_at_nth by lia.
      f_equal. lia.
Qed.

Lemma bits_eqb_eq a b : bits_eqb a b = true <-> a = b.
Proof.
  revert b; induction a as [|x a IH]; intros [|y b]; cbn; split; intros H; try congruence; try discriminate.
  - apply andb_true_iff in H. destruct H as [H1 H2]. apply eqb_prop in H1. apply IH in H2. congruence.
  - inversion H; subst. rewrite eqb_reflx. cbn. apply IH. reflexivity.
Qed.

Definition win (S : nat -> bool) (p : nat) : Z := bval (bits_at S p 16).

Lemma win_range S p : 0 <= win S p < 2 ^ 16.
Proof. unfold win. pose proof (bval_range (bits_at S p 16)). rewrite length_bits_at in H. exact H. Qed.

Lemma win_low S p l : (l <= 16)%nat ->
  bval (bits_at S p l) * 2 ^ (16 - Z.of_nat l) <= win S p < (bval (bits_at S p l) + 1) * 2 ^ (16 - Z.of_nat l).
Proof.
  intros H. assert (E : win S p = bval (bits_at S p (l + (16 - l)))) by (unfold win; do 2 f_equal; lia).
  rewrite E, bits_at_app, bval_app.
  rewrite length_bits_at. pose proof (bval_range (bits_at S (p + l) (16 - l))) as R. rewrite length_bits_at in R.
  replace (16 - Z.of_nat l) with (Z.of_nat (16 - l)) by lia. nia.
Qed.

Lemma exists_interval sz w : 0 <= w -> w < kraft sz ->
  exists k, (k < length sz)%nat /\ kraft (firstn k sz) <= w < kraft (firstn (S k) sz).
Proof.
  intros H0 Hw. induction sz as [|s sz IH] using rev_ind; cbn [kraft] in *; [lia|].
  destruct (Z.lt_ge_cases w (kraft sz)) as [Hl|Hg].
  - destruct (IH Hl) as (k & Hk & Hi). exists k. rewrite app_length; cbn [length]. split; [lia|].
    rewrite !firstn_app. replace (k - length sz)%nat with 0%nat by lia.
    replace (S k - length sz)%nat with 0%nat by lia. cbn [firstn]. rewrite !app_nil_r. exact Hi.
  - exists (length sz). rewrite app_length; cbn [length]. split; [lia|].
    rewrite (firstn_all2 (n := S (length sz))) by (rewrite app_length; cbn; lia).
    rewrite firstn_app, Nat.sub_diag, firstn_all; cbn [firstn]. rewrite app_nil_r. lia.
Qed.

Lemma interval_unique sz i j w : kraft (firstn i sz) <= w < kraft (firstn (S i) sz) ->
  kraft (firstn j sz) <= w < kraft (firstn (S j) sz) -> i = j.
Proof.
  intros H1 H2. destruct (Nat.lt_trichotomy i j) as [H|[H|H]]; auto.
  - pose proof (kraft_mono sz (S i) j ltac:(lia)). lia.
  - pose proof (kraft_mono sz (S j) i ltac:(lia)). lia.
Qed.

(* a code starts at p iff the 16-bit window lies in its interval *)
Lemma code_match bits S p k : code_space_ok bits -> (k < length (code_sizes bits))%nat ->
  (code_word (code_sizes bits) k = bits_at S p (nth k (code_sizes bits) 0%nat)) <->
  kraft (firstn k (code_sizes bits)) <= win S p < kraft (firstn (Datatypes.S k) (code_sizes bits)).
Proof.
  intros [_ HK] Hk. set (sz := code_sizes bits) in *.
  pose proof (code_sizes_ok bits) as Hok. fold sz in Hok.
  pose proof (sizes_nth sz k Hok Hk) as Hs. set (s := nth k sz 0%nat) in *.
  pose proof (kraft_div sz k Hok Hk) as HD. fold s in HD.
  pose proof (kraft_next sz k Hk) as HN. fold s in HN.
  pose proof (win_low S p s ltac:(lia)) as HW.
  pose proof (code_word_val sz k Hok HK Hk) as HV.
  pose proof (pow16_pos s ltac:(lia)) as HP. set (q := 2 ^ (16 - Z.of_nat s)) in *.
  split.
  - intros E. rewrite <- E, HV in HW. nia.
  - intros Hi. apply bval_inj; [rewrite code_word_length, length_bits_at; reflexivity|].
    rewrite HV. set (b := bval (bits_at S p s)) in *. rewrite HN, <- HD in Hi. nia.
Qed.

Lemma code_at_some bits S p k : code_space_ok bits -> (k < length (code_sizes bits))%nat ->
  kraft (firstn k (code_sizes bits)) <= win S p < kraft (firstn (Datatypes.S k) (code_sizes bits)) ->
  code_at bits S p = Some k.
Proof.
  intros Hc Hk Hi. unfold code_at.
  destruct (find _ _) as [k'|] eqn:E.
  - apply find_some in E. destruct E as [H1 H2]. apply in_seq in H1. apply bits_eqb_eq in H2.
    apply code_match in H2; auto; [|lia]. f_equal. eapply interval_unique; eauto.
  - exfalso. pose proof (find_none _ _ E k) as HF. cbn beta in HF.
    specialize (HF ltac:(apply in_seq; lia)). apply code_match in Hi; auto.
    apply bits_eqb_eq in Hi. congruence.
Qed.

Lemma code_at_none bits S p : code_space_ok bits -> kraft (code_sizes bits) <= win S p ->
  code_at bits S p = None.
Proof.
  intros Hc Hi. unfold code_at. destruct (find _ _) as [k'|] eqn:E; auto.
  apply find_some in E. destruct E as [H1 H2]. apply in_seq in H1. apply bits_eqb_eq in H2.
  apply code_match in H2; auto; [|lia].
  pose proof (kraft_firstn_le (code_sizes bits) (Datatypes.S k')). lia.
Qed.

Lemma dec_symbol_word bits vals S p k : code_space_ok bits -> (k < length (code_sizes bits))%nat ->
  bits_at S p (nth k (code_sizes bits) 0%nat) = code_word (code_sizes bits) k ->
  dec_symbol bits vals S p = (nth k vals (-1), (p + nth k (code_sizes bits) 0)%nat).
Proof.
  intros H1 H2 H3. unfold dec_symbol. rewrite (code_at_some bits S p k); auto.
  apply code_match; auto.
Qed.

(* ---- comparison with maxcode ---- *)
Lemma csz_kraft_S bits l : kraft (csz bits (S l)) = kraft (csz bits l) + Z.of_nat (ncodes bits (S l)) * 2 ^ (16 - Z.of_nat (S l)).
Proof. now rewrite csz_S, kraft_app, kraft_repeat. Qed.

Lemma csz_firstn bits l : (l <= 16)%nat -> kraft (firstn (pos bits l) (code_sizes bits)) = kraft (csz bits l).
Proof. intros. now rewrite firstn_csz. Qed.

Lemma mx_value bits l : code_space_ok bits -> (l < 16)%nat -> ncodes bits (S l) <> 0%nat ->
  (mx_spec bits (S l) + 1) * 2 ^ (16 - Z.of_nat (S l)) = kraft (csz bits (S l)).
Proof.
  intros Hc Hl Hn. unfold mx_spec. destruct (Nat.eqb_spec (ncodes bits (S l)) 0); [lia|].
  pose proof (pos_S bits l) as HS. pose proof (pos_le bits (S l) ltac:(lia)) as HP.
  pose proof (kraft_div (code_sizes bits) (pos bits (S l) - 1) (code_sizes_ok bits) ltac:(lia)) as HD.
  rewrite (nth_code_sizes bits l) in HD by lia.
  pose proof (kraft_next (code_sizes bits) (pos bits (S l) - 1) ltac:(lia)) as HN.
  rewrite (nth_code_sizes bits l) in HN by lia.
  replace (S (pos bits (S l) - 1)) with (pos bits (S l)) in HN by lia.
  rewrite csz_firstn in HN by lia. lia.
Qed.

Lemma mx_gt bits S p l : code_space_ok bits -> (l < 16)%nat ->
  kraft (csz bits (Datatypes.S l)) <= win S p ->
  mx_spec bits (Datatypes.S l) < bval (bits_at S p (Datatypes.S l)).
Proof.
  intros Hc Hl Hw. destruct (Nat.eq_dec (ncodes bits (Datatypes.S l)) 0) as [E|E].
  - unfold mx_spec. rewrite E. cbn [Nat.eqb]. pose proof (bval_range (bits_at S p (Datatypes.S l))). lia.
  - pose proof (mx_value bits l Hc Hl E) as HM. pose proof (win_low S p (Datatypes.S l) ltac:(lia)) as HW.
    pose proof (pow16_pos (Datatypes.S l) ltac:(lia)) as HP. set (q := 2 ^ (16 - Z.of_nat (Datatypes.S l))) in *. nia.
Qed.

Lemma mx_le bits S p l : code_space_ok bits -> (l < 16)%nat ->
  kraft (csz bits l) <= win S p < kraft (csz bits (Datatypes.S l)) ->
  let k := (pos bits l + Z.to_nat (bval (bits_at S p (Datatypes.S l)) - code_value (code_sizes bits) (pos bits l)))%nat in
  bval (bits_at S p (Datatypes.S l)) <= mx_spec bits (Datatypes.S l) /\ ncodes bits (Datatypes.S l) <> 0%nat /\
  (k < length (code_sizes bits))%nat /\ nth k (code_sizes bits) 0%nat = Datatypes.S l /\
  code_value (code_sizes bits) (pos bits l) <= bval (bits_at S p (Datatypes.S l)) /\
  kraft (firstn k (code_sizes bits)) <= win S p < kraft (firstn (Datatypes.S k) (code_sizes bits)).
Proof.
  intros Hc Hl Hw k.
  assert (Hn : ncodes bits (Datatypes.S l) <> 0%nat).
  { intros E. rewrite csz_kraft_S, E in Hw. lia. }
  pose proof (mx_value bits l Hc Hl Hn) as HM. pose proof (win_low S p (Datatypes.S l) ltac:(lia)) as HW.
  pose proof (pow16_pos (Datatypes.S l) ltac:(lia)) as HP.
  pose proof (pos_S bits l) as HS. pose proof (pos_le bits (Datatypes.S l) ltac:(lia)) as Hpl.
  pose proof (kraft_div (code_sizes bits) (pos bits l) (code_sizes_ok bits) ltac:(lia)) as HD.
  rewrite (nth_code_sizes bits l) in HD by lia. rewrite csz_firstn in HD by lia.
  set (q := 2 ^ (16 - Z.of_nat (Datatypes.S l))) in *.
  set (v := bval (bits_at S p (Datatypes.S l))) in *. set (c0 := code_value (code_sizes bits) (pos bits l)) in *.
  assert (H1 : v <= mx_spec bits (Datatypes.S l)) by nia.
  assert (H2 : c0 <= v) by nia.
  pose proof (csz_kraft_S bits l) as HKS. fold q in HKS.
  assert (H3 : v - c0 < Z.of_nat (ncodes bits (Datatypes.S l))) by nia.
  assert (Hkr : (pos bits l <= k < pos bits (Datatypes.S l))%nat) by (unfold k; lia).
  split; auto. split; auto. split; [lia|].
  pose proof (nth_code_sizes bits l k Hl Hkr) as Hks. split; auto. split; auto.
  apply code_match; auto; [lia|]. rewrite Hks. apply bval_inj; [rewrite code_word_length, length_bits_at; auto|].
  destruct Hc as [Hc1 Hc2].
  rewrite code_word_val; auto; [|apply code_sizes_ok|lia].
  rewrite (group_codes bits l k (conj Hc1 Hc2) Hl Hkr). fold c0 v. unfold k. lia.
Qed.

Section Sym.
Context {U : Type}.
Variable t : JHUFF_TBL.
Variable d : d_derived_tbl.
Hypothesis Ht : huff_type_ok t = true.
Hypothesis Hc : code_space_ok (hbits t).
Hypothesis Hd : d_inv t d.

Let bits := hbits t.
Let sz := code_sizes bits.

(* warnings after decoding a symbol at p *)
Definition sym_warn (bits : list Z) (S : nat -> bool) (p : nat) (W : list jwarn) : list jwarn :=
  match code_at bits S p with Some _ => W | None => JWRN_HUFF_BAD_CODE :: W end.

Lemma wp_lift {A} (o : outcome A) a (s : dst U) (P : A -> dst U -> Prop) Q : o = Ret a -> P a s -> wp (dlift o) s P Q.
Proof. intros -> H. exact H. Qed.

Lemma tget_ok l i v : nth i l None = Some v -> (i < length l)%nat -> tget l (Z.of_nat i) = Ret v.
Proof. intros H Hl. unfold tget. rewrite (aget_nth l _ None) by lia. rewrite Nat2Z.id. cbn [bind]. now rewrite H. Qed.

Lemma slow_loop_spec c W p : forall fuel l (s : dst U),
  (1 <= l <= 17)%nat -> (17 - l < fuel)%nat -> inv c W (p + l) (p + l) s ->
  kraft (csz bits (l - 1)) <= win (cS c) p ->
  wp (huff_slow_loop fuel d (Z.of_nat l) (bval (bits_at (cS c) p l))) s
     (fun lc s' => ust s' = ust s /\
        match code_at bits (cS c) p with
        | Some k => lc = (Z.of_nat (nth k sz 0%nat), bval (bits_at (cS c) p (nth k sz 0%nat))) /\
                    (k < length sz)%nat /\
                    inv c W (p + nth k sz 0)%nat (p + nth k sz 0)%nat s'
        | None => fst lc = 17 /\ inv c W (p + 17) (p + 17) s'
        end)
     (susp_post c s).
Proof.
  destruct Hd as (D1 & D2 & D3 & D4 & D5 & D6 & D7).
  induction fuel as [|f IH]; intros l s Hl Hf I HW; [lia|]. cbn [huff_slow_loop].
  apply wp_bind.
  destruct (Nat.eq_dec l 17) as [->|Hne].
  - eapply wp_lift; [apply (tget_ok (maxcode d) 17); [exact D5|lia]|]. cbn beta.
    pose proof (bval_range (bits_at (cS c) p 17)) as R. rewrite length_bits_at in R.
    destruct (Z.ltb_spec 1048575 (bval (bits_at (cS c) p 17))); [change (2 ^ Z.of_nat 17) with 131072 in R; lia|].
    unfold wp, dret. split; auto. rewrite code_at_none; auto.
  - eapply wp_lift; [apply tget_ok; [apply D4; lia|lia]|]. cbn beta.
    destruct l as [|l]; [lia|]. cbn [Nat.sub] in HW. rewrite Nat.sub_0_r in HW.
    destruct (Z.lt_ge_cases (win (cS c) p) (kraft (csz bits (S l)))) as [Hin|Hout].
    + destruct (mx_le bits (cS c) p l Hc ltac:(lia) (conj HW Hin)) as (M1 & M2 & M3 & M4 & M5 & M6).
      fold bits. destruct (Z.ltb_spec (mx_spec bits (S l)) (bval (bits_at (cS c) p (S l)))); [lia|].
      unfold wp, dret. split; auto. rewrite (code_at_some bits (cS c) p _ Hc M3 M6). fold sz in M3, M4. fold sz.
      rewrite M4. auto.
    + pose proof (mx_gt bits (cS c) p l Hc ltac:(lia) Hout) as M.
      fold bits. destruct (Z.ltb_spec (mx_spec bits (S l)) (bval (bits_at (cS c) p (S l)))); [|lia].
      apply wp_bind. eapply wp_mono; [apply check_spec; [exact I|lia]| |auto].
      cbn beta. intros _ s1 (I1 & L1 & U1). apply wp_bind.
      change 1 with (Z.of_nat 1) at 1. eapply wp_mono; [apply get_spec; [exact I1|exact L1|lia]| |tauto].
      cbn beta. intros b s2 (-> & I2 & U2).
      assert (Hcode : Z.lor (Z.shiftl (bval (bits_at (cS c) p (S l))) 1) (bval (bits_at (cS c) (p + S l) 1)) =
                      bval (bits_at (cS c) p (S (S l)))).
      { replace (S (S l)) with (S l + 1)%nat at 1 by lia. rewrite bits_at_app, bval_app, length_bits_at.
        pose proof (bval_range (bits_at (cS c) (p + S l) 1)) as R. rewrite length_bits_at in R.
        apply lor_shiftl_add; [lia|exact R]. }
      rewrite Hcode. replace (Z.of_nat (S l) + 1) with (Z.of_nat (S (S l))) by lia.
      replace (p + S l + 1)%nat with (p + S (S l))%nat in I2 by lia.
      eapply wp_mono; [apply IH; [lia|lia|exact I2|]| |].
      * cbn [Nat.sub]. exact Hout.
      * cbn beta. intros lc s3 (E & H3). split; [congruence|exact H3].
      * intros s3 (A1 & A2 & A3 & A4 & A5). unfold susp_post. repeat split; auto. congruence.
Qed.

Lemma hval_nonneg k : (k < length sz)%nat -> 0 <= nth k (hval t) (-1) < 256.
Proof.
  intros Hk. destruct (huff_type_ok_inv t Ht) as (_ & _ & _ & Hv). apply Hv.
  destruct Hc as [Hlen _]. fold bits sz in Hlen. lia.
Qed.

Lemma huff_decode_slow_spec c W p m (s : dst U) :
  (1 <= m <= 9)%nat -> inv c W p p s -> kraft (csz bits (m - 1)) <= win (cS c) p ->
  wp (jpeg_huff_decode d (Z.of_nat m)) s
     (fun v s' => ust s' = ust s /\ v = fst (dec_symbol bits (hval t) (cS c) p) /\
        inv c (sym_warn bits (cS c) p W) (snd (dec_symbol bits (hval t) (cS c) p))
              (snd (dec_symbol bits (hval t) (cS c) p)) s')
     (susp_post c s).
Proof.
  intros Hm I HW. unfold jpeg_huff_decode. apply wp_bind.
  eapply wp_mono; [apply check_spec; [exact I|lia]| |auto].
  cbn beta. intros _ s1 (I1 & L1 & U1). rewrite Nat2Z.id in I1. apply wp_bind.
  eapply wp_mono; [apply get_spec; [exact I1|exact L1|lia]| |tauto].
  cbn beta. intros b s2 (-> & I2 & U2). apply wp_bind.
  eapply wp_mono; [apply slow_loop_spec; [lia|lia|exact I2|exact HW]| |].
  2:{ intros s3 (A1 & A2 & A3 & A4 & A5). unfold susp_post. repeat split; auto. congruence. }
  cbn beta. intros lc s3 (U3 & H3).
  destruct Hd as (D1 & D2 & D3 & D4 & D5 & D6 & D7). fold bits in D6.
  unfold dec_symbol, sym_warn. destruct (code_at bits (cS c) p) as [k|] eqn:Ek.
  - destruct H3 as (-> & Hk & I3). cbn [fst snd].
    pose proof (sizes_nth sz k (code_sizes_ok bits) Hk) as Hs.
    destruct (Z.ltb_spec 16 (Z.of_nat (nth k sz 0%nat))); [lia|].
    destruct (nth k sz 0%nat) as [|l] eqn:El; [lia|].
    destruct (code_pos bits k l Hk El) as [Hl Hpos].
    apply wp_bind. eapply wp_lift.
    { apply tget_ok; [apply D6; [lia|]|lia]. pose proof (pos_S bits l). lia. }
    cbn beta. cbn [Nat.sub]. rewrite Nat.sub_0_r.
    assert (Hcv : bval (bits_at (cS c) p (S l)) = code_value sz k).
    { assert (E2 : code_word sz k = bits_at (cS c) p (nth k sz 0%nat)).
      { unfold code_at in Ek. apply find_some in Ek. destruct Ek as [_ Ek]. now apply bits_eqb_eq in Ek. }
      rewrite El in E2. rewrite <- E2. apply code_word_val; auto; [apply code_sizes_ok|apply Hc]. }
    rewrite Hcv, D1. unfold sz. rewrite (group_codes bits l k Hc Hl Hpos).
    assert (Hidx : forall x y : Z, x + Z.of_nat (k - pos bits l) + (Z.of_nat (pos bits l) - x) = Z.of_nat k) by lia.
    rewrite Hidx by exact 0. destruct (huff_type_ok_inv t Ht) as (_ & _ & Hv1 & Hv2).
    eapply wp_lift.
    { apply (aget_nth (hval t) _ (-1)). destruct Hc as [Hlen _]. fold bits sz in Hlen. lia. }
    rewrite Nat2Z.id. fold sz. rewrite El. split; [congruence|]. split; auto.
  - destruct H3 as (E17 & I3). rewrite E17. cbn [fst snd]. destruct (Z.ltb_spec 16 17); [|lia].
    apply wp_bind. unfold wp, dwarn, dret. split; [cbn; congruence|]. split; auto.
    destruct I3 as [J1 J2 J3 J4 J5 J6 J7 J8 J9 J10]. constructor; cbn [bleft gbuf dsrc unread insuff warns ust]; auto.
    + intros Hf. f_equal. auto.
    + intros Hf. right. auto.
Qed.

Lemma peek_spec c W p q n (s : dst U) : inv c W p q s -> Z.of_nat n <= bleft s -> (1 <= n <= 30)%nat ->
  wp (peek_bits (Z.of_nat n)) s (fun v s' => v = bval (bits_at (cS c) p n) /\ s' = s) (fun _ => False).
Proof.
  intros I Hn Hr. unfold wp, peek_bits. pose proof (i_left _ _ _ _ _ I) as Hl.
  destruct (Z.ltb_spec (Z.of_nat n) 0); [lia|]. destruct (Z.ltb_spec 30 (Z.of_nat n)); [lia|].
  destruct (Z.ltb_spec (bleft s - Z.of_nat n) 0); [lia|]. destruct (Z.ltb_spec 63 (bleft s - Z.of_nat n)); [lia|].
  cbn [orb]. split; auto.
  pose proof (bits_of_land n (Z.to_nat (bleft s)) (gbuf s) ltac:(lia)) as HL.
  rewrite Z2Nat.id in HL by lia. rewrite HL. f_equal. eapply firstn_abits; eauto.
Qed.

Lemma kraft_csz_256 l : (l <= 8)%nat -> exists m, kraft (csz bits l) = 256 * m.
Proof.
  induction l as [|l IH]; intros Hl; [exists 0; reflexivity|]. destruct IH as (m & E); [lia|].
  rewrite csz_kraft_S, E. replace (16 - Z.of_nat (S l)) with (8 + (8 - Z.of_nat (S l))) by lia.
  rewrite Z.pow_add_r by lia. change (2 ^ 8) with 256.
  exists (m + Z.of_nat (ncodes bits (S l)) * 2 ^ (8 - Z.of_nat (S l))). ring.
Qed.

Lemma kraft_firstn_256 k : (k <= pos bits 8)%nat -> exists m, kraft (firstn k sz) = 256 * m.
Proof.
  induction k as [|k IH]; intros Hk; [exists 0; reflexivity|]. destruct IH as (m & E); [lia|].
  pose proof (pos_le bits 8 ltac:(lia)) as Hp. fold sz in Hp.
  rewrite kraft_next by lia. rewrite E.
  assert (Hs : (nth k sz 0 <= 8)%nat).
  { pose proof (sizes_nth sz k (code_sizes_ok bits) ltac:(lia)) as Hr. destruct (nth k sz 0%nat) as [|l] eqn:El; [lia|].
    destruct (code_pos bits k l ltac:(fold sz; lia) El) as [H1 H2].
    destruct (Nat.le_gt_cases (S l) 8); auto. pose proof (pos_mono bits 8 l ltac:(lia)). lia. }
  replace (16 - Z.of_nat (nth k sz 0%nat)) with (8 + (8 - Z.of_nat (nth k sz 0%nat))) by lia.
  rewrite Z.pow_add_r by lia. change (2 ^ 8) with 256. exists (m + 2 ^ (8 - Z.of_nat (nth k sz 0%nat))). ring.
Qed.

Lemma lookup_spec S p :
  let w := bval (bits_at S p 8) in
  0 <= w < 256 /\
  match code_at bits S p with
  | Some k => if (nth k sz 0 <=? 8)%nat then nth (Z.to_nat w) (dlookup d) 0 = look_entry bits (hval t) k
              else nth (Z.to_nat w) (dlookup d) 0 = 2304 /\ kraft (csz bits 8) <= win S p
  | None => nth (Z.to_nat w) (dlookup d) 0 = 2304 /\ kraft (csz bits 8) <= win S p
  end.
Proof.
  intros w. pose proof (bval_range (bits_at S p 8)) as R. rewrite length_bits_at in R. change (2 ^ Z.of_nat 8) with 256 in R.
  split; [exact R|].
  destruct Hd as (D1 & D2 & D3 & D4 & D5 & D6 & (L1 & L2 & L3)).
  pose proof (win_low S p 8 ltac:(lia)) as HW. change (2 ^ (16 - Z.of_nat 8)) with 256 in HW. fold w in HW, R.
  assert (Hhigh : kraft (csz bits 8) <= win S p -> nth (Z.to_nat w) (dlookup d) 0 = 2304).
  { intros Hg. apply L3; [lia|]. fold bits. rewrite csz_firstn by lia. destruct (kraft_csz_256 8 ltac:(lia)) as (m & E).
    rewrite E in *. lia. }
  destruct (code_at bits S p) as [k|] eqn:Ek.
  - pose proof Ek as Ek'. unfold code_at in Ek'. apply find_some in Ek'. destruct Ek' as [Hin Hm]. apply in_seq in Hin.
    apply bits_eqb_eq in Hm. apply code_match in Hm; auto; [|lia].
    fold sz in Hin, Hm. pose proof (sizes_nth sz k (code_sizes_ok bits) ltac:(lia)) as Hr.
    destruct (nth k sz 0%nat) as [|l] eqn:El; [lia|].
    destruct (code_pos bits k l ltac:(fold sz; lia) El) as [H1 H2].
    destruct (Nat.leb_spec (Datatypes.S l) 8).
    + pose proof (pos_mono bits (Datatypes.S l) 8 ltac:(lia)) as Hpm. apply L2; [fold bits; lia|]. fold bits sz. rewrite Z2Nat.id by lia.
      destruct (kraft_firstn_256 k ltac:(lia)) as (m1 & E1). destruct (kraft_firstn_256 (Datatypes.S k) ltac:(lia)) as (m2 & E2).
      rewrite E1, E2 in *. lia.
    + assert (Hg : kraft (csz bits 8) <= win S p).
      { rewrite <- csz_firstn by lia. pose proof (pos_mono bits 8 l ltac:(lia)).
        pose proof (kraft_mono sz (pos bits 8) k ltac:(lia)). fold sz. lia. }
      auto.
  - assert (Hg : kraft sz <= win S p).
    { destruct (Z.lt_ge_cases (win S p) (kraft sz)); [|lia].
      destruct (exists_interval sz (win S p) ltac:(pose proof (win_range S p); lia) H) as (k & Hk & Hi).
      rewrite (code_at_some bits S p k) in Ek; auto. discriminate. }
    assert (Hg8 : kraft (csz bits 8) <= win S p).
    { rewrite <- csz_firstn by lia. pose proof (kraft_firstn_le sz (pos bits 8)). fold sz. lia. }
    auto.
Qed.

Lemma look_entry_hi k : (k < length sz)%nat -> Z.shiftr (look_entry bits (hval t) k) 8 = Z.of_nat (nth k sz 0%nat).
Proof.
  intros Hk. unfold look_entry. fold sz. rewrite Z.shiftr_lor, Z.shiftr_shiftl_l by lia. cbn [Z.sub].
  rewrite Z.shiftl_0_r. pose proof (hval_nonneg k Hk) as Hv.
  replace (Z.shiftr (nth k (hval t) (-1)) 8) with 0; [apply Z.lor_0_r|].
  symmetry. rewrite Z.shiftr_div_pow2 by lia. apply Z.div_small. exact Hv.
Qed.

Lemma look_entry_lo k : (k < length sz)%nat -> Z.land (look_entry bits (hval t) k) 255 = nth k (hval t) (-1).
Proof.
  intros Hk. unfold look_entry. fold sz. pose proof (hval_nonneg k Hk) as Hv.
  change 255 with (Z.ones 8). rewrite Z.land_lor_distr_l, !Z.land_ones by lia.
  rewrite Z.shiftl_mul_pow2, Z.mod_mul by lia. rewrite Z.lor_0_l. apply Z.mod_small. exact Hv.
Qed.

Lemma huff_decode_spec c W p (s : dst U) : inv c W p p s ->
  wp (huff_decode d) s
     (fun v s' => ust s' = ust s /\ v = fst (dec_symbol bits (hval t) (cS c) p) /\
        inv c (sym_warn bits (cS c) p W) (snd (dec_symbol bits (hval t) (cS c) p))
              (snd (dec_symbol bits (hval t) (cS c) p)) s')
     (susp_post c s).
Proof.
  intros I. unfold huff_decode. apply wp_bind. unfold wp at 1, dbits_left at 1. cbn beta.
  apply wp_bind.
  assert (Hk0 : kraft (csz bits (1 - 1)) <= win (cS c) p) by (change (kraft (csz bits (1 - 1))) with 0; apply win_range).
  assert (G : forall s1 : dst U, inv c W p p s1 -> ust s1 = ust s ->
    wp (bl' <~ dbits_left ;; if bl' <? 8 then jpeg_huff_decode d 1
        else look <~ peek_bits 8 ;; e <~ dlift (aget (dlookup d) look) ;;
          let nb := Z.shiftr e 8 in if nb <=? 8 then drop_bits nb ;~ dret (Z.land e 255) else jpeg_huff_decode d nb) s1
     (fun v s' => ust s' = ust s /\ v = fst (dec_symbol bits (hval t) (cS c) p) /\
        inv c (sym_warn bits (cS c) p W) (snd (dec_symbol bits (hval t) (cS c) p))
              (snd (dec_symbol bits (hval t) (cS c) p)) s')
     (susp_post c s)).
  { intros s1 I1 U1. apply wp_bind. unfold wp at 1, dbits_left at 1.
    assert (Hslow : forall m, (1 <= m <= 9)%nat -> kraft (csz bits (m - 1)) <= win (cS c) p ->
      wp (jpeg_huff_decode d (Z.of_nat m)) s1
       (fun v s' => ust s' = ust s /\ v = fst (dec_symbol bits (hval t) (cS c) p) /\
        inv c (sym_warn bits (cS c) p W) (snd (dec_symbol bits (hval t) (cS c) p))
              (snd (dec_symbol bits (hval t) (cS c) p)) s')
       (susp_post c s)).
    { intros m Hm HW. eapply wp_mono; [apply huff_decode_slow_spec; eauto| |].
      - cbn beta. intros v s2 (A & B). split; [congruence|exact B].
      - intros s2 (A1 & A2 & A3 & A4 & A5). unfold susp_post. repeat split; auto. congruence. }
    destruct (Z.ltb_spec (bleft s1) 8) as [H8|H8]; [apply (Hslow 1%nat); auto; lia|].
    apply wp_bind. change 8 with (Z.of_nat 8) at 1. eapply wp_mono; [apply (peek_spec c W p p); auto; lia| |intros ? []].
    cbn beta. intros w s2 (-> & ->). apply wp_bind.
    destruct (lookup_spec (cS c) p) as [R HL].
    destruct Hd as (D1 & D2 & D3 & D4 & D5 & D6 & (L1 & _ & _)).
    eapply wp_lift; [apply (aget_nth (dlookup d) _ 0); lia|]. cbn zeta beta.
    assert (H2304 : forall e, e = 2304 -> Z.shiftr e 8 = 9) by (intros; subst; reflexivity).
    unfold dec_symbol, sym_warn in *. destruct (code_at bits (cS c) p) as [k|] eqn:Ek.
    - assert (Hk : (k < length sz)%nat).
      { unfold code_at in Ek. apply find_some in Ek. destruct Ek as [Hin _]. apply in_seq in Hin. fold sz in Hin. lia. }
      pose proof (sizes_nth sz k (code_sizes_ok bits) Hk) as Hs.
      destruct (Nat.leb_spec (nth k sz 0%nat) 8).
      + rewrite HL, look_entry_hi, look_entry_lo by auto.
        destruct (Z.leb_spec (Z.of_nat (nth k sz 0%nat)) 8); [|lia].
        apply wp_bind. unfold wp, drop_bits, dret.
        destruct (Z.ltb_spec (bleft s1) (Z.of_nat (nth k sz 0%nat))); [lia|].
        cbn [fst snd]. split; [exact U1|]. split; auto. fold sz.
        apply inv_drop; [|lia|lia].
        eapply inv_weaken; [exact I1| |lia]. intros Hf. destruct I1 as [Hl _ _ _ Hlen _ _ _ _ _].
        specialize (Hlen Hf). pose proof (abits_len s1 ltac:(lia)). lia.
      + destruct HL as [HL HW]. rewrite (H2304 _ HL). cbn [Z.leb Z.compare Pos.compare Pos.compare_cont].
        apply (Hslow 9%nat); auto; lia.
    - destruct HL as [HL HW]. rewrite (H2304 _ HL). cbn [Z.leb Z.compare Pos.compare Pos.compare_cont].
      apply (Hslow 9%nat); auto; lia. }
  destruct (Z.ltb_spec (bleft s) 8) as [H8|H8].
  - eapply wp_mono; [apply fill_spec; [exact I|auto|lia|lia]| |auto].
    cbn beta. intros _ s1 (_ & _ & U1 & I1). apply G; auto.
  - unfold wp at 1, dret. apply G; auto.
Qed.
End Sym.
