(* T_Gather.v -- property C11: the statistics pass agrees with the output pass *)
From Verif Require Import Base M_HuffTbl S_Huff S_Stream S_Block P_HuffTbl P_HuffTblD P_BitRead P_HuffDec M_HuffDec M_HuffEnc P_HuffEnc P_HuffScan
  P_EncTbl P_Round P_RoundScan T_HuffTbl T_HuffEnc T_HuffDec T_Round M_GenTbl P_GenMerge P_GenTbl T_GenTbl M_Gather S_Gather P_Gather.
From Coq Require Import Permutation.

(* C11, counts: the pass either stops with JERR_BAD_DCT_COEF, exactly when a coefficient is outside the
   range that the output pass can code (C03_block), or leaves in each counter the number of times the
   output pass uses the symbol. *)
Theorem C11_counts : forall mcb nc ri ms,
  (mcb <= 14)%nat -> Forall (Forall (gblk_ok nc)) ms ->
  match gather_scan (Z.of_nat mcb) (Z.of_nat ri) nc ms with
  | Ret s => scan_fits mcb nc ri ms /\
             (forall t x, (t < 4)%nat -> 0 <= x < 256 ->
                count (nth t (g_dcs s) []) x = uses (scan_uses nc ri ms) (true, t, x) /\
                count (nth t (g_acs s) []) x = uses (scan_uses nc ri ms) (false, t, x))
  | Error e => e = JERR_BAD_DCT_COEF /\ ~ scan_fits mcb nc ri ms
  | Undef => False
  end.
Proof.
  intros mcb nc ri ms Hm HF. pose proof (gather_scan_spec mcb nc ri ms Hm HF) as H.
  destruct (gather_scan _ _ _ _) as [s|e|]; auto.
  destruct H as (H1 & (R1 & R2 & R3 & R4) & H3). split; auto.
  intros t x Ht Hx. apply R4; lia.
Qed.
Print Assumptions C11_counts.

Lemma combine_app' {A B} (a : list A) (b : list B) : forall a' b', length a = length b -> combine (a ++ a') (b ++ b') = combine a b ++ combine a' b'.
Proof. revert b. induction a as [|x a IH]; intros [|y b] a' b' H; cbn in *; try discriminate; auto. f_equal. apply IH. lia. Qed.

Lemma zrl_concat (acc : Z -> list bool) n : forall i,
  flat_map (fun _ : nat => acc 240) (seq i n) = concat (map (fun p => acc (fst p) ++ snd p) (combine (repeat 240 n) (repeat (@nil bool) n))).
Proof.
  induction n as [|n IHn]; intros i; auto.
  cbn [repeat combine map concat seq flat_map fst snd]. rewrite (IHn (S i)), app_nil_r. reflexivity.
Qed.

(* The symbols are those of the coded data: a block's bits (S_Block, which C03 shows to be what the
   output pass writes) are the codes of these symbols in this order, each followed by extra bits
   that do not depend on the table. *)
Theorem C11_symbols_of_output : forall pred b, exists extra : list (list bool),
  length extra = length (block_uses pred b) /\
  forall dcc acc, enc_block dcc acc pred (g_coef b) =
    concat (map (fun p => (if fst (fst (fst p)) : bool then dcc (snd (fst p)) else acc (snd (fst p))) ++ snd p)
                (combine (block_uses pred b) extra)).
Proof.
  intros pred b.
  assert (G : forall l r, exists extra : list (list bool), length extra = length (ac_symbols r l) /\
     forall acc, enc_ac acc r l = concat (map (fun p => acc (fst p) ++ snd p) (combine (ac_symbols r l) extra))).
  { induction l as [|v l IH]; intros r; cbn [ac_symbols enc_ac].
    - destruct r; [exists []; auto|]. exists [[]]. split; auto. intros acc. cbn. now rewrite !app_nil_r.
    - destruct (v =? 0); [apply IH|]. destruct (IH 0%nat) as (ex & L & E).
      exists (repeat [] (r / 16) ++ extra_bits v :: ex). split.
      + rewrite !app_length, !repeat_length. cbn [length]. lia.
      + intros acc. rewrite E.
        replace (combine (repeat 240 (r / 16) ++ (16 * Z.of_nat (r mod 16) + Z.of_nat (category v)) :: ac_symbols 0 l) (repeat [] (r / 16) ++ extra_bits v :: ex))
          with (combine (repeat 240 (r / 16)) (repeat (@nil bool) (r / 16)) ++ combine ((16 * Z.of_nat (r mod 16) + Z.of_nat (category v)) :: ac_symbols 0 l) (extra_bits v :: ex)).
        2:{ symmetry. apply combine_app'. now rewrite !repeat_length. }
        rewrite map_app, concat_app. f_equal.
        * apply zrl_concat.
        * cbn [combine map concat fst snd]. rewrite <- app_assoc. reflexivity. }
  destruct (G (tl (zz (g_coef b))) 0%nat) as (ex & L & E).
  exists (extra_bits (nth 0 (g_coef b) 0 - pred) :: ex). split.
  - unfold block_uses. cbn [length]. rewrite map_length. auto.
  - intros dcc acc. unfold enc_block, enc_dc, block_uses. rewrite E. cbn [combine map concat fst snd]. do 2 f_equal.
    f_equal. clear. revert ex. generalize (ac_symbols 0 (tl (zz (g_coef b)))) as l.
    induction l as [|a l IH]; intros [|e ex]; cbn [map combine]; auto. f_equal. auto.
Qed.
Print Assumptions C11_symbols_of_output.

(* ---- tables made from the statistics ---- *)
Definition old_table (fresh : JHUFF_TBL) (o : option JHUFF_TBL) : JHUFF_TBL := match o with Some t => t | None => fresh end.

Definition fin_inv (fresh : JHUFF_TBL) (tb0 : list (option JHUFF_TBL)) (c0 : list (list Z)) (st : list (option JHUFF_TBL) * list bool * list (list Z)) : Prop :=
  let '(tbls, did, counts) := st in
  length tbls = 4%nat /\ length did = 4%nat /\ length counts = 4%nat /\
  forall k, (k < 4)%nat ->
    if nth k did false then exists t, jpeg_gen_optimal_table (old_table fresh (nth k tb0 None)) (nth k c0 []) = Ret t /\ nth k tbls None = Some t
    else nth k counts [] = nth k c0 [] /\ nth k tbls None = nth k tb0 None.

Lemma make_table_spec fresh tb0 c0 k st : (k < 4)%nat -> fin_inv fresh tb0 c0 st ->
  match make_table fresh k st with
  | Ret st' => fin_inv fresh tb0 c0 st' /\ nth k (snd (fst st')) false = true /\ (forall j, nth j (snd (fst st)) false = true -> nth j (snd (fst st')) false = true)
  | Error e => jpeg_gen_optimal_table (old_table fresh (nth k tb0 None)) (nth k c0 []) = Error e
  | Undef => jpeg_gen_optimal_table (old_table fresh (nth k tb0 None)) (nth k c0 []) = Undef
  end.
Proof.
  destruct st as [[tbls did] counts]. intros Hk (L1 & L2 & L3 & H). unfold make_table.
  rewrite (aget_nth did _ false) by lia. cbn [bind]. rewrite Nat2Z.id.
  destruct (nth k did false) eqn:Ed.
  - unfold fin_inv. auto 10.
  - rewrite (aget_nth tbls _ None) by lia. cbn [bind]. rewrite (aget_nth counts _ []) by lia. cbn [bind]. rewrite !Nat2Z.id.
    pose proof (H k Hk) as Hx. rewrite Ed in Hx. destruct Hx as [-> ->].
    fold (old_table fresh (nth k tb0 None)).
    destruct (jpeg_gen_optimal_table (old_table fresh (nth k tb0 None)) (nth k c0 [])) as [t|e|] eqn:Eg; cbn [bind]; auto.
    rewrite !aset_ok by lia. cbn [bind fst snd]. rewrite !Nat2Z.id. split; [|split].
    + unfold fin_inv. rewrite !length_upd. split; auto. split; auto. split; auto. intros j Hj. specialize (H j Hj).
      rewrite !nth_upd_any, L1, L2, L3. rewrite !(proj2 (Nat.ltb_lt _ _) Hk).
      destruct (Nat.eqb_spec j k) as [->|Hne]; auto. exists t. auto.
    + rewrite nth_upd_eq by lia. auto.
    + intros j Hj. rewrite nth_upd_any. destruct (j =? k)%nat; auto. destruct (k <? length did)%nat; auto.
Qed.

Lemma finish_comps_spec fresh dt0 dc0 at0 ac0 : forall comps dst ast,
  Forall (fun da => fst da < 4 /\ snd da < 4)%nat comps -> fin_inv fresh dt0 dc0 dst -> fin_inv fresh at0 ac0 ast ->
  match finish_comps fresh comps dst ast with
  | Ret (dts, ats) => 
      (forall k, (k < 4)%nat -> nth k (snd (fst dst)) false = true \/ (exists a, In (k, a) comps) ->
         exists t, jpeg_gen_optimal_table (old_table fresh (nth k dt0 None)) (nth k dc0 []) = Ret t /\ nth k dts None = Some t) /\
      (forall k, (k < 4)%nat -> nth k (snd (fst ast)) false = true \/ (exists d, In (d, k) comps) ->
         exists t, jpeg_gen_optimal_table (old_table fresh (nth k at0 None)) (nth k ac0 []) = Ret t /\ nth k ats None = Some t)
  | Error e => exists k, (k < 4)%nat /\ (jpeg_gen_optimal_table (old_table fresh (nth k dt0 None)) (nth k dc0 []) = Error e \/
                                      jpeg_gen_optimal_table (old_table fresh (nth k at0 None)) (nth k ac0 []) = Error e)
  | Undef => exists k, (k < 4)%nat /\ (jpeg_gen_optimal_table (old_table fresh (nth k dt0 None)) (nth k dc0 []) = Undef \/
                                    jpeg_gen_optimal_table (old_table fresh (nth k at0 None)) (nth k ac0 []) = Undef)
  end.
Proof.
  induction comps as [|[d a] comps IH]; intros dst ast HF Hd Ha; cbn [finish_comps].
  - destruct dst as [[dt did] dc], ast as [[at_ aid] ac]. cbn [fst snd]. destruct Hd as (_ & _ & _ & Hd), Ha as (_ & _ & _ & Ha).
    split; intros k Hk [H|[? []]]; [specialize (Hd k Hk)|specialize (Ha k Hk)]; rewrite H in *; auto.
  - inversion HF as [|? ? [F1 F2] HF']; subst. cbn [fst snd] in F1, F2.
    pose proof (make_table_spec fresh dt0 dc0 d dst F1 Hd) as M1. destruct (make_table fresh d dst) as [dst'|e|]; cbn [bind].
    2,3: exists d; auto.
    pose proof (make_table_spec fresh at0 ac0 a ast F2 Ha) as M2. destruct (make_table fresh a ast) as [ast'|e|]; cbn [bind].
    2,3: exists a; auto.
    destruct M1 as (M1 & M1' & M1''), M2 as (M2 & M2' & M2'').
    specialize (IH dst' ast' HF' M1 M2). destruct (finish_comps fresh comps dst' ast') as [[dts ats]|e|]; auto.
    destruct IH as [I1 I2]. split; intros k Hk H; [apply I1|apply I2]; auto.
    + destruct H as [H|(x & [E|H])]; [auto|inversion E; subst; auto|eauto].
    + destruct H as [H|(x & [E|H])]; [auto|inversion E; subst; auto|eauto].
Qed.

(* bounds on the statistics *)
Lemma sum_uses d t L : forall n, fold_right Z.add 0 (map (fun x => uses L (d, t, Z.of_nat x)) (seq 0 n)) <= Z.of_nat (length L).
Proof.
  intros n. induction L as [|u L IH].
  - replace (map (fun x => uses [] (d, t, Z.of_nat x)) (seq 0 n)) with (map (fun _ : nat => 0) (seq 0 n)) by reflexivity.
    cbn [length]. generalize (seq 0 n) as l. induction l as [|a l IHl]; cbn [map fold_right]; lia.
  - assert (G : forall l, NoDup l -> fold_right Z.add 0 (map (fun x => uses (u :: L) (d, t, Z.of_nat x)) l) <=
       fold_right Z.add 0 (map (fun x => uses L (d, t, Z.of_nat x)) l) + (if existsb (fun x => use_eqb (d, t, Z.of_nat x) u) l then 1 else 0)).
    { induction l as [|a l IHl]; intros ND; cbn [map fold_right existsb]; [lia|]. inversion ND; subst. specialize (IHl H2).
      assert (E : uses (u :: L) (d, t, Z.of_nat a) = uses L (d, t, Z.of_nat a) + (if use_eqb (d, t, Z.of_nat a) u then 1 else 0)).
      { unfold uses. cbn [filter]. destruct (use_eqb _ u); cbn [length]; lia. }
      rewrite E. destruct (use_eqb_spec (d, t, Z.of_nat a) u) as [Eu|Eu]; cbn [orb].
      - assert (existsb (fun x => use_eqb (d, t, Z.of_nat x) u) l = false).
        { apply not_true_is_false. intros Hx. apply existsb_exists in Hx as (y & Hy & Hu).
          destruct (use_eqb_spec (d, t, Z.of_nat y) u) as [Ey|]; [|discriminate]. subst u. inversion Ey. assert (y = a) by lia. subst. auto. }
        rewrite H in IHl. lia.
      - lia. }
    specialize (G (seq 0 n) (seq_NoDup _ _)). destruct (existsb _ _); cbn [length]; lia.
Qed.

Lemma counts_total L d t c : length c = 257%nat -> (forall x, 0 <= x < 257 -> nth (Z.to_nat x) c 0 = uses L (d, t, x)) -> total c <= Z.of_nat (length L).
Proof.
  intros Lc H. unfold total. rewrite <- (map_nth_seq c 256) by lia. rewrite <- (sum_uses d t L 256).
  match goal with |- ?a <= ?b => replace a with b; [lia|] end. f_equal. apply map_ext_in. intros x Hx. apply in_seq in Hx.
  rewrite <- (H (Z.of_nat x)) by lia. now rewrite Nat2Z.id.
Qed.

Definition low_syms : list Z := filter (fun s => (s =? 240) || (s mod 16 <=? 14)) (map Z.of_nat (seq 0 256)).
Definition dc_syms : list Z := map Z.of_nat (seq 0 16).

Lemma uses_pos L u : 0 < uses L u -> In u L.
Proof.
  unfold uses. intros H. destruct (filter (use_eqb u) L) as [|x r] eqn:E; [cbn in H; lia|].
  assert (Hx : In x (filter (use_eqb u) L)) by (rewrite E; left; auto). apply filter_In in Hx as [H1 H2].
  destruct (use_eqb_spec u x); [subst; auto|discriminate].
Qed.
Lemma in_uses L u : In u L -> 0 < uses L u.
Proof.
  unfold uses. intros H. assert (In u (filter (use_eqb u) L)).
  { apply filter_In. split; auto. destruct (use_eqb_spec u u); congruence. }
  destruct (filter (use_eqb u) L); [contradiction|cbn [length]; lia].
Qed.

Lemma counts_distinct mcb L d t c : (mcb <= 14)%nat -> length c = 257%nat -> Forall (use_ok mcb) L ->
  (forall x, 0 <= x < 257 -> nth (Z.to_nat x) c 0 = uses L (d, t, x)) -> (distinct c <= 254)%nat.
Proof.
  intros Hm Lc HF H. rewrite distinct_used by auto.
  assert (G : forall l, incl (used_symbols c) l -> (length l <= 254)%nat -> (length (used_symbols c) <= 254)%nat).
  { intros l Hi Hl. pose proof (NoDup_incl_length (used_nodup c) Hi). lia. }
  assert (Hu : forall s, In s (used_symbols c) -> 0 <= s < 256 /\ use_ok mcb (d, t, s)).
  { intros s Hs. apply used_spec in Hs. destruct Hs as [Hr Hp]. rewrite H in Hp by lia. apply uses_pos in Hp.
    rewrite Forall_forall in HF. split; [exact Hr|exact (HF _ Hp)]. }
  destruct d.
  - apply (G dc_syms); [|vm_compute; lia]. intros s Hs. destruct (Hu s Hs) as [Hr (_ & O & _)]. cbn [fst snd] in O. specialize (O eq_refl).
    apply in_map_iff. exists (Z.to_nat s). split; [lia|apply in_seq; lia].
  - apply (G low_syms); [|assert (E : length low_syms = 240%nat) by (vm_compute; reflexivity); lia]. intros s Hs. destruct (Hu s Hs) as [Hr (_ & _ & O)]. cbn [fst snd] in O. specialize (O eq_refl).
    apply filter_In. split; [apply in_map_iff; exists (Z.to_nat s); split; [lia|apply in_seq; lia]|].
    destruct O as [->|O]; auto. apply orb_true_iff. right. apply Z.leb_le. lia.
Qed.

Lemma counts_nonneg L d t c : length c = 257%nat -> (forall x, 0 <= x < 257 -> nth (Z.to_nat x) c 0 = uses L (d, t, x)) -> Forall (fun x => 0 <= x) c.
Proof.
  intros Lc H. apply Forall_forall. intros x Hx. apply (In_nth _ _ 0) in Hx as (i & Hi & <-).
  replace i with (Z.to_nat (Z.of_nat i)) by lia. rewrite H by lia. unfold uses. lia.
Qed.

(* the block with the tables that its table numbers denote *)
Definition with_tables (fresh : JHUFF_TBL) (dts ats : list (option JHUFF_TBL)) (g : gblk) : ublk :=
  mkUB (g_ci g) (old_table fresh (nth (g_dct g) dts None)) (old_table fresh (nth (g_act g) ats None)) (g_coef g).

Definition tbl_opt_ok (o : option JHUFF_TBL) : Prop := match o with Some t => huff_type_ok t = true | None => True end.

Definition coded (fresh : JHUFF_TBL) (dts ats : list (option JHUFF_TBL)) (u : use) : Prop :=
  let '(d, t, s) := u in
  let tb := old_table fresh (nth t (if d : bool then dts else ats) None) in has_code (hbits tb) (hval tb) s.

Local Opaque zigzag zz.
Lemma mcu_codable_uses fresh dts ats : forall m preds, Forall (coded fresh dts ats) (fst (mcu_uses preds m)) ->
  mcu_codable preds (map (with_tables fresh dts ats) m) /\
  snd (enc_mcu preds (map spec_blk (map (with_tables fresh dts ats) m))) = snd (mcu_uses preds m).
Proof.
  induction m as [|b m IH]; intros preds HF; cbn [map mcu_uses mcu_codable enc_mcu fst snd] in *; [auto|].
  cbn [with_tables spec_blk u_ci u_coef s_ci s_coef].
  destruct (mcu_uses (upd preds (g_ci b) (nth 0 (g_coef b) 0)) m) as [w p'] eqn:Ew. cbn [fst snd] in HF.
  apply Forall_app in HF as [HF1 HF2].
  specialize (IH (upd preds (g_ci b) (nth 0 (g_coef b) 0))). rewrite Ew in IH. cbn [fst snd] in IH. destruct (IH HF2) as [I1 I2].
  fold (with_tables fresh dts ats b). destruct (enc_mcu _ (map spec_blk (map (with_tables fresh dts ats) m))) as [w2 p2]. cbn [snd] in *.
  split; [|auto]. split; auto. unfold blk_codable. cbn [with_tables u_dc u_ac u_coef].
  unfold block_uses in HF1. pose proof (Forall_inv HF1) as H1; pose proof (Forall_inv_tail HF1) as H2. clear HF1. split; [exact H1|].
  rewrite Forall_map in H2. exact H2.
Qed.

Lemma scan_codable_uses fresh dts ats nc ri ms : Forall (coded fresh dts ats) (scan_uses nc ri ms) ->
  scan_codable nc ri (map (map (with_tables fresh dts ats)) ms).
Proof.
  unfold scan_uses, scan_mcus, scan_codable. rewrite map_length. generalize (S (length ms)) as fuel. intros fuel. revert ms.
  assert (G : forall ms p, Forall (coded fresh dts ats) (flat_map (fun pm => fst (mcu_uses (fst pm) (snd pm))) (with_preds p ms)) ->
     mcus_codable p (map (map (with_tables fresh dts ats)) ms)).
  { induction ms as [|m ms IH]; intros p HF; cbn [map mcus_codable with_preds flat_map fst snd] in *; auto.
    apply Forall_app in HF as [HF1 HF2]. destruct (mcu_codable_uses fresh dts ats m p HF1) as [C1 C2]. split; auto. rewrite C2. auto. }
  induction fuel as [|f IH]; intros ms HF; cbn [intervals] in *; [constructor|]. rewrite map_length.
  destruct (_ || _); cbn [flat_map] in HF; rewrite flat_map_app in HF; apply Forall_app in HF as [HF1 HF2].
  - constructor; auto.
  - rewrite firstn_map, skipn_map. constructor; auto.
Qed.

(* C11, optimised coding: whenever the statistics pass succeeds on a scan with fewer than 10^9 symbols,
   table generation either reports JERR_HUFF_CLEN_OVERFLOW or produces, for every component, tables that
   the output pass accepts and in which every symbol that it will use has a code. *)
Theorem C11_optimized_tables : forall mcb nc ri ms fresh comps dts acts s,
  (mcb <= 14)%nat -> Forall (Forall (gblk_ok nc)) ms ->
  huff_type_ok fresh = true -> Forall tbl_opt_ok dts -> Forall tbl_opt_ok acts -> length dts = 4%nat -> length acts = 4%nat ->
  Forall (fun da => fst da < 4 /\ snd da < 4)%nat comps ->
  Forall (Forall (fun b => In (g_dct b, g_act b) comps)) ms ->
  Z.of_nat (length (scan_uses nc ri ms)) < 1000000000 ->
  gather_scan (Z.of_nat mcb) (Z.of_nat ri) nc ms = Ret s ->
  match finish_pass_gather fresh comps dts acts s with
  | Undef => False
  | Error e => e = JERR_HUFF_CLEN_OVERFLOW
  | Ret (dts', acts') =>
      scan_codable nc ri (map (map (with_tables fresh dts' acts')) ms) /\
      Forall (fun da => exists td ta cd ca dd da',
        nth (fst da) dts' None = Some td /\ nth (snd da) acts' None = Some ta /\
        huff_type_ok td = true /\ huff_type_ok ta = true /\
        jpeg_make_c_derived_tbl false true (Some td) = Ret cd /\ jpeg_make_c_derived_tbl false false (Some ta) = Ret ca /\
        jpeg_make_d_derived_tbl false true (Some td) = Ret dd /\ jpeg_make_d_derived_tbl false false (Some ta) = Ret da') comps
  end.
Proof.
  intros mcb nc ri ms fresh comps dts acts s Hm HF Hfr Hdt Hat Ld La Hc Hcov Htot Hg.
  pose proof (gather_scan_spec mcb nc ri ms Hm HF) as H. rewrite Hg in H. destruct H as (_ & (R1 & R2 & R3 & R4) & Huse).
  set (L := scan_uses nc ri ms) in *.
  assert (Hold : forall (l : list (option JHUFF_TBL)) k, Forall tbl_opt_ok l -> huff_type_ok (old_table fresh (nth k l None)) = true).
  { intros l k Hl. pose proof (Forall_nth' tbl_opt_ok l k None Hl I) as Ho. destruct (nth k l None); auto. }
  assert (CD : forall k, (k < 4)%nat -> forall x, 0 <= x < 257 -> nth (Z.to_nat x) (nth k (g_dcs s) []) 0 = uses L (true, k, x)) by (intros; apply R4; auto).
  assert (CA : forall k, (k < 4)%nat -> forall x, 0 <= x < 257 -> nth (Z.to_nat x) (nth k (g_acs s) []) 0 = uses L (false, k, x)) by (intros; apply R4; auto).
  assert (GD : forall k, (k < 4)%nat -> _) by
    (intros k Hk; exact (C10_optimal_table (old_table fresh (nth k dts None)) (nth k (g_dcs s) []) (Hold dts k Hdt) (proj1 (R3 k Hk))
      (counts_nonneg L true k _ (proj1 (R3 k Hk)) (CD k Hk)) (counts_distinct mcb L true k _ Hm (proj1 (R3 k Hk)) Huse (CD k Hk))
      (Z.le_lt_trans _ _ _ (counts_total L true k _ (proj1 (R3 k Hk)) (CD k Hk)) Htot))).
  assert (GA : forall k, (k < 4)%nat -> _) by
    (intros k Hk; exact (C10_optimal_table (old_table fresh (nth k acts None)) (nth k (g_acs s) []) (Hold acts k Hat) (proj2 (R3 k Hk))
      (counts_nonneg L false k _ (proj2 (R3 k Hk)) (CA k Hk)) (counts_distinct mcb L false k _ Hm (proj2 (R3 k Hk)) Huse (CA k Hk))
      (Z.le_lt_trans _ _ _ (counts_total L false k _ (proj2 (R3 k Hk)) (CA k Hk)) Htot))).
  unfold finish_pass_gather.
  assert (FI : forall tb c0, length tb = 4%nat -> length c0 = 4%nat -> fin_inv fresh tb c0 (tb, repeat false 4, c0)).
  { intros tb c0 L1 L2. unfold fin_inv. split; auto. split; auto. split; auto. intros k Hk. rewrite nth_repeat_any. auto. }
  pose proof (finish_comps_spec fresh dts (g_dcs s) acts (g_acs s) comps _ _ Hc (FI dts (g_dcs s) Ld R1) (FI acts (g_acs s) La R2)) as H.
  destruct (finish_comps _ _ _ _) as [[dts' acts']|e|].
  - destruct H as [HD HA].
    assert (TD : forall d a, In (d, a) comps -> (d < 4 /\ a < 4)%nat /\
       (exists t, jpeg_gen_optimal_table (old_table fresh (nth d dts None)) (nth d (g_dcs s) []) = Ret t /\ nth d dts' None = Some t) /\
       (exists t, jpeg_gen_optimal_table (old_table fresh (nth a acts None)) (nth a (g_acs s) []) = Ret t /\ nth a acts' None = Some t)).
    { intros d a Hin. rewrite Forall_forall in Hc. destruct (Hc _ Hin) as [H1 H2]. cbn in H1, H2. split; auto. split.
      - apply HD; auto. right. eauto.
      - apply HA; auto. right. eauto. }
    split.
    + apply scan_codable_uses. apply Forall_forall. intros [[d t] x] Hu.
      assert (Hcomp : exists d' a', In (d', a') comps /\ t = (if d then d' else a')).
      { assert (GI : forall fuel l, Forall (Forall (fun b => In (g_dct b, g_act b) comps)) l -> Forall (Forall (Forall (fun b => In (g_dct b, g_act b) comps))) (intervals fuel ri l)).
        { induction fuel as [|f IH]; intros l Hl; cbn [intervals]; [constructor|]. destruct (_ || _); constructor; auto.
          - apply Forall_firstn; auto.
          - apply IH. apply Forall_skipn; auto. }
        unfold L, scan_uses, scan_mcus in Hu. apply in_flat_map in Hu as ((p & m) & Hpm & Hu). cbn [fst snd] in Hu.
        apply in_flat_map in Hpm as (seg & Hseg & Hpm). specialize (GI (S (length ms)) ms Hcov). rewrite Forall_forall in GI. specialize (GI _ Hseg).
        assert (Hmc : Forall (fun b => In (g_dct b, g_act b) comps) m).
        { clear -GI Hpm. revert Hpm. generalize (repeat 0 nc) as p0. induction GI as [|m0 seg Hm0 GI IH]; intros p0 Hpm; cbn [with_preds] in Hpm; [contradiction|].
          destruct Hpm as [E|Hpm]; [inversion E; subst; auto|eauto]. }
        clear -Hmc Hu. revert p Hu. induction Hmc as [|b m Hb Hmc IH]; intros p Hu; cbn [mcu_uses] in Hu; [destruct Hu|].
        destruct (mcu_uses _ m) as [w p'] eqn:E. cbn [fst] in Hu. apply in_app_or in Hu as [Hu|Hu].
        - unfold block_uses in Hu. destruct Hu as [Eu|Hu]; [inversion Eu; subst; eauto|].
          apply in_map_iff in Hu as (s & Es & _). inversion Es; subst. eauto.
        - specialize (IH (upd p (g_ci b) (nth 0 (g_coef b) 0))). rewrite E in IH. auto. }
      destruct Hcomp as (d' & a' & Hin & ->). destruct (TD _ _ Hin) as ([T1 T2] & (td & Etd & Ntd) & (ta & Eta & Nta)).
      pose proof (in_uses _ _ Hu) as Hpos.
      assert (Hx : 0 <= x < 256) by (rewrite Forall_forall in Huse; apply (Huse _ Hu)).
      unfold coded. destruct d.
      * rewrite Ntd. cbn [old_table]. specialize (GD _ T1). rewrite Etd in GD. destruct GD as (_ & _ & _ & G4 & _). apply G4; auto.
        unfold count. rewrite CD by (auto; lia). auto.
      * rewrite Nta. cbn [old_table]. specialize (GA _ T2). rewrite Eta in GA. destruct GA as (_ & _ & _ & G4 & _). apply G4; auto.
        unfold count. rewrite CA by (auto; lia). auto.
    + apply Forall_forall. intros [d a] Hin. cbn [fst snd]. destruct (TD _ _ Hin) as ([T1 T2] & (td & Etd & Ntd) & (ta & Eta & Nta)).
      specialize (GD _ T1). specialize (GA _ T2). rewrite Etd in GD. rewrite Eta in GA.
      destruct GD as (D1 & _ & _ & _ & _ & D6), GA as (A1 & _ & _ & _ & _ & A6).
      destruct (D6 false true) as [(cd & Ecd) (dd & Edd)].
      { intros x Hx Hp. unfold count in Hp. rewrite CD in Hp by (auto; lia). apply uses_pos in Hp. rewrite Forall_forall in Huse.
        destruct (Huse _ Hp) as (_ & O & _). cbn [fst snd] in O. specialize (O eq_refl). cbn. lia. }
      destruct (A6 false false) as [(ca & Eca) (da & Eda)].
      { intros x Hx Hp. cbn. lia. }
      exists td, ta, cd, ca, dd, da. auto 10.
  - destruct H as (k & Hk & [H|H]); [specialize (GD k Hk); rewrite H in GD|specialize (GA k Hk); rewrite H in GA]; auto.
  - destruct H as (k & Hk & [H|H]); [specialize (GD k Hk); rewrite H in GD|specialize (GA k Hk); rewrite H in GA]; auto.
Qed.
Print Assumptions C11_optimized_tables.

(* Non-vacuity: two MCUs of one block, restart interval 1; the statistics pass succeeds, tables are made *)
Definition demo_blk (dc c1 : Z) : gblk := mkGB 0 0 0 (dc :: c1 :: repeat 0 62).
Definition demo_ms : list (list gblk) := [[demo_blk 5 0]; [demo_blk 6 (-3)]].
Example C11_nonvacuous :
  Forall (Forall (gblk_ok 1)) demo_ms /\
  scan_uses 1 1 demo_ms = [(true, 0%nat, 3); (false, 0%nat, 0); (true, 0%nat, 3); (false, 0%nat, 2); (false, 0%nat, 0)] /\
  match gather_scan 10 1 1 demo_ms with
  | Ret s => match finish_pass_gather k3_dc_lum [(0%nat, 0%nat)] (repeat None 4) (repeat None 4) s with
             | Ret (d, a) => match nth 0 a None with Some t => listed (hbits t) (hval t) = [0; 2] | None => False end
             | _ => False
             end
  | _ => False
  end.
Proof.
  split; [|split; vm_compute; reflexivity].
  assert (G : forall dc c1, -32768 <= dc < 32768 -> -32768 <= c1 < 32768 -> gblk_ok 1 (demo_blk dc c1)).
  { intros dc c1 H1 H2. unfold gblk_ok, demo_blk. cbn [g_ci g_dct g_act g_coef]. repeat (split; [cbn; lia|]).
    constructor; [exact H1|]. constructor; [exact H2|]. apply Forall_forall. intros x Hx. apply repeat_spec in Hx. subst. unfold coef16. lia. }
  unfold demo_ms. constructor; [constructor; [apply G; lia|constructor]|]. constructor; [constructor; [apply G; lia|constructor]|constructor].
Qed.
