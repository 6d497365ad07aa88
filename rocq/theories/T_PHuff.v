(* T_PHuff.v -- C18: the four kinds of progressive Huffman scans, with restarts.

   Reading guide.  A scan is a list of MCUs, an MCU a list of (component index, block) pairs in coding order, and a block
   64 coefficients in natural order.  [pencode_scan p et srcs d] is the output pass of the compressor over the scan described
   by p with the derived tables et, writing to destination d; [pgather_scan p srcs counts] is its statistics pass;
   [pdecode_scan p dt olds src] is what the decompressor makes of the bytes of src when its blocks held olds. *)
From Verif Require P_ArithBlk P_ArithBlk3 T_GenTbl.
From Verif Require Import Base M_HuffTbl M_GenTbl M_Source M_BitRead M_HuffEnc M_LossHuff M_HuffDec S_Huff S_Stream S_Block P_HuffTbl P_HuffTblD P_BitRead P_HuffSym P_HuffDec P_Marker P_HuffEnc P_HuffScan P_EncTbl P_Round P_RoundScan P_LossHuff P_LossDec T_LossHuff S_Prog M_PHuff P_PHuff P_PHuff2 P_PHuff3 P_PHuff4 P_PHuff5 P_PHuff6 P_PHuff7.

(* ---- the specification ---- *)
(* scan parameters a progressive scan header can carry *)
Definition scan_params (p : pscan) : Prop :=
  (pSs p = 0 /\ pSe p = 0 \/ 1 <= pSs p /\ pSs p <= pSe p /\ pSe p <= 63 /\ length (pcomps p) = 1%nat) /\
  0 <= pAl p <= 13 /\ (pAh p = 0 \/ pAh p = pAl p + 1) /\ 0 <= pprec p <= 12 /\ 0 <= pri p.
(* compressor and decompressor have derived their tables from the same Huffman tables *)
Definition derived_from (p : pscan) (ts : list (option JHUFF_TBL)) (et : list (option c_derived_tbl)) (dt : list (option d_derived_tbl)) : Prop :=
  length et = length ts /\ length dt = length ts /\
  forall t, (nth_error ts t = Some None -> nth_error et t = Some None) /\
    forall h, nth_error ts t = Some (Some h) -> huff_type_ok h = true /\
      exists c d, jpeg_make_c_derived_tbl false (pSs p =? 0) (Some h) = Ret c /\ jpeg_make_d_derived_tbl false (pSs p =? 0) (Some h) = Ret d /\
        nth_error et t = Some (Some c) /\ nth_error dt t = Some (Some d).
(* the tables the scan header names are there: the DC table of each component, or the AC table of the only one *)
Definition tables_there (p : pscan) (ts : list (option JHUFF_TBL)) : Prop :=
  forall dc ac, In (dc, ac) (pcomps p) -> let t := if pSs p =? 0 then dc else ac in 0 <= t /\ exists h, nth_error ts (Z.to_nat t) = Some (Some h).
(* AC scans have one block per MCU *)
Definition mcu_src (p : pscan) (src : pmcu) : Prop :=
  (forall ci b, In (ci, b) src -> 0 <= ci < Z.of_nat (length (pcomps p)) /\ block_src b) /\ (pSs p <> 0 -> length src = 1%nat).
(* one block, as the compressor sees it and as the decompressor's array holds it before the scan *)
Definition block_pair (p : pscan) (src old : Z * list Z) : Prop :=
  fst src = fst old /\ 0 <= fst src < Z.of_nat (length (pcomps p)) /\ block_src (snd src) /\ block_before (pSs p) (pSe p) (pAh p) (snd src) (snd old).
Definition mcu_pair (p : pscan) (src old : pmcu) : Prop := Forall2 (block_pair p) src old /\ (pSs p <> 0 -> length src = 1%nat).
(* every block is brought to the precision of the scan, nothing else changes *)
Definition mcu_result (p : pscan) (src old : pmcu) (new : list (list Z)) : Prop :=
  length src = length new /\ length old = length new /\
  forall j s o n, nth_error src j = Some s -> nth_error old j = Some o -> nth_error new j = Some n ->
    block_after (pSs p) (pSe p) (pAl p) (snd s) (snd o) n.
Definition scan_result (p : pscan) (srcs olds : list pmcu) (news : list (list (list Z))) : Prop :=
  length srcs = length news /\ length olds = length news /\
  forall j s o n, nth_error srcs j = Some s -> nth_error olds j = Some o -> nth_error news j = Some n -> mcu_result p s o n.
(* the decompressor stands before the marker: it has seen it already, or it is the next thing after the remaining (stuffed) bytes *)
Definition stands_before (s : dst unit) (m : Z) (rest : list Z) : Prop :=
  (unread s = m /\ src_bytes (dsrc s) = rest) \/ (unread s = 0 /\ snd (seg false false (src_bytes (dsrc s))) = Some (m, rest)).
(* the coefficients a scan can code: bits above the point transform must fit the categories of the sample precision *)
Definition fits (p : pscan) (b : list Z) : Prop :=
  forall i, pSs p <= i <= pSe p -> if i =? 0 then - 2 ^ (pprec p + 2) <= zz b 0 / 2 ^ pAl p < 2 ^ (pprec p + 2) else Z.abs (zz b i) / 2 ^ pAl p < 2 ^ (pprec p + 2).
Definition cnt (counts : list (list Z)) (t s : nat) : Z := nth s (nth t counts []) 0.
Definition no_counts (n : nat) : list (list Z) := repeat (repeat 0 257) n.

(* ---- links ---- *)
Lemma params_valid p : scan_params p -> pvalid p.
Proof. intros (M & A & H & P & R). constructor; try assumption. destruct M as [M|(M1 & M2 & M3 & M4)]; [left; exact M|right]. split; [lia|]. split; [exact M3|exact M4]. Qed.
Lemma nth_aget {A} (l : list A) i x : 0 <= i -> nth_error l (Z.to_nat i) = Some x -> aget l i = Ret x.
Proof. intros H E. unfold aget. destruct (Z.ltb_spec i 0); [lia|]. rewrite E. reflexivity. Qed.
Lemma derived_same p ts et dt : derived_from p ts et dt -> same_tables (pSs p =? 0) et dt.
Proof.
  intros (L1 & L2 & H) t ct E. apply aget_inv in E. destruct E as [T0 E]. assert (LT : (Z.to_nat t < length ts)%nat) by (rewrite <- L1; apply nth_error_Some; congruence).
  destruct (H (Z.to_nat t)) as [HN HS]. destruct (nth_error ts (Z.to_nat t)) as [[h|]|] eqn:G.
  - destruct (HS h eq_refl) as (T & c & d & C1 & C2 & C3 & C4). exists h, d. split; [exact T|]. split; [congruence|]. split; [exact C2|]. apply nth_aget; assumption.
  - rewrite (HN eq_refl) in E. discriminate.
  - apply nth_error_None in G. lia.
Qed.
Lemma combine_cat {A B} : forall (a a' : list A) (b b' : list B), length a = length b -> combine (a ++ a') (b ++ b') = combine a b ++ combine a' b'.
Proof. induction a as [|x a IH]; intros a' [|y b] b' L; cbn in L; try discriminate; [reflexivity|]. cbn [app combine]. f_equal. apply IH. lia. Qed.
Lemma pev_after p num ss os es news : pev p num ss os es news -> length ss = length os /\ scan_after p ss os news.
Proof.
  induction 1 as [num ss os its news H SF|num ss os its news ss2 os2 es news2 P0 L NE SF PV [IH1 IH2]]; destruct SF as (SL & _ & SA & _); [split; assumption|].
  split; [rewrite !app_length; lia|]. unfold scan_after in *. rewrite combine_cat by exact SL. apply Forall2_app; assumption.
Qed.
Lemma F2_combine_nth {A B C} (P : A * B -> C -> Prop) : forall (a : list A) (b : list B) (c : list C), length a = length b -> Forall2 P (combine a b) c ->
  length a = length c /\ forall j s o n, nth_error a j = Some s -> nth_error b j = Some o -> nth_error c j = Some n -> P (s, o) n.
Proof.
  induction a as [|x a IH]; intros [|y b] c L F; cbn in L; try lia; cbn [combine] in F; inversion F as [|? z ? l' F1 F3]; subst.
  - split; [reflexivity|]. intros [|j] s o n H; discriminate.
  - destruct (IH b l' ltac:(lia) F3) as [E N]. split; [cbn; lia|]. intros [|j] s o n G1 G2 G4; cbn in G1, G2, G4; [injection G1 as <-; injection G2 as <-; injection G4 as <-; exact F1|]. exact (N j s o n G1 G2 G4).
Qed.
Lemma mcu_result_of p s o n : length s = length o -> mcu_after p s o n -> mcu_result p s o n.
Proof.
  intros L H. unfold mcu_after in H. destruct (F2_combine_nth _ (map snd s) (map snd o) n ltac:(rewrite !map_length; exact L) H) as [E N]. rewrite map_length in E.
  split; [lia|]. split; [lia|]. intros j x y z X Y W. refine (N j (snd x) (snd y) z _ _ W); [rewrite nth_error_map, X|rewrite nth_error_map, Y]; reflexivity.
Qed.
Lemma result_of p srcs olds news : Forall2 (mcu_ok p) srcs olds -> scan_after p srcs olds news -> scan_result p srcs olds news.
Proof.
  intros F H. pose proof (P_ArithBlk3.F2len F) as L. destruct (F2_combine_nth _ srcs olds news L H) as [E1 N]. split; [exact E1|]. split; [lia|]. intros j s o n X Y W. apply mcu_result_of; [|exact (N j s o n X Y W)].
  clear - F X Y. revert j X Y. induction F as [|a b l l' H F IH]; intros [|j] X Y; cbn in X, Y; try discriminate; [injection X as <-; injection Y as <-; destruct H as [H _]; exact (P_ArithBlk3.F2len H)|exact (IH j X Y)].
Qed.

Theorem C18_roundtrip : forall p ts et dt srcs olds d d',
  scan_params p -> derived_from p ts et dt -> Forall2 (mcu_pair p) srcs olds -> dest_ok d -> dsusp d = false ->
  pencode_scan p et srcs d = Ret d' ->
  exists bytes, dout d' = dout d ++ bytes /\
    forall m rest src, m <> 0 -> m <> 255 -> src_ok src -> ssusp src = false -> src_bytes src = bytes ++ 255 :: m :: rest ->
      exists news h, pdecode_scan p dt olds src = Ret (news, h, true) /\ scan_result p srcs olds news /\
        stands_before (pd_st h) m rest /\ warns (pd_st h) = [].
Proof.
  intros p ts et dt srcs olds d d' SP DF F DK DS E. pose proof (params_valid p SP) as V. pose proof (derived_same p ts et dt DF) as ST. pose proof (same_et_ok _ _ _ ST) as TK.
  assert (F' : Forall2 (mcu_ok p) srcs olds) by exact F. unfold pencode_scan in E.
  pose proof (scan_events_ok p V (length srcs) srcs olds 0 ltac:(lia) F') as SE. unfold scan_events in E. destruct (penc_scan p (pst0 p) (pri p) 0 srcs) as [es| |]; cbn [bind] in E; try discriminate.
  destruct SE as (news & PV). destruct (pev_ok p 0 srcs olds es news PV ltac:(lia)) as (es' & -> & EK & _). pose proof (linv_nil (dout d) d eq_refl DK DS) as LI.
  pose proof (out_events_inv et TK es' (dout d) [] (mkLS 0 0) d d' EK LI E) as EC. destruct (out_events_ok et TK es' (dout d) [] (mkLS 0 0) d EK EC LI) as (d2 & E2 & O & _). rewrite E in E2. injection E2 as <-.
  exists (evbytes et [] (es' ++ [EEnd])). split; [exact O|]. intros m rest src M0 M1 S1 S2 SB.
  destruct (scan_dec p (pSs p =? 0) et dt ST V m rest M0 M1 0 srcs olds (es' ++ [EEnd]) news PV ltac:(lia) ltac:(apply Forall_app; split; [exact EC|constructor; [exact Logic.I|constructor]]) src [] 0 0 S1 S2 SB) as (h & D1 & D2 & D3 & D4).
  exists news, h. split; [exact D1|]. split; [apply result_of; [exact F'|]; exact (proj2 (pev_after _ _ _ _ _ _ PV))|]. split; [|exact D4].
  unfold tail, sseg in D2. rewrite D3 in D2. destruct (Z.eqb_spec (unread (pd_st h)) 0) as [U|U]; [right; split; [exact U|exact D2]|left]. injection D2 as D5 D6. auto.
Qed.

(* ---- when the compressor succeeds ---- *)
Definition at_block (Ah : Z) (b : list Z) : list Z := if Ah =? 0 then repeat 0 64 else match b with [] => [] | c :: t => dc_at Ah c :: map (ac_at Ah) t end.
Lemma no_pos i : 1 <= i < 64 -> (1 <= nth (Z.to_nat i) zigzag 0%nat)%nat.
Proof.
  intros H. assert (T : forallb (fun i => Nat.leb 1 (nth i zigzag 0%nat)) (seq 1 63) = true) by (vm_compute; reflexivity). rewrite forallb_forall in T. specialize (T (Z.to_nat i) ltac:(apply in_seq; lia)). apply Nat.leb_le in T. exact T.
Qed.
Lemma at_block_before p b : block_src b -> block_before (pSs p) (pSe p) (pAh p) b (at_block (pAh p) b).
Proof.
  intros [L R]. unfold at_block. destruct (Z.eqb_spec (pAh p) 0) as [E|E].
  - split; [reflexivity|]. intros i Hi _. rewrite E. cbn [Z.eqb]. unfold zz. apply nth_repeat.
  - destruct b as [|c t]; [discriminate|]. split; [cbn [length] in *; rewrite map_length; exact L|]. intros i Hi _. destruct (Z.eqb_spec (pAh p) 0); [contradiction|]. unfold at_prec. destruct (Z.eqb_spec i 0) as [->|N].
    + reflexivity.
    + pose proof (no_pos i ltac:(lia)) as NP. unfold zz. destruct (nth (Z.to_nat i) zigzag 0%nat) as [|k]; [lia|]. cbn [nth]. change 0 with (ac_at (pAh p) 0) at 1. apply map_nth.
Qed.
Lemma src_pair p srcs : Forall (mcu_src p) srcs -> Forall2 (mcu_pair p) srcs (map (map (fun cb => (fst cb, at_block (pAh p) (snd cb)))) srcs).
Proof.
  induction 1 as [|m srcs [H1 H2] F IH]; cbn [map]; constructor; [|exact IH]. split; [|exact H2]. clear H2. induction m as [|[ci b] m IHm]; cbn [map]; constructor; [|apply IHm; intros; apply H1; right; assumption].
  destruct (H1 ci b (or_introl eq_refl)) as [A B]. split; [reflexivity|]. split; [exact A|]. split; [exact B|]. cbn [fst snd]. apply at_block_before. exact B.
Qed.
Definition isym (t s : nat) (e : event) : bool := match e with EItem (ISym t' s') => (Z.of_nat t =? t') && (Z.of_nat s =? s') | _ => false end.
Definition occ (t s : nat) (es : list event) : Z := Z.of_nat (length (filter (isym t s) es)).
Definition evin (n : nat) (e : event) : Prop := match e with EItem (ISym t _) => 0 <= t < Z.of_nat n | _ => True end.
Definition shape (n : nat) (c : list (list Z)) : Prop := length c = n /\ Forall (fun r => length r = 257%nat) c.
Lemma count_ok n : forall es c, Forall evok es -> Forall (evin n) es -> shape n c ->
  exists c', count_events es c = Ret c' /\ shape n c' /\ forall t s, cnt c' t s = cnt c t s + occ t s es.
Proof.
  induction es as [|e es IH]; intros c K N SH; cbn [count_events].
  - exists c. split; [reflexivity|]. split; [exact SH|]. intros. unfold occ. cbn. lia.
  - pose proof (Forall_inv K) as K0. pose proof (Forall_inv N) as N0. apply Forall_inv_tail in K. apply Forall_inv_tail in N.
    destruct e as [[t s|co nb]|x|]; cbn [evok evin iok] in *; [|destruct (IH c K N SH) as (c' & E1 & E2 & E3); exists c'; split; [exact E1|]; split; [exact E2|]; intros t' s'; rewrite E3; reflexivity..].
    destruct SH as [SL SR]. assert (RL : length (nth (Z.to_nat t) c []) = 257%nat) by (rewrite Forall_forall in SR; apply SR; apply nth_In; lia).
    rewrite (aget_nth c t []) by lia. cbn [bind]. rewrite (aget_nth _ s 0) by lia. cbn [bind]. rewrite aset_ok by lia. cbn [bind]. rewrite aset_ok by lia. cbn [bind].
    destruct (IH (upd c (Z.to_nat t) (upd (nth (Z.to_nat t) c []) (Z.to_nat s) (nth (Z.to_nat s) (nth (Z.to_nat t) c []) 0 + 1))) K N) as (c' & E1 & E2 & E3).
    { split; [rewrite length_upd; exact SL|]. apply Forall_upd; [exact SR|]. rewrite length_upd. exact RL. }
    exists c'. split; [exact E1|]. split; [exact E2|]. intros t' s'. rewrite E3. unfold occ. cbn [filter isym]. unfold cnt. destruct (Z.eqb_spec (Z.of_nat t') t) as [T|T]; cbn [andb].
    + assert (t' = Z.to_nat t) as -> by lia. rewrite nth_upd_eq by lia. destruct (Z.eqb_spec (Z.of_nat s') s) as [Y|Y].
      * assert (s' = Z.to_nat s) as -> by lia. rewrite nth_upd_eq by lia. cbn [length]. lia.
      * rewrite nth_upd_neq by lia. reflexivity.
    + rewrite nth_upd_neq by lia. reflexivity.
Qed.
Lemma cnt_zero n t s : cnt (no_counts n) t s = 0.
Proof.
  unfold cnt, no_counts. destruct (Nat.lt_ge_cases t n) as [H|H]; [|rewrite (nth_overflow (repeat (repeat 0 257) n)) by (rewrite repeat_length; lia); destruct s; reflexivity].
  replace (nth t (repeat (repeat 0 257) n) []) with (repeat 0 257); [apply nth_repeat|]. symmetry. apply (repeat_spec n (repeat 0 257)). apply nth_In. rewrite repeat_length. exact H.
Qed.
Lemma there_in p ts : scan_params p -> tables_there p ts -> forall t s, itbl p (ISym t s) -> 0 <= t < Z.of_nat (length ts) /\ exists h, nth_error ts (Z.to_nat t) = Some (Some h).
Proof.
  intros SP TT t s H. assert (X : exists dc ac, In (dc, ac) (pcomps p) /\ t = if pSs p =? 0 then dc else ac).
  { cbn [itbl] in H. destruct (pSs p =? 0) eqn:E.
    - destruct H as (ci & ac & H). apply aget_inv in H. destruct H as [_ H]. apply nth_error_In in H. eauto.
    - unfold act in H. rewrite E in H. destruct (aget (pcomps p) 0) as [[dc ac]| |] eqn:G; cbn [bind] in H; try discriminate. injection H as <-. apply aget_inv in G. destruct G as [_ G]. apply nth_error_In in G. eauto. }
  destruct X as (dc & ac & X & ->). destruct (TT dc ac X) as [T0 (h & T1)]. split; [|eauto]. split; [exact T0|]. set (t := if pSs p =? 0 then dc else ac) in *. assert (Z.to_nat t < length ts)%nat; [|lia]. apply nth_error_Some. congruence.
Qed.
Lemma not_fits p srcs : ~ mcus_in_range p srcs -> ~ (forall m, In m srcs -> forall ci b, In (ci, b) m -> fits p b).
Proof. intros H X. apply H. apply Forall_forall. intros m Hm. apply Forall_forall. intros [ci b] Hb. exact (X m Hm ci b Hb). Qed.

(* everything the scan events say, in one place *)
Lemma events_of p ts et dt srcs : scan_params p -> derived_from p ts et dt -> tables_there p ts -> Forall (mcu_src p) srcs ->
  match scan_events p srcs with
  | Undef => False
  | Error e => e = JERR_BAD_DCT_COEF /\ ~ (forall m, In m srcs -> forall ci b, In (ci, b) m -> fits p b)
  | Ret es => exists es', es = es' ++ [EEnd] /\ Forall evok es' /\ Forall (evthere et) es' /\ Forall (evin (length ts)) es' /\
     forall t s h, nth_error ts t = Some (Some h) -> (s < 256)%nat -> 0 < occ t s es -> (~ has_code (hbits h) (hval h) (Z.of_nat s) <-> ~ icoded et (ISym (Z.of_nat t) (Z.of_nat s)))
  end.
Proof.
  intros SP DF TT SS. pose proof (params_valid p SP) as V. pose proof (src_pair p srcs SS) as F. assert (F' : Forall2 (mcu_ok p) srcs (map (map (fun cb => (fst cb, at_block (pAh p) (snd cb)))) srcs)) by exact F.
  pose proof (scan_events_ok p V (length srcs) srcs _ 0 ltac:(lia) F') as SE. unfold scan_events. destruct (penc_scan p (pst0 p) (pri p) 0 srcs) as [es|e|]; cbn [sate] in SE; [|destruct SE as [-> SE]; split; [reflexivity|]; apply not_fits; exact SE|exact SE].
  destruct SE as (news & PV). destruct (pev_ok p 0 srcs _ es news PV ltac:(lia)) as (es' & -> & EK & ET). exists es'. split; [reflexivity|]. split; [exact EK|]. split; [|split].
  - eapply Forall_impl; [|exact ET]. intros [[t s|]| |] H; cbn [evtbl evthere tbl_there] in *; try exact Logic.I. destruct (there_in p ts SP TT t s H) as (T0 & h & T1). destruct DF as (L1 & L2 & DF). destruct (DF (Z.to_nat t)) as [_ D]. destruct (D h T1) as (_ & c & d & _ & _ & C & _). exists c. apply nth_aget; [lia|exact C].
  - eapply Forall_impl; [|exact ET]. intros [[t s|]| |] H; cbn [evtbl evin] in *; try exact Logic.I. destruct (there_in p ts SP TT t s H) as (T0 & h & T1). exact T0.
  - intros t s h T1 HS _. destruct DF as (L1 & L2 & DF). destruct (DF t) as [_ D]. destruct (D h T1) as (TK & c & d & C1 & C2 & C3 & _). pose proof (derived_code _ _ _ _ (Z.of_nat s) TK C1 ltac:(lia)) as EC.
    destruct (d_derived_spec false (pSs p =? 0) h TK) as [[DO _]|[_ E']]; [|rewrite E' in C2; discriminate]. assert (CS : code_space_ok (hbits h)) by (destruct DO as [DO _]; exact DO).
    pose proof (has_code_nonnil h (Z.of_nat s) CS) as HC. cbn [icoded]. rewrite <- EC in HC. assert (G : aget et (Z.of_nat t) = Ret (Some c)) by (apply nth_aget; [lia|rewrite Nat2Z.id; exact C3]). split; intros X Y; apply X.
    + destruct Y as (c' & Y1 & Y2). rewrite G in Y1. injection Y1 as <-. apply HC. exact Y2.
    + exists c. split; [exact G|]. apply HC. exact Y.
Qed.
Lemma occ_of t s es' : 0 < occ t s (es' ++ [EEnd]) <-> In (EItem (ISym (Z.of_nat t) (Z.of_nat s))) es'.
Proof.
  unfold occ. rewrite filter_app, app_length. cbn [filter isym length]. rewrite Nat.add_0_r. split.
  - intros H. destruct (filter (isym t s) es') as [|x l] eqn:E; [cbn in H; lia|]. assert (HX : In x (filter (isym t s) es')) by (rewrite E; left; reflexivity). apply filter_In in HX. destruct HX as [HX HY]. destruct x as [[t' s'|]| |]; cbn [isym] in HY; try discriminate. apply andb_prop in HY. destruct HY as [Y1 Y2]. apply Z.eqb_eq in Y1. apply Z.eqb_eq in Y2. subst. exact HX.
  - intros H. assert (HX : In (EItem (ISym (Z.of_nat t) (Z.of_nat s))) (filter (isym t s) es')) by (apply filter_In; split; [exact H|]; cbn [isym]; rewrite !Z.eqb_refl; reflexivity). destruct (filter (isym t s) es'); [contradiction|]. cbn [length]. lia.
Qed.
Lemma uncoded_ex et es : ~ Forall (evcoded et) es -> exists e, In e es /\ ~ evcoded et e.
Proof.
  induction es as [|e es IH]; intros H; [exfalso; apply H; constructor|]. assert (D : evcoded et e \/ ~ evcoded et e) by (destruct e as [i| |]; cbn [evcoded]; [destruct (icoded_dec et i); tauto|tauto|tauto]).
  destruct D as [D|D]; [|exists e; split; [left; reflexivity|exact D]]. destruct IH as (x & X1 & X2); [intros X; apply H; constructor; assumption|]. exists x. split; [right; exact X1|exact X2].
Qed.

(* the statistics pass: no undefined behaviour, and an error only for a coefficient that does not fit *)
Theorem C18_gather_total : forall p ts et dt srcs, scan_params p -> derived_from p ts et dt -> tables_there p ts -> Forall (mcu_src p) srcs ->
  match pgather_scan p srcs (no_counts (length ts)) with
  | Undef => False
  | Error e => e = JERR_BAD_DCT_COEF /\ ~ (forall m, In m srcs -> forall ci b, In (ci, b) m -> fits p b)
  | Ret counts => length counts = length ts /\ (forall t, In t counts -> length t = 257%nat) /\ forall t s, 0 <= cnt counts t s
  end.
Proof.
  intros p ts et dt srcs SP DF TT SS. pose proof (events_of p ts et dt srcs SP DF TT SS) as EV. unfold pgather_scan. destruct (scan_events p srcs) as [es|e|]; cbn [bind]; [|exact EV|exact EV].
  destruct EV as (es' & -> & EK & _ & EN & _). destruct (count_ok (length ts) (es' ++ [EEnd]) (no_counts (length ts))) as (c & E & [S1 S2] & C).
  - apply Forall_app. split; [exact EK|constructor; [exact Logic.I|constructor]].
  - apply Forall_app. split; [exact EN|constructor; [exact Logic.I|constructor]].
  - split; [apply repeat_length|]. apply Forall_forall. intros x Hx. apply repeat_spec in Hx. subst x. reflexivity.
  - rewrite E. split; [exact S1|]. split; [rewrite Forall_forall in S2; exact S2|]. intros t s. rewrite C, cnt_zero. unfold occ. lia.
Qed.

(* the output pass: no undefined behaviour; it fails only for a coefficient that does not fit (as the statistics pass does) or for
   a symbol that the statistics pass counts and the table has no code for *)
Theorem C18_encoder_total : forall p ts et dt srcs d, scan_params p -> derived_from p ts et dt -> tables_there p ts -> Forall (mcu_src p) srcs -> dest_ok d -> dsusp d = false ->
  match pencode_scan p et srcs d with
  | Undef => False
  | Error e =>
      (e = JERR_BAD_DCT_COEF /\ pgather_scan p srcs (no_counts (length ts)) = Error e /\ ~ (forall m, In m srcs -> forall ci b, In (ci, b) m -> fits p b)) \/
      (e = JERR_HUFF_MISSING_CODE /\ exists counts t s h, pgather_scan p srcs (no_counts (length ts)) = Ret counts /\ (s < 256)%nat /\ 0 < cnt counts t s /\
         nth_error ts t = Some (Some h) /\ ~ has_code (hbits h) (hval h) (Z.of_nat s))
  | Ret d' => dest_ok d' /\ dsusp d' = false /\ exists counts, pgather_scan p srcs (no_counts (length ts)) = Ret counts /\
      forall t s, 0 < cnt counts t s -> exists h, nth_error ts t = Some (Some h) /\ has_code (hbits h) (hval h) (Z.of_nat s)
  end.
Proof.
  intros p ts et dt srcs d SP DF TT SS DK DS. pose proof (events_of p ts et dt srcs SP DF TT SS) as EV. pose proof (same_et_ok _ _ _ (derived_same p ts et dt DF)) as TK.
  unfold pencode_scan, pgather_scan. destruct (scan_events p srcs) as [es|e|]; cbn [bind]; [|left; destruct EV as [-> EV]; auto|exact EV].
  destruct EV as (es' & -> & EK & TH & EN & HC). destruct (count_ok (length ts) (es' ++ [EEnd]) (no_counts (length ts))) as (c & E & [S1 S2] & C).
  { apply Forall_app. split; [exact EK|constructor; [exact Logic.I|constructor]]. }
  { apply Forall_app. split; [exact EN|constructor; [exact Logic.I|constructor]]. }
  { split; [apply repeat_length|]. apply Forall_forall. intros x Hx. apply repeat_spec in Hx. subst x. reflexivity. }
  pose proof (linv_nil (dout d) d eq_refl DK DS) as LI.
  assert (TB : forall t s, In (EItem (ISym t s)) es' -> exists h, nth_error ts (Z.to_nat t) = Some (Some h)).
  { intros t s H. rewrite Forall_forall in TH, EN. specialize (TH _ H). specialize (EN _ H). cbn [evthere tbl_there evin] in *. destruct TH as (ct & G). apply aget_inv in G. destruct G as [_ G]. destruct DF as (L1 & L2 & DF). destruct (DF (Z.to_nat t)) as [D _].
    destruct (nth_error ts (Z.to_nat t)) as [[h|]|] eqn:Q; [eauto|rewrite (D eq_refl) in G; discriminate|]. apply nth_error_None in Q. lia. }
  assert (RG : forall t s, In (EItem (ISym t s)) es' -> 0 <= s < 256 /\ 0 <= t) by (intros t s H; rewrite Forall_forall in EK, EN; specialize (EK _ H); specialize (EN _ H); cbn in EK, EN; lia).
  assert (DEC : Forall (evcoded et) es' \/ ~ Forall (evcoded et) es').
  { destruct (Forall_dec (evcoded et) ltac:(intros [i| |]; cbn [evcoded]; [apply icoded_dec|left; exact Logic.I|left; exact Logic.I]) es'); tauto. }
  destruct DEC as [CO|CO].
  - destruct (out_events_ok et TK es' (dout d) [] (mkLS 0 0) d EK CO LI) as (d' & E' & _ & K' & S'). rewrite E'. split; [exact K'|]. split; [exact S'|]. exists c. split; [exact E|]. intros t s H. rewrite C, cnt_zero, Z.add_0_l in H. pose proof H as H'. apply occ_of in H.
    destruct (TB _ _ H) as (h & T1). rewrite Nat2Z.id in T1. exists h. split; [exact T1|]. destruct (RG _ _ H) as [RS _]. specialize (HC t s h T1 ltac:(lia) H').
    rewrite Forall_forall in CO. specialize (CO _ H). cbn [evcoded] in CO.
    destruct DF as (L1 & L2 & DF). destruct (DF t) as [_ D]. destruct (D h T1) as (TK' & ct & dd & C1 & C2 & C3 & _). pose proof (derived_code _ _ _ _ (Z.of_nat s) TK' C1 ltac:(lia)) as EC.
    destruct (d_derived_spec false (pSs p =? 0) h TK') as [[DO _]|[_ EE]]; [|rewrite EE in C2; discriminate]. apply (has_code_nonnil h (Z.of_nat s)); [destruct DO as [DO _]; exact DO|]. rewrite <- EC.
    destruct CO as (ct' & G1 & G2). assert (G : aget et (Z.of_nat t) = Ret (Some ct)) by (apply nth_aget; [lia|rewrite Nat2Z.id; exact C3]). rewrite G in G1. injection G1 as <-. exact G2.
  - rewrite (out_events_not et TK es' (dout d) [] (mkLS 0 0) d EK TH CO LI). right. split; [reflexivity|]. destruct (uncoded_ex et es' CO) as ([[t s|]| |] & X1 & X2); cbn [evcoded icoded] in X2; try (exfalso; apply X2; exact Logic.I).
    destruct (TB t s X1) as (h & T1). destruct (RG t s X1) as [RS RT]. exists c, (Z.to_nat t), (Z.to_nat s), h. split; [exact E|]. split; [lia|].
    assert (OC : 0 < occ (Z.to_nat t) (Z.to_nat s) (es' ++ [EEnd])) by (apply occ_of; rewrite !Z2Nat.id by lia; exact X1). split; [rewrite C, cnt_zero; lia|]. split; [exact T1|]. apply (HC (Z.to_nat t) (Z.to_nat s) h T1 ltac:(lia) OC). rewrite !Z2Nat.id by lia. exact X2.
Qed.

(* the two passes of optimize_coding: with the tables that jpeg_gen_optimal_table makes of the statistics the output pass succeeds *)
Theorem C18_optimized : forall p ts et dt srcs d counts, scan_params p -> derived_from p ts et dt -> tables_there p ts -> Forall (mcu_src p) srcs -> dest_ok d -> dsusp d = false ->
  pgather_scan p srcs (no_counts (length ts)) = Ret counts ->
  (forall t h, nth_error ts t = Some (Some h) -> exists old, huff_type_ok old = true /\ jpeg_gen_optimal_table old (nth t counts []) = Ret h /\
     (T_GenTbl.distinct (nth t counts []) <= 254)%nat /\ T_GenTbl.total (nth t counts []) < 1000000000) ->
  exists d', pencode_scan p et srcs d = Ret d'.
Proof.
  intros p ts et dt srcs d counts SP DF TT SS DK DS GA OP. pose proof (C18_encoder_total p ts et dt srcs d SP DF TT SS DK DS) as T. pose proof (C18_gather_total p ts et dt srcs SP DF TT SS) as TG. rewrite GA in TG.
  destruct (pencode_scan p et srcs d) as [d'|e|]; [eauto| |contradiction]. exfalso. destruct T as [(_ & X & _)|(_ & c2 & t & s & h & X1 & X2 & X3 & X4 & X5)]; [rewrite GA in X; discriminate|]. rewrite GA in X1. injection X1 as <-.
  destruct (OP t h X4) as (old & O1 & O2 & O3 & O4). destruct TG as (G1 & G2 & G3).
  assert (TL : (t < length counts)%nat) by (rewrite G1; apply nth_error_Some; congruence).
  pose proof (T_GenTbl.C10_optimal_table old (nth t counts []) O1 (G2 _ (nth_In _ _ TL))) as GT. rewrite O2 in GT. destruct GT as (_ & _ & _ & GT & _); [|exact O3|exact O4|].
  - apply Forall_forall. intros x Hx. apply In_nth with (d := 0) in Hx. destruct Hx as (j & _ & <-). apply (G3 t j).
  - apply X5. apply (proj1 (GT (Z.of_nat s) ltac:(lia))). unfold T_GenTbl.count. rewrite Nat2Z.id. exact X3.
Qed.

(* ---- non-vacuity: a successive-approximation sequence over nine blocks with restart interval 7, with flat 8-bit AC and
   4-bit DC codes; all hypotheses hold at every step and the final blocks are the originals ---- *)
Definition ex_ac : JHUFF_TBL := mkHuff ([0] ++ repeat 0 7 ++ [255] ++ repeat 0 8) (map Z.of_nat (seq 0 255) ++ [0]).
Definition ex_dc : JHUFF_TBL := mkHuff ([0] ++ repeat 0 3 ++ [15] ++ repeat 0 12) (map Z.of_nat (seq 0 15) ++ repeat 0 241).
Definition ex_blk (s : Z) : list Z :=
  map (fun i => let x := (i * i * s + 7 * i) mod 23 in if x <? 4 then (x - 2) * (s + 1) * (i mod 5) * 7 else 0) (map Z.of_nat (seq 0 64)).
Definition ex_srcs : list pmcu := map (fun s => [(0, ex_blk s)]) [1; 2; 3; 0; 0; 0; 4; 5; 6].
Definition ex_zero : list pmcu := map (fun _ => [(0, repeat 0 64)]) ex_srcs.
Definition ex_scan (ss se ah al : Z) : pscan := mkPS ss se ah al 8 7 [(0, 1)].
Definition ex_et (dc : bool) : list (option c_derived_tbl) :=
  map (fun h => match jpeg_make_c_derived_tbl false dc (Some h) with Ret c => Some c | _ => None end) (if dc then [ex_dc; ex_dc] else [ex_ac; ex_ac]).
Definition ex_dt (dc : bool) : list (option d_derived_tbl) :=
  map (fun h => match jpeg_make_d_derived_tbl false dc (Some h) with Ret c => Some c | _ => None end) (if dc then [ex_dc; ex_dc] else [ex_ac; ex_ac]).
Definition ex_tabs (dc : bool) : list (option JHUFF_TBL) := if dc then [Some ex_dc; Some ex_dc] else [Some ex_ac; Some ex_ac].
Example C18_ex_params : scan_params (ex_scan 0 0 0 1) /\ scan_params (ex_scan 0 0 1 0) /\ scan_params (ex_scan 1 63 0 2) /\ scan_params (ex_scan 1 63 2 1) /\ scan_params (ex_scan 1 20 1 0).
Proof.
  unfold scan_params; cbn [ex_scan pSs pSe pAh pAl pprec pri pcomps length].
  split; [|split; [|split; [|split]]]; (split; [(left; split; reflexivity) || (right; split; [lia|]; split; [lia|]; split; [lia|reflexivity])|]; split; [lia|]; split; [lia|]; split; lia).
Qed.
Example C18_ex_tables : forall ss se ah al, derived_from (ex_scan ss se ah al) (ex_tabs (ss =? 0)) (ex_et (ss =? 0)) (ex_dt (ss =? 0)) /\ tables_there (ex_scan ss se ah al) (ex_tabs (ss =? 0)).
Proof.
  intros. split.
  - unfold derived_from. cbn [ex_scan pSs]. destruct (ss =? 0); (split; [reflexivity|]; split; [reflexivity|]); intros [|[|t]]; (split; [intros H; try discriminate; destruct t; discriminate|]); intros h H; try (destruct t; discriminate);
    injection H as <-; (split; [vm_compute; reflexivity|]); eexists; eexists; (split; [vm_compute; reflexivity|]); (split; [vm_compute; reflexivity|]); split; vm_compute; reflexivity.
  - intros dc ac [H|[]]. injection H as <- <-. cbn [ex_scan pSs]. destruct (ss =? 0); split; try lia; eexists; reflexivity.
Qed.
Definition ex_dest : dest := mkDest [7] 4096 [] false.
Example C18_ex_dest : dest_ok ex_dest /\ dsusp ex_dest = false.
Proof. split; [|reflexivity]. unfold dest_ok, ex_dest. cbn. lia. Qed.
Definition ex_step (ss se ah al : Z) (olds : list pmcu) : list pmcu :=
  match pencode_scan (ex_scan ss se ah al) (ex_et (ss =? 0)) ex_srcs ex_dest with
  | Ret d => match pdecode_scan (ex_scan ss se ah al) (ex_dt (ss =? 0)) olds (mkSrc (tl (dout d) ++ [255; 217]) [] false) with
             | Ret (n, _, true) => map (map (fun b => (0, b))) n | _ => [] end
  | _ => [] end.
Example C18_ex_run :
  let r := ex_step 21 63 1 0 (ex_step 1 20 1 0 (ex_step 1 63 2 1 (ex_step 1 63 0 2 (ex_step 0 0 1 0 (ex_step 0 0 0 1 ex_zero))))) in
  (if list_eq_dec (list_eq_dec (list_eq_dec Z.eq_dec)) (map (map snd) r) (map (map snd) ex_srcs) then true else false) = true.
Proof. vm_compute. reflexivity. Qed.
Definition block_srcb (b : list Z) : bool := Nat.eqb (length b) 64 && forallb (fun i => (-32768 <=? zz b i) && (zz b i <=? 32767)) (map Z.of_nat (seq 0 64)).
Lemma block_srcb_ok b : block_srcb b = true -> block_src b.
Proof.
  intros H. apply andb_prop in H. destruct H as [H1 H2]. apply Nat.eqb_eq in H1. split; [exact H1|]. intros i Hi. rewrite forallb_forall in H2. specialize (H2 i). rewrite andb_true_iff, !Z.leb_le in H2. apply H2. apply in_map_iff. exists (Z.to_nat i). split; [lia|]. apply in_seq. lia.
Qed.
Example C18_ex_srcs : forall ss se ah al, Forall (mcu_src (ex_scan ss se ah al)) ex_srcs.
Proof.
  intros. assert (T : forallb (forallb (fun '(ci, b) => (ci =? 0) && block_srcb b)) ex_srcs = true) by (vm_compute; reflexivity). apply Forall_forall. intros m Hm. split.
  - intros ci b Hb. rewrite forallb_forall in T. specialize (T m Hm). rewrite forallb_forall in T. specialize (T (ci, b) Hb). apply andb_prop in T. destruct T as [T1 T2]. apply Z.eqb_eq in T1. subst ci. split; [cbn; lia|]. apply block_srcb_ok. exact T2.
  - intros _. unfold ex_srcs in Hm. apply in_map_iff in Hm. destruct Hm as (s & <- & _). reflexivity.
Qed.
(* an end-of-band run over several blocks really occurs *)
Example C18_ex_run_symbol : match pgather_scan (ex_scan 30 40 0 3) ex_srcs (no_counts 2) with Ret c => 0 <? cnt c 1 16 | _ => false end = true.
Proof. vm_compute. reflexivity. Qed.
(* the hypotheses of C18_optimized: statistics, optimal tables made of them, output pass *)
Definition ex_counts (ss se ah al : Z) : list (list Z) := match pgather_scan (ex_scan ss se ah al) ex_srcs (no_counts 2) with Ret c => c | _ => [] end.
Definition ex_old : JHUFF_TBL := mkHuff (repeat 0 17) (repeat 0 256).
Example C18_ex_optimized :
  match jpeg_gen_optimal_table ex_old (nth 1 (ex_counts 1 63 2 1) []) with
  | Ret h => match jpeg_make_c_derived_tbl false false (Some h), jpeg_make_d_derived_tbl false false (Some h) with
             | Ret c, Ret _ => (T_GenTbl.distinct (nth 1%nat (ex_counts 1 63 2 1) []) <=? 254)%nat && (T_GenTbl.total (nth 1%nat (ex_counts 1 63 2 1) []) <? 1000000000) &&
                 match pencode_scan (ex_scan 1 63 2 1) [None; Some c] ex_srcs ex_dest with Ret _ => true | _ => false end
             | _, _ => false end
  | _ => false end = true.
Proof. vm_compute. reflexivity. Qed.

Print Assumptions C18_roundtrip.
Print Assumptions C18_gather_total.
Print Assumptions C18_encoder_total.
Print Assumptions C18_optimized.
