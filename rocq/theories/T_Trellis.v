(* T_Trellis.v -- C22: trellis quantization only moves AC coefficients toward zero and its result can be coded *)
From Verif Require Import Base M_HuffDec M_HuffEnc M_Trellis S_Block S_Trellis P_Gather P_Trellis P_TrellisRow.

(* No cost reaches the initial value 1e38: what is built on an unset accumulated cost never wins, and the first cost
   compared with an unset best cost wins.  (In float arithmetic: every cost computed is below 1e38, and 1e38 absorbs what is
   added to it.)  Apart from this the comparisons may come out in any way. *)
Definition costs_finite (o : oracle) : Prop :=
  (forall bi i j k s, lt_cand o bi i j k s false = false) /\ (forall bi i, lt_last o bi i false = false) /\
  (forall bi i, lt_block o bi i false = true) /\ (forall i, lt_end o i false = true).

Definition first_ac (p : params) : Z := Z.max 1 (p_Ss p).
Definition valid (o : oracle) (p : params) (code_size qtbl : list Z) (srcs blocks : list (list Z)) : Prop :=
  0 <= p_Ss p /\ p_Se p <= 63 /\ 0 <= p_precision p <= 12 /\ length code_size = 256%nat /\
  length qtbl = 64%nat /\ Forall (fun q => 1 <= q <= 65535) qtbl /\
  length srcs = length blocks /\ blocks <> [] /\ Z.of_nat (length blocks) <= 65000 /\
  Forall (fun s => length s = 64%nat /\ Forall s16r s) srcs /\ Forall (fun b => length b = 64%nat) blocks /\
  length (stack_run_start o) = 64%nat /\ length (heap_run_start o) = length blocks.
(* the blocks hold plain quantized values, or anything else that is not above them *)
Definition plain (p : params) (qtbl : list Z) (srcs blocks : list (list Z)) : Prop :=
  forall b k, (b < length blocks)%nat -> first_ac p <= k <= p_Se p ->
    toward_zero (coef (nth b srcs []) k) (coef qtbl k) (coef (nth b blocks []) k).

Lemma band_conv k Ss Se : 1 <= Ss -> Se <= 63 -> 0 <= k < 64 -> (k < Ss \/ Se < k) -> forall i, Ss <= i <= Se -> no k <> no i.
Proof. intros H1 H2 Hk D i Hi E. apply no_inj in E; lia. Qed.
Lemma gl_nth l b : gl l (Z.of_nat b) = nth b l [].
Proof. unfold gl. rewrite Nat2Z.id. reflexivity. Qed.
Lemma g_Forall (P : Z -> Prop) l i : Forall P l -> 0 <= i < Z.of_nat (length l) -> P (g l i).
Proof. intros H Hi. unfold g. rewrite Forall_forall in H. apply H, nth_In. lia. Qed.

Definition dc_near (p : params) (src quant c : Z) : Prop :=
  exists r d, rounded (Z.abs src) (8 * quant) r /\ -4 <= d <= 4 /\
    let lim := 2 ^ (p_precision p + 2) - 1 in
    c = (if src <? 0 then -1 else 1) * Z.max (- lim) (Z.min lim (r + d)).

Lemma dc_cand_near p n src quant sign x q qval k : 0 <= p_precision p <= 12 -> s16r src -> 1 <= quant -> 3 <= n <= 9 -> 0 <= k < n -> n mod 2 = 1 ->
  quant_of src quant = Ret (sign, x, q, qval) -> dc_near p src quant (dc_cand p n sign qval k).
Proof.
  intros HP HR HQ Hn Hk HM. unfold quant_of. destruct (Z.eqb_spec (8 * quant) 0); [discriminate|]. intros E. assert (E1 : sign = Z.shiftr src 31) by congruence. assert (E2 : qval = (Z.abs src + 8 * quant / 2) / (8 * quant)) by congruence. clear E. subst sign qval.
  assert (RD : rounded (Z.abs src) (8 * quant) ((Z.abs src + 8 * quant / 2) / (8 * quant))). { apply rounded_div; [lia|lia|]. replace (8 * quant) with (4 * quant * 2) by lia. apply Z.mod_mul. lia. }
  set (r := (Z.abs src + 8 * quant / 2) / (8 * quant)) in *.
  assert (R4 : 0 <= r <= 4098). { unfold rounded, s16r in *. clearbody r. nia. }
  rewrite (sign_val src HR). exists r, (k - n / 2). split; [exact RD|]. pose proof (Z.div_mod n 2 ltac:(lia)). split; [lia|]. cbv zeta. unfold dc_cand.
  assert (EL : Z.shiftl 1 (p_precision p + 2) = 2 ^ (p_precision p + 2)) by (rewrite Z.shiftl_mul_pow2 by lia; lia). rewrite EL. set (lim := 2 ^ (p_precision p + 2)).
  assert (BL : 4 <= lim <= 16384). { unfold lim. split; [pose proof (Z.pow_le_mono_r 2 2 (p_precision p + 2) ltac:(lia) ltac:(lia)); lia|pose proof (Z.pow_le_mono_r 2 (p_precision p + 2) 14 ltac:(lia) ltac:(lia)); lia]. }
  clearbody lim r. rewrite (s16_id (r - n / 2 + k)) by (unfold s16r; lia). rewrite (s16_id (lim - 1)) by (unfold s16r; lia). rewrite (s16_id (- lim + 1)) by (unfold s16r; lia).
  destruct (Z.leb_spec lim (r - n / 2 + k)) as [G|G].
  - destruct (Z.leb_spec (lim - 1) (- lim)); [lia|]. rewrite s16_id by (unfold s16r; destruct (src <? 0); lia). destruct (src <? 0); lia.
  - destruct (Z.leb_spec (r - n / 2 + k) (- lim)); rewrite s16_id by (unfold s16r; destruct (src <? 0); lia); destruct (src <? 0); lia.
Qed.

Theorem C22_trellis : forall o p code_size qtbl srcs blocks last_dc,
  valid o p code_size qtbl srcs blocks -> costs_finite o -> plain p qtbl srcs blocks ->
  (p_eob_opt p = true -> exists v, heap_below o = Some v) ->
  exists blocks' dc', quantize_trellis o p code_size qtbl srcs blocks last_dc = Ret (blocks', dc') /\ length blocks' = length blocks /\
  forall b, (b < length blocks)%nat ->
    let src := nth b srcs [] in let old := nth b blocks [] in let new := nth b blocks' [] in
    (forall k, first_ac p <= k <= p_Se p -> toward_zero (coef src k) (coef qtbl k) (coef new k)) /\
    (forall k, 0 < k < 64 -> k < first_ac p \/ p_Se p < k -> coef new k = coef old k) /\
    (first_ac p <= p_Se p -> encodable code_size (first_ac p) (p_Se p) (p_precision p + 2) new) /\
    (if p_dc p && (first_ac p <=? p_Se p) then dc_near p (coef src 0) (coef qtbl 0) (coef new 0) /\ dc' = coef (nth (length blocks - 1) blocks' []) 0
     else coef new 0 = coef old 0 /\ dc' = last_dc).
Proof.
  intros o p cs qtbl srcs blocks ld (H1 & H2 & HP & HE & HQL & HQF & LS & NE & LN & FS & FBk & LR & LH) (F2 & F3 & F4 & F5) PL FB0.
  assert (HQ : forall z, 0 <= z < 64 -> 1 <= g qtbl z <= 65535). { intros z Hz. apply (g_Forall (fun q => 1 <= q <= 65535)); [exact HQF|lia]. }
  destruct (num_dc_ok (g qtbl 0) (HQ 0 ltac:(lia))) as (n & HN & Hn & HM).
  unfold quantize_trellis. rewrite aget_g by lia. cbn [bind]. rewrite HN. cbn [bind].
  assert (ES : (if p_Ss p =? 0 then 1 else p_Ss p) = first_ac p). { unfold first_ac. destruct (Z.eqb_spec (p_Ss p) 0); lia. } rewrite ES. set (Ss := first_ac p) in *.
  assert (HSs : 1 <= Ss) by (unfold Ss, first_ac; lia).
  destruct (Z.ltb_spec (p_Se p) Ss) as [G|G].
  { exists blocks, ld. split; [reflexivity|]. split; [reflexivity|]. intros b Hb. cbv zeta. split; [intros; lia|]. split; [reflexivity|]. split; [lia|]. destruct (Z.leb_spec Ss (p_Se p)); [lia|]. rewrite andb_false_r. split; reflexivity. }
  assert (HSrc : forall b, 0 <= b < Z.of_nat (length blocks) -> length (gl srcs b) = 64%nat /\ (forall z, 0 <= z < 64 -> s16r (g (gl srcs b) z))).
  { intros b Hb. rewrite Forall_forall in FS. destruct (FS (gl srcs b)) as [A B]; [unfold gl; apply nth_In; lia|]. split; [exact A|]. intros z Hz. apply g_Forall; [exact B|lia]. }
  assert (HO : forall b, 0 <= b < Z.of_nat (length blocks) -> vals p Ss qtbl (gl srcs b) (gl blocks b) (gl blocks b)).
  { intros b Hb. rewrite Forall_forall in FBk. split; [apply FBk; unfold gl; apply nth_In; lia|]. split; [|reflexivity]. intros i Hi. specialize (PL (Z.to_nat b) i ltac:(lia) Hi). rewrite !coef_g in PL. exact PL. }
  pose proof (conj HSs G) as HS.
  assert (LOOP : sat (RI p Ss cs qtbl srcs blocks n (Z.of_nat (length blocks))) (for_loop (length blocks) 0 (block_step o p Ss n cs qtbl srcs) (mkTr blocks (stack_run_start o) [0] (heap_run_start o) []))).
  { apply (sat_for (RI p Ss cs qtbl srcs blocks n)).
    - unfold RI. cbn [t_blocks t_rs t_req t_brs t_dc]. split; [reflexivity|]. split; [intros; lia|]. split; [reflexivity|]. split; [exact LR|]. split.
      + intros _. unfold eobok. split; [reflexivity|]. split; [reflexivity|]. split; [exact LH|]. split; [|intros; lia]. intros b Hb. assert (b = 0) as -> by lia. cbn. lia.
      + intros _. split; [reflexivity|intros; lia].
    - intros i s Hi. apply (block_step_ok o p Ss cs qtbl srcs blocks n); try assumption. }
  destruct (for_loop _ _ _ _) as [st| |] eqn:EL; [|contradiction|contradiction]. cbn [sat] in LOOP. cbn [bind]. destruct LOOP as (L & B1 & B2 & LR2 & EO & DC). clear EL.
  assert (ALL0 : allok p Ss cs qtbl srcs blocks (t_blocks st)). { split; [exact L|exact B1]. }
  assert (PH : sat (allok p Ss cs qtbl srcs blocks) (if p_eob_opt p then last_block <- end_choose o (Z.of_nat (length blocks)) (t_req st) ;; zero_blocks (S (S (length blocks))) o Ss (p_Se p) (last_block - 1) (Z.of_nat (length blocks) - 1) (t_blocks st) (t_brs st) else Ret (t_blocks st))).
  { destruct (p_eob_opt p) eqn:EE; [|exact ALL0]. specialize (EO eq_refl).
    eapply sat_bind; [eapply end_choose_ok with (orig := blocks) (brs := t_brs st); try eassumption|]. intros last [K1 K2].
    eapply zb_ok with (orig := blocks) (req := t_req st); try eassumption; try lia; [exact (FB0 eq_refl)|replace (last - 1 + 1) with last by lia; exact K2]. }
  destruct (if p_eob_opt p then _ else _) as [bl1| |]; [|contradiction|contradiction]. cbn [sat] in PH. cbn [bind]. destruct PH as [L1 A1].
  assert (FIN : forall b, (b < length blocks)%nat -> (forall k, Ss <= k <= p_Se p -> toward_zero (coef (nth b srcs []) k) (coef qtbl k) (coef (nth b bl1 []) k)) /\
     (forall k, 0 <= k < 64 -> k < Ss \/ p_Se p < k -> coef (nth b bl1 []) k = coef (nth b blocks []) k) /\ encodable cs Ss (p_Se p) (p_precision p + 2) (nth b bl1 [])).
  { intros b Hb. destruct (A1 (Z.of_nat b) ltac:(lia)) as [(_ & V1 & V2) EN]. rewrite !gl_nth in *. split; [|split; [|exact EN]].
    - intros k Hk. rewrite !coef_g. apply V1. exact Hk.
    - intros k Hk D. rewrite !coef_g. apply V2; [apply no_range; lia|]. apply band_conv; assumption. }
  destruct (Z.leb_spec Ss (p_Se p)) as [_|]; [|lia]. rewrite andb_true_r.
  destruct (p_dc p) eqn:ED.
  - destruct (DC eq_refl) as [D1 D2]. rewrite Nat2Z.id in D1.
    assert (CH : sat (fun j => 0 <= j < n) (for_loop (Z.to_nat (n - 1)) 1 (fun i j => Ret (if lt_dcend o i j then i else j)) 0)).
    { apply (sat_for (fun (_ : Z) j => 0 <= j < n)); [lia|]. intros i j Hi Hj. rewrite Z2Nat.id in Hi by lia. cbn [sat]. destruct (lt_dcend o i j); lia. }
    destruct (for_loop (Z.to_nat (n - 1)) 1 _ 0) as [j| |]; [|contradiction|contradiction]. cbn [sat] in CH. cbn [bind].
    assert (L64 : forall b, 0 <= b < Z.of_nat (length blocks) -> length (gl bl1 b) = 64%nat). { intros b Hb. apply (A1 b Hb). }
    assert (BT : sat (fun bl => length bl = length blocks /\ forall b, 0 <= b < Z.of_nat (length blocks) -> length (gl bl b) = 64%nat /\ (forall z, 1 <= z -> g (gl bl b) z = g (gl bl1 b) z) /\ exists k sign x q qval, 0 <= k < n /\ quant_of (g (gl srcs b) 0) (g qtbl 0) = Ret (sign, x, q, qval) /\ g (gl bl b) 0 = dc_cand p n sign qval k) (dc_backtrack (length blocks) j (t_dc st) bl1)).
    { eapply sat_imp; [eapply backtrack_ok with (orig := blocks) (n := n) (srcs := srcs) (qtbl := qtbl) (p := p); try eassumption; try lia|]. intros bl [X1 X2]. split; [exact X1|]. intros b Hb. apply (X2 b Hb). lia. }
    destruct (dc_backtrack _ _ _ _) as [bl2| |]; [|contradiction|contradiction]. cbn [sat] in BT. cbn [bind]. destruct BT as [LB2 B3].
    assert (NZ : (0 < length blocks)%nat). { destruct blocks; [congruence|cbn; lia]. }
    rewrite (aget_d [] bl2) by lia. cbn [bind]. replace (Z.to_nat (Z.of_nat (length blocks) - 1)) with (length blocks - 1)%nat by lia.
    rewrite aget_g. 2:{ pose proof (proj1 (B3 (Z.of_nat (length blocks - 1)) ltac:(lia))) as X. rewrite gl_nth in X. lia. }
    cbn [bind]. eexists. eexists. split; [reflexivity|]. split; [exact LB2|]. intros b Hb. cbv zeta. destruct (FIN b Hb) as (V1 & V2 & EN). destruct (B3 (Z.of_nat b) ltac:(lia)) as (X1 & X2 & k0 & sign & x & q & qval & X3 & X4 & X5). rewrite !gl_nth in *.
    assert (SAME : forall k, 0 < k < 64 -> coef (nth b bl2 []) k = coef (nth b bl1 []) k). { intros k Hk. rewrite !coef_g. apply X2. pose proof (no_range k ltac:(lia)). destruct (Z.eq_dec (no k) 0) as [E|]; [apply no_0 in E; lia|lia]. }
    split; [intros k Hk; rewrite SAME by lia; apply V1; exact Hk|]. split; [intros k Hk D; rewrite SAME by lia; apply V2; [lia|exact D]|]. split.
    + intros _ k Hk NZk. rewrite SAME in NZk by lia. destruct (EN k Hk NZk) as (prev & Y1 & Y2 & Y3 & Y4). exists prev. rewrite (SAME k) by lia. split; [exact Y1|]. split; [|split; [|exact Y4]].
      * destruct Y2 as [Y2|Y2]; [left; exact Y2|]. destruct (Z.eq_dec prev (Ss - 1)); [left; assumption|right]. rewrite SAME by lia. exact Y2.
      * intros m Hm. rewrite SAME by lia. apply Y3. exact Hm.
    + split; [|reflexivity]. rewrite !coef_g. change (no 0) with 0. rewrite X5. apply (dc_cand_near p n _ _ sign x q qval k0); auto; try lia.
      * destruct (HSrc (Z.of_nat b) ltac:(lia)) as [_ S1]. rewrite gl_nth in S1. apply S1. lia.
      * apply (HQ 0). lia.
  - exists bl1, ld. split; [reflexivity|]. split; [exact L1|]. intros b Hb. cbv zeta. destruct (FIN b Hb) as (V1 & V2 & EN). split; [exact V1|]. split; [intros k Hk D; apply V2; [lia|exact D]|]. split; [intros _; exact EN|]. split; [apply V2; lia|reflexivity].
Qed.

(* what toward_zero says: zero, or same sign and magnitude at most the rounded one, which is unique *)
Theorem C22_toward_zero_meaning : forall src quant c, 1 <= quant -> toward_zero src quant c ->
  (c = 0 \/ Z.sgn c = Z.sgn src) /\ forall r, rounded (Z.abs src) (8 * quant) r -> Z.abs c <= r.
Proof.
  intros src quant c HQ (r & R & A & S). unfold rounded in R. split.
  - destruct (Z.eq_dec c 0) as [->|N]; [left; reflexivity|right]. destruct (Z.lt_trichotomy src 0) as [L|[->|L]], (Z.lt_trichotomy c 0) as [L2|[L2|L2]]; try nia; rewrite ?(Z.sgn_neg src), ?(Z.sgn_pos src), ?(Z.sgn_neg c), ?(Z.sgn_pos c) by lia; reflexivity.
  - intros r2 R2. unfold rounded in R2. assert (r = r2); [|lia]. nia.
Qed.

(* ---- cases ---- *)
Definition ex_or := mkOracle (fun _ _ j k _ sj => sj && ((j =? 0) || (k =? 0))) (fun _ i s => s && (i <? 20)) (fun _ _ _ => true) (fun _ _ => true) (fun _ _ _ => false) (fun _ _ => false)
  (repeat 0 64) (repeat 0 2) (Some 0).
Definition ex_p := mkParams 0 63 8 true false.
Definition ex_src := [100; 300; -250; 40; 0; 90] ++ repeat 7 58.
Definition ex_blk := [100; 4; -3; 1; 0; 1] ++ repeat 0 58.
Example C22_ex : match quantize_trellis ex_or ex_p (repeat 4 256) (repeat 10 64) [ex_src; ex_src] [ex_blk; ex_blk] 0 with
  | Ret (bl, _) => bl = [ex_blk; [100] ++ repeat 0 63] \/ (exists a b, bl = [a; b] /\ coef a 1 <> 0) | _ => False end.
Proof. vm_compute. right. eexists. eexists. split; [reflexivity|]. discriminate. Qed.
Lemma ex_valid : valid ex_or ex_p (repeat 4 256) (repeat 10 64) [ex_src; ex_src] [ex_blk; ex_blk] /\ costs_finite ex_or.
Proof.
  split.
  - unfold valid. cbn [p_Ss p_Se p_precision ex_p]. split; [lia|]. split; [lia|]. split; [lia|]. split; [reflexivity|]. split; [reflexivity|]. split; [apply Forall_forall; intros x Hx; apply repeat_spec in Hx; lia|].
    split; [reflexivity|]. split; [discriminate|]. split; [cbn; lia|]. split; [|split; [|split; reflexivity]].
    + assert (A : length ex_src = 64%nat /\ Forall s16r ex_src). { split; [reflexivity|]. unfold ex_src, s16r. apply Forall_app. split; [repeat constructor; lia|]. apply Forall_forall. intros x Hx. apply repeat_spec in Hx. lia. }
      constructor; [exact A|constructor; [exact A|constructor]].
    + constructor; [reflexivity|constructor; [reflexivity|constructor]].
  - split; [intros; reflexivity|]. split; [intros; reflexivity|]. split; intros; reflexivity.
Qed.
Lemma ex_plain : plain ex_p (repeat 10 64) [ex_src; ex_src] [ex_blk; ex_blk].
Proof.
  assert (T : forallb (fun k => let s := coef ex_src (Z.of_nat k) in let c := coef ex_blk (Z.of_nat k) in (Z.abs c <=? (Z.abs s + 40) / 80) && (0 <=? c * s)) (seq 1 63) = true) by (vm_compute; reflexivity).
  intros b k Hb Hk. unfold first_ac in Hk. cbn [p_Ss p_Se ex_p] in Hk. rewrite forallb_forall in T. specialize (T (Z.to_nat k) ltac:(apply in_seq; lia)). cbv zeta in T. rewrite Z2Nat.id in T by lia. apply andb_true_iff in T. destruct T as [T1 T2].
  assert (EQ : coef (repeat 10 64) k = 10). { rewrite coef_g. unfold g. apply nth_repeat_lt. pose proof (no_range k ltac:(lia)). lia. } rewrite EQ.
  assert (E1 : nth b [ex_src; ex_src] [] = ex_src) by (destruct b as [|[|b]]; [reflexivity|reflexivity|cbn in Hb; lia]).
  assert (E2 : nth b [ex_blk; ex_blk] [] = ex_blk) by (destruct b as [|[|b]]; [reflexivity|reflexivity|cbn in Hb; lia]). rewrite E1, E2.
  exists ((Z.abs (coef ex_src k) + 40) / 80). split; [apply (rounded_div (Z.abs (coef ex_src k)) 80); [lia|lia|reflexivity]|]. lia.
Qed.

(* Findings. *)
(* With EOB-run optimization block_run_start[-1] is read when the row starts with a run of blocks set to zero: outside
   the malloc'd array (jcdctmgr.c:1290).  All other hypotheses of the theorem hold. *)
Definition ex_or2 := mkOracle (lt_cand ex_or) (lt_last ex_or) (fun _ _ s => negb s) (fun _ s => negb s) (lt_dc ex_or) (lt_dcend ex_or) (repeat 0 64) (repeat 0 2) None.
Example C22_eob_read_refuted : costs_finite ex_or2 /\ quantize_trellis ex_or2 ex_p (repeat 4 256) (repeat 10 64) [ex_src; ex_src] [ex_blk; ex_blk] 0 = Undef.
Proof. split; [split; [intros; reflexivity|]; split; [intros; reflexivity|]; split; intros; reflexivity|]. vm_compute. reflexivity. Qed.
(* If costs overflow, run_start may be used uninitialised and coefficients outside the band be lost (or worse). *)
Definition ex_or3 := mkOracle (fun _ _ _ _ _ _ => false) (fun _ i _ => i =? 5) (fun _ _ s => negb s) (fun _ s => negb s) (fun _ _ _ => false) (fun _ _ => false) (repeat 0 64) (repeat 0 1) None.
Example C22_overflow_refuted : match quantize_trellis ex_or3 (mkParams 3 63 8 false false) (repeat 4 256) (repeat 10 64) [repeat 200 64] [repeat 3 64] 0 with
  | Ret ([b], _) => coef b 1 = 0 | _ => False end.
Proof. vm_compute. reflexivity. Qed.
(* The DC coefficient, when DC trellis is on, may grow and may change sign (it stays within 4 of the rounded value). *)
Example C22_dc_sign_refuted : match quantize_trellis (mkOracle (lt_cand ex_or) (lt_last ex_or) (lt_block ex_or) (lt_end ex_or) (fun _ _ _ => false) (fun _ _ => false) (repeat 0 64) (repeat 0 1) None) (mkParams 0 63 8 false true) (repeat 4 256) (repeat 10 64) [5 :: repeat 0 63] [repeat 0 64] 0 with
  | Ret ([b], d) => coef b 0 = -3 \/ coef b 0 = -4 | _ => False end.
Proof. vm_compute. auto. Qed.

Print Assumptions C22_trellis.
Print Assumptions C22_toward_zero_meaning.
