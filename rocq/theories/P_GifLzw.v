(* P_GifLzw.v -- the LZW code stream: writer and reader stay in step *)
From Coq Require Import Znumtheory.
From Verif Require Import Base M_Gif P_GifBits.
Set Warnings "-abstract-large-number".

Section Lzw.
Variable ics : Z.
Hypothesis Hics : 2 <= ics <= 8.
Notation clear := (2 ^ ics).

Lemma clear_bounds : 4 <= clear <= 256.
Proof. split; [change 4 with (2 ^ 2)|change 256 with (2 ^ 8)]; apply Z.pow_le_mono_r; lia. Qed.

(* symbol clear+2+j stands for the string of its prefix symbol followed by its suffix byte *)
Definition dict := list (Z * Z).
Definition mc (D : dict) : Z := clear + 2 + Z.of_nat (length D).
Definition wd (m : Z) : Z := Z.min 12 (Z.log2 m + 1).

Inductive Exp (D : dict) : Z -> list Z -> Prop :=
| E_raw c : 0 <= c < clear -> Exp D c [c]
| E_sym j p c px : nth_error D j = Some (p, c) -> 0 <= c < clear -> p < clear + 2 + Z.of_nat j -> Exp D p px ->
    Exp D (clear + 2 + Z.of_nat j) (px ++ [c]).

Lemma Exp_ext D E c px : Exp D c px -> Exp (D ++ E) c px.
Proof.
  induction 1; [now constructor|]. econstructor; eauto. rewrite nth_error_app1; auto. apply nth_error_Some. congruence.
Qed.
Lemma Exp_code D c px : Exp D c px -> (0 <= c < clear) \/ (clear + 2 <= c < mc D).
Proof.
  destruct 1 as [|j p c px H]; [auto|]. right. unfold mc. assert (j < length D)%nat by (apply nth_error_Some; congruence). lia.
Qed.
Lemma Exp_det D c px : Exp D c px -> forall px', Exp D c px' -> px = px'.
Proof.
  induction 1 as [c H|j p c px HD Hc Hp H IH]; intros px' H'.
  - inversion H' as [|j p c' q]; subst; auto. lia.
  - inversion H' as [c0 H0|j' p' c' q HD' Hc' Hp' H0 E1]; subst; [lia|]. assert (j' = j) by lia. subst j'. rewrite HD in HD'. inversion HD'; subst. f_equal. apply IH. exact H0.
Qed.
Lemma Exp_restrict D E c px : Exp (D ++ E) c px -> c < mc D -> Exp D c px.
Proof.
  intros H. remember (D ++ E) as DE. revert HeqDE. induction H as [c H|j p c px HD Hc Hp H IH]; intros -> Hm; [now constructor|].
  unfold mc in *. assert (Hj : (j < length D)%nat) by lia. rewrite nth_error_app1 in HD by exact Hj. econstructor; eauto. apply IH; auto. lia.
Qed.
Lemma Exp_len D c px : Exp D c px -> (1 <= length px)%nat /\ Z.of_nat (length px) <= Z.max 1 (c - clear).
Proof.
  induction 1 as [c H|j p c px HD Hc Hp H [IH1 IH2]]; [cbn; lia|]. rewrite app_length. cbn [length]. lia.
Qed.
Lemma Exp_first D c px : Exp D c px -> exists x r, px = x :: r /\ 0 <= x < clear.
Proof.
  induction 1 as [c H|j p c px HD Hc Hp H (x & r & -> & Hx)]; [exists c, []; auto|]. exists x, (r ++ [c]). auto.
Qed.

(* abstract reader *)
Definition ast := (dict * option Z)%type.
Inductive astep : ast -> Z * Z -> list Z -> ast -> Prop :=
| as_clear D o : astep (D, o) (wd (mc D), clear) [] ([], None)
| as_first c : 0 <= c < clear -> astep ([], None) (ics + 1, c) [c] ([], Some c)
| as_code D o c px x po : Exp (D ++ [(o, x)]) c px -> hd_error px = Some x -> mc D < 4096 -> Exp D o po ->
    astep (D, Some o) (wd (mc D), c) px (D ++ [(o, x)], Some c).
Inductive arun : ast -> list (Z * Z) -> list Z -> ast -> Prop :=
| ar_nil s : arun s [] [] s
| ar_cons s t px s1 tr px' s2 : astep s t px s1 -> arun s1 tr px' s2 -> arun s (t :: tr) (px ++ px') s2.

Lemma arun_snoc s tr px s1 t px' s2 : arun s tr px s1 -> astep s1 t px' s2 -> arun s (tr ++ [t]) (px ++ px') s2.
Proof.
  induction 1 as [s|s t0 p0 s' tr p1 s'' H H0 IH]; intros HS; cbn [app].
  - rewrite <- (app_nil_r px'). econstructor; eauto. constructor.
  - rewrite <- app_assoc. econstructor; eauto.
Qed.

Definition tbits (tr : list (Z * Z)) : list bool := flat_map (fun t => lsb (Z.to_nat (fst t)) (snd t)) tr.
Lemma tbits_app a b : tbits (a ++ b) = tbits a ++ tbits b.
Proof. apply flat_map_app. Qed.

(* ---------------- widths ---------------- *)
Lemma wd_step m : 1 <= m -> m + 1 <= 4096 -> wd (m + 1) = if (2 ^ wd m <=? m + 1) && (wd m <? 12) then wd m + 1 else wd m.
Proof.
  intros H1 H2. unfold wd. pose proof (Z.log2_spec m ltac:(lia)) as [L1 L2]. pose proof (Z.log2_nonneg m) as L0. set (n := Z.log2 m) in *.
  assert (Hn : n < 12) by (apply (Z.pow_lt_mono_r_iff 2); [lia|lia|]; change (2 ^ 12) with 4096; lia).
  rewrite (Z.min_r 12 (n + 1)) by lia. replace (Z.succ n) with (n + 1) in L2 by lia.
  destruct (Z.leb_spec (2 ^ (n + 1)) (m + 1)) as [G|G]; cbn [andb].
  - assert (E : m + 1 = 2 ^ (n + 1)) by lia. rewrite E, Z.log2_pow2 by lia. destruct (Z.ltb_spec (n + 1) 12); lia.
  - assert (E : Z.log2 (m + 1) = n) by (apply Z.log2_unique; [lia|]; replace (Z.succ n) with (n + 1) by lia; lia). rewrite E. lia.
Qed.
Lemma wd_init m : clear <= m < 2 * clear -> wd m = ics + 1.
Proof.
  intros H. unfold wd. pose proof clear_bounds. rewrite (Z.log2_unique m ics); [lia|lia|]. replace (Z.succ ics) with (1 + ics) by lia. rewrite Z.pow_add_r by lia. lia.
Qed.
Lemma wd_range m : clear <= m -> 3 <= wd m <= 12.
Proof.
  intros H. unfold wd. pose proof clear_bounds. assert (ics <= Z.log2 m) by (apply Z.log2_le_pow2; lia). lia.
Qed.
Lemma wd_fits m : clear <= m <= 4096 -> m = 4096 \/ m < 2 ^ wd m.
Proof.
  intros H. unfold wd. pose proof clear_bounds. pose proof (Z.log2_spec m ltac:(lia)) as [L1 L2]. replace (Z.succ (Z.log2 m)) with (Z.log2 m + 1) in L2 by lia.
  destruct (Z.min_spec 12 (Z.log2 m + 1)) as [[G ->]|[G ->]]; [|auto]. change (2 ^ 12) with 4096. lia.
Qed.
Lemma mc_ge D : clear + 2 <= mc D.
Proof. unfold mc. lia. Qed.

(* ---------------- writer ---------------- *)
Definition mxc (n : Z) : Z := if n =? 12 then 4096 else 2 ^ n - 1.
Lemma bump_wd w m : w_nbits w = wd m -> w_maxcode w = mxc (wd m) -> w_free w = m + 1 -> clear <= m -> m + 1 <= 4096 ->
  bump w = mkGW (wd (m + 1)) (mxc (wd (m + 1))) (w_init w) (w_clear w) (w_free w) (w_counter w).
Proof.
  intros H1 H2 H3 H4 H5. pose proof clear_bounds. pose proof (wd_range m H4) as R. pose proof (wd_step m ltac:(lia) H5) as W. unfold bump. rewrite H2, H3.
  unfold mxc at 1. destruct (Z.eqb_spec (wd m) 12) as [E|E].
  - destruct (Z.ltb_spec 4096 (m + 1)); [lia|]. rewrite E in W. rewrite Z.ltb_irrefl, andb_false_r in W. rewrite W. destruct w as [a b c d e f]. cbn in *. subst. rewrite E. reflexivity.
  - destruct (Z.ltb_spec (wd m) 12); [|lia]. rewrite andb_true_r in W.
    destruct (Z.ltb_spec (2 ^ wd m - 1) (m + 1)) as [G|G]; destruct (Z.leb_spec (2 ^ wd m) (m + 1)) as [G'|G']; try lia; rewrite W.
    + rewrite H1. unfold mxc, MAX_LZW_BITS, LZW_TABLE_SIZE, MAXCODE. reflexivity.
    + destruct w as [a b c d e f]. cbn in *. subst. reflexivity.
Qed.

Definition wfd (D : dict) : Prop := forall j p c, nth_error D j = Some (p, c) -> 0 <= p < clear + 2 + Z.of_nat j /\ 0 <= c < clear.
(* the hash table only holds symbols of D *)
Definition hsound (D : dict) (h : ghash) : Prop :=
  length (w_hcode h) = Z.to_nat 5003 /\ length (w_hval h) = Z.to_nat 5003 /\
  (exists U, (length U <= length D)%nat /\ forall i, (i < Z.to_nat 5003)%nat -> nth i (w_hcode h) 0 <> 0 -> In i U) /\
  forall i, (i < Z.to_nat 5003)%nat -> nth i (w_hcode h) 0 <> 0 ->
    exists j p c, nth i (w_hcode h) 0 = clear + 2 + Z.of_nat j /\ nth_error D j = Some (p, c) /\ nth i (w_hval h) 0 = p * 256 + c.

(* state of the writer between pixels, after the pixels px *)
Inductive wst (hdr : list Z) (px : list Z) : gbits * gwid -> ghash -> Prop :=
| ws_clr tr px0 b w h : winv hdr (tbits tr) b -> arun ([], None) tr px0 ([], None) -> w_first h = false ->
    0 <= w_waiting h < clear -> px = px0 ++ [w_waiting h] -> w = mkGW (ics + 1) (MAXCODE (ics + 1)) (ics + 1) clear (clear + 2) (w_counter w) ->
    hsound [] h -> wst hdr px (b, w) h
| ws_mid tr px0 D o x po pw b w h : winv hdr (tbits tr) b -> arun ([], None) tr px0 (D, Some o) -> w_first h = false ->
    Exp D o po -> Exp (D ++ [(o, x)]) (w_waiting h) pw -> hd_error pw = Some x -> px = px0 ++ pw ->
    w = mkGW (wd (mc D)) (mxc (wd (mc D))) (ics + 1) clear (mc D + 1) (w_counter w) -> mc D < 4096 ->
    wfd (D ++ [(o, x)]) -> hsound (D ++ [(o, x)]) h -> wst hdr px (b, w) h.

Lemma winv_snoc hdr tr b n c : winv hdr (tbits tr ++ lsb (Z.to_nat n) c) b -> winv hdr (tbits (tr ++ [(n, c)])) b.
Proof. intros H. rewrite tbits_app. cbn [tbits flat_map fst snd]. rewrite app_nil_r. exact H. Qed.

Lemma mxc_init : MAXCODE (ics + 1) = mxc (ics + 1).
Proof. unfold mxc, MAXCODE. destruct (Z.eqb_spec (ics + 1) 12); [lia|reflexivity]. Qed.

(* emitting the waiting code *)
Lemma emit_waiting hdr px s h : wst hdr px s h -> exists b' w' tr D,
  output (w_waiting h) s = Ret (b', w') /\ winv hdr (tbits tr) b' /\ arun ([], None) tr px (D, Some (w_waiting h)) /\
  w' = mkGW (wd (mc D)) (mxc (wd (mc D))) (ics + 1) clear (mc D) (w_counter w') /\ mc D <= 4096 /\ wfd D /\ hsound D h /\
  exists pw, Exp D (w_waiting h) pw.
Proof.
  pose proof clear_bounds as CB. intros [tr px0 b w h' HW HA HF Hw Hp Ew HS|tr px0 D o x po pw b w h' HW HA HF Ho Hw Hx Hp Ew Hm HD HS].
  - pose proof (wd_init (clear + 2) ltac:(lia)) as W0.
    destruct (output_spec hdr (tbits tr) b w (w_waiting h') HW) as (b' & E & HW').
    { rewrite Ew. cbn [w_nbits]. lia. } { rewrite Ew. cbn [w_nbits]. replace (ics + 1) with (1 + ics) by lia. rewrite Z.pow_add_r by lia. lia. }
    exists b', (bump w), (tr ++ [(ics + 1, w_waiting h')]), []. split; [exact E|].
    assert (Eb : bump w = w). { unfold bump. rewrite Ew. cbn [w_maxcode w_free]. unfold MAXCODE. replace (ics + 1) with (1 + ics) by lia. rewrite Z.pow_add_r by lia. destruct (Z.ltb_spec (2 ^ 1 * clear - 1) (clear + 2)); [lia|reflexivity]. }
    rewrite Eb. split; [apply winv_snoc; rewrite Ew in HW'; exact HW'|]. split; [rewrite Hp; eapply arun_snoc; [exact HA|apply as_first; exact Hw]|].
    unfold mc. cbn [length]. rewrite Z.add_0_r, W0. split; [rewrite <- mxc_init; exact Ew|]. split; [lia|]. split; [intros j p c Hj; destruct j; discriminate|]. split; [exact HS|].
    eexists. apply E_raw. exact Hw.
  - pose proof (mc_ge D) as MG. pose proof (wd_range (mc D) ltac:(lia)) as WR.
    assert (Emc : mc (D ++ [(o, x)]) = mc D + 1) by (unfold mc; rewrite app_length; cbn [length]; lia).
    destruct (output_spec hdr (tbits tr) b w (w_waiting h') HW) as (b' & E & HW').
    { rewrite Ew. cbn [w_nbits]. lia. }
    { rewrite Ew. cbn [w_nbits]. pose proof (Exp_code _ _ _ Hw) as C. rewrite Emc in C.
      destruct (wd_fits (mc D) ltac:(lia)) as [F|F]; [lia|]. lia. }
    exists b', (bump w), (tr ++ [(wd (mc D), w_waiting h')]), (D ++ [(o, x)]). split; [exact E|].
    split; [apply winv_snoc; rewrite Ew in HW'; exact HW'|].
    split; [rewrite Hp; eapply arun_snoc; [exact HA|eapply as_code; eauto]|].
    rewrite Emc. split; [|split; [lia|split; [exact HD|split; [exact HS|eauto]]]].
    rewrite (bump_wd w (mc D)); try (rewrite Ew; reflexivity); lia.
Qed.

(* a miss *)
Lemma miss_spec hdr px s h c i : wst hdr px s h -> 0 <= c < clear -> 0 <= i < 5003 -> nth (Z.to_nat i) (w_hcode h) 0 = 0 ->
  exists s' h', lzw_miss c i (Z.lor (Z.shiftl (w_waiting h) 8) c) s h = Ret (s', h') /\ wst hdr (px ++ [c]) s' h'.
Proof.
  pose proof clear_bounds as CB. intros HS Hc Hi Hz. destruct (emit_waiting _ _ _ _ HS) as (b & w & tr & D & E & HW & HA & Ew & Hm & HD & HH & pw & Hpw).
  unfold lzw_miss. rewrite E. cbn [bind]. pose proof (mc_ge D) as MG. destruct HH as (L1 & L2 & (U & LU & HU) & HH).
  rewrite Ew. cbn [w_free w_nbits w_maxcode w_init w_clear w_counter].
  unfold LZW_TABLE_SIZE. destruct (Z.ltb_spec (mc D) 4096) as [Hlt|Hge].
  - rewrite !aset_ok by lia. cbn [bind]. eexists; eexists. split; [reflexivity|].
    assert (Hpc := Exp_code _ _ _ Hpw).
    assert (Ewt : 0 <= w_waiting h < mc D) by (destruct Hpc; lia).
    assert (Epr : Z.lor (Z.shiftl (w_waiting h) 8) c = w_waiting h * 256 + c).
    { assert (HL : Z.land (Z.shiftl (w_waiting h) 8) c = 0).
      { apply Z.bits_inj'. intros k Hk. rewrite Z.land_spec, Z.bits_0. destruct (Z.lt_ge_cases k 8); [rewrite Z.shiftl_spec_low by lia; reflexivity|].
        rewrite (byte_high c) by (unfold isbyte; lia). apply andb_false_r. }
      rewrite <- (Z.lxor_lor _ _ HL), <- (Z.add_nocarry_lxor _ _ HL), Z.shiftl_mul_pow2 by lia. reflexivity. }
    eapply (ws_mid hdr (px ++ [c]) tr px D (w_waiting h) c pw [c]); cbn [w_waiting w_first]; auto.
    + constructor. exact Hc.
    + intros j p q Hj. destruct (Nat.lt_ge_cases j (length D)) as [J|J].
      * rewrite nth_error_app1 in Hj by exact J. apply HD; exact Hj.
      * rewrite nth_error_app2 in Hj by exact J. destruct (j - length D)%nat as [|k] eqn:Ek; [|destruct k; discriminate].
        cbn [nth_error] in Hj. inversion Hj; subst. unfold mc in *. lia.
    + split; [cbn [w_hcode]; rewrite length_upd; exact L1|]. split; [cbn [w_hval]; rewrite length_upd; exact L2|]. cbn [w_hcode w_hval]. split.
      * exists (Z.to_nat i :: U). split; [rewrite app_length; cbn [length]; lia|]. intros k Hk Hnz. destruct (Nat.eq_dec k (Z.to_nat i)) as [->|N]; [left; reflexivity|].
        right. apply HU; auto. rewrite nth_upd_neq in Hnz by congruence. exact Hnz.
      * intros k Hk Hnz. destruct (Nat.eq_dec k (Z.to_nat i)) as [->|N].
        -- exists (length D), (w_waiting h), c. rewrite !nth_upd_eq by lia. split; [reflexivity|]. split; [|exact Epr].
           rewrite nth_error_app2 by lia. rewrite Nat.sub_diag. reflexivity.
        -- rewrite nth_upd_neq in Hnz by congruence. destruct (HH k Hk Hnz) as (j & p & q & K1 & K2 & K3). exists j, p, q. rewrite !nth_upd_neq by congruence.
           split; [exact K1|]. split; [|exact K3]. rewrite nth_error_app1; auto. apply nth_error_Some. congruence.
  - assert (Em : mc D = 4096) by lia. unfold clear_block.
    destruct (output_spec hdr (tbits tr) b (mkGW (wd (mc D)) (mxc (wd (mc D))) (ics + 1) clear (clear + 2) (w_counter w)) clear HW) as (b' & E' & HW').
    { cbn [w_nbits]. pose proof (wd_range (mc D) ltac:(lia)). lia. }
    { cbn [w_nbits]. rewrite Em. change (wd 4096) with 12. change (2 ^ 12) with 4096. lia. }
    cbn [w_clear w_nbits w_maxcode w_init w_free w_counter]. rewrite E'. cbn [bind].
    assert (Eb : bump (mkGW (wd (mc D)) (mxc (wd (mc D))) (ics + 1) clear (clear + 2) (w_counter w)) = mkGW (wd (mc D)) (mxc (wd (mc D))) (ics + 1) clear (clear + 2) (w_counter w)).
    { unfold bump. cbn [w_maxcode w_free]. rewrite Em. change (mxc (wd 4096)) with 4096. destruct (Z.ltb_spec 4096 (clear + 2)); [lia|reflexivity]. }
    rewrite Eb. cbn [w_init w_clear w_free w_counter]. eexists; eexists. split; [reflexivity|].
    eapply (ws_clr hdr (px ++ [c]) (tr ++ [(wd (mc D), clear)]) px); cbn [w_waiting w_first]; auto.
    + apply winv_snoc. cbn [w_nbits] in HW'. exact HW'.
    + rewrite <- (app_nil_r px). eapply arun_snoc; [exact HA|apply as_clear].
    + split; [apply repeat_length|]. split; [exact L2|]. cbn [w_hcode]. assert (Z0 : forall k, nth k (repeat 0 (Z.to_nat HSIZE)) 0 = 0) by (intros k; apply nth_repeat).
      split; [exists []; split; [cbn; lia|]; intros k _ Hk; rewrite Z0 in Hk; congruence|]. intros k _ Hk. rewrite Z0 in Hk. congruence.
Qed.

(* a hit *)
Lemma hit_spec hdr px s h c i : wst hdr px s h -> 0 <= c < clear -> 0 <= i < 5003 -> nth (Z.to_nat i) (w_hcode h) 0 <> 0 ->
  nth (Z.to_nat i) (w_hval h) 0 = Z.lor (Z.shiftl (w_waiting h) 8) c ->
  wst hdr (px ++ [c]) s (mkGH (nth (Z.to_nat i) (w_hcode h) 0) false (w_hcode h) (w_hval h)).
Proof.
  pose proof clear_bounds as CB. intros HS Hc Hi Hz Hv.
  destruct HS as [tr px0 b w h HW HA HF Hw Hp Ew HS|tr px0 D o x po pw b w h HW HA HF Ho Hw Hx Hp Ew Hm HD HS].
  - exfalso. destruct HS as (_ & _ & _ & HH). destruct (HH (Z.to_nat i) ltac:(lia) Hz) as (j & p & q & _ & K & _). destruct j; discriminate.
  - pose proof HS as (L1 & L2 & _ & HH). destruct (HH (Z.to_nat i) ltac:(lia) Hz) as (j & p & q & K1 & K2 & K3).
    destruct (HD j p q K2) as [P1 P2].
    assert (Ewt : 0 <= w_waiting h) by (destruct (Exp_code _ _ _ Hw); lia).
    assert (Epr : Z.lor (Z.shiftl (w_waiting h) 8) c = w_waiting h * 256 + c).
    { assert (HL : Z.land (Z.shiftl (w_waiting h) 8) c = 0).
      { apply Z.bits_inj'. intros k Hk. rewrite Z.land_spec, Z.bits_0. destruct (Z.lt_ge_cases k 8); [rewrite Z.shiftl_spec_low by lia; reflexivity|].
        rewrite (byte_high c) by (unfold isbyte; lia). apply andb_false_r. }
      rewrite <- (Z.lxor_lor _ _ HL), <- (Z.add_nocarry_lxor _ _ HL), Z.shiftl_mul_pow2 by lia. reflexivity. }
    rewrite Hv, Epr in K3. assert (Q : q = c) by lia. assert (P : p = w_waiting h) by lia. subst p q.
    eapply (ws_mid hdr (px ++ [c]) tr px0 D o x po (pw ++ [c])); cbn [w_waiting w_first w_hcode w_hval]; auto.
    + rewrite K1. eapply E_sym; eauto. lia.
    + destruct pw; [discriminate|]. exact Hx.
    + rewrite Hp, app_assoc. reflexivity.
Qed.

(* ---- the probe sequence visits every slot ---- *)
Definition slot (i0 disp : Z) (k : nat) : Z := (i0 - Z.of_nat k * disp) mod 5003.
Lemma coprime d : 1 <= d < 5003 -> rel_prime d 5003.
Proof.
  intros H. apply Zgcd_1_rel_prime.
  assert (G : forallb (fun n => Z.gcd (Z.of_nat n) 5003 =? 1) (seq 1 (Z.to_nat 5002)) = true) by (vm_compute; reflexivity).
  rewrite forallb_forall in G. specialize (G (Z.to_nat d)). rewrite Z2Nat.id in G by lia. apply Z.eqb_eq, G. apply in_seq. lia.
Qed.
Lemma slot_inj i0 disp k k' : 1 <= disp < 5003 -> (k < k')%nat -> (k' < Z.to_nat 5003)%nat -> slot i0 disp k <> slot i0 disp k'.
Proof.
  intros Hd H1 H2 E. unfold slot in E.
  assert (D : (5003 | Z.of_nat (k' - k) * disp)).
  { apply Z.mod_divide; [lia|]. replace (Z.of_nat (k' - k) * disp) with ((i0 - Z.of_nat k * disp) - (i0 - Z.of_nat k' * disp)) by nia.
    rewrite Zminus_mod, E, Z.sub_diag. reflexivity. }
  rewrite Z.mul_comm in D. apply Gauss in D; [|apply rel_prime_sym, coprime; exact Hd]. apply Z.divide_pos_le in D; lia.
Qed.

Lemma probe_finds hc U i0 disp : 1 <= disp < 5003 -> (length U < Z.to_nat 5003)%nat -> (forall i, (i < Z.to_nat 5003)%nat -> nth i hc 0 <> 0 -> In i U) ->
  exists k, (k < Z.to_nat 5003)%nat /\ nth (Z.to_nat (slot i0 disp k)) hc 0 = 0.
Proof.
  intros Hd HU H. set (l := map (fun k => Z.to_nat (slot i0 disp k)) (seq 0 (Z.to_nat 5003))).
  destruct (Forall_Exists_dec (fun k => nth (Z.to_nat (slot i0 disp k)) hc 0 <> 0) (fun k => match Z.eq_dec (nth (Z.to_nat (slot i0 disp k)) hc 0) 0 with left e => right (fun n => n e) | right n => left n end) (seq 0 (Z.to_nat 5003))) as [G|G].
  - exfalso. assert (ND : NoDup l).
    { unfold l. 
      assert (G2 : forall n m, (m + n <= Z.to_nat 5003)%nat -> NoDup (map (fun k => Z.to_nat (slot i0 disp k)) (seq m n))).
      { induction n as [|n IH]; intros m Hm; cbn [seq map]; constructor; [|apply IH; lia]. intros Hin. apply in_map_iff in Hin. destruct Hin as (k & E & Hk). apply in_seq in Hk.
        apply (slot_inj i0 disp m k); auto; try lia. pose proof (Z.mod_pos_bound (i0 - Z.of_nat k * disp) 5003 ltac:(lia)). pose proof (Z.mod_pos_bound (i0 - Z.of_nat m * disp) 5003 ltac:(lia)).
        unfold slot in *. lia. }
      apply (G2 (Z.to_nat 5003) 0%nat). lia. }
    assert (IN : incl l U).
    { intros y Hy. unfold l in Hy. apply in_map_iff in Hy. destruct Hy as (k & <- & Hk). rewrite Forall_forall in G. apply H; [|apply G; exact Hk].
      pose proof (Z.mod_pos_bound (i0 - Z.of_nat k * disp) 5003 ltac:(lia)). unfold slot. lia. }
    pose proof (NoDup_incl_length ND IN) as LL. unfold l in LL. rewrite map_length, seq_length in LL. lia.
  - apply Exists_exists in G. destruct G as (k & Hk & Hz). apply in_seq in Hk. exists k. split; [lia|].
    destruct (Z.eq_dec (nth (Z.to_nat (slot i0 disp k)) hc 0) 0); auto. contradiction.
Qed.

Lemma probe_spec hdr px s h c disp : wst hdr px s h -> 0 <= c < clear -> 1 <= disp < 5003 ->
  length (w_hcode h) = Z.to_nat 5003 -> length (w_hval h) = Z.to_nat 5003 ->
  forall fuel i, 0 <= i < 5003 -> (exists k, (k <= fuel)%nat /\ nth (Z.to_nat (slot i disp k)) (w_hcode h) 0 = 0) ->
  exists s' h', lzw_probe fuel c i disp (Z.lor (Z.shiftl (w_waiting h) 8) c) s h = Ret (s', h') /\ wst hdr (px ++ [c]) s' h'.
Proof.
  intros HS Hc Hd L1 L2. induction fuel as [|fuel IH]; intros i Hi (k & Hk & Hz); cbn [lzw_probe]; rewrite (aget_ok (w_hcode h) i 0) by lia; cbn [bind].
  - assert (k = 0%nat) by lia. subst k. unfold slot in Hz. rewrite Z.mul_0_l, Z.sub_0_r, Z.mod_small in Hz by lia. rewrite Hz. cbn [Z.eqb]. apply miss_spec; auto.
  - destruct (Z.eqb_spec (nth (Z.to_nat i) (w_hcode h) 0) 0) as [E|E]; [apply miss_spec; auto|].
    rewrite (aget_ok (w_hval h) i 0) by lia. cbn [bind]. destruct (Z.eqb_spec (nth (Z.to_nat i) (w_hval h) 0) (Z.lor (Z.shiftl (w_waiting h) 8) c)) as [Ev|Ev].
    + eexists; eexists. split; [reflexivity|]. apply hit_spec; auto.
    + unfold HSIZE. assert (En : (if i - disp <? 0 then i - disp + 5003 else i - disp) = (i - disp) mod 5003).
      { destruct (Z.ltb_spec (i - disp) 0); [|rewrite Z.mod_small; lia]. rewrite <- (Z.mod_add (i - disp) 1 5003) by lia. rewrite Z.mod_small; lia. }
      rewrite En. apply IH; [apply Z.mod_pos_bound; lia|]. destruct k as [|k].
      * exfalso. apply E. unfold slot in Hz. rewrite Z.mul_0_l, Z.sub_0_r, Z.mod_small in Hz by lia. exact Hz.
      * exists k. split; [lia|]. replace (slot ((i - disp) mod 5003) disp k) with (slot i disp (S k)); [exact Hz|].
        unfold slot. rewrite Zminus_mod_idemp_l. f_equal. lia.
Qed.

Lemma hsound_of hdr px s h : wst hdr px s h -> exists D, hsound D h /\ (length D <= 4096)%nat /\ 0 <= w_waiting h < 4096 /\ w_first h = false.
Proof.
  pose proof clear_bounds. intros [tr px0 b w h' HW HA HF Hw Hp Ew HS|tr px0 D o x po pw b w h' HW HA HF Ho Hw Hx Hp Ew Hm HD HS].
  - exists []. split; [exact HS|]. split; [cbn; lia|]. split; [lia|exact HF].
  - exists (D ++ [(o, x)]). unfold mc in Hm. split; [exact HS|]. split; [rewrite app_length; cbn [length]; lia|]. split; [|exact HF]. destruct (Exp_code _ _ _ Hw) as [C|C]; [lia|]. unfold mc in C. rewrite app_length in C. cbn [length] in C. lia.
Qed.

Lemma put_lzw_spec hdr px s h c : wst hdr px s h -> 0 <= c < clear -> exists s' h', put_lzw_pixel c s h = Ret (s', h') /\ wst hdr (px ++ [c]) s' h'.
Proof.
  pose proof clear_bounds as CB. intros HS Hc. destruct (hsound_of _ _ _ _ HS) as (D & (L1 & L2 & (U & LU & HU) & _) & LD & Hw & HF).
  unfold put_lzw_pixel. rewrite HF. cbn zeta. unfold MAX_LZW_BITS, HSIZE.
  rewrite Z.shiftl_mul_pow2 by lia. change (2 ^ (12 - 8)) with 16. set (i := if 5003 <=? c * 16 + w_waiting h then _ else _).
  assert (Hi : 0 <= i < 5003) by (unfold i; destruct (Z.leb_spec 5003 (c * 16 + w_waiting h)); lia).
  apply probe_spec; auto.
  - destruct (Z.eqb_spec i 0); lia.
  - destruct (probe_finds (w_hcode h) U i (if i =? 0 then 1 else 5003 - i)) as (k & Hk & Hz); auto.
    + destruct (Z.eqb_spec i 0); lia.
    + lia.
    + exists k. split; [lia|exact Hz].
Qed.

Lemma put_lzw_pixels_spec hdr : forall l px s h, wst hdr px s h -> Forall (fun c => 0 <= c < clear) l ->
  exists s' h', put_lzw_pixels l s h = Ret (s', h') /\ wst hdr (px ++ l) s' h'.
Proof.
  induction l as [|c l IH]; intros px s h HS HF; cbn [put_lzw_pixels].
  - exists s, h. rewrite app_nil_r. auto.
  - destruct (put_lzw_spec hdr px s h c HS (Forall_inv HF)) as (s1 & h1 & E & H1). rewrite E. cbn [bind].
    destruct (IH _ s1 h1 H1 (Forall_inv_tail HF)) as (s2 & h2 & E2 & H2). exists s2, h2. rewrite <- app_assoc in H2. auto.
Qed.
End Lzw.
