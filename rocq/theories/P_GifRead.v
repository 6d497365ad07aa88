(* P_GifRead.v -- the GIF reader follows the code stream; first pixel, raw mode and end of the writer *)
From Verif Require Import Base M_Gif P_GifBits P_GifLzw.

Section Rd.
Variable ics : Z.
Hypothesis Hics : 2 <= ics <= 8.
Notation clear := (2 ^ ics).
Notation mc := (mc ics).
Notation Exp := (Exp ics).
Notation arun := (arun ics).
Notation astep := (astep ics).

Definition holds (D : dict) (head tail : list Z) : Prop :=
  forall j p c, nth_error D j = Some (p, c) ->
    nth (Z.to_nat (clear + 2 + Z.of_nat j)) head 0 = p /\ nth (Z.to_nat (clear + 2 + Z.of_nat j)) tail 0 = c.

Record crel (D : dict) (o : Z) (z : glz) : Prop := {
  cr_max : z_max z = mc D;
  cr_size : z_size z = wd (mc D);
  cr_lim : z_limit z = 2 ^ z_size z;
  cr_mc : mc D <= 4096;
  cr_lh : length (z_head z) = Z.to_nat 4096;
  cr_lt : length (z_tail z) = Z.to_nat 4096;
  cr_hold : holds D (z_head z) (z_tail z);
  cr_old : z_old z = o;
  cr_exp : exists po, Exp D o po /\ hd_error po = Some (z_fc z) }.

Lemma expand_spec D head tail : holds D head tail -> length head = Z.to_nat 4096 -> length tail = Z.to_nat 4096 -> mc D <= 4096 ->
  forall c px, Exp D c px -> forall fuel st, (length px <= S fuel)%nat -> (length px + length st <= Z.to_nat 4096 + 1)%nat ->
  exists x r, px = x :: r /\ expand fuel clear c head tail st = Ret (x, r ++ st).
Proof.
  pose proof (clear_bounds ics Hics) as CB. intros HH L1 L2 HM. induction 1 as [c H|j p c px HD Hc Hp H IH]; intros fuel st Hf Hl.
  - exists c, []. split; [reflexivity|]. destruct fuel; cbn [expand app]; destruct (Z.leb_spec clear c); try lia; reflexivity.
  - destruct (HH j p c HD) as [K1 K2]. assert (Hj : (j < length D)%nat) by (apply nth_error_Some; congruence). unfold P_GifLzw.mc in HM.
    rewrite app_length in Hf, Hl. cbn [length] in Hf, Hl. destruct (Exp_len ics Hics _ _ _ H) as [G1 _].
    destruct fuel as [|fuel]; [lia|]. cbn [expand]. destruct (Z.leb_spec clear (clear + 2 + Z.of_nat j)); [|lia].
    rewrite (aget_ok tail _ 0) by lia. cbn [bind]. rewrite K2. unfold push, LZW_TABLE_SIZE. destruct (Nat.leb_spec (Z.to_nat 4096) (length st)); [lia|]. cbn [bind].
    rewrite (aget_ok head _ 0) by lia. cbn [bind]. rewrite K1.
    replace (u8 c) with c by (unfold u8; change (2 ^ 8) with 256; rewrite Z.mod_small; lia).
    destruct (IH fuel (c :: st)) as (x & r & E1 & E2); [lia|cbn [length]; lia|]. exists x, (r ++ [c]). rewrite E1. split; [reflexivity|]. rewrite E2, <- app_assoc. reflexivity.
Qed.

Lemma holds_snoc D o x head tail : holds D head tail -> length head = Z.to_nat 4096 -> length tail = Z.to_nat 4096 -> mc D < 4096 ->
  holds (D ++ [(o, x)]) (upd head (Z.to_nat (mc D)) o) (upd tail (Z.to_nat (mc D)) x).
Proof.
  pose proof (clear_bounds ics Hics) as CB. intros HH L1 L2 HM j p c Hj. unfold P_GifLzw.mc in *. destruct (Nat.lt_ge_cases j (length D)) as [J|J].
  - rewrite nth_error_app1 in Hj by exact J. rewrite !nth_upd_neq by lia. apply HH. exact Hj.
  - rewrite nth_error_app2 in Hj by exact J. destruct (j - length D)%nat as [|k] eqn:Ek; [|destruct k; discriminate]. cbn [nth_error] in Hj. inversion Hj; subst.
    assert (j = length D) by lia. subst j. rewrite !nth_upd_eq by lia. auto.
Qed.

Lemma framed_len X inp : framed X inp -> (length X <= length inp)%nat.
Proof. induction 1; cbn [length]; [lia|]. rewrite !app_length. lia. Qed.
Lemma avail_bits X b : rinv X b -> (length (avail X b) <= bits_left b)%nat.
Proof.
  intros [L F O C LB LL BY BI]. unfold avail, bits_left. rewrite app_length, skipn_length, firstn_length, !bbits_length, L. apply framed_len in F. lia.
Qed.
Lemma tr_len s tr px s' : arun s tr px s' -> (length tr <= length (tbits tr))%nat.
Proof.
  pose proof (clear_bounds ics Hics) as CB. induction 1 as [|s t px s1 tr px' s2 H H0 IH]; [cbn; lia|]. cbn [tbits flat_map length]. fold (tbits tr). rewrite app_length, lsb_length.
  assert (1 <= fst t). { destruct H as [D o|c Hc|D o c px x po H1 H2 H3 H4]; cbn [fst]; try lia; pose proof (mc_ge ics D); pose proof (wd_range ics Hics (mc D) ltac:(lia)); lia. }
  lia.
Qed.

Lemma clear_fits D : mc D <= 4096 -> clear < 2 ^ wd (mc D).
Proof.
  pose proof (clear_bounds ics Hics) as CB. intros H. pose proof (mc_ge ics D). destruct (wd_fits ics Hics (mc D) ltac:(lia)) as [E|E]; [|lia].
  rewrite E. change (2 ^ wd 4096) with 4096. lia.
Qed.

(* after a clear code *)
Lemma clear_loop_spec : forall tr fuel X b px x s' rest, (length tr <= fuel)%nat -> rinv X b -> r_first b = false -> avail X b = tbits tr ++ rest ->
  arun ([], None) tr (x :: px) s' ->
  exists X' b' tr', clear_loop fuel clear (ics + 1) b = Ret (x, b') /\ 0 <= x < clear /\ rinv X' b' /\ r_first b' = false /\ r_warn b' = r_warn b /\
    avail X' b' = tbits tr' ++ rest /\ arun ([], Some x) tr' px s'.
Proof.
  pose proof (clear_bounds ics Hics) as CB. induction tr as [|t tr IH]; intros fuel X b px x s' rest Hf HI HF HA HR.
  - inversion HR.
  - cbn [length] in Hf. destruct fuel as [|fuel]; [lia|]. cbn [clear_loop]. inversion HR as [|s0 t0 px0 s1 tr0 px1 s2 H1 H2 E1 E2 E3 E4]; subst.
    cbn [tbits flat_map] in HA. fold (tbits tr) in HA. rewrite <- app_assoc in HA.
    assert (W : wd (mc []) = ics + 1) by (apply (wd_init ics Hics); unfold P_GifLzw.mc; cbn [length]; lia).
    inversion H1 as [D o E5|c Hc E5 E6 E7 E8|]; subst; cbn [fst snd] in HA.
    + rewrite W in HA. cbn [app] in E3. subst px1.
      destruct (GetCode_code clear (ics + 1) X b clear _ ltac:(lia) HI HF ltac:(rewrite Z.pow_add_r by lia; lia) HA) as (X1 & b1 & G1 & G2 & G3 & G4 & G5).
      rewrite G1. cbn [bind]. rewrite Z.eqb_refl. destruct (IH fuel X1 b1 px x s' rest ltac:(lia) G3 G4 G2 H2) as (X' & b' & tr' & K1 & K2 & K3 & K4 & K5 & K6 & K7).
      exists X', b', tr'. rewrite K5, G5. auto 10.
    + cbn [app] in E3. inversion E3; subst.
      destruct (GetCode_code clear (ics + 1) X b x _ ltac:(lia) HI HF ltac:(rewrite Z.pow_add_r by lia; lia) HA) as (X1 & b1 & G1 & G2 & G3 & G4 & G5).
      rewrite G1. cbn [bind]. destruct (Z.eqb_spec x clear); [lia|]. exists X1, b1, tr. auto 10.
Qed.

Lemma crel_first x z : 0 <= x < clear -> length (z_head z) = Z.to_nat 4096 -> length (z_tail z) = Z.to_nat 4096 ->
  crel [] x (mkGL (ics + 1) (Z.shiftl clear 1) (clear + 2) x x (z_head z) (z_tail z) []).
Proof.
  pose proof (clear_bounds ics Hics) as CB. intros Hx L1 L2.
  assert (W : wd (mc []) = ics + 1) by (apply (wd_init ics Hics); unfold P_GifLzw.mc; cbn [length]; lia).
  constructor; cbn [z_max z_size z_limit z_head z_tail z_old z_fc]; auto.
  - unfold P_GifLzw.mc. cbn [length]. lia.
  - rewrite Z.shiftl_mul_pow2 by lia. rewrite <- Z.pow_add_r by lia. reflexivity.
  - unfold P_GifLzw.mc. cbn [length]. lia.
  - intros j p c Hj. destruct j; discriminate.
  - exists [x]. split; [now constructor|reflexivity].
Qed.

(* pixels still to come *)
Definition rst (pxs : list Z) (b : grd) (z : glz) : Prop :=
  exists X D o tr px s' rest, rinv X b /\ r_first b = false /\ r_warn b = [] /\ avail X b = tbits tr ++ rest /\ crel D o z /\ arun (D, Some o) tr px s' /\
    pxs = z_stack z ++ px.

Lemma read_step x pxs b z : rst (x :: pxs) b z -> exists b' z', LZWReadByte ics b z = Ret (x, b', z') /\ rst pxs b' z'.
Proof.
  pose proof (clear_bounds ics Hics) as CB. intros (X & D & o & tr & px & s' & rest & HI & HF & HW & HA & HC & HR & HP). unfold LZWReadByte.
  destruct (z_stack z) as [|y st] eqn:Est.
  2:{ cbn [app] in HP. inversion HP; subst. eexists; eexists. split; [reflexivity|]. exists X, D, o, tr, px, s', rest.
      split; [exact HI|]. split; [exact HF|]. split; [exact HW|]. split; [exact HA|]. split; [|split; [exact HR|reflexivity]]. destruct HC. constructor; auto. }
  cbn [app] in HP. subst px. inversion HR as [|s0 t0 px0 s1 tr0 px1 s2 H1 H2 E1 E2 E3 E4]; subst.
  cbn [tbits flat_map] in HA. fold (tbits tr0) in HA. rewrite <- app_assoc in HA. destruct HC as [C1 C2 C3 C4 C5 C6 C7 C8 (po & C9 & C10)].
  pose proof (mc_ge ics D) as MG. pose proof (wd_range ics Hics (mc D) ltac:(lia)) as WR.
  inversion H1 as [D0 o0 E5 E6 E7 E8|c Hc E5 E6 E7 E8|D0 o0 c px0' x0 po0 X1 X2 X3 X4 E5 E6 E7 E8]; subst; cbn [fst snd] in HA.
  - (* clear *)
    cbn [app] in E3. subst px1. rewrite C2. destruct (GetCode_code clear (wd (mc D)) X b clear _ ltac:(lia) HI HF ltac:(pose proof (clear_fits D C4); lia) HA) as (X1 & b1 & G1 & G2 & G3 & G4 & G5).
    rewrite G1. cbn [bind]. rewrite Z.eqb_refl. unfold ReInitLZW. cbn [z_size z_limit z_max z_head z_tail z_stack].
    destruct (clear_loop_spec tr0 (S (S (bits_left b1))) X1 b1 pxs x s' rest) as (X' & b' & tr' & K1 & K2 & K3 & K4 & K5 & K6 & K7); auto.
    { pose proof (tr_len _ _ _ _ H2). pose proof (avail_bits X1 b1 G3) as AB. rewrite G2, app_length in AB. lia. }
    rewrite K1. cbn [bind]. destruct (Z.ltb_spec clear x); [lia|]. eexists; eexists. split; [reflexivity|].
    exists X', [], x, tr', pxs, s', rest. split; [exact K3|]. split; [exact K4|]. split; [congruence|]. split; [exact K6|]. split; [apply crel_first; auto|]. split; [exact K7|reflexivity].
  - (* a code *)
    set (o := z_old z) in *.
    assert (Emc : mc (D ++ [(o, x0)]) = mc D + 1) by (unfold P_GifLzw.mc; rewrite app_length; cbn [length]; lia).
    pose proof (Exp_code ics _ _ _ X1) as CC. rewrite Emc in CC.
    assert (Hlt : c < 2 ^ wd (mc D)). { destruct (wd_fits ics Hics (mc D) ltac:(lia)) as [E|E]; lia. }
    rewrite C2. destruct (GetCode_code clear (wd (mc D)) X b c _ ltac:(lia) HI HF ltac:(lia) HA) as (X' & b1 & G1 & G2 & G3 & G4 & G5).
    rewrite G1. cbn [bind]. destruct (Z.eqb_spec c clear); [lia|]. destruct (Z.eqb_spec c (clear + 1)); [lia|]. rewrite C1.
    assert (Ho : 0 <= o < 4096) by (destruct (Exp_code ics _ _ _ X4); lia).
    assert (EXP : exists code1 st1 r, (if mc D <=? c then
           let '(inc, b') := if mc D <? c then (0, add_warn JWRN_GIF_BADDATA b1) else (c, b1) in
           st <- push (z_fc z) [] ;; Ret (inc, o, st, b')
         else Ret (c, c, [], b1)) = Ret (c, code1, st1, b1) /\ px0 = x0 :: r /\
         expand (Z.to_nat LZW_TABLE_SIZE) clear code1 (z_head z) (z_tail z) st1 = Ret (x0, r)).
    { destruct (Z.leb_spec (mc D) c) as [G|G].
      - assert (c = mc D) by lia. subst c. destruct (Z.ltb_spec (mc D) (mc D)); [lia|].
        inversion X1 as [c0 Hc0|j p c0 q N1 N2 N3 N4 N5]; subst; [lia|]. unfold P_GifLzw.mc in N5. assert (j = length D) by lia. subst j.
        rewrite nth_error_app2, Nat.sub_diag in N1 by lia. cbn [nth_error] in N1. inversion N1; subst p c0. clear N1.
        apply (Exp_restrict ics Hics) in N4; [|destruct (Exp_code ics _ _ _ X4); lia].
        assert (q = po) by (eapply (Exp_det ics Hics); eauto). subst q. assert (Hfc : z_fc z = x0). { destruct po; [discriminate|]. cbn [app hd_error] in X2, C10. congruence. }
        unfold push. cbn [length]. destruct (Nat.leb_spec (Z.to_nat LZW_TABLE_SIZE) 0) as [LL|LL]; [unfold LZW_TABLE_SIZE in LL; lia|]. cbn [bind].
        destruct (Exp_len ics Hics _ _ _ C9) as [N6 N7]. assert (Hoc := Exp_code ics _ _ _ C9).
        destruct (expand_spec D (z_head z) (z_tail z) C7 C5 C6 C4 _ _ C9 (Z.to_nat LZW_TABLE_SIZE) [x0]) as (x1 & r & -> & EE); [unfold LZW_TABLE_SIZE; lia|cbn [length]; lia|].
        exists o, [x0], (r ++ [x0]). cbn [app hd_error] in X2. inversion X2; subst x1.
        split; [|split; [reflexivity|exact EE]]. rewrite Hfc. replace (u8 x0) with x0; [reflexivity|]. unfold u8. change (2 ^ 8) with 256. rewrite Z.mod_small; lia.
      - apply (Exp_restrict ics Hics) in X1; [|lia]. destruct (Exp_len ics Hics _ _ _ X1) as [N6 N7].
        destruct (expand_spec D (z_head z) (z_tail z) C7 C5 C6 C4 _ _ X1 (Z.to_nat LZW_TABLE_SIZE) []) as (x1 & r & -> & EE); [unfold LZW_TABLE_SIZE; lia|cbn [length]; lia|].
        cbn [hd_error] in X2. inversion X2; subst x1. exists c, [], r. rewrite app_nil_r in EE. auto. }
    destruct EXP as (code1 & st1 & r & F1 & F2 & F3). rewrite F1. cbn [bind]. rewrite F3. cbn [bind].
    unfold LZW_TABLE_SIZE, MAX_LZW_BITS. destruct (Z.ltb_spec (mc D) 4096); [|lia]. rewrite !aset_ok by lia. cbn [bind].
    subst px0. cbn [app] in E3. inversion E3; subst x0 pxs. clear E3.
    assert (Hx : 0 <= x < clear). { destruct (Exp_first ics _ _ _ X1) as (x1 & r1 & Q1 & Q2). inversion Q1; subst. exact Q2. }
    assert (U1 : u16 o = o) by (unfold u16; change (2 ^ 16) with 65536; rewrite Z.mod_small; lia). rewrite U1.
    assert (U2 : u8 x = x) by (unfold u8; change (2 ^ 8) with 256; rewrite Z.mod_small; lia). rewrite U2.
    pose proof (wd_step (mc D) ltac:(lia) ltac:(lia)) as WS.
    assert (HC' : forall sz lm, sz = wd (mc D + 1) -> lm = 2 ^ sz ->
      crel (D ++ [(o, x)]) c (mkGL sz lm (mc D + 1) c x (upd (z_head z) (Z.to_nat (mc D)) o) (upd (z_tail z) (Z.to_nat (mc D)) x) r)).
    { intros sz lm -> ->. constructor; cbn [z_max z_size z_limit z_head z_tail z_old z_fc]; rewrite ?Emc, ?length_upd; auto; try lia.
      - apply holds_snoc; auto.
      - exists (x :: r). auto. }
    rewrite C3, C2. destruct ((2 ^ wd (mc D) <=? mc D + 1) && (wd (mc D) <? 12)); cbn [bind]; eexists; eexists; (split; [reflexivity|]);
      exists X', (D ++ [(o, x)]), c, tr0, px1, s', rest; (split; [exact G3|]); (split; [exact G4|]); (split; [congruence|]); (split; [exact G2|]);
      (split; [|split; [exact H2|reflexivity]]); apply HC'; auto.
    rewrite Z.shiftl_mul_pow2 by lia. rewrite (Z.pow_add_r 2 (wd (mc D)) 1) by lia. reflexivity.
Qed.

Lemma read_bytes_spec : forall l b z pxs, rst (l ++ pxs) b z -> exists b' z', read_bytes (length l) ics b z = Ret (l, b', z') /\ rst pxs b' z'.
Proof.
  induction l as [|x l IH]; intros b z pxs H; cbn [read_bytes length].
  - exists b, z. auto.
  - cbn [app] in H. destruct (read_step _ _ _ _ H) as (b1 & z1 & E & H1). rewrite E. cbn [bind]. destruct (IH _ _ _ H1) as (b2 & z2 & E2 & H2). rewrite E2. cbn [bind]. exists b2, z2. auto.
Qed.

(* the first byte of the file *)
Lemma read_first x pxs inp X bufj headj tailj tr s' rest b0 : framed X inp -> Forall isbyte inp -> length bufj = 260%nat -> Forall isbyte bufj ->
  length headj = Z.to_nat 4096 -> length tailj = Z.to_nat 4096 -> bbits X = tbits tr ++ rest -> arun ([], None) tr (x :: pxs) s' ->
  init_grd inp bufj = Ret b0 ->
  exists b' z', LZWReadByte ics b0 (init_glz ics headj tailj) = Ret (x, b', z') /\ rst pxs b' z'.
Proof.
  pose proof (clear_bounds ics Hics) as CB. intros HFr HB L1 BB L2 L3 HX HR E0. unfold init_grd in E0. rewrite aset_ok in E0 by lia. cbn [bind] in E0. rewrite aset_ok in E0 by (rewrite length_upd; lia). cbn [bind] in E0.
  injection E0 as E0. subst b0. unfold LZWReadByte, init_glz, ReInitLZW. cbn [z_stack z_size].
  unfold GetCode at 1. cbn [get_reload r_lbit r_cbit r_first r_in r_buf r_lbyte r_oob r_warn]. destruct (Z.ltb_spec 0 (0 + (ics + 1))); [|lia]. cbn [bind]. rewrite Z.eqb_refl.
  set (b1 := mkGR _ _ _ _ _ false _ _). cbn [z_size z_limit z_max z_head z_tail z_stack].
  assert (HI : rinv X b1).
  { constructor; cbn; auto; try lia.
    - rewrite !length_upd. exact L1.
    - apply Forall_forall. intros y Hy. destruct (In_nth _ _ 0 Hy) as (k & Hk & <-). rewrite !length_upd in Hk.
      destruct (Nat.eq_dec k 1) as [->|N1]; [rewrite nth_upd_eq by (rewrite length_upd; lia); unfold isbyte; lia|]. change (Pos.to_nat 1) with 1%nat. rewrite nth_upd_neq by congruence.
      destruct (Nat.eq_dec k 0) as [->|N0]; [rewrite nth_upd_eq by lia; unfold isbyte; lia|]. rewrite nth_upd_neq by congruence. rewrite Forall_forall in BB. apply BB, nth_In. exact Hk. }
  assert (HA : avail X b1 = tbits tr ++ rest) by exact HX.
  destruct (clear_loop_spec tr (S (S (bits_left b1))) X b1 pxs x s' rest) as (X' & b' & tr' & K1 & K2 & K3 & K4 & K5 & K6 & K7); auto.
  { pose proof (tr_len _ _ _ _ HR). pose proof (avail_bits X b1 HI) as AB. rewrite HA, app_length in AB. lia. }
  rewrite K1. cbn [bind]. destruct (Z.ltb_spec clear x); [lia|]. eexists; eexists. split; [reflexivity|].
  exists X', [], x, tr', pxs, s', rest. split; [exact K3|]. split; [exact K4|]. split; [rewrite K5; reflexivity|]. split; [exact K6|].
  split; [apply (crel_first x (mkGL 0 0 0 0 0 headj tailj [])); auto|]. split; [exact K7|reflexivity].
Qed.

(* ---------------- writer: start, raw pixels, end ---------------- *)
Lemma winv_start hdr : winv hdr [] (mkGB hdr [] 0 0).
Proof.
  exists []. cbn [w_cbits w_accum]. split; [exists [], []; cbn; rewrite app_nil_r; auto 10 using fr_nil with arith|]. split; [lia|]. split; [change (2 ^ 0) with 1; lia|reflexivity].
Qed.
Lemma init_spec hdr : exists b, compress_init hdr (ics + 1) = Ret (b, mkGW (ics + 1) (MAXCODE (ics + 1)) (ics + 1) clear (clear + 2) (clear + 2)) /\
  winv hdr (tbits [(ics + 1, clear)]) b /\ arun ([], None) [(ics + 1, clear)] [] ([], None).
Proof.
  pose proof (clear_bounds ics Hics) as CB. unfold compress_init. replace (ics + 1 - 1) with ics by lia.
  destruct (output_spec hdr [] (mkGB hdr [] 0 0) (mkGW (ics + 1) (MAXCODE (ics + 1)) (ics + 1) clear (clear + 2) (clear + 2)) clear (winv_start hdr)) as (b & E & HW).
  { cbn [w_nbits]. lia. } { cbn [w_nbits]. rewrite Z.pow_add_r by lia. lia. }
  exists b. rewrite E. split; [|split].
  - unfold bump. cbn [w_maxcode w_free]. unfold MAXCODE. rewrite Z.pow_add_r by lia. destruct (Z.ltb_spec (clear * 2 ^ 1 - 1) (clear + 2)); [lia|reflexivity].
  - cbn [tbits flat_map fst snd]. rewrite app_nil_r. exact HW.
  - assert (W : wd (mc []) = ics + 1) by (apply (wd_init ics Hics); unfold P_GifLzw.mc; cbn [length]; lia).
    change (@nil Z) with (@nil Z ++ []). econstructor; [|constructor]. rewrite <- W. apply as_clear.
Qed.

Lemma hsound0 h : w_hcode h = repeat 0 (Z.to_nat 5003) -> length (w_hval h) = Z.to_nat 5003 -> hsound ics [] h.
Proof.
  intros H1 H2. unfold hsound. rewrite H1, repeat_length. assert (Z0 : forall k, nth k (repeat 0 (Z.to_nat 5003)) 0 = 0) by (intros k; apply nth_repeat).
  split; [reflexivity|]. split; [exact H2|]. split; [exists []; split; [cbn; lia|]; intros k _ Hk; rewrite Z0 in Hk; congruence|]. intros k _ Hk. rewrite Z0 in Hk. congruence.
Qed.

Lemma lzw_all hdr junk x l : length junk = Z.to_nat 5003 -> Forall (fun c => 0 <= c < clear) (x :: l) ->
  exists s s1 h1, compress_init hdr (ics + 1) = Ret s /\ put_lzw_pixels (x :: l) s (mkGH 0 true (repeat 0 (Z.to_nat HSIZE)) junk) = Ret (s1, h1) /\ wst ics hdr (x :: l) s1 h1.
Proof.
  intros HJ HF. destruct (init_spec hdr) as (b & E & HW & HA). cbn [put_lzw_pixels]. unfold put_lzw_pixel at 1. cbn [w_first bind w_hcode w_hval].
  set (s := (b, _)) in E. set (h := mkGH x false _ _).
  destruct (put_lzw_pixels_spec ics Hics hdr l [x] s h) as (s1 & h1 & E1 & H1).
  - eapply (ws_clr ics hdr [x] [(ics + 1, clear)] []); unfold h; cbn [w_first w_waiting]; auto. + exact (Forall_inv HF). + apply hsound0; auto.
  - exact (Forall_inv_tail HF).
  - exists s, s1, h1. auto.
Qed.

Inductive raww (hdr px : list Z) : gbits * gwid -> Prop :=
| rw_clr tr b w : winv hdr (tbits tr) b -> arun ([], None) tr px ([], None) -> w = mkGW (ics + 1) (MAXCODE (ics + 1)) (ics + 1) clear (clear + 2) (clear + 2) -> raww hdr px (b, w)
| rw_mid tr D o b w : winv hdr (tbits tr) b -> arun ([], None) tr px (D, Some o) -> 0 <= o < clear -> mc D + 1 <= 2 * clear - 1 ->
    w = mkGW (ics + 1) (MAXCODE (ics + 1)) (ics + 1) clear (clear + 2) (mc D + 1) -> raww hdr px (b, w).

Lemma raw_bump n : bump (mkGW (ics + 1) (MAXCODE (ics + 1)) (ics + 1) clear (clear + 2) n) = mkGW (ics + 1) (MAXCODE (ics + 1)) (ics + 1) clear (clear + 2) n.
Proof. pose proof (clear_bounds ics Hics) as CB. unfold bump. cbn [w_maxcode w_free]. unfold MAXCODE. rewrite Z.pow_add_r by lia. destruct (Z.ltb_spec (clear * 2 ^ 1 - 1) (clear + 2)); [lia|reflexivity]. Qed.

Lemma raw_all hdr : forall l px s, raww hdr px s -> Forall (fun c => 0 <= c < clear) l -> exists s', put_raw_pixels l s = Ret s' /\ raww hdr (px ++ l) s'.
Proof.
  pose proof (clear_bounds ics Hics) as CB. assert (MX : MAXCODE (ics + 1) = 2 * clear - 1) by (unfold MAXCODE; rewrite Z.pow_add_r by lia; lia).
  assert (P2 : 2 ^ (ics + 1) = 2 * clear) by (rewrite Z.pow_add_r by lia; lia).
  induction l as [|c l IH]; intros px s HS HF.
  - exists s. rewrite app_nil_r. auto.
  - assert (Hc := Forall_inv HF). cbn beta in Hc. cbn [put_raw_pixels].
    assert (ST : exists b w tr D, output c s = Ret (b, w) /\ winv hdr (tbits tr) b /\ arun ([], None) tr (px ++ [c]) (D, Some c) /\ mc D <= 2 * clear - 1 /\
      w = mkGW (ics + 1) (MAXCODE (ics + 1)) (ics + 1) clear (clear + 2) (mc D)).
    { assert (OUT : forall tr b n, winv hdr (tbits tr) b -> exists b', output c (b, mkGW (ics + 1) (MAXCODE (ics + 1)) (ics + 1) clear (clear + 2) n) = Ret (b', mkGW (ics + 1) (MAXCODE (ics + 1)) (ics + 1) clear (clear + 2) n) /\
        winv hdr (tbits tr ++ lsb (Z.to_nat (ics + 1)) c) b').
      { intros tr b n HW. destruct (output_spec hdr (tbits tr) b (mkGW (ics + 1) (MAXCODE (ics + 1)) (ics + 1) clear (clear + 2) n) c HW) as (b' & E & HW'); [cbn [w_nbits]; lia|cbn [w_nbits]; lia|].
        rewrite raw_bump in E. exists b'. auto. }
      destruct HS as [tr b w HW HA Ew|tr D o b w HW HA Ho Hm Ew]; subst w; edestruct (OUT tr b) as (b' & E & HW'); try exact HW.
      - exists b', (mkGW (ics + 1) (MAXCODE (ics + 1)) (ics + 1) clear (clear + 2) (clear + 2)), (tr ++ [(ics + 1, c)]), []. split; [exact E|]. split; [apply winv_snoc; exact HW'|].
        split; [eapply arun_snoc; [exact HA|apply as_first; exact Hc]|]. unfold P_GifLzw.mc. cbn [length]. rewrite Z.add_0_r. split; [lia|reflexivity].
      - assert (W : wd (mc D) = ics + 1) by (pose proof (mc_ge ics D); apply (wd_init ics Hics); lia).
        assert (Emc : mc (D ++ [(o, c)]) = mc D + 1) by (unfold P_GifLzw.mc; rewrite app_length; cbn [length]; lia).
        exists b', (mkGW (ics + 1) (MAXCODE (ics + 1)) (ics + 1) clear (clear + 2) (mc D + 1)), (tr ++ [(ics + 1, c)]), (D ++ [(o, c)]). split; [exact E|]. split; [apply winv_snoc; exact HW'|].
        split; [eapply arun_snoc; [exact HA|]|]. { rewrite <- W. eapply (as_code ics D o c [c] c [o]); [constructor; exact Hc|reflexivity|lia|constructor; exact Ho]. }
        rewrite Emc. split; [lia|reflexivity].
    }
    destruct ST as (b & w & tr & D & E & HW & HA & Hm & Ew). rewrite E. cbn [bind]. subst w. cbn [w_counter w_maxcode w_nbits w_init w_clear w_free]. rewrite MX.
    replace (px ++ c :: l) with ((px ++ [c]) ++ l) by (rewrite <- app_assoc; reflexivity).
    destruct (Z.ltb_spec (mc D) (2 * clear - 1)) as [Hlt|Hge].
    + cbn [bind]. apply IH; [|exact (Forall_inv_tail HF)]. rewrite <- MX. eapply rw_mid; eauto. lia.
    + assert (Em : mc D = 2 * clear - 1) by lia. rewrite <- MX.
      destruct (output_spec hdr (tbits tr) b (mkGW (ics + 1) (MAXCODE (ics + 1)) (ics + 1) clear (clear + 2) (mc D)) clear HW) as (b' & E' & HW'); [cbn [w_nbits]; lia|cbn [w_nbits]; lia|].
      rewrite E', raw_bump. cbn [bind w_counter w_maxcode w_nbits w_init w_clear w_free]. apply IH; [|exact (Forall_inv_tail HF)].
      eapply (rw_clr hdr (px ++ [c]) (tr ++ [(ics + 1, clear)])); [apply winv_snoc; exact HW'| |reflexivity].
      rewrite <- (app_nil_r (px ++ [c])). eapply arun_snoc; [exact HA|]. assert (W : wd (mc D) = ics + 1) by (apply (wd_init ics Hics); lia). rewrite <- W. apply as_clear.
Qed.

Lemma term_spec hdr B b w : winv hdr B b -> 1 <= w_nbits w <= 12 -> w_clear w = clear -> clear + 1 < 2 ^ w_nbits w ->
  exists b3 out X rest, ('(b2, _) <- output (w_clear w + 1) (b, w) ;;
    b3 <- (if 0 <? w_cbits b2 then char_out (Z.land (w_accum b2) 255) b2 else Ret b2) ;; Ret (flush_packet b3)) = Ret b3 /\
    w_file b3 = hdr ++ out /\ framed X (out ++ [0; 59]) /\ bbits X = B ++ rest /\ Forall isbyte out.
Proof.
  pose proof (clear_bounds ics Hics) as CB. intros HW Hn Hc Hlt. rewrite Hc. destruct (output_spec hdr B b w (clear + 1) HW Hn ltac:(lia)) as (b2 & E & HW2). rewrite E. cbn [bind].
  destruct HW2 as (D & HP & R1 & R2 & R3).
  assert (FR : framed [] [0; 59]) by constructor.
  destruct (Z.ltb_spec 0 (w_cbits b2)) as [G|G].
  - assert (BA : Z.land (w_accum b2) 255 = w_accum b2).
    { change 255 with (Z.ones 8). rewrite Z.land_ones by lia. apply Z.mod_small. assert (2 ^ w_cbits b2 <= 2 ^ 8) by (apply Z.pow_le_mono_r; lia). lia. }
    assert (BY : isbyte (w_accum b2)) by (unfold isbyte; assert (2 ^ w_cbits b2 <= 2 ^ 8) by (apply Z.pow_le_mono_r; lia); change (2 ^ 8) with 256 in *; lia).
    rewrite BA. destruct (char_out_spec hdr D (w_accum b2) b2 HP BY) as (b3 & E3 & P3 & _). rewrite E3. cbn [bind].
    destruct (flush_spec hdr _ b3 P3) as (out & F1 & F2 & F3). exists (flush_packet b3), out, (D ++ [w_accum b2]).
    specialize (F2 [] [0; 59] FR). rewrite app_nil_r in F2.
    exists (lsb (Z.to_nat (w_nbits w)) (clear + 1) ++ lsb (8 - Z.to_nat (w_cbits b2)) (Z.shiftr (w_accum b2) (w_cbits b2))).
    split; [reflexivity|]. split; [exact F1|]. split; [exact F2|]. split; [|exact F3]. rewrite bbits_app. cbn [bbits flat_map]. rewrite app_nil_r, app_assoc, R3, <- app_assoc. f_equal.
    replace 8%nat with (Z.to_nat (w_cbits b2) + (8 - Z.to_nat (w_cbits b2)))%nat at 1 by lia. rewrite lsb_app, Z2Nat.id by lia. reflexivity.
  - cbn [bind]. destruct (flush_spec hdr D b2 HP) as (out & F1 & F2 & F3). specialize (F2 [] [0; 59] FR). rewrite app_nil_r in F2.
    exists (flush_packet b2), out, D, (lsb (Z.to_nat (w_nbits w)) (clear + 1)). split; [reflexivity|]. split; [exact F1|]. split; [exact F2|]. split; [|exact F3].
    rewrite R3. replace (Z.to_nat (w_cbits b2)) with 0%nat by lia. cbn. rewrite app_nil_r. reflexivity.
Qed.

Definition coded (px : list Z) (out : list Z) : Prop :=
  exists X tr rest s', framed X (out ++ [0; 59]) /\ bbits X = tbits tr ++ rest /\ arun ([], None) tr px s' /\ Forall isbyte out.

Lemma lzw_coded hdr px s h : wst ics hdr px s h -> exists b out, compress_term (w_first h) (w_waiting h) s = Ret b /\ w_file b = hdr ++ out /\ coded px out.
Proof.
  pose proof (clear_bounds ics Hics) as CB. intros H. assert (HF : w_first h = false) by (destruct H; auto).
  destruct (emit_waiting ics Hics _ _ _ _ H) as (b' & w' & tr & D & E & HW & HA & Ew & Hm & _). unfold compress_term. rewrite HF, E. cbn [bind snd].
  pose proof (mc_ge ics D). pose proof (wd_range ics Hics (mc D) ltac:(lia)).
  assert (N : w_nbits w' = wd (mc D)) by (rewrite Ew; reflexivity).
  destruct (term_spec hdr (tbits tr) b' w' HW) as (b3 & out & X & rest & E3 & F1 & F2 & F3 & F4).
  - lia.
  - rewrite Ew. reflexivity.
  - rewrite N. destruct (wd_fits ics Hics (mc D) ltac:(lia)) as [G|G]; [rewrite G; change (2 ^ wd 4096) with 4096; lia|lia].
  - rewrite E3. exists b3, out. split; [reflexivity|]. split; [exact F1|]. exists X, tr, rest. eexists. eauto.
Qed.
Lemma raw_coded hdr px s : raww hdr px s -> exists b out, compress_term true 0 s = Ret b /\ w_file b = hdr ++ out /\ coded px out.
Proof.
  pose proof (clear_bounds ics Hics) as CB. assert (P2 : 2 ^ (ics + 1) = 2 * clear) by (rewrite Z.pow_add_r by lia; lia).
  intros H. assert (K : exists tr b w s', s = (b, w) /\ winv hdr (tbits tr) b /\ arun ([], None) tr px s' /\ w_nbits w = ics + 1 /\ w_clear w = clear).
  { destruct H as [tr b w HW HA Ew|tr D o b w HW HA Ho Hm Ew]; exists tr, b, w; eexists; (split; [reflexivity|]); (split; [exact HW|]); (split; [exact HA|]); rewrite Ew; auto. }
  destruct K as (tr & b & w & s' & -> & HW & HA & N & C). unfold compress_term. cbn [bind snd].
  destruct (term_spec hdr (tbits tr) b w HW ltac:(lia) C ltac:(rewrite N; lia)) as (b3 & out & X & rest & E3 & F1 & F2 & F3 & F4).
  rewrite E3. exists b3, out. split; [reflexivity|]. split; [exact F1|]. exists X, tr, rest, s'. auto.
Qed.
End Rd.
