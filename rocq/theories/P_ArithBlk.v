(* P_ArithBlk.v -- the decoder's questions are the encoder's decisions *)
From Verif Require Import Base M_HuffDec S_Block P_Gather P_Trellis P_Arith M_Arith M_ArithBlk S_Prog.

Lemma zz_g blk i : zz blk i = g blk (no i).
Proof. unfold zz, g, no. rewrite Nat2Z.id. reflexivity. Qed.

Fixpoint ans {A} (t : dtree A) (ds : decs) : option (A * decs) :=
  match t with
  | Done a => Some (a, ds) | Warn => None | Stuck => None
  | Ask ctx k => match ds with [] => None | (c, v) :: ds => if c =? ctx then ans (k v) ds else None end
  end.
Lemma ans_bind {A B} (t : dtree A) (f : A -> dtree B) : forall ds, ans (tbind t f) ds = match ans t ds with Some (a, r) => ans (f a) r | None => None end.
Proof.
  induction t as [a| | |c k IH]; intros ds; cbn [tbind ans]; try reflexivity. destruct ds as [|[c' v] ds]; [reflexivity|]. destruct (c' =? c); [apply IH|reflexivity].
Qed.
Lemma ans_ask {A} c (k : bool -> dtree A) v ds : ans (Ask c k) ((c, v) :: ds) = ans (k v) ds.
Proof. cbn [ans]. rewrite Z.eqb_refl. reflexivity. Qed.
Lemma ans_ret {A} (x : A) ds : ans (lift (Ret x)) ds = Some (x, ds). Proof. reflexivity. Qed.

Lemma mag_ok : forall j fuel fuel2 v2 i st, 2 ^ Z.of_nat j <= v2 < 2 ^ (Z.of_nat j + 1) -> 0 <= i -> i + Z.of_nat j <= 14 -> (j < fuel)%nat -> (j < fuel2)%nat ->
  exists ds, mag_loop fuel v2 (2 ^ i) st = Ret (ds, 2 ^ (i + Z.of_nat j), st + Z.of_nat j) /\
    (forall rest, ans (dec_mag_loop fuel2 (2 ^ i) st) (ds ++ (st + Z.of_nat j, false) :: rest) = Some ((2 ^ (i + Z.of_nat j), st + Z.of_nat j), rest)) /\
    Forall (fun d => st <= fst d < st + Z.of_nat j) ds.
Proof.
  induction j as [|j IH]; intros fuel fuel2 v2 i st HV Hi HIJ F1 F2; destruct fuel as [|fuel]; try lia; destruct fuel2 as [|fuel2]; try lia; cbn [mag_loop dec_mag_loop]; rewrite Z.shiftr_div_pow2 by lia.
  - assert (v2 = 1) as -> by (change (2 ^ Z.of_nat 0) with 1 in HV; change (2 ^ (Z.of_nat 0 + 1)) with 2 in HV; lia). change (1 / 2 ^ 1 =? 0) with true. cbv iota. exists []. rewrite !Z.add_0_r. split; [reflexivity|]. split; [|constructor]. intros rest. cbn [app]. rewrite ans_ask. reflexivity.
  - assert (P1 : 2 ^ (Z.of_nat (S j)) = 2 * 2 ^ Z.of_nat j) by (rewrite <- Z.pow_succ_r by lia; f_equal; lia). assert (P2 : 2 ^ (Z.of_nat (S j) + 1) = 2 * 2 ^ (Z.of_nat j + 1)) by (rewrite <- Z.pow_succ_r by lia; f_equal; lia).
    change (2 ^ 1) with 2. assert (HV2 : 2 ^ Z.of_nat j <= v2 / 2 < 2 ^ (Z.of_nat j + 1)) by (split; [apply Z.div_le_lower_bound; lia|apply Z.div_lt_upper_bound; lia]).
    assert (0 < 2 ^ Z.of_nat j) by (apply Z.pow_pos_nonneg; lia). destruct (Z.eqb_spec (v2 / 2) 0); [lia|].
    assert (SH : Z.shiftl (2 ^ i) 1 = 2 ^ (i + 1)) by (rewrite Z.shiftl_mul_pow2 by lia; rewrite Z.pow_add_r by lia; reflexivity). rewrite SH.
    destruct (IH fuel fuel2 (v2 / 2) (i + 1) (st + 1) HV2 ltac:(lia) ltac:(lia) ltac:(lia) ltac:(lia)) as (ds & E1 & E2 & E3). rewrite E1. cbn [bind]. exists ((st, true) :: ds).
    replace (i + 1 + Z.of_nat j) with (i + Z.of_nat (S j)) in * by lia. replace (st + 1 + Z.of_nat j) with (st + Z.of_nat (S j)) in * by lia. split; [reflexivity|]. split.
    + intros rest. cbn [app]. rewrite ans_ask. cbv zeta. destruct (Z.eqb_spec (2 ^ (i + 1)) 32768) as [E|_]; [|apply E2]. exfalso. change 32768 with (2 ^ 15) in E. apply Z.pow_inj_r in E; lia.
    + constructor; [cbn; lia|]. eapply Forall_impl; [|exact E3]. intros a. cbn beta. lia.
Qed.

Lemma land_pow2 j v : 0 <= j -> negb (Z.land (2 ^ j) v =? 0) = Z.testbit v j.
Proof.
  intros Hj. assert (E : Z.land (2 ^ j) v = if Z.testbit v j then 2 ^ j else 0).
  { apply Z.bits_inj'. intros i Hi. rewrite Z.land_spec, Z.pow2_bits_eqb by lia. destruct (Z.eqb_spec j i) as [->|N]; [destruct (Z.testbit v i) eqn:T; [rewrite Z.pow2_bits_eqb by lia; rewrite Z.eqb_refl; reflexivity|rewrite Z.bits_0; reflexivity]|].
    cbn [andb]. destruct (Z.testbit v j); [rewrite Z.pow2_bits_eqb by lia; destruct (Z.eqb_spec j i); [contradiction|reflexivity]|rewrite Z.bits_0; reflexivity]. }
  rewrite E. destruct (Z.testbit v j); [|reflexivity]. assert (0 < 2 ^ j) by (apply Z.pow_pos_nonneg; lia). destruct (Z.eqb_spec (2 ^ j) 0); [lia|reflexivity].
Qed.
Lemma bits_ok : forall j fuel fuel2 v st, 0 <= v -> (j < fuel)%nat -> (j < fuel2)%nat ->
  exists ds, bits_loop fuel (2 ^ Z.of_nat j) v st = Ret ds /\ (forall rest, ans (dec_bits fuel2 (2 ^ Z.of_nat j) (v / 2 ^ Z.of_nat j * 2 ^ Z.of_nat j) st) (ds ++ rest) = Some (v, rest)) /\ Forall (fun d => fst d = st) ds.
Proof.
  induction j as [|j IH]; intros fuel fuel2 v st HV F1 F2; destruct fuel as [|fuel]; try lia; destruct fuel2 as [|fuel2]; try lia; cbn [bits_loop dec_bits].
  - change (Z.shiftr (2 ^ Z.of_nat 0) 1 =? 0) with true. cbv iota zeta. exists []. split; [reflexivity|]. split; [|constructor]. intros rest. cbn [app ans]. change (2 ^ Z.of_nat 0) with 1. rewrite Z.div_1_r, Z.mul_1_r. reflexivity.
  - assert (P1 : 2 ^ (Z.of_nat (S j)) = 2 * 2 ^ Z.of_nat j) by (rewrite <- Z.pow_succ_r by lia; f_equal; lia). assert (P0 : 0 < 2 ^ Z.of_nat j) by (apply Z.pow_pos_nonneg; lia).
    assert (SH : Z.shiftr (2 ^ Z.of_nat (S j)) 1 = 2 ^ Z.of_nat j). { rewrite Z.shiftr_div_pow2 by lia. change (2 ^ 1) with 2. rewrite P1, Z.mul_comm. apply Z.div_mul. lia. }
    rewrite SH. cbv zeta. destruct (Z.eqb_spec (2 ^ Z.of_nat j) 0); [lia|]. destruct (IH fuel fuel2 v st HV ltac:(lia) ltac:(lia)) as (ds & E1 & E2 & E3). rewrite E1. cbn [bind]. eexists. split; [reflexivity|]. split.
    + intros rest. cbn [app]. rewrite ans_ask. rewrite land_pow2 by lia. rewrite <- (E2 rest). f_equal. f_equal.
      assert (D : v / 2 ^ Z.of_nat j = 2 * (v / 2 ^ Z.of_nat (S j)) + Z.b2z (Z.testbit v (Z.of_nat j))).
      { rewrite Z.testbit_odd, Z.shiftr_div_pow2 by lia. assert (v / 2 ^ Z.of_nat (S j) = v / 2 ^ Z.of_nat j / 2) as -> by (rewrite Z.div_div by lia; f_equal; lia). pose proof (Z.div_mod (v / 2 ^ Z.of_nat j) 2 ltac:(lia)) as DM. rewrite Zmod_odd in DM. destruct (Z.odd (v / 2 ^ Z.of_nat j)); cbn [Z.b2z] in *; lia. }
      rewrite D. destruct (Z.testbit v (Z.of_nat j)); cbn [Z.b2z].
      * rewrite <- Z.shiftl_mul_pow2 by lia. rewrite lor_shiftl_add by lia. rewrite P1. ring.
      * rewrite P1. ring.
    + constructor; [reflexivity|exact E3].
Qed.
Lemma bits_zero v st : bits_loop 32 0 v st = Ret []. Proof. reflexivity. Qed.

Lemma log_split v : 1 <= v <= 32767 -> exists j, (j <= 14)%nat /\ 2 ^ Z.of_nat j <= v < 2 ^ (Z.of_nat j + 1) /\ v / 2 ^ Z.of_nat j = 1.
Proof.
  intros H. exists (Z.to_nat (Z.log2 v)). pose proof (Z.log2_nonneg v). rewrite Z2Nat.id by lia. pose proof (Z.log2_spec v ltac:(lia)) as L. replace (Z.log2 v + 1) with (Z.succ (Z.log2 v)) by lia.
  split; [|split; [exact L|]].
  - assert (Z.log2 v < 15); [|lia]. apply Z.log2_lt_pow2; lia.
  - symmetry. apply (Z.div_unique v (2 ^ Z.log2 v) 1 (v - 2 ^ Z.log2 v)); [left|]; rewrite Z.pow_succ_r in L by lia; lia.
Qed.

Definition okc (d : Z * bool) : Prop := 0 <= fst d < 5121.

(* ---- parameters ---- *)
Record pvalid (p : ascan) : Prop := mkPV {
  pv_comps : Forall (fun c => 0 <= fst c < 16 /\ 0 <= snd c < 16) (acomps p) ;
  pv_L : length (adcL p) = 16%nat ; pv_U : length (adcU p) = 16%nat ; pv_K : length (aacK p) = 16%nat ;
  pv_ri : 0 <= ariv p ;
  pv_mode : (aprog p = false /\ aSs p = 0 /\ aSe p = 63 /\ aAh p = 0 /\ aAl p = 0) \/
            (aprog p = true /\ (aSs p = 0 /\ aSe p = 0 \/ 1 <= aSs p /\ aSs p <= aSe p /\ aSe p <= 63 /\ length (acomps p) = 1%nat) /\ 0 <= aAl p <= 13 /\ (aAh p = 0 \/ aAh p = aAl p + 1)) }.

(* the decoder keeps the DC predictions modulo 2^16 *)
Definition dmod (x : Z) : Z := x mod 65536.
Definition dcx (cx : actx) : actx := (map dmod (fst cx), snd cx).
Definition cxok (p : ascan) (cx : actx) : Prop :=
  length (fst cx) = length (acomps p) /\ length (snd cx) = length (acomps p) /\
  Forall (fun x => -16384 <= x <= 16383) (fst cx) /\ Forall (fun x => 0 <= x <= 16) (snd cx).

Lemma map_upd {A B} (f : A -> B) : forall l n x, map f (upd l n x) = upd (map f l) n (f x).
Proof. induction l as [|y l IH]; intros [|n] x; cbn; try reflexivity. f_equal. apply IH. Qed.
Lemma Forall_upd {A} (P : A -> Prop) l n x : Forall P l -> P x -> Forall P (upd l n x).
Proof. intros F H. revert n. induction F as [|y l Hy F IH]; intros [|n]; cbn [upd]; try constructor; auto. Qed.
Lemma Forall_g (P : Z -> Prop) l i : Forall P l -> 0 <= i < len l -> P (g l i).
Proof. intros F H. rewrite Forall_forall in F. apply F. unfold g. apply nth_In. lia. Qed.
Lemma g_map (f : Z -> Z) l i : 0 <= i < len l -> g (map f l) i = f (g l i).
Proof. intros H. unfold g. rewrite (nth_indep _ 0 (f 0)) by (rewrite map_length; lia). apply map_nth. Qed.

Lemma comp_get p ci : pvalid p -> 0 <= ci < len (acomps p) -> exists dt at', aget (acomps p) ci = Ret (dt, at') /\ 0 <= dt < 16 /\ 0 <= at' < 16.
Proof.
  intros V H. rewrite (aget_nth (acomps p) ci (0, 0) H). destruct (nth (Z.to_nat ci) (acomps p) (0, 0)) as [dt at'] eqn:E. exists dt, at'. split; [reflexivity|]. pose proof (pv_comps p V) as F. rewrite Forall_forall in F. apply (F (dt, at')). rewrite <- E. apply nth_In. lia.
Qed.

Lemma dc_ok p cx ci m : pvalid p -> cxok p cx -> 0 <= ci < len (acomps p) -> -16384 <= m <= 16383 ->
  sat (fun '(ds, cx') => Forall okc ds /\ cxok p cx' /\ forall rest, ans (dec_dc p (dcx cx) ci) (ds ++ rest) = Some ((dmod m, dcx cx'), rest)) (enc_dc p cx ci m).
Proof.
  intros V (L1 & L2 & F1 & F2) HC HM. destruct (comp_get p ci V HC) as (dt & at' & CG & DT & _). unfold enc_dc, dec_dc. rewrite CG. cbn [bind].
  destruct cx as [le ce]. unfold dcx in *. cbn [fst snd] in *.
  rewrite (aget_g le) by lia. rewrite (aget_g ce) by lia. cbn [bind].
  pose proof (Forall_g _ le ci F1 ltac:(lia)) as Hl. pose proof (Forall_g _ ce ci F2 ltac:(lia)) as Hc. cbv beta in Hl, Hc.
  assert (LM : len (map dmod le) = len le) by (rewrite map_length; reflexivity).
  assert (G1 : aget (map dmod le) ci = Ret (dmod (g le ci))) by (rewrite (aget_g (map dmod le)) by lia; rewrite g_map by lia; reflexivity).
  set (lst := g le ci) in *. set (dx := g ce ci) in *. unfold DCB in *.
  destruct (Z.eqb_spec (m - lst) 0) as [E|E].
  - rewrite (aset_ok ce ci 0) by lia. cbn [bind sat]. split; [constructor; [unfold okc; cbn; lia|constructor]|]. split.
    + split; [exact L1|]. split; [cbn; rewrite length_upd; exact L2|]. split; [exact F1|]. cbn [snd]. apply Forall_upd; [exact F2|lia].
    + intros rest. cbn [lift tbind]. rewrite G1. cbn [lift tbind app]. rewrite ans_ask. cbn [negb]. rewrite ?(aset_ok ce ci 0) by lia. cbn [lift tbind ans]. replace m with lst by lia. reflexivity.
  - rewrite (aset_ok le ci m) by lia. cbn [bind].
    set (pk := if 0 <? m - lst then _ else _).
    assert (PK : exists sg av, pk = ((dt * 64 + dx + 1, sg), dt * 64 + dx + 2 + Z.b2z sg, 4 + Z.b2z sg * 4, av) /\ 1 <= av <= 32768 /\ (if sg then - av else av) = m - lst).
    { unfold pk. destruct (Z.ltb_spec 0 (m - lst)); [exists false, (m - lst)|exists true, (- (m - lst))]; cbn [Z.b2z]; (split; [|lia]); [rewrite Z.add_0_r; reflexivity|replace (dt * 64 + dx + 3) with (dt * 64 + dx + 2 + 1) by lia; reflexivity]. }
    clearbody pk. destruct PK as (sg & av & -> & AV & SGN).
    assert (GL : aget (adcL p) dt = Ret (g (adcL p) dt)) by (apply aget_g; rewrite (pv_L p V); lia).
    assert (GU : aget (adcU p) dt = Ret (g (adcU p) dt)) by (apply aget_g; rewrite (pv_U p V); lia).
    assert (K : exists dsm mm st2 bs, (if av - 1 =? 0 then Ret ([], 0, dt * 64 + dx + 2 + Z.b2z sg) else '(ds, m, st2) <- mag_loop 32 (av - 1) 1 (dt * 64 + 20) ;; Ret ((dt * 64 + dx + 2 + Z.b2z sg, true) :: ds, m, st2)) = Ret (dsm, mm, st2) /\
      bits_loop 32 mm (av - 1) (st2 + 14) = Ret bs /\ Forall okc dsm /\ Forall okc bs /\ okc (st2, false) /\
      forall (B : Type) (f : Z * Z -> dtree B) rest, ans (Ask (dt * 64 + dx + 2 + Z.b2z sg) (fun m0 : bool => tbind (if m0 then dec_mag_loop 16 1 (dt * 64 + 20) else Done (0, dt * 64 + dx + 2 + Z.b2z sg)) f)) (dsm ++ (st2, false) :: rest) = ans (f (mm, st2)) rest /\
      ans (dec_bits 32 mm mm (st2 + 14)) (bs ++ rest) = Some (av - 1, rest)).
    { destruct (Z.eqb_spec (av - 1) 0) as [A0|A0].
      - do 4 eexists. split; [reflexivity|]. split; [apply bits_zero|]. split; [constructor|]. split; [constructor|]. split; [unfold okc; cbn [fst]; destruct sg; cbn [Z.b2z]; lia|]. intros B f rest. split; [cbn [app]; rewrite ans_ask; reflexivity|]. cbn [app]. rewrite A0. reflexivity.
      - destruct (log_split (av - 1) ltac:(lia)) as (j & J1 & J2 & J3). destruct (mag_ok j 32 16 (av - 1) 0 (dt * 64 + 20) J2 ltac:(lia) ltac:(lia) ltac:(lia) ltac:(lia)) as (ds & M1 & M2 & M3). change (2 ^ 0) with 1 in *. rewrite M1. cbn [bind]. rewrite Z.add_0_l in *.
        destruct (bits_ok j 32 32 (av - 1) (dt * 64 + 20 + Z.of_nat j + 14) ltac:(lia) ltac:(lia) ltac:(lia)) as (bs & B1 & B2 & B3). do 4 eexists. split; [reflexivity|]. split; [exact B1|].
        split; [constructor; [unfold okc; cbn [fst]; destruct sg; cbn [Z.b2z]; lia|eapply Forall_impl; [|exact M3]; intros a; cbn beta; unfold okc; lia]|]. split; [eapply Forall_impl; [|exact B3]; intros a; cbn beta; unfold okc; lia|]. split; [unfold okc; cbn [fst]; lia|].
        intros B f rest. split; [cbn [app]; rewrite ans_ask, ans_bind, M2; reflexivity|]. rewrite J3, Z.mul_1_l in B2. apply B2. }
    destruct K as (dsm & mm & st2 & bs & K1 & K2 & K3 & K4 & K5 & K6). rewrite K1. cbn [bind]. rewrite GL, GU. cbn [bind]. rewrite K2. cbn [bind].
    set (nx := if mm <? _ then 0 else _). rewrite (aset_ok ce ci nx) by lia. cbn [bind sat].
    assert (NX : 0 <= nx <= 16 /\ nx = if mm <? Z.shiftr (Z.shiftl 1 (g (adcL p) dt)) 1 then 0 else if Z.shiftr (Z.shiftl 1 (g (adcU p) dt)) 1 <? mm then 12 + Z.b2z sg * 4 else 4 + Z.b2z sg * 4).
    { unfold nx. destruct (mm <? _); [lia|]. destruct (_ <? mm); destruct sg; cbn [Z.b2z]; lia. }
    clearbody nx. destruct NX as [NX1 NX2]. split; [|split].
    + constructor; [unfold okc; cbn [fst]; lia|]. constructor; [unfold okc; cbn [fst]; lia|]. apply Forall_app. split; [exact K3|]. constructor; [exact K5|exact K4].
    + split; [cbn [fst]; rewrite length_upd; exact L1|]. split; [cbn [snd]; rewrite length_upd; exact L2|]. split; [apply Forall_upd; [exact F1|lia]|apply Forall_upd; [exact F2|lia]].
    + intros rest. cbn [lift tbind]. rewrite G1. cbn [lift tbind app]. rewrite !ans_ask. cbn [negb]. rewrite ans_ask. cbv zeta. rewrite <- app_assoc. cbn [app]. rewrite (proj1 (K6 _ _ _)). rewrite ?GL, ?GU. cbn [lift tbind]. rewrite <- NX2. rewrite ans_bind, (proj2 (K6 unit (fun _ => Done tt) rest)).
      set (nl := Z.land (dmod lst + _) 65535). assert (NL : nl = dmod m).
      { unfold nl, dmod. change 65535 with (Z.ones 16). rewrite Z.land_ones by lia. change (2 ^ 16) with 65536. rewrite Zplus_mod_idemp_l. f_equal. destruct sg; lia. }
      clearbody nl. subst nl. rewrite (aset_ok (map dmod le) ci (dmod m)) by lia. rewrite ?(aset_ok ce ci nx) by lia. cbn [lift tbind ans]. unfold dcx. cbn [fst snd]. rewrite map_upd. reflexivity.
Qed.
