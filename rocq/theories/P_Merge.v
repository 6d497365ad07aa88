(* P_Merge.v -- the merged row functions *)
From Verif Require Import Base M_RangeLimit T_RangeLimit M_Color T_Color M_Merge S_Merge.
Open Scope nat_scope.

Section P.
Variables (cs : colorspace) (c : mcfg).
Hypothesis Hc : mcfg_ok cs c.
Notation p := (e_p c).
Notation sz := (length (layout cs)).
Notation W := (e_W c).

Lemma fsz : Z.to_nat (f_size (e_f c)) = sz.
Proof. destruct Hc as (_ & _ & _ & -> & _). destruct cs; reflexivity. Qed.
Lemma szpos : 1 <= sz.
Proof. destruct cs; cbn; lia. Qed.

Definition PX (y cb cr : Z) : Z * Z * Z :=
  let k := (2 ^ (p - 1))%Z in (clamp p (y + dr k cr), clamp p (y + dg k cb cr), clamp p (y + db k cb)).

Lemma PX_ok : forall y cb cr, sample p y -> sample p cb -> sample p cr ->
  ycc_rgb_pixel p (e_rl c) (e_t c) y cb cr = Ret (PX y cb cr).
Proof.
  intros y cb cr Hy Hb Hr. destruct Hc as (Hp & Er & Et & _).
  destruct (ycc_rgb_pixel_ok p Hp) as (rl & t & E1 & E2 & K).
  rewrite Er in E1. rewrite Et in E2. injection E1 as E1. injection E2 as E2. subst rl t.
  exact (proj1 (K y cb cr Hy Hb Hr)).
Qed.

Lemma pack1_len : forall q, length (pack1 cs q) = sz.
Proof. intros [[[r g] b] x]. unfold pack1. apply map_length. Qed.

Lemma chroma_px : forall cb cr, sample p cb -> sample p cr -> exists ch, chroma c cb cr = Ret ch /\
  forall y id x m F g R, sample p y -> m id = F ++ g ++ R -> length F = x * sz -> length g = sz ->
    exists m', putpx c id x y ch m = Ret m' /\ m' id = F ++ pack1 cs (opaque p (PX y cb cr)) ++ R /\
      forall j, j <> id -> m' j = m j.
Proof.
  intros cb cr Hb Hr.
  assert (K : forall y, sample p y -> ycc_rgb_pixel p (e_rl c) (e_t c) y cb cr = Ret (PX y cb cr)) by (intros; apply PX_ok; assumption).
  unfold ycc_rgb_pixel in K. unfold chroma.
  assert (S0 : sample p 0) by (destruct Hc as ([->| ->] & _); unfold sample; lia).
  pose proof (K 0%Z S0) as K0.
  destruct (tget (dtab_size p) (Cr_r (e_t c)) cr) as [a| |]; [|discriminate K0|discriminate K0]. cbn [bind] in *.
  destruct (range_limit p (e_rl c) (0 + a)) as [r0| |]; [|discriminate K0|discriminate K0]. cbn [bind] in *.
  destruct (tget (dtab_size p) (Cb_g (e_t c)) cb) as [b1| |]; [|discriminate K0|discriminate K0]. cbn [bind] in *.
  destruct (tget (dtab_size p) (Cr_g (e_t c)) cr) as [c1| |]; [|discriminate K0|discriminate K0]. cbn [bind] in *.
  destruct (range_limit p (e_rl c) (0 + Z.shiftr (b1 + c1) 16)) as [g0| |]; [|discriminate K0|discriminate K0]. cbn [bind] in *.
  destruct (tget (dtab_size p) (Cb_b (e_t c)) cb) as [b2| |]; [|discriminate K0|discriminate K0]. cbn [bind] in *.
  clear K0 r0 g0. eexists. split; [reflexivity|].
  intros y id x m F g R Hy Em HF Hg. specialize (K y Hy). unfold putpx.
  destruct (range_limit p (e_rl c) (y + a)) as [r0| |]; [|discriminate K|discriminate K]. cbn [bind] in *.
  destruct (range_limit p (e_rl c) (y + Z.shiftr (b1 + c1) 16)) as [g0| |]; [|discriminate K|discriminate K]. cbn [bind] in *.
  destruct (range_limit p (e_rl c) (y + b2)) as [b0| |]; [|discriminate K|discriminate K]. cbn [bind] in *.
  assert (K1 : (r0, g0, b0) = PX y cb cr) by congruence. rewrite <- K1. rewrite fsz, Em.
  rewrite (skipn_len_app F (g ++ R) (x * sz) HF), (firstn_len_app F (g ++ R) (x * sz) HF).
  assert (Ef : e_f c = fmt_of cs) by (destruct Hc as (_ & _ & _ & E & _); exact E). rewrite Ef.
  rewrite store_pixel_ok by (rewrite app_length; lia). cbn [bind].
  rewrite (skipn_len_app g R sz Hg).
  eexists. split; [reflexivity|]. split; [unfold mset; rewrite Nat.eqb_refl; reflexivity|].
  intros j Hj. unfold mset. destruct (Nat.eqb_spec j id); [contradiction|reflexivity].
Qed.

(* the first n pixels of a line written over [old] *)
Definition pix (Y Cb Cr : list Z) (x : nat) : Z * Z * Z := PX (nth x Y 0%Z) (nth (x / 2) Cb 0%Z) (nth (x / 2) Cr 0%Z).
Definition done (Y Cb Cr : list Z) (n : nat) : list Z := pack cs (map (fun x => opaque p (pix Y Cb Cr x)) (seq 0 n)).
Definition rowst (Y Cb Cr : list Z) (n : nat) (old : list Z) : list Z := done Y Cb Cr n ++ skipn (n * sz) old.

Lemma done_len : forall Y Cb Cr n, length (done Y Cb Cr n) = n * sz.
Proof.
  intros. unfold done, pack. generalize 0 as k. induction n as [|n IH]; intros k; [reflexivity|].
  cbn [seq map flat_map]. rewrite app_length, pack1_len, IH. lia.
Qed.
Lemma done_S : forall Y Cb Cr n, done Y Cb Cr (S n) = done Y Cb Cr n ++ pack1 cs (opaque p (pix Y Cb Cr n)).
Proof.
  intros. unfold done, pack. rewrite seq_S, map_app, flat_map_app. cbn [map flat_map Nat.add]. rewrite app_nil_r. reflexivity.
Qed.
Lemma split1 : forall n (r : list Z), (n + 1) * sz <= length r ->
  exists g, length g = sz /\ skipn (n * sz) r = g ++ skipn (S n * sz) r.
Proof.
  intros n r H. exists (firstn sz (skipn (n * sz) r)). split.
  - rewrite firstn_length, skipn_length. lia.
  - rewrite <- (firstn_skipn sz (skipn (n * sz) r)) at 1. f_equal. rewrite skipn_skipn_. f_equal. lia.
Qed.
Lemma split2 : forall n (r : list Z), (n + 2) * sz <= length r ->
  exists g h, length g = sz /\ length h = sz /\ skipn (n * sz) r = g ++ h ++ skipn (S (S n) * sz) r.
Proof.
  intros n r H. destruct (split1 n r) as (g & Hg & E); [lia|]. destruct (split1 (S n) r) as (h & Hh & E2); [lia|].
  exists g, h. split; [exact Hg|]. split; [exact Hh|]. rewrite E, E2. reflexivity.
Qed.

Lemma forcol_inv : forall (P : nat -> mem -> Prop) f n i m, P i m ->
  (forall k m, i <= k < i + n -> P k m -> exists m', f k m = Ret m' /\ P (S k) m') ->
  exists m', forcol n i f m = Ret m' /\ P (i + n) m'.
Proof.
  intros P f. induction n as [|n IH]; intros i m H0 HS.
  - exists m. split; [reflexivity|]. rewrite Nat.add_0_r. exact H0.
  - destruct (HS i m) as (m1 & E1 & P1); [lia|exact H0|].
    destruct (IH (S i) m1 P1) as (m2 & E2 & P2). { intros k mk Hk HP. apply HS; [lia|exact HP]. }
    exists m2. cbn [forcol]. rewrite E1. cbn [bind]. split; [exact E2|]. rewrite Nat.add_succ_r. exact P2.
Qed.

Lemma sample_nth : forall r n, Forall (sample p) r -> n < length r -> sample p (nth n r 0%Z).
Proof. intros r n F H. rewrite Forall_forall in F. apply F, nth_In, H. Qed.

Lemma div2_lt : forall i, i < W / 2 -> 2 * i + 1 < W.
Proof. intros i H. pose proof (Nat.div_mod W 2 ltac:(lia)). lia. Qed.
Lemma d2 : forall i, 2 * i / 2 = i /\ (2 * i + 1) / 2 = i.
Proof. intros i. split; [rewrite Nat.mul_comm; apply Nat.div_mul; lia|]. replace (2 * i + 1) with (1 + i * 2) by lia. rewrite Nat.div_add by lia. reflexivity. Qed.

(* two pixels of one line *)
Lemma pair_px : forall ch Y Cb Cr i id m F g h R, 
  (forall y id x m F g R, sample p y -> m id = F ++ g ++ R -> length F = x * sz -> length g = sz ->
    exists m', putpx c id x y ch m = Ret m' /\ m' id = F ++ pack1 cs (opaque p (PX y (nth i Cb 0%Z) (nth i Cr 0%Z))) ++ R /\
      forall j, j <> id -> m' j = m j) ->
  wide p W Y -> i < W / 2 -> m id = F ++ g ++ h ++ R -> length F = 2 * i * sz -> length g = sz -> length h = sz ->
  exists m1 m2, putpx c id (2 * i) (nth (2 * i) Y 0%Z) ch m = Ret m1 /\ putpx c id (2 * i + 1) (nth (2 * i + 1) Y 0%Z) ch m1 = Ret m2 /\
    m2 id = F ++ pack1 cs (opaque p (pix Y Cb Cr (2 * i))) ++ pack1 cs (opaque p (pix Y Cb Cr (2 * i + 1))) ++ R /\
    forall j, j <> id -> m2 j = m j.
Proof.
  intros ch Y Cb Cr i id m F g h R K [FY LY] Hi Em HF Hg Hh. pose proof (div2_lt i Hi) as Hw.
  destruct (d2 i) as (D1 & D2).
  destruct (K (nth (2 * i) Y 0%Z) id (2 * i) m F g (h ++ R)) as (m1 & E1 & R1 & G1);
    [apply sample_nth; [exact FY|lia]|exact Em|exact HF|exact Hg|].
  destruct (K (nth (2 * i + 1) Y 0%Z) id (2 * i + 1) m1 (F ++ pack1 cs (opaque p (pix Y Cb Cr (2 * i)))) h R) as (m2 & E2 & R2 & G2).
  { apply sample_nth; [exact FY|lia]. }
  { rewrite R1. unfold pix. rewrite D1. rewrite <- app_assoc. reflexivity. }
  { rewrite app_length, pack1_len. lia. } { exact Hh. }
  exists m1, m2. split; [exact E1|]. split; [exact E2|]. split.
  - rewrite R2. unfold pix. rewrite D1, D2. rewrite <- app_assoc. reflexivity.
  - intros j Hj. rewrite G2 by exact Hj. apply G1, Hj.
Qed.

Lemma rowst_split : forall Y Cb Cr n old, (n + 2) * sz <= length old ->
  exists g h, length g = sz /\ length h = sz /\ rowst Y Cb Cr n old = done Y Cb Cr n ++ g ++ h ++ skipn (S (S n) * sz) old.
Proof. intros Y Cb Cr n old H. destruct (split2 n old H) as (g & h & Hg & Hh & E). exists g, h. unfold rowst. rewrite E. auto. Qed.
Lemma rowst_SS : forall Y Cb Cr n old,
  done Y Cb Cr n ++ pack1 cs (opaque p (pix Y Cb Cr n)) ++ pack1 cs (opaque p (pix Y Cb Cr (n + 1))) ++ skipn (S (S n) * sz) old
  = rowst Y Cb Cr (S (S n)) old.
Proof. intros. unfold rowst. rewrite !done_S, <- !app_assoc. replace (n + 1) with (S n) by lia. reflexivity. Qed.

Definition cwide (r : list Z) : Prop := wide p ((W + 1) / 2) r.
Lemma cw : forall r i, cwide r -> 2 * i < W -> aget r (Z.of_nat i) = Ret (nth i r 0%Z) /\ sample p (nth i r 0%Z).
Proof.
  intros r i [F L] H. assert (B : i < length r). { pose proof (Nat.div_mod (W + 1) 2 ltac:(lia)). pose proof (Nat.mod_upper_bound (W + 1) 2 ltac:(lia)). lia. }
  split; [rewrite (aget_nth _ _ 0%Z) by lia; rewrite Nat2Z.id; reflexivity|apply sample_nth; assumption].
Qed.
Lemma yw : forall r i, wide p W r -> i < W -> aget r (Z.of_nat i) = Ret (nth i r 0%Z) /\ sample p (nth i r 0%Z).
Proof. intros r i [F L] H. split; [rewrite (aget_nth _ _ 0%Z) by lia; rewrite Nat2Z.id; reflexivity|apply sample_nth; [assumption|lia]]. Qed.

Lemma rowst_0 : forall Y Cb Cr old, rowst Y Cb Cr 0 old = old.
Proof. reflexivity. Qed.

Lemma odd_last : Nat.odd W = true -> W = S (2 * (W / 2)) /\ 2 * (W / 2) / 2 = W / 2.
Proof.
  intros H. split; [|apply d2]. pose proof (Nat.div_mod W 2 ltac:(lia)).
  rewrite Nat.odd_spec in H. destruct H as (k & Ek). rewrite Ek in *. rewrite (proj2 (d2 k)) in *. lia.
Qed.
Lemma even_last : Nat.odd W = false -> W = 2 * (W / 2).
Proof.
  intros H. rewrite <- Nat.negb_even in H. apply Bool.negb_false_iff in H. rewrite Nat.even_spec in H. destruct H as (k & Ek).
  rewrite Ek. rewrite (proj1 (d2 k)). reflexivity.
Qed.

(* the last pixel of an odd width *)
Lemma rowst_split1 : forall Y Cb Cr n old, (n + 1) * sz <= length old ->
  exists g, length g = sz /\ rowst Y Cb Cr n old = done Y Cb Cr n ++ g ++ skipn (S n * sz) old.
Proof. intros Y Cb Cr n old H. destruct (split1 n old H) as (g & Hg & E). exists g. unfold rowst. rewrite E. auto. Qed.
Lemma rowst_S : forall Y Cb Cr n old,
  done Y Cb Cr n ++ pack1 cs (opaque p (pix Y Cb Cr n)) ++ skipn (S n * sz) old = rowst Y Cb Cr (S n) old.
Proof. intros. unfold rowst. rewrite done_S, <- app_assoc. reflexivity. Qed.

Lemma h2v1_ok : forall Y Cb Cr id m, wide p W Y -> cwide Cb -> cwide Cr -> roomy cs c (m id) ->
  exists m', h2v1_merged c Y Cb Cr id m = Ret m' /\ m' id = rowst Y Cb Cr W (m id) /\ forall j, j <> id -> m' j = m j.
Proof.
  intros Y Cb Cr id m WY WB WR RO. unfold roomy in RO. unfold h2v1_merged. set (f := fun (i : nat) (m : mem) => _).
  destruct (forcol_inv (fun k mm => mm id = rowst Y Cb Cr (2 * k) (m id) /\ forall j, j <> id -> mm j = m j) f (W / 2) 0 m) as (m1 & E1 & R1 & G1).
  { split; [reflexivity|]. intros; reflexivity. }
  { intros k mm Hk [Rk Gk]. unfold f. pose proof (div2_lt k ltac:(lia)) as Hw.
    destruct (cw Cb k WB ltac:(lia)) as (A1 & S1). destruct (cw Cr k WR ltac:(lia)) as (A2 & S2). rewrite A1, A2. cbn [bind].
    destruct (chroma_px _ _ S1 S2) as (ch & Ec & K). rewrite Ec. cbn [bind].
    destruct (rowst_split Y Cb Cr (2 * k) (m id)) as (g & h & Hg & Hh & Er); [nia|].
    destruct (pair_px ch Y Cb Cr k id mm (done Y Cb Cr (2 * k)) g h (skipn (S (S (2 * k)) * sz) (m id)) K WY) as (m1 & m2 & P1 & P2 & R2 & G2);
      [lia|rewrite Rk; exact Er|apply done_len|exact Hg|exact Hh|].
    destruct (yw Y (2 * k) WY ltac:(lia)) as (B1 & _). destruct (yw Y (2 * k + 1) WY ltac:(lia)) as (B2 & _).
    rewrite B1. cbn [bind]. rewrite P1. cbn [bind]. rewrite B2. cbn [bind]. exists m2. split; [exact P2|]. split.
    - rewrite R2, rowst_SS. f_equal. lia.
    - intros j Hj. rewrite G2 by exact Hj. apply Gk, Hj. }
  rewrite E1. cbn [bind]. cbn [Nat.add] in R1. destruct (Nat.odd W) eqn:Eo.
  - destruct (odd_last Eo) as (Ew & D). assert (Hw : 2 * (W / 2) < W) by lia.
    destruct (cw Cb (W / 2) WB Hw) as (A1 & S1). destruct (cw Cr (W / 2) WR Hw) as (A2 & S2). rewrite A1, A2. cbn [bind].
    destruct (chroma_px _ _ S1 S2) as (ch & Ec & K). rewrite Ec. cbn [bind].
    destruct (yw Y (2 * (W / 2)) WY Hw) as (B1 & SY). rewrite B1. cbn [bind].
    destruct (rowst_split1 Y Cb Cr (2 * (W / 2)) (m id)) as (g & Hg & Er); [replace (2 * (W / 2) + 1) with W by lia; exact RO|].
    destruct (K (nth (2 * (W / 2)) Y 0%Z) id (2 * (W / 2)) m1 (done Y Cb Cr (2 * (W / 2))) g (skipn (S (2 * (W / 2)) * sz) (m id)) SY) as (m2 & E2 & R2 & G2);
      [rewrite R1; exact Er|apply done_len|exact Hg|].
    exists m2. split; [exact E2|]. split.
    + rewrite R2. rewrite Ew at 6. rewrite <- rowst_S. unfold pix. rewrite D. reflexivity.
    + intros j Hj. rewrite G2 by exact Hj. apply G1, Hj.
  - exists m1. split; [reflexivity|]. split; [|exact G1]. rewrite R1. rewrite (even_last Eo) at 2. reflexivity.
Qed.

Lemma h2v2_ok : forall Y0 Y1 Cb Cr i0 i1 m, wide p W Y0 -> wide p W Y1 -> cwide Cb -> cwide Cr -> roomy cs c (m i0) -> roomy cs c (m i1) ->
  exists m', h2v2_merged c Y0 Y1 Cb Cr i0 i1 m = Ret m' /\ m' i1 = rowst Y1 Cb Cr W (m i1) /\
    (i0 <> i1 -> m' i0 = rowst Y0 Cb Cr W (m i0)) /\ forall j, j <> i0 -> j <> i1 -> m' j = m j.
Proof.
  intros Y0 Y1 Cb Cr i0 i1 m WY0 WY1 WB WR RO0 RO1. unfold roomy in RO0, RO1. unfold h2v2_merged. set (f := fun (i : nat) (m : mem) => _).
  destruct (forcol_inv (fun k mm => mm i1 = rowst Y1 Cb Cr (2 * k) (m i1) /\ (i0 <> i1 -> mm i0 = rowst Y0 Cb Cr (2 * k) (m i0)) /\
     forall j, j <> i0 -> j <> i1 -> mm j = m j) f (W / 2) 0 m) as (m1 & E1 & R1 & Q1 & G1).
  { split; [reflexivity|]. split; intros; reflexivity. }
  { intros k mm Hk (Rk & Qk & Gk). unfold f. pose proof (div2_lt k ltac:(lia)) as Hw.
    destruct (cw Cb k WB ltac:(lia)) as (A1 & S1). destruct (cw Cr k WR ltac:(lia)) as (A2 & S2). rewrite A1, A2. cbn [bind].
    destruct (chroma_px _ _ S1 S2) as (ch & Ec & K). rewrite Ec. cbn [bind].
    destruct (rowst_split Y1 Cb Cr (2 * k) (m i1)) as (g & h & Hg & Hh & Er); [nia|].
    destruct (yw Y0 (2 * k) WY0 ltac:(lia)) as (B1 & _). destruct (yw Y0 (2 * k + 1) WY0 ltac:(lia)) as (B2 & _).
    destruct (yw Y1 (2 * k) WY1 ltac:(lia)) as (B3 & _). destruct (yw Y1 (2 * k + 1) WY1 ltac:(lia)) as (B4 & _).
    destruct (Nat.eq_dec i0 i1) as [Ei|Ni].
    - subst i0.
      destruct (pair_px ch Y0 Cb Cr k i1 mm (done Y1 Cb Cr (2 * k)) g h (skipn (S (S (2 * k)) * sz) (m i1)) K WY0) as (m1 & m2 & P1 & P2 & R2 & G2);
        [lia|rewrite Rk; exact Er|apply done_len|exact Hg|exact Hh|].
      destruct (pair_px ch Y1 Cb Cr k i1 m2 (done Y1 Cb Cr (2 * k)) (pack1 cs (opaque p (pix Y0 Cb Cr (2 * k)))) (pack1 cs (opaque p (pix Y0 Cb Cr (2 * k + 1))))
          (skipn (S (S (2 * k)) * sz) (m i1)) K WY1) as (m3 & m4 & P3 & P4 & R4 & G4);
        [lia|exact R2|apply done_len|apply pack1_len|apply pack1_len|].
      rewrite B1. cbn [bind]. rewrite P1. cbn [bind]. rewrite B2. cbn [bind]. rewrite P2. cbn [bind].
      rewrite B3. cbn [bind]. rewrite P3. cbn [bind]. rewrite B4. cbn [bind]. exists m4. split; [exact P4|]. split; [|split].
      + rewrite R4, rowst_SS. f_equal. lia.
      + intros H; contradiction.
      + intros j H1 H2. rewrite G4, G2 by exact H2. apply Gk; assumption.
    - destruct (rowst_split Y0 Cb Cr (2 * k) (m i0)) as (g0 & h0 & Hg0 & Hh0 & Er0); [nia|].
      destruct (pair_px ch Y0 Cb Cr k i0 mm (done Y0 Cb Cr (2 * k)) g0 h0 (skipn (S (S (2 * k)) * sz) (m i0)) K WY0) as (m1 & m2 & P1 & P2 & R2 & G2);
        [lia|rewrite (Qk Ni); exact Er0|apply done_len|exact Hg0|exact Hh0|].
      destruct (pair_px ch Y1 Cb Cr k i1 m2 (done Y1 Cb Cr (2 * k)) g h (skipn (S (S (2 * k)) * sz) (m i1)) K WY1) as (m3 & m4 & P3 & P4 & R4 & G4);
        [lia|rewrite G2 by congruence; rewrite Rk; exact Er|apply done_len|exact Hg|exact Hh|].
      rewrite B1. cbn [bind]. rewrite P1. cbn [bind]. rewrite B2. cbn [bind]. rewrite P2. cbn [bind].
      rewrite B3. cbn [bind]. rewrite P3. cbn [bind]. rewrite B4. cbn [bind]. exists m4. split; [exact P4|]. split; [|split].
      + rewrite R4, rowst_SS. f_equal. lia.
      + intros _. rewrite G4 by exact Ni. rewrite R2, rowst_SS. f_equal. lia.
      + intros j H1 H2. rewrite G4, G2 by assumption. apply Gk; assumption. }
  rewrite E1. cbn [bind]. cbn [Nat.add] in R1, Q1. destruct (Nat.odd W) eqn:Eo.
  - destruct (odd_last Eo) as (Ew & D). assert (Hw : 2 * (W / 2) < W) by lia.
    destruct (cw Cb (W / 2) WB Hw) as (A1 & S1). destruct (cw Cr (W / 2) WR Hw) as (A2 & S2). rewrite A1, A2. cbn [bind].
    destruct (chroma_px _ _ S1 S2) as (ch & Ec & K). rewrite Ec. cbn [bind].
    destruct (yw Y0 (2 * (W / 2)) WY0 Hw) as (B1 & SY0). rewrite B1. cbn [bind].
    destruct (yw Y1 (2 * (W / 2)) WY1 Hw) as (B2 & SY1).
    destruct (rowst_split1 Y1 Cb Cr (2 * (W / 2)) (m i1)) as (g & Hg & Er); [replace (2 * (W / 2) + 1) with W by lia; exact RO1|].
    assert (FIN : forall Y old, done Y Cb Cr (2 * (W / 2)) ++ pack1 cs (opaque p (PX (nth (2 * (W / 2)) Y 0%Z) (nth (W / 2) Cb 0%Z) (nth (W / 2) Cr 0%Z))) ++
        skipn (S (2 * (W / 2)) * sz) old = rowst Y Cb Cr W old).
    { intros Y old. rewrite Ew at 6. rewrite <- rowst_S. unfold pix. rewrite D. reflexivity. }
    destruct (Nat.eq_dec i0 i1) as [Ei|Ni].
    + subst i0.
      destruct (K (nth (2 * (W / 2)) Y0 0%Z) i1 (2 * (W / 2)) m1 (done Y1 Cb Cr (2 * (W / 2))) g (skipn (S (2 * (W / 2)) * sz) (m i1)) SY0) as (m2 & E2 & R2 & G2);
        [rewrite R1; exact Er|apply done_len|exact Hg|].
      rewrite E2. cbn [bind]. rewrite B2. cbn [bind].
      destruct (K (nth (2 * (W / 2)) Y1 0%Z) i1 (2 * (W / 2)) m2 (done Y1 Cb Cr (2 * (W / 2))) _ (skipn (S (2 * (W / 2)) * sz) (m i1)) SY1 R2) as (m3 & E3 & R3 & G3);
        [apply done_len|apply pack1_len|].
      exists m3. split; [exact E3|]. split; [rewrite R3; apply FIN|]. split; [intros H; contradiction|].
      intros j H1 H2. rewrite G3, G2 by exact H2. apply G1; assumption.
    + destruct (rowst_split1 Y0 Cb Cr (2 * (W / 2)) (m i0)) as (g0 & Hg0 & Er0); [replace (2 * (W / 2) + 1) with W by lia; exact RO0|].
      destruct (K (nth (2 * (W / 2)) Y0 0%Z) i0 (2 * (W / 2)) m1 (done Y0 Cb Cr (2 * (W / 2))) g0 (skipn (S (2 * (W / 2)) * sz) (m i0)) SY0) as (m2 & E2 & R2 & G2);
        [rewrite (Q1 Ni); exact Er0|apply done_len|exact Hg0|].
      rewrite E2. cbn [bind]. rewrite B2. cbn [bind].
      destruct (K (nth (2 * (W / 2)) Y1 0%Z) i1 (2 * (W / 2)) m2 (done Y1 Cb Cr (2 * (W / 2))) g (skipn (S (2 * (W / 2)) * sz) (m i1)) SY1) as (m3 & E3 & R3 & G3);
        [rewrite G2 by congruence; rewrite R1; exact Er|apply done_len|exact Hg|].
      exists m3. split; [exact E3|]. split; [rewrite R3; apply FIN|].
      split; [intros _; rewrite G3 by exact Ni; rewrite R2; apply FIN|].
      intros j H1 H2. rewrite G3, G2 by assumption. apply G1; assumption.
  - exists m1. split; [reflexivity|]. pose proof (even_last Eo) as Ev.
    split; [rewrite R1; rewrite Ev at 2; reflexivity|]. split; [intros Ni; rewrite (Q1 Ni); rewrite Ev at 2; reflexivity|exact G1].
Qed.

Lemma rowst_len : forall Y Cb Cr old, roomy cs c old -> length (rowst Y Cb Cr W old) = length old.
Proof. intros Y Cb Cr old RO. unfold roomy in RO. unfold rowst. rewrite app_length, done_len, skipn_length. lia. Qed.

(* the same line through the separate path *)
Lemma separate_ok : forall y old, wide p W (e_Y c y) -> cwide (e_Cb c (y / e_v c)) -> cwide (e_Cr c (y / e_v c)) -> roomy cs c old ->
  separate c y old = Ret (rowst (e_Y c y) (e_Cb c (y / e_v c)) (e_Cr c (y / e_v c)) W old).
Proof.
  intros y old WY WB WR RO. unfold separate, ycc_rgb_row.
  assert (Ef : e_f c = fmt_of cs) by (destruct Hc as (_ & _ & _ & E & _); exact E). rewrite Ef.
  rewrite (out_row_ok p cs _ (map (pix (e_Y c y) (e_Cb c (y / e_v c)) (e_Cr c (y / e_v c))) (seq 0 W)) old).
  - rewrite map_length, seq_length. unfold rowst, done. rewrite map_map. reflexivity.
  - rewrite map_map. apply map_ext_in. intros x Hx. apply in_seq in Hx. destruct (yw _ x WY ltac:(lia)) as (A & SY). rewrite A. cbn [bind].
    assert (RP : forall r, aget (replicated W r) (Z.of_nat x) = Ret (nth (x / 2) r 0%Z)).
    { intros r. rewrite (aget_nth _ _ 0%Z) by (unfold replicated; rewrite map_length, seq_length; lia). rewrite Nat2Z.id.
      unfold replicated. f_equal. rewrite (nth_indep _ 0%Z (nth (0 / 2) r 0%Z)) by (rewrite map_length, seq_length; lia).
      rewrite (map_nth (fun x => nth (x / 2) r 0%Z)), seq_nth by lia. reflexivity. }
    rewrite !RP. cbn [bind]. pose proof (Nat.div_mod x 2 ltac:(lia)) as Dx.
    destruct (cw _ (x / 2) WB ltac:(lia)) as (_ & SB). destruct (cw _ (x / 2) WR ltac:(lia)) as (_ & SR).
    rewrite PX_ok by assumption. reflexivity.
  - rewrite map_length, seq_length. exact RO.
Qed.
End P.
