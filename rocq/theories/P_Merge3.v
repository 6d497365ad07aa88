(* P_Merge3.v -- sessions of reads and skips with merged upsampling *)
From Verif Require Import Base M_RangeLimit T_RangeLimit M_Color T_Color M_Merge S_Merge P_Merge P_Merge2.
Open Scope nat_scope.

Section P.
Variables (cs : colorspace) (c : mcfg).
Hypothesis Hc : mcfg_ok cs c.
Notation sz := (length (layout cs)).
Notation W := (e_W c).
Notation v := (e_v c).
Notation M := (e_M c).
Notation L := (e_M c * e_v c).
Notation POS := (POS cs c).

Lemma mread_ok : forall j e ids s, g_y s < e_O c -> POS j e s (g_y s) -> roomy cs c (g_mem s SPARE) ->
  1 <= length ids -> ids_ok cs c ids (g_mem s) -> (e = true -> length ids <= e_O c - g_y s) ->
  exists s' num, mread c ids s = Ret (s', num) /\ 1 <= num <= length ids /\ num <= e_O c - g_y s /\ g_y s' = g_y s + num /\
    POS false e s' (g_y s') /\ eff cs c ids (g_y s) num (g_mem s) (g_mem s').
Proof.
  intros j e ids s Hy HP RO Hl Hi He. unfold mread. destruct (Nat.leb_spec (e_O c) (g_y s)) as [K|_]; [lia|].
  unfold process. pose proof HP as (Hr & Hw & Hf & Hn & H2). pose proof (OT cs c Hc) as HT. pose proof (Lpos cs c Hc) as HL.
  set (s1 := mkG true (g_rgc s) (g_y s / L + 1) (g_sp s) (g_togo s) (g_y s) (g_mem s)).
  assert (E1 : (if g_full s then Ret s else if g_row s <? e_T c then Ret (mkG true (g_rgc s) (S (g_row s)) (g_sp s) (g_togo s) (g_y s) (g_mem s)) else Undef) = Ret s1).
  { unfold s1. destruct (g_full s) eqn:Ef.
    - rewrite <- Hw, <- Ef. destruct s; reflexivity.
    - rewrite Nat.add_0_r in Hw. assert (g_y s / L < e_T c) by (apply Nat.div_lt_upper_bound; [lia|rewrite (Nat.mul_comm L); lia]).
      destruct (Nat.ltb_spec (g_row s) (e_T c)) as [_|K]; [|lia]. rewrite Hw, Nat.add_1_r. reflexivity. }
  rewrite E1. cbn [bind].
  destruct (ups_ok cs c Hc e ids s1 (g_y s) Hr H2 eq_refl eq_refl Hy Hl Hi RO He) as (s' & num & E2 & N1 & N2 & F & Rw & Yy & G & V2 & EF).
  rewrite E2. cbn [bind]. destruct (next_group cs c Hc (g_y s)) as (NG1 & NG2).
  pose proof (Nat.mod_upper_bound (g_y s) L ltac:(lia)) as B. pose proof (v12 cs c Hc) as Hv. pose proof (Mpos cs c Hc) as HM.
  assert (B2 : g_y s mod L / v < M) by (apply Nat.div_lt_upper_bound; [lia|replace (v * M) with L by apply Nat.mul_comm; exact B]).
  change (g_y s1) with (g_y s) in Yy.
  destruct (Nat.leb_spec M (g_rgc s')) as [Q|Q]; cbn [bind g_full g_rgc g_row g_sp g_togo g_y g_mem];
    (eexists _, num; split; [reflexivity|]; split; [exact N1|]; split; [exact N2|]; cbn [g_full g_rgc g_row g_sp g_togo g_y g_mem]; rewrite Yy;
     split; [reflexivity|]; split; [|exact EF]); unfold P_Merge2.POS; cbn [g_full g_rgc g_row g_sp g_togo g_y g_mem].
  - destruct G as [(G1 & G2 & G3 & G4)|(G1 & G2)]; [lia|]. rewrite G2 in *. destruct (NG2 ltac:(lia)) as (A1 & A2). rewrite A1, A2, Rw.
    split; [rewrite Nat.div_small by lia; reflexivity|]. split; [lia|]. split; [reflexivity|]. split; [reflexivity|]. exact V2.
  - destruct G as [(G1 & G2 & G3 & G4)|(G1 & G2)].
    + subst num. destruct (Leven cs c Hc G2 (g_y s) G3) as (A1 & A2 & A3). rewrite A1, A2, Rw, G1, F, A3.
      split; [reflexivity|]. split; [reflexivity|]. split; [intros K; lia|]. split; [intros K; discriminate K|]. exact V2.
    + rewrite G2 in *. destruct (NG1 ltac:(lia)) as (A1 & A2). rewrite A1, A2, Rw, G1, F.
      split; [rewrite Nat.div_mul by lia; reflexivity|]. split; [reflexivity|]. split; [intros K; nia|]. split; [intros K; discriminate K|]. exact V2.
Qed.

Lemma mdiscard_ok : forall e n s, v = 2 -> g_y s + n <= e_O c -> POS true e s (g_y s) -> roomy cs c (g_mem s SPARE) ->
  exists s', mdiscard c n s = Ret s' /\ g_y s' = g_y s + n /\ POS true e s' (g_y s') /\ roomy cs c (g_mem s' SPARE) /\
    forall d, d <> SPARE -> g_mem s' d = g_mem s d.
Proof.
  intros e n. induction n as [|n IH]; intros s Hv Hn HP RO.
  - exists s. cbn [mdiscard]. split; [reflexivity|]. split; [lia|]. split; [exact HP|]. split; [exact RO|]. reflexivity.
  - destruct (mread_ok true e [SPARE] s ltac:(lia) HP RO) as (s1 & num & E & N1 & N2 & Y1 & P1 & (RO1 & _ & FR));
      [cbn; lia|right; reflexivity|cbn [length]; lia|].
    cbn [length] in N1. assert (num = 1) by lia. subst num.
    assert (P1' : POS true e s1 (g_y s1)). { destruct P1 as (A & B & C & D & E5). split; [exact A|]. split; [exact B|]. split; [exact C|]. split; [intros K _; apply D; [exact K|left; exact Hv]|exact E5]. }
    destruct (IH s1 Hv ltac:(lia) P1' RO1) as (s2 & E2 & Y2 & P2 & RO2 & FR2).
    exists s2. cbn [mdiscard]. rewrite E. cbn [bind]. split; [exact E2|]. split; [lia|]. split; [exact P2|]. split; [exact RO2|].
    intros d Hd. rewrite FR2 by exact Hd. apply FR; [exact Hd|]. intros [K|[]]. congruence.
Qed.

Lemma POS_weak : forall j e s y, POS j e s y -> POS true true s y.
Proof.
  intros j e s y (A & B & C & D & E). split; [exact A|]. split; [exact B|]. split; [exact C|]. split.
  - intros K [Hv|Hf]; [apply D; [exact K|left; exact Hv]|discriminate Hf].
  - intros Hv. destruct (E Hv) as (E1 & E2 & E3 & _). split; [exact E1|]. split; [exact E2|]. split; [exact E3|intros K; discriminate K].
Qed.

(* skipping n rows inside one iMCU row *)
Lemma mincrement_ok : forall s n, g_y s mod L + n < L -> g_y s + n <= e_O c -> POS true true s (g_y s) -> roomy cs c (g_mem s SPARE) ->
  exists s', mincrement c n s = Ret s' /\ g_y s' = g_y s + n /\ POS true true s' (g_y s') /\ roomy cs c (g_mem s' SPARE) /\
    forall d, d <> SPARE -> g_mem s' d = g_mem s d.
Proof.
  intros s n Hm Hn HP RO. unfold mincrement. destruct (v12 cs c Hc) as [V|V]; rewrite V; cbn [Nat.eqb].
  - eexists. split; [reflexivity|]. cbn [g_full g_rgc g_row g_sp g_togo g_y g_mem]. split; [reflexivity|]. split; [|split; [exact RO|reflexivity]].
    destruct HP as (A & B & C & D & E). pose proof (Lpos cs c Hc) as HL. pose proof (Nat.div_mod (g_y s) L ltac:(lia)) as Dv.
    unfold P_Merge2.POS. cbn [g_full g_rgc g_row g_sp g_togo g_y g_mem].
    assert (Ey : g_y s + n = g_y s / L * L + (g_y s mod L + n)) by lia.
    destruct (moddiv cs c Hc (g_y s / L) _ Hm) as (A1 & A2). rewrite <- Ey in A1, A2. rewrite A1, A2. rewrite A, B. assert (D1 : forall x, x / v = x) by (intros; rewrite V; apply Nat.div_1_r). rewrite !D1.
    split; [reflexivity|]. split; [reflexivity|]. split; [intros K; apply C; lia|]. split; [intros _ [K|K]; [rewrite V in K; discriminate K|discriminate K]|intros K; rewrite V in K; discriminate K].
  - apply mdiscard_ok; [exact V|exact Hn|exact HP|exact RO].
Qed.

Lemma mskip_okay : forall j e s n, MI cs c j e s -> mskip_ok c j (g_y s) n ->
  exists s', mskip c n s = Ret (s', Nat.min n (e_O c - g_y s)) /\ g_y s' = g_y s + Nat.min n (e_O c - g_y s) /\
    MI cs c true true s' /\ forall d, d <> SPARE -> g_mem s' d = g_mem s d.
Proof.
  intros j e s n (Hy & RO & HP) Hok. unfold mskip.
  destruct (Nat.leb_spec (e_O c) (g_y s + n)) as [K|K].
  - rewrite Nat.min_r by lia. eexists. split; [reflexivity|]. cbn [g_full g_rgc g_row g_sp g_togo g_y g_mem]. split; [lia|]. split; [|reflexivity].
    split; [cbn [g_y]; lia|]. split; [exact RO|]. left; reflexivity.
  - rewrite Nat.min_l by lia. destruct HP as [HP|HP]; [lia|].
    destruct (Nat.eqb_spec n 0) as [->|Hn0].
    + exists s. split; [reflexivity|]. split; [lia|]. split; [|reflexivity]. split; [exact Hy|]. split; [exact RO|]. right. exact (POS_weak _ _ _ _ HP).
    + pose proof (Lpos cs c Hc) as HL. pose proof (Nat.mod_upper_bound (g_y s) L ltac:(lia)) as B. pose proof (Nat.div_mod (g_y s) L ltac:(lia)) as Dv.
      assert (Hleft : g_y s mod L = 0 /\ (L - g_y s mod L) mod L = 0 \/ g_y s mod L <> 0 /\ (L - g_y s mod L) mod L = L - g_y s mod L).
      { destruct (Nat.eq_dec (g_y s mod L) 0) as [Q|Q]; [left|right]; (split; [exact Q|]).
        - rewrite Q, Nat.sub_0_r. apply Nat.mod_same. lia.
        - apply Nat.mod_small. lia. }
      set (left := (L - g_y s mod L) mod L) in *. clearbody left.
      destruct (Nat.ltb_spec n left) as [Q|Q].
      * destruct (mincrement_ok s n ltac:(lia) ltac:(lia) (POS_weak _ _ _ _ HP) RO) as (s' & E & Y & P' & RO' & FR).
        rewrite E. cbn [bind]. exists s'. split; [reflexivity|]. split; [exact Y|]. split; [|exact FR]. split; [lia|]. split; [exact RO'|right; exact P'].
      * pose proof (Nat.div_mod (n - left) L ltac:(lia)) as D2. pose proof (Nat.mod_upper_bound (n - left) L ltac:(lia)) as B2.
        rewrite Nat.div_mul by lia.
        set (t := (n - left) / L) in *. set (r := (n - left) mod L) in *.
        replace (n - left - t * L) with r by lia.
        set (s1 := mkG _ _ _ _ _ _ _).
        pose proof HP as (A & Bw & C & D & E2). pose proof (v12 cs c Hc) as Hv.
        assert (Hcase : g_y s mod L = 0 \/ (g_full s = true /\ (v = 2 -> Nat.even (g_y s) = true))).
        { destruct Hleft as [[Z1 _]|[Z1 Z2]]; [left; exact Z1|right].
          assert (Hlv : (g_y s + n) / L <> g_y s / L).
          { intros Q2. assert (g_y s / L + 1 <= (g_y s + n) / L); [|lia]. apply Nat.div_le_lower_bound; [lia|]. nia. }
          destruct Hok as [O1|[O2|[O3|O4]]]; [lia|congruence|contradiction|].
          destruct Hv as [V|V].
          - rewrite V in O4. cbn [Nat.eqb] in O4. split; [|rewrite V; intros X; discriminate X].
            destruct (g_full s) eqn:Ef; [reflexivity|]. exfalso. apply Z1, D; [reflexivity|right; exact O4].
          - rewrite V in O4. cbn [Nat.eqb] in O4. split; [|intros _; exact O4].
            destruct (g_full s) eqn:Ef; [reflexivity|]. exfalso. apply Z1, D; [reflexivity|left; exact V]. }
        assert (Ey1 : exists a, g_y s1 = a * L + 0 /\ g_row s1 = a).
        { unfold s1. cbn [g_y g_row]. destruct Hleft as [[Z1 Z2]|[Z1 Z2]].
          - exists (g_y s / L + t). rewrite Bw, (C Z1). split; [lia|lia].
          - exists (g_y s / L + 1 + t). destruct Hcase as [Z3|[Z3 _]]; [contradiction|]. rewrite Bw, Z3. split; [nia|lia]. }
        destruct Ey1 as (a & Ey1 & Er1). destruct (moddiv cs c Hc a 0 ltac:(lia)) as (M1 & M2).
        assert (P1 : POS true true s1 (g_y s1)).
        { unfold P_Merge2.POS. rewrite Ey1, M1, M2, Er1. unfold s1 at 1 2 3 4. cbn [g_full g_rgc]. rewrite Nat.div_0_l by lia.
          split; [reflexivity|]. split; [lia|]. split; [reflexivity|]. split; [reflexivity|]. intros V. destruct (E2 V) as (F1 & F2 & F3 & _).
          assert (Ev : Nat.even (g_y s) = true).
          { destruct Hcase as [Z|[_ Z]]; [|exact (Z V)]. rewrite Dv, Z, Nat.add_0_r, V, Nat.mul_comm, Nat.mul_assoc, Nat.even_mul, Bool.orb_true_r. reflexivity. }
          assert (Od : Nat.odd (a * L + 0) = false) by (rewrite Nat.add_0_r, V, Nat.mul_assoc, Nat.odd_mul, Bool.andb_false_r; reflexivity).
          rewrite Od. unfold s1. cbn [g_sp g_togo g_mem]. rewrite F1, odd_even, Ev. split; [reflexivity|]. split; [intros X; discriminate X|].
          split; [|intros X; discriminate X]. assert (g_y s <= a * L + 0) by (rewrite <- Ey1; unfold s1; cbn [g_y]; lia). lia. }
        assert (Ys : g_y s1 + r = g_y s + n) by (unfold s1; cbn [g_y]; lia).
        destruct (mincrement_ok s1 r) as (s' & E & Y & P' & RO' & FR);
          [rewrite Ey1, M1; lia|lia|exact P1|exact RO|].
        rewrite E. cbn [bind]. exists s'. split; [reflexivity|]. split; [lia|]. split; [|exact FR]. split; [lia|]. split; [exact RO'|right; exact P'].
Qed.

Lemma mstart_inv : forall m, roomy cs c (m SPARE) -> MI cs c false false (mstart c m).
Proof.
  intros m RO. pose proof (Lpos cs c Hc) as HL. pose proof (v12 cs c Hc) as Hv.
  split; [cbn; lia|]. split; [exact RO|]. right. unfold P_Merge2.POS, mstart. cbn [g_full g_rgc g_row g_sp g_togo g_y g_mem].
  rewrite Nat.mod_0_l, Nat.div_0_l, Nat.div_0_l by lia.
  split; [reflexivity|]. split; [reflexivity|]. split; [reflexivity|]. split; [reflexivity|]. intros _.
  split; [reflexivity|]. split; [intros K; discriminate K|]. split; [lia|]. intros _. lia.
Qed.

Lemma msession_inv : forall j e s, msession cs c j e s -> MI cs c j e s.
Proof.
  intros j e s HS. induction HS as [m RO|j e s m HS IH Em|j e s ids s' k HS IH HC Hl He Hy E|j e s n s' k HS IH Hok E].
  - apply mstart_inv, RO.
  - destruct IH as (A & B & C). split; [exact A|]. split; [cbn [g_mem]; rewrite Em; exact B|]. destruct C as [C|C]; [left; exact C|right].
    unfold P_Merge2.POS in *. cbn [g_full g_rgc g_row g_sp g_togo g_y g_mem]. rewrite Em. exact C.
  - destruct IH as (A & B & C). destruct C as [C|C]; [lia|].
    destruct (mread_ok j e ids s Hy C B Hl (or_introl HC) He) as (s2 & num & E2 & N1 & N2 & Y & P' & (RO' & _)).
    rewrite E in E2. injection E2 as <- <-. split; [lia|]. split; [exact RO'|right; exact P'].
  - destruct (mskip_okay j e s n IH Hok) as (s2 & E2 & _ & MI' & _). rewrite E in E2. injection E2 as <- _. exact MI'.
Qed.
End P.
