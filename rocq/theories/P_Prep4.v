(* P_Prep4.v -- process_data_simple_main and jpeg_write_scanlines *)
From Verif Require Import Base M_Prep S_Prep P_Prep P_Prep2 P_Prep3.
Open Scope nat_scope.

Section P.
Variable c : pcfg.
Hypothesis Hc : pcfg_ok c.
Notation v := (p_v c).
Notation w := (p_w c).
Notation du := (p_du c).
Notation H := (p_H c).

Definition PI (s : pst) (n : nat) : Prop :=
  x_cur s <= total c /\ if p_ctx c then exists f, CInv c s n f else SInv c s n.

Lemma PI_bounds : forall s n, PI s n -> n <= H /\ x_rgc s <= du /\ x_cur s <= total c.
Proof.
  intros s n (A & B). destruct (p_ctx c).
  - destruct B as (f & N1 & _ & N3 & _). auto.
  - destruct B as (N1 & _ & N3 & _). auto.
Qed.

Lemma PI_low : forall s n, PI s n -> n < H -> x_cur s < total c.
Proof.
  intros s n (A & B) Hn. apply (total_iff c Hc). pose proof (Hv c Hc) as HV. pose proof (Hdu c Hc) as HD. pose proof (HH c Hc) as HHH.
  destruct (p_ctx c).
  - destruct B as (f & N1 & N2 & N3 & N4 & N5 & N6 & N7 & N8 & N9 & N10 & N11 & N12). rewrite (N4 Hn) in *.
    destruct (Nat.eq_dec (x_cur s) 0) as [K|K]; [rewrite K; lia|].
    assert (P1 : 1 <= x_cur s * du + x_rgc s) by nia. specialize (N10 P1). nia.
  - destruct B as (N1 & N2 & N3 & N4 & N5 & N6). destruct (N5 Hn) as (_ & E & _). nia.
Qed.

Lemma PI_full : forall s n, PI s n -> x_cur s < total c -> x_rgc s = du ->
  map (x_ob s) (seq 0 (du * w)) = imcu_rows c (x_cur s).
Proof.
  intros s n (A & B) Hcur Hr. unfold imcu_rows. apply map_ext_in. intros i Hi. apply in_seq in Hi.
  assert (OBd : OB c s (x_cur s) du).
  { destruct (p_ctx c).
    - destruct B as (f & N1 & N2 & N3 & N4 & N5 & N6 & N7 & N8 & N9 & N10 & N11 & N12). rewrite Hr in N12. exact N12.
    - destruct B as (N1 & N2 & N3 & N4 & N5 & N6). destruct (Nat.eq_dec n H) as [K|K].
      + exact (proj2 (proj2 (N6 K Hcur))).
      + destruct (N5 ltac:(lia)) as (_ & _ & _ & Q). rewrite Hr in Q. exact Q. }
  apply OBd. lia.
Qed.

Lemma PI_accept : forall s n log, PI s n -> x_cur s < total c -> x_rgc s = du ->
  PI (mkP (x_nbr s) (x_togo s) (x_trg s) (x_stop s) (x_cb s) (S (x_cur s)) 0 false (x_ob s) (x_y s) log) n.
Proof.
  intros s n log (A & B) Hcur Hr. split; [exact Hcur|].
  assert (EG : S (x_cur s) * du + 0 = x_cur s * du + x_rgc s) by (rewrite Hr; lia).
  destruct (p_ctx c).
  - destruct B as (f & N1 & N2 & N3 & N4 & N5 & N6 & N7 & N8 & N9 & N10 & N11 & N12). exists f. unfold CInv. cbn [x_togo x_rgc x_trg x_cur x_stop x_nbr x_cb].
    rewrite EG. split; [exact N1|]. split; [exact N2|]. split; [lia|]. split; [exact N4|]. split; [exact N5|]. split; [exact N6|]. split; [exact N7|].
    split; [exact N8|]. split; [exact N9|]. split; [exact N10|]. split; [exact N11|]. intros i Hi. lia.
  - destruct B as (N1 & N2 & N3 & N4 & N5 & N6). unfold SInv. cbn [x_togo x_rgc x_trg x_cur x_stop x_nbr x_cb].
    split; [exact N1|]. split; [exact N2|]. split; [lia|]. split; [exact Hcur|]. rewrite EG. split.
    + intros K. destruct (N5 K) as (Q1 & Q2 & Q3 & Q4). split; [exact Q1|]. split; [exact Q2|]. split; [exact Q3|]. intros i Hi. lia.
    + intros K L. destruct (N6 K Hcur) as (_ & Q & _). lia.
Qed.

Lemma PI_ext : forall s n nb su y log, PI s n -> nb = x_nbr s ->
  PI (mkP nb (x_togo s) (x_trg s) (x_stop s) (x_cb s) (x_cur s) (x_rgc s) su (x_ob s) y log) n.
Proof.
  intros s n nb su y log (A & B) ->. split; [exact A|]. destruct (p_ctx c).
  - destruct B as (f & B). exists f. exact B.
  - exact B.
Qed.

Lemma PI_start : forall cb ob, PI (pstart c cb ob) 0.
Proof.
  intros cb ob. pose proof (HH c Hc) as HHH. pose proof (Hv c Hc) as HV. split; [cbn; lia|]. destruct (p_ctx c) eqn:Hx.
  - exists 0. unfold CInv, pstart. cbn [x_togo x_rgc x_trg x_cur x_stop x_nbr x_cb]. cbn [Nat.mul Nat.add].
    change (0 mod 3) with 0. change (1 mod 3) with 1. change (1 / 3) with 0.
    split; [lia|]. split; [lia|]. split; [lia|]. split; [lia|]. split; [lia|]. split; [lia|]. split; [lia|]. split; [lia|]. split; [lia|].
    split; [lia|]. split; [lia|]. intros i Hi. cbn in Hi. lia.
  - unfold SInv, pstart. cbn [x_togo x_rgc x_trg x_cur x_stop x_nbr x_cb]. split; [lia|]. split; [lia|]. split; [lia|]. split; [lia|].
    split; [|lia]. intros _. split; [lia|]. split; [lia|]. split; [intros i Hi; lia|]. intros i Hi. cbn in Hi. lia.
Qed.

Lemma pre_ok : forall y0 avail i s, PI s (y0 + i) -> y0 + avail <= H -> x_cur s < total c -> x_rgc s < du -> (1 <= i \/ y0 + i < H) ->
  exists s' i', pre_process c y0 avail i s = Ret (s', i') /\ PI s' (y0 + i') /\ frame s s' /\ i <= i' /\ (i' <= avail \/ i' = i) /\
    (x_rgc s' = du \/ avail <= i' /\ y0 + i' < H) /\ (x_rgc s' = du -> 1 <= i').
Proof.
  intros y0 avail i s P Hay Hcur Hr Hi. pose proof P as (A & B). unfold pre_process, PI in *. destruct (p_ctx c) eqn:Hx.
  - destruct B as (f & B). destruct (pre_context_ok c Hc Hx ((avail - i) + (du - x_rgc s) + 1) y0 avail i s f B Hay) as (s' & i' & f' & E & Inv & Fr & Q1 & Q2 & Q3 & Q4); [lia|].
    exists s', i'. split; [exact E|]. pose proof Fr as (F1 & F2 & F3 & F4). split; [split; [lia|exists f'; exact Inv]|].
    split; [exact Fr|]. split; [exact Q1|]. split; [exact Q2|]. split; [exact Q3|]. intros K. destruct Hi as [Hi|Hi]; [lia|]. specialize (Q4 Hr K Hi). lia.
  - destruct (pre_simple_ok c Hc Hx (avail - i + 1) y0 avail i s B Hay) as (s' & i' & E & Inv & Fr & Q1 & Q2 & Q3 & Q4); [lia|exact Hcur|].
    exists s', i'. split; [exact E|]. pose proof Fr as (F1 & F2 & F3 & F4). split; [split; [lia|exact Inv]|].
    split; [exact Fr|]. split; [exact Q1|]. split; [exact Q2|]. split; [exact Q3|]. intros K. specialize (Q4 Hr K). lia.
Qed.

Definition final (s' : pst) (y0 avail i k : nat) : Prop :=
  if x_susp s' then PI s' (y0 + k + 1) /\ x_rgc s' = du /\ x_cur s' < total c /\ i <= k + 1 /\ (k + 1 <= avail \/ k + 1 = i)
  else PI s' (y0 + k) /\ i <= k /\ (k <= avail \/ k = i) /\ ((y0 + k < H /\ x_rgc s' < du /\ avail <= k) \/ (x_cur s' = total c /\ y0 + k = H)).

Lemma main_ok : forall fuel y0 avail i orc s, PI s (y0 + i) -> y0 + avail <= H -> x_susp s = false -> x_rgc s < du ->
  (1 <= i \/ y0 + i < H) -> total c - x_cur s < fuel -> calls_ok c (x_cur s) (x_log s) ->
  exists s' k orc', process_main c fuel y0 avail i orc s = Ret (s', k, orc') /\ x_y s' = x_y s /\ calls_ok c (x_cur s') (x_log s') /\
    final s' y0 avail i k /\ (orc = [] -> x_susp s' = false).
Proof.
  induction fuel as [|fuel IH]; intros y0 avail i orc s P Hay Hs Hr Hi Hf Hl; [lia|].
  pose proof (Hdu c Hc) as HD. cbn [process_main]. destruct (Nat.ltb_spec (x_cur s) (total c)) as [Hcur|Hcur].
  2:{ exists s, i, orc. split; [reflexivity|]. split; [reflexivity|]. split; [exact Hl|]. split; [|intros _; exact Hs].
      unfold final. rewrite Hs. split; [exact P|]. split; [lia|]. split; [right; reflexivity|]. right.
      pose proof (PI_bounds _ _ P) as (B1 & B2 & B3). split; [lia|]. destruct (Nat.eq_dec (y0 + i) H) as [K|K]; [exact K|].
      pose proof (PI_low _ _ P ltac:(lia)). lia. }
  destruct (Nat.ltb_spec (x_rgc s) du) as [_|K]; [|lia].
  destruct (pre_ok y0 avail i s P Hay Hcur Hr Hi) as (s1 & i1 & E & P1 & (F1 & F2 & F3 & F4) & Q1 & Q2 & Q3 & Q4).
  rewrite E. cbn [bind]. destruct (Nat.eqb_spec (x_rgc s1) du) as [Er|Er]; cbn [negb].
  2:{ destruct Q3 as [K|(Q3 & Q5)]; [contradiction|]. exists s1, i1, orc. split; [reflexivity|]. split; [exact F3|].
      split; [rewrite F1, F4; exact Hl|]. split; [|intros _; rewrite F2; exact Hs].
      unfold final. rewrite F2, Hs. split; [exact P1|]. split; [exact Q1|]. split; [exact Q2|]. left.
      pose proof (PI_bounds _ _ P1) as (B1 & B2 & B3). split; [exact Q5|]. split; [lia|exact Q3]. }
  rewrite (PI_full s1 _ P1) by (try exact Er; lia).
  set (oo := match orc with [] => (true, []) | b :: t => (b, t) end).
  assert (Hoo : orc = [] -> oo = (true, [])) by (intros ->; reflexivity).
  destruct oo as (ok, orc1). specialize (Q4 Er). rewrite F2, Hs. cbn [negb]. destruct ok.
  - destruct (IH y0 avail i1 orc1 (mkP (x_nbr s1) (x_togo s1) (x_trg s1) (x_stop s1) (x_cb s1) (S (x_cur s1)) 0 false (x_ob s1) (x_y s1) ((x_cur s1, imcu_rows c (x_cur s1), true) :: x_log s1)))
      as (s' & k & orc' & E' & Y & L & Fi & O).
    { apply PI_accept; [exact P1|lia|exact Er]. } { exact Hay. } { reflexivity. } { cbn [x_rgc]. lia. } { left. exact Q4. } { cbn [x_cur]. lia. }
    { cbn [x_cur x_log]. constructor. rewrite F1, F4. exact Hl. }
    exists s', k, orc'. split; [exact E'|]. split; [rewrite Y; cbn [x_y]; exact F3|]. split; [exact L|]. split.
    + unfold final in *. destruct (x_susp s').
      * destruct Fi as (G1 & G2 & G3 & G4 & G5). split; [exact G1|]. split; [exact G2|]. split; [exact G3|]. split; [lia|]. lia.
      * destruct Fi as (G1 & G2 & G3 & G4). split; [exact G1|]. split; [lia|]. split; [lia|exact G4].
    + intros K. apply O. specialize (Hoo K). injection Hoo as ->. reflexivity.
  - destruct i1 as [|k]; [lia|].
    eexists _, k, orc1. split; [reflexivity|]. cbn [x_y x_cur x_log]. split; [exact F3|]. split; [constructor; rewrite F1, F4; exact Hl|]. split.
    + unfold final. cbn [x_susp x_rgc x_cur]. replace (y0 + k + 1) with (y0 + S k) by lia. split; [apply PI_ext; [exact P1|reflexivity]|].
      split; [exact Er|]. split; [lia|]. lia.
    + intros K. specialize (Hoo K). discriminate Hoo.
Qed.

Definition SESS (s : pst) : Prop :=
  exists n, PI s n /\ x_y s + (if x_susp s then 1 else 0) = n /\ calls_ok c (x_cur s) (x_log s) /\
    if x_susp s then x_rgc s = du /\ x_cur s < total c else (n < H /\ x_rgc s < du) \/ (x_cur s = total c /\ n = H).

Lemma write_ok : forall s n orc, SESS s ->
  exists s' k orc', write_scanlines c n orc s = Ret (s', k, orc') /\ SESS s' /\ x_y s' = x_y s + k /\ k <= Nat.max 1 n /\
    (1 <= n -> k <= n) /\ (x_susp s' = false -> 1 <= n -> k = Nat.min n (H - x_y s)) /\ (orc = [] -> x_susp s' = false).
Proof.
  intros s n orc (m & P & Em & Hl & St). pose proof (Hdu c Hc) as HD. unfold write_scanlines.
  pose proof (PI_bounds _ _ P) as (B1 & B2 & B3).
  set (num := Nat.min n (H - x_y s)).
  assert (Hnum : num <= n /\ x_y s + num <= H /\ (1 <= n -> x_y s < H -> 1 <= num)) by (unfold num; destruct (x_susp s); lia).
  assert (M : exists s' k orc', process_main c (total c - x_cur s + 1) (x_y s) num 0 orc s = Ret (s', k, orc') /\ x_y s' = x_y s /\
    calls_ok c (x_cur s') (x_log s') /\ (orc = [] -> x_susp s' = false) /\
    ((x_cur s' = x_cur s /\ k = 0 /\ x_susp s' = x_susp s /\ PI s' m /\ (x_susp s = true -> x_rgc s' = du) /\ (x_susp s = false -> x_cur s = total c /\ m = H))
      \/ final s' (x_y s) num (if x_susp s then 1 else 0) k)).
  { destruct (x_susp s) eqn:Es.
    - destruct St as (S1 & S2). rewrite Nat.add_1_r. cbn [process_main].
      destruct (Nat.ltb_spec (x_cur s) (total c)) as [_|K]; [|lia]. destruct (Nat.ltb_spec (x_rgc s) du) as [K|_]; [lia|]. cbn [bind].
      rewrite (proj2 (Nat.eqb_eq _ _) S1). cbn [negb]. rewrite Es.
      rewrite (PI_full s _ P S2 S1).
      set (oo := match orc with [] => (true, []) | b :: t => (b, t) end).
      assert (Hoo : orc = [] -> oo = (true, [])) by (intros ->; reflexivity).
      destruct oo as (ok, orc1). destruct ok.
      + destruct (main_ok (total c - x_cur s) (x_y s) num 1 orc1 (mkP (x_nbr s) (x_togo s) (x_trg s) (x_stop s) (x_cb s) (S (x_cur s)) 0 false (x_ob s) (x_y s) ((x_cur s, imcu_rows c (x_cur s), true) :: x_log s)))
          as (s' & k & orc' & E' & Y & L & Fi & O).
        { rewrite Em. apply PI_accept; [exact P|exact S2|exact S1]. } { lia. } { reflexivity. } { cbn [x_rgc]. lia. } { left. lia. } { cbn [x_cur]. lia. }
        { cbn [x_cur x_log]. constructor. exact Hl. }
        exists s', k, orc'. split; [exact E'|]. split; [exact Y|]. split; [exact L|]. split; [|right; exact Fi].
        intros K. apply O. specialize (Hoo K). injection Hoo as ->. reflexivity.
      + eexists _, 0, orc1. split; [reflexivity|]. cbn [x_y x_cur x_log x_susp x_rgc]. split; [reflexivity|]. split; [constructor; exact Hl|].
        split; [intros K; specialize (Hoo K); discriminate Hoo|]. left. split; [reflexivity|]. split; [reflexivity|]. split; [reflexivity|].
        split; [apply PI_ext; [exact P|reflexivity]|]. split; [intros _; exact S1|]. intros K; discriminate K.
    - rewrite Nat.add_0_r in Em. destruct St as [(S1 & S2)|(S1 & S2)].
      + destruct (main_ok (total c - x_cur s + 1) (x_y s) num 0 orc s) as (s' & k & orc' & E' & Y & L & Fi & O);
          [rewrite Nat.add_0_r, Em; exact P|lia|exact Es|exact S2|right; lia|lia|exact Hl|].
        exists s', k, orc'. split; [exact E'|]. split; [exact Y|]. split; [exact L|]. split; [exact O|right; exact Fi].
      + exists s, 0, orc. split.
        { rewrite Nat.add_1_r. cbn [process_main]. destruct (Nat.ltb_spec (x_cur s) (total c)) as [K|_]; [lia|reflexivity]. }
        split; [reflexivity|]. split; [exact Hl|]. split; [intros _; exact Es|]. left. split; [reflexivity|]. split; [reflexivity|]. split; [exact Es|].
        split; [exact P|]. split; [intros K; discriminate K|]. intros _. split; [exact S1|exact S2]. }
  destruct M as (s' & k & orc' & E & Y & L & O & Fi). rewrite E. cbn [bind]. eexists _, k, orc'. split; [reflexivity|].
  cbn [x_y x_susp]. rewrite Y.
  assert (S' : SESS (mkP (x_nbr s') (x_togo s') (x_trg s') (x_stop s') (x_cb s') (x_cur s') (x_rgc s') (x_susp s') (x_ob s') (x_y s + k) (x_log s'))).
  { unfold SESS. cbn [x_y x_susp x_cur x_log x_rgc]. destruct Fi as [(G1 & -> & G3 & G4 & G5 & G6)|Fi].
    - exists m. split; [apply PI_ext; [exact G4|reflexivity]|]. split; [rewrite G3, Nat.add_0_r; exact Em|]. split; [exact L|]. rewrite G3, G1.
      destruct (x_susp s); [split; [apply G5; reflexivity|exact (proj2 St)]|]. right. apply G6. reflexivity.
    - unfold final in Fi. destruct (x_susp s').
      + destruct Fi as (G1 & G2 & G3 & G4 & G5). exists (x_y s + k + 1). split; [apply PI_ext; [exact G1|reflexivity]|]. split; [reflexivity|].
        split; [exact L|]. split; [exact G2|exact G3].
      + destruct Fi as (G1 & G2 & G3 & G4). exists (x_y s + k). split; [apply PI_ext; [exact G1|reflexivity]|]. split; [lia|].
        split; [exact L|]. destruct G4 as [(G4 & G5 & G6)|G4]; [left; split; [exact G4|exact G5]|right; exact G4]. }
  split; [exact S'|]. split; [reflexivity|].
  destruct Fi as [(G1 & -> & G3 & G4 & G5 & G6)|Fi].
  - split; [lia|]. split; [lia|]. split; [|exact O]. intros K _. rewrite G3 in K. destruct (G6 K) as (Z1 & Z2). rewrite K in Em. lia.
  - unfold final in Fi. destruct (x_susp s').
    + destruct Fi as (G1 & G2 & G3 & G4 & G5). split; [destruct (x_susp s); lia|]. split; [destruct (x_susp s); lia|]. split; [intros K; discriminate K|exact O].
    + destruct Fi as (G1 & G2 & G3 & G4). split; [destruct (x_susp s); lia|]. split; [destruct (x_susp s); lia|]. split; [|exact O].
      intros _ Hn. fold num. destruct Hnum as (M1 & M2 & M3). destruct (x_susp s); [specialize (M3 Hn ltac:(lia))|]; lia.
Qed.

Lemma sess_ok : forall s, psession c s -> SESS s.
Proof.
  intros s Hs. induction Hs as [cb ob|s n orc s' k orc' Hs IH E].
  - exists 0. split; [apply PI_start|]. cbn. split; [reflexivity|]. split; [constructor|]. left. split; [apply Hc|apply Hc].
  - destruct (write_ok s n orc IH) as (s2 & k2 & o2 & E2 & S2 & _). rewrite E in E2. injection E2 as <- _ _. exact S2.
Qed.
End P.
