(* P_Prep3.v -- pre_process_context *)
From Verif Require Import Base M_Prep S_Prep P_Prep P_Prep2.
Open Scope nat_scope.

Section P.
Variable c : pcfg.
Hypothesis Hc : pcfg_ok c.
Notation v := (p_v c).
Notation w := (p_w c).
Notation du := (p_du c).
Notation H := (p_H c).
Notation grp s := (x_cur s * p_du c + x_rgc s).
Notation V := (Z.of_nat (p_v c)).

Lemma m3 : forall g, exists a,
  (g = 3 * a /\ g mod 3 = 0 /\ (g + 1) mod 3 = 1 /\ (g + 1) / 3 = a /\ (g + 2) mod 3 = 2 /\ (g + 2) / 3 = a) \/
  (g = 3 * a + 1 /\ g mod 3 = 1 /\ (g + 1) mod 3 = 2 /\ (g + 1) / 3 = a /\ (g + 2) mod 3 = 0 /\ (g + 2) / 3 = a + 1) \/
  (g = 3 * a + 2 /\ g mod 3 = 2 /\ (g + 1) mod 3 = 0 /\ (g + 1) / 3 = a + 1 /\ (g + 2) mod 3 = 1 /\ (g + 2) / 3 = a + 1).
Proof.
  intros g. exists (g / 3). pose proof (Nat.div_mod g 3 ltac:(lia)) as E. pose proof (Nat.mod_upper_bound g 3 ltac:(lia)) as B.
  set (a := g / 3) in *. set (r := g mod 3) in *. clearbody a r.
  assert (K : forall x q, x < 3 -> (3 * q + x) mod 3 = x /\ (3 * q + x) / 3 = q).
  { intros x q Hx. rewrite Nat.add_comm, Nat.mul_comm. rewrite Nat.mod_add, Nat.div_add by lia. rewrite Nat.mod_small, Nat.div_small by lia. lia. }
  destruct r as [|[|[|r]]]; [left|right; left|right; right|lia].
  - replace (g + 1) with (3 * a + 1) by lia. replace (g + 2) with (3 * a + 2) by lia. destruct (K 1 a), (K 2 a); lia.
  - replace (g + 1) with (3 * a + 2) by lia. replace (g + 2) with (3 * (a + 1) + 0) by lia. destruct (K 2 a), (K 0 (a + 1)); lia.
  - replace (g + 1) with (3 * (a + 1) + 0) by lia. replace (g + 2) with (3 * (a + 1) + 1) by lia. destruct (K 0 (a + 1)), (K 1 (a + 1)); lia.
Qed.

(* position of image row q in the true buffer *)
Definition pos (q : Z) : nat := Z.to_nat (q mod (3 * V)).

Definition CInv (s : pst) (n f : nat) : Prop :=
  n <= H /\ x_togo s = H - n /\ x_rgc s <= du /\ (n < H -> f = n) /\ (n = H -> H <= f) /\
  x_trg s = (grp s mod 3) * v /\ x_stop s = ((grp s + 1) mod 3) * v + v /\
  x_nbr s < x_stop s /\ f = x_nbr s + (grp s + 1) / 3 * (3 * v) /\ (1 <= grp s -> (grp s + 1) * v <= f) /\
  (0 < f -> forall q, ((Z.of_nat (grp s) - 1) * V <= q < Z.of_nat f)%Z -> x_cb s (pos q) = Some (clampy H q)) /\
  OB c s (x_cur s) (x_rgc s).

Lemma Vpos : (1 <= V)%Z. Proof. pose proof (Hv c Hc). lia. Qed.

Lemma pos_eq : forall k a, k < 3 * v -> pos (Z.of_nat k + Z.of_nat a * (3 * V)) = k.
Proof. intros k a Hk. unfold pos. rewrite Z.mod_add by lia. rewrite Z.mod_small by lia. apply Nat2Z.id. Qed.
Lemma pos_neq : forall q r, (0 < r - q < 3 * V)%Z -> pos q <> pos r.
Proof.
  intros q r K E. unfold pos in E. pose proof (Z.mod_pos_bound q (3 * V) ltac:(lia)). pose proof (Z.mod_pos_bound r (3 * V) ltac:(lia)).
  assert (E2 : (q mod (3 * V) = r mod (3 * V))%Z) by lia.
  pose proof (Z.div_mod q (3 * V) ltac:(lia)) as D1. pose proof (Z.div_mod r (3 * V) ltac:(lia)) as D2. rewrite E2 in D1.
  assert (X : (r - q = 3 * V * (r / (3 * V) - q / (3 * V)))%Z) by lia. 
  set (m := (r / (3 * V) - q / (3 * V))%Z) in *. clearbody m. assert (m <= 0 \/ 1 <= m)%Z as [M|M] by lia; nia.
Qed.

Lemma cbi_pos : p_ctx c = true -> forall z, (- V <= z < 4 * V)%Z -> cbi c z = Ret (pos z).
Proof.
  intros Hx z Hz. pose proof Vpos. unfold cbi. rewrite Hx. unfold pos.
  destruct (Z.leb_spec (- V) z); destruct (Z.ltb_spec z 0); cbn [andb]; try lia.
  - f_equal. f_equal. apply Z.mod_unique with (q := (-1)%Z); lia.
  - destruct (Z.leb_spec 0 z); destruct (Z.ltb_spec z (3 * V)); cbn [andb]; try lia.
    + f_equal. f_equal. symmetry. apply Z.mod_small. lia.
    + destruct (Z.leb_spec (3 * V) z); destruct (Z.ltb_spec z (4 * V)); cbn [andb]; try lia.
      f_equal. f_equal. apply Z.mod_unique with (q := 1%Z); lia.
Qed.

Lemma pos_shift : forall z a, pos (z + a * (3 * V)) = pos z.
Proof. intros z a. pose proof Vpos. unfold pos. rewrite Z.mod_add by lia. reflexivity. Qed.

Lemma pad_top_ok : p_ctx c = true -> forall n row b, b 0 = Some 0 -> 1 <= row -> row + n <= v + 1 ->
  exists b', pad_top c n row b = Ret b' /\ forall i, b' i = if between (3 * v + 1 - (row + n)) i (3 * v + 1 - row) then Some 0 else b i.
Proof.
  intros Hx. induction n as [|n IH]; intros row b E0 H1 H2.
  - exists b. split; [reflexivity|]. intros i. destruct (between_spec (3 * v + 1 - (row + 0)) i (3 * v + 1 - row)); [lia|reflexivity].
  - cbn [pad_top]. pose proof (Hv c Hc) as HV. rewrite (cbget_ok c b 0%Z 0 0); [|apply (cbi_id c 0); unfold cap; rewrite Hx; lia|exact E0]. cbn [bind].
    unfold cbset. rewrite (cbi_pos Hx) by lia. cbn [bind].
    assert (Ep : pos (- Z.of_nat row) = 3 * v - row).
    { unfold pos. rewrite <- (Z.mod_unique (- Z.of_nat row) (3 * V) (-1) (3 * V - Z.of_nat row)) by lia. lia. }
    rewrite Ep. destruct (IH (S row) (fun k => if k =? 3 * v - row then Some 0 else b k)) as (b' & E & Q); [|lia|lia|].
    { destruct (Nat.eqb_spec 0 (3 * v - row)); [reflexivity|exact E0]. }
    exists b'. split; [exact E|]. intros i. rewrite Q.
    destruct (between_spec (3 * v + 1 - (S row + n)) i (3 * v + 1 - S row)); destruct (between_spec (3 * v + 1 - (row + S n)) i (3 * v + 1 - row)); try lia; [reflexivity| |].
    + destruct (Nat.eqb_spec i (3 * v - row)); [reflexivity|lia].
    + destruct (Nat.eqb_spec i (3 * v - row)); [lia|reflexivity].
Qed.

(* the downsampling step at the end of an iteration: rows up to f are in b *)
Definition after_fill (s : pst) (n f : nat) (b : nat -> option nat) (nbr : nat) : Prop :=
  n <= H /\ (n < H -> f = n) /\ (n = H -> H <= f) /\ nbr <= x_stop s /\ f = nbr + (grp s + 1) / 3 * (3 * v) /\
  (forall q, ((Z.of_nat (grp s) - 1) * V <= q < Z.of_nat f)%Z -> b (pos q) = Some (clampy H q)).

Lemma stop_f : forall s, x_stop s = ((grp s + 1) mod 3) * v + v -> x_stop s + (grp s + 1) / 3 * (3 * v) = (grp s + 2) * v.
Proof.
  intros s E. rewrite E. destruct (m3 (grp s)) as (a & [(A & B & C & D & _)|[(A & B & C & D & _)|(A & B & C & D & _)]]); rewrite C, D, A; nia.
Qed.

Lemma ds_step : p_ctx c = true -> forall s n f b togo, x_rgc s < du -> x_trg s = (grp s mod 3) * v -> x_stop s = ((grp s + 1) mod 3) * v + v ->
  OB c s (x_cur s) (x_rgc s) -> after_fill s n f b (x_stop s) -> togo = H - n -> 0 < f ->
  exists o, downsample c (x_trg s) (x_rgc s) b (x_ob s) = Ret o /\
   CInv (mkP (if 3 * v <=? x_stop s then 0 else x_stop s) togo (if 3 * v <=? x_trg s + v then 0 else x_trg s + v)
             ((if 3 * v <=? x_stop s then 0 else x_stop s) + v) b (x_cur s) (S (x_rgc s)) (x_susp s) o (x_y s) (x_log s)) n f.
Proof.
  intros Hx s n f b togo Hr Et Es HO (A1 & A2 & A3 & A4 & A5 & A6) Etg Hf0. pose proof (Hv c Hc) as HV.
  pose proof (stop_f s Es) as SF. rewrite <- A5 in SF.
  destruct (ds_ok c Hc (x_trg s) (x_cur s) (x_rgc s) b (x_ob s) Hr) as (o & Eo & Qo).
  { rewrite Hx. intros K; discriminate K. } { exact HO. }
  { rewrite Hx. unfold cap. rewrite Hx. intros k Hk.
    assert (Hg3 : grp s mod 3 <= 2) by (pose proof (Nat.mod_upper_bound (grp s) 3); lia).
    apply (cbget_ok c b _ (pos (Z.of_nat (x_trg s) - V + Z.of_nat k))).
    - apply (cbi_pos Hx). rewrite Et. assert ((grp s mod 3) * v <= 2 * v) by (apply Nat.mul_le_mono_r; exact Hg3). lia.
    - replace (pos (Z.of_nat (x_trg s) - V + Z.of_nat k)) with (pos ((Z.of_nat (grp s) - 1) * V + Z.of_nat k)).
      + apply A6. rewrite SF. lia.
      + rewrite <- (pos_shift (Z.of_nat (x_trg s) - V + Z.of_nat k) (Z.of_nat (grp s / 3))). f_equal. rewrite Et.
        pose proof (Nat.div_mod (grp s) 3 ltac:(lia)) as E. set (q := grp s / 3) in *. set (r := grp s mod 3) in *. clearbody q r. rewrite E at 1. nia. }
  exists o. split; [exact Eo|]. unfold CInv. cbn [x_togo x_rgc x_cur x_nbr x_cb x_ob x_trg x_stop].
  replace (x_cur s * du + S (x_rgc s)) with (grp s + 1) by lia. replace (grp s + 1 + 1) with (grp s + 2) by lia.
  split; [exact A1|]. split; [exact Etg|]. split; [lia|]. split; [exact A2|]. split; [exact A3|].
  destruct (m3 (grp s)) as (a & M).
  assert (Nb : (if 3 * v <=? x_stop s then 0 else x_stop s) = ((grp s + 2) mod 3) * v).
  { rewrite Es. destruct M as [(A & B & C & D & E & F)|[(A & B & C & D & E & F)|(A & B & C & D & E & F)]]; rewrite C, E.
    - destruct (Nat.leb_spec (3 * v) (1 * v + v)); lia. - destruct (Nat.leb_spec (3 * v) (2 * v + v)); lia. - destruct (Nat.leb_spec (3 * v) (0 * v + v)); lia. }
  rewrite Nb. split.
  { rewrite Et. destruct M as [(A & B & C & D & E & F)|[(A & B & C & D & E & F)|(A & B & C & D & E & F)]]; rewrite B, C.
    - destruct (Nat.leb_spec (3 * v) (0 * v + v)); lia. - destruct (Nat.leb_spec (3 * v) (1 * v + v)); lia. - destruct (Nat.leb_spec (3 * v) (2 * v + v)); lia. }
  split; [reflexivity|]. split; [lia|]. split.
  { rewrite SF. destruct M as [(A & B & C & D & E & F)|[(A & B & C & D & E & F)|(A & B & C & D & E & F)]]; rewrite E, F, A; nia. }
  split; [intros _; rewrite SF; lia|]. split.
  - intros _ q Hq. apply A6. lia.
  - unfold OB. cbn [x_ob]. intros i Hi. apply Qo. lia.
Qed.

Lemma pre_context_ok : p_ctx c = true -> forall fuel y0 avail i s f, CInv s (y0 + i) f -> y0 + avail <= H ->
  (avail - i) + (du - x_rgc s) < fuel ->
  exists s' i' f', pre_context c fuel y0 avail i s = Ret (s', i') /\ CInv s' (y0 + i') f' /\ frame s s' /\
    i <= i' /\ (i' <= avail \/ i' = i) /\ (x_rgc s' = du \/ avail <= i' /\ y0 + i' < H) /\
    (x_rgc s < du -> x_rgc s' = du -> y0 + i < H -> i < i').
Proof.
  intros Hx. pose proof (Hv c Hc) as HV. pose proof (HH c Hc) as HHH.
  assert (Ecap : cap c = 3 * v) by (unfold cap; rewrite Hx; reflexivity).
  induction fuel as [|fuel IH]; intros y0 avail i s f Inv Hay Hf; [lia|].
  cbn [pre_context]. destruct (Nat.ltb_spec (x_rgc s) du) as [Hr|Hr].
  2:{ exists s, i, f. split; [reflexivity|]. split; [exact Inv|]. split; [unfold frame; auto|]. split; [lia|]. split; [right; reflexivity|].
      destruct Inv as (N1 & N2 & N3 & _). split; [left; lia|lia]. }
  pose proof Inv as (N1 & N2 & N3 & N4 & N5 & N6 & N7 & N8 & N9 & N10 & N11 & N12).
  assert (Hstop : x_stop s <= 3 * v).
  { rewrite N7. pose proof (Nat.mod_upper_bound (grp s + 1) 3 ltac:(lia)). assert ((grp s + 1) mod 3 * v <= 2 * v) by (apply Nat.mul_le_mono_r; lia). lia. }
  pose proof (stop_f s N7) as SF.
  (* the common tail *)
  assert (TAIL : forall b nbr i2 f2, after_fill s (y0 + i2) f2 b nbr -> 0 < f2 -> i <= i2 -> (i2 <= avail \/ i2 = i) ->
     (1 <= grp s -> (grp s + 1) * v <= f2) ->
     (nbr = x_stop s \/ nbr < x_stop s /\ i < i2) -> (y0 + i < H -> i < i2) ->
     exists s' i' f', (if nbr =? x_stop s
        then o <- downsample c (x_trg s) (x_rgc s) b (x_ob s) ;;
          pre_context c fuel y0 avail i2
            (mkP (if 3 * v <=? nbr then 0 else nbr) (H - (y0 + i2)) (if 3 * v <=? x_trg s + v then 0 else x_trg s + v)
                 ((if 3 * v <=? nbr then 0 else nbr) + v) b (x_cur s) (S (x_rgc s)) (x_susp s) o (x_y s) (x_log s))
        else pre_context c fuel y0 avail i2 (mkP nbr (H - (y0 + i2)) (x_trg s) (x_stop s) b (x_cur s) (x_rgc s) (x_susp s) (x_ob s) (x_y s) (x_log s))) = Ret (s', i') /\
      CInv s' (y0 + i') f' /\ frame s s' /\ i <= i' /\ (i' <= avail \/ i' = i) /\ (x_rgc s' = du \/ avail <= i' /\ y0 + i' < H) /\
      (x_rgc s < du -> x_rgc s' = du -> y0 + i < H -> i < i')).
  { intros b nbr i2 f2 AF Hf2 L1 L2 Lg Lc Lp. destruct (Nat.eqb_spec nbr (x_stop s)) as [Eq|Nq].
    - rewrite Eq in AF. destruct (ds_step Hx s (y0 + i2) f2 b (H - (y0 + i2)) Hr N6 N7 N12 AF eq_refl Hf2) as (o & Eo & CI). rewrite Eo. cbn [bind]. rewrite Eq.
      match type of CI with CInv ?t _ _ => set (s1 := t) in * end.
      destruct (IH y0 avail i2 s1 f2 CI Hay) as (s' & i' & f' & E & I' & F' & K1 & K2 & K3 & K4).
      { change (x_rgc s1) with (S (x_rgc s)). lia. }
      exists s', i', f'. split; [exact E|]. split; [exact I'|]. split; [exact F'|]. split; [lia|]. split; [lia|]. split; [exact K3|]. lia.
    - destruct Lc as [Lc|[Lc1 Lc2]]; [contradiction|].
      match goal with |- context [pre_context c fuel y0 avail i2 ?t] => set (s1 := t) end.
      destruct AF as (A1 & A2 & A3 & A4 & A5 & A6).
      destruct (IH y0 avail i2 s1 f2) as (s' & i' & f' & E & I' & F' & K1 & K2 & K3 & K4).
      { unfold CInv, s1. cbn [x_togo x_rgc x_cur x_nbr x_cb x_ob x_trg x_stop]. split; [exact A1|]. split; [reflexivity|]. split; [exact N3|].
        split; [exact A2|]. split; [exact A3|]. split; [exact N6|]. split; [exact N7|]. split; [exact Lc1|]. split; [exact A5|]. split; [exact Lg|].
        split; [intros _; exact A6|exact N12]. }
      { exact Hay. } { change (x_rgc s1) with (x_rgc s). lia. }
      exists s', i', f'. split; [exact E|]. split; [exact I'|]. split; [exact F'|]. split; [lia|]. split; [lia|]. split; [exact K3|]. lia. }
  cbv zeta. destruct (Nat.ltb_spec i avail) as [Hi|Hi].
  - (* take rows *)
    set (nr := Nat.min (x_stop s - x_nbr s) (avail - i)). assert (Hnr : 1 <= nr /\ nr <= x_stop s - x_nbr s /\ nr <= avail - i) by (unfold nr; lia).
    assert (Ef : f = y0 + i) by (apply N4; lia).
    destruct (convert_ok c nr y0 avail i (x_nbr s) (x_cb s)) as (b & Eb & Qb); [lia|rewrite Ecap; lia|]. rewrite Eb. cbn [bind].
    assert (New : forall q, f <= q < f + nr -> b (pos (Z.of_nat q)) = Some (clampy H (Z.of_nat q))).
    { intros q Hq. replace (Z.of_nat q) with (Z.of_nat (x_nbr s + (q - f)) + Z.of_nat ((grp s + 1) / 3) * (3 * V))%Z at 1 by lia.
      rewrite pos_eq by lia. rewrite Qb. destruct (between_spec (x_nbr s) (x_nbr s + (q - f)) (x_nbr s + nr)) as [_|K]; [|lia].
      rewrite (clamp_in c) by lia. f_equal. lia. }
    assert (Old : 0 < f -> forall q, ((Z.of_nat (grp s) - 1) * V <= q < Z.of_nat f)%Z -> b (pos q) = Some (clampy H q)).
    { intros Hf0 q Hq. rewrite <- (N11 Hf0 q Hq). rewrite Qb. destruct (between_spec (x_nbr s) (pos q) (x_nbr s + nr)) as [K|K]; [exfalso|reflexivity].
      set (q2 := f + (pos q - x_nbr s)).
      assert (E2 : pos (Z.of_nat q2) = pos q).
      { unfold q2. replace (Z.of_nat (f + (pos q - x_nbr s))) with (Z.of_nat (pos q) + Z.of_nat ((grp s + 1) / 3) * (3 * V))%Z by lia.
        rewrite pos_eq by lia. reflexivity. }
      revert E2. apply not_eq_sym. apply pos_neq. unfold q2. nia. }
    assert (Pad : exists b2, (if x_togo s =? H then pad_top c v 1 b else Ret b) = Ret b2 /\
      forall q, ((Z.of_nat (grp s) - 1) * V <= q < Z.of_nat (f + nr))%Z -> b2 (pos q) = Some (clampy H q)).
    { destruct (Nat.eqb_spec (x_togo s) H) as [Et|Et].
      - assert (f = 0) by lia. assert (Hg0 : grp s = 0).
        { destruct (grp s) as [|g'] eqn:Eg; [reflexivity|exfalso]. pose proof (N10 ltac:(lia)). nia. }
        rewrite Hg0 in *. change ((0 + 1) / 3) with 0 in *. change ((0 + 1) mod 3) with 1 in *.
        assert (B0 : b 0 = Some 0).
        { pose proof (New 0 ltac:(lia)) as K. rewrite (clamp_in c) in K by lia. unfold pos in K. cbn [Z.of_nat] in K. rewrite Z.mod_0_l in K by lia. exact K. }
        destruct (pad_top_ok Hx v 1 b B0) as (b2 & E2 & Q2); [lia|lia|]. exists b2. split; [exact E2|].
        intros q Hq. rewrite Q2. assert (q < 0 \/ 0 <= q)%Z as [K|K] by lia.
        + assert (Ep : pos q = 3 * v - Z.to_nat (- q)).
          { unfold pos. rewrite <- (Z.mod_unique q (3 * V) (-1) (3 * V + q)) by lia. lia. }
          rewrite Ep. destruct (between_spec (3 * v + 1 - (1 + v)) (3 * v - Z.to_nat (- q)) (3 * v + 1 - 1)) as [_|A]; [|lia].
          rewrite (clamp_lo c Hc) by lia. reflexivity.
        + assert (Ep : pos q = Z.to_nat q) by (unfold pos; rewrite Z.mod_small by lia; reflexivity).
          destruct (between_spec (3 * v + 1 - (1 + v)) (pos q) (3 * v + 1 - 1)) as [A|_]; [lia|].
          replace q with (Z.of_nat (Z.to_nat q)) by lia. apply New. lia.
      - exists b. split; [reflexivity|]. intros q Hq. assert (q < Z.of_nat f \/ Z.of_nat f <= q)%Z as [K|K] by lia.
        + apply Old; lia.
        + replace q with (Z.of_nat (Z.to_nat q)) by lia. apply New. lia. }
    destruct Pad as (b2 & E2 & Q2). rewrite E2. cbn [bind].
    rewrite N2. replace (H - (y0 + i) - nr) with (H - (y0 + (i + nr))) by lia.
    apply (TAIL b2 (x_nbr s + nr) (i + nr) (f + nr)); [|lia|lia|left; lia| |lia|lia].
    + split; [lia|]. split; [lia|]. split; [lia|]. split; [lia|]. split; [lia|exact Q2].
    + intros Hg. pose proof (N10 Hg). lia.
  - destruct (Nat.eqb_spec (x_togo s) 0) as [Et|Et]; cbn [negb].
    2:{ exists s, i, f. split; [reflexivity|]. split; [exact Inv|]. split; [unfold frame; auto|]. split; [lia|]. split; [right; reflexivity|].
        split; [right; lia|]. lia. }
    destruct (Nat.ltb_spec (x_nbr s) (x_stop s)) as [_|K]; [|lia].
    assert (Eh : y0 + i = H) by lia. pose proof (N5 Eh) as Hfh.
    assert (Hpos : cbi c (Z.of_nat (x_nbr s) - 1) = Ret (pos (Z.of_nat f - 1))).
    { rewrite (cbi_pos Hx) by lia. f_equal. rewrite <- (pos_shift _ (Z.of_nat ((grp s + 1) / 3))). f_equal. lia. }
    assert (Hrow : x_cb s (pos (Z.of_nat f - 1)) = Some (H - 1)).
    { rewrite (N11 ltac:(lia)).
      - rewrite (clamp_hi c Hc) by lia. reflexivity.
      - destruct (grp s) as [|g'] eqn:Eg; [lia|]. pose proof (N10 ltac:(lia)). nia. }
    destruct (expand_cb_ok c (x_stop s - x_nbr s) (x_nbr s) (x_nbr s) (x_cb s) _ (H - 1) Hpos Hrow) as (b & Eb & Qb); [rewrite Ecap; lia|].
    rewrite Eb. cbn [bind]. rewrite N2.
    apply (TAIL b (x_stop s) i ((grp s + 2) * v)); [|nia|lia|right; reflexivity|intros _; nia|left; reflexivity|lia].
    split; [lia|]. split; [lia|]. split; [intros _; lia|]. split; [lia|]. split; [lia|].
    intros q Hq. rewrite Qb. assert (q < Z.of_nat f \/ Z.of_nat f <= q)%Z as [K|K] by lia.
    + rewrite <- (N11 ltac:(lia) q) by lia. destruct (between_spec (x_nbr s) (pos q) (x_nbr s + (x_stop s - x_nbr s))) as [B|B]; [exfalso|reflexivity].
      set (q2 := f + (pos q - x_nbr s)).
      assert (E2 : pos (Z.of_nat q2) = pos q).
      { unfold q2. replace (Z.of_nat (f + (pos q - x_nbr s))) with (Z.of_nat (pos q) + Z.of_nat ((grp s + 1) / 3) * (3 * V))%Z by lia.
        rewrite pos_eq by lia. reflexivity. }
      revert E2. apply not_eq_sym. apply pos_neq. unfold q2. nia.
    + replace q with (Z.of_nat (x_nbr s + (Z.to_nat q - f)) + Z.of_nat ((grp s + 1) / 3) * (3 * V))%Z at 1 by lia.
      rewrite pos_eq by lia. destruct (between_spec (x_nbr s) (x_nbr s + (Z.to_nat q - f)) (x_nbr s + (x_stop s - x_nbr s))) as [_|B]; [|lia].
      rewrite (clamp_hi c Hc) by lia. reflexivity.
Qed.
End P.
