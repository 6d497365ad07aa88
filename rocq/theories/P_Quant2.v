(* P_Quant2.v *)
From Verif Require Import Base M_Quant2 S_Quant P_Trellis.
Require Import Coq.Sorting.Sorted.

Lemma sq_scale t1 t2 s : Z.abs t1 <= Z.abs t2 -> (t1 * s) * (t1 * s) <= (t2 * s) * (t2 * s).
Proof. intros H. assert (t1 * t1 <= t2 * t2) by nia. nia. Qed.

Lemma dist_part_spec x mn mx s a b : mn <= mx -> dist_part x mn mx (Z.shiftr (mn + mx) 1) s = (a, b) ->
  forall y, mn <= y <= mx -> 0 <= a <= ((x - y) * s) * ((x - y) * s) /\ ((x - y) * s) * ((x - y) * s) <= b.
Proof.
  intros HM H y Hy. unfold dist_part in H. rewrite Z.shiftr_div_pow2 in H by lia. change (2 ^ 1) with 2 in H. pose proof (Z.div_mod (mn + mx) 2 ltac:(lia)). pose proof (Z.mod_pos_bound (mn + mx) 2 ltac:(lia)).
  destruct (Z.ltb_spec x mn); [|destruct (Z.ltb_spec mx x); [|destruct (Z.leb_spec x ((mn + mx) / 2))]]; inversion H; subst; clear H;
   (split; [split; [try lia; apply Z.square_nonneg|try apply Z.square_nonneg; apply sq_scale; lia]|apply sq_scale; lia]).
Qed.
Lemma dist_part_bound x mn mx s : 0 <= x <= 255 -> 0 <= mn -> mx <= 255 -> mn <= mx -> 0 <= s <= 3 -> snd (dist_part x mn mx (Z.shiftr (mn + mx) 1) s) <= 585225.
Proof.
  intros H1 H2 H3 H4 H5. assert (A : forall t, -255 <= t <= 255 -> (t * s) * (t * s) <= 585225). { intros t Ht. assert (-765 <= t * s <= 765) by nia. nia. }
  unfold dist_part. destruct (x <? mn); [|destruct (mx <? x); [|destruct (x <=? _)]]; cbn [snd]; apply A; lia.
Qed.

Section Q.
Variables (s : scales) (pal : list (Z * Z * Z)) (garbage : list Z).
Hypothesis HS : 1 <= C0_SCALE s <= 3 /\ 1 <= C1_SCALE s <= 3 /\ 1 <= C2_SCALE s <= 3.
Hypothesis HP : Forall colour pal.
Hypothesis HN : 1 <= Z.of_nat (length pal) <= 256.
Hypothesis HG : length garbage = 128%nat.
Let n := Z.of_nat (length pal).
Let w := (C0_SCALE s, C1_SCALE s, C2_SCALE s).
Definition p0 (c : Z * Z * Z) : Z := fst (fst c).
Definition p1 (c : Z * Z * Z) : Z := snd (fst c).
Definition p2 (c : Z * Z * Z) : Z := snd c.
Definition cmap_of (l : list (Z * Z * Z)) : cmap := mkCmap (map p0 l) (map p1 l) (map p2 l) (Z.of_nat (length l)).
Let m := cmap_of pal.
Definition col (k : Z) : Z * Z * Z := nth (Z.to_nat k) pal (0, 0, 0).

Lemma get_map (f : Z * Z * Z -> Z) k : 0 <= k < n -> aget (map f pal) k = Ret (f (col k)).
Proof. intros H. unfold n in H. rewrite (aget_nth _ _ (f (0, 0, 0))) by (rewrite map_length; lia). rewrite map_nth. reflexivity. Qed.
Lemma col_ok k : 0 <= k < n -> colour (col k).
Proof. intros H. unfold n in H. unfold col. rewrite Forall_forall in HP. apply HP, nth_In. lia. Qed.

(* ---- candidates ---- *)
Section BOX.
Variables (m0 m1 m2 : Z).
Hypothesis H0 : 4 <= m0 <= 228.
Hypothesis H1 : 2 <= m1 <= 226.
Hypothesis H2 : 4 <= m2 <= 228.
Definition in_box (c : Z * Z * Z) : Prop := let '(a, b, d) := c in m0 <= a <= m0 + 24 /\ m1 <= b <= m1 + 28 /\ m2 <= d <= m2 + 24.
Definition mn (k : Z) : Z :=
  fst (dist_part (p0 (col k)) m0 (m0 + 24) (Z.shiftr (m0 + (m0 + 24)) 1) (C0_SCALE s)) +
  fst (dist_part (p1 (col k)) m1 (m1 + 28) (Z.shiftr (m1 + (m1 + 28)) 1) (C1_SCALE s)) +
  fst (dist_part (p2 (col k)) m2 (m2 + 24) (Z.shiftr (m2 + (m2 + 24)) 1) (C2_SCALE s)).
Definition mx (k : Z) : Z :=
  snd (dist_part (p0 (col k)) m0 (m0 + 24) (Z.shiftr (m0 + (m0 + 24)) 1) (C0_SCALE s)) +
  snd (dist_part (p1 (col k)) m1 (m1 + 28) (Z.shiftr (m1 + (m1 + 28)) 1) (C1_SCALE s)) +
  snd (dist_part (p2 (col k)) m2 (m2 + 24) (Z.shiftr (m2 + (m2 + 24)) 1) (C2_SCALE s)).
Lemma mn_mx k c : in_box c -> mn k <= sqdist w (col k) c <= mx k.
Proof.
  destruct c as [[a b] d]. intros (A & B & D). unfold mn, mx, sqdist, w. unfold p0, p1, p2. destruct (col k) as [[x y] z]. cbn [fst snd].
  destruct (dist_part x m0 _ _ _) as [a0 b0] eqn:E0, (dist_part y m1 _ _ _) as [a1 b1] eqn:E1, (dist_part z m2 _ _ _) as [a2 b2] eqn:E2. cbn [fst snd].
  pose proof (dist_part_spec x m0 (m0 + 24) _ _ _ ltac:(lia) E0 a A). pose proof (dist_part_spec y m1 (m1 + 28) _ _ _ ltac:(lia) E1 b B). pose proof (dist_part_spec z m2 (m2 + 24) _ _ _ ltac:(lia) E2 d D).
  rewrite !(Z.mul_comm (C0_SCALE s)), !(Z.mul_comm (C1_SCALE s)), !(Z.mul_comm (C2_SCALE s)). lia.
Qed.
Lemma mx_bound k : 0 <= k < n -> mx k < 2147483647.
Proof.
  intros Hk. pose proof (col_ok k Hk) as C. unfold colour, sample in C. unfold mx, p0, p1, p2. destruct (col k) as [[x y] z]. cbn [fst snd].
  pose proof (dist_part_bound x m0 (m0 + 24) (C0_SCALE s)). pose proof (dist_part_bound y m1 (m1 + 28) (C1_SCALE s)). pose proof (dist_part_bound z m2 (m2 + 24) (C2_SCALE s)). lia.
Qed.

Lemma nearby_ok : sat (fun l => (forall k, In k l -> 0 <= k < n) /\ StronglySorted Z.lt l /\ l <> [] /\
    (forall i c, 0 <= i < n -> ~ In i l -> in_box c -> exists j, In j l /\ sqdist w (col j) c < sqdist w (col i) c))
  (find_nearby_colors s m m0 m1 m2).
Proof.
  unfold find_nearby_colors. change (Z.shiftl 1 BOX_SHIFT - Z.shiftl 1 C0_SHIFT) with 24. change (Z.shiftl 1 BOX_SHIFT - Z.shiftl 1 C1_SHIFT) with 28. change (Z.shiftl 1 BOX_SHIFT - Z.shiftl 1 C2_SHIFT) with 24.
  cbn [m cmap_of num_colors colormap0 colormap1 colormap2]. rewrite Nat2Z.id.
  eapply sat_bind with (P := fun st => let '(md, mm) := st in length md = length pal /\ (forall k, 0 <= k < n -> g md k = mn k) /\ (forall k, 0 <= k < n -> mm <= mx k) /\ (exists k, 0 <= k < n /\ mm = mx k)).
  - eapply sat_imp. 1: apply (sat_for (fun i st => let '(md, mm) := st in length md = Z.to_nat i /\ (forall k, 0 <= k < i -> g md k = mn k) /\ (forall k, 0 <= k < i -> mm <= mx k) /\ ((i = 0 /\ mm = 2147483647) \/ exists k, 0 <= k < i /\ mm = mx k))).
    + split; [reflexivity|]. split; [intros; lia|]. split; [intros; lia|]. left. split; reflexivity.
    + intros i [md mm] Hi (L & A & B & C). fold n in Hi. destruct (Z.leb_spec 256 i); [unfold n in *; lia|]. rewrite !get_map by lia. cbn [bind].
      assert (EN : mn i = mn i) by reflexivity. assert (EX : mx i = mx i) by reflexivity. unfold mn at 2 in EN. unfold mx at 2 in EX.
      destruct (dist_part (p0 (col i)) m0 _ _ _) as [a0 b0], (dist_part (p1 (col i)) m1 _ _ _) as [a1 b1], (dist_part (p2 (col i)) m2 _ _ _) as [a2 b2]. cbn [fst snd] in EN, EX. cbn [sat].
      split; [rewrite app_length; cbn [length]; lia|]. split; [|split].
      * intros k Hk. unfold g. destruct (Z.eq_dec k i) as [->|N]; [rewrite app_nth2 by lia; replace (Z.to_nat i - length md)%nat with 0%nat by lia; cbn [nth]; lia|]. rewrite app_nth1 by lia. apply A. lia.
      * intros k Hk. destruct (Z.eq_dec k i) as [->|N]; [destruct (Z.ltb_spec (b0 + b1 + b2) mm); lia|]. specialize (B k ltac:(lia)). destruct (Z.ltb_spec (b0 + b1 + b2) mm); lia.
      * right. destruct (Z.ltb_spec (b0 + b1 + b2) mm) as [G|G]; [exists i; split; lia|]. destruct C as [[C1 C2]|(k & C1 & C2)]; [|exists k; split; lia].
        pose proof (mx_bound i ltac:(lia)). lia.
    + intros [md mm] (L & A & B & C). fold n in L, A, B, C. replace (0 + n) with n in * by lia. split; [unfold n in L; lia|]. split; [exact A|]. split; [exact B|]. destruct C as [[C1 _]|C]; [unfold n in C1; lia|exact C].
  - intros [md mm] (L & A & B & (kk & C1 & C2)).
    eapply sat_imp. 1: apply (sat_for (fun i l => (forall k, In k l <-> (0 <= k < i /\ mn k <= mm)) /\ StronglySorted Z.lt l)).
    + split; [intros k; split; [intros []|intros; lia]|constructor].
    + intros i l Hi [I1 I2]. fold n in Hi. rewrite aget_g by (unfold n in *; lia). cbn [bind sat]. rewrite A by lia. destruct (Z.leb_spec (mn i) mm) as [G|G].
      * rewrite u8_id by (unfold n in *; lia). split.
        -- intros k. rewrite in_app_iff, I1. cbn [In]. split; [intros [K|[<-|[]]]; lia|]. intros [K1 K2]. destruct (Z.eq_dec k i); [right; left; congruence|left; lia].
        -- clear -I1 I2. assert (Q : forall k, In k l -> k < i) by (intros k Hk; apply I1 in Hk; lia). clear I1. induction I2 as [|a l I2 IH F]; cbn [app]; [constructor; constructor|].
           constructor; [apply IH; intros k Hk; apply Q; right; exact Hk|]. apply Forall_app. split; [exact F|]. constructor; [apply Q; left; reflexivity|constructor].
      * split; [|exact I2]. intros k. rewrite I1. split; [lia|]. intros [K1 K2]. destruct (Z.eq_dec k i) as [->|]; lia.
    + intros l [I1 I2]. fold n in I1. replace (0 + n) with n in I1 by lia.
      assert (JJ : In kk l). { apply I1. split; [exact C1|]. rewrite C2. pose proof (mn_mx kk (m0, m1, m2) ltac:(cbn; lia)). lia. }
      split; [intros k Hk; apply I1 in Hk; lia|]. split; [exact I2|]. split; [intros ->; exact JJ|].
      intros i c Hi NI Hc. exists kk. split; [exact JJ|]. pose proof (mn_mx kk c Hc). pose proof (mn_mx i c Hc). assert (mm < mn i). { destruct (Z.lt_ge_cases mm (mn i)) as [|Q]; [assumption|]. exfalso. apply NI, I1. split; [exact Hi|exact Q]. } lia.
Qed.

(* ---- best colours ---- *)
Definition cc (q : Z) : Z * Z * Z := (m0 + 8 * (q / 32), m1 + 4 * ((q / 4) mod 8), m2 + 8 * (q mod 4)).
Definition D (k q : Z) : Z := sqdist w (col k) (cc q).
Lemma cc_box q : 0 <= q < 128 -> in_box (cc q).
Proof. intros H. unfold cc, in_box. pose proof (Z.div_pos q 32). pose proof (Z.div_lt_upper_bound q 32 4). pose proof (Z.mod_pos_bound (q / 4) 8). pose proof (Z.mod_pos_bound q 4). lia. Qed.

(* one colour has been compared with the cells before c *)
Definition upto (k c : Z) (bd bc bd' bc' : list Z) : Prop :=
  length bd' = 128%nat /\ length bc' = 128%nat /\
  forall q, 0 <= q < 128 -> (g bd' q, g bc' q) = if (q <? c) && (D k q <? g bd q) then (D k q, k) else (g bd q, g bc q).
Lemma upto_step k c bd bc bd' bc' : 0 <= k < n -> 0 <= c < 128 -> upto k c bd bc bd' bc' -> sat (fun r => upto k (c + 1) bd bc (fst r) (snd r)) (best_cell k (D k c) c bd' bc').
Proof.
  intros Hk Hc (L1 & L2 & U). unfold best_cell. rewrite aget_g by lia. cbn [bind]. pose proof (U c ltac:(lia)) as Uc. destruct (Z.ltb_spec c c); [lia|]. cbn [andb] in Uc. inversion Uc as [[E1 E2]]. rewrite E1.
  destruct (Z.ltb_spec (D k c) (g bd c)) as [G|G].
  - rewrite aset_ok by lia. cbn [bind]. rewrite aset_ok by lia. cbn [bind sat fst snd]. split; [rewrite length_upd; exact L1|]. split; [rewrite length_upd; exact L2|].
    intros q Hq. rewrite !g_upd by lia. destruct (Z.eqb_spec c q) as [<-|N].
    + destruct (Z.ltb_spec c (c + 1)); [|lia]. destruct (Z.ltb_spec (D k c) (g bd c)); [|lia]. cbn [andb]. rewrite u8_id by (unfold n in *; lia). reflexivity.
    + rewrite U by lia. destruct (Z.ltb_spec q c), (Z.ltb_spec q (c + 1)); try lia; reflexivity.
  - cbn [sat fst snd]. split; [exact L1|]. split; [exact L2|]. intros q Hq. rewrite U by lia. destruct (Z.eq_dec q c) as [->|N].
    + destruct (Z.ltb_spec c c); [lia|]. destruct (Z.ltb_spec (D k c) (g bd c)); [lia|]. rewrite !andb_false_r. reflexivity.
    + destruct (Z.ltb_spec q c), (Z.ltb_spec q (c + 1)); try lia; reflexivity.
Qed.

Definition best (l : list Z) (bd bc : list Z) : Prop :=
  length bd = 128%nat /\ length bc = 128%nat /\
  forall q, 0 <= q < 128 ->
    (l = [] /\ g bd q = 2147483647) \/
    (In (g bc q) l /\ g bd q = D (g bc q) q /\ forall k, In k l -> D (g bc q) q <= D k q /\ (k < g bc q -> D (g bc q) q < D k q)).

Lemma D_bound k q : 0 <= k < n -> 0 <= q < 128 -> D k q < 2147483647.
Proof. intros Hk Hq. pose proof (mn_mx k (cc q) (cc_box q Hq)). pose proof (mx_bound k Hk). unfold D. lia. Qed.

Lemma best_snoc l k bd bc bd' bc' : (forall j, In j l -> j < k) -> 0 <= k < n -> best l bd bc -> upto k 128 bd bc bd' bc' -> best (l ++ [k]) bd' bc'.
Proof.
  intros HL Hk (L1 & L2 & B) (U1 & U2 & U). split; [exact U1|]. split; [exact U2|]. intros q Hq. right. specialize (U q Hq). destruct (Z.ltb_spec q 128); [|lia]. cbn [andb] in U.
  specialize (B q Hq). destruct (Z.ltb_spec (D k q) (g bd q)) as [G|G]; inversion U as [[E1 E2]]; rewrite E1, E2.
  - split; [apply in_or_app; right; left; reflexivity|]. split; [reflexivity|]. intros j Hj. apply in_app_iff in Hj. destruct Hj as [Hj|[<-|[]]]; [|lia].
    destruct B as [[-> _]|(B1 & B2 & B3)]; [contradiction|]. destruct (B3 j Hj) as [B4 _]. lia.
  - destruct B as [[_ B]|(B1 & B2 & B3)]; [pose proof (D_bound k q Hk Hq); lia|]. split; [apply in_or_app; left; exact B1|]. split; [exact B2|].
    intros j Hj. apply in_app_iff in Hj. destruct Hj as [Hj|[<-|[]]]; [apply B3; exact Hj|]. split; [lia|]. intros Q. specialize (HL _ B1). lia.
Qed.

Lemma sorted_snoc : forall (l : list Z) k t, StronglySorted Z.lt (l ++ k :: t) -> forall j, In j l -> j < k.
Proof.
  induction l as [|a l IH]; intros k t H j Hj; [contradiction|]. inversion H; subst. destruct Hj as [<-|Hj]; [|eapply IH; eassumption].
  rewrite Forall_forall in *. match goal with F : forall x, In x (l ++ k :: t) -> _ |- _ => apply F end. apply in_or_app. right. left. reflexivity.
Qed.

Lemma one_colour k bd bc : 0 <= k < n -> length bd = 128%nat -> length bc = 128%nat ->
  let i0 := (m0 - p0 (col k)) * C0_SCALE s in let i1 := (m1 - p1 (col k)) * C1_SCALE s in let i2 := (m2 - p2 (col k)) * C2_SCALE s in
  let T0 := 8 * C0_SCALE s in let T1 := 4 * C1_SCALE s in let T2 := 8 * C2_SCALE s in
  sat (fun r => upto k 128 bd bc (fst (fst (fst (fst r)))) (snd (fst (fst (fst r)))))
   (for_loop 4 0 (fun ic0 '(bd, bc, cell, dist0, xx0) =>
       '(bd, bc, cell, _, _) <- for_loop 8 0 (fun ic1 '(bd, bc, cell, dist1, xx1) =>
          '(bd, bc, cell, _, _) <- for_loop 4 0 (fun ic2 '(bd, bc, cell, dist2, xx2) =>
             '(bd, bc) <- best_cell k dist2 cell bd bc ;;
             Ret (bd, bc, cell + 1, dist2 + xx2, xx2 + 2 * T2 * T2)) (bd, bc, cell, dist1, i2 * (2 * T2) + T2 * T2) ;;
          Ret (bd, bc, cell, dist1 + xx1, xx1 + 2 * T1 * T1)) (bd, bc, cell, dist0, i1 * (2 * T1) + T1 * T1) ;;
       Ret (bd, bc, cell, dist0 + xx0, xx0 + 2 * T0 * T0)) (bd, bc, 0, i0 * i0 + i1 * i1 + i2 * i2, i0 * (2 * T0) + T0 * T0)).
Proof.
  intros Hk L1 L2 i0 i1 i2 T0 T1 T2.
  set (F := fun a b c : Z => (i0 + a * T0) * (i0 + a * T0) + (i1 + b * T1) * (i1 + b * T1) + (i2 + c * T2) * (i2 + c * T2)).
  assert (FD : forall a b c, 0 <= a < 4 -> 0 <= b < 8 -> 0 <= c < 4 -> F a b c = D k ((a * 8 + b) * 4 + c)).
  { intros a b c Ha Hb Hc. unfold D, sqdist, w, cc, F, i0, i1, i2, T0, T1, T2.
    assert (Q0 : ((a * 8 + b) * 4 + c) / 32 = a) by (symmetry; apply (Z.div_unique_pos _ 32 a (b * 4 + c)); lia).
    assert (Q1 : ((a * 8 + b) * 4 + c) / 4 = a * 8 + b) by (symmetry; apply (Z.div_unique_pos _ 4 (a * 8 + b) c); lia).
    assert (Q2 : ((a * 8 + b) * 4 + c) mod 4 = c) by (symmetry; apply (Z.mod_unique_pos _ 4 (a * 8 + b) c); lia).
    assert (Q3 : (a * 8 + b) mod 8 = b) by (symmetry; apply (Z.mod_unique_pos _ 8 a b); lia).
    rewrite Q0, Q1, Q2, Q3. unfold p0, p1, p2. destruct (col k) as [[x y] z]. cbn [fst snd]. ring. }
  clearbody i0 i1 i2 T0 T1 T2.
  eapply sat_imp. 1: apply (sat_for (fun a st => let '(b1, c1, cell, d0, x0) := st in upto k (a * 32) bd bc b1 c1 /\ cell = a * 32 /\ d0 = F a 0 0 /\ x0 = i0 * (2 * T0) + T0 * T0 + a * (2 * T0 * T0))).
  - split; [|split; [reflexivity|split; [unfold F; ring|ring]]]. split; [exact L1|]. split; [exact L2|]. intros q Hq. destruct (Z.ltb_spec q (0 * 32)); [lia|]. reflexivity.
  - intros a [[[[b1 c1] cell] d0] x0] Ha (U & -> & -> & ->). change (0 + Z.of_nat 4) with 4 in Ha.
    eapply sat_bind with (P := fun st => let '(b2, c2, cell, _, _) := st in upto k ((a + 1) * 32) bd bc b2 c2 /\ cell = (a + 1) * 32).
    + eapply sat_imp. 1: apply (sat_for (fun b st => let '(b2, c2, cell, d1, x1) := st in upto k (a * 32 + b * 4) bd bc b2 c2 /\ cell = a * 32 + b * 4 /\ d1 = F a b 0 /\ x1 = i1 * (2 * T1) + T1 * T1 + b * (2 * T1 * T1))).
      * split; [replace (a * 32 + 0 * 4) with (a * 32) by lia; exact U|]. split; [lia|]. split; [reflexivity|ring].
      * intros b [[[[b2 c2] cell] d1] x1] Hb (U2 & -> & -> & ->). change (0 + Z.of_nat 8) with 8 in Hb.
        eapply sat_bind with (P := fun st => let '(b3, c3, cell, _, _) := st in upto k (a * 32 + (b + 1) * 4) bd bc b3 c3 /\ cell = a * 32 + (b + 1) * 4).
        -- eapply sat_imp. 1: apply (sat_for (fun c st => let '(b3, c3, cell, d2, x2) := st in upto k (a * 32 + b * 4 + c) bd bc b3 c3 /\ cell = a * 32 + b * 4 + c /\ d2 = F a b c /\ x2 = i2 * (2 * T2) + T2 * T2 + c * (2 * T2 * T2))).
           ++ split; [replace (a * 32 + b * 4 + 0) with (a * 32 + b * 4) by lia; exact U2|]. split; [lia|]. split; [reflexivity|ring].
           ++ intros c [[[[b3 c3] cell] d2] x2] Hc (U3 & -> & -> & ->). change (0 + Z.of_nat 4) with 4 in Hc.
 rewrite (FD a b c) by lia. replace ((a * 8 + b) * 4 + c) with (a * 32 + b * 4 + c) by lia.
              eapply sat_bind; [apply (upto_step k (a * 32 + b * 4 + c) bd bc b3 c3); [exact Hk|lia|exact U3]|]. intros [b4 c4] U4. cbn [fst snd] in U4. cbn [sat]. split; [replace (a * 32 + b * 4 + (c + 1)) with (a * 32 + b * 4 + c + 1) by lia; exact U4|]. split; [lia|]. split; [|ring].
              replace (a * 32 + b * 4 + c) with ((a * 8 + b) * 4 + c) by lia. rewrite <- FD by lia. unfold F. ring.
           ++ intros [[[[b3 c3] cell] d2] x2] (U3 & -> & _). change (0 + Z.of_nat 4) with 4 in *. split; [replace (a * 32 + (b + 1) * 4) with (a * 32 + b * 4 + 4) by lia; exact U3|lia].
        -- intros [[[[b3 c3] cell] d2] x2] (U3 & ->). cbn [sat]. split; [exact U3|]. split; [reflexivity|]. split; [unfold F; ring|ring].
      * intros [[[[b2 c2] cell] d1] x1] (U2 & -> & _). change (0 + Z.of_nat 8) with 8 in *. split; [replace ((a + 1) * 32) with (a * 32 + 8 * 4) by lia; exact U2|lia].
    + intros [[[[b2 c2] cell] d1] x1] (U2 & ->). cbn [sat]. split; [exact U2|]. split; [reflexivity|]. split; [unfold F; ring|ring].
  - intros [[[[b1 c1] cell] d0] x0] (U & _). cbn [fst snd]. exact U.
Qed.

Lemma find_best_ok l : (forall k, In k l -> 0 <= k < n) -> StronglySorted Z.lt l -> sat (fun bc => exists bd, best l bd bc) (find_best_colors s m m0 m1 m2 l garbage).
Proof.
  intros HL HSo. unfold find_best_colors. change (Z.shiftl 1 C0_SHIFT) with 8. change (Z.shiftl 1 C1_SHIFT) with 4. change (Z.shiftl 1 C2_SHIFT) with 8.
  eapply sat_bind with (P := fun st => best l (fst st) (snd st)).
  - eapply sat_imp. 1: apply (sat_for (fun i st => best (firstn (Z.to_nat i) l) (fst st) (snd st))).
    + cbn [Z.to_nat firstn fst snd]. split; [reflexivity|]. split; [exact HG|]. intros q Hq. left. split; [reflexivity|]. unfold g. apply nth_repeat_lt. lia.
    + intros i [bd bc] Hi B. cbn [fst snd] in B. cbn [Z.add] in Hi. rewrite (aget_g l) by lia. cbn [bind]. set (k := g l i). assert (IK : In k l) by (unfold k, g; apply nth_In; lia). pose proof (HL k IK) as RK.
      cbn [m cmap_of colormap0 colormap1 colormap2]. rewrite !get_map by exact RK. cbn [bind]. destruct B as (L1 & L2 & B).
      eapply sat_bind; [apply (one_colour k bd bc RK L1 L2)|]. intros [[[[b1 c1] x1] x2] x3] U. cbn [fst snd] in U. cbn [sat fst snd].
      assert (SP : firstn (Z.to_nat (i + 1)) l = firstn (Z.to_nat i) l ++ [k]).
      { replace (Z.to_nat (i + 1)) with (S (Z.to_nat i)) by lia. unfold k, g. clear -Hi. assert (H : (Z.to_nat i < length l)%nat) by lia. revert H. generalize (Z.to_nat i) as j. clear. induction l as [|a l IH]; intros j H; [cbn in H; lia|]. destruct j; [reflexivity|]. cbn [firstn nth app]. f_equal. apply IH. cbn in H. lia. }
      rewrite SP. apply (best_snoc _ _ bd bc); [|exact RK|split; [exact L1|split; [exact L2|exact B]]|exact U].
      intros j Hj. assert (SPL : l = firstn (Z.to_nat i) l ++ k :: skipn (S (Z.to_nat i)) l). { rewrite <- (firstn_skipn (S (Z.to_nat i)) l) at 1. replace (S (Z.to_nat i)) with (Z.to_nat (i + 1)) at 1 by lia. rewrite SP, <- app_assoc. reflexivity. }
      rewrite SPL in HSo. eapply sorted_snoc; [exact HSo|exact Hj].
    + intros st B. cbn [Z.add] in B. rewrite Nat2Z.id, firstn_all in B. exact B.
  - intros [bd bc] B. cbn [sat]. exists bd. exact B.
Qed.

Lemma best_nearest l bd bc : (forall k, In k l -> 0 <= k < n) -> l <> [] ->
  (forall i c, 0 <= i < n -> ~ In i l -> in_box c -> exists j, In j l /\ sqdist w (col j) c < sqdist w (col i) c) -> best l bd bc ->
  forall q, 0 <= q < 128 -> nearest w pal (cc q) (g bc q).
Proof.
  intros HL NE HO (_ & _ & B) q Hq. destruct (B q Hq) as [[-> _]|(B1 & B2 & B3)]; [congruence|]. split; [apply HL; exact B1|]. intros i Hi. cbv zeta. change (D (g bc q) q <= D i q /\ (i < g bc q -> D (g bc q) q < D i q)).
  destruct (in_dec Z.eq_dec i l) as [I|N]; [apply B3; exact I|]. destruct (HO i (cc q) Hi N (cc_box q Hq)) as (j & J1 & J2). fold (D j q) (D i q) in J2. destruct (B3 j J1) as [B4 _]. lia.
Qed.
End BOX.

(* ---- the cache ---- *)
Definition centre (c0 c1 c2 : Z) : Z * Z * Z := (8 * c0 + 4, 4 * c1 + 2, 8 * c2 + 4).
Definition cache_ok (h : hist) : Prop := forall c0 c1 c2, in_hist c0 c1 c2 = true -> h c0 c1 c2 = 0 \/ nearest w pal (centre c0 c1 c2) (h c0 c1 c2 - 1).

Lemma in_hist_iff a b c : in_hist a b c = true <-> 0 <= a < 32 /\ 0 <= b < 64 /\ 0 <= c < 32.
Proof. unfold in_hist. rewrite !andb_true_iff. lia. Qed.

Lemma fill_ok c0 c1 c2 h : in_hist c0 c1 c2 = true -> cache_ok h -> sat (fun h' => cache_ok h' /\ h' c0 c1 c2 <> 0) (fill_inverse_cmap s m garbage c0 c1 c2 h).
Proof.
  intros HI HC. apply in_hist_iff in HI. unfold fill_inverse_cmap, BOX_C0_LOG, BOX_C1_LOG, BOX_C2_LOG, BOX_SHIFT, C0_SHIFT, C1_SHIFT, C2_SHIFT.
  change (Z.shiftr (Z.shiftl 1 3) 1) with 4. change (Z.shiftr (Z.shiftl 1 2) 1) with 2. rewrite !Z.shiftr_div_pow2, !Z.shiftl_mul_pow2 by lia. change (2 ^ 2) with 4. change (2 ^ 3) with 8. change (2 ^ 5) with 32.
  pose proof (Z.div_mod c0 4 ltac:(lia)). pose proof (Z.mod_pos_bound c0 4 ltac:(lia)). pose proof (Z.div_mod c1 8 ltac:(lia)). pose proof (Z.mod_pos_bound c1 8 ltac:(lia)). pose proof (Z.div_mod c2 4 ltac:(lia)). pose proof (Z.mod_pos_bound c2 4 ltac:(lia)).
  set (b0 := c0 / 4) in *. set (b1 := c1 / 8) in *. set (b2 := c2 / 4) in *.
  set (m0 := b0 * 32 + 4). set (m1 := b1 * 32 + 2). set (m2 := b2 * 32 + 4).
  assert (R0 : 4 <= m0 <= 228) by (unfold m0; lia). assert (R1 : 2 <= m1 <= 226) by (unfold m1; lia). assert (R2 : 4 <= m2 <= 228) by (unfold m2; lia).
  eapply sat_bind; [apply (nearby_ok m0 m1 m2); assumption|]. intros l (N1 & N2 & N3 & N4).
  eapply sat_bind; [apply (find_best_ok m0 m1 m2); assumption|]. intros bc (bd & B).
  pose proof (best_nearest m0 m1 m2 l bd bc N1 N3 N4 B) as NR. destruct B as (_ & LB & _).
  assert (NC : forall x y z, 0 <= x < 4 -> 0 <= y < 8 -> 0 <= z < 4 -> nearest w pal (centre (b0 * 4 + x) (b1 * 8 + y) (b2 * 4 + z)) (g bc ((x * 8 + y) * 4 + z))).
  { intros x y z Hx Hy Hz. pose proof (NR ((x * 8 + y) * 4 + z) ltac:(lia)) as Q. unfold cc in Q.
    assert (Q0 : ((x * 8 + y) * 4 + z) / 32 = x) by (symmetry; apply (Z.div_unique_pos _ 32 x (y * 4 + z)); lia).
    assert (Q1 : ((x * 8 + y) * 4 + z) / 4 = x * 8 + y) by (symmetry; apply (Z.div_unique_pos _ 4 (x * 8 + y) z); lia).
    assert (Q2 : ((x * 8 + y) * 4 + z) mod 4 = z) by (symmetry; apply (Z.mod_unique_pos _ 4 (x * 8 + y) z); lia).
    assert (Q3 : (x * 8 + y) mod 8 = y) by (symmetry; apply (Z.mod_unique_pos _ 8 x y); lia).
    rewrite Q0, Q1, Q2, Q3 in Q. unfold centre. unfold m0, m1, m2 in Q.
    replace (8 * (b0 * 4 + x) + 4) with (b0 * 32 + 4 + 8 * x) by lia. replace (4 * (b1 * 8 + y) + 2) with (b1 * 32 + 2 + 4 * y) by lia. replace (8 * (b2 * 4 + z) + 4) with (b2 * 32 + 4 + 8 * z) by lia. exact Q. }
  clear NR N1 N2 N3 N4. clearbody m0 m1 m2.
  set (done := fun (c : Z) (h' : hist) => cache_ok h' /\ forall x y z, 0 <= x < 4 -> 0 <= y < 8 -> 0 <= z < 4 -> (x * 8 + y) * 4 + z < c -> h' (b0 * 4 + x) (b1 * 8 + y) (b2 * 4 + z) <> 0).
  eapply sat_bind with (P := fun st => done 128 (fst st)).
  - eapply sat_imp. 1: apply (sat_for (fun a st => done (a * 32) (fst st) /\ snd st = a * 32)).
    + split; [|reflexivity]. split; [exact HC|]. intros; lia.
    + intros a [h1 p1'] Ha [D1 E1]. cbn [fst snd] in *. subst p1'. change (0 + Z.of_nat 4) with 4 in Ha.
      eapply sat_imp. 1: apply (sat_for (fun b st => done (a * 32 + b * 4) (fst st) /\ snd st = a * 32 + b * 4)).
      * cbn [fst snd]. split; [replace (a * 32 + 0 * 4) with (a * 32) by lia; exact D1|lia].
      * intros b [h2 p2'] Hb [D2 E2]. cbn [fst snd] in *. subst p2'. change (0 + Z.of_nat 8) with 8 in Hb.
        eapply sat_imp. 1: apply (sat_for (fun c st => done (a * 32 + b * 4 + c) (fst st) /\ snd st = a * 32 + b * 4 + c)).
        -- cbn [fst snd]. split; [replace (a * 32 + b * 4 + 0) with (a * 32 + b * 4) by lia; exact D2|lia].
        -- intros c [h3 p3'] Hc [[D3 D4] E3]. cbn [fst snd] in *. subst p3'. change (0 + Z.of_nat 4) with 4 in Hc. rewrite aget_g by lia. cbn [bind].
           unfold hset. assert (IN : in_hist (b0 * 4 + a) (b1 * 8 + b) (b2 * 4 + c) = true) by (apply in_hist_iff; lia). rewrite IN. cbn [bind sat fst snd].
           pose proof (NC a b c ltac:(lia) ltac:(lia) ltac:(lia)) as NCabc. replace ((a * 8 + b) * 4 + c) with (a * 32 + b * 4 + c) in NCabc by lia. set (v := g bc (a * 32 + b * 4 + c)) in *. assert (RV : 0 <= v < n) by (apply NCabc).
           rewrite u16_id by (unfold n in *; lia). split; [|lia]. split.
           ++ intros x y z Hx. destruct ((x =? b0 * 4 + a) && (y =? b1 * 8 + b) && (z =? b2 * 4 + c)) eqn:E; [|apply D3; exact Hx].
              rewrite !andb_true_iff, !Z.eqb_eq in E. destruct E as [[-> ->] ->]. right. replace (v + 1 - 1) with v by lia. exact NCabc.
           ++ intros x y z Hx Hy Hz HH. destruct ((b0 * 4 + x =? b0 * 4 + a) && (b1 * 8 + y =? b1 * 8 + b) && (b2 * 4 + z =? b2 * 4 + c)) eqn:E; [lia|].
              rewrite !andb_false_iff, !Z.eqb_neq in E. apply D4; lia.
        -- intros [h3 p3'] [D3 E3]. cbn [fst snd] in *. change (0 + Z.of_nat 4) with 4 in *. split; [replace (a * 32 + (b + 1) * 4) with (a * 32 + b * 4 + 4) by lia; exact D3|lia].
      * intros [h2 p2'] [D2 E2]. cbn [fst snd] in *. change (0 + Z.of_nat 8) with 8 in *. split; [replace ((a + 1) * 32) with (a * 32 + 8 * 4) by lia; exact D2|lia].
    + intros [h1 p1'] [D1 E1]. exact D1.
  - intros [h1 p1'] [D1 D2]. cbn [fst] in *. cbn [sat]. split; [exact D1|]. specialize (D2 (c0 mod 4) (c1 mod 8) (c2 mod 4) ltac:(lia) ltac:(lia) ltac:(lia) ltac:(lia)).
    replace (b0 * 4 + c0 mod 4) with c0 in D2 by lia. replace (b1 * 8 + c1 mod 8) with c1 in D2 by lia. replace (b2 * 4 + c2 mod 4) with c2 in D2 by lia. exact D2.
Qed.

Lemma lookup_ok c0 c1 c2 h : in_hist c0 c1 c2 = true -> cache_ok h -> sat (fun r => nearest w pal (centre c0 c1 c2) (fst r) /\ cache_ok (snd r)) (lookup s m garbage c0 c1 c2 h).
Proof.
  intros HI HC. unfold lookup, hget. rewrite HI. cbn [bind].
  eapply sat_bind with (P := fun h' => cache_ok h' /\ h' c0 c1 c2 <> 0).
  - destruct (Z.eqb_spec (h c0 c1 c2) 0) as [E|E]; [apply fill_ok; assumption|]. cbn [sat]. split; assumption.
  - intros h' [C1 C2]. cbn [sat bind fst snd]. destruct (C1 c0 c1 c2 HI) as [E|NR]; [congruence|]. split; [|exact C1]. rewrite u8_id; [exact NR|]. destruct NR as [R _]. unfold n in *. lia.
Qed.

Lemma pixel_cell r gg b : sample r -> sample gg -> sample b -> in_hist (Z.shiftr r 3) (Z.shiftr gg 2) (Z.shiftr b 3) = true /\ centre (Z.shiftr r 3) (Z.shiftr gg 2) (Z.shiftr b 3) = cell_centre (r, gg, b).
Proof.
  unfold sample. intros H1 H2 H3. rewrite !Z.shiftr_div_pow2 by lia. change (2 ^ 3) with 8. change (2 ^ 2) with 4. split; [|reflexivity]. apply in_hist_iff.
  pose proof (Z.div_pos r 8). pose proof (Z.div_lt_upper_bound r 8 32). pose proof (Z.div_pos gg 4). pose proof (Z.div_lt_upper_bound gg 4 64). pose proof (Z.div_pos b 8). pose proof (Z.div_lt_upper_bound b 8 32). lia.
Qed.

Lemma no_dither_ok : forall row h, Forall colour row -> cache_ok h -> sat (fun r => Forall2 (fun c o => nearest w pal (cell_centre c) o) row (fst r) /\ cache_ok (snd r)) (pass2_no_dither s m garbage row h).
Proof.
  induction row as [|[[r gg] b] row IH]; intros h HR HC; [cbn; split; [constructor|exact HC]|]. cbn [pass2_no_dither]. destruct (Forall_inv HR) as (A & B & C).
  destruct (pixel_cell r gg b A B C) as [IN CE]. unfold C0_SHIFT, C1_SHIFT, C2_SHIFT.
  eapply sat_bind; [apply (lookup_ok _ _ _ h IN HC)|]. intros [o h1] [N1 C1]. cbn [fst snd] in *. eapply sat_bind; [apply (IH h1 (Forall_inv_tail HR) C1)|]. intros [os h2] [N2 C2]. cbn [fst snd sat] in *.
  split; [|exact C2]. constructor; [rewrite <- CE; exact N1|exact N2].
Qed.

(* ---- Floyd-Steinberg dithering ---- *)
Lemma error_limit_ok x : -255 <= x <= 255 -> exists e, error_limit x = Ret e /\ -32 <= e <= 32.
Proof.
  intros H. unfold error_limit. destruct (Z.ltb_spec x (-255)); [lia|]. destruct (Z.ltb_spec 255 x); [lia|]. cbn [orb]. cbv zeta. eexists. split; [reflexivity|].
  assert (A : forall a, 0 <= a -> 0 <= (if a <? 16 then a else if a <? 48 then 16 + (a - 16) / 2 else 32) <= 32).
  { intros a Ha. destruct (Z.ltb_spec a 16); [lia|]. destruct (Z.ltb_spec a 48); [|lia]. pose proof (Z.div_mod (a - 16) 2 ltac:(lia)). pose proof (Z.mod_pos_bound (a - 16) 2 ltac:(lia)). lia. }
  destruct (Z.ltb_spec x 0); [specialize (A (- x) ltac:(lia))|specialize (A x ltac:(lia))]; lia.
Qed.
Lemma fs_adjust_ok cur err inp : -1785 <= cur <= 1785 -> -2295 <= err <= 2295 -> sample inp -> exists v, fs_adjust cur err inp = Ret v /\ sample v /\ Z.abs (inp - v) <= 32.
Proof.
  unfold sample. intros H1 H2 H3. unfold fs_adjust. rewrite Z.shiftr_div_pow2 by lia. change (2 ^ 4) with 16.
  pose proof (Z.div_mod (cur + err + 8) 16 ltac:(lia)). pose proof (Z.mod_pos_bound (cur + err + 8) 16 ltac:(lia)).
  destruct (error_limit_ok ((cur + err + 8) / 16)) as (e & -> & He); [lia|]. cbn [bind]. unfold range_limit. destruct (Z.ltb_spec (e + inp) (-256)); [lia|]. destruct (Z.ltb_spec 639 (e + inp)); [lia|]. cbn [orb]. eexists. split; [reflexivity|]. lia.
Qed.

Definition errs_ok (wd : nat) (e : list Z * list Z * list Z) : Prop :=
  let '(e0, e1, e2) := e in
  (length e0 = wd + 2 /\ length e1 = wd + 2 /\ length e2 = wd + 2)%nat /\
  forall q, 0 <= q < Z.of_nat wd + 2 -> -2295 <= g e0 q <= 2295 /\ -2295 <= g e1 q <= 2295 /\ -2295 <= g e2 q <= 2295.
Definition tri (b : Z) (c : Z * Z * Z) : Prop := let '(x, y, z) := c in -b <= x <= b /\ -b <= y <= b /\ -b <= z <= b.

Definition fs_inv (row : list (Z * Z * Z)) (odd : bool) (i : Z) (st : fsst) : Prop :=
  let wd := Z.of_nat (length row) in
  errs_ok (length row) (f_e st) /\ tri 1785 (f_cur st) /\ tri 255 (f_below st) /\ tri 1530 (f_bprev st) /\
  f_idx st = (if odd then wd + 1 - i else i) /\ f_pos st = (if odd then wd - 1 - i else i) /\
  length (f_out st) = length row /\ cache_ok (f_hist st) /\
  forall q, 0 <= q < wd -> (if odd then wd - i <= q else q < i) -> diffused w pal (nth (Z.to_nat q) row (0, 0, 0)) (g (f_out st) q).

Lemma spread_ok c bp bl : -255 <= c <= 255 -> -1530 <= bp <= 1530 -> -255 <= bl <= 255 ->
  exists nn b2 l2 c2, fs_spread c bp bl = (nn, b2, l2, c2) /\ -2295 <= nn <= 2295 /\ -1530 <= b2 <= 1530 /\ -255 <= l2 <= 255 /\ -1785 <= c2 <= 1785.
Proof. intros. unfold fs_spread. do 4 eexists. split; [reflexivity|]. rewrite s16_id by (unfold s16r; lia). lia. Qed.

Lemma fs_pixel_ok row odd i st : Forall colour row -> 0 <= i < Z.of_nat (length row) -> fs_inv row odd i st -> sat (fs_inv row odd (i + 1)) (fs_pixel s m garbage (if odd then -1 else 1) row st).
Proof.
  intros HR Hi (A & B & C & E & F & G & LO & HC & O). unfold fs_pixel.
  destruct (f_e st) as [[e0 e1] e2]. destruct (f_cur st) as [[u0 u1] u2]. destruct (f_below st) as [[l0 l1] l2]. destruct (f_bprev st) as [[q0 q1] q2]. destruct A as ((A0 & A1 & A2) & AB). unfold tri in B, C, E.
  assert (RP : 0 <= f_pos st < Z.of_nat (length row)) by (rewrite G; destruct odd; lia).
  assert (RI : 0 <= f_idx st < Z.of_nat (length row) + 2) by (rewrite F; destruct odd; lia).
  set (j := f_idx st + (if odd then -1 else 1)). assert (RJ : 0 <= j < Z.of_nat (length row) + 2) by (unfold j; rewrite F; destruct odd; lia).
  rewrite (aget_nth _ _ (0, 0, 0)) by lia. cbn [bind]. assert (CO : colour (nth (Z.to_nat (f_pos st)) row (0, 0, 0))) by (rewrite Forall_forall in HR; apply HR, nth_In; lia).
  destruct (nth (Z.to_nat (f_pos st)) row (0, 0, 0)) as [[i0 i1] i2] eqn:EP. destruct CO as (S0 & S1 & S2).
  rewrite !aget_g by lia. cbn [bind]. destruct (AB j RJ) as (X0 & X1 & X2).
  destruct (fs_adjust_ok u0 (g e0 j) i0) as (v0 & -> & V0 & W0); [lia|lia|exact S0|].
  destruct (fs_adjust_ok u1 (g e1 j) i1) as (v1 & -> & V1 & W1); [lia|lia|exact S1|].
  destruct (fs_adjust_ok u2 (g e2 j) i2) as (v2 & -> & V2 & W2); [lia|lia|exact S2|]. cbn [bind].
  destruct (pixel_cell v0 v1 v2 V0 V1 V2) as [IN CE]. unfold C0_SHIFT, C1_SHIFT, C2_SHIFT.
  eapply sat_bind; [apply (lookup_ok _ _ _ _ IN HC)|]. intros [o h1] [N1 C1]. cbn [fst snd] in N1, C1. rewrite CE in N1.
  rewrite aset_ok by lia. cbn [bind]. pose proof (proj1 N1) as RO. fold n in RO. cbn [m cmap_of colormap0 colormap1 colormap2]. rewrite !get_map by exact RO. cbn [bind].
  pose proof (col_ok o RO) as CO. unfold p0, p1, p2. destruct (col o) as [[k0 k1] k2]. cbn [fst snd]. destruct CO as (K0 & K1 & K2). unfold sample in *.
  destruct (spread_ok (v0 - k0) q0 l0) as (n0 & x0 & y0 & z0 & -> & P0); [lia|lia|lia|].
  destruct (spread_ok (v1 - k1) q1 l1) as (n1 & x1 & y1 & z1 & -> & P1); [lia|lia|lia|].
  destruct (spread_ok (v2 - k2) q2 l2) as (n2 & x2 & y2 & z2 & -> & P2); [lia|lia|lia|].
  rewrite aset_ok by lia. cbn [bind]. rewrite aset_ok by lia. cbn [bind]. rewrite aset_ok by lia. cbn [bind sat].
  unfold fs_inv. cbn [f_e f_cur f_below f_bprev f_idx f_pos f_out f_hist]. split; [|split; [|split; [|split; [|split; [|split; [|split; [|split]]]]]]].
  - split; [rewrite !length_upd; split; [exact A0|split; [exact A1|exact A2]]|]. intros q Hq. rewrite !g_upd by lia. specialize (AB q Hq). destruct (f_idx st =? q); lia.
  - cbn; lia.
  - cbn; lia.
  - cbn; lia.
  - unfold j. rewrite F. destruct odd; lia.
  - rewrite G. destruct odd; lia.
  - rewrite length_upd. exact LO.
  - exact C1.
  - intros q Hq Hd. rewrite g_upd by lia. destruct (Z.eqb_spec (f_pos st) q) as [<-|N].
    + rewrite EP. exists (v0, v1, v2). split; [unfold colour, sample; lia|]. split; [unfold close; lia|exact N1].
    + apply O; [exact Hq|]. rewrite G in N. destruct odd; lia.
Qed.

Lemma fs_row_ok row odd errs h : Forall colour row -> errs_ok (length row) errs -> cache_ok h ->
  sat (fun r => let '(o, e, h') := r in Forall2 (diffused w pal) row o /\ errs_ok (length row) e /\ cache_ok h') (fs_row s m garbage odd row errs h).
Proof.
  intros HR HE HC. unfold fs_row. cbv zeta.
  eapply sat_bind with (P := fs_inv row odd (Z.of_nat (length row))).
  - eapply sat_imp. 1: apply (sat_for (fs_inv row odd)).
    + unfold fs_inv. cbn [f_e f_cur f_below f_bprev f_idx f_pos f_out f_hist]. split; [exact HE|]. split; [cbn; lia|]. split; [cbn; lia|]. split; [cbn; lia|]. split; [destruct odd; lia|]. split; [destruct odd; lia|]. split; [apply repeat_length|]. split; [exact HC|]. intros q Hq Hd. destruct odd; lia.
    + intros i st Hi HI. apply fs_pixel_ok; [exact HR|lia|exact HI].
    + intros st HI. exact HI.
  - intros st (A & B & C & E & F & G & LO & HC2 & O). destruct (f_e st) as [[e0 e1] e2]. destruct (f_bprev st) as [[q0 q1] q2]. destruct A as ((A0 & A1 & A2) & AB). unfold tri in E.
    assert (RI : 0 <= f_idx st < Z.of_nat (length row) + 2) by (rewrite F; destruct odd; lia).
    rewrite aset_ok by lia. cbn [bind]. rewrite aset_ok by lia. cbn [bind]. rewrite aset_ok by lia. cbn [bind sat]. rewrite !s16_id by (unfold s16r; lia). split; [|split; [|exact HC2]].
    + assert (forall q, 0 <= q < Z.of_nat (length row) -> diffused w pal (nth (Z.to_nat q) row (0, 0, 0)) (g (f_out st) q)) as OO by (intros q Hq; apply O; [exact Hq|destruct odd; lia]).
      clear -OO LO. unfold g in OO. revert LO OO. generalize (f_out st). induction row as [|c row IH]; intros o LO OO; destruct o as [|x o]; try discriminate LO; constructor.
      * apply (OO 0). cbn [length]. lia.
      * apply IH; [cbn in LO; lia|]. intros q Hq. specialize (OO (q + 1) ltac:(cbn [length]; lia)). replace (Z.to_nat (q + 1)) with (S (Z.to_nat q)) in OO by lia. exact OO.
    + split; [rewrite !length_upd; split; [exact A0|split; [exact A1|exact A2]]|]. intros q Hq. rewrite !g_upd by lia. specialize (AB q Hq). destruct (f_idx st =? q); lia.
Qed.

Lemma fs_rows_ok wd : forall rows odd errs h, Forall (fun r => length r = wd /\ Forall colour r) rows -> errs_ok wd errs -> cache_ok h ->
  sat (fun os => Forall2 (Forall2 (diffused w pal)) rows os) (fs_rows s m garbage odd rows errs h).
Proof.
  induction rows as [|r rows IH]; intros odd errs h HR HE HC; [constructor|]. cbn [fs_rows]. destruct (Forall_inv HR) as [<- CR].
  eapply sat_bind; [apply (fs_row_ok r odd errs h CR HE HC)|]. intros [[o e] h1] (D1 & D2 & D3). eapply sat_bind; [apply (IH (negb odd) e h1 (Forall_inv_tail HR) D2 D3)|]. intros os D4. cbn [sat]. constructor; assumption.
Qed.
End Q.
