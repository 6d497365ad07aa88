(* T_Smooth.v -- property C57: interblock smoothing. *)
From Verif Require Import Base M_Smooth S_Smooth P_Smooth P_Smooth2 P_Smooth3 P_Smooth4 P_Smooth5.

(* A component of an image whose block rows are covered by g_total iMCU rows of
   g_v block rows, with any crop inside it; a coefficient array padded to whole
   iMCU rows, with 64 16-bit coefficients per block; 16-bit quantizers. *)
Definition component (arr : barray) (g : sgeom) : Prop :=
  1 <= g_v g /\ 1 <= g_total g /\
  (g_total g - 1) * g_v g < g_hb g <= g_total g * g_v g /\
  0 <= g_first g <= g_last g /\ g_last g < g_wb g /\
  Z.of_nat (length arr) = g_total g * g_v g /\
  Forall (fun row => g_wb g <= Z.of_nat (length row) /\
     Forall (fun b => length b = 64%nat /\ Forall (fun x => - 2 ^ 15 <= x < 2 ^ 15) b) row) arr.

(* coefficient k of the stored block in row y, column x; of the block that the
   decoder passes to the inverse DCT for row br of the iMCU row, column x *)
Definition stored (arr : barray) (y x : Z) (k : nat) : Z :=
  nth k (nth (Z.to_nat x) (nth (Z.to_nat y) arr []) []) 0.
Definition given (g : sgeom) (out : list (list (list Z))) (br x : Z) (k : nat) : Z :=
  nth k (nth (Z.to_nat (x - g_first g)) (nth (Z.to_nat br) out []) []) 0.

(* The quantizers and precisions of a pass for which smoothing was selected *)
Definition selected (n : Z) (cs : list scomp) (ls ps : list (list Z)) (ci : nat)
    (q latch prev : list Z) : Prop :=
  start_output_pass true true true n cs = Some (ls, ps) /\
  (exists c, nth_error cs ci = Some c /\ sc_quant c = Some q) /\
  nth_error ls ci = Some latch /\ nth_error ps ci = Some prev /\
  Forall (fun x => 0 <= x < 2 ^ 16) q.

Lemma component_split arr g : component arr g -> geom_ok g /\ arr_ok arr g.
Proof. unfold component, geom_ok, arr_ok, r16. tauto. Qed.

Lemma selected_quants n cs ls ps ci q latch prev :
  selected n cs ls ps ci q latch prev -> quants_ok q.
Proof.
  intros (Hs & (c & Hc & Hq) & _ & _ & Hr). split; [exact Hr|].
  apply start_output_pass_spec in Hs. destruct Hs as (_ & _ & _ & Hf & _).
  rewrite Forall_forall in Hf. destruct (Hf c (nth_error_In _ _ Hc)) as [(q' & E & En) _].
  rewrite Hq in E. injection E as <-. exact En.
Qed.

(* When smoothing is used, and what it then takes as the precisions. *)
Theorem C57_when : forall block_smoothing progressive has_bits scan cs,
  (start_output_pass block_smoothing progressive has_bits scan cs <> None <->
   (block_smoothing = true /\ progressive = true /\ has_bits = true /\
    Forall (fun c => 0 <= nth 0 (sc_bits c) 0 /\
       exists q, sc_quant c = Some q /\
         forall k, In k [0; 1; 2; 3; 8; 9; 10; 16; 17; 24]%nat -> nth k q 0 <> 0) cs /\
    exists c i, In c cs /\ (1 <= i <= 9)%nat /\ nth i (sc_bits c) 0 <> 0)) /\
  (forall ls ps, start_output_pass block_smoothing progressive has_bits scan cs = Some (ls, ps) ->
     forall ci c, nth_error cs ci = Some c ->
     exists l p, nth_error ls ci = Some l /\ nth_error ps ci = Some p /\
       forall i, (1 <= i <= 9)%nat -> nth i l 0 = nth i (sc_bits c) 0 /\
         nth i p 0 = if 1 <? scan then nth i (sc_prev_bits c) 0 else -1).
Proof.
  intros dbs prog bits n cs. split.
  - assert (Hq : forall q, quant_nonzero q = true <->
       forall k, In k [0; 1; 2; 3; 8; 9; 10; 16; 17; 24]%nat -> nth k q 0 <> 0).
    { intros q. unfold quant_nonzero, Q01_POS, Q10_POS, Q20_POS, Q11_POS, Q02_POS, Q03_POS, Q12_POS,
        Q21_POS, Q30_POS. rewrite negb_true_iff, !orb_false_iff, !Z.eqb_neq. split.
      - intros H k Hk. cbn [In] in Hk.
        repeat (destruct Hk as [<-|Hk]; [tauto|]). destruct Hk.
      - intros H. repeat (split; [|apply H; cbn; tauto]). apply H; cbn; tauto. }
    assert (Hc : Forall comp_smoothable cs <-> Forall (fun c => 0 <= nth 0 (sc_bits c) 0 /\
       exists q, sc_quant c = Some q /\
         forall k, In k [0; 1; 2; 3; 8; 9; 10; 16; 17; 24]%nat -> nth k q 0 <> 0) cs).
    { rewrite !Forall_forall. unfold comp_smoothable.
      split; intros H c Hin; specialize (H c Hin).
      - destruct H as [(q & E & En) H]. split; [exact H|]. exists q. split; [exact E|].
        apply Hq. exact En.
      - destruct H as [H (q & E & En)]. split; [|exact H]. exists q. split; [exact E|].
        apply Hq. exact En. }
    assert (He : Exists comp_inexact cs <->
       exists c i, In c cs /\ (1 <= i <= 9)%nat /\ nth i (sc_bits c) 0 <> 0).
    { rewrite Exists_exists. unfold comp_inexact. split.
      - intros (c & H1 & i & H2 & H3). exists c, i. tauto.
      - intros (c & i & H1 & H2 & H3). exists c. split; [exact H1|]. exists i. tauto. }
    rewrite <- Hc, <- He. split.
    + intros H. destruct (start_output_pass dbs prog bits n cs) as [[ls ps]|] eqn:E; [|congruence].
      apply start_output_pass_spec in E. tauto.
    + intros H E.
      assert (start_output_pass dbs prog bits n cs = Some (map (latch_of n) cs, map (prev_of n) cs))
        by (apply start_output_pass_spec; tauto). congruence.
  - intros ls ps H ci c Hc. apply start_output_pass_spec in H.
    destruct H as (_ & _ & _ & _ & _ & -> & ->).
    exists (latch_of n c), (prev_of n c).
    split; [rewrite nth_error_map, Hc; reflexivity|].
    split; [rewrite nth_error_map, Hc; reflexivity|].
    intros i Hi. unfold latch_of, prev_of, latch_comp. cbn [fst snd].
    assert (Hi' : i = 1%nat \/ i = 2%nat \/ i = 3%nat \/ i = 4%nat \/ i = 5%nat \/ i = 6%nat \/
       i = 7%nat \/ i = 8%nat \/ i = 9%nat) by lia.
    split.
    + unfold SAVED_COEFS. rewrite <- (firstn_skipn 10 (sc_bits c)) at 2.
      destruct (Nat.lt_ge_cases i (length (sc_bits c))) as [Hl|Hl].
      * rewrite app_nth1; [reflexivity|]. rewrite firstn_length. lia.
      * rewrite nth_overflow by (rewrite firstn_length; lia). rewrite firstn_skipn.
        rewrite nth_overflow by lia. reflexivity.
    + destruct Hi' as [->|[->|[->|[->|[->|[->|[->|[->| ->]]]]]]]]; reflexivity.
Qed.

(* Safe for every geometry, crop, coefficient and selected table, and the
   neighbours used are at most two rows away, inside the padded array. *)
Theorem C57_safe : forall n cs ls ps ci q latch prev arr g last_good r,
  selected n cs ls ps ci q latch prev -> component arr g -> 0 <= r < g_total g ->
  exists out, smooth_comp arr g q latch prev last_good r = Ret out /\
    Z.of_nat (length out) = Z.min (g_v g) (g_hb g - r * g_v g) /\
    forall br, 0 <= br < Z.min (g_v g) (g_hb g - r * g_v g) ->
      Z.of_nat (length (nth (Z.to_nat br) out [])) = g_last g - g_first g + 1 /\
      exists Y : Z -> Z,
        (forall i, -2 <= i <= 2 -> 0 <= Y i < g_total g * g_v g /\
           Z.min 0 i <= Y i - (r * g_v g + br) <= Z.max 0 i) /\
        forall x, g_first g <= x <= g_last g ->
          length (nth (Z.to_nat (x - g_first g)) (nth (Z.to_nat br) out []) []) = 64%nat /\
          forall k, given g out br x k =
            smoothed (fun k => nth k q 0)
              (fun i => nth i (if last_good <? r then prev else latch) 0)
              (fun i j => stored arr (Y i) (clamp (g_first g) (g_wb g - 1) (x + j)) 0)
              (stored arr (r * g_v g + br) x) k.
Proof.
  intros n cs ls ps ci q latch prev arr g lg r Hs Hc Hr.
  pose proof (selected_quants _ _ _ _ _ _ _ _ Hs) as Hq.
  destruct (component_split _ _ Hc) as [Hg Ha].
  destruct (smooth_comp_ok arr g r Hg Ha Hr q latch prev lg Hq) as (out & E & L & T).
  rewrite (block_rows_spec g r Hg Hr) in *. exists out. split; [exact E|]. split; [exact L|].
  intros br Hbr. destruct (T br Hbr) as [T1 T2]. split; [exact T1|].
  exists (yrow g r br). split.
  - intros i Hi.
    assert (Hin : In i offsets).
    { unfold offsets. cbn [In]. lia. }
    rewrite <- (block_rows_spec g r Hg Hr) in Hbr.
    pose proof (yrow_near g r br i Hg Hr Hbr Hin).
    split; [apply yrow_in; assumption|lia].
  - exact T2.
Qed.

(* Exactly the specification, with the 5 x 5 neighbourhood clamped to the
   component: whenever the component fills its last iMCU row, and otherwise for
   the rows that do not reach past the last row and for a last iMCU row with at
   least two before it. *)
Theorem C57_exact : forall n cs ls ps ci q latch prev arr g last_good r br x k,
  selected n cs ls ps ci q latch prev -> component arr g -> 0 <= r < g_total g ->
  0 <= br < Z.min (g_v g) (g_hb g - r * g_v g) -> g_first g <= x <= g_last g ->
  (g_hb g mod g_v g = 0 \/
   (r < g_total g - 1 /\ r * g_v g + br + 2 < g_hb g) \/
   (r = g_total g - 1 /\ 2 <= r)) ->
  exists out, smooth_comp arr g q latch prev last_good r = Ret out /\
    given g out br x k =
      smoothed (fun k => nth k q 0)
        (fun i => nth i (if last_good <? r then prev else latch) 0)
        (fun i j => stored arr (clamp 0 (g_hb g - 1) (r * g_v g + br + i))
                               (clamp (g_first g) (g_wb g - 1) (x + j)) 0)
        (stored arr (r * g_v g + br) x) k.
Proof.
  intros n cs ls ps ci q latch prev arr g lg r br x k Hs Hc Hr Hbr Hx Hex.
  pose proof (selected_quants _ _ _ _ _ _ _ _ Hs) as Hq.
  destruct (component_split _ _ Hc) as [Hg Ha].
  destruct (smooth_comp_ok arr g r Hg Ha Hr q latch prev lg Hq) as (out & E & L & T).
  rewrite <- (block_rows_spec g r Hg Hr) in Hbr.
  exists out. split; [exact E|]. destruct (T br Hbr) as [T1 T2]. destruct (T2 x Hx) as [_ T3].
  unfold given. rewrite T3. apply smoothed_ext; [|reflexivity].
  intros i j Hi Hj. rewrite (yrow_exact g r br i Hg Hr Hbr Hex Hi). reflexivity.
Qed.

(* Only what is not known is touched: a coefficient that differs from the
   stored one is one of the nine, is stored as zero and not known exactly; or
   is the DC when no AC has been seen. *)
Theorem C57_untouched : forall n cs ls ps ci q latch prev arr g last_good r out br x k,
  selected n cs ls ps ci q latch prev -> component arr g -> 0 <= r < g_total g ->
  smooth_comp arr g q latch prev last_good r = Ret out ->
  0 <= br < Z.min (g_v g) (g_hb g - r * g_v g) -> g_first g <= x <= g_last g ->
  given g out br x k <> stored arr (r * g_v g + br) x k ->
  let bits i := nth i (if last_good <? r then prev else latch) 0 in
  (k = 0%nat /\ forall i, (1 <= i <= 9)%nat -> bits i = -1) \/
  (stored arr (r * g_v g + br) x k = 0 /\
   exists i, bits i <> 0 /\
     In (i, k) [(1, 1); (2, 8); (3, 16); (4, 9); (5, 2); (6, 3); (7, 10); (8, 17); (9, 24)]%nat /\
     ((5 < i)%nat -> forall i, (1 <= i <= 9)%nat -> bits i = -1)).
Proof.
  intros n cs ls ps ci q latch prev arr g lg r out br x k Hs Hc Hr E Hbr Hx Hd.
  destruct (C57_safe _ _ _ _ _ _ _ _ _ _ lg _ Hs Hc Hr) as (o & Eo & _ & T).
  rewrite E in Eo. injection Eo as <-. destruct (T br Hbr) as (_ & Y & _ & T2).
  destruct (T2 x Hx) as [_ T3]. rewrite T3 in Hd. cbv zeta.
  assert (Ho : forall cb, only_dc_known cb = true -> forall i, (1 <= i <= 9)%nat -> cb i = -1).
  { intros cb H i Hi. unfold only_dc_known in H. rewrite forallb_forall in H.
    apply Z.eqb_eq. apply H. apply in_seq. lia. }
  destruct (smoothed_changed _ _ _ _ _ Hd) as [[-> H]|(t & Hin & Hp & Hne & Hz & Hw)].
  - left. split; [reflexivity|]. apply Ho. exact H.
  - right. split; [exact Hz|]. exists (t_index t). split; [exact Hne|]. subst k. split.
    + clear - Hin. unfold targets in Hin.
      repeat (destruct Hin as [<-|Hin]; [cbn; tauto|]). destruct Hin.
    + intros Hi. apply Ho. destruct Hw as [Hw|Hw]; [exact Hw|]. exfalso.
      clear - Hin Hi Hw. unfold targets in Hin.
      repeat (destruct Hin as [<-|Hin]; [cbn in Hi, Hw; try lia; congruence|]). destruct Hin.
Qed.

(* A component known exactly is not modified. *)
Theorem C57_exactly_known : forall n cs ls ps ci q latch prev arr g last_good r out br x k,
  selected n cs ls ps ci q latch prev -> component arr g -> 0 <= r < g_total g ->
  smooth_comp arr g q latch prev last_good r = Ret out ->
  0 <= br < Z.min (g_v g) (g_hb g - r * g_v g) -> g_first g <= x <= g_last g ->
  (forall i, (1 <= i <= 9)%nat -> nth i (if last_good <? r then prev else latch) 0 = 0) ->
  given g out br x k = stored arr (r * g_v g + br) x k.
Proof.
  intros n cs ls ps ci q latch prev arr g lg r out br x k Hs Hc Hr E Hbr Hx Hb.
  destruct (C57_safe _ _ _ _ _ _ _ _ _ _ lg _ Hs Hc Hr) as (o & Eo & _ & T).
  rewrite E in Eo. injection Eo as <-. destruct (T br Hbr) as (_ & Y & _ & T2).
  destruct (T2 x Hx) as [_ T3]. rewrite T3. apply smoothed_identity. exact Hb.
Qed.

(* An estimate never contradicts the bits already received: with a low-order
   bits missing it is smaller than 2^a. *)
Theorem C57_bounded : forall n cs ls ps ci q latch prev arr g last_good r out br x i k,
  selected n cs ls ps ci q latch prev -> component arr g -> 0 <= r < g_total g ->
  smooth_comp arr g q latch prev last_good r = Ret out ->
  0 <= br < Z.min (g_v g) (g_hb g - r * g_v g) -> g_first g <= x <= g_last g ->
  In (i, k) [(1, 1); (2, 8); (3, 16); (4, 9); (5, 2); (6, 3); (7, 10); (8, 17); (9, 24)]%nat ->
  let a := nth i (if last_good <? r then prev else latch) 0 in
  0 < a <= 15 ->
  given g out br x k = stored arr (r * g_v g + br) x k \/
  (stored arr (r * g_v g + br) x k = 0 /\ Z.abs (given g out br x k) < 2 ^ a).
Proof.
  intros n cs ls ps ci q latch prev arr g lg r out br x i k Hs Hc Hr E Hbr Hx Hin a Ha.
  pose proof (quants_pos q (selected_quants _ _ _ _ _ _ _ _ Hs)) as
    (P0 & P1 & P8 & P16 & P9 & P2 & P3 & P10 & P17 & P24).
  destruct (C57_safe _ _ _ _ _ _ _ _ _ _ lg _ Hs Hc Hr) as (o & Eo & _ & T).
  rewrite E in Eo. injection Eo as <-. destruct (T br Hbr) as (_ & Y & _ & T2).
  destruct (T2 x Hx) as [_ T3]. rewrite T3. clear T T2 T3.
  set (old := stored arr (r * g_v g + br) x).
  match goal with |- context [smoothed _ ?c ?d _ _] => set (cb := c); set (D := d) end.
  assert (Ecb : cb i = a) by reflexivity.
  assert (H2 : 2 ^ a <= 2 ^ 15) by (apply Z.pow_le_mono_r; lia).
  assert (K : forall t, find (fun t => (t_pos t =? k)%nat) targets = Some t -> t_index t = i ->
     k <> 0%nat -> 0 < nth k q 0 ->
     smoothed (fun k => nth k q 0) cb D old k = old k \/
     (old k = 0 /\ Z.abs (smoothed (fun k => nth k q 0) cb D old k) < 2 ^ a)).
  { intros t Ht Hti Hk Hqk. rewrite (smoothed_target _ _ _ _ k i t Ht Hti Hk).
    destruct (weights_for _ t) as [w|]; [|left; reflexivity].
    rewrite Ecb. destruct (Z.eqb_spec a 0); [lia|]. cbn [negb andb].
    destruct (Z.eqb_spec (old k) 0) as [E0|E0]; [|left; reflexivity].
    right. split; [exact E0|].
    pose proof (predicted_bounded a (nth 0 q 0 * wsum w D) (nth k q 0) ltac:(lia) Hqk).
    rewrite s16_id by (unfold r16; lia). assumption. }
  clearbody cb D old a. cbn [In] in Hin.
  repeat (destruct Hin as [Hin|Hin];
    [apply pair_equal_spec in Hin; destruct Hin as [<- <-];
     apply (K _ eq_refl eq_refl); [discriminate|assumption]|]).
  destruct Hin.
Qed.

(* An estimate is the nearest integer to  quant0 * (weighted DC sum) /
   (256 * quantk), as long as it fits in 16 bits and the precision does not
   limit it. *)
Theorem C57_nearest : forall num q, 0 < q ->
  let p := predicted 0 num q in
  Z.abs (256 * q * p - num) <= 128 * q /\
  (forall a, 0 < a -> Z.abs p < 2 ^ a -> predicted a num q = p) /\
  (forall a, 0 < a -> 2 ^ a <= Z.abs p -> predicted a num q = Z.sgn num * (2 ^ a - 1)) /\
  predicted 0 (- num) q = - p.
Proof.
  intros num q Hq. cbv zeta. unfold predicted. change (0 <? 0) with false. cbv iota zeta.
  pose proof (rounded_near num q Hq) as Hn. pose proof (rounded_nonneg num q Hq) as H0.
  assert (Hr : rounded (- num) q = rounded num q) by (unfold rounded; rewrite Z.abs_opp; reflexivity).
  assert (Hz : num = 0 -> rounded num q = 0).
  { intros ->. unfold rounded. apply Z.div_small. cbn [Z.abs]. lia. }
  split; [destruct (Z.sgn_spec num) as [[? ->]|[[? ->]|[? ->]]]; lia|].
  split; [|split].
  - intros a Ha Hp. destruct (Z.ltb_spec 0 a); [|lia].
    destruct (Z.sgn_spec num) as [[? E]|[[? E]|[? E]]]; rewrite E in *; lia.
  - intros a Ha Hp. destruct (Z.ltb_spec 0 a); [|lia].
    pose proof (Z.pow_pos_nonneg 2 a ltac:(lia) ltac:(lia)).
    destruct (Z.sgn_spec num) as [[? E]|[[? E]|[? E]]]; rewrite E in *; lia.
  - rewrite Hr, Z.sgn_opp. ring.
Qed.

(* Flat regions stay flat: where all neighbouring DC values agree, nothing is
   changed. *)
Theorem C57_flat : forall n cs ls ps ci q latch prev arr g last_good r out br x k v,
  selected n cs ls ps ci q latch prev -> component arr g -> 0 <= r < g_total g ->
  smooth_comp arr g q latch prev last_good r = Ret out ->
  0 <= br < Z.min (g_v g) (g_hb g - r * g_v g) -> g_first g <= x <= g_last g ->
  (forall y x', 0 <= y < g_total g * g_v g -> 0 <= x' < g_wb g ->
     -2 <= y - (r * g_v g + br) <= 2 -> -2 <= x' - x <= 2 -> stored arr y x' 0 = v) ->
  given g out br x k = stored arr (r * g_v g + br) x k.
Proof.
  intros n cs ls ps ci q latch prev arr g lg r out br x k v Hs Hc Hr E Hbr Hx Hv.
  pose proof (quants_pos q (selected_quants _ _ _ _ _ _ _ _ Hs)) as
    (P0 & P1 & P8 & P16 & P9 & P2 & P3 & P10 & P17 & P24).
  destruct (component_split _ _ Hc) as [Hg Ha].
  assert (Hg' := Hg). destruct Hg' as (G1 & G2 & G3 & G4 & G5).
  destruct (C57_safe _ _ _ _ _ _ _ _ _ _ lg _ Hs Hc Hr) as (o & Eo & _ & T).
  rewrite E in Eo. injection Eo as <-. destruct (T br Hbr) as (_ & Y & HY & T2).
  destruct (T2 x Hx) as [_ T3]. rewrite T3.
  assert (Hy : 0 <= r * g_v g + br < g_total g * g_v g) by nia.
  apply smoothed_flat with (x := v).
  - intros k' Hk. cbn [In] in Hk. repeat (destruct Hk as [<-|Hk]; [assumption|]). destruct Hk.
  - intros i j Hi Hj.
    assert (-2 <= i <= 2) by (unfold offsets in Hi; cbn [In] in Hi; lia).
    assert (-2 <= j <= 2) by (unfold offsets in Hj; cbn [In] in Hj; lia).
    destruct (HY i ltac:(lia)) as [HY1 HY2].
    apply Hv; [exact HY1|unfold clamp; lia|lia|unfold clamp; lia].
  - rewrite <- (Hv (r * g_v g + br) x) by lia.
    destruct (bk_ok arr g r Ha (r * g_v g + br) x Hy ltac:(lia)) as [L F].
    unfold stored. rewrite Forall_forall in F. apply F. unfold bk in *. apply nth_In. lia.
  - apply Hv; lia.
Qed.

(* Smoothing does not depend on the orientation: transposing the block, its
   neighbourhood, the quantizer and the precisions transposes the result. *)
Definition transpose64 (l : list Z) : list Z :=
  map (fun k => nth (8 * (k mod 8) + k / 8) l 0) (seq 0 64).
Definition transpose25 (l : list Z) : list Z :=
  map (fun k => nth (5 * (k mod 5) + k / 5) l 0) (seq 0 25).
(* zigzag indices of the transposed frequencies *)
Definition transpose_bits (l : list Z) : list Z :=
  map (fun i => nth i l 0) [0; 2; 1; 5; 4; 3; 9; 8; 7; 6]%nat.

Theorem C57_transpose : forall q bits d ws,
  length q = 64%nat -> Forall (fun x => 0 < x < 2 ^ 16) q ->
  length d = 25%nat -> Forall (fun x => - 2 ^ 15 <= x < 2 ^ 15) d ->
  length ws = 64%nat ->
  exists out, smooth_block q bits d ws = Ret out /\
    smooth_block (transpose64 q) (transpose_bits bits) (transpose25 d) (transpose64 ws)
    = Ret (transpose64 out).
Proof.
  intros q bits d ws Lq Fq Ld Fd Lw.
  assert (Q : forall q, length q = 64%nat -> Forall (fun x => 0 < x < 2 ^ 16) q -> quants_ok q).
  { clear. intros q Lq Fq. split.
    - eapply Forall_impl; [|exact Fq]. intros z Hz. cbv beta in Hz. lia.
    - unfold quant_nonzero, Q01_POS, Q10_POS, Q20_POS, Q11_POS, Q02_POS, Q03_POS, Q12_POS,
        Q21_POS, Q30_POS. rewrite negb_true_iff, !orb_false_iff, !Z.eqb_neq.
      rewrite Forall_forall in Fq.
      assert (forall k, (k < 64)%nat -> nth k q 0 <> 0).
      { intros k Hk E. specialize (Fq (nth k q 0) ltac:(apply nth_In; lia)). lia. }
      repeat (split; [|apply H; lia]). apply H; lia. }
  assert (T64 : forall l, length (transpose64 l) = 64%nat) by (intros; reflexivity).
  assert (N64 : forall l k, length l = 64%nat -> (k < 64)%nat -> nth k (transpose64 l) 0 = nth (tpos k) l 0).
  { intros l k Hl Hk. unfold transpose64.
    rewrite nth_indep with (d' := (fun k => nth (8 * (k mod 8) + k / 8) l 0) 0%nat)
      by (rewrite map_length, seq_length; exact Hk).
    rewrite (map_nth (fun k => nth (8 * (k mod 8) + k / 8) l 0)). rewrite seq_nth by exact Hk. reflexivity. }
  assert (TQ : Forall (fun x => 0 < x < 2 ^ 16) (transpose64 q)).
  { apply Forall_forall. intros z Hz. unfold transpose64 in Hz. apply in_map_iff in Hz.
    destruct Hz as (k & <- & Hk). apply in_seq in Hk. rewrite Forall_forall in Fq. apply Fq.
    apply nth_In. pose proof (Nat.mod_upper_bound k 8 ltac:(lia)).
    pose proof (Nat.div_lt_upper_bound k 8 8 ltac:(lia) ltac:(lia)). lia. }
  assert (TD : Forall r16 (transpose25 d)).
  { apply Forall_forall. intros z Hz. unfold transpose25 in Hz. apply in_map_iff in Hz.
    destruct Hz as (k & <- & Hk). apply in_seq in Hk. rewrite Forall_forall in Fd. apply Fd.
    apply nth_In. pose proof (Nat.mod_upper_bound k 5 ltac:(lia)).
    pose proof (Nat.div_lt_upper_bound k 5 5 ltac:(lia) ltac:(lia)). lia. }
  destruct (smooth_block_ok q bits d ws (Q q Lq Fq) Ld Fd Lw) as (out & E & Lo & No).
  destruct (smooth_block_ok (transpose64 q) (transpose_bits bits) (transpose25 d) (transpose64 ws)
     (Q _ (T64 q) TQ) eq_refl TD (T64 ws)) as (out' & E' & Lo' & No').
  exists out. split; [exact E|]. rewrite E'. f_equal.
  apply nth_ext with (d := 0) (d' := 0); [rewrite Lo'; reflexivity|].
  rewrite Lo'. intros k Hk. rewrite No', N64, No by assumption.
  rewrite <- smoothed_transpose by exact Hk.
  assert (Hfind : forall t, In t targets -> (t_index t <= 9)%nat /\ (t_pos t < 64)%nat).
  { clear. unfold targets. intros t H.
    repeat (destruct H as [<-|H]; [cbn; lia|]). destruct H. }
  assert (HB : forall i, (i <= 9)%nat -> nth i (transpose_bits bits) 0 = nth (tindex i) bits 0).
  { intros i Hi. do 10 (destruct i as [|i]; [reflexivity|]). lia. }
  assert (HD : forall i j, In i offsets -> In j offsets -> nbh (transpose25 d) i j = nbh d j i).
  { intros i j Hi Hj. unfold offsets in Hi, Hj.
    destruct Hi as [<-|[<-|[<-|[<-|[<-|[]]]]]]; destruct Hj as [<-|[<-|[<-|[<-|[<-|[]]]]]]; reflexivity. }
  unfold smoothed. cbv zeta.
  rewrite (wsum_ext _ (nbh (transpose25 d)) (fun i j => nbh d j i) HD).
  rewrite !N64 by (try assumption; lia).
  assert (Hod : only_dc_known (fun i => nth i (transpose_bits bits) 0) =
                only_dc_known (fun i => nth (tindex i) bits 0)) by reflexivity.
  rewrite Hod. destruct (k =? 0)%nat; [reflexivity|].
  destruct (find _ targets) as [t|] eqn:Ef; [|reflexivity].
  destruct (find_target _ _ Ef) as [Hin _]. rewrite HB by (apply Hfind; exact Hin).
  destruct (weights_for _ t) as [w|]; [|reflexivity].
  rewrite (wsum_ext w (nbh (transpose25 d)) (fun i j => nbh d j i) HD). reflexivity.
Qed.

(* Concrete cases *)
Definition qones : list Z := repeat 1 64.
Definition blk (x : Z) : list Z := x :: repeat 0 63.
Definition sc0 : scomp := mkscomp (Some qones) (0 :: repeat (-1) 63) (repeat (-1) 64).
Definition ramp : barray := map (fun y => map (fun x => blk (x * 100 + y * 7)) [0; 1; 2; 3; 4]) [0; 1; 2; 3].
Definition geo : sgeom := mksgeom 2 2 4 5 0 4.

Example C57_selected_nonvacuous :
  exists ls ps, selected 1 [sc0] ls ps 0 qones (0 :: repeat (-1) 9) (0 :: repeat (-1) 9).
Proof.
  do 2 eexists. split; [vm_compute; reflexivity|]. split; [exists sc0; split; reflexivity|].
  split; [reflexivity|]. split; [reflexivity|]. apply Forall_forall. intros x Hx.
  apply repeat_spec in Hx. subst. lia.
Qed.

Example C57_component_nonvacuous : component ramp geo.
Proof.
  unfold component. cbn [g_v g_total g_hb g_first g_last g_wb geo].
  split; [lia|]. split; [lia|]. split; [lia|]. split; [lia|]. split; [lia|]. split; [reflexivity|].
  apply Forall_forall. intros row Hrow. unfold ramp in Hrow. apply in_map_iff in Hrow.
  destruct Hrow as (y & <- & Hy). split; [reflexivity|].
  apply Forall_forall. intros b Hb. apply in_map_iff in Hb. destruct Hb as (x & <- & Hx).
  split; [reflexivity|]. unfold blk. cbn [In] in Hx, Hy.
  apply Forall_cons; [lia|]. apply Forall_forall. intros z Hz. apply repeat_spec in Hz. subst. lia.
Qed.

Definition bits0 : list Z := 0 :: repeat (-1) 9.
Definition row_out (arr : barray) (g : sgeom) (r br : Z) : list (list Z) :=
  match smooth_comp arr g qones bits0 bits0 100 r with
  | Ret out => map (firstn 3) (nth (Z.to_nat br) out [])
  | _ => []
  end.

Example C57_ramp_computed :
  row_out ramp geo 0 1 = [[4; -16; 5]; [97; -36; 0]; [206; -31; 0]; [316; -36; 0]; [409; -16; -5]].
Proof. vm_compute. reflexivity. Qed.

(* Finding: decoding with a crop is not decoding and then cropping.  The blocks
   at the left edge of the crop (here columns 2, 3) are estimated as if the
   image began there; at the right edge the columns outside the crop are used. *)
Example C57_crop_refuted :
  row_out ramp (mksgeom 2 2 4 5 2 4) 0 1 = [[204; -16; 5]; [306; -40; 0]; [409; -16; -5]] /\
  skipn 2 (row_out ramp geo 0 1) = [[206; -31; 0]; [316; -36; 0]; [409; -16; -5]].
Proof. split; vm_compute; reflexivity. Qed.

(* Finding: with a component of three block rows in two iMCU rows of two, row 1
   uses the padding row 3 as the row two below it: bytes outside the component
   change the image. *)
Definition pad (v : Z) : barray :=
  firstn 3 ramp ++ [map (fun _ => blk v) [0; 1; 2; 3; 4]].
Example C57_dummy_row_refuted :
  row_out (pad 0) (mksgeom 2 2 3 5 0 4) 0 1 <> row_out (pad 1000) (mksgeom 2 2 3 5 0 4) 0 1.
Proof. vm_compute. discriminate. Qed.

(* Finding: in the same component the last row does not use the row two above
   it, which exists: row 0 does not matter for row 2. *)
Definition top (v : Z) : barray := map (fun _ => blk v) [0; 1; 2; 3; 4] :: skipn 1 ramp.
Example C57_second_row_above_refuted :
  row_out (top 0) (mksgeom 2 2 3 5 0 4) 1 0 = row_out (top 1000) (mksgeom 2 2 3 5 0 4) 1 0 /\
  row_out (top 0) (mksgeom 4 1 4 5 0 4) 2 0 <> row_out (top 1000) (mksgeom 4 1 4 5 0 4) 2 0 /\
  row_out (top 0) (mksgeom 2 2 4 5 0 4) 1 0 <> row_out (top 1000) (mksgeom 2 2 4 5 0 4) 1 0.
Proof.
  split; [vm_compute; reflexivity|]. split; vm_compute; discriminate.
Qed.

(* Finding: the smoothed DC is stored without a range check: extreme 16-bit
   DC values wrap around. *)
Definition extreme : barray :=
  map (fun y => map (fun x =>
    blk (if (Z.abs (x - 2) <=? 1) && (Z.abs (y - 2) <=? 1) then 32767 else -32768)) [0; 1; 2; 3; 4])
    [0; 1; 2; 3; 4].
Example C57_dc_wraps_refuted :
  match smooth_comp extreme (mksgeom 5 1 5 5 0 4) qones bits0 bits0 100 2 with
  | Ret out => nth 0 (nth 2 (nth 0 out []) []) 0
  | _ => 0
  end < 0.
Proof. vm_compute. reflexivity. Qed.

Print Assumptions C57_when.
Print Assumptions C57_safe.
Print Assumptions C57_exact.
Print Assumptions C57_untouched.
Print Assumptions C57_exactly_known.
Print Assumptions C57_bounded.
Print Assumptions C57_nearest.
Print Assumptions C57_flat.
Print Assumptions C57_transpose.
