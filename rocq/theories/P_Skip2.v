(* P_Skip2.v -- the context-row controller when lines are read and skipped. *)
From Verif Require Import Base M_DMain S_DMain P_DMain M_Skip S_Skip P_Skip.
Open Scope nat_scope.

Section Cfg.
Variables (h du : nat) (c : dcfg).
Hypothesis Hc : dcfg_ok h du c.
Hypothesis Hctx : g_context c = true.
Notation M := (g_M c).
Notation v := (g_v c).
Notation rg := (g_rg c).
Notation O := (g_O c).
Notation T := (g_T c).
Notation dh := (g_dh c).
Notation own := (own c).
Notation win := (win c).
Notation G := (rg * M).
Notation P := (rg * (M + 2)).
Notation X := (X c).
Notation NP := (NP c).
Notation WR := (WR c).
Notation UI := (UI c).
Notation fillv := (fillv c).
Notation okls := (okls c).
Let pos := pos h du c Hc Hctx.
Let geo_dh := geo_dh h du c Hc.
Let geo_T' := geo_T' h du c Hc.
Let geo_T_pos := geo_T_pos h du c Hc.
Let geo_group := geo_group h du c Hc.
Let rows_left_eq := rows_left_eq h du c Hc Hctx.
Let X_inj := X_inj h du c Hc Hctx.
Let X_flip := X_flip h du c Hc Hctx.
Let wrap1_ok := wrap1_ok h du c Hc Hctx.
Let clamp_id := clamp_id c.

Variable k0 : option nat.

Definition PI (r : nat) (w : bool) (x0 x1 : ptrs) : Prop :=
  NP false x0 /\ NP true x1 /\
  ((r <= 1 /\ w = false /\ forall i, i < rg -> x0 i = Some 0) \/
   (WR false x0 /\ WR true x1 /\ (r <= 1 -> k0 = Some ((r - 1) * M)))).
Definition W (r : nat) (w : bool) (ws : work) : Prop :=
  (forall s, ws s <> None) /\
  (forall i, i < G -> ws (X w i) = Some ((r - 1) * G + i)) /\
  (2 <= r -> k0 <> Some ((r - 1) * M) ->
   forall i, i < 2 * rg -> ws (X w (G + i)) = Some ((r - 1) * G - 2 * rg + i)).

Lemma filled_view : forall x ws first k, 1 <= first ->
  (forall j, j < rg + 2 -> exists r, view x ws (first - 1 + j) r /\
     (j <> 0 \/ k0 <> Some k -> r = clamp_row c (Z.of_nat (k * rg) + Z.of_nat j - 1))) ->
  fillv k0 x ws first k.
Proof.
  intros x ws first k Hf Hv.
  set (sl := fun j => match x (first + j) with Some s => s | None => 0 end).
  set (vl := fun j => match x (first - 1 + j) with Some s => match ws s with Some r => r | None => 0 end | None => 0 end).
  exists (map sl (seq 0 rg)), (map vl (seq 0 (rg + 2))).
  assert (Hw : forall j, j < rg -> x (first + j) = Some (sl j) /\
            ws (sl j) = Some (clamp_row c (Z.of_nat (k * rg) + Z.of_nat j))).
  { intros j Hj. destruct (Hv (S j) ltac:(lia)) as (r & (s & E1 & E2) & E3).
    replace (first - 1 + S j) with (first + j) in E1 by lia.
    unfold sl. rewrite E1. split; [reflexivity|]. rewrite E2, E3 by (left; lia). f_equal. f_equal. lia. }
  split; [|split; [|split]].
  - apply mapM_seq. intros j Hj. unfold slot_of. destruct (Hw j Hj) as [-> _]. reflexivity.
  - unfold P_DMain.own. rewrite Hctx. apply mapM_map. intros j Hj. unfold slot_val. destruct (Hw j Hj) as [_ ->]. reflexivity.
  - rewrite Hctx. apply mapM_seq. intros j Hj. unfold deref, vl.
    destruct (Hv j Hj) as (r & (s & -> & ->) & _). reflexivity.
  - unfold P_DMain.win, valok. unfold P_DMain.win. rewrite Hctx, !map_length. split; [reflexivity|].
    intros j Hj HS. rewrite seq_length in Hj. rewrite !nth_error_map.
    rewrite (nth_error_nth' (seq 0 (rg + 2)) 0) by (rewrite seq_length; lia).
    rewrite seq_nth by lia. cbn [option_map Nat.add]. f_equal.
    destruct (Hv j Hj) as (r & (s & E1 & E2) & E3). unfold vl. rewrite E1, E2. apply E3.
    destruct (Nat.eq_dec j 0) as [->|N]; [right|left; exact N]. intros K. exact (HS eq_refl K eq_refl).
Qed.

Lemma top_view : forall r w x0 x1 ws, 1 <= r -> PI r w x0 x1 -> W r w ws -> (r - 1) * G < dh ->
  exists q, view (if w then x1 else x0) ws (rg - 1) q /\
    (k0 <> Some ((r - 1) * M) -> q = clamp_row c (Z.of_nat ((r - 1) * G) - 1)).
Proof.
  intros r w x0 x1 ws Hr (N0 & N1 & [(Q1 & Q2 & Q3)|(R0 & R1 & Q)]) (W0 & W1 & W2) Hd; destruct pos as (A & B & C).
  - assert (r = 1) by lia. subst r w. exists 0. split.
    + exists 0. split; [apply Q3; lia|]. pose proof (W1 0 ltac:(nia)) as E. cbn [P_DMain.X] in E. rewrite E. f_equal.
    + intros _. unfold clamp_row. pose proof (geo_dh 0 geo_T_pos). lia.
  - assert (E : (if w then x1 else x0) (rg - 1) = Some (X w (rg * (M + 1) + (rg - 1)))).
    { destruct w; [apply R1|apply R0]; lia. }
    set (s := X w (rg * (M + 1) + (rg - 1))) in *.
    destruct (ws s) as [q|] eqn:Es; [|exfalso; exact (W0 s Es)].
    exists q. split; [exists s; split; [exact E|exact Es]|].
    intros K. destruct (Nat.le_gt_cases r 1) as [L|L]; [exfalso; apply K; apply Q; exact L|].
    unfold s in Es. replace (rg * (M + 1) + (rg - 1)) with (G + (2 * rg - 1)) in Es by nia.
    rewrite (W2 L K) in Es by lia. injection Es as <-.
    assert (G <= (r - 1) * G) by nia. assert (2 * rg <= G) by nia. rewrite (clamp_id ((r - 1) * G - 1)) by lia. lia.
Qed.

Lemma row_view : forall r w x0 x1 ws i, PI r w x0 x1 -> W r w ws -> i < G ->
  view (if w then x1 else x0) ws (rg + i) ((r - 1) * G + i).
Proof.
  intros r w x0 x1 ws i (N0 & N1 & _) (_ & W1 & _) Hi. exists (X w i). split; [|apply W1; exact Hi].
  assert (i < P) by nia. destruct w; [apply N1|apply N0]; assumption.
Qed.

Lemma filled_mid : forall r w x0 x1 ws g, 1 <= r -> r < T -> PI r w x0 x1 -> W r w ws -> g < M - 1 ->
  fillv k0 (if w then x1 else x0) ws (rg + g * rg) ((r - 1) * M + g).
Proof.
  intros r w x0 x1 ws g Hr HT HP HW Hg. destruct pos as (A & B & C).
  pose proof (geo_dh r HT) as D.
  assert (E : (r - 1) * G + G = r * G) by (destruct r; nia).
  apply filled_view; [lia|]. intros j Hj.
  destruct (Nat.eq_dec (g * rg + j) 0) as [Z0|NZ].
  - assert (g = 0) by nia. assert (j = 0) by lia. subst g j.
    replace (rg + 0 * rg - 1 + 0) with (rg - 1) by lia.
    replace (Z.of_nat (((r - 1) * M + 0) * rg) + Z.of_nat 0 - 1)%Z with (Z.of_nat ((r - 1) * G) - 1)%Z by lia.
    rewrite Nat.add_0_r.
    destruct (top_view r w x0 x1 ws Hr HP HW ltac:(lia)) as (q & V1 & V2). exists q. split; [exact V1|].
    intros [K|K]; [lia|exact (V2 K)].
  - assert (g * rg + rg <= (M - 1) * rg) by nia. assert ((M - 1) * rg + rg = G) by nia.
    replace (rg + g * rg - 1 + j) with (rg + (g * rg + j - 1)) by lia.
    exists ((r - 1) * G + (g * rg + j - 1)). split; [apply row_view; [exact HP|exact HW|lia]|].
    intros _. rewrite (clamp_id ((r - 1) * G + (g * rg + j - 1))); [reflexivity|nia|lia].
Qed.

Lemma filled_post : forall r w x0 x1 ws, 2 <= r -> r <= T -> WR false x0 /\ WR true x1 -> k0 <> Some ((r - 1) * M) ->
  PI r w x0 x1 -> W r w ws ->
  fillv k0 (if w then x1 else x0) ws (rg + (M + 1) * rg) ((r - 1) * M - 1).
Proof.
  intros r w x0 x1 ws Hr HT HWR HK HP HW. destruct pos as (A & B & C).
  pose proof (geo_dh (r - 1) ltac:(lia)) as D.
  assert (E0 : 2 * rg <= (r - 1) * G) by (assert (G <= (r - 1) * G) by nia; assert (2 * rg <= G) by nia; lia).
  assert (Ek : ((r - 1) * M - 1) * rg = (r - 1) * G - rg) by nia.
  apply filled_view; [lia|]. intros j Hj. rewrite Ek.
  destruct HP as (N0 & N1 & _). destruct HWR as [(_ & R0) (_ & R1)]. destruct HW as (_ & W1 & W2).
  exists ((r - 1) * G - rg + j - 1). split; [|intros _; rewrite (clamp_id ((r - 1) * G - rg + j - 1)) by lia; reflexivity].
  destruct (Nat.eq_dec j (rg + 1)) as [->|Nj].
  - exists (X w 0). split.
    + replace (rg + (M + 1) * rg - 1 + (rg + 1)) with (rg + P + 0) by nia.
      destruct w; [apply R1|apply R0]; lia.
    + rewrite W1 by nia. f_equal. lia.
  - exists (X w (G + (rg - 1 + j))). split.
    + replace (rg + (M + 1) * rg - 1 + j) with (rg + (G + (rg - 1 + j))) by nia.
      assert (G + (rg - 1 + j) < P) by nia.
      destruct w; [apply N1|apply N0]; assumption.
    + rewrite (W2 Hr HK) by lia. f_equal. lia.
Qed.

Lemma filled_bot : forall w x0 x1 ws g, PI T w x0 x1 -> W T w ws -> g < (rows_left c - 1) / rg + 1 ->
  fillv k0 (dup_loop (rg * 2) 0 (rg + rows_left c) (rg + (rows_left c - 1)) (if w then x1 else x0))
         ws (rg + g * rg) ((T - 1) * M + g).
Proof.
  intros w x0 x1 ws g HP HW Hg. destruct pos as (A & B & C). pose proof geo_T_pos as HT.
  destruct rows_left_eq as (L1 & L2 & L3). set (L := rows_left c) in L1, L2, L3, Hg |- *. clearbody L.
  pose proof (Nat.div_mod (L - 1) rg ltac:(lia)) as E.
  assert (Hg' : g * rg <= L - 1) by nia. clear E Hg.
  apply filled_view; [lia|]. intros j Hj.
  set (x := if w then x1 else x0) in *.
  destruct (Nat.eq_dec (g * rg + j) 0) as [Z0|NZ].
  - assert (g = 0) by nia. assert (j = 0) by lia. subst g j.
    replace (rg + 0 * rg - 1 + 0) with (rg - 1) by lia. rewrite Nat.add_0_r.
    replace (Z.of_nat ((T - 1) * M * rg) + Z.of_nat 0 - 1)%Z with (Z.of_nat ((T - 1) * G) - 1)%Z by lia.
    destruct (top_view T w x0 x1 ws HT HP HW ltac:(lia)) as (q & (s & S1 & S2) & V2).
    exists q. split; [|intros [K|K]; [lia|exact (V2 K)]]. exists s. split; [|exact S2].
    rewrite dup_loop_spec by lia. rewrite (proj2 (Nat.leb_gt (rg + L + 0) (rg - 1))) by lia. exact S1.
  - replace (rg + g * rg - 1 + j) with (rg + (g * rg + j - 1)) by lia. set (i := g * rg + j - 1) in *.
    assert (Hi : i < L + 2 * rg) by lia.
    assert (Ez : (Z.of_nat (((T - 1) * M + g) * rg) + Z.of_nat j - 1 = Z.of_nat ((T - 1) * G + i))%Z)
      by (replace (((T - 1) * M + g) * rg) with ((T - 1) * G + g * rg) by (generalize (T - 1); intros; nia); unfold i; lia).
    rewrite Ez. clearbody i.
    unfold view. rewrite dup_loop_spec by lia.
    destruct (Nat.leb_spec (rg + L + 0) (rg + i)) as [Q|Q].
    + rewrite (proj2 (Nat.ltb_lt (rg + i) (rg + L + 0 + rg * 2))) by lia. cbn [andb].
      assert (Ec : clamp_row c (Z.of_nat ((T - 1) * G + i)) = (T - 1) * G + (L - 1)).
      { unfold clamp_row. rewrite L3. generalize ((T - 1) * G). intros q. lia. }
      rewrite Ec. eexists. split; [apply (row_view T w); [exact HP|exact HW|lia]|reflexivity].
    + cbn [andb]. rewrite (clamp_id ((T - 1) * G + i)) by lia.
      eexists. split; [apply (row_view T w); [exact HP|exact HW|lia]|reflexivity].
Qed.

Definition kle (n : nat) : Prop := forall k, k0 = Some k -> k <= n.

(* the states of the context state machine while y < O *)
Definition IP (d : dst) (y : nat) : Prop := exists r w,
  let m := d_main d in
  1 <= r <= T /\ d_row d = r /\ m_ctr m = r /\ m_full m = true /\ m_cs m = CTX_PROCESS_IMCU /\
  m_which m = w /\ m_rgc m < m_avail m /\
  (forall g, g < m_avail m -> fillv k0 (xbuf m) (m_ws m) (rg + g * rg) ((r - 1) * M + g)) /\
  (r < T -> m_avail m = M - 1 /\ PI r w (m_x0 m) (m_x1 m) /\ W r w (m_ws m)) /\
  (r = T -> dh <= ((r - 1) * M + m_avail m) * rg) /\
  kle ((r - 1) * M) /\
  UI k0 ((r - 1) * M + m_rgc m) y (d_ups d) (m_ws m).
Definition IQ (d : dst) (y : nat) : Prop := exists r w,
  let m := d_main d in
  1 <= r <= T /\ d_row d = r /\ m_ctr m = r /\ m_full m = true /\ m_cs m = CTX_PREPARE_FOR_IMCU /\
  m_which m = w /\ PI r w (m_x0 m) (m_x1 m) /\ W r w (m_ws m) /\ kle ((r - 1) * M) /\
  u_next (d_ups d) = v /\ UI k0 ((r - 1) * M) y (d_ups d) (m_ws m).
Definition IN (d : dst) (y : nat) : Prop := exists r w,
  let m := d_main d in
  r < T /\ d_row d = r /\ m_ctr m = r /\ m_full m = false /\ m_cs m = CTX_PREPARE_FOR_IMCU /\
  m_which m = w /\ NP false (m_x0 m) /\ NP true (m_x1 m) /\ (forall s, m_ws m s <> None) /\
  ((r = 0 /\ w = false /\ forall i, i < rg -> m_x0 m i = Some 0) \/
   (WR false (m_x0 m) /\ WR true (m_x1 m) /\ k0 = Some (r * M))) /\ kle (r * M) /\
  u_next (d_ups d) = v /\ UI k0 (r * M) y (d_ups d) (m_ws m).
Definition IS (d : dst) (y : nat) : Prop := exists r w,
  let m := d_main d in
  1 <= r < T /\ d_row d = r /\ m_ctr m = r /\ m_full m = false /\ m_cs m = CTX_POSTPONED_ROW /\
  m_which m = negb w /\ m_rgc m = M + 1 /\ m_avail m = M + 2 /\
  NP false (m_x0 m) /\ NP true (m_x1 m) /\ WR false (m_x0 m) /\ WR true (m_x1 m) /\ W r w (m_ws m) /\ kle ((r - 1) * M) /\
  u_next (d_ups d) = v /\ UI k0 (r * M - 1) y (d_ups d) (m_ws m).
Definition IU (d : dst) (y : nat) : Prop := exists r w,
  let m := d_main d in
  2 <= r <= T /\ d_row d = r /\ m_ctr m = r /\ m_full m = true /\ m_cs m = CTX_POSTPONED_ROW /\
  m_which m = w /\ m_rgc m = M + 1 /\ m_avail m = M + 2 /\
  NP false (m_x0 m) /\ NP true (m_x1 m) /\ WR false (m_x0 m) /\ WR true (m_x1 m) /\ W r w (m_ws m) /\ kle ((r - 2) * M) /\
  UI k0 ((r - 1) * M - 1) y (d_ups d) (m_ws m).
(* between calls *)
Definition CI (d : dst) (y : nat) : Prop :=
  d_orc d = [] /\ y <= O /\
  (y = O \/ (IP d y /\ (d_row d - 1) * M * v < y) \/ (IQ d y /\ 2 <= d_row d) \/ IN d y \/ IS d y \/
   (IU d y /\ ((d_row d - 1) * M - 1) * v < y)).

Definition Res (d : dst) (y out avail : nat) (o : outcome (dst * nat)) : Prop :=
  exists d' ls, o = Ret (d', out + length ls) /\ d_lines d' = d_lines d ++ ls /\ okls k0 y ls /\
    1 <= length ls /\ length ls <= avail - out /\ CI d' (y + length ls) /\ d_row d' = d_row d.

Lemma process_ok : forall d y out avail, IP d y -> y < O -> d_orc d = [] -> out < avail -> avail - out <= O - y ->
  Res d y out avail (ctx_process c d out avail).
Proof.
  intros d y out avail (r & w & H) Hy HO Ho Ha. cbv zeta in H.
  destruct H as (Hr & R1 & R2 & R3 & R4 & R5 & R6 & R7 & R8 & R9 & R11 & R10).
  unfold ctx_process, post. set (m := d_main d) in *. destruct pos as (A & B & C).
  destruct (up_step h du c Hc k0 (xbuf m) (m_ws m) (m_rgc m) (rg + m_rgc m * rg) _ y (d_ups d) out avail R10)
    as (u' & ls & rgc' & E & C1 & C2 & C3 & C5 & C4); [|exact Hy|exact Ho|exact Ha|].
  { intros _. apply R7. exact R6. }
  rewrite E. cbn [bind d_main d_ups d_orc d_row d_lines].
  unfold with_rgc at 1 2. cbn [m_rgc m_avail].
  destruct (Nat.ltb_spec rgc' (m_avail m)) as [L|L].
  - eexists _, ls. split; [reflexivity|]. split; [reflexivity|]. split; [exact C1|]. split; [exact C2|]. split; [exact C3|].
    split; [|reflexivity].
    split; [exact HO|]. split; [lia|].
    right. left. cbn [d_row]. split; [|nia]. exists r, w. cbv zeta. cbn [d_main d_row d_ups with_rgc m_ctr m_full m_cs m_which m_rgc m_avail m_x0 m_x1 m_ws].
    split; [exact Hr|]. split; [exact R1|]. split; [exact R2|]. split; [exact R3|]. split; [exact R4|].
    split; [exact R5|]. split; [exact L|]. split; [exact R7|]. split; [exact R8|]. split; [exact R9|]. split; [exact R11|].
    destruct C4 as [(Q1 & Q2 & Q3)|(Q1 & Q2 & Q3 & _)]; rewrite Q1; [|exact Q3].
    replace ((r - 1) * M + S (m_rgc m)) with (S ((r - 1) * M + m_rgc m)) by lia. exact Q3.
  - destruct C4 as [(Q1 & Q2 & Q3)|(Q1 & _)]; [|lia].
    assert (Eg : m_avail m = S (m_rgc m)) by lia.
    eexists _, ls. split; [reflexivity|]. split; [reflexivity|]. split; [exact C1|]. split; [exact C2|]. split; [exact C3|].
    split; [|reflexivity].
    split; [exact HO|]. split; [lia|].
    pose proof (UI_pos c _ _ _ _ _ Q2 Q3) as Ey.
    destruct (Nat.eq_dec r T) as [->|NT].
    + left. specialize (R9 eq_refl). rewrite Eg in R9.
      destruct (Nat.lt_ge_cases (y + length ls) O) as [K|K]; [|lia].
      rewrite Ey in K. apply geo_group in K. nia.
    + destruct (R8 ltac:(lia)) as (T1 & T2 & T3).
      right. right. right. right. left. exists r, w. cbv zeta.
      cbn [d_main d_row d_ups with_rgc m_ctr m_full m_cs m_which m_rgc m_avail m_x0 m_x1 m_ws].
      assert (EU : UI k0 (r * M - 1) (y + length ls) u' (m_ws m))
        by (replace (r * M - 1) with (S ((r - 1) * M + m_rgc m)) by (destruct r; nia); exact Q3).
      destruct (Nat.eqb_spec (m_ctr m) 1) as [K|K].
      * cbn [set_wraparound_pointers m_ctr m_full m_cs m_which m_rgc m_avail m_x0 m_x1 m_ws with_rgc].
        split; [lia|]. split; [exact R1|]. split; [exact R2|]. split; [reflexivity|]. split; [reflexivity|].
        split; [rewrite R5; reflexivity|]. split; [reflexivity|]. split; [reflexivity|].
        destruct T2 as (N0 & N1 & _). destruct (wrap1_ok _ _ N0) as [V1 V2]. destruct (wrap1_ok _ _ N1) as [V3 V4].
        split; [exact V1|]. split; [exact V3|]. split; [exact V2|]. split; [exact V4|].
        split; [exact T3|]. split; [exact R11|]. split; [exact Q2|]. exact EU.
      * cbn [m_ctr m_full m_cs m_which m_rgc m_avail m_x0 m_x1 m_ws with_rgc].
        destruct T2 as (N0 & N1 & [(T2 & _)|(V2 & V4 & _)]); [lia|].
        split; [lia|]. split; [exact R1|]. split; [exact R2|]. split; [reflexivity|]. split; [reflexivity|].
        split; [rewrite R5; reflexivity|]. split; [reflexivity|]. split; [reflexivity|].
        split; [exact N0|]. split; [exact N1|]. split; [exact V2|]. split; [exact V4|].
        split; [exact T3|]. split; [exact R11|]. split; [exact Q2|]. exact EU.
Qed.

Lemma prepare_ok : forall d y out avail, IQ d y -> d_orc d = [] -> out < avail -> avail - out <= O - y ->
  Res d y out avail (ctx_prepare c d out avail).
Proof.
  intros d y out avail (r & w & H) HO Ho Ha. cbv zeta in H.
  destruct H as (Hr & R1 & R2 & R3 & R4 & R5 & R6 & R7 & R10 & R8 & R9).
  assert (Hy : y < O).
  { rewrite (UI_pos c _ _ _ _ _ R8 R9). rewrite <- Nat.mul_assoc. apply geo_T'. lia. }
  unfold ctx_prepare. set (m := d_main d) in *. destruct pos as (A & B & C).
  cbn [m_ctr]. rewrite R2.
  destruct (Nat.eqb_spec r T) as [ET|K].
  - set (d1 := mkD _ _ _ _ _).
    enough (I1 : IP d1 y) by exact (process_ok d1 y out avail I1 Hy HO Ho Ha).
    destruct rows_left_eq as (L1 & L2 & L3).
    exists T, w. cbv zeta. unfold d1. cbn [d_main d_row d_ups].
    unfold set_bottom_pointers, with_cs. cbn [m_ctr m_full m_cs m_which m_rgc m_avail m_x0 m_x1 m_ws].
    subst r. rewrite ET in *.
    split; [lia|]. split; [first [exact ET|reflexivity]|]. split; [first [exact R2|reflexivity|lia]|]. split; [exact R3|]. split; [reflexivity|].
    split; [exact R5|]. split; [lia|]. split.
    { intros g Hg. unfold xbuf. cbn [m_which m_x0 m_x1]. rewrite R5.
      pose proof (filled_bot w (m_x0 m) (m_x1 m) (m_ws m) g R6 R7 Hg) as F.
      destruct w; exact F. }
    split; [lia|]. split.
    { intros _. pose proof (Nat.div_mod (rows_left c - 1) rg ltac:(lia)).
      pose proof (Nat.mod_upper_bound (rows_left c - 1) rg ltac:(lia)). rewrite L3. nia. }
    split; [exact R10|].
    rewrite Nat.add_0_r. exact R9.
  - set (d1 := mkD _ _ _ _ _).
    enough (I1 : IP d1 y) by exact (process_ok d1 y out avail I1 Hy HO Ho Ha).
    exists r, w. cbv zeta. unfold d1. cbn [d_main d_row d_ups].
    unfold with_cs. cbn [m_ctr m_full m_cs m_which m_rgc m_avail m_x0 m_x1 m_ws].
    split; [lia|]. split; [exact R1|]. split; [first [exact R2|reflexivity]|]. split; [exact R3|]. split; [reflexivity|].
    split; [exact R5|]. split; [lia|]. split.
    { intros g Hg. unfold xbuf. cbn [m_which m_x0 m_x1]. rewrite R5. apply filled_mid; [lia|lia|exact R6|exact R7|exact Hg]. }
    split; [intros _; split; [reflexivity|split; [exact R6|exact R7]]|]. split; [lia|]. split; [exact R10|].
    rewrite Nat.add_0_r. exact R9.
Qed.

Lemma decomp_ok : forall r (w : bool) (x0 x1 : ptrs) (ws : work), NP false x0 /\ NP true x1 -> (forall s, ws s <> None) ->
  exists ws', decompress_rows G 0 (r * G) (fun i => (if w then x1 else x0) (rg + i)) ws = Ret ws' /\
    (forall s, ws' s <> None) /\
    (forall i, i < G -> ws' (X w i) = Some (r * G + i)) /\
    (forall i, i < 2 * rg -> ws' (X w (G + i)) = ws (X w (G + i))).
Proof.
  intros r w x0 x1 ws (N0 & N1) HW. destruct pos as (A & B & C).
  assert (HGP : G + 2 * rg = P) by nia.
  destruct (decompress_rows_spec G 0 (r * G) (fun i => (if w then x1 else x0) (rg + i)) ws (X w))
    as (ws' & E & F1 & F2).
  - intros j Hj. assert (j < P) by lia. destruct w; [apply N1|apply N0]; assumption.
  - intros j k Hj Hk. apply X_inj; lia.
  - exists ws'. split; [exact E|]. split; [|split].
    + intros s. destruct (in_dec Nat.eq_dec s (map (X w) (seq 0 G))) as [I1|I1].
      * apply in_map_iff in I1. destruct I1 as (j & <- & Hj). apply in_seq in Hj. rewrite F1 by lia. discriminate.
      * rewrite F2; [apply HW|]. intros j Hj K. apply I1. apply in_map_iff. exists j. split; [exact K|]. apply in_seq. lia.
    + intros i Hi. rewrite F1 by lia. reflexivity.
    + intros i Hi. apply F2. intros j Hj K. apply X_inj in K; lia.
Qed.

Lemma postponed_ok : forall d y avail, IU d y -> y < O -> d_orc d = [] -> 1 <= avail -> avail <= O - y ->
  Res d y 0 avail
    ('(d, out) <- post c d 0 avail ;;
      if m_rgc (d_main d) <? m_avail (d_main d) then Ret (d, out)
      else
        let d := mkD (with_cs (d_main d) CTX_PREPARE_FOR_IMCU) (d_ups d) (d_orc d) (d_row d) (d_lines d) in
        if avail <=? out then Ret (d, out) else ctx_prepare c d out avail).
Proof.
  intros d y avail (r & w & H) Hy HO Ho Ha. cbv zeta in H.
  destruct H as (Hr & R1 & R2 & R3 & R4 & R5 & R6 & R7 & N0 & N1 & V0 & V1 & R9 & R11 & R10).
  unfold post. set (m := d_main d) in *. destruct pos as (A & B & C).
  assert (HK : k0 <> Some ((r - 1) * M)).
  { intros K. specialize (R11 _ K). assert ((r - 2) * M < (r - 1) * M) by nia. lia. }
  assert (R8 : PI r w (m_x0 m) (m_x1 m)).
  { split; [exact N0|]. split; [exact N1|]. right. split; [exact V0|]. split; [exact V1|]. lia. }
  destruct (up_step h du c Hc k0 (xbuf m) (m_ws m) (m_rgc m) (rg + m_rgc m * rg) _ y (d_ups d) 0 avail R10)
    as (u' & ls & rgc' & E & C1 & C2 & C3 & C5 & C4); [|exact Hy|lia|lia|].
  { intros _. rewrite R6. unfold xbuf. rewrite R5.
    apply filled_post; [lia|lia|split; assumption|exact HK|exact R8|exact R9]. }
  rewrite E. cbn [bind]. rewrite Nat.add_0_l.
  cbn [d_main d_row d_ups d_orc d_lines]. unfold with_rgc at 1 2. cbn [m_rgc m_avail]. rewrite R7.
  destruct C4 as [(Q1 & Q2 & Q3)|(Q1 & Q2 & Q3 & Q4)]; rewrite Q1, R6.
  - rewrite (proj2 (Nat.ltb_ge (S (M + 1)) (M + 2))) by lia. cbv zeta.
    set (d1 := mkD _ _ _ _ _).
    assert (I1 : IQ d1 (y + length ls)).
    { exists r, w. cbv zeta. unfold d1. cbn [d_main d_row d_ups with_cs with_rgc m_ctr m_full m_cs m_which m_rgc m_avail m_x0 m_x1 m_ws].
      split; [lia|]. split; [exact R1|]. split; [exact R2|]. split; [exact R3|]. split; [reflexivity|].
      split; [exact R5|]. split; [exact R8|]. split; [exact R9|].
      split; [intros k K; specialize (R11 _ K); nia|]. split; [exact Q2|].
      replace ((r - 1) * M) with (S ((r - 1) * M - 1)) by nia. exact Q3. }
    destruct (Nat.leb_spec avail (length ls)) as [L|L].
    + exists d1, ls. split; [reflexivity|]. split; [reflexivity|]. split; [exact C1|]. split; [exact C2|]. split; [exact C3|].
      split; [|reflexivity].
      split; [exact HO|]. split; [lia|]. right. right. left. split; [exact I1|]. unfold d1. cbn [d_row]. lia.
    + destruct (prepare_ok d1 (y + length ls) (length ls) avail I1 HO L ltac:(lia)) as (d' & ls' & F1 & F2 & F3 & F4 & F5 & F6 & F7).
      exists d', (ls ++ ls'). rewrite app_length, Nat.add_0_l. split; [exact F1|].
      split; [rewrite F2; unfold d1; cbn [d_lines]; rewrite <- app_assoc; reflexivity|].
      split; [apply okls_app; [exact C1|exact F3]|]. split; [lia|]. split; [lia|].
      split; [rewrite Nat.add_assoc; exact F6|exact F7].
  - rewrite (proj2 (Nat.ltb_lt (M + 1) (M + 2))) by lia.
    eexists _, ls. split; [reflexivity|]. split; [reflexivity|]. split; [exact C1|]. split; [exact C2|]. split; [exact C3|].
    split; [|reflexivity].
    split; [exact HO|]. split; [lia|].
    right. right. right. right. right. cbn [d_row]. split; [|rewrite R1; exact C5]. exists r, w. cbv zeta.
    cbn [d_main d_row d_ups with_rgc m_ctr m_full m_cs m_which m_rgc m_avail m_x0 m_x1 m_ws].
    split; [exact Hr|]. split; [exact R1|]. split; [exact R2|]. split; [exact R3|]. split; [exact R4|].
    split; [exact R5|]. split; [lia|]. split; [exact R7|]. split; [exact N0|]. split; [exact N1|].
    split; [exact V0|]. split; [exact V1|]. split; [exact R9|]. split; [exact R11|]. exact Q3.
Qed.

Lemma context_read : forall d y n, CI d y -> y < O -> 1 <= n -> n <= O - y ->
  exists d' ls, process_context c d n = Ret (d', length ls) /\ d_lines d' = d_lines d ++ ls /\
    okls k0 y ls /\ 1 <= length ls <= n /\ CI d' (y + length ls) /\ d_row d <= d_row d'.
Proof.
  intros d y n (HO & _ & HC) Hy Hn1 Hn2.
  assert (Fin : forall dd o, d_lines dd = d_lines d -> d_row d <= d_row dd -> Res dd y 0 n o ->
    exists d' ls, o = Ret (d', length ls) /\ d_lines d' = d_lines d ++ ls /\
    okls k0 y ls /\ 1 <= length ls <= n /\ CI d' (y + length ls) /\ d_row d <= d_row d').
  { intros dd o E0 E00 (d' & ls & E1 & E2 & E3 & E4 & E5 & E6 & E7). exists d', ls. split; [exact E1|].
    split; [rewrite E2, E0; reflexivity|]. split; [exact E3|]. split; [lia|]. split; [exact E6|]. rewrite E7. exact E00. }
  destruct pos as (A & B & C).
  unfold process_context. set (m := d_main d) in *.
  assert (Ed : mkD m (d_ups d) (d_orc d) (d_row d) (d_lines d) = d) by (unfold m; destruct d; reflexivity).
  destruct HC as [HC|[(HC & _)|[(HC & _)|[HC|[HC|(HC & _)]]]]]; [lia| | | | |].
  - pose proof HC as HC'. destruct HC' as (r & w & H). cbv zeta in H.
    destruct H as (Hr & R1 & R2 & R3 & R4 & _). fold m in R3, R4. rewrite R3. cbn [bind negb]. cbn [d_main]. rewrite R4, Ed.
    apply (Fin d); [reflexivity|lia|]. apply process_ok; [exact HC|exact Hy|exact HO|lia|lia].
  - pose proof HC as HC'. destruct HC' as (r & w & H). cbv zeta in H.
    destruct H as (Hr & R1 & R2 & R3 & R4 & _). fold m in R3, R4. rewrite R3. cbn [bind negb]. cbn [d_main]. rewrite R4, Ed.
    apply (Fin d); [reflexivity|lia|]. apply prepare_ok; [exact HC|exact HO|lia|lia].
  - destruct HC as (r & w & H). cbv zeta in H.
    destruct H as (Hr & R1 & R2 & R3 & R4 & R5 & N0 & N1 & Hws & Hd & HK & R7 & R8).
    fold m in R2, R3, R4, R5, N0, N1, Hws, Hd, R8.
    rewrite R3, HO. cbn [hd negb].
    destruct (decomp_ok r w (m_x0 m) (m_x1 m) (m_ws m) (conj N0 N1) Hws) as (ws & Ew & W0 & W1 & W2).
    unfold xbuf. rewrite R5, R1. rewrite Ew. cbn [bind negb tl]. cbn [m_cs d_main]. rewrite R4. cbv beta iota.
    match goal with |- context[ctx_prepare c ?dd 0 n] => set (d1 := dd) end.
    rewrite R1 in Fin. apply (Fin d1); [reflexivity|unfold d1; cbn [d_row]; lia|]. apply prepare_ok; [|reflexivity|lia|lia].
    exists (S r), w. cbv zeta. unfold d1. cbn [d_main d_row d_ups m_ctr m_full m_cs m_which m_rgc m_avail m_x0 m_x1 m_ws].
    replace (S r - 1) with r by lia.
    split; [lia|]. split; [reflexivity|]. split; [lia|]. split; [reflexivity|]. split; [reflexivity|].
    split; [first [exact R5|reflexivity]|]. split.
    { split; [exact N0|]. split; [exact N1|]. replace (S r - 1) with r by lia.
      destruct Hd as [(D1 & D2 & D3)|(D1 & D2 & D3)]; [left; split; [lia|split; [exact D2|exact D3]]|right].
      split; [exact D1|]. split; [exact D2|]. intros _. exact D3. }
    split.
    { split; [exact W0|]. replace (S r - 1) with r by lia. split; [exact W1|]. intros H2 HK2.
      destruct Hd as [(D1 & _)|(_ & _ & D3)]; [lia|congruence]. }
    split; [exact HK|]. split; [exact R7|]. apply (UI_ws c k0 _ _ _ (m_ws m)); [exact R7|exact R8].
  - destruct HC as (r & w & H). cbv zeta in H.
    destruct H as (Hr & R1 & R2 & R3 & R4 & R5 & R6 & R6' & N0 & N1 & V0 & V1 & R9 & HK & R7 & R8).
    fold m in R2, R3, R4, R5, R6, R6', N0, N1, V0, V1, R9, R8.
    rewrite R3, HO. cbn [hd negb].
    destruct R9 as (Hws & U1 & _).
    destruct (decomp_ok r (negb w) (m_x0 m) (m_x1 m) (m_ws m) (conj N0 N1) Hws) as (ws & Ew & W0 & W1 & W2).
    unfold xbuf at 1. rewrite R5, R1. rewrite Ew. cbn [bind negb tl]. cbn [m_cs]. rewrite R4.
    set (d1 := mkD _ _ _ _ _).
    rewrite R1 in Fin. apply (Fin d1); [reflexivity|unfold d1; cbn [d_row]; lia|].
    apply postponed_ok; [|exact Hy|reflexivity|lia|lia].
    exists (S r), (negb w). cbv zeta. unfold d1. cbn [d_main d_row d_ups m_ctr m_full m_cs m_which m_rgc m_avail m_x0 m_x1 m_ws].
    replace (S r - 1) with r by lia. replace (S r - 2) with (r - 1) by lia.
    split; [lia|]. split; [reflexivity|]. split; [lia|]. split; [reflexivity|]. split; [reflexivity|].
    split; [first [exact R5|reflexivity]|]. split; [exact R6|]. split; [exact R6'|].
    split; [exact N0|]. split; [exact N1|]. split; [exact V0|]. split; [exact V1|]. split.
    { split; [exact W0|]. replace (S r - 1) with r by lia. split; [exact W1|]. intros _ _ i Hi.
      rewrite W2 by exact Hi. rewrite X_flip by exact Hi. assert (2 * rg <= G) by nia. rewrite U1 by lia. f_equal.
      assert (Er : (r - 1) * G + G = r * G) by (rewrite <- Nat.mul_succ_l; f_equal; lia).
      rewrite <- Er. revert H. generalize ((r - 1) * G). generalize G. intros; lia. }
    split; [exact HK|]. apply (UI_ws c k0 _ _ _ (m_ws m)); [exact R7|exact R8].
  - pose proof HC as HC'. destruct HC' as (r & w & H). cbv zeta in H.
    destruct H as (Hr & R1 & R2 & R3 & R4 & _). fold m in R3, R4. rewrite R3. cbn [bind negb]. cbn [d_main]. rewrite R4, Ed.
    apply (Fin d); [reflexivity|lia|]. exact (postponed_ok d y n HC Hy HO Hn1 Hn2).
Qed.
End Cfg.
