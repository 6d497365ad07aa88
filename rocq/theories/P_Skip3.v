(* P_Skip3.v -- reads, discards and skips keep the session invariant. *)
From Verif Require Import Base M_DMain S_DMain P_DMain M_Skip S_Skip P_Skip P_Skip2.
Open Scope nat_scope.

Section Cfg.
Variables (h du : nat) (k : skcfg).
Notation c := (k_c k).
Hypothesis Hc : dcfg_ok h du c.
Notation M := (g_M c).
Notation v := (g_v c).
Notation rg := (g_rg c).
Notation O := (g_O c).
Notation T := (g_T c).
Notation L := (g_M c * g_v c).

Lemma mcus_seq : forall n a, mcus k n a = fold_right (fun i x => k_rows k i * k_cols k + x) 0 (seq a n).
Proof. induction n as [|n IH]; intros a; [reflexivity|]. cbn [mcus seq fold_right]. rewrite IH. reflexivity. Qed.
Lemma fold_plus : forall (f : nat -> nat) l x, fold_right (fun i a => f i + a) x l = fold_right (fun i a => f i + a) 0 l + x.
Proof. intros f l x. induction l as [|a l IH]; [reflexivity|]. cbn [fold_right]. rewrite IH. lia. Qed.
Lemma mcus_to : forall a b, a <= b -> mcus_before k a + mcus k (b - a) a = mcus_before k b.
Proof.
  intros a b Hab. unfold mcus_before. replace (seq 0 b) with (seq 0 a ++ seq a (b - a)).
  - rewrite fold_right_app, mcus_seq. rewrite (fold_plus (fun i => k_rows k i * k_cols k) (seq 0 a) (fold_right _ _ _)). reflexivity.
  - rewrite <- seq_app. f_equal. lia.
Qed.
Definition mcu_ok (s : sks) : Prop := k_multi k = false -> s_mcu s = mcus_before k (d_row (s_d s)).

Lemma read_ctx : forall k0 s n, g_context c = true -> CI c k0 (s_d s) (s_y s) -> s_y s < O -> mcu_ok s ->
  1 <= n -> n <= O - s_y s ->
  exists s' ls, read_scanlines k n s = Ret (s', ls) /\ s_y s' = s_y s + length ls /\ 1 <= length ls <= n /\
    okls c k0 (s_y s) ls /\ CI c k0 (s_d s') (s_y s') /\ mcu_ok s' /\ s_eoi s' = s_eoi s.
Proof.
  intros k0 s n Hx HC Hy HM H1 H2. unfold read_scanlines.
  rewrite (proj2 (Nat.leb_gt O (s_y s))) by exact Hy. unfold process_data. rewrite Hx.
  set (d0 := mkD _ _ _ _ _).
  destruct (context_read h du c Hc Hx k0 d0 (s_y s) n) as (d' & ls & E & E1 & E2 & E3 & E4 & E5);
    [exact HC|exact Hy|exact H1|exact H2|].
  rewrite E. cbn [bind]. cbn [d_lines d0 app] in E1. rewrite E1.
  eexists _, ls. split; [reflexivity|]. cbn [s_y s_d s_eoi]. split; [reflexivity|]. split; [exact E3|]. split; [exact E2|].
  split; [exact E4|]. split; [|reflexivity].
  intros K. cbn [s_mcu s_d]. rewrite K, (HM K). apply mcus_to. exact E5.
Qed.
Lemma read_sim : forall s n, g_context c = false -> SI c (s_d s) (s_y s) -> s_y s < O -> mcu_ok s ->
  1 <= n -> n <= O - s_y s ->
  exists s' ls, read_scanlines k n s = Ret (s', ls) /\ s_y s' = s_y s + length ls /\ 1 <= length ls <= n /\
    okls c None (s_y s) ls /\ SI c (s_d s') (s_y s') /\ mcu_ok s' /\ s_eoi s' = s_eoi s /\
    (m_full (d_main (s_d s')) = false -> m_rgc (d_main (s_d s')) = 0).
Proof.
  intros s n Hx HC Hy HM H1 H2. unfold read_scanlines.
  rewrite (proj2 (Nat.leb_gt O (s_y s))) by exact Hy. unfold process_data. rewrite Hx.
  set (d0 := mkD _ _ _ _ _).
  destruct (simple_read h du c Hc d0 (s_y s) n) as (d' & ls & E & E1 & E2 & E3 & E4 & E5 & E6);
    [exact Hx|exact HC|exact Hy|exact H1|exact H2|].
  rewrite E. cbn [bind]. cbn [d_lines d0 app] in E1. rewrite E1.
  eexists _, ls. split; [reflexivity|]. cbn [s_y s_d s_eoi]. split; [reflexivity|]. split; [exact E3|]. split; [exact E2|].
  split; [exact E4|]. split; [|split; [reflexivity|exact E6]].
  intros K. cbn [s_mcu s_d]. rewrite K, (HM K). apply mcus_to. exact E5.
Qed.

Lemma discard_ctx : forall k0 n s, g_context c = true -> CI c k0 (s_d s) (s_y s) -> mcu_ok s -> s_y s + n <= O ->
  exists s', read_discard k n s = Ret s' /\ s_y s' = s_y s + n /\ CI c k0 (s_d s') (s_y s') /\ mcu_ok s' /\ s_eoi s' = s_eoi s.
Proof.
  induction n as [|n IH]; intros s Hx HC HM Hn; cbn [read_discard].
  - exists s. split; [reflexivity|]. split; [lia|]. split; [exact HC|]. split; [exact HM|reflexivity].
  - destruct (read_ctx k0 s 1 Hx HC ltac:(lia) HM ltac:(lia) ltac:(lia)) as (s' & ls & E & E1 & E2 & _ & E4 & E5 & E6).
    rewrite E. cbn [bind]. destruct (IH s' Hx E4 E5 ltac:(lia)) as (s2 & F1 & F2 & F3 & F4 & F5).
    exists s2. split; [exact F1|]. split; [lia|]. split; [exact F3|]. split; [exact F4|]. congruence.
Qed.
Lemma discard_sim : forall n s, g_context c = false -> SI c (s_d s) (s_y s) -> mcu_ok s -> s_y s + n <= O ->
  exists s', read_discard k n s = Ret s' /\ s_y s' = s_y s + n /\ SI c (s_d s') (s_y s') /\ mcu_ok s' /\ s_eoi s' = s_eoi s.
Proof.
  induction n as [|n IH]; intros s Hx HC HM Hn; cbn [read_discard].
  - exists s. split; [reflexivity|]. split; [lia|]. split; [exact HC|]. split; [exact HM|reflexivity].
  - destruct (read_sim s 1 Hx HC ltac:(lia) HM ltac:(lia) ltac:(lia)) as (s' & ls & E & E1 & E2 & _ & E4 & E5 & E6 & _).
    rewrite E. cbn [bind]. destruct (IH s' Hx E4 E5 ltac:(lia)) as (s2 & F1 & F2 & F3 & F4 & F5).
    exists s2. split; [exact F1|]. split; [lia|]. split; [exact F3|]. split; [exact F4|]. congruence.
Qed.

Lemma increment_ok : forall rows s, g_context c = false -> SI c (s_d s) (s_y s) -> mcu_ok s -> s_y s + rows < O ->
  u_next (d_ups (s_d s)) = v -> m_rgc (d_main (s_d s)) + rows / v < M ->
  exists s', increment_simple k rows s = Ret s' /\ s_y s' = s_y s + rows /\ SI c (s_d s') (s_y s') /\ mcu_ok s' /\ s_eoi s' = s_eoi s.
Proof.
  intros rows s Hx (S0 & S1 & S2 & S3) HM Hn Hu Hr. unfold increment_simple.
  pose proof (hv h du c Hc) as Hv.
  pose proof (Nat.div_mod rows v ltac:(lia)) as Ed. set (q := rows / v) in *. set (e := rows mod v) in *.
  assert (He : e < v) by (apply Nat.mod_upper_bound; lia). clearbody q e.
  set (s1 := mkS _ _ _ _).
  assert (Ey : s_y s1 = s_y s + q * v) by (unfold s1; cbn [s_y]; lia).
  destruct (discard_sim e s1) as (s' & E & E1 & E2 & E3 & E4); [exact Hx| |exact HM|lia|].
  - rewrite Ey. split; [exact S0|]. split; [exact S1|]. unfold s1. cbn [s_d set_rgc d_main with_rgc m_rgc m_full d_row d_ups m_ws].
    split; [exact Hr|].
    assert (UIs : forall kk ws, UI c None kk (s_y s) (d_ups (s_d s)) ws -> UI c None (kk + q) (s_y s + q * v) (d_ups (s_d s)) ws).
    { intros kk ws HU. pose proof (UI_pos c _ _ _ _ _ Hu HU) as Ep. destruct HU as (U1 & U2 & _).
      split; [lia|]. split; [lia|]. left. split; [exact Hu|]. rewrite Ep. lia. }
    destruct (m_full (d_main (s_d s))).
    + destruct S3 as (A1 & A2 & A3 & A4). split; [exact A1|]. split; [lia|]. split; [exact A3|].
      rewrite Nat.add_assoc. apply UIs. exact A4.
    + destruct S3 as (A1 & A2). split; [exact Hu|]. rewrite Nat.add_assoc. apply UIs. exact A2.
  - exists s'. split; [exact E|]. split; [lia|]. split; [exact E2|]. split; [exact E3|exact E4].
Qed.

Lemma iter_S : forall n x, Nat.iter n S x = x + n.
Proof. intros n x. induction n as [|n IH]; [cbn; lia|]. change (Nat.iter (S n) S x) with (S (Nat.iter n S x)). rewrite IH. lia. Qed.
Lemma iter2 : forall n m x, Nat.iter n (Nat.iter m S) x = x + n * m.
Proof. intros n m x. induction n as [|n IH]; [cbn; lia|].
  change (Nat.iter (S n) (Nat.iter m S) x) with (Nat.iter m S (Nat.iter n (Nat.iter m S) x)). rewrite IH, iter_S. lia. Qed.

Lemma skip_imcus_ok : forall q fuel j row mcu eoi LL, 1 <= LL -> q <= fuel -> row + q < T ->
  skip_imcus k fuel (j * LL) ((j + q) * LL) LL row mcu eoi = (row + q, mcu + mcus k q row, eoi).
Proof.
  induction q as [|q IH]; intros fuel j row mcu eoi LL HL Hf Hr.
  - destruct fuel as [|f]; cbn [skip_imcus]; [rewrite !Nat.add_0_r; reflexivity|].
    rewrite Nat.add_0_r, Nat.ltb_irrefl. cbn [mcus]. rewrite !Nat.add_0_r. reflexivity.
  - destruct fuel as [|f]; [lia|]. cbn [skip_imcus].
    rewrite (proj2 (Nat.ltb_lt (j * LL) ((j + S q) * LL))) by nia.
    rewrite (proj2 (Nat.ltb_lt (S row) T)) by lia.
    replace (j * LL + LL) with (S j * LL) by lia. replace (j + S q) with (S j + q) by lia.
    rewrite IH by lia. cbn [mcus]. rewrite iter2. f_equal. f_equal; lia.
Qed.

Lemma left_spec : forall y LL, 1 <= LL ->
  (y mod LL = 0 /\ (LL - y mod LL) mod LL = 0) \/ (0 < y mod LL /\ (LL - y mod LL) mod LL = LL - y mod LL).
Proof.
  intros y LL H. pose proof (Nat.mod_upper_bound y LL ltac:(lia)).
  destruct (Nat.eq_dec (y mod LL) 0) as [E|E]; [left|right].
  - rewrite E. split; [reflexivity|]. rewrite Nat.sub_0_r. apply Nat.mod_same. lia.
  - split; [lia|]. apply Nat.mod_small. lia.
Qed.
(* y in iMCU row r - 1, not at its start *)
Lemma left_in : forall y r LL, 1 <= r -> (r - 1) * LL < y -> y < r * LL ->
  (LL - y mod LL) mod LL = r * LL - y /\ y / LL = r - 1 /\ y mod LL <> 0.
Proof.
  intros y r LL H1 H2 H3.
  assert (E : y = LL * (r - 1) + (y - (r - 1) * LL)) by lia.
  assert (B : y - (r - 1) * LL < LL) by (destruct r; [lia|]; cbn [Nat.mul] in *; replace (S r - 1) with r in * by lia; lia).
  pose proof (Nat.mod_unique _ _ _ _ B E) as Em. pose proof (Nat.div_unique _ _ _ _ B E) as Eq.
  rewrite <- Em, <- Eq. split; [|split; [reflexivity|lia]].
  rewrite Nat.mod_small by lia. destruct r; [lia|]. replace (S r - 1) with r in * by lia. cbn [Nat.mul] in *. lia.
Qed.
Lemma left_at : forall y r LL, 1 <= LL -> y = r * LL -> (LL - y mod LL) mod LL = 0 /\ y / LL = r /\ y mod LL = 0.
Proof.
  intros y r LL H ->. rewrite Nat.mod_mul by lia. rewrite Nat.sub_0_r, Nat.mod_same by lia. rewrite Nat.div_mul by lia. auto.
Qed.

Lemma UI_togo : forall k0 kk y u ws t, UI c k0 kk y u ws -> O - y <= t ->
  UI c k0 kk y (mkU (u_next u) t (u_ptr u) (u_val u)) ws.
Proof. intros k0 kk y u ws t (A & B & C) Ht. split; [exact A|]. split; [exact Ht|exact C]. Qed.

Definition retogo (d : dst) (t : nat) : dst :=
  mkD (d_main d) (mkU (u_next (d_ups d)) t (u_ptr (d_ups d)) (u_val (d_ups d))) (d_orc d) (d_row d) (d_lines d).
Lemma SI_togo : forall d y t, SI c d y -> O - y <= t -> SI c (retogo d t) y.
Proof.
  intros d y t (A & B & C & D) Ht. split; [exact A|]. split; [exact B|]. split; [exact C|].
  cbn [retogo d_main d_row d_ups]. destruct (m_full (d_main d)).
  - destruct D as (D1 & D2 & D3 & D4). split; [exact D1|]. split; [exact D2|]. split; [exact D3|]. apply UI_togo; assumption.
  - destruct D as (D1 & D2). split; [exact D1|]. apply UI_togo; assumption.
Qed.
Lemma CI_togo : forall k0 d y t, CI c k0 d y -> O - y <= t -> CI c k0 (retogo d t) y.
Proof.
  intros k0 d y t (A & B & D) Ht. split; [exact A|]. split; [exact B|].
  destruct D as [D|[((r & w & D) & E)|[((r & w & D) & E)|[(r & w & D)|[(r & w & D)|((r & w & D) & E)]]]]]; [left; exact D| | | | |]; cbv zeta in D.
  - right. left. split; [|exact E]. exists r, w. cbv zeta. cbn [retogo d_main d_row d_ups].
    destruct D as (D1 & D2 & D3 & D4 & D5 & D6 & D7 & D8 & D9 & D10 & D11 & D12).
    do 11 (split; [assumption|]). apply UI_togo; assumption.
  - right. right. left. split; [|exact E]. exists r, w. cbv zeta. cbn [retogo d_main d_row d_ups].
    destruct D as (D1 & D2 & D3 & D4 & D5 & D6 & D7 & D8 & D9 & D10 & D11).
    do 10 (split; [assumption|]). apply UI_togo; assumption.
  - right. right. right. left. exists r, w. cbv zeta. cbn [retogo d_main d_row d_ups].
    destruct D as (D1 & D2 & D3 & D4 & D5 & D6 & D7 & D8 & D9 & D10 & D11 & D12 & D13).
    do 12 (split; [assumption|]). apply UI_togo; assumption.
  - right. right. right. right. left. exists r, w. cbv zeta. cbn [retogo d_main d_row d_ups].
    destruct D as (D1 & D2 & D3 & D4 & D5 & D6 & D7 & D8 & D9 & D10 & D11 & D12 & D13 & D14 & D15 & D16).
    do 15 (split; [assumption|]). apply UI_togo; assumption.
  - right. right. right. right. right. split; [|exact E]. exists r, w. cbv zeta. cbn [retogo d_main d_row d_ups].
    destruct D as (D1 & D2 & D3 & D4 & D5 & D6 & D7 & D8 & D9 & D10 & D11 & D12 & D13 & D14 & D15).
    do 14 (split; [assumption|]). apply UI_togo; assumption.
Qed.

(* how many iMCU rows are passed over, single scan or not *)
Lemma rows_passed : forall s q, mcu_ok s -> 1 <= L -> d_row (s_d s) + q < T ->
  exists mcu, (if k_multi k then (d_row (s_d s) + q * L / L, s_mcu s, s_eoi s)
    else skip_imcus k (q * L) 0 (q * L) L (d_row (s_d s)) (s_mcu s) (s_eoi s)) = (d_row (s_d s) + q, mcu, s_eoi s) /\
  (k_multi k = false -> mcu = mcus_before k (d_row (s_d s) + q)).
Proof.
  intros s q HM HL Hr. destruct (k_multi k) eqn:E.
  - exists (s_mcu s). split; [rewrite Nat.div_mul by lia; reflexivity|discriminate].
  - pose proof (skip_imcus_ok q (q * L) 0 (d_row (s_d s)) (s_mcu s) (s_eoi s) L HL ltac:(nia) Hr) as F.
    cbn [Nat.add] in F. rewrite Nat.mul_0_l in F. eexists. split; [exact F|].
    intros _. rewrite (HM E). rewrite <- (mcus_to (d_row (s_d s)) (d_row (s_d s) + q)) by lia. f_equal. f_equal. lia.
Qed.

Lemma skip_rows_ctx : forall n s m y after r, g_context c = true ->
  d_orc (s_d s) = [] -> mcu_ok s -> d_row (s_d s) = r -> m_ctr m = r -> m_full m = false -> m_cs m = CTX_PREPARE_FOR_IMCU ->
  NP c false (m_x0 m) -> NP c true (m_x1 m) -> WR c false (m_x0 m) -> WR c true (m_x1 m) -> (forall i, m_ws m i <> None) ->
  y = r * L -> 1 <= after -> y + after < O ->
  exists s' k0, skip_rows k n s m y after = Ret (s', n) /\ s_y s' = y + after /\ CI c (Some k0) (s_d s') (s_y s') /\
    k0 * v < s_y s' /\ mcu_ok s' /\ s_eoi s' = s_eoi s.
Proof.
  intros n s m y after r Hx HO HM R1 R2 R3 R4 N0 N1 V0 V1 Hws Ey Ha Hy.
  pose proof (hv h du c Hc) as Hv. destruct (pos h du c Hc Hx) as (A & _ & _).
  assert (HL : 1 <= L) by nia.
  unfold skip_rows. rewrite Hx.
  pose proof (Nat.div_mod (after - 1) L ltac:(lia)) as Ed. pose proof (Nat.mod_upper_bound (after - 1) L ltac:(lia)) as Em.
  set (q := (after - 1) / L) in *. set (e := (after - 1) mod L) in *. clearbody q e.
  assert (Hq : d_row (s_d s) + q < T) by (apply (geo_T h du c Hc); nia).
  destruct (rows_passed s q HM HL Hq) as (mcu & E1 & E2). rewrite E1. rewrite Nat.div_mul by lia.
  set (s1 := mkS _ _ _ _).
  destruct (discard_ctx (Some ((r + q) * M)) (after - q * L) s1 Hx) as (s' & F1 & F2 & F3 & F4 & F5).
  - split; [exact HO|]. split; [unfold s1; cbn [s_y]; nia|]. right. right. right. left.
    exists (r + q), (m_which m). cbv zeta. unfold s1. cbn [s_d s_y d_main d_row d_ups m_ctr m_full m_cs m_which m_x0 m_x1 m_ws u_next].
    split; [lia|]. split; [lia|]. split; [lia|]. split; [exact R3|]. split; [exact R4|]. split; [reflexivity|].
    split; [exact N0|]. split; [exact N1|]. split; [exact Hws|].
    split; [right; split; [exact V0|]; split; [exact V1|reflexivity]|].
    split; [intros k1 K; injection K as <-; lia|]. split; [reflexivity|].
    split; [nia|]. split; [cbn [u_togo]; lia|]. left. cbn [u_next]. split; [reflexivity|]. nia.
  - unfold s1. intros K. cbn [s_mcu s_d d_row]. exact (E2 K).
  - unfold s1. cbn [s_y]. nia.
  - rewrite F1. cbn [bind]. eexists _, ((r + q) * M). split; [reflexivity|]. cbn [s_y s_d s_eoi].
    assert (Ef : s_y s' = y + after) by (rewrite F2; unfold s1; cbn [s_y]; nia).
    split; [exact Ef|]. split; [apply (CI_togo (Some ((r + q) * M)) (s_d s') (s_y s')); [exact F3|lia]|].
    split; [rewrite Ef; nia|]. split; [exact F4|exact F5].
Qed.

Lemma skip_rows_sim : forall n s m y after r, g_context c = false ->
  d_orc (s_d s) = [] -> mcu_ok s -> d_row (s_d s) = r -> m_full m = false -> m_rgc m = 0 ->
  y = r * L -> y + after < O ->
  exists s', skip_rows k n s m y after = Ret (s', n) /\ s_y s' = y + after /\ SI c (s_d s') (s_y s') /\
    mcu_ok s' /\ s_eoi s' = s_eoi s.
Proof.
  intros n s m y after r Hx HO HM R1 R3 R4 Ey Hy.
  pose proof (hv h du c Hc) as Hv. assert (A : 1 <= M) by (destruct Hc as (_ & _ & A & _); exact A).
  assert (HL : 1 <= L) by nia.
  unfold skip_rows. rewrite Hx.
  pose proof (Nat.div_mod after L ltac:(lia)) as Ed. pose proof (Nat.mod_upper_bound after L ltac:(lia)) as Em.
  set (q := after / L) in *. set (e := after mod L) in *. clearbody q e.
  assert (Hq : d_row (s_d s) + q < T) by (apply (geo_T h du c Hc); nia).
  destruct (rows_passed s q HM HL Hq) as (mcu & E1 & E2). rewrite E1.
  set (s1 := mkS _ _ _ _).
  replace (after - q * L) with e by lia.
  destruct (increment_ok e s1 Hx) as (s' & F1 & F2 & F3 & F4 & F5).
  - split; [exact HO|]. unfold s1. cbn [s_d s_y d_main d_row d_ups m_rgc]. split; [lia|]. rewrite R3, R4.
    split; [lia|]. split; [reflexivity|]. split; [nia|]. split; [cbn [u_togo]; lia|]. left. cbn [u_next].
    split; [reflexivity|]. nia.
  - unfold s1. intros K. cbn [s_mcu s_d d_row]. exact (E2 K).
  - unfold s1. cbn [s_y]. nia.
  - reflexivity.
  - unfold s1. cbn [s_d d_main]. rewrite R4. cbn [Nat.add].
    apply Nat.div_lt_upper_bound; [lia|]. lia.
  - rewrite F1. cbn [bind]. eexists. split; [reflexivity|]. cbn [s_y s_d s_eoi].
    assert (Ef : s_y s' = y + after) by (rewrite F2; unfold s1; cbn [s_y]; nia).
    split; [exact Ef|]. split; [apply (SI_togo (s_d s') (s_y s')); [exact F3|lia]|].
    split; [exact F4|exact F5].
Qed.

Lemma O_max : O <= T * L.
Proof.
  destruct (Nat.le_gt_cases O (T * L)) as [K|K]; [exact K|]. pose proof (geo_T h du c Hc T K). lia.
Qed.

Lemma ctx_boundary : forall k0 s n, g_context c = true -> v = 2 -> CI c k0 (s_d s) (s_y s) -> s_y s + n < O ->
  let d := s_d s in let m := d_main d in let y := s_y s in
  let left := (L - y mod L) mod L in
  let ahead := (left <=? 1) && m_full m in
  (n <? left + 1) || (ahead && (n - left <? L + 1)) = false ->
  exists r, d_row d = r /\
    (if ahead then (y + (left + L), n - left - L) else (y + left, n - left)) = (r * L, y + n - r * L) /\
    r * L < y + n /\
    let m1 := if (m_ctr m =? 0) || ((m_ctr m =? 1) && (2 <? left)) then set_wraparound_pointers c m else m in
    m_ctr m1 = r /\ NP c false (m_x0 m1) /\ NP c true (m_x1 m1) /\ WR c false (m_x0 m1) /\ WR c true (m_x1 m1) /\
    (forall i, m_ws m1 i <> None).
Proof.
  intros k0 s n Hx Hv2 (HO & _ & HC) Hn. cbv zeta. set (d := s_d s) in *. set (y := s_y s) in *. set (m := d_main d) in *.
  destruct (pos h du c Hc Hx) as (A & _ & B). pose proof O_max as HT.
  assert (HLv : L = M * 2) by (rewrite Hv2; reflexivity).
  assert (WRAP : forall left, NP c false (m_x0 m) -> NP c true (m_x1 m) ->
    ((m_ctr m =? 0) || ((m_ctr m =? 1) && (2 <? left)) = false -> WR c false (m_x0 m) /\ WR c true (m_x1 m)) ->
    (forall i, m_ws m i <> None) ->
    let m1 := if (m_ctr m =? 0) || ((m_ctr m =? 1) && (2 <? left)) then set_wraparound_pointers c m else m in
    m_ctr m1 = m_ctr m /\ NP c false (m_x0 m1) /\ NP c true (m_x1 m1) /\ WR c false (m_x0 m1) /\ WR c true (m_x1 m1) /\
    (forall i, m_ws m1 i <> None)).
  { intros left N0 N1 HW Hws. destruct ((m_ctr m =? 0) || ((m_ctr m =? 1) && (2 <? left))); cbv zeta.
    - destruct (wrap1_ok h du c Hc Hx _ _ N0) as [V1 V2]. destruct (wrap1_ok h du c Hc Hx _ _ N1) as [V3 V4].
      cbn [set_wraparound_pointers m_ctr m_x0 m_x1 m_ws]. auto 8.
    - destruct (HW eq_refl). auto 8. }
  destruct HC as [HC|[((r & w & D) & E)|[((r & w & D) & E)|[(r & w & D)|[(r & w & D)|((r & w & D) & E)]]]]]; [lia| | | | |]; cbv zeta in D; fold m in D.
  - (* process *)
    destruct D as (D1 & D2 & D3 & D4 & D5 & D6 & D7 & D8 & D9 & D10 & D11 & D12).
    rewrite D2 in E.
    destruct D12 as (_ & _ & U).
    assert (Y2 : y <= (r - 1) * L + (m_rgc m + 1) * v) by (destruct U as [[_ U]|(U1 & U & _)]; rewrite U; nia).
    destruct (Nat.eq_dec r T) as [ET|NT].
    { intros K. exfalso. apply Bool.orb_false_iff in K. destruct K as [K _]. apply Nat.ltb_ge in K.
      assert (y < r * L) by (rewrite ET; lia).
      destruct (left_in y r L ltac:(lia) ltac:(nia) ltac:(lia)) as (E1 & _). rewrite E1 in K.
      rewrite ET in K. lia. }
    destruct (D9 ltac:(lia)) as (T1 & T2 & T3). rewrite T1 in D7.
    assert (Er : r * L = (r - 1) * L + L) by (destruct r; [lia|]; replace (S r - 1) with r by lia; cbn [Nat.mul]; lia).
    assert (Y3 : y + v < r * L \/ y = (r - 1) * L + (M - 1) * v) by nia.
    assert (Y4 : y < r * L - v).
    { destruct U as [[Un U]|(U1 & U & _)]; rewrite U; nia. }
    destruct (left_in y r L ltac:(lia) ltac:(nia) ltac:(lia)) as (E1 & _). rewrite E1.
    rewrite (proj2 (Nat.leb_gt (r * L - y) 1)) by lia. cbn [andb]. rewrite Bool.orb_false_r. intros K. apply Nat.ltb_ge in K.
    exists r. split; [exact D2|]. split; [f_equal; lia|]. split; [lia|].
    destruct T2 as (N0 & N1 & T2). rewrite <- D3. apply WRAP; [exact N0|exact N1| |exact (proj1 T3)].
    intros Q. rewrite D3 in Q.
    destruct T2 as [(Q1 & _)|(Q1 & Q2 & _)]; [|split; assumption].
    exfalso. assert (r = 1) by lia. subst r. rewrite H in Q. cbn [Nat.eqb orb andb] in Q. apply Nat.ltb_ge in Q. lia.
  - (* prepare *)
    destruct D as (D1 & D2 & D3 & D4 & D5 & D6 & D7 & D8 & D9 & D10 & D11).
    pose proof (UI_pos c _ _ _ _ _ D10 D11) as Ey.
    destruct (left_at y (r - 1) L ltac:(nia) ltac:(nia)) as (E1 & _). rewrite E1, D4. cbn [Nat.leb andb].
    intros K. apply Bool.orb_false_iff in K. destruct K as [_ K]. apply Nat.ltb_ge in K.
    assert (Er : r * L = (r - 1) * L + L) by (destruct r; [lia|]; replace (S r - 1) with r by lia; cbn [Nat.mul]; lia).
    exists r. split; [exact D2|]. split; [f_equal; nia|]. split; [nia|].
    destruct D7 as (N0 & N1 & [(Q1 & _)|(Q1 & Q2 & _)]); [lia|].
    rewrite <- D3. apply WRAP; [exact N0|exact N1|split; assumption|exact (proj1 D8)].
  - (* start *)
    destruct D as (D1 & D2 & D3 & D4 & D5 & D6 & N0 & N1 & D9 & D10 & D11 & D12 & D13).
    pose proof (UI_pos c _ _ _ _ _ D12 D13) as Ey.
    destruct (left_at y r L ltac:(nia) ltac:(nia)) as (E1 & _). rewrite E1, D4. cbn [Nat.leb andb]. rewrite Bool.orb_false_r.
    intros K. apply Nat.ltb_ge in K.
    exists r. split; [exact D2|]. split; [f_equal; nia|]. split; [nia|].
    rewrite <- D3. apply WRAP; [exact N0|exact N1| |exact D9]. rewrite D3.
    destruct D10 as [(Q1 & _)|(Q1 & Q2 & _)]; [rewrite Q1; discriminate|split; assumption].
  - (* postponed, next iMCU row not read *)
    destruct D as (D1 & D2 & D3 & D4 & D5 & D6 & D7 & D8 & N0 & N1 & V0 & V1 & D13 & D14 & D15 & D16).
    pose proof (UI_pos c _ _ _ _ _ D15 D16) as Ey.
    assert (Er : r * L = (r - 1) * L + L) by (destruct r; [lia|]; replace (S r - 1) with r by lia; cbn [Nat.mul]; lia).
    assert (Ey2 : y = r * L - 2) by (rewrite Ey; nia).
    destruct (left_in y r L ltac:(lia) ltac:(nia) ltac:(nia)) as (E1 & _). rewrite E1, D4.
    rewrite Bool.andb_false_r. cbn [andb]. rewrite Bool.orb_false_r.
    intros K. apply Nat.ltb_ge in K.
    exists r. split; [exact D2|]. split; [f_equal; nia|]. split; [nia|].
    rewrite <- D3. apply WRAP; [exact N0|exact N1|split; assumption|exact (proj1 D13)].
  - (* postponed, next iMCU row read *)
    destruct D as (D1 & D2 & D3 & D4 & D5 & D6 & D7 & D8 & N0 & N1 & V0 & V1 & D13 & D14 & D15).
    rewrite D2 in E.
    assert (Er : r * L = (r - 1) * L + L) by (destruct r; [lia|]; replace (S r - 1) with r by lia; cbn [Nat.mul]; lia).
    assert (Er' : (r - 1) * L = (r - 1 - 1) * L + L) by (destruct r as [|[|r]]; [lia|lia|]; replace (S (S r) - 1) with (S r) by lia; replace (S r - 1) with r by lia; cbn [Nat.mul]; lia).
    assert (Hm : 1 <= (r - 1) * M) by nia.
    assert (EL : ((r - 1) * M - 1) * v = (r - 1) * L - 2) by nia.
    assert (Ey2 : y = (r - 1) * L - 1 \/ y = (r - 1) * L).
    { destruct D15 as (_ & _ & [[U1 U2]|(U1 & U2 & _)]); [right|left]; rewrite U2 in *; nia. }
    destruct Ey2 as [Ey2|Ey2].
    + destruct (left_in y (r - 1) L ltac:(lia) ltac:(nia) ltac:(nia)) as (E1 & _). rewrite E1, D4.
      rewrite (proj2 (Nat.leb_le ((r - 1) * L - y) 1)) by lia. cbn [andb].
      intros K. apply Bool.orb_false_iff in K. destruct K as [_ K]. apply Nat.ltb_ge in K.
      exists r. split; [exact D2|]. split; [f_equal; nia|]. split; [nia|].
      rewrite <- D3. apply WRAP; [exact N0|exact N1|split; assumption|exact (proj1 D13)].
    + destruct (left_at y (r - 1) L ltac:(nia) ltac:(nia)) as (E1 & _). rewrite E1, D4. cbn [Nat.leb andb].
      intros K. apply Bool.orb_false_iff in K. destruct K as [_ K]. apply Nat.ltb_ge in K.
      exists r. split; [exact D2|]. split; [f_equal; nia|]. split; [nia|].
      rewrite <- D3. apply WRAP; [exact N0|exact N1|split; assumption|exact (proj1 D13)].
Qed.
End Cfg.
