(* T_Prep.v -- C55: jpeg_write_scanlines: how the rows are batched and when the
   destination suspends does not matter. *)
From Verif Require Import Base M_Prep S_Prep P_Prep P_Prep2 P_Prep3 P_Prep4.
Open Scope nat_scope.

(* Every call, with any number of lines and whatever the back end does, is defined
   (no buffer overrun, no read of an unwritten row, the line counter never wraps),
   advances next_scanline by the number returned and hands the back end only
   correct iMCU rows, in order *)
Theorem C55_write : forall c, pcfg_ok c -> forall s, psession c s -> forall n orc,
  exists s' k orc', write_scanlines c n orc s = Ret (s', k, orc') /\
    x_y s' = x_y s + k /\ x_y s' <= p_H c /\ calls_ok c (x_cur s') (x_log s') /\
    (1 <= n -> k <= n) /\
    (1 <= n -> x_susp s' = false -> k = Nat.min n (p_H c - x_y s)) /\
    (orc = [] -> x_susp s' = false).
Proof.
  intros c Hc s Hs n orc. destruct (write_ok c Hc s n orc (sess_ok c Hc s Hs)) as (s' & k & orc' & E & S' & Y & _ & K1 & K2 & K3).
  exists s', k, orc'. split; [exact E|]. split; [exact Y|]. destruct S' as (m & P & Em & L & _).
  pose proof (PI_bounds c _ _ P) as (B & _). split; [destruct (x_susp s'); lia|]. split; [exact L|]. split; [exact K1|]. split; [|exact K3].
  intros A B2. apply K2; assumption.
Qed.

(* when all lines have been accepted, the back end has taken every iMCU row *)
Theorem C55_complete : forall c, pcfg_ok c -> forall s, psession c s -> x_y s = p_H c -> x_cur s = total c.
Proof.
  intros c Hc s Hs Y. destruct (sess_ok c Hc s Hs) as (m & P & Em & L & St). pose proof (PI_bounds c _ _ P) as (B & _).
  destruct (x_susp s); [lia|]. destruct St as [(A & _)|(A & _)]; [lia|exact A].
Qed.

(* the converse: the last iMCU row is not taken before the last line is accepted *)
Theorem C55_not_early : forall c, pcfg_ok c -> forall s, psession c s -> x_y s < p_H c -> x_cur s < total c.
Proof.
  intros c Hc s Hs Y. destruct (sess_ok c Hc s Hs) as (m & P & Em & L & St). 
  destruct (x_susp s); [exact (proj2 St)|]. rewrite Nat.add_0_r in Em. apply (PI_low c Hc s m P). lia.
Qed.

(* what the back end took, in order *)
Definition taken (s : pst) : list (nat * list (option orow)) :=
  rev (map fst (filter snd (x_log s))).

Lemma calls_taken : forall c r l, calls_ok c r l -> rev (map fst (filter snd l)) = map (fun q => (q, imcu_rows c q)) (seq 0 r).
Proof.
  intros c r l Hl. induction Hl as [|r l Hl IH|r l Hl IH].
  - reflexivity.
  - cbn [filter snd]. exact IH.
  - cbn [filter snd map fst rev]. rewrite IH, seq_S, map_app. reflexivity.
Qed.

(* the compressed image depends on the image alone: after any two complete
   sessions -- different batch sizes, different suspensions, different garbage in
   the buffers -- the back end has taken the same data, namely the iMCU rows of
   the image, padded by repetition *)
Theorem C55_batching : forall c, pcfg_ok c -> forall s1 s2, psession c s1 -> psession c s2 ->
  x_y s1 = p_H c -> x_y s2 = p_H c ->
  taken s1 = taken s2 /\ taken s1 = map (fun q => (q, imcu_rows c q)) (seq 0 (total c)).
Proof.
  intros c Hc s1 s2 H1 H2 Y1 Y2.
  pose proof (C55_complete c Hc s1 H1 Y1) as T1. pose proof (C55_complete c Hc s2 H2 Y2) as T2.
  destruct (sess_ok c Hc s1 H1) as (m1 & _ & _ & L1 & _). destruct (sess_ok c Hc s2 H2) as (m2 & _ & _ & L2 & _).
  unfold taken. rewrite (calls_taken c _ _ L1), (calls_taken c _ _ L2), T1, T2. split; reflexivity.
Qed.

(* at any time, what has been taken is a prefix of that *)
Theorem C55_prefix : forall c, pcfg_ok c -> forall s, psession c s ->
  taken s = map (fun q => (q, imcu_rows c q)) (seq 0 (x_cur s)) /\ x_cur s <= total c /\ x_y s <= p_H c.
Proof.
  intros c Hc s Hs. destruct (sess_ok c Hc s Hs) as (m & P & Em & L & _). pose proof (PI_bounds c _ _ P) as (B & _ & D).
  split; [exact (calls_taken c _ _ L)|]. split; [exact D|destruct (x_susp s); lia].
Qed.

(* progress: a call with at least one line into a back end that does not suspend
   accepts everything offered, so the image can always be finished *)
Theorem C55_finish : forall c, pcfg_ok c -> forall s, psession c s -> p_H c <> x_y s ->
  exists s', write_scanlines c (p_H c - x_y s) [] s = Ret (s', p_H c - x_y s, []) /\ psession c s' /\ x_y s' = p_H c /\ x_cur s' = total c.
Proof.
  intros c Hc s Hs Ne. destruct (C55_write c Hc s Hs (p_H c - x_y s) []) as (s' & k & orc' & E & Y & Yb & _ & _ & K & Z).
  destruct (C55_prefix c Hc s Hs) as (_ & _ & B). specialize (K ltac:(lia) (Z eq_refl)). rewrite Nat.min_id in K. subst k.
  assert (O : orc' = []).
  { clear -E. unfold write_scanlines in E. revert E. set (P := process_main _ _ _ _ _ _ _).
    assert (G : forall fuel y0 avail i s s' k o, process_main c fuel y0 avail i [] s = Ret (s', k, o) -> o = []).
    { induction fuel as [|fuel IH]; intros y0 avail i t t' k o E; [discriminate E|]. cbn [process_main] in E.
      destruct (x_cur t <? total c); [|injection E; auto].
      destruct (if x_rgc t <? p_du c then pre_process c y0 avail i t else Ret (t, i)) as [[t1 i1]| |]; cbn [bind] in E; try discriminate E.
      destruct (negb (x_rgc t1 =? p_du c)); [injection E; auto|]. exact (IH _ _ _ _ _ _ _ E). }
    destruct P as [[[a b] o]| |] eqn:EP; cbn [bind]; intros E; try discriminate E. injection E as _ _ <-. exact (G _ _ _ _ _ _ _ _ EP). }
  subst orc'. exists s'. split; [exact E|]. assert (Y2 : x_y s' = p_H c) by lia.
  assert (P2 : psession c s') by (eapply ps_write; [exact Hs|exact E]).
  split; [exact P2|]. split; [exact Y2|]. exact (C55_complete c Hc s' P2 Y2).
Qed.

(* ---- what the specification says, spelled out ---- *)
(* with context rows every row group sees its own rows and the groups above and
   below, the first and last image rows repeated; without, just its own *)
Theorem C55_rows_seen : forall c, pcfg_ok c -> forall g i,
  (p_ctx c = false -> i < p_v c -> nth i (group_rows c g) 0 = Nat.min (g * p_v c + i) (p_H c - 1)) /\
  (p_ctx c = true -> i < 3 * p_v c -> nth i (group_rows c g) 0 = Nat.min (g * p_v c + i - p_v c) (p_H c - 1)).
Proof.
  intros c Hc g i. pose proof (HH c Hc) as HHH. unfold group_rows. split; intros Hx Hi; rewrite Hx.
  - rewrite (nth_indep _ 0 (clampy (p_H c) (Z.of_nat g * Z.of_nat (p_v c) + Z.of_nat 0))) by (rewrite map_length, seq_length; exact Hi).
    rewrite (map_nth (fun i => clampy (p_H c) (Z.of_nat g * Z.of_nat (p_v c) + Z.of_nat i)) (seq 0 (p_v c)) 0 i). rewrite seq_nth by exact Hi. unfold clampy. lia.
  - rewrite (nth_indep _ 0 (clampy (p_H c) ((Z.of_nat g - 1) * Z.of_nat (p_v c) + Z.of_nat 0))) by (rewrite map_length, seq_length; exact Hi).
    rewrite (map_nth (fun i => clampy (p_H c) ((Z.of_nat g - 1) * Z.of_nat (p_v c) + Z.of_nat i)) (seq 0 (3 * p_v c)) 0 i). rewrite seq_nth by exact Hi. unfold clampy. lia.
Qed.

(* ---- cases ---- *)
Fixpoint prun (c : pcfg) (l : list (nat * list bool)) (s : pst) : option (list nat * pst) :=
  match l with
  | [] => Some ([], s)
  | (n, o) :: l => match write_scanlines c n o s with
                   | Ret (s', k, _) => match prun c l s' with Some (ks, s2) => Some (k :: ks, s2) | None => None end
                   | _ => None
                   end
  end.
Lemma prun_session : forall c l s ks s', psession c s -> prun c l s = Some (ks, s') -> psession c s'.
Proof.
  intros c. induction l as [|[n o] l IH]; intros s ks s' Hs E; cbn [prun] in E.
  - injection E as _ <-. exact Hs.
  - destruct (write_scanlines c n o s) as [[[s1 k] o1]| |] eqn:W; try discriminate E. destruct (prun c l s1) as [[ks1 s2]|] eqn:R; [|discriminate E].
    injection E as _ <-. eapply IH; [|exact R]. eapply ps_write; [exact Hs|exact W].
Qed.
Definition pex (b : bool) : pcfg := mkPC b 2 1 2 7.
Definition pgo (b : bool) l := match prun (pex b) l (pstart (pex b) (fun _ => None) (fun _ => None)) with
  Some (ks, s) => Some (ks, x_y s, x_cur s, x_susp s, rev (x_log s)) | None => None end.
Example C55_case_hyp : forall b, pcfg_ok (pex b) /\ total (pex b) = 2 /\ psession (pex b) (pstart (pex b) (fun _ => None) (fun _ => None)).
Proof. intros b. split; [unfold pcfg_ok; cbn; lia|]. split; [reflexivity|constructor]. Qed.
(* 7 rows, iMCU rows of 4, no context rows: batches 1, 1, 3, 1, 2, 3, the back end
   suspending twice: the line that filled the iMCU row is reported only when it is taken *)
Example C55_case_simple :
  pgo false [(1,[]);(1,[]);(3,[false]);(1,[false]);(2,[true;false]);(3,[])] =
    Some ([1;1;1;0;2;2], 7, 2, false,
      [(0, [Some ([0;1],0); Some ([2;3],0)], false); (0, [Some ([0;1],0); Some ([2;3],0)], false); (0, [Some ([0;1],0); Some ([2;3],0)], true);
       (1, [Some ([4;5],0); Some ([6;6],0)], true)]).
Proof. vm_compute. reflexivity. Qed.
Example C55_case_context :
  exists su l, pgo true [(1,[]);(1,[]);(3,[]);(9,[true;false]);(0,[false]);(3,[])] = Some ([1;1;3;1;0;1], 7, 2, su, l) /\ length l = 4.
Proof. vm_compute. eexists _, _. split; reflexivity. Qed.
(* finding: resuming after a suspension by a call with no lines reports one line
   accepted -- the line held back by the suspended call *)
Example C55_zero_lines_refuted : ~ (forall c s n orc s' k orc', pcfg_ok c -> psession c s ->
  write_scanlines c n orc s = Ret (s', k, orc') -> k <= n).
Proof.
  intros A. pose (s0 := pstart (pex false) (fun _ => None) (fun _ => None)).
  assert (S0 : psession (pex false) s0) by constructor. destruct (C55_case_hyp false) as (Hc & _).
  destruct (prun (pex false) [(4, [false])] s0) as [[ks s1]|] eqn:E; [|vm_compute in E; discriminate E].
  pose proof (prun_session _ _ _ _ _ S0 E) as P1.
  destruct (C55_write _ Hc s1 P1 0 []) as (s' & k & o & E2 & Y & _).
  specialize (A _ _ _ _ _ _ _ Hc P1 E2).
  assert (K : match prun (pex false) [(4, [false]); (0, [])] s0 with Some (ks, _) => ks = [3; 1] | None => False end) by (vm_compute; reflexivity).
  cbn [prun] in E, K. destruct (write_scanlines (pex false) 4 [false] s0) as [[[sa ka] oa]| |]; try discriminate E. injection E as E3 E4. subst sa.
  rewrite E2 in K. injection K as _ K. lia.
Qed.

Print Assumptions C55_write.
Print Assumptions C55_complete.
Print Assumptions C55_not_early.
Print Assumptions C55_batching.
Print Assumptions C55_prefix.
Print Assumptions C55_finish.
Print Assumptions C55_rows_seen.
