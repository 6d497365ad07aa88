(* T_Context.v -- C47: the rows the upsampler sees when it needs context. *)
From Verif Require Import Base M_DMain S_DMain P_DMain M_DApi S_DApi T_DApi.
Open Scope nat_scope.

(* C47, stated line by line and without reference to the pointer scheme.  Output
   line i belongs to row group i / v (v = max vertical sampling factor), whose
   component rows are g*rg .. g*rg + rg - 1.  Whatever the image height, the
   sampling factors, the iMCU size, the numbers of lines asked for and the points
   of suspension, the j-th row the upsampler was given for it (j = 0 .. rg + 1,
   j = 0 the row above the group, j = rg + 1 the row below) held component row
   g*rg + j - 1, or the first (last) row of the component when that lies above
   (below) the image. *)
Definition row_at (rows : nat) (i : Z) (r : nat) : Prop :=
  ((0 <= i < Z.of_nat rows)%Z -> Z.of_nat r = i) /\
  ((i < 0)%Z -> r = 0) /\ ((Z.of_nat rows <= i)%Z -> r = rows - 1).

Theorem C47_context_rows : forall h du prec s0 ks s i,
  dcfg_ok h du (x_cfg s0) -> g_context (x_cfg s0) = true ->
  reachable s0 -> x_prec s0 = prec -> reading prec s0 ks s -> i < total ks ->
  let v := g_v (x_cfg s0) in let rg := g_rg (x_cfg s0) in let rows := g_dh (x_cfg s0) in
  exists l, nth_error (d_lines (x_pass s)) i = Some l /\
    l_row l = i mod v /\
    length (l_val l) = rg + 2 /\
    (forall j, j < rg + 2 -> exists r, nth_error (l_val l) j = Some r /\
       row_at rows (Z.of_nat (i / v * rg) + Z.of_nat j - 1) r) /\
    length (l_now l) = rg /\
    (forall j, j < rg -> exists r, nth_error (l_now l) j = Some r /\
       row_at rows (Z.of_nat (i / v * rg) + Z.of_nat j) r).
Proof.
  intros h du prec s0 ks s i Hc Hx HR Hp R Hi v rg rows.
  destruct (C43_scanlines h du prec s0 ks s Hc HR Hp R) as (_ & _ & E & _).
  exists (line_spec (x_cfg s0) i).
  assert (Hrows : 1 <= g_dh (x_cfg s0)).
  { destruct Hc as (A1 & A2 & A3 & A4 & A5 & _ & _ & _ & A6). rewrite A6. unfold ceil_div.
    apply Nat.div_le_lower_bound; [nia|]. assert (1 <= h * (g_rg (x_cfg s0) * g_M (x_cfg s0))) by nia. lia. }
  assert (CR : forall z, row_at rows z (clamp_row (x_cfg s0) z)).
  { intros z. unfold row_at, clamp_row, rows. lia. }
  assert (NM : forall (A : Type) (f : nat -> A) n j, j < n -> nth_error (map f (seq 0 n)) j = Some (f j)).
  { intros A f n j Hj. rewrite nth_error_map. rewrite (nth_error_nth' _ 0) by (rewrite seq_length; exact Hj).
    rewrite seq_nth by exact Hj. reflexivity. }
  split; [rewrite E; apply NM; exact Hi|]. unfold line_spec. rewrite Hx. cbn [l_row l_val l_now].
  split; [reflexivity|]. split; [unfold ctx_rows; rewrite map_length, seq_length; reflexivity|].
  split.
  { intros j Hj. eexists. split; [apply NM; exact Hj|]. apply CR. }
  split; [unfold own_rows_clamped; rewrite map_length, seq_length; reflexivity|].
  intros j Hj. eexists. split; [apply NM; exact Hj|]. apply CR.
Qed.
Print Assumptions C47_context_rows.

(* And the rows are complete: when output_height lines have been delivered every
   component row that is needed for the image has been shown to the upsampler. *)
Theorem C47_rows_complete : forall h du prec s0 ks s r,
  dcfg_ok h du (x_cfg s0) -> g_context (x_cfg s0) = true ->
  reachable s0 -> x_prec s0 = prec -> reading prec s0 ks s -> total ks = g_O (x_cfg s0) ->
  r < g_dh (x_cfg s0) ->
  r / g_rg (x_cfg s0) * g_v (x_cfg s0) < g_O (x_cfg s0) ->
  exists l, nth_error (d_lines (x_pass s)) (r / g_rg (x_cfg s0) * g_v (x_cfg s0)) = Some l /\
    nth_error (l_val l) (1 + r mod g_rg (x_cfg s0)) = Some r.
Proof.
  intros h du prec s0 ks s r Hc Hx HR Hp R Ht Hr Hl.
  assert (Hg : g_rg (x_cfg s0) <> 0) by (destruct Hc as (_ & _ & _ & _ & H & _); lia).
  assert (Hv : g_v (x_cfg s0) <> 0) by (destruct Hc as (_ & _ & _ & H & _); lia).
  destruct (C47_context_rows h du prec s0 ks s (r / g_rg (x_cfg s0) * g_v (x_cfg s0)) Hc Hx HR Hp R ltac:(lia))
    as (l & E & _ & _ & W & _).
  exists l. split; [exact E|].
  pose proof (Nat.mod_upper_bound r (g_rg (x_cfg s0)) Hg) as Hm.
  destruct (W (1 + r mod g_rg (x_cfg s0)) ltac:(lia)) as (r' & E' & (A & _ & _)). rewrite E'. f_equal.
  rewrite Nat.div_mul in A by exact Hv.
  pose proof (Nat.div_mod r (g_rg (x_cfg s0)) Hg) as D.
  rewrite (Nat.mul_comm (r / g_rg (x_cfg s0))) in A. lia.
Qed.
Print Assumptions C47_rows_complete.

(* Non-vacuity: the 19-line image of T_DApi.v (4:2:0-like, two iMCU rows, the
   second incomplete), read in odd batches with two suspensions: the hypotheses
   hold with all 19 lines delivered, and the windows are as stated. *)
Lemma run_reading : forall ns s ks, reading 8 ex_s1 ks s -> reading 8 ex_s1 (ks ++ fst (run ns s)) (snd (run ns s)).
Proof.
  induction ns as [|n ns IH]; intros s ks H; cbn [run]; [cbn; rewrite app_nil_r; exact H|].
  destruct (read_scanlines 8 n s) as [k s'|e s'|] eqn:E; try (cbn; rewrite app_nil_r; exact H).
  pose proof (IH s' (ks ++ [k]) (rd_read 8 ex_s1 ks s n k s' H E)) as Q.
  destruct (run ns s') as [l s'']. cbn in Q |- *. rewrite <- app_assoc in Q. exact Q.
Qed.
Definition ex_run_all := run [1; 7; 30; 30; 1; 30; 30; 30; 30; 30; 30; 30; 30; 30] ex_s2.
Example ex_windows :
  reading 8 ex_s1 (fst ex_run_all) (snd ex_run_all) /\ total (fst ex_run_all) = g_O (x_cfg ex_s1) /\
  map l_val (d_lines (x_pass (snd ex_run_all)))
  = [[0;0;1];[0;0;1];[0;1;2];[0;1;2];[1;2;3];[1;2;3];[2;3;4];[2;3;4];[3;4;5];[3;4;5];[4;5;6];[4;5;6];
     [5;6;7];[5;6;7];[6;7;8];[6;7;8];[7;8;9];[7;8;9];[8;9;9]].
Proof.
  split; [|split; vm_compute; reflexivity].
  apply (run_reading [1; 7; 30; 30; 1; 30; 30; 30; 30; 30; 30; 30; 30; 30] ex_s2 []). apply (rd_start 8 ex_s1 ex_s2 0); [left; reflexivity|reflexivity].
Qed.
