(* P_Smooth4.v -- rows: every access is inside the array, and which rows are
   the neighbours. *)
From Verif Require Import Base M_Smooth S_Smooth P_Smooth P_Smooth2 P_Smooth3.

Definition bk (arr : barray) (y x : Z) : list Z :=
  nth (Z.to_nat x) (nth (Z.to_nat y) arr []) [].
Definition dcv (arr : barray) (y x : Z) : Z := nth 0 (bk arr y x) 0.

(* a component's geometry: total iMCU rows of v block rows cover the hb block
   rows; the decoded columns lie in the component *)
Definition geom_ok (g : sgeom) : Prop :=
  1 <= g_v g /\ 1 <= g_total g /\
  (g_total g - 1) * g_v g < g_hb g <= g_total g * g_v g /\
  0 <= g_first g <= g_last g /\ g_last g < g_wb g.

(* the coefficient array: all rows, padded; 16-bit coefficients *)
Definition arr_ok (arr : barray) (g : sgeom) : Prop :=
  Z.of_nat (length arr) = g_total g * g_v g /\
  Forall (fun row => g_wb g <= Z.of_nat (length row) /\
            Forall (fun b => length b = 64%nat /\ Forall r16 b) row) arr.

Lemma block_rows_spec g r : geom_ok g -> 0 <= r < g_total g ->
  block_rows g r = Z.min (g_v g) (g_hb g - r * g_v g).
Proof.
  intros (Hv & Ht & Hh & _) Hr. unfold block_rows.
  destruct (Z.ltb_spec r (g_total g - 1)) as [H|H].
  - nia.
  - assert (r = g_total g - 1) by lia. subst r.
    destruct (Z.eq_dec (g_hb g) (g_total g * g_v g)) as [E|E].
    + rewrite E, Z.mod_mul by lia. cbn [Z.eqb]. lia.
    + assert (M : g_hb g mod g_v g = g_hb g - (g_total g - 1) * g_v g).
      { symmetry. apply (Z.mod_unique _ _ (g_total g - 1)); [left; nia|ring]. }
      rewrite M. destruct (Z.eqb_spec (g_hb g - (g_total g - 1) * g_v g) 0); nia.
Qed.

Lemma block_rows_range g r : geom_ok g -> 0 <= r < g_total g ->
  1 <= block_rows g r <= g_v g.
Proof.
  intros Hg Hr. rewrite block_rows_spec by assumption. destruct Hg as (Hv & Ht & Hh & _). nia.
Qed.

Lemma back_sum g r : 0 <= r -> back_start g r + back_rows g r = r * g_v g.
Proof.
  intros. unfold back_start, back_rows.
  destruct (Z.ltb_spec 1 r); [ring|]. destruct (Z.ltb_spec 0 r); [ring|].
  assert (r = 0) by lia. subst. ring.
Qed.

Lemma back_nonneg g r : 1 <= g_v g -> 0 <= r -> 0 <= back_start g r /\ 0 <= back_rows g r <= 2 * g_v g.
Proof.
  intros. unfold back_start, back_rows.
  destruct (Z.ltb_spec 1 r); [nia|]. destruct (Z.ltb_spec 0 r); nia.
Qed.

Lemma fwd_bound g r : geom_ok g -> 0 <= r < g_total g ->
  1 <= fwd_rows g r <= 3 * g_v g /\ r * g_v g + fwd_rows g r <= g_total g * g_v g.
Proof.
  intros Hg Hr. pose proof (block_rows_range g r Hg Hr) as Hb. destruct Hg as (Hv & Ht & Hh & _).
  unfold fwd_rows.
  destruct (Z.ltb_spec (r + 1) (g_total g - 1)); [nia|].
  destruct (Z.ltb_spec r (g_total g - 1)); [nia|]. nia.
Qed.

(* the row of the component used at vertical offset i from row r*v+br *)
Definition yrow (g : sgeom) (r br i : Z) : Z :=
  r * g_v g + nth (Z.to_nat (i + 2)) (row_ptrs g r br) 0.

Lemma row_ptrs_in g r br : geom_ok g -> 0 <= r < g_total g -> 0 <= br < block_rows g r ->
  Forall (fun k => 0 <= back_rows g r + k < fwd_rows g r + back_rows g r) (row_ptrs g r br).
Proof.
  intros Hg Hr Hbr. pose proof (block_rows_range g r Hg Hr) as Hb.
  assert (Hfull : r < g_total g - 1 -> block_rows g r = g_v g).
  { intros. unfold block_rows. destruct (Z.ltb_spec r (g_total g - 1)); [reflexivity|lia]. }
  destruct Hg as (Hv & Ht & Hh & _).
  unfold row_ptrs. set (R := block_rows g r) in *.
  assert (Hback : back_rows g r = if 1 <? r then 2 * g_v g else if 0 <? r then g_v g else 0) by reflexivity.
  assert (Hfwd : fwd_rows g r = if r + 1 <? g_total g - 1 then R * 3
      else if r <? g_total g - 1 then R * 2 else R) by reflexivity.
  rewrite Hback, Hfwd. clear Hback Hfwd.
  assert (Hup1 : 0 < r * R + br -> 1 <= r \/ 1 <= br) by nia.
  assert (Hup2 : 1 < r * R + br -> 2 <= r \/ 2 <= br \/ (r = 1 /\ (1 <= br \/ 2 <= R))) by nia.
  assert (Hdn1 : r * R + br < R * g_total g - 1 -> r < g_total g - 1 \/ br + 1 < R) by nia.
  assert (Hdn2 : r * R + br < R * g_total g - 2 ->
     r + 1 < g_total g - 1 \/ br + 2 < R \/ (r = g_total g - 2 /\ (br + 1 < R \/ 2 <= R))) by nia.
  clearbody R.
  destruct (Z.ltb_spec 0 (r * R + br)); destruct (Z.ltb_spec 1 (r * R + br));
  destruct (Z.ltb_spec (r * R + br) (R * g_total g - 1));
  destruct (Z.ltb_spec (r * R + br) (R * g_total g - 2));
  destruct (Z.ltb_spec 1 r); destruct (Z.ltb_spec 0 r);
  destruct (Z.ltb_spec (r + 1) (g_total g - 1)); destruct (Z.ltb_spec r (g_total g - 1));
  try (exfalso; lia);
  repeat (apply Forall_cons; [lia|]); apply Forall_nil.
Qed.

(* where the rows are exactly the clamped ones *)
Definition rows_exact (g : sgeom) (r br : Z) : Prop :=
  g_hb g mod g_v g = 0 \/ (r < g_total g - 1 /\ r * g_v g + br + 2 < g_hb g) \/
  (r = g_total g - 1 /\ 2 <= r).

Lemma yrow_exact g r br i : geom_ok g -> 0 <= r < g_total g -> 0 <= br < block_rows g r ->
  rows_exact g r br -> In i offsets ->
  yrow g r br i = clamp 0 (g_hb g - 1) (r * g_v g + br + i).
Proof.
  intros Hg Hr Hbr Hex Hi. pose proof (block_rows_range g r Hg Hr) as Hb.
  pose proof (block_rows_spec g r Hg Hr) as Hsp.
  destruct Hg as (Hv & Ht & Hh & _).
  unfold yrow, row_ptrs. set (R := block_rows g r) in *.
  assert (Hhb : g_hb g mod g_v g = 0 -> g_hb g = g_total g * g_v g).
  { intros E. apply Z.mod_divide in E; [|lia]. destruct E as [c E]. rewrite E in Hh |- *.
    assert (g_total g - 1 < c) by (apply (Z.mul_lt_mono_pos_r (g_v g)); lia).
    assert (c <= g_total g) by (apply (Z.mul_le_mono_pos_r _ _ (g_v g)); lia).
    f_equal. lia. }
  assert (K : (0 < r * R + br <-> 0 < r * g_v g + br) /\
              (1 < r * R + br <-> 1 < r * g_v g + br) /\
              (r * R + br < R * g_total g - 1 <-> r * g_v g + br < g_hb g - 1) /\
              (r * R + br < R * g_total g - 2 <-> r * g_v g + br < g_hb g - 2)).
  { destruct Hex as [E|[[E1 E2]|[E1 E2]]].
    - specialize (Hhb E). assert (R = g_v g) by nia. nia.
    - assert (R = g_v g) by nia. nia.
    - subst r. assert (R = g_hb g - (g_total g - 1) * g_v g) by nia. nia. }
  destruct K as (K1 & K2 & K3 & K4). clearbody R.
  assert (Hy0 : 0 <= r * g_v g) by nia.
  set (y := r * g_v g) in *. clearbody y.
  assert (Hy : y + br < g_hb g) by lia. clear Hex Hhb.
  unfold offsets in Hi. unfold clamp.
  destruct Hi as [<-|[<-|[<-|[<-|[<-|[]]]]]];
  match goal with |- context [Z.to_nat ?e] =>
    let v := eval vm_compute in (Z.to_nat e) in change (Z.to_nat e) with v end;
  cbn [nth];
  repeat match goal with |- context [?a <? ?b] => destruct (Z.ltb_spec a b) end; lia.
Qed.

(* where the row used lies in general *)
Lemma yrow_near g r br i : geom_ok g -> 0 <= r < g_total g -> 0 <= br < block_rows g r ->
  In i offsets ->
  (0 <= i -> r * g_v g + br <= yrow g r br i <= r * g_v g + br + i) /\ (i <= 0 -> r * g_v g + br + i <= yrow g r br i <= r * g_v g + br).
Proof.
  intros Hg Hr Hbr Hi. unfold yrow, row_ptrs. set (y := r * g_v g).
  unfold offsets in Hi.
  destruct Hi as [<-|[<-|[<-|[<-|[<-|[]]]]]];
  match goal with |- context [Z.to_nat ?e] =>
    let v := eval vm_compute in (Z.to_nat e) in change (Z.to_nat e) with v end;
  cbn [nth];
  repeat match goal with |- context [?a <? ?b] => destruct (Z.ltb_spec a b) end; lia.
Qed.

Lemma yrow_in g r br i : geom_ok g -> 0 <= r < g_total g -> 0 <= br < block_rows g r ->
  In i offsets -> 0 <= yrow g r br i < g_total g * g_v g.
Proof.
  intros Hg Hr Hbr Hi.
  pose proof (row_ptrs_in g r br Hg Hr Hbr) as Hf. rewrite Forall_forall in Hf.
  specialize (Hf (nth (Z.to_nat (i + 2)) (row_ptrs g r br) 0)).
  assert (Hin : In (nth (Z.to_nat (i + 2)) (row_ptrs g r br) 0) (row_ptrs g r br)).
  { apply nth_In. unfold row_ptrs. cbn [length]. unfold offsets in Hi.
    destruct Hi as [<-|[<-|[<-|[<-|[<-|[]]]]]]; cbn; lia. }
  specialize (Hf Hin). unfold yrow.
  pose proof (back_sum g r ltac:(lia)). pose proof (back_nonneg g r (proj1 Hg) ltac:(lia)).
  pose proof (fwd_bound g r Hg Hr). lia.
Qed.

Section Arr.
Variables (arr : barray) (g : sgeom) (r : Z).
Hypothesis Hg : geom_ok g.
Hypothesis Ha : arr_ok arr g.
Hypothesis Hr : 0 <= r < g_total g.

Let N := fwd_rows g r + back_rows g r.
Let win := firstn (Z.to_nat N) (skipn (Z.to_nat (back_start g r)) arr).

Lemma access_ok : access_rows_of arr (5 * g_v g) (back_start g r) N = Ret win.
Proof.
  unfold access_rows_of. destruct Ha as [Hl _].
  pose proof (back_sum g r ltac:(lia)). pose proof (back_nonneg g r (proj1 Hg) ltac:(lia)).
  pose proof (fwd_bound g r Hg Hr). unfold N in *.
  destruct (Z.ltb_spec (Z.of_nat (length arr)) (back_start g r + (fwd_rows g r + back_rows g r))); [lia|].
  destruct (Z.ltb_spec (5 * g_v g) (fwd_rows g r + back_rows g r)); [lia|]. reflexivity.
Qed.

Lemma row_ok y : 0 <= y < g_total g * g_v g ->
  g_wb g <= Z.of_nat (length (nth (Z.to_nat y) arr [])) /\
  Forall (fun b => length b = 64%nat /\ Forall r16 b) (nth (Z.to_nat y) arr []).
Proof.
  intros Hy. destruct Ha as [Hl Hf]. rewrite Forall_forall in Hf. apply Hf. apply nth_In. lia.
Qed.

Lemma bk_ok y c : 0 <= y < g_total g * g_v g -> 0 <= c < g_wb g ->
  length (bk arr y c) = 64%nat /\ Forall r16 (bk arr y c).
Proof.
  intros Hy Hc. destruct (row_ok y Hy) as [L F]. rewrite Forall_forall in F. apply F.
  unfold bk. apply nth_In. lia.
Qed.

Lemma win_row i : 0 <= i < N -> aget win i = Ret (nth (Z.to_nat (back_start g r + i)) arr []).
Proof.
  intros Hi. destruct Ha as [Hl _].
  pose proof (back_sum g r ltac:(lia)). pose proof (back_nonneg g r (proj1 Hg) ltac:(lia)).
  pose proof (fwd_bound g r Hg Hr). unfold N in Hi.
  rewrite (aget_nth win i []).
  - f_equal. unfold win.
    rewrite <- (firstn_skipn (Z.to_nat (back_start g r)) arr) at 2.
    rewrite (app_nth2 (firstn _ arr)) by (rewrite firstn_length; lia).
    rewrite firstn_length. set (l := skipn (Z.to_nat (back_start g r)) arr).
    replace (Z.to_nat (back_start g r + i) - Nat.min (Z.to_nat (back_start g r)) (length arr))%nat
      with (Z.to_nat i) by lia.
    assert (Hll : (Z.to_nat i < length (firstn (Z.to_nat N) l))%nat).
    { unfold l. rewrite firstn_length, skipn_length. unfold N. lia. }
    rewrite <- (firstn_skipn (Z.to_nat N) l) at 2. rewrite app_nth1 by exact Hll. reflexivity.
  - unfold win. rewrite firstn_length, skipn_length. unfold N. lia.
Qed.

Lemma start_in i : 0 <= i < N -> 0 <= back_start g r + i < g_total g * g_v g.
Proof.
  intros Hi. unfold N in Hi.
  pose proof (back_sum g r ltac:(lia)). pose proof (back_nonneg g r (proj1 Hg) ltac:(lia)).
  pose proof (fwd_bound g r Hg Hr). lia.
Qed.

Lemma block_at_ok i c : 0 <= i < N -> 0 <= c < g_wb g ->
  block_at win i c = Ret (bk arr (back_start g r + i) c).
Proof.
  intros Hi Hc. unfold block_at. rewrite win_row by exact Hi. cbn [bind].
  destruct (row_ok _ (start_in i Hi)) as [L _].
  rewrite (aget_nth _ c []) by lia. reflexivity.
Qed.

Lemma dc_at_ok i c : 0 <= i < N -> 0 <= c < g_wb g ->
  dc_at win i c = Ret (dcv arr (back_start g r + i) c).
Proof.
  intros Hi Hc. unfold dc_at. rewrite block_at_ok by assumption. cbn [bind].
  destruct (bk_ok _ c (start_in i Hi) Hc) as [L _].
  rewrite (aget_nth _ 0 0) by lia. reflexivity.
Qed.

Lemma smooth_block_row_ok q cb br :
  quants_ok q -> 0 <= br < block_rows g r ->
  exists outs, smooth_block_row win g q cb r br = Ret outs /\
    Z.of_nat (length outs) = g_last g - g_first g + 1 /\
    forall c, g_first g <= c <= g_last g ->
      length (nth (Z.to_nat (c - g_first g)) outs []) = 64%nat /\
      forall k, nth k (nth (Z.to_nat (c - g_first g)) outs []) 0 =
        smoothed (fun k => nth k q 0) (fun i => nth i cb 0)
          (fun i j => dcv arr (yrow g r br i) (clamp (g_first g) (g_wb g - 1) (c + j)))
          (fun k => nth k (bk arr (r * g_v g + br) c) 0) k.
Proof.
  intros Hq Hbr. unfold smooth_block_row. cbv zeta.
  pose proof (row_ptrs_in g r br Hg Hr Hbr) as Hin.
  pose proof (block_rows_range g r Hg Hr) as Hbrr.
  pose proof (back_sum g r ltac:(lia)) as Hbs.
  assert (Hc' := proj2 (proj2 (proj2 Hg))). destruct Hc' as [[Hf1 Hf2] Hf3].
  assert (Hrp : exists k0 k1 k2 k3 k4, row_ptrs g r br = [k0; k1; k2; k3; k4])
    by (unfold row_ptrs; repeat eexists).
  assert (Hcur : 0 <= back_rows g r + br < N).
  { rewrite Forall_forall in Hin. unfold N. apply Hin. unfold row_ptrs. right; right; left. reflexivity. }
  destruct Hrp as (k0 & k1 & k2 & k3 & k4 & Erp).
  assert (Hidx : Forall (fun i => 0 <= i < N)
     [back_rows g r + k0; back_rows g r + k1; back_rows g r + k2; back_rows g r + k3; back_rows g r + k4]).
  { rewrite Erp in Hin. repeat (apply Forall_cons_iff in Hin; destruct Hin as [? Hin]).
    unfold N. repeat (apply Forall_cons; [assumption|]). apply Forall_nil. }
  set (D := fun i c => dcv arr (back_start g r + i) c).
  set (BB := fun i c => bk arr (back_start g r + i) c).
  assert (HB : forall i c, 0 <= i < N -> 0 <= c < g_wb g -> length (BB i c) = 64%nat).
  { intros i c Hi Hc. apply (bk_ok _ c (start_in i Hi) Hc). }
  assert (HD : forall i c, 0 <= i < N -> 0 <= c < g_wb g -> r16 (D i c)).
  { intros i c Hi Hc. destruct (bk_ok _ c (start_in i Hi) Hc) as [L F].
    unfold D, dcv. rewrite Forall_forall in F. apply F. apply nth_In. lia. }
  rewrite Erp. cbn [map].
  rewrite (mapm_ok _ (pre g D (g_first g))).
  2:{ intros i Hi. rewrite Forall_forall in Hidx.
      apply (reg_init_ok win g N D dc_at_ok Hf1 Hf2 Hf3). apply Hidx; exact Hi. }
  cbn [bind]. cbn [map combine].
  destruct (smooth_cols_ok win g N D BB dc_at_ok block_at_ok HB HD Hf1 Hf2 Hf3 q cb
     (back_rows g r + br) _ _ _ _ _ Hq Hcur Hidx (Z.to_nat (g_last g - g_first g + 1))
     (g_first g) ltac:(lia) ltac:(lia)) as (outs & E & L & T).
  cbn [map] in E. rewrite E. exists outs. split; [reflexivity|]. split; [lia|].
  intros c Hc. destruct (T (Z.to_nat (c - g_first g)) ltac:(lia)) as [T1 T2].
  split; [exact T1|]. intros k. rewrite T2.
  assert (Ec : g_first g + Z.of_nat (Z.to_nat (c - g_first g)) = c) by lia. rewrite Ec.
  apply smoothed_ext.
  - intros i j Hi Hj. unfold D, yrow. rewrite Erp. f_equal.
    unfold offsets in Hi. destruct Hi as [<-|[<-|[<-|[<-|[<-|[]]]]]];
    match goal with |- context [Z.to_nat ?e] =>
      let v := eval vm_compute in (Z.to_nat e) in change (Z.to_nat e) with v end;
    cbn [nth]; lia.
  - intros k'. unfold BB. replace (back_start g r + (back_rows g r + br)) with (r * g_v g + br) by lia. reflexivity.
Qed.

Lemma smooth_comp_ok q latch prev lg :
  quants_ok q ->
  exists out, smooth_comp arr g q latch prev lg r = Ret out /\
    Z.of_nat (length out) = block_rows g r /\
    forall br, 0 <= br < block_rows g r ->
      Z.of_nat (length (nth (Z.to_nat br) out [])) = g_last g - g_first g + 1 /\
      forall c, g_first g <= c <= g_last g ->
      length (nth (Z.to_nat (c - g_first g)) (nth (Z.to_nat br) out []) []) = 64%nat /\
      forall k, nth k (nth (Z.to_nat (c - g_first g)) (nth (Z.to_nat br) out []) []) 0 =
        smoothed (fun k => nth k q 0) (fun i => nth i (if lg <? r then prev else latch) 0)
          (fun i j => dcv arr (yrow g r br i) (clamp (g_first g) (g_wb g - 1) (c + j)))
          (fun k => nth k (bk arr (r * g_v g + br) c) 0) k.
Proof.
  intros Hq. unfold smooth_comp. fold N. rewrite access_ok. cbn [bind].
  set (cb := if lg <? r then prev else latch).
  pose proof (block_rows_range g r Hg Hr) as Hb.
  destruct (mapm_ex (smooth_block_row win g q cb r)
     (map Z.of_nat (seq 0 (Z.to_nat (block_rows g r))))) as (out & E & L & T).
  { intros x Hx. apply in_map_iff in Hx. destruct Hx as (n & <- & Hn). apply in_seq in Hn.
    destruct (smooth_block_row_ok q cb (Z.of_nat n) Hq ltac:(lia)) as (o & Eo & _).
    exists o; exact Eo. }
  rewrite E. exists out. rewrite map_length, seq_length in L.
  split; [reflexivity|]. split; [lia|]. intros br Hbr.
  destruct (T (Z.to_nat br) br) as (y & Ey & Ef).
  { rewrite nth_error_map.
    rewrite (nth_error_nth' _ 0%nat) by (rewrite seq_length; lia).
    rewrite seq_nth by lia. cbn [option_map]. f_equal. lia. }
  destruct (smooth_block_row_ok q cb br Hq Hbr) as (o & Eo & Lo & To).
  rewrite Ef in Eo. injection Eo as ->. rewrite (nth_error_nth _ _ _ Ey).
  split; [exact Lo|]. exact To.
Qed.
End Arr.
