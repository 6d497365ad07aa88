(* P_Smooth2.v -- smooth_block computes the block of the specification. *)
From Verif Require Import Base M_Smooth S_Smooth P_Smooth.

Ltac posn := cbv [Q01_POS Q10_POS Q20_POS Q11_POS Q02_POS Q03_POS Q12_POS Q21_POS Q30_POS] in *.

Lemma find_none k :
  k <> 1%nat -> k <> 8%nat -> k <> 16%nat -> k <> 9%nat -> k <> 2%nat -> k <> 3%nat ->
  k <> 10%nat -> k <> 17%nat -> k <> 24%nat ->
  find (fun t => (t_pos t =? k)%nat) targets = None.
Proof.
  intros. unfold targets, find, t_pos. cbn [t_v t_h].
  repeat match goal with |- context [(?a =? k)%nat] =>
    destruct (Nat.eqb_spec a k); [subst k; exfalso; cbn in *; lia|] end.
  reflexivity.
Qed.

Lemma smooth_block_ok q cb d ws :
  quants_ok q -> length d = 25%nat -> Forall r16 d -> length ws = 64%nat ->
  exists out, smooth_block q cb d ws = Ret out /\ length out = 64%nat /\
    forall k, nth k out 0 =
      smoothed (fun k => nth k q 0) (fun i => nth i cb 0) (nbh d) (fun k => nth k ws 0) k.
Proof.
  intros Hq Hd Hf Hl.
  pose proof (quants_pos q Hq) as (P0 & P1 & P8 & P16 & P9 & P2 & P3 & P10 & P17 & P24).
  pose proof (nth_range q 0 (proj1 Hq)) as R0.
  unfold smooth_block. rewrite change_dc_spec.
  destruct (only_dc_known (fun i => nth i cb 0)) eqn:Ecd; posn; cbv zeta.
  - rewrite ac_step_ok by (try assumption; apply k01c_bound; assumption). cbn [bind].
    rewrite ac_step_ok by (try assumption; apply k10c_bound; assumption). cbn [bind].
    rewrite ac_step_ok by (try assumption; apply k20c_bound; assumption). cbn [bind].
    rewrite ac_step_ok by (try assumption; apply k11c_bound; assumption). cbn [bind].
    rewrite ac_step_ok by (try assumption; apply k02c_bound; assumption). cbn [bind].
    rewrite ac_step_ok by (try assumption; apply k03_bound; assumption). cbn [bind].
    rewrite ac_step_ok by (try assumption; apply k12_bound; assumption). cbn [bind].
    rewrite ac_step_ok by (try assumption; apply k21_bound; assumption). cbn [bind].
    rewrite ac_step_ok by (try assumption; apply k30_bound; assumption). cbn [bind].
    rewrite estimate_ok by first [assumption | right; split; [reflexivity|apply k00_bound; assumption]].
    cbn [bind].
    rewrite !est_or_keep_upd by discriminate.
    eexists. split; [reflexivity|]. split; [rewrite !length_upd; exact Hl|].
    rewrite (k00_spec d Hd), (k01c_spec d Hd), (k10c_spec d Hd), (k20c_spec d Hd), (k11c_spec d Hd),
      (k02c_spec d Hd), (k03_spec d Hd), (k12_spec d Hd), (k21_spec d Hd), (k30_spec d Hd).
    intros k. unfold smoothed. rewrite Ecd. cbv zeta.
    destruct (Nat.eq_dec k 0) as [->|N0];
      [rewrite nth_upd_eq by (rewrite !length_upd, Hl; lia); reflexivity|].
    rewrite (nth_upd_neq _ 0 k) by congruence.
    replace (k =? 0)%nat with false by (symmetry; apply Nat.eqb_neq; exact N0).
    Local Ltac tgt k c := destruct (Nat.eq_dec k c) as [->|?];
      [rewrite nth_upd_eq by (rewrite ?length_upd; lia); reflexivity
      |rewrite (nth_upd_neq _ c k) by congruence].
    tgt k 24%nat. tgt k 17%nat. tgt k 10%nat. tgt k 3%nat. tgt k 2%nat. tgt k 9%nat.
    tgt k 16%nat. tgt k 8%nat. tgt k 1%nat.
    rewrite find_none by assumption. reflexivity.
  - rewrite ac_step_ok by (try assumption; apply k01n_bound; assumption). cbn [bind].
    rewrite ac_step_ok by (try assumption; apply k10n_bound; assumption). cbn [bind].
    rewrite ac_step_ok by (try assumption; apply k20n_bound; assumption). cbn [bind].
    rewrite ac_step_ok by (try assumption; apply k11n_bound; assumption). cbn [bind].
    rewrite ac_step_ok by (try assumption; apply k02n_bound; assumption). cbn [bind].
    rewrite !est_or_keep_upd by discriminate.
    eexists. split; [reflexivity|]. split; [rewrite !length_upd; exact Hl|].
    rewrite (k01n_spec d Hd), (k10n_spec d Hd), (k20n_spec d Hd), (k11n_spec d Hd),
      (k02n_spec d Hd).
    intros k. unfold smoothed. rewrite Ecd. cbv zeta.
    destruct (Nat.eq_dec k 0) as [->|N0];
      [rewrite !nth_upd_neq by discriminate; reflexivity|].
    replace (k =? 0)%nat with false by (symmetry; apply Nat.eqb_neq; exact N0).
    tgt k 2%nat. tgt k 9%nat. tgt k 16%nat. tgt k 8%nat. tgt k 1%nat.
    destruct (Nat.eq_dec k 24) as [->|?]; [reflexivity|].
    destruct (Nat.eq_dec k 17) as [->|?]; [reflexivity|].
    destruct (Nat.eq_dec k 10) as [->|?]; [reflexivity|].
    destruct (Nat.eq_dec k 3) as [->|?]; [reflexivity|].
    rewrite find_none by assumption. reflexivity.
Qed.
