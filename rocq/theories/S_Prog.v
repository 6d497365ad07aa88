(* S_Prog.v -- what a scan of a (possibly progressive) JPEG conveys about a block.
   Written from the JPEG standard (F.1, G.1): independent of any coder. *)
From Coq Require Import ZArith List.
From Verif Require Import Base S_Block.
Import ListNotations.
Local Open Scope Z_scope.

(* the coefficient at zigzag position i of a block stored in natural order *)
Definition zz (blk : list Z) (i : Z) : Z := nth (nth (Z.to_nat i) zigzag 0%nat) blk 0.
(* what is known of a coefficient once its bits down to bit Al have been sent: DC is rounded down, AC towards zero *)
Definition dc_at (Al c : Z) : Z := c / 2 ^ Al * 2 ^ Al.
Definition ac_at (Al c : Z) : Z := Z.sgn c * (Z.abs c / 2 ^ Al * 2 ^ Al).
Definition at_prec (Al i c : Z) : Z := if i =? 0 then dc_at Al c else ac_at Al c.
(* a scan of the band Ss..Se to precision Al brings the band of the decoder's block to that precision and leaves the rest *)
Definition block_after (Ss Se Al : Z) (src old new : list Z) : Prop :=
  length new = 64%nat /\ forall i, 0 <= i < 64 -> zz new i = if (Ss <=? i) && (i <=? Se) then at_prec Al i (zz src i) else zz old i.
(* what the decoder must hold before: nothing sent yet (Ah = 0), or everything down to bit Ah *)
Definition block_before (Ss Se Ah : Z) (src old : list Z) : Prop :=
  length old = 64%nat /\ forall i, 0 <= i < 64 -> Ss <= i <= Se -> zz old i = if Ah =? 0 then 0 else at_prec Ah i (zz src i).
(* coefficients a JPEG block can hold *)
Definition block_src (src : list Z) : Prop := length src = 64%nat /\ forall i, 0 <= i < 64 -> -32768 <= zz src i <= 32767.

(* precision 0 is the coefficient itself *)
Lemma at_prec_0 i c : at_prec 0 i c = c.
Proof. unfold at_prec, dc_at, ac_at. change (2 ^ 0) with 1. rewrite !Z.div_1_r, !Z.mul_1_r. destruct (i =? 0); [reflexivity|]. rewrite Z.mul_comm. apply Z.abs_sgn. Qed.
