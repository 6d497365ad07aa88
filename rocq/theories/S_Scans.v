(* S_Scans.v -- what a multi-scan file conveys about the coefficients of an image (T.81 G.1).  Independent of any coder. *)
From Verif Require Import Base M_Coef S_MCU S_Script S_Block S_Prog.
Local Open Scope Z_scope.

(* the value of coefficient k of component c known after the scans [pre], when its real value is v *)
Definition known (pre : list scan) (c k v : Z) : Z :=
  match last_covering pre c k with None => 0 | Some s => at_prec (Al s) k v end.
(* coefficient k (zigzag order) of a block *)
Definition coef (b : block) (k : Z) : Z := zz (fst b :: snd b) k.
(* a block of coefficients: 63 AC values; 16-bit numbers; DC in -B .. B - 1 *)
Definition block_range (B : Z) (b : block) : Prop :=
  length (snd b) = 63%nat /\ (forall k, 0 <= k < 64 -> -32768 <= coef b k <= 32767) /\ - B <= fst b < B.
(* [ms] are MCUs a compressor may send for a scan with geometry g when the image's coefficients are A: every real block in its place;
   the dummy blocks that fill up the MCUs at the right and bottom edge may hold anything *)
Definition sends_image (B : Z) (g : ks) (A : nat -> nat -> nat -> block) (ms : list (list block)) : Prop :=
  well_formed g ms /\ forall c r b x, In (c, r, b, x) (placed g ms) ->
    block_range B x /\ ((r < k_hib c)%nat -> (b < k_wib c)%nat -> x = A (k_idx c) r b).
