(* S_Prep.v -- what the back end must be given. *)
From Verif Require Import Base M_Prep.
Open Scope nat_scope.

(* image row q, with the first and last rows repeated beyond the image *)
Definition clampy (H : nat) (q : Z) : nat := Z.to_nat (Z.max 0 (Z.min q (Z.of_nat H - 1))).

(* the image rows the downsampler sees for row group g *)
Definition group_rows (c : pcfg) (g : nat) : list nat :=
  let V := Z.of_nat (p_v c) in
  let first := if p_ctx c then ((Z.of_nat g - 1) * V)%Z else (Z.of_nat g * V)%Z in
  map (fun i => clampy (p_H c) (first + Z.of_nat i)) (seq 0 (if p_ctx c then 3 * p_v c else p_v c)).

(* number of row groups that contain image rows *)
Definition real_groups (c : pcfg) : nat := (p_H c + p_v c - 1) / p_v c.

(* component row R: without context rows, rows below the last real row group
   repeat the component's last real row *)
Definition comp_row (c : pcfg) (R : nat) : orow :=
  if p_ctx c || (R <? real_groups c * p_w c) then (group_rows c (R / p_w c), R mod p_w c)
  else (group_rows c (real_groups c - 1), p_w c - 1).

(* iMCU row r of the component *)
Definition imcu_rows (c : pcfg) (r : nat) : list (option orow) :=
  map (fun j => Some (comp_row c (r * (p_du c * p_w c) + j))) (seq 0 (p_du c * p_w c)).

Definition pcfg_ok (c : pcfg) : Prop := 1 <= p_v c /\ 1 <= p_w c /\ 1 <= p_du c /\ 1 <= p_H c.

(* sessions: any sequence of jpeg_write_scanlines calls, any pattern of
   suspension, any prior contents of the buffers *)
Inductive psession (c : pcfg) : pst -> Prop :=
| ps_start : forall cb ob, psession c (pstart c cb ob)
| ps_write : forall s n orc s' k orc', psession c s -> write_scanlines c n orc s = Ret (s', k, orc') -> psession c s'.

(* the calls made to the back end, in order: each gets the right iMCU row; an iMCU
   row is repeated until it is taken, then comes the next *)
Inductive calls_ok (c : pcfg) : nat -> list (nat * list (option orow) * bool) -> Prop :=
| co_nil : calls_ok c 0 []
| co_no : forall r l, calls_ok c r l -> calls_ok c r ((r, imcu_rows c r, false) :: l)
| co_yes : forall r l, calls_ok c r l -> calls_ok c (S r) ((r, imcu_rows c r, true) :: l).
