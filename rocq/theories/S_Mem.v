(* S_Mem.v -- C41: specification vocabulary, independent of how the manager keeps its pools. *)
From Verif Require Import Base M_Mem.

(* ALIGN_SIZE (jmemmgr.c:85-93) is a power of two between 8 and 64 in every build *)
Definition align_ok (al : Z) : Prop := exists k, 3 <= k <= 6 /\ al = 2 ^ k.
(* two address ranges with no common byte *)
Definition disjoint (a n b m : Z) : Prop := a + n <= b \/ b + m <= a.
(* a C heap: blocks of positive size inside the address space, no two sharing a byte *)
Fixpoint all_disjoint (h : list (Z * Z)) : Prop :=
  match h with [] => True | b :: h => Forall (fun c => disjoint (fst b) (snd b) (fst c) (snd c)) h /\ all_disjoint h end.
Definition c_heap (h : list (Z * Z)) : Prop :=
  all_disjoint h /\ Forall (fun b => 0 < fst b /\ 0 < snd b /\ fst b + snd b < SIZE_MAX1) h.
(* live objects: no two share a byte, each aligned and inside a live malloc block *)
Definition objects_ok (al : Z) (s : mst) : Prop :=
  Forall (fun o => (al | o_addr o) /\ exists b, In b (heap s) /\ fst b = o_base o /\ fst b + HDR <= o_addr o /\ o_addr o + o_size o <= fst b + snd b) (objs s) /\
  all_disjoint (map (fun o => (o_addr o, o_size o)) (objs s)).
(* arguments the C types and the documented preconditions allow *)
Definition legal_call (c : call) : Prop :=
  match c with
  | CSmall _ n | CLarge _ n => 0 <= n < SIZE_MAX1
  | CSarray _ z w r => (z = 1 \/ z = 2) /\ 0 < w < 2 ^ 32 /\ 0 <= r < 2 ^ 32
  | CBarray _ w r => 0 < w < 2 ^ 32 /\ 0 <= r < 2 ^ 32
  | CFree _ => True
  end.
(* every state of a manager created in a heap that holds [others], after any history of calls, for any
   behaviour of malloc *)
Inductive reachable (al : Z) (others : list (Z * Z)) : mst -> Prop :=
| R_init orc s : jinit_memory_mgr others orc = Some s -> reachable al others s
| R_call c s : reachable al others s -> legal_call c -> reachable al others (do_call al c s).
Definition sizes (h : list (Z * Z)) : Z := fold_right (fun b a => snd b + a) 0 h.
(* nothing the application can see has changed *)
Definition unchanged (s s' : mst) : Prop :=
  heap s' = heap s /\ smalls s' = smalls s /\ larges s' = larges s /\ total s' = total s /\ ctl s' = ctl s /\ objs s' = objs s.
