(* S_Script.v -- independent specification of multi-scan scripts (T.81 A.2, B.2.3, G.1.1, H.1) *)
From Coq Require Import Sorted.
From Verif Require Import Base.

(* one scan: component numbers (0-based position in the frame header), spectral band Ss..Se,
   successive-approximation bit positions Ah (previous) and Al (this scan) *)
Record scan := mkScan { comps : list Z; Ss : Z; Se : Z; Ah : Z; Al : Z }.

Definition covers (s : scan) (c k : Z) : Prop := In c (comps s) /\ Ss s <= k <= Se s.
Definition coversb (s : scan) (c k : Z) : bool :=
  existsb (Z.eqb c) (comps s) && (Ss s <=? k) && (k <=? Se s).

(* B.2.3: 1..4 components, each of the frame's nc components, in frame order *)
Definition component_list_ok (nc : Z) (s : scan) : Prop :=
  (1 <= length (comps s) <= 4)%nat /\ (forall c, In c (comps s) -> 0 <= c < nc) /\
  StronglySorted Z.lt (comps s).

(* the most recent scan of [pre] that carried coefficient k of component c *)
Definition last_covering (pre : list scan) (c k : Z) : option scan :=
  find (fun p => coversb p c k) (rev pre).

(* G.1.1.1: a progressive scan that follows the scans [pre] *)
Definition progressive_scan_ok (nc maxA : Z) (pre : list scan) (s : scan) : Prop :=
  component_list_ok nc s /\
  0 <= Ss s <= Se s /\ Se s <= 63 /\ 0 <= Ah s <= maxA /\ 0 <= Al s <= maxA /\
  (* DC and AC are never sent together; AC scans are for one component, after its first DC scan *)
  (Ss s = 0 -> Se s = 0) /\
  (Ss s <> 0 -> length (comps s) = 1%nat /\
                forall c, In c (comps s) -> exists p, In p pre /\ covers p c 0) /\
  (* first scan of a coefficient has Ah = 0; any other refines exactly the next lower bit *)
  (forall c k, covers s c k ->
     match last_covering pre c k with
     | None => Ah s = 0
     | Some p => Ah s = Al p /\ Al s = Ah s - 1
     end).

Definition progressive_ok (nc maxA : Z) (script : list scan) : Prop :=
  (forall pre s post, script = pre ++ s :: post -> progressive_scan_ok nc maxA pre s) /\
  (forall c, 0 <= c < nc -> exists p, In p script /\ covers p c 0).

(* sequential and lossless: every component is sent exactly once *)
Definition sent_once (nc : Z) (script : list scan) : Prop :=
  forall c, 0 <= c < nc -> count_occ Z.eq_dec (concat (map comps script)) c = 1%nat.
Definition sequential_ok (nc : Z) (script : list scan) : Prop :=
  (forall s, In s script -> component_list_ok nc s /\ Ss s = 0 /\ Se s = 63 /\ Ah s = 0 /\ Al s = 0) /\
  sent_once nc script.
Definition lossless_ok (nc prec : Z) (script : list scan) : Prop :=
  (forall s, In s script -> component_list_ok nc s /\ 1 <= Ss s <= 7 /\ Se s = 0 /\ Ah s = 0 /\
                            0 <= Al s < prec) /\
  sent_once nc script.

Inductive mode := Sequential | Progressive | Lossless.
Definition max_bit (prec : Z) : Z := if prec =? 12 then 13 else 10.
Definition script_ok (nc prec : Z) (m : mode) (script : list scan) : Prop :=
  script <> [] /\
  match m with
  | Sequential => sequential_ok nc script
  | Progressive => progressive_ok nc (max_bit prec) script
  | Lossless => lossless_ok nc prec script
  end.

(* ---- what a progressive script transmits ---- *)
(* a first scan (Ah = 0) sends all bits from Al up; a refinement scan sends the single bit Al *)
Definition sends (c k b : Z) (s : scan) : bool :=
  coversb s c k && (if Ah s =? 0 then Al s <=? b else Al s =? b).
(* every bit of every coefficient of every component is sent by exactly one scan *)
Definition complete (nc : Z) (script : list scan) : Prop :=
  forall c k b, 0 <= c < nc -> 0 <= k <= 63 -> 0 <= b -> length (filter (sends c k b) script) = 1%nat.
