(* S_Resync.v -- what jpeg_resync_to_restart should do (jdmarker.c:1169-1214, the documented rule) *)
From Verif Require Import Base S_Huff S_Stream.

(* how far ahead of the expected RSTn a found marker RSTm is, cyclically *)
Definition ahead (m num : Z) : Z := (m - 208 - num) mod 8.
Definition is_rst (m : Z) : Prop := 208 <= m <= 215.

(* [resync u num m r un r']: expecting RSTnum, having read marker m with the bytes r following, one ends
   with pending marker un (0 = none) and the bytes r' following *)
Inductive resync (u : bool) (num : Z) : Z -> list Z -> Z -> list Z -> Prop :=
| resync_use : forall m r,              (* the expected marker, or one too far away to judge: consume it *)
    is_rst m -> In (ahead m num) [0; 3; 4; 5] -> resync u num m r 0 r
| resync_leave : forall m r,            (* a non-RST marker, or an RST slightly ahead: keep it for later *)
    192 <= m -> (~ is_rst m \/ In (ahead m num) [1; 2]) -> resync u num m r m r
| resync_skip : forall m r m' r' x y,   (* an invalid code, or an RST slightly behind: on to the next marker *)
    (m < 192 \/ (is_rst m /\ In (ahead m num) [6; 7])) ->
    snd (seg u false r) = Some (m', r') -> resync u num m' r' x y -> resync u num m r x y.
