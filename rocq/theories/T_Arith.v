(* T_Arith.v -- property C28: the arithmetic coder returns the decisions it was given *)
From Verif Require Import Base M_Arith P_Trellis P_Arith P_Arith2 P_Arith3.

(* a statistics bin as both coders use it: an unsigned byte, low 7 bits an index of the 114-entry table *)
Definition valid_bin (sv : Z) : Prop := 0 <= sv < 256 /\ Z.land sv 127 < 114.

(* Any decisions in any valid bins: encoding never fails; the bytes of the finished segment, followed by any marker FF..FF m
   (any number of fill bytes), decode with the same bins to exactly the same decisions, leave the same statistics, and the decoder
   never runs past that marker (it has not read it, or it holds it as unread marker). *)
Theorem C28_roundtrip : forall ds bins,
  Forall valid_bin bins -> Forall (fun d => 0 <= fst d < Z.of_nat (length bins)) ds ->
  exists e bins', encode_all ds e_init bins = Ret (e, bins') /\
    forall fill m rest, m <> 0 -> m <> 255 ->
    exists d, decode_all (map fst ds) (d_init (finish_pass e ++ 255 :: repeat 255 fill ++ m :: rest)) bins = Ret (map snd ds, d, bins') /\
      (d_marker d = 0 \/ d_marker d = m).
Proof.
  intros ds bins B F. pose proof (encode_all_ok ds e_init 0 0 bins einv_init ltac:(cbn; lia) B F) as E. destruct (encode_all ds e_init bins) as [[e bins']|x|] eqn:EE; cbn [sat] in E; try contradiction.
  destruct E as (L & n & R & EI & A & B' & LB). exists e, bins'. split; [reflexivity|]. intros fill m rest M0 MF.
  destruct (finish_ok e L n EI A) as (St & -> & SB & W).
  destruct (decode_all_ok St fill m rest SB M0 MF ds 0 65536 0 bins L (e_a e) n bins' R W ltac:(lia) B _ (init_ready St fill m rest SB M0 MF) (init_mark St fill m rest M0 MF)) as (d & D & _ & M & MK). exists d. split; [exact D|]. destruct MK as [(MK & _)|(MK & _)]; [left|right]; exact MK.
Qed.
Print Assumptions C28_roundtrip.

(* the segment contains no marker: bytes only, and every FF is followed by 00 *)
Theorem C28_no_marker : forall ds bins e bins', Forall valid_bin bins -> Forall (fun d => 0 <= fst d < Z.of_nat (length bins)) ds ->
  encode_all ds e_init bins = Ret (e, bins') ->
  Forall (fun b => 0 <= b <= 255) (finish_pass e) /\ forall i, nth_error (finish_pass e) i = Some 255 -> nth_error (finish_pass e) (S i) = Some 0.
Proof.
  intros ds bins e bins' B F EE. pose proof (encode_all_ok ds e_init 0 0 bins einv_init ltac:(cbn; lia) B F) as E. rewrite EE in E. cbn [sat] in E. destruct E as (L & n & R & EI & A & B' & LB).
  destruct (finish_ok e L n EI A) as (St & -> & SB & W). clear - SB. induction SB as [|x l Hx SB [IH1 IH2]].
  - split; [constructor|]. intros i H. destruct i; discriminate.
  - rewrite stuff_cons. destruct (Z.eqb_spec x 255) as [->|NE]; cbn [app].
    + split; [constructor; [lia|]; constructor; [lia|exact IH1]|]. intros [|[|i]] H; [reflexivity|discriminate|exact (IH2 i H)].
    + split; [constructor; [exact Hx|exact IH1]|]. intros [|i] H; [cbn in H; congruence|exact (IH2 i H)].
Qed.
Print Assumptions C28_no_marker.

(* the registers stay within 32 bits, so the machine arithmetic of the coders is the integer arithmetic of the model:
   between decisions the encoder has 0x8000 <= a <= 0x10000 and c + a <= (2^27 + 2^24) / 2^ct *)
Theorem C28_registers : forall ds bins e bins', Forall valid_bin bins -> Forall (fun d => 0 <= fst d < Z.of_nat (length bins)) ds ->
  encode_all ds e_init bins = Ret (e, bins') ->
  32768 <= e_a e <= 65536 /\ 1 <= e_ct e <= 11 /\ 0 <= e_c e /\ (e_c e + e_a e) * 2 ^ e_ct e <= 2 ^ 27 + 2 ^ 24 /\ -1 <= e_buf e <= 254 /\ Forall valid_bin bins'.
Proof.
  intros ds bins e bins' B F EE. pose proof (encode_all_ok ds e_init 0 0 bins einv_init ltac:(cbn; lia) B F) as E. rewrite EE in E. cbn [sat] in E. destruct E as (L & n & R & (P & HR & HL & Hn & HC & HCT & HB & HLA & HA) & A & B' & LB).
  destruct HR as (HBUF & _). split; [lia|]. split; [exact HCT|]. split; [exact HC|]. split; [exact HB|]. split; [exact HBUF|exact B'].
Qed.
Print Assumptions C28_registers.

(* ---- instances: 250 pseudo-random decisions in three adaptive bins and the fixed one; the segment stacks an FF that is later
   written as FF 00, and another one over which a carry propagates ---- *)
Fixpoint lcg (n : nat) (s : Z) : list (Z * bool) :=
  match n with O => [] | S n => let s' := (s * 1103515245 + 12345) mod 2147483648 in ((s' / 65536) mod 4, Z.odd (s' / 1048576)) :: lcg n s' end.
Example C28_instance : Forall valid_bin [0; 0; 0; 113] /\ Forall (fun d => 0 <= fst d < Z.of_nat (length [0; 0; 0; 113])) (lcg 250 162).
Proof.
  split; [repeat (constructor; [split; [lia|vm_compute; reflexivity]|]); constructor|]. apply Forall_forall. intros x Hx.
  assert (H : forallb (fun d => (0 <=? fst d) && (fst d <? 4)) (lcg 250 162) = true) by (vm_compute; reflexivity). rewrite forallb_forall in H. specialize (H x Hx). apply andb_true_iff in H as [H1 H2]. apply Z.leb_le in H1. apply Z.ltb_lt in H2. cbn [length]. lia.
Qed.
Example C28_instance_stacked : exists e b, encode_all (firstn 14 (lcg 250 162)) e_init [0; 0; 0; 113] = Ret (e, b) /\ e_sc e = 1.
Proof. vm_compute. eauto. Qed.
Example C28_instance_carry : exists e b e' b', encode_all (firstn 194 (lcg 250 162)) e_init [0; 0; 0; 113] = Ret (e, b) /\ e_sc e = 1 /\
  encode_all (firstn 195 (lcg 250 162)) e_init [0; 0; 0; 113] = Ret (e', b') /\ e_sc e' = 0 /\ e_zc e' = 1.
Proof. vm_compute. do 4 eexists. split; [reflexivity|]. split; [reflexivity|]. split; [reflexivity|]. split; reflexivity. Qed.
Example C28_instance_run : match encode_all (lcg 250 162) e_init [0; 0; 0; 113] with
  | Ret (e, b) => match decode_all (map fst (lcg 250 162)) (d_init (finish_pass e ++ [255; 217])) [0; 0; 0; 113] with Ret (vs, _, b') => (vs, b') = (map snd (lcg 250 162), b) | _ => False end
  | _ => False end.
Proof. vm_compute. reflexivity. Qed.
