(* T_ArithBlk.v -- C29: whole scans coded with the arithmetic coder, sequential and progressive, with restarts.

   Reading guide.  A scan is a list of MCUs, an MCU a list of (component index, block) pairs in coding order, and a block
   64 coefficients in natural order.  [encode_scan p srcs] is the entropy-coded data the compressor writes for the scan
   described by p; [decode_scan p input olds] is what the decompressor makes of it when its coefficient blocks held olds. *)
From Verif Require Import Base M_HuffDec S_Block P_Gather P_Trellis P_Arith P_Arith2 P_Arith3 M_Arith M_ArithBlk S_Prog P_ArithBlk P_ArithBlk2 P_ArithBlk3.

(* ---- the specification ---- *)
(* scan parameters a scan header can carry: baseline/extended sequential, or one of the four progressive kinds *)
Definition sequential (p : ascan) : Prop := aprog p = false /\ aSs p = 0 /\ aSe p = 63 /\ aAh p = 0 /\ aAl p = 0.
Definition progressive (p : ascan) : Prop :=
  aprog p = true /\ (aSs p = 0 /\ aSe p = 0 \/ (1 <= aSs p <= aSe p /\ aSe p <= 63) /\ length (acomps p) = 1%nat) /\
  0 <= aAl p <= 13 /\ (aAh p = 0 \/ aAh p = aAl p + 1).
Definition scan_params (p : ascan) : Prop :=
  (sequential p \/ progressive p) /\ 0 <= ariv p /\
  (forall dc ac, In (dc, ac) (acomps p) -> 0 <= dc < 16 /\ 0 <= ac < 16) /\
  length (adcL p) = 16%nat /\ length (adcU p) = 16%nat /\ length (aacK p) = 16%nat.

(* one block, as the compressor sees it and as the decompressor's array holds it before the scan *)
Definition block_pair (p : ascan) (src old : Z * list Z) : Prop :=
  fst src = fst old /\ 0 <= fst src < Z.of_nat (length (acomps p)) /\ block_src (snd src) /\
  block_before (aSs p) (aSe p) (aAh p) (snd src) (snd old) /\ (aSs p = 0 -> -16384 <= zz (snd src) 0 <= 16383).
(* AC scans have one block per MCU *)
Definition mcu_pair (p : ascan) (src old : mcu) : Prop := Forall2 (block_pair p) src old /\ (aSs p <> 0 -> length src = 1%nat).
(* every block is brought to the precision of the scan, nothing else changes *)
Definition mcu_result (p : ascan) (src old : mcu) (new : list (list Z)) : Prop :=
  length src = length new /\ length old = length new /\
  forall j s o n, nth_error src j = Some s -> nth_error old j = Some o -> nth_error new j = Some n ->
    block_after (aSs p) (aSe p) (aAl p) (snd s) (snd o) n.
Definition scan_result (p : ascan) (srcs olds : list mcu) (news : list (list (list Z))) : Prop :=
  length srcs = length news /\ length olds = length news /\
  forall j s o n, nth_error srcs j = Some s -> nth_error olds j = Some o -> nth_error news j = Some n -> mcu_result p s o n.
(* the decompressor is left where it finds the marker after the scan: it has read it already, or the bytes it has not yet
   consumed lead to it *)
Definition stands_before (d : dstate) (mk : Z) (rest : list Z) : Prop :=
  (d_marker d = mk /\ d_in d = rest) \/ (d_marker d = 0 /\ scan_marker false (d_in d) = Ret (mk, rest)).

Lemma params_valid p : scan_params p -> pvalid p.
Proof.
  intros (M & R & C & L & U & K). constructor; try assumption.
  - apply Forall_forall. intros [dc ac] H. exact (C dc ac H).
  - destruct M as [M|(A & B & D & F)]; [left; exact M|right]. split; [exact A|]. split; [|split; assumption]. destruct B as [B|[[B1 B2] B3]]; [left; exact B|right]. split; [lia|]. split; [lia|]. split; [exact B2|exact B3].
Qed.
Lemma F2_combine_nth {A B C} (P : A * B -> C -> Prop) : forall (a : list A) (b : list B) (c : list C), length a = length b -> Forall2 P (combine a b) c ->
  length a = length c /\ forall j s o n, nth_error a j = Some s -> nth_error b j = Some o -> nth_error c j = Some n -> P (s, o) n.
Proof.
  induction a as [|x a IH]; intros [|y b] c L F; cbn in L; try lia; cbn [combine] in F; inversion F as [|? z ? l' F1 F3]; subst.
  - split; [reflexivity|]. intros [|j] s o n H; discriminate.
  - destruct (IH b l' ltac:(lia) F3) as [E N]. split; [cbn; lia|]. intros [|j] s o n G1 G2 G4; cbn in G1, G2, G4; [injection G1 as <-; injection G2 as <-; injection G4 as <-; exact F1|]. exact (N j s o n G1 G2 G4).
Qed.
Lemma mcu_result_of p s o n : length s = length o -> mcu_after p s o n -> mcu_result p s o n.
Proof.
  intros L H. unfold mcu_after in H. destruct (F2_combine_nth _ (map snd s) (map snd o) n ltac:(rewrite !map_length; exact L) H) as [E N]. rewrite map_length in E.
  split; [lia|]. split; [lia|]. intros j x y z X Y W. refine (N j (snd x) (snd y) z _ _ W); [rewrite nth_error_map, X|rewrite nth_error_map, Y]; reflexivity.
Qed.

Theorem C29_scan_roundtrip : forall p srcs olds, scan_params p -> Forall2 (mcu_pair p) srcs olds ->
  exists bytes, encode_scan p srcs = Ret bytes /\
    forall fill m rest, m <> 0 -> m <> 255 ->
      exists news d, decode_scan p (bytes ++ 255 :: repeat 255 fill ++ m :: rest) olds = Ret (Some (news, d)) /\
        scan_result p srcs olds news /\ stands_before d m rest.
Proof.
  intros p srcs olds V F. assert (F' : Forall2 (mcu_ok p) srcs olds) by exact F.
  destruct (scan_ok p (params_valid p V) (length srcs) srcs olds 0 ltac:(lia) ltac:(lia) F') as (bytes & E & D). exists bytes. split; [unfold encode_scan; rewrite E; reflexivity|].
  intros fill m rest M0 MF. destruct (D fill m rest M0 MF) as (news & d & D1 & D2 & D3). exists news, d. split; [exact D1|]. split; [|exact D3].
  pose proof (F2len F) as L. destruct (F2_combine_nth _ srcs olds news L D2) as [E1 N]. split; [exact E1|]. split; [lia|]. intros j s o n X Y W. apply mcu_result_of; [|exact (N j s o n X Y W)].
  clear - F X Y. revert j X Y. induction F as [|a b l l' H F IH]; intros [|j] X Y; cbn in X, Y; try discriminate; [injection X as <-; injection Y as <-; destruct H as [H _]; exact (F2len H)|exact (IH j X Y)].
Qed.

(* a sequential scan gives back exactly the blocks that were compressed *)
Definition zero_block : list Z := repeat 0 64.
Lemma zz_ext a b : length a = 64%nat -> length b = 64%nat -> (forall i, 0 <= i < 64 -> zz a i = zz b i) -> a = b.
Proof.
  intros LA LB H. apply (nth_ext a b 0 0); [lia|]. intros n Hn.
  assert (Z : exists i, 0 <= i < 64 /\ nth (Z.to_nat i) zigzag 0%nat = n).
  { assert (T : forallb (fun n => existsb (fun i => Nat.eqb (nth i zigzag 0%nat) n) (seq 0 64)) (seq 0 64) = true) by (vm_compute; reflexivity).
    rewrite forallb_forall in T. specialize (T n ltac:(apply in_seq; lia)). apply existsb_exists in T. destruct T as (i & I1 & I2). apply in_seq in I1. apply Nat.eqb_eq in I2. exists (Z.of_nat i). split; [lia|]. rewrite Nat2Z.id. exact I2. }
  destruct Z as (i & Hi & <-). apply (H i Hi).
Qed.
Theorem C29_sequential_roundtrip : forall p (srcs : list mcu), scan_params p -> sequential p ->
  (forall m, In m srcs -> forall ci b, In (ci, b) m -> 0 <= ci < Z.of_nat (length (acomps p)) /\ block_src b /\ -16384 <= zz b 0 <= 16383) ->
  exists bytes, encode_scan p srcs = Ret bytes /\
    forall fill m rest, m <> 0 -> m <> 255 ->
      exists d, decode_scan p (bytes ++ 255 :: repeat 255 fill ++ m :: rest) (map (map (fun cb => (fst cb, zero_block))) srcs) = Ret (Some (map (map snd) srcs, d)) /\
        stands_before d m rest.
Proof.
  intros p srcs V SQ H. destruct SQ as (Q0 & Q1 & Q2 & Q3 & Q4).
  assert (F : Forall2 (mcu_pair p) srcs (map (map (fun cb => (fst cb, zero_block))) srcs)).
  { induction srcs as [|m srcs IH]; cbn [map]; constructor; [|apply IH; intros m' I'; apply H; right; exact I']. split; [|intros Y; contradiction].
    specialize (H m (or_introl eq_refl)). clear IH. induction m as [|[ci b] m IH]; cbn [map]; constructor; [|apply IH; intros ci' b' I'; apply H; right; exact I'].
    destruct (H ci b (or_introl eq_refl)) as (A & B & C). split; [reflexivity|]. split; [exact A|]. split; [exact B|]. cbn [fst snd]. split; [|intros _; exact C]. split; [reflexivity|]. intros i Hi _. rewrite Q3. cbn [Z.eqb].
    unfold zz, zero_block. apply nth_repeat. }
  destruct (C29_scan_roundtrip p srcs _ V F) as (bytes & E & D). exists bytes. split; [exact E|]. intros fill m rest M0 MF. destruct (D fill m rest M0 MF) as (news & d & D1 & (L1 & L2 & N) & D3). exists d. split; [|exact D3].
  rewrite D1. f_equal. f_equal. f_equal. clear - L1 L2 N Q1 Q2 Q4 H. revert news L1 L2 N. induction srcs as [|m srcs IH]; intros [|n news] L1 L2 N; cbn in L1; try lia; [reflexivity|]. cbn [map]. f_equal.
  - specialize (N 0%nat m _ n eq_refl eq_refl eq_refl). destruct N as (N1 & N2 & N). specialize (H m (or_introl eq_refl)). clear - N1 N2 N Q1 Q2 Q4 H. revert n N1 N2 N. induction m as [|[ci b] m IH]; intros [|x n] N1 N2 N; cbn in N1; try lia; [reflexivity|]. cbn [map]. f_equal.
    + specialize (N 0%nat (ci, b) _ x eq_refl eq_refl eq_refl). cbn [snd] in N. destruct N as [LX N]. destruct (H ci b (or_introl eq_refl)) as (_ & [LB _] & _). apply zz_ext; [exact LX|exact LB|]. intros i Hi. rewrite (N i Hi). rewrite Q1, Q2, Q4. destruct (Z.leb_spec 0 i); [|lia]. destruct (Z.leb_spec i 63); [|lia]. cbn [andb]. apply at_prec_0.
    + apply IH; [intros ci' b' I'; apply H; right; exact I'|exact (eq_add_S _ _ N1)|exact (eq_add_S _ _ N2)|]. intros j s o y X Y W. exact (N (S j) s o y X Y W).
  - apply IH; [intros m' I'; apply H; right; exact I'|exact (eq_add_S _ _ L1)|exact (eq_add_S _ _ L2)|]. intros j s o y X Y W. exact (N (S j) s o y X Y W).
Qed.

(* ---- non-vacuity: a scan of two components with restart interval 2, and a successive-approximation sequence ---- *)
Definition ex_blk (s : Z) : list Z :=
  map (fun i => let x := (i * i * s + 7 * i) mod 23 in if x <? 4 then (x - 2) * (s + 1) * (i mod 5) * 37 else 0) (map Z.of_nat (seq 0 64)).
Definition ex_seq : ascan := mkAS 0 63 0 0 false 2 [(0, 0); (1, 1)] (repeat 0 16) (repeat 1 16) (repeat 5 16).
Definition ex_srcs : list mcu := map (fun s => [(0, ex_blk s); (0, ex_blk (s + 1)); (1, ex_blk (s + 9))]) [1; 2; 3; 4; 5].
Example C29_seq_params : scan_params ex_seq /\ sequential ex_seq.
Proof.
  assert (Q : sequential ex_seq) by (unfold sequential; cbn; auto). split; [|exact Q]. split; [left; exact Q|]. cbn. split; [lia|]. split; [|auto]. intros dc ac [H|[H|[]]]; injection H as <- <-; lia.
Qed.
Definition block_srcb (b : list Z) : bool := Nat.eqb (length b) 64 && forallb (fun i => (-32768 <=? zz b i) && (zz b i <=? 32767)) (map Z.of_nat (seq 0 64)).
Lemma block_srcb_ok b : block_srcb b = true -> block_src b.
Proof.
  intros H. apply andb_prop in H. destruct H as [H1 H2]. apply Nat.eqb_eq in H1. split; [exact H1|]. intros i Hi. rewrite forallb_forall in H2. specialize (H2 i). rewrite andb_true_iff, !Z.leb_le in H2. apply H2. apply in_map_iff. exists (Z.to_nat i). split; [lia|]. apply in_seq. lia.
Qed.
Example C29_seq_blocks : forall m, In m ex_srcs -> forall ci b, In (ci, b) m -> 0 <= ci < 2 /\ block_src b /\ -16384 <= zz b 0 <= 16383.
Proof.
  assert (T : forallb (forallb (fun '(ci, b) => (0 <=? ci) && (ci <? 2) && block_srcb b && (-16384 <=? zz b 0) && (zz b 0 <=? 16383))) ex_srcs = true) by (vm_compute; reflexivity).
  intros m Hm ci b Hb. rewrite forallb_forall in T. specialize (T m Hm). rewrite forallb_forall in T. specialize (T (ci, b) Hb). rewrite !andb_true_iff, !Z.leb_le, Z.ltb_lt in T. destruct T as ((((A & B) & C) & D) & F). split; [lia|]. split; [apply block_srcb_ok; exact C|lia].
Qed.
(* the data really contain restart markers and come back *)
Example C29_seq_run : match encode_scan ex_seq ex_srcs with
  | Ret b => (300 <? Z.of_nat (length b)) && match decode_scan ex_seq (b ++ [255; 217]) (map (map (fun cb => (fst cb, zero_block))) ex_srcs) with Ret (Some (n, _)) => if list_eq_dec (list_eq_dec (list_eq_dec Z.eq_dec)) n (map (map snd) ex_srcs) then true else false | _ => false end
  | _ => false end = true.
Proof. vm_compute. reflexivity. Qed.
(* refinement scans: after AC first (Al = 2), refined twice, the AC coefficients are exact *)
Definition ex_first : ascan := mkAS 1 63 0 2 true 3 [(0, 0)] (repeat 0 16) (repeat 1 16) (repeat 5 16).
Definition ex_refine (a : Z) : ascan := mkAS 1 63 (a + 1) a true 3 [(0, 0)] (repeat 0 16) (repeat 1 16) (repeat 5 16).
Example C29_prog_params : scan_params ex_first /\ scan_params (ex_refine 1) /\ scan_params (ex_refine 0).
Proof.
  split; [|split]; (split; [right; split; [reflexivity|]; split; [right; cbn; auto with zarith|]; split; [cbn; lia|cbn; auto]|]; cbn; split; [lia|]; split; [|auto]; intros dc ac [H|[]]; injection H as <- <-; lia).
Qed.
Definition ex_step (p : ascan) (srcs olds : list mcu) : list mcu :=
  match encode_scan p srcs with Ret b => match decode_scan p (b ++ [255; 217]) olds with Ret (Some (n, _)) => map (map (fun b => (0, b))) n | _ => [] end | _ => [] end.
Example C29_prog_run :
  let srcs := map (fun s => [(0, ex_blk s)]) [1; 2; 3; 4; 5] in let olds := map (map (fun cb => (fst cb, zero_block))) srcs in
  let r := ex_step (ex_refine 0) srcs (ex_step (ex_refine 1) srcs (ex_step ex_first srcs olds)) in
  (if list_eq_dec (list_eq_dec (list_eq_dec Z.eq_dec)) (map (map (fun cb => tl (snd cb))) r) (map (map (fun cb => tl (snd cb))) srcs) then true else false) = true.
Proof. vm_compute. reflexivity. Qed.

(* the bound on the DC coefficients is needed: a difference beyond 32768 makes the decompressor give up
   (jdarith.c "magnitude overflow"), although the compressor wrote it without complaint *)
Example C29_dc_jump_refuted :
  let b1 := 32767 :: repeat 0 63 in let b2 := (-32768) :: repeat 0 63 in
  let p := mkAS 0 63 0 0 false 0 [(0, 0)] (repeat 0 16) (repeat 1 16) (repeat 5 16) in
  match encode_scan p [[(0, b1)]; [(0, b2)]] with
  | Ret b => match decode_scan p (b ++ [255; 217]) [[(0, zero_block)]; [(0, zero_block)]] with Ret None => true | _ => false end
  | _ => false end = true.
Proof. vm_compute. reflexivity. Qed.

Print Assumptions C29_scan_roundtrip.
Print Assumptions C29_sequential_roundtrip.
