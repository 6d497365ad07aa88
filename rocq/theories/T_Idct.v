(* T_Idct.v -- C45: the inverse DCTs (jidctint.c 8x8, jidctred.c 4x4, 2x2, 1x1), with their
   zero-AC shortcuts, compute the plain two-pass matrix product for every block and table. *)
From Verif Require Import Base M_RangeLimit M_Idct S_Idct T_RangeLimit P_Idct.

Lemma sample_is p x : 1 <= p -> clamp p (wrap_signed (p + 2) x + 2 ^ (p - 1)) = sample p x.
Proof. intros H. unfold clamp, wrap_signed, sample. replace (p + 2 - 1) with (p + 1) by lia. reflexivity. Qed.

(* extra bits between the passes (jidctint.c:199-204): 2 for 8-bit samples, 1 for 12-bit ones *)
Definition extra_bits (p : Z) : Z := if p =? 8 then 2 else 1.

(* No shortcut on the right: the general computation, for every block.  Ret also says that no
   signed overflow, no read of an unset workspace cell and no lookup outside the table occurs. *)
Theorem C45_shortcuts : forall p coef mult, p = 8 \/ p = 12 -> block_ok coef mult ->
  exists t, prepare_range_limit_table p = Ret t /\
    idct_islow p t coef mult = Ret (idct_by p (extra_bits p) coef mult A8 13) /\
    idct_4x4 p t coef mult = Ret (idct_by p (extra_bits p) coef mult A4 14) /\
    idct_2x2 p t coef mult = Ret (idct_by p (extra_bits p) coef mult A2 15) /\
    idct_1x1 p t coef mult = Ret [[sample p (to_int (round_shift (dequantized coef mult 0 0) 3))]].
Proof.
  intros p coef mult Hp Hb. destruct (C44_idct_lookup p ltac:(lia)) as (t & Et & Hl). exists t.
  assert (Ht : forall x, idct_range_limit p t x = Ret (sample p x)).
  { intros x. rewrite Hl. now rewrite sample_is by lia. }
  split; [exact Et|]. split; [|split; [|split]].
  - apply islow_ok; assumption.
  - apply red4_ok; assumption.
  - apply red2_ok; assumption.
  - apply red1_ok; assumption.
Qed.
Print Assumptions C45_shortcuts.

(* n rows of n legal samples *)
Definition legal_block (p : Z) (n : nat) (o : list (list Z)) : Prop :=
  length o = n /\ Forall (fun r => length r = n /\ Forall (fun v => 0 <= v < 2 ^ p) r) o.
Lemma sample_range p x : 1 <= p -> 0 <= sample p x < 2 ^ p.
Proof. intros H. unfold sample. assert (0 < 2 ^ p) by (apply Z.pow_pos_nonneg; lia). lia. Qed.
Lemma idct_by_legal p pb coef mult A cb : 1 <= p -> legal_block p (length A) (idct_by p pb coef mult A cb).
Proof.
  intros H. unfold idct_by, between. split; [now rewrite !map_length|]. rewrite Forall_map. apply Forall_map. apply Forall_forall.
  intros a _. split; [now rewrite map_length|]. apply Forall_map. apply Forall_forall. intros b _. now apply sample_range.
Qed.

Theorem C45_range : forall p coef mult, p = 8 \/ p = 12 -> block_ok coef mult ->
  exists t o8 o4 o2 o1, prepare_range_limit_table p = Ret t /\
    idct_islow p t coef mult = Ret o8 /\ legal_block p 8 o8 /\
    idct_4x4 p t coef mult = Ret o4 /\ legal_block p 4 o4 /\
    idct_2x2 p t coef mult = Ret o2 /\ legal_block p 2 o2 /\
    idct_1x1 p t coef mult = Ret o1 /\ legal_block p 1 o1.
Proof.
  intros p coef mult Hp Hb. destruct (C45_shortcuts p coef mult Hp Hb) as (t & Et & E8 & E4 & E2 & E1).
  exists t. do 4 eexists. split; [exact Et|]. split; [exact E8|]. split; [apply (idct_by_legal _ _ _ _ A8); lia|].
  split; [exact E4|]. split; [apply (idct_by_legal _ _ _ _ A4); lia|].
  split; [exact E2|]. split; [apply (idct_by_legal _ _ _ _ A2); lia|].
  split; [exact E1|]. split; [reflexivity|]. constructor; [|constructor]. split; [reflexivity|]. constructor; [|constructor].
  apply sample_range. lia.
Qed.
Print Assumptions C45_range.

(* ---- DC-only blocks ---- *)
Definition constant_block (n : nat) (v : Z) : list (list Z) := repeat (repeat v n) n.
Definition dc_only (coef : list Z) : Prop := forall i, (0 < i < 64)%nat -> nth i coef 0 = 0.
(* the value of a DC-only block in exact arithmetic: dc/8 rounded, level shift, clamp *)
Definition dc_value (p d : Z) : Z := Z.max 0 (Z.min (2 ^ p - 1) (round_shift d 3 + 2 ^ (p - 1))).

Lemma map_const {X} (f : X -> Z) v l : (forall x, In x l -> f x = v) -> map f l = repeat v (length l).
Proof. induction l as [|x l IH]; intros H; [reflexivity|]. cbn [map length repeat]. f_equal; [apply H; now left|apply IH; intros; apply H; now right]. Qed.
Lemma map_const2 {X} (f : X -> list Z) v l : (forall x, In x l -> f x = v) -> map f l = repeat v (length l).
Proof. induction l as [|x l IH]; intros H; [reflexivity|]. cbn [map length repeat]. f_equal; [apply H; now left|apply IH; intros; apply H; now right]. Qed.

Lemma dot_first a c v l : (forall x, In x l -> x = 0) -> dot (c :: a) (v :: l) = c * v.
Proof.
  intros H. cbn [dot]. assert (dot a l = 0); [|lia]. revert l H. induction a as [|x a IH]; intros [|y l] H; cbn [dot]; try reflexivity.
  rewrite (H y (or_introl eq_refl)). rewrite IH; [lia|]. intros; apply H; now right.
Qed.

Lemma dc_block p pb coef mult A cb : (forall a, In a A -> exists r, a = 2 ^ cb :: r) -> 0 < pb < cb - 1 -> dc_only coef ->
  Z.abs (dequantized coef mult 0 0) < 2 ^ 28 -> 2 ^ pb <= 4 ->
  idct_by p pb coef mult A cb = constant_block (length A) (sample p (round_shift (dequantized coef mult 0 0) 3)).
Proof.
  intros HA Hpb Hdc Hd Hpb4. set (d := dequantized coef mult 0 0) in *.
  assert (Z0 : forall k c, 0 <= k < 8 -> 0 <= c < 8 -> (k <> 0 \/ c <> 0) -> dequantized coef mult k c = 0).
  { intros k c Hk Hc Hn. unfold dequantized. rewrite Hdc by lia. lia. }
  assert (0 < 2 ^ pb) by (apply Z.pow_pos_nonneg; lia).
  assert (EW : between pb coef mult A cb = repeat (upto8 (fun c => if c =? 0 then 2 ^ pb * d else 0)) (length A)).
  { unfold between. apply map_const2. intros a Ha. destruct (HA a Ha) as (r & ->). unfold upto8 at 1 3. apply map_ext_in. intros c Hc.
    assert (Bc : 0 <= c < 8) by (cbn in Hc; lia). unfold upto8. cbn [map]. rewrite dot_first.
    2: { intros x Hx. cbn in Hx. destruct Hx as [<- |[<- |[<- |[<- |[<- |[<- |[<- |[]]]]]]]]; apply Z0; lia. }
    destruct (Z.eqb_spec c 0) as [-> |Nc].
    - fold d. rewrite round_exact by lia. replace (cb - (cb - pb)) with pb by lia. unfold to_int. rewrite Z.mod_small by nia. lia.
    - rewrite Z0 by lia. rewrite round_exact by lia. reflexivity. }
  unfold idct_by. rewrite EW. unfold constant_block. rewrite (map_const2 _ (repeat (sample p (round_shift d 3)) (length A))); [now rewrite repeat_length|].
  intros w Hw. apply repeat_spec in Hw. subst w. apply map_const. intros a Ha. destruct (HA a Ha) as (r & ->).
  unfold upto8. cbn [map Z.eqb]. rewrite dot_first by (cbn; intros x Hx; destruct Hx as [<- |[<- |[<- |[<- |[<- |[<- |[<- |[]]]]]]]]; reflexivity).
  rewrite Z.mul_assoc, <- Z.pow_add_r by lia. rewrite round_cancel by lia. f_equal.
  unfold to_int. unfold round_shift. change (2 ^ (3 - 1)) with 4. change (2 ^ 3) with 8. rewrite Z.mod_small; [lia|].
  assert (- 2 ^ 28 <= (d + 4) / 8 <= 2 ^ 28); [|lia]. split; [apply Z.div_le_lower_bound|apply Z.div_le_upper_bound]; lia.
Qed.

(* A DC-only block decodes to a constant, the same at every reduced size, and it is the
   exact value dc/8 + 2^(p-1), clamped, whenever the level stays inside the mask of the table:
   |dc| < 2^(p+4) (legal streams have |dc| <= 2^(p+3)). *)
Theorem C45_dc_constant : forall p coef mult, p = 8 \/ p = 12 -> block_ok coef mult -> dc_only coef ->
  Z.abs (dequantized coef mult 0 0) < 2 ^ (p + 4) - 8 ->
  exists t, let v := dc_value p (dequantized coef mult 0 0) in
    prepare_range_limit_table p = Ret t /\
    idct_islow p t coef mult = Ret (constant_block 8 v) /\
    idct_4x4 p t coef mult = Ret (constant_block 4 v) /\
    idct_2x2 p t coef mult = Ret (constant_block 2 v) /\
    idct_1x1 p t coef mult = Ret (constant_block 1 v).
Proof.
  intros p coef mult Hp Hb Hdc Hd. destruct (C45_shortcuts p coef mult Hp Hb) as (t & Et & E8 & E4 & E2 & E1). exists t. cbn zeta.
  set (d := dequantized coef mult 0 0) in *.
  assert (B28 : Z.abs d < 2 ^ 28). { assert (2 ^ (p + 4) <= 2 ^ 28) by (apply Z.pow_le_mono_r; lia). lia. }
  assert (HP : 0 < extra_bits p <= 2 /\ 2 ^ extra_bits p <= 4) by (unfold extra_bits; destruct (p =? 8); lia).
  assert (R : - 2 ^ (p + 1) <= round_shift d 3 < 2 ^ (p + 1)).
  { assert (E : 2 ^ (p + 4) = 8 * 2 ^ (p + 1)) by (replace (p + 4) with (3 + (p + 1)) by lia; rewrite Z.pow_add_r by lia; reflexivity).
    unfold round_shift. change (2 ^ (3 - 1)) with 4. change (2 ^ 3) with 8.
    split; [apply Z.div_le_lower_bound|apply Z.div_lt_upper_bound]; lia. }
  assert (V : sample p (round_shift d 3) = dc_value p d).
  { unfold sample, dc_value. assert (2 ^ (p + 2) = 2 * 2 ^ (p + 1)) by (rewrite <- Z.pow_succ_r by lia; f_equal; lia).
    rewrite Z.mod_small by lia. f_equal. f_equal. lia. }
  assert (T : to_int (round_shift d 3) = round_shift d 3).
  { unfold to_int. rewrite Z.mod_small; [lia|]. assert (2 ^ (p + 1) <= 2 ^ 13) by (apply Z.pow_le_mono_r; lia). lia. }
  split; [exact Et|]. rewrite E8, E4, E2, E1, T, V.
  split; [|split; [|split; [|reflexivity]]]; apply f_equal.
  - rewrite (dc_block p _ coef mult A8 13); fold d; [now rewrite V| |lia|assumption|assumption|lia].
    intros a Ha. cbn in Ha. repeat (destruct Ha as [<- |Ha]; [eexists; reflexivity|]). destruct Ha.
  - rewrite (dc_block p _ coef mult A4 14); fold d; [now rewrite V| |lia|assumption|assumption|lia].
    intros a Ha. cbn in Ha. repeat (destruct Ha as [<- |Ha]; [eexists; reflexivity|]). destruct Ha.
  - rewrite (dc_block p _ coef mult A2 15); fold d; [now rewrite V| |lia|assumption|assumption|lia].
    intros a Ha. cbn in Ha. repeat (destruct Ha as [<- |Ha]; [eexists; reflexivity|]). destruct Ha.
Qed.
Print Assumptions C45_dc_constant.

(* ---- the matrices are (scaled) orthogonal: A^T A is 8 * 2^26 times the identity up to 2^-12 relative
   error, so idct_by is an inverse DCT and not an arbitrary linear map ---- *)
Definition gram (A : list (list Z)) (u v : nat) : Z := fold_right Z.add 0 (map (fun a => nth u a 0 * nth v a 0) A).
Example A8_orthogonal :
  forallb (fun u => forallb (fun v => Z.abs (gram A8 u v - (if (u =? v)%nat then 8 * 2 ^ 26 else 0)) <? 2 ^ 17) (seq 0 8)) (seq 0 8) = true.
Proof. vm_compute. reflexivity. Qed.

(* ---- non-vacuity ---- *)
Definition q_ex : list Z := 16 :: repeat 11 63.
Definition b_ex : list Z := [60; -7; 0; 3; 0; 0; 0; 1] ++ [5; 0; 0; 0; 0; 0; 0; 0] ++ repeat 0 48.
Example block_ex : block_ok b_ex q_ex.
Proof. split; [reflexivity|]. split; [reflexivity|]. split; repeat constructor; lia. Qed.
Example idct_ex : match prepare_range_limit_table 8 with
  | Ret t => match idct_islow 8 t b_ex q_ex, idct_2x2 8 t b_ex q_ex with
             | Ret o, Ret o2 => nth 0 o [] = [249; 244; 246; 250; 255; 255; 255; 255] /\ o2 = [[244; 255]; [231; 252]]
             | _, _ => False end
  | _ => False end.
Proof. vm_compute. auto. Qed.
Example dc_ex : dc_only (-20 :: repeat 0 63) /\ dc_value 8 (dequantized (-20 :: repeat 0 63) q_ex 0 0) = 88.
Proof. split; [|reflexivity]. intros i Hi. destruct i; [lia|]. cbn [nth]. apply nth_repeat. Qed.
