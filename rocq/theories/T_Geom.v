(* T_Geom.v -- C37: image geometry. *)
From Verif Require Import Base M_Geom.
From Coq Require Import Psatz.

(* ---------------------------------------------------------------- *)
(* Specification *)

(* q is a / b rounded up *)
Definition is_ceil (a b q : Z) : Prop := b * (q - 1) < a <= b * q.

(* side of a data unit *)
Definition unit_of (f : frame) : Z := if f_lossless f then 1 else 8.

(* A set of consecutive intervals [k*w, k*w + w), k = 0 .. n-1, covers 0 .. len-1
   exactly: every position in exactly one interval, no interval without a position. *)
Definition tiles (w n len : Z) : Prop :=
  (forall x, 0 <= x < len -> exists! k, 0 <= k < n /\ k * w <= x < k * w + w) /\
  (forall k, 0 <= k < n -> k * w < len).

(* ---------------------------------------------------------------- *)
Lemma jdiv_ceil : forall a b, 0 <= a -> 0 < b -> is_ceil a b (jdiv_round_up a b).
Proof.
  intros a b Ha Hb. unfold jdiv_round_up, is_ceil. rewrite Z.quot_div_nonneg by lia.
  pose proof (Z.div_mod (a + b - 1) b ltac:(lia)). pose proof (Z.mod_pos_bound (a + b - 1) b Hb). lia.
Qed.
Lemma ceil_unique : forall a b q q', 0 < b -> is_ceil a b q -> is_ceil a b q' -> q = q'.
Proof. intros a b q q' Hb [A1 A2] [B1 B2]. nia. Qed.
Lemma ceil_pos : forall a b q, 0 < a -> 0 < b -> is_ceil a b q -> 1 <= q.
Proof. intros a b q Ha Hb [A1 A2]. nia. Qed.
Lemma ceil_le : forall a b q, 0 <= a -> 0 < b -> is_ceil a b q -> q <= a + 1.
Proof. intros a b q Ha Hb [A1 A2]. nia. Qed.
Lemma u32_id : forall x, 0 <= x < 2 ^ 32 -> u32 x = x.
Proof. intros. unfold u32. apply Z.mod_small. assumption. Qed.
Lemma jdiv_u32 : forall a b, 0 <= a -> a < 2 ^ 31 -> 0 < b -> u32 (jdiv_round_up a b) = jdiv_round_up a b.
Proof.
  intros a b Ha Hl Hb. pose proof (jdiv_ceil a b Ha Hb) as C. pose proof (ceil_le _ _ _ Ha Hb C).
  apply u32_id. split; [|lia]. destruct C as [C1 C2]. nia.
Qed.
Lemma tiles_ceil : forall w n len, 0 < w -> 0 < len -> is_ceil len w n -> tiles w n len.
Proof.
  intros w n len Hw Hl [C1 C2]. split.
  - intros x Hx. exists (x / w).
    pose proof (Z.div_mod x w ltac:(lia)). pose proof (Z.mod_pos_bound x w Hw). split.
    + split; [|nia]. split; [nia|]. nia.
    + intros k' (_ & H'). nia.
  - intros k Hk. nia.
Qed.

(* frames the compressor accepts *)
Lemma max_samp_spec : forall l mh mv a b, 1 <= mh <= 4 -> 1 <= mv <= 4 -> max_samp l mh mv = Ret (a, b) ->
  (forall s, In s l -> 1 <= h_samp s <= 4 /\ 1 <= v_samp s <= 4 /\ h_samp s <= a /\ v_samp s <= b) /\
  mh <= a <= 4 /\ mv <= b <= 4 /\
  (a = mh \/ exists s, In s l /\ h_samp s = a) /\ (b = mv \/ exists s, In s l /\ v_samp s = b).
Proof.
  induction l as [|s l IH]; intros mh mv a b Hh Hv E; cbn [max_samp] in E.
  - injection E as <- <-. split; [intros s []|]. auto with zarith.
  - destruct ((h_samp s <=? 0) || (MAX_SAMP_FACTOR <? h_samp s) || (v_samp s <=? 0) || (MAX_SAMP_FACTOR <? v_samp s)) eqn:B;
      [discriminate|].
    repeat rewrite orb_false_iff in B. destruct B as (((B1 & B2) & B3) & B4). unfold MAX_SAMP_FACTOR in *.
    apply Z.leb_gt in B1, B3. apply Z.ltb_ge in B2, B4.
    destruct (IH (Z.max mh (h_samp s)) (Z.max mv (v_samp s)) a b) as (I1 & I2 & I3 & I4 & I5); [lia|lia|exact E|].
    split; [|split; [lia|split; [lia|split]]].
    + intros s' [<- |Hs]; [lia|auto].
    + destruct I4 as [-> |(s' & A & B)]; [|right; exists s'; split; [right; exact A|exact B]].
      destruct (Z.max_spec mh (h_samp s)) as [(_ & ->)|(_ & ->)]; [right; exists s; split; [left|]; reflexivity|left; reflexivity].
    + destruct I5 as [-> |(s' & A & B)]; [|right; exists s'; split; [right; exact A|exact B]].
      destruct (Z.max_spec mv (v_samp s)) as [(_ & ->)|(_ & ->)]; [right; exists s; split; [left|]; reflexivity|left; reflexivity].
Qed.

(* What the fields mean. *)
Definition comp_ok (f : frame) (c : comp) : Prop :=
  1 <= c_h c <= f_max_h f /\ 1 <= c_v c <= f_max_v f /\ c_DCT_scaled_size c = unit_of f /\
  is_ceil (f_width f * c_h c) (f_max_h f) (c_downsampled_width c) /\
  is_ceil (f_height f * c_v c) (f_max_v f) (c_downsampled_height c) /\
  is_ceil (f_width f * c_h c) (f_max_h f * unit_of f) (c_width_in_blocks c) /\
  is_ceil (f_height f * c_v c) (f_max_v f * unit_of f) (c_height_in_blocks c).
Definition frame_ok (f : frame) : Prop :=
  1 <= f_width f <= 65500 /\ 1 <= f_height f <= 65500 /\
  1 <= f_max_h f <= 4 /\ 1 <= f_max_v f <= 4 /\
  (exists c, In c (f_comps f) /\ c_h c = f_max_h f) /\ (exists c, In c (f_comps f) /\ c_v c = f_max_v f) /\
  (1 <= length (f_comps f) <= 10)%nat /\
  (forall k c, nth_error (f_comps f) k = Some c -> c_index c = Z.of_nat k) /\
  (forall c, In c (f_comps f) -> comp_ok f c) /\
  is_ceil (f_height f) (f_max_v f * unit_of f) (f_total_iMCU_rows f).

Lemma dims_same : forall W H mh mv du l ci, c_dims W H mh mv du ci l = d_dims W H mh mv du ci l.
Proof. induction l as [|s l IH]; intros ci; cbn; [reflexivity|]. rewrite IH. reflexivity. Qed.

Lemma c_dims_in : forall W H mh mv du l ci c, In c (c_dims W H mh mv du ci l) ->
  exists s, In s l /\ c = mkComp (c_index c) (h_samp s) (v_samp s) du
      (u32 (jdiv_round_up (W * h_samp s) (mh * du))) (u32 (jdiv_round_up (H * v_samp s) (mv * du)))
      (u32 (jdiv_round_up (W * h_samp s) mh)) (u32 (jdiv_round_up (H * v_samp s) mv)).
Proof.
  induction l as [|s l IH]; intros ci c; cbn; [intros []|]. intros [<- |Hc].
  - exists s. split; [left; reflexivity|reflexivity].
  - destruct (IH _ _ Hc) as (s' & A & B). exists s'. split; [right; exact A|exact B].
Qed.
Lemma c_dims_of : forall W H mh mv du l ci s, In s l -> exists c, In c (c_dims W H mh mv du ci l) /\ c_h c = h_samp s /\ c_v c = v_samp s.
Proof.
  induction l as [|s' l IH]; intros ci s; cbn; [intros []|]. intros [-> |Hs].
  - eexists. split; [left; reflexivity|]. split; reflexivity.
  - destruct (IH (ci + 1) s Hs) as (c & A & B). exists c. split; [right; exact A|exact B].
Qed.
Lemma c_dims_index : forall W H mh mv du l ci k c, nth_error (c_dims W H mh mv du ci l) k = Some c -> c_index c = ci + Z.of_nat k.
Proof.
  induction l as [|s l IH]; intros ci k c E; [destruct k; discriminate|]. destruct k as [|k]; cbn in E.
  - injection E as <-. cbn. lia.
  - rewrite (IH _ _ _ E). lia.
Qed.
Lemma c_dims_length : forall W H mh mv du l ci, length (c_dims W H mh mv du ci l) = length l.
Proof. induction l as [|s l IH]; intros ci; cbn; [reflexivity|]. f_equal. apply IH. Qed.

Lemma c_initial_ok : forall p f, c_initial_setup p = Ret f -> frame_ok f.
Proof.
  intros p f E. unfold c_initial_setup in E.
  destruct ((p_height p <=? 0) || (p_width p <=? 0) || (Z.of_nat (length (p_samps p)) <=? 0) || (p_input_components p <=? 0)) eqn:B1; [discriminate|].
  destruct ((JPEG_MAX_DIMENSION <? p_height p) || (JPEG_MAX_DIMENSION <? p_width p)) eqn:B2; [discriminate|].
  destruct (negb (u32 _ =? _)); [discriminate|].
  destruct (negb (p_precision p =? 8) && _ && _); [discriminate|].
  destruct (MAX_COMPONENTS <? Z.of_nat (length (p_samps p))) eqn:B3; [discriminate|].
  repeat rewrite orb_false_iff in B1. destruct B1 as (((A1 & A2) & A3) & A4).
  rewrite orb_false_iff in B2. destruct B2 as (A5 & A6). unfold JPEG_MAX_DIMENSION, MAX_COMPONENTS in *.
  apply Z.leb_gt in A1, A2, A3. apply Z.ltb_ge in A5, A6, B3.
  destruct (max_samp (p_samps p) 1 1) as [[mh mv]|e|] eqn:Em; cbn [bind] in E; try discriminate.
  destruct (max_samp_spec (p_samps p) 1 1 mh mv ltac:(lia) ltac:(lia) Em) as (S1 & S2 & S3 & S4 & S5).
  assert (Eu : (if p_lossless p then 1 else DCTSIZE) = unit_of f) by (injection E as <-; reflexivity).
  rewrite Eu in E.
  assert (Hu : 1 <= unit_of f <= 8) by (unfold unit_of; destruct (f_lossless f); lia).
  assert (EF : f_width f = p_width p /\ f_height f = p_height p /\ f_max_h f = mh /\ f_max_v f = mv /\
    f_comps f = c_dims (p_width p) (p_height p) mh mv (unit_of f) 0 (p_samps p) /\
    f_total_iMCU_rows f = u32 (jdiv_round_up (p_height p) (mv * unit_of f))) by (injection E as E; rewrite <- E at 1 2 3 4 5 7; repeat split; reflexivity).
  clear E. destruct EF as (E1 & E2 & E3 & E4 & E5 & E6). unfold frame_ok, comp_ok. rewrite E1, E2, E3, E4, E5, E6.
  assert (NE : p_samps p <> []) by (intros W; rewrite W in A3; cbn in A3; lia).
  destruct (p_samps p) as [|s0 tl] eqn:El; [congruence|]. rewrite <- El in *.
  assert (X : forall (sel : samp -> Z) (m : Z), (m = 1 \/ exists s, In s (p_samps p) /\ sel s = m) ->
     (forall s, In s (p_samps p) -> 1 <= sel s <= m) -> exists s, In s (p_samps p) /\ sel s = m).
  { intros sel m [-> |Hs] Hb; [|exact Hs]. exists s0. rewrite El at 1. split; [left; reflexivity|].
    assert (In s0 (p_samps p)) by (rewrite El; left; reflexivity). specialize (Hb s0 H). lia. }
  split; [lia|]. split; [lia|]. split; [lia|]. split; [lia|].
  split.
  { destruct (X h_samp mh S4) as (s & Q1 & Q2); [intros s Hs; destruct (S1 s Hs) as (?&?&?&?); lia|].
    destruct (c_dims_of (p_width p) (p_height p) mh mv (unit_of f) (p_samps p) 0 s Q1) as (c & Q3 & Q4 & _).
    exists c. split; [exact Q3|congruence]. }
  split.
  { destruct (X v_samp mv S5) as (s & Q1 & Q2); [intros s Hs; destruct (S1 s Hs) as (?&?&?&?); lia|].
    destruct (c_dims_of (p_width p) (p_height p) mh mv (unit_of f) (p_samps p) 0 s Q1) as (c & Q3 & _ & Q4).
    exists c. split; [exact Q3|congruence]. }
  rewrite c_dims_length. split; [lia|].
  split; [intros k c Hk; rewrite (c_dims_index _ _ _ _ _ _ _ _ _ Hk); lia|].
  assert (J : forall a b, 1 <= a <= 262000 -> 1 <= b <= 32 -> is_ceil a b (u32 (jdiv_round_up a b))).
  { intros a b Ha Hb. rewrite jdiv_u32 by lia. apply jdiv_ceil; lia. }
  split.
  - intros c Hc. destruct (c_dims_in _ _ _ _ _ _ _ _ Hc) as (s & Hs & E). rewrite E; clear E.
    destruct (S1 s Hs) as (Q1 & Q2 & Q3 & Q4). clear Hc.
    set (W := p_width p) in *. set (Hh := p_height p) in *. set (du := unit_of f) in *.
    cbn [c_h c_v c_DCT_scaled_size c_downsampled_width c_downsampled_height c_width_in_blocks c_height_in_blocks].
    assert (M1 : 1 <= W * h_samp s <= 262000) by nia.
    assert (M2 : 1 <= Hh * v_samp s <= 262000) by nia.
    assert (M3 : 1 <= mh * du <= 32) by nia. assert (M4 : 1 <= mv * du <= 32) by nia.
    split; [lia|]. split; [lia|]. split; [reflexivity|].
    split; [apply J; lia|]. split; [apply J; lia|]. split; apply J; assumption.
  - apply J; [lia|]. assert (1 <= mv * unit_of f <= 32) by nia. assumption.
Qed.

(* C37, agreement: what the compressor accepts can be written in a frame header
   (16-bit dimensions, 4-bit sampling factors, 8-bit component count), and the
   decompressor computes from that header exactly the same frame geometry. *)
Theorem C37_frame_agree : forall p f, c_initial_setup p = Ret f ->
  (1 <= p_width p < 2 ^ 16 /\ 1 <= p_height p < 2 ^ 16 /\ 1 <= Z.of_nat (length (p_samps p)) < 2 ^ 8 /\
   forall s, In s (p_samps p) -> 0 <= h_samp s < 2 ^ 4 /\ 0 <= v_samp s < 2 ^ 4) /\
  d_initial_setup (mkSof (p_width p) (p_height p) (p_precision p) (p_lossless p) (p_samps p)) = Ret f.
Proof.
  intros p f E0. pose proof E0 as E. unfold c_initial_setup in E. unfold d_initial_setup.
  cbn [q_width q_height q_precision q_lossless q_samps].
  destruct ((p_height p <=? 0) || (p_width p <=? 0) || (Z.of_nat (length (p_samps p)) <=? 0) || (p_input_components p <=? 0)) eqn:B1; [discriminate|].
  rewrite orb_false_iff in B1. destruct B1 as (B1 & _). rewrite B1.
  destruct ((JPEG_MAX_DIMENSION <? p_height p) || (JPEG_MAX_DIMENSION <? p_width p)) eqn:B2; [discriminate|].
  destruct (negb (u32 _ =? _)); [discriminate|].
  destruct (negb (p_precision p =? 8) && _ && _); [discriminate|].
  destruct (MAX_COMPONENTS <? Z.of_nat (length (p_samps p))) eqn:B3; [discriminate|].
  repeat rewrite orb_false_iff in B1. destruct B1 as ((A1 & A2) & A3).
  rewrite orb_false_iff in B2. destruct B2 as (A5 & A6). unfold JPEG_MAX_DIMENSION, MAX_COMPONENTS in *.
  apply Z.leb_gt in A1, A2, A3. apply Z.ltb_ge in A5, A6, B3.
  destruct (max_samp (p_samps p) 1 1) as [[mh mv]|e|] eqn:Em; cbn [bind] in E |- *; try discriminate.
  destruct (max_samp_spec (p_samps p) 1 1 mh mv ltac:(lia) ltac:(lia) Em) as (S1 & _).
  split.
  - split; [lia|]. split; [lia|]. split; [lia|]. intros s Hs. destruct (S1 s Hs) as (?&?&?). lia.
  - rewrite <- dims_same. exact E.
Qed.
Print Assumptions C37_frame_agree.

Lemma inter_same : forall du l ci acc b m, (forall c, In c l -> c_DCT_scaled_size c = du) ->
  c_inter du l ci acc b m = d_inter l ci acc b m.
Proof.
  induction l as [|c l IH]; intros ci acc b m H; [reflexivity|]. cbn [c_inter d_inter].
  change C_MAX_BLOCKS_IN_MCU with D_MAX_BLOCKS_IN_MCU.
  destruct (D_MAX_BLOCKS_IN_MCU <? b + c_h c * c_v c); [reflexivity|].
  rewrite (H c (or_introl eq_refl)). apply IH. intros c' Hc. apply H. right. exact Hc.
Qed.

(* ... and likewise for every scan made of components of that frame: the
   decompressor computes the same MCU layout, or refuses with the same error. *)
Theorem C37_scan_agree : forall p f l, c_initial_setup p = Ret f -> incl l (f_comps f) ->
  c_per_scan_setup f l = d_per_scan_setup f l.
Proof.
  intros p f l E Hl. destruct (c_initial_ok p f E) as (_ & _ & _ & _ & _ & _ & _ & _ & HC & _).
  assert (HD : forall c, In c l -> c_DCT_scaled_size c = unit_of f).
  { intros c Hc. destruct (HC c (Hl c Hc)) as (_ & _ & H & _). exact H. }
  assert (I : c_inter (unit_of f) l 0 [] 0 [] = d_inter l 0 [] 0 []) by (apply inter_same; exact HD).
  unfold c_per_scan_setup, d_per_scan_setup. change (if f_lossless f then 1 else DCTSIZE) with (unit_of f).
  destruct l as [|c [|c2 l]]; [reflexivity| |].
  - rewrite (HD c (or_introl eq_refl)). reflexivity.
  - rewrite I. reflexivity.
Qed.
Print Assumptions C37_scan_agree.

(* C37, coverage: in an accepted frame every component has exactly the samples of
   the image at its own resolution (W*h/maxh rounded up), and its blocks tile
   those samples: every sample is in exactly one block and no block is without a
   sample.  An image column x (row y) falls on an existing sample. *)
Theorem C37_blocks_tile : forall p f c, c_initial_setup p = Ret f -> In c (f_comps f) ->
  is_ceil (p_width p * c_h c) (f_max_h f) (c_downsampled_width c) /\
  is_ceil (p_height p * c_v c) (f_max_v f) (c_downsampled_height c) /\
  tiles (unit_of f) (c_width_in_blocks c) (c_downsampled_width c) /\
  tiles (unit_of f) (c_height_in_blocks c) (c_downsampled_height c) /\
  (forall x, 0 <= x < p_width p -> 0 <= x * c_h c / f_max_h f < c_downsampled_width c) /\
  (forall y, 0 <= y < p_height p -> 0 <= y * c_v c / f_max_v f < c_downsampled_height c).
Proof.
  intros p f c E Hc. destruct (c_initial_ok p f E) as (F1 & F2 & F3 & F4 & _ & _ & _ & _ & HC & _).
  assert (EW : f_width f = p_width p /\ f_height f = p_height p).
  { unfold c_initial_setup in E. repeat (destruct (_ : bool) in E; [discriminate|]).
    destruct (max_samp _ _ _) as [[? ?]|?|]; cbn [bind] in E; try discriminate. injection E as <-. split; reflexivity. }
  destruct EW as [EW EH]. rewrite <- EW, <- EH.
  destruct (HC c Hc) as (C1 & C2 & _ & C3 & C4 & C5 & C6).
  assert (Hu : 1 <= unit_of f <= 8) by (unfold unit_of; destruct (f_lossless f); lia).
  assert (N : forall a m u d b, 1 <= a -> 1 <= m -> 1 <= u -> is_ceil a m d -> is_ceil a (m * u) b -> is_ceil d u b /\ 1 <= d).
  { intros a m u d b Ha Hm Hu' [D1 D2] [B1 B2]. unfold is_ceil. split; [|nia].
    assert (0 < m) by lia. split.
    - assert (m * (u * (b - 1)) < m * d) by lia. apply (Z.mul_lt_mono_pos_l m); lia.
    - assert (m * (d - 1) < m * (u * b)) by lia. apply Z.lt_pred_le. apply (Z.mul_lt_mono_pos_l m); lia. }
  assert (S : forall a h m d x, 1 <= h -> 1 <= m -> is_ceil (a * h) m d -> 0 <= x < a -> 0 <= x * h / m < d).
  { intros a h m d x Hh Hm [D1 D2] Hx. split; [apply Z.div_pos; nia|]. apply Z.div_lt_upper_bound; [lia|]. nia. }
  destruct (N (f_width f * c_h c) (f_max_h f) (unit_of f) _ _ ltac:(nia) (proj1 F3) (proj1 Hu) C3 C5) as [N1 N2].
  destruct (N (f_height f * c_v c) (f_max_v f) (unit_of f) _ _ ltac:(nia) (proj1 F4) (proj1 Hu) C4 C6) as [N3 N4].
  split; [exact C3|]. split; [exact C4|].
  split; [apply tiles_ceil; [lia|lia|exact N1]|]. split; [apply tiles_ceil; [lia|lia|exact N3]|].
  split; intros x Hx; [apply (S (f_width f) (c_h c) (f_max_h f)); [lia|lia|exact C3|exact Hx]
                      |apply (S (f_height f) (c_v c) (f_max_v f)); [lia|lia|exact C4|exact Hx]].
Qed.
Print Assumptions C37_blocks_tile.

(* ---------------------------------------------------------------- *)
(* scans *)
Lemma rem_last : forall n m q, 1 <= m -> 1 <= n -> is_ceil n m q ->
  (if Z.rem n m =? 0 then m else Z.rem n m) = n - m * (q - 1).
Proof.
  intros n m q Hm Hn [A B]. rewrite Z.rem_mod_nonneg by lia.
  pose proof (Z.div_mod n m ltac:(lia)) as D. pose proof (Z.mod_pos_bound n m ltac:(lia)) as M.
  set (d := n / m) in *. set (r := n mod m) in *. clearbody d r.
  destruct (Z.eqb_spec r 0) as [E|E].
  - assert (d = q) by nia. subst. lia.
  - assert (d = q - 1) by nia. subst. lia.
Qed.

Definition sc_of (du : Z) (c : comp) : scomp :=
  let t := Z.rem (c_width_in_blocks c) (c_h c) in
  let u := Z.rem (c_height_in_blocks c) (c_v c) in
  mkSC c (c_h c) (c_v c) (c_h c * c_v c) (c_h c * du) (if t =? 0 then c_h c else t) (if u =? 0 then c_v c else u).

Lemma push_spec : forall n ci m, push n ci m = m ++ repeat ci n.
Proof.
  induction n as [|n IH]; intros ci m; cbn [push repeat]; [symmetry; apply app_nil_r|].
  rewrite IH, <- app_assoc. reflexivity.
Qed.
(* the blocks of each component of the scan, component after component *)
Fixpoint members (ci : Z) (l : list comp) : list Z :=
  match l with [] => [] | c :: t => repeat ci (Z.to_nat (c_h c * c_v c)) ++ members (ci + 1) t end.
Lemma c_inter_spec : forall du l ci acc b m cs b' m',
  (forall c, In c l -> 1 <= c_h c /\ 1 <= c_v c) -> b <= 10 -> b = Z.of_nat (length m) ->
  c_inter du l ci acc b m = Ret (cs, b', m') ->
  cs = acc ++ map (sc_of du) l /\ m' = m ++ members ci l /\ b' = Z.of_nat (length m') /\ b' <= 10.
Proof.
  induction l as [|c l IH]; intros ci acc b m cs b' m' Hl Hb Em E; cbn [c_inter] in E.
  - injection E as <- <- <-. rewrite !app_nil_r. auto.
  - destruct (Z.ltb_spec C_MAX_BLOCKS_IN_MCU (b + c_h c * c_v c)) as [L|L]; [discriminate|]. unfold C_MAX_BLOCKS_IN_MCU in L.
    rewrite push_spec in E.
    assert (Hc : 1 <= c_h c /\ 1 <= c_v c) by (apply Hl; left; reflexivity).
    assert (EL : b + c_h c * c_v c = Z.of_nat (length (m ++ repeat ci (Z.to_nat (c_h c * c_v c))))).
    { rewrite app_length, repeat_length, Nat2Z.inj_add, Z2Nat.id by nia. lia. }
    destruct (IH _ _ _ _ _ _ _ (fun c' H => Hl c' (or_intror H)) L EL E) as (A & B & C & D).
    split; [rewrite A, <- app_assoc; reflexivity|]. split; [rewrite B; cbn [members]; rewrite <- app_assoc; reflexivity|]. auto.
Qed.

Lemma comp_imcu : forall f c, frame_ok f -> In c (f_comps f) ->
  is_ceil (c_height_in_blocks c) (c_v c) (f_total_iMCU_rows f) /\
  (forall q, is_ceil (f_width f) (f_max_h f * unit_of f) q -> is_ceil (c_width_in_blocks c) (c_h c) q) /\
  1 <= c_width_in_blocks c /\ 1 <= c_height_in_blocks c.
Proof.
  intros f c (F1 & F2 & F3 & F4 & _ & _ & _ & _ & HC & F5) Hc.
  destruct (HC c Hc) as (C1 & C2 & _ & C3 & C4 & C5 & C6).
  assert (Hu : 1 <= unit_of f <= 8) by (unfold unit_of; destruct (f_lossless f); lia).
  assert (N : forall a m h b q, 1 <= a -> 1 <= m -> 1 <= h -> is_ceil (a * h) m b -> is_ceil a m q -> is_ceil b h q /\ 1 <= b).
  { intros a m h b q Ha Hm Hh [B1 B2] [Q1 Q2]. unfold is_ceil. split; [|nia]. split.
    - assert (P1 : h * (m * (q - 1)) < h * a) by (apply Z.mul_lt_mono_pos_l; lia).
      assert (P2 : m * (h * (q - 1)) < m * b) by lia. apply (Z.mul_lt_mono_pos_l m); lia.
    - assert (P1 : h * a <= h * (m * q)) by (apply Z.mul_le_mono_nonneg_l; lia).
      assert (P2 : m * (b - 1) < m * (h * q)) by lia. apply Z.lt_pred_le. apply (Z.mul_lt_mono_pos_l m); lia. }
  assert (P : 1 <= f_max_h f * unit_of f /\ 1 <= f_max_v f * unit_of f) by nia.
  assert (C5' := C5). assert (C6' := C6).
  split; [exact (proj1 (N _ _ _ _ _ (proj1 F2) (proj2 P) (proj1 C2) C6 F5))|].
  split; [intros q Hq; exact (proj1 (N _ _ _ _ _ (proj1 F1) (proj1 P) (proj1 C1) C5 Hq))|].
  split; [destruct C5 as [A B]; nia|destruct C6 as [A B]; nia].
Qed.

Record scan_spec (f : frame) (l : list comp) (s : scan) : Prop := mkSS {
  ss_comps : map s_comp (s_comps s) = l;
  ss_blocks : s_blocks_in_MCU s = Z.of_nat (length (s_membership s));
  ss_max : 1 <= s_blocks_in_MCU s <= 10;
  ss_single : forall c, l = [c] -> s_MCUs_per_row s = c_width_in_blocks c /\ s_MCU_rows_in_scan s = c_height_in_blocks c /\
     s_comps s = [mkSC c 1 1 1 (unit_of f) 1 (c_height_in_blocks c - c_v c * (f_total_iMCU_rows f - 1))];
  ss_multi : (2 <= length l)%nat ->
     is_ceil (f_width f) (f_max_h f * unit_of f) (s_MCUs_per_row s) /\
     s_MCU_rows_in_scan s = f_total_iMCU_rows f /\ s_membership s = members 0 l /\
     s_comps s = map (fun c => mkSC c (c_h c) (c_v c) (c_h c * c_v c) (c_h c * unit_of f)
        (c_width_in_blocks c - c_h c * (s_MCUs_per_row s - 1))
        (c_height_in_blocks c - c_v c * (f_total_iMCU_rows f - 1))) l }.

Lemma ceil_of_u32 : forall a b q, 1 <= a <= 65500 -> 1 <= b -> u32 (jdiv_round_up a b) = q -> is_ceil a b q.
Proof. intros a b q Ha Hb <-. rewrite jdiv_u32 by lia. apply jdiv_ceil; lia. Qed.

Lemma scan_setup_spec : forall p f l s, c_initial_setup p = Ret f -> incl l (f_comps f) ->
  c_per_scan_setup f l = Ret s -> l <> [] /\ (length l <= 4)%nat /\ scan_spec f l s.
Proof.
  intros p f l s E Hl Es. pose proof (c_initial_ok p f E) as F.
  assert (G : forall c, In c l -> _) by (intros c Hc; exact (comp_imcu f c F (Hl c Hc))).
  assert (HC : forall c, In c l -> comp_ok f c) by (intros c Hc; destruct F as (_&_&_&_&_&_&_&_&H&_); exact (H c (Hl c Hc))).
  destruct F as (F1 & F2 & F3 & F4 & _ & _ & _ & _ & _ & F5).
  assert (Hu : 1 <= unit_of f <= 8) by (unfold unit_of; destruct (f_lossless f); lia).
  unfold c_per_scan_setup in Es. change (if f_lossless f then 1 else DCTSIZE) with (unit_of f) in Es.
  assert (M : match l with [_] => False | _ => True end ->
    (if (Z.of_nat (length l) <=? 0) || (MAX_COMPS_IN_SCAN <? Z.of_nat (length l)) then Error JERR_COMPONENT_COUNT
    else
      '(cs, blocks, m) <- c_inter (unit_of f) l 0 [] 0 [] ;;
      Ret (mkScan cs (u32 (jdiv_round_up (f_width f) (f_max_h f * unit_of f)))
             (u32 (jdiv_round_up (f_height f) (f_max_v f * unit_of f))) blocks m)) = Ret s ->
    l <> [] /\ (length l <= 4)%nat /\ scan_spec f l s).
  { intros NS Q. destruct ((Z.of_nat (length l) <=? 0) || (MAX_COMPS_IN_SCAN <? Z.of_nat (length l))) eqn:B; [discriminate|].
    apply orb_false_iff in B. destruct B as [B1 B2]. apply Z.leb_gt in B1. apply Z.ltb_ge in B2. unfold MAX_COMPS_IN_SCAN in B2.
    destruct (c_inter (unit_of f) l 0 [] 0 []) as [[[cs b] m]|?|] eqn:EI; cbn [bind] in Q; try discriminate.
    apply c_inter_spec in EI; [|intros c Hc; destruct (HC c Hc) as (?&?&_); lia|lia|reflexivity].
    destruct EI as (I1 & I2 & I3 & I4). cbn [app] in I1, I2. injection Q as Q.
    split; [intros W; rewrite W in B1; cbn in B1; lia|]. split; [lia|].
    assert (QW : is_ceil (f_width f) (f_max_h f * unit_of f) (s_MCUs_per_row s)).
    { apply ceil_of_u32; [lia|nia|rewrite <- Q; reflexivity]. }
    assert (QH : s_MCU_rows_in_scan s = f_total_iMCU_rows f).
    { apply (ceil_unique (f_height f) (f_max_v f * unit_of f)); [nia| |exact F5].
      apply ceil_of_u32; [lia|nia|rewrite <- Q; reflexivity]. }
    assert (QC : s_comps s = map (sc_of (unit_of f)) l) by (rewrite <- Q; exact I1).
    assert (QM : s_membership s = m) by (rewrite <- Q; reflexivity).
    assert (QB : s_blocks_in_MCU s = b) by (rewrite <- Q; reflexivity).
    clear Q. constructor.
    - rewrite QC, map_map. apply map_id.
    - rewrite QB, QM. exact I3.
    - rewrite QB. split; [|exact I4]. rewrite I3, I2. destruct l as [|c l]; [cbn in B1; lia|].
      cbn [members]. rewrite app_length, repeat_length. destruct (HC c (or_introl eq_refl)) as (?&?&_). nia.
    - intros c Ec. rewrite Ec in NS. destruct NS.
    - intros _. split; [exact QW|]. split; [exact QH|]. split; [congruence|].
      rewrite QC. apply map_ext_in. intros c Hc. unfold sc_of. destruct (G c Hc) as (G1 & G2 & G3 & G4).
      destruct (HC c Hc) as (H1 & H2 & _).
      rewrite (rem_last _ (c_h c) _ (proj1 H1) G3 (G2 _ QW)), (rem_last _ (c_v c) _ (proj1 H2) G4 G1). reflexivity. }
  destruct l as [|c [|c2 l]]; [exact (M I Es)| |exact (M I Es)].
  clear M. split; [discriminate|]. split; [cbn; lia|].
  destruct (G c (or_introl eq_refl)) as (G1 & G2 & G3 & G4). destruct (HC c (or_introl eq_refl)) as (H1 & H2 & _).
  rewrite (rem_last _ (c_v c) _ (proj1 H2) G4 G1) in Es. injection Es as <-.
  constructor; cbn; [reflexivity|reflexivity|lia| |lia].
  intros c' [= <-]. auto.
Qed.

(* C37, MCUs.  In every scan the compressor sets up (1 component: one block per
   MCU; 2 to 4 components: interleaved), for each component:
   - the MCU columns (rows) tile its block columns (rows): every block is in
     exactly one MCU, and every MCU has a real block of the component;
   - a block position of an MCU is a dummy exactly when it is in the last MCU
     column at offset >= last_col_width, or, interleaved, in the last MCU row at
     offset >= last_row_height; a single-component scan has no dummies at all;
   - the iMCU rows (v_samp block rows each) tile the component's block rows, the
     last one having last_row_height of them. *)
Theorem C37_mcu_tile : forall p f l s k sc,
  c_initial_setup p = Ret f -> incl l (f_comps f) -> c_per_scan_setup f l = Ret s ->
  nth_error (s_comps s) k = Some sc ->
  let c := s_comp sc in
  let MW := s_MCU_width sc in let MH := s_MCU_height sc in
  let cols := s_MCUs_per_row s in let rows := s_MCU_rows_in_scan s in
  nth_error l k = Some c /\
  tiles MW cols (c_width_in_blocks c) /\ tiles MH rows (c_height_in_blocks c) /\
  (forall mx dx, 0 <= mx < cols -> 0 <= dx < MW ->
     (c_width_in_blocks c <= mx * MW + dx <-> mx = cols - 1 /\ s_last_col_width sc <= dx)) /\
  (length l = 1%nat -> MW = 1 /\ MH = 1 /\ forall my, 0 <= my < rows -> my < c_height_in_blocks c) /\
  ((2 <= length l)%nat -> MW = c_h c /\ MH = c_v c /\ rows = f_total_iMCU_rows f /\
     forall my dy, 0 <= my < rows -> 0 <= dy < MH ->
     (c_height_in_blocks c <= my * MH + dy <-> my = rows - 1 /\ s_last_row_height sc <= dy)) /\
  tiles (c_v c) (f_total_iMCU_rows f) (c_height_in_blocks c) /\
  c_height_in_blocks c = c_v c * (f_total_iMCU_rows f - 1) + s_last_row_height sc /\
  1 <= s_last_row_height sc <= c_v c /\ 1 <= s_last_col_width sc <= MW.
Proof.
  intros p f l s k sc E Hl Es Hk c MW MH cols rows.
  destruct (scan_setup_spec p f l s E Hl Es) as (NE & L4 & SS).
  assert (Hkl : nth_error l k = Some c).
  { rewrite <- (ss_comps _ _ _ SS). unfold c. exact (map_nth_error s_comp k (s_comps s) Hk). }
  assert (Hin : In c (f_comps f)) by (apply Hl; exact (nth_error_In _ _ Hkl)).
  destruct (comp_imcu f c (c_initial_ok p f E) Hin) as (G1 & G2 & G3 & G4).
  destruct (c_initial_ok p f E) as (F1 & F2 & F3 & F4 & _ & _ & _ & _ & HC & F5).
  destruct (HC c Hin) as (H1 & H2 & _).
  split; [exact Hkl|].
  assert (DM : forall W M q m d, 1 <= M -> is_ceil W M q -> 0 <= m < q -> 0 <= d < M ->
     (W <= m * M + d <-> m = q - 1 /\ W - M * (q - 1) <= d)).
  { intros W M q m d HM [A B] Hm Hd. split.
    - intros Q. assert (m = q - 1) by nia. subst. lia.
    - intros [-> Q]. lia. }
  destruct (Nat.eq_dec (length l) 1) as [L1|L1].
  - destruct l as [|c0 [|? ?]]; try discriminate. destruct (ss_single _ _ _ SS c0 eq_refl) as (Q1 & Q2 & Q3).
    assert (Ec : sc = mkSC c0 1 1 1 (unit_of f) 1 (c_height_in_blocks c0 - c_v c0 * (f_total_iMCU_rows f - 1))).
    { rewrite Q3 in Hk. destruct k as [|[|k]]; cbn in Hk; congruence. }
    assert (Ec0 : c = c0) by (unfold c; rewrite Ec; reflexivity).
    unfold MW, MH, cols, rows. rewrite Q1, Q2, Ec0 in *. rewrite Ec. cbn [s_MCU_width s_MCU_height s_last_row_height s_last_col_width].
    split; [apply tiles_ceil; unfold is_ceil; lia|]. split; [apply tiles_ceil; unfold is_ceil; lia|].
    split; [intros; lia|]. split; [intros _; split; [reflexivity|split; [reflexivity|intros; lia]]|].
    split; [cbn; intros; lia|]. split; [apply tiles_ceil; [lia|lia|exact G1]|]. destruct G1 as [X1 X2]. lia.
  - assert (L2 : (2 <= length l)%nat) by (destruct l as [|? [|? ?]]; cbn in *; try congruence; lia).
    destruct (ss_multi _ _ _ SS L2) as (Q1 & Q2 & _ & Q3).
    assert (Ec : sc = mkSC c (c_h c) (c_v c) (c_h c * c_v c) (c_h c * unit_of f)
        (c_width_in_blocks c - c_h c * (cols - 1)) (c_height_in_blocks c - c_v c * (f_total_iMCU_rows f - 1))).
    { rewrite Q3 in Hk. rewrite (map_nth_error _ _ _ Hkl) in Hk. symmetry. injection Hk as Hk. exact Hk. }
    pose proof (G2 _ Q1) as G2'. unfold MW, MH, rows. rewrite Q2, Ec.
    cbn [s_MCU_width s_MCU_height s_last_row_height s_last_col_width].
    split; [apply tiles_ceil; [lia|lia|exact G2']|]. split; [apply tiles_ceil; [lia|lia|exact G1]|].
    split; [intros mx dx Hx Hd; apply DM; [lia|exact G2'|exact Hx|exact Hd]|].
    split; [intros W; congruence|].
    split; [intros _; split; [reflexivity|split; [reflexivity|split; [reflexivity|]]]; intros my dy Hy Hd;
            apply DM; [lia|exact G1|exact Hy|exact Hd]|].
    split; [apply tiles_ceil; [lia|lia|exact G1]|].
    destruct G1 as [X1 X2], G2' as [Y1 Y2]. fold cols in Y1, Y2. lia.
Qed.
Print Assumptions C37_mcu_tile.

(* The block order inside an MCU and its size: component after component,
   MCU_width * MCU_height blocks each, at most 10 in all; the restart interval
   written fits its 16-bit field. *)
Theorem C37_mcu_blocks : forall p f l s, c_initial_setup p = Ret f -> incl l (f_comps f) ->
  c_per_scan_setup f l = Ret s ->
  1 <= s_blocks_in_MCU s <= 10 /\ s_blocks_in_MCU s = Z.of_nat (length (s_membership s)) /\
  ((2 <= length l)%nat -> s_membership s = members 0 l) /\
  (forall rr ri, 0 <= ri <= 65535 -> 0 <= c_restart_interval rr ri s <= 65535 /\
     (0 < rr -> 0 < s_MCUs_per_row s /\ (rr * s_MCUs_per_row s <= 65535 -> c_restart_interval rr ri s = rr * s_MCUs_per_row s))).
Proof.
  intros p f l s E Hl Es. destruct (scan_setup_spec p f l s E Hl Es) as (NE & _ & SS).
  split; [exact (ss_max _ _ _ SS)|]. split; [exact (ss_blocks _ _ _ SS)|].
  split; [intros L; exact (proj1 (proj2 (proj2 (ss_multi _ _ _ SS L))))|].
  intros rr ri Hri.
  assert (HM : 0 < s_MCUs_per_row s).
  { pose proof (c_initial_ok p f E) as F.
    destruct l as [|c [|c2 t]]; [congruence| |].
    - destruct (ss_single _ _ _ SS c eq_refl) as (Q & _). rewrite Q.
      destruct (comp_imcu f c F (Hl c (or_introl eq_refl))) as (_ & _ & H & _). lia.
    - destruct (ss_multi _ _ _ SS ltac:(cbn; lia)) as ((A & B) & _).
      destruct F as (F1 & _ & F3 & _).
      assert (Hu : 1 <= unit_of f <= 8) by (unfold unit_of; destruct (f_lossless f); lia). nia. }
  unfold c_restart_interval. destruct (Z.ltb_spec 0 rr); [|split; [lia|lia]].
  assert (0 < rr * s_MCUs_per_row s) by nia. split; [lia|]. intros _. split; [exact HM|]. lia.
Qed.
Print Assumptions C37_mcu_blocks.

(* Non-vacuity: a 4:2:0 image of 227 x 149 pixels: 3 components, interleaved and
   single-component scans. *)
Definition ex_p := mkCP 227 149 3 8 false [mkSamp 2 2; mkSamp 1 1; mkSamp 1 1].
Definition ex_f := mkFrame 227 149 false 2 2
  [mkComp 0 2 2 8 29 19 227 149; mkComp 1 1 1 8 15 10 114 75; mkComp 2 1 1 8 15 10 114 75] 10.
Example ex_frame : c_initial_setup ex_p = Ret ex_f.
Proof. reflexivity. Qed.
Example ex_scan : c_per_scan_setup ex_f (f_comps ex_f) =
  Ret (mkScan [mkSC (mkComp 0 2 2 8 29 19 227 149) 2 2 4 16 1 1; mkSC (mkComp 1 1 1 8 15 10 114 75) 1 1 1 8 1 1;
               mkSC (mkComp 2 1 1 8 15 10 114 75) 1 1 1 8 1 1] 15 10 6 [0; 0; 0; 0; 1; 2]).
Proof. reflexivity. Qed.
Example ex_scan1 : c_per_scan_setup ex_f [mkComp 0 2 2 8 29 19 227 149] =
  Ret (mkScan [mkSC (mkComp 0 2 2 8 29 19 227 149) 1 1 1 8 1 1] 29 19 1 [0]).
Proof. reflexivity. Qed.
Example ex_too_big : d_per_scan_setup ex_f [mkComp 0 4 2 8 29 19 227 149; mkComp 1 3 1 8 15 10 114 75] = Error JERR_BAD_MCU_SIZE.
Proof. reflexivity. Qed.
