(* T_RangeLimit.v -- C44 *)
From Verif Require Import Base M_RangeLimit.

(* clamp to the legal sample range *)
Definition clamp (p x : Z) : Z := Z.max 0 (Z.min (2 ^ p - 1) x).
(* two's complement value of the low k bits *)
Definition wrap_signed (k x : Z) : Z := (x + 2 ^ (k - 1)) mod 2 ^ k - 2 ^ (k - 1).

Ltac bools := repeat match goal with
  | |- context [?a <=? ?b] => destruct (Z.leb_spec a b); try lia
  | |- context [?a <? ?b] => destruct (Z.ltb_spec a b); try lia
  end; cbn [andb].

Lemma prl_ok p : 1 <= p -> exists t, prepare_range_limit_table p = Ret t /\
  forall i, - (2 ^ p) <= i < 4 * 2 ^ p + 2 ^ (p - 1) ->
    t (rl_base p + i) = Some (
      if i <? 0 then 0 else if i <? 2 ^ p then i else if i <? 2 * 2 ^ p + 2 ^ (p - 1) then 2 ^ p - 1
      else if i <? 4 * 2 ^ p then 0 else i - 4 * 2 ^ p).
Proof.
  intros Hp. unfold prepare_range_limit_table, rl_size, rl_base, maxsample, centersample. cbn zeta.
  assert (E : 2 ^ p = 2 * 2 ^ (p - 1)) by (rewrite <- Z.pow_succ_r by lia; f_equal; lia).
  assert (0 < 2 ^ (p - 1)) by (apply Z.pow_pos_nonneg; lia).
  set (C := 2 ^ (p - 1)) in *. rewrite E. clearbody C. clear E.
  unfold tfill at 5. bools. cbn [bind]. unfold tfill at 4. bools. cbn [bind].
  unfold tfill at 3. bools. cbn [bind]. unfold tfill at 2. bools. cbn [bind]. unfold tfill at 1. bools.
  eexists. split; [reflexivity|]. intros i Hi. cbv beta. bools; f_equal; lia.
Qed.

Theorem C44_simple_table_clamps : forall p, 1 <= p ->
  exists t, prepare_range_limit_table p = Ret t /\
    forall x, - (2 ^ p) <= x < 2 * 2 ^ p + 2 ^ (p - 1) -> range_limit p t x = Ret (clamp p x).
Proof.
  intros p Hp. destruct (prl_ok p Hp) as (t & E & K). exists t. split; [auto|]. intros x Hx.
  assert (0 < 2 ^ (p - 1)) by (apply Z.pow_pos_nonneg; lia).
  unfold range_limit, tget. rewrite K by lia. unfold rl_size, rl_base, maxsample, centersample. bools.
  all: f_equal; unfold clamp; lia.
Qed.

Theorem C44_idct_lookup : forall p, 1 <= p ->
  exists t, prepare_range_limit_table p = Ret t /\
    forall x, idct_range_limit p t x = Ret (clamp p (wrap_signed (p + 2) x + 2 ^ (p - 1))).
Proof.
  intros p Hp. destruct (prl_ok p Hp) as (t & E & K). exists t. split; [auto|]. intros x.
  assert (E2 : 2 ^ p = 2 * 2 ^ (p - 1)) by (rewrite <- Z.pow_succ_r by lia; f_equal; lia).
  assert (E4 : 2 ^ (p + 2) = 4 * 2 ^ p) by (rewrite Z.pow_add_r by lia; change (2 ^ 2) with 4; ring).
  assert (E3 : 2 ^ (p + 2 - 1) = 2 * 2 ^ p) by (replace (p + 2 - 1) with (Z.succ p) by lia; apply Z.pow_succ_r; lia).
  assert (0 < 2 ^ (p - 1)) by (apply Z.pow_pos_nonneg; lia).
  unfold idct_range_limit, wrap_signed, tget.
  replace (maxsample p * 4 + 3) with (Z.ones (p + 2)) by (rewrite Z.ones_equiv, E4; unfold maxsample; lia).
  rewrite Z.land_ones by lia. rewrite E4, E3.
  pose proof (Z.mod_pos_bound x (4 * 2 ^ p) ltac:(lia)) as Hm. pose proof (Z.div_mod x (4 * 2 ^ p) ltac:(lia)) as Hd.
  set (m := x mod (4 * 2 ^ p)) in *. set (k := x / (4 * 2 ^ p)) in *.
  assert (W : (x + 2 * 2 ^ p) mod (4 * 2 ^ p) - 2 * 2 ^ p = if m <? 2 * 2 ^ p then m else m - 4 * 2 ^ p).
  { destruct (Z.ltb_spec m (2 * 2 ^ p)).
    - assert ((x + 2 * 2 ^ p) mod (4 * 2 ^ p) = m + 2 * 2 ^ p); [|lia].
      symmetry. apply (Z.mod_unique_pos _ _ k); lia.
    - assert ((x + 2 * 2 ^ p) mod (4 * 2 ^ p) = m - 2 * 2 ^ p); [|lia].
      symmetry. apply (Z.mod_unique_pos _ _ (k + 1)); lia. }
  rewrite W. rewrite <- Z.add_assoc. unfold centersample. rewrite K by lia.
  unfold rl_size, rl_base, maxsample, centersample. clearbody m k. clear W Hd.
  bools; f_equal; unfold clamp; lia.
Qed.

(* so a lookup never leaves the table or the sample range, and an IDCT result that is not absurdly
   large is simply clamped *)
Corollary C44_idct_lookup_in_range : forall p, 1 <= p ->
  exists t, prepare_range_limit_table p = Ret t /\
    forall x, exists v, idct_range_limit p t x = Ret v /\ 0 <= v <= 2 ^ p - 1 /\
      (- (2 * 2 ^ p) <= x < 2 * 2 ^ p -> v = clamp p (x + 2 ^ (p - 1))).
Proof.
  intros p Hp. destruct (C44_idct_lookup p Hp) as (t & E & K). exists t. split; [auto|]. intros x.
  eexists. split; [apply K|]. assert (0 < 2 ^ p) by (apply Z.pow_pos_nonneg; lia).
  split; [unfold clamp; lia|]. intros Hx. f_equal. f_equal. unfold wrap_signed.
  assert (E4 : 2 ^ (p + 2) = 4 * 2 ^ p) by (rewrite Z.pow_add_r by lia; change (2 ^ 2) with 4; ring).
  assert (E3 : 2 ^ (p + 2 - 1) = 2 * 2 ^ p) by (replace (p + 2 - 1) with (Z.succ p) by lia; apply Z.pow_succ_r; lia).
  rewrite E4, E3. rewrite Z.mod_small; lia.
Qed.

Example C44_nonvacuous : exists t, prepare_range_limit_table 8 = Ret t /\
  range_limit 8 t (-256) = Ret 0 /\ range_limit 8 t 300 = Ret 255 /\ range_limit 8 t 77 = Ret 77 /\
  idct_range_limit 8 t (-128) = Ret 0 /\ idct_range_limit 8 t (-127) = Ret 1 /\ idct_range_limit 8 t 127 = Ret 255
  /\ idct_range_limit 8 t 512 = Ret 0 /\ idct_range_limit 8 t 511 = Ret 255.
Proof. eexists. split; [vm_compute; reflexivity|]. vm_compute. repeat split; reflexivity. Qed.

Print Assumptions C44_simple_table_clamps.
Print Assumptions C44_idct_lookup.
Print Assumptions C44_idct_lookup_in_range.
