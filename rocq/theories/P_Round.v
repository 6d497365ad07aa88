(* P_Round.v -- the reference decoder (S_Stream) inverts the specified coding (S_Block) *)
From Verif Require Import Base M_HuffTbl S_Huff S_Stream S_Block S_Coef P_HuffTbl P_HuffTblD P_BitRead P_HuffSym M_HuffDec P_HuffDec P_HuffEnc P_HuffScan.

(* ---- streams ---- *)
Definition starts (S : nat -> bool) (p : nat) (w : list bool) : Prop := bits_at S p (length w) = w.

Lemma bits_at_app S p m n : bits_at S p (m + n) = bits_at S p m ++ bits_at S (p + m) n.
Proof.
  unfold bits_at. rewrite seq_app, map_app. f_equal. cbn [Nat.add].
  assert (G : forall n s, map (fun i => S (p + i)%nat) (seq (m + s) n) = map (fun i => S (p + m + i)%nat) (seq s n)).
  { induction n0 as [|n0 IH]; intros s; cbn [seq map]; auto. f_equal; [f_equal; lia|].
    rewrite <- IH. replace (m + Datatypes.S s)%nat with (Datatypes.S (m + s)) by lia. reflexivity. }
  rewrite <- (G n 0%nat). now rewrite Nat.add_0_r.
Qed.

Lemma app_inv_both {A} (a b c d : list A) : a ++ b = c ++ d -> length a = length c -> a = c /\ b = d.
Proof.
  revert c. induction a as [|x a IH]; intros [|y c] H L; cbn in *; try discriminate; auto.
  inversion H; subst. destruct (IH c H2 ltac:(lia)). subst. auto.
Qed.

Lemma starts_app S p a b : starts S p (a ++ b) -> starts S p a /\ starts S (p + length a) b.
Proof.
  unfold starts. rewrite app_length, bits_at_app. intros H.
  apply app_inv_both in H; auto. now rewrite length_bits_at.
Qed.

Lemma starts_nil S p : starts S p [].
Proof. reflexivity. Qed.

Lemma starts_zstream a w b : starts (zstream (a ++ w ++ b)) (length a) w.
Proof.
  unfold starts. apply list_nth_ext; rewrite length_bits_at; auto. intros i Hi. rewrite bits_at_nth by auto.
  unfold zstream. rewrite app_nth2 by lia. replace (length a + i - length a)%nat with i by lia. now apply app_nth1.
Qed.

(* ---- symbols ---- *)
Definition has_code (bits vals : list Z) (s : Z) : Prop := exists w, sym_code bits vals s w.

Lemma table_code_find bits vals s : has_code bits vals s -> exists k, (k < length (code_sizes bits))%nat /\
  nth k vals (-1) = s /\ table_code bits vals s = code_word (code_sizes bits) k.
Proof.
  intros (w & k & Hk & Hv & _). unfold table_code. destruct (find _ _) as [k'|] eqn:E.
  - apply find_some in E. destruct E as [E1 E2]. apply in_seq in E1. apply Z.eqb_eq in E2. exists k'. split; [lia|auto].
  - pose proof (find_none _ _ E k ltac:(apply in_seq; lia)) as H. cbn beta in H. apply Z.eqb_neq in H. congruence.
Qed.

Lemma ref_sym_code bits vals S p s : code_space_ok bits -> has_code bits vals s -> starts S p (table_code bits vals s) ->
  ref_sym bits vals S p = (s, (p + length (table_code bits vals s))%nat, true).
Proof.
  intros Hc Hs Hst. destruct (table_code_find bits vals s Hs) as (k & Hk & Hv & E). rewrite E in *.
  unfold starts in Hst. rewrite code_word_length in *.
  pose proof (dec_symbol_word bits vals S p k Hc Hk Hst) as Hd. unfold ref_sym. rewrite Hd. cbn [fst snd]. rewrite Hv.
  unfold dec_symbol in Hd. destruct (code_at bits S p) as [k'|] eqn:Ek; [reflexivity|].
  inversion Hd as [[A B]]. pose proof (sizes_nth _ k (code_sizes_ok bits) Hk). lia.
Qed.

(* ---- values ---- *)
Lemma category_0 v : category v = 0%nat -> v = 0.
Proof.
  unfold category. destruct (Z.eqb_spec v 0); auto. intros H. exfalso.
  pose proof (Z.log2_nonneg (Z.abs v)). lia.
Qed.

Lemma extend_extra v : v <> 0 -> extend (category v) (bval (extra_bits v)) = v.
Proof.
  intros Hv. unfold extra_bits. rewrite bval_bits_of.
  pose proof (proj1 (category_le (category v) v) ltac:(lia)) as Hr.
  assert (Hc : (1 <= category v)%nat). { destruct (category v) eqn:E; [|lia]. apply category_0 in E. congruence. }
  assert (Hlow : ~ (- 2 ^ Z.of_nat (category v - 1) < v < 2 ^ Z.of_nat (category v - 1))).
  { intros H. apply category_le in H. lia. }
  unfold extend. set (n := category v) in *.
  replace (Z.of_nat (n - 1)) with (Z.of_nat n - 1) in Hlow by lia.
  assert (Hp : 2 ^ Z.of_nat n = 2 * 2 ^ (Z.of_nat n - 1)).
  { replace (Z.of_nat n) with (Z.succ (Z.of_nat n - 1)) at 1 by lia. apply Z.pow_succ_r. lia. }
  set (h := 2 ^ (Z.of_nat n - 1)) in *.
  destruct (Z.ltb_spec v 0).
  - replace ((v - 1) mod 2 ^ Z.of_nat n) with (v - 1 + 2 ^ Z.of_nat n).
    + destruct (Z.ltb_spec (v - 1 + 2 ^ Z.of_nat n) h); lia.
    + rewrite <- (Z.mod_small (v - 1 + 2 ^ Z.of_nat n) (2 ^ Z.of_nat n)) by lia.
      rewrite <- (Z.mod_add (v - 1) 1 (2 ^ Z.of_nat n)) by lia. f_equal. lia.
  - rewrite Z.mod_small by lia. destruct (Z.ltb_spec v h); lia.
Qed.

Lemma length_extra v : length (extra_bits v) = category v.
Proof. unfold extra_bits. apply length_bits_of. Qed.

(* ---- DC ---- *)
Lemma ref_dc_enc bits vals S p diff : code_space_ok bits -> has_code bits vals (Z.of_nat (category diff)) ->
  starts S p (enc_dc (table_code bits vals) diff) ->
  ref_dc bits vals S p = (diff, (p + length (enc_dc (table_code bits vals) diff))%nat, true).
Proof.
  intros Hc Hs Hst. unfold enc_dc in *. destruct (starts_app _ _ _ _ Hst) as [H1 H2].
  unfold ref_dc. rewrite (ref_sym_code _ _ _ _ _ Hc Hs H1). rewrite app_length, length_extra.
  destruct (Z.eqb_spec (Z.of_nat (category diff)) 0) as [E|E].
  - assert (category diff = 0%nat) as E' by lia. rewrite E', Nat.add_0_r. now rewrite (category_0 _ E').
  - rewrite Nat2Z.id. unfold starts in H2. rewrite length_extra in H2. rewrite H2.
    rewrite extend_extra; [now rewrite Nat.add_assoc|]. intros ->. apply E. reflexivity.
Qed.

(* ---- AC ---- *)
(* the nonzero coefficients of l with their indices *)
Fixpoint nz (k : nat) (l : list Z) : list (nat * Z) :=
  match l with
  | [] => []
  | v :: t => if v =? 0 then nz (S k) t else (k, v) :: nz (S k) t
  end.

Lemma zrl_steps bits vals S : code_space_ok bits -> has_code bits vals 240 -> forall q fuel p k w,
  starts S p (flat_map (fun _ => table_code bits vals 240) (seq 0 q) ++ w) -> (k + 16 * q <= 64)%nat ->
  ref_ac (q + fuel) bits vals S p k =
  ref_ac fuel bits vals S (p + length (flat_map (fun _ => table_code bits vals 240) (seq 0 q))) (k + 16 * q).
Proof.
  intros Hc Hs. assert (Hseq : forall q s, flat_map (fun _ : nat => table_code bits vals 240) (seq s q) = flat_map (fun _ => table_code bits vals 240) (seq 0 q)).
  { induction q as [|q IH]; intros s; cbn; auto. f_equal. rewrite (IH (Datatypes.S s)), (IH 1%nat). reflexivity. }
  induction q as [|q IH]; intros fuel p k w Hst Hk.
  - cbn. now rewrite !Nat.add_0_r.
  - cbn [seq flat_map] in Hst |- *. rewrite Hseq in Hst |- *. rewrite <- app_assoc in Hst. destruct (starts_app _ _ _ _ Hst) as [H1 H2].
    cbn [Nat.add ref_ac]. destruct (Nat.ltb_spec k 64); [|lia].
    rewrite (ref_sym_code _ _ _ _ _ Hc Hs H1). change (Z.to_nat (240 / 16)) with 15%nat. change (Z.to_nat (240 mod 16)) with 0%nat.
    cbn [Nat.eqb]. rewrite (IH fuel _ (k + 16)%nat w H2 ltac:(lia)). rewrite app_length.
    replace (k + 16 + 16 * q)%nat with (k + 16 * Datatypes.S q)%nat by lia. rewrite Nat.add_assoc.
    destruct (ref_ac fuel bits vals S _ _) as [[l p2] ok2]. reflexivity.
Qed.

Lemma ref_ac_enc bits vals S : code_space_ok bits -> forall l fuel p k r,
  (k + r + length l = 64)%nat -> (64 - k <= fuel)%nat ->
  Forall (fun v => (category v <= 15)%nat) l -> Forall (has_code bits vals) (ac_symbols r l) ->
  starts S p (enc_ac (table_code bits vals) r l) ->
  ref_ac fuel bits vals S p k = (nz (k + r) l, (p + length (enc_ac (table_code bits vals) r l))%nat, true).
Proof.
  intros Hc. induction l as [|v l IH]; intros fuel p k r Hk Hf Hcat Hs Hst; cbn [enc_ac ac_symbols nz length] in *.
  - destruct r as [|r].
    + assert (k = 64%nat) by lia. subst k. cbn [length]. rewrite Nat.add_0_r. destruct fuel; reflexivity.
    + destruct fuel as [|f]; [lia|]. cbn [ref_ac]. destruct (Nat.ltb_spec k 64); [|lia].
      inversion Hs; subst. rewrite (ref_sym_code _ _ _ _ _ Hc H2 Hst). reflexivity.
  - inversion Hcat as [|? ? Hv Hcat']; subst.
    destruct (Z.eqb_spec v 0) as [->|Hz].
    + rewrite (IH fuel p k (Datatypes.S r)); auto; [|lia]. now replace (k + Datatypes.S r)%nat with (Datatypes.S (k + r)) by lia.
    + apply Forall_app in Hs. destruct Hs as [Hz1 Hs]. pose proof (Forall_inv Hs) as Hsym; pose proof (Forall_inv_tail Hs) as Hs'.
      pose proof (Nat.div_mod r 16 ltac:(lia)) as Hdm. pose proof (Nat.mod_upper_bound r 16 ltac:(lia)) as Hmb.
      assert (Hcv : (1 <= category v)%nat). { destruct (category v) eqn:E; [|lia]. apply category_0 in E. congruence. }
      replace fuel with (r / 16 + (fuel - r / 16))%nat by lia.
      assert (Ez : ref_ac (r / 16 + (fuel - r / 16)) bits vals S p k =
        ref_ac (fuel - r / 16) bits vals S (p + length (flat_map (fun _ => table_code bits vals 240) (seq 0 (r / 16)))) (k + 16 * (r / 16))).
      { destruct (r / 16)%nat as [|q] eqn:Eq; [cbn; rewrite !Nat.add_0_r; reflexivity|].
        cbn [repeat] in Hz1. inversion Hz1; subst.
        eapply zrl_steps; eauto. lia. }
      rewrite Ez. destruct (starts_app _ _ _ _ Hst) as [_ H2]. rewrite app_length.
      set (p1 := (p + length (flat_map _ _))%nat) in *. replace (fuel - r / 16)%nat with (Datatypes.S (fuel - r / 16 - 1)) by lia.
      cbn [ref_ac]. destruct (Nat.ltb_spec (k + 16 * (r / 16)) 64); [|lia].
      destruct (starts_app _ _ _ _ H2) as [H3 H4]. rewrite (ref_sym_code _ _ _ _ _ Hc Hsym H3).
      replace ((16 * Z.of_nat (r mod 16) + Z.of_nat (category v)) / 16) with (Z.of_nat (r mod 16)).
      2:{ rewrite (Z.mul_comm 16), Z.div_add_l by lia. rewrite Z.div_small by lia. lia. }
      replace ((16 * Z.of_nat (r mod 16) + Z.of_nat (category v)) mod 16) with (Z.of_nat (category v)).
      2:{ rewrite (Z.mul_comm 16), Z.add_comm, Z.mod_add by lia. rewrite Z.mod_small by lia. lia. }
      rewrite !Nat2Z.id. destruct (Nat.eqb_spec (category v) 0); [lia|].
      destruct (starts_app _ _ _ _ H4) as [H5 H6]. unfold starts in H5. rewrite length_extra in H5. rewrite H5.
      rewrite extend_extra by auto. rewrite length_extra in H6.
      rewrite (IH _ _ _ 0%nat) with (3 := Hcat'); auto; [|lia|lia].
      rewrite !app_length, length_extra.
      replace (k + 16 * (r / 16) + r mod 16)%nat with (k + r)%nat by lia.
      replace (k + r + 1 + 0)%nat with (Datatypes.S (k + r)) by lia. cbn [andb]. f_equal. f_equal. unfold p1. lia.
Qed.
