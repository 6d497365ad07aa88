(* P_HuffTbl.v -- proofs about Huffman table derivation *)
From Verif Require Import Base M_HuffTbl S_Huff.
From Coq Require Import Sorting.Sorted.

(* ---------- canonical code facts (specification level) ---------- *)

Lemma kraft_app a b : kraft (a ++ b) = kraft a + kraft b.
Proof. induction a; cbn [kraft app]; lia. Qed.

Lemma pow16_nonneg s : 0 <= 2 ^ (16 - Z.of_nat s).
Proof. apply Z.pow_nonneg; lia. Qed.

Lemma kraft_nonneg a : 0 <= kraft a.
Proof. induction a as [|s a IH]; cbn [kraft]; [lia|]. pose proof (pow16_nonneg s); lia. Qed.

Lemma kraft_repeat s n : kraft (repeat s n) = Z.of_nat n * 2 ^ (16 - Z.of_nat s).
Proof. induction n as [|n IH]; [cbn; lia|]. cbn [repeat kraft]. rewrite IH. lia. Qed.

Lemma kraft_firstn_le a k : kraft (firstn k a) <= kraft a.
Proof. rewrite <- (firstn_skipn k a) at 2. rewrite kraft_app.
  pose proof (kraft_nonneg (skipn k a)). lia. Qed.

Definition sizes_ok (sz : list nat) : Prop :=
  StronglySorted le sz /\ Forall (fun s => 1 <= s <= 16)%nat sz.

Lemma code_sizes_gen bits l n :
  StronglySorted le (flat_map (fun l => repeat l (ncodes bits l)) (seq l n)) /\
  Forall (fun s => l <= s < l + n)%nat (flat_map (fun l => repeat l (ncodes bits l)) (seq l n)).
Proof.
  revert l; induction n as [|n IH]; intros l; cbn [seq flat_map].
  - split; constructor.
  - destruct (IH (S l)) as [Hs Hf].
    assert (HF : Forall (fun s => l <= s < l + S n)%nat
               (flat_map (fun l0 => repeat l0 (ncodes bits l0)) (seq (S l) n))).
    { eapply Forall_impl; [|exact Hf]. cbn; intros; lia. }
    split.
    + induction (ncodes bits l) as [|m IHm]; cbn [repeat app]; auto.
      constructor; auto. apply Forall_app; split.
      * apply Forall_forall. intros x Hx. apply repeat_spec in Hx. lia.
      * eapply Forall_impl; [|exact Hf]. cbn; intros; lia.
    + apply Forall_app; split; auto. apply Forall_forall. intros x Hx.
      apply repeat_spec in Hx. lia.
Qed.

Lemma code_sizes_ok bits : sizes_ok (code_sizes bits).
Proof.
  destruct (code_sizes_gen bits 1 16) as [H1 H2]. split; [exact H1|].
  eapply Forall_impl; [|exact H2]. cbn; intros; lia.
Qed.

Lemma sorted_app_le (a b : list nat) x y :
  StronglySorted le (a ++ b) -> In x a -> In y b -> (x <= y)%nat.
Proof.
  induction a as [|h a IH]; cbn; [tauto|]. intros Hs Hx Hy.
  inversion Hs as [|? ? Hs' Hf]; subst. destruct Hx as [->|Hx].
  - rewrite Forall_forall in Hf. apply Hf. apply in_or_app; auto.
  - apply IH; auto.
Qed.

Lemma sorted_app_r (a b : list nat) : StronglySorted le (a ++ b) -> StronglySorted le b.
Proof. induction a; cbn; auto. intros H; inversion H; auto. Qed.

Lemma firstn_S_nth {A} (l : list A) k d :
  (k < length l)%nat -> firstn (S k) l = firstn k l ++ [nth k l d].
Proof. revert k; induction l as [|x l IH]; intros [|k] H; cbn in *; try lia; auto.
  f_equal. apply IH. lia. Qed.

Lemma sizes_split sz k :
  (k < length sz)%nat -> sz = firstn k sz ++ nth k sz 0%nat :: skipn (S k) sz.
Proof.
  intros H. rewrite <- (firstn_skipn (S k) sz) at 1. rewrite (firstn_S_nth sz k 0%nat) by auto.
  now rewrite <- app_assoc.
Qed.

Lemma sizes_nth sz k : sizes_ok sz -> (k < length sz)%nat -> (1 <= nth k sz 0%nat <= 16)%nat.
Proof. intros [_ H] Hk. rewrite Forall_forall in H. apply H. apply nth_In; auto. Qed.

(* every code of size s divides later-started space *)
Lemma kraft_div sz k :
  sizes_ok sz -> (k < length sz)%nat ->
  code_value sz k * 2 ^ (16 - Z.of_nat (nth k sz 0%nat)) = kraft (firstn k sz).
Proof.
  intros Hok Hk. pose proof (sizes_nth sz k Hok Hk) as Hr. destruct Hok as [Hs Hf].
  unfold code_value. set (s := nth k sz 0%nat) in *.
  assert (Hall : Forall (fun x => (1 <= x <= s)%nat) (firstn k sz)).
  { apply Forall_forall. intros x Hx. split.
    - rewrite Forall_forall in Hf. apply Hf.
      rewrite <- (firstn_skipn k sz). apply in_or_app; auto.
    - rewrite (sizes_split sz k Hk) in Hs.
      eapply sorted_app_le; [exact Hs| |left; reflexivity].
      auto. }
  assert (Hd : (2 ^ (16 - Z.of_nat s) | kraft (firstn k sz))).
  { clear -Hall Hr. induction Hall as [|x l Hx _ IH]; cbn [kraft].
    - apply Z.divide_0_r.
    - apply Z.divide_add_r; auto.
      exists (2 ^ (Z.of_nat s - Z.of_nat x)). rewrite <- Z.pow_add_r by lia. f_equal; lia. }
  rewrite Z.mul_comm. symmetry. apply Z_div_exact_full_2.
  - apply Z.pow_nonzero; lia.
  - apply Z.mod_divide; auto. apply Z.pow_nonzero; lia.
Qed.

Lemma kraft_next sz k :
  (k < length sz)%nat ->
  kraft (firstn (S k) sz) = kraft (firstn k sz) + 2 ^ (16 - Z.of_nat (nth k sz 0%nat)).
Proof. intros Hk. rewrite (firstn_S_nth sz k 0%nat), kraft_app by auto. cbn [kraft]. lia. Qed.

Lemma kraft_mono sz i j : (i <= j)%nat -> kraft (firstn i sz) <= kraft (firstn j sz).
Proof.
  intros H. replace i with (min i j) by lia. rewrite <- firstn_firstn. apply kraft_firstn_le.
Qed.

Lemma pow16_pos s : (s <= 16)%nat -> 0 < 2 ^ (16 - Z.of_nat s).
Proof. intros; apply Z.pow_pos_nonneg; lia. Qed.

Lemma pow_split s : (s <= 16)%nat -> 2 ^ Z.of_nat s * 2 ^ (16 - Z.of_nat s) = 2 ^ 16.
Proof. intros. rewrite <- Z.pow_add_r by lia. f_equal; lia. Qed.

(* code value bound: no all-ones code *)
Lemma code_value_bound sz k :
  sizes_ok sz -> kraft sz < 2 ^ 16 -> (k < length sz)%nat ->
  0 <= code_value sz k < 2 ^ Z.of_nat (nth k sz 0%nat) - 1.
Proof.
  intros Hok HK Hk.
  pose proof (kraft_div sz k Hok Hk) as Hd. pose proof (kraft_next sz k Hk) as Hn.
  pose proof (kraft_firstn_le sz (S k)) as Hle.
  pose proof (sizes_nth sz k Hok Hk) as Hr.
  pose proof (kraft_nonneg (firstn k sz)) as H0.
  set (s := nth k sz 0%nat) in *. set (c := code_value sz k) in *.
  pose proof (pow16_pos s ltac:(lia)) as Hp. pose proof (pow_split s ltac:(lia)) as Hsp.
  set (q := 2 ^ (16 - Z.of_nat s)) in *. set (m := 2 ^ Z.of_nat s) in *.
  rewrite <- Hsp in HK. nia.
Qed.

(* ---------- make_huffsize ---------- *)

Lemma huff_type_ok_inv t : huff_type_ok t = true ->
  length (hbits t) = 17%nat /\ (forall i, 0 <= nth i (hbits t) 0 < 256) /\
  length (hval t) = 256%nat /\ (forall i, (i < 256)%nat -> 0 <= nth i (hval t) (-1) < 256).
Proof.
  unfold huff_type_ok. rewrite !andb_true_iff, !Nat.eqb_eq. intros [[[H1 H2] H3] H4].
  rewrite forallb_forall in H2, H4. unfold byte_ok in *. repeat split; auto.
  - destruct (Nat.lt_ge_cases i (length (hbits t))).
    + specialize (H2 (nth i (hbits t) 0) (nth_In _ _ H)). lia.
    + rewrite nth_overflow by lia. lia.
  - destruct (Nat.lt_ge_cases i (length (hbits t))).
    + specialize (H2 (nth i (hbits t) 0) (nth_In _ _ H)). lia.
    + rewrite nth_overflow by lia. lia.
  - assert (i < length (hval t))%nat by lia.
    specialize (H4 (nth i (hval t) (-1)) (nth_In _ _ H0)). lia.
  - assert (i < length (hval t))%nat by lia.
    specialize (H4 (nth i (hval t) (-1)) (nth_In _ _ H0)). lia.
Qed.

Lemma huffsize_loop bits n l hs :
  length bits = 17%nat -> (forall i, 0 <= nth i bits 0 < 256) -> (l + n <= 17)%nat ->
  (length hs <= 256)%nat ->
  let fm := flat_map (fun l => repeat l (ncodes bits l)) (seq l n) in
  for_loop n (Z.of_nat l) (size_step bits) hs =
  if (length hs + length fm <=? 256)%nat then Ret (hs ++ map Z.of_nat fm)
  else Error JERR_BAD_HUFF_TABLE.
Proof.
  intros Hl Hb. revert l hs. induction n as [|n IH]; intros l hs Hln Hhs; cbn [for_loop seq flat_map].
  - cbn [length map]. rewrite app_nil_r. destruct (Nat.leb_spec (length hs + 0) 256); [reflexivity|lia].
  - unfold size_step at 1. rewrite (aget_nth bits _ 0) by lia. cbn [bind].
    rewrite Nat2Z.id. pose proof (Hb l) as Hbl.
    destruct (Z.ltb_spec (nth l bits 0) 0); [lia|].
    destruct (Z.ltb_spec 256 (Z.of_nat (length hs) + nth l bits 0)) as [Hg|Hg]; cbn [orb bind].
    + rewrite app_length, repeat_length. unfold ncodes at 1.
      destruct (Nat.leb_spec (length hs + (Z.to_nat (nth l bits 0) +
         length (flat_map (fun l0 => repeat l0 (ncodes bits l0)) (seq (S l) n)))) 256); [lia|reflexivity].
    + replace (Z.of_nat l + 1) with (Z.of_nat (S l)) by lia.
      rewrite IH by (rewrite ?app_length, ?repeat_length; lia).
      rewrite !app_length, !repeat_length. unfold ncodes at 2.
      rewrite Nat.add_assoc.
      replace (map Z.of_nat (repeat l (ncodes bits l) ++ flat_map (fun l0 => repeat l0 (ncodes bits l0)) (seq (S l) n)))
        with (repeat (Z.of_nat l) (Z.to_nat (nth l bits 0)) ++ map Z.of_nat (flat_map (fun l0 => repeat l0 (ncodes bits l0)) (seq (S l) n))).
      * rewrite app_assoc. reflexivity.
      * rewrite map_app, map_repeat. reflexivity.
Qed.

Lemma make_huffsize_spec bits :
  length bits = 17%nat -> (forall i, 0 <= nth i bits 0 < 256) ->
  make_huffsize bits =
  if (length (code_sizes bits) <=? 256)%nat then Ret (map Z.of_nat (code_sizes bits))
  else Error JERR_BAD_HUFF_TABLE.
Proof.
  intros H1 H2. unfold make_huffsize. change 1 with (Z.of_nat 1).
  rewrite huffsize_loop by (auto; cbn; lia). reflexivity.
Qed.

(* ---------- make_huffcode ---------- *)

Lemma code_run_spec (si : nat) run rest code :
  Forall (fun s => s = si) run -> Forall (fun s => si < s)%nat rest ->
  0 <= code -> code + Z.of_nat (length run) < 2 ^ 32 ->
  code_run (map Z.of_nat (run ++ rest)) (Z.of_nat si) code =
  (map Z.of_nat rest, code + Z.of_nat (length run),
   map (fun j => code + Z.of_nat j) (seq 0 (length run))).
Proof.
  intros Hrun Hrest. revert code. induction Hrun as [|x run Hx Hrun IH]; intros code Hc Hb.
  - cbn [app length seq map]. destruct Hrest as [|y rest Hy Hrest]; cbn [map code_run].
    + f_equal. f_equal. lia.
    + destruct (Z.eqb_spec (Z.of_nat y) (Z.of_nat si)); [lia|]. f_equal; f_equal. lia.
  - subst x. cbn [app map code_run]. rewrite Z.eqb_refl. cbn [length] in Hb.
    rewrite u32_id by lia. rewrite IH by lia.
    cbn [length seq map]. rewrite <- seq_shift, map_map. f_equal; [f_equal; lia|].
    f_equal; [lia|]. apply map_ext. intros; lia.
Qed.

Lemma split_run (si : nat) l :
  StronglySorted le l -> Forall (fun s => si <= s)%nat l ->
  exists run rest, l = run ++ rest /\ Forall (fun s => s = si) run /\ Forall (fun s => si < s)%nat rest.
Proof.
  induction l as [|x l IH]; intros Hs Hf.
  - exists [], []. repeat constructor.
  - inversion Hs as [|? ? Hs' Hle]; subst. inversion Hf as [|? ? Hx Hf']; subst.
    destruct (Nat.eq_dec x si) as [->|Hne].
    + destruct (IH Hs' Hf') as (run & rest & -> & H1 & H2).
      exists (si :: run), rest. repeat split; auto.
    + exists [], (x :: l). repeat split; auto. constructor; [lia|].
      eapply Forall_impl; [|exact Hle]. cbn; intros; lia.
Qed.

Lemma Forall_eq_repeat {A} (a : A) l : Forall (fun s => s = a) l -> l = repeat a (length l).
Proof. induction 1; cbn; congruence. Qed.

Lemma gen_codes_spec fuel : forall rest done si code,
  (1 <= si <= 17)%nat -> (17 - si < fuel)%nat ->
  StronglySorted le rest -> Forall (fun s => si <= s <= 16)%nat rest ->
  (length (done ++ rest) <= 256)%nat ->
  0 <= code < 2 ^ Z.of_nat si -> kraft done * 2 = code * 2 ^ (17 - Z.of_nat si) ->
  gen_codes fuel (map Z.of_nat rest) (Z.of_nat si) code =
  if kraft (done ++ rest) <? 2 ^ 16
  then Ret (map (code_value (done ++ rest)) (seq (length done) (length rest)))
  else Error JERR_BAD_HUFF_TABLE.
Proof.
  induction fuel as [|fuel IH]; intros rest done si code Hsi Hfuel Hs Hf Hlen Hc Hk; [lia|].
  assert (Hpow : 2 ^ Z.of_nat si * 2 ^ (17 - Z.of_nat si) = 2 ^ 17).
  { rewrite <- Z.pow_add_r by lia. f_equal; lia. }
  assert (Hpp : 0 < 2 ^ (17 - Z.of_nat si)) by (apply Z.pow_pos_nonneg; lia).
  destruct rest as [|r0 rest0] eqn:Erest.
  - cbn [map gen_codes length seq]. rewrite app_nil_r.
    destruct (Z.ltb_spec (kraft done) (2 ^ 16)); [reflexivity|]. nia.
  - rewrite <- Erest in *. clear Erest.
    assert (Hne : rest <> [] -> map Z.of_nat rest <> []) by (destruct rest; cbn; congruence).
    destruct (split_run si rest Hs) as (run & rest' & -> & Hrun & Hrest).
    { eapply Forall_impl; [|exact Hf]; cbn; intros; lia. }
    (* si <= 16 unless everything empty *)
    destruct (Nat.eq_dec si 17) as [E17|N17].
    { assert (run = []) as ->.
      { destruct run; auto. inversion Hf; subst; lia. }
      assert (rest' = []) as ->.
      { destruct rest'; auto. inversion Hf; subst; lia. }
      cbn [app map gen_codes length seq]. rewrite app_nil_r.
      destruct (Z.ltb_spec (kraft done) (2 ^ 16)); [reflexivity|]. nia. }
    destruct (list_eq_dec Nat.eq_dec (run ++ rest') []) as [Enil|Nnil].
    { rewrite Enil. cbn [map gen_codes length seq]. rewrite app_nil_r.
      destruct (Z.ltb_spec (kraft done) (2 ^ 16)); [reflexivity|]. nia. }
    specialize (Hne Nnil).
    assert (Hunf : gen_codes (S fuel) (map Z.of_nat (run ++ rest')) (Z.of_nat si) code =
      let '(hs', code', cs) := code_run (map Z.of_nat (run ++ rest')) (Z.of_nat si) code in
      if Z.shiftl 1 (Z.of_nat si) <=? code' then Error JERR_BAD_HUFF_TABLE
      else rest <- gen_codes fuel hs' (Z.of_nat si + 1) (u32 (Z.shiftl code' 1)) ;; Ret (cs ++ rest)).
    { destruct (map Z.of_nat (run ++ rest')); [congruence|reflexivity]. }
    rewrite Hunf; clear Hunf.
    rewrite app_length in Hlen. rewrite app_length in Hlen.
    assert (H2 : 2 ^ Z.of_nat si <= 2 ^ 16) by (apply Z.pow_le_mono_r; lia).
    rewrite code_run_spec; auto; [|lia|lia].
    rewrite Z.shiftl_1_l.
    assert (Hpow1 : 2 ^ (17 - Z.of_nat si) = 2 * 2 ^ (16 - Z.of_nat si)).
    { rewrite <- Z.pow_succ_r by lia. f_equal; lia. }
    assert (Hp16 : 0 < 2 ^ (16 - Z.of_nat si)) by (apply Z.pow_pos_nonneg; lia).
    assert (Hkd : kraft done = code * 2 ^ (16 - Z.of_nat si)) by nia.
    assert (Hkr : kraft (done ++ run) = (code + Z.of_nat (length run)) * 2 ^ (16 - Z.of_nat si)).
    { rewrite kraft_app, (Forall_eq_repeat _ _ Hrun), kraft_repeat, repeat_length. lia. }
    rewrite app_assoc.
    destruct (Z.leb_spec (2 ^ Z.of_nat si) (code + Z.of_nat (length run))) as [Hbad|Hgood].
    + destruct (Z.ltb_spec (kraft ((done ++ run) ++ rest')) (2 ^ 16)); [|reflexivity].
      rewrite kraft_app in H. pose proof (kraft_nonneg rest').
      assert (2 ^ Z.of_nat si * 2 ^ (16 - Z.of_nat si) = 2 ^ 16) by (apply pow_split; lia). nia.
    + rewrite Z.shiftl_mul_pow2, Z.pow_1_r by lia. rewrite u32_id by lia.
      replace (Z.of_nat si + 1) with (Z.of_nat (S si)) by lia.
      rewrite (IH rest' (done ++ run) (S si)).
      * destruct (Z.ltb_spec (kraft ((done ++ run) ++ rest')) (2 ^ 16)) as [HK|HK]; [|reflexivity].
        cbn [bind]. f_equal.
        rewrite (app_length run rest'), seq_app, map_app. f_equal.
        -- (* codes of this run *)
           apply nth_ext with (d := 0) (d' := code_value ((done ++ run) ++ rest') 0).
           { now rewrite !map_length, !seq_length. }
           intros j Hj. rewrite map_length, seq_length in Hj.
           rewrite (nth_indep _ 0 (code + Z.of_nat 0)) by (rewrite map_length, seq_length; lia).
           rewrite (map_nth (fun j => code + Z.of_nat j)), seq_nth by lia.
           rewrite map_nth, seq_nth by lia.
           unfold code_value. rewrite <- app_assoc.
           rewrite firstn_app_2. rewrite app_nth2_plus.
           rewrite (app_nth1 run rest') by lia.
           assert (Hnth : nth j run 0%nat = si).
           { rewrite (Forall_eq_repeat _ _ Hrun). apply nth_repeat_lt. lia. }
           rewrite Hnth. rewrite kraft_app.
           replace (firstn j (run ++ rest')) with (repeat si j).
           2:{ rewrite (Forall_eq_repeat _ _ Hrun). rewrite firstn_app, repeat_length.
               replace (j - length run)%nat with 0%nat by lia. cbn [firstn]. rewrite app_nil_r.
               rewrite firstn_repeat by lia. reflexivity. }
           rewrite kraft_repeat, Hkd.
           replace (code * 2 ^ (16 - Z.of_nat si) + Z.of_nat j * 2 ^ (16 - Z.of_nat si))
             with ((code + Z.of_nat j) * 2 ^ (16 - Z.of_nat si)) by ring.
           rewrite Z.div_mul by lia. lia.
        -- f_equal. rewrite app_length. reflexivity.
      * lia.
      * lia.
      * apply (sorted_app_r run). exact Hs.
      * apply Forall_app in Hf. destruct Hf as [_ Hf]. rewrite Forall_forall in *.
        intros x Hx. specialize (Hf x Hx). specialize (Hrest x Hx). lia.
      * rewrite !app_length. lia.
      * rewrite Nat2Z.inj_succ, Z.pow_succ_r by lia. lia.
      * rewrite Hkr. rewrite Nat2Z.inj_succ.
        replace (17 - Z.succ (Z.of_nat si)) with (16 - Z.of_nat si) by lia. ring.
Qed.

Lemma make_huffcode_spec sz :
  sizes_ok sz -> (length sz <= 256)%nat ->
  make_huffcode (map Z.of_nat sz) =
  if kraft sz <? 2 ^ 16 then Ret (map (code_value sz) (seq 0 (length sz)))
  else Error JERR_BAD_HUFF_TABLE.
Proof.
  intros [Hs Hf] Hl. unfold make_huffcode. destruct sz as [|s0 sz'].
  - reflexivity.
  - inversion Hf as [|? ? H0 Hf']; subst. inversion Hs as [|? ? Hs' Hle]; subst.
    change (hd 0 (map Z.of_nat (s0 :: sz'))) with (Z.of_nat s0).
    rewrite (gen_codes_spec 32 (s0 :: sz') [] s0 0); auto; try lia.
    + constructor; [lia|]. rewrite Forall_forall in *. intros x Hx.
      specialize (Hle x Hx). specialize (Hf' x Hx). lia.
Qed.

(* ---------- code words ---------- *)

Lemma code_word_length sz k : length (code_word sz k) = nth k sz 0%nat.
Proof. apply length_bits_of. Qed.

Lemma code_word_val sz k :
  sizes_ok sz -> kraft sz < 2 ^ 16 -> (k < length sz)%nat ->
  bval (code_word sz k) = code_value sz k.
Proof.
  intros H1 H2 H3. unfold code_word. rewrite bval_bits_of.
  pose proof (code_value_bound sz k H1 H2 H3). apply Z.mod_small. lia.
Qed.

Lemma all_ones_val n : bval (repeat true n) = 2 ^ Z.of_nat n - 1.
Proof.
  induction n as [|n IH]; [reflexivity|]. cbn [repeat bval]. rewrite IH, repeat_length.
  rewrite Nat2Z.inj_succ, Z.pow_succ_r by lia. cbn [Z.b2z]. lia.
Qed.

Lemma code_word_not_ones sz k :
  sizes_ok sz -> kraft sz < 2 ^ 16 -> (k < length sz)%nat ->
  code_word sz k <> repeat true (length (code_word sz k)).
Proof.
  intros H1 H2 H3 E. apply (f_equal bval) in E.
  rewrite code_word_val, all_ones_val, code_word_length in E by auto.
  pose proof (code_value_bound sz k H1 H2 H3). lia.
Qed.

(* 16-bit window whose leading bits are w ++ rest lies in the interval of w *)
Lemma prefix_interval (w v : list bool) :
  (length w <= 16)%nat -> length v = 16%nat -> prefix w v ->
  bval w * 2 ^ (16 - Z.of_nat (length w)) <= bval v
    < (bval w + 1) * 2 ^ (16 - Z.of_nat (length w)).
Proof.
  intros Hl Hv [c ->]. rewrite bval_app. rewrite app_length in Hv.
  replace (16 - Z.of_nat (length w)) with (Z.of_nat (length c)) by lia.
  pose proof (bval_range c). nia.
Qed.

Lemma sym_interval sz k v :
  sizes_ok sz -> kraft sz < 2 ^ 16 -> (k < length sz)%nat ->
  length v = 16%nat -> prefix (code_word sz k) v ->
  kraft (firstn k sz) <= bval v < kraft (firstn (S k) sz).
Proof.
  intros H1 H2 H3 Hv Hp.
  pose proof (sizes_nth sz k H1 H3) as Hr.
  assert (Hl16 : (length (code_word sz k) <= 16)%nat) by (rewrite code_word_length; lia).
  pose proof (prefix_interval _ _ Hl16 Hv Hp) as Hi.
  rewrite code_word_val, code_word_length in Hi by auto.
  rewrite kraft_next by auto. rewrite <- (kraft_div sz k H1 H3). lia.
Qed.

Lemma interval_prefix (w v : list bool) :
  (length w <= 16)%nat -> length v = 16%nat ->
  bval w * 2 ^ (16 - Z.of_nat (length w)) <= bval v
    < (bval w + 1) * 2 ^ (16 - Z.of_nat (length w)) ->
  prefix w v.
Proof.
  intros Hl Hv Hi. exists (skipn (length w) v).
  assert (E : w = firstn (length w) v).
  { apply bval_inj; [rewrite firstn_length; lia|].
    assert (Ev : bval v = bval (firstn (length w) v) * 2 ^ (16 - Z.of_nat (length w))
                          + bval (skipn (length w) v)).
    { rewrite <- (firstn_skipn (length w) v) at 1. rewrite bval_app, skipn_length, Hv.
      replace (Z.of_nat (16 - length w)) with (16 - Z.of_nat (length w)) by lia. reflexivity. }
    pose proof (bval_range (skipn (length w) v)) as R. rewrite skipn_length, Hv in R.
    replace (Z.of_nat (16 - length w)) with (16 - Z.of_nat (length w)) in R by lia.
    set (p := 2 ^ (16 - Z.of_nat (length w))) in *.
    assert (0 < p) by (apply Z.pow_pos_nonneg; lia). nia. }
  rewrite E at 1. symmetry. apply firstn_skipn.
Qed.

Lemma code_words_prefix_free sz i j :
  sizes_ok sz -> kraft sz < 2 ^ 16 -> (i < length sz)%nat -> (j < length sz)%nat ->
  prefix (code_word sz i) (code_word sz j) -> i = j.
Proof.
  intros H1 H2 Hi Hj [c Hc].
  pose proof (sizes_nth sz j H1 Hj) as Hr.
  set (v := code_word sz j ++ repeat false (16 - nth j sz 0%nat)).
  assert (Hv : length v = 16%nat).
  { unfold v. rewrite app_length, repeat_length, code_word_length. lia. }
  assert (Pj : prefix (code_word sz j) v) by (eexists; reflexivity).
  assert (Pi : prefix (code_word sz i) v).
  { exists (c ++ repeat false (16 - nth j sz 0%nat)). unfold v. now rewrite Hc, app_assoc. }
  pose proof (sym_interval sz i v H1 H2 Hi Hv Pi).
  pose proof (sym_interval sz j v H1 H2 Hj Hv Pj).
  destruct (Nat.lt_trichotomy i j) as [L|[E|L]]; auto; exfalso.
  - pose proof (kraft_mono sz (S i) j ltac:(lia)). lia.
  - pose proof (kraft_mono sz (S j) i ltac:(lia)). lia.
Qed.

(* ---------- encoder table ---------- *)


Definition c_inv (sz : list nat) (vals : list Z) (p : nat) (d : c_derived_tbl) : Prop :=
  length (ehufco d) = 256%nat /\ length (ehufsi d) = 256%nat /\
  (forall k, (k < p)%nat ->
     nth (Z.to_nat (nth k vals (-1))) (ehufsi d) 0 = Z.of_nat (nth k sz 0%nat) /\
     nth (Z.to_nat (nth k vals (-1))) (ehufco d) 0 = code_value sz k) /\
  (forall s, 0 <= s < 256 -> ~ In s (firstn p vals) ->
     nth (Z.to_nat s) (ehufsi d) 0 = 0 /\ nth (Z.to_nat s) (ehufco d) 0 = 0).

Lemma In_firstn_nth (l : list Z) p s :
  (p <= length l)%nat -> In s (firstn p l) -> exists k, (k < p)%nat /\ nth k l (-1) = s.
Proof.
  intros Hp Hin. apply (In_nth _ _ (-1)) in Hin. destruct Hin as (k & Hk & E).
  rewrite firstn_length in Hk. exists k. split; [lia|].
  rewrite <- E. symmetry. rewrite <- (firstn_skipn p l) at 2.
  rewrite app_nth1; [reflexivity|rewrite firstn_length; lia].
Qed.

Lemma nth_firstn_In (l : list Z) p k d :
  (p <= length l)%nat -> (k < p)%nat -> In (nth k l d) (firstn p l).
Proof.
  intros Hp Hk. rewrite <- (firstn_skipn p l) at 1.
  rewrite app_nth1 by (rewrite firstn_length; lia). apply nth_In. rewrite firstn_length; lia.
Qed.

Lemma c_fill_loop sz vals maxsym : 
  sizes_ok sz -> (length sz <= 256)%nat -> length vals = 256%nat ->
  (forall i, (i < 256)%nat -> 0 <= nth i vals (-1) < 256) -> maxsym <= 255 ->
  forall m p d, (p + m = length sz)%nat -> c_inv sz vals p d ->
  symbols_ok maxsym (firstn p vals) ->
  forall r, for_loop m (Z.of_nat p)
     (c_fill_step vals (map Z.of_nat sz) (map (code_value sz) (seq 0 (length sz))) maxsym) d = r ->
  (symbols_ok maxsym (firstn (length sz) vals) /\ exists d', r = Ret d' /\ c_inv sz vals (length sz) d')
  \/ (~ symbols_ok maxsym (firstn (length sz) vals) /\ r = Error JERR_BAD_HUFF_TABLE).
Proof.
  intros Hok Hl Hv Hvr Hmx. induction m as [|m IH]; intros p d Hpm Hinv Hsy r Hr; cbn [for_loop] in Hr.
  - replace (length sz) with p by lia. left. split; auto. exists d. auto.
  - set (v := nth p vals (-1)).
    assert (Hvp : 0 <= v < 256) by (apply Hvr; lia).
    destruct Hinv as (Hc1 & Hc2 & Hc3 & Hc4).
    assert (Hf : firstn (S p) vals = firstn p vals ++ [v]) by (apply firstn_S_nth; lia).
    assert (Hin : In v (firstn (length sz) vals)).
    { apply nth_firstn_In; lia. }
    unfold c_fill_step at 1 in Hr.
    rewrite (aget_nth vals _ (-1)) in Hr by lia. rewrite Nat2Z.id in Hr. cbn [bind] in Hr. fold v in Hr.
    destruct (Z.ltb_spec v 0); [lia|]. destruct (Z.ltb_spec maxsym v) as [Hbig|Hbig]; cbn [orb] in Hr.
    { right. split; [|subst r; reflexivity]. intros [_ Hall]. rewrite Forall_forall in Hall.
      specialize (Hall v Hin). lia. }
    rewrite (aget_nth (ehufsi d) _ 0) in Hr by lia. cbn [bind] in Hr.
    destruct (Z.eqb_spec (nth (Z.to_nat v) (ehufsi d) 0) 0) as [Ez|Ez]; cbn [negb] in Hr.
    2:{ right. split; [|subst r; reflexivity]. intros [Hnd _].
        destruct (in_dec Z.eq_dec v (firstn p vals)) as [Hi|Hi].
        - assert (Hnd' : NoDup (firstn (S p) vals)).
          { replace (firstn (S p) vals) with (firstn (S p) (firstn (length sz) vals)) by
              (rewrite firstn_firstn; f_equal; lia).
            rewrite <- (firstn_skipn (S p) (firstn (length sz) vals)) in Hnd.
            eapply NoDup_app_l; eauto. }
          rewrite Hf in Hnd'. apply NoDup_remove_2 in Hnd'. rewrite app_nil_r in Hnd'. auto.
        - apply Ez. apply Hc4; auto. }
    assert (Hnin : ~ In v (firstn p vals)).
    { intros Hi. destruct (In_firstn_nth vals p v ltac:(lia) Hi) as (k & Hk & E).
      destruct (Hc3 k Hk) as [Hsi _]. rewrite E in Hsi. rewrite Hsi in Ez.
      pose proof (sizes_nth sz k Hok ltac:(lia)). lia. }
    rewrite (aget_nth _ _ (code_value sz 0)) in Hr by (rewrite map_length, seq_length; lia).
    rewrite map_nth, Nat2Z.id, seq_nth in Hr by lia. cbn [bind] in Hr.
    rewrite (aget_nth _ _ (Z.of_nat 0)) in Hr by (rewrite map_length; lia).
    rewrite map_nth, Nat2Z.id in Hr. cbn [bind] in Hr.
    rewrite !aset_ok in Hr by lia. cbn [bind] in Hr.
    replace (Z.of_nat p + 1) with (Z.of_nat (S p)) in Hr by lia.
    refine (IH _ _ _ _ _ r Hr); [lia| |].
    + repeat split; cbn [ehufco ehufsi]; rewrite ?length_upd; auto.
      * destruct (Nat.eq_dec k p) as [->|Hne].
        -- fold v. rewrite nth_upd_eq by lia. reflexivity.
        -- rewrite nth_upd_neq; [apply Hc3; lia|].
           intros E. apply Hnin. replace v with (nth k vals (-1)); [apply nth_firstn_In; lia|].
           pose proof (Hvr k ltac:(lia)). lia.
      * destruct (Nat.eq_dec k p) as [->|Hne].
        -- fold v. rewrite nth_upd_eq by lia. reflexivity.
        -- rewrite nth_upd_neq; [apply Hc3; lia|].
           intros E. apply Hnin. replace v with (nth k vals (-1)); [apply nth_firstn_In; lia|].
           pose proof (Hvr k ltac:(lia)). lia.
      * rewrite Hf, in_app_iff in H1. rewrite nth_upd_neq; [apply Hc4; auto|].
        intros E. apply H1. right. left. lia.
      * rewrite Hf, in_app_iff in H1. rewrite nth_upd_neq; [apply Hc4; auto|].
        intros E. apply H1. right. left. lia.
    + destruct Hsy as [Hnd Hall]. rewrite Hf. split.
      * apply NoDup_snoc; auto.
      * apply Forall_app; split; auto.
Qed.


Lemma c_derived_spec lossless isDC t :
  huff_type_ok t = true ->
  let sz := code_sizes (hbits t) in
  let ok := code_space_ok (hbits t) /\
            symbols_ok (max_symbol lossless isDC) (firstn (length sz) (hval t)) in
  (ok /\ exists d, jpeg_make_c_derived_tbl lossless isDC (Some t) = Ret d /\
                   c_inv sz (hval t) (length sz) d)
  \/ (~ ok /\ jpeg_make_c_derived_tbl lossless isDC (Some t) = Error JERR_BAD_HUFF_TABLE).
Proof.
  intros Ht sz ok. destruct (huff_type_ok_inv t Ht) as (Hb1 & Hb2 & Hv1 & Hv2).
  pose proof (code_sizes_ok (hbits t)) as Hok. fold sz in Hok.
  unfold jpeg_make_c_derived_tbl. rewrite make_huffsize_spec by auto. fold sz.
  destruct (Nat.leb_spec (length sz) 256) as [Hl|Hl]; cbn [bind].
  2:{ right. split; [|reflexivity]. intros [[H _] _]. fold sz in H. lia. }
  rewrite make_huffcode_spec by auto.
  destruct (Z.ltb_spec (kraft sz) (2 ^ 16)) as [HK|HK]; cbn [bind].
  2:{ right. split; [|reflexivity]. intros [[_ H] _]. fold sz in H. lia. }
  rewrite map_length. fold (max_symbol lossless isDC).
  change 0 with (Z.of_nat 0) at 1.
  edestruct (c_fill_loop sz (hval t) (max_symbol lossless isDC) Hok Hl Hv1 Hv2
              ltac:(unfold max_symbol; destruct isDC, lossless; lia)
              (length sz) 0%nat (mkCT (repeat 0 256) (repeat 0 256)))
    as [(H1 & d & H2 & H3)|(H1 & H2)]; [| | |reflexivity| |].
  - lia.
  - repeat split; cbn [ehufco ehufsi]; rewrite ?repeat_length; auto; try lia;
      apply nth_repeat.
  - split; constructor.
  - left. split; [split; [split|]; auto|]. exists d. split; [exact H2|exact H3].
  - right. split; [intros [_ H]; auto|]. exact H2.
Qed.
