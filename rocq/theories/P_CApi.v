From Verif Require Import Base M_CApi S_CApi.
Open Scope nat_scope.

Lemma rows_of_app : forall a b, rows_of (a ++ b) = rows_of a ++ rows_of b.
Proof. induction a as [|e a IH]; intros b; [reflexivity|]. destruct e; cbn; rewrite ?IH; reflexivity. Qed.
Lemma groups_of_app : forall a b, groups_of (a ++ b) = groups_of a ++ groups_of b.
Proof. induction a as [|e a IH]; intros b; [reflexivity|]. destruct e; cbn; rewrite ?IH; reflexivity. Qed.
Lemma imcus_of_app : forall a b, imcus_of (a ++ b) = imcus_of a + imcus_of b.
Proof. induction a as [|e a IH]; intros b; [reflexivity|]. destruct e; cbn; rewrite ?IH; reflexivity. Qed.
Lemma rows_of_conv : forall rs k, rows_of (conv_events k rs) = rs.
Proof. induction rs as [|r t IH]; intros k; [reflexivity|]. cbn. rewrite IH. reflexivity. Qed.
Lemma groups_of_conv : forall rs k, groups_of (conv_events k rs) = [].
Proof. induction rs as [|r t IH]; intros k; [reflexivity|]. cbn. apply IH. Qed.
Lemma imcus_of_conv : forall rs k, imcus_of (conv_events k rs) = 0.
Proof. induction rs as [|r t IH]; intros k; [reflexivity|]. cbn. apply IH. Qed.

Lemma store_length : forall rs buf k, length (store buf k rs) = length buf.
Proof.
  induction rs as [|r t IH]; intros buf k; [reflexivity|]. cbn [store]. rewrite IH.
  revert k. clear. induction buf as [|b bs IHb]; intros [|k]; cbn; [reflexivity..|]. rewrite IHb. reflexivity.
Qed.

Lemma nth_upd : forall (l : list row) k x j, k < length l ->
  nth j (upd l k x) [] = if j =? k then x else nth j l [].
Proof.
  induction l as [|b bs IHb]; intros k x j Hk; [cbn in Hk; lia|].
  destruct k as [|k], j as [|j]; cbn [upd nth Nat.eqb]; try reflexivity.
  apply IHb. cbn in Hk. lia.
Qed.

Lemma nth_store : forall rs buf k j, k + length rs <= length buf ->
  nth j (store buf k rs) [] = if (k <=? j) && (j <? k + length rs) then nth (j - k) rs [] else nth j buf [].
Proof.
  induction rs as [|r t IH]; intros buf k j Hk; cbn [store length] in *.
  - replace (j <? k + 0) with (negb (k <=? j)); [|destruct (Nat.leb_spec k j), (Nat.ltb_spec j (k + 0)); try lia; reflexivity].
    destruct (k <=? j); reflexivity.
  - assert (Hl : length (upd buf k r) = length buf) by (exact (store_length [r] buf k)).
    rewrite IH by (rewrite Hl; lia). rewrite nth_upd by lia.
    destruct (Nat.leb_spec (S k) j), (Nat.leb_spec k j), (Nat.ltb_spec j (S k + length t)),
       (Nat.ltb_spec j (k + S (length t))), (Nat.eqb_spec j k); cbn [andb]; try lia; try reflexivity.
    + replace (j - k) with (S (j - S k)) by lia. reflexivity.
    + subst j. rewrite Nat.sub_diag. reflexivity.
Qed.

Lemma firstn_nth_slice : forall (img input : list row) next i n,
  (forall j, i <= j < i + n -> nth j input [] = nth (next + j) img []) ->
  i + n <= length input -> next + i + n <= length img ->
  firstn n (skipn i input) = firstn n (skipn (next + i) img).
Proof.
  intros img input next i n Hn H1 H2.
  apply nth_ext with (d := []) (d' := []).
  - rewrite !firstn_length, !skipn_length. lia.
  - intros j Hj. rewrite firstn_length, skipn_length in Hj.
    assert (E : forall (l : list row) a, nth j (firstn n (skipn a l)) [] = nth (a + j) l []).
    { intros l a. transitivity (nth j (skipn a l) []).
      - revert j Hj. generalize (skipn a l). clear. intros l j Hj.
        assert (Hj' : j < n) by lia. clear Hj. revert n j Hj'.
        induction l as [|x l IH]; intros [|n] [|j] Hj; cbn; try reflexivity; try lia. apply IH. lia.
      - revert l. clear. induction a as [|a IH]; intros l; [reflexivity|].
        destruct l as [|x l]; cbn [skipn]; [destruct j; reflexivity|]. rewrite IH. reflexivity. }
    rewrite !E. rewrite Hn by lia. f_equal. lia.
Qed.

Lemma firstn_app_skipn : forall (l : list row) a b,
  firstn a l ++ firstn b (skipn a l) = firstn (a + b) l.
Proof.
  induction l as [|x l IH]; intros a b.
  - rewrite skipn_nil, !firstn_nil. reflexivity.
  - destruct a as [|a]; [reflexivity|]. cbn. rewrite IH. reflexivity.
Qed.

Section Run.
Variable c : cfg.
Variable img : list row.
Hypothesis Hc : cfg_ok c.
Hypothesis Himg : length img = c_h c.
Notation H := (c_h c).
Notation v := (c_v c).
Notation D := (c_du c).
Notation T := (c_rows c).

Lemma T_lt : forall n, n * (v * D) < H <-> n < T.
Proof.
  intros n. destruct Hc as (H1 & H2 & H3 & ->).
  assert (Hp : 0 < v * D) by nia. set (w := v * D) in *. clearbody w.
  pose proof (Nat.div_mod (H + w - 1) w ltac:(lia)) as E.
  pose proof (Nat.mod_upper_bound (H + w - 1) w ltac:(lia)) as B.
  set (q := (H + w - 1) / w) in *. clearbody q. nia.
Qed.

(* groups emitted so far (no-context case) *)
Definition gcount (togo g : nat) : nat := if togo =? 0 then (H + v - 1) / v else g.

(* position of the preprocessor after [g] row groups, with unread rows left *)
Definition rel (p : prepc) (g : nat) : Prop :=
  if c_context c then p_nbr p < p_stop p <= p_nbr p + 2 * v /\ p_stop p - p_nbr p + (H - p_togo p) = (g + 2) * v
  else p_nbr p < v /\ H - p_togo p = g * v + p_nbr p.

(* contents of the conversion buffer (no-context case) *)
Definition bufrel (p : prepc) : Prop :=
  c_context c = false ->
  length (p_buf p) = v /\
  forall j, j < p_nbr p -> nth j (p_buf p) [] = nth (H - p_togo p - p_nbr p + j) img [].

Record PI (next0 cur : nat) (base : list event) (q : pp) : Prop := {
  pi_togo : p_togo (pp_prep q) <= H;
  pi_rows : rows_of (pp_log q) = rows_of base ++ firstn (H - p_togo (pp_prep q)) img;
  pi_im : imcus_of (pp_log q) = imcus_of base + cur;
  pi_in : next0 + pp_in q = H - p_togo (pp_prep q);
  pi_rg : pp_rg q <= D;
  pi_pos : 0 < p_togo (pp_prep q) -> rel (pp_prep q) (cur * D + pp_rg q);
  pi_end : p_togo (pp_prep q) = 0 ->
           (c_context c = false -> pp_rg q = D /\ H <= (cur * D + D) * v /\ p_nbr (pp_prep q) = 0) /\
           (c_context c = true -> p_nbr (pp_prep q) <= p_stop (pp_prep q));
  pi_buf : bufrel (pp_prep q);
  pi_gr : c_context c = false ->
          groups_of (pp_log q) = groups_of base ++
            map (image_group img v) (seq 0 (gcount (p_togo (pp_prep q)) (cur * D + pp_rg q))) }.

Definition good_input (next0 avail : nat) (input : list row) : Prop :=
  avail <= length input /\ next0 + avail <= H /\
  forall j, j < avail -> nth j input [] = nth (next0 + j) img [].

Lemma seq_snoc : forall n, seq 0 (S n) = seq 0 n ++ [n].
Proof. intros n. rewrite seq_S. reflexivity. Qed.

Lemma nth_map_seq : forall (f : nat -> row) n j, j < n -> nth j (map f (seq 0 n)) [] = f j.
Proof.
  intros f n j Hj.
  rewrite nth_indep with (d' := f 0) by (rewrite map_length, seq_length; lia).
  rewrite (map_nth f). rewrite seq_nth by lia. reflexivity.
Qed.
Lemma image_group_eq : forall buf g, length buf = v ->
  (forall j, j < v -> nth j buf [] = nth (Nat.min (g * v + j) (H - 1)) img []) ->
  buf = image_group img v g.
Proof.
  intros buf g Hl Hn. unfold image_group. rewrite Himg.
  apply nth_ext with (d := []) (d' := []).
  - rewrite map_length, seq_length. exact Hl.
  - intros j Hj. rewrite Hn by lia. rewrite nth_map_seq by lia. reflexivity.
Qed.

Lemma expand_bottom_length : forall buf a, length buf = v -> a <= v ->
  length (expand_bottom buf a v) = v.
Proof.
  intros buf a Hl Ha. unfold expand_bottom.
  rewrite !app_length, firstn_length, repeat_length, skipn_length. lia.
Qed.
Lemma nth_expand_bottom : forall buf a j, length buf = v -> 1 <= a <= v -> j < v ->
  nth j (expand_bottom buf a v) [] = nth (Nat.min j (a - 1)) buf [].
Proof.
  intros buf a j Hl Ha Hj. unfold expand_bottom.
  destruct (Nat.lt_ge_cases j a) as [L|L].
  - rewrite app_nth1 by (rewrite firstn_length; lia).
    replace (Nat.min j (a - 1)) with j by lia.
    assert (G : forall (l : list row) n j, j < n -> nth j (firstn n l) [] = nth j l []).
    { clear. induction l as [|x l IH]; intros [|n] [|j] Hj; cbn; try reflexivity; try lia. apply IH. lia. }
    apply G. exact L.
  - rewrite app_nth2 by (rewrite firstn_length; lia). rewrite firstn_length.
    rewrite app_nth1 by (rewrite repeat_length; lia).
    replace (Nat.min j (a - 1)) with (a - 1) by lia.
    rewrite nth_indep with (d' := nth (a - 1) buf []) by (rewrite repeat_length; lia).
    apply nth_repeat.
Qed.

Lemma ceil_at_bottom : forall g n, 1 <= n <= v -> H = g * v + n -> (H + v - 1) / v = S g.
Proof.
  intros g n Hn E. destruct Hc as (_ & Hv & _).
  symmetry. apply (Nat.div_unique _ _ _ (n - 1)); nia.
Qed.

(* one iteration of pre_process_data *)
Lemma simple_iter : forall next0 cur base avail input q,
  c_context c = false -> PI next0 cur base q -> good_input next0 avail input ->
  pp_in q < avail -> pp_rg q < D ->
  exists q' b, pre_process_iter c input avail D q = (q', b) /\ PI next0 cur base q' /\
    pp_in q < pp_in q' <= avail /\ pp_rg q <= pp_rg q' /\ (b = false -> pp_rg q' = D).
Proof.
  intros next0 cur base avail input q Hctx HP (Ga & Gb & Gn) Hin Hrg.
  destruct HP as [P1 P2 P3 P4 P5 P6 P7 P8 P9].
  assert (Hpos : 0 < p_togo (pp_prep q)) by lia.
  specialize (P6 Hpos). unfold rel in P6. rewrite Hctx in P6. destruct P6 as [R1 R2].
  specialize (P8 Hctx). destruct P8 as [B1 B2]. specialize (P9 Hctx).
  unfold gcount in P9. rewrite (proj2 (Nat.eqb_neq _ 0)) in P9 by lia.
  unfold pre_process_iter.
  set (p := pp_prep q) in *. set (i := pp_in q) in *.
  set (n := Nat.min (v - p_nbr p) (avail - i)) in *.
  assert (Hn1 : 1 <= n) by (unfold n; lia). assert (Hn2 : n <= v - p_nbr p) by (unfold n; lia).
  assert (Hn3 : n <= avail - i) by (unfold n; lia).
  clearbody n.
  set (rs := firstn n (skipn i input)) in *.
  assert (Ers : rs = firstn n (skipn (H - p_togo p) img)).
  { unfold rs. rewrite (firstn_nth_slice img input next0 i n).
    - f_equal. f_equal. lia.
    - intros j Hj. apply Gn. lia.
    - lia.
    - rewrite Himg. lia. }
  assert (Lrs : length rs = n).
  { unfold rs. rewrite firstn_length, skipn_length. lia. }
  set (buf := store (p_buf p) (p_nbr p) rs) in *.
  assert (Lbuf : length buf = v) by (unfold buf; rewrite store_length; exact B1).
  assert (Nbuf : forall j, j < p_nbr p + n -> nth j buf [] = nth (H - p_togo p - p_nbr p + j) img []).
  { intros j Hj. unfold buf. rewrite nth_store by lia. rewrite Lrs.
    destruct (Nat.leb_spec (p_nbr p) j) as [L|L].
    - rewrite (proj2 (Nat.ltb_lt _ _) Hj). cbn [andb]. rewrite Ers.
      assert (G : forall (l : list row) m j, j < m -> nth j (firstn m l) [] = nth j l []).
      { clear. induction l as [|x l IH]; intros [|m] [|j] Hj; cbn; try reflexivity; try lia. apply IH. lia. }
      rewrite G by lia.
      assert (G2 : forall a (l : list row) j, nth j (skipn a l) [] = nth (a + j) l []).
      { clear. induction a as [|a IH]; intros l j; [reflexivity|].
        destruct l as [|x l]; cbn [skipn]; [destruct j; reflexivity|]. rewrite IH. reflexivity. }
      rewrite G2. f_equal. lia.
    - cbn [andb]. apply B2. exact L. }
  clearbody buf.
  assert (Erows : rows_of (pp_log q ++ conv_events (p_nbr p) rs)
                  = rows_of base ++ firstn (H - (p_togo p - n)) img).
  { rewrite rows_of_app, rows_of_conv, P2, Ers, <- app_assoc, firstn_app_skipn.
    f_equal. f_equal. lia. }
  assert (Eim : imcus_of (pp_log q ++ conv_events (p_nbr p) rs) = imcus_of base + cur).
  { rewrite imcus_of_app, imcus_of_conv. lia. }
  assert (Egr : groups_of (pp_log q ++ conv_events (p_nbr p) rs) = groups_of base ++
            map (image_group img v) (seq 0 (cur * D + pp_rg q))).
  { rewrite groups_of_app, groups_of_conv, app_nil_r. exact P9. }
  set (log := pp_log q ++ conv_events (p_nbr p) rs) in *. clearbody log. clearbody rs. clear Ers.
  set (g := cur * D + pp_rg q) in *.
  destruct (Nat.eqb_spec (p_togo p - n) 0) as [Eb|Eb].
  - (* bottom of image *)
    assert (En : H = g * v + (p_nbr p + n)) by lia.
    set (buf' := if p_nbr p + n <? v then expand_bottom buf (p_nbr p + n) v else buf).
    assert (Ef : (let '(b0, n0) := if true && (p_nbr p + n <? v) then (expand_bottom buf (p_nbr p + n) v, v)
                  else (buf, p_nbr p + n) in (b0, n0)) = (buf', v)).
    { unfold buf'. cbn [andb]. destruct (Nat.ltb_spec (p_nbr p + n) v); [reflexivity|]. f_equal. lia. }
    cbn [andb] in *.
    assert (EG : buf' = image_group img v g).
    { apply image_group_eq.
      - unfold buf'. destruct (p_nbr p + n <? v); [apply expand_bottom_length; lia|exact Lbuf].
      - intros j Hj. unfold buf'. destruct (Nat.ltb_spec (p_nbr p + n) v) as [L|L].
        + rewrite nth_expand_bottom by lia. rewrite Nbuf by lia. f_equal. lia.
        + rewrite Nbuf by lia. f_equal. lia. }
    assert (LB' : length buf' = v).
    { rewrite EG. unfold image_group. rewrite map_length, seq_length. reflexivity. }
    destruct (if p_nbr p + n <? v then (expand_bottom buf (p_nbr p + n) v, v) else (buf, p_nbr p + n))
      as [b0 n0] eqn:E0. injection Ef as -> ->. clear E0. rewrite Nat.eqb_refl.
    assert (EC : (H + v - 1) / v = S g) by (apply (ceil_at_bottom g (p_nbr p + n)); lia).
    assert (HB : H <= (cur * D + D) * v).
    { rewrite En. unfold g. nia. }
    destruct (S (pp_rg q) <? D) eqn:Erg.
    + eexists _, _. split; [reflexivity|]. split; [|cbn; repeat split; try lia].
      constructor; cbn [pp_prep pp_in pp_rg pp_log p_togo p_nbr p_stop p_buf].
      * lia.
      * rewrite !rows_of_app, Erows. cbn. rewrite !app_nil_r. reflexivity.
      * rewrite !imcus_of_app, Eim. cbn. lia.
      * lia.
      * lia.
      * lia.
      * intros _. split; [intros _; lia|congruence].
      * intros _. cbn. split; [exact LB'|lia].
      * intros _. rewrite !groups_of_app, Egr. unfold gcount. rewrite Eb. cbn [Nat.eqb].
        rewrite EC, seq_snoc, map_app. cbn. rewrite EG, app_nil_r, <- app_assoc. reflexivity.
    + apply Nat.ltb_ge in Erg.
      eexists _, _. split; [reflexivity|]. split; [|cbn; repeat split; try lia].
      constructor; cbn [pp_prep pp_in pp_rg pp_log p_togo p_nbr p_stop p_buf].
      * lia.
      * rewrite !rows_of_app, Erows. cbn. rewrite !app_nil_r. reflexivity.
      * rewrite !imcus_of_app, Eim. cbn. lia.
      * lia.
      * lia.
      * lia.
      * intros _. split; [intros _; lia|congruence].
      * intros _. cbn. split; [exact LB'|lia].
      * intros _. rewrite !groups_of_app, Egr. unfold gcount. rewrite Eb. cbn [Nat.eqb].
        rewrite EC, seq_snoc, map_app. cbn. rewrite EG, <- app_assoc. reflexivity.
  - cbn [andb].
    destruct (Nat.eqb_spec (p_nbr p + n) v) as [Ef|Ef].
    + assert (EG : buf = image_group img v g).
      { apply image_group_eq; [exact Lbuf|]. intros j Hj. rewrite Nbuf by lia. f_equal. lia. }
      eexists _, _. split; [reflexivity|]. split; [|cbn; repeat split; try lia].
      constructor; cbn [pp_prep pp_in pp_rg pp_log p_togo p_nbr p_stop p_buf].
      * lia.
      * rewrite !rows_of_app, Erows. cbn. rewrite !app_nil_r. reflexivity.
      * rewrite !imcus_of_app, Eim. cbn. lia.
      * lia.
      * lia.
      * intros _. unfold rel. rewrite Hctx. cbn. split; [lia|]. unfold g in *. nia.
      * lia.
      * intros _. cbn. split; [exact Lbuf|lia].
      * intros _. rewrite !groups_of_app, Egr. unfold gcount. rewrite (proj2 (Nat.eqb_neq _ 0)) by lia.
        replace (cur * D + S (pp_rg q)) with (S g) by (unfold g; lia).
        rewrite seq_snoc, map_app. cbn. rewrite EG, <- app_assoc. reflexivity.
    + eexists _, _. split; [reflexivity|]. split; [|cbn; repeat split; try lia].
      constructor; cbn [pp_prep pp_in pp_rg pp_log p_togo p_nbr p_stop p_buf].
      * lia.
      * exact Erows.
      * exact Eim.
      * lia.
      * lia.
      * intros _. unfold rel. rewrite Hctx. cbn. split; [lia|]. unfold g in *. lia.
      * lia.
      * intros _. cbn. split; [exact Lbuf|]. intros j Hj. rewrite Nbuf by lia. f_equal. lia.
      * intros _. unfold gcount. rewrite (proj2 (Nat.eqb_neq _ 0)) by lia. exact Egr.
Qed.

(* one iteration of pre_process_context *)
Lemma context_iter : forall next0 cur base avail input q,
  c_context c = true -> PI next0 cur base q -> good_input next0 avail input ->
  pp_rg q < D ->
  exists q' b, pre_context_iter c input avail q = (q', b) /\ PI next0 cur base q' /\
    pp_in q <= pp_in q' /\ pp_in q' <= Nat.max avail (pp_in q) /\ pp_rg q <= pp_rg q' /\
    (b = true -> (avail - pp_in q') + (D - pp_rg q') < (avail - pp_in q) + (D - pp_rg q)) /\
    (b = false -> q' = q /\ avail <= pp_in q /\ 0 < p_togo (pp_prep q)) /\
    (0 < p_togo (pp_prep q) -> pp_in q < pp_in q' \/ (b = false /\ pp_rg q' = pp_rg q)).
Proof.
  intros next0 cur base avail input q Hctx HP (Ga & Gb & Gn) Hrg.
  destruct Hc as (Hh & Hv & HD & _).
  destruct HP as [P1 P2 P3 P4 P5 P6 P7 P8 P9].
  unfold pre_context_iter.
  set (p := pp_prep q) in *. set (i := pp_in q) in *.
  destruct (Nat.ltb_spec i avail) as [L|L].
  - assert (Hpos : 0 < p_togo p) by lia.
    pose proof (P6 Hpos) as R. unfold rel in R. rewrite Hctx in R. destruct R as [R1 R2].
    set (n := Nat.min (p_stop p - p_nbr p) (avail - i)).
    assert (Hn1 : 1 <= n) by (unfold n; lia). assert (Hn2 : n <= p_stop p - p_nbr p) by (unfold n; lia).
    assert (Hn3 : n <= avail - i) by (unfold n; lia). clearbody n.
    set (rs := firstn n (skipn i input)) in *.
    assert (Ers : rs = firstn n (skipn (H - p_togo p) img)).
    { unfold rs. rewrite (firstn_nth_slice img input next0 i n).
      - f_equal. f_equal. lia.
      - intros j Hj. apply Gn. lia.
      - lia.
      - rewrite Himg. lia. }
    match goal with |- context[mkPrep (p_togo p - n) (p_nbr p + n) (p_tg p) (p_stop p) ?b] =>
      set (buf := b); clearbody buf end.
    assert (Erows : rows_of (pp_log q ++ conv_events (p_nbr p) rs)
                    = rows_of base ++ firstn (H - (p_togo p - n)) img).
    { rewrite rows_of_app, rows_of_conv, P2, Ers, <- app_assoc, firstn_app_skipn.
      f_equal. f_equal. lia. }
    assert (Eim : imcus_of (pp_log q ++ conv_events (p_nbr p) rs) = imcus_of base + cur).
    { rewrite imcus_of_app, imcus_of_conv. lia. }
    set (log := pp_log q ++ conv_events (p_nbr p) rs) in *. clearbody log. clearbody rs.
    cbn [p_nbr p_stop p_tg p_togo p_buf].
    destruct (Nat.eqb_spec (p_nbr p + n) (p_stop p)) as [Ef|Ef].
    + eexists _, _. split; [reflexivity|]. split; [|cbn; repeat split; try lia; congruence].
      constructor; cbn [pp_prep pp_in pp_rg pp_log p_togo p_nbr p_stop p_buf].
      * lia.
      * rewrite !rows_of_app, Erows. cbn. rewrite !app_nil_r. reflexivity.
      * rewrite !imcus_of_app, Eim. cbn. lia.
      * lia.
      * lia.
      * intros Hp2. unfold rel. rewrite Hctx. cbn. destruct (v * 3 <=? p_nbr p + n); nia.
      * intros _. split; [congruence|]. intros _. lia.
      * intros W. congruence.
      * intros W. congruence.
    + eexists _, _. split; [reflexivity|]. split; [|cbn; repeat split; try lia; congruence].
      constructor; cbn [pp_prep pp_in pp_rg pp_log p_togo p_nbr p_stop p_buf].
      * lia.
      * exact Erows.
      * exact Eim.
      * lia.
      * lia.
      * intros Hp2. unfold rel. rewrite Hctx. cbn. lia.
      * intros _. split; [congruence|]. intros _. lia.
      * intros W. congruence.
      * intros W. congruence.
  - destruct (Nat.eqb_spec (p_togo p) 0) as [E0|E0]; cbn [negb].
    + destruct (P7 E0) as [_ P7b]. specialize (P7b Hctx).
      destruct (Nat.ltb_spec (p_nbr p) (p_stop p)) as [L2|L2];
        cbn [p_nbr p_stop p_tg p_togo p_buf]; [rewrite Nat.eqb_refl|rewrite (proj2 (Nat.eqb_eq _ _)) by lia];
        (eexists _, _; split; [reflexivity|]; split; [|cbn; repeat split; try lia; congruence]);
        (constructor; cbn [pp_prep pp_in pp_rg pp_log p_togo p_nbr p_stop p_buf];
        [lia| rewrite !rows_of_app, P2; cbn; rewrite !app_nil_r; reflexivity
        | rewrite !imcus_of_app, P3; cbn; lia | lia | lia | lia
        | intros _; split; [congruence|]; intros _; lia
        | intros W; congruence | intros W; congruence]).
    + exists q, false. split; [reflexivity|]. split.
      * constructor; assumption.
      * repeat split; try lia; congruence.
Qed.

Definition stopped (avail : nat) (q : pp) : Prop :=
  pp_rg q = D \/ (pp_rg q < D /\ avail <= pp_in q /\ 0 < p_togo (pp_prep q)).

Lemma simple_loop : forall fuel next0 cur base avail input q,
  c_context c = false -> PI next0 cur base q -> good_input next0 avail input ->
  avail - pp_in q <= fuel ->
  exists q', pre_process_data fuel c input avail D q = Ret q' /\ PI next0 cur base q' /\
    stopped avail q' /\ pp_in q <= pp_in q' <= Nat.max avail (pp_in q) /\ pp_rg q <= pp_rg q' /\
    (pp_rg q < pp_rg q' -> pp_in q < pp_in q').
Proof.
  induction fuel as [|f IH]; intros next0 cur base avail input q Hctx HP HG Hf; cbn [pre_process_data].
  - rewrite (proj2 (Nat.ltb_ge (pp_in q) avail)) by lia. cbn [andb].
    exists q. split; [reflexivity|]. split; [exact HP|]. split; [|lia].
    destruct HP as [P1 P2 P3 P4 P5 P6 P7 P8 P9]. unfold stopped.
    destruct (Nat.eq_dec (p_togo (pp_prep q)) 0) as [E|E]; [left; apply P7; assumption|].
    destruct (Nat.eq_dec (pp_rg q) D); [left; assumption|right; lia].
  - destruct (Nat.ltb_spec (pp_in q) avail) as [L|L]; [destruct (Nat.ltb_spec (pp_rg q) D) as [L2|L2]|]; cbn [andb].
    + destruct (simple_iter next0 cur base avail input q Hctx HP HG L L2) as (q1 & b & E & HP1 & Hi & Hr & Hb).
      rewrite E. destruct b.
      * destruct (IH next0 cur base avail input q1 Hctx HP1 HG ltac:(lia)) as (q2 & E2 & HP2 & HS & Hi2 & Hr2 & Hd).
        exists q2. split; [exact E2|]. split; [exact HP2|]. split; [exact HS|]. lia.
      * exists q1. split; [reflexivity|]. split; [exact HP1|]. split; [left; apply Hb; reflexivity|]. lia.
    + exists q. split; [reflexivity|]. split; [exact HP|]. split; [|lia].
      left. destruct HP. lia.
    + exists q. split; [reflexivity|]. split; [exact HP|]. split; [|lia].
      destruct HP as [P1 P2 P3 P4 P5 P6 P7 P8 P9]. unfold stopped.
      destruct (Nat.eq_dec (p_togo (pp_prep q)) 0) as [E|E]; [left; apply P7; assumption|].
      destruct (Nat.eq_dec (pp_rg q) D); [left; assumption|right; lia].
Qed.

Lemma context_loop : forall fuel next0 cur base avail input q,
  c_context c = true -> PI next0 cur base q -> good_input next0 avail input ->
  (avail - pp_in q) + (D - pp_rg q) <= fuel ->
  exists q', pre_process_context fuel c input avail D q = Ret q' /\ PI next0 cur base q' /\
    stopped avail q' /\ pp_in q <= pp_in q' <= Nat.max avail (pp_in q) /\ pp_rg q <= pp_rg q' /\
    (0 < p_togo (pp_prep q) -> pp_rg q < pp_rg q' -> pp_in q < pp_in q').
Proof.
  induction fuel as [|f IH]; intros next0 cur base avail input q Hctx HP HG Hf; cbn [pre_process_context].
  - rewrite (proj2 (Nat.ltb_ge (pp_rg q) D)) by lia.
    exists q. split; [reflexivity|]. split; [exact HP|]. split; [|lia].
    left. destruct HP. lia.
  - destruct (Nat.ltb_spec (pp_rg q) D) as [L2|L2].
    + destruct (context_iter next0 cur base avail input q Hctx HP HG L2)
        as (q1 & b & E & HP1 & Hi & Hi' & Hr & Hb & Hb' & Hd).
      rewrite E. destruct b.
      * specialize (Hb eq_refl).
        destruct (IH next0 cur base avail input q1 Hctx HP1 HG ltac:(lia)) as (q2 & E2 & HP2 & HS & Hi2 & Hr2 & Hd2).
        exists q2. split; [exact E2|]. split; [exact HP2|]. split; [exact HS|].
        split; [lia|]. split; [lia|]. intros G1 G2. destruct (Hd G1) as [G|[G _]]; [lia|discriminate].
      * destruct (Hb' eq_refl) as (-> & Ha & Ht).
        exists q. split; [reflexivity|]. split; [exact HP|]. split; [right; lia|]. lia.
    + exists q. split; [reflexivity|]. split; [exact HP|]. split; [|lia].
      left. destruct HP. lia.
Qed.

Lemma pre_process_spec : forall next0 cur base avail input q,
  PI next0 cur base q -> good_input next0 avail input ->
  exists q', pre_process c input avail D q = Ret q' /\ PI next0 cur base q' /\
    stopped avail q' /\ pp_in q <= pp_in q' <= Nat.max avail (pp_in q) /\ pp_rg q <= pp_rg q' /\
    (0 < p_togo (pp_prep q) -> pp_rg q < pp_rg q' -> pp_in q < pp_in q').
Proof.
  intros next0 cur base avail input q HP HG. unfold pre_process.
  destruct (c_context c) eqn:Hctx.
  - apply context_loop; auto.
  - destruct (simple_loop (avail - pp_in q + (D - pp_rg q)) next0 cur base avail input q Hctx HP HG ltac:(lia))
      as (q' & E & A1 & A2 & A3 & A4 & A5).
    exists q'. split; [exact E|]. repeat (split; [assumption|]). auto.
Qed.

(* Invariant of the main loop; b2n susp rows are withheld from the caller *)
Definition b2n (b : bool) : nat := if b then 1 else 0.

Record LI (next0 : nat) (base : list event) (d : md) : Prop := {
  li_togo : p_togo (d_prep d) <= H;
  li_rows : rows_of (d_log d) = rows_of base ++ firstn (H - p_togo (d_prep d)) img;
  li_im : imcus_of (d_log d) = imcus_of base + m_cur (d_main d);
  li_in0 : next0 + b2n (m_susp (d_main d)) <= H - p_togo (d_prep d);
  li_in : d_in d = Z.of_nat (H - p_togo (d_prep d) - b2n (m_susp (d_main d)) - next0);
  li_cur : m_cur (d_main d) <= T;
  li_rg : if m_susp (d_main d) then m_rg (d_main d) = D /\ m_cur (d_main d) < T
          else m_rg (d_main d) < D;
  li_prog : m_susp (d_main d) = false ->
            0 < p_togo (d_prep d) \/ next0 < H - p_togo (d_prep d) \/ m_cur (d_main d) = T;
  li_pos : 0 < p_togo (d_prep d) -> rel (d_prep d) (m_cur (d_main d) * D + m_rg (d_main d));
  li_end : p_togo (d_prep d) = 0 ->
           (m_susp (d_main d) = false -> m_rg (d_main d) = 0) /\
           (c_context c = false -> H <= (m_cur (d_main d) * D + m_rg (d_main d)) * v
                                   /\ p_nbr (d_prep d) = 0) /\
           (c_context c = true -> p_nbr (d_prep d) <= p_stop (d_prep d));
  li_buf : bufrel (d_prep d);
  li_gr : c_context c = false ->
          groups_of (d_log d) = groups_of base ++
            map (image_group img v)
              (seq 0 (gcount (p_togo (d_prep d)) (m_cur (d_main d) * D + m_rg (d_main d)))) }.

(* additionally, between calls *)
Definition rest (d : md) : Prop :=
  p_togo (d_prep d) = 0 -> m_susp (d_main d) = true \/ m_cur (d_main d) = T.

Lemma rel_cur : forall p cur rg, rel p (cur * D + rg) -> 0 < p_togo p -> p_togo p <= H -> cur < T.
Proof.
  intros p cur rg R Hp Hp2. apply T_lt. unfold rel in R.
  assert (E : cur * (v * D) <= (cur * D + rg) * v) by nia.
  destruct (c_context c); destruct R as [R1 R2]; nia.
Qed.

Lemma main_loop : forall n next0 base avail input d,
  LI next0 base d -> good_input next0 avail input -> T - m_cur (d_main d) <= n ->
  (0 < avail -> Z.to_nat (d_in d) + b2n (m_susp (d_main d)) <= avail) ->
  exists d', process_data n c input avail d = Ret d' /\ LI next0 base d' /\ rest d' /\
    (m_susp (d_main d') = false -> next0 + avail <= H - p_togo (d_prep d')) /\
    (m_susp (d_main d') = true -> exists pre, d_orc d = pre ++ false :: d_orc d') /\
    (0 < avail -> Z.to_nat (d_in d') + b2n (m_susp (d_main d')) <= avail).
Proof.
  destruct Hc as (Hh & Hv & HD & _).
  induction n as [|n IH]; intros next0 base avail input d HL HG Hn Hk.
  - cbn [process_data]. assert (m_cur (d_main d) = T) by (destruct HL; lia).
    rewrite (proj2 (Nat.ltb_ge _ _)) by lia.
    assert (Ht : p_togo (d_prep d) = 0).
    { destruct HL as [L1 L2 L3 L4 L5 L6 L7 L8 L9 L10 L11 L12].
      destruct (Nat.eq_dec (p_togo (d_prep d)) 0) as [E|E]; [exact E|].
      pose proof (rel_cur _ _ _ (L9 ltac:(lia)) ltac:(lia) L1). lia. }
    assert (Hs : m_susp (d_main d) = false).
    { destruct HL as [L1 L2 L3 L4 L5 L6 L7 L8 L9 L10 L11 L12].
      destruct (m_susp (d_main d)); [lia|reflexivity]. }
    exists d. split; [reflexivity|]. split; [exact HL|]. split; [intros _; right; assumption|].
    split; [|split; [|exact Hk]].
    + intros _. destruct HG as (_ & G & _). lia.
    + rewrite Hs. discriminate.
  - cbn [process_data].
    destruct (Nat.ltb_spec (m_cur (d_main d)) T) as [Lc|Lc].
    2:{ assert (m_cur (d_main d) = T) by (destruct HL; lia).
    assert (Ht : p_togo (d_prep d) = 0).
    { destruct HL as [L1 L2 L3 L4 L5 L6 L7 L8 L9 L10 L11 L12].
      destruct (Nat.eq_dec (p_togo (d_prep d)) 0) as [E|E]; [exact E|].
      pose proof (rel_cur _ _ _ (L9 ltac:(lia)) ltac:(lia) L1). lia. }
    assert (Hs : m_susp (d_main d) = false).
    { destruct HL as [L1 L2 L3 L4 L5 L6 L7 L8 L9 L10 L11 L12].
      destruct (m_susp (d_main d)); [lia|reflexivity]. }
    exists d. split; [reflexivity|]. split; [exact HL|]. split; [intros _; right; assumption|].
    split; [|split; [|exact Hk]].
    + intros _. destruct HG as (_ & G & _). lia.
    + rewrite Hs. discriminate. }
    destruct HL as [L1 L2 L3 L4 L5 L6 L7 L8 L9 L10 L11 L12].
    rewrite (proj2 (Z.ltb_ge _ _)) by lia.
    set (m := d_main d) in *. set (p := d_prep d) in *.
    rewrite L5, Nat2Z.id. rewrite L5, Nat2Z.id in Hk.
    (* preprocessing *)
    assert (PRE : exists q,
      (let q := mkPP p (H - p_togo p - b2n (m_susp m) - next0) (m_rg m) (d_log d) in
       if m_rg m <? D then pre_process c input avail D q else Ret q) = Ret q /\
      p_togo (pp_prep q) <= p_togo p /\
      rows_of (pp_log q) = rows_of base ++ firstn (H - p_togo (pp_prep q)) img /\
      imcus_of (pp_log q) = imcus_of base + m_cur m /\
      pp_in q = H - p_togo (pp_prep q) - b2n (m_susp m) - next0 /\
      next0 + b2n (m_susp m) <= H - p_togo (pp_prep q) /\
      (0 < p_togo (pp_prep q) -> rel (pp_prep q) (m_cur m * D + pp_rg q)) /\
      (p_togo (pp_prep q) = 0 ->
        (c_context c = false -> H <= (m_cur m * D + pp_rg q) * v /\ p_nbr (pp_prep q) = 0) /\
        (c_context c = true -> p_nbr (pp_prep q) <= p_stop (pp_prep q))) /\
      bufrel (pp_prep q) /\
      (c_context c = false ->
          groups_of (pp_log q) = groups_of base ++
            map (image_group img v) (seq 0 (gcount (p_togo (pp_prep q)) (m_cur m * D + pp_rg q)))) /\
      (pp_rg q = D \/ (m_susp m = false /\ pp_rg q < D /\ avail <= pp_in q /\ 0 < p_togo (pp_prep q))) /\
      (pp_rg q = D -> next0 < H - p_togo (pp_prep q)) /\
      (0 < avail -> pp_in q + b2n (m_susp m) <= avail)).
    { destruct (m_susp m) eqn:Es.
      - destruct L7 as [L7 L7']. rewrite L7, Nat.ltb_irrefl. cbn [b2n] in *.
        eexists. split; [reflexivity|]. cbn [pp_prep pp_in pp_rg pp_log].
        rewrite L7 in *.
        split; [lia|]. split; [exact L2|]. split; [exact L3|]. split; [reflexivity|].
        split; [lia|]. split; [exact L9|]. split; [intros E; apply L10; exact E|].
        split; [exact L11|]. split; [exact L12|]. split; [left; reflexivity|].
        split; [intros _; lia|]. exact Hk.
      - cbn [b2n] in *. rewrite (proj2 (Nat.ltb_lt _ _) L7).
        destruct (Nat.eq_dec (p_togo p) 0) as [E0|E0].
        + (* bottom already reached: only possible with context rows *)
          destruct (L10 E0) as (A1 & A2 & A3). specialize (A1 eq_refl).
          destruct (Bool.bool_dec (c_context c) true) as [Ectx|Ectx]; [|apply not_true_is_false in Ectx].
          * destruct (pre_process_spec next0 (m_cur m) base avail input
                (mkPP p (H - p_togo p - 0 - next0) (m_rg m) (d_log d))) as (q & Eq & HP & HS & Hi & Hr & Hd).
            { constructor; cbn [pp_prep pp_in pp_rg pp_log]; try assumption; try lia.
              - intros _. split; [congruence|]. exact A3. }
            { exact HG. }
            exists q. split; [exact Eq|]. destruct HP as [P1 P2 P3 P4 P5 P6 P7 P8 P9].
            cbn [pp_prep pp_in pp_rg pp_log] in *.
            split; [lia|]. split; [exact P2|]. split; [exact P3|]. split; [lia|]. split; [lia|].
            split; [exact P6|]. split; [intros E; split; [congruence|]; apply P7; assumption|].
            split; [exact P8|]. split; [intros W; congruence|].
            split; [destruct HS as [HS|HS]; [left; exact HS|right; tauto]|].
            split; [intros _|]. { destruct (L8 eq_refl) as [G|[G|G]]; lia. }
            lia.
          * exfalso. specialize (A2 Ectx). rewrite A1 in A2.
            pose proof (proj2 (T_lt (m_cur m)) Lc). nia.
        + destruct (pre_process_spec next0 (m_cur m) base avail input
                (mkPP p (H - p_togo p - 0 - next0) (m_rg m) (d_log d))) as (q & Eq & HP & HS & Hi & Hr & Hd).
          { constructor; cbn [pp_prep pp_in pp_rg pp_log]; try assumption; try lia. }
          { exact HG. }
          exists q. split; [exact Eq|]. destruct HP as [P1 P2 P3 P4 P5 P6 P7 P8 P9].
          cbn [pp_prep pp_in pp_rg pp_log] in *.
          split; [lia|]. split; [exact P2|]. split; [exact P3|]. split; [lia|]. split; [lia|].
          split; [exact P6|]. split.
          { intros E. destruct (P7 E) as [B1 B2]. split; [|exact B2].
            intros W. destruct (B1 W) as (B3 & B4 & B5). rewrite B3. split; assumption. }
          split; [exact P8|]. split; [exact P9|].
          split; [destruct HS as [HS|HS]; [left; exact HS|right; tauto]|].
          split; [intros Hx|lia].
          destruct HS as [HS|HS]; [|lia]. specialize (Hd ltac:(lia) ltac:(lia)). lia. }
    destruct PRE as (q & Eq & Q1 & Q2 & Q3 & Q4 & Q5 & Q6 & Q7 & Q8 & Q9 & Q10 & Q11 & Q12).
    change (0%nat) with 0 in *.
    cbv zeta in Eq. rewrite Eq. cbn [bind].
    destruct (Nat.eqb_spec (pp_rg q) D) as [Er|Er]; cbn [negb].
    2:{ destruct Q10 as [Q10|(Qs & Qr & Qa & Qt)]; [contradiction|].
        eexists. split; [reflexivity|].
        rewrite Qs in *. cbn [b2n] in *.
        split; [|split; [|split; [|split]]]; cbn [d_main d_prep d_in d_orc d_log m_cur m_rg m_susp].
        - constructor; cbn [d_main d_prep d_in d_orc d_log m_cur m_rg m_susp]; try assumption; try lia.
          + cbn [b2n]. lia.
        - unfold rest. cbn [d_main d_prep]. lia.
        - intros _. lia.
        - discriminate.
        - cbn [b2n]. lia. }
    destruct (hd true (d_orc d)) eqn:Eh; cbn [negb].
    + (* iMCU row accepted *)
      assert (E : (if m_susp m then Z.of_nat (pp_in q) + 1 else Z.of_nat (pp_in q))%Z
                  = Z.of_nat (H - p_togo (pp_prep q) - next0)).
      { specialize (Q11 Er). destruct (m_susp m); cbn [b2n] in *; lia. }
      destruct (IH next0 base avail input
        (mkMD (mkMain (S (m_cur m)) 0 false) (pp_prep q)
           (if m_susp m then Z.of_nat (pp_in q) + 1 else Z.of_nat (pp_in q))%Z
           (tl (d_orc d)) (pp_log q ++ [EvIMCU]))) as (d' & Ed & R1 & R2 & R3 & R4 & R5).
      * rewrite E. rewrite Er in *.
        assert (Eg : S (m_cur m) * D + 0 = m_cur m * D + D) by lia.
        constructor; cbn [d_main d_prep d_in d_orc d_log m_cur m_rg m_susp b2n]; rewrite ?Eg; try assumption; try lia.
        -- rewrite rows_of_app, Q2. cbn. rewrite app_nil_r. reflexivity.
        -- rewrite imcus_of_app, Q3. cbn. lia.
        -- intros E0. destruct (Q7 E0) as [B1 B2]. split; [reflexivity|]. split; assumption.
        -- intros W. rewrite groups_of_app, Q9 by exact W. cbn. rewrite app_nil_r. reflexivity.
      * exact HG.
      * cbn [d_main m_cur]. lia.
      * cbn [d_main m_susp d_in b2n]. rewrite E, Nat2Z.id. intros Hv0. specialize (Q12 Hv0).
        destruct (m_susp m); cbn [b2n] in *; lia.
      * exists d'. split; [exact Ed|]. split; [exact R1|]. split; [exact R2|]. split; [exact R3|].
        split; [|exact R5]. intros W. destruct (R4 W) as [pre Ep]. cbn [d_orc] in Ep.
        destruct (d_orc d) as [|o os]; [destruct pre; discriminate|].
        cbn [hd] in Eh. subst o. cbn [tl] in Ep. exists (true :: pre). rewrite Ep. reflexivity.
    + (* suspended *)
      specialize (Q11 Er).
      assert (E : (if m_susp m then Z.of_nat (pp_in q) else Z.of_nat (pp_in q) - 1)%Z
                  = Z.of_nat (H - p_togo (pp_prep q) - 1 - next0)).
      { destruct (m_susp m); cbn [b2n] in *; lia. }
      eexists. split; [reflexivity|].
      split; [|split; [|split; [|split]]]; cbn [d_main d_prep d_in d_orc d_log m_cur m_rg m_susp].
      * rewrite E. constructor; cbn [d_main d_prep d_in d_orc d_log m_cur m_rg m_susp b2n]; try assumption; try lia.
        -- rewrite rows_of_app, Q2. cbn. rewrite app_nil_r. reflexivity.
        -- rewrite imcus_of_app, Q3. cbn. lia.
        -- intros E0. destruct (Q7 E0) as [B1 B2]. split; [discriminate|]. split; assumption.
        -- intros W. rewrite groups_of_app, Q9 by exact W. cbn. rewrite app_nil_r. reflexivity.
      * intros _. left. reflexivity.
      * discriminate.
      * intros _. destruct (d_orc d) as [|o os]; [discriminate|]. cbn [hd] in Eh. subst o.
        exists []. reflexivity.
      * rewrite E, Nat2Z.id. cbn [b2n]. intros Hv0. specialize (Q12 Hv0).
        destruct (m_susp m); cbn [b2n] in *; lia.
Qed.
End Run.

(* Invariant of an image being written *)
Definition CI (img : list row) (s0 s : cobj) : Prop :=
  k_st s = CSTATE_SCANNING /\ k_cfg s = k_cfg s0 /\
  LI (k_cfg s0) img (k_next s) (k_log s0) (mkMD (k_main s) (k_prep s) 0 (k_orc s) (k_log s)) /\
  rest (k_cfg s0) (mkMD (k_main s) (k_prep s) 0 (k_orc s) (k_log s)).

Lemma LI_weaken_log : forall c img n base m p i o log log',
  rows_of log' = rows_of log -> imcus_of log' = imcus_of log -> groups_of log' = groups_of log ->
  LI c img n base (mkMD m p i o log) -> LI c img n base (mkMD m p i o log').
Proof.
  intros c img n base m p i o log log' E1 E2 E3 HL.
  destruct HL as [L1 L2 L3 L4 L5 L6 L7 L8 L9 L10 L11 L12].
  cbn [d_main d_prep d_in d_orc d_log] in *.
  constructor; cbn [d_main d_prep d_in d_orc d_log]; rewrite ?E1, ?E2, ?E3; assumption.
Qed.

Lemma CI_start : forall img s0 s, cfg_ok (k_cfg s0) -> c_raw (k_cfg s0) = false ->
  length img = c_h (k_cfg s0) -> start_compress s0 = ROk tt s -> CI img s0 s.
Proof.
  intros img s0 s Hc Hr Hi E. unfold start_compress in E.
  destruct (negb (cstate_eqb (k_st s0) CSTATE_START)); [discriminate|].
  injection E as <-. rewrite Hr.
  destruct Hc as (Hh & Hv & HD & HT).
  split; [reflexivity|]. split; [reflexivity|].
  cbn [k_main k_prep k_orc k_log k_next k_cfg]. split.
  - constructor; cbn [d_main d_prep d_in d_orc d_log m_cur m_rg m_susp p_togo p_nbr p_stop p_buf b2n]; try lia.
    + rewrite rows_of_app, Nat.sub_diag. cbn. reflexivity.
    + rewrite imcus_of_app. cbn. lia.
    + intros _. unfold rel. cbn. destruct (c_context (k_cfg s0)); lia.
    + intros W. cbn. split; [rewrite W, repeat_length; reflexivity|lia].
    + intros W. rewrite groups_of_app. unfold gcount. rewrite (proj2 (Nat.eqb_neq _ 0)) by lia. reflexivity.
  - intros W. cbn in W. lia.
Qed.

Lemma CI_write : forall img s0 s scan, cfg_ok (k_cfg s0) -> length img = c_h (k_cfg s0) ->
  CI img s0 s -> offers img (k_next s) scan ->
  let left := c_h (k_cfg s0) - k_next s in
  exists k s', write_scanlines (c_prec (k_cfg s0)) scan s = ROk k s' /\ CI img s0 s' /\
    k_next s' = k_next s + k /\ k_next s' <= c_h (k_cfg s0) /\
    (1 <= Nat.min (length scan) left -> k <= Nat.min (length scan) left) /\
    (Nat.min (length scan) left <= k \/ exists pre, k_orc s = pre ++ false :: k_orc s').
Proof.
  intros img s0 s scan Hc Hi (C1 & C2 & C3 & C4) Ho left.
  unfold write_scanlines. rewrite C2, Nat.eqb_refl, C1. cbn [negb cstate_eqb].
  set (s1 := if c_h (k_cfg s0) <=? k_next s then warn s else s).
  set (s2 := if k_startup s1 then pass_startup s1 else s1).
  assert (F : k_next s2 = k_next s /\ k_main s2 = k_main s /\ k_prep s2 = k_prep s /\ k_orc s2 = k_orc s
              /\ k_st s2 = k_st s /\
              rows_of (k_log s2) = rows_of (k_log s) /\ imcus_of (k_log s2) = imcus_of (k_log s) /\
              groups_of (k_log s2) = groups_of (k_log s)).
  { unfold s2, s1. destruct (c_h (k_cfg s0) <=? k_next s); cbn [warn k_startup];
      destruct (k_startup s); cbn; rewrite ?rows_of_app, ?imcus_of_app, ?groups_of_app; cbn;
      rewrite ?app_nil_r, ?Nat.add_0_r; repeat split; reflexivity. }
  destruct F as (F1 & F2 & F3 & F4 & F4' & F5 & F6 & F7). clearbody s2. clear s1.
  rewrite F1, F2, F3, F4. fold left.
  set (avail := Nat.min (length scan) left).
  assert (HG : good_input (k_cfg s0) img (k_next s) avail scan).
  { destruct C3 as [L1 L2 L3 L4 L5 L6 L7 L8 L9 L10 L11 L12]. cbn [d_main d_prep] in *.
    unfold good_input, avail. split; [lia|]. split; [unfold left; lia|].
    intros j Hj. apply Ho; unfold left in *; lia. }
  assert (HL : LI (k_cfg s0) img (k_next s) (k_log s0)
                  (mkMD (k_main s) (k_prep s) 0 (k_orc s) (k_log s2))).
  { eapply LI_weaken_log; [exact F5|exact F6|exact F7|exact C3]. }
  destruct (main_loop (k_cfg s0) img Hc Hi (c_rows (k_cfg s0)) (k_next s) (k_log s0) avail scan _ HL HG)
    as (d' & Ed & R1 & R2 & R3 & R4 & R5).
  { cbn. lia. }
  { cbn [d_in d_main]. intros Ha. destruct (m_susp (k_main s)); cbn; lia. }
  rewrite Ed.
  pose proof R1 as [L1 L2 L3 L4 L5 L6 L7 L8 L9 L10 L11 L12].
  assert (Hd : (d_in d' <? 0)%Z = false) by (apply Z.ltb_ge; lia). rewrite Hd.
  eexists _, _. split; [reflexivity|]. cbn [k_next k_orc].
  assert (EN : k_next s + Z.to_nat (d_in d') = c_h (k_cfg s0) - p_togo (d_prep d') - b2n (m_susp (d_main d'))) by lia.
  split; [|split; [reflexivity|split; [lia|split]]].
  - split; [cbn [k_st]; rewrite F4'; exact C1|]. split; [reflexivity|].
    cbn [k_main k_prep k_orc k_log k_next]. split.
    + constructor; cbn [d_main d_prep d_in d_orc d_log]; try assumption; try lia.
      intros Hs. destruct (Nat.eq_dec (p_togo (d_prep d')) 0) as [E0|E0]; [|lia].
      destruct (R2 E0) as [W|W]; [congruence|lia].
    + exact R2.
  - intros Ha. specialize (R5 ltac:(fold avail; lia)). fold avail. lia.
  - fold avail. destruct (m_susp (d_main d')) eqn:Es.
    + right. apply R4. reflexivity.
    + left. specialize (R3 eq_refl). cbn [b2n] in EN. lia.
Qed.
