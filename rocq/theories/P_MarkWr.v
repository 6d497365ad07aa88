(* P_MarkWr.v -- the reader undoes the writer. *)
From Verif Require Import Base M_HuffDec M_MarkRd P_MarkRd M_MarkWr S_MarkRd S_MarkWr.

Lemma eb v : 0 <= v < 256 -> emit_byte v = [v].
Proof. intros. unfold emit_byte, u8. rewrite Z.mod_small by lia. reflexivity. Qed.
Lemma e2 v : 0 <= v < 65536 -> emit_2bytes v = [v / 256; v mod 256].
Proof.
  intros. unfold emit_2bytes. rewrite Z.shiftr_div_pow2 by lia. change (2 ^ 8) with 256. change 255 with (Z.ones 8). rewrite !Z.land_ones by lia. change (2 ^ 8) with 256.
  rewrite (Z.mod_small (v / 256)) by (split; [apply Z.div_pos; lia|apply Z.div_lt_upper_bound; lia]).
  rewrite !eb; [reflexivity|apply Z.mod_pos_bound; lia|split; [apply Z.div_pos; lia|apply Z.div_lt_upper_bound; lia]].
Qed.
Lemma em m : 0 <= m < 256 -> emit_marker m = [255; m].
Proof. intros. unfold emit_marker. rewrite !eb by lia. reflexivity. Qed.
Lemma byte2_e2 {A} s l0 v l (k : Z -> list Z -> rr A) : 0 <= v < 65536 -> byte2 s l0 (emit_2bytes v ++ l) k = k v l.
Proof. intros. rewrite e2 by lia. cbn [app byte2 byte]. unfold byte2, byte. f_equal. pose proof (Z.div_mod v 256). lia. Qed.
Lemma nbytes_app {A} v : forall acc s l0 l (k : list Z -> list Z -> rr A), nbytes (length v) acc s l0 (v ++ l) k = k (acc ++ v) l.
Proof. induction v as [|x v IH]; intros; cbn [length app nbytes byte]; [now rewrite app_nil_r|]. rewrite IH. now rewrite <- app_assoc. Qed.

(* reading one marker after another *)
Definition steps (n : nat) (s : rst) (l : list Z) (s' : rst) (l' : list Z) : Prop := forall f, read_loop (n + f) s l = read_loop f s' l'.
Lemma steps_refl s l : steps 0 s l s l. Proof. intros f. reflexivity. Qed.
Lemma steps_trans n m s l s' l' s'' l'' : steps n s l s' l' -> steps m s' l' s'' l'' -> steps (n + m) s l s'' l''.
Proof. intros A B f. rewrite <- Nat.add_assoc, A. apply B. Qed.
Definition fin (s : rst) : rst := set_unread (set_disc s 0) 0.
Definition at_m (s : rst) (m : Z) : rst := set_unread (set_disc s 0) m.
Lemma step1 s m l s' l' : saw_SOI s = true -> unread s = 0 -> 0 < m < 255 ->
  process_marker (at_m s m) l = ROk None s' l' -> steps 1 s (emit_marker m ++ l) s' l'.
Proof.
  intros HS HU HM HP f. rewrite em by lia. cbn [Nat.add read_loop app]. rewrite HU, HS. cbn [Z.eqb]. unfold next_marker. cbn [next_marker_loop]. change (255 =? 255) with true. cbn iota.
  destruct (Z.eqb_spec m 255); [lia|]. destruct (Z.eqb_spec m 0); [lia|]. cbn [negb]. fold (at_m s m). rewrite HP. reflexivity.
Qed.

(* ---- DQT ---- *)
Definition no_ok : bool := forallb (fun p => existsb (fun i => match aget jpeg_natural_order (Z.of_nat i) with Ret q => q =? Z.of_nat p | _ => false end) (seq 0 64)) (seq 0 64)
   && forallb (fun i => match aget jpeg_natural_order (Z.of_nat i) with Ret q => (0 <=? q) && (q <? 64) | _ => false end) (seq 0 64).
Lemma no_ok_t : no_ok = true. Proof. vm_compute. reflexivity. Qed.
Lemma no_at i : 0 <= i < 64 -> exists q, aget jpeg_natural_order i = Ret q /\ 0 <= q < 64.
Proof.
  intros Hi. pose proof no_ok_t as H. unfold no_ok in H. apply andb_true_iff in H. destruct H as [_ H]. rewrite forallb_forall in H. specialize (H (Z.to_nat i)). rewrite Z2Nat.id in H by lia.
  specialize (H ltac:(apply in_seq; lia)). destruct (aget jpeg_natural_order i) as [q| |]; try discriminate. exists q. split; [reflexivity|]. apply andb_true_iff in H. destruct H as [A B]. apply Z.leb_le in A. apply Z.ltb_lt in B. lia.
Qed.
Lemma no_surj p : 0 <= p < 64 -> exists i, 0 <= i < 64 /\ aget jpeg_natural_order i = Ret p.
Proof.
  intros Hp. pose proof no_ok_t as H. unfold no_ok in H. apply andb_true_iff in H. destruct H as [H _]. rewrite forallb_forall in H. specialize (H (Z.to_nat p) ltac:(apply in_seq; lia)).
  apply existsb_exists in H. destruct H as (i & Hi & H). apply in_seq in Hi. exists (Z.of_nat i). split; [lia|]. destruct (aget jpeg_natural_order (Z.of_nat i)) as [q| |]; try discriminate. apply Z.eqb_eq in H. f_equal. lia.
Qed.
Lemma aget_nth {A} (l : list A) i x : 0 <= i -> nth_error l (Z.to_nat i) = Some x -> aget l i = Ret x.
Proof. intros H E. unfold aget. destruct (Z.ltb_spec i 0); [lia|]. now rewrite E. Qed.
Lemma aget_inv {A} (l : list A) i x : aget l i = Ret x -> 0 <= i /\ nth_error l (Z.to_nat i) = Some x.
Proof. unfold aget. destruct (Z.ltb_spec i 0); [discriminate|]. destruct (nth_error l (Z.to_nat i)) eqn:E; [|discriminate]. intros X. injection X as <-. auto. Qed.
Lemma nth_upd {A} (l : list A) i j x : (i < length l)%nat -> nth_error (upd l i x) j = if Nat.eqb j i then Some x else nth_error l j.
Proof.
  revert i j. induction l as [|a l IH]; intros [|i] [|j] H; cbn in *; try lia; try reflexivity. apply IH. lia.
Qed.
Lemma list_ext {A} (l m : list A) : (forall n, nth_error l n = nth_error m n) -> l = m.
Proof.
  revert m. induction l as [|a l IH]; intros [|b m] H; [reflexivity|specialize (H 0%nat); discriminate|specialize (H 0%nat); discriminate|].
  pose proof (H 0%nat) as H0. cbn in H0. injection H0 as <-. f_equal. apply IH. intros n. exact (H (S n)).
Qed.
Lemma qvals_read t prec n k : length t = 64%nat -> (forall p v, nth_error t p = Some v -> 0 <= v <= (if prec =? 0 then 255 else 65535)) -> 0 <= n ->
  forall m i s t0 l0 rest, i + Z.of_nat m = 64 -> 0 <= i -> nth_error (qt s) (Z.to_nat n) = Some (Some t0) -> length t0 = 64%nat ->
  (forall j p, 0 <= j < i -> aget jpeg_natural_order j = Ret p -> nth_error t0 (Z.to_nat p) = nth_error t (Z.to_nat p)) ->
  exists o, emit_qvals m i prec t = Ret o /\ length o = (m * (if (prec =? 0)%Z then 1 else 2))%nat /\
    dqt_vals m i prec n s l0 (o ++ rest) k = k (set_qt s (upd (qt s) (Z.to_nat n) (Some t))) rest.
Proof.
  intros HL HV Hn. induction m as [|m IH]; intros i s t0 l0 rest Hm Hi Hq HL0 HA; cbn [emit_qvals dqt_vals].
  - exists []. split; [reflexivity|]. split; [reflexivity|]. cbn [app]. f_equal.
    assert (E : t0 = t).
    { apply list_ext. intros p. destruct (Nat.lt_ge_cases p 64) as [Hp|Hp].
      - destruct (no_surj (Z.of_nat p)) as (j & Hj & Ej); [lia|]. specialize (HA j (Z.of_nat p) ltac:(lia) Ej). rewrite Nat2Z.id in HA. exact HA.
      - rewrite !(proj2 (nth_error_None _ _)) by lia. reflexivity. }
    subst t0. assert (U : upd (qt s) (Z.to_nat n) (Some t) = qt s).
    { apply list_ext. intros j. assert (LT : (Z.to_nat n < length (qt s))%nat) by (apply nth_error_Some; congruence). rewrite nth_upd by exact LT. destruct (Nat.eqb_spec j (Z.to_nat n)) as [E|N]; [rewrite E; auto|reflexivity]. }
    rewrite U. destruct s. reflexivity.
  - destruct (no_at i) as (p & Ep & Hp); [lia|]. rewrite Ep. cbn [bind].
    destruct (nth_error t (Z.to_nat p)) as [v|] eqn:Ev; [|apply nth_error_None in Ev; lia]. rewrite (aget_nth t p v) by (auto; lia). cbn [bind]. pose proof (HV _ _ Ev) as RV.
    set (s1 := set_qt s (upd (qt s) (Z.to_nat n) (Some (upd t0 (Z.to_nat p) v)))).
    assert (LT : (Z.to_nat n < length (qt s))%nat) by (apply nth_error_Some; congruence).
    destruct (IH (i + 1) s1 (upd t0 (Z.to_nat p) v) l0 rest) as (o & Eo & Lo & R); [lia|lia| | | |].
    + subst s1. cbn [qt set_qt]. rewrite nth_upd by exact LT. rewrite Nat.eqb_refl. reflexivity.
    + rewrite length_upd. exact HL0.
    + intros j q Hj Eq. rewrite nth_upd by lia. destruct (Nat.eqb_spec (Z.to_nat q) (Z.to_nat p)) as [E|N]; [rewrite E; auto|].
      destruct (Z.eq_dec j i) as [EJ|NJ]; [|apply (HA j); [lia|exact Eq]]. subst j. rewrite Ep in Eq. injection Eq as <-. contradiction.
    + rewrite Eo. cbn [bind]. eexists. split; [reflexivity|].
      assert (ST : forall tmp, u16 tmp = v -> forall l, (chk (aget (qt s) n) s (fun q => match q with None => RUb | Some t =>
        chk (Ret p) s (fun pos => chk (aset t pos (u16 tmp)) s (fun t => chk (aset (qt s) n (Some t)) s (fun qs =>
        dqt_vals m (i + 1) prec n (set_qt s qs) l0 l k))) end)) = dqt_vals m (i + 1) prec n s1 l0 l k).
      { intros tmp ET l. rewrite (aget_nth _ n (Some t0)) by auto. cbn [chk]. rewrite aset_ok by lia. cbn [chk]. rewrite aset_ok by lia. cbn [chk]. rewrite ET. reflexivity. }
      assert (FIN : dqt_vals m (i + 1) prec n s1 l0 (o ++ rest) k = k (set_qt s (upd (qt s) (Z.to_nat n) (Some t))) rest).
      { rewrite R. f_equal. subst s1. cbn [qt set_qt]. assert (UU : upd (upd (qt s) (Z.to_nat n) (Some (upd t0 (Z.to_nat p) v))) (Z.to_nat n) (Some t) = upd (qt s) (Z.to_nat n) (Some t)).
        { apply list_ext. intros j. rewrite !nth_upd by (rewrite ?length_upd; exact LT). destruct (Nat.eqb j (Z.to_nat n)); reflexivity. }
        rewrite UU. reflexivity. }
      destruct (Z.eqb_spec prec 0) as [EP|NP]; cbn [negb].
      * change (Z.land v 255) with (Z.land v (Z.ones 8)). rewrite Z.land_ones by lia. change (2 ^ 8) with 256. rewrite Z.mod_small by lia. rewrite eb by lia. cbn [app]. split; [cbn [length]; lia|].
        transitivity (dqt_vals m (i + 1) prec n s1 l0 (o ++ rest) k); [apply (ST v); unfold u16; rewrite Z.mod_small; lia|exact FIN].
      * assert (X : emit_byte (Z.shiftr v 8) ++ emit_byte (Z.land v 255) ++ o = [v / 256; v mod 256] ++ o).
        { rewrite Z.shiftr_div_pow2 by lia. change (2 ^ 8) with 256. change 255 with (Z.ones 8). rewrite Z.land_ones by lia. change (2 ^ 8) with 256.
          rewrite !eb; [reflexivity|apply Z.mod_pos_bound; lia|split; [apply Z.div_pos; lia|apply Z.div_lt_upper_bound; lia]]. }
        rewrite X. split; [cbn [length app]; lia|]. transitivity (dqt_vals m (i + 1) prec n s1 l0 (o ++ rest) k); [apply (ST (v / 256 * 256 + v mod 256))|exact FIN]. unfold u16. pose proof (Z.div_mod v 256). rewrite Z.mod_small; lia.
Qed.

(* ---- table transmission, abstractly ---- *)
Definition qlen (q : option (list Z)) : Prop := match q with Some t => length t = 64%nat | None => True end.
Record J (c : wst) (s : rst) : Prop := mkJ {
  j_q : length (x_q c) = 4%nat; j_q2 : Each legal_qtab (x_q c); j_d : length (x_dc c) = 4%nat; j_d2 : Each legal_htab (x_dc c); j_a : length (x_ac c) = 4%nat; j_a2 : Each legal_htab (x_ac c);
  j_soi : saw_SOI s = true; j_sq : length (qt s) = 4%nat; j_sq2 : Forall qlen (qt s); j_sd : length (dch s) = 4%nat; j_sa : length (ach s) = 4%nat;
  j_sync : tables_synced c s }.
Definition keepC (c c' : wst) : Prop := exists q d a, c' = put_q (put_dc (put_ac c a) d) q.
Definition keepT (s s' : rst) : Prop := exists q d a x u, s' = set_unread (set_disc (set_qt (set_dch (set_ach s a) d) q) x) u.
Definition hp (h : htab) : list Z * list Z := (h_bits h, h_val h).
Definition vals_eq (c c' : wst) : Prop :=
  map (option_map q_val) (x_q c') = map (option_map q_val) (x_q c) /\ map (option_map hp) (x_dc c') = map (option_map hp) (x_dc c) /\ map (option_map hp) (x_ac c') = map (option_map hp) (x_ac c).
Definition mono (c c' : wst) : Prop :=
  (forall n, 0 <= n -> q_has_sent c n -> q_has_sent c' n) /\ (forall n, 0 <= n -> dc_sent c n -> dc_sent c' n) /\ (forall n, 0 <= n -> ac_sent c n -> ac_sent c' n).
Record ph (c : wst) (s : rst) (c' : wst) (s' : rst) : Prop := mkPh { p_J : J c' s'; p_c : keepC c c'; p_s : keepT s s'; p_v : vals_eq c c'; p_m : mono c c' }.
Lemma keepC_refl c : keepC c c. Proof. exists (x_q c), (x_dc c), (x_ac c). destruct c; reflexivity. Qed.
Lemma keepT_refl s : keepT s s. Proof. exists (qt s), (dch s), (ach s), (disc s), (unread s). destruct s; reflexivity. Qed.
Lemma keepT_at s x u : keepT s (set_unread (set_disc s x) u). Proof. exists (qt s), (dch s), (ach s), x, u. destruct s; reflexivity. Qed.
Lemma keepT_un s u : keepT s (set_unread s u). Proof. exists (qt s), (dch s), (ach s), (disc s), u. destruct s; reflexivity. Qed.
Lemma ph_refl c s : J c s -> ph c s c s.
Proof. intros H. constructor; [exact H|apply keepC_refl|apply keepT_refl|split; [reflexivity|split; reflexivity]|split; [auto|split; auto]]. Qed.
Lemma keepC_trans a b c : keepC a b -> keepC b c -> keepC a c.
Proof. intros (q & d & e & ->) (q' & d' & e' & ->). exists q', d', e'. reflexivity. Qed.
Lemma keepT_trans a b c : keepT a b -> keepT b c -> keepT a c.
Proof. intros (q & d & e & x & u & ->) (q' & d' & e' & x' & u' & ->). exists q', d', e', x', u'. reflexivity. Qed.
Lemma ph_trans c s c1 s1 c2 s2 : ph c s c1 s1 -> ph c1 s1 c2 s2 -> ph c s c2 s2.
Proof.
  intros [_ A2 A3 (A4 & A5 & A6) (A7 & A8 & A9)] [B1 B2 B3 (B4 & B5 & B6) (B7 & B8 & B9)]. constructor; [exact B1|eapply keepC_trans; eauto|eapply keepT_trans; eauto| |].
  - split; [congruence|]. split; congruence.
  - split; [auto|]. split; auto.
Qed.
Lemma ph_wrap c s c' s' x u v : ph c (set_unread (set_disc s x) u) c' s' -> ph c s c' (set_unread s' v).
Proof.
  intros P. destruct P as [PJ PC PT PV PM]. constructor; [destruct PJ; constructor; assumption|exact PC| |exact PV|exact PM].
  exact (keepT_trans _ _ _ (keepT_trans _ _ _ (keepT_at s x u) PT) (keepT_un s' v)).
Qed.
Lemma map_upd {A B} (f : A -> B) l i x y : nth_error l i = Some y -> f y = f x -> map f (upd l i x) = map f l.
Proof. revert i. induction l as [|a l IH]; intros [|i] E F; cbn in *; try discriminate. - injection E as ->. now rewrite F. - f_equal. eauto. Qed.
Lemma nth_lt {A} (l : list A) i x : nth_error l i = Some x -> (i < length l)%nat.
Proof. intros E. apply nth_error_Some. congruence. Qed.
Lemma each_upd {A} (P : A -> Prop) l i x : Each P l -> P x -> Each P (upd l i (Some x)).
Proof.
  intros H Hx n y E. destruct (Nat.lt_ge_cases i (length l)) as [L|L].
  - rewrite nth_upd in E by exact L. destruct (Nat.eqb n i); [injection E as <-; exact Hx|eauto].
  - assert (U : upd l i (Some x) = l) by (clear -L; revert i L; induction l as [|a l IH]; intros [|i] L; cbn in *; try lia; [reflexivity|reflexivity|f_equal; apply IH; lia]). rewrite U in E. eauto.
Qed.
Lemma send_q c s n t x u : J c s -> 0 <= n -> nth_error (x_q c) (Z.to_nat n) = Some (Some t) ->
  let c' := put_q c (upd (x_q c) (Z.to_nat n) (Some (mkQ (q_val t) true))) in
  ph c s c' (set_unread (set_disc (set_qt s (upd (qt s) (Z.to_nat n) (Some (q_val t)))) x) u) /\ q_has_sent c' n.
Proof.
  intros HJ Hn E c'. pose proof (nth_lt _ _ _ E) as LT. destruct HJ as [H1 H2 H3 H4 H5 H6 H7 H8 H9 H10 H11 (S1 & S2 & S3)]. pose proof (H2 _ _ E) as HL.
  split; [|exists (mkQ (q_val t) true); subst c'; cbn [x_q put_q q_sent]; rewrite nth_upd by exact LT; rewrite Nat.eqb_refl; auto].
  constructor.
  - constructor; try assumption.
    + subst c'. cbn. rewrite length_upd. exact H1.
    + subst c'. cbn. apply each_upd; [exact H2|exact HL].
    + cbn. rewrite length_upd. exact H8.
    + cbn. apply Forall_upd; [exact H9|]. apply HL.
    + split; [|split; assumption]. intros m Hm (t' & Et & St). subst c'. cbn [x_q put_q] in Et. rewrite nth_upd in Et by exact LT. unfold has_q. cbn [x_q put_q qt set_unread set_disc set_qt]. rewrite !nth_upd by lia.
      destruct (Nat.eqb_spec (Z.to_nat m) (Z.to_nat n)); [injection Et as <-; eexists; split; reflexivity|]. exact (S1 m Hm (ex_intro _ t' (conj Et St))).
  - exists (upd (x_q c) (Z.to_nat n) (Some (mkQ (q_val t) true))), (x_dc c), (x_ac c). reflexivity.
  - exists (upd (qt s) (Z.to_nat n) (Some (q_val t))), (dch s), (ach s), x, u. reflexivity.
  - split; [|split; reflexivity]. subst c'. cbn [x_q put_q]. eapply map_upd; [exact E|reflexivity].
  - split; [|split; auto]. intros m Hm (t' & Et & St). subst c'. unfold q_has_sent. cbn [x_q put_q]. rewrite nth_upd by exact LT. destruct (Nat.eqb (Z.to_nat m) (Z.to_nat n)); [eexists; split; reflexivity|exists t'; auto].
Qed.
(* what the reader stores for a Huffman table *)
Definition rtab (h : htab) : list Z * list Z := (0 :: tl (h_bits h), firstn (Z.to_nat (ncodes h)) (h_val h) ++ repeat 0 (Z.to_nat (256 - ncodes h))).
Lemma zsum_nn l : bytes l -> 0 <= zsum l. Proof. induction 1 as [|v l V H IH]; [cbn; lia|]. change (0 <= v + zsum l). unfold byte_val in V. lia. Qed.
Lemma ncodes_nn h : legal_htab h -> 0 <= ncodes h <= 256.
Proof. intros (A & _ & B & C & _). split; [|exact B]. apply zsum_nn. destruct (h_bits h); [constructor|]. now inversion C. Qed.
Lemma rtab_same h : legal_htab h -> same_huff h (rtab h).
Proof.
  intros H. pose proof (ncodes_nn _ H). destruct H as (_ & V & _). split; [reflexivity|]. cbn [rtab snd]. rewrite firstn_app, firstn_firstn, Nat.min_id. rewrite firstn_length.
  replace (Z.to_nat (ncodes h) - Nat.min (Z.to_nat (ncodes h)) (length (h_val h)))%nat with 0%nat by lia. now rewrite app_nil_r.
Qed.
Lemma send_h (isac : bool) c s n h x u : J c s -> 0 <= n -> nth_error (if isac then x_ac c else x_dc c) (Z.to_nat n) = Some (Some h) ->
  let t := upd (if isac then x_ac c else x_dc c) (Z.to_nat n) (Some (mkH (h_bits h) (h_val h) true)) in
  let c' := if isac then put_ac c t else put_dc c t in
  let s' := if isac then set_ach s (upd (ach s) (Z.to_nat n) (Some (rtab h))) else set_dch s (upd (dch s) (Z.to_nat n) (Some (rtab h))) in
  ph c s c' (set_unread (set_disc s' x) u) /\ (if isac then ac_sent c' n else dc_sent c' n).
Proof.
  intros HJ Hn E t c' s'. pose proof (nth_lt _ _ _ E) as LT. destruct HJ as [H1 H2 H3 H4 H5 H6 H7 H8 H9 H10 H11 (S1 & S2 & S3)].
  assert (HL : legal_htab h) by (destruct isac; eauto). pose proof (rtab_same h HL) as RS.
  destruct isac.
  - split; [|exists (mkH (h_bits h) (h_val h) true); subst c' t; cbn [x_ac put_ac h_sent]; rewrite nth_upd by exact LT; rewrite Nat.eqb_refl; auto].
    constructor.
    + constructor; try assumption.
      * subst c' t. cbn. rewrite length_upd. exact H5.
      * subst c' t. cbn. apply each_upd; [exact H6|exact HL].
      * subst s'. cbn. rewrite length_upd. exact H11.
      * split; [assumption|]. split; [assumption|]. intros m Hm (t' & Et & St). subst c' t s'. cbn [x_ac put_ac] in Et. rewrite nth_upd in Et by exact LT. unfold has_ac. cbn [x_ac put_ac ach set_unread set_disc set_ach]. rewrite !nth_upd by lia.
        destruct (Nat.eqb_spec (Z.to_nat m) (Z.to_nat n)); [injection Et as <-; eexists; eexists; split; [reflexivity|]; split; [reflexivity|exact RS]|]. exact (S3 m Hm (ex_intro _ t' (conj Et St))).
    + exists (x_q c), (x_dc c), t. reflexivity.
    + exists (qt s), (dch s), (upd (ach s) (Z.to_nat n) (Some (rtab h))), x, u. reflexivity.
    + split; [reflexivity|]. split; [reflexivity|]. subst c' t. cbn [x_ac put_ac]. eapply map_upd; [exact E|reflexivity].
    + split; [auto|]. split; [auto|]. intros m Hm (t' & Et & St). subst c' t. unfold ac_sent. cbn [x_ac put_ac]. rewrite nth_upd by exact LT. destruct (Nat.eqb (Z.to_nat m) (Z.to_nat n)); [eexists; split; reflexivity|exists t'; auto].
  - split; [|exists (mkH (h_bits h) (h_val h) true); subst c' t; cbn [x_dc put_dc h_sent]; rewrite nth_upd by exact LT; rewrite Nat.eqb_refl; auto].
    constructor.
    + constructor; try assumption.
      * subst c' t. cbn. rewrite length_upd. exact H3.
      * subst c' t. cbn. apply each_upd; [exact H4|exact HL].
      * subst s'. cbn. rewrite length_upd. exact H10.
      * split; [assumption|]. split; [|assumption]. intros m Hm (t' & Et & St). subst c' t s'. cbn [x_dc put_dc] in Et. rewrite nth_upd in Et by exact LT. unfold has_dc. cbn [x_dc put_dc dch set_unread set_disc set_dch]. rewrite !nth_upd by lia.
        destruct (Nat.eqb_spec (Z.to_nat m) (Z.to_nat n)); [injection Et as <-; eexists; eexists; split; [reflexivity|]; split; [reflexivity|exact RS]|]. exact (S2 m Hm (ex_intro _ t' (conj Et St))).
    + exists (x_q c), t, (x_ac c). reflexivity.
    + exists (qt s), (upd (dch s) (Z.to_nat n) (Some (rtab h))), (ach s), x, u. reflexivity.
    + split; [reflexivity|]. split; [|reflexivity]. subst c' t. cbn [x_dc put_dc]. eapply map_upd; [exact E|reflexivity].
    + split; [auto|]. split; [|auto]. intros m Hm (t' & Et & St). subst c' t. unfold dc_sent. cbn [x_dc put_dc]. rewrite nth_upd by exact LT. destruct (Nat.eqb (Z.to_nat m) (Z.to_nat n)); [eexists; split; reflexivity|exists t'; auto].
Qed.

(* ---- DQT segments ---- *)
Lemma prec01 t : table_prec t = 0 \/ table_prec t = 1. Proof. unfold table_prec. destruct (existsb _ t); auto. Qed.
Lemma prec_range t : legal_quant t -> forall p v, nth_error t p = Some v -> 0 <= v <= (if table_prec t =? 0 then 255 else 65535).
Proof.
  intros [L H] p v E. pose proof (H _ _ E) as R. unfold table_prec. destruct (existsb (fun v => 255 <? v) t) eqn:X; cbn [Z.eqb]; [lia|].
  assert (Y : (255 <? v) = false). { destruct (255 <? v) eqn:Y; [|reflexivity]. assert (existsb (fun v => 255 <? v) t = true) by (apply existsb_exists; exists v; split; [eapply nth_error_In; exact E|exact Y]). congruence. }
  apply Z.ltb_ge in Y. lia.
Qed.
Lemma dqt_one t n : legal_quant t -> 0 <= n < 4 -> exists o, emit_qvals 64 0 (table_prec t) t = Ret o /\ Z.of_nat (length o) = 64 * (1 + table_prec t) /\
  forall s f k l0 rest, length (qt s) = 4%nat -> Forall qlen (qt s) -> 0 <= k ->
    dqt_loop (S f) (65 + 64 * table_prec t + k) s l0 (emit_byte (n + Z.shiftl (table_prec t) 4) ++ o ++ rest) = dqt_loop f k (set_qt s (upd (qt s) (Z.to_nat n) (Some t))) l0 rest.
Proof.
  intros HT Hn. pose proof (prec_range t HT) as PR. destruct (HT) as [L64 _]. set (pr := table_prec t) in *.
  set (sx := set_qt init_rst (upd (repeat None 4) (Z.to_nat n) (Some (repeat 0 64)))).
  assert (LN : (Z.to_nat n < 4)%nat) by lia.
  destruct (qvals_read t pr n (fun s l => ROk tt s l) L64 PR ltac:(lia) 64 0 sx (repeat 0 64) [] []) as (o & Eo & Lo & _); [lia|lia| |reflexivity|intros; lia|].
  { subst sx. cbn [qt set_qt]. rewrite nth_upd by (rewrite repeat_length; lia). now rewrite Nat.eqb_refl. }
  exists o. split; [exact Eo|]. split. { rewrite Lo. destruct (prec01 t) as [E|E]; fold pr in E; rewrite E; cbn [Z.eqb]; lia. }
  intros s f k l0 rest HQ HF Hk. cbn [dqt_loop]. destruct (Z.leb_spec (65 + 64 * pr + k) 0); [destruct (prec01 t) as [E|E]; fold pr in E; lia|].
  assert (P01 : pr = 0 \/ pr = 1) by apply prec01. rewrite Z.shiftl_mul_pow2 by lia. change (2 ^ 4) with 16.
  rewrite eb by lia. cbn [app byte].
  assert (SR : Z.shiftr (n + pr * 16) 4 = pr) by (rewrite Z.shiftr_div_pow2 by lia; change (2 ^ 4) with 16; rewrite Z.div_add by lia; rewrite Z.div_small by lia; lia).
  assert (LA : Z.land (n + pr * 16) 15 = n) by (change 15 with (Z.ones 4); rewrite Z.land_ones by lia; change (2 ^ 4) with 16; rewrite Z.mod_add by lia; rewrite Z.mod_small by lia; reflexivity).
  rewrite SR, LA. unfold NUM_QUANT_TBLS. destruct (Z.leb_spec 4 n); [lia|].
  destruct (nth_error (qt s) (Z.to_nat n)) as [q|] eqn:Eq; [|apply nth_error_None in Eq; lia].
  rewrite (aget_nth _ _ q) by (auto; lia). cbn [chk].
  set (qs := match q with Some _ => qt s | None => upd (qt s) (Z.to_nat n) (Some (repeat 0 64)) end).
  assert (EC : (match q with None => aset (qt s) n (Some (repeat 0 64)) | Some _ => Ret (qt s) end) = Ret qs) by (subst qs; destruct q; [reflexivity|rewrite aset_ok by lia; reflexivity]).
  rewrite EC. cbn [chk].
  assert (Q0 : exists t0, nth_error qs (Z.to_nat n) = Some (Some t0) /\ length t0 = 64%nat).
  { subst qs. destruct q as [t0|]; [exists t0; split; [exact Eq|exact (Forall_nth_error _ _ _ _ HF Eq)]|]. exists (repeat 0 64). split; [rewrite nth_upd by lia; now rewrite Nat.eqb_refl|reflexivity]. }
  destruct Q0 as (t0 & E0 & L0).
  destruct (qvals_read t pr n (fun s l => dqt_loop f (65 + 64 * pr + k - 65 - (if negb (pr =? 0) then 64 else 0)) s l0 l) L64 PR ltac:(lia) 64 0 (set_qt s qs) t0 l0 rest) as (o' & Eo' & _ & R); [lia|lia|exact E0|exact L0|intros; lia|].
  rewrite Eo in Eo'. injection Eo' as <-. rewrite R.
  replace (65 + 64 * pr + k - 65 - (if negb (pr =? 0) then 64 else 0)) with k by (destruct P01 as [E|E]; rewrite E; cbn [Z.eqb negb]; lia).
  f_equal. subst qs. cbn [qt set_qt]. destruct q; [reflexivity|].
  assert (UU : upd (upd (qt s) (Z.to_nat n) (Some (repeat 0 64))) (Z.to_nat n) (Some t) = upd (qt s) (Z.to_nat n) (Some t)).
  { apply list_ext. intros j. rewrite !nth_upd by (rewrite ?length_upd; lia). destruct (Nat.eqb j (Z.to_nat n)); reflexivity. }
  rewrite UU. reflexivity.
Qed.
(* reading [o] takes the reader from s to s' over whole markers *)
Definition rd (s : rst) (o : list Z) (s' : rst) : Prop := unread s' = 0 /\ exists n, (n <= length o)%nat /\ forall rest, steps n s (o ++ rest) s' rest.
Lemma rd_refl s : unread s = 0 -> rd s [] s. Proof. intros H. split; [exact H|]. exists 0%nat. split; [auto|]. intros. apply steps_refl. Qed.
Lemma rd_trans s o1 s1 o2 s2 : rd s o1 s1 -> rd s1 o2 s2 -> rd s (o1 ++ o2) s2.
Proof. intros (_ & n & L & A) (U & m & M & B). split; [exact U|]. exists (n + m)%nat. split; [rewrite app_length; lia|]. intros. rewrite <- app_assoc. eapply steps_trans; eauto. Qed.
Lemma rd_seg s m o s' : saw_SOI s = true -> unread s = 0 -> 0 < m < 255 -> unread s' = 0 -> (forall rest, process_marker (at_m s m) (o ++ rest) = ROk None s' rest) -> rd s (emit_marker m ++ o) s'.
Proof. intros A B C D E. split; [exact D|]. exists 1%nat. split; [rewrite em by lia; cbn; lia|]. intros. rewrite <- app_assoc. apply step1; auto. Qed.
Definition cont (r : rr unit) : rr (option reached) := match r with ROk _ s l => ROk None (set_unread s 0) l | RSusp s l => RSusp s l | RErr e s => RErr e s | RUb => RUb end.
Lemma pm_dqt s l : process_marker (at_m s 219) l = cont (get_dqt (at_m s 219) l). Proof. reflexivity. Qed.
Lemma pm_dht s l : process_marker (at_m s 196) l = cont (get_dht (at_m s 196) l). Proof. reflexivity. Qed.
Lemma pm_dac s l : process_marker (at_m s 204) l = cont (get_dac (at_m s 204) l). Proof. reflexivity. Qed.
Lemma pm_dri s l : process_marker (at_m s 221) l = cont (get_dri (at_m s 221) l). Proof. reflexivity. Qed.
Lemma emit_dqt_ok n c s : J c s -> unread s = 0 -> 0 <= n < 4 -> (exists t, nth_error (x_q c) (Z.to_nat n) = Some (Some t)) ->
  exists pr c' o s', emit_dqt n c = Ret (pr, c', o) /\ ph c s c' s' /\ rd s o s' /\ q_has_sent c' n.
Proof.
  intros HJ HU Hn (t & E). unfold emit_dqt. rewrite (aget_nth _ n _ (proj1 Hn) E). cbn [bind]. pose proof (j_q2 _ _ HJ _ _ E) as LT. pose proof (nth_lt _ _ _ E) as NL.
  destruct (q_sent t) eqn:ES.
  - exists (table_prec (q_val t)), c, [], s. split; [reflexivity|]. split; [now apply ph_refl|]. split; [now apply rd_refl|]. exists t. auto.
  - destruct (dqt_one (q_val t) n LT Hn) as (o & Eo & Lo & R). rewrite Eo. cbn [bind]. rewrite aset_ok by lia. cbn [bind].
    destruct (send_q c s n t 0 0 HJ ltac:(lia) E) as [P SS].
    eexists _, _, _, _. split; [reflexivity|]. split; [exact P|]. split; [|exact SS].
    set (pr := table_prec (q_val t)) in *. assert (P01 : pr = 0 \/ pr = 1) by apply prec01.
    apply rd_seg; [apply (j_soi _ _ HJ)|exact HU|lia|reflexivity|]. intros rest. rewrite <- !app_assoc.
    replace (if negb (pr =? 0) then 64 * 2 + 1 + 2 else 64 + 1 + 2) with (65 + 64 * pr + 2) by (destruct P01 as [X|X]; rewrite X; reflexivity).
    rewrite pm_dqt. unfold get_dqt. rewrite byte2_e2 by lia. replace (Z.to_nat (65 + 64 * pr + 2)) with (S (Z.to_nat (65 + 64 * pr + 1))) by lia.
    replace (65 + 64 * pr + 2 - 2) with (65 + 64 * pr + 0) by lia. rewrite R; [|apply (j_sq _ _ HJ)|apply (j_sq2 _ _ HJ)|lia].
    destruct (Z.to_nat (65 + 64 * pr + 1)); reflexivity.
Qed.
Lemma nth_map_eq {A B} (f : A -> B) l l' n : map f l = map f l' -> option_map f (nth_error l n) = option_map f (nth_error l' n).
Proof. intros E. rewrite <- !nth_error_map. now rewrite E. Qed.
Lemma q_at_later c s c' s' n t : ph c s c' s' -> nth_error (x_q c) n = Some (Some t) -> exists t', nth_error (x_q c') n = Some (Some t') /\ q_val t' = q_val t.
Proof.
  intros P E. destruct (p_v _ _ _ _ P) as (V & _). pose proof (nth_map_eq _ _ _ n V) as X. rewrite E in X. cbn in X. destruct (nth_error (x_q c') n) as [[t'|]|]; cbn in X; try discriminate. injection X as X. exists t'. auto.
Qed.
Lemma h_at_later (isac : bool) c s c' s' n t : ph c s c' s' -> nth_error (if isac then x_ac c else x_dc c) n = Some (Some t) -> exists t', nth_error (if isac then x_ac c' else x_dc c') n = Some (Some t') /\ hp t' = hp t.
Proof.
  intros P E. destruct (p_v _ _ _ _ P) as (_ & V & W). destruct isac; [pose proof (nth_map_eq _ _ _ n W) as X|pose proof (nth_map_eq _ _ _ n V) as X]; rewrite E in X; cbn in X.
  - destruct (nth_error (x_ac c') n) as [[t'|]|]; cbn in X; try discriminate. exists t'. split; [reflexivity|]. congruence.
  - destruct (nth_error (x_dc c') n) as [[t'|]|]; cbn in X; try discriminate. exists t'. split; [reflexivity|]. congruence.
Qed.
Definition q_ready (c : wst) (p : comp) : Prop := 0 <= c_q p < 4 /\ exists t, nth_error (x_q c) (Z.to_nat (c_q p)) = Some (Some t).
Lemma q_ready_later c s c' s' p : ph c s c' s' -> q_ready c p -> q_ready c' p.
Proof. intros P (H & t & E). split; [exact H|]. destruct (q_at_later _ _ _ _ _ _ P E) as (t' & E' & _). eauto. Qed.
Lemma dqt_all_ok cs : forall prec c s, J c s -> unread s = 0 -> Forall (q_ready c) cs ->
  exists pr c' o s', dqt_all cs prec c = Ret (pr, c', o) /\ ph c s c' s' /\ rd s o s' /\ Forall (fun p => q_has_sent c' (c_q p)) cs.
Proof.
  induction cs as [|p cs IH]; intros prec c s HJ HU HR; cbn [dqt_all].
  - exists prec, c, [], s. split; [reflexivity|]. split; [now apply ph_refl|]. split; [now apply rd_refl|constructor].
  - inversion HR as [|p' cs' (Hq & Ht) HR']; subst. destruct (emit_dqt_ok (c_q p) c s HJ HU Hq Ht) as (q & c1 & o1 & s1 & E1 & P1 & R1 & S1). rewrite E1. cbn [bind].
    destruct (IH (prec + q) c1 s1 (p_J _ _ _ _ P1) (proj1 R1)) as (q2 & c2 & o2 & s2 & E2 & P2 & R2 & S2); [revert HR'; apply Forall_impl; intros; eapply q_ready_later; eauto|]. rewrite E2. cbn [bind].
    exists q2, c2, (o1 ++ o2), s2. split; [reflexivity|]. split; [eapply ph_trans; eauto|]. split; [eapply rd_trans; eauto|]. constructor; [|exact S2]. apply (p_m _ _ _ _ P2); [lia|exact S1].
Qed.
(* emit_multi_dqt: the checks, the length and the emission agree *)
Lemma mdqt_check_ok cs q : Forall (fun p => 0 <= c_q p < 4 /\ exists t, nth_error q (Z.to_nat (c_q p)) = Some (Some t)) cs ->
  exists r, mdqt_check cs q = Ret r /\ match r with None => True | Some pr => Forall2 (fun p x => exists t, nth_error q (Z.to_nat (c_q p)) = Some (Some t) /\ q_sent t = false /\ x = table_prec (q_val t)) cs pr end.
Proof.
  induction 1 as [|p cs (Hq & t & Et) HF IH]; cbn [mdqt_check]; [exists (Some []); split; [reflexivity|constructor]|].
  rewrite (aget_nth _ (c_q p) _ (proj1 Hq) Et). cbn [bind]. destruct (q_sent t) eqn:ES; [exists None; auto|]. destruct IH as (r & -> & IH). cbn [bind]. eexists. split; [reflexivity|]. destruct r as [pr|]; cbn; [|exact I]. constructor; [exists t; auto|exact IH].
Qed.
(* tables already sent by this marker: those whose seen flag is set *)
Lemma mdqt_emit_ok : forall cs pr c0 c s seen size, J c s -> vals_eq c0 c -> length seen = 10%nat ->
  Forall2 (fun p x => 0 <= c_q p < 4 /\ exists t, nth_error (x_q c0) (Z.to_nat (c_q p)) = Some (Some t) /\ x = table_prec (q_val t)) cs pr ->
  (forall n, 0 <= n < 4 -> (exists p, In p cs /\ c_q p = n) -> (aget seen n = Ret 0 <-> ~ q_has_sent c n)) ->
  (forall n, 0 <= n < 4 -> aget seen n = Ret 0 \/ aget seen n = Ret 1) ->
  exists c' o s' m, mdqt_emit cs pr c = Ret (c', o) /\ mdqt_size cs pr seen size = Ret (size + Z.of_nat (length o)) /\ ph c s c' s' /\
    Forall (fun p => q_has_sent c' (c_q p)) cs /\ (m <= length o)%nat /\ Z.of_nat (length o) <= 129 * zsum (map (fun n => if match aget seen n with Ret 0 => true | _ => false end then 1 else 0) [0; 1; 2; 3]) /\
    unread s' = unread s /\ disc s' = disc s /\
    (forall f k l0 rest, 0 <= k -> dqt_loop (m + f) (Z.of_nat (length o) + k) s l0 (o ++ rest) = dqt_loop f k s' l0 rest).
Proof.
  induction cs as [|p cs IH]; intros pr c0 c s seen size HJ HV HS HF HI H01; inversion HF as [|p' x cs' pr' (Hq & t & Et & Ex) HF']; subst.
  - exists c, [], s, 0%nat. cbn [mdqt_emit mdqt_size length]. split; [reflexivity|]. split; [f_equal; lia|]. split; [now apply ph_refl|]. split; [constructor|]. split; [lia|].
    split. { cbn [map zsum fold_right]. repeat match goal with |- context [if ?b then _ else _] => destruct b end; cbn; lia. }
    split; [reflexivity|]. split; [reflexivity|]. intros f k l0 rest Hk. cbn [Nat.add app]. change (Z.of_nat 0 + k) with (0 + k). rewrite Z.add_0_l. reflexivity.
  - cbn [mdqt_emit mdqt_size]. set (n := c_q p) in *.
    destruct HV as (HV & HV2). pose proof (nth_map_eq _ _ _ (Z.to_nat n) HV) as X. rewrite Et in X. cbn in X. destruct (nth_error (x_q c) (Z.to_nat n)) as [[t'|]|] eqn:Et'; cbn in X; try discriminate. injection X as X.
    rewrite (aget_nth _ n _ (proj1 Hq) Et'). cbn [bind].
    assert (HIN : aget seen n = Ret 0 <-> ~ q_has_sent c n) by (apply HI; [lia|exists p; split; [now left|reflexivity]]).
    destruct (q_sent t') eqn:ES.
    + assert (QS : q_has_sent c n) by (exists t'; auto). assert (SN : aget seen n = Ret 1) by (destruct (H01 n Hq) as [H|H]; [exfalso; apply HIN in H; contradiction|exact H]).
      rewrite SN. cbn [bind]. change (negb (1 =? 0)) with true. cbn iota.
      destruct (IH pr' c0 c s seen size HJ (conj HV HV2) HS HF') as (c' & o & s' & m & E1 & E2 & P & SS & L & B & U & D & R).
      { intros k Hk (q & Hin & Eq). apply HI; [exact Hk|]. exists q. split; [now right|exact Eq]. } { exact H01. }
      exists c', o, s', m. split; [exact E1|]. split; [exact E2|]. split; [exact P|]. split; [constructor; [apply (p_m _ _ _ _ P); [lia|exact QS]|exact SS]|]. auto.
    + assert (QS : ~ q_has_sent c n) by (intros (t2 & E2 & S2); rewrite Et' in E2; injection E2 as <-; congruence). apply HIN in QS. rewrite QS. cbn [bind]. change (negb (0 =? 0)) with false. cbn iota.
      rewrite (aset_ok seen) by lia. cbn [bind]. pose proof (j_q2 _ _ HJ _ _ Et') as LT. pose proof (nth_lt _ _ _ Et') as NL.
      destruct (dqt_one (q_val t') n LT Hq) as (o1 & Eo & Lo & R1). rewrite <- X. rewrite Eo. cbn [bind]. rewrite aset_ok by lia. cbn [bind].
      destruct (send_q c s n t' (disc s) (unread s) HJ (proj1 Hq) Et') as [P1 S1].
      set (c1 := put_q c _) in *. set (s1 := set_unread _ _) in *.
      assert (SG : forall k, 0 <= k < 4 -> aget (upd seen (Z.to_nat n) 1) k = if k =? n then Ret 1 else aget seen k).
      { intros k Hk. unfold aget. destruct (Z.ltb_spec k 0); [lia|]. rewrite nth_upd by lia. destruct (Z.eqb_spec k n) as [EE|N]; [rewrite EE, Nat.eqb_refl; reflexivity|]. destruct (Nat.eqb_spec (Z.to_nat k) (Z.to_nat n)); [lia|reflexivity]. }
      destruct (IH pr' c0 c1 s1 (upd seen (Z.to_nat n) 1) (size + 64 * (table_prec (q_val t') + 1) + 1)) as (c' & o & s' & m & E1 & E2 & P & SS & L & B & U & D & R).
      * apply (p_J _ _ _ _ P1).
      * destruct (p_v _ _ _ _ P1) as (V1 & V2 & V3). split; [congruence|]. destruct HV2. split; congruence.
      * rewrite length_upd. exact HS.
      * exact HF'.
      * intros k Hk (q & Hin & Eq). rewrite SG by exact Hk. destruct (Z.eqb_spec k n) as [EE|N].
        { split; [discriminate|]. intros C. exfalso. apply C. rewrite EE. exact S1. }
        rewrite (HI k Hk (ex_intro _ q (conj (or_intror Hin) Eq))). split; intros C Y; apply C.
        { destruct Y as (t2 & E2 & S2). exists t2. split; [|exact S2]. subst c1. cbn [x_q put_q] in E2. rewrite nth_upd in E2 by lia. destruct (Nat.eqb_spec (Z.to_nat k) (Z.to_nat n)); [lia|exact E2]. }
        { apply (p_m _ _ _ _ P1); [lia|exact Y]. }
      * intros k Hk. rewrite SG by exact Hk. destruct (k =? n); [now right|now apply H01].
      * rewrite E1. cbn [bind]. eexists c', _, s', (S m). split; [reflexivity|].
        assert (P01 : table_prec (q_val t') = 0 \/ table_prec (q_val t') = 1) by apply prec01.
        assert (LL : Z.of_nat (length (emit_byte (n + Z.shiftl (table_prec (q_val t')) 4) ++ o1 ++ o)) = 65 + 64 * table_prec (q_val t') + Z.of_nat (length o)).
        { rewrite !app_length. change (length (emit_byte (n + Z.shiftl (table_prec (q_val t')) 4))) with 1%nat. lia. }
        split; [rewrite E2, LL; f_equal; lia|]. split; [eapply ph_trans; eauto|]. split; [constructor; [apply (p_m _ _ _ _ P); [lia|exact S1]|exact SS]|]. split; [lia|].
        split. { rewrite LL. revert B. cbn [map zsum fold_right]. rewrite !SG by lia. assert (J4 : n = 0 \/ n = 1 \/ n = 2 \/ n = 3) by lia. destruct J4 as [J4|[J4|[J4|J4]]]; clearbody n; subst n; rewrite QS; cbn [Z.eqb Pos.eqb]; cbn iota; repeat match goal with |- context [if (match aget seen ?k with _ => _ end) then 1 else 0] => destruct (match aget seen k with Ret 0 => true | _ => false end) end; cbn iota; lia. }
        split; [exact U|]. split; [exact D|]. intros f k l0 rest Hk. rewrite LL. rewrite <- !app_assoc. change (S m + f)%nat with (S (m + f)).
        replace (65 + 64 * table_prec (q_val t') + Z.of_nat (length o) + k) with (65 + 64 * table_prec (q_val t') + (Z.of_nat (length o) + k)) by lia.
        rewrite R1; [|apply (j_sq _ _ HJ)|apply (j_sq2 _ _ HJ)|lia].
        assert (ES1 : set_qt s (upd (qt s) (Z.to_nat n) (Some (q_val t'))) = s1) by (subst s1; destruct s; reflexivity). rewrite ES1. apply R. exact Hk.
Qed.
Lemma emit_multi_dqt_ok c s : J c s -> unread s = 0 -> Forall (q_ready c) (x_comps c) ->
  exists pr c' o s', emit_multi_dqt c = Ret (pr, c', o) /\ ph c s c' s' /\ rd s o s' /\ ((pr = -1 /\ c' = c /\ o = []) \/ (0 <= pr /\ Forall (fun p => q_has_sent c' (c_q p)) (x_comps c))).
Proof.
  intros HJ HU HR. unfold emit_multi_dqt. destruct (x_fastest c).
  { exists (-1), c, [], s. split; [reflexivity|]. split; [now apply ph_refl|]. split; [now apply rd_refl|now left]. }
  destruct (mdqt_check_ok (x_comps c) (x_q c) HR) as (r & -> & H). cbn [bind]. destruct r as [pr|].
  2: { exists (-1), c, [], s. split; [reflexivity|]. split; [now apply ph_refl|]. split; [now apply rd_refl|now left]. }
  destruct (mdqt_emit_ok (x_comps c) pr c c (at_m s 219) (repeat 0 10) 0) as (c' & o & s' & m & E1 & E2 & P & SS & L & B & U & D & R).
  - destruct HJ; constructor; assumption.
  - split; [reflexivity|]. split; reflexivity.
  - reflexivity.
  - clear -H HR. revert HR. induction H as [|p x cs xs (t & Et & _ & Ex) HF IH]; intros HR; [constructor|]. inversion HR as [|a b (Hq & _) HR']; subst. constructor; [split; [exact Hq|]; exists t; auto|auto].
  - intros n Hn (p & Hin & Ep). split; [|intros _; assert (J4 : n = 0 \/ n = 1 \/ n = 2 \/ n = 3) by lia; destruct J4 as [J4|[J4|[J4|J4]]]; rewrite J4; reflexivity].
    intros _ (t & Et & St). clear -H Hin Ep Et St. induction H as [|q x cs xs (t2 & Et2 & S2 & _) HF IH]; [contradiction|]. destruct Hin as [-> |Hin]; [|auto]. subst n. rewrite Et in Et2. injection Et2 as <-. congruence.
  - intros n Hn. left. assert (J4 : n = 0 \/ n = 1 \/ n = 2 \/ n = 3) by lia; destruct J4 as [J4|[J4|[J4|J4]]]; rewrite J4; reflexivity.
  - rewrite E2. cbn [bind]. rewrite E1. cbn [bind].
    assert (B2 : Z.of_nat (length o) <= 516) by (change (zsum _) with 4 in B; lia).
    eexists _, c', _, (set_unread s' 0). split; [reflexivity|]. split.
    { exact (ph_wrap _ _ _ _ _ _ _ P). }
    split; [|right; split; [|exact SS]].
    + apply rd_seg; [apply (j_soi _ _ HJ)|exact HU|lia|reflexivity|]. intros rest. rewrite <- !app_assoc. rewrite pm_dqt. unfold get_dqt. rewrite byte2_e2 by lia.
      replace (0 + Z.of_nat (length o) + 2 - 2) with (Z.of_nat (length o) + 0) by lia. replace (Z.to_nat (0 + Z.of_nat (length o) + 2)) with (m + (Z.to_nat (2 + Z.of_nat (length o) - Z.of_nat m)))%nat by lia.
      rewrite R by lia. destruct (Z.to_nat (2 + Z.of_nat (length o) - Z.of_nat m)); reflexivity.
    + clear -H. induction H as [|p x cs xs (t & _ & _ & Ex) HF IH]; [cbn; lia|]. change (0 <= x + zsum xs). destruct (prec01 (q_val t)); lia.
Qed.

(* ---- DHT ---- *)
Lemma skipn_nth {A} (l : list A) k x : nth_error l k = Some x -> skipn k l = x :: skipn (S k) l.
Proof. revert k. induction l as [|a l IH]; intros [|k] E; cbn in *; try discriminate; [injection E as ->; reflexivity|]. rewrite (IH _ E). destruct l; reflexivity. Qed.
Lemma emit_slice_ok a m : forall k, bytes a -> 0 <= k -> k + Z.of_nat m <= Z.of_nat (length a) -> emit_slice m k a = Ret (firstn m (skipn (Z.to_nat k) a)).
Proof.
  induction m as [|m IH]; intros k HB Hk HL; cbn [emit_slice]; [reflexivity|].
  destruct (nth_error a (Z.to_nat k)) as [v|] eqn:E; [|apply nth_error_None in E; lia]. rewrite (aget_nth _ k v Hk E). cbn [bind]. rewrite IH by (auto; lia). cbn [bind].
  pose proof (Forall_nth_error _ _ _ _ HB E) as BV. unfold byte_val in BV. rewrite eb by lia. rewrite (skipn_nth _ _ _ E). replace (Z.to_nat (k + 1)) with (S (Z.to_nat k)) by lia. reflexivity.
Qed.
Lemma sum_slice_ok a m : forall k, 0 <= k -> k + Z.of_nat m <= Z.of_nat (length a) -> sum_slice m k a = Ret (zsum (firstn m (skipn (Z.to_nat k) a))).
Proof.
  induction m as [|m IH]; intros k Hk HL; cbn [sum_slice]; [reflexivity|].
  destruct (nth_error a (Z.to_nat k)) as [v|] eqn:E; [|apply nth_error_None in E; lia]. rewrite (aget_nth _ k v Hk E). cbn [bind]. rewrite IH by lia. cbn [bind].
  rewrite (skipn_nth _ _ _ E). replace (Z.to_nat (k + 1)) with (S (Z.to_nat k)) by lia. reflexivity.
Qed.
Lemma tl16 (b : list Z) : length b = 17%nat -> firstn 16 (skipn 1 b) = tl b.
Proof. destruct b as [|x b]; [discriminate|]. cbn [length skipn tl]. intros. apply firstn_all2. lia. Qed.
Definition enc (i : Z) (h : htab) : list Z := i :: tl (h_bits h) ++ firstn (Z.to_nat (ncodes h)) (h_val h).
Lemma h_slices h : legal_htab h -> sum_slice 16 1 (h_bits h) = Ret (ncodes h) /\ emit_slice 16 1 (h_bits h) = Ret (tl (h_bits h)) /\ emit_slice (Z.to_nat (ncodes h)) 0 (h_val h) = Ret (firstn (Z.to_nat (ncodes h)) (h_val h)).
Proof.
  intros H. pose proof (ncodes_nn _ H). destruct H as (A & B & C & D & E). rewrite sum_slice_ok, !emit_slice_ok by (auto; lia). change (Z.to_nat 1) with 1%nat. rewrite (tl16 _ A). split; [reflexivity|]. split; reflexivity.
Qed.
Lemma enc_len i h : legal_htab h -> Z.of_nat (length (enc i h)) = 17 + ncodes h.
Proof. intros H. pose proof (ncodes_nn _ H). destruct H as (A & B & _). unfold enc. cbn [length]. rewrite app_length, firstn_length. destruct (h_bits h); [discriminate|]. cbn [tl length] in *. lia. Qed.
Definition setH (isac : bool) (s : rst) (n : Z) (h : htab) : rst :=
  if isac then set_ach s (upd (ach s) (Z.to_nat n) (Some (rtab h))) else set_dch s (upd (dch s) (Z.to_nat n) (Some (rtab h))).
Lemma dht_one (isac : bool) n h s f k l0 rest : legal_htab h -> 0 <= n < 4 -> length (dch s) = 4%nat -> length (ach s) = 4%nat -> 0 <= k ->
  dht_loop (S f) (17 + ncodes h + k) s l0 (enc (if isac then n + 16 else n) h ++ rest) = dht_loop f k (setH isac s n h) l0 rest.
Proof.
  intros HL Hn HD HA Hk. pose proof (ncodes_nn _ HL) as NC. destruct HL as (LB & LV & _). cbn [dht_loop]. destruct (Z.leb_spec (17 + ncodes h + k) 16); [lia|].
  unfold enc. cbn [app byte]. rewrite <- app_assoc. assert (L16 : length (tl (h_bits h)) = 16%nat) by (destruct (h_bits h); [discriminate|cbn in *; lia]).
  rewrite <- L16 at 1. rewrite nbytes_app. cbn [app]. fold (ncodes h). cbn zeta.
  destruct (Z.ltb_spec 256 (ncodes h)); [lia|]. cbn [orb]. destruct (Z.ltb_spec (17 + ncodes h + k - 17) (ncodes h)); [lia|].
  assert (LF : length (firstn (Z.to_nat (ncodes h)) (h_val h)) = Z.to_nat (ncodes h)) by (rewrite firstn_length; lia).
  rewrite <- LF at 1. rewrite nbytes_app. cbn [app]. replace (17 + ncodes h + k - 17 - ncodes h) with k by lia. unfold NUM_HUFF_TBLS.
  assert (J4 : n = 0 \/ n = 1 \/ n = 2 \/ n = 3) by lia.
  destruct isac.
  - replace (Z.land (n + 16) 16 =? 0) with false by (destruct J4 as [-> |[-> |[-> | ->]]]; reflexivity). cbn [negb]. replace (n + 16 - 16) with n by lia. destruct (Z.ltb_spec n 0); [lia|]. destruct (Z.leb_spec 4 n); [lia|]. cbn [orb]. rewrite aset_ok by lia. reflexivity.
  - replace (Z.land n 16 =? 0) with true by (destruct J4 as [-> |[-> |[-> | ->]]]; reflexivity). cbn [negb]. destruct (Z.ltb_spec n 0); [lia|]. destruct (Z.leb_spec 4 n); [lia|]. cbn [orb]. rewrite aset_ok by lia. reflexivity.
Qed.
Definition h_sent_in (isac : bool) (c : wst) (n : Z) : Prop := if isac then ac_sent c n else dc_sent c n.
Definition h_ready (isac : bool) (c : wst) (n : Z) : Prop := 0 <= n < 4 /\ exists t, nth_error (if isac then x_ac c else x_dc c) (Z.to_nat n) = Some (Some t).
Lemma h_ready_later isac c s c' s' n : ph c s c' s' -> h_ready isac c n -> h_ready isac c' n.
Proof. intros P (H & t & E). split; [exact H|]. destruct (h_at_later _ _ _ _ _ _ _ P E) as (t' & E' & _). eauto. Qed.
Lemma h_sent_later isac c s c' s' n : ph c s c' s' -> 0 <= n -> h_sent_in isac c n -> h_sent_in isac c' n.
Proof. intros P Hn. destruct isac; cbn; apply (p_m _ _ _ _ P); exact Hn. Qed.
Lemma j_legal (isac : bool) c s n h : J c s -> nth_error (if isac then x_ac c else x_dc c) n = Some (Some h) -> legal_htab h.
Proof. intros HJ E. destruct isac; [exact (j_a2 _ _ HJ _ _ E)|exact (j_d2 _ _ HJ _ _ E)]. Qed.
Lemma emit_dht_ok (isac : bool) n c s : J c s -> unread s = 0 -> h_ready isac c n ->
  exists c' o s', emit_dht n isac c = Ret (c', o) /\ ph c s c' s' /\ rd s o s' /\ h_sent_in isac c' n.
Proof.
  intros HJ HU (Hn & t & E). unfold emit_dht. rewrite (aget_nth _ n _ (proj1 Hn) E). cbn [bind]. pose proof (j_legal _ _ _ _ _ HJ E) as LT. pose proof (nth_lt _ _ _ E) as NL.
  destruct (h_sent t) eqn:ES.
  - exists c, [], s. split; [reflexivity|]. split; [now apply ph_refl|]. split; [now apply rd_refl|]. destruct isac; exists t; auto.
  - destruct (h_slices t LT) as (-> & -> & X). cbn [bind]. rewrite X. cbn [bind]. rewrite aset_ok by lia. cbn [bind].
    destruct (send_h isac c s n t 0 0 HJ (proj1 Hn) E) as [P SS].
    eexists _, _, _. split; [reflexivity|]. split; [exact P|]. split; [|exact SS].
    pose proof (ncodes_nn _ LT) as NC. assert (BI : 0 <= (if isac then n + 16 else n) < 256) by (destruct isac; lia).
    apply rd_seg; [apply (j_soi _ _ HJ)|exact HU|lia|destruct isac; reflexivity|]. intros rest. rewrite (eb _ BI). rewrite <- (app_assoc (emit_2bytes _)).
    change ([if isac then n + 16 else n] ++ tl (h_bits t) ++ firstn (Z.to_nat (ncodes t)) (h_val t)) with (enc (if isac then n + 16 else n) t).
    rewrite pm_dht. unfold get_dht. rewrite byte2_e2 by lia. replace (Z.to_nat (ncodes t + 2 + 1 + 16)) with (S (Z.to_nat (ncodes t + 2 + 16))) by lia.
    replace (ncodes t + 2 + 1 + 16 - 2) with (17 + ncodes t + 0) by lia. rewrite dht_one; [|exact LT|exact Hn|apply (j_sd _ _ HJ)|apply (j_sa _ _ HJ)|lia].
    destruct (Z.to_nat (ncodes t + 2 + 16)); destruct isac; reflexivity.
Qed.
Lemma keep_need c c' : keepC c c' -> need_dc c' = need_dc c /\ need_ac c' = need_ac c /\ x_lossless c' = x_lossless c /\ x_comps c' = x_comps c.
Proof. intros (q & d & a & ->). split; [reflexivity|]. split; [reflexivity|]. split; reflexivity. Qed.
Lemma dht_all_ok ps : forall c s, J c s -> unread s = 0 ->
  Forall (fun p => (need_dc c || x_lossless c = true -> h_ready false c (c_dc p)) /\ (need_ac c && negb (x_lossless c) = true -> h_ready true c (c_ac p))) ps ->
  exists c' o s', dht_all ps c = Ret (c', o) /\ ph c s c' s' /\ rd s o s' /\
    Forall (fun p => (need_dc c || x_lossless c = true -> dc_sent c' (c_dc p)) /\ (need_ac c && negb (x_lossless c) = true -> ac_sent c' (c_ac p))) ps.
Proof.
  induction ps as [|p ps IH]; intros c s HJ HU HR; cbn [dht_all].
  - exists c, [], s. split; [reflexivity|]. split; [now apply ph_refl|]. split; [now apply rd_refl|constructor].
  - inversion HR as [|p' ps' (R1 & R2) HR']; subst.
    assert (S1 : exists c1 o1 s1, (if need_dc c || x_lossless c then emit_dht (c_dc p) false c else Ret (c, [])) = Ret (c1, o1) /\ ph c s c1 s1 /\ rd s o1 s1 /\ (need_dc c || x_lossless c = true -> dc_sent c1 (c_dc p))).
    { destruct (need_dc c || x_lossless c) eqn:EN; [destruct (emit_dht_ok false (c_dc p) c s HJ HU (R1 eq_refl)) as (c1 & o1 & s1 & E1 & P1 & D1 & T1); exists c1, o1, s1; auto|].
      exists c, [], s. split; [reflexivity|]. split; [now apply ph_refl|]. split; [now apply rd_refl|discriminate]. }
    destruct S1 as (c1 & o1 & s1 & E1 & P1 & D1 & T1). rewrite E1. cbn [bind]. destruct (keep_need _ _ (p_c _ _ _ _ P1)) as (K1 & K2 & K3 & _).
    assert (S2 : exists c2 o2 s2, (if need_ac c1 && negb (x_lossless c1) then emit_dht (c_ac p) true c1 else Ret (c1, [])) = Ret (c2, o2) /\ ph c1 s1 c2 s2 /\ rd s1 o2 s2 /\ (need_ac c && negb (x_lossless c) = true -> ac_sent c2 (c_ac p))).
    { rewrite K2, K3. destruct (need_ac c && negb (x_lossless c)) eqn:EN; [destruct (emit_dht_ok true (c_ac p) c1 s1 (p_J _ _ _ _ P1) (proj1 D1) (h_ready_later _ _ _ _ _ _ P1 (R2 eq_refl))) as (c2 & o2 & s2 & X & Y & Z & W); exists c2, o2, s2; auto|].
      exists c1, [], s1. split; [reflexivity|]. split; [apply ph_refl, (p_J _ _ _ _ P1)|]. split; [apply rd_refl, (proj1 D1)|discriminate]. }
    destruct S2 as (c2 & o2 & s2 & E2 & P2 & D2 & T2). rewrite E2. cbn [bind]. pose proof (ph_trans _ _ _ _ _ _ P1 P2) as P12. destruct (keep_need _ _ (p_c _ _ _ _ P12)) as (L1 & L2 & L3 & _).
    destruct (IH c2 s2 (p_J _ _ _ _ P2) (proj1 D2)) as (c3 & o3 & s3 & E3 & P3 & D3 & T3).
    { revert HR'. apply Forall_impl. intros q (Q1 & Q2). rewrite L1, L2, L3. split; intros X; eapply h_ready_later; eauto. }
    rewrite E3. cbn [bind]. exists c3, (o1 ++ o2 ++ o3), s3. split; [reflexivity|]. split; [eapply ph_trans; eauto|]. split; [eapply rd_trans; [exact D1|eapply rd_trans; eauto]|].
    rewrite L1, L2, L3 in T3. constructor; [|exact T3]. split; intros X.
    + apply (p_m _ _ _ _ P3); [apply (R1 X)|]. apply (p_m _ _ _ _ P2); [apply (R1 X)|auto].
    + apply (p_m _ _ _ _ P3); [apply (R2 X)|auto].
Qed.

(* ---- emit_multi_dht ---- *)
Definition tabs (isac : bool) (c : wst) : list (option htab) := if isac then x_ac c else x_dc c.
Definition sentb (isac : bool) (c : wst) (n : Z) : bool := match nth_error (tabs isac c) (Z.to_nat n) with Some (Some h) => h_sent h | _ => false end.
Lemma sentb_iff isac c n : h_sent_in isac c n <-> sentb isac c n = true.
Proof.
  unfold sentb, h_sent_in, ac_sent, dc_sent, tabs. destruct isac; (split; [intros (h & E & S); now rewrite E|]); [destruct (nth_error (x_ac c) (Z.to_nat n)) as [[h|]|]|destruct (nth_error (x_dc c) (Z.to_nat n)) as [[h|]|]]; try discriminate; intros S; exists h; auto.
Qed.
Lemma seen_upd l i x k : nth_error l i = Some None -> seen_in k (upd l i (Some x)) = seen_in k l || (x =? k).
Proof. unfold seen_in. revert i. induction l as [|a l IH]; intros [|i] E; cbn in *; try discriminate. - injection E as ->. cbn. now rewrite orb_comm. - rewrite (IH _ E). now rewrite orb_assoc. Qed.
Lemma mdht_table_ok (isac : bool) n k c s : J c s -> h_ready isac c n -> (forall h, nth_error (tabs isac c) (Z.to_nat n) = Some (Some h) -> h_sent h = false -> k = ncodes h) ->
  exists c' o s' m, mdht_table isac n k c = Ret (c', o) /\ ph c s c' s' /\ (forall j, 0 <= j -> sentb isac c' j = sentb isac c j || (j =? n)) /\ (forall j, sentb (negb isac) c' j = sentb (negb isac) c j) /\
    (m <= length o)%nat /\ unread s' = unread s /\ disc s' = disc s /\ Z.of_nat (length o) = (if sentb isac c n then 0 else 17 + k) /\
    (forall f r l0 rest, 0 <= r -> dht_loop (m + f) (Z.of_nat (length o) + r) s l0 (o ++ rest) = dht_loop f r s' l0 rest).
Proof.
  intros HJ (Hn & t & E) HK. unfold mdht_table. rewrite (aget_nth _ n _ (proj1 Hn) E). cbn [bind]. pose proof (j_legal _ _ _ _ _ HJ E) as LT. pose proof (nth_lt _ _ _ E) as NL. fold (tabs isac c) in E, NL |- *.
  assert (SB : sentb isac c n = h_sent t) by (unfold sentb; now rewrite E). rewrite SB.
  destruct (h_sent t) eqn:ES.
  - exists c, [], s, 0%nat. split; [reflexivity|]. split; [now apply ph_refl|]. split. { intros j Hj. destruct (Z.eqb_spec j n) as [EE|N]; [rewrite EE, SB; reflexivity|now rewrite orb_false_r]. }
    split; [reflexivity|]. split; [lia|]. split; [reflexivity|]. split; [reflexivity|]. split; [reflexivity|]. intros. cbn [Nat.add app]. change (Z.of_nat (length (@nil Z)) + r) with (0 + r). rewrite Z.add_0_l. reflexivity.
  - specialize (HK t E ES). subst k. destruct (h_slices t LT) as (_ & -> & X). cbn [bind]. rewrite X. cbn [bind]. rewrite aset_ok by lia. cbn [bind].
    destruct (send_h isac c s n t (disc s) (unread s) HJ (proj1 Hn) E) as [P SS].
    pose proof (ncodes_nn _ LT) as NC. assert (BI : 0 <= (if isac then n + 16 else n) < 256) by (destruct isac; lia). rewrite (eb _ BI).
    change ([if isac then n + 16 else n] ++ tl (h_bits t) ++ firstn (Z.to_nat (ncodes t)) (h_val t)) with (enc (if isac then n + 16 else n) t).
    eexists _, _, _, 1%nat. split; [reflexivity|]. split; [exact P|].
    split. { intros j Hj. unfold sentb, tabs in *. destruct isac; cbn [x_ac x_dc put_ac put_dc]; rewrite nth_upd by exact NL; (destruct (Z.eqb_spec j n) as [EE|N]; [rewrite EE, Nat.eqb_refl; cbn; now rewrite orb_true_r|]; destruct (Nat.eqb_spec (Z.to_nat j) (Z.to_nat n)); [lia|now rewrite orb_false_r]). }
    split; [intros j; destruct isac; reflexivity|]. split; [unfold enc; cbn [length]; lia|]. split; [destruct isac; reflexivity|]. split; [destruct isac; reflexivity|]. split; [now apply enc_len|].
    intros f r l0 rest Hr. rewrite (enc_len _ _ LT). change (1 + f)%nat with (S f). rewrite dht_one; [|exact LT|exact Hn|apply (j_sd _ _ HJ)|apply (j_sa _ _ HJ)|exact Hr].
    destruct isac; destruct s; reflexivity.
Qed.
Record mdinv (i : Z) (d : mdht) : Prop := mkMdi {
  mi_1 : length (md_dl d) = 4%nat; mi_2 : length (md_al d) = 4%nat; mi_3 : length (md_ds d) = 4%nat; mi_4 : length (md_as d) = 4%nat;
  mi_5 : forall j, i <= j < 4 -> aget (md_dl d) j = Ret 0 /\ aget (md_al d) j = Ret 0 /\ nth_error (md_ds d) (Z.to_nat j) = Some None /\ nth_error (md_as d) (Z.to_nat j) = Some None }.
Lemma aget_upd {A} (l : list A) i j x : 0 <= i < Z.of_nat (length l) -> 0 <= j -> aget (upd l (Z.to_nat i) x) j = if j =? i then Ret x else aget l j.
Proof. intros Hi Hj. unfold aget. destruct (Z.ltb_spec j 0); [lia|]. rewrite nth_upd by lia. destruct (Z.eqb_spec j i) as [EE|N]; [rewrite EE, Nat.eqb_refl; reflexivity|]. destruct (Nat.eqb_spec (Z.to_nat j) (Z.to_nat i)); [lia|reflexivity]. Qed.
Lemma mdht_ac_ok c p i d : mdinv i d \/ True -> length (md_al d) = 4%nat -> length (md_as d) = 4%nat -> 0 <= i < 4 -> aget (md_al d) i = Ret 0 -> nth_error (md_as d) (Z.to_nat i) = Some None ->
  (need_ac c = true -> exists h, 0 <= c_ac p /\ nth_error (x_ac c) (Z.to_nat (c_ac p)) = Some (Some h) /\ legal_htab h) ->
  exists d1 n, mdht_ac c p i d = Ret d1 /\ md_dl d1 = md_dl d /\ md_ds d1 = md_ds d /\ length (md_al d1) = 4%nat /\ length (md_as d1) = 4%nat /\
    (forall j, 0 <= j -> j <> i -> aget (md_al d1) j = aget (md_al d) j /\ nth_error (md_as d1) (Z.to_nat j) = nth_error (md_as d) (Z.to_nat j)) /\ aget (md_al d1) i = Ret n /\
    let w := need_ac c && negb (sentb true c (c_ac p) || seen_in (c_ac p) (md_as d)) in
    md_len d1 = md_len d + (if w then 17 + n else 0) /\ (forall k, seen_in k (md_as d1) = seen_in k (md_as d) || (w && (c_ac p =? k))) /\
    (w = true -> forall h, nth_error (x_ac c) (Z.to_nat (c_ac p)) = Some (Some h) -> n = ncodes h).
Proof.
  intros _ L1 L2 Hi A0 N0 HR. unfold mdht_ac. destruct (need_ac c) eqn:EN; cbn [andb].
  2: { exists d, 0. split; [reflexivity|]. do 6 (split; [auto|]). cbn zeta. split; [lia|]. split; [intros; now rewrite orb_false_r|discriminate]. }
  destruct (HR eq_refl) as (h & Ha & Eh & LH). rewrite (aget_nth _ _ _ Ha Eh). cbn [bind]. assert (SB : sentb true c (c_ac p) = h_sent h) by (unfold sentb, tabs; now rewrite Eh). rewrite SB.
  destruct (h_sent h) eqn:ES; cbn [orb negb].
  { exists d, 0. split; [reflexivity|]. do 6 (split; [auto|]). cbn zeta. split; [lia|]. split; [intros; now rewrite orb_false_r|discriminate]. }
  destruct (seen_in (c_ac p) (md_as d)) eqn:EQ; cbn [negb].
  { exists d, 0. split; [reflexivity|]. do 6 (split; [auto|]). cbn zeta. split; [lia|]. split; [intros; now rewrite orb_false_r|discriminate]. }
  destruct (h_slices h LH) as (X & _). rewrite aset_ok by lia. cbn [bind]. rewrite X. cbn [bind]. rewrite A0. cbn [bind]. rewrite aset_ok by lia. cbn [bind].
  eexists _, (ncodes h). split; [reflexivity|]. cbn [md_dl md_al md_ds md_as md_len]. split; [reflexivity|]. split; [reflexivity|]. split; [now rewrite length_upd|]. split; [now rewrite length_upd|].
  split. { intros j Hj NJ. rewrite aget_upd by lia. destruct (Z.eqb_spec j i); [contradiction|]. split; [reflexivity|]. rewrite nth_upd by lia. destruct (Nat.eqb_spec (Z.to_nat j) (Z.to_nat i)); [lia|reflexivity]. }
  split; [rewrite aget_upd by lia; rewrite Z.eqb_refl; f_equal; lia|]. cbn zeta. split; [lia|]. split; [intros k; now rewrite seen_upd|]. intros _ h' Eh'. rewrite Eh in Eh'. injection Eh' as <-. reflexivity.
Qed.
Definition wants_dc (c : wst) (p : comp) (d : mdht) : bool := need_dc c && negb (sentb false c (c_dc p) || seen_in (c_dc p) (md_ds d)).
Definition wants_ac (c : wst) (p : comp) (d : mdht) : bool := need_ac c && negb (sentb true c (c_ac p) || seen_in (c_ac p) (md_as d)).
Lemma mdht_one_ok c p i d : mdinv i d -> 0 <= i < 4 -> 0 <= c_dc p < 4 -> 0 <= c_ac p < 4 -> length (x_dc c) = 4%nat -> length (x_ac c) = 4%nat ->
  (need_dc c = true -> exists h, nth_error (x_dc c) (Z.to_nat (c_dc p)) = Some (Some h) /\ legal_htab h) ->
  (need_ac c = true -> exists h, nth_error (x_ac c) (Z.to_nat (c_ac p)) = Some (Some h) /\ legal_htab h) ->
  (need_dc c = true -> wants_dc c p d = false -> wants_ac c p d = false) ->
  exists d1 n1 n2, mdht_one c p i d = Ret d1 /\ mdinv (i + 1) d1 /\ (forall j, 0 <= j -> j <> i -> aget (md_dl d1) j = aget (md_dl d) j /\ aget (md_al d1) j = aget (md_al d) j) /\
    aget (md_dl d1) i = Ret n1 /\ aget (md_al d1) i = Ret n2 /\
    md_len d1 = md_len d + (if wants_dc c p d then 17 + n1 else 0) + (if wants_ac c p d then 17 + n2 else 0) /\
    (forall k, seen_in k (md_ds d1) = seen_in k (md_ds d) || (wants_dc c p d && (c_dc p =? k))) /\ (forall k, seen_in k (md_as d1) = seen_in k (md_as d) || (wants_ac c p d && (c_ac p =? k))) /\
    (wants_dc c p d = true -> forall h, nth_error (x_dc c) (Z.to_nat (c_dc p)) = Some (Some h) -> n1 = ncodes h) /\
    (wants_ac c p d = true -> forall h, nth_error (x_ac c) (Z.to_nat (c_ac p)) = Some (Some h) -> n2 = ncodes h).
Proof.
  intros [M1 M2 M3 M4 M5] Hi Hdc Hac LD LA RD RA PAIR. destruct (M5 i ltac:(lia)) as (Z1 & Z2 & Z3 & Z4). unfold mdht_one.
  destruct (nth_error (x_dc c) (Z.to_nat (c_dc p))) as [td|] eqn:ED; [|apply nth_error_None in ED; lia]. rewrite (aget_nth _ (c_dc p) _ (proj1 Hdc) ED). cbn [bind].
  destruct (nth_error (x_ac c) (Z.to_nat (c_ac p))) as [ta|] eqn:EA; [|apply nth_error_None in EA; lia]. rewrite (aget_nth _ (c_ac p) _ (proj1 Hac) EA). cbn [bind].
  assert (NOP : wants_dc c p d = false -> wants_ac c p d = false -> exists d1 n1 n2, Ret d = Ret d1 /\ mdinv (i + 1) d1 /\ (forall j, 0 <= j -> j <> i -> aget (md_dl d1) j = aget (md_dl d) j /\ aget (md_al d1) j = aget (md_al d) j) /\
    aget (md_dl d1) i = Ret n1 /\ aget (md_al d1) i = Ret n2 /\ md_len d1 = md_len d + (if wants_dc c p d then 17 + n1 else 0) + (if wants_ac c p d then 17 + n2 else 0) /\
    (forall k, seen_in k (md_ds d1) = seen_in k (md_ds d) || (wants_dc c p d && (c_dc p =? k))) /\ (forall k, seen_in k (md_as d1) = seen_in k (md_as d) || (wants_ac c p d && (c_ac p =? k))) /\
    (wants_dc c p d = true -> forall h, Some td = Some (Some h) -> n1 = ncodes h) /\ (wants_ac c p d = true -> forall h, Some ta = Some (Some h) -> n2 = ncodes h)).
  { intros W1 W2. exists d, 0, 0. rewrite W1, W2. split; [reflexivity|]. split; [constructor; auto; intros j Hj; apply M5; lia|]. split; [auto|]. split; [exact Z1|]. split; [exact Z2|]. split; [lia|].
    split; [intros; cbn [andb]; now rewrite orb_false_r|]. split; [intros; cbn [andb]; now rewrite orb_false_r|]. split; discriminate. }
  destruct (need_dc c) eqn:EN.
  2: { assert (W1 : wants_dc c p d = false) by (unfold wants_dc; now rewrite EN). rewrite W1 in *.
    destruct (mdht_ac_ok c p i d (or_intror I) M2 M4 Hi Z2 Z4) as (d1 & n & E1 & F1 & F2 & F3 & F4 & F5 & F6 & F7 & F8 & F9).
    { intros X. destruct (RA X) as (h & Eh & LH). exists h. split; [lia|]. split; [rewrite EA; exact Eh|exact LH]. }
    exists d1, 0, n. rewrite E1. split; [reflexivity|]. split; [constructor; [congruence|exact F3|congruence|exact F4|]; intros j Hj; destruct (M5 j ltac:(lia)) as (Y1 & Y2 & Y3 & Y4); destruct (F5 j ltac:(lia) ltac:(lia)) as (Y5 & Y6); rewrite F1, F2, Y5, Y6; auto|].
    split; [intros j Hj NJ; rewrite F1; split; [reflexivity|apply F5; auto]|]. split; [rewrite F1; exact Z1|]. split; [exact F6|]. fold (wants_ac c p d) in F7, F8, F9. split; [rewrite F7; lia|]. split; [intros k; rewrite F2; cbn [andb]; now rewrite orb_false_r|].
    split; [exact F8|]. split; [discriminate|]. intros W h Eh. apply (F9 W). rewrite EA. exact Eh. }
  destruct (RD eq_refl) as (h & Eh & LH). injection Eh as ->. assert (SB : sentb false c (c_dc p) = h_sent h) by (unfold sentb, tabs; now rewrite ED).
  destruct (h_sent h) eqn:ES. { apply NOP; [|apply PAIR; [reflexivity|]]; unfold wants_dc; rewrite EN, SB; reflexivity. }
  destruct (seen_in (c_dc p) (md_ds d)) eqn:EQ. { apply NOP; [|apply PAIR; [reflexivity|]]; unfold wants_dc; rewrite EN, SB, EQ; reflexivity. }
  assert (W1 : wants_dc c p d = true) by (unfold wants_dc; rewrite EN, SB, EQ; reflexivity). rewrite W1. clear NOP.
  destruct (h_slices h LH) as (X & _). rewrite aset_ok by lia. cbn [bind]. rewrite X. cbn [bind]. rewrite Z1. cbn [bind]. rewrite aset_ok by lia. cbn [bind].
  match goal with |- context [mdht_ac c p i ?D] => set (d2 := D) end.
  destruct (mdht_ac_ok c p i d2 (or_intror I) M2 M4 Hi Z2 Z4) as (d1 & n & E1 & F1 & F2 & F3 & F4 & F5 & F6 & F7 & F8 & F9).
  { intros Y. destruct (RA Y) as (h' & Eh' & LH'). exists h'. split; [lia|]. split; [rewrite EA; exact Eh'|exact LH']. }
  exists d1, (ncodes h), n. rewrite E1. split; [reflexivity|]. change (md_as d2) with (md_as d) in *. fold (wants_ac c p d) in F7, F8, F9.
  split. { constructor; [rewrite F1; cbn; now rewrite length_upd|exact F3|rewrite F2; cbn; now rewrite length_upd|exact F4|]. intros j Hj. destruct (M5 j ltac:(lia)) as (Y1 & Y2 & Y3 & Y4). destruct (F5 j ltac:(lia) ltac:(lia)) as (Y5 & Y6). rewrite F1, F2, Y5, Y6.
    subst d2. cbn [md_dl md_ds md_al]. rewrite aget_upd by lia. destruct (Z.eqb_spec j i); [lia|]. rewrite nth_upd by lia. destruct (Nat.eqb_spec (Z.to_nat j) (Z.to_nat i)); [lia|]. auto. }
  split. { intros j Hj NJ. rewrite F1. split; [subst d2; cbn [md_dl]; rewrite aget_upd by lia; destruct (Z.eqb_spec j i); [contradiction|reflexivity]|]. apply (F5 j Hj NJ). }
  split; [rewrite F1; subst d2; cbn [md_dl]; rewrite aget_upd by lia; rewrite Z.eqb_refl; f_equal; lia|]. split; [exact F6|]. split; [rewrite F7; subst d2; cbn [md_len]; lia|].
  split; [intros k; rewrite F2; subst d2; cbn [md_ds andb]; now apply seen_upd|]. split; [exact F8|]. split; [intros _ h' Eh'; injection Eh' as <-; reflexivity|]. intros W h' Eh'. apply (F9 W). rewrite EA. exact Eh'.
Qed.
Fixpoint paired (ps : list comp) (D A : Z -> bool) : Prop :=
  match ps with
  | [] => True
  | p :: ps => (D (c_dc p) = true -> A (c_ac p) = true) /\ paired ps (fun n => D n || (n =? c_dc p)) (fun n => A n || (n =? c_ac p))
  end.
Lemma paired_ext ps : forall D A D' A', (forall n, 0 <= n -> D' n = D n) -> (forall n, 0 <= n -> A' n = A n) -> Forall (fun p => 0 <= c_dc p /\ 0 <= c_ac p) ps -> paired ps D A -> paired ps D' A'.
Proof.
  induction ps as [|p ps IH]; intros D A D' A' H1 H2 HF H; [exact I|]. inversion HF as [|x y (B1 & B2) HF']; subst. destruct H as [H3 H4]. split; [rewrite (H1 _ B1), (H2 _ B2); exact H3|].
  eapply IH; [| |exact HF'|exact H4]; intros n Hn; cbn beta; [rewrite H1|rewrite H2]; auto.
Qed.
Definition scomp_ok (p : comp) : Prop := 0 <= c_dc p < 4 /\ 0 <= c_ac p < 4.
Lemma mdht_ok c0 : length (x_dc c0) = 4%nat -> length (x_ac c0) = 4%nat -> Each legal_htab (x_dc c0) -> Each legal_htab (x_ac c0) ->
  forall ps i d c s, J c s -> keepC c0 c -> vals_eq c0 c -> mdinv i d -> 0 <= i -> i + Z.of_nat (length ps) <= 4 ->
  Forall scomp_ok ps -> Forall (fun p => (need_dc c0 = true -> h_ready false c (c_dc p)) /\ (need_ac c0 = true -> h_ready true c (c_ac p))) ps ->
  (need_dc c0 = true -> forall n, 0 <= n -> sentb false c n = sentb false c0 n || seen_in n (md_ds d)) ->
  (need_ac c0 = true -> forall n, 0 <= n -> sentb true c n = sentb true c0 n || seen_in n (md_as d)) ->
  (need_dc c0 = true -> need_ac c0 = true -> paired ps (sentb false c) (sentb true c)) ->
  exists d' c' o s' m, mdht_count c0 ps i d = Ret d' /\ (forall j, 0 <= j < i -> aget (md_dl d') j = aget (md_dl d) j /\ aget (md_al d') j = aget (md_al d) j) /\
    md_len d' = md_len d + Z.of_nat (length o) /\ mdht_emit ps i d' c = Ret (c', o) /\ ph c s c' s' /\
    Forall (fun p => (need_dc c0 = true -> dc_sent c' (c_dc p)) /\ (need_ac c0 = true -> ac_sent c' (c_ac p))) ps /\
    (m <= length o)%nat /\ unread s' = unread s /\ disc s' = disc s /\ Z.of_nat (length o) <= 546 * Z.of_nat (length ps) /\
    (forall f r l0 rest, 0 <= r -> dht_loop (m + f) (Z.of_nat (length o) + r) s l0 (o ++ rest) = dht_loop f r s' l0 rest).
Proof.
  intros L0D L0A G0D G0A. induction ps as [|p ps IH]; intros i d c s HJ HK HV HM Hi HL HS HR ID IA HP; cbn [mdht_count mdht_emit].
  - exists d, c, [], s, 0%nat. split; [reflexivity|]. split; [auto|]. split; [cbn; lia|]. split; [reflexivity|]. split; [now apply ph_refl|]. split; [constructor|]. split; [lia|]. split; [reflexivity|]. split; [reflexivity|]. split; [cbn; lia|].
    intros. cbn [Nat.add app]. change (Z.of_nat (length (@nil Z)) + r) with (0 + r). rewrite Z.add_0_l. reflexivity.
  - cbn [length] in HL. inversion HS as [|p1 ps1 (SD & SA) HS']; subst. inversion HR as [|p2 ps2 (RD & RA) HR']; subst. destruct (keep_need _ _ HK) as (K1 & K2 & _).
    (* a table of c0 is the table of c *)
    assert (TAB : forall isac n h, nth_error (tabs isac c) (Z.to_nat n) = Some (Some h) -> exists h0, nth_error (tabs isac c0) (Z.to_nat n) = Some (Some h0) /\ ncodes h0 = ncodes h /\ legal_htab h0).
    { clear -HV HJ G0D G0A. intros isac n h E. destruct HV as (_ & V1 & V2). destruct isac; unfold tabs in *; [pose proof (nth_map_eq _ _ _ (Z.to_nat n) V2) as X|pose proof (nth_map_eq _ _ _ (Z.to_nat n) V1) as X]; rewrite E in X; cbn in X.
      - destruct (nth_error (x_ac c0) (Z.to_nat n)) as [[h0|]|] eqn:E0; cbn in X; try discriminate. injection X as X _. exists h0. split; [reflexivity|]. split; [unfold ncodes; now rewrite X|eauto].
      - destruct (nth_error (x_dc c0) (Z.to_nat n)) as [[h0|]|] eqn:E0; cbn in X; try discriminate. injection X as X _. exists h0. split; [reflexivity|]. split; [unfold ncodes; now rewrite X|eauto]. }
    assert (WD : wants_dc c0 p d = need_dc c0 && negb (sentb false c (c_dc p))) by (unfold wants_dc; destruct (need_dc c0) eqn:E; [rewrite ID by (auto; lia); reflexivity|reflexivity]).
    assert (WA : wants_ac c0 p d = need_ac c0 && negb (sentb true c (c_ac p))) by (unfold wants_ac; destruct (need_ac c0) eqn:E; [rewrite IA by (auto; lia); reflexivity|reflexivity]).
    destruct (mdht_one_ok c0 p i d HM ltac:(lia) SD SA L0D L0A) as (d1 & n1 & n2 & E1 & M1 & F1 & A1 & A2 & LN & SE1 & SE2 & C1 & C2).
    { intros X. destruct (RD X) as (_ & t & Et). destruct (TAB false _ _ Et) as (h0 & E0 & _ & G0). exists h0. auto. }
    { intros X. destruct (RA X) as (_ & t & Et). destruct (TAB true _ _ Et) as (h0 & E0 & _ & G0). exists h0. auto. }
    { intros X. rewrite WD, WA, X. cbn [andb]. destruct (need_ac c0) eqn:Y; [|reflexivity]. cbn [andb]. destruct (HP X eq_refl) as (PP & _). destruct (sentb false c (c_dc p)); [|discriminate]. intros _. now rewrite PP. }
    rewrite E1. cbn [bind].
    (* the DC table *)
    assert (S1 : exists c1 o1 s1 m1, (if need_dc c then mdht_table false (c_dc p) n1 c else Ret (c, [])) = Ret (c1, o1) /\ ph c s c1 s1 /\ (forall j, 0 <= j -> sentb false c1 j = sentb false c j || (need_dc c0 && (j =? c_dc p))) /\ (forall j, sentb true c1 j = sentb true c j) /\
      (m1 <= length o1)%nat /\ unread s1 = unread s /\ disc s1 = disc s /\ Z.of_nat (length o1) = (if wants_dc c0 p d then 17 + n1 else 0) /\ Z.of_nat (length o1) <= 273 /\
      (forall f r l0 rest, 0 <= r -> dht_loop (m1 + f) (Z.of_nat (length o1) + r) s l0 (o1 ++ rest) = dht_loop f r s1 l0 rest)).
    { rewrite K1. rewrite WD in *. destruct (need_dc c0) eqn:EN; cbn [andb].
      - destruct (mdht_table_ok false (c_dc p) n1 c s HJ (RD eq_refl)) as (c1 & o1 & s1 & m1 & X1 & X2 & X3 & X4 & X5 & X6 & X7 & X8 & X9).
        { intros h Eh Sh. destruct (TAB false _ _ Eh) as (h0 & E0 & N0 & G0). rewrite <- N0. apply C1; [|exact E0]. cbn [andb]. unfold sentb. rewrite Eh, Sh. reflexivity. }
        exists c1, o1, s1, m1. split; [exact X1|]. split; [exact X2|]. split; [exact X3|]. split; [exact X4|]. split; [exact X5|]. split; [exact X6|]. split; [exact X7|].
        split; [rewrite X8; destruct (sentb false c (c_dc p)); reflexivity|]. split; [|exact X9]. rewrite X8. destruct (sentb false c (c_dc p)) eqn:SB; [lia|]. destruct (RD eq_refl) as (_ & t & Et). destruct (TAB false _ _ Et) as (h0 & E0 & N0 & G0). rewrite (C1 eq_refl h0 E0). pose proof (ncodes_nn _ G0). lia.
      - exists c, [], s, 0%nat. split; [reflexivity|]. split; [now apply ph_refl|]. split; [intros; now rewrite orb_false_r|]. split; [reflexivity|]. split; [lia|]. split; [reflexivity|]. split; [reflexivity|]. split; [reflexivity|]. split; [cbn; lia|].
        intros. cbn [Nat.add app]. change (Z.of_nat (length (@nil Z)) + r) with (0 + r). rewrite Z.add_0_l. reflexivity. }
    destruct S1 as (c1 & o1 & s1 & m1 & X1 & X2 & X3 & X4 & X5 & X6 & X7 & X8 & XB & X9).
    destruct (keep_need _ _ (p_c _ _ _ _ X2)) as (K3 & K4 & _).
    assert (S2 : exists c2 o2 s2 m2, (if need_ac c1 then mdht_table true (c_ac p) n2 c1 else Ret (c1, [])) = Ret (c2, o2) /\ ph c1 s1 c2 s2 /\ (forall j, 0 <= j -> sentb true c2 j = sentb true c j || (need_ac c0 && (j =? c_ac p))) /\ (forall j, sentb false c2 j = sentb false c1 j) /\
      (m2 <= length o2)%nat /\ unread s2 = unread s1 /\ disc s2 = disc s1 /\ Z.of_nat (length o2) = (if wants_ac c0 p d then 17 + n2 else 0) /\ Z.of_nat (length o2) <= 273 /\
      (forall f r l0 rest, 0 <= r -> dht_loop (m2 + f) (Z.of_nat (length o2) + r) s1 l0 (o2 ++ rest) = dht_loop f r s2 l0 rest)).
    { rewrite K4, K2. rewrite WA in *. destruct (need_ac c0) eqn:EN; cbn [andb].
      - assert (TAB1 : forall h, nth_error (tabs true c1) (Z.to_nat (c_ac p)) = Some (Some h) -> exists h0, nth_error (x_ac c0) (Z.to_nat (c_ac p)) = Some (Some h0) /\ ncodes h0 = ncodes h /\ legal_htab h0).
        { intros h Eh. destruct (RA eq_refl) as (_ & t & Et). destruct (h_at_later true _ _ _ _ _ _ X2 Et) as (t' & Et' & HH). unfold tabs in Eh. rewrite Eh in Et'. injection Et' as <-. destruct (TAB true _ _ Et) as (h0 & E0 & N0 & G0). exists h0. split; [exact E0|]. split; [|exact G0]. rewrite N0. unfold hp in HH. injection HH as HH _. unfold ncodes. now rewrite HH. }
        destruct (mdht_table_ok true (c_ac p) n2 c1 s1 (p_J _ _ _ _ X2) (h_ready_later _ _ _ _ _ _ X2 (RA eq_refl))) as (c2 & o2 & s2 & m2 & Y1 & Y2 & Y3 & Y4 & Y5 & Y6 & Y7 & Y8 & Y9).
        { intros h Eh Sh. destruct (TAB1 h Eh) as (h0 & E0 & N0 & G0). rewrite <- N0. apply C2; [|exact E0]. cbn [andb]. rewrite <- X4. unfold sentb. rewrite Eh, Sh. reflexivity. }
        exists c2, o2, s2, m2. split; [exact Y1|]. split; [exact Y2|]. split; [intros j Hj; rewrite Y3, X4 by exact Hj; reflexivity|]. split; [exact Y4|]. split; [exact Y5|]. split; [exact Y6|]. split; [exact Y7|]. rewrite X4 in Y8.
        split; [rewrite Y8; destruct (sentb true c (c_ac p)); reflexivity|]. split; [|exact Y9]. rewrite Y8. destruct (sentb true c (c_ac p)) eqn:SB; [lia|]. destruct (RA eq_refl) as (_ & t & Et). destruct (TAB true _ _ Et) as (h0 & E0 & N0 & G0). rewrite (C2 eq_refl h0 E0). pose proof (ncodes_nn _ G0). lia.
      - exists c1, [], s1, 0%nat. split; [reflexivity|]. split; [apply ph_refl, (p_J _ _ _ _ X2)|]. split; [intros; rewrite X4; now rewrite orb_false_r|]. split; [reflexivity|]. split; [lia|]. split; [reflexivity|]. split; [reflexivity|]. split; [reflexivity|]. split; [cbn; lia|].
        intros. cbn [Nat.add app]. change (Z.of_nat (length (@nil Z)) + r) with (0 + r). rewrite Z.add_0_l. reflexivity. }
    destruct S2 as (c2 & o2 & s2 & m2 & Y1 & Y2 & Y3 & Y4 & Y5 & Y6 & Y7 & Y8 & YB & Y9).
    pose proof (ph_trans _ _ _ _ _ _ X2 Y2) as P12.
    destruct (IH (i + 1) d1 c2 s2) as (d' & c' & o & s' & m & Z1 & Z2 & Z3 & Z4 & Z5 & Z6 & Z7 & Z8 & Z9 & Z10 & Z11).
    { apply (p_J _ _ _ _ Y2). } { eapply keepC_trans; [exact HK|apply (p_c _ _ _ _ P12)]. }
    { destruct HV as (V1 & V2 & V3). destruct (p_v _ _ _ _ P12) as (V4 & V5 & V6). split; [congruence|]. split; congruence. }
    { exact M1. } { lia. } { lia. } { exact HS'. }
    { revert HR'. apply Forall_impl. intros q (Q1 & Q2). split; intros X; eapply h_ready_later; eauto. }
    { intros EN n Hn. rewrite Y4, X3 by exact Hn. rewrite ID by auto. rewrite SE1, WD, EN. cbn [andb]. rewrite (Z.eqb_sym (c_dc p) n). rewrite ID by (auto; lia). destruct (Z.eqb_spec n (c_dc p)) as [EE|N]; [rewrite EE|]; destruct (sentb false c0 _), (seen_in _ (md_ds d)); try destruct (sentb false c0 (c_dc p)), (seen_in (c_dc p) (md_ds d)); reflexivity. }
    { intros EN n Hn. rewrite Y3 by exact Hn. rewrite IA by auto. rewrite SE2, WA, EN. cbn [andb]. rewrite (Z.eqb_sym (c_ac p) n). rewrite IA by (auto; lia). destruct (Z.eqb_spec n (c_ac p)) as [EE|N]; [rewrite EE|]; destruct (sentb true c0 _), (seen_in _ (md_as d)); try destruct (sentb true c0 (c_ac p)), (seen_in (c_ac p) (md_as d)); reflexivity. }
    { intros EN EM. destruct (HP EN EM) as (_ & PP). eapply paired_ext; [| | |exact PP].
      - intros n Hn. rewrite Y4, X3 by exact Hn. now rewrite EN.
      - intros n Hn. rewrite Y3 by exact Hn. now rewrite EM.
      - revert HS'. apply Forall_impl. unfold scomp_ok. lia. }
    rewrite Z1. exists d', c', (o1 ++ o2 ++ o), s', (m1 + (m2 + m))%nat. split; [reflexivity|].
    split. { intros j Hj. destruct (Z2 j ltac:(lia)) as (B1 & B2). destruct (F1 j ltac:(lia) ltac:(lia)) as (B3 & B4). split; congruence. }
    split; [rewrite Z3, LN, !app_length; lia|]. destruct (Z2 i ltac:(lia)) as (B1 & B2). rewrite B1, B2, A1, A2. cbn [bind]. rewrite X1. cbn [bind]. rewrite Y1. cbn [bind]. rewrite Z4. cbn [bind].
    split; [reflexivity|]. split; [eapply ph_trans; eauto|].
    split. { constructor; [|exact Z6]. split; intros X.
      - apply (p_m _ _ _ _ Z5); [lia|]. change (h_sent_in false c2 (c_dc p)). apply sentb_iff. rewrite Y4, X3, X by lia. rewrite Z.eqb_refl. now rewrite orb_true_r.
      - apply (p_m _ _ _ _ Z5); [lia|]. change (h_sent_in true c2 (c_ac p)). apply sentb_iff. rewrite Y3, X by lia. rewrite Z.eqb_refl. now rewrite orb_true_r. }
    split; [rewrite !app_length; lia|]. split; [congruence|]. split; [congruence|]. split; [rewrite !app_length; cbn [length]; lia|].
    intros f r l0 rest Hr. rewrite !app_length, <- !app_assoc. replace (m1 + (m2 + m) + f)%nat with (m1 + (m2 + (m + f)))%nat by lia.
    replace (Z.of_nat (length o1 + (length o2 + length o)) + r) with (Z.of_nat (length o1) + (Z.of_nat (length o2) + (Z.of_nat (length o) + r))) by lia.
    rewrite X9 by lia. rewrite Y9 by lia. now apply Z11.
Qed.
Lemma multi_dht_ok c s ps : J c s -> unread s = 0 -> scan_comps c = Ret ps -> (length ps <= 4)%nat -> Forall scomp_ok ps ->
  Forall (fun p => (need_dc c = true -> h_ready false c (c_dc p)) /\ (need_ac c = true -> h_ready true c (c_ac p))) ps ->
  (need_dc c = true -> need_ac c = true -> paired ps (sentb false c) (sentb true c)) -> x_fastest c = false ->
  exists c' o s', emit_multi_dht c = Ret (true, c', o) /\ ph c s c' s' /\ rd s o s' /\
    Forall (fun p => (need_dc c = true -> dc_sent c' (c_dc p)) /\ (need_ac c = true -> ac_sent c' (c_ac p))) ps.
Proof.
  intros HJ HU HS HL HC HR HP HF. unfold emit_multi_dht. rewrite HF, HS. cbn [bind].
  destruct (mdht_ok c (j_d _ _ HJ) (j_a _ _ HJ) (j_d2 _ _ HJ) (j_a2 _ _ HJ) ps 0 (mkMD 2 (repeat 0 4) (repeat 0 4) (repeat None 4) (repeat None 4)) c (at_m s 196)) as (d & c' & o & s' & m & Z1 & Z2 & Z3 & Z4 & Z5 & Z6 & Z7 & Z8 & Z9 & Z10 & Z11); auto; try lia.
  - destruct HJ; constructor; assumption.
  - apply keepC_refl.
  - split; [reflexivity|]. split; reflexivity.
  - constructor; try reflexivity. cbn [md_dl md_al md_ds md_as]. intros j Hj. assert (J4 : j = 0 \/ j = 1 \/ j = 2 \/ j = 3) by lia. destruct J4 as [-> |[-> |[-> | ->]]]; cbn; auto.
  - intros _ n Hn. cbn [md_ds]. now rewrite orb_false_r.
  - intros _ n Hn. cbn [md_as]. now rewrite orb_false_r.
  - rewrite Z1. cbn [bind md_len] in *. destruct (Z.ltb_spec 65535 (md_len d)); [lia|]. rewrite Z4. cbn [bind].
    exists c', (emit_marker 196 ++ emit_2bytes (md_len d) ++ o), (set_unread s' 0). split; [reflexivity|]. split; [exact (ph_wrap _ _ _ _ _ _ _ Z5)|]. split; [|exact Z6].
    apply rd_seg; [apply (j_soi _ _ HJ)|exact HU|lia|reflexivity|]. intros rest. rewrite <- !app_assoc. rewrite pm_dht. unfold get_dht. rewrite byte2_e2 by lia. rewrite Z3.
    replace (2 + Z.of_nat (length o) - 2) with (Z.of_nat (length o) + 0) by lia. replace (Z.to_nat (2 + Z.of_nat (length o))) with (m + (Z.to_nat (2 + Z.of_nat (length o) - Z.of_nat m)))%nat by lia.
    rewrite Z11 by lia. destruct (Z.to_nat (2 + Z.of_nat (length o) - Z.of_nat m)); reflexivity.
Qed.

(* ---- DAC ---- *)
Definition flag01 (l : list Z) : Prop := length l = 16%nat /\ forall k v, nth_error l k = Some v -> v = 0 \/ v = 1.
Definition on (l : list Z) (n : Z) : Prop := aget l n = Ret 1.
Lemma flag_upd l n : flag01 l -> flag01 (upd l n 1).
Proof.
  intros [L F]. split; [now rewrite length_upd|]. intros k v E. destruct (Nat.lt_ge_cases n (length l)) as [H|H].
  - rewrite nth_upd in E by exact H. destruct (Nat.eqb k n); [injection E as <-; auto|eauto].
  - assert (U : upd l n 1 = l) by (clear -H; revert n H; induction l as [|a l IH]; intros [|n] H; cbn in *; try lia; [reflexivity|reflexivity|f_equal; apply IH; lia]). rewrite U in E. eauto.
Qed.
Lemma dac_use_ok nd na ps : forall dc ac, flag01 dc -> flag01 ac -> Forall (fun p => 0 <= c_dc p < 16 /\ 0 <= c_ac p < 16) ps ->
  exists dc' ac', dac_use nd na ps dc ac = Ret (dc', ac') /\ flag01 dc' /\ flag01 ac' /\ (forall n, 0 <= n -> on dc n -> on dc' n) /\ (forall n, 0 <= n -> on ac n -> on ac' n) /\
    Forall (fun p => (nd = true -> on dc' (c_dc p)) /\ (na = true -> on ac' (c_ac p))) ps.
Proof.
  induction ps as [|p ps IH]; intros dc ac FD FA HR; cbn [dac_use].
  - exists dc, ac. split; [reflexivity|]. split; [exact FD|]. split; [exact FA|]. split; [auto|]. split; [auto|constructor].
  - inversion HR as [|p' ps' (RD & RA) HR']; subst. pose proof (proj1 FD) as LD. pose proof (proj1 FA) as LA.
    set (dc1 := if nd then upd dc (Z.to_nat (c_dc p)) 1 else dc). set (ac1 := if na then upd ac (Z.to_nat (c_ac p)) 1 else ac).
    assert (E1 : (if nd then aset dc (c_dc p) 1 else Ret dc) = Ret dc1) by (subst dc1; destruct nd; [now rewrite aset_ok by lia|reflexivity]).
    assert (E2 : (if na then aset ac (c_ac p) 1 else Ret ac) = Ret ac1) by (subst ac1; destruct na; [now rewrite aset_ok by lia|reflexivity]).
    rewrite E1. cbn [bind]. rewrite E2. cbn [bind].
    assert (FD1 : flag01 dc1) by (subst dc1; destruct nd; [now apply flag_upd|exact FD]). assert (FA1 : flag01 ac1) by (subst ac1; destruct na; [now apply flag_upd|exact FA]).
    destruct (IH dc1 ac1 FD1 FA1 HR') as (dc' & ac' & E & F1 & F2 & M1 & M2 & S). exists dc', ac'. split; [exact E|]. split; [exact F1|]. split; [exact F2|].
    split. { intros n Hn X. apply M1; [exact Hn|]. subst dc1. destruct nd; [|exact X]. unfold on. rewrite aget_upd by lia. destruct (n =? c_dc p); [reflexivity|exact X]. }
    split. { intros n Hn X. apply M2; [exact Hn|]. subst ac1. destruct na; [|exact X]. unfold on. rewrite aget_upd by lia. destruct (n =? c_ac p); [reflexivity|exact X]. }
    constructor; [|exact S]. split; intros X; [apply M1|apply M2]; try lia; [subst dc1|subst ac1]; rewrite X; unfold on; rewrite aget_upd by lia; now rewrite Z.eqb_refl.
Qed.
Lemma dac_emit_ok c dc ac : legal_params c -> flag01 dc -> flag01 ac -> forall m i, 0 <= i -> i + Z.of_nat m = 16 ->
  exists o n, dac_emit m i dc ac c = Ret o /\ Z.of_nat (length o) = 2 * (zsum (skipn (Z.to_nat i) dc) + zsum (skipn (Z.to_nat i) ac)) /\ (n <= length o)%nat /\
   forall s, length (aL s) = 16%nat -> length (aU s) = 16%nat -> length (aK s) = 16%nat -> exists L U K, length L = 16%nat /\ length U = 16%nat /\ length K = 16%nat /\
     (forall j, 0 <= j < i -> nth_error L (Z.to_nat j) = nth_error (aL s) (Z.to_nat j) /\ nth_error U (Z.to_nat j) = nth_error (aU s) (Z.to_nat j) /\ nth_error K (Z.to_nat j) = nth_error (aK s) (Z.to_nat j)) /\
     (forall j, i <= j < 16 -> on dc j -> nth_error L (Z.to_nat j) = nth_error (x_L c) (Z.to_nat j) /\ nth_error U (Z.to_nat j) = nth_error (x_U c) (Z.to_nat j)) /\
     (forall j, i <= j < 16 -> on ac j -> nth_error K (Z.to_nat j) = nth_error (x_K c) (Z.to_nat j)) /\
     forall f r l0 rest, 0 <= r -> dac_loop (n + f) (Z.of_nat (length o) + r) s l0 (o ++ rest) = dac_loop f r (set_aK (set_aU (set_aL s L) U) K) l0 rest.
Proof.
  intros LP FD FA. induction m as [|m IH]; intros i Hi Hm; cbn [dac_emit].
  - exists [], 0%nat. split; [reflexivity|]. rewrite !skipn_all2 by (rewrite ?(proj1 FD), ?(proj1 FA); lia). split; [reflexivity|]. split; [lia|]. intros s L1 L2 L3. exists (aL s), (aU s), (aK s).
    split; [exact L1|]. split; [exact L2|]. split; [exact L3|]. split; [auto|]. split; [intros; lia|]. split; [intros; lia|]. intros. cbn [Nat.add app]. change (Z.of_nat (length (@nil Z)) + r) with (0 + r). rewrite Z.add_0_l. destruct s; reflexivity.
  - destruct FD as [LD F1]. destruct FA as [LA F2].
    destruct (nth_error dc (Z.to_nat i)) as [d|] eqn:Ed; [|apply nth_error_None in Ed; lia]. destruct (nth_error ac (Z.to_nat i)) as [a|] eqn:Ea; [|apply nth_error_None in Ea; lia].
    pose proof (F1 _ _ Ed) as D01. pose proof (F2 _ _ Ea) as A01. rewrite (aget_nth _ _ _ Hi Ed). cbn [bind]. rewrite (aget_nth _ _ _ Hi Ea). cbn [bind].
    destruct LP. destruct (nth_error (x_L c) (Z.to_nat i)) as [vl|] eqn:EL; [|apply nth_error_None in EL; lia]. destruct (nth_error (x_U c) (Z.to_nat i)) as [vu|] eqn:EU; [|apply nth_error_None in EU; lia]. destruct (nth_error (x_K c) (Z.to_nat i)) as [vk|] eqn:EK; [|apply nth_error_None in EK; lia].
    destruct (lp_LUK _ _ _ _ EL EU EK) as (B1 & B2 & B3). unfold byte_val in B3.
    destruct (IH (i + 1) ltac:(lia) ltac:(lia)) as (o & n & E & Lo & Ln & R). replace (Z.to_nat (i + 1)) with (S (Z.to_nat i)) in Lo by lia. rewrite (skipn_nth _ _ _ Ed), (skipn_nth _ _ _ Ea).
    change (zsum (d :: skipn (S (Z.to_nat i)) dc)) with (d + zsum (skipn (S (Z.to_nat i)) dc)). change (zsum (a :: skipn (S (Z.to_nat i)) ac)) with (a + zsum (skipn (S (Z.to_nat i)) ac)).
    rewrite (aget_nth _ _ _ Hi EL), (aget_nth _ _ _ Hi EU), (aget_nth _ _ _ Hi EK). cbn [bind]. rewrite Z.shiftl_mul_pow2 by lia. change (2 ^ 4) with 16.
    rewrite !eb by lia. rewrite E.
    (* reading the two parts *)
    set (o1 := if negb (d =? 0) then [i] ++ [vl + vu * 16] else []). set (o2 := if negb (a =? 0) then [i + 16] ++ [vk] else []).
    assert (X1 : (if negb (d =? 0) then Ret ([i] ++ [vl + vu * 16]) else Ret []) = Ret o1) by (subst o1; destruct (negb (d =? 0)); reflexivity).
    assert (X2 : (if negb (a =? 0) then Ret ([i + 16] ++ [vk]) else Ret []) = Ret o2) by (subst o2; destruct (negb (a =? 0)); reflexivity).
    rewrite X1. cbn [bind]. rewrite X2. cbn [bind].
    exists (o1 ++ o2 ++ o), ((if negb (d =? 0)%Z then 1 else 0) + ((if negb (a =? 0)%Z then 1 else 0) + n))%nat. split; [reflexivity|].
    assert (LO1 : Z.of_nat (length o1) = 2 * d) by (subst o1; destruct D01 as [-> | ->]; reflexivity). assert (LO2 : Z.of_nat (length o2) = 2 * a) by (subst o2; destruct A01 as [-> | ->]; reflexivity).
    split; [rewrite !app_length; lia|]. split. { rewrite !app_length. subst o1 o2. destruct D01 as [-> | ->], A01 as [-> | ->]; cbn [Z.eqb negb length app]; lia. }
    intros s L1 L2 L3.
    set (sL := if negb (d =? 0) then upd (aL s) (Z.to_nat i) vl else aL s). set (sU := if negb (d =? 0) then upd (aU s) (Z.to_nat i) vu else aU s). set (sK := if negb (a =? 0) then upd (aK s) (Z.to_nat i) vk else aK s).
    set (s1 := set_aK (set_aU (set_aL s sL) sU) sK).
    assert (M1 : length sL = 16%nat) by (subst sL; clear - L1; destruct (negb (d =? 0)); rewrite ?length_upd; exact L1). assert (M2 : length sU = 16%nat) by (subst sU; clear - L2; destruct (negb (d =? 0)); rewrite ?length_upd; exact L2). assert (M3 : length sK = 16%nat) by (subst sK; clear - L3; destruct (negb (a =? 0)); rewrite ?length_upd; exact L3).
    destruct (R s1 M1 M2 M3) as (L & U & K & N1 & N2 & N3 & R1 & R2 & R3 & R4). exists L, U, K. split; [exact N1|]. split; [exact N2|]. split; [exact N3|].
    assert (OFF : forall (l : list Z) (b : bool) v j, length l = 16%nat -> j <> i -> 0 <= j -> nth_error (if b then upd l (Z.to_nat i) v else l) (Z.to_nat j) = nth_error l (Z.to_nat j)).
    { intros l b v j Hl NJ Hj. destruct b; [|reflexivity]. rewrite nth_upd by lia. destruct (Nat.eqb_spec (Z.to_nat j) (Z.to_nat i)); [lia|reflexivity]. }
    split. { intros j Hj. destruct (R1 j ltac:(lia)) as (Q1 & Q2 & Q3). rewrite Q1, Q2, Q3. subst s1 sL sU sK. cbn [aL aU aK set_aL set_aU set_aK]. rewrite !OFF by lia. auto. }
    split. { intros j Hj ON. destruct (Z.eq_dec j i) as [EE|NE]; [|apply R2; [lia|exact ON]]. subst j. destruct (R1 i ltac:(lia)) as (Q1 & Q2 & _). rewrite Q1, Q2. unfold on in ON. rewrite (aget_nth _ _ _ Hi Ed) in ON. injection ON as ON. subst s1 sL sU. rewrite ON. cbn [Z.eqb negb aL aU set_aL set_aU set_aK]. rewrite !nth_upd by lia. rewrite !Nat.eqb_refl, EL, EU. auto. }
    split. { intros j Hj ON. destruct (Z.eq_dec j i) as [EE|NE]; [|apply R3; [lia|exact ON]]. subst j. destruct (R1 i ltac:(lia)) as (_ & _ & Q3). rewrite Q3. unfold on in ON. rewrite (aget_nth _ _ _ Hi Ea) in ON. injection ON as ON. subst s1 sK. rewrite ON. cbn [Z.eqb negb aK set_aL set_aU set_aK]. rewrite !nth_upd by lia. rewrite !Nat.eqb_refl, EK. auto. }
    intros f r l0 rest Hr. rewrite !app_length, <- !app_assoc.
    assert (G1 : forall f r rest, 0 <= r -> dac_loop ((if negb (d =? 0) then 1 else 0) + f) (Z.of_nat (length o1) + r) s l0 (o1 ++ rest) = dac_loop f r (set_aU (set_aL s sL) sU) l0 rest).
    { clear f r rest Hr. intros f r rest Hr. subst o1 sL sU. destruct D01 as [-> | ->]; cbn [Z.eqb negb].
      - cbn [Nat.add app]. change (Z.of_nat (length (@nil Z)) + r) with (0 + r). rewrite Z.add_0_l. destruct s; reflexivity.
      - change (1 + f)%nat with (S f). cbn [app length dac_loop]. destruct (Z.leb_spec (Z.of_nat 2 + r) 0); [lia|]. cbn [byte]. unfold NUM_ARITH_TBLS. destruct (Z.ltb_spec i 0); [lia|]. destruct (Z.leb_spec (2 * 16) i); [lia|]. cbn [orb]. destruct (Z.leb_spec 16 i); [lia|].
        assert (HV1 : Z.land (vl + vu * 16) 15 = vl) by (change 15 with (Z.ones 4); rewrite Z.land_ones by lia; change (2 ^ 4) with 16; rewrite Z.mod_add by lia; apply Z.mod_small; lia).
        assert (HV2 : Z.shiftr (vl + vu * 16) 4 = vu) by (rewrite Z.shiftr_div_pow2 by lia; change (2 ^ 4) with 16; rewrite Z.div_add by lia; rewrite Z.div_small by lia; lia).
        rewrite HV1, HV2. rewrite aset_ok by lia. cbn [chk]. rewrite aset_ok by lia. cbn [chk]. destruct (Z.ltb_spec vu vl); [lia|]. replace (Z.of_nat 2 + r - 2) with r by lia. destruct s; reflexivity. }
    assert (G2 : forall f r rest, 0 <= r -> dac_loop ((if negb (a =? 0) then 1 else 0) + f) (Z.of_nat (length o2) + r) (set_aU (set_aL s sL) sU) l0 (o2 ++ rest) = dac_loop f r s1 l0 rest).
    { clear f r rest Hr. intros f r rest Hr. subst o2 s1 sK. destruct A01 as [-> | ->]; cbn [Z.eqb negb].
      - cbn [Nat.add app]. change (Z.of_nat (length (@nil Z)) + r) with (0 + r). rewrite Z.add_0_l. destruct s; reflexivity.
      - change (1 + f)%nat with (S f). cbn [app length dac_loop]. destruct (Z.leb_spec (Z.of_nat 2 + r) 0); [lia|]. cbn [byte]. unfold NUM_ARITH_TBLS. destruct (Z.ltb_spec (i + 16) 0); [lia|]. destruct (Z.leb_spec (2 * 16) (i + 16)); [lia|]. cbn [orb]. destruct (Z.leb_spec 16 (i + 16)); [|lia].
        change (aK (set_aU (set_aL s sL) sU)) with (aK s). rewrite aset_ok by lia. cbn [chk]. replace (i + 16 - 16) with i by lia. unfold u8. rewrite Z.mod_small by lia. replace (Z.of_nat 2 + r - 2) with r by lia. reflexivity. }
    rewrite <- !Nat.add_assoc.
    replace (Z.of_nat (length o1 + (length o2 + length o)) + r) with (Z.of_nat (length o1) + (Z.of_nat (length o2) + (Z.of_nat (length o) + r))) by lia.
    rewrite G1 by lia. rewrite G2 by lia. rewrite R4 by exact Hr. f_equal. 
Qed.
Lemma emit_dac_ok c s ps : legal_params c -> saw_SOI s = true -> unread s = 0 -> length (aL s) = 16%nat -> length (aU s) = 16%nat -> length (aK s) = 16%nat ->
  scan_comps c = Ret ps -> Forall (fun p => 0 <= c_dc p < 16 /\ 0 <= c_ac p < 16) ps ->
  exists o s', emit_dac c = Ret o /\ rd s o s' /\ (exists L U K x, s' = set_unread (set_aK (set_aU (set_aL (set_disc s x) L) U) K) 0 /\ length L = 16%nat /\ length U = 16%nat /\ length K = 16%nat) /\
    Forall (fun p => (need_dc c = true -> nth_error (aL s') (Z.to_nat (c_dc p)) = nth_error (x_L c) (Z.to_nat (c_dc p)) /\ nth_error (aU s') (Z.to_nat (c_dc p)) = nth_error (x_U c) (Z.to_nat (c_dc p))) /\
                     (need_ac c = true -> nth_error (aK s') (Z.to_nat (c_ac p)) = nth_error (x_K c) (Z.to_nat (c_ac p)))) ps.
Proof.
  intros LP HS HU L1 L2 L3 HC HR. unfold emit_dac. rewrite HC. cbn [bind].
  assert (F0 : flag01 (repeat 0 16)) by (split; [reflexivity|]; intros k v E; left; apply nth_error_In, repeat_spec in E; exact E).
  destruct (dac_use_ok (need_dc c) (need_ac c) ps _ _ F0 F0 HR) as (dc & ac & -> & FD & FA & _ & _ & S). cbn [bind].
  destruct (dac_emit_ok c dc ac LP FD FA 16 0) as (o & n & E & Lo & Ln & R); [lia|lia|]. cbn [Z.to_nat skipn] in Lo.
  destruct (R (at_m s 204) L1 L2 L3) as (L & U & K & N1 & N2 & N3 & _ & R2 & R3 & R4). clear R.
  assert (ZB : forall l, flag01 l -> 0 <= zsum l <= 16).
  { intros l [Hl HF]. assert (X : forall l, (forall k v, nth_error l k = Some v -> v = 0 \/ v = 1) -> 0 <= zsum l <= Z.of_nat (length l)).
    { clear. induction l as [|v l IH]; intros H; [cbn; lia|]. change (zsum (v :: l)) with (v + zsum l). cbn [length]. pose proof (H 0%nat v eq_refl). specialize (IH (fun k => H (S k))). lia. }
    specialize (X l HF). lia. }
  pose proof (ZB _ FD) as Z1. pose proof (ZB _ FA) as Z2.
  destruct (Z.eqb_spec (zsum dc + zsum ac) 0) as [E0|N0]; cbn [negb].
  - assert (o = []) by (destruct o; [reflexivity|cbn [length] in Lo; lia]). subst o.
    exists [], s. split; [reflexivity|]. split; [now apply rd_refl|]. split; [exists (aL s), (aU s), (aK s), (disc s); split; [destruct s; cbn in *; subst; reflexivity|auto]|].
    (* no table is in use *)
    assert (NONE : forall l j, flag01 l -> zsum l = 0 -> 0 <= j -> ~ on l j).
    { clear. intros l j [_ HF] HZ Hj ON. apply aget_inv in ON. destruct ON as [_ ON]. assert (X : forall l k, (forall k v, nth_error l k = Some v -> v = 0 \/ v = 1) -> nth_error l k = Some 1 -> 1 <= zsum l /\ 0 <= zsum l).
      { clear. induction l as [|v l IH]; intros [|k] H E; try discriminate.
        - cbn in E. injection E as ->. change (zsum (1 :: l)) with (1 + zsum l). assert (0 <= zsum l); [|lia]. clear -H. assert (X : forall k v, nth_error l k = Some v -> v = 0 \/ v = 1) by (intros k v; exact (H (S k) v)). clear H. induction l as [|v l IH]; [cbn; lia|]. change (0 <= v + zsum l). pose proof (X 0%nat v eq_refl). specialize (IH (fun k => X (S k))). lia.
        - change (zsum (v :: l)) with (v + zsum l). pose proof (H 0%nat v eq_refl). specialize (IH k (fun k => H (S k)) E). lia. }
      specialize (X l _ HF ON). lia. }
    revert S. pose proof HR as HR2. intros S. rewrite Forall_forall in S, HR2 |- *. intros p Hp. destruct (S p Hp) as (S1 & S2). destruct (HR2 p Hp) as (B1 & B2). split; intros X; exfalso.
    + apply (NONE dc (c_dc p)); auto; lia.
    + apply (NONE ac (c_ac p)); auto; lia.
  - rewrite E. cbn [bind]. eexists _, (set_unread (set_aK (set_aU (set_aL (at_m s 204) L) U) K) 0). split; [reflexivity|]. split.
    { apply rd_seg; [exact HS|exact HU|lia|reflexivity|]. intros rest. rewrite <- !app_assoc. rewrite pm_dac. unfold get_dac. rewrite byte2_e2 by lia.
      replace ((zsum dc + zsum ac) * 2 + 2 - 2) with (Z.of_nat (length o) + 0) by lia. replace (Z.to_nat ((zsum dc + zsum ac) * 2 + 2)) with (n + (Z.to_nat ((zsum dc + zsum ac) * 2 + 2 - Z.of_nat n)))%nat by lia.
      rewrite R4 by lia. destruct (Z.to_nat ((zsum dc + zsum ac) * 2 + 2 - Z.of_nat n)); reflexivity. }
    split; [exists L, U, K, 0; auto|].
    rewrite Forall_forall in S, HR |- *. intros p Hp. destruct (S p Hp) as (S1 & S2). destruct (HR p Hp) as (B1 & B2). split; intros X; [apply R2|apply R3]; auto.
Qed.
