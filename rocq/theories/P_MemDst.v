(* P_MemDst.v -- invariants of the memory destination. *)
From Verif Require Import Base M_MemDst.

Definition keys (h : heap) : list nat := map fst h.

Lemma hget_hset_eq h a x y : hget h a = Some y -> hget (hset h a x) a = Some x.
Proof.
  induction h as [|[b z] h IH]; cbn; [discriminate|].
  destruct (Nat.eqb_spec a b) as [->|n]; cbn.
  - rewrite Nat.eqb_refl. reflexivity.
  - destruct (Nat.eqb_spec a b); [contradiction|]. exact IH.
Qed.

Lemma hget_hset_neq h a c x : c <> a -> hget (hset h a x) c = hget h c.
Proof.
  intros Hn. induction h as [|[b z] h IH]; cbn; [reflexivity|].
  destruct (Nat.eqb_spec a b) as [->|n]; cbn.
  - destruct (Nat.eqb_spec c b); [contradiction|reflexivity].
  - destruct (Nat.eqb_spec c b); [reflexivity|exact IH].
Qed.

Lemma keys_hset h a x : keys (hset h a x) = keys h.
Proof.
  unfold keys. induction h as [|[b z] h IH]; cbn; [reflexivity|].
  destruct (Nat.eqb a b); cbn; [reflexivity|rewrite IH; reflexivity].
Qed.

Lemma hget_in h a x : hget h a = Some x -> In a (keys h).
Proof.
  induction h as [|[b z] h IH]; cbn; [discriminate|].
  destruct (Nat.eqb_spec a b) as [->|n]; [auto|]. intros H; right; apply IH, H.
Qed.

Lemma in_hget h a : In a (keys h) -> exists x, hget h a = Some x.
Proof.
  induction h as [|[b z] h IH]; cbn; [intros []|].
  destruct (Nat.eqb_spec a b) as [->|n]; [eexists; reflexivity|].
  intros [H|H]; [congruence|apply IH, H].
Qed.

Lemma hget_hdel_neq h a c : c <> a -> hget (hdel h a) c = hget h c.
Proof.
  intros Hn. induction h as [|[b z] h IH]; cbn; [reflexivity|].
  destruct (Nat.eqb_spec a b) as [->|n]; cbn.
  - destruct (Nat.eqb_spec c b); [contradiction|reflexivity].
  - destruct (Nat.eqb_spec c b); [reflexivity|exact IH].
Qed.

Lemma hget_hdel_eq h a : NoDup (keys h) -> hget (hdel h a) a = None.
Proof.
  induction h as [|[b z] h IH]; cbn; [reflexivity|]. intros HN.
  apply NoDup_cons_iff in HN. destruct HN as [H1 H2].
  destruct (Nat.eqb_spec a b) as [->|n]; cbn.
  - destruct (hget h b) eqn:E; [|reflexivity]. exfalso. apply H1. eapply hget_in; exact E.
  - destruct (Nat.eqb_spec a b); [contradiction|]. apply IH, H2.
Qed.

Lemma in_keys_hdel h a c : In c (keys (hdel h a)) -> In c (keys h).
Proof.
  induction h as [|[b z] h IH]; cbn; [auto|]. destruct (Nat.eqb a b); cbn; [auto|].
  intros [H|H]; auto.
Qed.

Lemma nodup_hdel h a : NoDup (keys h) -> NoDup (keys (hdel h a)).
Proof.
  induction h as [|[b z] h IH]; cbn; [auto|]. intros HN.
  apply NoDup_cons_iff in HN. destruct HN as [H1 H2].
  destruct (Nat.eqb a b); cbn; [exact H2|]. constructor; [|apply IH, H2].
  intros H; apply H1. eapply in_keys_hdel; exact H.
Qed.

(* ------------------------------------------------------------------ *)
(* malloc never fails for n more calls *)
Definition good (s : dst) (n : nat) : Prop :=
  (n <= length (d_orc s))%nat /\ NoDup (d_orc s) /\
  (forall o, In o (d_orc s) -> exists a, o = Some a /\ hget (d_heap s) a = None).

Lemma malloc_spec s size : NoDup (keys (d_heap s)) ->
  (exists a o, malloc s size =
     (mkDst ((a, repeat None (Z.to_nat size)) :: d_heap s) o (d_outbuffer s) (d_outsize s)
        (d_newbuffer s) (d_buffer s) (d_bufsize s) (d_next s) (d_free s) (d_alloc s), Some a)
     /\ hget (d_heap s) a = None /\ d_orc s = Some a :: o /\ size < 2 ^ 63)
  \/ (snd (malloc s size) = None /\ (forall n, good s (S n) -> 2 ^ 63 <= size)).
Proof.
  intros HN. unfold malloc. destruct (d_orc s) as [|[a|] o] eqn:E.
  - right. split; [reflexivity|]. intros n [H _]. rewrite E in H. cbn in H. lia.
  - destruct (Z.leb_spec (2 ^ 63) size) as [Hs|Hs]; cbn [orb].
    + right. split; [reflexivity|]. intros; exact Hs.
    + destruct (hget (d_heap s) a) eqn:E2.
      * right. split; [reflexivity|]. intros n (_ & _ & H). rewrite E in H.
        destruct (H (Some a) ltac:(left; reflexivity)) as (a' & E1 & E3). congruence.
      * left. exists a, o. auto.
  - right. split; [reflexivity|]. intros n (_ & _ & H). rewrite E in H.
    destruct (H None ltac:(left; reflexivity)) as (a' & E1 & _). discriminate.
Qed.

(* ------------------------------------------------------------------ *)
(* State during the writing of one image that started in s0 with buffer a0 *)
Record W (s0 : dst) (a0 : nat) (s : dst) (w : list Z) : Prop := {
  w_nd : NoDup (keys (d_heap s));
  w_blk : exists a b, d_buffer s = Some a /\ hget (d_heap s) a = Some b /\
      d_bufsize s <= Z.of_nat (length b) /\
      d_next s = (Some a, Z.of_nat (length w)) /\
      firstn (length w) b = map Some w /\
      ((d_newbuffer s = Some a /\ (d_newbuffer s0 = None -> a <> a0)) \/ (d_newbuffer s = None /\ d_newbuffer s0 = None /\ a = a0)) /\
      (forall x, x <> a0 -> hget (d_heap s0) x <> None -> a <> x) /\
      (forall x, hget (d_heap s) x <> None -> hget (d_heap s0) x <> None \/ x = a) ;
  w_free : d_free s = d_bufsize s - Z.of_nat (length w) /\ 0 < d_free s;
  w_size : d_bufsize s < 2 ^ 63;
  w_frame : forall x y, x <> a0 -> hget (d_heap s0) x = Some y -> hget (d_heap s) x = Some y;
  w_own : d_newbuffer s0 = None -> hget (d_heap s) a0 <> None;
  w_freed : d_newbuffer s0 = Some a0 -> forall a, d_buffer s = Some a -> a <> a0 ->
      hget (d_heap s) a0 = None;
  w_a0 : hget (d_heap s0) a0 <> None;
  w_out : d_outbuffer s = d_outbuffer s0 /\ d_outsize s = d_outsize s0 /\ d_alloc s = d_alloc s0
}.

Lemma firstn_upd_snoc {A} (b : list A) n v :
  (n < length b)%nat -> firstn (S n) (upd b n v) = firstn n b ++ [v].
Proof.
  revert b; induction n as [|n IH]; intros [|x b] H; cbn in *; try lia; [reflexivity|].
  f_equal. apply IH. lia.
Qed.

Lemma u64_small x : 0 <= x < 2 ^ 64 -> u64 x = x.
Proof. intros; apply Z.mod_small; assumption. Qed.

Lemma put_byte_spec tj s0 a0 s w v :
  W s0 a0 s w -> (tj = true -> d_alloc s0 = true) ->
  (exists s', put_byte tj s v = Ret s' /\ W s0 a0 s' (w ++ [v]) /\
      (forall n, good s (S n) -> good s' n))
  \/ (put_byte tj s v = Error JERR_OUT_OF_MEMORY /\
      (forall n, good s (S n) -> 2 ^ 62 <= Z.of_nat (length w) + 1)).
Proof.
  intros HW Halloc. destruct HW as [HN (a & b & Hb & Hg & Hlb & Hnx & Hpre & Hnew & Hne & Hlive) [Hf Hf0] Hsz Hfr Hown Hfd Ha0 (Ho1 & Ho2 & Ho3)].
  unfold put_byte. rewrite Hnx. cbn [fst snd]. rewrite Hg.
  assert (Hwl : (length w < length b)%nat) by lia.
  unfold aset. destruct (Z.ltb_spec (Z.of_nat (length w)) 0); [lia|].
  destruct (Z.leb_spec (Z.of_nat (length b)) (Z.of_nat (length w))); [lia|].
  cbn [orb bind]. rewrite Nat2Z.id. cbn [d_free].
  rewrite u64_small by lia.
  set (b1 := upd b (length w) (Some v)).
  assert (Hlb1 : length b1 = length b) by apply length_upd.
  assert (Hpre1 : firstn (length (w ++ [v])) b1 = map Some (w ++ [v])).
  { rewrite app_length. cbn [length]. rewrite Nat.add_1_r. unfold b1.
    rewrite firstn_upd_snoc by exact Hwl. rewrite Hpre, map_app. reflexivity. }
  set (h1 := hset (d_heap s) a b1).
  assert (Hg1 : hget h1 a = Some b1) by (eapply hget_hset_eq; exact Hg).
  assert (HN1 : NoDup (keys h1)) by (unfold h1; rewrite keys_hset; exact HN).
  assert (Hfr1 : forall x y, x <> a0 -> hget (d_heap s0) x = Some y -> hget h1 x = Some y).
  { intros x y Hx Hy. unfold h1. rewrite hget_hset_neq; [apply Hfr; auto|].
    intros ->. apply (Hne a Hx); [congruence|reflexivity]. }
  assert (Hlive1 : forall x, hget h1 x <> None -> hget (d_heap s0) x <> None \/ x = a).
  { intros x Hx. destruct (Nat.eq_dec x a) as [->|Hxa]; [auto|].
    unfold h1 in Hx. rewrite hget_hset_neq in Hx by exact Hxa. apply Hlive, Hx. }
  assert (Hown1 : d_newbuffer s0 = None -> hget h1 a0 <> None).
  { intros H1. destruct (Nat.eq_dec a0 a) as [->|Hn]; [rewrite Hg1; discriminate|].
    unfold h1. rewrite hget_hset_neq by exact Hn. apply Hown, H1. }
  assert (Hgood1 : forall x, hget h1 x = None <-> hget (d_heap s) x = None).
  { intros x. destruct (Nat.eq_dec x a) as [->|Hn]; [rewrite Hg1, Hg; split; discriminate|].
    unfold h1. rewrite hget_hset_neq by exact Hn. tauto. }
  destruct (Z.eqb_spec (d_free s - 1) 0) as [Hz|Hz].
  2:{ left. eexists. split; [reflexivity|]. split.
      - constructor; cbn [d_heap d_buffer d_bufsize d_next d_free d_newbuffer d_outbuffer d_outsize d_alloc].
        + exact HN1.
        + exists a, b1. split; [exact Hb|]. split; [exact Hg1|]. split; [lia|].
          split; [rewrite app_length; cbn [length]; f_equal; lia|]. split; [exact Hpre1|].
          split; [exact Hnew|]. split; [exact Hne|exact Hlive1].
        + rewrite app_length; cbn [length]. lia.
        + exact Hsz.
        + exact Hfr1.
        + exact Hown1.
        + intros K1 a1 K2 K3. apply Hgood1. eapply Hfd; eassumption.
        + exact Ha0.
        + auto.
      - intros n (G1 & G2 & G3). split; [cbn [d_orc]; lia|]. split; [exact G2|].
        intros o Ho. destruct (G3 o Ho) as (x & -> & Hx). exists x. split; [reflexivity|].
        apply Hgood1, Hx. }
  unfold empty_mem_output_buffer. cbn [d_alloc d_bufsize].
  assert (Htj : tj && negb (d_alloc s) = false).
  { destruct tj; [|reflexivity]. rewrite Ho3, (Halloc eq_refl). reflexivity. }
  rewrite Htj. rewrite u64_small by lia.
  set (s1 := mkDst _ _ _ _ _ _ _ _ _ _).
  destruct (malloc_spec s1 (d_bufsize s * 2) HN1) as [(a' & o & HM & Hfresh & Horc & Hlt)|(HM & HG)].
  2:{ destruct (malloc s1 (d_bufsize s * 2)) as [s2 r]. cbn [snd] in HM. subst r.
      right. split; [reflexivity|]. intros n (G1 & G2 & G3).
      assert (2 ^ 63 <= d_bufsize s * 2); [|lia].
      apply (HG n). split; [exact G1|]. split; [exact G2|].
      intros oo Ho. destruct (G3 oo Ho) as (x & -> & Hx). exists x. split; [reflexivity|].
      apply Hgood1, Hx. }
  rewrite HM. clear HM. unfold s1 in *. clear s1. cbn [d_heap d_orc d_outbuffer d_outsize d_newbuffer d_buffer d_bufsize d_alloc] in *.
  unfold memcpy. rewrite Hb.
  assert (Ha' : a' <> a) by (intros ->; rewrite Hg1 in Hfresh; discriminate).
  cbn [hget]. rewrite Nat.eqb_refl.
  destruct (Nat.eqb_spec a a'); [congruence|]. rewrite Hg1.
  rewrite repeat_length.
  destruct (Z.ltb_spec (Z.of_nat (Z.to_nat (d_bufsize s * 2))) (d_bufsize s)); [lia|].
  destruct (Z.ltb_spec (Z.of_nat (length b1)) (d_bufsize s)); [lia|].
  cbn [orb bind hset]. rewrite Nat.eqb_refl.
  set (b2 := firstn (Z.to_nat (d_bufsize s)) b1 ++ skipn (Z.to_nat (d_bufsize s)) (repeat None (Z.to_nat (d_bufsize s * 2)))).
  assert (Hlb2 : Z.of_nat (length b2) = d_bufsize s * 2).
  { unfold b2. rewrite app_length, firstn_length, skipn_length, repeat_length. lia. }
  assert (Hwn : length (w ++ [v]) = Z.to_nat (d_bufsize s)).
  { rewrite app_length; cbn [length]. lia. }
  assert (Hpre2 : firstn (length (w ++ [v])) b2 = map Some (w ++ [v])).
  { unfold b2. rewrite Hwn. rewrite firstn_app, firstn_firstn, Nat.min_id.
    rewrite firstn_length, Nat.min_l by lia. rewrite Nat.sub_diag. cbn [firstn].
    rewrite app_nil_r, <- Hwn. exact Hpre1. }
  assert (HN2 : NoDup (keys ((a', b2) :: h1))).
  { cbn. constructor; [|exact HN1]. intros HI. apply in_hget in HI. destruct HI as (x & Hx).
    congruence. }
  (* the heap after free *)
  assert (HF : exists h3, free ((a', b2) :: h1) (d_newbuffer s) = Ret h3 /\
     NoDup (keys h3) /\ hget h3 a' = Some b2 /\
     (forall x, x <> a' -> (d_newbuffer s = Some x /\ hget h3 x = None) \/
                           (d_newbuffer s <> Some x /\ hget h3 x = hget h1 x))).
  { destruct (d_newbuffer s) as [nb|] eqn:Enb.
    - assert (nb = a) as -> by (destruct Hnew as [[Hnew _]|(Hnew & _)]; [congruence|discriminate]).
      cbn [free hget]. destruct (Nat.eqb_spec a a'); [congruence|]. rewrite Hg1.
      eexists. split; [reflexivity|].
      assert (Hd : forall x, x <> a -> hget (hdel ((a', b2) :: h1) a) x = hget ((a', b2) :: h1) x)
        by (intros; apply hget_hdel_neq; assumption).
      split; [apply nodup_hdel, HN2|]. split.
      + rewrite Hd by exact Ha'. cbn. rewrite Nat.eqb_refl. reflexivity.
      + intros x Hx. destruct (Nat.eq_dec x a) as [->|Hxa].
        * left. split; [reflexivity|]. apply hget_hdel_eq, HN2.
        * right. split; [congruence|]. rewrite Hd by exact Hxa. cbn.
          destruct (Nat.eqb_spec x a'); [contradiction|reflexivity].
    - cbn [free]. eexists. split; [reflexivity|]. split; [exact HN2|]. split.
      + cbn. rewrite Nat.eqb_refl. reflexivity.
      + intros x Hx. right. split; [discriminate|]. cbn.
        destruct (Nat.eqb_spec x a'); [contradiction|reflexivity]. }
  destruct HF as (h3 & HFe & HN3 & Hg3 & Hrest).
  repeat match goal with |- context [free ?x ?y] =>
    replace (free x y) with (Ret h3) by (symmetry; exact HFe) end.
  cbn [bind].

  left. eexists. split; [reflexivity|]. split.
  - constructor; cbn [d_heap d_buffer d_bufsize d_next d_free d_newbuffer d_outbuffer d_outsize d_alloc].
    + exact HN3.
    + exists a', b2. split; [reflexivity|]. split; [exact Hg3|]. split; [lia|].
      split; [f_equal; lia|]. split; [exact Hpre2|]. split; [left; split; [reflexivity|]|split].
      * intros Hn0 ->. specialize (Hown1 Hn0). congruence.
      * intros x Hx Hl ->. destruct (hget (d_heap s0) x) eqn:E; [|congruence].
        rewrite (Hfr1 x b0 Hx E) in Hfresh. discriminate.
      * intros x Hx. destruct (Nat.eq_dec x a') as [->|Hxa]; [auto|].
        destruct (Hrest x Hxa) as [[_ HH]|[HH1 HH2]]; [congruence|].
        rewrite HH2 in Hx. destruct (Hlive1 x Hx) as [HH| ->]; [auto|].
        left. destruct Hnew as [[Hnew _]|(Hnew1 & Hnew2 & ->)]; [congruence|exact Ha0].
    + rewrite Hwn. split; lia.
    + lia.
    + intros x y Hx Hy. destruct (Nat.eq_dec x a') as [->|Hxa].
      { rewrite (Hfr1 a' y Hx Hy) in Hfresh. discriminate. }
      destruct (Hrest x Hxa) as [[HH1 HH2]|[_ HH]].
      * exfalso. destruct Hnew as [[Hnew _]|(Hnew & _)]; [|congruence].
        assert (x = a) by congruence. subst x. apply (Hne a Hx); [congruence|reflexivity].
      * rewrite HH. apply Hfr1; assumption.
    + intros Hn0. specialize (Hown1 Hn0).
      destruct (Nat.eq_dec a0 a') as [->|Hna]; [congruence|].
      destruct (Hrest a0 Hna) as [[HH1 HH2]|[_ HH]]; [|congruence].
      exfalso. destruct Hnew as [[Hnew Hnew2]|(Hnew & _)]; [|congruence].
      apply (Hnew2 Hn0). congruence.
    + intros K1 a1 K2 K3. injection K2 as <-.
      destruct (Hrest a0 (not_eq_sym K3)) as [[_ HH]|[HH1 HH2]]; [exact HH|].
      rewrite HH2. apply Hgood1. apply (Hfd K1 a Hb). intros ->.
      destruct Hnew as [[Hnew _]|(Hnew & Hnew2 & _)]; congruence.
    + exact Ha0.
    + auto.
  - intros k (G1 & G2 & G3). rewrite Horc in *. 
    split; [cbn [d_orc length] in *; lia|]. cbn [d_orc d_heap].
    apply NoDup_cons_iff in G2. destruct G2 as [G2 G2']. split; [exact G2'|].
    intros x Hx. destruct (G3 x ltac:(right; exact Hx)) as (y & -> & Hy).
    exists y. split; [reflexivity|].
    assert (Hya : y <> a') by (intros ->; contradiction).
    destruct (Hrest y Hya) as [[_ HH]|[_ HH]]; [exact HH|]. rewrite HH. apply Hgood1, Hy.
Qed.

Lemma put_bytes_spec tj s0 a0 : (tj = true -> d_alloc s0 = true) -> forall w2 s w,
  W s0 a0 s w ->
  (exists s', put_bytes tj s w2 = Ret s' /\ W s0 a0 s' (w ++ w2) /\
     (forall n, good s (length w2 + n) -> good s' n))
  \/ (put_bytes tj s w2 = Error JERR_OUT_OF_MEMORY /\
      (forall n, good s (length w2 + n) -> 2 ^ 62 <= Z.of_nat (length (w ++ w2)))).
Proof.
  intros Ha. induction w2 as [|v w2 IH]; intros s w HW.
  - left. exists s. rewrite app_nil_r. auto.
  - cbn [put_bytes]. destruct (put_byte_spec tj s0 a0 s w v HW Ha) as [(s' & -> & HW' & HG)|(-> & HG)].
    + cbn [bind]. destruct (IH s' (w ++ [v]) HW') as [(s2 & HE & HW2 & HG2)|(HE & HG2)].
      * left. exists s2. split; [exact HE|]. rewrite <- app_assoc in HW2. split; [exact HW2|].
        intros n Hn. apply HG2, HG. exact Hn.
      * right. split; [exact HE|]. rewrite <- app_assoc in HG2. intros n Hn.
        apply (HG2 n). apply HG. exact Hn.
    + right. split; [reflexivity|]. intros n Hn.
      specialize (HG (length w2 + n)%nat Hn). rewrite app_length; cbn [length]. lia.
Qed.

(* With a fixed buffer (TurboJPEG, alloc = FALSE) *)
Lemma put_bytes_fixed s0 a0 : d_alloc s0 = false -> forall w2 s w,
  W s0 a0 s w ->
  if Z.of_nat (length (w ++ w2)) <? d_bufsize s
  then exists s', put_bytes true s w2 = Ret s' /\ W s0 a0 s' (w ++ w2) /\ d_bufsize s' = d_bufsize s
       /\ d_buffer s' = d_buffer s /\ (forall x, hget (d_heap s') x = None <-> hget (d_heap s) x = None)
  else put_bytes true s w2 = Error JERR_BUFFER_SIZE.
Proof.
  intros Ha. induction w2 as [|v w2 IH]; intros s w HW.
  - rewrite app_nil_r. destruct (w_free _ _ _ _ HW) as [H1 H2].
    destruct (Z.ltb_spec (Z.of_nat (length w)) (d_bufsize s)); [|lia].
    exists s. split; [reflexivity|]. repeat split; auto; apply HW.
  - destruct HW as [HN (a & b & Hb & Hg & Hlb & Hnx & Hpre & Hnew & Hne & Hlive) [Hf Hf0] Hsz Hfr Hown Hfd Ha0 (Ho1 & Ho2 & Ho3)].
    assert (Hwl : (length w < length b)%nat) by lia.
    cbn [put_bytes]. unfold put_byte. rewrite Hnx. cbn [fst snd]. rewrite Hg.
    unfold aset. destruct (Z.ltb_spec (Z.of_nat (length w)) 0); [lia|].
    destruct (Z.leb_spec (Z.of_nat (length b)) (Z.of_nat (length w))); [lia|].
    cbn [orb bind]. rewrite Nat2Z.id. cbn [d_free].
    rewrite u64_small by lia.
    destruct (Z.eqb_spec (d_free s - 1) 0) as [Hz|Hz].
    + unfold empty_mem_output_buffer. cbn [d_alloc]. rewrite Ho3, Ha. cbn [andb negb bind].
      destruct (Z.ltb_spec (Z.of_nat (length (w ++ v :: w2))) (d_bufsize s)) as [Hl|Hl]; [|reflexivity].
      rewrite app_length in Hl. cbn [length] in Hl. lia.
    + cbn [bind].
      set (s1 := mkDst _ _ _ _ _ _ _ _ _ _).
      assert (Hg1 : hget (d_heap s1) a = Some (upd b (length w) (Some v)))
        by (eapply hget_hset_eq; exact Hg).
      assert (Hx1 : forall x, x <> a -> hget (d_heap s1) x = hget (d_heap s) x)
        by (intros; apply hget_hset_neq; assumption).
      specialize (IH s1 (w ++ [v])). rewrite <- app_assoc in IH. cbn [app] in IH.
      replace (d_bufsize s1) with (d_bufsize s) in IH by reflexivity.
      assert (HW1 : W s0 a0 s1 (w ++ [v])).
      { constructor.
        - cbn [s1 d_heap]. unfold s1; cbn [d_heap]. rewrite keys_hset. exact HN.
        - exists a, (upd b (length w) (Some v)). split; [exact Hb|]. split; [exact Hg1|].
          split; [rewrite length_upd; exact Hlb|].
          split; [rewrite app_length; cbn [length s1 d_next]; unfold s1; cbn [d_next]; f_equal; lia|].
          split.
          { rewrite app_length; cbn [length]. rewrite Nat.add_1_r, firstn_upd_snoc by exact Hwl.
            rewrite Hpre, map_app. reflexivity. }
          split; [exact Hnew|]. split; [exact Hne|].
          intros x Hx. destruct (Nat.eq_dec x a) as [->|Hxa]; [auto|].
          rewrite Hx1 in Hx by exact Hxa. apply Hlive, Hx.
        - unfold s1; cbn [d_free d_bufsize]. rewrite app_length; cbn [length]. lia.
        - exact Hsz.
        - intros x y Hx Hy. rewrite Hx1; [apply Hfr; auto|].
          intros ->. apply (Hne a Hx); [congruence|reflexivity].
        - intros H1. destruct (Nat.eq_dec a0 a) as [->|Hn]; [rewrite Hg1; discriminate|].
          rewrite Hx1 by exact Hn. apply Hown, H1.
        - intros K1 a1 K2 K3. rewrite Hx1; [eapply Hfd; eassumption|].
          change (d_buffer s = Some a1) in K2. congruence.
        - exact Ha0.
        - auto. }
      specialize (IH HW1).
      destruct (Z.of_nat (length (w ++ v :: w2)) <? d_bufsize s); [|exact IH].
      destruct IH as (s' & E1 & E2 & E3 & E4 & E5). exists s'.
      split; [exact E1|]. split; [exact E2|]. split; [exact E3|]. split; [exact E4|].
      intros x. rewrite E5. destruct (Nat.eq_dec x a) as [->|Hxa]; [rewrite Hg1, Hg; split; discriminate|].
      rewrite Hx1 by exact Hxa. tauto.
Qed.
