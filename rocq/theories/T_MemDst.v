(* T_MemDst.v -- C39: memory and stdio destinations. *)
From Verif Require Import Base M_MemDst P_MemDst.

(* ---- specification vocabulary ------------------------------------- *)
(* The heap is well formed: one block per address. *)
Definition heap_ok (s : dst) : Prop := NoDup (map fst (d_heap s)).

(* The caller asks for a fresh buffer (NULL pointer or size 0), ... *)
Definition wants_new (s : dst) : Prop := d_outbuffer s = None \/ d_outsize s = 0.
(* ... or supplies a live buffer a of at least the announced size. *)
Definition supplies (s : dst) (a : nat) : Prop :=
  d_outbuffer s = Some a /\ 0 < d_outsize s < 2 ^ 63 /\
  exists b, hget (d_heap s) a = Some b /\ d_outsize s <= Z.of_nat (length b).

(* What the caller finds afterwards: *outbuffer is a live block, *outsize is
   the number of bytes written, and the block starts with exactly those bytes. *)
Definition delivered (s : dst) (w : list Z) : Prop :=
  d_outsize s = Z.of_nat (length w) /\
  exists a b, d_outbuffer s = Some a /\ hget (d_heap s) a = Some b /\
    firstn (length w) b = map Some w.

(* Blocks other than [a] are neither changed nor freed, and the only block the
   library may have added is the one it returns. *)
Definition others_untouched (s s' : dst) (a : option nat) : Prop :=
  (forall x y, Some x <> a -> hget (d_heap s) x = Some y -> hget (d_heap s') x = Some y) /\
  (forall x, hget (d_heap s') x <> None -> hget (d_heap s) x <> None \/ d_outbuffer s' = Some x).

(* malloc can deliver (n calls): the answers are distinct unused addresses. *)
Definition malloc_works (s : dst) (n : nat) : Prop :=
  (n <= length (d_orc s))%nat /\ NoDup (d_orc s) /\
  (forall o, In o (d_orc s) -> exists a, o = Some a /\ hget (d_heap s) a = None).

(* ------------------------------------------------------------------ *)
Lemma W_start s a b sz nb alloc :
  heap_ok s -> hget (d_heap s) a = Some b -> sz <= Z.of_nat (length b) -> 0 < sz < 2 ^ 63 ->
  nb = None \/ nb = Some a ->
  let s1 := mkDst (d_heap s) (d_orc s) (Some a) (d_outsize s) nb (Some a) sz (Some a, 0) sz alloc in
  W s1 a s1 [].
Proof.
  intros HN Hg Hl Hsz Hnb s1. constructor; cbn [s1 d_heap d_buffer d_bufsize d_next d_free d_newbuffer d_outbuffer d_outsize d_alloc].
  - exact HN.
  - exists a, b. split; [reflexivity|]. split; [exact Hg|]. split; [exact Hl|]. split; [reflexivity|].
    split; [reflexivity|]. split.
    + destruct Hnb as [->| ->]; [right; auto|left; split; [reflexivity|discriminate]].
    + split; [intros x Hx _ <-; congruence|]. auto.
  - cbn [length]. lia.
  - lia.
  - auto.
  - intros _. congruence.
  - congruence.
  - congruence.
  - auto.
Qed.

Lemma finish_delivered tj s0 a0 s w : W s0 a0 s w -> (tj = true -> d_alloc s = true) ->
  let s' := term_mem_destination tj s in
  delivered s' w /\
  exists a b, d_outbuffer s' = Some a /\ d_buffer s' = Some a /\ hget (d_heap s') a = Some b /\
     0 < d_bufsize s' < 2 ^ 63 /\ d_bufsize s' <= Z.of_nat (length b) /\
     (d_newbuffer s' = None \/ d_newbuffer s' = Some a) /\
     (forall x, hget (d_heap s') x <> None -> hget (d_heap s0) x <> None \/ x = a).
Proof.
  intros HW Ha s'. destruct (w_blk _ _ _ _ HW) as (a & b & Hb & Hg & Hl & _ & Hp & Hn & _ & Hlive).
  destruct (w_free _ _ _ _ HW) as [Hf Hf0]. pose proof (w_size _ _ _ _ HW) as Hs.
  assert (Hsel : negb tj || d_alloc s = true) by (destruct tj; [rewrite Ha by reflexivity|]; reflexivity).
  unfold s', term_mem_destination, delivered; cbn. rewrite Hsel, Hf.
  replace (d_bufsize s - (d_bufsize s - Z.of_nat (length w))) with (Z.of_nat (length w)) by lia.
  rewrite u64_small by lia. split.
  - split; [reflexivity|]. exists a, b. auto.
  - exists a, b. split; [exact Hb|]. split; [exact Hb|]. split; [exact Hg|]. split; [lia|].
    split; [exact Hl|]. split; [|exact Hlive]. destruct Hn as [[H _]|[H _]]; auto.
Qed.

Lemma good_works s n : good s n <-> malloc_works s n.
Proof. reflexivity. Qed.

(* C39 for jpeg_mem_dest.  Whatever the initial buffer and whatever the bytes,
   one image ends either with the caller holding exactly the bytes written
   (all other memory untouched, a caller-supplied buffer not freed), or with
   the out-of-memory error; the latter only if malloc really failed. *)
Theorem C39_mem_dest : forall s w,
  heap_ok s -> (wants_new s \/ exists a, supplies s a) ->
  (exists s', image_mem s w = Ret s' /\ heap_ok s' /\ delivered s' w /\
     others_untouched s s' (if d_outsize s =? 0 then None else d_outbuffer s) /\
     (forall a, hget (d_heap s) a <> None -> hget (d_heap s') a <> None))
  \/ (image_mem s w = Error JERR_OUT_OF_MEMORY /\
      ~ (malloc_works s (S (length w)) /\ Z.of_nat (length w) < 2 ^ 62)).
Proof.
  intros s w HN HC. unfold image_mem, jpeg_mem_dest. cbn [d_outbuffer d_outsize].
  assert (Hcases : (exists a, supplies s a /\ d_outbuffer s = Some a /\ (d_outsize s =? 0) = false) \/
     wants_new s).
  { destruct HC as [H|(a & H)]; [right; exact H|left]. exists a. split; [exact H|].
    destruct H as (H1 & H2 & _). split; [exact H1|apply Z.eqb_neq; lia]. }
  destruct Hcases as [(a & HS & Ho & Hz)|HW].
  - destruct HS as (_ & Hsz & b & Hg & Hl). rewrite Ho, Hz. cbn [bind].
    cbn [d_heap d_orc d_outbuffer d_outsize d_newbuffer d_buffer d_bufsize d_next d_free d_alloc].
    pose proof (W_start s a b (d_outsize s) None (d_alloc s) HN Hg Hl ltac:(lia) (or_introl eq_refl)) as HWs.
    cbv zeta in HWs.
    set (s1 := mkDst (d_heap s) (d_orc s) (Some a) (d_outsize s) None (Some a) (d_outsize s) (Some a, 0) (d_outsize s) (d_alloc s)) in *.
    destruct (put_bytes_spec false s1 a ltac:(discriminate) w s1 [] HWs) as [(s2 & HE & HW2 & _)|(HE & HG)].
    + left. rewrite HE. cbn [bind app] in *. eexists. split; [reflexivity|].
      destruct (finish_delivered false s1 a s2 w HW2 ltac:(discriminate)) as (HD & a' & b' & E1 & E2 & E3 & _ & _ & _ & Hlv).
      split; [exact (w_nd _ _ _ _ HW2)|]. split; [exact HD|]. split.
      * split.
        -- intros x y Hx Hy. apply (w_frame _ _ _ _ HW2 x y); [congruence|exact Hy].
        -- intros x Hx. destruct (Hlv x Hx) as [HH| ->]; auto.
      * intros x Hx. destruct (Nat.eq_dec x a) as [->|Hn].
        -- apply (w_own _ _ _ _ HW2). reflexivity.
        -- destruct (hget (d_heap s) x) eqn:E; [|congruence].
           cbn [d_heap term_mem_destination]. rewrite (w_frame _ _ _ _ HW2 x b0 Hn E). discriminate.
    + right. rewrite HE. cbn [bind]. split; [reflexivity|]. intros [HG1 HG2].
      apply (Z.lt_irrefl (2 ^ 62)). eapply Z.le_lt_trans; [|exact HG2].
      apply (HG 1%nat). rewrite Nat.add_1_r. exact HG1.
  - set (s' := mkDst (d_heap s) (d_orc s) (d_outbuffer s) (d_outsize s) None
                 (d_buffer s) (d_bufsize s) (d_next s) (d_free s) (d_alloc s)).
    assert (Hbr : forall (X : outcome dst) (Y : nat -> outcome dst),
      match d_outbuffer s, d_outsize s =? 0 with Some n, false => Y n | _, _ => X end = X).
    { intros X Y. destruct HW as [-> | ->]; [reflexivity|]. destruct (d_outbuffer s); reflexivity. }
    rewrite Hbr. clear Hbr.
    destruct (malloc_spec s' OUTPUT_BUF_SIZE HN) as [(a & o & HM & Hfresh & Horc & Hlt)|(HM & HG)].
    2:{ destruct (malloc s' OUTPUT_BUF_SIZE) as [s2 r]. cbn [snd] in HM. subst r. cbn [bind].
        right. split; [reflexivity|]. intros [HG1 _].
        specialize (HG (length w) HG1). unfold OUTPUT_BUF_SIZE in HG. lia. }
    rewrite HM. cbn [d_heap d_orc d_outbuffer d_outsize d_newbuffer d_buffer d_bufsize d_next d_free d_alloc bind s'].
    unfold s' in *. cbn [d_heap d_orc d_outbuffer d_outsize d_newbuffer d_buffer d_bufsize d_next d_free d_alloc] in *.
    set (s1 := mkDst _ _ _ _ _ _ _ _ _ _).
    assert (Hh1 : forall x, x <> a -> hget (d_heap s1) x = hget (d_heap s) x).
    { intros x Hx. cbn. destruct (Nat.eqb_spec x a); [contradiction|reflexivity]. }
    assert (Hg1 : hget (d_heap s1) a = Some (repeat None (Z.to_nat OUTPUT_BUF_SIZE))).
    { cbn [s1 d_heap hget]. unfold s1; cbn [d_heap hget]. rewrite Nat.eqb_refl. reflexivity. }
    assert (HNd : heap_ok s1).
    { unfold heap_ok. cbn [s1 d_heap map fst]. unfold s1; cbn [d_heap map fst]. constructor; [|exact HN]. intros HI.
      apply in_hget in HI. destruct HI as (x & Hx). congruence. }
    pose proof (W_start s1 a _ OUTPUT_BUF_SIZE (Some a) (d_alloc s) HNd Hg1) as HWs.
    cbv zeta in HWs. change (d_heap s1) with ((a, repeat None (Z.to_nat OUTPUT_BUF_SIZE)) :: d_heap s) in HWs.
    change (d_outsize s1) with OUTPUT_BUF_SIZE in HWs. change (d_orc s1) with o in HWs.
    fold s1 in HWs.
    assert (HWs' : W s1 a s1 []).
    { apply HWs; [rewrite repeat_length; unfold OUTPUT_BUF_SIZE; lia|unfold OUTPUT_BUF_SIZE; lia|right; reflexivity]. }
    clear HWs.
    destruct (put_bytes_spec false s1 a ltac:(discriminate) w s1 [] HWs') as [(s2 & HE & HW2 & _)|(HE & HG)].
    + left. rewrite HE. cbn [bind app] in *. eexists. split; [reflexivity|].
      destruct (finish_delivered false s1 a s2 w HW2 ltac:(discriminate)) as (HD & a' & b' & E1 & E2 & E3 & _ & _ & _ & Hlv).
      assert (Hfr : forall x y, hget (d_heap s) x = Some y -> hget (d_heap s2) x = Some y).
      { intros x y Hy. assert (x <> a) by congruence.
        apply (w_frame _ _ _ _ HW2 x y); [assumption|]. rewrite Hh1 by assumption. exact Hy. }
      split; [exact (w_nd _ _ _ _ HW2)|]. split; [exact HD|]. split.
      * split; [intros x y _ Hy; apply Hfr, Hy|].
        intros x Hx. destruct (Hlv x Hx) as [HH| ->]; [|right; exact E1].
        destruct (Nat.eq_dec x a) as [->|Hn]; [|left; rewrite Hh1 in HH by exact Hn; exact HH].
        right. rewrite E1. f_equal. destruct (w_blk _ _ _ _ HW2) as (a2 & b2 & Q1 & Q2 & _ & _ & _ & Qn & Q3 & Q4).
        assert (a' = a2) as -> by (cbn in E2; congruence).
        (* the first library buffer is still live only if it is the current one *)
        destruct (Nat.eq_dec a2 a) as [|Hne]; [assumption|exfalso].
        apply Hx. exact (w_freed _ _ _ _ HW2 eq_refl a2 Q1 Hne).
      * intros x Hx. destruct (hget (d_heap s) x) eqn:E; [|congruence].
        cbn [d_heap term_mem_destination]. rewrite (Hfr _ _ E). discriminate.
    + right. rewrite HE. cbn [bind]. split; [reflexivity|]. intros [HG1 HG2].
      apply (Z.lt_irrefl (2 ^ 62)). eapply Z.le_lt_trans; [|exact HG2].
      apply (HG 0%nat). rewrite Nat.add_0_r. destruct HG1 as (G1 & G2 & G3). rewrite Horc in G1, G2.
      apply NoDup_cons_iff in G2. destruct G2 as [G2 G2'].
      split; [cbn [length] in G1; cbn; lia|]. split; [exact G2'|].
      intros x Hx. rewrite Horc in G3. destruct (G3 x ltac:(right; exact Hx)) as (y & -> & Hy). exists y.
      split; [reflexivity|]. rewrite Hh1; [exact Hy|]. intros ->. contradiction.
Qed.

(* ------------------------------------------------------------------ *)
(* TurboJPEG destination (jdatadst-tj.c), re-allocation allowed.
   [ready s]: the caller passes NULL, or a buffer other than the manager's with
   size 0, or a live buffer a; in the last case a must really be as large as
   the manager will assume (its own record of the size when it is the buffer of
   the previous image, *outsize otherwise), and the manager must not still
   remember a different buffer of its own. *)
Definition capacity (s : dst) (a : nat) : Z :=
  if opt_eqb (d_buffer s) (Some a) then d_bufsize s else d_outsize s.
Definition ready (s : dst) : Prop :=
  d_outbuffer s = None \/
  (d_outsize s = 0 /\ d_buffer s <> d_outbuffer s) \/
  (exists a b, d_outbuffer s = Some a /\ 0 < d_outsize s /\ hget (d_heap s) a = Some b /\
     0 < capacity s a < 2 ^ 63 /\ capacity s a <= Z.of_nat (length b) /\
     (d_newbuffer s = None \/ d_newbuffer s = Some a)).

Lemma opt_eqb_spec a b : reflect (a = b) (opt_eqb a b).
Proof.
  destruct a as [a|], b as [b|]; cbn; try (constructor; congruence).
  destruct (Nat.eqb_spec a b); constructor; congruence.
Qed.

Lemma tj_dest_full : forall s w,
  heap_ok s -> ready s -> w <> [] ->
  (exists s', image_tj true s w = Ret s' /\ heap_ok s' /\ ready s' /\ delivered s' w /\
     (forall x y, Some x <> (if d_outsize s =? 0 then None else d_outbuffer s) ->
        hget (d_heap s) x = Some y -> hget (d_heap s') x = Some y) /\
     (forall x, hget (d_heap s') x <> None -> hget (d_heap s) x <> None \/ d_outbuffer s' = Some x) /\
     d_buffer s' = d_outbuffer s' /\ Z.of_nat (length w) < d_bufsize s')
  \/ (image_tj true s w = Error JERR_OUT_OF_MEMORY /\
      ~ (malloc_works s (S (length w)) /\ Z.of_nat (length w) < 2 ^ 62)).
Proof.
  intros s w HN HR Hw. unfold image_tj, jpeg_mem_dest_tj. cbn [d_outbuffer d_outsize].
  assert (Hlw : (0 < length w)%nat) by (destruct w; cbn; [congruence|lia]).
  assert (HfinR : forall tj s0 a0 s2, W s0 a0 s2 w -> (tj = true -> d_alloc s2 = true) ->
      ready (term_mem_destination tj s2)).
  { intros tj s0 a0 s2 HW2 Hal.
    destruct (finish_delivered tj s0 a0 s2 w HW2 Hal) as ((HD1 & _) & a' & b' & E1 & E2 & E3 & E4 & E5 & E6 & _).
    right; right. exists a', b'. split; [exact E1|]. split; [rewrite HD1; lia|]. split; [exact E3|].
    unfold capacity. rewrite E2. destruct (opt_eqb_spec (Some a') (Some a')); [|congruence].
    split; [exact E4|]. split; [exact E5|exact E6]. }
  assert (Hcases : (exists a b, d_outbuffer s = Some a /\ (d_outsize s =? 0) = false /\ hget (d_heap s) a = Some b /\
     0 < capacity s a < 2 ^ 63 /\ capacity s a <= Z.of_nat (length b) /\
     (d_newbuffer s = None \/ d_newbuffer s = Some a)) \/
     ((d_outbuffer s = None \/ d_outsize s = 0) /\
      opt_eqb (d_buffer s) (d_outbuffer s) && negb (opt_eqb (d_outbuffer s) None) && true = false)).
  { destruct HR as [H|[[H1 H2]|(a & b & H1 & H2 & H3)]].
    - right. split; [auto|]. rewrite H. cbn. rewrite andb_false_r. reflexivity.
    - right. split; [auto|]. destruct (opt_eqb_spec (d_buffer s) (d_outbuffer s)); [contradiction|reflexivity].
    - left. exists a, b. split; [exact H1|]. split; [apply Z.eqb_neq; lia|exact H3]. }
  destruct Hcases as [(a & b & Ho & Hz & Hg & Hcap & Hl & Hnb)|(HW & Hre)].
  - rewrite Ho, Hz. cbn [bind].
    cbn [d_heap d_orc d_outbuffer d_outsize d_newbuffer d_buffer d_bufsize d_next d_free d_alloc].
    assert (Hbs : (if negb (opt_eqb (d_buffer s) (Some a) && negb (opt_eqb (Some a) None) && true)
             then d_outsize s else d_bufsize s) = capacity s a).
    { unfold capacity. cbn [opt_eqb negb]. rewrite !andb_true_r.
      destruct (opt_eqb (d_buffer s) (Some a)); reflexivity. }
    rewrite Hbs.
    pose proof (W_start s a b (capacity s a) (d_newbuffer s) true HN Hg Hl Hcap Hnb) as HWs.
    cbv zeta in HWs.
    set (s1 := mkDst (d_heap s) (d_orc s) (Some a) (d_outsize s) (d_newbuffer s) (Some a) (capacity s a) (Some a, 0) (capacity s a) true) in *.
    destruct (put_bytes_spec true s1 a (fun _ => eq_refl) w s1 [] HWs) as [(s2 & HE & HW2 & _)|(HE & HG)].
    + left. rewrite HE. cbn [bind app] in *. eexists. split; [reflexivity|].
      assert (Hal : d_alloc s2 = true) by (destruct (w_out _ _ _ _ HW2) as (_ & _ & E); exact E).
      destruct (finish_delivered true s1 a s2 w HW2 (fun _ => Hal)) as (HD & a' & b' & E1 & E2 & E3 & _ & _ & _ & Hlv).
      split; [exact (w_nd _ _ _ _ HW2)|]. split; [apply (HfinR true s1 a); auto|]. split; [exact HD|]. split.
      * intros x y Hx Hy. apply (w_frame _ _ _ _ HW2 x y); [congruence|exact Hy].
      * split; [intros x Hx; destruct (Hlv x Hx) as [HH| ->]; auto|].
        split; [congruence|]. destruct (w_free _ _ _ _ HW2). cbn [term_mem_destination d_bufsize]. lia.
    + right. rewrite HE. cbn [bind]. split; [reflexivity|]. intros [HG1 HG2].
      apply (Z.lt_irrefl (2 ^ 62)). eapply Z.le_lt_trans; [|exact HG2].
      apply (HG 1%nat). rewrite Nat.add_1_r. exact HG1.
  - rewrite Hre. cbn [negb].
    set (s' := mkDst (d_heap s) (d_orc s) (d_outbuffer s) (d_outsize s) (d_newbuffer s)
                 (d_buffer s) (d_bufsize s) (d_next s) (d_free s) true).
    assert (Hbr : forall (X : outcome dst) (Y : nat -> outcome dst),
      match d_outbuffer s, d_outsize s =? 0 with Some n, false => Y n | _, _ => X end = X).
    { intros X Y. destruct HW as [-> | ->]; [reflexivity|]. destruct (d_outbuffer s); reflexivity. }
    rewrite Hbr. clear Hbr.
    destruct (malloc_spec s' OUTPUT_BUF_SIZE HN) as [(a & o & HM & Hfresh & Horc & Hlt)|(HM & HG)].
    2:{ destruct (malloc s' OUTPUT_BUF_SIZE) as [s2 r]. cbn [snd] in HM. subst r. cbn [bind].
        right. split; [reflexivity|]. intros [HG1 _].
        specialize (HG (length w) HG1). unfold OUTPUT_BUF_SIZE in HG. lia. }
    rewrite HM. unfold s' in *. clear HM s'.
    cbn [d_heap d_orc d_outbuffer d_outsize d_newbuffer d_buffer d_bufsize d_next d_free d_alloc bind] in *.
    set (s1 := mkDst _ _ _ _ _ _ _ _ _ _).
    assert (Hh1 : forall x, x <> a -> hget (d_heap s1) x = hget (d_heap s) x).
    { intros x Hx. cbn. destruct (Nat.eqb_spec x a); [contradiction|reflexivity]. }
    assert (Hg1 : hget (d_heap s1) a = Some (repeat None (Z.to_nat OUTPUT_BUF_SIZE))).
    { unfold s1; cbn [d_heap hget]. rewrite Nat.eqb_refl. reflexivity. }
    assert (HNd : heap_ok s1).
    { unfold heap_ok. unfold s1; cbn [d_heap map fst]. constructor; [|exact HN]. intros HI.
      apply in_hget in HI. destruct HI as (x & Hx). congruence. }
    pose proof (W_start s1 a _ OUTPUT_BUF_SIZE (Some a) true HNd Hg1) as HWs.
    cbv zeta in HWs. change (d_heap s1) with ((a, repeat None (Z.to_nat OUTPUT_BUF_SIZE)) :: d_heap s) in HWs.
    change (d_outsize s1) with OUTPUT_BUF_SIZE in HWs. change (d_orc s1) with o in HWs.
    fold s1 in HWs.
    assert (HWs' : W s1 a s1 []).
    { apply HWs; [rewrite repeat_length; unfold OUTPUT_BUF_SIZE; lia|unfold OUTPUT_BUF_SIZE; lia|right; reflexivity]. }
    clear HWs.
    destruct (put_bytes_spec true s1 a (fun _ => eq_refl) w s1 [] HWs') as [(s2 & HE & HW2 & _)|(HE & HG)].
    + left. rewrite HE. cbn [bind app] in *. eexists. split; [reflexivity|].
      assert (Hal : d_alloc s2 = true) by (destruct (w_out _ _ _ _ HW2) as (_ & _ & E); exact E).
      destruct (finish_delivered true s1 a s2 w HW2 (fun _ => Hal)) as (HD & a' & b' & E1 & E2 & E3 & _ & _ & _ & Hlv).
      assert (Hfr : forall x y, hget (d_heap s) x = Some y -> hget (d_heap s2) x = Some y).
      { intros x y Hy. assert (x <> a) by congruence.
        apply (w_frame _ _ _ _ HW2 x y); [assumption|]. rewrite Hh1 by assumption. exact Hy. }
      split; [exact (w_nd _ _ _ _ HW2)|]. split; [apply (HfinR true s1 a); auto|]. split; [exact HD|]. split.
      * intros x y _ Hy; apply Hfr, Hy.
      * split; [|split; [congruence|destruct (w_free _ _ _ _ HW2); cbn [term_mem_destination d_bufsize]; lia]].
        intros x Hx. destruct (Hlv x Hx) as [HH| ->]; [|right; exact E1].
        destruct (Nat.eq_dec x a) as [->|Hn]; [|left; rewrite Hh1 in HH by exact Hn; exact HH].
        right. rewrite E1. f_equal. destruct (w_blk _ _ _ _ HW2) as (a2 & b2 & Q1 & Q2 & _ & _ & _ & Qn & Q3 & Q4).
        assert (a' = a2) as -> by (cbn in E2; congruence).
        destruct (Nat.eq_dec a2 a) as [|Hne]; [assumption|exfalso].
        apply Hx. exact (w_freed _ _ _ _ HW2 eq_refl a2 Q1 Hne).
    + right. rewrite HE. cbn [bind]. split; [reflexivity|]. intros [HG1 HG2].
      apply (Z.lt_irrefl (2 ^ 62)). eapply Z.le_lt_trans; [|exact HG2].
      apply (HG 0%nat). rewrite Nat.add_0_r. destruct HG1 as (G1 & G2 & G3). rewrite Horc in G1, G2.
      apply NoDup_cons_iff in G2. destruct G2 as [G2 G2'].
      split; [cbn [length] in G1; cbn; lia|]. split; [exact G2'|].
      intros x Hx. rewrite Horc in G3. destruct (G3 x ltac:(right; exact Hx)) as (y & -> & Hy). exists y.
      split; [reflexivity|]. rewrite Hh1; [exact Hy|]. intros ->. contradiction.
Qed.

(* One image with the TurboJPEG destination: exactly the bytes written, other
   memory untouched, and the manager is ready for the returned buffer to be
   passed again. *)
Theorem C39_tj_dest : forall s w,
  heap_ok s -> ready s -> w <> [] ->
  (exists s', image_tj true s w = Ret s' /\ heap_ok s' /\ ready s' /\ delivered s' w /\
     (forall x y, Some x <> (if d_outsize s =? 0 then None else d_outbuffer s) ->
        hget (d_heap s) x = Some y -> hget (d_heap s') x = Some y) /\
     (forall x, hget (d_heap s') x <> None -> hget (d_heap s) x <> None \/ d_outbuffer s' = Some x))
  \/ (image_tj true s w = Error JERR_OUT_OF_MEMORY /\
      ~ (malloc_works s (S (length w)) /\ Z.of_nat (length w) < 2 ^ 62)).
Proof.
  intros s w HN HR Hw.
  destruct (tj_dest_full s w HN HR Hw) as [(s' & H1 & H2 & H3 & H4 & H5 & H6 & _)|H]; [left|right; exact H].
  exists s'. auto 10.
Qed.

(* Many images with one handle.  Before each image the caller either asks for a
   fresh buffer (true) or passes back the buffer of the previous image (false);
   after each image it looks at its buffer. *)
Definition look (s : dst) : option block :=
  match d_outbuffer s with
  | None => None
  | Some a => match hget (d_heap s) a with
              | None => None
              | Some b => Some (firstn (Z.to_nat (d_outsize s)) b)
              end
  end.
Definition forget (s : dst) : dst :=
  mkDst (d_heap s) (d_orc s) None 0 (d_newbuffer s) (d_buffer s) (d_bufsize s)
        (d_next s) (d_free s) (d_alloc s).
Fixpoint history (s : dst) (l : list (bool * list Z)) : outcome (list (option block)) :=
  match l with
  | [] => Ret []
  | (fresh, w) :: l =>
    s' <- image_tj true (if fresh then forget s else s) w ;;
    r <- history s' l ;; Ret (look s' :: r)
  end.

Theorem C39_tj_history : forall l s,
  heap_ok s -> ready s -> Forall (fun p => snd p <> []) l ->
  history s l = Ret (map (fun p => Some (map Some (snd p))) l)
  \/ history s l = Error JERR_OUT_OF_MEMORY.
Proof.
  induction l as [|[fr w] l IH]; intros s HN HR HF; [left; reflexivity|].
  cbn [history]. set (s1 := if fr then forget s else s).
  assert (HN1 : heap_ok s1) by (destruct fr; exact HN).
  assert (HR1 : ready s1) by (destruct fr; [left; reflexivity|exact HR]).
  destruct (C39_tj_dest s1 w HN1 HR1 (Forall_inv HF)) as [(s' & -> & HN' & HR' & HD & _)|(-> & _)].
  - cbn [bind]. destruct (IH s' HN' HR' (Forall_inv_tail HF)) as [-> | ->]; [left|right; reflexivity].
    cbn [bind map snd]. f_equal. f_equal. destruct HD as (E & a & b & E1 & E2 & E3).
    unfold look. rewrite E1, E2, E, Nat2Z.id, E3. reflexivity.
  - right. reflexivity.
Qed.

(* Re-allocation forbidden (TJPARAM_NOREALLOC): the caller's buffer is used and
   never moved; the call succeeds exactly when the datastream is strictly
   shorter than the buffer, and otherwise reports an error without writing past
   the end. *)
Theorem C39_tj_fixed : forall s w a,
  heap_ok s -> supplies s a -> d_newbuffer s = None ->
  if Z.of_nat (length w) <? d_outsize s
  then exists s', image_tj false s w = Ret s' /\ delivered s' w /\ d_outbuffer s' = Some a /\
        (forall x y, x <> a -> hget (d_heap s) x = Some y -> hget (d_heap s') x = Some y) /\
        (forall x, hget (d_heap s') x = None <-> hget (d_heap s) x = None)
  else image_tj false s w = Error JERR_BUFFER_SIZE.
Proof.
  intros s w a HN (Ho & Hsz & b & Hg & Hl) Hnb.
  unfold image_tj, jpeg_mem_dest_tj. cbn [d_outbuffer d_outsize]. rewrite Ho.
  destruct (Z.eqb_spec (d_outsize s) 0); [lia|]. cbn [bind]. rewrite andb_false_r. cbn [negb].
  cbn [d_heap d_orc d_outbuffer d_outsize d_newbuffer d_buffer d_bufsize d_next d_free d_alloc].
  pose proof (W_start s a b (d_outsize s) (d_newbuffer s) false HN Hg Hl ltac:(lia) (or_introl Hnb)) as HWs.
  cbv zeta in HWs.
  set (s1 := mkDst (d_heap s) (d_orc s) (Some a) (d_outsize s) (d_newbuffer s) (Some a) (d_outsize s) (Some a, 0) (d_outsize s) false) in *.
  pose proof (put_bytes_fixed s1 a eq_refl w s1 [] HWs) as HP. cbn [app] in HP.
  change (d_bufsize s1) with (d_outsize s) in HP.
  destruct (Z.ltb_spec (Z.of_nat (length w)) (d_outsize s)) as [Hlt|Hge].
  - destruct HP as (s2 & -> & HW2 & Hb1 & Hb2 & Hb3). cbn [bind].
    eexists. split; [reflexivity|].
    destruct (w_out _ _ _ _ HW2) as (Q1 & Q2 & Q3). change (d_outbuffer s1) with (Some a) in Q1.
    change (d_alloc s1) with false in Q3.
    assert (Htb : d_outbuffer (term_mem_destination true s2) = Some a).
    { unfold term_mem_destination. cbn [d_outbuffer negb orb]. rewrite Q3. exact Q1. }
    destruct (w_blk _ _ _ _ HW2) as (a' & b' & E1 & E2 & E3 & _ & E4 & _).
    assert (a' = a) as -> by (rewrite Hb2 in E1; cbn in E1; congruence).
    destruct (w_free _ _ _ _ HW2) as [F1 F2].
    split; [|split; [exact Htb|split]].
    + split.
      * cbn [term_mem_destination d_outsize]. rewrite F1, u64_small by lia. lia.
      * exists a, b'. split; [exact Htb|]. split; [exact E2|exact E4].
    + intros x y Hx Hy. exact (w_frame _ _ _ _ HW2 x y Hx Hy).
    + exact Hb3.
  - rewrite HP. reflexivity.
Qed.

(* The documentation promises that *jpegSize is ignored when *jpegBuf is a
   buffer reused from a previous call.  It is not: with *jpegSize = 0 a new
   4096-byte block is allocated while the manager keeps the old, larger size,
   and the next image is written past the end of the block. *)
Definition fresh_tj : dst := mkDst [] [Some 1; Some 2; Some 3]%nat None 0 None None 0 (None, 0) 0 false.
Definition pattern (n : nat) : list Z := repeat 7 n.
Definition size_zero (s : dst) : dst :=
  mkDst (d_heap s) (d_orc s) (d_outbuffer s) 0 (d_newbuffer s) (d_buffer s)
    (d_bufsize s) (d_next s) (d_free s) (d_alloc s).

Lemma overflow_undef tj : forall w s a b p,
  hget (d_heap s) a = Some b -> d_next s = (Some a, p) -> 0 <= p <= Z.of_nat (length b) ->
  Z.of_nat (length b) - p < Z.of_nat (length w) ->
  Z.of_nat (length b) - p < d_free s < 2 ^ 64 -> put_bytes tj s w = Undef.
Proof.
  induction w as [|v w IH]; intros s a b p Hg Hn Hp Hw Hf; [cbn in Hw; lia|].
  cbn [put_bytes]. unfold put_byte. rewrite Hn. cbn [fst snd]. rewrite Hg. unfold aset.
  destruct (Z.ltb_spec p 0); [lia|].
  destruct (Z.leb_spec (Z.of_nat (length b)) p) as [H1|H1]; [reflexivity|].
  cbn [orb bind d_free]. rewrite u64_small by lia.
  destruct (Z.eqb_spec (d_free s - 1) 0); [lia|]. cbn [bind].
  eapply (IH _ a (upd b (Z.to_nat p) (Some v)) (p + 1)).
  - cbn [d_heap]. eapply hget_hset_eq; exact Hg.
  - reflexivity.
  - rewrite length_upd. lia.
  - rewrite length_upd. cbn [length] in Hw. lia.
  - rewrite length_upd. cbn [d_free]. lia.
Qed.

Theorem C39_tj_size_zero_refuted :
  forall s w s1, heap_ok s -> ready s ->
  4096 < Z.of_nat (length w) ->
  image_tj true s w = Ret s1 -> malloc_works s1 1 ->
  image_tj true (size_zero s1) w = Undef.
Proof.
  intros s w s1 HN HR Hl HE HM.
  assert (Hw : w <> []) by (intros ->; cbn in Hl; lia).
  destruct (tj_dest_full s w HN HR Hw) as [(s' & H1 & H2 & H3 & H4 & _ & _ & H5 & H6)|[H _]]; [|congruence].
  assert (s' = s1) as -> by congruence. clear H1.
  destruct H4 as (_ & a & b & Ha & Hg & _).
  assert (Hcap : d_bufsize s1 < 2 ^ 63).
  { destruct H3 as [H|[[_ H]|(a' & b' & Q1 & _ & _ & Q2 & _)]]; [congruence|congruence|].
    unfold capacity in Q2. rewrite H5, Q1 in Q2.
    destruct (opt_eqb_spec (Some a') (Some a')); [lia|congruence]. }
  unfold image_tj, jpeg_mem_dest_tj. cbn [size_zero d_outbuffer d_outsize d_buffer d_bufsize].
  rewrite H5, Ha. cbn [opt_eqb]. rewrite Nat.eqb_refl. cbn [andb negb Z.eqb].
  cbn [d_heap d_orc d_newbuffer d_next d_free d_alloc size_zero].
  set (s2 := mkDst _ _ _ _ _ _ _ _ _ _).
  destruct (malloc_spec s2 OUTPUT_BUF_SIZE) as [(x & o & HX & _)|(HX & HG)].
  - exact H2.
  - rewrite HX. cbn [bind d_heap d_orc d_newbuffer d_next d_free d_alloc d_outbuffer d_outsize d_bufsize s2].
    rewrite (overflow_undef true w _ x (repeat None (Z.to_nat OUTPUT_BUF_SIZE)) 0).
    + reflexivity.
    + cbn [d_heap hget]. rewrite Nat.eqb_refl. reflexivity.
    + reflexivity.
    + lia.
    + rewrite repeat_length. unfold OUTPUT_BUF_SIZE. lia.
    + rewrite repeat_length. unfold s2. cbn [d_free d_bufsize]. unfold OUTPUT_BUF_SIZE. lia.
  - exfalso. specialize (HG 0%nat HM). unfold OUTPUT_BUF_SIZE in HG. lia.
Qed.

(* After an image in a library-allocated buffer (block 2 here), compressing the
   next one into a different, caller-supplied buffer that is too small frees
   the first image's buffer although the caller still holds it. *)
Theorem C39_tj_foreign_buffer_refuted :
  exists s1 s3, image_tj true fresh_tj (pattern 10) = Ret s1 /\
    d_outbuffer s1 = Some 1%nat /\ hget (d_heap s1) 1 <> None /\
    let s2 := mkDst ((9%nat, repeat None 16) :: d_heap s1) (d_orc s1) (Some 9%nat) 16 (d_newbuffer s1)
                (d_buffer s1) (d_bufsize s1) (d_next s1) (d_free s1) (d_alloc s1) in
    supplies s2 9 /\ heap_ok s2 /\
    image_tj true s2 (pattern 20) = Ret s3 /\ delivered s3 (pattern 20) /\
    hget (d_heap s3) 1 = None.
Proof.
  eexists _, _. split; [vm_compute; reflexivity|]. split; [reflexivity|].
  split; [vm_compute; discriminate|]. cbv zeta. split; [|split; [|split; [vm_compute; reflexivity|split; [|reflexivity]]]].
  - split; [reflexivity|]. split; [cbn; lia|]. eexists. split; [reflexivity|]. cbn. lia.
  - unfold heap_ok. cbn. constructor; [intros [H|[]]; discriminate|]. constructor; [intros []|constructor].
  - split; [reflexivity|]. eexists _, _. split; [reflexivity|]. split; [reflexivity|]. reflexivity.
Qed.

(* ------------------------------------------------------------------ *)
(* stdio destination *)
Definition F (file0 : list (option Z)) (f : fdst) (w : list Z) : Prop :=
  exists full part, w = full ++ part /\
    f_file f = file0 ++ map Some full /\ length (f_buf f) = 4096%nat /\
    firstn (length part) (f_buf f) = map Some part /\
    f_next f = Z.of_nat (length part) /\ f_free f = 4096 - Z.of_nat (length part) /\
    Z.of_nat (length part) < 4096.

Lemma f_puts_spec file0 : forall w2 f w, F file0 f w ->
  (exists f', f_puts f w2 = Ret f' /\ F file0 f' (w ++ w2) /\ incl (f_ok f') (f_ok f) /\
     (length (f_ok f) <= length (f_ok f') + length w2)%nat) \/
  (f_puts f w2 = Error JERR_FILE_WRITE /\ ((length (f_ok f) < length w2)%nat \/ In false (f_ok f))).
Proof.
  induction w2 as [|v w2 IH]; intros f w HF.
  - left. exists f. rewrite app_nil_r. split; [reflexivity|]. split; [exact HF|]. split; [apply incl_refl|cbn; lia].
  - destruct HF as (full & part & -> & H1 & H2 & H3 & H4 & H5 & H6).
    cbn [f_puts]. unfold f_put. rewrite H4. unfold aset.
    destruct (Z.ltb_spec (Z.of_nat (length part)) 0); [lia|].
    destruct (Z.leb_spec (Z.of_nat (length (f_buf f))) (Z.of_nat (length part))); [lia|].
    cbn [orb bind f_free]. rewrite Nat2Z.id, H5, u64_small by lia.
    set (b1 := upd (f_buf f) (length part) (Some v)).
    assert (Hb1 : firstn (length (part ++ [v])) b1 = map Some (part ++ [v])).
    { rewrite app_length; cbn [length]. rewrite Nat.add_1_r. unfold b1.
      rewrite firstn_upd_snoc by lia. rewrite H3, map_app. reflexivity. }
    assert (Hl1 : length b1 = 4096%nat) by (unfold b1; rewrite length_upd; exact H2).
    destruct (Z.eqb_spec (4096 - Z.of_nat (length part) - 1) 0) as [Hz|Hz].
    + unfold empty_output_buffer, fwrite. cbn [f_ok f_buf f_file f_next f_free].
      destruct (f_ok f) as [|[|] o] eqn:Eo.
      * right. split; [reflexivity|]. left. cbn. lia.
      * cbn [bind f_ok f_buf f_file].
        set (f1 := mkF _ _ _ _ _).
        assert (HF1 : F file0 f1 ((full ++ part ++ [v]) ++ [])).
        { exists (full ++ part ++ [v]), []. split; [reflexivity|]. cbn [f1 f_file f_buf f_next f_free length].
          unfold f1; cbn [f_file f_buf f_next f_free length]. split.
          - rewrite H1, map_app, app_assoc. f_equal. rewrite <- Hb1. f_equal.
            rewrite app_length; cbn [length]. unfold OUTPUT_BUF_SIZE. lia.
          - split; [exact Hl1|]. split; [reflexivity|]. split; [reflexivity|]. split; [reflexivity|lia]. }
        rewrite app_nil_r in HF1.
        destruct (IH f1 _ HF1) as [(f' & E1 & E2 & E3 & E4)|(E1 & E2)].
        -- left. exists f'. split; [exact E1|]. split.
           { rewrite <- !app_assoc in E2. cbn [app] in E2. rewrite <- app_assoc. exact E2. }
           split; [intros x Hx; right; apply E3, Hx|]. cbn [f1 f_ok length] in *. unfold f1 in E4; cbn [f_ok] in E4. lia.
        -- right. split; [exact E1|]. unfold f1 in E2; cbn [f_ok] in E2. destruct E2 as [E2|E2]; [left; cbn; lia|right; right; exact E2].
      * right. split; [reflexivity|]. right. left. reflexivity.
    + cbn [bind]. set (f1 := mkF _ _ _ _ _).
      assert (HF1 : F file0 f1 (full ++ part ++ [v])).
      { exists full, (part ++ [v]). split; [reflexivity|]. unfold f1; cbn [f_file f_buf f_next f_free].
        split; [exact H1|]. split; [exact Hl1|]. split; [exact Hb1|].
        rewrite app_length; cbn [length]. split; [lia|]. split; lia. }
      destruct (IH f1 _ HF1) as [(f' & E1 & E2 & E3 & E4)|(E1 & E2)].
      * left. exists f'. split; [exact E1|]. split.
        { rewrite <- !app_assoc in E2. cbn [app] in E2. rewrite <- app_assoc. exact E2. }
        split; [exact E3|]. unfold f1 in E4; cbn [f_ok length] in *. lia.
      * right. split; [exact E1|]. unfold f1 in E2; cbn [f_ok] in E2. destruct E2 as [E2|E2]; [left; cbn; lia|right; exact E2].
Qed.

(* C39 for jpeg_stdio_dest: the file receives exactly the bytes written, in
   order, or a write error is reported; the latter only if some fwrite or the
   final flush failed. *)
Theorem C39_stdio : forall file0 ok w,
  let run := f <- f_puts (init_destination file0 ok) w ;; term_destination f in
  (exists f, run = Ret f /\ f_file f = file0 ++ map Some w) \/
  (run = Error JERR_FILE_WRITE /\ (In false ok \/ (length ok < length w + 2)%nat)).
Proof.
  intros file0 ok w run. unfold run.
  assert (HF : F file0 (init_destination file0 ok) []).
  { exists [], []. split; [reflexivity|]. unfold init_destination; cbn [f_file f_buf f_next f_free].
    split; [rewrite app_nil_r; reflexivity|]. split; [apply repeat_length|]. split; [reflexivity|].
    split; [reflexivity|]. split; [reflexivity|cbn; lia]. }
  destruct (f_puts_spec file0 w _ _ HF) as [(f & -> & HFf & HI & HL)|(-> & HE)].
  2:{ right. split; [reflexivity|]. cbn [init_destination f_ok] in HE. destruct HE; [right; lia|left; assumption]. }
  cbn [bind app init_destination f_ok] in *.
  destruct HFf as (full & part & -> & H1 & H2 & H3 & H4 & H5 & H6).
  unfold term_destination. rewrite H5. unfold OUTPUT_BUF_SIZE.
  replace (4096 - (4096 - Z.of_nat (length part))) with (Z.of_nat (length part)) by lia.
  assert (Hflush : forall g, incl (f_ok g) ok -> (f_ok g <> [] \/ (length ok < length (full ++ part) + 2)%nat) ->
     (exists f', match f_ok g with true :: o => Ret (mkF (f_buf g) (f_next g) (f_free g) (f_file g) o)
                 | _ => Error JERR_FILE_WRITE end = Ret f' /\ f_file f' = f_file g) \/
     (match f_ok g with true :: o => Ret (mkF (f_buf g) (f_next g) (f_free g) (f_file g) o)
                 | _ => Error JERR_FILE_WRITE end = Error JERR_FILE_WRITE /\
      (In false ok \/ (length ok < length (full ++ part) + 2)%nat))).
  { intros g Hg Hne. destruct (f_ok g) as [|[|] o].
    - right. split; [reflexivity|]. destruct Hne; [congruence|auto].
    - left. eexists. split; reflexivity.
    - right. split; [reflexivity|]. left. apply Hg. left. reflexivity. }
  destruct (Z.ltb_spec 0 (Z.of_nat (length part))) as [Hp|Hp].
  - unfold fwrite. destruct (f_ok f) as [|[|] o] eqn:Eo.
    + right. split; [reflexivity|]. right. cbn [length] in HL. lia.
    + cbn [bind].
      set (g := mkF _ _ _ _ _).
      destruct (Hflush g) as [(f' & E1 & E2)|(E1 & E2)].
      * intros x Hx. apply HI. right. exact Hx.
      * unfold g; cbn [f_ok]. destruct o; [right; cbn [length] in HL; lia|left; discriminate].
      * left. exists f'. split; [exact E1|]. rewrite E2. unfold g; cbn [f_file].
        rewrite H1, Nat2Z.id, H3, map_app, app_assoc. reflexivity.
      * right. auto.
    + right. split; [reflexivity|]. left. apply HI. left. reflexivity.
  - assert (part = []) as -> by (destruct part; [reflexivity|cbn in Hp; lia]).
    cbn [bind].
    destruct (Hflush f HI) as [(f' & E1 & E2)|(E1 & E2)].
    + destruct (f_ok f) eqn:Eo; [|left; discriminate]. right. cbn [length] in HL. lia.
    + left. exists f'. split; [exact E1|]. rewrite E2, H1, app_nil_r. reflexivity.
    + right. auto.
Qed.

(* Non-vacuity: growth from a caller's 3-byte buffer *)
Example C39_example :
  let s := mkDst [(5%nat, [None; None; None])] [Some 1; Some 2]%nat (Some 5%nat) 3 None None 0 (None, 0) 0 true in
  heap_ok s /\ supplies s 5 /\
  exists s', image_mem s [1; 2; 3; 4; 5; 6; 7] = Ret s' /\ d_outbuffer s' = Some 2%nat /\ d_outsize s' = 7.
Proof.
  cbv zeta. split; [|split].
  - unfold heap_ok; cbn. constructor; [intros []|constructor].
  - split; [reflexivity|]. split; [cbn; lia|]. eexists; split; [reflexivity|]. cbn. lia.
  - eexists. split; [vm_compute; reflexivity|]. split; reflexivity.
Qed.
Example C39_history_example :
  heap_ok fresh_tj /\ ready fresh_tj /\
  history fresh_tj [(true, [1; 2]); (false, [3]); (true, [4; 5; 6])]
  = Ret [Some [Some 1; Some 2]; Some [Some 3]; Some [Some 4; Some 5; Some 6]].
Proof. split; [constructor|]. split; [left; reflexivity|]. vm_compute. reflexivity. Qed.

Print Assumptions C39_mem_dest.
Print Assumptions C39_tj_dest.
Print Assumptions C39_tj_history.
Print Assumptions C39_tj_fixed.
Print Assumptions C39_tj_size_zero_refuted.
Print Assumptions C39_tj_foreign_buffer_refuted.
Print Assumptions C39_stdio.
