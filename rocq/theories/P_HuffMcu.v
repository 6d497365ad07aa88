(* P_HuffMcu.v -- what decode_mcu_slow, decode_mcu_fast and decode_mcu do to a reader state *)
From Verif Require Import Base M_HuffTbl S_Huff P_HuffTbl P_HuffTblD M_Source M_BitRead S_Stream P_BitRead P_HuffSym M_HuffDec P_HuffDec M_HuffFast P_HuffFast.

(* ---- the reference decoder looks only at the bits it consumes ---- *)
Definition agree (S T : nat -> bool) (n : nat) : Prop := forall i, (i < n)%nat -> S i = T i.

Lemma agree_bits_at S T n p k : agree S T n -> (p + k <= n)%nat -> bits_at S p k = bits_at T p k.
Proof.
  intros H Hk. apply list_nth_ext; rewrite !length_bits_at; auto. intros i Hi. rewrite !bits_at_nth by auto. apply H. lia.
Qed.
Lemma agree_le S T n m : agree S T n -> (m <= n)%nat -> agree S T m.
Proof. intros H Hm i Hi. apply H. lia. Qed.

Lemma code_at_Some bits S p k : code_at bits S p = Some k ->
  (k < length (code_sizes bits))%nat /\ code_word (code_sizes bits) k = bits_at S p (nth k (code_sizes bits) 0%nat).
Proof.
  unfold code_at. intros H. apply find_some in H. destruct H as [H1 H2]. apply in_seq in H1. apply bits_eqb_eq in H2. split; [lia|auto].
Qed.

Lemma code_at_None bits S p : code_space_ok bits -> code_at bits S p = None -> kraft (code_sizes bits) <= win S p.
Proof.
  intros Hc H. destruct (Z.lt_ge_cases (win S p) (kraft (code_sizes bits))); [|lia].
  destruct (exists_interval (code_sizes bits) (win S p) ltac:(pose proof (win_range S p); lia) H0) as (k & Hk & Hi).
  rewrite (code_at_some bits S p k) in H; auto. discriminate.
Qed.

Lemma ref_sym_local bits vals S T p : code_space_ok bits ->
  agree S T (snd (fst (ref_sym bits vals S p))) -> ref_sym bits vals T p = ref_sym bits vals S p.
Proof.
  intros Hc. unfold ref_sym, dec_symbol. destruct (code_at bits S p) as [k|] eqn:Ek; cbn [fst snd].
  - destruct (code_at_Some _ _ _ _ Ek) as [Hk Hw]. intros HA.
    rewrite (code_at_some bits T p k); auto. apply code_match; auto. rewrite Hw. symmetry; symmetry. apply (agree_bits_at _ _ _ _ _ HA). lia.
  - intros HA. rewrite (code_at_none bits T p); auto. pose proof (code_at_None bits S p Hc Ek) as H. unfold win in *.
    rewrite <- (agree_bits_at _ _ _ _ _ HA); [exact H|lia].
Qed.

Lemma ref_sym_ge bits vals S p : (p <= snd (fst (ref_sym bits vals S p)))%nat.
Proof. unfold ref_sym, dec_symbol. destruct (code_at bits S p); cbn; lia. Qed.

Lemma ref_dc_local bits vals S T p : code_space_ok bits ->
  (p <= snd (fst (ref_dc bits vals S p)))%nat /\
  (agree S T (snd (fst (ref_dc bits vals S p))) -> ref_dc bits vals T p = ref_dc bits vals S p).
Proof.
  intros Hc. unfold ref_dc. pose proof (ref_sym_local bits vals S T p Hc) as HL. pose proof (ref_sym_ge bits vals S p) as HG.
  destruct (ref_sym bits vals S p) as [[s p1] ok] eqn:Es. cbn [fst snd] in *.
  destruct (Z.eqb_spec s 0) as [E0|E0]; cbn [fst snd].
  - split; auto. intros HA. rewrite (HL HA). subst s. reflexivity.
  - split; [lia|]. intros HA. rewrite HL by (eapply agree_le; [exact HA|lia]).
    rewrite (proj2 (Z.eqb_neq s 0) E0). rewrite (agree_bits_at S T (p1 + Z.to_nat s) p1 (Z.to_nat s)); auto.
Qed.

Lemma ref_ac_local bits vals S T : code_space_ok bits -> forall fuel p k,
  (p <= snd (fst (ref_ac fuel bits vals S p k)))%nat /\
  (agree S T (snd (fst (ref_ac fuel bits vals S p k))) -> ref_ac fuel bits vals T p k = ref_ac fuel bits vals S p k).
Proof.
  intros Hc. induction fuel as [|f IH]; intros p k; cbn [ref_ac]; [cbn; auto|].
  destruct (Nat.ltb_spec k 64); [|cbn; auto].
  pose proof (ref_sym_local bits vals S T p Hc) as HL. pose proof (ref_sym_ge bits vals S p) as HG.
  destruct (ref_sym bits vals S p) as [[rs p1] ok] eqn:Es. cbn [fst snd] in *.
  destruct (Nat.eqb_spec (Z.to_nat (rs mod 16)) 0) as [E0|E0].
  - destruct (Nat.eqb_spec (Z.to_nat (rs / 16)) 15) as [E1|E1].
    + destruct (IH p1 (k + 16)%nat) as [I1 I2]. destruct (ref_ac f bits vals S p1 (k + 16)) as [[l p2] ok2] eqn:Er. cbn [fst snd] in *.
      split; [lia|]. intros HA. rewrite HL by (eapply agree_le; [exact HA|lia]). rewrite E0, E1. cbn [Nat.eqb].
      rewrite (I2 HA). reflexivity.
    + cbn [fst snd]. split; auto. intros HA. rewrite (HL HA).
      rewrite (proj2 (Nat.eqb_eq _ _) E0), (proj2 (Nat.eqb_neq _ _) E1). reflexivity.
  - destruct (IH (p1 + Z.to_nat (rs mod 16))%nat (k + Z.to_nat (rs / 16) + 1)%nat) as [I1 I2].
    destruct (ref_ac f bits vals S (p1 + Z.to_nat (rs mod 16)) (k + Z.to_nat (rs / 16) + 1)) as [[l p2] ok2] eqn:Er. cbn [fst snd] in *.
    split; [lia|]. intros HA. rewrite HL by (eapply agree_le; [exact HA|lia]).
    rewrite (proj2 (Nat.eqb_neq _ _) E0). rewrite (I2 HA).
    rewrite (agree_bits_at S T p2 p1 (Z.to_nat (rs mod 16))); auto.
Qed.

Lemma ref_mcu_local S T ncomp : forall rbs bn dcs p,
  Forall (fun x => blk_ok (fst x) (snd x) ncomp) rbs ->
  (p <= snd (fst (ref_mcu bn rbs dcs S p)))%nat /\
  (agree S T (snd (fst (ref_mcu bn rbs dcs S p))) -> ref_mcu bn rbs dcs T p = ref_mcu bn rbs dcs S p).
Proof.
  induction rbs as [|[rb b] r IH]; intros bn dcs p Hok; cbn [ref_mcu]; [cbn; auto|].
  inversion Hok as [|? ? Hb Hr]; subst. cbn [fst snd] in Hb. destruct Hb as ((_ & [B1 _] & _) & (_ & [B2 _] & _) & _).
  unfold ref_block.
  destruct (ref_dc_local (hbits (r_dc rb)) (hval (r_dc rb)) S T p B1) as [D1 D2].
  destruct (ref_dc (hbits (r_dc rb)) (hval (r_dc rb)) S p) as [[diff p1] ok1] eqn:E1. cbn [fst snd] in D1, D2.
  destruct (ref_ac_local (hbits (r_ac rb)) (hval (r_ac rb)) S T B2 64 p1 1%nat) as [A1 A2].
  destruct (ref_ac 64 (hbits (r_ac rb)) (hval (r_ac rb)) S p1 1) as [[l p2] ok2] eqn:E2. cbn [fst snd] in A1, A2.
  set (dcs1 := if b_dcneed b then set_dc dcs (b_ci b) diff else dcs).
  destruct (IH (bn + 1) dcs1 p2 Hr) as [I1 I2].
  destruct (ref_mcu (bn + 1) r dcs1 S p2) as [[[dcs2 o] p3] ok3] eqn:E3. cbn [fst snd] in *.
  split; [lia|]. intros HA. rewrite D2 by (eapply agree_le; [exact HA|lia]).
  rewrite A2 by (eapply agree_le; [exact HA|lia]). fold dcs1. rewrite (I2 HA). reflexivity.
Qed.

(* ---- reader states ---- *)
Definition reader_ok {U} (s : dst U) : Prop :=
  0 <= bleft s <= 64 /\ src_ok (dsrc s) /\ (insuff s = true -> unread s <> 0 /\ In JWRN_HIT_MARKER (warns s)).

(* T is a stream that continues the bits at hand; where the segment is known to have ended, zeros follow *)
Definition continues (T : nat -> bool) (l : list bool) (ended : bool) : Prop :=
  forall i, (i < length l)%nat \/ ended = true -> T i = nth i l false.

Definition ended {A} (t : option A) : bool := match t with Some _ => true | None => false end.

Lemma skipn_stream (T : nat -> bool) l l' p : (p + length l' = length l)%nat ->
  (forall i, (i < length l)%nat -> T i = nth i l false) ->
  (forall i, (i < length l')%nat -> T (p + i)%nat = nth i l' false) -> l' = skipn p l.
Proof.
  intros Hl H1 H2. apply list_nth_ext; [rewrite skipn_length; lia|]. intros i Hi. rewrite <- H2 by auto. rewrite H1 by lia.
  rewrite <- (firstn_skipn p l) at 1. rewrite app_nth2; rewrite firstn_length; [f_equal; lia|lia].
Qed.

Lemma decode_mcu_slow_spec rbs (e : dst sqst) T :
  reader_ok e -> insuff e = false -> Forall (fun x => blk_ok (fst x) (snd x) (length (sdc (ust e)))) rbs ->
  continues T (abits e) (ended (tail e)) ->
  let '(dcs, o, p', ok) := ref_mcu 0 rbs (sdc (ust e)) T 0 in
  match decode_mcu_slow (map snd rbs) e with
  | Ret (Done _ s') =>
      reader_ok s' /\ ust s' = mkSq dcs (souts (ust e) ++ o) /\ tail s' = tail e /\
      ssusp (dsrc s') = ssusp (dsrc e) /\
      insuff s' = (length (abits e) <? p')%nat /\
      (insuff s' = false -> abits s' = skipn p' (abits e) /\ (ok = true -> warns s' = warns e))
  | Ret (Susp s') =>
      ssusp (dsrc e) = true /\ tail e = None /\ unread e = 0 /\
      exists o1 o2 w, o = o1 ++ o2 /\
        s' = mkD (gbuf e) (bleft e) (dsrc e) 0 false w (mkSq (sdc (ust e)) (souts (ust e) ++ o1))
  | _ => False
  end.
Proof.
  intros (Hl & Hs & Hi) Hf Hok HT.
  set (c := mkCtx T (length (abits e)) (tail e) (ssusp (dsrc e))).
  assert (I : inv c (warns e) 0 0 e).
  { constructor; auto; try congruence.
    - intros i Hi'. cbn [cS c]. rewrite Nat.add_0_l. symmetry. apply HT. destruct Hi' as [?|Hn]; auto.
      right. cbn [cT c] in Hn. unfold ended. destruct (tail e); auto. }
  pose proof (decode_blocks_spec rbs 0 c (warns e) 0 e Hok I) as H. unfold wp in H.
  unfold decode_mcu_slow. cbn [cS c] in H. destruct (ref_mcu 0 rbs (sdc (ust e)) T 0) as [[[dcs o] p'] ok].
  cbn [fst snd] in H.
  destruct (decode_blocks 0 (map snd rbs) e) as [[a s'|s']| |]; auto.
  - destruct H as (U & W' & J & HW). pose proof J as [J1 J2 J3 J4 J5 J6 J7 J8 J9 J10]. cbn [cS cL cT cU c] in *.
    split; [split; auto|]. split; auto. split; auto. split; auto. split; auto.
    intros Hx. split.
    + apply (skipn_stream T); [auto| |].
      * intros i Hi'. apply HT. auto.
      * intros i Hi'. symmetry. apply J3. auto.
    + intros Ho. rewrite (J9 Hx). auto.
  - destruct H as ((Q1 & Q2 & Q3 & Q4) & o1 & o2 & Q5 & Q6). cbn [cT cU c] in *. split; auto. split; auto.
    assert (Hu : unread e = 0). { unfold tail in Q1. destruct (Z.eqb_spec (unread e) 0); [auto|discriminate]. }
    split; auto. exists o1, o2, (warns s'). split; auto. rewrite Q3, Q4, Q5. reflexivity.
Qed.

(* ---- the fast decoder ---- *)
Definition fast_stream (e : dst sqst) : nat -> bool :=
  zstream (bits_of (Z.to_nat (bleft e)) (gbuf e) ++ bytes_to_bits (fseg (sbuf (dsrc e)))).

Lemma zstream_app l r i : zstream (l ++ r) (length l + i) = nth i r false.
Proof. unfold zstream. rewrite app_nth2 by lia. f_equal. lia. Qed.

Lemma decode_mcu_fast_spec rbs (e : dst sqst) :
  reader_ok e -> unread e = 0 -> rbs <> [] ->
  (512 * length rbs <= length (sbuf (dsrc e)))%nat ->
  Forall (fun x => blk_ok (fst x) (snd x) (length (sdc (ust e)))) rbs ->
  let '(dcs, o, p', ok) := ref_mcu 0 rbs (sdc (ust e)) (fast_stream e) 0 in
  exists r s', decode_mcu_fast (map snd rbs) e = Ret (r, s') /\
    if r then
      reader_ok s' /\ ust s' = mkSq dcs (souts (ust e) ++ o) /\ tail s' = tail e /\ unread s' = 0 /\
      ssusp (dsrc s') = ssusp (dsrc e) /\ insuff s' = insuff e /\ warns s' = warns e /\
      abits e = bits_at (fast_stream e) 0 p' ++ abits s' /\
      exists k, (k <= length (sbuf (dsrc e)))%nat /\ dsrc s' = mkSrc (skipn k (sbuf (dsrc e))) (schunks (dsrc e)) (ssusp (dsrc e))
    else fstop (sbuf (dsrc e)) = true /\
      s' = mkD (gbuf e) (bleft e) (dsrc e) 0 (insuff e) (warns e) (mkSq (sdc (ust e)) (souts (ust e) ++ o)).
Proof.
  intros (Hl & Hs & Hi) Hu Hne Hlen Hok.
  set (S := fast_stream e).
  set (e' := mkD (gbuf e) (bleft e) (dsrc e) (unread e) (insuff e) (warns e) (mkFs (ust e) 0) : dst fsq).
  assert (Hbits : bits_of (Z.to_nat (bleft e)) (gbuf e) = bits_at S 0 (Z.to_nat (bleft e))).
  { symmetry. rewrite <- (length_bits_of (Z.to_nat (bleft e)) (gbuf e)) at 1. apply bits_at_eq. intros i Hi'.
    unfold S, fast_stream, zstream. cbn [Nat.add]. apply app_nth1. auto. }
  assert (I : finv e S 0 e').
  { constructor; unfold e'; cbn [bleft gbuf dsrc insuff warns ust f_pos unread]; auto; try lia.
    - intros i. cbn [Nat.add Z.to_nat skipn]. rewrite <- (length_bits_of (Z.to_nat (bleft e)) (gbuf e)) at 1.
      unfold S, fast_stream. apply zstream_app.
    - intros _. cbn [bits_at seq map app]. change (Z.to_nat 0) with 0%nat. cbn [skipn]. rewrite <- Hbits.
      unfold abits, tail, sseg. rewrite Hu. cbn [Z.eqb]. auto. }
  assert (HR : (0 + 1984 * length rbs + 64 <= 4 * length (sbuf (dsrc e)))%nat).
  { destruct rbs; [congruence|]. cbn [length] in *. lia. }
  pose proof (fast_blocks_spec e Hs S rbs 0 0 e' Hok I HR) as H. unfold wp in H. cbn [ust f_sq e'] in H.
  unfold decode_mcu_fast. fold e'.
  destruct (ref_mcu 0 rbs (sdc (ust e)) S 0) as [[[dcs o] p'] ok].
  destruct (fast_blocks 0 (map snd rbs) e') as [[a s|s]| |]; try contradiction.
  destruct H as [U J]. destruct J as [J1 J2 J3 J4 J5 J6 J65 J7 J8 J81 J82 J9].
  destruct (Z.eqb_spec (unread s) 0) as [E0|E0]; cbn [negb].
  - eexists true, _. split; [reflexivity|]. destruct (J9 E0) as [A1 A2].
    assert (Hsp : (Z.to_nat (f_pos (ust s)) <= length (sbuf (dsrc e)))%nat \/ True) by auto.
    assert (Hsrc : forall k, (k <= length (sbuf (dsrc e)))%nat ->
              src_bytes (mkSrc (skipn k (sbuf (dsrc e))) (schunks (dsrc e)) (ssusp (dsrc e))) = skipn k (src_bytes (dsrc e))).
    { intros k Hk. unfold src_bytes. cbn [sbuf schunks]. rewrite skipn_app.
      replace (k - length (sbuf (dsrc e)))%nat with 0%nat by lia. reflexivity. }
    pose proof (Hsrc _ J65) as HS2.
    rewrite J3. unfold reader_ok, tail, abits, sseg. cbn [bleft gbuf dsrc unread insuff warns ust ssusp].
    rewrite HS2, E0. cbn [Z.eqb]. rewrite J4, J5.
    split; [|split; [exact U|]].
    + split; [lia|]. split; [|intros Hx; destruct (Hi Hx); congruence].
      destruct Hs as [F1 F2]. split; [|exact F2]. rewrite HS2.
      rewrite <- (firstn_skipn (Z.to_nat (f_pos (ust s))) (src_bytes (dsrc e))) in F1. apply Forall_app in F1. tauto.
    + unfold tail, sseg in A2. rewrite Hu in A2. cbn [Z.eqb] in A2. split; [rewrite Hu; cbn [Z.eqb]; congruence|].
      split; [auto|]. split; [auto|]. split; [auto|]. split; [auto|].
      split; [unfold abits, sseg in A1; rewrite A1, J2; reflexivity|].
      exists (Z.to_nat (f_pos (ust s))). auto.
  - eexists false, _. split; [reflexivity|]. split; [auto|]. rewrite J4, J5, U. reflexivity.
Qed.
