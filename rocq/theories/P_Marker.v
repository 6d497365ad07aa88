(* P_Marker.v -- next_marker and restart resynchronisation in terms of byte strings *)
From Verif Require Import Base M_Source S_Stream P_BitRead.

Lemma seg_ff_any u bs : forall r, seg u true (255 :: bs) = r -> seg u true bs = r.
Proof. auto. Qed.

(* length facts about the tail of a segment *)
Lemma seg_tail_len u : forall bs ff m r, snd (seg u ff bs) = Some (m, r) ->
  (length r < length bs)%nat \/ (u = false /\ m = 217 /\ r = []).
Proof.
  induction bs as [|b bs IH]; intros ff m r; cbn [seg].
  - destruct u; [discriminate|]. cbn. intros H. inversion H; subst. auto.
  - cbn [length]. destruct (b =? 255).
    + intros H. destruct (IH _ _ _ H) as [?|?]; auto.
    + destruct ff; [destruct (b =? 0)|].
      * destruct (seg u false bs) as [d t] eqn:E. cbn [snd]. intros H.
        specialize (IH false m r). rewrite E in IH. destruct (IH H) as [?|?]; auto.
      * cbn. intros H. inversion H; subst. auto.
      * destruct (seg u false bs) as [d t] eqn:E. cbn [snd]. intros H.
        specialize (IH false m r). rewrite E in IH. destruct (IH H) as [?|?]; auto.
Qed.

Lemma seg_marker u : forall bs ff m r, Forall byte bs -> snd (seg u ff bs) = Some (m, r) ->
  0 < m < 255 /\ Forall byte r.
Proof.
  induction bs as [|b bs IH]; intros ff m r HB; cbn [seg].
  - destruct u; [discriminate|]. cbn. intros H. inversion H; subst. split; [lia|constructor].
  - inversion HB as [|? ? Hb HB']; subst. unfold byte in Hb. destruct (Z.eqb_spec b 255).
    + intros H. eapply IH; eauto.
    + destruct ff; [destruct (Z.eqb_spec b 0)|].
      * destruct (seg u false bs) as [d t] eqn:E. cbn [snd]. intros H. eapply (IH false); eauto. rewrite E. exact H.
      * cbn. intros H. inversion H; subst. split; [lia|auto].
      * destruct (seg u false bs) as [d t] eqn:E. cbn [snd]. intros H. eapply (IH false); eauto. rewrite E. exact H.
Qed.

Lemma src_size_len s : src_size s = length (src_bytes s).
Proof. reflexivity. Qed.

(* skip_to_ff: consumes plain data bytes up to an FF *)
Lemma skip_to_ff_spec : forall fuel s disc, src_ok s -> (length (src_bytes s) + 2 < fuel)%nat ->
  match skip_to_ff fuel s disc with
  | None => False
  | Some (s1, d1, None) => ssusp s = true /\ src_bytes s1 = [] /\ src_ok s1 /\ ssusp s1 = true /\
                           (forall f, snd (seg true false (src_bytes s ++ f)) = snd (seg true false f))
  | Some (s1, d1, Some s2) =>
      src_ok s1 /\ ssusp s1 = ssusp s /\ (length (src_bytes s1) <= length (src_bytes s))%nat /\
      snd (seg (ssusp s) false (src_bytes s)) = snd (seg (ssusp s) false (src_bytes s1)) /\
      (ssusp s = true -> forall f, snd (seg true false (src_bytes s ++ f)) = snd (seg true false (src_bytes s1 ++ f))) /\
      src_ok s2 /\ ssusp s2 = ssusp s /\
      snd (seg (ssusp s) false (src_bytes s1)) = snd (seg (ssusp s) true (src_bytes s2)) /\
      (src_bytes s1 = 255 :: src_bytes s2 \/ (ssusp s = false /\ src_bytes s1 = [] /\ src_bytes s2 = [217])) /\
      (src_bytes s = src_bytes s1 -> d1 = disc)
  end.
Proof.
  induction fuel as [|f IH]; intros s disc Hs Hf; [lia|]. cbn [skip_to_ff].
  destruct (next_byte s) as [[c s']|] eqn:E.
  - destruct (next_byte_ok _ _ _ Hs E) as [Hs' Hc]. destruct (next_byte_some _ _ _ E) as [Hu Hb].
    destruct (Z.eqb_spec c 255) as [->|Hc255].
    + split; auto. split; auto. split; auto. split; auto. split; auto. split; auto. split; auto.
      destruct Hb as [Hb|(H1 & H2 & _ & H3)].
      * split; [rewrite Hb; reflexivity|]. split; auto.
      * split; [rewrite H1, H2, H3; reflexivity|]. split; auto.
    + destruct Hb as [Hb|(_ & _ & Hx & _)]; [|lia].
      specialize (IH s' (disc + 1) Hs' ltac:(rewrite Hb in Hf; cbn in Hf; lia)).
      assert (Hseg : forall u g, snd (seg u false (src_bytes s ++ g)) = snd (seg u false (src_bytes s' ++ g))).
      { intros u g. rewrite Hb. cbn [app seg]. rewrite (proj2 (Z.eqb_neq c 255) Hc255).
        destruct (seg u false (src_bytes s' ++ g)); reflexivity. }
      destruct (skip_to_ff f s' (disc + 1)) as [[[s1 d1] [s2|]]|]; auto.
      * destruct IH as (I1 & I2 & I3 & I4 & I5 & I6 & I7 & I8 & I9 & I10).
        split; auto. split; [congruence|]. split; [rewrite Hb; cbn; lia|].
        split. { specialize (Hseg (ssusp s) []). rewrite !app_nil_r in Hseg. rewrite Hseg, <- Hu. exact I4. }
        split; [intros Hx g; rewrite Hseg; apply I5; congruence|].
        split; auto. split; [congruence|]. split; [rewrite <- Hu; auto|].
        split; [rewrite <- Hu; auto|]. intros Hx. exfalso.
        assert (length (src_bytes s) = length (src_bytes s1)) by congruence. rewrite Hb in H. cbn in H. lia.
      * destruct IH as (I1 & I2 & I3 & I4 & I5). split; [congruence|]. split; auto. split; auto. split; auto.
        intros g. rewrite Hseg. apply I5.
  - destruct (next_byte_none _ Hs E) as [H1 H2]. split; auto. split; auto. split; auto. split; auto.
    intros g. rewrite H2. reflexivity.
Qed.

Lemma skip_ff_bytes : forall fuel s, src_ok s ->
  match skip_ff fuel s with
  | None => True
  | Some None => exists n, src_bytes s = repeat 255 n
  | Some (Some (c, s')) => (exists n, src_bytes s = repeat 255 n ++ c :: src_bytes s') \/
                           (ssusp s = false /\ c = 217 /\ src_bytes s' = [])
  end.
Proof.
  induction fuel as [|f IH]; intros s Hs; cbn [skip_ff]; auto.
  destruct (next_byte s) as [[c s1]|] eqn:E.
  - destruct (next_byte_ok s c s1 Hs E) as [Hs1 Hc].
    destruct (next_byte_some s c s1 E) as [Hu [Hb|(Hfu & Hb & -> & Hb')]].
    + destruct (Z.eqb_spec c 255) as [->|Hne].
      * specialize (IH s1 Hs1). destruct (skip_ff f s1) as [[[c' s']|]|]; auto.
        -- destruct IH as [(n & I)|(I1 & I2 & I3)]; [left; exists (S n); cbn; congruence|right; split; [congruence|auto]].
        -- destruct IH as (n & I). exists (S n). cbn. congruence.
      * left. exists 0%nat. exact Hb.
    + cbn [Z.eqb Pos.eqb]. specialize (IH s1 Hs1). destruct (skip_ff f s1) as [[[c' s']|]|]; auto.
      * rewrite Hb' in IH. destruct IH as [(n & I)|(I1 & I2 & I3)]; [|right; split; [congruence|auto]].
        destruct n as [|n]; cbn in I; [|discriminate]. inversion I. right. auto.
      * destruct IH as (n & I). rewrite Hb' in I. destruct n as [|n]; cbn in I; discriminate.
  - destruct (next_byte_none _ Hs E) as [H1 H2]. exists 0%nat. exact H2.
Qed.

Lemma seg_repeat_ff u n r : seg u true (repeat 255 n ++ r) = seg u true r.
Proof. induction n; cbn [repeat app]; auto. Qed.

Lemma next_marker_loop_spec : forall fuel s disc, src_ok s -> (length (src_bytes s) + 2 < fuel)%nat ->
  match next_marker_loop fuel s disc with
  | None => False
  | Some (s', d', Some m) =>
      snd (seg (ssusp s) false (src_bytes s)) = Some (m, src_bytes s') /\ src_ok s' /\ ssusp s' = ssusp s /\ d' = 0
  | Some (s', d', None) =>
      ssusp s = true /\ snd (seg true false (src_bytes s)) = None /\ src_ok s' /\ ssusp s' = true /\
      (forall f, snd (seg true false (src_bytes s ++ f)) = snd (seg true false (src_bytes s' ++ f)))
  end.
Proof.
  induction fuel as [|f IH]; intros s disc Hs Hf; [lia|]. cbn [next_marker_loop].
  pose proof (skip_to_ff_spec (src_size s + 4) s disc Hs ltac:(rewrite src_size_len; lia)) as H.
  destruct (skip_to_ff (src_size s + 4) s disc) as [[[s1 d1] [s2|]]|]; auto.
  - destruct H as (I1 & I2 & I3 & I4 & I5 & I6 & I7 & I8 & I9 & _).
    pose proof (skip_ff_spec (src_size s2 + 4) s2 I6 ltac:(rewrite src_size_len; lia)) as HF.
    pose proof (skip_ff_bytes (src_size s2 + 4) s2 I6) as HB.
    destruct (skip_ff (src_size s2 + 4) s2) as [[[c s3]|]|]; auto.
    + destruct HF as (F1 & F2 & F3 & F4 & F5).
      destruct (Z.eqb_spec c 0) as [->|Hc0].
      * (* stuffed zero: keep looking *)
        destruct HB as [(n & HB)|(_ & HB & _)]; [|discriminate].
        assert (Hb1 : src_bytes s1 = 255 :: repeat 255 n ++ 0 :: src_bytes s3).
        { destruct I9 as [I9|(_ & _ & I9)]; [congruence|]. rewrite I9 in HB. destruct n as [|[|n]]; cbn in HB; discriminate. }
        assert (Hlt : (length (src_bytes s3) < length (src_bytes s))%nat).
        { rewrite Hb1 in I3. cbn [length] in I3. rewrite app_length in I3. cbn [length] in I3. lia. }
        assert (Hg : forall u g, snd (seg u false (src_bytes s1 ++ g)) = snd (seg u false (src_bytes s3 ++ g))).
        { intros u g. rewrite Hb1. cbn [app seg Z.eqb Pos.eqb]. rewrite <- app_assoc, seg_repeat_ff. cbn [app seg Z.eqb].
          destruct (seg u false (src_bytes s3 ++ g)); reflexivity. }
        specialize (IH s3 (d1 + 2) F3 ltac:(lia)).
        assert (E3 : ssusp s3 = ssusp s) by congruence.
        assert (HS : snd (seg (ssusp s) false (src_bytes s)) = snd (seg (ssusp s) false (src_bytes s3))).
        { rewrite I4. specialize (Hg (ssusp s) []). rewrite !app_nil_r in Hg. exact Hg. }
        destruct (next_marker_loop f s3 (d1 + 2)) as [[[s' d'] [m|]]|]; auto.
        -- destruct IH as (A1 & A2 & A3 & A4). rewrite HS, <- E3. split; [exact A1|]. split; [exact A2|]. split; [congruence|exact A4].
        -- destruct IH as (A1 & A2 & A3 & A4 & A5). split; [congruence|]. rewrite <- E3, A1 in HS. split; [congruence|].
           split; auto. split; auto. intros g. rewrite I5 by congruence. rewrite Hg. apply A5.
      * split; [|split; auto; split; [congruence|auto]].
        rewrite I4, I8. rewrite <- I7. rewrite F5. reflexivity.
    + destruct HF as [F1 F2]. rewrite I7 in F1. split; auto. split.
      { rewrite I7 in F2. rewrite F1 in I4, I8, F2. rewrite I4, I8, F2. reflexivity. }
      split; auto. split; [congruence|]. exact (I5 F1).
  - destruct H as (I1 & I2 & I3 & I4 & I5). split; auto. split.
    + specialize (I5 []). rewrite app_nil_r in I5. rewrite I5. reflexivity.
    + split; auto. split; auto. intros g. rewrite I5, I2. reflexivity.
Qed.

Lemma next_marker_spec s disc : src_ok s ->
  match next_marker s disc with
  | None => False
  | Some (s', d', Some m) =>
      snd (seg (ssusp s) false (src_bytes s)) = Some (m, src_bytes s') /\ src_ok s' /\ ssusp s' = ssusp s /\ d' = 0
  | Some (s', d', None) =>
      ssusp s = true /\ snd (seg true false (src_bytes s)) = None /\ src_ok s' /\ ssusp s' = true /\
      (forall f, snd (seg true false (src_bytes s ++ f)) = snd (seg true false (src_bytes s' ++ f)))
  end.
Proof. intros H. apply next_marker_loop_spec; auto. rewrite src_size_len. lia. Qed.

(* ---- resynchronisation, on byte strings ---- *)
(* Result of read_restart_marker given the marker m at hand, the bytes r after it and the expected
   restart number: the marker left pending (0 = none) and the bytes that follow; None = needs more
   input.  (jdmarker.c comment 1170-1213.) *)
Fixpoint resync_ref (u : bool) (fuel : nat) (m : Z) (r : list Z) (num : Z) : option (Z * list Z) :=
  match fuel with
  | O => None
  | S f =>
    let a := resync_action m num in
    if a =? 1 then Some (0, r)
    else if a =? 2 then
      match snd (seg u false r) with
      | None => None
      | Some (m', r') => resync_ref u f m' r' num
      end
    else Some (m, r)
  end.
Definition restart_ref (u : bool) (m : Z) (r : list Z) (num : Z) : option (Z * list Z) :=
  if m =? 208 + num then Some (0, r) else resync_ref u (length r + 2) m r num.

Lemma resync_ref_fuel u num : forall fuel fuel' m r, (length r + 2 <= fuel)%nat -> (length r + 2 <= fuel')%nat ->
  resync_ref u fuel m r num = resync_ref u fuel' m r num.
Proof.
  induction fuel as [|f IH]; intros fuel' m r H1 H2; [lia|]. destruct fuel' as [|f']; [lia|]. cbn [resync_ref].
  destruct (_ =? 1); auto. destruct (_ =? 2); auto. destruct (snd (seg u false r)) as [[m' r']|] eqn:E; auto.
  destruct (seg_tail_len _ _ _ _ _ E) as [Hl|(_ & -> & ->)].
  - apply IH; lia.
  - destruct f as [|f]; [lia|]. destruct f' as [|f']; [lia|]. reflexivity.
Qed.

Lemma seg_more u f : forall bs ff m r, snd (seg true ff bs) = Some (m, r) ->
  seg u ff (bs ++ f) = (fst (seg true ff bs), Some (m, r ++ f)).
Proof.
  induction bs as [|b bs IH]; intros ff m r; cbn [seg app]; [discriminate|].
  destruct (b =? 255); [apply IH|].
  destruct ff; [destruct (b =? 0)|].
  - specialize (IH false). destruct (seg true false bs) as [d t]. cbn [fst snd] in *. intros H. rewrite (IH _ _ H). reflexivity.
  - cbn. intros H. inversion H; subst. reflexivity.
  - specialize (IH false). destruct (seg true false bs) as [d t]. cbn [fst snd] in *. intros H. rewrite (IH _ _ H). reflexivity.
Qed.

Lemma resync_ref_eq num m r m' r' : resync_action m num = 2 -> resync_action m' num = 2 ->
  snd (seg true false r) = snd (seg true false r') ->
  resync_ref true (length r + 2) m r num = resync_ref true (length r' + 2) m' r' num.
Proof.
  intros H1 H2 H3. rewrite !(Nat.add_comm _ 2). change (2 + length r)%nat with (S (S (length r))). change (2 + length r')%nat with (S (S (length r'))).
  remember (S (length r)) as F eqn:EF. remember (S (length r')) as F' eqn:EF'. cbn [resync_ref]. rewrite H1, H2, H3. cbn [Z.eqb Pos.eqb].
  rewrite <- H3. destruct (snd (seg true false r)) as [[m1 r1]|] eqn:E; auto.
  symmetry in H3. destruct (seg_tail_len _ _ _ _ _ E) as [L|(L & _)]; [|discriminate].
  destruct (seg_tail_len _ _ _ _ _ H3) as [L'|(L' & _)]; [|discriminate].
  apply resync_ref_fuel; lia.
Qed.

Lemma resync_loop_spec num : forall fuel m s disc, src_ok s -> (length (src_bytes s) + 2 <= fuel)%nat ->
  match resync_loop fuel m num s disc with
  | None => False
  | Some (un, s', d', true) => resync_ref (ssusp s) fuel m (src_bytes s) num = Some (un, src_bytes s') /\
                               src_ok s' /\ ssusp s' = ssusp s
  | Some (un, s', d', false) => ssusp s = true /\ src_ok s' /\ ssusp s' = true /\
       resync_ref (ssusp s) fuel m (src_bytes s) num = None /\ (m <> 0 -> un <> 0) /\ resync_action un num = 2 /\
       (forall f, resync_ref true (length (src_bytes s ++ f) + 2) m (src_bytes s ++ f) num =
                  resync_ref true (length (src_bytes s' ++ f) + 2) un (src_bytes s' ++ f) num)
  end.
Proof.
  induction fuel as [|f IH]; intros m s disc Hs Hf; [lia|]. cbn [resync_loop resync_ref].
  destruct (_ =? 1); auto. destruct (Z.eqb_spec (resync_action m num) 2) as [Ea|_]; [|auto].
  pose proof (next_marker_spec s disc Hs) as H. destruct (next_marker s disc) as [[[s' d'] [m'|]]|]; auto.
  - destruct H as (A1 & A2 & A3 & A4). rewrite A1.
    destruct (seg_tail_len _ _ _ _ _ A1) as [Hl|(B1 & B2 & B3)].
    + specialize (IH m' s' d' A2 ltac:(lia)). rewrite A3 in IH. destruct (resync_loop f m' num s' d') as [[[[un s''] d''] [|]]|]; auto.
      destruct IH as (B1 & B2 & B3 & B4 & B5 & B6 & B7). rewrite B1 in A1.
      split; auto. split; auto. split; auto. split; [exact B4|].
      split; [intros _; apply B5; destruct (seg_marker _ _ _ _ _ (proj1 Hs) A1); lia|]. split; auto.
      intros g. rewrite <- B7. pose proof (seg_more true g _ _ _ _ A1) as Hm.
      rewrite (Nat.add_comm _ 2). change (2 + length (src_bytes s ++ g))%nat with (S (S (length (src_bytes s ++ g)))).
      remember (S (length (src_bytes s ++ g))) as F eqn:EF. cbn [resync_ref]. rewrite Ea. cbn [Z.eqb Pos.eqb]. rewrite Hm. cbn [snd].
      destruct (seg_tail_len _ _ _ _ _ A1) as [L|(L & _)]; [|discriminate].
      apply resync_ref_fuel; subst F; rewrite !app_length; lia.
    + subst m'. destruct f as [|f]; [lia|]. cbn [resync_loop resync_ref]. change (resync_action 217 num) with 3.
      cbn [Z.eqb Pos.eqb]. split; auto.
  - destruct H as (A1 & A2 & A3 & A4 & A5). split; auto. split; auto. split; auto. rewrite A1, A2. split; auto. split; auto. split; auto.
    intros g. apply resync_ref_eq; auto.
Qed.

(* the marker at hand: the pending one, or the next one in the input *)
Definition next_tail (un : Z) (s : source) : option (Z * list Z) :=
  if un =? 0 then snd (seg (ssusp s) false (src_bytes s)) else Some (un, src_bytes s).

Lemma feed_bytes s f : src_ok s -> ssusp s = true -> src_bytes (feed s f) = src_bytes s ++ f.
Proof. intros [_ H] Hs. unfold feed, src_bytes. cbn [sbuf schunks]. rewrite (H Hs). cbn [flat_map]. now rewrite !app_nil_r. Qed.

Lemma read_restart_marker_spec un s disc num : src_ok s -> 0 <= num < 8 ->
  match read_restart_marker un s disc num with
  | None => False
  | Some (un', s', d', num', true) =>
      num' = (num + 1) mod 8 /\ src_ok s' /\ ssusp s' = ssusp s /\
      exists m r, next_tail un s = Some (m, r) /\ restart_ref (ssusp s) m r num = Some (un', src_bytes s')
  | Some (un', s', d', num', false) =>
      num' = num /\ src_ok s' /\ ssusp s = true /\ ssusp s' = true /\
      match next_tail un s with None => True | Some (m, r) => restart_ref true m r num = None end /\
      (un <> 0 -> un' <> 0) /\
      (forall f, match next_tail un (feed s f) with None => None | Some (m, r) => restart_ref true m r num end =
                 match next_tail un' (feed s' f) with None => None | Some (m, r) => restart_ref true m r num end)
  end.
Proof.
  intros Hs Hnum. unfold read_restart_marker.
  set (K := fun un s => match next_tail un s with None => None | Some (m, r) => restart_ref true m r num end).
  assert (G : forall m s1 d1, src_ok s1 -> ssusp s1 = ssusp s ->
    match (if m =? 208 + num then Some (0, s1, d1, (num + 1) mod 8, true)
           else match jpeg_resync_to_restart m num s1 d1 with
                | None => None
                | Some (m', s', d', ok) => Some (m', s', d', if ok then (num + 1) mod 8 else num, ok)
                end) with
    | None => False
    | Some (un', s', d', num', true) =>
        num' = (num + 1) mod 8 /\ src_ok s' /\ ssusp s' = ssusp s /\
        restart_ref (ssusp s) m (src_bytes s1) num = Some (un', src_bytes s')
    | Some (un', s', d', num', false) =>
        num' = num /\ src_ok s' /\ ssusp s = true /\ ssusp s' = true /\ restart_ref true m (src_bytes s1) num = None /\
        (m <> 0 -> un' <> 0) /\
        (m <> 0 -> forall f, restart_ref true m (src_bytes s1 ++ f) num = K un' (feed s' f))
    end).
  { intros m s1 d1 H1 E1. unfold restart_ref at 1 2 3. destruct (m =? 208 + num) eqn:Em; [auto|].
    unfold jpeg_resync_to_restart.
    pose proof (resync_loop_spec num (src_size s1 + 4) m s1 d1 H1 ltac:(rewrite src_size_len; lia)) as H.
    destruct (resync_loop (src_size s1 + 4) m num s1 d1) as [[[[m' s'] d'] [|]]|]; auto.
    - destruct H as (A1 & A2 & A3). split; auto. split; auto. split; [congruence|]. rewrite <- A1, <- E1.
      apply resync_ref_fuel; rewrite ?src_size_len; lia.
    - destruct H as (A1 & A2 & A3 & A4 & A5 & A6 & A7). split; auto. split; auto. split; [congruence|]. split; auto.
      split. { rewrite A1 in A4. rewrite <- A4. apply resync_ref_fuel; rewrite ?src_size_len; lia. }
      split; auto. intros Hm0 f. unfold K, next_tail.
      rewrite (proj2 (Z.eqb_neq m' 0) (A5 Hm0)). rewrite (feed_bytes s' f A2 A3). unfold restart_ref.
      destruct (Z.eqb_spec m' (208 + num)) as [Em'|_]; [|exact (A7 f)]. exfalso. revert A6. rewrite Em'. clear - Hnum.
      assert (Hc : num = 0 \/ num = 1 \/ num = 2 \/ num = 3 \/ num = 4 \/ num = 5 \/ num = 6 \/ num = 7) by lia.
      repeat (destruct Hc as [->|Hc]; [vm_compute; discriminate|]). subst num. vm_compute. discriminate. }
  assert (Kn : forall un s, next_tail un s = if un =? 0 then snd (seg (ssusp s) false (src_bytes s)) else Some (un, src_bytes s)) by reflexivity.
  destruct (Z.eqb_spec un 0) as [Eu|Eu].
  - pose proof (next_marker_spec s disc Hs) as H. destruct (next_marker s disc) as [[[s1 d1] [m|]]|]; auto.
    + destruct H as (A1 & A2 & A3 & A4). specialize (G m s1 d1 A2 A3).
      destruct (if m =? 208 + num then _ else _) as [[[[[un' s'] d'] num'] [|]]|]; auto.
      * destruct G as (G1 & G2 & G3 & G4). split; auto. split; auto. split; auto. rewrite Kn, Eu. cbn [Z.eqb]. rewrite A1. eauto.
      * destruct G as (G1 & G2 & G3 & G4 & G5 & G6 & G7). rewrite Kn, Eu. cbn [Z.eqb]. rewrite A1.
        assert (Hm : m <> 0) by (destruct (seg_marker _ _ _ _ _ (proj1 Hs) A1); lia).
        split; auto. split; auto. split; auto. split; auto. split; auto. split; [lia|].
        intros f. rewrite Kn. cbn [Z.eqb]. rewrite feed_bytes by auto. cbn [feed ssusp]. rewrite G3 in *.
        rewrite (seg_more true f _ _ _ _ A1). cbn [snd]. exact (G7 Hm f).
    + destruct H as (A1 & A2 & A3 & A4 & A5). split; auto. split; auto. split; auto. split; auto.
      rewrite Kn, Eu. cbn [Z.eqb]. rewrite A1, A2. split; auto. split; [lia|].
      intros f. rewrite !Kn. cbn [Z.eqb]. rewrite !feed_bytes by auto. cbn [feed ssusp]. rewrite A1, A4, A5. reflexivity.
  - specialize (G un s disc Hs eq_refl).
    destruct (if un =? 208 + num then _ else _) as [[[[[un' s'] d'] num'] [|]]|]; auto.
    + destruct G as (G1 & G2 & G3 & G4). split; auto. split; auto. split; auto. rewrite Kn, (proj2 (Z.eqb_neq un 0) Eu). eauto.
    + destruct G as (G1 & G2 & G3 & G4 & G5 & G6 & G7). rewrite !Kn, (proj2 (Z.eqb_neq un 0) Eu).
      split; auto. split; auto. split; auto. split; auto. split; auto. split; auto.
      intros f. rewrite !Kn, (proj2 (Z.eqb_neq un 0) Eu). rewrite feed_bytes by auto. exact (G7 Eu f).
Qed.

(* resync_ref is total: it never runs out of fuel, so None means that input is missing *)
Lemma resync_ref_nosusp num : forall fuel m r, (length r + 2 <= fuel)%nat -> resync_ref false fuel m r num <> None.
Proof.
  induction fuel as [|f IH]; intros m r Hf; [lia|]. cbn [resync_ref].
  destruct (_ =? 1); [discriminate|]. destruct (_ =? 2); [|discriminate].
  destruct (snd (seg false false r)) as [[m' r']|] eqn:E.
  - destruct (seg_tail_len _ _ _ _ _ E) as [Hl|(_ & -> & ->)]; [apply IH; lia|].
    destruct f as [|f]; [lia|]. cbn. discriminate.
  - exfalso. clear - E. revert E. generalize false at 2 as ff. induction r as [|b r IH]; intros ff; cbn [seg]; [discriminate|].
    destruct (b =? 255); [apply IH|]. destruct ff; [destruct (b =? 0)|];
      try (specialize (IH false); destruct (seg false false r); cbn in *; exact IH). discriminate.
Qed.
