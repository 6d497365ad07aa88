(* T_DataSrc.v -- C40: data sources deliver the file, then EOI forever. *)
From Verif Require Import Base M_DataSrc.

(* ---- specification ------------------------------------------------- *)
(* The endless byte stream seen by the decoder: the file, then FF D9 FF D9 ... *)
Definition stream (file : list Z) (i : Z) : Z :=
  let n := Z.of_nat (length file) in
  if i <? n then nth (Z.to_nat i) file 0
  else if (i - n) mod 2 =? 0 then 255 else 217.

(* A reader at position pos: reading advances by one, skipping by n when n > 0. *)
Fixpoint answers (st : Z -> Z) (pos : Z) (l : list request) : list Z :=
  match l with
  | [] => []
  | ReadByte :: l => st pos :: answers st (pos + 1) l
  | Skip n :: l => answers st (pos + Z.max 0 n) l
  | NewImage :: l => answers st pos l
  end.
Fixpoint end_pos (pos : Z) (l : list request) : Z :=
  match l with
  | [] => pos
  | ReadByte :: l => end_pos (pos + 1) l
  | Skip n :: l => end_pos (pos + Z.max 0 n) l
  | NewImage :: l => end_pos pos l
  end.

(* ---- proof ---------------------------------------------------------- *)
(* The source stands at position pos of the stream of [file]. *)
Definition at_pos (file : list Z) (s : src) (pos : Z) : Prop :=
  0 <= pos /\
  (q_mem s = true -> q_file s = []) /\
  ((q_warn s = 0%nat /\ pos <= Z.of_nat (length file) /\
      q_buf s ++ q_file s = skipn (Z.to_nat pos) file)
   \/ ((0 < q_warn s)%nat /\ Z.of_nat (length file) < pos /\ q_file s = [] /\
       ((q_buf s = [] /\ (pos - Z.of_nat (length file)) mod 2 = 0) \/
        (q_buf s = [217] /\ (pos - Z.of_nat (length file)) mod 2 = 1)))).

Lemma skipn_cons_nth {A} (l : list A) n d :
  (n < length l)%nat -> skipn n l = nth n l d :: skipn (S n) l.
Proof.
  revert l; induction n as [|n IH]; intros [|x l] H; cbn in *; try lia; [reflexivity|].
  apply IH. lia.
Qed.

(* After a fill at position pos the buffer is non-empty; described with the
   pseudo position of a just-inserted fake marker. *)
Lemma fill_spec file s pos :
  at_pos file s pos -> q_buf s = [] ->
  (exists s', fill s = Ret s' /\ q_mem s' = q_mem s /\ (q_mem s' = true -> q_file s' = []) /\
    (q_start s = false -> q_start s' = false) /\
    ((q_warn s = 0%nat /\ q_warn s' = 0%nat /\ q_start s' = false /\ pos < Z.of_nat (length file) /\ q_buf s' <> [] /\
       q_buf s' ++ q_file s' = skipn (Z.to_nat pos) file)
     \/ ((0 < q_warn s')%nat /\ Z.of_nat (length file) <= pos /\ q_file s' = [] /\ q_buf s' = [255; 217] /\
         (pos - Z.of_nat (length file)) mod 2 = 0)))
  \/ (fill s = Error JERR_INPUT_EMPTY /\ q_start s = true /\ Z.of_nat (length file) <= pos).
Proof.
  intros (Hp & Hm & HC) Hb. unfold fill. destruct (q_mem s) eqn:Em.
  - left. eexists. split; [reflexivity|]. cbn. specialize (Hm eq_refl).
    split; [exact Em|]. split; [auto|]. split; [auto|]. right. split; [lia|].
    destruct HC as [(H1 & H2 & H3)|(H1 & H2 & H3 & [[_ H4]|[H4 _]])].
    + rewrite Hb, Hm in H3. cbn in H3.
      assert (Hl : length (skipn (Z.to_nat pos) file) = 0%nat) by (rewrite <- H3; reflexivity).
      rewrite skipn_length in Hl.
      assert (Z.of_nat (length file) = pos) by lia.
      split; [lia|]. split; [exact Hm|]. split; [reflexivity|]. replace (pos - Z.of_nat (length file)) with 0 by lia. reflexivity.
    + split; [lia|]. auto.
    + congruence.
  - unfold fill_stdio. destruct HC as [(H1 & H2 & H3)|(H1 & H2 & H3 & [[_ H4]|[H4 _]])]; [| |congruence].
    + rewrite Hb in H3. cbn [app] in H3.
      assert (Hl : length (q_file s) = (length file - Z.to_nat pos)%nat) by (rewrite H3, skipn_length; reflexivity).
      destruct (Nat.eqb_spec (fread_count s) 0) as [Hz|Hz].
      * assert (q_file s = []) as Hq.
        { unfold fread_count in Hz. destruct (q_file s); [reflexivity|]. cbn [length] in Hz. lia. }
        rewrite Hq in Hl. cbn in Hl.
        destruct (q_start s) eqn:Es; [right; split; [reflexivity|]; split; [reflexivity|lia]|].
        left. eexists. split; [reflexivity|]. cbn. rewrite Hq, skipn_nil. split; [exact Em|].
        split; [auto|]. split; [auto|]. right. split; [lia|]. split; [lia|]. split; [reflexivity|].
        split; [reflexivity|]. replace (pos - Z.of_nat (length file)) with 0 by lia. reflexivity.
      * left. eexists. split; [reflexivity|]. cbn. split; [exact Em|]. split; [congruence|]. split; [auto|].
        left. split; [exact H1|]. split; [exact H1|]. split; [reflexivity|].
        assert (0 < length (q_file s))%nat by (unfold fread_count in Hz; lia).
        split; [lia|]. split.
        -- intros HH. apply (f_equal (@length Z)) in HH. rewrite firstn_length in HH. cbn in HH. lia.
        -- rewrite firstn_skipn. exact H3.
    + rewrite H3. unfold fread_count. rewrite H3. cbn [length Nat.min Nat.eqb firstn skipn].
      destruct (q_start s) eqn:Es; [right; split; [reflexivity|]; split; [reflexivity|lia]|].
      left. eexists. split; [reflexivity|]. cbn. split; [exact Em|]. split; [auto|]. split; [auto|].
      right. split; [lia|]. split; [lia|]. auto.
Qed.

Lemma stream_nth file pos s :
  0 <= pos < Z.of_nat (length file) -> forall b r, b :: r = skipn (Z.to_nat pos) file ->
  s = stream file pos -> b = s /\ r = skipn (Z.to_nat (pos + 1)) file.
Proof.
  intros Hp b r H ->. rewrite (skipn_cons_nth _ _ 0) in H by lia. injection H as H1 H2.
  split.
  - unfold stream. destruct (Z.ltb_spec pos (Z.of_nat (length file))); [|lia]. exact H1.
  - replace (Z.to_nat (pos + 1)) with (S (Z.to_nat pos)) by lia. exact H2.
Qed.

Lemma mod2_succ x : x mod 2 = 0 -> (x + 1) mod 2 = 1.
Proof. intros H. rewrite Z.add_mod, H by lia. reflexivity. Qed.
Lemma mod2_succ' x : x mod 2 = 1 -> (x + 1) mod 2 = 0.
Proof. intros H. rewrite Z.add_mod, H by lia. reflexivity. Qed.

Lemma input_byte_spec file s pos :
  at_pos file s pos ->
  (exists s', input_byte s = Ret (stream file pos, s') /\ at_pos file s' (pos + 1) /\ q_mem s' = q_mem s /\
     (q_start s = false -> q_start s' = false) /\ (q_buf s = [] -> q_mem s = false -> q_start s' = false))
  \/ (input_byte s = Error JERR_INPUT_EMPTY /\ q_start s = true /\ Z.of_nat (length file) <= pos).
Proof.
  intros HA. unfold input_byte. destruct (q_buf s) as [|b r] eqn:Eb.
  - destruct (fill_spec file s pos HA Eb) as [(s' & HE & Hm & Hmf & Hst & HC)|(HE & HE2)].
    2:{ right. rewrite HE. split; [reflexivity|exact HE2]. }
    rewrite HE. cbn [bind]. destruct HA as (Hp & _ & _).
    destruct HC as [(H1 & H2 & Hs & H3 & H4 & H5)|(H1 & H2 & H3 & H4 & H5)].
    + left. destruct (q_buf s') as [|b r] eqn:Eb'; [congruence|]. cbn [app] in H5.
      destruct (stream_nth file pos _ ltac:(lia) b (r ++ q_file s') H5 eq_refl) as [E1 E2]. subst b.
      eexists. split; [reflexivity|]. cbn. split; [|split; [exact Hm|split; [exact Hst|intros _ _; exact Hs]]].
      split; [lia|]. split; [exact Hmf|]. left. cbn. split; [exact H2|]. split; [lia|exact E2].
    + left. rewrite H4. eexists. split.
      { unfold stream. destruct (Z.ltb_spec pos (Z.of_nat (length file))); [lia|].
        rewrite H5. reflexivity. }
      cbn. split; [|split; [exact Hm|split; [exact Hst|]]].
      * split; [lia|]. split; [exact Hmf|]. right. cbn. split; [exact H1|]. split; [lia|].
        split; [exact H3|]. right. split; [reflexivity|].
        replace (pos + 1 - Z.of_nat (length file)) with (pos - Z.of_nat (length file) + 1) by lia.
        apply mod2_succ, H5.
      * intros _ Hmm. unfold fill in HE. rewrite Hmm in HE. unfold fill_stdio in HE.
        destruct (Nat.eqb (fread_count s) 0); [destruct (q_start s); [discriminate|]|]; injection HE as <-; reflexivity.
  - cbn [bind]. rewrite Eb. destruct HA as (Hp & Hm & HC). left.
    destruct HC as [(H1 & H2 & H3)|(H1 & H2 & H3 & [[H4 _]|[H4 H5]])]; [|congruence|].
    + rewrite Eb in H3. cbn [app] in H3.
      assert (pos < Z.of_nat (length file)).
      { apply (f_equal (@length Z)) in H3. cbn [length] in H3. rewrite skipn_length in H3. lia. }
      destruct (stream_nth file pos _ ltac:(lia) b (r ++ q_file s) H3 eq_refl) as [E1 E2]. subst b.
      eexists. split; [reflexivity|]. cbn. split; [|split; [reflexivity|split; [auto|discriminate]]].
      split; [lia|]. split; [exact Hm|]. left. cbn. split; [exact H1|]. split; [lia|exact E2].
    + rewrite Eb in H4. injection H4 as -> ->.
      eexists. split.
      { unfold stream. destruct (Z.ltb_spec pos (Z.of_nat (length file))); [lia|].
        rewrite H5. reflexivity. }
      cbn. split; [|split; [reflexivity|split; [auto|discriminate]]].
      split; [lia|]. split; [exact Hm|]. right. cbn. split; [exact H1|]. split; [lia|].
      split; [exact H3|]. left. split; [reflexivity|].
      replace (pos + 1 - Z.of_nat (length file)) with (pos - Z.of_nat (length file) + 1) by lia.
      apply mod2_succ', H5.
Qed.

(* skipping within the buffer *)
Definition drop (s : src) (n : nat) : src :=
  mkQ (q_mem s) (skipn n (q_buf s)) (q_file s) (q_orc s) (q_start s) (q_warn s).

Lemma skipn_skipn' {A} (l : list A) a b : skipn a (skipn b l) = skipn (b + a) l.
Proof. revert b; induction l as [|x l IH]; intros [|b]; cbn; rewrite ?skipn_nil; auto. Qed.

Lemma drop_at file s pos n :
  at_pos file s pos -> (n <= length (q_buf s))%nat -> at_pos file (drop s n) (pos + Z.of_nat n).
Proof.
  intros (Hp & Hm & HC) Hn. split; [lia|]. split; [exact Hm|].
  destruct HC as [(H1 & H2 & H3)|(H1 & H2 & H3 & H4)].
  - left. cbn. split; [exact H1|].
    assert (length (q_buf s ++ q_file s) = length file - Z.to_nat pos)%nat by (rewrite H3, skipn_length; reflexivity).
    rewrite app_length in H. split; [lia|].
    replace (Z.to_nat (pos + Z.of_nat n)) with (Z.to_nat pos + n)%nat by lia.
    rewrite <- skipn_skipn', <- H3, skipn_app.
    replace (n - length (q_buf s))%nat with 0%nat by lia. reflexivity.
  - right. cbn. split; [exact H1|]. split; [lia|]. split; [exact H3|].
    destruct H4 as [[H4 H5]|[H4 H5]]; rewrite H4 in *.
    + cbn in Hn. assert (n = 0%nat) by lia. subst n. rewrite Z.add_0_r. left. auto.
    + cbn in Hn. destruct n as [|[|n]]; [|left|lia].
      * rewrite Z.add_0_r. right. auto.
      * split; [reflexivity|]. replace (pos + Z.of_nat 1 - Z.of_nat (length file)) with (pos - Z.of_nat (length file) + 1) by lia.
        apply mod2_succ', H5.
Qed.

(* a just-filled source viewed as a source at pos; the fake marker case is
   expressed after dropping at least one byte *)
Lemma fill_drop file s pos n :
  at_pos file s pos -> q_buf s = [] -> (0 < n)%nat ->
  (exists s', fill s = Ret s' /\ q_mem s' = q_mem s /\ (q_start s = false -> q_start s' = false) /\
     (q_mem s = false -> q_start s' = false) /\ q_buf s' <> [] /\
     ((n <= length (q_buf s'))%nat -> at_pos file (drop s' n) (pos + Z.of_nat n)))
  \/ (fill s = Error JERR_INPUT_EMPTY /\ q_start s = true /\ Z.of_nat (length file) <= pos).
Proof.
  intros HA Hb Hn. destruct (fill_spec file s pos HA Hb) as [(s' & HE & Hm & Hmf & Hst & HC)|HE]; [left|right; exact HE].
  exists s'. split; [exact HE|]. split; [exact Hm|]. split; [exact Hst|].
  destruct HA as (Hp & _ & _).
  assert (Hst' : q_mem s = false -> q_start s' = false).
  { intros Hmm. unfold fill in HE. rewrite Hmm in HE. unfold fill_stdio in HE.
    destruct (Nat.eqb (fread_count s) 0); [destruct (q_start s); [discriminate|]|]; injection HE as <-; reflexivity. }
  split; [exact Hst'|].
  destruct HC as [(H1 & H2 & Hs & H3 & H4 & H5)|(H1 & H2 & H3 & H4 & H5)].
  - split; [exact H4|]. intros Hl. apply drop_at; [|exact Hl].
    split; [lia|]. split; [exact Hmf|]. left. split; [exact H2|]. split; [lia|exact H5].
  - rewrite H4. split; [discriminate|]. cbn [length]. intros Hl.
    split; [lia|]. split; [exact Hmf|]. right. cbn [drop q_warn q_file q_buf]. split; [exact H1|]. split; [lia|].
    split; [exact H3|]. rewrite H4. destruct n as [|[|[|n]]]; [lia| | |lia].
    + right. split; [reflexivity|].
      replace (pos + Z.of_nat 1 - Z.of_nat (length file)) with (pos - Z.of_nat (length file) + 1) by lia.
      apply mod2_succ, H5.
    + left. split; [reflexivity|].
      replace (pos + Z.of_nat 2 - Z.of_nat (length file)) with (pos - Z.of_nat (length file) + 1 * 2) by lia.
      rewrite Z.mod_add by lia. exact H5.
Qed.

(* The loop, entered with a state s whose n-drop is at pos + n for all 0 < n <= |buf| *)
Lemma skip_loop_spec file : forall fuel s pos num,
  0 < num -> 0 <= pos -> (Z.to_nat num <= fuel + length (q_buf s))%nat -> 
  (q_buf s <> [] \/ (at_pos file s pos /\ (Z.to_nat num + 1 <= fuel)%nat)) ->
  (forall n, (0 < n)%nat -> (n <= length (q_buf s))%nat -> at_pos file (drop s n) (pos + Z.of_nat n)) ->
  (exists s' n, skip_loop fuel s num = Ret (s', n) /\ 0 <= n /\
     at_pos file (drop s' (Z.to_nat n)) (pos + num) /\ q_mem s' = q_mem s /\
     (q_start s = false -> q_start s' = false))
  \/ (skip_loop fuel s num = Error JERR_INPUT_EMPTY /\ q_start s = true /\ Z.of_nat (length file) < pos + num).
Proof.
  induction fuel as [|fuel IH]; intros s pos num Hn Hp Hf Hb HD.
  - cbn [skip_loop]. destruct (Z.leb_spec num (Z.of_nat (length (q_buf s)))) as [Hle|Hgt].
    + left. exists s, num. split; [reflexivity|]. split; [lia|]. split; [|auto].
      specialize (HD (Z.to_nat num) ltac:(lia) ltac:(lia)). rewrite Z2Nat.id in HD by lia. exact HD.
    + lia.
  - cbn [skip_loop]. destruct (Z.leb_spec num (Z.of_nat (length (q_buf s)))) as [Hle|Hgt].
    + left. exists s, num. split; [reflexivity|]. split; [lia|]. split; [|auto].
      specialize (HD (Z.to_nat num) ltac:(lia) ltac:(lia)). rewrite Z2Nat.id in HD by lia. exact HD.
    + set (L := length (q_buf s)) in *.
      assert (HA : at_pos file (drop s L) (pos + Z.of_nat L)).
      { destruct Hb as [Hb|[Hb _]].
        - apply HD; [|lia]. destruct (q_buf s); [congruence|]. unfold L; cbn; lia.
        - apply drop_at; [exact Hb|unfold L; lia]. }
      assert (Hbd : q_buf (drop s L) = []).
      { cbn. apply skipn_all2. unfold L. lia. }
      assert (Hfe : fill (drop s L) = fill s) by reflexivity.
      (* fill ignores the old buffer *)
      pose proof (fill_drop file (drop s L) (pos + Z.of_nat L) 1 HA Hbd ltac:(lia)) as HF1.
      rewrite Hfe in HF1. cbn [drop q_mem q_start] in HF1.
      destruct HF1 as [(s' & HE & Hm & Hst & _ & Hne & _)|(HE & Hs & Hl)].
      * rewrite HE. cbn [bind].
        assert (HD' : forall n, (0 < n)%nat -> (n <= length (q_buf s'))%nat ->
            at_pos file (drop s' n) (pos + Z.of_nat L + Z.of_nat n)).
        { intros n Hn1 Hn2.
          destruct (fill_drop file (drop s L) (pos + Z.of_nat L) n HA Hbd Hn1) as [(s2 & HE2 & _ & _ & _ & _ & HH)|(HE2 & _)];
            rewrite Hfe, HE in HE2; [|discriminate].
          injection HE2 as <-. apply HH, Hn2. }
        assert (Hl' : (0 < length (q_buf s'))%nat) by (destruct (q_buf s'); [congruence|cbn; lia]).
        destruct (IH s' (pos + Z.of_nat L) (num - Z.of_nat L)) as [(s2 & n & E1 & E2 & E3 & E4 & E5)|(E1 & E2 & E3)].
        -- lia.
        -- lia.
        -- destruct Hb as [Hb|[_ Hb]]; [|lia]. assert (0 < L)%nat by (unfold L; destruct (q_buf s); [congruence|cbn; lia]). lia.
        -- left. exact Hne.
        -- exact HD'.
        -- left. exists s2, n. split; [exact E1|]. split; [exact E2|].
           replace (pos + Z.of_nat L + (num - Z.of_nat L)) with (pos + num) in E3 by lia.
           split; [exact E3|]. split; [congruence|]. intros Hq; apply E5, Hst, Hq.
        -- right. split; [exact E1|]. split.
           ++ destruct (q_start s) eqn:Q; [reflexivity|]. rewrite (Hst eq_refl) in E2. discriminate.
           ++ lia.
      * right. rewrite HE. split; [reflexivity|]. split; [exact Hs|]. lia.
Qed.

Lemma skip_spec file s pos n : at_pos file s pos ->
  (exists s', skip_input_data s n = Ret s' /\ at_pos file s' (pos + Z.max 0 n) /\ q_mem s' = q_mem s /\
     (q_start s = false -> q_start s' = false))
  \/ (skip_input_data s n = Error JERR_INPUT_EMPTY /\ q_start s = true /\ Z.of_nat (length file) < pos + Z.max 0 n).
Proof.
  intros HA. unfold skip_input_data. destruct (Z.ltb_spec 0 n) as [Hn|Hn].
  - rewrite Z.max_r by lia. pose proof HA as (Hp & _ & _).
    destruct (skip_loop_spec file (Z.to_nat n + 1) s pos n Hn Hp) as [(s' & m & E1 & E2 & E3 & E4 & E5)|(E1 & E2 & E3)].
    + lia.
    + right. split; [exact HA|lia].
    + intros k _ Hk. apply drop_at; assumption.
    + left. rewrite E1. cbn [bind]. eexists. split; [reflexivity|]. split; [exact E3|]. auto.
    + right. rewrite E1. auto.
  - rewrite Z.max_l by lia. rewrite Z.add_0_r. left. exists s. auto.
Qed.

Lemma end_pos_ge l : forall pos, pos <= end_pos pos l.
Proof.
  induction l as [|[|n|] l IH]; intros pos; cbn.
  - lia.
  - specialize (IH (pos + 1)). lia.
  - specialize (IH (pos + Z.max 0 n)). lia.
  - apply IH.
Qed.

Lemma serve_spec file : forall l s pos, at_pos file s pos ->
  (exists s', serve s l = Ret (answers (stream file) pos l, s') /\ at_pos file s' (end_pos pos l))
  \/ (serve s l = Error JERR_INPUT_EMPTY /\ q_mem s = false /\
      (q_start s = true \/ In NewImage l) /\ Z.of_nat (length file) < end_pos pos l).
Proof.
  induction l as [|[|n|] l IH]; intros s pos HA; cbn [serve answers end_pos].
  - left. exists s. auto.
  - destruct (input_byte_spec file s pos HA) as [(s' & E & HA' & Hm & Hs & _)|(E & Hs & Hl)].
    + rewrite E. cbn [bind]. destruct (IH s' _ HA') as [(s2 & E2 & HA2)|(E2 & E3 & E4 & E5)].
      * left. rewrite E2. cbn [bind]. exists s2. auto.
      * right. rewrite E2. cbn [bind]. split; [reflexivity|]. split; [congruence|]. split; [|exact E5].
        destruct E4 as [E4|E4]; [|right; right; exact E4].
        left. destruct (q_start s) eqn:Q; [reflexivity|]. rewrite (Hs eq_refl) in E4. discriminate.
    + right. rewrite E. cbn [bind]. split; [reflexivity|]. split.
      * unfold input_byte in E. destruct (q_buf s) eqn:Eb.
        -- destruct (q_mem s) eqn:Em; [|reflexivity]. unfold fill in E. rewrite Em in E. cbn in E. discriminate.
        -- cbn [bind] in E. rewrite Eb in E. discriminate.
      * split; [auto|]. pose proof (end_pos_ge l (pos + 1)). lia.
  - destruct (skip_spec file s pos n HA) as [(s' & E & HA' & Hm & Hs)|(E & Hs & Hl)].
    + rewrite E. cbn [bind]. destruct (IH s' _ HA') as [(s2 & E2 & HA2)|(E2 & E3 & E4 & E5)].
      * left. rewrite E2. exists s2. auto.
      * right. rewrite E2. split; [reflexivity|]. split; [congruence|]. split; [|exact E5].
        destruct E4 as [E4|E4]; [|right; right; exact E4].
        left. destruct (q_start s) eqn:Q; [reflexivity|]. rewrite (Hs eq_refl) in E4. discriminate.
    + right. rewrite E. cbn [bind]. split; [reflexivity|]. split.
      * destruct (q_mem s) eqn:Em; [|reflexivity]. exfalso.
        assert (HX : forall f s0 k, q_mem s0 = true -> skip_loop f s0 k <> Error JERR_INPUT_EMPTY).
        { induction f as [|f IHf]; intros s0 k Hm0; cbn [skip_loop]; destruct (k <=? _); try discriminate.
          unfold fill. rewrite Hm0. cbn [bind fill_mem]. apply IHf. cbn. exact Hm0. }
        unfold skip_input_data in E. destruct (0 <? n); [|discriminate].
        specialize (HX (Z.to_nat n + 1)%nat s n Em).
        destruct (skip_loop (Z.to_nat n + 1) s n) as [[s0 k0]| |]; cbn in E; congruence.
      * split; [auto|]. pose proof (end_pos_ge l (pos + Z.max 0 n)). lia.
  - assert (HA' : at_pos file (init_source s) pos).
    { unfold init_source. destruct (q_mem s) eqn:Em; [exact HA|].
      destruct HA as (H1 & H2 & H3). split; [exact H1|]. split; [cbn; congruence|]. exact H3. }
    destruct (IH _ _ HA') as [H|(E1 & E2 & E3 & E4)]; [left; exact H|right].
    split; [exact E1|]. split.
    + unfold init_source in E2. destruct (q_mem s) eqn:Em; [congruence|reflexivity].
    + split; [|exact E4]. right. left. reflexivity.
Qed.

(* C40, memory source: every sequence of reads and skips is answered from the
   stream "data, then FF D9 for ever"; a warning is given exactly when the
   requests went past the data; no request fails. *)
Theorem C40_mem_source : forall data l s,
  jpeg_mem_src (Some data) = Ret s ->
  exists s', serve s l = Ret (answers (stream data) 0 l, s') /\
    ((0 < q_warn s')%nat <-> Z.of_nat (length data) < end_pos 0 l).
Proof.
  intros data l s H. unfold jpeg_mem_src in H.
  destruct (Nat.eqb_spec (length data) 0) as [|Hl]; [discriminate|]. injection H as <-.
  destruct (serve_spec data l (mkQ true data [] [] false 0) 0) as [(s' & E & HA)|(_ & E & _)].
  - split; [lia|]. split; [reflexivity|]. left. cbn. rewrite app_nil_r. split; [reflexivity|]. split; [lia|reflexivity].
  - exists s'. split; [exact E|].
    destruct HA as (_ & _ & [(H1 & H2 & _)|(H1 & H2 & _)]); lia.
  - cbn in E. discriminate.
Qed.

(* C40, file source, one image: whatever sizes fread returns, the same holds
   for a non-empty file ... *)
Theorem C40_stdio_source : forall file orc l,
  ~ In NewImage l -> file <> [] ->
  exists s', serve (jpeg_stdio_src file orc) (NewImage :: l) = Ret (answers (stream file) 0 l, s') /\
    ((0 < q_warn s')%nat <-> Z.of_nat (length file) < end_pos 0 l).
Proof.
  intros file orc l Hl Hf.
  assert (Hfl : (0 < length file)%nat) by (destruct file; [congruence|cbn; lia]).
  cbn [serve]. set (s := init_source (jpeg_stdio_src file orc)).
  assert (HA : at_pos file s 0).
  { split; [lia|]. split; [cbn; congruence|]. left. cbn. split; [reflexivity|]. split; [lia|reflexivity]. }
  (* the first request that touches data fills the buffer and clears the flag *)
  assert (Hmain : forall l, ~ In NewImage l ->
    exists s', serve s l = Ret (answers (stream file) 0 l, s') /\ at_pos file s' (end_pos 0 l)).
  { clear l Hl. intros l Hl.
    assert (Hfill : exists s1, fill s = Ret s1 /\ q_start s1 = false /\ q_buf s1 <> [] /\ at_pos file s1 0).
    { destruct (fill_spec file s 0 HA eq_refl) as [(s1 & HE & Hm & Hmf & Hst & HC)|(_ & _ & HE)]; [|lia].
      destruct HC as [(H1 & H2 & Hs & H3 & H4 & H5)|(_ & HH & _)]; [|lia].
      exists s1. split; [exact HE|]. split; [exact Hs|]. split; [exact H4|].
      split; [lia|]. split; [exact Hmf|]. left. split; [exact H2|]. split; [lia|exact H5]. }
    destruct Hfill as (s1 & HE1 & Hs1 & Hb1 & HA1).
    induction l as [|[|n|] l IH].
    - exists s. auto.
    - assert (serve s (ReadByte :: l) = serve s1 (ReadByte :: l)) as ->.
      { cbn [serve]. unfold input_byte at 1. change (q_buf s) with (@nil Z). cbv iota. rewrite HE1.
        cbn [bind]. unfold input_byte. destruct (q_buf s1) eqn:Eb; [congruence|]. cbn [bind]. rewrite Eb. reflexivity. }
      destruct (serve_spec file (ReadByte :: l) s1 0 HA1) as [H|(_ & _ & [H|H] & _)]; [exact H|congruence|contradiction].
    - destruct (Z.ltb_spec 0 n) as [Hn|Hn].
      + cbn [serve answers end_pos].
        assert (HS : exists s2, skip_input_data s n = Ret s2 /\ q_start s2 = false /\ at_pos file s2 (0 + Z.max 0 n)).
        { unfold skip_input_data. destruct (Z.ltb_spec 0 n); [|lia].
          replace (Z.to_nat n + 1)%nat with (S (Z.to_nat n)) by lia. cbn [skip_loop].
          change (q_buf s) with (@nil Z). cbn [length]. destruct (Z.leb_spec n (Z.of_nat 0)); [lia|].
          rewrite HE1. cbn [bind]. rewrite Z.sub_0_r.
          destruct (skip_loop_spec file (Z.to_nat n) s1 0 n Hn ltac:(lia)) as [(s2 & m & E1 & E2 & E3 & E4 & E5)|(E1 & E2 & E3)].
          - lia.
          - left. exact Hb1.
          - intros k _ Hk. apply drop_at; assumption.
          - rewrite E1. cbn [bind]. eexists. split; [reflexivity|]. split; [cbn; apply E5, Hs1|].
            rewrite Z.max_r by lia. exact E3.
          - congruence. }
        destruct HS as (s2 & -> & Hs2 & HA2). cbn [bind].
        destruct (serve_spec file l s2 _ HA2) as [H|(_ & _ & [H|H] & _)]; [exact H|congruence|].
        exfalso; apply Hl; right; exact H.
      + cbn [serve answers end_pos]. rewrite Z.max_l by lia. unfold skip_input_data.
        destruct (Z.ltb_spec 0 n); [lia|]. cbn [bind]. apply IH. intros H2; apply Hl; right; exact H2.
    - exfalso; apply Hl; left; reflexivity. }
  destruct (Hmain l Hl) as (s' & E & HA'). exists s'. split; [exact E|].
  destruct HA' as (_ & _ & [(H1 & H2 & _)|(H1 & H2 & _)]); lia.
Qed.

(* ... and an empty file (or NULL/empty memory) is reported as an error by the
   first request for data. *)
Theorem C40_empty_input : forall orc,
  (jpeg_mem_src None = Error JERR_INPUT_EMPTY) /\ (jpeg_mem_src (Some []) = Error JERR_INPUT_EMPTY) /\
  (forall l, serve (jpeg_stdio_src [] orc) (NewImage :: ReadByte :: l) = Error JERR_INPUT_EMPTY) /\
  (forall n l, 0 < n -> serve (jpeg_stdio_src [] orc) (NewImage :: Skip n :: l) = Error JERR_INPUT_EMPTY).
Proof.
  intros orc. split; [reflexivity|]. split; [reflexivity|]. split; [reflexivity|].
  intros n l Hn. cbn [serve]. unfold skip_input_data. destruct (Z.ltb_spec 0 n); [|lia].
  replace (Z.to_nat n + 1)%nat with (S (Z.to_nat n)) by lia. cbn [skip_loop].
  destruct (Z.leb_spec n (Z.of_nat (length (q_buf (init_source (jpeg_stdio_src [] orc)))))) as [H1|H1]; [cbn in H1; lia|].
  reflexivity.
Qed.

(* C40, a series of images in one file: positions carry on from image to
   image (the buffer is not discarded), and the only failure is "input empty"
   when the requests go past the end of the file. *)
Theorem C40_series : forall file orc l,
  (exists s', serve (jpeg_stdio_src file orc) l = Ret (answers (stream file) 0 l, s')) \/
  (serve (jpeg_stdio_src file orc) l = Error JERR_INPUT_EMPTY /\ Z.of_nat (length file) < end_pos 0 l).
Proof.
  intros file orc l.
  destruct (serve_spec file l (jpeg_stdio_src file orc) 0) as [(s' & E & _)|(E1 & _ & _ & E2)].
  - split; [lia|]. split; [cbn; congruence|]. left. cbn. split; [reflexivity|]. split; [lia|reflexivity].
  - left. exists s'. exact E.
  - right. auto.
Qed.

Example C40_example :
  let s := jpeg_stdio_src [1; 2; 3; 4; 5] [2; 1]%nat in
  exists s', serve s [NewImage; ReadByte; Skip 2; ReadByte; ReadByte; ReadByte; Skip 2; ReadByte; ReadByte]
  = Ret ([1; 4; 5; 255; 217; 255], s').
Proof. cbv zeta. eexists. vm_compute. reflexivity. Qed.
Example C40_example_mem : exists s, jpeg_mem_src (Some [9; 8]) = Ret s /\
  exists s', serve s [ReadByte; ReadByte; ReadByte; ReadByte; ReadByte] = Ret ([9; 8; 255; 217; 255], s').
Proof. eexists. split; [reflexivity|]. eexists. reflexivity. Qed.

Print Assumptions C40_mem_source.
Print Assumptions C40_stdio_source.
Print Assumptions C40_empty_input.
Print Assumptions C40_series.
