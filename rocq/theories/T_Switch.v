(* T_Switch.v -- C62: the text files of cjpeg's -qtables and -scans switches. *)
From Verif Require Import Base M_Quant M_Script S_Script M_Switch S_Switch P_Switch P_Script T_Script.

(* ---- scan scripts ---- *)
Definition as_info (s : scan) : scan_info := mkSI (Z.of_nat (length (comps s))) (idx4 (comps s)) (Ss s) (Se s) (Ah s) (Al s).
Lemma items_mark : forall s vs m r, items s vs m r -> m <> Separator.
Proof. intros s vs m r H. induction H; assumption. Qed.
Lemma comps_sound : forall n idx m l idx' term l', (length idx <= 4)%nat -> more_components n idx (term_of m) l = Ret (Some (idx', term, l')) ->
  (length idx' <= 4)%nat /\
  ((m <> Separator /\ idx' = idx /\ term = term_of m /\ l' = l) \/
   (m = Separator /\ exists vs m', items (unc l) vs m' (unc l') /\ idx' = idx ++ map s32 vs /\ term = term_of m')).
Proof.
  induction n as [|n IH]; intros idx m l idx' term l' L H; [discriminate H|]. destruct m; cbn [term_of more_components] in H.
  - destruct (Z.leb_spec 4 (Z.of_nat (length idx))); [discriminate H|]. destruct (scan_integer_ok l) as [l1 W|w c r l1 E W NW NDc|v m r l1 I U|w ds t E W F N B]; cbn [bind] in H; try discriminate H.
    apply IH in H; [|rewrite app_length; cbn [length]; lia]. destruct H as (L' & [(NS & -> & -> & ->)|(-> & vs & m' & I2 & -> & ->)]); (split; [exact L'|]); right; (split; [reflexivity|]); subst r.
    + exists [v], m. split; [apply items_last; assumption|]. split; reflexivity.
    + exists (v :: vs), m'. split; [apply (items_more _ _ (unc l1)); assumption|]. split; [rewrite <- app_assoc; reflexivity|reflexivity].
  - injection H as <- <- <-. split; [exact L|]. left. split; [discriminate|]. split; [reflexivity|]. split; reflexivity.
  - injection H as <- <- <-. split; [exact L|]. left. split; [discriminate|]. split; [reflexivity|]. split; reflexivity.
  - injection H as <- <- <-. split; [exact L|]. left. split; [discriminate|]. split; [reflexivity|]. split; reflexivity.
Qed.
Lemma comps_stop : forall n idx m l, m <> Separator -> (0 < n)%nat -> more_components n idx (term_of m) l = Ret (Some (idx, term_of m, l)).
Proof. intros [|n] idx m l H Hn; [lia|]. destruct m; [congruence|reflexivity|reflexivity|reflexivity]. Qed.
Lemma comps_complete : forall s vs m r, items s vs m r -> forall l idx n, unc l = s -> (length idx + length vs <= 4)%nat -> (length vs < n)%nat ->
  exists l', more_components n idx (Some 32) l = Ret (Some (idx ++ map s32 vs, term_of m, l')) /\ unc l' = r.
Proof.
  intros s vs m r H. induction H as [s v m r I NS|s v r vs m r' I H IH]; intros l idx n <- L Hn; cbn [length] in *; (destruct n as [|n]; [lia|]); cbn [more_components];
    (destruct (Z.leb_spec 4 (Z.of_nat (length idx))); [lia|]); destruct (item_run l _ _ _ I) as (l1 & R & U); rewrite R; cbn [bind].
  - rewrite comps_stop by (try exact NS; lia). exists l1. split; [reflexivity|exact U].
  - destruct (IH l1 (idx ++ [s32 v]) n U ltac:(rewrite app_length; cbn [length]; lia) ltac:(lia)) as (l2 & R2 & U2). cbn [term_of]. rewrite R2. exists l2. split; [rewrite <- app_assoc; reflexivity|exact U2].
Qed.
Lemma separated_sound : forall n l vs' l', separated n l = Ret (Some (vs', l')) ->
  exists vs, length vs = n /\ vs' = map s32 vs /\ forall ws m r, items (unc l') ws m r -> items (unc l) (vs ++ ws) m r.
Proof.
  induction n as [|n IH]; intros l vs' l' H; cbn [separated] in H.
  - injection H as <- <-. exists []. split; [reflexivity|]. split; [reflexivity|]. intros ws m r I. exact I.
  - destruct (scan_integer_ok l) as [l1 W|w c r l1 E W NW NDc|v m r l1 I U|w ds t E W F N B]; cbn [bind] in H; try discriminate H. destruct m; cbn [term_of] in H; try discriminate H.
    destruct (separated n l1) as [[[vs2 l2]|]| |] eqn:R; cbn [bind] in H; try discriminate H. injection H as <- <-. destruct (IH _ _ _ R) as (vs & <- & -> & X). exists (v :: vs). split; [reflexivity|]. split; [reflexivity|].
    intros ws m r2 I2. cbn [app]. apply (items_more _ _ r); [exact I|]. rewrite <- U. apply X. exact I2.
Qed.
Lemma separated_complete : forall vs l ws m r, items (unc l) (vs ++ ws) m r -> ws <> [] -> exists l', separated (length vs) l = Ret (Some (map s32 vs, l')) /\ items (unc l') ws m r.
Proof.
  induction vs as [|v vs IH]; intros l ws m r I NE; [exists l; split; [reflexivity|exact I]|]. cbn [app] in I. inversion I as [s' v' m' r' I1 NS E1 E2|s' v' r1 vs' m' r' I1 I2 E1 E2]; subst.
  - exfalso. destruct vs; [|discriminate]. cbn [app] in *. congruence.
  - destruct (item_run l _ _ _ I1) as (l1 & R & <-). cbn [length separated]. rewrite R. cbn [bind term_of]. destruct (IH l1 ws m r I2 NE) as (l2 & -> & I3). cbn [bind]. exists l2. split; [reflexivity|exact I3].
Qed.
Lemma params_sound : forall m l ps term l', scan_params (term_of m) l = Ret (Some (ps, term, l')) ->
  (m <> Colon /\ ps = [0; 63; 0; 0] /\ term = term_of m /\ l' = l) \/
  (m = Colon /\ exists a b c d m', (m' <> Separator -> items (unc l) [a; b; c; d] m' (unc l')) /\ ps = [s32 a; s32 b; s32 c; s32 d] /\ term = term_of m').
Proof.
  intros m l ps term l' H. destruct m; cbn [term_of scan_params] in H; try (injection H as <- <- <-; left; split; [discriminate|split; [reflexivity|split; reflexivity]]).
  right. split; [reflexivity|]. destruct (separated 3 l) as [[[vs2 l2]|]| |] eqn:R; cbn [bind] in H; try discriminate H. destruct (separated_sound _ _ _ _ R) as (vs & Lv & -> & X).
  destruct vs as [|a [|b [|c [|? ?]]]]; try discriminate Lv. destruct (scan_integer_ok l2) as [l1 W|w c' r l1 E W NW NDc|v m r l1 I U|w ds t E W F N B]; cbn [bind] in H; try discriminate H.
  injection H as <- <- <-. exists a, b, c, v, m. split; [|split; reflexivity]. intros NS. apply (X [v]). rewrite U. apply items_last; assumption.
Qed.
Lemma params_complete : forall l a b c d m r, items (unc l) [a; b; c; d] m r -> exists l', scan_params (Some 58) l = Ret (Some ([s32 a; s32 b; s32 c; s32 d], term_of m, l')) /\ unc l' = r.
Proof.
  intros l a b c d m r I. destruct (separated_complete [a; b; c] l [d] m r I ltac:(discriminate)) as (l2 & R & I2). cbn [length] in R. unfold scan_params. rewrite R. cbn [bind].
  inversion I2 as [s' v' m' r' I1 NS E1 E2|s' v' r1 vs' m' r' I1 I3 E1 E2]; subst; [|inversion I3]. destruct (item_run l2 _ _ _ I1) as (l3 & R3 & U). rewrite R3. cbn [bind]. exists l3. split; [reflexivity|exact U].
Qed.
Lemma agets4 : forall a b c d : Z, aget [a; b; c; d] 0 = Ret a /\ aget [a; b; c; d] 1 = Ret b /\ aget [a; b; c; d] 2 = Ret c /\ aget [a; b; c; d] 3 = Ret d.
Proof. intros. split; [reflexivity|]. split; [reflexivity|]. split; reflexivity. Qed.
Lemma loop_sound : forall n scans l res, scan_loop n scans l = Ret (Some res) -> (length scans <= 64)%nat ->
  exists es, script_text (unc l) es /\ res = scans ++ map as_info es /\ (length res <= 64)%nat.
Proof.
  induction n as [|n IH]; intros scans l res H LS; [discriminate H|]. cbn [scan_loop] in H. destruct (scan_integer_ok l) as [l1 W|w c r l1 E W NW NDc|v m r l1 I U|w ds t E W F N B]; cbn [bind] in H; try discriminate H.
  - injection H as <-. exists []. split; [apply script_end; exact W|]. rewrite app_nil_r. split; [reflexivity|exact LS].
  - destruct (Z.leb_spec 64 (Z.of_nat (length scans))) as [|L64]; [discriminate H|]. destruct (more_components 4 [s32 v] (term_of m) l1) as [[[[idx term] l2]|]| |] eqn:RC; cbn [bind] in H; try discriminate H.
    destruct (scan_params term l2) as [[[[ps term2] l3]|]| |] eqn:RP; cbn [bind] in H; try discriminate H.
    assert (X : exists cs m2, items (unc l) cs m2 (unc l2) /\ idx = map s32 cs /\ (length cs <= 4)%nat /\ term = term_of m2).
    { apply comps_sound in RC; [|cbn; lia]. destruct RC as (L4 & [(NS & -> & -> & ->)|(-> & vs & m' & I2 & -> & ->)]).
      - exists [v], m. subst r. split; [apply items_last; assumption|]. split; [reflexivity|]. split; [cbn; lia|reflexivity].
      - exists (v :: vs), m'. subst r. split; [apply (items_more _ _ (unc l1)); assumption|]. split; [reflexivity|]. split; [|reflexivity]. cbn [app length] in *. rewrite map_length in L4. exact L4. }
    destruct X as (cs & m2 & IC & -> & LC & ->). 
    assert (Y : exists ss se ah al m3, ps = [ss; se; ah; al] /\ term2 = term_of m3 /\ (m3 = Semicolon \/ m3 = End -> entry (unc l) (mkScan (map s32 cs) ss se ah al) (unc l3))).
    { apply params_sound in RP. destruct RP as [(NC & -> & -> & ->)|(-> & a & b & c & d & m' & I2 & -> & ->)].
      - exists 0, 63, 0, 0, m2. split; [reflexivity|]. split; [reflexivity|]. intros M. apply (entry_plain _ _ m2); assumption.
      - exists (s32 a), (s32 b), (s32 c), (s32 d), m'. split; [reflexivity|]. split; [reflexivity|]. intros M. apply (entry_progressive _ cs (unc l2) a b c d m'); [exact IC|exact LC|apply I2; destruct M as [-> | ->]; discriminate|exact M]. }
    destruct Y as (ss & se & ah & al & m3 & -> & -> & EN). destruct (agets4 ss se ah al) as (A0 & A1 & A2 & A3). rewrite A0, A1, A2, A3 in H. cbn [bind] in H.
    assert (Z : (m3 = Semicolon \/ m3 = End) /\ scan_loop n (scans ++ [mkSI (Z.of_nat (length (map s32 cs))) (idx4 (map s32 cs)) ss se ah al]) l3 = Ret (Some res)).
    { destruct m3; cbn [term_of] in H; try discriminate H; (split; [tauto|exact H]). }
    destruct Z as (M3 & H2). apply IH in H2; [|rewrite app_length; cbn [length]; lia]. destruct H2 as (es & ST & -> & L). exists (mkScan (map s32 cs) ss se ah al :: es).
    split; [apply (script_entry _ _ (unc l3)); [apply EN; exact M3|exact ST]|]. split; [rewrite <- app_assoc; reflexivity|exact L].
Qed.
Lemma items_first : forall l vs m r n, items (unc l) vs m r -> (length vs <= 4)%nat -> n = 4%nat -> exists v term l1 l2, read_scan_integer l = Ret (Some v, term, l1) /\ more_components n [s32 v] term l1 = Ret (Some (map s32 vs, term_of m, l2)) /\ unc l2 = r.
Proof.
  intros l vs m r n I L ->. inversion I as [s' v' m' r' I1 NS E1 E2|s' v' r1 vs' m' r' I1 I3 E1 E2]; subst; destruct (item_run l _ _ _ I1) as (l1 & R1 & U1).
  - exists v', (term_of m), l1, l1. split; [exact R1|]. split; [apply comps_stop; [exact NS|lia]|exact U1].
  - cbn [length] in L. destruct (comps_complete _ _ _ _ I3 l1 [s32 v'] 4%nat U1 ltac:(cbn [length]; lia) ltac:(lia)) as (l2 & R2 & U2). exists v', (Some 32), l1, l2. split; [exact R1|]. split; [exact R2|exact U2].
Qed.
Lemma loop_complete : forall s es, script_text s es -> forall l scans n, unc l = s -> (length scans + length es <= 64)%nat -> (length es < n)%nat -> scan_loop n scans l = Ret (Some (scans ++ map as_info es)).
Proof.
  intros s es H. induction H as [s W|s e r es E H IH]; intros l scans n <- L Hn; cbn [length] in *; (destruct n as [|n]; [lia|]); cbn [scan_loop].
  - destruct (end_run l W) as (l' & ->). cbn [bind map]. rewrite app_nil_r. reflexivity.
  - assert (G : forall cs m ss se ah al l3, (m = Semicolon \/ m = End) -> unc l3 = r ->
      match term_of m with None | Some 59 => scan_loop n (scans ++ [mkSI (Z.of_nat (length (map s32 cs))) (idx4 (map s32 cs)) ss se ah al]) l3 | _ => Ret None end = Ret (Some (scans ++ as_info (mkScan (map s32 cs) ss se ah al) :: map as_info es))).
    { intros cs m ss se ah al l3 M U. rewrite (IH l3 (scans ++ [mkSI (Z.of_nat (length (map s32 cs))) (idx4 (map s32 cs)) ss se ah al]) n U); [|rewrite app_length; cbn [length]; lia|lia]. rewrite <- app_assoc. destruct M as [-> | ->]; reflexivity. }
    inversion E as [s' cs m r' I LC M E1 E2|s' cs r1 a b c d m r' I LC I2 M E1 E2]; subst; destruct (items_first l _ _ _ 4%nat I LC eq_refl) as (v & term & l1 & l2 & R1 & R2 & U2); rewrite R1; cbn [bind];
      (destruct (Z.leb_spec 64 (Z.of_nat (length scans))); [lia|]); rewrite R2; cbn [bind].
    + assert (P : scan_params (term_of m) l2 = Ret (Some ([0; 63; 0; 0], term_of m, l2))) by (destruct M as [-> | ->]; reflexivity). rewrite P. cbn [bind].
      destruct (agets4 0 63 0 0) as (A0 & A1 & A2 & A3). rewrite A0, A1, A2, A3. cbn [bind map]. apply G; [exact M|exact U2].
    + subst r1. destruct (params_complete l2 _ _ _ _ _ _ I2) as (l3 & P & U3). cbn [term_of]. rewrite P. cbn [bind]. destruct (agets4 (s32 a) (s32 b) (s32 c) (s32 d)) as (A0 & A1 & A2 & A3). rewrite A0, A1, A2, A3. cbn [bind map]. apply G; [exact M|exact U3].
Qed.

(* the script is accepted exactly if the file is one, and it is then the script of the file *)
Theorem C62_scans : forall st f st',
  read_scan_script st f = Ret (true, st') <->
  exists es, script_text (uncomment false f) es /\ (length es <= 64)%nat /\ st' = match es with [] => st | _ => (map as_info es, false) end.
Proof.
  intros st f st'. unfold read_scan_script. split.
  - destruct (scan_loop 65 [] f) as [[res|]| |] eqn:R; cbn [bind]; intros H; try discriminate H. destruct (loop_sound _ _ _ _ R ltac:(cbn; lia)) as (es & ST & E & L). cbn [app] in E. subst res. exists es. split; [exact ST|]. rewrite map_length in L. split; [exact L|].
    destruct es as [|e es]; cbn [map] in *; injection H as <-; reflexivity.
  - intros (es & ST & L & ->). rewrite (loop_complete _ _ ST f [] 65%nat eq_refl) by (cbn [length]; lia). cbn [bind app]. destruct es as [|e es]; reflexivity.
Qed.
Print Assumptions C62_scans.

Lemma short_tail : forall p r, short_numbers (p ++ r) -> short_numbers r.
Proof. intros p r H a ds b E F. apply (H (p ++ a) ds b); [rewrite E, app_assoc; reflexivity|exact F]. Qed.
Lemma decimal_short : forall ds v, 0 <= v -> Forall digit ds -> decimal v ds < (v + 1) * 10 ^ Z.of_nat (length ds).
Proof.
  induction ds as [|d ds IH]; intros v V F; [cbn [length decimal Z.of_nat]; change (10 ^ 0) with 1; lia|]. inversion F as [|? ? D F']; subst. unfold digit in D. cbn [decimal length]. rewrite Nat2Z.inj_succ, Z.pow_succ_r by lia.
  specialize (IH (10 * v + (d - 48)) ltac:(lia) F'). assert (0 < 10 ^ Z.of_nat (length ds)) by (apply Z.pow_pos_nonneg; lia). nia.
Qed.
Lemma short_ok : forall w ds t, short_numbers (w ++ ds ++ t) -> Forall digit ds -> decimal 0 ds < 2 ^ 63.
Proof.
  intros w ds t S F. specialize (S w ds t eq_refl F). pose proof (decimal_short ds 0 ltac:(lia) F) as H. assert (10 ^ Z.of_nat (length ds) <= 10 ^ 18) by (apply Z.pow_le_mono_r; lia). change (10 ^ 18) with 1000000000000000000 in *. change (2 ^ 63) with 9223372036854775808. lia.
Qed.
Lemma after_suffix : forall t m r, after t m r -> exists p, t = p ++ r.
Proof.
  intros t m r A. destruct A as [w W|w r W|w r W|w d r W NE D|w c r W NW ND N1 N2].
  - exists w. rewrite app_nil_r. reflexivity.
  - exists (w ++ [59]). rewrite <- app_assoc. reflexivity.
  - exists (w ++ [58]). rewrite <- app_assoc. reflexivity.
  - exists w. reflexivity.
  - exists (w ++ [c]). rewrite <- app_assoc. reflexivity.
Qed.
Lemma scan_total : forall l, short_numbers (unc l) -> (exists ch l', read_scan_integer l = Ret (None, ch, l')) \/ (exists v m l', read_scan_integer l = Ret (Some v, term_of m, l') /\ short_numbers (unc l')).
Proof.
  intros l S. destruct (scan_integer_ok l) as [l1 W|w c r l1 E W NW NDc|v m r l1 (w & ds & t & E & W & NB & A) U|w ds t E W F N B].
  - left. exists None, l1. reflexivity.
  - left. exists (Some c), l1. reflexivity.
  - right. exists v, m, l1. split; [reflexivity|]. destruct (after_suffix _ _ _ A) as (p & ->). subst r. apply (short_tail (w ++ ds ++ p)). rewrite <- !app_assoc. rewrite E in S. exact S.
  - exfalso. rewrite E in S. pose proof (short_ok _ _ _ S F). lia.
Qed.
Lemma comps_total : forall n idx m l, short_numbers (unc l) -> (5 <= n + length idx)%nat -> (1 <= n)%nat ->
  more_components n idx (term_of m) l = Ret None \/ exists idx' m' l', more_components n idx (term_of m) l = Ret (Some (idx', term_of m', l')) /\ short_numbers (unc l').
Proof.
  induction n as [|n IH]; intros idx m l S L N; [lia|].
  assert (ST : m <> Separator -> exists idx' m' l', more_components (Datatypes.S n) idx (term_of m) l = Ret (Some (idx', term_of m', l')) /\ short_numbers (unc l')).
  { intros NS. exists idx, m, l. split; [apply comps_stop; [exact NS|lia]|exact S]. }
  destruct m; try (right; apply ST; discriminate). cbn [term_of more_components]. destruct (Z.leb_spec 4 (Z.of_nat (length idx))); [left; reflexivity|].
  destruct (scan_total l S) as [(ch & l' & ->)|(v & m & l' & -> & S')]; cbn [bind]; [left; reflexivity|]. apply IH; [exact S'|rewrite app_length; cbn [length]; lia|lia].
Qed.
Lemma separated_total : forall n l, short_numbers (unc l) -> separated n l = Ret None \/ exists vs l', separated n l = Ret (Some (vs, l')) /\ length vs = n /\ short_numbers (unc l').
Proof.
  induction n as [|n IH]; intros l S; [right; exists [], l; split; [reflexivity|split; [reflexivity|exact S]]|]. cbn [separated].
  destruct (scan_total l S) as [(ch & l' & ->)|(v & m & l' & -> & S')]; cbn [bind]; [left; reflexivity|]. destruct m; cbn [term_of]; try (left; reflexivity).
  destruct (IH l' S') as [-> |(vs & l2 & -> & L & S2)]; cbn [bind]; [left; reflexivity|]. right. exists (s32 v :: vs), l2. split; [reflexivity|]. split; [cbn [length]; lia|exact S2].
Qed.
Lemma params_total : forall m l, short_numbers (unc l) -> scan_params (term_of m) l = Ret None \/ exists a b c d m' l', scan_params (term_of m) l = Ret (Some ([a; b; c; d], term_of m', l')) /\ short_numbers (unc l').
Proof.
  intros m l S. assert (ST : m <> Colon -> exists a b c d m' l', scan_params (term_of m) l = Ret (Some ([a; b; c; d], term_of m', l')) /\ short_numbers (unc l')).
  { intros NC. exists 0, 63, 0, 0, m, l. split; [destruct m; try reflexivity; congruence|exact S]. }
  destruct m; try (right; apply ST; discriminate). cbn [term_of scan_params]. destruct (separated_total 3 l S) as [-> |(vs & l2 & -> & L & S2)]; cbn [bind]; [left; reflexivity|].
  destruct vs as [|a [|b [|c [|? ?]]]]; try discriminate L. destruct (scan_total l2 S2) as [(ch & l' & ->)|(v & m & l' & -> & S')]; cbn [bind]; [left; reflexivity|]. right. exists a, b, c, (s32 v), m, l'. split; [reflexivity|exact S'].
Qed.
Lemma loop_total : forall n scans l, short_numbers (unc l) -> (65 <= n + length scans)%nat -> (1 <= n)%nat -> exists r, scan_loop n scans l = Ret r.
Proof.
  induction n as [|n IH]; intros scans l S L N; [lia|]. cbn [scan_loop]. destruct (scan_total l S) as [(ch & l' & ->)|(v & m & l' & -> & S')]; cbn [bind]; [eexists; reflexivity|].
  destruct (Z.leb_spec 64 (Z.of_nat (length scans))); [eexists; reflexivity|]. destruct (comps_total 4 [s32 v] m l' S' ltac:(cbn; lia) ltac:(lia)) as [-> |(idx & m2 & l2 & -> & S2)]; cbn [bind]; [eexists; reflexivity|].
  destruct (params_total m2 l2 S2) as [-> |(a & b & c & d & m3 & l3 & -> & S3)]; cbn [bind]; [eexists; reflexivity|]. destruct (agets4 a b c d) as (A0 & A1 & A2 & A3). rewrite A0, A1, A2, A3. cbn [bind].
  assert (R : exists r, scan_loop n (scans ++ [mkSI (Z.of_nat (length idx)) (idx4 idx) a b c d]) l3 = Ret r) by (apply IH; [exact S3|rewrite app_length; cbn [length]; lia|lia]).
  destruct m3; cbn [term_of]; try (eexists; reflexivity); exact R.
Qed.
(* any other file is refused, and nothing is changed then *)
Theorem C62_scans_safe : forall st f, short_numbers (uncomment false f) -> exists ok st', read_scan_script st f = Ret (ok, st') /\ (ok = false -> st' = st).
Proof.
  intros st f S. unfold read_scan_script. destruct (loop_total 65 [] f S ltac:(cbn; lia) ltac:(lia)) as (r & ->). cbn [bind]. destruct r as [[|s scans]|].
  - exists true, st. split; [reflexivity|discriminate].
  - exists true, (s :: scans, false). split; [reflexivity|discriminate].
  - exists false, st. split; reflexivity.
Qed.
Print Assumptions C62_scans_safe.

Lemma scan_of_as : forall e, (length (comps e) <= 4)%nat -> scan_of (as_info e) = e /\ length (si_idx (as_info e)) = 4%nat.
Proof.
  intros [cs a b c d] L. unfold scan_of, as_info. cbn [comps Ss Se Ah Al si_n si_idx si_Ss si_Se si_Ah si_Al] in *. rewrite Nat2Z.id.
  destruct cs as [|x0 [|x1 [|x2 [|x3 [|x4 cs]]]]]; try (cbn [length] in L; lia); split; reflexivity.
Qed.
Lemma text_comps : forall s es, script_text s es -> Forall (fun e => (length (comps e) <= 4)%nat) es.
Proof.
  intros s es H. induction H as [s W|s e r es E H IH]; [constructor|]. constructor; [|exact IH]. destruct E as [s cs m r I L M|s cs r a b c d m r' I L I2 M]; cbn [comps]; rewrite map_length; exact L.
Qed.
(* the compressor then takes the script if and only if the scans of the file form a valid script *)
Theorem C62_scans_used : forall opt f scans opt' nc prec, read_scan_script ([], opt) f = Ret (true, (scans, opt')) -> 0 <= nc <= 10 ->
  exists es, script_text (uncomment false f) es /\ (es = [] -> opt' = opt) /\ (es <> [] -> opt' = false) /\
    forall m, validate_script nc prec scans = Ret m <-> script_ok nc prec m es.
Proof.
  intros opt f scans opt' nc prec H NC. apply C62_scans in H. destruct H as (es & ST & L & E). exists es. split; [exact ST|]. assert (ES : scans = map as_info es) by (destruct es; injection E as -> _; reflexivity).
  split; [intros ->; injection E as _ ->; reflexivity|]. split; [intros NE; destruct es; [congruence|]; injection E as _ ->; reflexivity|].
  pose proof (text_comps _ _ ST) as TC. assert (W : wf scans) by (subst scans; unfold wf; apply Forall_map; eapply Forall_impl; [|exact TC]; intros e HE; apply (scan_of_as e HE)).
  destruct (C14_validate_script nc prec scans NC W) as (V & _). intros m. rewrite V, ES, map_map. replace (map (fun x => scan_of (as_info x)) es) with es; [reflexivity|].
  clear - TC. induction TC as [|e es HE TC IH]; [reflexivity|]. cbn [map]. rewrite <- IH, (proj1 (scan_of_as e HE)). reflexivity.
Qed.
Print Assumptions C62_scans_used.

(* ---- quantization tables ---- *)
Lemma more_sound : forall n l vs' ch l', more_values n l = Ret (Some vs', ch, l') -> exists vs, length vs = n /\ vs' = map u32 vs /\ forall ws r, values (unc l') ws r -> values (unc l) (vs ++ ws) r.
Proof.
  induction n as [|n IH]; intros l vs' ch l' H; cbn [more_values] in H.
  - injection H as <- _ <-. exists []. split; [reflexivity|]. split; [reflexivity|]. intros ws r V. exact V.
  - destruct (text_integer_ok l) as [l1 W U|w c r l1 E W NW ND|w ds v t l1 E W NB N U|w ds t E W F N B]; cbn [bind] in H; try discriminate H.
    destruct (more_values n l1) as [[[[vs2|] ch2] l2]| |] eqn:R; cbn [bind] in H; try discriminate H. injection H as <- _ <-. destruct (IH _ _ _ _ R) as (vs & <- & -> & X). exists (v :: vs). split; [reflexivity|]. split; [reflexivity|].
    intros ws r V. specialize (X ws r V). rewrite E. rewrite U in X. destruct t as [|c t]; cbn [tl] in X.
    + rewrite app_nil_r. apply values_last; assumption.
    + apply values_char; assumption.
Qed.
Lemma value_run : forall l v vs r, values (unc l) (v :: vs) r -> exists ch l', read_text_integer l = Ret (Some v, ch, l') /\ values (unc l') vs r.
Proof.
  intros l v vs r V. inversion V as [|w ds v' c s vs' r' W NB ND V' E1 E2|w ds v' vs' r' W NB V' E1 E2]; subst.
  - destruct (text_run l w ds v (c :: s) ltac:(congruence) W NB ND) as (l' & R & U). exists (Some c), l'. split; [exact R|]. rewrite U. exact V'.
  - destruct (text_run l w ds v [] ltac:(rewrite app_nil_r; congruence) W NB I) as (l' & R & U). exists None, l'. split; [exact R|]. rewrite U. exact V'.
Qed.
Lemma more_complete : forall vs l ws r, values (unc l) (vs ++ ws) r -> exists ch l', more_values (length vs) l = Ret (Some (map u32 vs), ch, l') /\ values (unc l') ws r.
Proof.
  induction vs as [|v vs IH]; intros l ws r V; [exists None, l; split; [reflexivity|exact V]|]. cbn [app] in V. destruct (value_run _ _ _ _ V) as (ch & l1 & R & V1). cbn [length more_values map]. rewrite R. cbn [bind].
  destruct (IH _ _ _ V1) as (ch2 & l2 & -> & V2). cbn [bind]. exists ch2, l2. split; [reflexivity|exact V2].
Qed.
Lemma scaled_ok : forall v f fb, 0 <= f -> quant_entry (u32 v) f fb = scaled f fb v.
Proof.
  intros v f fb F. unfold quant_entry, scaled. cbv zeta. assert (U : 0 <= u32 v) by (unfold u32; apply Z.mod_pos_bound; lia). rewrite Z.quot_div_nonneg by nia.
  set (t := (u32 v * f + 50) / 100). assert (0 <= t) by (apply Z.div_pos; nia). rewrite !Z.gtb_ltb. unfold u16. change (2 ^ 16) with 65536.
  destruct fb; cbn [andb]; (destruct (Z.leb_spec t 0) as [T0|T0]); [change (32767 <? 1) with false; cbv iota; change (255 <? 1) with false; cbv iota; rewrite Z.mod_small by lia; lia| |change (32767 <? 1) with false; cbv iota; rewrite Z.mod_small by lia; lia|].
  - destruct (Z.ltb_spec 32767 t); [change (255 <? 32767) with true; cbv iota; rewrite Z.mod_small by lia; lia|]. destruct (Z.ltb_spec 255 t); rewrite Z.mod_small by lia; lia.
  - destruct (Z.ltb_spec 32767 t); rewrite Z.mod_small by lia; lia.
Qed.
Lemma add_ok : forall tbls k vs f fb, length tbls = 4%nat -> 0 <= k < 4 -> length vs = 64%nat -> 0 <= f ->
  jpeg_add_quant_table true tbls k (map u32 vs) f fb = Ret (upd tbls (Z.to_nat k) (map (scaled f fb) vs)).
Proof.
  intros tbls k vs f fb L K LV F. unfold jpeg_add_quant_table. cbn [negb]. destruct (Z.ltb_spec k 0); [lia|]. destruct (Z.geb_spec k 4); [lia|]. cbn [orb]. unfold aset.
  destruct (Z.ltb_spec k 0); [lia|]. destruct (Z.leb_spec (Z.of_nat (length tbls)) k); [lia|]. cbn [orb]. rewrite firstn_all2 by (rewrite map_length; lia). rewrite map_map. f_equal. f_equal. apply map_ext. intros v. apply scaled_ok. exact F.
Qed.
(* tables k, k+1, ... are those of the file *)
Definition installed (factors : list Z) (fb : bool) (k : nat) (tables tbls tbls' : list (list Z)) : Prop :=
  length tbls' = 4%nat /\ forall i, (i < 4)%nat -> nth i tbls' [] = if (k <=? i)%nat && (i <? k + length tables)%nat then map (scaled (nth i factors 0) fb) (nth (i - k) tables []) else nth i tbls [].
Lemma installed_nil : forall factors fb k tbls, length tbls = 4%nat -> installed factors fb k [] tbls tbls.
Proof. intros factors fb k tbls L. split; [exact L|]. intros i Hi. cbn [length]. rewrite Nat.add_0_r. destruct (Nat.leb_spec k i), (Nat.ltb_spec i k); cbn [andb]; try reflexivity. lia. Qed.
Lemma installed_cons : forall factors fb k t tables tbls tbls', length tbls = 4%nat -> (k < 4)%nat ->
  installed factors fb (S k) tables (upd tbls k (map (scaled (nth k factors 0) fb) t)) tbls' <-> installed factors fb k (t :: tables) tbls tbls'.
Proof.
  intros factors fb k t tables tbls tbls' L K. unfold installed. assert (X : forall i, (i < 4)%nat ->
    (if (S k <=? i)%nat && (i <? S k + length tables)%nat then map (scaled (nth i factors 0) fb) (nth (i - S k) tables []) else nth i (upd tbls k (map (scaled (nth k factors 0) fb) t)) []) =
    (if (k <=? i)%nat && (i <? k + length (t :: tables))%nat then map (scaled (nth i factors 0) fb) (nth (i - k) (t :: tables) []) else nth i tbls [])).
  { intros i Hi. cbn [length]. destruct (Nat.eq_dec i k) as [->|NE].
    - rewrite nth_upd_eq by lia. destruct (Nat.leb_spec (S k) k); [lia|]. destruct (Nat.leb_spec k k); [|lia]. destruct (Nat.ltb_spec k (k + S (length tables))); [|lia]. cbn [andb]. rewrite Nat.sub_diag. reflexivity.
    - rewrite nth_upd_neq by lia. replace (S k + length tables)%nat with (k + S (length tables))%nat by lia. destruct (Nat.leb_spec (S k) i), (Nat.leb_spec k i); try lia; [|reflexivity].
      destruct (i <? k + S (length tables))%nat; [|reflexivity]. cbn [andb]. replace (i - k)%nat with (S (i - S k)) by lia. reflexivity. }
  split; intros (H1 & H2); (split; [exact H1|]); intros i Hi; rewrite H2 by exact Hi; [apply X; exact Hi|symmetry; apply X; exact Hi].
Qed.
Lemma quant_sound : forall n factors fb tbls k l tbls', length factors = 4%nat -> Forall (fun f => 0 <= f) factors -> length tbls = 4%nat -> (k <= 4)%nat ->
  quant_loop n factors fb tbls (Z.of_nat k) l = Ret (true, tbls') ->
  exists tables, tables_text (unc l) tables /\ (k + length tables <= 4)%nat /\ installed factors fb k tables tbls tbls'.
Proof.
  induction n as [|n IH]; intros factors fb tbls k l tbls' LF FF LT K H; [discriminate H|]. cbn [quant_loop] in H.
  destruct (text_integer_ok l) as [l1 W U|w c r l1 E W NW ND|w ds v t l1 E W NB N U|w ds t E W F N B]; cbn [bind] in H; try discriminate H.
  - injection H as <-. exists []. split; [split; [exists (unc l); split; [apply values_nil|exact W]|constructor]|]. split; [cbn; lia|apply installed_nil; exact LT].
  - destruct (Z.leb_spec 4 (Z.of_nat k)); [discriminate H|]. destruct (more_values 63 l1) as [[[[vs2|] ch2] l2]| |] eqn:R; cbn [bind] in H; try discriminate H. destruct (more_sound _ _ _ _ _ R) as (vs & LV & -> & X).
    rewrite (aget_nth factors (Z.of_nat k) 0) in H by lia. cbn [bind] in H. rewrite Nat2Z.id in H.
    assert (FK : 0 <= nth k factors 0) by (rewrite Forall_forall in FF; apply FF; apply nth_In; lia).
    change (u32 v :: map u32 vs) with (map u32 (v :: vs)) in H. rewrite add_ok in H by (try assumption; cbn [length]; lia). cbn [bind] in H. rewrite Nat2Z.id in H. replace (Z.of_nat k + 1) with (Z.of_nat (S k)) in H by lia.
    apply IH in H; [|exact LF|exact FF|rewrite length_upd; exact LT|lia]. destruct H as (tables & ((r & V & WR) & FT) & L & I). exists ((v :: vs) :: tables). split; [split|].
    + exists r. split; [|exact WR]. cbn [concat app]. specialize (X _ _ V). rewrite E. rewrite U in X. destruct t as [|c t]; cbn [tl] in X; [rewrite app_nil_r; apply values_last; assumption|apply values_char; assumption].
    + constructor; [cbn [length]; lia|exact FT].
    + split; [cbn [length]; lia|]. apply installed_cons; [exact LT|lia|exact I].
Qed.
Lemma quant_complete : forall tables l tbls k n factors fb, length factors = 4%nat -> Forall (fun f => 0 <= f) factors -> length tbls = 4%nat -> (k + length tables <= 4)%nat -> (length tables < n)%nat ->
  tables_text (unc l) tables -> exists tbls', quant_loop n factors fb tbls (Z.of_nat k) l = Ret (true, tbls') /\ installed factors fb k tables tbls tbls'.
Proof.
  induction tables as [|t tables IH]; intros l tbls k n factors fb LF FF LT K Hn ((r & V & WR) & FT); cbn [length] in *; (destruct n as [|n]; [lia|]); cbn [quant_loop].
  - cbn [concat] in V. inversion V; subst. destruct (text_run_end l WR) as (l' & ->). cbn [bind]. exists tbls. split; [reflexivity|apply installed_nil; exact LT].
  - inversion FT as [|? ? LTt FT']; subst. destruct t as [|v vs]; [discriminate LTt|]. cbn [length] in LTt. cbn [concat app] in V. destruct (value_run _ _ _ _ V) as (ch & l1 & -> & V1). cbn [bind].
    destruct (Z.leb_spec 4 (Z.of_nat k)); [lia|]. destruct (more_complete _ _ _ _ V1) as (ch2 & l2 & R & V2). replace (length vs) with 63%nat in R by lia. rewrite R. cbn [bind]. rewrite (aget_nth factors (Z.of_nat k) 0) by lia. cbn [bind]. rewrite Nat2Z.id.
    assert (FK : 0 <= nth k factors 0) by (rewrite Forall_forall in FF; apply FF; apply nth_In; lia).
    change (u32 v :: map u32 vs) with (map u32 (v :: vs)). rewrite add_ok by (try assumption; cbn [length]; lia). cbn [bind]. rewrite Nat2Z.id. replace (Z.of_nat k + 1) with (Z.of_nat (S k)) by lia.
    destruct (IH l2 (upd tbls k (map (scaled (nth k factors 0) fb) (v :: vs))) (S k) n factors fb LF FF ltac:(rewrite length_upd; exact LT) ltac:(lia) ltac:(lia)) as (tbls' & R2 & I).
    { split; [exists r; split; assumption|exact FT']. }
    exists tbls'. split; [exact R2|]. apply installed_cons; [exact LT|lia|exact I].
Qed.
(* the file is accepted exactly if it is 64 numbers for each of at most four tables, which
   then, scaled, are the first tables of the compressor *)
Theorem C62_qtables : forall factors fb tbls f tbls', length factors = 4%nat -> Forall (fun p => 0 <= p) factors -> length tbls = 4%nat ->
  (read_quant_tables factors fb tbls f = Ret (true, tbls') <->
   exists tables, tables_text (uncomment false f) tables /\ (length tables <= 4)%nat /\ length tbls' = 4%nat /\
     forall i, (i < 4)%nat -> nth i tbls' [] = if (i <? length tables)%nat then map (scaled (nth i factors 0) fb) (nth i tables []) else nth i tbls []).
Proof.
  intros factors fb tbls f tbls' LF FF LT. assert (Q : forall tables, installed factors fb 0 tables tbls tbls' <-> length tbls' = 4%nat /\
     forall i, (i < 4)%nat -> nth i tbls' [] = if (i <? length tables)%nat then map (scaled (nth i factors 0) fb) (nth i tables []) else nth i tbls []).
  { intros tables. unfold installed. split; intros (H1 & H2); (split; [exact H1|]); intros i Hi; rewrite H2 by exact Hi; rewrite Nat.sub_0_r; reflexivity. }
  unfold read_quant_tables. split.
  - intros H. apply (quant_sound 5 factors fb tbls 0%nat f tbls' LF FF LT ltac:(lia)) in H. destruct H as (tables & T & L & I). exists tables. split; [exact T|]. split; [lia|]. apply Q. exact I.
  - intros (tables & T & L & I). apply Q in I. destruct (quant_complete tables f tbls 0%nat 5%nat factors fb LF FF LT ltac:(lia) ltac:(lia) T) as (t2 & R & I2). change (Z.of_nat 0) with 0 in R. rewrite R. f_equal. f_equal.
    destruct I as (L1 & I1), I2 as (L2 & I2). apply (nth_ext _ _ [] []); [lia|]. intros i Hi. rewrite I1, I2 by lia. reflexivity.
Qed.
Print Assumptions C62_qtables.

Lemma text_total : forall l, short_numbers (unc l) -> exists v ch l', read_text_integer l = Ret (v, ch, l') /\ (v <> None -> short_numbers (unc l')).
Proof.
  intros l S. destruct (text_integer_ok l) as [l1 W U|w c r l1 E W NW ND|w ds v t l1 E W NB N U|w ds t E W F N B].
  - exists None, None, l1. split; [reflexivity|congruence].
  - exists None, (Some c), l1. split; [reflexivity|congruence].
  - exists (Some v), (hd_error t), l1. split; [reflexivity|]. intros _. rewrite U. rewrite E in S. apply short_tail in S. apply short_tail in S. destruct t as [|c t]; [exact S|]. apply (short_tail [c] t). exact S.
  - exfalso. rewrite E in S. pose proof (short_ok _ _ _ S F). lia.
Qed.
Lemma more_total : forall n l, short_numbers (unc l) -> exists vs ch l', more_values n l = Ret (vs, ch, l') /\ (vs <> None -> short_numbers (unc l')) /\ match vs with Some vs => length vs = n | None => True end.
Proof.
  induction n as [|n IH]; intros l S; cbn [more_values]; [exists (Some []), None, l; split; [reflexivity|split; [intros _; exact S|reflexivity]]|].
  destruct (text_total l S) as ([v|] & ch & l' & -> & S'); cbn [bind]; [|exists None, ch, l'; split; [reflexivity|split; [congruence|exact I]]].
  destruct (IH l' (S' ltac:(discriminate))) as ([vs|] & ch2 & l2 & -> & S2 & L); cbn [bind].
  - exists (Some (u32 v :: vs)), ch2, l2. split; [reflexivity|]. split; [intros _; apply S2; discriminate|cbn [length]; lia].
  - exists None, ch2, l2. split; [reflexivity|]. split; [congruence|exact I].
Qed.
(* every file of numbers of at most 18 digits: accepted or refused, four tables stay *)
Theorem C62_qtables_safe : forall factors fb tbls f, length factors = 4%nat -> length tbls = 4%nat -> short_numbers (uncomment false f) ->
  exists ok tbls', read_quant_tables factors fb tbls f = Ret (ok, tbls') /\ length tbls' = 4%nat.
Proof.
  intros factors fb tbls f LF LT S. unfold read_quant_tables.
  assert (X : forall n l k tbls, short_numbers (unc l) -> length tbls = 4%nat -> (k <= 4)%nat -> (5 <= n + k)%nat -> exists ok tbls', quant_loop n factors fb tbls (Z.of_nat k) l = Ret (ok, tbls') /\ length tbls' = 4%nat).
  { clear - LF. induction n as [|n IH]; intros l k tbls S LT K N; [lia|]. cbn [quant_loop]. destruct (text_total l S) as ([v|] & ch & l' & -> & S'); cbn [bind]; [|eexists; exists tbls; split; [reflexivity|exact LT]].
    destruct (Z.leb_spec 4 (Z.of_nat k)); [exists false, tbls; split; [reflexivity|exact LT]|]. destruct (more_total 63 l' (S' ltac:(discriminate))) as ([vs|] & ch2 & l2 & -> & S2 & L); cbn [bind]; [|exists false, tbls; split; [reflexivity|exact LT]].
    rewrite (aget_nth factors (Z.of_nat k) 0) by lia. cbn [bind]. unfold jpeg_add_quant_table. cbn [negb]. destruct (Z.ltb_spec (Z.of_nat k) 0); [lia|]. destruct (Z.geb_spec (Z.of_nat k) 4); [lia|]. cbn [orb]. unfold aset.
    destruct (Z.ltb_spec (Z.of_nat k) 0); [lia|]. destruct (Z.leb_spec (Z.of_nat (length tbls)) (Z.of_nat k)); [lia|]. cbn [orb bind]. replace (Z.of_nat k + 1) with (Z.of_nat (Datatypes.S k)) by lia.
    apply IH; [apply S2; discriminate|rewrite length_upd; exact LT|lia|lia]. }
  apply (X 5%nat f 0%nat tbls S LT); lia.
Qed.
Print Assumptions C62_qtables_safe.

(* ---- the hypotheses can be met ---- *)
(* "0,1;#x<newline>0: 1-63 , 0 2 ;" *)
Definition script1 : list Z := [48; 44; 49; 59; 35; 120; 10; 48; 58; 32; 49; 45; 54; 51; 32; 44; 32; 48; 32; 50; 32; 59].
Example C62_scans_ex : read_scan_script ([], true) script1 = Ret (true, ([mkSI 2 [0; 1; 0; 0] 0 63 0 0; mkSI 1 [0; 0; 0; 0] 1 63 0 2], false)) /\
  script_text (uncomment false script1) [mkScan [0; 1] 0 63 0 0; mkScan [0] 1 63 0 2].
Proof.
  assert (R : read_scan_script ([], true) script1 = Ret (true, ([mkSI 2 [0; 1; 0; 0] 0 63 0 0; mkSI 1 [0; 0; 0; 0] 1 63 0 2], false))) by (vm_compute; reflexivity).
  split; [exact R|].
  assert (IT : forall w ds t v m r, whites w -> number ds v -> after t m r -> item (w ++ ds ++ t) v m r) by (intros w ds t v m r H1 H2 H3; exists w, ds, t; tauto).
  assert (NB : forall d, digit d -> number [d] (d - 48)) by (intros d D; unfold digit in D; split; [discriminate|split; [constructor; [exact D|constructor]|split; [cbn [decimal]; lia|lia]]]).
  assert (W1 : whites [32]) by (constructor; [left; reflexivity|constructor]).
  vm_compute uncomment. apply (script_entry _ _ [10; 48; 58; 32; 49; 45; 54; 51; 32; 44; 32; 48; 32; 50; 32; 59]).
  - apply (entry_plain _ [0; 1] Semicolon); [|cbn; lia|left; reflexivity]. apply (items_more _ _ [49; 59; 10; 48; 58; 32; 49; 45; 54; 51; 32; 44; 32; 48; 32; 50; 32; 59]).
    + apply (IT [] [48] _ 0); [constructor|apply (NB 48); unfold digit; lia|]. apply (after_other []); [constructor|unfold white; lia|unfold digit; lia|lia|lia].
    + apply items_last; [|discriminate]. apply (IT [] [49] _ 1); [constructor|apply (NB 49); unfold digit; lia|]. apply (after_semicolon []). constructor.
  - apply (script_entry _ _ []); [|apply script_end; constructor]. apply (entry_progressive _ [0] [32; 49; 45; 54; 51; 32; 44; 32; 48; 32; 50; 32; 59] 1 63 0 2 Semicolon); [|cbn; lia| |left; reflexivity].
    + apply items_last; [|discriminate]. apply (IT [10] [48] _ 0); [constructor; [right; lia|constructor]|apply (NB 48); unfold digit; lia|]. apply (after_colon []). constructor.
    + apply (items_more _ _ [54; 51; 32; 44; 32; 48; 32; 50; 32; 59]). { apply (IT [32] [49] _ 1); [exact W1|apply (NB 49); unfold digit; lia|]. apply (after_other []); [constructor|unfold white; lia|unfold digit; lia|lia|lia]. }
      apply (items_more _ _ [32; 48; 32; 50; 32; 59]). { apply (IT [] [54; 51] _ 63); [constructor| |apply (after_other [32]); [exact W1|unfold white; lia|unfold digit; lia|lia|lia]]. split; [discriminate|]. split; [constructor; [unfold digit; lia|constructor; [unfold digit; lia|constructor]]|]. split; [reflexivity|lia]. }
      apply (items_more _ _ [50; 32; 59]). { apply (IT [32] [48] _ 0); [exact W1|apply (NB 48); unfold digit; lia|]. apply (after_white [32]); [exact W1|discriminate|unfold digit; lia]. }
      apply items_last; [|discriminate]. apply (IT [] [50] _ 2); [constructor|apply (NB 50); unfold digit; lia|]. apply (after_semicolon [32]). exact W1.
Qed.
(* 64 times "7 " at 50 percent, and 63 times *)
Definition seven (n : nat) : list Z := flat_map (fun _ => [55; 32]) (seq 0 n).
Example C62_qtables_ex : read_quant_tables [50; 100; 100; 100] true [[]; []; []; []] (seven 64) = Ret (true, [repeat 4 64; []; []; []]) /\
  read_quant_tables [50; 100; 100; 100] true [[]; []; []; []] (seven 63) = Ret (false, [[]; []; []; []]) /\
  short_numbers (uncomment false (seven 2)).
Proof.
  split; [vm_compute; reflexivity|]. split; [vm_compute; reflexivity|]. vm_compute uncomment. intros a ds b E _. assert (L : length [55; 32; 55; 32] = length (a ++ ds ++ b)) by (rewrite E; reflexivity). rewrite !app_length in L. cbn [length] in L. lia.
Qed.

(* findings: a number of 19 digits or more may overflow the long (undefined behaviour);
   smaller ones are silently reduced to 32 bits: component 4294967296 is component 0 *)
Example C62_overflow_refuted : read_scan_script ([], true) (repeat 57 19) = Undef /\ read_quant_tables [100; 100; 100; 100] true [[]; []; []; []] (repeat 57 19) = Undef.
Proof. split; vm_compute; reflexivity. Qed.
Example C62_wrap_refuted : read_scan_script ([], true) [52; 50; 57; 52; 57; 54; 55; 50; 57; 54] = Ret (true, ([mkSI 1 [0; 0; 0; 0] 0 63 0 0], false)).
Proof. vm_compute. reflexivity. Qed.
