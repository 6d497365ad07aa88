(* P_Switch.v -- proofs for T_Switch.v (C62) *)
From Verif Require Import Base M_Quant M_Script S_Script M_Switch S_Switch.

Notation unc := (uncomment false).
Lemma white_dec : forall c, isspace c = true <-> white c.
Proof. intros c. unfold isspace, white. rewrite orb_true_iff, andb_true_iff, Z.eqb_eq, !Z.leb_le. tauto. Qed.
Lemma digit_dec : forall c, isdigit c = true <-> digit c.
Proof. intros c. unfold isdigit, digit. rewrite andb_true_iff, !Z.leb_le. tauto. Qed.
Lemma white_no : forall c, isspace c = false -> ~ white c. Proof. intros c H W. apply white_dec in W. congruence. Qed.
Lemma digit_no : forall c, isdigit c = false -> ~ digit c. Proof. intros c H W. apply digit_dec in W. congruence. Qed.
Lemma digit_white : forall c, digit c -> ~ white c. Proof. intros c H [->|W]; unfold digit in H; lia. Qed.

Lemma comment_ok : forall l, exists l', skip_comment l = (hd_error (uncomment true l), l') /\ unc l' = tl (uncomment true l) /\ (length l' <= length l)%nat.
Proof.
  induction l as [|c l IH]; [exists []; split; [reflexivity|split; [reflexivity|cbn; lia]]|]. cbn [skip_comment uncomment]. destruct (c =? 10); [exists l; split; [reflexivity|split; [reflexivity|cbn [length]; lia]]|].
  cbn [orb]. destruct IH as (l' & H1 & H2 & H3). exists l'. split; [exact H1|]. split; [exact H2|cbn [length]; lia].
Qed.
Lemma getc_ok : forall l, exists l', text_getc l = (hd_error (unc l), l') /\ unc l' = tl (unc l) /\ (length l' <= length l)%nat /\ (unc l <> [] -> (length l' < length l)%nat).
Proof.
  destruct l as [|c l]; [exists []; split; [reflexivity|split; [reflexivity|split; [cbn; lia|intros H; elim H; reflexivity]]]|]. cbn [text_getc uncomment]. destruct (Z.eqb_spec c 10) as [->|N]; cbn [orb Z.eqb Pos.eqb].
  - exists l. split; [reflexivity|]. split; [reflexivity|]. cbn [length]. split; [lia|intros _; lia].
  - destruct (c =? 35).
    + destruct (comment_ok l) as (l' & H1 & H2 & H3). exists l'. split; [exact H1|]. split; [exact H2|]. cbn [length]. split; [lia|intros _; lia].
    + exists l. split; [reflexivity|]. split; [reflexivity|]. cbn [length]. split; [lia|intros _; lia].
Qed.
Lemma skip_white_ok : forall n l, (length l < n)%nat ->
  (whites (unc l) /\ exists l', skip_white n l = Ret (None, l') /\ unc l' = []) \/
  (exists w c r l', unc l = w ++ c :: r /\ whites w /\ ~ white c /\ skip_white n l = Ret (Some c, l') /\ unc l' = r /\ (length l' < length l)%nat).
Proof.
  induction n as [|n IH]; intros l H; [lia|]. cbn [skip_white]. destruct (getc_ok l) as (l' & G & U & L & L'). rewrite G. destruct (unc l) as [|c u] eqn:E.
  - left. split; [constructor|]. exists l'. split; [reflexivity|exact U].
  - cbn [hd_error tl] in *. specialize (L' ltac:(discriminate)). destruct (isspace c) eqn:S.
    + apply white_dec in S. destruct (IH l' ltac:(lia)) as [(W & l2 & H1 & H2)|(w & d & r & l2 & H1 & H2 & H3 & H4 & H5 & H6)].
      * left. split; [constructor; [exact S|rewrite <- U; exact W]|]. exists l2. split; assumption.
      * right. exists (c :: w), d, r, l2. split; [rewrite <- U, H1; reflexivity|]. split; [constructor; assumption|]. split; [exact H3|]. split; [exact H4|]. split; [exact H5|lia].
    + right. exists [], c, u, l'. split; [reflexivity|]. split; [constructor|]. split; [apply white_no; exact S|]. split; [reflexivity|]. split; [exact U|exact L'].
Qed.
Definition no_digit (t : list Z) : Prop := match t with [] => True | c :: _ => ~ digit c end.
Lemma decimal_ge : forall ds v, 0 <= v -> Forall digit ds -> v <= decimal v ds.
Proof. induction ds as [|d ds IH]; intros v Hv F; [cbn; lia|]. inversion F as [|? ? D F']; subst. unfold digit in D. cbn [decimal]. specialize (IH (10 * v + (d - 48)) ltac:(lia) F'). lia. Qed.
Lemma clong_in : forall x, 0 <= x < 2 ^ 63 -> clong x = Ret x.
Proof. intros x H. unfold clong. destruct (Z.leb_spec (- 2 ^ 63) x); [|lia]. destruct (Z.ltb_spec x (2 ^ 63)); [reflexivity|lia]. Qed.
Lemma clong_out : forall x, 2 ^ 63 <= x -> clong x = Undef.
Proof. intros x H. unfold clong. destruct (Z.ltb_spec x (2 ^ 63)); [lia|]. rewrite andb_false_r. reflexivity. Qed.
Lemma more_digits_ok : forall n l v, (length l < n)%nat -> 0 <= v < 2 ^ 63 -> exists ds t, unc l = ds ++ t /\ Forall digit ds /\ no_digit t /\
  (decimal v ds < 2 ^ 63 /\ (exists l', more_text_digits n l v = Ret (decimal v ds, hd_error t, l') /\ unc l' = tl t) \/
   2 ^ 63 <= decimal v ds /\ more_text_digits n l v = Undef).
Proof.
  induction n as [|n IH]; intros l v H V; [lia|]. cbn [more_text_digits]. destruct (getc_ok l) as (l' & G & U & L & L'). rewrite G. destruct (unc l) as [|c u] eqn:E.
  - exists [], []. split; [reflexivity|]. split; [constructor|]. split; [exact I|]. left. split; [cbn [decimal]; lia|]. exists l'. split; [reflexivity|exact U].
  - cbn [hd_error tl] in *. specialize (L' ltac:(discriminate)). destruct (isdigit c) eqn:D.
    + apply digit_dec in D. assert (D' := D). unfold digit in D'. destruct (Z.lt_ge_cases (v * 10 + (c - 48)) (2 ^ 63)) as [I|O].
      * rewrite (clong_in (v * 10)) by lia. cbn [bind]. rewrite clong_in by lia. cbn [bind]. destruct (IH l' (v * 10 + (c - 48)) ltac:(lia) ltac:(lia)) as (ds & t & E1 & F & N & R).
        exists (c :: ds), t. split; [rewrite <- U, E1; reflexivity|]. split; [constructor; assumption|]. split; [exact N|]. cbn [decimal]. replace (10 * v + (c - 48)) with (v * 10 + (c - 48)) by lia. exact R.
      * assert (B : clong (v * 10) = Undef \/ clong (v * 10) = Ret (v * 10)).
        { destruct (Z.lt_ge_cases (v * 10) (2 ^ 63)); [right; apply clong_in; lia|left; apply clong_out; lia]. }
        assert (R : ('val <- clong (v * 10);; 'val <- clong (val + (c - 48));; more_text_digits n l' val) = Undef).
        { destruct B as [-> | ->]; [reflexivity|]. cbn [bind]. rewrite clong_out by lia. reflexivity. }
        rewrite R. assert (SP : exists ds t, u = ds ++ t /\ Forall digit ds /\ no_digit t).
        { clear. induction u as [|x u (ds & t & -> & F & N)]; [exists [], []; split; [reflexivity|split; [constructor|exact I]]|]. destruct (isdigit x) eqn:E.
          - exists (x :: ds), t. split; [reflexivity|]. split; [constructor; [apply digit_dec; exact E|exact F]|exact N].
          - exists [], (x :: ds ++ t). split; [reflexivity|]. split; [constructor|]. apply digit_no; exact E. }
        destruct SP as (ds & t & -> & F & N). exists (c :: ds), t. split; [reflexivity|]. split; [constructor; assumption|]. split; [exact N|]. right. split; [|reflexivity]. cbn [decimal].
        pose proof (decimal_ge ds (10 * v + (c - 48)) ltac:(lia) F). lia.
    + exists [], (c :: u). split; [reflexivity|]. split; [constructor|]. split; [apply digit_no; exact D|]. left. split; [cbn [decimal]; lia|]. exists l'. split; [reflexivity|exact U].
Qed.
(* the four outcomes of reading a number *)
Inductive text_result (l : list Z) : outcome (option Z * option Z * list Z) -> Prop :=
| tr_end : forall l', whites (unc l) -> unc l' = [] -> text_result l (Ret (None, None, l'))
| tr_bad : forall w c r l', unc l = w ++ c :: r -> whites w -> ~ white c -> ~ digit c -> text_result l (Ret (None, Some c, l'))
| tr_num : forall w ds v t l', unc l = w ++ ds ++ t -> whites w -> number ds v -> no_digit t -> unc l' = tl t -> text_result l (Ret (Some v, hd_error t, l'))
| tr_big : forall w ds t, unc l = w ++ ds ++ t -> whites w -> Forall digit ds -> no_digit t -> 2 ^ 63 <= decimal 0 ds -> text_result l Undef.
Lemma text_integer_ok : forall l, text_result l (read_text_integer l).
Proof.
  intros l. unfold read_text_integer. destruct (skip_white_ok (S (length l)) l ltac:(lia)) as [(W & l' & -> & U)|(w & c & r & l' & E & W & NW & -> & U & L)]; cbn [bind].
  - apply tr_end; assumption.
  - destruct (isdigit c) eqn:D; cbn [negb].
    + apply digit_dec in D. assert (D' := D). unfold digit in D'. destruct (more_digits_ok (S (length l')) l' (c - 48) ltac:(lia) ltac:(lia)) as (ds & t & E1 & F & N & [(V & l2 & -> & U2)|(V & ->)]); cbn [bind]; subst r; rewrite E1 in E.
      * apply (tr_num _ w (c :: ds)); [exact E|exact W| |exact N|exact U2]. split; [discriminate|]. split; [constructor; assumption|]. split; [cbn [decimal]; f_equal; lia|exact V].
      * apply (tr_big _ w (c :: ds) t); [exact E|exact W|constructor; assumption|exact N|]. cbn [decimal]. replace (10 * 0 + (c - 48)) with (c - 48) by lia. exact V.
    + apply (tr_bad _ w c r); [exact E|exact W|exact NW|apply digit_no; exact D].
Qed.
(* a list splits in one way into a part with a property and a rest that does not begin with it *)
Lemma split_unique : forall (P : Z -> Prop) a b a' b', a ++ b = a' ++ b' -> Forall P a -> Forall P a' ->
  (match b with [] => True | c :: _ => ~ P c end) -> (match b' with [] => True | c :: _ => ~ P c end) -> a = a' /\ b = b'.
Proof.
  intros P. induction a as [|x a IH]; intros b a' b' E F F' N N'; destruct a' as [|x' a']; cbn [app] in E.
  - split; [reflexivity|exact E].
  - subst b. inversion F'; subst. contradiction.
  - subst b'. inversion F; subst. contradiction.
  - injection E as <- E. inversion F; subst. inversion F'; subst. destruct (IH b a' b' E) as (-> & ->); try assumption. split; reflexivity.
Qed.
Lemma digits_head : forall ds t, ds <> [] -> Forall digit ds -> match ds ++ t with [] => True | c :: _ => ~ white c end.
Proof. intros [|d ds] t H F; [congruence|]. cbn [app]. inversion F; subst. apply digit_white. assumption. Qed.
Lemma decimal_ds : forall ds, 2 ^ 63 <= decimal 0 ds -> ds <> [].
Proof. intros [|d ds] H; [cbn [decimal] in H; lia|discriminate]. Qed.
(* when the text begins with a number, that is what is read *)
Lemma text_run : forall l w ds v t, unc l = w ++ ds ++ t -> whites w -> number ds v -> no_digit t -> exists l', read_text_integer l = Ret (Some v, hd_error t, l') /\ unc l' = tl t.
Proof.
  intros l w ds v t E W (ND & F & V & B) N. pose proof (text_integer_ok l) as R. pose proof (digits_head ds t ND F) as HD.
  inversion R as [l' W' U H|w' c r l' E' W' NW NDc H|w' ds' v' t' l' E' W' (ND' & F' & V' & B') N' U H|w' ds' t' E' W' F' N' B' H]; rewrite E in *.
  - exfalso. destruct ds as [|d ds]; [congruence|]. unfold whites in W'. rewrite Forall_app in W'. destruct W' as (_ & W'). cbn [app] in W'. inversion W'; subst. apply HD. assumption.
  - destruct (split_unique _ _ _ _ _ E' W W' HD NW) as (_ & E2). destruct ds as [|d ds]; [congruence|]. injection E2 as -> _. inversion F; subst. contradiction.
  - destruct (split_unique _ _ _ _ _ E' W W' HD (digits_head ds' t' ND' F')) as (_ & E2). destruct (split_unique _ _ _ _ _ E2 F F' N N') as (-> & ->). subst v v'. exists l'. split; [reflexivity|exact U].
  - exfalso. destruct (split_unique _ _ _ _ _ E' W W' HD (digits_head ds' t' (decimal_ds ds' B') F')) as (_ & E2). destruct (split_unique _ _ _ _ _ E2 F F' N N') as (-> & ->). lia.
Qed.
Lemma text_run_end : forall l, whites (unc l) -> exists l', read_text_integer l = Ret (None, None, l').
Proof.
  intros l W. pose proof (text_integer_ok l) as R. unfold whites in W. inversion R as [l' W' U H|w' c r l' E' W' NW NDc H|w' ds' v' t' l' E' W' (ND' & F' & V' & B') N' U H|w' ds' t' E' W' F' N' B' H].
  - exists l'. reflexivity.
  - exfalso. rewrite E', Forall_app in W. destruct W as (_ & W). inversion W; subst. contradiction.
  - exfalso. rewrite E', Forall_app in W. destruct W as (_ & W). pose proof (digits_head ds' t' ND' F') as HD. destruct ds' as [|d ds']; [congruence|]. cbn [app] in *. inversion W; subst. contradiction.
  - exfalso. rewrite E', Forall_app in W. destruct W as (_ & W). pose proof (digits_head ds' t' (decimal_ds ds' B') F') as HD. apply decimal_ds in B'. destruct ds' as [|d ds']; [congruence|]. cbn [app] in *. inversion W; subst. contradiction.
Qed.

(* ---- the marks of scan scripts ---- *)
Definition term_of (m : mark) : option Z := match m with Separator => Some 32 | Colon => Some 58 | Semicolon => Some 59 | End => None end.
Lemma unc_digit : forall c l, digit c -> unc (c :: l) = c :: unc l.
Proof. intros c l D. unfold digit in D. cbn [uncomment orb]. destruct (Z.eqb_spec c 10); [lia|]. destruct (Z.eqb_spec c 35); [lia|]. reflexivity. Qed.
Lemma skip_after_ok : forall n t l, unc l = tl t -> (length l + 1 < n)%nat -> exists w t' l', t = w ++ t' /\ whites w /\ (match t' with [] => True | c :: _ => ~ white c end) /\
  skip_after n (hd_error t) l = Ret (hd_error t', l') /\ unc l' = tl t'.
Proof.
  induction n as [|n IH]; intros t l U H; [lia|]. cbn [skip_after]. destruct t as [|c u]; cbn [hd_error tl] in *.
  - exists [], [], l. split; [reflexivity|]. split; [constructor|]. split; [exact I|]. split; [reflexivity|exact U].
  - destruct (isspace c) eqn:S.
    + destruct (getc_ok l) as (l' & G & U' & L & L'). rewrite G. rewrite U in *. destruct u as [|d u].
      * destruct n as [|n]; [lia|]. cbn [hd_error skip_after]. exists [c], [], l'. split; [reflexivity|]. split; [constructor; [apply white_dec; exact S|constructor]|]. split; [exact I|]. split; [reflexivity|exact U'].
      * specialize (L' ltac:(discriminate)). destruct (IH (d :: u) l' U' ltac:(lia)) as (w & t' & l2 & E & W & N & R & U2). exists (c :: w), t', l2. split; [rewrite E; reflexivity|]. split; [constructor; [apply white_dec; exact S|exact W]|]. split; [exact N|]. split; [exact R|exact U2].
    + exists [], (c :: u), l. split; [reflexivity|]. split; [constructor|]. split; [apply white_no; exact S|]. split; [reflexivity|exact U].
Qed.
Inductive scan_result (l : list Z) : outcome (option Z * option Z * list Z) -> Prop :=
| sr_end : forall l', whites (unc l) -> scan_result l (Ret (None, None, l'))
| sr_bad : forall w c r l', unc l = w ++ c :: r -> whites w -> ~ white c -> ~ digit c -> scan_result l (Ret (None, Some c, l'))
| sr_num : forall v m r l', item (unc l) v m r -> unc l' = r -> scan_result l (Ret (Some v, term_of m, l'))
| sr_big : forall w ds t, unc l = w ++ ds ++ t -> whites w -> Forall digit ds -> no_digit t -> 2 ^ 63 <= decimal 0 ds -> scan_result l Undef.
Lemma scan_integer_ok : forall l, scan_result l (read_scan_integer l).
Proof.
  intros l. unfold read_scan_integer. destruct (text_integer_ok l) as [l' W U|w c r l' E W NW ND|w ds v t l' E W NB N U|w ds t E W F N B]; cbn [bind].
  - apply sr_end; assumption.
  - apply (sr_bad _ w c r); assumption.
  - destruct (skip_after_ok (S (S (length l'))) t l' U ltac:(lia)) as (w' & t' & l2 & E2 & W' & NW' & R & U2). rewrite R. cbn [bind]. destruct t' as [|c t']; cbn [hd_error tl] in *.
    + apply (sr_num _ v End []); [|exact U2]. exists w, ds, t. split; [exact E|]. split; [exact W|]. split; [exact NB|]. rewrite E2, app_nil_r. apply after_end. exact W'.
    + destruct (isdigit c) eqn:D.
      * apply digit_dec in D. apply (sr_num _ v Separator (c :: t')); [|rewrite unc_digit by exact D; rewrite U2; reflexivity]. exists w, ds, t. split; [exact E|]. split; [exact W|]. split; [exact NB|]. rewrite E2. apply after_white; [exact W'| |exact D].
        intros ->. subst t. cbn [app no_digit] in N. contradiction.
      * apply digit_no in D. destruct (Z.eqb_spec c 59) as [-> |N1]; [|destruct (Z.eqb_spec c 58) as [-> |N2]]; cbn [orb].
        -- apply (sr_num _ v Semicolon t'); [|exact U2]. exists w, ds, t. split; [exact E|]. split; [exact W|]. split; [exact NB|]. rewrite E2. apply after_semicolon. exact W'.
        -- apply (sr_num _ v Colon t'); [|exact U2]. exists w, ds, t. split; [exact E|]. split; [exact W|]. split; [exact NB|]. rewrite E2. apply after_colon. exact W'.
        -- apply (sr_num _ v Separator t'); [|exact U2]. exists w, ds, t. split; [exact E|]. split; [exact W|]. split; [exact NB|]. rewrite E2. apply after_other; assumption.
  - apply (sr_big _ w ds t); assumption.
Qed.
Lemma after_no_digit : forall t m r, after t m r -> no_digit t.
Proof.
  intros t m r A. assert (H : forall w u, whites w -> (match u with [] => True | c :: _ => ~ digit c end) -> no_digit (w ++ u)).
  { intros [|x w] u W N; [exact N|]. inversion W; subst. cbn [app no_digit]. intros D. apply digit_white in D. contradiction. }
  destruct A as [w W|w r W|w r W|w d r W NE D|w c r W NW ND N1 N2].
  - destruct w as [|x w]; [exact I|]. inversion W; subst. cbn [no_digit]. intros D. apply digit_white in D. contradiction.
  - apply H; [exact W|]. unfold digit. lia.
  - apply H; [exact W|]. unfold digit. lia.
  - destruct w as [|x w]; [congruence|]. inversion W; subst. cbn [app no_digit]. intros D'. apply digit_white in D'. contradiction.
  - apply H; [exact W|exact ND].
Qed.
Lemma after_fun : forall t m r m' r', after t m r -> after t m' r' -> m = m' /\ r = r'.
Proof.
  intros t m r m' r' A A'.
  assert (X : forall t m r, after t m r -> exists w u, t = w ++ u /\ whites w /\ (match u with [] => True | c :: _ => ~ white c end) /\
    (match u with [] => m = End /\ r = [] | c :: u' => (c = 59 /\ m = Semicolon /\ r = u') \/ (c = 58 /\ m = Colon /\ r = u') \/ (digit c /\ m = Separator /\ r = c :: u') \/ (c <> 59 /\ c <> 58 /\ ~ digit c /\ m = Separator /\ r = u') end)).
  { clear. intros t m r A. destruct A as [w W|w r W|w r W|w d r W NE D|w c r W NW ND N1 N2].
    - exists w, []. rewrite app_nil_r. split; [reflexivity|]. split; [exact W|]. split; [exact I|]. split; reflexivity.
    - exists w, (59 :: r). split; [reflexivity|]. split; [exact W|]. split; [unfold white; lia|]. left. split; [reflexivity|split; reflexivity].
    - exists w, (58 :: r). split; [reflexivity|]. split; [exact W|]. split; [unfold white; lia|]. right; left. split; [reflexivity|split; reflexivity].
    - exists w, (d :: r). split; [reflexivity|]. split; [exact W|]. split; [apply digit_white; exact D|]. right; right; left. split; [exact D|split; reflexivity].
    - exists w, (c :: r). split; [reflexivity|]. split; [exact W|]. split; [exact NW|]. right; right; right. tauto. }
  destruct (X _ _ _ A) as (w & u & E & W & N & H). destruct (X _ _ _ A') as (w' & u' & E' & W' & N' & H'). rewrite E in E'. destruct (split_unique _ _ _ _ _ E' W W' N N') as (_ & <-).
  destruct u as [|c u]; [destruct H as (-> & ->), H' as (-> & ->); split; reflexivity|]. unfold digit in *.
  destruct H as [(H1 & -> & ->)|[(H1 & -> & ->)|[(H1 & -> & ->)|(H1 & H2 & H3 & -> & ->)]]], H' as [(H1' & -> & ->)|[(H1' & -> & ->)|[(H1' & -> & ->)|(H1' & H2' & H3' & -> & ->)]]]; try (split; reflexivity); exfalso; lia.
Qed.
Lemma some_stays : forall l v ch l1, read_text_integer l = Ret (Some v, ch, l1) -> forall x l2, read_scan_integer l <> Ret (None, x, l2).
Proof.
  intros l v ch l1 R x l2 H. unfold read_scan_integer in H. rewrite R in H. cbn [bind] in H. destruct (skip_after (S (S (length l1))) ch l1) as [[[c|] l3]| |]; cbn [bind] in H; try discriminate H. destruct (isdigit c); discriminate H.
Qed.
Lemma item_run : forall l v m r, item (unc l) v m r -> exists l', read_scan_integer l = Ret (Some v, term_of m, l') /\ unc l' = r.
Proof.
  intros l v m r (w & ds & t & E & W & NB & A). destruct (text_run l w ds v t E W NB (after_no_digit _ _ _ A)) as (l1 & R & U1).
  pose proof (some_stays _ _ _ _ R) as SS. remember (read_scan_integer l) as o eqn:Eo. pose proof (scan_integer_ok l) as SR. rewrite <- Eo in SR.
  destruct SR as [l' W'|w' c r' l' E' W' NW NDc|v' m' r' l' (w' & ds' & t' & E' & W' & NB' & A') U|w' ds' t' E' W' F' N' B'].
  - elim (SS None l'). reflexivity.
  - elim (SS (Some c) l'). reflexivity.
  - rewrite E in E'. destruct NB as (ND & F & V & B), NB' as (ND' & F' & V' & B').
    destruct (split_unique _ _ _ _ _ E' W W' (digits_head ds t ND F) (digits_head ds' t' ND' F')) as (_ & E2).
    destruct (split_unique _ _ _ _ _ E2 F F' (after_no_digit _ _ _ A) (after_no_digit _ _ _ A')) as (<- & <-). destruct (after_fun _ _ _ _ _ A A') as (-> & ->). subst v v'. exists l'. split; [reflexivity|exact U].
  - exfalso. rewrite E in E'. destruct NB as (ND & F & V & B). destruct (split_unique _ _ _ _ _ E' W W' (digits_head ds t ND F) (digits_head ds' t' (decimal_ds _ B') F')) as (_ & E2).
    destruct (split_unique _ _ _ _ _ E2 F F' (after_no_digit _ _ _ A) N') as (-> & ->). lia.
Qed.
Lemma end_run : forall l, whites (unc l) -> exists l', read_scan_integer l = Ret (None, None, l').
Proof. intros l W. destruct (text_run_end l W) as (l' & R). exists l'. unfold read_scan_integer. rewrite R. reflexivity. Qed.
