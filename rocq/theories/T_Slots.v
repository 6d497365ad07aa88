(* T_Slots.v -- C64: the arguments of -qslots and -sample *)
From Verif Require Import Base M_Switch S_Switch M_Slots S_Slots.

Lemma isspace_iff c : isspace c = true <-> white c.
Proof. unfold isspace, white. lia. Qed.
Lemma isdigit_iff c : isdigit c = true <-> digit c.
Proof. unfold isdigit, digit. lia. Qed.
Definition nodigit (r : list Z) : Prop := match r with [] => True | c :: _ => isdigit c = false end.
Definition int (v : Z) : Prop := - 2 ^ 31 <= v < 2 ^ 31.

Lemma scan_white_ok w : forall r, whites w -> (match r with [] => True | c :: _ => isspace c = false end) -> scan_white (w ++ r) = r.
Proof.
  induction w as [|c w IH]; intros r HW HR; cbn [app scan_white].
  - destruct r as [|c r]; [reflexivity|]. cbn [scan_white]. rewrite HR. reflexivity.
  - pose proof (Forall_inv HW) as H. apply isspace_iff in H. rewrite H. apply IH; [exact (Forall_inv_tail HW)|exact HR].
Qed.
Lemma scan_white_inv l : exists w, l = w ++ scan_white l /\ whites w.
Proof.
  induction l as [|c l (w & E & H)]; [exists []; split; [reflexivity|constructor]|]. cbn [scan_white]. destruct (isspace c) eqn:EC.
  - exists (c :: w). cbn [app]. rewrite <- E. split; [reflexivity|]. constructor; [apply isspace_iff; exact EC|exact H].
  - exists []. split; [reflexivity|constructor].
Qed.
Lemma scan_digits_ok ds : forall acc r, Forall digit ds -> nodigit r -> scan_digits acc (ds ++ r) = (decimal acc ds, r).
Proof.
  induction ds as [|d ds IH]; intros acc r HF HR; cbn [app decimal].
  - destruct r as [|c r]; [reflexivity|]. cbn [scan_digits]. cbn in HR. rewrite HR. reflexivity.
  - cbn [scan_digits]. pose proof (Forall_inv HF) as H. apply isdigit_iff in H. rewrite H. apply IH; [exact (Forall_inv_tail HF)|exact HR].
Qed.
Lemma scan_digits_inv l : forall acc, exists ds r, l = ds ++ r /\ Forall digit ds /\ nodigit r /\ scan_digits acc l = (decimal acc ds, r).
Proof.
  induction l as [|c l IH]; intros acc; cbn [scan_digits].
  - exists [], []. split; [reflexivity|]. split; [constructor|]. split; [exact I|reflexivity].
  - destruct (isdigit c) eqn:EC.
    + destruct (IH (10 * acc + (c - 48))) as (ds & r & E & HF & HN & HS). exists (c :: ds), r. split; [cbn [app]; rewrite <- E; reflexivity|]. split; [constructor; [apply isdigit_iff; exact EC|exact HF]|]. split; [exact HN|exact HS].
    + exists [], (c :: l). split; [reflexivity|]. split; [constructor|]. split; [exact EC|reflexivity].
Qed.
Lemma digit_facts c : digit c -> isdigit c = true /\ isspace c = false /\ (c =? 45) = false /\ (c =? 43) = false.
Proof. unfold digit, isdigit, isspace. lia. Qed.

Lemma scan_d_ok t v r : integer t v -> nodigit r -> int v -> scan_d (t ++ r) = Ret (Some (v, r)).
Proof.
  intros (w & ds & HW & HN & HF & H) HR HI. destruct ds as [|d ds]; [congruence|]. destruct (digit_facts d (Forall_inv HF)) as (D1 & D2 & D3 & D4).
  assert (HI2 : (- 2 ^ 31 <=? v) && (v <? 2 ^ 31) = true) by (unfold int in HI; lia).
  destruct H as [[[->| ->] ->]|[-> ->]]; unfold scan_d; rewrite <- app_assoc; (rewrite scan_white_ok; [|exact HW|first [exact D2|reflexivity]]); cbv zeta.
  - cbn [app]. rewrite D3, D4. cbn [orb]. rewrite D1. cbn [negb]. change (d :: ds ++ r) with ((d :: ds) ++ r). rewrite (scan_digits_ok (d :: ds) 0 r HF HR). rewrite HI2. reflexivity.
  - cbn [app]. change (43 =? 45) with false. change (43 =? 43) with true. cbn [orb]. rewrite D1. cbn [negb]. change (d :: ds ++ r) with ((d :: ds) ++ r). rewrite (scan_digits_ok (d :: ds) 0 r HF HR). rewrite HI2. reflexivity.
  - cbn [app]. change (45 =? 45) with true. cbn [orb]. rewrite D1. cbn [negb]. change (d :: ds ++ r) with ((d :: ds) ++ r). rewrite (scan_digits_ok (d :: ds) 0 r HF HR). rewrite HI2. reflexivity.
Qed.
(* what scan_d did *)
Lemma scan_d_inv l : scan_d l = Ret None \/ (exists t v r, l = t ++ r /\ integer t v /\ nodigit r /\ scan_d l = (if (- 2 ^ 31 <=? v) && (v <? 2 ^ 31) then Ret (Some (v, r)) else Undef)).
Proof.
  destruct (scan_white_inv l) as (w & E & HW). unfold scan_d. set (l1 := scan_white l) in *. clearbody l1. cbv zeta. destruct l1 as [|c r]; [left; reflexivity|].
  destruct ((c =? 45) || (c =? 43)) eqn:ES.
  - destruct r as [|d r]; [left; reflexivity|]. destruct (isdigit d) eqn:ED; cbn [negb]; [|left; reflexivity]. right.
    destruct (scan_digits_inv (d :: r) 0) as (ds & q & E2 & HF & HN & HS). rewrite HS.
    assert (ND : ds <> []) by (intros ->; cbn [app] in E2; rewrite <- E2 in HN; cbn in HN; congruence).
    exists (w ++ c :: ds), (if c =? 45 then - decimal 0 ds else decimal 0 ds), q. split; [rewrite E, E2, <- app_assoc; reflexivity|]. split; [|split; [exact HN|destruct (c =? 45); reflexivity]].
    exists w, ds. split; [exact HW|]. split; [exact ND|]. split; [exact HF|]. destruct (Z.eqb_spec c 45) as [->|N]; [right; auto|]. cbn [orb] in ES. apply Z.eqb_eq in ES. subst c. left. auto.
  - destruct (isdigit c) eqn:ED; cbn [negb]; [|left; reflexivity]. right.
    destruct (scan_digits_inv (c :: r) 0) as (ds & q & E2 & HF & HN & HS). rewrite HS.
    assert (ND : ds <> []) by (intros ->; cbn [app] in E2; rewrite <- E2 in HN; cbn in HN; congruence).
    apply orb_false_elim in ES. destruct ES as [ES _]. rewrite ES.
    exists (w ++ ds), (decimal 0 ds), q. split; [rewrite E, E2, <- app_assoc; reflexivity|]. split; [|split; [exact HN|reflexivity]].
    exists w, ds. split; [exact HW|]. split; [exact ND|]. split; [exact HF|]. left. auto.
Qed.

Lemma integer_nocomma t v : integer t v -> ~ In 44 t.
Proof.
  intros (w & ds & HW & _ & HF & H). unfold whites in HW. rewrite Forall_forall in HW, HF.
  assert (G1 : ~ In 44 w) by (intros K; apply HW in K; unfold white in K; lia). assert (G2 : ~ In 44 ds) by (intros K; apply HF in K; unfold digit in K; lia).
  destruct H as [[[->| ->] _]|[-> _]]; intros K; apply in_app_or in K; cbn [In] in K; intuition lia.
Qed.
Lemma integer_nonempty t v : integer t v -> t <> [].
Proof. intros (w & ds & _ & HN & _ & H) E. destruct H as [[[H|H] _]|[H _]]; rewrite E in H; symmetry in H; apply app_eq_nil in H; destruct H; congruence. Qed.
Lemma next_after t s : ~ In 44 t -> next_segment (t ++ 44 :: s) = s.
Proof. induction t as [|c t IH]; intros H; cbn [app next_segment]; [reflexivity|]. cbn [In] in H. destruct (Z.eqb_spec c 44); [exfalso; auto|]. apply IH. auto. Qed.
Lemma next_none t : ~ In 44 t -> next_segment t = [].
Proof. induction t as [|c t IH]; intros H; cbn [next_segment]; [reflexivity|]. cbn [In] in H. destruct (Z.eqb_spec c 44); [exfalso; auto|]. apply IH. auto. Qed.

Lemma aset_mid {A} (a : list A) x b y i : i = Z.of_nat (length a) -> aset (a ++ x :: b) i y = Ret (a ++ y :: b).
Proof.
  intros ->. rewrite aset_ok by (rewrite app_length; cbn [length]; lia). f_equal. rewrite Nat2Z.id. induction a as [|z a IH]; [reflexivity|]. cbn [app length upd]. rewrite IH. reflexivity.
Qed.

(* n values: those given, then the last one again *)
Definition fill (n : nat) (vs : list Z) (val : Z) : list Z := map (fun i => nth i vs (last vs val)) (seq 0 n).
Lemma last_cons {A} (v : A) vs d : last (v :: vs) d = last vs v.
Proof. revert v d. induction vs as [|x vs IH]; intros v d; [reflexivity|]. change (last (v :: x :: vs) d) with (last (x :: vs) d). rewrite (IH x d), (IH x v). reflexivity. Qed.
Lemma fill_cons n v vs val : fill (S n) (v :: vs) val = v :: fill n vs v.
Proof. unfold fill. cbn [seq map nth]. rewrite last_cons. f_equal. rewrite <- seq_shift, map_map. reflexivity. Qed.
Lemma fill_nil n val : fill (S n) [] val = val :: fill n [] val.
Proof. unfold fill. cbn [seq map nth last]. f_equal. rewrite <- seq_shift, map_map. apply map_ext. intros [|i]; reflexivity. Qed.

Lemma slots_pad n : forall ci val done rest, length rest = n -> ci = Z.of_nat (length done) -> slots_loop n ci val [] (done ++ rest) = Ret (true, done ++ fill n [] val).
Proof.
  induction n as [|n IH]; intros ci val done rest HL HC; cbn [slots_loop]; destruct rest as [|x rest]; try discriminate; [reflexivity|].
  rewrite aset_mid by exact HC. cbn [bind]. rewrite fill_nil. change (done ++ val :: rest) with (done ++ [val] ++ rest). rewrite app_assoc.
  rewrite IH; [rewrite <- app_assoc; reflexivity|cbn [length] in HL; lia|rewrite app_length; cbn [length]; lia].
Qed.
Lemma slots_complete n : forall arg vs, comma_list integer n arg vs -> Forall (fun v => 0 <= v <= 3) vs -> forall ci val done rest, length rest = n -> ci = Z.of_nat (length done) ->
  slots_loop n ci val arg (done ++ rest) = Ret (true, done ++ fill n vs val).
Proof.
  intros arg vs H. induction H as [n|s|n t v HI|n t v s vs HI HC IH]; intros HF ci val done rest HL HD.
  - apply slots_pad; assumption.
  - destruct rest; [reflexivity|discriminate].
  - pose proof (Forall_inv HF) as HV. cbn beta in HV. destruct rest as [|x rest]; [discriminate|]. pose proof (integer_nonempty t v HI) as NE.
    destruct t as [|c t]; [congruence|]. cbn [slots_loop]. pose proof (scan_d_ok (c :: t) v [] HI I ltac:(unfold int; lia)) as ES. rewrite app_nil_r in ES. rewrite ES. cbn [bind scan_c]. cbn [Z.eqb Pos.eqb negb].
    destruct (Z.ltb_spec v 0); [lia|]. destruct (Z.leb_spec 4 v); [lia|]. cbn [orb]. rewrite aset_mid by exact HD. cbn [bind]. rewrite (next_none (c :: t)) by (eapply integer_nocomma; exact HI).
    rewrite fill_cons. change (done ++ v :: rest) with (done ++ [v] ++ rest). rewrite app_assoc, slots_pad; [rewrite <- app_assoc; reflexivity|cbn [length] in HL; lia|rewrite app_length; cbn [length]; lia].
  - pose proof (Forall_inv HF) as HV. cbn beta in HV. destruct rest as [|x rest]; [discriminate|]. pose proof (integer_nonempty t v HI) as NE.
    cbn [slots_loop]. pose proof (scan_d_ok t v (44 :: s) HI eq_refl ltac:(unfold int; lia)) as ES.
    assert (EX : next_segment (t ++ 44 :: s) = s) by (apply next_after; eapply integer_nocomma; exact HI).
    destruct (t ++ 44 :: s) eqn:EN; [destruct t; discriminate|]. rewrite ES. cbn [bind scan_c]. cbn [Z.eqb Pos.eqb negb].
    destruct (Z.ltb_spec v 0); [lia|]. destruct (Z.leb_spec 4 v); [lia|]. cbn [orb]. rewrite aset_mid by exact HD. cbn [bind]. rewrite EX.
    rewrite fill_cons. change (done ++ v :: rest) with (done ++ [v] ++ rest). rewrite app_assoc, IH; [rewrite <- app_assoc; reflexivity|exact (Forall_inv_tail HF)|cbn [length] in HL; lia|rewrite app_length; cbn [length]; lia].
Qed.
Lemma slots_sound n : forall ci val arg done rest qs', length rest = n -> ci = Z.of_nat (length done) -> slots_loop n ci val arg (done ++ rest) = Ret (true, qs') ->
  exists vs, comma_list integer n arg vs /\ Forall (fun v => 0 <= v <= 3) vs /\ qs' = done ++ fill n vs val.
Proof.
  induction n as [|n IH]; intros ci val arg done rest qs' HL HC H; cbn [slots_loop] in H.
  - destruct rest; [|discriminate]. injection H as <-. exists []. split; [constructor|]. split; [constructor|reflexivity].
  - destruct arg as [|c0 arg0].
    + change (slots_loop (S n) ci val [] (done ++ rest) = Ret (true, qs')) in H. rewrite (slots_pad (S n) ci val done rest HL HC) in H. injection H as <-. exists []. split; [constructor|]. split; [constructor|reflexivity].
    + set (arg := c0 :: arg0) in *. destruct rest as [|x rest]; [discriminate|]. destruct (scan_d_inv arg) as [E|(t & v & r & E & HI & HN & ES)]; [rewrite E in H; discriminate|].
      rewrite ES in H. destruct ((- 2 ^ 31 <=? v) && (v <? 2 ^ 31)); [|discriminate]. cbn [bind] in H. destruct (scan_c 44 r) as [ch r'] eqn:EC. destruct (Z.eqb_spec ch 44) as [->|N]; [|discriminate]. cbn [negb] in H.
      destruct (Z.ltb_spec v 0); [discriminate|]. destruct (Z.leb_spec 4 v); [discriminate|]. cbn [orb] in H. rewrite aset_mid in H by exact HC. cbn [bind] in H.
      change (done ++ v :: rest) with (done ++ [v] ++ rest) in H. rewrite app_assoc in H.
      apply IH in H; [|cbn [length] in HL; lia|rewrite app_length; cbn [length]; lia]. destruct H as (vs & K1 & K2 & ->). exists (v :: vs). rewrite fill_cons, <- app_assoc.
      split; [|split; [constructor; [lia|exact K2]|reflexivity]]. pose proof (integer_nocomma t v HI) as NC. destruct r as [|k r].
      * rewrite app_nil_r in E. rewrite E in K1 |- *. rewrite next_none in K1 by exact NC. assert (V : vs = []) by (inversion K1; subst; try reflexivity; [exfalso; eapply integer_nonempty; [eassumption|reflexivity]|exfalso; destruct t0; discriminate]). rewrite V. apply cl_last. exact HI.
      * cbn [scan_c] in EC. injection EC as -> <-. rewrite E in K1 |- *. rewrite next_after in K1 by exact NC. apply cl_more; assumption.
Qed.

(* C64: cjpeg -qslots accepts an argument exactly if it is a list of table numbers 0..3 separated by commas; component
   i then gets the i-th number, and the components after the last number get the last one (0 if there is none) *)
Theorem C64_qslots : forall arg qs qs', length qs = 10%nat ->
  set_quant_slots arg qs = Ret (true, qs') <->
  exists vs, comma_list integer 10 arg vs /\ Forall (fun v => 0 <= v <= 3) vs /\ qs' = map (fun i => nth i vs (last vs 0)) (seq 0 10).
Proof.
  intros arg qs qs' HL. unfold set_quant_slots. split.
  - intros H. exact (slots_sound 10 0 0 arg [] qs qs' HL eq_refl H).
  - intros (vs & H1 & H2 & ->). exact (slots_complete 10 arg vs H1 H2 0 0 [] qs HL eq_refl).
Qed.
Print Assumptions C64_qslots.

(* ---------------- -sample ---------------- *)
Definition fill2 (n : nat) (vs : list (Z * Z)) : list (Z * Z) := map (fun i => nth i vs (1, 1)) (seq 0 n).
Lemma fill2_cons n v vs : fill2 (S n) (v :: vs) = v :: fill2 n vs.
Proof. unfold fill2. cbn [seq map nth]. f_equal. rewrite <- seq_shift, map_map. reflexivity. Qed.
Lemma fill2_nil n : fill2 (S n) [] = (1, 1) :: fill2 n [].
Proof. unfold fill2. cbn [seq map nth]. f_equal. rewrite <- seq_shift, map_map. apply map_ext. intros [|i]; reflexivity. Qed.
Lemma factors_nocomma t p : factors t p -> ~ In 44 t.
Proof. intros (t1 & c & t2 & -> & HC & H1 & H2) K. apply in_app_or in K. destruct K as [K|[K|K]]; [exact (integer_nocomma _ _ H1 K)|lia|exact (integer_nocomma _ _ H2 K)]. Qed.

Lemma factors_pad n : forall ci done rest, length rest = n -> ci = Z.of_nat (length done) -> factors_loop n ci [] (done ++ rest) = Ret (true, done ++ fill2 n []).
Proof.
  induction n as [|n IH]; intros ci done rest HL HC; cbn [factors_loop]; destruct rest as [|x rest]; try discriminate; [reflexivity|].
  rewrite aset_mid by exact HC. cbn [bind]. rewrite fill2_nil. change (done ++ (1, 1) :: rest) with (done ++ [(1, 1)] ++ rest). rewrite app_assoc.
  rewrite IH; [rewrite <- app_assoc; reflexivity|cbn [length] in HL; lia|rewrite app_length; cbn [length]; lia].
Qed.
Definition ok_factor (p : Z * Z) : Prop := 1 <= fst p <= 4 /\ 1 <= snd p <= 4.
Lemma factors_step n t p r ci done x rest : factors t p -> ok_factor p -> (r = [] \/ exists s, r = 44 :: s) -> ci = Z.of_nat (length done) ->
  factors_loop (S n) ci (t ++ r) (done ++ x :: rest) = factors_loop n (ci + 1) (next_segment (t ++ r)) ((done ++ [p]) ++ rest).
Proof.
  intros (t1 & c & t2 & Et & HC & H1 & H2) [O1 O2] HR HD. cbn [factors_loop]. destruct p as [a b]. cbn [fst snd] in *.
  assert (N1 : nodigit (c :: t2 ++ r)) by (cbn; unfold isdigit; lia). assert (N2 : nodigit r) by (destruct HR as [->|[s ->]]; [exact I|reflexivity]).
  assert (E1 : scan_d (t ++ r) = Ret (Some (a, c :: t2 ++ r))) by (rewrite Et, <- app_assoc; apply scan_d_ok; [exact H1|exact N1|unfold int; lia]).
  assert (E2 : scan_d (t2 ++ r) = Ret (Some (b, r))) by (apply scan_d_ok; [exact H2|exact N2|unfold int; lia]).
  assert (NE : t ++ r <> []) by (rewrite Et; destruct t1; discriminate). destruct (t ++ r) as [|z0 zs]; [congruence|].
  rewrite E1. cbn [bind]. rewrite E2. cbn [bind].
  assert (E3 : exists q, scan_c 44 r = (44, q)) by (destruct HR as [->|[s ->]]; eexists; reflexivity). destruct E3 as [q E3]. rewrite E3.
  replace (negb ((c =? 120) || (c =? 88)) || negb (44 =? 44)) with false by lia.
  replace ((a <=? 0) || (4 <? a) || (b <=? 0) || (4 <? b)) with false by lia. rewrite aset_mid by exact HD. cbn [bind]. rewrite <- app_assoc. reflexivity.
Qed.
Lemma factors_complete n : forall arg vs, comma_list factors n arg vs -> Forall ok_factor vs -> forall ci done rest, length rest = n -> ci = Z.of_nat (length done) ->
  factors_loop n ci arg (done ++ rest) = Ret (true, done ++ fill2 n vs).
Proof.
  intros arg vs H. induction H as [n|s|n t v HI|n t v s vs HI HC IH]; intros HF ci done rest HL HD.
  - apply factors_pad; assumption.
  - destruct rest; [reflexivity|discriminate].
  - destruct rest as [|x rest]; [discriminate|]. pose proof (factors_step n t v [] ci done x rest HI (Forall_inv HF) (or_introl eq_refl) HD) as E. rewrite app_nil_r in E. rewrite E.
    rewrite next_none by (eapply factors_nocomma; exact HI). rewrite factors_pad; [rewrite fill2_cons, <- app_assoc; reflexivity|cbn [length] in HL; lia|rewrite app_length; cbn [length]; lia].
  - destruct rest as [|x rest]; [discriminate|]. rewrite (factors_step n t v (44 :: s) ci done x rest HI (Forall_inv HF) (or_intror (ex_intro _ s eq_refl)) HD).
    rewrite next_after by (eapply factors_nocomma; exact HI). rewrite IH; [rewrite fill2_cons, <- app_assoc; reflexivity|exact (Forall_inv_tail HF)|cbn [length] in HL; lia|rewrite app_length; cbn [length]; lia].
Qed.
Lemma factors_sound n : forall ci arg done rest fs', length rest = n -> ci = Z.of_nat (length done) -> factors_loop n ci arg (done ++ rest) = Ret (true, fs') ->
  exists vs, comma_list factors n arg vs /\ Forall ok_factor vs /\ fs' = done ++ fill2 n vs.
Proof.
  induction n as [|n IH]; intros ci arg done rest fs' HL HC H.
  - cbn [factors_loop] in H. destruct rest; [|discriminate]. injection H as <-. exists []. split; [constructor|]. split; [constructor|reflexivity].
  - destruct arg as [|c0 arg0].
    + rewrite (factors_pad (S n) ci done rest HL HC) in H. injection H as <-. exists []. split; [constructor|]. split; [constructor|reflexivity].
    + cbn [factors_loop] in H. set (arg := c0 :: arg0) in *. destruct rest as [|x rest]; [discriminate|]. destruct (scan_d_inv arg) as [E|(t1 & a & r1 & E & H1 & N1 & ES)]; [rewrite E in H; discriminate|].
      rewrite ES in H. destruct ((- 2 ^ 31 <=? a) && (a <? 2 ^ 31)); [|discriminate]. cbn [bind] in H. destruct r1 as [|c l1]; [discriminate|].
      destruct (scan_d_inv l1) as [E2|(t2 & b & r & E2 & H2 & N2 & ES2)]; [rewrite E2 in H; discriminate|]. rewrite ES2 in H. destruct ((- 2 ^ 31 <=? b) && (b <? 2 ^ 31)); [|discriminate]. cbn [bind] in H.
      destruct (scan_c 44 r) as [ch r'] eqn:EC. destruct (negb ((c =? 120) || (c =? 88)) || negb (ch =? 44)) eqn:EX; [discriminate|]. destruct ((a <=? 0) || (4 <? a) || (b <=? 0) || (4 <? b)) eqn:EV; [discriminate|].
      rewrite aset_mid in H by exact HC. cbn [bind] in H. change (done ++ (a, b) :: rest) with (done ++ [(a, b)] ++ rest) in H. rewrite app_assoc in H.
      apply IH in H; [|cbn [length] in HL; lia|rewrite app_length; cbn [length]; lia]. destruct H as (vs & G1 & G2 & ->). exists ((a, b) :: vs). rewrite fill2_cons, <- app_assoc.
      split; [|split; [constructor; [split; cbn [fst snd]; lia|exact G2]|reflexivity]].
      assert (HI : factors (t1 ++ c :: t2) (a, b)) by (exists t1, c, t2; split; [reflexivity|]; split; [lia|]; auto). pose proof (factors_nocomma _ _ HI) as NC.
      assert (EA : arg = (t1 ++ c :: t2) ++ r) by (rewrite E, E2, <- app_assoc; reflexivity). rewrite EA in G1 |- *. destruct r as [|k r].
      * rewrite app_nil_r in G1 |- *. rewrite next_none in G1 by exact NC.
        assert (V : vs = []). { inversion G1 as [| |n0 t0 v0 K1|n0 t0 v0 s0 vs0 K1 K2 K3]; subst; try reflexivity; [destruct K1 as (u1 & k & u2 & K & _); destruct u1; discriminate|destruct t0; discriminate]. }
        rewrite V. apply cl_last. exact HI.
      * assert (k = 44) by (cbn [scan_c] in EC; injection EC as -> _; lia). subst k. rewrite next_after in G1 by exact NC. apply cl_more; assumption.
Qed.

(* C64: cjpeg -sample accepts an argument exactly if it is a list of factors HxV, 1..4, separated by commas; component
   i then gets the i-th pair, and the components after the last one 1x1 *)
Theorem C64_sample : forall arg fs fs', length fs = 10%nat ->
  set_sample_factors arg fs = Ret (true, fs') <->
  exists vs, comma_list factors 10 arg vs /\ Forall (fun p => 1 <= fst p <= 4 /\ 1 <= snd p <= 4) vs /\ fs' = map (fun i => nth i vs (1, 1)) (seq 0 10).
Proof.
  intros arg fs fs' HL. unfold set_sample_factors. split.
  - intros H. exact (factors_sound 10 0 arg [] fs fs' HL eq_refl H).
  - intros (vs & H1 & H2 & ->). exact (factors_complete 10 arg vs H1 H2 0 [] fs HL eq_refl).
Qed.
Print Assumptions C64_sample.

(* ---------------- no overrun ---------------- *)
Lemma decimal_bound ds : forall acc k, Forall digit ds -> 0 <= acc < 10 ^ Z.of_nat k -> 0 <= decimal acc ds < 10 ^ Z.of_nat (k + length ds).
Proof.
  induction ds as [|d ds IH]; intros acc k HF HA; cbn [decimal length].
  - rewrite Nat.add_0_r. exact HA.
  - pose proof (Forall_inv HF) as HD. unfold digit in HD. replace (k + S (length ds))%nat with (S k + length ds)%nat by lia. apply IH; [exact (Forall_inv_tail HF)|].
    rewrite Nat2Z.inj_succ, Z.pow_succ_r by lia. lia.
Qed.
Lemma short_tail a b : short_numbers (a ++ b) -> short_numbers b.
Proof. intros H p ds q E HF. apply (H (a ++ p) ds q); [rewrite E, <- app_assoc; reflexivity|exact HF]. Qed.
Lemma scan_d_safe l : short_numbers l -> scan_d l = Ret None \/ exists v t r, scan_d l = Ret (Some (v, r)) /\ l = t ++ r.
Proof.
  intros HS. destruct (scan_d_inv l) as [E|(t & v & r & E & HI & HN & ES)]; [left; exact E|]. right. exists v, t, r. split; [|exact E]. rewrite ES.
  destruct HI as (w & ds & HW & ND & HF & H).
  assert (L : (length ds <= 9)%nat). { destruct H as [[[H|H] _]|[H _]]; rewrite H in E; [apply (HS w ds r)|apply (HS (w ++ [43]) ds r)|apply (HS (w ++ [45]) ds r)]; try exact HF; rewrite E, <- !app_assoc; reflexivity. }
  assert (B : 0 <= decimal 0 ds < 10 ^ 9). { pose proof (decimal_bound ds 0 0 HF ltac:(cbn; lia)) as B. cbn [Nat.add] in B. assert (10 ^ Z.of_nat (length ds) <= 10 ^ 9) by (apply Z.pow_le_mono_r; lia). lia. }
  change (10 ^ 9) with 1000000000 in B.
  assert (C : (- 2 ^ 31 <=? v) && (v <? 2 ^ 31) = true) by (change (2 ^ 31) with 2147483648; destruct H as [[_ ->]|[_ ->]]; lia).
  rewrite C. reflexivity.
Qed.
Lemma next_split l : exists a, l = a ++ next_segment l.
Proof. induction l as [|c l (a & E)]; [exists []; reflexivity|]. cbn [next_segment]. destruct (c =? 44); [exists [c]; reflexivity|]. exists (c :: a). cbn [app]. rewrite <- E. reflexivity. Qed.
Lemma short_next l : short_numbers l -> short_numbers (next_segment l).
Proof. intros H. destruct (next_split l) as [a E]. rewrite E in H. exact (short_tail a _ H). Qed.

(* C64: no argument without a number of more than 9 digits leads outside the ten components *)
Theorem C64_safe : forall arg qs fs, short_numbers arg -> length qs = 10%nat -> length fs = 10%nat ->
  (exists ok qs', set_quant_slots arg qs = Ret (ok, qs') /\ length qs' = 10%nat) /\
  (exists ok fs', set_sample_factors arg fs = Ret (ok, fs') /\ length fs' = 10%nat).
Proof.
  intros arg qs fs HS HQ HF. split.
  - unfold set_quant_slots. assert (G : forall n ci val arg qs, short_numbers arg -> length qs = 10%nat -> 0 <= ci -> ci + Z.of_nat n <= 10 -> exists ok qs', slots_loop n ci val arg qs = Ret (ok, qs') /\ length qs' = 10%nat).
    { clear. induction n as [|n IH]; intros ci val arg qs HS HQ H0 H1; cbn [slots_loop]; [eauto|]. destruct arg as [|c0 arg0].
      - rewrite aset_ok by lia. cbn [bind]. apply IH; [exact HS|rewrite length_upd; exact HQ|lia|lia].
      - set (arg := c0 :: arg0) in *. destruct (scan_d_safe arg HS) as [E|(v & t & r & E & _)]; rewrite E; cbn [bind]; [eauto|]. destruct (scan_c 44 r) as [ch r']. destruct (negb (ch =? 44)); [eauto|]. destruct ((v <? 0) || (4 <=? v)); [eauto|].
        rewrite aset_ok by lia. cbn [bind]. apply IH; [apply short_next; exact HS|rewrite length_upd; exact HQ|lia|lia]. }
    apply G; [exact HS|exact HQ|lia|lia].
  - unfold set_sample_factors. assert (G : forall n ci arg fs, short_numbers arg -> length fs = 10%nat -> 0 <= ci -> ci + Z.of_nat n <= 10 -> exists ok fs', factors_loop n ci arg fs = Ret (ok, fs') /\ length fs' = 10%nat).
    { clear. induction n as [|n IH]; intros ci arg fs HS HQ H0 H1; cbn [factors_loop]; [eauto|]. destruct arg as [|c0 arg0].
      - rewrite aset_ok by lia. cbn [bind]. apply IH; [exact HS|rewrite length_upd; exact HQ|lia|lia].
      - set (arg := c0 :: arg0) in *. destruct (scan_d_safe arg HS) as [E|(a & t1 & r1 & E & E1)]; rewrite E; cbn [bind]; [eauto|]. destruct r1 as [|c l1]; [eauto|].
        assert (HS1 : short_numbers l1) by (rewrite E1 in HS; apply short_tail in HS; exact (short_tail [c] l1 HS)).
        destruct (scan_d_safe l1 HS1) as [E2|(b & t2 & r & E2 & _)]; rewrite E2; cbn [bind]; [eauto|]. destruct (scan_c 44 r) as [ch r']. destruct (_ || negb (ch =? 44)); [eauto|]. destruct (_ || (4 <? b)); [eauto|].
        rewrite aset_ok by lia. cbn [bind]. apply IH; [apply short_next; exact HS|rewrite length_upd; exact HQ|lia|lia]. }
    apply G; [exact HS|exact HF|lia|lia].
Qed.
Print Assumptions C64_safe.

Definition fst_ok {A} (o : outcome (bool * A)) : option bool := match o with Ret (b, _) => Some b | _ => None end.
(* non-vacuity: "0,1, 3" and "2x1,1X2,"; refused: "4", "1;2", "2x5", "2x" *)
Example C64_nonvacuous :
  set_quant_slots [48; 44; 49; 44; 32; 51] (repeat 7 10) = Ret (true, [0; 1; 3; 3; 3; 3; 3; 3; 3; 3]) /\
  set_sample_factors [50; 120; 49; 44; 49; 88; 50; 44] (repeat (9, 9) 10) = Ret (true, (2, 1) :: (1, 2) :: repeat (1, 1) 8) /\
  fst_ok (set_quant_slots [52] (repeat 7 10)) = Some false /\ fst_ok (set_quant_slots [49; 59; 50] (repeat 7 10)) = Some false /\
  fst_ok (set_sample_factors [50; 120; 53] (repeat (1, 1) 10)) = Some false /\ fst_ok (set_sample_factors [50; 120] (repeat (1, 1) 10)) = Some false.
Proof. vm_compute. auto 10. Qed.

(* FINDING: text after the tenth number is not looked at: "0,0,0,0,0,0,0,0,0,0,x" is accepted *)
Example C64_tail_refuted :
  fst_ok (set_quant_slots (flat_map (fun _ => [48; 44]) (seq 0 10) ++ [120]) (repeat 7 10)) = Some true.
Proof. vm_compute. reflexivity. Qed.
(* FINDING: a refused argument may already have changed components: "1,9" *)
Example C64_refused_changes_refuted :
  set_quant_slots [49; 44; 57] (repeat 0 10) = Ret (false, 1 :: repeat 0 9).
Proof. vm_compute. reflexivity. Qed.
