(* P_MCUStore.v -- where the decompressor puts the blocks *)
From Verif Require Import Base M_Geom M_Coef S_MCU P_MCU P_MCUPass P_MCUDec.
From Coq Require Import Arith Permutation.
Open Scope nat_scope.

Lemma NoDup_flat : forall A B (f : A -> list B) l, NoDup l -> (forall a, In a l -> NoDup (f a)) ->
  (forall a a' x, In a l -> In a' l -> In x (f a) -> In x (f a') -> a = a') -> NoDup (flat_map f l).
Proof.
  intros A B f. induction l as [|a l IH]; intros N1 N2 D; cbn [flat_map]; [constructor|].
  inversion N1 as [|? ? X Y]; subst.
  assert (G : forall u v : list B, NoDup u -> NoDup v -> (forall x, In x u -> In x v -> False) -> NoDup (u ++ v)).
  { induction u as [|y u IHu]; intros v U V W; cbn; [exact V|]. inversion U; subst. constructor.
    - rewrite in_app_iff. intros [|Q]; [contradiction|]. apply (W y); [left; reflexivity|exact Q].
    - apply IHu; [assumption|assumption|]. intros x Q1 Q2. apply (W x); [right; exact Q1|exact Q2]. }
  apply G.
  - apply N2. left. reflexivity.
  - apply IH; [exact Y| |].
    + intros; apply N2; right; assumption.
    + intros a1 a2 x H1 H2. apply D; right; assumption.
  - intros x Q1 Q2. apply in_flat_map in Q2. destruct Q2 as (a' & Q2 & Q3). apply X.
    rewrite (D a a' x); [exact Q2|left; reflexivity|right; exact Q2|exact Q1|exact Q3].
Qed.
Lemma NoDup_map_inj : forall A B (f : A -> B) l, NoDup l -> (forall a a', In a l -> In a' l -> f a = f a' -> a = a') -> NoDup (map f l).
Proof.
  intros A B f. induction l as [|a l IH]; intros N1 D; cbn; [constructor|]. inversion N1; subst. constructor.
  - intros Q. apply in_map_iff in Q. destruct Q as (a' & E & Q). apply H1. rewrite (D a a'); [exact Q|left; reflexivity|right; exact Q|congruence].
  - apply IH; [assumption|]. intros; apply D; try (right; assumption). assumption.
Qed.

Section Store.
Variable s : ks.
Hypothesis Hs : scan_ok s.
Notation cols := (k_cols s).
Notation N := (mcu_rows s * k_cols s).
Notation SZ := (sum (map (fun c => k_MW c * k_MH c) (k_comps s))).

Lemma in_pos : forall my mx c r b, In (c, r, b) (pos s my mx) <->
  exists dy dx, In c (k_comps s) /\ dy < k_MH c /\ dx < k_MW c /\ r = my * k_MH c + dy /\ b = mx * k_MW c + dx.
Proof.
  intros my mx c r b. unfold pos. rewrite in_flat_map. split.
  - intros (c' & Hc & H). apply in_flat_map in H. destruct H as (dy & Hy & H). apply in_map_iff in H. destruct H as (dx & E & Hx).
    injection E as <- <- <-. apply in_seq in Hy, Hx. exists dy, dx. split; [exact Hc|]. split; [lia|]. split; [lia|]. split; reflexivity.
  - intros (dy & dx & Hc & Hy & Hx & -> & ->). exists c. split; [exact Hc|]. apply in_flat_map. exists dy. split; [apply in_seq; lia|].
    apply in_map_iff. exists dx. split; [reflexivity|]. apply in_seq. lia.
Qed.
Lemma idx_inj : forall c c', In c (k_comps s) -> In c' (k_comps s) -> k_idx c = k_idx c' -> c = c'.
Proof.
  pose proof (so_nodup s Hs) as ND. induction (k_comps s) as [|x l IH]; intros c c' H H' E; [destruct H|].
  cbn in ND. inversion ND as [|? ? X Y]; subst. destruct H as [<- |H], H' as [<- |H']; [reflexivity| | |auto].
  - exfalso. apply X. rewrite E. apply in_map. exact H'.
  - exfalso. apply X. rewrite <- E. apply in_map. exact H.
Qed.
Lemma pos_NoDup : forall my mx, NoDup (pos s my mx).
Proof.
  intros my mx. unfold pos. apply NoDup_flat.
  - exact (NoDup_map_inv _ _ (so_nodup s Hs)).
  - intros c Hc. apply NoDup_flat; [apply seq_NoDup| |].
    + intros dy _. apply NoDup_map_inj; [apply seq_NoDup|]. intros a a' _ _ E. injection E. lia.
    + intros dy dy' x _ _ H H'. apply in_map_iff in H, H'. destruct H as (dx & <- & _), H' as (dx' & E & _). injection E. lia.
  - intros c c' x _ _ H H'. apply in_flat_map in H, H'. destruct H as (dy & _ & H), H' as (dy' & _ & H').
    apply in_map_iff in H, H'. destruct H as (dx & <- & _), H' as (dx' & E & _). injection E. congruence.
Qed.
Lemma pos_length : forall my mx, length (pos s my mx) = SZ.
Proof.
  intros my mx. unfold pos. induction (k_comps s) as [|c l IH]; [reflexivity|]. cbn [flat_map map sum fold_right]. rewrite app_length, IH.
  f_equal. assert (G : forall n m, length (flat_map (fun dy => map (fun dx => (c, my * k_MH c + dy, mx * k_MW c + dx)) (seq 0 (k_MW c))) (seq m n)) = n * k_MW c).
  { induction n as [|n IHn]; intros m; [reflexivity|]. cbn [seq flat_map]. rewrite app_length, map_length, seq_length, IHn. lia. }
  rewrite G. lia.
Qed.
Lemma pos_bounds : forall k c r b, k < N -> In (c, r, b) (pos s (k / cols) (k mod cols)) ->
  In c (k_comps s) /\ r < nround_up (k_hib c) (k_v c) /\ b < nround_up (k_wib c) (k_h c) /\
  r / k_MH c = k / cols /\ b / k_MW c = k mod cols /\ k / cols < mcu_rows s /\ k mod cols < cols.
Proof.
  intros k c r b Hk H. apply in_pos in H. destruct H as (dy & dx & Hc & Hy & Hx & -> & ->).
  pose proof (so_cols s Hs). pose proof (Nat.mod_upper_bound k cols ltac:(lia)) as MB.
  assert (DB : k / cols < mcu_rows s) by (apply Nat.div_lt_upper_bound; lia).
  assert (E1 : forall a n d, d < n -> (a * n + d) / n = a).
  { intros a n d L. rewrite Nat.div_add_l by lia. rewrite Nat.div_small by exact L. lia. }
  split; [exact Hc|]. split.
  { rewrite (height_eq s Hs c Hc). pose proof (so_comps s Hs c Hc) as K. rewrite (rows_eq s c Hc) in DB.
    pose proof (ko_hib s c K). pose proof (ko_lrh s c K). pose proof (so_T s Hs).
    destruct (Nat.eq_dec _ 1) as [Q|Q].
    - destruct (ko_one s c K Q) as [_ E]. rewrite E in *. nia.
    - destruct (ko_many s c K Q) as [_ E]. rewrite E in *. nia. }
  split. { pose proof (width_ok s Hs c Hc). nia. }
  split; [apply E1; exact Hy|]. split; [apply E1; exact Hx|]. split; [exact DB|exact MB].
Qed.
Lemma same_mcu : forall k k', k / cols = k' / cols -> k mod cols = k' mod cols -> k = k'.
Proof.
  intros k k' E1 E2. pose proof (so_cols s Hs). rewrite (Nat.div_mod k cols) by lia. rewrite (Nat.div_mod k' cols) by lia. congruence.
Qed.

Definition kb : Type := (kc * nat * nat * block)%type.
Definition wr (q : kb) (a : varr) : outcome varr := match q with (c, r, b, x) => vset a c r b x end.
Definition key (q : kb) : nat * nat * nat := match q with (c, r, b, _) => (k_idx c, r, b) end.
Definition inb (q : kb) : Prop := match q with (c, r, b, _) => r < nround_up (k_hib c) (k_v c) /\ b < nround_up (k_wib c) (k_h c) end.

Lemma wr_all : forall l a, (forall q, In q l -> inb q) -> exists a', foldM wr l a = Ret a' /\
  (forall i r b, ~ In (i, r, b) (map key l) -> a' i r b = a i r b) /\
  (NoDup (map key l) -> forall c r b x, In (c, r, b, x) l -> a' (k_idx c) r b = Some x).
Proof.
  induction l as [|[[[c r] b] x] l IH]; intros a Hb; cbn [foldM].
  - exists a. split; [reflexivity|]. split; [reflexivity|]. intros _ ? ? ? ? [].
  - destruct (Hb (c, r, b, x) (or_introl eq_refl)) as [B1 B2].
    cbn [wr]. unfold vset at 1. rewrite (proj2 (Nat.leb_gt _ _) B1), (proj2 (Nat.leb_gt _ _) B2). cbn [orb bind].
    match goal with |- context [foldM wr l ?a1] => destruct (IH a1) as (a' & E & K1 & K2) end.
    { intros q Hq. apply Hb. right. exact Hq. }
    exists a'. split; [exact E|]. split.
    + intros i r' b' Hn. cbn [map] in Hn. rewrite K1 by (intros W; apply Hn; right; exact W).
      destruct (Nat.eqb_spec i (k_idx c)), (Nat.eqb_spec r' r), (Nat.eqb_spec b' b); cbn [andb]; try reflexivity.
      subst. exfalso. apply Hn. left. reflexivity.
    + intros ND c' r' b' x' [E'|H]; cbn [map] in ND; inversion ND as [|? ? X Y]; subst.
      * injection E' as <- <- <- <-. rewrite K1 by exact X. rewrite !Nat.eqb_refl. reflexivity.
      * apply K2; assumption.
Qed.

(* consume_data *)
Definition cs1 (p : kc * nat * nat) (st : list block * varr) : outcome (list block * varr) :=
  match p with (c, r, b) => let (m, a) := st in
    match m with [] => Undef | x :: m => a <- vset a c r b x ;; Ret (m, a) end end.
Lemma cs1_all : forall l m a, length m = length l ->
  foldM cs1 l (m, a) = (a' <- foldM wr (combine l m) a ;; Ret ([], a')).
Proof.
  induction l as [|[[c r] b] l IH]; intros m a E; destruct m as [|x m]; try discriminate; [reflexivity|].
  cbn [foldM combine cs1 wr]. destruct (vset a c r b x); cbn [bind]; try reflexivity. apply IH. cbn in E. lia.
Qed.
Lemma cs_store_eq : forall row yo col m a, row < k_T s -> yo < rows_in s row -> col < cols -> length m = SZ ->
  cs_store s row yo col m a = foldM wr (combine (pos s (myof s row + yo) col) m) a.
Proof.
  intros row yo col m a Hr Hy Hc Hm. unfold cs_store.
  assert (E : foldM (fun c p => foldM (cs_brow row yo col c) (seq 0 (k_MH c)) p) (k_comps s) (m, a) = foldM cs1 (pos s (myof s row + yo) col) (m, a)).
  { unfold pos. rewrite foldM_flat. apply foldM_ext. intros c p Hc'. rewrite foldM_flat. apply foldM_ext. intros dy p' Hd.
    rewrite foldM_map. unfold cs_brow. apply foldM_ext. intros dx [m' a'] _. unfold cs1.
    apply in_seq in Hd. rewrite (brow_eq s Hs row yo c dy) by (try assumption; lia). reflexivity. }
  rewrite E, cs1_all by (rewrite pos_length; exact Hm).
  destruct (foldM wr (combine (pos s (myof s row + yo) col) m) a); reflexivity.
Qed.

Variable ms : list (list block).
Hypothesis WF : well_formed s ms.
Notation MM := (fun k => nth k ms []).
Notation part := (fun k => combine (pos s (k / cols) (k mod cols)) (nth k ms [])).

Lemma MM_len : forall k, k < N -> length (nth k ms []) = SZ.
Proof. intros k Hk. apply (proj2 WF). apply nth_In. rewrite (proj1 WF). exact Hk. Qed.
Lemma ms_seq : ms = map MM (seq 0 N).
Proof.
  rewrite <- (proj1 WF). clear WF. induction ms as [|m l IH]; [reflexivity|]. cbn [length seq map]. f_equal.
  rewrite <- seq_shift, map_map. exact IH.
Qed.
Lemma mcu_at : forall my col, col < cols -> (my * cols + col) / cols = my /\ (my * cols + col) mod cols = col.
Proof.
  intros my col H. rewrite Nat.div_add_l by lia. rewrite Nat.div_small by exact H. rewrite (Nat.add_comm (my * cols)), Nat.mod_add by lia.
  rewrite Nat.mod_small by exact H. lia.
Qed.
Lemma part_inb : forall k q, k < N -> In q (part k) -> inb q.
Proof.
  intros k [[[c r] b] x] Hk H. cbn in H. apply in_combine_l in H. destruct (pos_bounds k c r b Hk H) as (_ & H1 & H2 & _). split; assumption.
Qed.
Lemma part_key : forall k, k < N -> map key (part k) = map (fun p => match p with (c, r, b) => (k_idx c, r, b) end) (pos s (k / cols) (k mod cols)).
Proof.
  intros k Hk. assert (E : length (pos s (k / cols) (k mod cols)) = length (nth k ms [])) by (rewrite pos_length, MM_len by exact Hk; reflexivity).
  cbv beta. revert E. generalize (pos s (k / cols) (k mod cols)), (nth k ms []). induction l as [|[[c r] b] l IH]; intros m E; destruct m as [|x m]; try discriminate; [reflexivity|].
  cbn [combine map key]. f_equal. apply IH. cbn in E. lia.
Qed.
Lemma map_flat_map : forall A B C (g : B -> C) (f : A -> list B) l, map g (flat_map f l) = flat_map (fun x => map g (f x)) l.
Proof. intros. induction l as [|x l IH]; cbn; [reflexivity|]. rewrite map_app, IH. reflexivity. Qed.

Lemma keys_NoDup : forall n, n <= N -> NoDup (map key (flat_map part (seq 0 n))).
Proof.
  intros n Hn. rewrite map_flat_map. apply NoDup_flat; [apply seq_NoDup| |].
  - intros k Hk. apply in_seq in Hk. rewrite part_key by lia. apply NoDup_map_inj; [apply pos_NoDup|].
    intros [[c r] b] [[c' r'] b'] H H' E. injection E as E1 -> ->. apply in_pos in H, H'. destruct H as (? & ? & H & _), H' as (? & ? & H' & _).
    rewrite (idx_inj c c' H H' E1). reflexivity.
  - intros k k' x Hk Hk' H H'. apply in_seq in Hk, Hk'. rewrite part_key in H, H' by lia. apply in_map_iff in H, H'.
    destruct H as ([[c r] b] & <- & H), H' as ([[c' r'] b'] & E & H'). injection E as E1 -> ->.
    destruct (pos_bounds k c r b ltac:(lia) H) as (I & _ & _ & J1 & J2 & _).
    destruct (pos_bounds k' c' r b ltac:(lia) H') as (I' & _ & _ & J1' & J2' & _).
    rewrite (idx_inj c' c I' I E1) in J1', J2'. apply same_mcu; congruence.
Qed.

Lemma cs_step : forall a0 row yo col a, row < k_T s -> yo < rows_in s row -> col < cols ->
  (foldM wr (flat_map part (seq 0 ((myof s row + yo) * cols + col))) a0 = Ret a) ->
  exists a', cs_store s row yo col (nth ((myof s row + yo) * cols + col) ms []) a = Ret a' /\
    foldM wr (flat_map part (seq 0 ((myof s row + yo) * cols + col + 1))) a0 = Ret a'.
Proof.
  intros a0 row yo col a Hr Hy Hc E. set (k := (myof s row + yo) * cols + col) in *.
  assert (Hk : k < N) by (pose proof (my_lt s Hs row yo Hr Hy); unfold k; nia).
  rewrite cs_store_eq by (try assumption; apply MM_len; exact Hk).
  destruct (mcu_at (myof s row + yo) col Hc) as [D1 D2]. fold k in D1, D2.
  destruct (wr_all (combine (pos s (myof s row + yo) col) (nth k ms [])) a) as (a' & E' & _).
  { intros q Hq. apply (part_inb k q Hk). cbn. rewrite D1, D2. exact Hq. }
  exists a'. split; [exact E'|]. rewrite (Nat.add_1_r k). rewrite (seq_S k 0). rewrite flat_map_app, foldM_app. 
  etransitivity; [apply (f_equal (fun z => bind z _)); exact E|]. cbn [bind flat_map]. rewrite Nat.add_0_l, app_nil_r, D1, D2. exact E'.
Qed.

(* decompress_onepass *)
Variable first last : nat.
Variable needed : nat -> bool.
Notation oev := (shown first last needed).
Lemma flat_nil : forall A B (f : A -> list B) l, (forall x, In x l -> f x = []) -> flat_map f l = [].
Proof. intros A B f. induction l as [|x l IH]; intros H; cbn; [reflexivity|]. rewrite H by (left; reflexivity). cbn. apply IH. intros; apply H; right; assumption. Qed.

Lemma combine_app : forall A B (l1 l2 : list A) (m : list B), length l1 <= length m ->
  combine (l1 ++ l2) m = combine l1 m ++ combine l2 (skipn (length l1) m).
Proof.
  intros A B. induction l1 as [|x l1 IH]; intros l2 m H; [reflexivity|]. destruct m as [|y m]; [cbn in H; lia|].
  cbn [app combine length skipn]. f_equal. apply IH. cbn in H. lia.
Qed.
Lemma skipn_add : forall A n k (m : list A), skipn k (skipn n m) = skipn (n + k) m.
Proof. intros A. induction n as [|n IH]; intros k m; [reflexivity|]. destruct m; cbn; [apply skipn_nil|apply IH]. Qed.
Definition adv {X} (m : list block) (g : X -> list (kc * nat * nat)) (f : X -> nat * list ev -> outcome (nat * list ev)) (x : X) : Prop :=
  forall blkn l, blkn + length (g x) <= length m ->
    f x (blkn, l) = Ret (blkn + length (g x), l ++ flat_map oev (combine (g x) (skipn blkn m))).
Lemma adv_fold : forall X m g f (xs : list X), (forall x, In x xs -> adv m g f x) -> forall blkn l,
  blkn + length (flat_map g xs) <= length m ->
  foldM f xs (blkn, l) = Ret (blkn + length (flat_map g xs), l ++ flat_map oev (combine (flat_map g xs) (skipn blkn m))).
Proof.
  intros X m g f. induction xs as [|x xs IH]; intros Ha blkn l Hl; cbn [foldM flat_map].
  - cbn. rewrite app_nil_r, Nat.add_0_r. reflexivity.
  - cbn [flat_map] in Hl. rewrite app_length in Hl. rewrite (Ha x (or_introl eq_refl)) by lia. cbn [bind].
    rewrite IH by (try lia; intros; apply Ha; right; assumption).
    rewrite combine_app by (rewrite skipn_length; lia). rewrite skipn_add, flat_map_app, app_length, app_assoc.
    f_equal. f_equal. lia.
Qed.
Definition rowpos (c : kc) (r col : nat) : list (kc * nat * nat) := map (fun dx => (c, r, col * k_MW c + dx)) (seq 0 (k_MW c)).
Lemma rowpos_length : forall c r col, length (rowpos c r col) = k_MW c.
Proof. intros. unfold rowpos. rewrite map_length, seq_length. reflexivity. Qed.

Lemma pos_div : forall c col dx, dx < k_MW c -> (col * k_MW c + dx) / k_MW c = col.
Proof. intros c col dx H. rewrite Nat.div_add_l by lia. rewrite Nat.div_small by exact H. lia. Qed.
Lemma in_rowpos : forall c r col q, In q (rowpos c r col) -> exists dx, dx < k_MW c /\ q = (c, r, col * k_MW c + dx).
Proof. intros c r col q H. unfold rowpos in H. apply in_map_iff in H. destruct H as (dx & <- & H). apply in_seq in H. exists dx. split; [lia|reflexivity]. Qed.
Lemma oev_off : forall l m, (forall c r b x, In (c, r, b) l -> oev (c, r, b, x) = []) -> flat_map oev (combine l m) = [].
Proof.
  intros l m H. apply flat_nil. intros [[[c r] b] x] Hq. apply in_combine_l in Hq. apply H. exact Hq.
Qed.

Lemma op_brow_adv : forall row yo col m c dy, row < k_T s -> yo < rows_in s row -> col < cols -> In c (k_comps s) -> dy < k_MH c ->
  first <= col <= last -> needed (k_idx c) = true ->
  adv m (fun dy => rowpos c ((myof s row + yo) * k_MH c + dy) col) (op_brow s first row yo col m c) dy.
Proof.
  intros row yo col m c dy Hr Hy Hc H Hd Hf Hn blkn l Hl. cbv beta in *. rewrite rowpos_length in *. unfold op_brow. cbv zeta.
  rewrite (brow_real s Hs row yo c dy Hr Hy H Hd). rewrite (brow_eq s Hs row yo c dy Hr Hy H Hd).
  set (r := (myof s row + yo) * k_MH c + dy) in *.
  assert (Ey : row * k_v c * k_DS c + yo * k_DS c + dy * k_DS c = r * k_DS c).
  { unfold r. rewrite <- (brow_eq s Hs row yo c dy Hr Hy H Hd). ring. }
  rewrite Ey. change (if col <? cols - 1 then k_MW c else k_lcw c) with (cnt s c col).
  destruct (Nat.ltb_spec r (k_hib c)) as [L|L].
  - pose proof (cnt_range s Hs c col H) as CR. pose proof (so_comps s Hs c H) as K.
    assert (G : forall n j l0, j + n = cnt s c col ->
      foldM (fun xindex l => match nth_error m (blkn + xindex) with None => Undef | Some b =>
         Ret (l ++ [mkEv (k_idx c) (r * k_DS c) ((col - first) * k_MSW c + xindex * k_DS c) b]) end) (seq j n) l0 =
      Ret (l0 ++ flat_map oev (combine (map (fun dx => (c, r, col * k_MW c + dx)) (seq j n)) (skipn (blkn + j) m)))).
    { induction n as [|n IH]; intros j l0 Ej; cbn [seq foldM map combine flat_map]; [rewrite app_nil_r; reflexivity|].
      destruct (skipn (blkn + j) m) as [|x t] eqn:Es.
      { apply (f_equal (@length block)) in Es. rewrite skipn_length in Es. cbn in Es. lia. }
      assert (En : nth_error m (blkn + j) = Some x).
      { rewrite <- (firstn_skipn (blkn + j) m), Es. rewrite nth_error_app2 by (rewrite firstn_length; lia).
        rewrite firstn_length. replace (blkn + j - Init.Nat.min (blkn + j) (length m)) with 0 by lia. reflexivity. }
      rewrite En. cbn [bind]. rewrite IH by lia. cbn [combine flat_map].
      assert (Et : skipn (blkn + S j) m = t).
      { replace (blkn + S j) with (blkn + j + 1) by lia. rewrite <- skipn_add, Es. reflexivity. }
      rewrite Et, <- app_assoc. do 2 f_equal. unfold shown at 2. cbv beta iota. rewrite Hn. rewrite (proj2 (Nat.ltb_lt _ _) L).
      rewrite (proj2 (Nat.ltb_lt (col * k_MW c + j) (k_wib c))) by (apply (cnt_real s Hs); [exact H|exact Hc|lia|lia]).
      rewrite pos_div by lia. rewrite (proj2 (Nat.leb_le _ _) (proj1 Hf)), (proj2 (Nat.leb_le _ _) (proj2 Hf)). cbn [andb app].
      do 2 f_equal. rewrite (ko_msw s c K). rewrite Nat.mul_sub_distr_r.
      assert (first * k_MW c <= col * k_MW c) by (apply Nat.mul_le_mono_r; lia).
      assert (first * (k_MW c * k_DS c) <= col * (k_MW c * k_DS c)) by (apply Nat.mul_le_mono_r; lia).
      rewrite !Nat.mul_sub_distr_r, !Nat.mul_add_distr_r, <- !Nat.mul_assoc. lia. }
    rewrite (G (cnt s c col) 0 l eq_refl). cbn [bind]. rewrite Nat.add_0_r. f_equal. f_equal. f_equal.
    assert (SQ : seq 0 (k_MW c) = seq 0 (cnt s c col) ++ seq (0 + cnt s c col) (k_MW c - cnt s c col)) by (rewrite <- seq_app; f_equal; lia).
    unfold rowpos. rewrite SQ, map_app.
    rewrite combine_app by (rewrite map_length, seq_length, skipn_length; lia). rewrite flat_map_app.
    rewrite (oev_off (map _ (seq (0 + cnt s c col) _))); [rewrite app_nil_r; reflexivity|].
    intros c' r' b x Hq. apply in_map_iff in Hq. destruct Hq as (dx & E & Hx). injection E as <- <- <-. apply in_seq in Hx.
    unfold shown. rewrite (proj2 (Nat.ltb_ge (col * k_MW c + dx) (k_wib c))); [rewrite andb_false_r; reflexivity|].
    destruct (Nat.lt_ge_cases (col * k_MW c + dx) (k_wib c)) as [W|W]; [|exact W]. apply (cnt_real s Hs) in W; try assumption; lia.
  - cbn [bind]. rewrite oev_off; [rewrite app_nil_r; reflexivity|]. intros c' r' b x Hq. apply in_rowpos in Hq. destruct Hq as (dx & _ & E). injection E as -> -> ->.
    unfold shown. rewrite (proj2 (Nat.ltb_ge _ _) L). rewrite andb_false_r. reflexivity.
Qed.

Lemma op_store_eq : forall row yo col m l, row < k_T s -> yo < rows_in s row -> col < cols -> length m = SZ ->
  op_store s first last needed row yo col m l = Ret (l ++ flat_map oev (combine (pos s (myof s row + yo) col) m)).
Proof.
  intros row yo col m l Hr Hy Hc Hm. unfold op_store.
  destruct (Nat.leb_spec first col) as [F1|F1]; cbn [andb].
  2: { rewrite oev_off; [rewrite app_nil_r; reflexivity|]. intros c r b x Hq. apply in_pos in Hq. destruct Hq as (dy & dx & Hq & Hd & Hx & -> & ->).
       unfold shown. rewrite pos_div by exact Hx. rewrite (proj2 (Nat.leb_gt _ _) F1). rewrite andb_false_r. reflexivity. }
  destruct (Nat.leb_spec col last) as [F2|F2].
  2: { rewrite oev_off; [rewrite app_nil_r; reflexivity|]. intros c r b x Hq. apply in_pos in Hq. destruct Hq as (dy & dx & Hq & Hd & Hx & -> & ->).
       unfold shown. rewrite pos_div by exact Hx. rewrite (proj2 (Nat.leb_gt _ _) F2). rewrite andb_false_r. reflexivity. }
  set (g := fun c => flat_map (fun dy => rowpos c ((myof s row + yo) * k_MH c + dy) col) (seq 0 (k_MH c))).
  assert (EP : pos s (myof s row + yo) col = flat_map g (k_comps s)) by reflexivity.
  match goal with |- context [foldM ?f (k_comps s) _] => rewrite (adv_fold kc m g f (k_comps s)) end.
  - cbn [bind skipn]. rewrite EP. reflexivity.
  - intros c H blkn l0 Hl. destruct (needed (k_idx c)) eqn:En.
    + apply adv_fold; [|exact Hl]. intros dy Hd. apply in_seq in Hd. apply op_brow_adv; try assumption; lia.
    + assert (LG : length (g c) = k_MW c * k_MH c).
      { unfold g. assert (G : forall n j, length (flat_map (fun dy => rowpos c ((myof s row + yo) * k_MH c + dy) col) (seq j n)) = n * k_MW c).
        { induction n as [|n IHn]; intros j; [reflexivity|]. cbn [seq flat_map]. rewrite app_length, rowpos_length, IHn. lia. }
        rewrite G. lia. }
      rewrite LG. rewrite oev_off; [rewrite app_nil_r; reflexivity|]. intros c' r b x Hq. unfold g in Hq. apply in_flat_map in Hq.
      destruct Hq as (dy & _ & Hq). apply in_rowpos in Hq. destruct Hq as (dx & _ & E). injection E as -> -> ->. unfold shown. rewrite En. reflexivity.
  - rewrite <- EP, pos_length, Hm. lia.
Qed.
End Store.
