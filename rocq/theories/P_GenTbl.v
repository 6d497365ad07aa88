(* P_GenTbl.v -- counting, length limiting and symbol list of jpeg_gen_optimal_table *)
From Verif Require Import Base M_HuffTbl M_GenTbl P_GenMerge S_Huff P_HuffTbl.
From Coq Require Import Permutation.

(* weighted sum of an array *)
Fixpoint Sb (f : Z -> Z) (b : list Z) (k : Z) : Z :=
  match b with [] => 0 | x :: t => x * f k + Sb f t (k + 1) end.

Lemma Sb_upd f : forall b k i x, (i < length b)%nat ->
  Sb f (upd b i x) k = Sb f b k + (x - nth i b 0) * f (k + Z.of_nat i).
Proof.
  induction b as [|y b IH]; intros k i x H; [cbn in H; lia|].
  destruct i as [|i]; cbn [upd Sb nth].
  - replace (k + Z.of_nat 0) with k by lia. lia.
  - cbn in H. rewrite IH by lia. replace (k + 1 + Z.of_nat i) with (k + Z.of_nat (S i)) by lia. lia.
Qed.

Lemma Sb_mono f g : forall b k, Forall (fun x => 0 <= x) b -> 
  (forall i, (i < length b)%nat -> nth i b 0 <> 0 -> f (k + Z.of_nat i) <= g (k + Z.of_nat i)) ->
  Sb f b k <= Sb g b k.
Proof.
  induction b as [|y b IH]; intros k H Hfg; cbn [Sb]; [lia|].
  inversion H; subst.
  assert (Sb f b (k + 1) <= Sb g b (k + 1)).
  { apply IH; auto. intros i Hi Hz. specialize (Hfg (S i)). cbn [nth length] in Hfg.
    replace (k + 1 + Z.of_nat i) with (k + Z.of_nat (S i)) by lia. apply Hfg; auto; lia. }
  destruct (Z.eq_dec y 0) as [->|]; [lia|].
  specialize (Hfg 0%nat). cbn [nth length] in Hfg. replace (k + Z.of_nat 0) with k in Hfg by lia.
  assert (f k <= g k) by (apply Hfg; auto; lia). nia.
Qed.

Lemma Sb_plus f g b : forall k, Sb (fun i => f i + g i) b k = Sb f b k + Sb g b k.
Proof. induction b; intros; cbn [Sb]; [lia|]. rewrite IHb. lia. Qed.
Lemma Sb_scale c f b : forall k, Sb (fun i => c * f i) b k = c * Sb f b k.
Proof. induction b; intros; cbn [Sb]; [lia|]. rewrite IHb. lia. Qed.
Lemma Sb_zero b : forall k, Sb (fun _ => 0) b k = 0.
Proof. induction b; intros; cbn [Sb]; [lia|]. rewrite IHb. lia. Qed.
Lemma Sb_ext f g : forall b k, (forall i, (i < length b)%nat -> f (k + Z.of_nat i) = g (k + Z.of_nat i)) ->
  Sb f b k = Sb g b k.
Proof.
  induction b as [|y b IH]; intros k H; cbn [Sb]; auto.
  rewrite (IH (k + 1)).
  - specialize (H 0%nat). replace (k + Z.of_nat 0) with k in H by lia. rewrite H; auto. cbn; lia.
  - intros i Hi. specialize (H (S i)). replace (k + 1 + Z.of_nat i) with (k + Z.of_nat (S i)) by lia. apply H. cbn; lia.
Qed.

Definition ind (j : Z) (k : Z) : Z := if k =? j then 1 else 0.
Lemma Sb_ind : forall b k i, (i < length b)%nat -> Sb (ind (k + Z.of_nat i)) b k = nth i b 0.
Proof.
  induction b as [|y b IH]; intros k i H; [cbn in H; lia|].
  cbn [Sb]. destruct i as [|i].
  - unfold ind at 1. replace (k + Z.of_nat 0) with k by lia. rewrite Z.eqb_refl. cbn [nth].
    rewrite (Sb_ext _ (fun _ => 0)), Sb_zero; [lia|]. intros i Hi. unfold ind.
    destruct (Z.eqb_spec (k + 1 + Z.of_nat i) k); lia.
  - unfold ind at 1. destruct (Z.eqb_spec k (k + Z.of_nat (S i))); [lia|].
    replace (k + Z.of_nat (S i)) with (k + 1 + Z.of_nat i) by lia. cbn in H. rewrite IH by lia. cbn; lia.
Qed.
Lemma Sb_ind0 b i : 0 <= i < Z.of_nat (length b) -> Sb (ind i) b 0 = nth (Z.to_nat i) b 0.
Proof. intros H. rewrite <- (Sb_ind b 0 (Z.to_nat i)) by lia. f_equal. f_equal. lia. Qed.

Definition one (k : Z) : Z := 1.
Definition kr (k : Z) : Z := 2 ^ (32 - k).
Notation nn b := (Forall (fun x => 0 <= x) b).

Lemma two_le b x y : nn b -> 0 <= x < Z.of_nat (length b) -> 0 <= y < Z.of_nat (length b) -> x <> y ->
  nth (Z.to_nat x) b 0 + nth (Z.to_nat y) b 0 <= Sb one b 0.
Proof.
  intros Hb Hx Hy Hxy. rewrite <- !Sb_ind0 by auto. rewrite <- Sb_plus. apply Sb_mono; auto.
  intros i Hi _. unfold ind, one.
  destruct (Z.eqb_spec (0 + Z.of_nat i) x); destruct (Z.eqb_spec (0 + Z.of_nat i) y); lia.
Qed.
Lemma one_le b x : nn b -> 0 <= x < Z.of_nat (length b) -> nth (Z.to_nat x) b 0 <= Sb one b 0.
Proof.
  intros Hb Hx. rewrite <- !Sb_ind0 by auto. apply Sb_mono; auto.
  intros i Hi _. unfold ind, one. destruct (Z.eqb_spec (0 + Z.of_nat i) x); lia.
Qed.

Lemma nn_nth b i : nn b -> 0 <= nth i b 0.
Proof. intros H. destruct (Nat.lt_ge_cases i (length b)); [|rewrite nth_overflow; auto; lia].
  rewrite Forall_forall in H. apply H. apply nth_In; auto. Qed.
Lemma nn_upd : forall b i x, nn b -> 0 <= x -> nn (upd b i x).
Proof. induction b as [|y b IH]; intros i x H Hx; [destruct i; constructor|].
  inversion H; subst. destruct i; cbn; constructor; auto. Qed.

Lemma badd_spec b i d : nn b -> 0 <= i < Z.of_nat (length b) -> 0 <= nth (Z.to_nat i) b 0 + d < 256 ->
  exists b', badd b i d = Ret b' /\ nn b' /\ length b' = length b /\
    (forall f, Sb f b' 0 = Sb f b 0 + d * f i) /\
    (forall j, 0 <= j < Z.of_nat (length b) -> nth (Z.to_nat j) b' 0 = nth (Z.to_nat j) b 0 + (if j =? i then d else 0)).
Proof.
  intros Hb Hi Hd. unfold badd. rewrite (aget_nth b i 0) by auto. cbn [bind].
  rewrite aset_ok by auto. rewrite u8_id by lia. eexists. split; [reflexivity|]. split; [|split; [|split]].
  - apply nn_upd; auto; lia.
  - apply length_upd.
  - intros f. rewrite Sb_upd by lia. replace (0 + Z.of_nat (Z.to_nat i)) with i by lia. lia.
  - intros j Hj. destruct (Z.eqb_spec j i) as [->|].
    + rewrite nth_upd_eq by lia. lia.
    + rewrite nth_upd_neq by lia. lia.
Qed.

(* ---- counting ---- *)
Fixpoint sumZ (f : Z -> Z) (l : list Z) : Z := match l with [] => 0 | x :: t => f x + sumZ f t end.

Lemma count_bits_spec : forall l b, Forall (fun c => 0 <= c) l -> length b = 33%nat -> nn b ->
  Sb one b 0 + Z.of_nat (length l) <= 255 ->
  match count_bits l b with
  | Ret b' => Forall (fun c => c <= 32) l /\ length b' = 33%nat /\ nn b' /\
              forall f, Sb f b' 0 = Sb f b 0 + sumZ f l
  | Error e => e = JERR_HUFF_CLEN_OVERFLOW /\ Exists (fun c => 32 < c) l
  | Undef => False
  end.
Proof.
  induction l as [|c l IH]; intros b Hl Hlen Hb Ht; cbn [count_bits].
  - repeat apply conj; auto. intros; cbn; lia.
  - inversion Hl; subst. destruct (Z.ltb_spec 32 c); [split; [auto|constructor; auto]|].
    assert (Hc : 0 <= c < Z.of_nat (length b)) by (rewrite Hlen; lia).
    pose proof (nn_nth b (Z.to_nat c) Hb). pose proof (one_le b c Hb Hc). cbn [length] in Ht.
    destruct (badd_spec b c 1 Hb Hc) as (b' & E & N & L & S' & _); [lia|].
    unfold badd in E. rewrite (aget_nth b c 0) in * by auto. cbn [bind] in *. rewrite E. cbn [bind].
    specialize (IH b' H2 ltac:(lia) N).
    rewrite (S' one) in IH. unfold one at 2 in IH. specialize (IH ltac:(lia)).
    destruct (count_bits l b') as [b2|e|]; auto.
    + destruct IH as (I1 & I2 & I3 & I4). repeat apply conj; auto. intros f. rewrite I4, S'. cbn [sumZ]. lia.
    + destruct IH; split; auto.
Qed.

(* ---- search downwards ---- *)
Lemma find_down_spec b : forall fuel j, -1 <= j < Z.of_nat (length b) -> (Z.to_nat (j + 1) <= fuel)%nat ->
  (forall k, 0 <= k <= j -> nth (Z.to_nat k) b 0 = 0) \/
  (exists j', find_down fuel b j = Ret j' /\ 0 <= j' <= j /\ nth (Z.to_nat j') b 0 <> 0 /\
     forall k, j' < k <= j -> nth (Z.to_nat k) b 0 = 0).
Proof.
  induction fuel as [|fuel IH]; intros j Hj Hf.
  - left. intros; lia.
  - destruct (Z.eq_dec j (-1)) as [->|]; [left; intros; lia|].
    cbn [find_down]. rewrite (aget_nth b j 0) by lia. cbn [bind].
    destruct (Z.eqb_spec (nth (Z.to_nat j) b 0) 0) as [E|E].
    + destruct (IH (j - 1)) as [H|(j' & H1 & H2 & H3 & H4)]; [lia|lia| |].
      * left. intros k Hk. destruct (Z.eq_dec k j) as [->|]; auto. apply H; lia.
      * right. exists j'. repeat apply conj; auto; try lia. intros k Hk. destruct (Z.eq_dec k j) as [->|]; auto. apply H4; lia.
    + right. exists j. repeat apply conj; auto; try lia; intros; lia.
Qed.

(* ---- length limiting ---- *)
Record lim (n : Z) (i : Z) (b : list Z) : Prop := {
  li_len : length b = 33%nat;
  li_nn : nn b;
  li_tot : Sb one b 0 = n;
  li_kr : Sb kr b 0 = 2 ^ 32;
  li_0 : nth 0 b 0 = 0;
  li_hi : forall k, i < k <= 32 -> nth (Z.to_nat k) b 0 = 0 }.

Lemma Sb_div f d : forall b k, (forall i, (i < length b)%nat -> (d | nth i b 0 * f (k + Z.of_nat i))) -> (d | Sb f b k).
Proof.
  induction b as [|y b IH]; intros k H; cbn [Sb]; [apply Z.divide_0_r|].
  apply Z.divide_add_r.
  - specialize (H 0%nat). cbn [nth length] in H. replace (k + Z.of_nat 0) with k in H by lia. apply H; lia.
  - apply IH. intros i Hi. specialize (H (S i)). cbn [nth length] in H.
    replace (k + 1 + Z.of_nat i) with (k + Z.of_nat (S i)) by lia. apply H; lia.
Qed.

Lemma lim_even n i b : 17 <= i <= 32 -> lim n i b -> (2 | nth (Z.to_nat i) b 0).
Proof.
  intros Hi [L N T K Z0 Hh].
  assert (D : (2 ^ (33 - i) | Sb kr (upd b (Z.to_nat i) 0) 0)).
  { apply Sb_div. rewrite length_upd. intros j Hj. rewrite L in Hj. unfold kr. rewrite Z.add_0_l.
    destruct (Z.lt_trichotomy (Z.of_nat j) i) as [H|[H|H]].
    - apply Z.divide_mul_r. exists (2 ^ (i - 1 - Z.of_nat j)). rewrite <- Z.pow_add_r by lia. f_equal. lia.
    - rewrite <- H, Nat2Z.id, nth_upd_eq by lia. apply Z.divide_0_r.
    - rewrite nth_upd_neq by lia. rewrite <- (Nat2Z.id j), Hh by lia. apply Z.divide_0_r. }
  rewrite Sb_upd in D by lia. rewrite K in D.
  replace (0 + Z.of_nat (Z.to_nat i)) with i in D by lia.
  set (x := nth (Z.to_nat i) b 0) in *. unfold kr in D.
  assert (D2 : (2 ^ (33 - i) | 2 ^ 32)).
  { exists (2 ^ (i - 1)). rewrite <- Z.pow_add_r by lia. f_equal. lia. }
  destruct D as [u Hu]. destruct D2 as [w Hw].
  exists (w - u). 
  assert (Hp : 2 ^ (33 - i) = 2 * 2 ^ (32 - i)).
  { replace (33 - i) with (Z.succ (32 - i)) by lia. rewrite Z.pow_succ_r by lia. auto. }
  assert (0 < 2 ^ (32 - i)) by (apply Z.pow_pos_nonneg; lia). nia.
Qed.

Lemma lim_step n i b : n <= 255 -> 17 <= i <= 32 -> lim n i b -> nth (Z.to_nat i) b 0 <> 0 ->
  exists j b1 b2 b3 b4, find_down 33 b (i - 2) = Ret j /\ badd b i (-2) = Ret b1 /\ badd b1 (i - 1) 1 = Ret b2 /\
    badd b2 (j + 1) 2 = Ret b3 /\ badd b3 j (-1) = Ret b4 /\ lim n i b4 /\
    nth (Z.to_nat i) b4 0 = nth (Z.to_nat i) b 0 - 2.
Proof.
  intros Hn Hi HL Hnz. pose proof (lim_even n i b Hi HL) as [e He].
  destruct HL as [L N T K Z0 Hh].
  pose proof (nn_nth b (Z.to_nat i) N) as Hi0.
  destruct (find_down_spec b 33 (i - 2)) as [H|(j & F1 & F2 & F3 & F4)]; [lia|lia| |].
  - exfalso.
    assert (Sb kr b 0 <= Sb (fun k => 2 ^ 16 * one k) b 0).
    { apply Sb_mono; auto. intros k Hk Hz. unfold kr, one. rewrite Z.add_0_l.
      assert (i - 2 < Z.of_nat k) by (destruct (Z_lt_le_dec (i - 2) (Z.of_nat k)); auto; exfalso; apply Hz; rewrite <- (Nat2Z.id k); apply H; lia).
      rewrite Z.mul_1_r. apply Z.pow_le_mono_r; lia. }
    rewrite Sb_scale, K, T in H0. lia.
  - assert (J1 : 1 <= j). { destruct (Z.eq_dec j 0) as [->|]; [exfalso; apply F3; auto|lia]. }
    pose proof (nn_nth b (Z.to_nat j) N).
    destruct (badd_spec b i (-2) N) as (b1 & E1 & N1 & L1 & S1 & G1); [lia| |].
    { pose proof (one_le b i N ltac:(lia)). lia. }
    rewrite L in *.
    destruct (badd_spec b1 (i - 1) 1 N1) as (b2 & E2 & N2 & L2 & S2 & G2); [lia| |].
    { pose proof (one_le b1 (i - 1) N1 ltac:(lia)). pose proof (nn_nth b1 (Z.to_nat (i - 1)) N1). rewrite S1 in H0. unfold one at 2 in H0. lia. }
    rewrite L1 in *.
    assert (Bj : nth (Z.to_nat j) b2 0 = nth (Z.to_nat j) b 0).
    { rewrite G2, G1 by lia. destruct (Z.eqb_spec j (i - 1)); destruct (Z.eqb_spec j i); lia. }
    destruct (badd_spec b2 (j + 1) 2 N2) as (b3 & E3 & N3 & L3 & S3 & G3); [lia| |].
    { pose proof (two_le b2 j (j + 1) N2 ltac:(lia) ltac:(lia) ltac:(lia)).
      pose proof (nn_nth b2 (Z.to_nat (j + 1)) N2). rewrite S2, S1 in H0. unfold one at 2 3 in H0. lia. }
    rewrite L2 in *.
    assert (Bj3 : nth (Z.to_nat j) b3 0 = nth (Z.to_nat j) b 0).
    { rewrite G3, Bj by lia. destruct (Z.eqb_spec j (j + 1)); lia. }
    destruct (badd_spec b3 j (-1) N3) as (b4 & E4 & N4 & L4 & S4 & G4); [lia| |].
    { pose proof (one_le b j N ltac:(lia)). lia. }
    rewrite L3 in *.
    exists j, b1, b2, b3, b4. repeat apply conj; auto.
    + constructor; auto.
      * rewrite S4, S3, S2, S1, T. unfold one. lia.
      * rewrite S4, S3, S2, S1, K. unfold kr.
        replace (32 - (i - 1)) with (Z.succ (32 - i)) by lia. rewrite (Z.pow_succ_r 2 (32 - i)) by lia.
        replace (32 - j) with (Z.succ (32 - (j + 1))) by lia. rewrite (Z.pow_succ_r 2 (32 - (j + 1))) by lia. lia.
      * change 0%nat with (Z.to_nat 0). rewrite G4, G3, G2, G1 by lia. change (Z.to_nat 0) with 0%nat. rewrite Z0.
        repeat match goal with |- context[0 =? ?x] => destruct (Z.eqb_spec 0 x); [lia|] end. lia.
      * intros k Hk. rewrite G4, G3, G2, G1 by lia. rewrite Hh by lia.
        repeat match goal with |- context[k =? ?x] => destruct (Z.eqb_spec k x); [lia|] end. lia.
    + rewrite G4, G3, G2, G1 by lia. rewrite Z.eqb_refl.
      repeat match goal with |- context[i =? ?x] => destruct (Z.eqb_spec i x); [lia|] end. lia.
Qed.

Lemma limit_while_spec n i : n <= 255 -> 17 <= i <= 32 ->
  forall fuel b, lim n i b -> nth (Z.to_nat i) b 0 < 2 * Z.of_nat fuel + 1 ->
  exists b', limit_while fuel i b = Ret b' /\ lim n (i - 1) b'.
Proof.
  intros Hn Hi. induction fuel as [|fuel IH]; intros b HL Hf.
  - pose proof (nn_nth b (Z.to_nat i) (li_nn _ _ _ HL)). cbn [limit_while].
    rewrite (aget_nth b i 0) by (rewrite (li_len _ _ _ HL); lia). cbn [bind].
    destruct (Z.leb_spec (nth (Z.to_nat i) b 0) 0); [|lia].
    exists b. split; auto. destruct HL; constructor; auto. intros k Hk. destruct (Z.eq_dec k i) as [->|]; [lia|apply li_hi0; lia].
  - pose proof (nn_nth b (Z.to_nat i) (li_nn _ _ _ HL)) as H0. cbn [limit_while].
    rewrite (aget_nth b i 0) by (rewrite (li_len _ _ _ HL); lia). cbn [bind].
    destruct (Z.leb_spec (nth (Z.to_nat i) b 0) 0).
    + exists b. split; auto. destruct HL; constructor; auto. intros k Hk. destruct (Z.eq_dec k i) as [->|]; [lia|].
      apply li_hi0; lia.
    + destruct (lim_step n i b Hn Hi HL) as (j & b1 & b2 & b3 & b4 & E0 & E1 & E2 & E3 & E4 & HL' & Hd); [lia|].
      rewrite E0. cbn [bind]. rewrite E1. cbn [bind]. rewrite E2. cbn [bind]. rewrite E3. cbn [bind]. rewrite E4. cbn [bind].
      apply IH; auto. lia.
Qed.

Lemma limit_lengths_spec n b : n <= 255 -> lim n 32 b -> exists b', limit_lengths b = Ret b' /\ lim n 16 b'.
Proof.
  intros Hn HL. unfold limit_lengths.
  assert (G : forall m k b0, (m + Z.to_nat k = 16)%nat -> 0 <= k -> lim n (32 - k) b0 ->
     exists b', for_loop m k (fun k b => limit_while 256 (32 - k) b) b0 = Ret b' /\ lim n 16 b').
  { induction m as [|m IH]; intros k b0 Hm Hk H0; cbn [for_loop].
    - exists b0. split; auto. replace 16 with (32 - k) by lia. auto.
    - destruct (limit_while_spec n (32 - k) Hn ltac:(lia) 256 b0 H0) as (b1 & E & H1).
      { pose proof (one_le b0 (32 - k) (li_nn _ _ _ H0)). rewrite (li_len _ _ _ H0), (li_tot _ _ _ H0) in H. lia. }
      rewrite E. cbn [bind]. apply IH; [lia|lia|]. replace (32 - (k + 1)) with (32 - k - 1) by lia. auto. }
  apply G; try lia. auto.
Qed.

Lemma drop_pseudo_spec n b : n <= 255 -> lim n 16 b ->
  exists b', drop_pseudo b = Ret b' /\ length b' = 33%nat /\ nn b' /\ Sb one b' 0 = n - 1 /\
    Sb kr b' 0 < 2 ^ 32 /\ nth 0 b' 0 = 0 /\ (forall k, 16 < k <= 32 -> nth (Z.to_nat k) b' 0 = 0) /\
    Forall (fun x => x < 256) b'.
Proof.
  intros Hn HL. pose proof HL as [L N T K Z0 Hh]. unfold drop_pseudo.
  destruct (find_down_spec b 33 16) as [H|(j & F1 & F2 & F3 & F4)]; [lia|lia| |].
  - exfalso. rewrite (Sb_ext kr (fun k => if 32 <? k then kr k else kr k)) in K by (intros; destruct (32 <? _); auto).
    assert (Sb kr b 0 <= Sb (fun _ => 0) b 0).
    { apply Sb_mono; auto. intros k Hk Hz. exfalso. apply Hz. rewrite <- (Nat2Z.id k).
      destruct (Z_le_gt_dec (Z.of_nat k) 16); [apply H; lia|apply Hh; lia]. }
    rewrite Sb_zero in H0. rewrite (Sb_ext _ kr) in K by (intros; destruct (32 <? _); auto). lia.
  - assert (J1 : 1 <= j). { destruct (Z.eq_dec j 0) as [->|]; [exfalso; apply F3; auto|lia]. }
    pose proof (nn_nth b (Z.to_nat j) N). pose proof (one_le b j N ltac:(lia)).
    destruct (badd_spec b j (-1) N) as (b' & E & N' & L' & S' & G'); [lia|lia|].
    rewrite F1. cbn [bind]. exists b'. split; auto. repeat apply conj; auto; try congruence.
    + rewrite S', T. unfold one. lia.
    + rewrite S', K. assert (0 < kr j) by (apply Z.pow_pos_nonneg; lia). lia.
    + change 0%nat with (Z.to_nat 0). rewrite G' by lia. destruct (Z.eqb_spec 0 j); [lia|]. change (Z.to_nat 0) with 0%nat. lia.
    + intros k Hk. rewrite G' by lia. destruct (Z.eqb_spec k j); [lia|]. rewrite Hh by lia. lia.
    + apply Forall_forall. intros x Hx. apply (In_nth _ _ 0) in Hx as (i & Hi & <-).
      pose proof (one_le b' (Z.of_nat i) N' ltac:(lia)). rewrite Nat2Z.id in H1. rewrite S' in H1. unfold one at 2 in H1. lia.
Qed.

(* relation with the specification's code sizes *)
Lemma bits_code_sizes b : length b = 33%nat -> nn b -> nth 0 b 0 = 0 ->
  (forall k, 16 < k <= 32 -> nth (Z.to_nat k) b 0 = 0) ->
  Z.of_nat (length (code_sizes (firstn 17 b))) = Sb one b 0 /\
  kraft (code_sizes (firstn 17 b)) * 2 ^ 16 = Sb kr b 0.
Proof.
  intros L N Z0 Hh.
  do 33 (destruct b as [|? b]; [discriminate L|]). destruct b; [|discriminate L].
  pose proof (Hh 17 ltac:(lia)) as E17. pose proof (Hh 18 ltac:(lia)) as E18. pose proof (Hh 19 ltac:(lia)) as E19.
  pose proof (Hh 20 ltac:(lia)) as E20. pose proof (Hh 21 ltac:(lia)) as E21. pose proof (Hh 22 ltac:(lia)) as E22.
  pose proof (Hh 23 ltac:(lia)) as E23. pose proof (Hh 24 ltac:(lia)) as E24. pose proof (Hh 25 ltac:(lia)) as E25.
  pose proof (Hh 26 ltac:(lia)) as E26. pose proof (Hh 27 ltac:(lia)) as E27. pose proof (Hh 28 ltac:(lia)) as E28.
  pose proof (Hh 29 ltac:(lia)) as E29. pose proof (Hh 30 ltac:(lia)) as E30. pose proof (Hh 31 ltac:(lia)) as E31.
  pose proof (Hh 32 ltac:(lia)) as E32. clear Hh L.
  vm_compute in E17. vm_compute in E18. vm_compute in E19. vm_compute in E20. vm_compute in E21. vm_compute in E22. vm_compute in E23. vm_compute in E24. vm_compute in E25. vm_compute in E26. vm_compute in E27. vm_compute in E28. vm_compute in E29. vm_compute in E30. vm_compute in E31. vm_compute in E32. cbn in Z0. subst.
  do 17 (apply Forall_cons_iff in N as [? N]). clear N.
  unfold code_sizes, ncodes. cbn [seq flat_map firstn nth].
  rewrite !app_length, !kraft_app, !repeat_length, !kraft_repeat. cbn [length kraft].
  unfold one, kr. cbn [Sb].
  rewrite !Nat2Z.inj_add, !Z2Nat.id by assumption.
  split; [ring|].
  change (Z.of_nat 1) with 1. change (Z.of_nat 2) with 2. change (Z.of_nat 3) with 3. change (Z.of_nat 4) with 4.
  change (Z.of_nat 5) with 5. change (Z.of_nat 6) with 6. change (Z.of_nat 7) with 7. change (Z.of_nat 8) with 8.
  change (Z.of_nat 9) with 9. change (Z.of_nat 10) with 10. change (Z.of_nat 11) with 11. change (Z.of_nat 12) with 12.
  change (Z.of_nat 13) with 13. change (Z.of_nat 14) with 14. change (Z.of_nat 15) with 15. change (Z.of_nat 16) with 16.
  repeat match goal with |- context[2 ^ ?e] => let v := eval vm_compute in (2 ^ e) in change (2 ^ e) with v end.
  ring.
Qed.

(* ---- bit_pos ---- *)
Definition ltf (i k : Z) : Z := if k <? i then 1 else 0.

Lemma make_bit_pos_spec b : length b = 33%nat -> nth 0 b 0 = 0 ->
  exists bp, make_bit_pos b = Ret bp /\ length bp = 33%nat /\
    forall l, 1 <= l <= 32 -> nth (Z.to_nat l) bp 0 = Sb (ltf l) b 0.
Proof.
  intros L Z0. unfold make_bit_pos.
  assert (G : forall m i bp, (m + Z.to_nat i = 33)%nat -> 1 <= i -> length bp = 33%nat ->
     (forall l, 1 <= l < i -> nth (Z.to_nat l) bp 0 = Sb (ltf l) b 0) ->
     exists p bp', for_loop m i (bit_pos_step b) (Sb (ltf i) b 0, bp) = Ret (p, bp') /\ length bp' = 33%nat /\
       forall l, 1 <= l <= 32 -> nth (Z.to_nat l) bp' 0 = Sb (ltf l) b 0).
  { induction m as [|m IH]; intros i bp Hm Hi Hl Hb; cbn [for_loop].
    - eexists; eexists. split; [reflexivity|]. split; auto. intros l Hl'. apply Hb. lia.
    - unfold bit_pos_step at 1. rewrite (aget_nth b i 0) by lia. cbn [bind]. rewrite aset_ok by lia. cbn [bind].
      replace (Sb (ltf i) b 0 + nth (Z.to_nat i) b 0) with (Sb (ltf (i + 1)) b 0).
      + apply IH; [lia|lia|rewrite length_upd; auto|].
        intros l Hl'. destruct (Z.eq_dec l i) as [->|].
        * rewrite nth_upd_eq by lia. auto.
        * rewrite nth_upd_neq by lia. apply Hb; lia.
      + rewrite <- (Sb_ind0 b i) by lia. rewrite <- Sb_plus. apply Sb_ext. intros k Hk. unfold ltf, ind.
        destruct (Z.ltb_spec (0 + Z.of_nat k) (i + 1)); destruct (Z.ltb_spec (0 + Z.of_nat k) i);
          destruct (Z.eqb_spec (0 + Z.of_nat k) i); lia. }
  destruct (G 32%nat 1 (repeat (-1) 33)) as (p & bp & E & H1 & H2); try lia; auto.
  assert (E0 : Sb (ltf 1) b 0 = 0).
  { transitivity (Sb (ind 0) b 0); [|rewrite Sb_ind0; [cbn; auto|lia]].
    apply Sb_ext. intros k Hk. unfold ltf, ind. destruct (Z.ltb_spec (0 + Z.of_nat k) 1); destruct (Z.eqb_spec (0 + Z.of_nat k) 0); lia. }
  rewrite E0 in E. rewrite E. cbn [bind]. eauto.
Qed.

Lemma nth_skipn_ {A} (l : list A) q i d : nth i (skipn q l) d = nth (q + i) l d.
Proof. revert q; induction l as [|a l IH]; intros [|q]; cbn [skipn Nat.add]; auto.
  - destruct i; auto.
  - rewrite IH. reflexivity. Qed.

(* ---- the symbol list ---- *)
Lemma sumf_plus f g l : sumf (fun x => f x + g x) l = sumf f l + sumf g l.
Proof. induction l; cbn; lia. Qed.
Lemma sumf_mono f g l : (forall x, In x l -> f x <= g x) -> sumf f l <= sumf g l.
Proof. induction l; cbn; intros H; [lia|]. pose proof (H a (or_introl eq_refl)).
  assert (sumf f l <= sumf g l) by (apply IHl; auto). lia. Qed.
Lemma sumf_one l : sumf (fun _ => 1) l = Z.of_nat (length l).
Proof. induction l; cbn [sumf length]; lia. Qed.
Definition isx (i x : nat) : Z := if (x =? i)%nat then 1 else 0.
Lemma sumf_isx i : forall m s, (s <= i < s + m)%nat -> sumf (isx i) (seq s m) = 1.
Proof.
  induction m as [|m IH]; intros s H; [lia|]. cbn [seq sumf]. unfold isx at 1.
  destruct (Nat.eqb_spec s i).
  - subst. rewrite (sumf_ext _ (fun _ => 0)).
    + replace (sumf (fun _ => 0) (seq (S i) m)) with 0; [lia|]. clear. generalize (S i). induction m; intros; cbn; auto.
    + intros x Hx. apply in_seq in Hx. unfold isx. destruct (Nat.eqb_spec x i); lia.
  - rewrite IH; lia.
Qed.

Section Fill.
Variables (cs : list Z) (n : nat).
Let q := (n - 1)%nat.
Hypothesis Hlen : length cs = 257%nat.
Hypothesis Hn2 : (2 <= n <= 255)%nat.
Hypothesis Hcs : forall x, (x < n)%nat -> 1 <= gz cs x <= 32.
Hypothesis Hmax : forall x, (x < n)%nat -> gz cs x <= gz cs q.

Definition lex (x i : nat) : Z :=
  if gz cs x <? gz cs i then 1 else if gz cs x =? gz cs i then (if (x <? i)%nat then 1 else 0) else 0.
Definition posn (i : nat) : Z := sumf (fun x => lex x i) (seq 0 n).

Lemma lex_cases x i : (lex x i = 1 /\ (gz cs x < gz cs i \/ (gz cs x = gz cs i /\ (x < i)%nat))) \/
  (lex x i = 0 /\ (gz cs i < gz cs x \/ (gz cs x = gz cs i /\ (i <= x)%nat))).
Proof.
  unfold lex. destruct (Z.ltb_spec (gz cs x) (gz cs i)); [left; lia|].
  destruct (Z.eqb_spec (gz cs x) (gz cs i)); [|right; lia].
  destruct (Nat.ltb_spec x i); [left|right]; lia.
Qed.

Lemma posn_lt i j : (i < n)%nat -> lex i j = 1 -> posn i < posn j.
Proof.
  intros Hi Hl. unfold posn.
  assert (sumf (fun x => lex x i + isx i x) (seq 0 n) <= sumf (fun x => lex x j) (seq 0 n)).
  { apply sumf_mono. intros x Hx. unfold isx.
    destruct (lex_cases x i) as [[-> ?]|[-> ?]]; destruct (lex_cases x j) as [[-> ?]|[-> ?]];
      destruct (lex_cases i j) as [[? ?]|[? ?]]; destruct (Nat.eqb_spec x i); subst; try lia. }
  rewrite sumf_plus, sumf_isx in H by lia. lia.
Qed.

Lemma posn_inj i j : (i < n)%nat -> (j < n)%nat -> posn i = posn j -> i = j.
Proof.
  intros Hi Hj E. destruct (lex_cases i j) as [[H1 H2]|[H1 H2]].
  - pose proof (posn_lt i j Hi H1). lia.
  - destruct (lex_cases j i) as [[H3 H4]|[H3 H4]].
    + pose proof (posn_lt j i Hj H3). lia.
    + lia.
Qed.

Lemma posn_bound i : (i < q)%nat -> 0 <= posn i < Z.of_nat q.
Proof.
  intros Hi. split.
  - unfold posn. apply sumf_nonneg. intros x _. destruct (lex_cases x i) as [[-> ?]|[-> ?]]; lia.
  - assert (posn i < posn q).
    { apply posn_lt; [lia|]. destruct (lex_cases i q) as [[? ?]|[? ?]]; auto. specialize (Hmax i ltac:(lia)). lia. }
    assert (posn q + 1 <= Z.of_nat n); [|unfold q in *; lia].
    unfold posn. rewrite <- (sumf_isx q n 0) by (unfold q in *; lia). rewrite <- sumf_plus.
    rewrite <- (seq_length n 0) at 2. rewrite <- sumf_one. apply sumf_mono. intros x Hx. unfold isx.
    destruct (Nat.eqb_spec x q) as [Ex|Ex]; destruct (lex_cases x q) as [[E1 E2]|[E1 E2]]; rewrite ?E1; try lia.
    rewrite Ex in E2. lia.
Qed.

Definition eqf (l k : Z) : Z := if k =? l then 1 else 0.
Definition bp_ok (i : nat) (bp : list Z) : Prop := length bp = 33%nat /\
  forall l, 1 <= l <= 32 ->
    nth (Z.to_nat l) bp 0 = sumf (fun x => ltf l (gz cs x)) (seq 0 n) + sumf (fun x => eqf l (gz cs x)) (seq 0 i).

Lemma bp_pos i bp : (i < n)%nat -> bp_ok i bp -> nth (Z.to_nat (gz cs i)) bp 0 = posn i.
Proof.
  intros Hi [_ H]. rewrite H by auto. unfold posn.
  replace n with (i + (n - i))%nat by lia. rewrite seq_app, !sumf_app. cbn [Nat.add].
  rewrite (sumf_ext (fun x => lex x i) (fun x => ltf (gz cs i) (gz cs x) + eqf (gz cs i) (gz cs x)) (seq 0 i)).
  - rewrite sumf_plus.
    rewrite (sumf_ext (fun x => lex x i) (fun x => ltf (gz cs i) (gz cs x)) (seq i (n - i))); [lia|].
    intros x Hx. apply in_seq in Hx. unfold lex, ltf.
    destruct (Z.ltb_spec (gz cs x) (gz cs i)); auto. destruct (gz cs x =? gz cs i); auto.
    destruct (Nat.ltb_spec x i); lia.
  - intros x Hx. apply in_seq in Hx. unfold lex, ltf, eqf.
    destruct (Z.ltb_spec (gz cs x) (gz cs i)); destruct (Z.eqb_spec (gz cs x) (gz cs i)); try lia.
    destruct (Nat.ltb_spec x i); lia.
Qed.

Variable nz : list Z.
Hypothesis Hnz : length nz = n.
Hypothesis Hnzb : forall i, (i < q)%nat -> 0 <= gz nz i < 256.

Lemma skipn_cons_nth {A} (l : list A) i d : (i < length l)%nat -> skipn i l = nth i l d :: skipn (S i) l.
Proof. revert i; induction l as [|a l IH]; intros [|i] H; cbn in *; try lia; auto. apply IH; lia. Qed.

Lemma fill_spec : forall k i bp hv, (i + k = q)%nat -> bp_ok i bp -> length hv = 256%nat ->
  exists hv', fill_huffval (skipn i (firstn q cs)) (skipn i nz) bp hv = Ret hv' /\ length hv' = 256%nat /\
    (forall j, (i <= j < q)%nat -> nth (Z.to_nat (posn j)) hv' 0 = gz nz j) /\
    (forall p, (forall j, (i <= j < q)%nat -> p <> Z.to_nat (posn j)) -> nth p hv' 0 = nth p hv 0).
Proof.
  induction k as [|k IH]; intros i bp hv Hk Hbp Hhv.
  - exists hv. rewrite (skipn_all2 (firstn q cs)) by (rewrite firstn_length; lia). cbn [fill_huffval].
    repeat apply conj; auto. intros; lia.
  - rewrite (skipn_cons_nth (firstn q cs) i 0) by (rewrite firstn_length; lia).
    rewrite (skipn_cons_nth nz i 0) by lia. cbn [fill_huffval].
    assert (Ec : nth i (firstn q cs) 0 = gz cs i).
    { rewrite <- (firstn_skipn q cs) at 2. rewrite app_nth1; auto. rewrite firstn_length; lia. }
    rewrite Ec. specialize (Hcs i ltac:(unfold q in *; lia)) as Hci.
    pose proof Hbp as [Lb Bb].
    rewrite (aget_nth bp _ 0) by lia. cbn [bind]. rewrite (bp_pos i bp) by (auto; unfold q in *; lia).
    pose proof (posn_bound i ltac:(lia)) as Hp.
    rewrite aset_ok by (unfold q in *; lia). cbn [bind]. rewrite aset_ok by lia. cbn [bind].
    rewrite u8_id by (specialize (Hnzb i ltac:(lia)); lia).
    destruct (IH (S i) (upd bp (Z.to_nat (gz cs i)) (posn i + 1)) (upd hv (Z.to_nat (posn i)) (gz nz i))) as (hv' & E & L' & G1 & G2).
    + lia.
    + split; [rewrite length_upd; auto|]. intros l Hl.
      rewrite seq_S, sumf_app. cbn [sumf Nat.add]. unfold eqf at 2.
      destruct (Z.eqb_spec (gz cs i) l) as [<-|Hne].
      * rewrite nth_upd_eq by lia. rewrite <- (bp_pos i bp) by (auto; unfold q in *; lia). rewrite Bb by auto. lia.
      * rewrite nth_upd_neq by lia. rewrite Bb by auto. lia.
    + rewrite length_upd; auto.
    + exists hv'. repeat apply conj; auto.
      * intros j Hj. destruct (Nat.eq_dec i j) as [<-|]; [|apply G1; lia].
        rewrite G2.
        -- apply nth_upd_eq. unfold q in *; lia.
        -- intros j Hj2 Ej. assert (i = j); [|lia].
           pose proof (posn_bound j ltac:(lia)). apply posn_inj; unfold q in *; lia.
      * intros p Hpj. rewrite G2 by (intros; apply Hpj; lia). apply nth_upd_neq.
        intros E1. apply (Hpj i); auto; lia.
Qed.

Lemma fill_perm bp hv : NoDup (firstn q nz) -> bp_ok 0 bp -> length hv = 256%nat ->
  exists hv', fill_huffval (firstn q cs) nz bp hv = Ret hv' /\ length hv' = 256%nat /\
    Permutation (firstn q hv') (firstn q nz) /\ skipn q hv' = skipn q hv.
Proof.
  intros Hnd Hbp Hhv. destruct (fill_spec q 0 bp hv ltac:(lia) Hbp Hhv) as (hv' & E & L & G1 & G2).
  exists hv'. repeat apply conj; auto.
  - symmetry. apply NoDup_Permutation_bis; auto.
    + rewrite !firstn_length. unfold q; lia.
    + intros s Hs. apply (In_nth _ _ 0) in Hs as (i & Hi & <-). rewrite firstn_length in Hi.
      assert (Hi' : (i < q)%nat) by lia. pose proof (posn_bound i Hi') as Hp.
      replace (nth i (firstn q nz) 0) with (gz nz i).
      2:{ rewrite <- (firstn_skipn q nz) at 1. rewrite app_nth1; auto. rewrite firstn_length; lia. }
      rewrite <- (G1 i) by lia.
      replace (nth (Z.to_nat (posn i)) hv' 0) with (nth (Z.to_nat (posn i)) (firstn q hv') 0).
      2:{ rewrite <- (firstn_skipn q hv') at 2. rewrite app_nth1; auto. rewrite firstn_length; unfold q in *; lia. }
      apply nth_In. rewrite firstn_length. unfold q in *; lia.
  - apply (nth_ext _ _ 0 0); [rewrite !skipn_length; lia|]. intros i Hi. rewrite skipn_length in Hi.
    rewrite !nth_skipn_. apply G2. intros j Hj. pose proof (posn_bound j ltac:(lia)). lia.
Qed.
End Fill.

(* ---- the whole function ---- *)
Definition used_symbols (freq : list Z) : list Z :=
  filter (fun s => 0 <? nth (Z.to_nat s) freq 0) (map Z.of_nat (seq 0 256)).

Lemma filter_ext_in' {A} (f g : A -> bool) l : (forall x, In x l -> f x = g x) -> filter f l = filter g l.
Proof. induction l; cbn; intros H; auto. rewrite H by auto. rewrite IHl; auto. Qed.

Lemma seq257 : seq 0 257 = seq 0 256 ++ [256%nat].
Proof. vm_compute. reflexivity. Qed.
Lemma nat256 : Z.to_nat 256 = 256%nat.
Proof. vm_compute. reflexivity. Qed.
Lemma zof256 : Z.of_nat 256 = 256.
Proof. vm_compute. reflexivity. Qed.
Lemma wp_lt freq i : length freq = 257%nat -> (i < 256)%nat -> nth i (with_pseudo freq) 0 = nth i freq 0.
Proof.
  intros L Hi. unfold with_pseudo. rewrite app_nth1 by (rewrite firstn_length; lia).
  rewrite <- (firstn_skipn 256 freq) at 2. rewrite app_nth1; auto. rewrite firstn_length; lia.
Qed.
Lemma wp_256 freq : length freq = 257%nat -> nth 256 (with_pseudo freq) 0 = 1.
Proof.
  intros L. unfold with_pseudo.
  assert (E : length (firstn 256 freq) = 256%nat) by (rewrite firstn_length; lia).
  rewrite app_nth2 by lia. rewrite E, Nat.sub_diag. reflexivity.
Qed.

Lemma nz_eq freq : length freq = 257%nat -> Forall (fun x => 0 <= x) freq ->
  nz_index_of (with_pseudo freq) = used_symbols freq ++ [256].
Proof.
  intros L N. pose proof (wp_lt freq) as Hnth. pose proof (wp_256 freq L) as H256.
  unfold nz_index_of. rewrite seq257, map_app, filter_app. unfold used_symbols. f_equal.
  - apply filter_ext_in'. intros s Hs. apply in_map_iff in Hs as (i & <- & Hi). apply in_seq in Hi.
    rewrite Nat2Z.id, Hnth by lia. pose proof (nn_nth freq i N).
    destruct (Z.ltb_spec 0 (nth i freq 0)); destruct (Z.eqb_spec (nth i freq 0) 0); cbn [negb]; auto; lia.
  - cbn [map filter]. rewrite Nat2Z.id, H256, zof256. reflexivity.
Qed.

Lemma used_range freq s : In s (used_symbols freq) -> 0 <= s < 256.
Proof. unfold used_symbols. rewrite filter_In. intros [H _]. apply in_map_iff in H as (i & <- & Hi). apply in_seq in Hi. lia. Qed.

Lemma nz_split freq : length freq = 257%nat -> Forall (fun x => 0 <= x) freq ->
  nz_index_of (with_pseudo freq) = used_symbols freq ++ [256] /\
  grouped (with_pseudo freq) = map (fun s => nth (Z.to_nat s) freq 0) (used_symbols freq) ++ [1].
Proof.
  intros L N. pose proof (nz_eq freq L N) as E.
  split; [exact E|]. unfold grouped. rewrite E, map_app. f_equal.
  - apply map_ext_in. intros s Hs. apply used_range in Hs. apply wp_lt; auto; lia.
  - cbn [map]. rewrite nat256, wp_256 by auto. reflexivity.
Qed.

Definition zsum (l : list Z) : Z := fold_right Z.add 0 l.
Lemma zsum_app a b : zsum (a ++ b) = zsum a + zsum b.
Proof. unfold zsum. induction a; cbn [fold_right app]; lia. Qed.

Lemma zsum_nth (l : list Z) : sumf (fun x => nth x l 0) (seq 0 (length l)) = zsum l.
Proof.
  induction l as [|a l IH] using rev_ind; auto.
  rewrite app_length. cbn [length]. rewrite Nat.add_1_r, seq_S, sumf_app, zsum_app. cbn [sumf Nat.add zsum fold_right].
  rewrite app_nth2, Nat.sub_diag by lia. cbn [nth]. rewrite <- IH.
  rewrite (sumf_ext _ (fun x => nth x l 0)); [lia|]. intros x Hx. apply in_seq in Hx. apply app_nth1. lia.
Qed.

Lemma zsum_used freq : Forall (fun x => 0 <= x) freq -> length freq = 257%nat ->
  zsum (map (fun s => nth (Z.to_nat s) freq 0) (used_symbols freq)) = zsum (firstn 256 freq).
Proof.
  intros N L. unfold used_symbols.
  assert (G : forall m s, (forall i, (s <= i < s + m)%nat -> (i < 256)%nat) ->
    zsum (map (fun s => nth (Z.to_nat s) freq 0) (filter (fun s => 0 <? nth (Z.to_nat s) freq 0) (map Z.of_nat (seq s m))))
    = sumf (fun x => nth x (firstn 256 freq) 0) (seq s m)).
  { induction m as [|m IH]; intros s Hs; auto. cbn [seq map filter sumf].
    rewrite Nat2Z.id.
    assert (E : nth s (firstn 256 freq) 0 = nth s freq 0).
    { rewrite <- (firstn_skipn 256 freq) at 2. rewrite app_nth1; auto. specialize (Hs s ltac:(lia)). rewrite firstn_length; lia. }
    rewrite E. rewrite <- IH by (intros; apply Hs; lia). pose proof (nn_nth freq s N).
    destruct (Z.ltb_spec 0 (nth s freq 0)).
    - cbn [map zsum fold_right]. rewrite Nat2Z.id. auto.
    - lia. }
  rewrite G by (intros; lia). rewrite <- zsum_nth. rewrite firstn_length, L. reflexivity.
Qed.

Lemma used_nodup freq : NoDup (used_symbols freq).
Proof. apply NoDup_filter. apply FinFun.Injective_map_NoDup; [intros a b H; lia|apply seq_NoDup]. Qed.


Lemma sumZ_cs f cs n : (n <= length cs)%nat -> sumZ f (firstn n cs) = sumf (fun x => f (gz cs x)) (seq 0 n).
Proof.
  revert n; induction cs as [|c cs IH]; intros n H; [cbn in H; assert (n = 0%nat) by lia; subst; auto|].
  destruct n as [|n]; auto. cbn in H. cbn [firstn sumZ seq sumf nth]. rewrite IH by lia. f_equal.
  rewrite <- seq_shift. clear. induction (seq 0 n) as [|a l IHl]; cbn [map sumf nth]; auto. rewrite IHl. auto.
Qed.

Lemma used_spec freq s : In s (used_symbols freq) <-> 0 <= s < 256 /\ 0 < nth (Z.to_nat s) freq 0.
Proof.
  unfold used_symbols. rewrite filter_In, in_map_iff, Z.ltb_lt. split; intros [H1 H2]; split; auto.
  - destruct H1 as (i & <- & Hi). apply in_seq in Hi. lia.
  - exists (Z.to_nat s). split; [lia|apply in_seq; lia].
Qed.

Local Opaque used_symbols.
Lemma gen_table_spec old freq :
  length freq = 257%nat -> Forall (fun x => 0 <= x) freq -> length (hval old) = 256%nat ->
  (length (used_symbols freq) <= 254)%nat -> zsum (firstn 256 freq) < 1000000000 ->
  match jpeg_gen_optimal_table old freq with
  | Ret t => length (hbits t) = 17%nat /\ Forall (fun x => 0 <= x < 256) (hbits t) /\ length (hval t) = 256%nat /\
       code_space_ok (hbits t) /\ length (code_sizes (hbits t)) = length (used_symbols freq) /\ Permutation (listed (hbits t) (hval t)) (used_symbols freq) /\ skipn (length (used_symbols freq)) (hval t) = skipn (length (used_symbols freq)) (hval old)
  | Error e => e = JERR_HUFF_CLEN_OVERFLOW
  | Undef => False
  end.
Proof.
  intros L N Lv Hu Ht. unfold jpeg_gen_optimal_table. rewrite L. cbn [Nat.eqb negb].
  destruct (nz_split freq L N) as [E1 E2]. cbv zeta. rewrite E1, E2.
  set (fr0 := map (fun s => nth (Z.to_nat s) freq 0) (used_symbols freq) ++ [1]).
  set (u := length (used_symbols freq)) in *.
  assert (Lf : length fr0 = S u) by (unfold fr0; rewrite app_length, map_length; cbn [length]; fold u; lia).
  rewrite app_length. cbn [length]. fold u. rewrite Nat.add_1_r.
  destruct (merge_spec fr0) as (cs & Em & M1 & M2 & M3 & M4).
  - rewrite Lf. lia.
  - unfold fr0. apply Forall_app. split; [|repeat constructor; lia]. apply Forall_map. apply Forall_forall.
    intros s Hs. apply used_spec in Hs. lia.
  - rewrite zsum_nth. unfold fr0. rewrite zsum_app, zsum_used by auto. cbn [zsum fold_right]. unfold BIG. lia.
  - rewrite Lf. discriminate.
  - rewrite Lf. unfold fr0. rewrite app_nth2; rewrite map_length; fold u; [|lia]. replace (S u - 1 - u)%nat with 0%nat by lia. auto.
  - fold fr0. rewrite Em. cbn [bind]. rewrite Lf in *.
    assert (Fc : Forall (fun c => 0 <= c) (firstn (S u) cs)).
    { apply Forall_forall. intros c Hc. apply (In_nth _ _ 0) in Hc as (i & Hi & <-). rewrite firstn_length in Hi.
      replace (nth i (firstn (S u) cs) 0) with (gz cs i); [apply M2; lia|].
      rewrite <- (firstn_skipn (S u) cs) at 1. rewrite app_nth1; auto. rewrite firstn_length; lia. }
    destruct (Nat.eq_dec u 0) as [U0|U0].
    + (* no symbols at all *)
      assert (C0 : firstn (S u) cs = [0]).
      { rewrite U0. destruct cs as [|c cs]; [discriminate|]. cbn. specialize (M2 0%nat ltac:(lia)). cbn in M2. f_equal. lia. }
      rewrite C0. rewrite U0. cbn [Nat.sub firstn].
      change (count_bits [0] (repeat 0 33)) with (Ret (1 :: repeat 0 32)). cbn [bind].
      assert (Eb : make_bit_pos (1 :: repeat 0 32) = Ret (-1 :: repeat 0 32)) by reflexivity. rewrite Eb. cbn [bind].
      assert (El : limit_lengths (1 :: repeat 0 32) = Ret (1 :: repeat 0 32)) by reflexivity. rewrite El. cbn [bind].
      assert (Ed : drop_pseudo (1 :: repeat 0 32) = Ret (repeat 0 33)) by reflexivity. rewrite Ed. cbn [bind fill_huffval].
      assert (Un : used_symbols freq = []) by (destruct (used_symbols freq); [auto|discriminate]).
      cbn [hbits hval]. repeat apply conj; auto.
      * apply Forall_forall. intros x Hx. apply (repeat_spec 17) in Hx. lia.
      * cbn. lia.
      * cbn. reflexivity.
      * rewrite Un. constructor.
    + pose proof (count_bits_spec (firstn (S u) cs) (repeat 0 33) Fc) as HB.
      assert (S0 : forall f, Sb f (repeat 0 33) 0 = 0) by (intros; cbn [repeat Sb]; lia).
      rewrite S0 in HB. rewrite firstn_length in HB.
      specialize (HB eq_refl ltac:(apply Forall_forall; intros x Hx; apply (repeat_spec 33) in Hx; lia) ltac:(lia)).
      destruct (count_bits (firstn (S u) cs) (repeat 0 33)) as [b|e|]; [|tauto|tauto].
      destruct HB as (B1 & B2 & B3 & B4). cbn [bind].
      assert (C32 : forall x, (x < S u)%nat -> gz cs x <= 32).
      { intros x Hx. rewrite Forall_forall in B1. apply B1.
        replace (gz cs x) with (nth x (firstn (S u) cs) 0).
        2:{ rewrite <- (firstn_skipn (S u) cs) at 2. rewrite app_nth1; auto. rewrite firstn_length; lia. }
        apply nth_In. rewrite firstn_length; lia. }
      assert (SB : forall f, Sb f b 0 = sumf (fun x => f (gz cs x)) (seq 0 (S u))).
      { intros f. rewrite B4, S0, sumZ_cs by lia. lia. }
      assert (Kr : sumf (fun x => kr (gz cs x)) (seq 0 (S u)) = 2 ^ 32).
      { specialize (M4 (Z.of_nat (S u) + 32) ltac:(lia)). unfold ksum in M4.
        rewrite (sumf_ext _ (fun x => 2 ^ Z.of_nat (S u) * kr (gz cs x))) in M4.
        - rewrite sumf_scale, Z.pow_add_r in M4 by lia. apply Z.mul_reg_l in M4; auto.
          assert (0 < 2 ^ Z.of_nat (S u)) by (apply Z.pow_pos_nonneg; lia). lia.
        - intros x Hx. apply in_seq in Hx. unfold kr. specialize (C32 x ltac:(lia)). rewrite <- Z.pow_add_r by lia. f_equal. lia. }
      assert (C1 : forall x, (x < S u)%nat -> 1 <= gz cs x).
      { intros x Hx. destruct (Z_le_gt_dec 1 (gz cs x)); auto. exfalso.
        specialize (M2 x Hx). assert (Ex : gz cs x = 0) by lia.
        assert (Hy : exists y, (y < S u)%nat /\ y <> x) by (destruct x; [exists 1%nat|exists 0%nat]; lia).
        destruct Hy as (y & Hy & Hyx).
        assert (sumf (fun z => kr 0 * isx x z + isx y z) (seq 0 (S u)) <= 2 ^ 32).
        { rewrite <- Kr. apply sumf_mono. intros z Hz. apply in_seq in Hz. unfold isx.
          assert (1 <= kr (gz cs z)). { unfold kr. specialize (C32 z ltac:(lia)). change 1 with (2 ^ 0). apply Z.pow_le_mono_r; lia. }
          destruct (Nat.eqb_spec z x); destruct (Nat.eqb_spec z y); subst; try rewrite Ex; lia. }
        rewrite sumf_plus, sumf_scale, !sumf_isx in H by lia. unfold kr in H. lia. }
      assert (B0 : nth 0 b 0 = 0).
      { change 0%nat with (Z.to_nat 0). rewrite <- Sb_ind0 by lia. rewrite SB. rewrite (sumf_ext _ (fun x => 0 * 1)), sumf_scale; [lia|].
        intros x Hx. apply in_seq in Hx. specialize (C1 x ltac:(lia)). unfold ind. destruct (Z.eqb_spec (gz cs x) 0); lia. }
      destruct (make_bit_pos_spec b B2 B0) as (bp & Ebp & Lbp & Hbp). rewrite Ebp. cbn [bind].
      assert (LM : lim (Z.of_nat (S u)) 32 b).
      { constructor; auto.
        - rewrite SB. unfold one. rewrite sumf_one, seq_length. auto.
        - rewrite SB. auto.
        - intros; lia. }
      destruct (limit_lengths_spec (Z.of_nat (S u)) b ltac:(lia) LM) as (b1 & El & LM1). rewrite El. cbn [bind].
      destruct (drop_pseudo_spec (Z.of_nat (S u)) b1 ltac:(lia) LM1) as (b2 & Ed & D1 & D2 & D3 & D4 & D5 & D6 & D7). rewrite Ed. cbn [bind].
      destruct (fill_perm cs (S u) M1 ltac:(lia)) with (nz := used_symbols freq ++ [256]) (bp := bp) (hv := hval old) as (hv & Ef & Lh & Ph & Sh); auto.
      * rewrite app_length; cbn; lia.
      * intros i Hi. rewrite app_nth1 by (fold u; lia). apply (used_range freq). apply nth_In. fold u; lia.
      * replace (S u - 1)%nat with u by lia. rewrite firstn_app. fold u. rewrite Nat.sub_diag. cbn [firstn]. rewrite app_nil_r.
        unfold u. rewrite firstn_all. apply used_nodup.
      * split; auto. intros l Hl. rewrite Hbp, SB by auto. cbn [seq sumf]. lia.
      * rewrite Ef. cbn [bind hbits hval]. replace (S u - 1)%nat with u in * by lia.
        destruct (bits_code_sizes b2 D1 D2 D5 D6) as [CS1 CS2].
        assert (CL : length (code_sizes (firstn 17 b2)) = u) by lia.
        repeat apply conj; auto.
        -- rewrite firstn_length; lia.
        -- apply Forall_forall. intros x Hx.
           assert (In x b2) by (rewrite <- (firstn_skipn 17 b2); apply in_or_app; auto).
           rewrite Forall_forall in D2, D7. auto.
        -- rewrite CL. lia.
        -- lia.
        -- unfold listed. rewrite CL. etransitivity; [exact Ph|].
           rewrite firstn_app. fold u. rewrite Nat.sub_diag. cbn [firstn]. rewrite app_nil_r. unfold u. rewrite firstn_all. apply Permutation_refl.
Qed.
