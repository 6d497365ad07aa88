(* P_Sample.v -- proofs about M_Sample *)
From Verif Require Import Base M_Sample S_Sample.
From Coq Require Import Znumtheory.

(* a list given by a function of the index *)
Definition tab {A} (n : Z) (f : Z -> A) : list A := map (fun k => f (Z.of_nat k)) (seq 0 (Z.to_nat n)).

Lemma tab_len {A} n (f : Z -> A) : 0 <= n -> Z.of_nat (length (tab n f)) = n.
Proof. intros. unfold tab. rewrite map_length, seq_length. lia. Qed.
Lemma tab_0 {A} (f : Z -> A) : tab 0 f = [].
Proof. reflexivity. Qed.
Lemma tab_S {A} n (f : Z -> A) : 0 <= n -> tab (n + 1) f = tab n f ++ [f n].
Proof. intros. unfold tab. replace (Z.to_nat (n + 1)) with (Z.to_nat n + 1)%nat by lia.
  rewrite seq_app, map_app. cbn. rewrite Z2Nat.id by lia. reflexivity. Qed.
Lemma tab_nth {A} n (f : Z -> A) i : 0 <= i < n -> nth_error (tab n f) (Z.to_nat i) = Some (f i).
Proof. intros. unfold tab. rewrite nth_error_map.
  assert (E : nth_error (seq 0 (Z.to_nat n)) (Z.to_nat i) = Some (Z.to_nat i)).
  { rewrite (nth_error_nth' _ 0%nat) by (rewrite seq_length; lia). rewrite seq_nth by lia. reflexivity. }
  rewrite E. cbn. rewrite Z2Nat.id by lia. reflexivity. Qed.
Lemma tab_ext {A} n (f g : Z -> A) : (forall i, 0 <= i < n -> f i = g i) -> tab n f = tab n g.
Proof. intros. unfold tab. apply map_ext_in. intros k K. apply in_seq in K. apply H. lia. Qed.

Lemma firstn_tab {A} n m (f : Z -> A) : 0 <= m <= n -> firstn (Z.to_nat m) (tab n f) = tab m f.
Proof. intros. unfold tab. rewrite firstn_map. f_equal.
  replace (Z.to_nat n) with (Z.to_nat m + Z.to_nat (n - m))%nat by lia.
  rewrite seq_app, firstn_app, seq_length, Nat.sub_diag, firstn_O, app_nil_r.
  apply firstn_all2. rewrite seq_length. lia. Qed.

Lemma put_tab cap n f v : 0 <= n < cap -> v = f n -> put cap (tab n f) v = Ret (tab (n + 1) f).
Proof. intros H ->. unfold put. rewrite tab_len by lia. rewrite (proj2 (Z.ltb_lt n cap)) by lia.
  rewrite tab_S by lia. reflexivity. Qed.
Lemma putrow_tab N n f v : 0 <= n < N -> v = f n -> putrow N (tab n f) v = Ret (tab (n + 1) f).
Proof. intros H ->. unfold putrow. rewrite tab_len by lia. rewrite (proj2 (Z.ltb_lt n N)) by lia.
  rewrite tab_S by lia. reflexivity. Qed.

Definition prec (p : Z) : Prop := p = 8 \/ p = 12 \/ p = 16.

Lemma jsample_id p v : prec p -> 0 <= v < 2 ^ p -> jsample p v = v.
Proof. intros [-> | [-> | ->]] H; unfold jsample; cbn [Z.eqb Pos.eqb].
  - apply Z.mod_small; lia.
  - unfold s16. change (2 ^ 12) with 4096 in H. rewrite Z.mod_small; lia.
  - apply Z.mod_small; lia. Qed.

Lemma emit_tab p cap n f e sh : prec p -> 0 <= n < cap -> 0 <= e < 2 ^ 31 -> 0 <= sh ->
  e / 2 ^ sh = f n -> 0 <= f n < 2 ^ p -> emit p cap (tab n f) e sh = Ret (tab (n + 1) f).
Proof. intros Hp Hn He Hs E Hf. unfold emit.
  rewrite (proj2 (Z.leb_le _ _)) by lia. rewrite (proj2 (Z.ltb_lt e _)) by lia. cbn [andb].
  apply put_tab; [lia|]. rewrite Z.shiftr_div_pow2 by lia. rewrite E. now apply jsample_id. Qed.

Lemma for_inv {S} (P : Z -> S -> Prop) n : forall i body s,
  (forall j s, i <= j < i + Z.of_nat n -> P j s -> exists s', body j s = Ret s' /\ P (j + 1) s') -> P i s ->
  exists s', for_loop n i body s = Ret s' /\ P (i + Z.of_nat n) s'.
Proof.
  induction n as [|n IH]; intros i body s HB H.
  - exists s. cbn. replace (i + 0) with i by lia. auto.
  - destruct (HB i s ltac:(lia) H) as (s1 & E1 & H1). cbn [for_loop]. rewrite E1. cbn [bind].
    destruct (IH (i + 1) body s1) as (s2 & E2 & H2); [intros j s' Hj; apply HB; lia|auto|].
    exists s2. split; [auto|]. replace (i + Z.of_nat (Datatypes.S n)) with (i + 1 + Z.of_nat n) by lia. auto.
Qed.

(* for a state that is a function of the counter *)
Lemma for_tab {S} (st : Z -> S) n i body :
  (forall j, i <= j < i + Z.of_nat n -> body j (st j) = Ret (st (j + 1))) ->
  for_loop n i body (st i) = Ret (st (i + Z.of_nat n)).
Proof.
  intros H. destruct (for_inv (fun j s => s = st j) n i body (st i)) as (s & E & ->); auto.
  intros j s Hj ->. eauto. Qed.

Lemma while_tab {S} (st : Z -> S) K cond body : forall fuel k,
  0 <= k <= K -> K - k <= Z.of_nat fuel ->
  (forall j, k <= j < K -> cond (st j) = true /\ body (st j) = Ret (st (j + 1))) -> cond (st K) = false ->
  while_loop fuel cond body (st k) = Ret (st K).
Proof.
  induction fuel as [|f IH]; intros k Hk Hf H HK.
  - replace k with K by lia. cbn. rewrite HK. reflexivity.
  - destruct (Z.eq_dec k K) as [-> |N].
    + cbn [while_loop]. rewrite HK. reflexivity.
    + destruct (H k ltac:(lia)) as (C & B). cbn [while_loop]. rewrite C, B. cbn [bind].
      apply IH; try lia; auto. intros j Hj; apply H; lia.
Qed.

(* a row that starts with the w samples f 0 .. f (w-1), all of precision p *)
Definition rowf (p w : Z) (r : row) (f : Z -> Z) : Prop :=
  forall x, 0 <= x < w -> aget r x = Ret (f x) /\ 0 <= f x < 2 ^ p.

(* value of an array of rows at a position *)
Definition px (rs : rows) : pic := fun y x =>
  match rs y with Some r => nth (Z.to_nat x) r 0 | None => 0 end.

(* rows lo..hi-1 exist and hold w samples of precision p *)
Definition have (p lo hi w : Z) (rs : rows) : Prop :=
  forall y, lo <= y < hi -> exists r, rs y = Some r /\ w <= Z.of_nat (length r) /\
    forall x, 0 <= x < w -> 0 <= nth (Z.to_nat x) r 0 < 2 ^ p.

Lemma have_get p lo hi w rs y : have p lo hi w rs -> lo <= y < hi ->
  exists r, rget rs y = Ret r /\ rowf p w r (px rs y) /\ w <= Z.of_nat (length r).
Proof. intros H Hy. destruct (H y Hy) as (r & E & L & V). exists r. unfold rget, px. rewrite E.
  split; [reflexivity|]. split; [|auto]. intros x Hx. split; [|apply V; lia]. rewrite (aget_nth r x 0) by lia. reflexivity. Qed.

Lemma pow_prec p : p = 8 \/ p = 12 -> 256 <= 2 ^ p <= 4096.
Proof. intros [-> | ->]; cbn; lia. Qed.
Lemma prec_pow p : prec p -> 256 <= 2 ^ p <= 65536.
Proof. intros [-> | [-> | ->]]; cbn; lia. Qed.

(* ------------------------------------------------------------------ *)
(* replication *)

Definition ceil_div a b := (a + b - 1) / b.

Lemma ceil_div_spec a b : 0 < b -> b * (ceil_div a b - 1) < a <= b * ceil_div a b.
Proof. intros. unfold ceil_div. pose proof (Z.div_mod (a + b - 1) b ltac:(lia)).
  pose proof (Z.mod_pos_bound (a + b - 1) b ltac:(lia)). lia. Qed.

Lemma u_cap_spec c : 0 < u_max_h c -> u_ow c <= u_cap c /\ u_cap c mod u_max_h c = 0 /\ u_cap c < u_ow c + u_max_h c.
Proof. intros H. unfold u_cap. set (a := u_ow c + u_max_h c - 1).
  pose proof (Z.mod_pos_bound a (u_max_h c) H). split; [subst a; lia|]. split.
  - replace (a - a mod u_max_h c) with ((a / u_max_h c) * u_max_h c); [apply Z_mod_mult|].
    pose proof (Z.div_mod a (u_max_h c) ltac:(lia)). lia.
  - subst a. lia. Qed.

(* every multiple of a divisor of max_h that is reached while covering output_width fits the buffer *)
Lemma cap_mult c h k : 0 < h -> 0 < u_max_h c -> u_max_h c mod h = 0 -> h * (k - 1) < u_ow c -> h * k <= u_cap c.
Proof.
  intros Hh Hm D Hk. destruct (u_cap_spec c Hm) as (A & B & _).
  apply Z.mod_divide in B; [|lia]. apply Z.mod_divide in D; [|lia].
  destruct (Z.divide_trans _ _ _ D B) as (q & Q). clear B D. assert (k - 1 < q) by nia. nia. Qed.

Lemma box_row_inner c h v f : 0 <= h -> forall j, 0 <= j -> h + j <= u_cap c -> (forall i, j <= i < j + h -> f i = v) ->
  for_loop (Z.to_nat h) 0 (fun _ out => put (u_cap c) out v) (tab j f) = Ret (tab (j + h) f).
Proof.
  intros Hh j Hj HC Hf.
  pose proof (for_tab (fun k => tab (j + k) f) (Z.to_nat h) 0 (fun _ out => put (u_cap c) out v)) as E.
  cbn beta in E. rewrite Z.add_0_r in E. rewrite E.
  - do 2 f_equal. lia.
  - intros k Hk. replace (j + (k + 1)) with (j + k + 1) by lia. apply put_tab; [lia|]. symmetry. apply Hf. lia.
Qed.

Lemma int_up_row_ok c h r f p w : 0 < h -> 0 < u_max_h c -> u_max_h c mod h = 0 -> 0 <= u_ow c ->
  rowf p w r f -> ceil_div (u_ow c) h <= w ->
  int_up_row c h r = Ret (tab (h * ceil_div (u_ow c) h) (fun x => f (x / h))).
Proof.
  intros Hh Hm D Hw R W. unfold int_up_row. set (K := ceil_div (u_ow c) h).
  pose proof (ceil_div_spec (u_ow c) h Hh) as HK. fold K in HK.
  assert (0 <= K) by (destruct (Z.le_gt_cases 0 K); auto; nia).
  set (g := fun x => f (x / h)).
  pose proof (while_tab (fun k => (k, tab (h * k) g)) K
    (fun '(_, out) => Z.of_nat (length out) <? u_ow c)
    (fun '(pos, out) => invalue <- aget r pos ;;
       out <- for_loop (Z.to_nat h) 0 (fun _ out => put (u_cap c) out invalue) out ;; Ret (pos + 1, out))
    (Z.to_nat (u_ow c)) 0) as E. cbn beta iota in E. rewrite Z.mul_0_r, tab_0 in E. rewrite E; [reflexivity| lia | nia | | ].
  - intros j Hj. split.
    + apply Z.ltb_lt. rewrite tab_len by nia. nia.
    + destruct (R j ltac:(lia)) as (-> & _). cbn [bind]. rewrite (box_row_inner c h (f j) g); [| lia | nia | | ].
      * cbn [bind]. do 3 f_equal. lia.
      * replace (h + h * j) with (h * (j + 1)) by lia. apply cap_mult; auto. nia.
      * intros i Hi. unfold g. f_equal. symmetry. apply (Z.div_unique i h j (i - h * j)); lia.
  - apply Z.ltb_ge. rewrite tab_len by nia. lia.
Qed.

(* the two-sample special case computes the same *)
Lemma h2_up_row_eq c r : h2_up_row c r = int_up_row c 2 r.
Proof. unfold h2_up_row, int_up_row. f_equal.
  set (b1 := fun '(pos, out) => invalue <- aget r pos ;; out0 <- put (u_cap c) out invalue ;; out1 <- put (u_cap c) out0 invalue ;; Ret (pos + 1, out1)).
  set (b2 := fun '(pos, out) => invalue <- aget r pos ;; out0 <- for_loop (Z.to_nat 2) 0 (fun _ out0 => put (u_cap c) out0 invalue) out ;; Ret (pos + 1, out0)).
  assert (B : forall s, b1 s = b2 s).
  { intros (pos, out). unfold b1, b2. destruct (aget r pos); try reflexivity. change (Z.to_nat 2) with 2%nat. cbn. unfold put.
    destruct (_ <? _); [|reflexivity]. cbn. destruct (_ <? _); reflexivity. }
  generalize (Z.to_nat (u_ow c)) (0, @nil Z). intros n. induction n as [|n IH]; intros s; cbn; [reflexivity|].
  destruct s as (pos, out). destruct (_ <? _); [|reflexivity]. rewrite (B (pos, out)). destruct (b2 (pos, out)); cbn; auto. Qed.

Lemma nth_tab n f x : 0 <= x < n -> nth (Z.to_nat x) (tab n f) 0 = f x.
Proof. intros. apply nth_error_nth. now apply tab_nth. Qed.

(* rows of an output: m rows, each starting with ow samples of the picture Q *)
Definition shows (m ow : Z) (outs : list row) (Q : pic) : Prop :=
  Z.of_nat (length outs) = m /\
  forall y, 0 <= y < m -> exists r, nth_error outs (Z.to_nat y) = Some r /\ ow <= Z.of_nat (length r) /\
    forall x, 0 <= x < ow -> nth (Z.to_nat x) r 0 = Q y x.

Lemma shows_tab m ow (g : Z -> row) Q : 0 <= m ->
  (forall y, 0 <= y < m -> exists n f, g y = tab n f /\ ow <= n /\ forall x, 0 <= x < ow -> f x = Q y x) ->
  shows m ow (tab m g) Q.
Proof. intros Hm H. split; [apply tab_len; auto|]. intros y Hy. exists (g y). split; [apply tab_nth; auto|].
  destruct (H y Hy) as (n & f & -> & L & V). split.
  - destruct (Z.le_gt_cases 0 n); [rewrite tab_len; auto|lia].
  - intros x Hx. rewrite nth_tab by lia. auto. Qed.

Lemma div_small_row v k i : 0 < v -> 0 <= i < v -> (v * k + i) / v = k.
Proof. intros. symmetry. apply (Z.div_unique _ v k i); lia. Qed.

Lemma int_upsample_ok c h v inp p w :
  0 < h -> 0 < v -> 0 < u_max_h c -> u_max_h c mod h = 0 -> 0 < u_max_v c -> u_max_v c mod v = 0 -> 0 <= u_ow c ->
  ceil_div (u_ow c) h <= w -> have p 0 (u_max_v c / v) w inp ->
  exists outs, int_upsample c h v inp = Ret outs /\ shows (u_max_v c) (u_ow c) outs (box_up h v (px inp)).
Proof.
  intros Hh Hv Hmh Dh Hmv Dv Ho W HA. unfold int_upsample.
  set (K := u_max_v c / v) in *.
  assert (EV : u_max_v c = v * K) by (pose proof (Z.div_mod (u_max_v c) v ltac:(lia)); fold K in H; lia).
  assert (0 < K) by nia.
  set (N := h * ceil_div (u_ow c) h).
  pose proof (ceil_div_spec (u_ow c) h Hh) as HN. fold N in HN.
  assert (HN0 : 0 <= N) by lia.
  set (g := fun y => tab (if y mod v =? 0 then N else u_ow c) (fun x => px inp (y / v) (x / h))).
  pose proof (while_tab (fun k => (k, tab (v * k) g)) K
    (fun '(_, outs) => Z.of_nat (length outs) <? u_max_v c)
    (fun '(inrow, outs) =>
       r <- rget inp inrow ;;
       o <- int_up_row c h r ;;
       outs <- putrow (u_max_v c) outs o ;;
       outs <- (if 1 <? v then
                  d <- copy_row (u_ow c) o ;;
                  for_loop (Z.to_nat (v - 1)) 0 (fun _ outs => putrow (u_max_v c) outs d) outs
                else Ret outs) ;;
       Ret (inrow + 1, outs)) (Z.to_nat (u_max_v c)) 0) as E.
  cbn beta iota in E. rewrite Z.mul_0_r, tab_0 in E. rewrite E; [ | nia | nia | | ].
  - cbn [bind]. eexists. split; [reflexivity|]. rewrite <- EV. apply shows_tab; [lia|].
    intros y Hy. eexists _, _. split; [reflexivity|]. split; [|intros x Hx; reflexivity].
    destruct (_ =? 0); lia.
  - intros j Hj. split; [apply Z.ltb_lt; rewrite tab_len by nia; nia|].
    destruct (have_get _ _ _ _ _ j HA ltac:(lia)) as (r & -> & R & _). cbn [bind].
    rewrite (int_up_row_ok c h r (px inp j) p w); auto. cbn [bind]. fold N.
    rewrite (putrow_tab (u_max_v c) (v * j) g); [ | nia | ].
    2:{ unfold g. rewrite Z.mul_comm, Z_mod_mult. cbn [Z.eqb]. rewrite Z.div_mul by lia. reflexivity. }
    cbn [bind]. destruct (Z.ltb_spec 1 v).
    + unfold copy_row. rewrite tab_len by lia. rewrite (proj2 (Z.leb_le (u_ow c) N)) by lia. cbn [bind].
      rewrite firstn_tab by lia.
      pose proof (for_tab (fun k => tab (v * j + 1 + k) g) (Z.to_nat (v - 1)) 0
        (fun _ outs => putrow (u_max_v c) outs (tab (u_ow c) (fun x => px inp j (x / h))))) as E2.
      cbn beta in E2. rewrite Z.add_0_r in E2. rewrite E2.
      * cbn [bind]. do 3 f_equal. lia.
      * intros k Hk. replace (v * j + 1 + (k + 1)) with (v * j + 1 + k + 1) by lia. apply putrow_tab; [nia|].
        unfold g. replace (v * j + 1 + k) with (v * j + (1 + k)) by lia. rewrite div_small_row by lia.
        replace ((v * j + (1 + k)) mod v) with (1 + k).
        2:{ replace (v * j + (1 + k)) with ((1 + k) + j * v) by lia. rewrite Z_mod_plus_full. symmetry. apply Z.mod_small. lia. }
        destruct (Z.eqb_spec (1 + k) 0); [lia|]. reflexivity.
    + cbn [bind]. do 3 f_equal. lia.
  - apply Z.ltb_ge. rewrite tab_len by nia. lia.
Qed.

Lemma for_ext {S} n : forall i (b1 b2 : Z -> S -> outcome S) s, (forall j s, b1 j s = b2 j s) ->
  for_loop n i b1 s = for_loop n i b2 s.
Proof. induction n as [|n IH]; intros; cbn; [reflexivity|]. rewrite H. destruct (b2 i s); cbn; auto. Qed.
Lemma while_ext {S} cond n : forall (b1 b2 : S -> outcome S) s, (forall s, b1 s = b2 s) ->
  while_loop n cond b1 s = while_loop n cond b2 s.
Proof. induction n as [|n IH]; intros; cbn; [reflexivity|]. destruct (cond s); [|reflexivity]. rewrite H. destruct (b2 s); cbn; auto. Qed.

Lemma h2v2_upsample_eq c inp : h2v2_upsample c inp = int_upsample c 2 2 inp.
Proof. unfold h2v2_upsample, int_upsample. f_equal. apply while_ext. intros (i, outs).
  destruct (rget inp i); try reflexivity. cbn [bind]. rewrite h2_up_row_eq. destruct (int_up_row c 2 a); try reflexivity.
  cbn [bind]. destruct (putrow _ outs a0); try reflexivity. cbn [bind].
  change (1 <? 2) with true. cbn iota. destruct (copy_row _ a0); try reflexivity. change (Z.to_nat (2 - 1)) with 1%nat. cbn.
  destruct (putrow _ a1 a2); reflexivity. Qed.

Lemma h2v1_upsample_ok c inp p w :
  0 < u_max_h c -> u_max_h c mod 2 = 0 -> 0 < u_max_v c -> 0 <= u_ow c ->
  ceil_div (u_ow c) 2 <= w -> have p 0 (u_max_v c) w inp ->
  exists outs, h2v1_upsample c inp = Ret outs /\ shows (u_max_v c) (u_ow c) outs (box_up 2 1 (px inp)).
Proof.
  intros Hmh Dh Hmv Ho W HA. unfold h2v1_upsample.
  pose proof (ceil_div_spec (u_ow c) 2 ltac:(lia)) as HN. set (N := 2 * ceil_div (u_ow c) 2) in *.
  set (g := fun y => tab N (fun x => px inp y (x / 2))).
  pose proof (for_tab (fun k => tab k g) (Z.to_nat (u_max_v c)) 0 (fun inrow outs =>
    r <- rget inp inrow ;; o <- h2_up_row c r ;; putrow (u_max_v c) outs o)) as E.
  cbn beta in E. rewrite tab_0 in E. rewrite E.
  - eexists. split; [reflexivity|]. rewrite Z2Nat.id, Z.add_0_l by lia. apply shows_tab; [lia|].
    intros y Hy. eexists _, _. split; [reflexivity|]. split; [lia|]. intros x Hx. unfold box_up. rewrite Z.div_1_r. reflexivity.
  - intros j Hj. destruct (have_get _ _ _ _ _ j HA ltac:(lia)) as (r & -> & R & _). cbn [bind].
    rewrite h2_up_row_eq, (int_up_row_ok c 2 r (px inp j) p w); auto; [|lia]. cbn [bind]. apply putrow_tab; [lia|]. reflexivity.
Qed.

(* ------------------------------------------------------------------ *)
(* triangle filters *)

Lemma edge_in w P y x : 0 <= x < w -> edge w P y x = P y x.
Proof. intros. unfold edge, clampz. f_equal. lia. Qed.

Ltac dodiv := Z.div_mod_to_equations; lia.

(* the two output samples of input column i of a row f of w samples *)
Definition th (w : Z) (f : Z -> Z) (x : Z) : Z :=
  (3 * f (clampz 0 (w - 1) (x / 2)) + f (clampz 0 (w - 1) (x / 2 + side x)) + (if Z.even x then 1 else 2)) / 4.

Lemma even2 i : Z.even (2 * i) = true. Proof. rewrite Z.even_mul. reflexivity. Qed.
Lemma even21 i : Z.even (2 * i + 1) = false. Proof. rewrite Z.even_add, Z.even_mul. reflexivity. Qed.
Lemma half2 i : 2 * i / 2 = i. Proof. rewrite Z.mul_comm. apply Z.div_mul; lia. Qed.
Lemma half21 i : (2 * i + 1) / 2 = i. Proof. symmetry. apply (Z.div_unique _ 2 i 1); lia. Qed.

Lemma th_even w f i : th w f (2 * i) = (3 * f (clampz 0 (w - 1) i) + f (clampz 0 (w - 1) (i - 1)) + 1) / 4.
Proof. unfold th, side. rewrite even2, half2. do 3 f_equal. Qed.
Lemma th_odd w f i : th w f (2 * i + 1) = (3 * f (clampz 0 (w - 1) i) + f (clampz 0 (w - 1) (i + 1)) + 2) / 4.
Proof. unfold th, side. rewrite even21, half21. do 3 f_equal. Qed.
Lemma clamp_in w i : 0 <= i < w -> clampz 0 (w - 1) i = i. Proof. unfold clampz; lia. Qed.

Lemma h2v1_fancy_row_ok c r f : let p := u_prec c in
  (p = 8 \/ p = 12) -> 2 <= u_dw c < 2 ^ 30 -> 2 * u_dw c <= u_cap c -> rowf p (u_dw c) r f ->
  h2v1_fancy_row c r = Ret (tab (2 * u_dw c) (th (u_dw c) f)).
Proof.
  intros p Hp Hd HC R. pose proof (pow_prec _ Hp) as PP.
  assert (P3 : prec p) by (unfold prec; tauto).
  unfold h2v1_fancy_row. cbn zeta. fold p. set (w := u_dw c) in *. set (g := th w f).
  assert (EU : u32 (w - 2) = w - 2) by (apply u32_id; lia). rewrite EU.
  assert (V : forall x, 0 <= x < w -> aget r x = Ret (f x)) by (intros x Hx; apply (R x Hx)).
  assert (B : forall x, 0 <= x < w -> 0 <= f x < 2 ^ p) by (intros x Hx; apply (R x Hx)).
  rewrite (V 0) by lia. cbn [bind]. rewrite <- (tab_0 g).
  pose proof (B 0 ltac:(lia)) as B0. pose proof (B 1 ltac:(lia)) as B1.
  assert (G0 : g (2 * 0) = f 0). { unfold g. rewrite th_even. replace (clampz 0 (w - 1) 0) with 0 by (unfold clampz; lia).
    replace (clampz 0 (w - 1) (0 - 1)) with 0 by (unfold clampz; lia). dodiv. }
  assert (G1 : g (2 * 0 + 1) = (f 0 * 3 + f 1 + 2) / 4). { unfold g. rewrite th_odd. rewrite !clamp_in by lia.
    replace (0 + 1) with 1 by lia. f_equal. lia. }
  change (2 * 0) with 0 in G0. change (2 * 0 + 1) with (0 + 1) in G1.
  rewrite (emit_tab p (u_cap c) 0 g); [|auto|lia|lia|lia| rewrite Z.pow_0_r, Z.div_1_r; lia | rewrite G0; lia]. cbn [bind].
  rewrite (V 1) by lia. cbn [bind].
  rewrite (emit_tab p (u_cap c) (0 + 1) g); [|auto|lia|lia|lia| rewrite G1; reflexivity | rewrite G1; dodiv]. cbn [bind].
  replace (0 + 1 + 1) with (2 * 1) by lia.
  rewrite (for_tab (fun k => tab (2 * k) g)).
  - cbn [bind]. rewrite Z2Nat.id by lia. replace (1 + (w - 2)) with (w - 1) by lia. replace (w - 2 + 1) with (w - 1) by lia.
    rewrite (V (w - 1)) by lia. cbn [bind]. rewrite (V (w - 1 - 1)) by lia. cbn [bind].
    pose proof (B (w - 1) ltac:(lia)). pose proof (B (w - 1 - 1) ltac:(lia)).
    assert (G2 : g (2 * (w - 1)) = (f (w - 1) * 3 + f (w - 1 - 1) + 1) / 4).
    { unfold g. rewrite th_even. rewrite !clamp_in by lia. f_equal. lia. }
    assert (G3 : g (2 * (w - 1) + 1) = f (w - 1)).
    { unfold g. rewrite th_odd. rewrite clamp_in by lia. replace (clampz 0 (w - 1) (w - 1 + 1)) with (w - 1) by (unfold clampz; lia). dodiv. }
    rewrite (emit_tab p (u_cap c) (2 * (w - 1)) g); [|auto|lia|lia|lia| rewrite G2; reflexivity | rewrite G2; dodiv]. cbn [bind].
    rewrite (emit_tab p (u_cap c) (2 * (w - 1) + 1) g); [|auto|lia|lia|lia| rewrite Z.pow_0_r, Z.div_1_r; lia | rewrite G3; lia].
    do 2 f_equal. lia.
  - intros j Hj. rewrite (V j) by lia. cbn [bind]. rewrite (V (j - 1)) by lia. cbn [bind].
    pose proof (B j ltac:(lia)). pose proof (B (j - 1) ltac:(lia)). pose proof (B (j + 1) ltac:(lia)).
    assert (G2 : g (2 * j) = (f j * 3 + f (j - 1) + 1) / 4).
    { unfold g. rewrite th_even. rewrite !clamp_in by lia. f_equal. lia. }
    assert (G3 : g (2 * j + 1) = (f j * 3 + f (j + 1) + 2) / 4).
    { unfold g. rewrite th_odd. rewrite !clamp_in by lia. f_equal. lia. }
    rewrite (emit_tab p (u_cap c) (2 * j) g); [|auto|lia|lia|lia| rewrite G2; reflexivity | rewrite G2; dodiv]. cbn [bind].
    rewrite (V (j + 1)) by lia. cbn [bind].
    rewrite (emit_tab p (u_cap c) (2 * j + 1) g); [|auto|lia|lia|lia| rewrite G3; reflexivity | rewrite G3; dodiv].
    do 2 f_equal. lia.
Qed.

Lemma h2v1_fancy_ok c inp : let p := u_prec c in
  (p = 8 \/ p = 12) -> 2 <= u_dw c < 2 ^ 30 -> 2 * u_dw c <= u_cap c -> 0 < u_max_v c -> u_ow c <= 2 * u_dw c ->
  have p 0 (u_max_v c) (u_dw c) inp ->
  exists outs, h2v1_fancy_upsample c inp = Ret outs /\ shows (u_max_v c) (u_ow c) outs
    (fun y x => (tri_h (edge (u_dw c) (px inp)) y x + (if Z.even x then 1 else 2)) / 4).
Proof.
  intros p Hp Hd HC Hv Ho HA. unfold h2v1_fancy_upsample.
  set (g := fun y => tab (2 * u_dw c) (th (u_dw c) (px inp y))).
  pose proof (for_tab (fun k => tab k g) (Z.to_nat (u_max_v c)) 0 (fun inrow outs =>
    r <- rget inp inrow ;; o <- h2v1_fancy_row c r ;; putrow (u_max_v c) outs o)) as E.
  cbn beta in E. rewrite tab_0 in E. rewrite E.
  - eexists. split; [reflexivity|]. rewrite Z2Nat.id, Z.add_0_l by lia. apply shows_tab; [lia|].
    intros y Hy. eexists _, _. split; [reflexivity|]. split; [lia|]. intros x Hx. reflexivity.
  - intros j Hj. destruct (have_get _ _ _ _ _ j HA ltac:(lia)) as (r & -> & R & _). cbn [bind].
    rewrite (h2v1_fancy_row_ok c r _ Hp Hd HC R). cbn [bind]. apply putrow_tab; [lia|]. reflexivity.
Qed.

Lemma h1v2_fancy_row_ok c b r0 r1 f0 f1 : let p := u_prec c in
  (p = 8 \/ p = 12) -> 0 <= u_dw c -> u_dw c <= u_cap c -> rowf p (u_dw c) r0 f0 -> rowf p (u_dw c) r1 f1 -> 1 <= b <= 2 ->
  h1v2_fancy_row c b r0 r1 = Ret (tab (u_dw c) (fun x => (3 * f0 x + f1 x + b) / 4)).
Proof.
  intros p Hp Hd HC R0 R1 Hb. pose proof (pow_prec _ Hp) as PP.
  assert (P3 : prec p) by (unfold prec; tauto).
  unfold h1v2_fancy_row. set (g := fun x => (3 * f0 x + f1 x + b) / 4). rewrite <- (tab_0 g).
  rewrite (for_tab (fun k => tab k g)); [do 2 f_equal; lia|].
  intros j Hj. destruct (R0 j ltac:(lia)) as (-> & B0). destruct (R1 j ltac:(lia)) as (-> & B1). cbn [bind]. fold p.
  apply emit_tab; auto; try lia; fold p.
  - unfold g. change (2 ^ 2) with 4. f_equal. lia.
  - unfold g. dodiv.
Qed.

Lemma h1v2_fancy_ok c inp : let p := u_prec c in
  (p = 8 \/ p = 12) -> 0 <= u_dw c -> u_dw c <= u_cap c -> 0 < u_max_v c -> u_max_v c mod 2 = 0 -> u_ow c <= u_dw c ->
  have p (-1) (u_max_v c / 2 + 1) (u_dw c) inp ->
  exists outs, h1v2_fancy_upsample c inp = Ret outs /\ shows (u_max_v c) (u_ow c) outs
    (fun y x => (tri_v (px inp) y x + (if Z.even y then 1 else 2)) / 4).
Proof.
  intros p Hp Hd HC Hv Dv Ho HA. unfold h1v2_fancy_upsample.
  set (K := u_max_v c / 2) in *.
  assert (EV : u_max_v c = 2 * K) by (pose proof (Z.div_mod (u_max_v c) 2 ltac:(lia)); fold K in H; lia).
  set (g := fun y => tab (u_dw c) (fun x => (3 * px inp (y / 2) x + px inp (y / 2 + side y) x + (if Z.even y then 1 else 2)) / 4)).
  match goal with |- context [while_loop _ ?C ?B _] =>
    pose proof (while_tab (fun k => (k, tab (2 * k) g)) K C B (Z.to_nat (u_max_v c)) 0) as E end.
  cbn beta iota in E. rewrite Z.mul_0_r, tab_0 in E. rewrite E; [ | lia | lia | | ].
  - cbn [bind]. eexists. split; [reflexivity|]. rewrite <- EV. apply shows_tab; [lia|].
    intros y Hy. eexists _, _. split; [reflexivity|]. split; [lia|]. intros x Hx. reflexivity.
  - intros j Hj. split; [apply Z.ltb_lt; rewrite tab_len by lia; lia|].
    match goal with |- context [for_loop ?n ?i ?b _] =>
      pose proof (for_tab (fun k => tab (2 * j + k) g) n i b) as E2 end.
    cbn beta in E2. rewrite Z.add_0_r in E2. rewrite E2.
    + cbn [bind]. do 3 f_equal. lia.
    + intros v Hvv. destruct (have_get _ _ _ _ _ j HA ltac:(lia)) as (r0 & -> & R0 & _). cbn [bind].
      assert (v = 0 \/ v = 1) as [-> | ->] by lia.
      * cbn [Z.eqb]. destruct (have_get _ _ _ _ _ (j - 1) HA ltac:(lia)) as (r1 & -> & R1 & _). cbn [bind].
        rewrite (h1v2_fancy_row_ok c 1 _ _ _ _ Hp Hd HC R0 R1) by lia. cbn [bind].
        rewrite !Z.add_0_r, Z.add_0_l. apply putrow_tab; [lia|]. unfold g, side. rewrite even2, half2. reflexivity.
      * cbn [Z.eqb]. destruct (have_get _ _ _ _ _ (j + 1) HA ltac:(lia)) as (r1 & -> & R1 & _). cbn [bind].
        rewrite (h1v2_fancy_row_ok c 2 _ _ _ _ Hp Hd HC R0 R1) by lia. cbn [bind].
        replace (2 * j + (1 + 1)) with (2 * j + 1 + 1) by lia. apply putrow_tab; [lia|]. unfold g, side. rewrite even21, half21. reflexivity.
  - apply Z.ltb_ge. rewrite tab_len by lia. lia.
Qed.

(* two-dimensional filter on column sums *)
Definition th16 (w : Z) (cs : Z -> Z) (x : Z) : Z :=
  (3 * cs (clampz 0 (w - 1) (x / 2)) + cs (clampz 0 (w - 1) (x / 2 + side x)) + (if Z.even x then 8 else 7)) / 16.
Lemma th16_even w f i : th16 w f (2 * i) = (3 * f (clampz 0 (w - 1) i) + f (clampz 0 (w - 1) (i - 1)) + 8) / 16.
Proof. unfold th16, side. rewrite even2, half2. do 3 f_equal. Qed.
Lemma th16_odd w f i : th16 w f (2 * i + 1) = (3 * f (clampz 0 (w - 1) i) + f (clampz 0 (w - 1) (i + 1)) + 7) / 16.
Proof. unfold th16, side. rewrite even21, half21. do 3 f_equal. Qed.

Lemma h2v2_fancy_row_ok c r0 r1 f0 f1 : let p := u_prec c in
  (p = 8 \/ p = 12) -> 2 <= u_dw c < 2 ^ 30 -> 2 * u_dw c <= u_cap c -> rowf p (u_dw c) r0 f0 -> rowf p (u_dw c) r1 f1 ->
  h2v2_fancy_row c r0 r1 = Ret (tab (2 * u_dw c) (th16 (u_dw c) (fun x => 3 * f0 x + f1 x))).
Proof.
  intros p Hp Hd HC R0 R1. pose proof (pow_prec _ Hp) as PP.
  assert (P3 : prec p) by (unfold prec; tauto).
  unfold h2v2_fancy_row. cbn zeta. fold p. set (w := u_dw c) in *. set (cs := fun x => 3 * f0 x + f1 x). set (g := th16 w cs).
  assert (EU : u32 (w - 2) = w - 2) by (apply u32_id; lia). rewrite EU.
  assert (V0 : forall x, 0 <= x < w -> aget r0 x = Ret (f0 x)) by (intros x Hx; apply (R0 x Hx)).
  assert (V1 : forall x, 0 <= x < w -> aget r1 x = Ret (f1 x)) by (intros x Hx; apply (R1 x Hx)).
  assert (CE : forall x, f0 x * 3 + f1 x = cs x) by (intros; unfold cs; lia).
  assert (B : forall x, 0 <= x < w -> 0 <= cs x <= 4 * (2 ^ p - 1)).
  { intros x Hx. destruct (R0 x Hx) as (_ & ?). destruct (R1 x Hx) as (_ & ?). unfold cs. lia. }
  rewrite (V0 0), (V1 0), (V0 1), (V1 1) by lia. cbn [bind]. rewrite !CE. rewrite <- (tab_0 g).
  pose proof (B 0 ltac:(lia)) as B0. pose proof (B 1 ltac:(lia)) as B1.
  assert (G0 : g (2 * 0) = (cs 0 * 4 + 8) / 16). { unfold g. rewrite th16_even. replace (clampz 0 (w - 1) 0) with 0 by (unfold clampz; lia).
    replace (clampz 0 (w - 1) (0 - 1)) with 0 by (unfold clampz; lia). f_equal. lia. }
  assert (G1 : g (2 * 0 + 1) = (cs 0 * 3 + cs 1 + 7) / 16). { unfold g. rewrite th16_odd. rewrite !clamp_in by lia.
    replace (0 + 1) with 1 by lia. f_equal. lia. }
  change (2 * 0) with 0 in G0. change (2 * 0 + 1) with (0 + 1) in G1.
  rewrite (emit_tab p (u_cap c) 0 g); [|auto|lia|lia|lia| rewrite G0; reflexivity | rewrite G0; dodiv]. cbn [bind].
  rewrite (emit_tab p (u_cap c) (0 + 1) g); [|auto|lia|lia|lia| rewrite G1; reflexivity | rewrite G1; dodiv]. cbn [bind].
  replace (0 + 1 + 1) with (2 * (2 - 1)) by lia.
  match goal with |- context [for_loop ?n ?i ?b _] =>
    pose proof (for_tab (fun k => (tab (2 * (k - 1)) g, cs (k - 2), cs (k - 1))) n i b) as E end.
  cbn beta iota in E. change (2 - 2) with 0 in E. change (2 - 1) with 1 in *. rewrite E.
  - clear E. cbn [bind]. rewrite Z2Nat.id by lia. replace (2 + (w - 2)) with w by lia.
    pose proof (B (w - 1) ltac:(lia)). pose proof (B (w - 2) ltac:(lia)).
    assert (G2 : g (2 * (w - 1)) = (cs (w - 1) * 3 + cs (w - 2) + 8) / 16).
    { unfold g. rewrite th16_even. rewrite !clamp_in by lia. replace (w - 1 - 1) with (w - 2) by lia. f_equal. lia. }
    assert (G3 : g (2 * (w - 1) + 1) = (cs (w - 1) * 4 + 7) / 16).
    { unfold g. rewrite th16_odd. rewrite clamp_in by lia. replace (clampz 0 (w - 1) (w - 1 + 1)) with (w - 1) by (unfold clampz; lia). f_equal; lia. }
    rewrite (emit_tab p (u_cap c) (2 * (w - 1)) g); [|auto|lia|lia|lia| rewrite G2; reflexivity | rewrite G2; dodiv]. cbn [bind].
    rewrite (emit_tab p (u_cap c) (2 * (w - 1) + 1) g); [|auto|lia|lia|lia| rewrite G3; reflexivity | rewrite G3; dodiv].
    do 2 f_equal. lia.
  - clear E. intros j Hj. rewrite (V0 j), (V1 j) by lia. cbn [bind]. rewrite CE.
    pose proof (B j ltac:(lia)). pose proof (B (j - 1) ltac:(lia)). pose proof (B (j - 2) ltac:(lia)).
    assert (G2 : g (2 * (j - 1)) = (cs (j - 1) * 3 + cs (j - 2) + 8) / 16).
    { unfold g. rewrite th16_even. rewrite !clamp_in by lia. replace (j - 1 - 1) with (j - 2) by lia. f_equal. lia. }
    assert (G3 : g (2 * (j - 1) + 1) = (cs (j - 1) * 3 + cs j + 7) / 16).
    { unfold g. rewrite th16_odd. rewrite !clamp_in by lia. replace (j - 1 + 1) with j by lia. f_equal. lia. }
    rewrite (emit_tab p (u_cap c) (2 * (j - 1)) g); [|auto|lia|lia|lia| rewrite G2; reflexivity | rewrite G2; dodiv]. cbn [bind].
    rewrite (emit_tab p (u_cap c) (2 * (j - 1) + 1) g); [|auto|lia|lia|lia| rewrite G3; reflexivity | rewrite G3; dodiv]. cbn [bind].
    replace (j + 1 - 2) with (j - 1) by lia. replace (j + 1 - 1) with j by lia. do 4 f_equal. lia.
Qed.

Lemma h2v2_fancy_ok c inp : let p := u_prec c in
  (p = 8 \/ p = 12) -> 2 <= u_dw c < 2 ^ 30 -> 2 * u_dw c <= u_cap c -> 0 < u_max_v c -> u_max_v c mod 2 = 0 -> u_ow c <= 2 * u_dw c ->
  have p (-1) (u_max_v c / 2 + 1) (u_dw c) inp ->
  exists outs, h2v2_fancy_upsample c inp = Ret outs /\ shows (u_max_v c) (u_ow c) outs
    (fun y x => (tri_h (tri_v (edge (u_dw c) (px inp))) y x + (if Z.even x then 8 else 7)) / 16).
Proof.
  intros p Hp Hd HC Hv Dv Ho HA. unfold h2v2_fancy_upsample.
  set (K := u_max_v c / 2) in *.
  assert (EV : u_max_v c = 2 * K) by (pose proof (Z.div_mod (u_max_v c) 2 ltac:(lia)); fold K in H; lia).
  set (g := fun y => tab (2 * u_dw c) (th16 (u_dw c) (fun x => 3 * px inp (y / 2) x + px inp (y / 2 + side y) x))).
  match goal with |- context [while_loop _ ?C ?B _] =>
    pose proof (while_tab (fun k => (k, tab (2 * k) g)) K C B (Z.to_nat (u_max_v c)) 0) as E end.
  cbn beta iota in E. rewrite Z.mul_0_r, tab_0 in E. rewrite E; [ | lia | lia | | ].
  - cbn [bind]. eexists. split; [reflexivity|]. rewrite <- EV. apply shows_tab; [lia|].
    intros y Hy. eexists _, _. split; [reflexivity|]. split; [lia|]. intros x Hx. reflexivity.
  - intros j Hj. split; [apply Z.ltb_lt; rewrite tab_len by lia; lia|].
    match goal with |- context [for_loop ?n ?i ?b _] =>
      pose proof (for_tab (fun k => tab (2 * j + k) g) n i b) as E2 end.
    cbn beta in E2. rewrite Z.add_0_r in E2. rewrite E2.
    + cbn [bind]. do 3 f_equal. lia.
    + intros v Hvv. destruct (have_get _ _ _ _ _ j HA ltac:(lia)) as (r0 & -> & R0 & _). cbn [bind].
      assert (v = 0 \/ v = 1) as [-> | ->] by lia.
      * cbn [Z.eqb]. destruct (have_get _ _ _ _ _ (j - 1) HA ltac:(lia)) as (r1 & -> & R1 & _). cbn [bind].
        rewrite (h2v2_fancy_row_ok c _ _ _ _ Hp Hd HC R0 R1). cbn [bind].
        rewrite !Z.add_0_r, Z.add_0_l. apply putrow_tab; [lia|]. unfold g, side. rewrite even2, half2. reflexivity.
      * cbn [Z.eqb]. destruct (have_get _ _ _ _ _ (j + 1) HA ltac:(lia)) as (r1 & -> & R1 & _). cbn [bind].
        rewrite (h2v2_fancy_row_ok c _ _ _ _ Hp Hd HC R0 R1). cbn [bind].
        replace (2 * j + (1 + 1)) with (2 * j + 1 + 1) by lia. apply putrow_tab; [lia|]. unfold g, side. rewrite even21, half21. reflexivity.
  - apply Z.ltb_ge. rewrite tab_len by lia. lia.
Qed.
