From Verif Require Import Base M_DMain S_DMain.
Open Scope nat_scope.

Lemma addr_loop_spec : forall n i dst src f x,
  addr_loop n i dst src f x = if (dst + i <=? x) && (x <? dst + i + n) then Some (src + (x - dst)) else f x.
Proof.
  induction n as [|n IH]; intros i dst src f x; cbn [addr_loop].
  - destruct (Nat.leb_spec (dst + i) x), (Nat.ltb_spec x (dst + i + 0)); cbn; try lia; reflexivity.
  - rewrite IH. unfold fset.
    destruct (Nat.leb_spec (dst + S i) x), (Nat.ltb_spec x (dst + S i + n)), (Nat.leb_spec (dst + i) x),
      (Nat.ltb_spec x (dst + i + S n)), (Nat.eqb_spec x (dst + i)); cbn [andb]; try lia; try reflexivity.
    subst x. f_equal. lia.
Qed.
Lemma dup_loop_spec : forall n i dst src f x, (src < dst + i \/ dst + i + n <= src) ->
  dup_loop n i dst src f x = if (dst + i <=? x) && (x <? dst + i + n) then f src else f x.
Proof.
  induction n as [|n IH]; intros i dst src f x Hd; cbn [dup_loop].
  - destruct (Nat.leb_spec (dst + i) x), (Nat.ltb_spec x (dst + i + 0)); cbn; try lia; reflexivity.
  - rewrite IH by lia. unfold fset.
    destruct (Nat.eqb_spec src (dst + i)); [lia|].
    destruct (Nat.leb_spec (dst + S i) x), (Nat.ltb_spec x (dst + S i + n)), (Nat.leb_spec (dst + i) x),
      (Nat.ltb_spec x (dst + i + S n)), (Nat.eqb_spec x (dst + i)); cbn [andb]; try lia; reflexivity.
Qed.
Lemma copy_loop_spec : forall n i dst src f x,
  (dst + i + n <= src + i \/ src + i + n <= dst + i) ->
  copy_loop n i dst src f x = if (dst + i <=? x) && (x <? dst + i + n) then f (src + (x - dst)) else f x.
Proof.
  induction n as [|n IH]; intros i dst src f x Hd; cbn [copy_loop].
  - destruct (Nat.leb_spec (dst + i) x), (Nat.ltb_spec x (dst + i + 0)); cbn; try lia; reflexivity.
  - rewrite IH by lia. unfold fset.
    destruct (Nat.leb_spec (dst + S i) x), (Nat.ltb_spec x (dst + S i + n)), (Nat.leb_spec (dst + i) x),
      (Nat.ltb_spec x (dst + i + S n)), (Nat.eqb_spec x (dst + i)), (Nat.eqb_spec (src + (x - dst)) (dst + i));
      cbn [andb]; try lia; try reflexivity.
    + subst x. f_equal. lia.
Qed.

Lemma decompress_rows_spec : forall n i base p ws X,
  (forall j, i <= j < i + n -> p j = Some (X j)) ->
  (forall j k, i <= j < i + n -> i <= k < i + n -> X j = X k -> j = k) ->
  exists ws', decompress_rows n i base p ws = Ret ws' /\
    (forall j, i <= j < i + n -> ws' (X j) = Some (base + j)) /\
    (forall s, (forall j, i <= j < i + n -> X j <> s) -> ws' s = ws s).
Proof.
  induction n as [|n IH]; intros i base p ws X Hp Hi; cbn [decompress_rows].
  - exists ws. split; [reflexivity|]. split; [lia|reflexivity].
  - rewrite (Hp i) by lia.
    destruct (IH (S i) base p (fset ws (X i) (Some (base + i))) X) as (ws' & E & A & B).
    + intros j Hj. apply Hp. lia.
    + intros j k Hj Hk. apply Hi; lia.
    + exists ws'. split; [exact E|]. split.
      * intros j Hj. destruct (Nat.eq_dec j i) as [->|N]; [|apply A; lia].
        rewrite B.
        -- unfold fset. rewrite Nat.eqb_refl. reflexivity.
        -- intros k Hk Ek. apply Hi in Ek; lia.
      * intros s Hs. rewrite B.
        -- unfold fset. destruct (Nat.eqb_spec s (X i)) as [->|N]; [exfalso; apply (Hs i); [lia|reflexivity]|reflexivity].
        -- intros j Hj. apply Hs. lia.
Qed.

Lemma mapM_seq : forall {B} (f : nat -> outcome B) (g : nat -> B) n a,
  (forall j, j < n -> f (a + j) = Ret (g j)) ->
  mapM f (seq a n) = Ret (map g (seq 0 n)).
Proof.
  intros B f g n. revert f g. induction n as [|n IH]; intros f g a Hf; [reflexivity|].
  cbn [seq mapM]. replace (f a) with (Ret (g 0)) by (rewrite <- (Hf 0) by lia; f_equal; lia).
  cbn [bind]. rewrite (IH f (fun j => g (S j)) (S a)).
  - cbn [bind map]. rewrite <- seq_shift, map_map. reflexivity.
  - intros j Hj. rewrite <- Hf by lia. f_equal. lia.
Qed.
Lemma mapM_map : forall {B} (f : nat -> outcome B) (g : nat -> nat) (h : nat -> B) n,
  (forall j, j < n -> f (g j) = Ret (h j)) ->
  mapM f (map g (seq 0 n)) = Ret (map h (seq 0 n)).
Proof.
  intros B f g h n Hf.
  assert (G : forall m a, a + m <= n -> mapM f (map g (seq a m)) = Ret (map h (seq a m))).
  { induction m as [|m IH]; intros a Ha; [reflexivity|]. cbn [seq map mapM].
    rewrite Hf by lia. cbn [bind]. rewrite IH by lia. reflexivity. }
  apply G. lia.
Qed.

Section Cfg.
Variables (h du : nat) (c : dcfg).
Hypothesis Hc : dcfg_ok h du c.
Notation M := (g_M c).
Notation v := (g_v c).
Notation rg := (g_rg c).
Notation O := (g_O c).
Notation T := (g_T c).
Notation dh := (g_dh c).

Lemma ceil_div_spec : forall a b n, 1 <= b -> (n * b < a <-> n < ceil_div a b).
Proof.
  intros a b n Hb. unfold ceil_div.
  destruct (Nat.eq_dec a 0) as [->|Ha].
  - rewrite Nat.div_small by lia. lia.
  - pose proof (Nat.div_mod (a + b - 1) b ltac:(lia)) as E.
    pose proof (Nat.mod_upper_bound (a + b - 1) b ltac:(lia)) as B.
    set (q := (a + b - 1) / b) in *. clearbody q. nia.
Qed.

(* geometry facts *)
Lemma geo_O_pos : 1 <= O.
Proof.
  destruct Hc as (H1 & H2 & H3 & H4 & H5 & H6 & -> & _).
  apply (proj1 (ceil_div_spec (h * M) du 0 H2)). nia.
Qed.
Lemma geo_T : forall r, r * (M * v) < O -> r < T.
Proof.
  destruct Hc as (H1 & H2 & H3 & H4 & H5 & H6 & -> & -> & _). intros r Hr.
  apply ceil_div_spec; [nia|]. apply ceil_div_spec in Hr; [|exact H2].
  apply (Nat.mul_lt_mono_pos_r M); [lia|]. nia.
Qed.
Lemma geo_T' : forall r, r < T -> r * (M * v) < O.
Proof.
  destruct Hc as (H1 & H2 & H3 & H4 & H5 & H6 & -> & -> & _). intros r Hr.
  apply (proj1 (ceil_div_spec (h * M) du (r * (M * v)) H2)).
  apply (proj2 (ceil_div_spec h (du * v) r ltac:(nia))) in Hr.
  apply (Nat.mul_lt_mono_pos_r M) in Hr; [|lia]. nia.
Qed.
(* row group k contains output lines iff it contains component rows *)
Lemma geo_group : forall k, k * v < O <-> k * rg < dh.
Proof.
  destruct Hc as (H1 & H2 & H3 & H4 & H5 & H6 & -> & _ & ->). intros k.
  rewrite <- ceil_div_spec by exact H2. rewrite <- ceil_div_spec by nia.
  replace (k * rg * (du * v)) with (k * v * du * rg) by lia.
  replace (h * (rg * M)) with (h * M * rg) by lia.
  apply Nat.mul_lt_mono_pos_r. lia.
Qed.

Definition own (k : nat) : list nat :=
  if g_context c then map (fun j => clamp_row c (Z.of_nat (k * rg) + Z.of_nat j)) (seq 0 rg)
  else map (fun j => k * rg + j) (seq 0 rg).
Definition win (k : nat) : list nat :=
  if g_context c then map (fun j => clamp_row c (Z.of_nat (k * rg) + Z.of_nat j - 1)) (seq 0 (rg + 2))
  else map (fun j => k * rg + j) (seq 0 rg).

Lemma seq_map_add : forall n a, map (fun j => a + j) (seq 0 n) = seq a n.
Proof.
  induction n as [|n IH]; intros a; [reflexivity|]. cbn [seq map]. f_equal; [lia|].
  rewrite <- seq_shift, map_map. rewrite <- (IH (S a)). apply map_ext. intros j. lia.
Qed.

Lemma line_spec_eq : forall k j, j < v -> line_spec c (k * v + j) = mkL j (win k) (own k).
Proof.
  intros k j Hj. unfold line_spec, win, own, ctx_rows, own_rows_clamped, own_rows.
  replace ((k * v + j) / v) with k by (rewrite Nat.add_comm, Nat.div_add by lia; rewrite Nat.div_small by lia; reflexivity).
  replace ((k * v + j) mod v) with j by (rewrite Nat.add_comm, Nat.mod_add by lia; rewrite Nat.mod_small by lia; reflexivity).
  destruct (g_context c); [reflexivity|]. rewrite seq_map_add. reflexivity.
Qed.

(* state of the upsampler when row group k is the current one and y lines are out *)
Definition UI (k y : nat) (u : dups) (ws : work) : Prop :=
  y <= O /\ u_togo u = O - y /\
  ((u_next u = v /\ y = k * v) \/
   (u_next u < v /\ y = k * v + u_next u /\ u_val u = win k /\ mapM (slot_val ws) (u_ptr u) = Ret (own k))).

Definition filled (p : nat -> option nat) (ws : work) (first k : nat) : Prop :=
  exists sl, mapM (slot_of p) (seq first rg) = Ret sl /\ mapM (slot_val ws) sl = Ret (own k) /\
  (if g_context c then mapM (deref p ws) (seq (first - 1) (rg + 2))
   else mapM (deref p ws) (seq first rg)) = Ret (win k).

Lemma seq_lines : forall k n cnt, n + cnt <= v ->
  map (fun j => mkL j (win k) (own k)) (seq n cnt) = map (line_spec c) (seq (k * v + n) cnt).
Proof.
  intros k n cnt. revert n. induction cnt as [|cnt IH]; intros n Hn; [reflexivity|].
  cbn [seq map]. rewrite line_spec_eq by lia. f_equal.
  rewrite IH by lia. f_equal. f_equal. lia.
Qed.

Lemma up_spec : forall p ws rgc first k y u out avail,
  UI k y u ws -> (u_next u = v -> filled p ws first k) -> y < O ->
  exists u' cnt rgc',
    sep_upsample c p ws rgc first u out avail = Ret (u', out + cnt, map (line_spec c) (seq y cnt), rgc') /\
    y + cnt <= O /\ cnt <= avail - out /\ (out < avail -> 1 <= cnt) /\
    ((rgc' = S rgc /\ u_next u' = v /\ UI (S k) (y + cnt) u' ws) \/
     (rgc' = rgc /\ u_next u' < v /\ UI k (y + cnt) u' ws /\ (y + cnt = O \/ avail <= out + cnt))).
Proof.
  intros p ws rgc first k y u out avail (U1 & U2 & U3) Hf Hy.
  assert (Hv : 1 <= v) by (destruct Hc as (_ & _ & _ & A & _); exact A).
  unfold sep_upsample.
  assert (F : exists n ptr, (if v <=? u_next u then
          own <- mapM (slot_of p) (seq first rg) ;;
          val <- (if g_context c then mapM (deref p ws) (seq (first - 1) (rg + 2))
                  else mapM (deref p ws) (seq first rg)) ;;
          Ret (mkU 0 (u_togo u) own val)
        else Ret u) = Ret (mkU n (O - y) ptr (win k)) /\ n < v /\ y = k * v + n /\
        mapM (slot_val ws) ptr = Ret (own k)).
  { destruct U3 as [[A B]|(A & B & C & D)].
    - destruct (Hf A) as (sl & E1 & E2 & E3). rewrite A, Nat.leb_refl, E1. cbn [bind]. rewrite E3. cbn [bind].
      exists 0, sl. rewrite U2. split; [reflexivity|]. split; [lia|]. split; [lia|exact E2].
    - rewrite (proj2 (Nat.leb_gt v (u_next u))) by exact A.
      exists (u_next u), (u_ptr u). split; [|split; [exact A|split; [exact B|exact D]]].
      rewrite <- U2, <- C. destruct u; reflexivity. }
  destruct F as (n & ptr & EF & Hn & Ey & Ep). rewrite EF. cbn [bind u_next u_togo u_ptr u_val].
  rewrite Ep. cbn [bind].
  set (cnt := if avail - out <? (if O - y <? v - n then O - y else v - n)
              then avail - out else if O - y <? v - n then O - y else v - n).
  assert (Hcnt : cnt <= v - n /\ cnt <= O - y /\ cnt <= avail - out /\
                 (cnt = v - n \/ cnt = O - y \/ cnt = avail - out)).
  { unfold cnt. destruct (Nat.ltb_spec (O - y) (v - n));
      match goal with |- context[avail - out <? ?b] => destruct (Nat.ltb_spec (avail - out) b) end; lia. }
  assert (Hc1 : out < avail -> 1 <= cnt) by lia.
  clearbody cnt. destruct Hcnt as (K1 & K2 & K3 & K4).
  eexists _, cnt, _. split.
  { rewrite seq_lines by lia. rewrite <- Ey. reflexivity. }
  split; [lia|]. split; [lia|]. split; [exact Hc1|].
  destruct (Nat.leb_spec v (n + cnt)) as [L|L].
  - left. split; [reflexivity|]. split; [cbn [u_next]; lia|].
    split; [lia|]. split; [cbn [u_togo]; lia|]. left. split; [cbn [u_next]; lia|]. rewrite Ey. lia.
  - right. split; [reflexivity|]. split; [cbn [u_next]; lia|]. split; [|lia].
    split; [lia|]. split; [cbn [u_togo]; lia|]. right.
    cbn [u_next u_val u_ptr]. split; [lia|]. split; [lia|]. split; [reflexivity|exact Ep].
Qed.

(* ---------------------------------------------------------------- *)
(* no context *)
Definition SI (d : dst) (y : nat) : Prop :=
  d_lines d = map (line_spec c) (seq 0 y) /\
  d_row d <= T /\
  (if m_full (d_main d) then
     1 <= d_row d /\ m_rgc (d_main d) < M /\
     (forall i, i < rg * M -> m_ws (d_main d) i = Some ((d_row d - 1) * (rg * M) + i)) /\
     UI ((d_row d - 1) * M + m_rgc (d_main d)) y (d_ups d) (m_ws (d_main d))
   else
     m_rgc (d_main d) = 0 /\ u_next (d_ups d) = v /\ UI (d_row d * M) y (d_ups d) (m_ws (d_main d))).

Lemma lines_app : forall y cnt,
  map (line_spec c) (seq 0 y) ++ map (line_spec c) (seq y cnt) = map (line_spec c) (seq 0 (y + cnt)).
Proof. intros. rewrite seq_app, map_app. reflexivity. Qed.

Lemma simple_step : forall d y avail, g_context c = false -> SI d y -> y < O ->
  exists d' cnt, process_simple c d avail = Ret (d', cnt) /\ SI d' (y + cnt) /\ cnt <= avail /\
    (1 <= cnt \/ avail = 0 \/ hd true (d_orc d) = false /\ m_full (d_main d) = false /\ d_orc d' = tl (d_orc d)).
Proof.
  intros d y avail Hctx (S1 & S2 & S3) Hy.
  unfold process_simple. set (m := d_main d) in *.
  destruct (m_full m) eqn:Ef.
  - cbn [bind negb]. destruct S3 as (R1 & R2 & R3 & R4).
    destruct (up_spec (fun i => Some i) (m_ws m) (m_rgc m) (m_rgc m * rg) _ y (d_ups d) 0 avail R4)
      as (u' & cnt & rgc' & E & C1 & C2 & C3 & C4); [|exact Hy|].
    { intros _. unfold filled. exists (seq (m_rgc m * rg) rg). split; [|split].
      - rewrite (mapM_seq _ (fun j => m_rgc m * rg + j)); [rewrite seq_map_add; reflexivity|reflexivity].
      - unfold own. rewrite Hctx. apply mapM_seq. intros j Hj. unfold slot_val. rewrite R3 by nia. f_equal. nia.
      - unfold win. rewrite Hctx. apply mapM_seq. intros j Hj. unfold deref. rewrite R3 by nia. f_equal. nia. }
    rewrite E. cbn [bind]. rewrite Nat.add_0_l.
    destruct (Nat.leb_spec M rgc') as [L|L].
    + eexists _, cnt. split; [reflexivity|]. split; [|split; [lia|]].
      2:{ destruct (Nat.eq_dec avail 0); [auto|]. left. apply C3. lia. }
      destruct C4 as [(A & B & C)|(A & _)]; [|lia].
      split; [cbn; rewrite S1; apply lines_app|]. split; [exact S2|]. cbn.
      split; [reflexivity|]. split; [exact B|].
      replace (d_row d * M) with (S ((d_row d - 1) * M + m_rgc m)) by nia. exact C.
    + eexists _, cnt. split; [reflexivity|]. split; [|split; [lia|]].
      2:{ destruct (Nat.eq_dec avail 0); [auto|]. left. apply C3. lia. }
      split; [cbn; rewrite S1; apply lines_app|]. split; [exact S2|]. cbn.
      split; [exact R1|]. split; [exact L|]. split; [exact R3|].
      destruct C4 as [(A & B & C)|(A & B & C & _)]; rewrite A; [|exact C].
      replace ((d_row d - 1) * M + S (m_rgc m)) with (S ((d_row d - 1) * M + m_rgc m)) by lia. exact C.
  - destruct S3 as (R1 & R2 & R3).
    destruct (hd true (d_orc d)) eqn:Eh; cbn [negb].
    + destruct (decompress_rows_spec (rg * M) 0 (d_row d * (rg * M)) (fun i => Some i) (m_ws m) (fun i => i))
        as (ws & Ew & Wa & _); [reflexivity|auto|].
      rewrite Ew. cbn [bind negb]. cbn [m_ws m_rgc m_x0 m_x1 m_which m_cs m_avail m_ctr].
      destruct R3 as (V1 & V2 & V3).
      assert (Vy : y = d_row d * M * v) by (destruct V3 as [[_ V]|(V & _)]; lia).
      assert (Hr : d_row d < T) by (apply geo_T; lia).
      assert (UI0 : UI (d_row d * M) y (d_ups d) ws).
      { split; [exact V1|]. split; [exact V2|]. left. split; [exact R2|]. lia. }
      assert (HM : 1 <= M) by (destruct Hc as (_ & _ & A & _); exact A).
      destruct (up_spec (fun i => Some i) ws (m_rgc m) (m_rgc m * rg) _ y (d_ups d) 0 avail UI0)
        as (u' & cnt & rgc' & E & C1 & C2 & C3 & C4); [|exact Hy|].
      { intros _. unfold filled. rewrite R1. exists (seq 0 rg). cbn [Nat.mul].
        assert (Wb : forall j, j < rg -> ws j = Some (d_row d * M * rg + j)).
        { intros j Hj. rewrite Wa by nia. f_equal. lia. }
        split; [|split].
        - rewrite (mapM_seq _ (fun j => 0 + j)); [rewrite seq_map_add; reflexivity|reflexivity].
        - unfold own. rewrite Hctx. apply mapM_seq. intros j Hj. unfold slot_val. cbn [Nat.add]. rewrite Wb by lia. reflexivity.
        - unfold win. rewrite Hctx. apply mapM_seq. intros j Hj. unfold deref. cbn [Nat.add]. rewrite Wb by lia. reflexivity. }
      rewrite E. cbn [bind]. rewrite Nat.add_0_l.
      destruct (Nat.leb_spec M rgc') as [L|L].
      * eexists _, cnt. split; [reflexivity|]. split; [|split; [lia|]].
        2:{ destruct (Nat.eq_dec avail 0); [auto|]. left. apply C3. lia. }
        destruct C4 as [(A & B & C)|(A & _)]; [|lia].
        split; [cbn; rewrite S1; apply lines_app|]. split; [cbn; lia|]. cbn [d_main m_full m_rgc d_row d_ups m_ws].
        split; [reflexivity|]. split; [exact B|].
        replace (S (d_row d) * M) with (S (d_row d * M)) by nia. exact C.
      * eexists _, cnt. split; [reflexivity|]. split; [|split; [lia|]].
        2:{ destruct (Nat.eq_dec avail 0); [auto|]. left. apply C3. lia. }
        split; [cbn; rewrite S1; apply lines_app|]. split; [cbn; lia|]. cbn [d_main m_full m_rgc d_row d_ups m_ws].
        replace (S (d_row d) - 1) with (d_row d) by lia.
        split; [lia|]. split; [exact L|]. split; [intros i Hi; rewrite Wa by lia; reflexivity|].
        destruct C4 as [(A & B & C)|(A & B & C & _)]; rewrite A, R1.
        -- replace (d_row d * M + 1) with (S (d_row d * M)) by lia. exact C.
        -- rewrite Nat.add_0_r. exact C.
    + cbn [bind negb]. eexists _, 0. split; [reflexivity|]. rewrite Nat.add_0_r.
      split; [|split; [lia|right; right; auto]].
      split; [exact S1|]. split; [exact S2|]. cbn. unfold m in Ef |- *. rewrite Ef. auto.
Qed.

(* ---------------------------------------------------------------- *)
(* with context *)
Notation G := (rg * M).
Notation P := (rg * (M + 2)).
Definition X (w : bool) (i : nat) : nat :=
  if w then if i <? rg * (M - 2) then i else if i <? rg * M then i + 2 * rg else
            if i <? rg * (M + 2) then i - 2 * rg else i
  else i.
Definition NP (w : bool) (x : ptrs) : Prop := forall i, i < P -> x (rg + i) = Some (X w i).
Definition WR (w : bool) (x : ptrs) : Prop :=
  (forall i, i < rg -> x i = Some (X w (rg * (M + 1) + i))) /\
  (forall i, i < rg -> x (rg + P + i) = Some (X w i)).
Definition PI (r : nat) (x0 x1 : ptrs) : Prop :=
  NP false x0 /\ NP true x1 /\
  (r <= 1 -> forall i, i < rg -> x0 i = Some 0) /\
  (2 <= r -> WR false x0 /\ WR true x1).
Definition W (r : nat) (w : bool) (ws : work) : Prop :=
  (forall i, i < G -> ws (X w i) = Some ((r - 1) * G + i)) /\
  (2 <= r -> forall i, i < 2 * rg -> ws (X w (G + i)) = Some ((r - 1) * G - 2 * rg + i)).

Hypothesis Hctx : g_context c = true.

Lemma pos : 2 <= M /\ 1 <= v /\ 1 <= rg.
Proof. destruct Hc as (_ & _ & _ & A & B & C & _). auto. Qed.

Lemma X_inj : forall w i j, i < P -> j < P -> X w i = X w j -> i = j.
Proof.
  intros w i j Hi Hj. destruct pos as (A & B & C). unfold X. destruct w; [|auto].
  assert (E1 : rg * (M + 2) = rg * (M - 2) + 4 * rg) by nia.
  assert (E2 : rg * M = rg * (M - 2) + 2 * rg) by nia.
  rewrite E1, E2 in *. set (q := rg * (M - 2)) in *. clearbody q.
  destruct (Nat.ltb_spec i q), (Nat.ltb_spec j q), (Nat.ltb_spec i (q + 2 * rg)), (Nat.ltb_spec j (q + 2 * rg)),
    (Nat.ltb_spec i (q + 4 * rg)), (Nat.ltb_spec j (q + 4 * rg)); lia.
Qed.
Lemma X_flip : forall w i, i < 2 * rg -> X (negb w) (G + i) = X w (G - 2 * rg + i).
Proof.
  intros w i Hi. destruct pos as (A & B & C). unfold X.
  assert (E1 : rg * (M + 2) = rg * (M - 2) + 4 * rg) by nia.
  assert (E2 : rg * M = rg * (M - 2) + 2 * rg) by nia.
  rewrite E1, E2 in *. set (q := rg * (M - 2)) in *. clearbody q.
  destruct w; cbn [negb].
  - destruct (Nat.ltb_spec (q + 2 * rg - 2 * rg + i) q), (Nat.ltb_spec (q + 2 * rg - 2 * rg + i) (q + 2 * rg)); lia.
  - destruct (Nat.ltb_spec (q + 2 * rg + i) q), (Nat.ltb_spec (q + 2 * rg + i) (q + 2 * rg)),
      (Nat.ltb_spec (q + 2 * rg + i) (q + 4 * rg)); lia.
Qed.

(* reading through the list of iMCU row r *)
Definition view (x : ptrs) (ws : work) (i r : nat) : Prop := exists s, x i = Some s /\ ws s = Some r.

Lemma filled_view : forall x ws first k, 1 <= first ->
  (forall j, j < rg + 2 -> view x ws (first - 1 + j) (clamp_row c (Z.of_nat (k * rg) + Z.of_nat j - 1))) ->
  filled x ws first k.
Proof.
  intros x ws first k Hf Hv. unfold filled.
  set (sl := fun j => match x (first + j) with Some s => s | None => 0 end).
  exists (map sl (seq 0 rg)).
  assert (Hw : forall j, j < rg -> x (first + j) = Some (sl j) /\
            ws (sl j) = Some (clamp_row c (Z.of_nat (k * rg) + Z.of_nat j))).
  { intros j Hj. destruct (Hv (S j) ltac:(lia)) as (s & E1 & E2).
    replace (first - 1 + S j) with (first + j) in E1 by lia.
    unfold sl. rewrite E1. split; [reflexivity|]. rewrite E2. f_equal. f_equal. lia. }
  split; [|split].
  - apply mapM_seq. intros j Hj. unfold slot_of. destruct (Hw j Hj) as [-> _]. reflexivity.
  - unfold own. rewrite Hctx. apply mapM_map. intros j Hj. unfold slot_val. destruct (Hw j Hj) as [_ ->]. reflexivity.
  - rewrite Hctx. unfold win. rewrite Hctx. apply mapM_seq. intros j Hj. unfold deref.
    destruct (Hv j Hj) as (s & -> & ->). reflexivity.
Qed.

Lemma clamp_id : forall i z, z = Z.of_nat i -> i < dh -> clamp_row c z = i.
Proof. intros i z -> Hi. unfold clamp_row. lia. Qed.

Lemma geo_dh : forall r, r < T -> r * G < dh.
Proof. intros r Hr. replace (r * G) with (r * M * rg) by lia. apply geo_group. pose proof (geo_T' r Hr). lia. Qed.
Lemma geo_T_pos : 1 <= T.
Proof. apply (geo_T 0). pose proof geo_O_pos. lia. Qed.
Lemma geo_dh_max : dh <= T * G.
Proof.
  destruct (Nat.le_gt_cases dh (T * G)) as [L|L]; [exact L|].
  assert (T * M * rg < dh) by lia. apply geo_group in H. assert (T < T) by (apply geo_T; lia). lia.
Qed.
Lemma rows_left_eq : 1 <= rows_left c /\ rows_left c <= G /\ dh = (T - 1) * G + rows_left c.
Proof.
  destruct pos as (A & B & C). pose proof (geo_dh (T - 1)) as D1. pose proof geo_dh_max as D2. pose proof geo_T_pos as D3.
  specialize (D1 ltac:(lia)). unfold rows_left.
  pose proof (Nat.div_mod dh G ltac:(nia)) as E. pose proof (Nat.mod_upper_bound dh G ltac:(nia)) as U.
  assert (HG : 1 <= G) by nia.
  set (q := dh / G) in *. set (m := dh mod G) in *. set (g := G) in *. clearbody q m g.
  assert (HT : T * g = (T - 1) * g + g) by (destruct T; nia).
  destruct (Nat.eqb_spec m 0) as [->|N].
  - assert (q = T). { nia. } subst q. lia.
  - assert (q = T - 1) by nia. subst q. lia.
Qed.

Lemma top_view : forall r x0 x1 ws, 1 <= r -> PI r x0 x1 -> W r (Nat.even r) ws -> (r - 1) * G < dh ->
  view (if Nat.even r then x1 else x0) ws (rg - 1) (clamp_row c (Z.of_nat ((r - 1) * G) - 1)).
Proof.
  intros r x0 x1 ws Hr (N0 & N1 & Q1 & Q2) (W1 & W2) Hd. destruct pos as (A & B & C).
  destruct (Nat.eq_dec r 1) as [->|Nr].
  - cbn [Nat.even]. exists 0. split; [apply Q1; lia|]. pose proof (W1 0 ltac:(nia)) as E. cbn [Nat.even X] in E.
    rewrite E. f_equal. unfold clamp_row. pose proof (geo_dh 0 geo_T_pos). lia.
  - destruct (Q2 ltac:(lia)) as [(R0 & _) (R1 & _)].
    assert (E : (if Nat.even r then x1 else x0) (rg - 1) = Some (X (Nat.even r) (rg * (M + 1) + (rg - 1)))).
    { destruct (Nat.even r); [apply R1|apply R0]; lia. }
    exists (X (Nat.even r) (rg * (M + 1) + (rg - 1))). split; [exact E|].
    replace (rg * (M + 1) + (rg - 1)) with (G + (2 * rg - 1)) by nia. rewrite W2 by lia. f_equal.
    assert (G <= (r - 1) * G) by nia. assert (2 * rg <= G) by nia. rewrite (clamp_id ((r - 1) * G - 1)) by lia. lia.
Qed.

Lemma row_view : forall r x0 x1 ws i, PI r x0 x1 -> W r (Nat.even r) ws -> i < G ->
  view (if Nat.even r then x1 else x0) ws (rg + i) ((r - 1) * G + i).
Proof.
  intros r x0 x1 ws i (N0 & N1 & _) (W1 & _) Hi. exists (X (Nat.even r) i). split; [|apply W1; exact Hi].
  assert (i < P) by nia. destruct (Nat.even r); [apply N1|apply N0]; assumption.
Qed.

Lemma filled_mid : forall r x0 x1 ws g, 1 <= r -> r < T -> PI r x0 x1 -> W r (Nat.even r) ws -> g < M - 1 ->
  filled (if Nat.even r then x1 else x0) ws (rg + g * rg) ((r - 1) * M + g).
Proof.
  intros r x0 x1 ws g Hr HT HP HW Hg. destruct pos as (A & B & C).
  pose proof (geo_dh r HT) as D.
  assert (E : (r - 1) * G + G = r * G) by (destruct r; nia).
  apply filled_view; [lia|]. intros j Hj.
  destruct (Nat.eq_dec (g * rg + j) 0) as [Z0|NZ].
  - assert (g = 0) by nia. assert (j = 0) by lia. subst g j.
    replace (rg + 0 * rg - 1 + 0) with (rg - 1) by lia.
    replace (Z.of_nat (((r - 1) * M + 0) * rg) + Z.of_nat 0 - 1)%Z with (Z.of_nat ((r - 1) * G) - 1)%Z by lia.
    apply top_view; [exact Hr|exact HP|exact HW|lia].
  - assert (g * rg + rg <= (M - 1) * rg) by nia. assert ((M - 1) * rg + rg = G) by nia.
    replace (rg + g * rg - 1 + j) with (rg + (g * rg + j - 1)) by lia.
    rewrite (clamp_id ((r - 1) * G + (g * rg + j - 1))); [|nia|lia].
    apply row_view; [exact HP|exact HW|lia].
Qed.

Lemma filled_post : forall r x0 x1 ws, 2 <= r -> r <= T -> PI r x0 x1 -> W r (Nat.even r) ws ->
  filled (if Nat.even r then x1 else x0) ws (rg + (M + 1) * rg) ((r - 1) * M - 1).
Proof.
  intros r x0 x1 ws Hr HT HP HW. destruct pos as (A & B & C).
  pose proof (geo_dh (r - 1) ltac:(lia)) as D.
  assert (E0 : 2 * rg <= (r - 1) * G) by (assert (G <= (r - 1) * G) by nia; assert (2 * rg <= G) by nia; lia).
  assert (Ek : ((r - 1) * M - 1) * rg = (r - 1) * G - rg) by nia.
  apply filled_view; [lia|]. intros j Hj. rewrite Ek.
  destruct HP as (N0 & N1 & _ & Q2). destruct (Q2 Hr) as [(_ & R0) (_ & R1)]. destruct HW as (W1 & W2).
  rewrite (clamp_id ((r - 1) * G - rg + j - 1)) by lia.
  destruct (Nat.eq_dec j (rg + 1)) as [->|Nj].
  - exists (X (Nat.even r) 0). split.
    + replace (rg + (M + 1) * rg - 1 + (rg + 1)) with (rg + P + 0) by nia.
      destruct (Nat.even r); [apply R1|apply R0]; lia.
    + rewrite W1 by nia. f_equal. lia.
  - exists (X (Nat.even r) (G + (rg - 1 + j))). split.
    + replace (rg + (M + 1) * rg - 1 + j) with (rg + (G + (rg - 1 + j))) by nia.
      assert (G + (rg - 1 + j) < P) by nia.
      destruct (Nat.even r); [apply N1|apply N0]; assumption.
    + rewrite (W2 Hr) by lia. f_equal. lia.
Qed.

Lemma filled_bot : forall x0 x1 ws g, PI T x0 x1 -> W T (Nat.even T) ws -> g < (rows_left c - 1) / rg + 1 ->
  filled (dup_loop (rg * 2) 0 (rg + rows_left c) (rg + (rows_left c - 1)) (if Nat.even T then x1 else x0))
         ws (rg + g * rg) ((T - 1) * M + g).
Proof.
  intros x0 x1 ws g HP HW Hg. destruct pos as (A & B & C). pose proof geo_T_pos as HT.
  destruct rows_left_eq as (L1 & L2 & L3). set (L := rows_left c) in *. clearbody L.
  pose proof (Nat.div_mod (L - 1) rg ltac:(lia)) as E.
  assert (Hg' : g * rg <= L - 1) by nia. clear E Hg.
  apply filled_view; [lia|]. intros j Hj.
  set (x := if Nat.even T then x1 else x0) in *.
  destruct (Nat.eq_dec (g * rg + j) 0) as [Z0|NZ].
  - assert (g = 0) by nia. assert (j = 0) by lia. subst g j.
    replace (rg + 0 * rg - 1 + 0) with (rg - 1) by lia.
    replace (Z.of_nat (((T - 1) * M + 0) * rg) + Z.of_nat 0 - 1)%Z with (Z.of_nat ((T - 1) * G) - 1)%Z by lia.
    destruct (top_view T x0 x1 ws HT HP HW ltac:(lia)) as (s & S1 & S2). exists s. split; [|exact S2].
    rewrite dup_loop_spec by lia. rewrite (proj2 (Nat.leb_gt (rg + L + 0) (rg - 1))) by lia. exact S1.
  - replace (rg + g * rg - 1 + j) with (rg + (g * rg + j - 1)) by lia. set (i := g * rg + j - 1) in *.
    assert (Hi : i < L + 2 * rg) by lia.
    assert (Ez : (Z.of_nat (((T - 1) * M + g) * rg) + Z.of_nat j - 1 = Z.of_nat ((T - 1) * G + i))%Z)
      by (replace (((T - 1) * M + g) * rg) with ((T - 1) * G + g * rg) by (generalize (T - 1); intros; nia); unfold i; lia).
    rewrite Ez. clearbody i.
    unfold view. rewrite dup_loop_spec by lia.
    destruct (Nat.leb_spec (rg + L + 0) (rg + i)) as [Q|Q].
    + rewrite (proj2 (Nat.ltb_lt (rg + i) (rg + L + 0 + rg * 2))) by lia. cbn [andb].
      assert (Ec : clamp_row c (Z.of_nat ((T - 1) * G + i)) = (T - 1) * G + (L - 1)).
      { unfold clamp_row. rewrite L3. generalize ((T - 1) * G). intros q. lia. }
      rewrite Ec.
      apply row_view; [exact HP|exact HW|lia].
    + cbn [andb]. rewrite (clamp_id ((T - 1) * G + i)) by lia.
      apply row_view; [exact HP|exact HW|lia].
Qed.

Definition XB (r : nat) (x0 x1 : ptrs) : ptrs := if Nat.even r then x1 else x0.

(* the states of the context state machine while y < O *)
Definition IP (d : dst) (y : nat) : Prop := exists r,
  let m := d_main d in
  1 <= r <= T /\ d_row d = r /\ m_ctr m = r /\ m_full m = true /\ m_cs m = CTX_PROCESS_IMCU /\
  m_which m = Nat.even r /\ m_rgc m < m_avail m /\
  (forall g, g < m_avail m -> filled (xbuf m) (m_ws m) (rg + g * rg) ((r - 1) * M + g)) /\
  (r < T -> m_avail m = M - 1 /\ PI r (m_x0 m) (m_x1 m) /\ W r (Nat.even r) (m_ws m)) /\
  (r = T -> dh <= ((r - 1) * M + m_avail m) * rg) /\
  UI ((r - 1) * M + m_rgc m) y (d_ups d) (m_ws m).
Definition IQ (d : dst) (y : nat) : Prop := exists r,
  let m := d_main d in
  1 <= r <= T /\ d_row d = r /\ m_ctr m = r /\ m_full m = true /\ m_cs m = CTX_PREPARE_FOR_IMCU /\
  m_which m = Nat.even r /\ PI r (m_x0 m) (m_x1 m) /\ W r (Nat.even r) (m_ws m) /\
  u_next (d_ups d) = v /\ UI ((r - 1) * M) y (d_ups d) (m_ws m).
Definition IR (d : dst) (y : nat) : Prop :=
  let m := d_main d in
  d_row d = 0 /\ m_ctr m = 0 /\ m_full m = false /\ m_cs m = CTX_PREPARE_FOR_IMCU /\
  m_which m = false /\ PI 0 (m_x0 m) (m_x1 m) /\
  u_next (d_ups d) = v /\ UI 0 y (d_ups d) (m_ws m).
Definition IS (d : dst) (y : nat) : Prop := exists r,
  let m := d_main d in
  1 <= r < T /\ d_row d = r /\ m_ctr m = r /\ m_full m = false /\ m_cs m = CTX_POSTPONED_ROW /\
  m_which m = negb (Nat.even r) /\ m_rgc m = M + 1 /\ m_avail m = M + 2 /\
  PI 2 (m_x0 m) (m_x1 m) /\ W r (Nat.even r) (m_ws m) /\
  u_next (d_ups d) = v /\ UI (r * M - 1) y (d_ups d) (m_ws m).
Definition IU (d : dst) (y : nat) : Prop := exists r,
  let m := d_main d in
  2 <= r <= T /\ d_row d = r /\ m_ctr m = r /\ m_full m = true /\ m_cs m = CTX_POSTPONED_ROW /\
  m_which m = Nat.even r /\ m_rgc m = M + 1 /\ m_avail m = M + 2 /\
  PI r (m_x0 m) (m_x1 m) /\ W r (Nat.even r) (m_ws m) /\
  UI ((r - 1) * M - 1) y (d_ups d) (m_ws m).
Definition CI (d : dst) (y : nat) : Prop :=
  d_lines d = map (line_spec c) (seq 0 y) /\ d_row d <= T /\ y <= O /\
  (y = O \/ IP d y \/ IQ d y \/ IR d y \/ IS d y \/ IU d y).

Lemma PI_ge2 : forall r r' x0 x1, 2 <= r -> 2 <= r' -> PI r x0 x1 -> PI r' x0 x1.
Proof.
  intros r r' x0 x1 H1 H2 (A & B & _ & D). split; [exact A|]. split; [exact B|]. split; [lia|]. intros _. apply D. lia.
Qed.
Lemma wrap1_ok : forall w x, NP w x -> NP w (wrap1 c x) /\ WR w (wrap1 c x).
Proof.
  intros w x HN. destruct pos as (A & B & C). unfold wrap1.
  assert (S1 : forall y, copy_loop rg 0 0 (rg + rg * (M + 1)) x y =
             if (0 + 0 <=? y) && (y <? 0 + 0 + rg) then x (rg + rg * (M + 1) + (y - 0)) else x y)
    by (intros y; apply copy_loop_spec; lia).
  set (x' := copy_loop rg 0 0 (rg + rg * (M + 1)) x) in *. clearbody x'.
  assert (S2 : forall y, copy_loop rg 0 (rg + P) rg x' y =
             if (rg + P + 0 <=? y) && (y <? rg + P + 0 + rg) then x' (rg + (y - (rg + P))) else x' y)
    by (intros y; apply copy_loop_spec; nia).
  assert (EP : rg * (M + 1) + rg = P) by nia.
  split.
  - intros i Hi. rewrite S2. rewrite (proj2 (Nat.leb_gt (rg + P + 0) (rg + i))) by lia. cbn [andb].
    rewrite S1. rewrite (proj2 (Nat.ltb_ge (rg + i) (0 + 0 + rg))) by lia. rewrite andb_false_r. apply HN. exact Hi.
  - split; intros i Hi; rewrite S2.
    + rewrite (proj2 (Nat.leb_gt (rg + P + 0) i)) by lia. cbn [andb].
      rewrite S1. rewrite (proj2 (Nat.ltb_lt i (0 + 0 + rg))) by lia. cbn [andb Nat.leb Nat.add].
      rewrite <- Nat.add_assoc. rewrite Nat.sub_0_r. apply HN. lia.
    + rewrite (proj2 (Nat.leb_le (rg + P + 0) (rg + P + i))) by lia.
      rewrite (proj2 (Nat.ltb_lt (rg + P + i) (rg + P + 0 + rg))) by lia. cbn [andb].
      replace (rg + P + i - (rg + P)) with i by lia.
      rewrite S1. rewrite (proj2 (Nat.ltb_ge (rg + i) (0 + 0 + rg))) by lia. rewrite andb_false_r. apply HN. nia.
Qed.

Lemma UI_pos : forall k y u ws, u_next u = v -> UI k y u ws -> y = k * v.
Proof. intros k y u ws Hn (_ & _ & [[_ E]|(E & _)]); [exact E|lia]. Qed.

Lemma process_ok : forall d y out avail, IP d y -> y < O -> d_lines d = map (line_spec c) (seq 0 y) ->
  exists d' cnt, ctx_process c d out avail = Ret (d', out + cnt) /\ CI d' (y + cnt) /\ cnt <= avail - out /\
    (out < avail -> 1 <= cnt) /\ d_orc d' = d_orc d.
Proof.
  intros d y out avail (r & H) Hy HL. cbv zeta in H.
  destruct H as (Hr & R1 & R2 & R3 & R4 & R5 & R6 & R7 & R8 & R9 & R10).
  unfold ctx_process, post. set (m := d_main d) in *. destruct pos as (A & B & C).
  replace (rg + m_rgc m * rg) with (rg + m_rgc m * rg) by lia.
  destruct (up_spec (xbuf m) (m_ws m) (m_rgc m) (rg + m_rgc m * rg) _ y (d_ups d) out avail R10)
    as (u' & cnt & rgc' & E & C1 & C2 & C3 & C4); [|exact Hy|].
  { intros _. apply R7. exact R6. }
  rewrite E. cbn [bind d_main d_ups d_orc d_row d_lines].
  assert (EL : d_lines d ++ map (line_spec c) (seq y cnt) = map (line_spec c) (seq 0 (y + cnt)))
    by (rewrite HL; apply lines_app).
  unfold with_rgc at 1 2. cbn [m_rgc m_avail].
  destruct (Nat.ltb_spec rgc' (m_avail m)) as [L|L].
  - eexists _, cnt. split; [reflexivity|]. split; [|split; [exact C2|split; [exact C3|reflexivity]]].
    split; [exact EL|]. split; [cbn; lia|]. split; [exact C1|].
    right. left. exists r. cbv zeta. cbn [d_main d_row d_ups with_rgc m_ctr m_full m_cs m_which m_rgc m_avail m_x0 m_x1 m_ws].
    split; [exact Hr|]. split; [exact R1|]. split; [exact R2|]. split; [exact R3|]. split; [exact R4|].
    split; [exact R5|]. split; [exact L|]. split; [exact R7|]. split; [exact R8|]. split; [exact R9|].
    destruct C4 as [(Q1 & Q2 & Q3)|(Q1 & Q2 & Q3 & _)]; rewrite Q1; [|exact Q3].
    replace ((r - 1) * M + S (m_rgc m)) with (S ((r - 1) * M + m_rgc m)) by lia. exact Q3.
  - destruct C4 as [(Q1 & Q2 & Q3)|(Q1 & _)]; [|lia].
    assert (Eg : m_avail m = S (m_rgc m)) by lia.
    eexists _, cnt. split; [reflexivity|]. split; [|split; [exact C2|split; [exact C3|reflexivity]]].
    split; [exact EL|]. split; [cbn; lia|]. split; [exact C1|].
    pose proof (UI_pos _ _ _ _ Q2 Q3) as Ey.
    destruct (Nat.eq_dec r T) as [->|NT].
    + left. specialize (R9 eq_refl). rewrite Eg in R9.
      destruct (Nat.lt_ge_cases (y + cnt) O) as [K|K]; [|lia].
      rewrite Ey in K. apply geo_group in K. nia.
    + destruct (R8 ltac:(lia)) as (T1 & T2 & T3).
      right. right. right. right. left. exists r. cbv zeta.
      cbn [d_main d_row d_ups with_rgc m_ctr m_full m_cs m_which m_rgc m_avail m_x0 m_x1 m_ws].
      destruct (Nat.eqb_spec (m_ctr m) 1) as [K|K].
      * cbn [set_wraparound_pointers m_ctr m_full m_cs m_which m_rgc m_avail m_x0 m_x1 m_ws with_rgc].
        split; [lia|]. split; [exact R1|]. split; [exact R2|]. split; [reflexivity|]. split; [reflexivity|].
        split; [rewrite R5; reflexivity|]. split; [reflexivity|]. split; [reflexivity|].
        split.
        { destruct T2 as (N0 & N1 & _). destruct (wrap1_ok _ _ N0) as [V1 V2]. destruct (wrap1_ok _ _ N1) as [V3 V4].
          split; [exact V1|]. split; [exact V3|]. split; [lia|]. intros _. split; assumption. }
        split; [exact T3|]. split; [exact Q2|].
        replace (r * M - 1) with (S ((r - 1) * M + m_rgc m)) by (destruct r; nia). exact Q3.
      * cbn [m_ctr m_full m_cs m_which m_rgc m_avail m_x0 m_x1 m_ws with_rgc].
        split; [lia|]. split; [exact R1|]. split; [exact R2|]. split; [reflexivity|]. split; [reflexivity|].
        split; [rewrite R5; reflexivity|]. split; [reflexivity|]. split; [reflexivity|].
        split; [apply (PI_ge2 r); [lia|lia|exact T2]|].
        split; [exact T3|]. split; [exact Q2|].
        replace (r * M - 1) with (S ((r - 1) * M + m_rgc m)) by (destruct r; nia). exact Q3.
Qed.

Lemma XB_xbuf : forall r m, m_which m = Nat.even r -> xbuf m = if Nat.even r then m_x1 m else m_x0 m.
Proof. intros r m E. unfold xbuf. rewrite E. reflexivity. Qed.

Lemma prepare_ok : forall d y out avail, IQ d y -> d_lines d = map (line_spec c) (seq 0 y) ->
  exists d' cnt, ctx_prepare c d out avail = Ret (d', out + cnt) /\ CI d' (y + cnt) /\ cnt <= avail - out /\
    (out < avail -> 1 <= cnt) /\ d_orc d' = d_orc d.
Proof.
  intros d y out avail (r & H) HL. cbv zeta in H.
  destruct H as (Hr & R1 & R2 & R3 & R4 & R5 & R6 & R7 & R8 & R9).
  assert (Hy : y < O).
  { rewrite (UI_pos _ _ _ _ R8 R9). rewrite <- Nat.mul_assoc. apply geo_T'. lia. }
  unfold ctx_prepare. set (m := d_main d) in *. destruct pos as (A & B & C).
  cbn [m_ctr]. rewrite R2.
  destruct (Nat.eqb_spec r T) as [-> |K].
  - set (d1 := mkD _ _ _ _ _).
    destruct (process_ok d1 y out avail) as (d' & cnt & E & F); [|exact Hy|exact HL|exists d', cnt; split; [exact E|exact F]].
    destruct rows_left_eq as (L1 & L2 & L3).
    exists T. cbv zeta. unfold d1. cbn [d_main d_row d_ups].
    unfold set_bottom_pointers, with_cs. cbn [m_ctr m_full m_cs m_which m_rgc m_avail m_x0 m_x1 m_ws].
    split; [lia|]. split; [exact R1|]. split; [reflexivity|]. split; [exact R3|]. split; [reflexivity|].
    split; [exact R5|]. split; [lia|]. split.
    { intros g Hg. unfold xbuf. cbn [m_which m_x0 m_x1]. rewrite R5.
      pose proof (filled_bot (m_x0 m) (m_x1 m) (m_ws m) g R6 R7 Hg) as F.
      destruct (Nat.even T); exact F. }
    split; [lia|]. split.
    { intros _. pose proof (Nat.div_mod (rows_left c - 1) rg ltac:(lia)).
      pose proof (Nat.mod_upper_bound (rows_left c - 1) rg ltac:(lia)). rewrite L3. nia. }
    rewrite Nat.add_0_r. exact R9.
  - set (d1 := mkD _ _ _ _ _).
    destruct (process_ok d1 y out avail) as (d' & cnt & E & F); [|exact Hy|exact HL|exists d', cnt; split; [exact E|exact F]].
    exists r. cbv zeta. unfold d1. cbn [d_main d_row d_ups].
    unfold with_cs. cbn [m_ctr m_full m_cs m_which m_rgc m_avail m_x0 m_x1 m_ws].
    split; [lia|]. split; [exact R1|]. split; [reflexivity|]. split; [exact R3|]. split; [reflexivity|].
    split; [exact R5|]. split; [lia|]. split.
    { intros g Hg. unfold xbuf. cbn [m_which m_x0 m_x1]. rewrite R5. apply filled_mid; [lia|lia|exact R6|exact R7|exact Hg]. }
    split; [intros _; split; [reflexivity|split; [exact R6|exact R7]]|]. split; [lia|].
    rewrite Nat.add_0_r. exact R9.
Qed.

(* decompress_data into the list of iMCU row S r *)
Lemma decomp_ok' : forall r x0 x1 ws, r < T -> NP false x0 /\ NP true x1 ->
  (1 <= r -> W r (Nat.even r) ws) ->
  exists ws', decompress_rows G 0 (r * G) (fun i => (if Nat.even (S r) then x1 else x0) (rg + i)) ws = Ret ws' /\
    W (S r) (Nat.even (S r)) ws'.
Proof.
  intros r x0 x1 ws Hr (N0 & N1) HW. destruct pos as (A & B & C).
  assert (HGP : G + 2 * rg = P) by nia.
  assert (HG2 : 2 * rg <= G) by nia.
  destruct (decompress_rows_spec G 0 (r * G) (fun i => (if Nat.even (S r) then x1 else x0) (rg + i)) ws (X (Nat.even (S r))))
    as (ws' & E & F1 & F2).
  - intros j Hj. assert (j < P) by lia. destruct (Nat.even (S r)); [apply N1|apply N0]; assumption.
  - intros j k Hj Hk. apply X_inj; lia.
  - exists ws'. split; [exact E|]. split.
    + intros i Hi. rewrite F1 by lia. f_equal. lia.
    + intros H2 i Hi. rewrite F2.
      * assert (En : Nat.even (S r) = negb (Nat.even r)) by (rewrite Nat.even_succ, <- Nat.negb_even; reflexivity).
        rewrite En, X_flip by exact Hi. destruct (HW ltac:(lia)) as (W1 & _). rewrite W1 by lia.
        f_equal. replace (S r - 1) with r by lia. 
        assert (Er : (r - 1) * G + G = r * G) by (rewrite <- Nat.mul_succ_l; f_equal; lia).
        rewrite <- Er. revert HG2. generalize ((r - 1) * G). generalize G. intros; lia.
      * intros j Hj Ej. apply X_inj in Ej; lia.
Qed.

Lemma UI_ws : forall k y u ws ws', u_next u = v -> UI k y u ws -> UI k y u ws'.
Proof. intros k y u ws ws' Hn (A & B & [C|(C & _)]); [|lia]. split; [exact A|]. split; [exact B|]. left. exact C. Qed.

(* the whole CTX_POSTPONED_ROW case *)
Lemma postponed_ok : forall d y avail, IU d y -> y < O -> d_lines d = map (line_spec c) (seq 0 y) ->
  exists d' cnt,
    ('(d, out) <- post c d 0 avail ;;
      if m_rgc (d_main d) <? m_avail (d_main d) then Ret (d, out)
      else
        let d := mkD (with_cs (d_main d) CTX_PREPARE_FOR_IMCU) (d_ups d) (d_orc d) (d_row d) (d_lines d) in
        if avail <=? out then Ret (d, out) else ctx_prepare c d out avail) = Ret (d', cnt) /\
    CI d' (y + cnt) /\ cnt <= avail /\ (0 < avail -> 1 <= cnt) /\ d_orc d' = d_orc d.
Proof.
  intros d y avail (r & H) Hy HL. cbv zeta in H.
  destruct H as (Hr & R1 & R2 & R3 & R4 & R5 & R6 & R7 & R8 & R9 & R10).
  unfold post. set (m := d_main d) in *. destruct pos as (A & B & C).
  destruct (up_spec (xbuf m) (m_ws m) (m_rgc m) (rg + m_rgc m * rg) _ y (d_ups d) 0 avail R10)
    as (u' & cnt & rgc' & E & C1 & C2 & C3 & C4); [|exact Hy|].
  { intros _. rewrite R6, (XB_xbuf r m R5). apply filled_post; [lia|lia|exact R8|exact R9]. }
  rewrite E. cbn [bind]. rewrite Nat.add_0_l. rewrite Nat.sub_0_r in C2.
  assert (EL : d_lines d ++ map (line_spec c) (seq y cnt) = map (line_spec c) (seq 0 (y + cnt)))
    by (rewrite HL; apply lines_app).
  cbn [d_main d_row d_ups d_orc d_lines]. unfold with_rgc at 1 2. cbn [m_rgc m_avail]. rewrite R7.
  destruct C4 as [(Q1 & Q2 & Q3)|(Q1 & Q2 & Q3 & Q4)]; rewrite Q1, R6.
  - rewrite (proj2 (Nat.ltb_ge (S (M + 1)) (M + 2))) by lia. cbv zeta.
    set (d1 := mkD _ _ _ _ _).
    assert (I1 : IQ d1 (y + cnt)).
    { exists r. cbv zeta. unfold d1. cbn [d_main d_row d_ups with_cs with_rgc m_ctr m_full m_cs m_which m_rgc m_avail m_x0 m_x1 m_ws].
      split; [lia|]. split; [exact R1|]. split; [exact R2|]. split; [exact R3|]. split; [reflexivity|].
      split; [exact R5|]. split; [exact R8|]. split; [exact R9|]. split; [exact Q2|].
      replace ((r - 1) * M) with (S ((r - 1) * M - 1)) by nia. exact Q3. }
    destruct (Nat.leb_spec avail cnt) as [L|L].
    + exists d1, cnt. split; [reflexivity|]. split; [|split; [exact C2|split; [exact C3|reflexivity]]].
      split; [exact EL|]. split; [cbn; lia|]. split; [exact C1|]. right. right. left. exact I1.
    + destruct (prepare_ok d1 (y + cnt) cnt avail I1 EL) as (d' & cnt' & F1 & F2 & F3 & F4 & F5).
      exists d', (cnt + cnt'). split; [exact F1|]. rewrite Nat.add_assoc. split; [exact F2|].
      split; [lia|]. split; [|exact F5]. intros K. specialize (C3 K). lia.
  - rewrite (proj2 (Nat.ltb_lt (M + 1) (M + 2))) by lia.
    eexists _, cnt. split; [reflexivity|]. split; [|split; [exact C2|split; [exact C3|reflexivity]]].
    split; [exact EL|]. split; [cbn; lia|]. split; [exact C1|].
    right. right. right. right. right. exists r. cbv zeta.
    cbn [d_main d_row d_ups with_rgc m_ctr m_full m_cs m_which m_rgc m_avail m_x0 m_x1 m_ws].
    split; [exact Hr|]. split; [exact R1|]. split; [exact R2|]. split; [exact R3|]. split; [exact R4|].
    split; [exact R5|]. split; [lia|]. split; [exact R7|]. split; [exact R8|]. split; [exact R9|]. exact Q3.
Qed.

Lemma context_step : forall d y avail, CI d y -> y < O ->
  exists d' cnt, process_context c d avail = Ret (d', cnt) /\ CI d' (y + cnt) /\ cnt <= avail /\
    (1 <= cnt \/ avail = 0 \/ hd true (d_orc d) = false /\ m_full (d_main d) = false /\ d_orc d' = tl (d_orc d)).
Proof.
  intros d y avail (HL & HR & _ & HC) Hy.
  assert (Fin : forall (Q : dst -> nat -> Prop) (Rr : dst -> Prop) (o : outcome (dst * nat)),
    (exists d' cnt, o = Ret (d', cnt) /\ CI d' (y + cnt) /\ cnt <= avail /\ (0 < avail -> 1 <= cnt) /\ Q d' cnt) ->
    exists d' cnt, o = Ret (d', cnt) /\ CI d' (y + cnt) /\ cnt <= avail /\
    (1 <= cnt \/ avail = 0 \/ Rr d')).
  { intros Q Rr o (d' & cnt & E1 & E2 & E3 & E4 & _). exists d', cnt. split; [exact E1|]. split; [exact E2|]. split; [exact E3|].
    destruct (Nat.eq_dec avail 0); [auto|]. left. apply E4. lia. }
  unfold process_context. set (m := d_main d) in *.
  destruct HC as [HC|[HC|[HC|[HC|[HC|HC]]]]]; [lia| | | | |].
  - (* process *)
    pose proof HC as HC'. destruct HC' as (r & H). cbv zeta in H.
    destruct H as (Hr & R1 & R2 & R3 & R4 & _). fold m in R3, R4. rewrite R3. cbn [bind negb]. cbn [d_main]. rewrite R4.
    refine (Fin (fun _ _ => True) (fun _ => _) _ _).
    destruct (process_ok d y 0 avail HC Hy HL) as (d' & cnt & F1 & F2 & F3 & F4 & F5).
    exists d', cnt. rewrite Nat.sub_0_r in F3.
    split; [|split; [exact F2|split; [exact F3|split; [exact F4|exact I]]]].
    rewrite Nat.add_0_l in F1. rewrite <- F1. f_equal. unfold m. destruct d; reflexivity.
  - (* prepare *)
    pose proof HC as HC'. destruct HC' as (r & H). cbv zeta in H.
    destruct H as (Hr & R1 & R2 & R3 & R4 & _). fold m in R3, R4. rewrite R3. cbn [bind negb]. cbn [d_main]. rewrite R4.
    refine (Fin (fun _ _ => True) (fun _ => _) _ _).
    destruct (prepare_ok d y 0 avail HC HL) as (d' & cnt & F1 & F2 & F3 & F4 & F5).
    exists d', cnt. rewrite Nat.sub_0_r in F3.
    split; [|split; [exact F2|split; [exact F3|split; [exact F4|exact I]]]].
    rewrite Nat.add_0_l in F1. rewrite <- F1. f_equal. unfold m. destruct d; reflexivity.
  - (* initial *)
    pose proof HC as HC'. destruct HC' as (R1 & R2 & R3 & R4 & R5 & R6 & R7 & R8). fold m in R2, R3, R4, R5, R6, R8.
    rewrite R3. destruct (hd true (d_orc d)) eqn:Eh; cbn [negb].
    + assert (EX : xbuf m = if Nat.even 1 then m_x1 m else m_x0 m) by (unfold xbuf; rewrite R5; reflexivity).
      destruct (decomp_ok' 0 (m_x0 m) (m_x1 m) (m_ws m) geo_T_pos (conj (proj1 R6) (proj1 (proj2 R6))) ltac:(lia)) as (ws & Ew & HW).
      rewrite R1, EX, Ew. cbn [bind negb]. cbn [m_cs]. rewrite R4. refine (Fin (fun _ _ => True) (fun _ => _) _ _).
      set (d1 := mkD _ _ _ _ _).
      destruct (prepare_ok d1 y 0 avail) as (d' & cnt & F1 & F2 & F3 & F4 & F5); [|exact HL|].
      { exists 1. cbv zeta. unfold d1. cbn [d_main d_row d_ups m_ctr m_full m_cs m_which m_rgc m_avail m_x0 m_x1 m_ws].
        pose proof geo_T_pos.
        split; [lia|]. split; [reflexivity|]. split; [lia|]. split; [reflexivity|]. split; [first [exact R4|reflexivity]|].
        split; [exact R5|]. split.
        { destruct R6 as (V1 & V2 & V3 & _). split; [exact V1|]. split; [exact V2|]. split; [|lia]. intros _. apply V3. lia. }
        split; [exact HW|]. split; [exact R7|]. apply (UI_ws _ _ _ (m_ws m)); [exact R7|exact R8]. }
      exists d', cnt. rewrite Nat.sub_0_r in F3.
      split; [exact F1|split; [exact F2|split; [exact F3|split; [exact F4|exact I]]]].
    + cbn [bind negb]. eexists _, 0. split; [reflexivity|]. rewrite Nat.add_0_r.
      split; [|split; [lia|right; right; auto]].
      split; [exact HL|]. split; [exact HR|]. split; [lia|]. right. right. right. left. exact HC.
  - (* postponed, not full *)
    pose proof HC as HC'. destruct HC' as (r & H). cbv zeta in H.
    destruct H as (Hr & R1 & R2 & R3 & R4 & R5 & R6 & R7 & R8 & R9 & R10 & R11). fold m in R2, R3, R4, R5, R6, R7, R8, R9, R11.
    rewrite R3. destruct (hd true (d_orc d)) eqn:Eh; cbn [negb].
    + assert (En : Nat.even (S r) = negb (Nat.even r)) by (rewrite Nat.even_succ, <- Nat.negb_even; reflexivity).
      assert (EX : xbuf m = if Nat.even (S r) then m_x1 m else m_x0 m) by (unfold xbuf; rewrite R5, En; reflexivity).
      destruct (decomp_ok' r (m_x0 m) (m_x1 m) (m_ws m)) as (ws & Ew & HW);
        [lia|destruct R8 as (V1 & V2 & _); split; [exact V1|exact V2]|intros _; exact R9|].
      rewrite R1, EX, Ew. cbn [bind negb]. cbn [m_cs]. rewrite R4. refine (Fin (fun d' _ => d_orc d' = tl (d_orc d)) (fun _ => _) _ _).
      set (d1 := mkD _ _ _ _ _).
      apply (postponed_ok d1 y avail); [|exact Hy|exact HL].
      exists (S r). cbv zeta. unfold d1. cbn [d_main d_row d_ups m_ctr m_full m_cs m_which m_rgc m_avail m_x0 m_x1 m_ws].
      split; [lia|]. split; [reflexivity|]. split; [lia|]. split; [reflexivity|]. split; [first [exact R4|reflexivity]|].
      split; [rewrite R5, En; reflexivity|]. split; [exact R6|]. split; [exact R7|].
      split; [apply (PI_ge2 2); [lia|lia|exact R8]|]. split; [exact HW|].
      replace (S r - 1) with r by lia. apply (UI_ws _ _ _ (m_ws m)); [exact R10|exact R11].
    + cbn [bind negb]. eexists _, 0. split; [reflexivity|]. rewrite Nat.add_0_r.
      split; [|split; [lia|right; right; auto]].
      split; [exact HL|]. split; [exact HR|]. split; [lia|]. right. right. right. right. left. exact HC.
  - (* postponed, full *)
    pose proof HC as HC'. destruct HC' as (r & H). cbv zeta in H.
    destruct H as (Hr & R1 & R2 & R3 & R4 & _). fold m in R3, R4. rewrite R3. cbn [bind negb]. cbn [d_main]. rewrite R4.
    replace (mkD m (d_ups d) (d_orc d) (d_row d) (d_lines d)) with d by (unfold m; destruct d; reflexivity).
    refine (Fin (fun d' _ => d_orc d' = d_orc d) (fun _ => _) _ _). exact (postponed_ok d y avail HC Hy HL).
Qed.
End Cfg.
