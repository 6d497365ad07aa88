(* P_Skip.v -- the controller states met when lines are read and skipped. *)
From Verif Require Import Base M_DMain S_DMain P_DMain M_Skip S_Skip.
Open Scope nat_scope.

Section Cfg.
Variables (h du : nat) (c : dcfg).
Hypothesis Hc : dcfg_ok h du c.
Notation M := (g_M c).
Notation v := (g_v c).
Notation rg := (g_rg c).
Notation O := (g_O c).
Notation T := (g_T c).
Notation dh := (g_dh c).
Notation own := (own c).
Notation win := (win c).

(* k0: the row group whose row above may be stale *)
Definition valok (k0 : option nat) (k : nat) (val : list nat) : Prop :=
  length val = length (win k) /\
  forall j, j < length val -> (g_context c = true -> k0 = Some k -> j <> 0) ->
    nth_error val j = nth_error (win k) j.

Definition UI (k0 : option nat) (k y : nat) (u : dups) (ws : work) : Prop :=
  y <= O /\ O - y <= u_togo u /\
  ((u_next u = v /\ y = k * v) \/
   (1 <= u_next u < v /\ y = k * v + u_next u /\ valok k0 k (u_val u) /\ mapM (slot_val ws) (u_ptr u) = Ret (own k))).

Definition fillv (k0 : option nat) (p : nat -> option nat) (ws : work) (first k : nat) : Prop :=
  exists sl val, mapM (slot_of p) (seq first rg) = Ret sl /\ mapM (slot_val ws) sl = Ret (own k) /\
  (if g_context c then mapM (deref p ws) (seq (first - 1) (rg + 2))
   else mapM (deref p ws) (seq first rg)) = Ret val /\ valok k0 k val.

Definition okl (k0 : option nat) (z : nat) (l : line) : Prop :=
  (exists k, k0 = Some k /\ z = k * v) \/ shows c z l.
Definition okls (k0 : option nat) (y : nat) (ls : list line) : Prop :=
  forall i l, nth_error ls i = Some l -> okl k0 (y + i) l.
Lemma okls_app : forall k0 y l1 l2, okls k0 y l1 -> okls k0 (y + length l1) l2 -> okls k0 y (l1 ++ l2).
Proof.
  intros k0 y l1 l2 A B i l H. destruct (Nat.lt_ge_cases i (length l1)) as [L|L].
  - rewrite nth_error_app1 in H by exact L. apply A. exact H.
  - rewrite nth_error_app2 in H by exact L. specialize (B _ _ H).
    replace (y + length l1 + (i - length l1)) with (y + i) in B by lia. exact B.
Qed.

Lemma hv : 1 <= v.
Proof. destruct Hc as (_ & _ & _ & A & _). exact A. Qed.

Lemma okl_line : forall k0 k j val, j < v -> valok k0 k val -> okl k0 (k * v + j) (mkL j val (own k)).
Proof.
  intros k0 k j val Hj (V1 & V2).
  pose proof (line_spec_eq c k j Hj) as E.
  destruct k0 as [q|].
  - destruct (Nat.eq_dec q k) as [->|N].
    + destruct (Nat.eq_dec j 0) as [->|Nj]; [left; exists k; split; [reflexivity|lia]|].
      right. unfold shows. rewrite E. cbn [l_row l_now l_val].
      assert (Em : (k * v + j) mod v = j) by (rewrite Nat.add_comm, Nat.mod_add by lia; apply Nat.mod_small; exact Hj).
      rewrite Em. split; [reflexivity|]. split; [reflexivity|]. split; [exact V1|].
      intros i Hi H0 _. apply V2; [exact Hi|]. intros HX _ ->. specialize (H0 HX eq_refl). lia.
    + right. unfold shows. rewrite E. cbn [l_row l_now l_val].
      assert (Em : (k * v + j) mod v = j) by (rewrite Nat.add_comm, Nat.mod_add by lia; apply Nat.mod_small; exact Hj).
      rewrite Em. split; [reflexivity|]. split; [reflexivity|]. split; [exact V1|].
      intros i Hi _ _. apply V2; [exact Hi|]. intros _ K. congruence.
  - right. unfold shows. rewrite E. cbn [l_row l_now l_val].
    assert (Em : (k * v + j) mod v = j) by (rewrite Nat.add_comm, Nat.mod_add by lia; apply Nat.mod_small; exact Hj).
    rewrite Em. split; [reflexivity|]. split; [reflexivity|]. split; [exact V1|].
    intros i Hi _ _. apply V2; [exact Hi|]. intros _ K. discriminate.
Qed.

Lemma up_step : forall k0 p ws rgc first k y u out avail,
  UI k0 k y u ws -> (u_next u = v -> fillv k0 p ws first k) -> y < O -> out < avail -> avail - out <= O - y ->
  exists u' ls rgc',
    sep_upsample c p ws rgc first u out avail = Ret (u', out + length ls, ls, rgc') /\
    okls k0 y ls /\ 1 <= length ls /\ length ls <= avail - out /\ k * v < y + length ls /\
    ((rgc' = S rgc /\ u_next u' = v /\ UI k0 (S k) (y + length ls) u' ws) \/
     (rgc' = rgc /\ 1 <= u_next u' < v /\ UI k0 k (y + length ls) u' ws /\ avail <= out + length ls)).
Proof.
  intros k0 p ws rgc first k y u out avail (U1 & U2 & U3) Hf Hy Ho Ha.
  pose proof hv as Hv.
  unfold sep_upsample.
  assert (F : exists n ptr val, (if v <=? u_next u then
          own <- mapM (slot_of p) (seq first rg) ;;
          val <- (if g_context c then mapM (deref p ws) (seq (first - 1) (rg + 2))
                  else mapM (deref p ws) (seq first rg)) ;;
          Ret (mkU 0 (u_togo u) own val)
        else Ret u) = Ret (mkU n (u_togo u) ptr val) /\ n < v /\ y = k * v + n /\ valok k0 k val /\
        mapM (slot_val ws) ptr = Ret (own k)).
  { destruct U3 as [[A B]|(A & B & C & D)].
    - destruct (Hf A) as (sl & val & E1 & E2 & E3 & E4). rewrite A, Nat.leb_refl, E1. cbn [bind]. rewrite E3. cbn [bind].
      exists 0, sl, val. split; [reflexivity|]. split; [lia|]. split; [lia|]. split; [exact E4|exact E2].
    - rewrite (proj2 (Nat.leb_gt v (u_next u))) by lia.
      exists (u_next u), (u_ptr u), (u_val u). split; [destruct u; reflexivity|].
      split; [lia|]. split; [exact B|]. split; [exact C|exact D]. }
  destruct F as (n & ptr & val & EF & Hn & Ey & Ev & Ep). rewrite EF. cbn [bind u_next u_togo u_ptr u_val].
  rewrite Ep. cbn [bind].
  set (cnt := if avail - out <? (if u_togo u <? v - n then u_togo u else v - n)
              then avail - out else if u_togo u <? v - n then u_togo u else v - n).
  assert (Hcnt : cnt <= v - n /\ cnt <= avail - out /\ 1 <= cnt /\
                 (cnt = v - n \/ cnt = avail - out)).
  { unfold cnt. destruct (Nat.ltb_spec (u_togo u) (v - n));
      match goal with |- context[avail - out <? ?b] => destruct (Nat.ltb_spec (avail - out) b) end; lia. }
  clearbody cnt. destruct Hcnt as (K1 & K2 & K3 & K4).
  set (ls := map (fun j => mkL j val (own k)) (seq n cnt)).
  assert (Hl : length ls = cnt) by (unfold ls; rewrite map_length, seq_length; reflexivity).
  eexists _, ls, _. rewrite Hl. split; [reflexivity|]. split.
  { intros i l H. assert (Hi : i < cnt) by (rewrite <- Hl; apply nth_error_Some; rewrite H; discriminate).
    unfold ls in H. rewrite nth_error_map, (nth_error_nth' (seq n cnt) 0) in H by (rewrite seq_length; lia).
    rewrite seq_nth in H by exact Hi. cbn [option_map] in H. injection H as <-.
    rewrite Ey, <- Nat.add_assoc. apply okl_line; [lia|exact Ev]. }
  split; [exact K3|]. split; [exact K2|]. split; [lia|].
  destruct (Nat.leb_spec v (n + cnt)) as [L|L].
  - left. split; [reflexivity|]. split; [cbn [u_next]; lia|].
    split; [lia|]. split; [cbn [u_togo]; lia|]. left. split; [cbn [u_next]; lia|]. rewrite Ey. lia.
  - right. split; [reflexivity|]. split; [cbn [u_next]; lia|]. split; [|lia].
    split; [lia|]. split; [cbn [u_togo]; lia|]. right.
    cbn [u_next u_val u_ptr]. split; [lia|]. split; [lia|]. split; [exact Ev|exact Ep].
Qed.

Lemma UI_pos : forall k0 k y u ws, u_next u = v -> UI k0 k y u ws -> y = k * v.
Proof. intros k0 k y u ws Hn (_ & _ & [[_ E]|(E & _)]); [exact E|lia]. Qed.
Lemma UI_ws : forall k0 k y u ws ws', u_next u = v -> UI k0 k y u ws -> UI k0 k y u ws'.
Proof. intros k0 k y u ws ws' Hn (A & B & [C|(C & _)]); [|lia]. split; [exact A|]. split; [exact B|]. left. exact C. Qed.

(* ---------------------------------------------------------------- *)
(* no context *)
Definition SI (d : dst) (y : nat) : Prop :=
  d_orc d = [] /\ d_row d <= T /\ m_rgc (d_main d) < M /\
  (if m_full (d_main d) then
     1 <= d_row d /\ (d_row d - 1) * M * v < y /\
     (forall i, i < rg * M -> m_ws (d_main d) i = Some ((d_row d - 1) * (rg * M) + i)) /\
     UI None ((d_row d - 1) * M + m_rgc (d_main d)) y (d_ups d) (m_ws (d_main d))
   else
     u_next (d_ups d) = v /\ UI None (d_row d * M + m_rgc (d_main d)) y (d_ups d) (m_ws (d_main d))).

Lemma valok_win : forall k0 k, valok k0 k (win k).
Proof. intros. split; [reflexivity|]. intros; reflexivity. Qed.

Lemma simple_read : forall d y n, g_context c = false -> SI d y -> y < O -> 1 <= n -> n <= O - y ->
  exists d' ls, process_simple c d n = Ret (d', length ls) /\ d_lines d' = d_lines d ++ ls /\
    okls None y ls /\ 1 <= length ls <= n /\ SI d' (y + length ls) /\ d_row d <= d_row d' /\
    (m_full (d_main d') = false -> m_rgc (d_main d') = 0).
Proof.
  intros d y n Hctx (S0 & S2 & S3 & S4) Hy Hn Hny.
  assert (HM : 1 <= M) by (destruct Hc as (_ & _ & A & _); exact A).
  unfold process_simple. set (m := d_main d) in *.
  destruct (m_full m) eqn:Ef.
  - cbn [bind negb]. destruct S4 as (R1 & R0 & R3 & R4).
    destruct (up_step None (fun i => Some i) (m_ws m) (m_rgc m) (m_rgc m * rg) _ y (d_ups d) 0 n R4)
      as (u' & ls & rgc' & E & C1 & C2 & C3 & C5 & C4); [|exact Hy|lia|lia|].
    { intros _. exists (seq (m_rgc m * rg) rg), (win ((d_row d - 1) * M + m_rgc m)). split; [|split; [|split; [|apply valok_win]]].
      - rewrite (mapM_seq _ (fun j => m_rgc m * rg + j)); [rewrite seq_map_add; reflexivity|reflexivity].
      - unfold P_DMain.own. rewrite Hctx. apply mapM_seq. intros j Hj. unfold slot_val. rewrite R3 by nia. f_equal. nia.
      - unfold P_DMain.win. rewrite Hctx. apply mapM_seq. intros j Hj. unfold deref. rewrite R3 by nia. f_equal. nia. }
    rewrite E. cbn [bind]. rewrite Nat.add_0_l.
    destruct (Nat.leb_spec M rgc') as [L|L].
    + eexists _, ls. split; [reflexivity|]. split; [reflexivity|]. split; [exact C1|]. split; [lia|].
      destruct C4 as [(A & B & C)|(A & _)]; [|lia].
      split; [|split; [cbn [d_row]; lia|reflexivity]].
      split; [exact S0|]. split; [exact S2|]. split; [cbn; lia|]. cbn [d_main d_row d_ups m_full m_rgc m_ws].
      split; [exact B|].
      replace (d_row d * M + 0) with (S ((d_row d - 1) * M + m_rgc m)) by nia. exact C.
    + eexists _, ls. split; [reflexivity|]. split; [reflexivity|]. split; [exact C1|]. split; [lia|].
      split; [|split; [cbn [d_row]; lia|cbn; discriminate]].
      split; [exact S0|]. split; [exact S2|]. split; [cbn; lia|]. cbn [d_main d_row d_ups m_full m_rgc m_ws].
      split; [exact R1|]. split; [lia|]. split; [exact R3|].
      destruct C4 as [(A & B & C)|(A & B & C & _)]; rewrite A; [|exact C].
      replace ((d_row d - 1) * M + S (m_rgc m)) with (S ((d_row d - 1) * M + m_rgc m)) by lia. exact C.
  - destruct S4 as (R2 & R3). rewrite S0. cbn [hd negb].
    destruct (decompress_rows_spec (rg * M) 0 (d_row d * (rg * M)) (fun i => Some i) (m_ws m) (fun i => i))
      as (ws & Ew & Wa & _); [reflexivity|auto|].
    rewrite Ew. cbn [bind negb]. cbn [m_ws m_rgc m_x0 m_x1 m_which m_cs m_avail m_ctr].
    pose proof (UI_pos _ _ _ _ _ R2 R3) as Vy.
    assert (Hr : d_row d < T) by (apply (geo_T h du c Hc); nia).
    pose proof (UI_ws _ _ _ _ _ ws R2 R3) as UI0.
    destruct (up_step None (fun i => Some i) ws (m_rgc m) (m_rgc m * rg) _ y (d_ups d) 0 n UI0)
      as (u' & ls & rgc' & E & C1 & C2 & C3 & C5 & C4); [|exact Hy|lia|lia|].
    { intros _. exists (seq (m_rgc m * rg) rg), (win (d_row d * M + m_rgc m)).
      assert (Wb : forall j, j < rg -> ws (m_rgc m * rg + j) = Some ((d_row d * M + m_rgc m) * rg + j)).
      { intros j Hj. rewrite Wa by nia. f_equal. lia. }
      split; [|split; [|split; [|apply valok_win]]].
      - rewrite (mapM_seq _ (fun j => m_rgc m * rg + j)); [rewrite seq_map_add; reflexivity|reflexivity].
      - unfold P_DMain.own. rewrite Hctx. apply mapM_seq. intros j Hj. unfold slot_val. rewrite Wb by lia. reflexivity.
      - unfold P_DMain.win. rewrite Hctx. apply mapM_seq. intros j Hj. unfold deref. rewrite Wb by lia. reflexivity. }
    rewrite E. cbn [bind]. rewrite Nat.add_0_l.
    destruct (Nat.leb_spec M rgc') as [L|L].
    + eexists _, ls. split; [reflexivity|]. split; [reflexivity|]. split; [exact C1|]. split; [lia|].
      destruct C4 as [(A & B & C)|(A & _)]; [|lia].
      split; [|split; [cbn [d_row]; lia|reflexivity]].
      split; [reflexivity|]. split; [cbn [d_row]; lia|]. split; [cbn; lia|]. cbn [d_main d_row d_ups m_full m_rgc m_ws].
      split; [exact B|].
      replace (S (d_row d) * M + 0) with (S (d_row d * M + m_rgc m)) by nia. exact C.
    + eexists _, ls. split; [reflexivity|]. split; [reflexivity|]. split; [exact C1|]. split; [lia|].
      split; [|split; [cbn [d_row]; lia|cbn; discriminate]].
      split; [reflexivity|]. split; [cbn [d_row]; lia|]. split; [cbn; lia|]. cbn [d_main d_row d_ups m_full m_rgc m_ws].
      replace (S (d_row d) - 1) with (d_row d) by lia.
      split; [lia|]. split; [nia|]. split; [intros i Hi; rewrite Wa by lia; reflexivity|].
      destruct C4 as [(A & B & C)|(A & B & C & _)]; rewrite A; [|exact C].
      replace (d_row d * M + S (m_rgc m)) with (S (d_row d * M + m_rgc m)) by lia. exact C.
Qed.
End Cfg.
