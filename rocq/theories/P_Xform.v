(* P_Xform.v -- the loops of M_Xform do what S_Xform says. *)
From Verif Require Import Base M_Geom M_Xform S_Xform.

Definition co (b : blk64) (r q : Z) : Z := nth (Z.to_nat (8 * r + q)) b 0.
Definition tab64 (g : Z -> Z -> Z) : blk64 := map (fun k => g (Z.of_nat k / 8) (Z.of_nat k mod 8)) (seq 0 64).
Definition sg (b : bool) (x : Z) : Z := if b then cneg x else x.
Definition gen_op (tr fx fy : bool) (b : blk64) : blk64 :=
  tab64 (fun r q => sg (xorb (fx && Z.odd q) (fy && Z.odd r)) (if tr then co b q r else co b r q)).

Lemma co_tab64 g r q : 0 <= r < 8 -> 0 <= q < 8 -> co (tab64 g) r q = g r q.
Proof.
  intros. unfold co, tab64.
  rewrite (nth_indep _ 0 (g (Z.of_nat 0 / 8) (Z.of_nat 0 mod 8))) by (rewrite map_length, seq_length; lia).
  rewrite (map_nth (fun k => g (Z.of_nat k / 8) (Z.of_nat k mod 8))), seq_nth by lia.
  f_equal; rewrite Nat2Z.inj_add, Z2Nat.id by lia.
  - symmetry; apply (Z.div_unique _ 8 r q); lia.
  - symmetry; apply (Z.mod_unique _ 8 r q); lia.
Qed.
Lemma tab64_len g : length (tab64 g) = 64%nat. Proof. unfold tab64. now rewrite map_length, seq_length. Qed.

Ltac blk64s b H := do 64 (destruct b as [|? b]; [discriminate H|]); destruct b; [|discriminate H].
Ltac bop := cbv -[cneg]; reflexivity.

Lemma flip_h_op b : length b = 64%nat -> blk_flip_h b = gen_op false true false b.
Proof. intros H. blk64s b H. bop. Qed.
Lemma flip_v_op b : length b = 64%nat -> blk_flip_v b = gen_op false false true b.
Proof. intros H. blk64s b H. bop. Qed.
Lemma rot_180_op b : length b = 64%nat -> blk_rot_180 b = gen_op false true true b.
Proof. intros H. blk64s b H. bop. Qed.
Lemma id_op b : length b = 64%nat -> b = gen_op false false false b.
Proof. intros H. blk64s b H. bop. Qed.
Lemma transpose_op b : length b = 64%nat -> blk_transpose b junk = Ret (gen_op true false false b).
Proof. intros H. blk64s b H. bop. Qed.
Lemma rot_90_op b : length b = 64%nat -> blk_rot_90 b junk = Ret (gen_op true true false b).
Proof. intros H. blk64s b H. bop. Qed.
Lemma rot_270_op b : length b = 64%nat -> blk_rot_270 b junk = Ret (gen_op true false true b).
Proof. intros H. blk64s b H. bop. Qed.
Lemma transverse_op b : length b = 64%nat -> blk_transverse b junk = Ret (gen_op true true true b).
Proof. intros H. blk64s b H. bop. Qed.
Lemma transpose_quant_op q : length q = 64%nat -> transpose_quant q = Ret (tab64 (fun r c => co q c r)).
Proof. intros H. blk64s q H. bop. Qed.

(* ---------------- loops ---------------- *)
Lemma grp_le g h w n : 0 < h -> g * h < w -> w <= n * h -> g * h + h <= n * h.
Proof. intros. assert (g < n) by nia. nia. Qed.

Lemma for_ex {S} (I : Z -> S -> Prop) body n : forall i s,
  I i s -> (forall j s, i <= j < i + Z.of_nat n -> I j s -> exists s', body j s = Ret s' /\ I (j + 1) s') ->
  exists s', for_loop n i body s = Ret s' /\ I (i + Z.of_nat n) s'.
Proof.
  induction n as [|n IH]; intros i s HI HB.
  - exists s. split; [reflexivity|]. now replace (i + Z.of_nat 0) with i by lia.
  - destruct (HB i s ltac:(lia) HI) as (s1 & E & H1). cbn [for_loop]. rewrite E. cbn [bind].
    destruct (IH (i + 1) s1 H1) as (s2 & E2 & H2).
    { intros j t Hj. apply HB. lia. }
    exists s2. split; [exact E2|]. replace (i + Z.of_nat (Datatypes.S n)) with (i + 1 + Z.of_nat n) by lia. exact H2.
Qed.
Lemma for0 {S} (I : Z -> S -> Prop) body n s : 0 <= n ->
  I 0 s -> (forall j s, 0 <= j < n -> I j s -> exists s', body j s = Ret s' /\ I (j + 1) s') ->
  exists s', for_loop (Z.to_nat n) 0 body s = Ret s' /\ I n s'.
Proof.
  intros Hn H0 HB. destruct (for_ex I body (Z.to_nat n) 0 s H0) as (s' & E & H).
  { intros j t Hj. apply HB. lia. }
  exists s'. split; [exact E|]. now replace n with (0 + Z.of_nat (Z.to_nat n)) by lia.
Qed.

Lemma step_ex {S} (I : Z -> S -> Prop) hi st body : 0 < st ->
  (forall k s, 0 <= k -> k * st < hi -> I k s -> exists s', body (k * st) s = Ret s' /\ I (k + 1) s') ->
  forall fuel k s, 0 <= k -> hi <= k * st + Z.of_nat fuel -> I k s ->
  exists s' k', step_loop fuel (k * st) hi st body s = Ret s' /\ I k' s' /\ hi <= k' * st /\ k <= k'.
Proof.
  intros Hst HB. induction fuel as [|f IH]; intros k s Hk Hf HI; cbn [step_loop].
  - destruct (Z.ltb_spec (k * st) hi); [lia|]. exists s, k. split; [reflexivity|]. split; [exact HI|]. lia.
  - destruct (Z.ltb_spec (k * st) hi).
    + destruct (HB k s Hk H HI) as (s1 & E & H1). rewrite E. cbn [bind].
      replace (k * st + st) with ((k + 1) * st) by lia.
      destruct (IH (k + 1) s1) as (s2 & k2 & E2 & H2 & H3 & H4); [lia|lia|exact H1|].
      exists s2, k2. split; [exact E2|]. split; [exact H2|]. lia.
    + exists s, k. split; [reflexivity|]. split; [exact HI|]. lia.
Qed.
Lemma steps_ex {S} (I : Z -> S -> Prop) hi st body s : 0 < st -> 0 <= hi -> I 0 s ->
  (forall k s, 0 <= k -> k * st < hi -> I k s -> exists s', body (k * st) s = Ret s' /\ I (k + 1) s') ->
  exists s' k, steps hi st body s = Ret s' /\ I k s' /\ hi <= k * st.
Proof.
  intros Hst Hhi H0 HB. destruct (step_ex I hi st body Hst HB (Z.to_nat hi) 0 s) as (s' & k & E & H1 & H2 & _); [lia|lia|exact H0|].
  exists s', k. split; [|auto]. unfold steps. exact E.
Qed.

Definition dims (a s : barray) : Prop := ba_rows s = ba_rows a /\ ba_cols s = ba_cols a /\ ba_maxaccess s = ba_maxaccess a.
Lemma dims_refl a : dims a a. Proof. unfold dims; auto. Qed.
Lemma dims_trans a b c : dims a b -> dims b c -> dims a c. Proof. unfold dims; intuition congruence. Qed.

(* row y of s' holds F y 0 .. F y (n-1); the other rows are those of s *)
Definition fills (F : Z -> Z -> blk64) (y n : Z) (s s' : barray) : Prop :=
  dims s s' /\ (forall x, 0 <= x < n -> ba_blk s' y x = Some (F y x)) /\
  (forall y' x, y' <> y -> ba_blk s' y' x = ba_blk s y' x).

Lemma fills_0 F y s : fills F y 0 s s.
Proof. split; [apply dims_refl|]. split; [intros; lia|auto]. Qed.

Lemma wr_fills F y n s0 s bd k v : fills F y n s0 s -> 0 <= n ->
  0 <= k < ac_n bd -> n < ba_cols s0 -> y = ac_start bd + k -> v = F y n ->
  exists s', wr s bd k n v = Ret s' /\ fills F y (n + 1) s0 s'.
Proof.
  intros (D & V & U) Hn Hk Hc Hy Hv. unfold wr. destruct D as (D1 & D2 & D3). rewrite D2.
  destruct (Z.ltb_spec k 0); [lia|]. destruct (Z.leb_spec (ac_n bd) k); [lia|].
  destruct (Z.ltb_spec n 0); [lia|]. destruct (Z.leb_spec (ba_cols s0) n); [lia|]. cbn [orb].
  eexists. split; [reflexivity|]. split; [unfold dims; cbn [ba_rows ba_cols ba_maxaccess]; auto|]. split.
  - intros x Hx. cbn [ba_blk]. rewrite <- Hy, Z.eqb_refl. cbn [andb].
    destruct (Z.eqb_spec x n) as [->|N]; [now subst|]. apply V. lia.
  - intros y' x Hy'. cbn [ba_blk]. destruct (Z.eqb_spec y' (ac_start bd + k)); [lia|]. cbn [andb]. now apply U.
Qed.

Lemma rd_ok src bs k x S : (forall y x, 0 <= y < ba_rows src -> 0 <= x < ba_cols src -> ba_blk src y x = Some (S y x)) ->
  0 <= k < ac_n bs -> 0 <= x < ba_cols src -> 0 <= ac_start bs + k < ba_rows src ->
  rd src bs k x = Ret (S (ac_start bs + k) x).
Proof.
  intros HS Hk Hx Hr. unfold rd.
  destruct (Z.ltb_spec k 0); [lia|]. destruct (Z.leb_spec (ac_n bs) k); [lia|].
  destruct (Z.ltb_spec x 0); [lia|]. destruct (Z.leb_spec (ba_cols src) x); [lia|]. cbn [orb].
  now rewrite HS.
Qed.
Lemma access_ok a st n : 0 <= st -> st + n <= ba_rows a -> n <= ba_maxaccess a -> access_virt_barray a st n = Ret (mkAcc st n).
Proof.
  intros. unfold access_virt_barray. destruct (Z.ltb_spec st 0); [lia|].
  destruct (Z.ltb_spec (ba_rows a) (st + n)); [lia|]. destruct (Z.ltb_spec (ba_maxaccess a) n); [lia|]. reflexivity.
Qed.

(* all rows, group by group *)
Lemma groups_ok F v hib wib dst body : 0 < v -> 0 <= hib ->
  (forall k s, 0 <= k -> k * v < hib -> dims dst s -> exists row,
     body (k * v) s = for_loop (Z.to_nat v) 0 row s /\
     forall oy s, 0 <= oy < v -> dims dst s -> exists s', row oy s = Ret s' /\ fills F (k * v + oy) wib s s') ->
  exists s', steps hib v body dst = Ret s' /\ dims dst s' /\
    forall y x, 0 <= y < hib -> 0 <= x < wib -> ba_blk s' y x = Some (F y x).
Proof.
  intros Hv Hhib HB.
  destruct (steps_ex (fun k s => dims dst s /\ forall y x, 0 <= y < k * v -> 0 <= x < wib -> ba_blk s y x = Some (F y x)) hib v body dst Hv Hhib)
    as (s' & k & E & (D & V) & Hk).
  - split; [apply dims_refl|]. intros; lia.
  - intros k s Hk Hkv (D & V). destruct (HB k s Hk Hkv D) as (row & E & HR). rewrite E.
    destruct (for0 (fun oy s => dims dst s /\ forall y x, 0 <= y < k * v + oy -> 0 <= x < wib -> ba_blk s y x = Some (F y x)) row v s)
      as (s' & E' & D' & V'); [lia|split; [exact D|intros; apply V; lia]| |].
    + intros oy t Hoy (D1 & V1). destruct (HR oy t Hoy D1) as (t' & E1 & D2 & V2 & U2).
      exists t'. split; [exact E1|]. split; [eapply dims_trans; eassumption|].
      intros y x Hy Hx. destruct (Z.eq_dec y (k * v + oy)) as [->|N]; [now apply V2|].
      rewrite U2 by exact N. apply V1; lia.
    + exists s'. split; [exact E'|]. split; [exact D'|]. intros y x Hy Hx. apply V'; lia.
  - exists s'. split; [exact E|]. split; [exact D|]. intros y x Hy Hx. apply V; lia.
Qed.

(* a row written one block at a time *)
Lemma row_cells F y wib s bd k cell : 0 <= wib -> wib <= ba_cols s -> 0 <= k < ac_n bd -> y = ac_start bd + k ->
  (forall x t, 0 <= x < wib -> dims s t -> cell x t = wr t bd k x (F y x)) ->
  exists s', for_loop (Z.to_nat wib) 0 cell s = Ret s' /\ fills F y wib s s'.
Proof.
  intros Hw Hc Hk Hy HC.
  destruct (for0 (fun x t => fills F y x s t) cell wib s Hw (fills_0 F y s)) as (s' & E & H).
  - intros x t Hx Hf. rewrite HC by (try lia; apply Hf).
    apply wr_fills with (s0 := s); try lia; auto.
  - now exists s'.
Qed.
(* a row written h blocks at a time *)
Lemma row_groups F y wib h nx s bd k body : 0 < h -> 0 <= wib -> wib <= nx * h -> nx * h <= ba_cols s -> 0 <= k < ac_n bd -> y = ac_start bd + k ->
  (forall gx t, 0 <= gx -> gx * h < wib -> dims s t -> exists cell,
      body (gx * h) t = for_loop (Z.to_nat h) 0 cell t /\
      forall ox t, 0 <= ox < h -> dims s t -> cell ox t = wr t bd k (gx * h + ox) (F y (gx * h + ox))) ->
  exists s', steps wib h body s = Ret s' /\ fills F y wib s s'.
Proof.
  intros Hh Hw Hn Hc Hk Hy HB.
  destruct (steps_ex (fun gx t => fills F y (gx * h) s t) wib h body s Hh Hw) as (s' & g & E & H & Hg).
  - apply fills_0.
  - intros gx t Hgx Hlt Hf. destruct (HB gx t Hgx Hlt (proj1 Hf)) as (cell & E & HC). rewrite E.
    destruct (for0 (fun ox t => fills F y (gx * h + ox) s t) cell h t) as (s' & E' & H'); [lia| | |].
    + now replace (gx * h + 0) with (gx * h) by lia.
    + intros ox u Hox Hu. rewrite HC by (try lia; apply Hu).
      pose proof (grp_le gx h wib nx Hh Hlt Hn).
      destruct (wr_fills F y (gx * h + ox) s u bd k (F y (gx * h + ox)) Hu) as (s' & E' & H'); try nia; auto.
      exists s'. split; [exact E'|]. now replace (gx * h + (ox + 1)) with (gx * h + ox + 1) by lia.
    + exists s'. split; [exact E'|]. now replace ((gx + 1) * h) with (gx * h + h) by lia.
  - exists s'. split; [exact E|]. destruct H as (D & V & U). split; [exact D|]. split; [|exact U]. intros; apply V; lia.
Qed.

(* jcopy_block_row of a whole row, and of one block *)
Lemma copy_row F y wib s bd kd src bs ks xs S : 0 <= wib -> wib <= ba_cols s -> 0 <= kd < ac_n bd -> y = ac_start bd + kd ->
  (forall y x, 0 <= y < ba_rows src -> 0 <= x < ba_cols src -> ba_blk src y x = Some (S y x)) ->
  0 <= ks < ac_n bs -> 0 <= ac_start bs + ks < ba_rows src -> 0 <= xs -> xs + wib <= ba_cols src ->
  (forall x, 0 <= x < wib -> F y x = S (ac_start bs + ks) (xs + x)) ->
  exists s', jcopy_block_row src bs ks xs bd kd 0 wib s = Ret s' /\ fills F y wib s s'.
Proof.
  intros Hw Hc Hk Hy HS Hks Hr Hxs Hxw HF. unfold jcopy_block_row. apply row_cells with (bd := bd) (k := kd); auto.
  intros x t Hx Ht. rewrite (rd_ok src bs ks (xs + x) S) by (try lia; auto). cbn [bind].
  now rewrite Z.add_0_l, HF by lia.
Qed.
Lemma copy_one s bd kd src bs ks xs x S :
  (forall y x, 0 <= y < ba_rows src -> 0 <= x < ba_cols src -> ba_blk src y x = Some (S y x)) ->
  0 <= ks < ac_n bs -> 0 <= ac_start bs + ks < ba_rows src -> 0 <= xs < ba_cols src ->
  jcopy_block_row src bs ks xs bd kd x 1 s = wr s bd kd x (S (ac_start bs + ks) xs).
Proof.
  intros HS Hks Hr Hxs. unfold jcopy_block_row. change (Z.to_nat 1) with 1%nat. cbn [for_loop].
  rewrite (rd_ok src bs ks (xs + 0) S) by (try lia; auto). cbn [bind]. rewrite !Z.add_0_r.
  destruct (wr s bd kd x _); reflexivity.
Qed.

(* ---------------- one component ---------------- *)
Definition Fg (tr fx fy : bool) (CW CH xc yc : Z) (S : Z -> Z -> blk64) (y x : Z) : blk64 :=
  let bx := fx && (xc + x <? CW) in
  let b_y := fy && (yc + y <? CH) in
  let sx := if bx then CW - xc - x - 1 else xc + x in
  let sy := if b_y then CH - yc - y - 1 else yc + y in
  gen_op tr bx b_y (if tr then S sx sy else S sy sx).

Lemma grpN g a n w : 0 < w -> a * w + g * w < n * w -> a * w + g * w + w <= n * w.
Proof. intros. pose proof (grp_le (a + g) w (n * w) n). lia. Qed.
Lemma mult_lt o v k N a : 0 < v -> 0 <= o < v -> (a * v + k * v <? N * v) = (a * v + (k * v + o) <? N * v).
Proof.
  intros Hv Ho. destruct (Z.ltb_spec (a * v + k * v) (N * v)); symmetry; [apply Z.ltb_lt|apply Z.ltb_ge; lia].
  pose proof (grpN k a N v Hv H). lia.
Qed.

Section Comp.
Variable c : comp.
Variables xo yo nx ny M N : Z.
Variables src dst : barray.
Variable S : Z -> Z -> blk64.
Notation h := (c_h c).
Notation v := (c_v c).
Notation wib := (c_width_in_blocks c).
Notation hib := (c_height_in_blocks c).
Hypothesis Hh : 0 < h.
Hypothesis Hv : 0 < v.
Hypothesis Hxo : 0 <= xo.
Hypothesis Hyo : 0 <= yo.
Hypothesis Hwib : 0 <= wib <= nx * h.
Hypothesis Hhib : 0 <= hib <= ny * v.
Hypothesis HdR : ba_rows dst = ny * v.
Hypothesis HdC : ba_cols dst = nx * h.
Hypothesis HdM : v <= ba_maxaccess dst.
Hypothesis HS : forall y x, 0 <= y < ba_rows src -> 0 <= x < ba_cols src -> ba_blk src y x = Some (S y x).
Hypothesis HS64 : forall y x, 0 <= y < ba_rows src -> 0 <= x < ba_cols src -> length (S y x) = 64%nat.
Hypothesis HM : 0 <= M.
Hypothesis HN : 0 <= N.

Definition result (o : outcome barray) (F : Z -> Z -> blk64) : Prop :=
  exists s', o = Ret s' /\ dims dst s' /\
    forall y x, 0 <= y < hib -> 0 <= x < wib -> ba_blk s' y x = Some (F y x).

Lemma dst_access k s : 0 <= k -> k * v < hib -> dims dst s -> access_virt_barray s (k * v) v = Ret (mkAcc (k * v) v).
Proof. intros Hk Hkv (D1 & D2 & D3). apply access_ok; [nia| |lia]. rewrite D1, HdR. apply (grp_le k v hib ny); lia. Qed.

Ltac facts :=
  pose proof (Z.mul_nonneg_nonneg xo h Hxo (Z.lt_le_incl _ _ Hh));
  pose proof (Z.mul_nonneg_nonneg yo v Hyo (Z.lt_le_incl _ _ Hv));
  repeat match goal with
  | Hk : 0 <= ?k, Hkv : ?k * v < hib |- _ =>
      lazymatch goal with _ : k * v + v <= ny * v |- _ => fail | _ => idtac end;
      pose proof (grp_le k v hib ny Hv Hkv (proj2 Hhib)); pose proof (Z.mul_nonneg_nonneg k v Hk (Z.lt_le_incl _ _ Hv))
  | Hk : 0 <= ?k, Hkv : ?k * h < wib |- _ =>
      lazymatch goal with _ : k * h + h <= nx * h |- _ => fail | _ => idtac end;
      pose proof (grp_le k h wib nx Hh Hkv (proj2 Hwib)); pose proof (Z.mul_nonneg_nonneg k h Hk (Z.lt_le_incl _ _ Hh))
  | L : yo * v + ?k * v < N * v |- _ =>
      lazymatch goal with _ : yo * v + k * v + v <= N * v |- _ => fail | _ => idtac end;
      pose proof (grpN k yo N v Hv L)
  | L : xo * h + ?k * h < M * h |- _ =>
      lazymatch goal with _ : xo * h + k * h + h <= M * h |- _ => fail | _ => idtac end;
      pose proof (grpN k xo M h Hh L)
  end.

Section Straight.
Hypothesis HsR : (yo + ny) * v <= ba_rows src.
Hypothesis HsC : (xo + nx) * h <= ba_cols src.
Hypothesis HsM : v <= ba_maxaccess src.
Hypothesis HCW : M * h <= ba_cols src.
Hypothesis HCH : N * v <= ba_rows src.

Lemma src_access k : 0 <= k -> k * v < hib -> access_virt_barray src (k * v + yo * v) v = Ret (mkAcc (k * v + yo * v) v).
Proof. intros. facts. apply access_ok; lia. Qed.
Lemma src_access_m k : 0 <= k -> k * v < hib -> yo * v + k * v < N * v ->
  access_virt_barray src (N * v - yo * v - k * v - v) v = Ret (mkAcc (N * v - yo * v - k * v - v) v).
Proof. intros. facts. apply access_ok; lia. Qed.

Lemma do_crop_ok : result (do_crop c xo yo src dst) (Fg false false false 0 0 (xo * h) (yo * v) S).
Proof.
  apply groups_ok; [lia|lia|]. intros k s Hk Hkv D. cbv beta.
  rewrite (dst_access k s Hk Hkv D), (src_access k Hk Hkv). cbn [bind].
  eexists. split; [reflexivity|]. intros oy t Hoy Dt. cbv beta. facts.
  destruct Dt as (D1 & D2 & D3).
  apply copy_row with (S := S); cbn [ac_start ac_n]; try lia; auto; try lia.
  intros x Hx. unfold Fg. cbn [andb]. rewrite <- id_op.
  - f_equal; lia.
  - apply HS64; lia.
Qed.

Lemma flip_h_cell k oy x t : 0 <= k -> k * v < hib -> 0 <= oy < v -> 0 <= x < wib -> 
  (if xo * h + x <? M * h
   then b <- rd src (mkAcc (k * v + yo * v) v) oy (M * h - xo * h - x - 1) ;; wr t (mkAcc (k * v) v) oy x (blk_flip_h b)
   else jcopy_block_row src (mkAcc (k * v + yo * v) v) oy (x + xo * h) (mkAcc (k * v) v) oy x 1 t) =
  wr t (mkAcc (k * v) v) oy x (Fg false true false (M * h) 0 (xo * h) (yo * v) S (k * v + oy) x).
Proof.
  intros Hk Hkv Hoy Hx. unfold Fg. cbn [andb]. facts.
  destruct (Z.ltb_spec (xo * h + x) (M * h)).
  - rewrite (rd_ok _ _ _ _ S) by (cbn [ac_start ac_n]; try lia; auto). cbn [bind ac_start].
    rewrite flip_h_op by (apply HS64; lia). do 2 f_equal. f_equal; lia.
  - rewrite (copy_one _ _ _ _ _ _ _ _ S) by (cbn [ac_start ac_n]; try lia; auto). cbn [ac_start].
    rewrite <- id_op by (apply HS64; lia). f_equal. f_equal; lia.
Qed.

Lemma do_flip_h_ok : result (do_flip_h c xo yo (M * h) src dst) (Fg false true false (M * h) 0 (xo * h) (yo * v) S).
Proof.
  apply groups_ok; [lia|lia|]. intros k s Hk Hkv D. cbv beta.
  rewrite (dst_access k s Hk Hkv D), (src_access k Hk Hkv). cbn [bind].
  eexists. split; [reflexivity|]. intros oy t Hoy Dt. cbv beta. facts.
  destruct Dt as (D1 & D2 & D3).
  apply row_cells with (bd := mkAcc (k * v) v) (k := oy); cbn [ac_start ac_n]; try lia.
  intros x u Hx Du. now apply flip_h_cell.
Qed.

Lemma do_flip_v_ok : result (do_flip_v c xo yo (N * v) src dst) (Fg false false true 0 (N * v) (xo * h) (yo * v) S).
Proof.
  apply groups_ok; [lia|lia|]. intros k s Hk Hkv D. cbv beta.
  rewrite (dst_access k s Hk Hkv D). cbn [bind].
  destruct (Z.ltb_spec (yo * v + k * v) (N * v)) as [L|L].
  - rewrite (src_access_m k Hk Hkv L). cbn [bind].
    eexists. split; [reflexivity|]. intros oy t Hoy Dt. cbv beta. facts.
    destruct Dt as (D1 & D2 & D3).
    apply row_cells with (bd := mkAcc (k * v) v) (k := oy); cbn [ac_start ac_n]; try lia.
    intros x u Hx Du. unfold Fg. cbn [andb]. rewrite <- mult_lt by lia.
    rewrite (proj2 (Z.ltb_lt _ _)) by lia.
    rewrite (rd_ok _ _ _ _ S) by (cbn [ac_start ac_n]; try lia; auto). cbn [bind ac_start].
    rewrite flip_v_op by (apply HS64; lia). do 2 f_equal. f_equal; lia.
  - rewrite (src_access k Hk Hkv). cbn [bind].
    eexists. split; [reflexivity|]. intros oy t Hoy Dt. cbv beta. facts.
    destruct Dt as (D1 & D2 & D3).
    apply copy_row with (S := S); cbn [ac_start ac_n]; try lia; auto; try lia.
    intros x Hx. unfold Fg. cbn [andb]. rewrite <- mult_lt by lia.
    rewrite (proj2 (Z.ltb_ge _ _)) by lia. rewrite <- id_op.
    + f_equal; lia.
    + apply HS64; lia.
Qed.

Lemma do_rot_180_ok : result (do_rot_180 c xo yo (M * h) (N * v) src dst) (Fg false true true (M * h) (N * v) (xo * h) (yo * v) S).
Proof.
  apply groups_ok; [lia|lia|]. intros k s Hk Hkv D. cbv beta.
  rewrite (dst_access k s Hk Hkv D). cbn [bind].
  destruct (Z.ltb_spec (yo * v + k * v) (N * v)) as [L|L].
  - rewrite (src_access_m k Hk Hkv L). cbn [bind].
    eexists. split; [reflexivity|]. intros oy t Hoy Dt. cbv beta. facts.
    destruct Dt as (D1 & D2 & D3).
    apply row_cells with (bd := mkAcc (k * v) v) (k := oy); cbn [ac_start ac_n]; try lia.
    intros x u Hx Du. unfold Fg. cbn [andb]. rewrite <- mult_lt by lia.
    rewrite (proj2 (Z.ltb_lt (yo * v + k * v) _)) by lia.
    destruct (Z.ltb_spec (xo * h + x) (M * h)).
    + rewrite (rd_ok _ _ _ _ S) by (cbn [ac_start ac_n]; try lia; auto). cbn [bind ac_start].
      rewrite rot_180_op by (apply HS64; lia). do 2 f_equal. f_equal; lia.
    + rewrite (rd_ok _ _ _ _ S) by (cbn [ac_start ac_n]; try lia; auto). cbn [bind ac_start].
      rewrite flip_v_op by (apply HS64; lia). do 2 f_equal. f_equal; lia.
  - rewrite (src_access k Hk Hkv). cbn [bind].
    eexists. split; [reflexivity|]. intros oy t Hoy Dt. cbv beta. facts.
    destruct Dt as (D1 & D2 & D3).
    apply row_cells with (bd := mkAcc (k * v) v) (k := oy); cbn [ac_start ac_n]; try lia.
    intros x u Hx Du. rewrite flip_h_cell by auto. f_equal.
    unfold Fg. cbn [andb]. rewrite <- (mult_lt oy) by lia. rewrite (proj2 (Z.ltb_ge (yo * v + k * v) (N * v))) by lia. reflexivity.
Qed.
End Straight.

Section Transposed.
Hypothesis HsR : (xo + nx) * h <= ba_rows src.
Hypothesis HsC : (yo + ny) * v <= ba_cols src.
Hypothesis HsM : h <= ba_maxaccess src.
Hypothesis HCW : M * h <= ba_rows src.
Hypothesis HCH : N * v <= ba_cols src.

Lemma tsrc_access g : 0 <= g -> g * h < wib -> access_virt_barray src (g * h + xo * h) h = Ret (mkAcc (g * h + xo * h) h).
Proof. intros. facts. apply access_ok; lia. Qed.
Lemma tsrc_access_m g : 0 <= g -> g * h < wib -> xo * h + g * h < M * h ->
  access_virt_barray src (M * h - xo * h - g * h - h) h = Ret (mkAcc (M * h - xo * h - g * h - h) h).
Proof. intros. facts. apply access_ok; lia. Qed.

Ltac tstart k Hk Hkv oy Hoy g Hg Hgw :=
  apply groups_ok; [lia|lia|]; intros k s Hk Hkv D; cbv beta;
  rewrite (dst_access k s Hk Hkv D); cbn [bind];
  eexists; split; [reflexivity|]; intros oy t Hoy Dt; cbv beta;
  destruct Dt as (D1 & D2 & D3);
  apply row_groups with (nx := nx) (bd := mkAcc (k * v) v) (k := oy); cbn [ac_start ac_n]; try lia;
  intros g u Hg Hgw Du; cbv beta.
Ltac cell op := rewrite (rd_ok _ _ _ _ S) by (cbn [ac_start ac_n]; try lia; auto); cbn [bind ac_start];
  rewrite op by (apply HS64; lia); cbn [bind]; do 2 f_equal; f_equal; lia.

Lemma do_transpose_ok : result (do_transpose c xo yo src dst) (Fg true false false 0 0 (xo * h) (yo * v) S).
Proof.
  tstart k Hk Hkv oy Hoy g Hg Hgw. rewrite (tsrc_access g Hg Hgw). cbn [bind].
  eexists. split; [reflexivity|]. intros ox w Hox Dw. cbv beta. facts. unfold Fg. cbn [andb].
  cell transpose_op.
Qed.

Lemma do_rot_90_ok : result (do_rot_90 c xo yo (M * h) src dst) (Fg true true false (M * h) 0 (xo * h) (yo * v) S).
Proof.
  tstart k Hk Hkv oy Hoy g Hg Hgw. destruct (Z.ltb_spec (xo * h + g * h) (M * h)) as [L|L].
  - rewrite (tsrc_access_m g Hg Hgw L). cbn [bind].
    eexists. split; [reflexivity|]. intros ox w Hox Dw. cbv beta. facts. unfold Fg. cbn [andb].
    rewrite <- mult_lt by lia. rewrite (proj2 (Z.ltb_lt _ _)) by lia. cell rot_90_op.
  - rewrite (tsrc_access g Hg Hgw). cbn [bind].
    eexists. split; [reflexivity|]. intros ox w Hox Dw. cbv beta. facts. unfold Fg. cbn [andb].
    rewrite <- mult_lt by lia. rewrite (proj2 (Z.ltb_ge _ _)) by lia. cell transpose_op.
Qed.

Lemma do_rot_270_ok : result (do_rot_270 c xo yo (N * v) src dst) (Fg true false true 0 (N * v) (xo * h) (yo * v) S).
Proof.
  tstart k Hk Hkv oy Hoy g Hg Hgw. rewrite (tsrc_access g Hg Hgw). cbn [bind].
  destruct (Z.ltb_spec (yo * v + k * v) (N * v)) as [L|L].
  - eexists. split; [reflexivity|]. intros ox w Hox Dw. cbv beta. facts. unfold Fg. cbn [andb].
    rewrite <- mult_lt by lia. rewrite (proj2 (Z.ltb_lt _ _)) by lia. cell rot_270_op.
  - eexists. split; [reflexivity|]. intros ox w Hox Dw. cbv beta. facts. unfold Fg. cbn [andb].
    rewrite <- mult_lt by lia. rewrite (proj2 (Z.ltb_ge _ _)) by lia. cell transpose_op.
Qed.

Lemma do_transverse_ok : result (do_transverse c xo yo (M * h) (N * v) src dst) (Fg true true true (M * h) (N * v) (xo * h) (yo * v) S).
Proof.
  tstart k Hk Hkv oy Hoy g Hg Hgw. destruct (Z.ltb_spec (xo * h + g * h) (M * h)) as [L|L].
  - rewrite (tsrc_access_m g Hg Hgw L). cbn [bind].
    destruct (Z.ltb_spec (yo * v + k * v) (N * v)) as [L'|L'];
    (eexists; split; [reflexivity|]; intros ox w Hox Dw; cbv beta; facts; unfold Fg; cbn [andb];
     rewrite <- !mult_lt by lia; rewrite (proj2 (Z.ltb_lt (xo * h + _) _)) by lia).
    + rewrite (proj2 (Z.ltb_lt (yo * v + _) _)) by lia. cell transverse_op.
    + rewrite (proj2 (Z.ltb_ge (yo * v + _) _)) by lia. cell rot_90_op.
  - rewrite (tsrc_access g Hg Hgw). cbn [bind].
    destruct (Z.ltb_spec (yo * v + k * v) (N * v)) as [L'|L'];
    (eexists; split; [reflexivity|]; intros ox w Hox Dw; cbv beta; facts; unfold Fg; cbn [andb];
     rewrite <- !mult_lt by lia; rewrite (proj2 (Z.ltb_ge (xo * h + _) _)) by lia).
    + rewrite (proj2 (Z.ltb_lt (yo * v + _) _)) by lia. cell rot_270_op.
    + rewrite (proj2 (Z.ltb_ge (yo * v + _) _)) by lia. cell transpose_op.
Qed.
End Transposed.
End Comp.

(* ---------------- the in-place horizontal flip ---------------- *)
Definition rowis (s : barray) (y : Z) (G : Z -> blk64) : Prop := forall x, 0 <= x < ba_cols s -> ba_blk s y x = Some (G x).
(* only row y changes; it becomes G *)
Definition rowset (y : Z) (G : Z -> blk64) (s s' : barray) : Prop :=
  dims s s' /\ rowis s' y G /\ forall y' x, y' <> y -> ba_blk s' y' x = ba_blk s y' x.

Lemma wr_row s bd k x b y G : y = ac_start bd + k -> 0 <= k < ac_n bd -> 0 <= x < ba_cols s -> rowis s y G ->
  exists s', wr s bd k x b = Ret s' /\ rowset y (fun x' => if x' =? x then b else G x') s s'.
Proof.
  intros Hy Hk Hx HG. unfold wr.
  destruct (Z.ltb_spec k 0); [lia|]. destruct (Z.leb_spec (ac_n bd) k); [lia|].
  destruct (Z.ltb_spec x 0); [lia|]. destruct (Z.leb_spec (ba_cols s) x); [lia|]. cbn [orb].
  eexists. split; [reflexivity|]. split; [unfold dims; cbn [ba_rows ba_cols ba_maxaccess]; auto|]. split.
  - intros x' Hx'. cbn [ba_blk]. rewrite <- Hy, Z.eqb_refl. cbn [andb]. destruct (x' =? x); [reflexivity|]. now apply HG.
  - intros y' x' Hy'. cbn [ba_blk]. destruct (Z.eqb_spec y' (ac_start bd + k)); [lia|]. reflexivity.
Qed.
Lemma rd_row s bs k x y G : y = ac_start bs + k -> 0 <= k < ac_n bs -> 0 <= x < ba_cols s -> rowis s y G -> rd s bs k x = Ret (G x).
Proof.
  intros Hy Hk Hx HG. unfold rd.
  destruct (Z.ltb_spec k 0); [lia|]. destruct (Z.leb_spec (ac_n bs) k); [lia|].
  destruct (Z.ltb_spec x 0); [lia|]. destruct (Z.leb_spec (ba_cols s) x); [lia|]. cbn [orb].
  now rewrite <- Hy, HG.
Qed.
Lemma rowset_trans y G1 G2 s s1 s2 : rowset y G1 s s1 -> rowset y G2 s1 s2 -> rowset y G2 s s2.
Proof.
  intros (D & A & B) (D' & A' & B'). split; [eapply dims_trans; eassumption|]. split; [exact A'|].
  intros y' x Hy. rewrite B', B; auto.
Qed.
Lemma rowset_ext y G G' s s' : rowset y G s s' -> (forall x, 0 <= x < ba_cols s -> G x = G' x) -> rowset y G' s s'.
Proof.
  intros (D & A & B) E. split; [exact D|]. split; [|exact B]. intros x Hx. rewrite A by exact Hx. f_equal. apply E.
  destruct D as (_ & D & _). lia.
Qed.
Lemma rowset_refl y G s : rowis s y G -> rowset y G s s.
Proof. intros. split; [apply dims_refl|]. split; auto. Qed.

Lemma swap_loop s b oy y S CW : y = ac_start b + oy -> 0 <= oy < ac_n b -> 0 <= CW <= ba_cols s -> rowis s y S ->
  exists s', for_loop (Z.to_nat ((CW + 1) / 2)) 0 (fun x a => swap_blocks a b oy x (CW - x - 1)) s = Ret s' /\
    rowset y (fun x => if x <? CW then blk_flip_h (S (CW - 1 - x)) else S x) s s'.
Proof.
  intros Hy Hoy HCW HS.
  assert (HH : CW <= 2 * ((CW + 1) / 2) <= CW + 1).
  { pose proof (Z.div_mod (CW + 1) 2). pose proof (Z.mod_pos_bound (CW + 1) 2). lia. }
  destruct (for0 (fun j t => rowset y (fun x => if (x <? j) || ((CW - j <=? x) && (x <? CW)) then blk_flip_h (S (CW - 1 - x)) else S x) s t)
              (fun x a => swap_blocks a b oy x (CW - x - 1)) ((CW + 1) / 2) s) as (s' & E & H).
  - lia.
  - apply rowset_ext with (G := S); [now apply rowset_refl|]. intros x Hx.
    destruct (Z.ltb_spec x 0); [lia|]. destruct (Z.leb_spec (CW - 0) x); destruct (Z.ltb_spec x CW); try lia; reflexivity.
  - intros j t Hj Ht. pose proof (proj1 (proj2 Ht)) as Rt. pose proof (proj1 (proj2 (proj1 Ht))) as Ct.
    unfold swap_blocks.
    rewrite (rd_row t b oy j y _ Hy Hoy ltac:(lia) Rt). cbn [bind].
    rewrite (rd_row t b oy (CW - j - 1) y _ Hy Hoy ltac:(lia) Rt). cbn [bind].
    rewrite (Z.ltb_irrefl j). rewrite (proj2 (Z.leb_gt (CW - j) j)) by lia.
    rewrite (proj2 (Z.ltb_ge (CW - j - 1) j)) by lia. rewrite (proj2 (Z.leb_gt (CW - j) (CW - j - 1))) by lia.
    cbn [orb andb].
    destruct (wr_row t b oy j (blk_flip_h (S (CW - j - 1))) y _ Hy Hoy ltac:(lia) Rt) as (t1 & E1 & H1).
    rewrite E1. cbn [bind].
    pose proof (proj1 (proj2 (proj1 H1))) as C1.
    destruct (wr_row t1 b oy (CW - j - 1) (blk_flip_h (S j)) y _ Hy Hoy ltac:(lia) (proj1 (proj2 H1))) as (t2 & E2 & H2).
    exists t2. split; [exact E2|].
    eapply rowset_ext; [eapply rowset_trans; [exact Ht|]; eapply rowset_trans; [exact H1|exact H2]|].
    intros x Hx. cbv beta.
    destruct (Z.eqb_spec x (CW - j - 1)) as [->|N1].
    { destruct (Z.ltb_spec (CW - j - 1) (j + 1)); cbn [orb].
      - do 2 f_equal; lia.
      - rewrite (proj2 (Z.leb_le (CW - (j + 1)) (CW - j - 1))), (proj2 (Z.ltb_lt (CW - j - 1) CW)) by lia. cbn [andb].
        do 2 f_equal; lia. }
    destruct (Z.eqb_spec x j) as [->|N2].
    { rewrite (proj2 (Z.ltb_lt j (j + 1))) by lia. cbn [orb]. do 2 f_equal; lia. }
    destruct (Z.ltb_spec x j); destruct (Z.ltb_spec x (j + 1)); try lia; cbn [orb]; [reflexivity|].
    destruct (Z.leb_spec (CW - j) x); destruct (Z.leb_spec (CW - (j + 1)) x); try lia; reflexivity.
  - exists s'. split; [exact E|]. eapply rowset_ext; [exact H|]. intros x Hx. cbv beta.
    destruct (Z.ltb_spec x CW).
    + destruct (Z.ltb_spec x ((CW + 1) / 2)); [reflexivity|].
      rewrite (proj2 (Z.leb_le (CW - (CW + 1) / 2) x)) by lia. reflexivity.
    + rewrite (proj2 (Z.ltb_ge x ((CW + 1) / 2))) by lia. rewrite andb_false_r. reflexivity.
Qed.

Lemma left_loop s b oy y G xc wib : y = ac_start b + oy -> 0 <= oy < ac_n b -> 0 < xc -> 0 <= wib -> wib + xc <= ba_cols s -> rowis s y G ->
  exists s', for_loop (Z.to_nat wib) 0 (fun x a => jcopy_block_row a b oy (x + xc) b oy x 1 a) s = Ret s' /\
    rowset y (fun x => if x <? wib then G (x + xc) else G x) s s'.
Proof.
  intros Hy Hoy Hxc Hw Hc HG.
  destruct (for0 (fun j t => rowset y (fun x => if x <? j then G (x + xc) else G x) s t)
              (fun x a => jcopy_block_row a b oy (x + xc) b oy x 1 a) wib s) as (s' & E & H); [lia| | |].
  - apply rowset_ext with (G := G); [now apply rowset_refl|]. intros x Hx. destruct (Z.ltb_spec x 0); [lia|reflexivity].
  - intros j t Hj Ht. pose proof (proj1 (proj2 Ht)) as Rt. pose proof (proj1 (proj2 (proj1 Ht))) as Ct.
    unfold jcopy_block_row. change (Z.to_nat 1) with 1%nat. cbn [for_loop].
    rewrite (rd_row t b oy (j + xc + 0) y _ Hy Hoy ltac:(lia) Rt). cbn [bind].
    destruct (wr_row t b oy (j + 0) (if j + xc + 0 <? j then G (j + xc + 0 + xc) else G (j + xc + 0)) y _ Hy Hoy ltac:(lia) Rt) as (t1 & E1 & H1).
    rewrite E1. cbn [bind]. exists t1. split; [reflexivity|].
    eapply rowset_ext; [eapply rowset_trans; [exact Ht|exact H1]|]. intros x Hx. cbv beta.
    rewrite (proj2 (Z.ltb_ge (j + xc + 0) j)) by lia.
    destruct (Z.eqb_spec x (j + 0)) as [->|N1].
    + rewrite (proj2 (Z.ltb_lt (j + 0) (j + 1))) by lia. f_equal; lia.
    + destruct (Z.ltb_spec x j); destruct (Z.ltb_spec x (j + 1)); try lia; reflexivity.
  - now exists s'.
Qed.

Section InPlace.
Variable c : comp.
Variables xo nx ny M : Z.
Variables a : barray.
Variable S : Z -> Z -> blk64.
Notation h := (c_h c).
Notation v := (c_v c).
Notation wib := (c_width_in_blocks c).
Notation hib := (c_height_in_blocks c).
Hypothesis Hh : 0 < h.
Hypothesis Hv : 0 < v.
Hypothesis Hxo : 0 <= xo.
Hypothesis Hwib : 0 <= wib <= nx * h.
Hypothesis Hhib : 0 <= hib <= ny * v.
Hypothesis HS : forall y x, 0 <= y < ba_rows a -> 0 <= x < ba_cols a -> ba_blk a y x = Some (S y x).
Hypothesis HS64 : forall y x, 0 <= y < ba_rows a -> 0 <= x < ba_cols a -> length (S y x) = 64%nat.
Hypothesis HM : 0 <= M.
Hypothesis HsR : ny * v <= ba_rows a.
Hypothesis HsC : (xo + nx) * h <= ba_cols a.
Hypothesis HsM : v <= ba_maxaccess a.
Hypothesis HCW : M * h <= ba_cols a.

Lemma flip_row y s b oy : y = ac_start b + oy -> 0 <= oy < ac_n b -> 0 <= y < ba_rows a -> dims a s ->
  (forall x, 0 <= x < ba_cols a -> ba_blk s y x = Some (S y x)) ->
  exists s', (a <- for_loop (Z.to_nat ((M * h + 1) / 2)) 0 (fun x a => swap_blocks a b oy x (M * h - x - 1)) s ;;
      if 0 <? xo * h
      then for_loop (Z.to_nat wib) 0 (fun x a => jcopy_block_row a b oy (x + xo * h) b oy x 1 a) a
      else Ret a) = Ret s' /\ dims a s' /\
    (forall x, 0 <= x < wib -> ba_blk s' y x = Some (Fg false true false (M * h) 0 (xo * h) 0 S y x)) /\
    (forall y' x, y' <> y -> ba_blk s' y' x = ba_blk s y' x).
Proof.
  intros Hy Hoy Hyr D HSy.
  pose proof (Z.mul_nonneg_nonneg xo h Hxo (Z.lt_le_incl _ _ Hh)) as X0.
  pose proof (Z.mul_nonneg_nonneg M h HM (Z.lt_le_incl _ _ Hh)) as M0.
  assert (HR : rowis s y (S y)).
  { intros x Hx. apply HSy. destruct D as (_ & D2 & _). lia. }
  assert (HC : ba_cols s = ba_cols a) by apply D.
  destruct (swap_loop s b oy y (S y) (M * h) Hy Hoy ltac:(lia) HR) as (s1 & E1 & H1). rewrite E1. cbn [bind].
  assert (HF : forall x, 0 <= x -> xo * h + x < ba_cols a ->
    (if x + xo * h <? M * h then blk_flip_h (S y (M * h - 1 - (x + xo * h))) else S y (x + xo * h)) =
    Fg false true false (M * h) 0 (xo * h) 0 S y x).
  { intros x Hx Hx2. unfold Fg. cbn [andb]. rewrite (Z.add_comm x).
    destruct (Z.ltb_spec (xo * h + x) (M * h)).
    - rewrite flip_h_op by (apply HS64; lia). do 2 f_equal; lia.
    - symmetry. apply eq_sym, id_op, HS64; lia. }
  assert (HC1 : ba_cols s1 = ba_cols s) by apply H1.
  destruct (Z.ltb_spec 0 (xo * h)) as [L|L].
  - destruct (left_loop s1 b oy y _ (xo * h) wib Hy Hoy L ltac:(lia) ltac:(lia) (proj1 (proj2 H1))) as (s2 & E2 & H2).
    exists s2. split; [exact E2|]. pose proof (rowset_trans _ _ _ _ _ _ H1 H2) as (D' & R' & U').
    split; [eapply dims_trans; eassumption|]. split; [|exact U'].
    intros x Hx. rewrite R'. 2:{ destruct D' as (_ & D2 & _). lia. }
    rewrite (proj2 (Z.ltb_lt x wib)) by lia. f_equal. apply HF; lia.
  - exists s1. split; [reflexivity|]. destruct H1 as (D' & R' & U').
    split; [eapply dims_trans; eassumption|]. split; [|exact U'].
    intros x Hx. rewrite R' by lia. f_equal. rewrite <- HF by lia.
    now replace (x + xo * h) with x by lia.
Qed.

Lemma do_flip_h_no_crop_ok : exists s', do_flip_h_no_crop c xo (M * h) a = Ret s' /\ dims a s' /\
  forall y x, 0 <= y < hib -> 0 <= x < wib -> ba_blk s' y x = Some (Fg false true false (M * h) 0 (xo * h) 0 S y x).
Proof.
  unfold do_flip_h_no_crop.
  match goal with |- exists s', steps _ _ ?body _ = _ /\ _ =>
  destruct (steps_ex (fun k s => dims a s /\
    (forall y x, 0 <= y < k * v -> 0 <= x < wib -> ba_blk s y x = Some (Fg false true false (M * h) 0 (xo * h) 0 S y x)) /\
    (forall y x, k * v <= y < ba_rows a -> 0 <= x < ba_cols a -> ba_blk s y x = Some (S y x))) hib v body a Hv (proj1 Hhib))
    as (s' & k & E & (D & V & _) & Hk) end.
  - split; [apply dims_refl|]. split; [intros; lia|]. intros y x Hy Hx. apply HS; lia.
  - intros k s Hk Hkv (D & V & U).
    pose proof (grp_le k v hib ny Hv Hkv (proj2 Hhib)) as G. pose proof (Z.mul_nonneg_nonneg k v Hk (Z.lt_le_incl _ _ Hv)) as K0.
    cbv beta. rewrite access_ok; [|lia|destruct D as (-> & _ & _); lia|destruct D as (_ & _ & ->); lia]. cbn [bind].
    match goal with |- exists s', for_loop _ 0 ?row _ = _ /\ _ =>
    destruct (for0 (fun oy s => dims a s /\
      (forall y x, 0 <= y < k * v + oy -> 0 <= x < wib -> ba_blk s y x = Some (Fg false true false (M * h) 0 (xo * h) 0 S y x)) /\
      (forall y x, k * v + oy <= y < ba_rows a -> 0 <= x < ba_cols a -> ba_blk s y x = Some (S y x))) row v s)
      as (s' & E' & D' & V' & U') end.
    + lia.
    + split; [exact D|]. split; intros; [apply V|apply U]; lia.
    + intros oy t Hoy (Dt & Vt & Ut). cbv beta.
      destruct (flip_row (k * v + oy) t (mkAcc (k * v) v) oy) as (t' & E' & D' & V' & U'); cbn [ac_start ac_n]; try lia; auto.
      { intros x Hx. apply Ut; lia. }
      exists t'. split; [exact E'|]. split; [exact D'|]. split.
      * intros y x Hy Hx. destruct (Z.eq_dec y (k * v + oy)) as [->|N]; [now apply V'|]. rewrite U' by exact N. apply Vt; lia.
      * intros y x Hy Hx. rewrite U' by lia. apply Ut; lia.
    + exists s'. split; [exact E'|]. split; [exact D'|]. split; intros; [apply V'|apply U']; lia.
  - exists s'. split; [exact E|]. split; [exact D|]. intros y x Hy Hx. apply V; lia.
Qed.
End InPlace.
