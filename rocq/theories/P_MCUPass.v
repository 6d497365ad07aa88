(* P_MCUPass.v -- whole passes: the compressor's controllers *)
From Verif Require Import Base M_Geom M_Coef S_MCU P_MCU.
From Coq Require Import Arith.
Open Scope nat_scope.

Lemma snoc : forall B (f : nat -> B) k, map f (seq 0 (k + 1)) = map f (seq 0 k) ++ [f k].
Proof. intros. rewrite seq_app, map_app. reflexivity. Qed.

Lemma vget_ok : forall a c r b x, r < nround_up (k_hib c) (k_v c) -> b < nround_up (k_wib c) (k_h c) ->
  a (k_idx c) r b = Some x -> vget a c r b = Ret x.
Proof. intros a c r b x H1 H2 H3. unfold vget. rewrite (proj2 (Nat.leb_gt _ _) H1), (proj2 (Nat.leb_gt _ _) H2), H3. reflexivity. Qed.

Section Scan.
Variable s : ks.
Hypothesis Hs : scan_ok s.
Variable A : nat -> nat -> nat -> block.
Notation cols := (k_cols s).
Notation MK := (fun k => mcu_spec s A (k / cols) (k mod cols)).

Definition my' (row : nat) : nat := if row <? k_T s then myof s row else mcu_rows s.
Lemma my'_next : forall row, row < k_T s -> my' (row + 1) = my' row + rows_in s row.
Proof.
  intros row Hr. unfold my'. rewrite (proj2 (Nat.ltb_lt _ _) Hr), (myof_next s Hs row Hr). reflexivity.
Qed.
Lemma my'_0 : my' 0 = 0.
Proof.
  unfold my'. rewrite (proj2 (Nat.ltb_lt _ _) (so_T s Hs)). unfold myof. destruct (k_comps s) as [|? [|? ?]]; reflexivity.
Qed.
Lemma my'_le : forall n row, row + n = k_T s -> my' row <= mcu_rows s.
Proof.
  induction n as [|n IH]; intros row E.
  - unfold my'. rewrite (proj2 (Nat.ltb_ge _ _)) by lia. lia.
  - specialize (IH (row + 1) ltac:(lia)). rewrite my'_next in IH by lia. lia.
Qed.
Lemma my_lt : forall row yo, row < k_T s -> yo < rows_in s row -> myof s row + yo < mcu_rows s.
Proof.
  intros row yo Hr Hy. pose proof (my'_le (k_T s - (row + 1)) (row + 1) ltac:(lia)) as L. rewrite my'_next in L by exact Hr.
  unfold my' in L. rewrite (proj2 (Nat.ltb_lt _ _) Hr) in L. lia.
Qed.
Lemma MK_eq : forall my col, col < cols -> MK (my * cols + col) = mcu_spec s A my col.
Proof.
  intros my col H. cbv beta. rewrite Nat.div_add_l by lia. rewrite (Nat.div_small col) by exact H.
  rewrite (Nat.add_comm (my * cols)), Nat.mod_add by lia. rewrite Nat.mod_small by exact H. rewrite Nat.add_0_r. reflexivity.
Qed.

Record EI (e : est) : Prop := mkEI {
  ei_row : e_row e <= k_T s; ei_rows : e_rows e = rows_in s (e_row e);
  ei_ctr : e_ctr e < cols; ei_vo : e_row e < k_T s -> e_vo e < e_rows e;
  ei_end : e_row e = k_T s -> e_vo e = 0 /\ e_ctr e = 0;
  ei_out : e_out e = map MK (seq 0 ((my' (e_row e) + e_vo e) * cols + e_ctr e)) }.

Lemma encode_spec : forall m e,
  (exists e', encode_mcu m e = (true, e') /\ e_row e' = e_row e /\ e_rows e' = e_rows e /\ e_vo e' = e_vo e /\
     e_out e' = e_out e ++ [m] /\ length (e_orc e') <= length (e_orc e)) \/
  (exists e', encode_mcu m e = (false, e') /\ e_row e' = e_row e /\ e_rows e' = e_rows e /\ e_vo e' = e_vo e /\
     e_out e' = e_out e /\ length (e_orc e') < length (e_orc e)).
Proof.
  intros m e. unfold encode_mcu. destruct (e_orc e) as [|[|] t] eqn:E; cbn [hd tl].
  - left. eexists. split; [reflexivity|]. cbn. auto.
  - left. eexists. split; [reflexivity|]. cbn. auto 8.
  - right. eexists. split; [reflexivity|]. cbn. auto 8.
Qed.

Section Row.
Variable build : nat -> nat -> nat -> outcome (list block).
Variable row : nat.
Hypothesis Hrow : row < k_T s.
Hypothesis HB : forall yo col, yo < rows_in s row -> col < cols -> build row yo col = Ret (mcu_spec s A (myof s row + yo) col).

Lemma col_loop_spec : forall n col yo e, n = cols - col -> col <= cols -> yo < rows_in s row ->
  e_row e = row -> e_out e = map MK (seq 0 ((myof s row + yo) * cols + col)) ->
  (exists e', col_loop build n col yo e = Ret (true, e') /\ e_row e' = row /\ e_rows e' = e_rows e /\ e_vo e' = e_vo e /\
     e_out e' = map MK (seq 0 ((myof s row + (yo + 1)) * cols)) /\ length (e_orc e') <= length (e_orc e)) \/
  (exists e', col_loop build n col yo e = Ret (false, e') /\ e_row e' = row /\ e_rows e' = e_rows e /\ e_vo e' = yo /\
     e_ctr e' < cols /\ e_out e' = map MK (seq 0 ((myof s row + yo) * cols + e_ctr e')) /\ length (e_orc e') < length (e_orc e)).
Proof.
  induction n as [|n IH]; intros col yo e En Hc Hy Er Eo.
  - left. exists e. cbn [col_loop]. split; [reflexivity|]. split; [exact Er|]. split; [reflexivity|]. split; [reflexivity|].
    split; [|lia]. rewrite Eo. f_equal. f_equal. assert (col = cols) by lia. subst col. ring.
  - cbn [col_loop]. rewrite Er, HB by lia. cbn [bind].
    destruct (encode_spec (mcu_spec s A (myof s row + yo) col) e) as [(e1 & -> & R1 & R2 & R3 & R4 & R5)|(e1 & -> & R1 & R2 & R3 & R4 & R5)].
    + destruct (IH (col + 1) yo e1) as [(e' & E & Q1 & Q2 & Q3 & Q4 & Q5)|(e' & E & Q1 & Q2 & Q3 & Q4 & Q5 & Q6)];
        try lia; try congruence.
      * rewrite R4, Eo. replace ((myof s row + yo) * cols + (col + 1)) with ((myof s row + yo) * cols + col + 1) by lia.
        rewrite snoc. f_equal. f_equal. symmetry. apply MK_eq. lia.
      * left. exists e'. split; [exact E|]. split; [exact Q1|]. split; [congruence|]. split; [congruence|]. split; [exact Q4|lia].
      * right. exists e'. split; [exact E|]. split; [exact Q1|]. split; [congruence|]. split; [congruence|]. split; [exact Q4|].
        split; [exact Q5|lia].
    + right. eexists. split; [reflexivity|]. cbn. split; [congruence|]. split; [exact R2|]. split; [reflexivity|].
      split; [lia|]. split; [congruence|exact R5].
Qed.

Lemma row_loop_spec : forall n yo e, n = rows_in s row - yo -> yo <= rows_in s row -> e_ctr e < cols ->
  (e_row e = row) -> (yo = rows_in s row -> e_ctr e = 0) -> e_out e = map MK (seq 0 ((myof s row + yo) * cols + e_ctr e)) ->
  (exists e', row_loop s build n yo e = Ret (true, e') /\ e_row e' = row /\ e_rows e' = e_rows e /\
     e_out e' = map MK (seq 0 ((myof s row + rows_in s row) * cols)) /\ length (e_orc e') <= length (e_orc e)) \/
  (exists e', row_loop s build n yo e = Ret (false, e') /\ e_row e' = row /\ e_rows e' = e_rows e /\ e_vo e' < rows_in s row /\
     e_ctr e' < cols /\ e_out e' = map MK (seq 0 ((myof s row + e_vo e') * cols + e_ctr e')) /\ length (e_orc e') < length (e_orc e)).
Proof.
  induction n as [|n IH]; intros yo e En Hy Hc Er Ez Eo.
  - left. exists e. cbn [row_loop]. split; [reflexivity|]. split; [exact Er|]. split; [reflexivity|]. split; [|lia].
    rewrite Eo, Ez by lia. f_equal. f_equal. assert (yo = rows_in s row) by lia. subst. lia.
  - cbn [row_loop].
    destruct (col_loop_spec (cols - e_ctr e) (e_ctr e) yo e eq_refl ltac:(lia) ltac:(lia) Er Eo)
      as [(e1 & -> & R1 & R2 & R3 & R4 & R5)|(e1 & -> & R1 & R2 & R3 & R4 & R5 & R6)]; cbn [bind].
    + destruct (IH (yo + 1) (mkE (e_row e1) 0 (e_vo e1) (e_rows e1) (e_orc e1) (e_out e1)))
        as [(e' & E & Q1 & Q2 & Q3 & Q4)|(e' & E & Q1 & Q2 & Q3 & Q4 & Q5 & Q6)]; cbn; try lia; try congruence.
      * rewrite R4. f_equal. f_equal. lia.
      * left. exists e'. cbn in Q2, Q4. split; [exact E|]. split; [exact Q1|]. split; [congruence|]. split; [exact Q3|lia].
      * right. exists e'. cbn in Q2, Q6. split; [exact E|]. split; [exact Q1|]. split; [congruence|]. split; [exact Q3|].
        split; [exact Q4|]. split; [exact Q5|lia].
    + right. exists e1. split; [reflexivity|]. split; [exact R1|]. split; [exact R2|]. rewrite R3. split; [lia|].
      split; [exact R4|]. split; [exact R5|exact R6].
Qed.
End Row.

Lemma imcu_spec : forall build e, EI e -> e_row e < k_T s ->
  (forall yo col, yo < rows_in s (e_row e) -> col < cols -> build (e_row e) yo col = Ret (mcu_spec s A (myof s (e_row e) + yo) col)) ->
  exists ok e', imcu_row s build e = Ret (ok, e') /\ EI e' /\
    (if ok : bool then e_row e' = e_row e + 1 /\ length (e_orc e') <= length (e_orc e)
     else e_row e' = e_row e /\ length (e_orc e') < length (e_orc e)).
Proof.
  intros build e [I1 I2 I3 I4 I5 I6] Hr HB. specialize (I4 Hr).
  assert (EM : my' (e_row e) = myof s (e_row e)) by (unfold my'; rewrite (proj2 (Nat.ltb_lt _ _) Hr); reflexivity).
  rewrite EM in I6. unfold imcu_row.
  destruct (row_loop_spec build (e_row e) Hr HB (e_rows e - e_vo e) (e_vo e) e) as [(e' & -> & Q1 & Q2 & Q3 & Q4)|(e' & -> & Q1 & Q2 & Q3 & Q4 & Q5 & Q6)];
    try lia; try congruence; cbn [bind].
  - eexists true, _. split; [reflexivity|]. split; [|cbn; rewrite Q1; lia].
    constructor; cbn [e_row e_rows e_ctr e_vo e_out]; try rewrite Q1.
    + lia.
    + reflexivity.
    + pose proof (so_cols s Hs). lia.
    + intros _. pose proof (rows_pos s Hs (e_row e + 1)). unfold rows_in in *. lia.
    + auto.
    + rewrite Q3, my'_next by exact Hr. rewrite EM. f_equal. f_equal. lia.
  - eexists false, e'. split; [reflexivity|]. split; [|lia].
    constructor; try rewrite Q1.
    + lia.
    + congruence.
    + exact Q4.
    + intros _. rewrite Q2, I2. exact Q3.
    + intros W. lia.
    + rewrite EM. exact Q5.
Qed.

Lemma e_start_EI : forall orc, EI (e_start s orc).
Proof.
  intros orc. pose proof (so_cols s Hs). pose proof (so_T s Hs). pose proof (rows_pos s Hs 0).
  constructor; cbn.
  - lia.
  - reflexivity.
  - lia.
  - unfold rows_in in *. intros _. lia.
  - auto.
  - rewrite my'_0. reflexivity.
Qed.

Lemma EI_done : forall e, EI e -> e_row e = k_T s -> e_out e = scan_mcus s A.
Proof.
  intros e HI E. rewrite (ei_out e HI). destruct (ei_end e HI E) as [-> ->]. rewrite E. unfold my'. rewrite Nat.ltb_irrefl. unfold scan_mcus.
  f_equal. f_equal. lia.
Qed.
Lemma drive_EI : forall fuel (step : est -> outcome est) e,
  (forall e, EI e -> e_row e < k_T s -> exists e', step e = Ret e' /\ EI e' /\
     (e_row e' = e_row e + 1 /\ length (e_orc e') <= length (e_orc e) \/ e_row e' = e_row e /\ length (e_orc e') < length (e_orc e))) ->
  EI e -> k_T s - e_row e + length (e_orc e) <= fuel ->
  exists e', drive fuel e_row (k_T s) step e = Ret e' /\ e_row e' = k_T s /\ e_out e' = scan_mcus s A.
Proof.
  intros fuel step e Hst. revert e. induction fuel as [|n IH]; intros e HI Hf; cbn [drive];
    destruct (Nat.leb_spec (k_T s) (e_row e)) as [L|L].
  - exists e. split; [reflexivity|]. pose proof (ei_row e HI). assert (E : e_row e = k_T s) by lia. split; [exact E|].
    rewrite (ei_out e HI). destruct (ei_end e HI E) as [-> ->]. rewrite E. unfold my'. rewrite Nat.ltb_irrefl. unfold scan_mcus.
    f_equal. f_equal. lia.
  - lia.
  - exists e. split; [reflexivity|]. pose proof (ei_row e HI). assert (E : e_row e = k_T s) by lia. split; [exact E|].
    rewrite (ei_out e HI). destruct (ei_end e HI E) as [-> ->]. rewrite E. unfold my'. rewrite Nat.ltb_irrefl. unfold scan_mcus.
    f_equal. f_equal. lia.
  - destruct (Hst e HI L) as (e' & -> & HI' & D). cbn [bind]. apply IH; [exact HI'|]. lia.
Qed.

(* the three builders *)
Lemma dummies_chain_spec : forall n buf d, last_dc buf d -> length buf + n <= 10 ->
  dummies_chain n buf = Ret (buf ++ repeat (d, zeros) n).
Proof.
  induction n as [|n IH]; intros buf d LD Hl; cbn [dummies_chain]; [cbn; rewrite app_nil_r; reflexivity|].
  rewrite (dc_before_last _ _ LD). cbn [bind]. unfold put. cbn [length].
  rewrite (proj2 (Nat.ltb_ge _ _)) by lia. cbn [bind]. rewrite (IH _ d).
  - rewrite <- app_assoc. reflexivity.
  - exact (last_dc_app buf [] (d, zeros)).
  - rewrite app_length. cbn. lia.
Qed.
Lemma put_ok : forall buf l, length buf + length l <= 10 -> put buf l = Ret (buf ++ l).
Proof. intros. unfold put. rewrite (proj2 (Nat.ltb_ge _ _)) by assumption. reflexivity. Qed.

(* a row of real blocks followed by chained dummies *)
Lemma real_then_chain : forall c r col buf, In c (k_comps s) -> col < cols -> r < k_hib c -> length buf + k_MW c <= 10 ->
  dummies_chain (k_MW c - cnt s c col) (buf ++ map (fun dx => A (k_idx c) r (col * k_MW c + dx)) (seq 0 (cnt s c col)))
  = Ret (buf ++ rowpad A c r col).
Proof.
  intros c r col buf H Hc Hr Hl. pose proof (cnt_range s Hs c col H) as R.
  rewrite (dummies_chain_spec _ _ (fst (A (k_idx c) r (col * k_MW c + (cnt s c col - 1))))).
  - rewrite <- app_assoc. f_equal. f_equal. symmetry. apply (rowpad_real s Hs A c r col H Hc Hr).
  - assert (SQ : seq 0 (cnt s c col) = seq 0 (cnt s c col - 1) ++ [cnt s c col - 1]).
    { replace (cnt s c col) with ((cnt s c col - 1) + 1) at 1 by lia. rewrite seq_app. reflexivity. }
    rewrite SQ, map_app. cbn [map]. apply last_dc_app.
  - rewrite app_length, map_length, seq_length. lia.
Qed.

Lemma ct_build_ok : forall a row yo col, row < k_T s -> yo < rows_in s row -> col < cols ->
  (forall c r b, In c (k_comps s) -> r < k_hib c -> b < k_wib c -> a (k_idx c) r b = Some (A (k_idx c) r b)) ->
  ct_build s a row yo col = Ret (mcu_spec s A (myof s row + yo) col).
Proof.
  intros a row yo col Hr Hy Hc Ha. rewrite (mcu_spec_pad s Hs A) by (try exact Hc; apply my_lt; assumption).
  unfold ct_build. apply (build_ok s Hs A (ct_brow s a row yo col)); [|apply my_lt; assumption].
  intros c dy buf H Hd Hl Hcase. unfold ct_brow.
  rewrite (Nat.add_comm dy yo), (brow_real s Hs row yo c dy Hr Hy H Hd), (Nat.add_comm yo dy), (brow_eq s Hs row yo c dy Hr Hy H Hd).
  set (r := (myof s row + yo) * k_MH c + dy) in *. change (if col <? cols - 1 then k_MW c else k_lcw c) with (cnt s c col).
  pose proof (cnt_range s Hs c col H) as R. pose proof (so_comps s Hs c H) as K.
  assert (Bh : k_hib c <= nround_up (k_hib c) (k_v c)).
  { pose proof (ko_v s c K). pose proof (ko_lrh s c K). pose proof (ko_hib s c K). pose proof (so_T s Hs).
    rewrite (round_up_eq _ _ (k_T s)); nia. }
  assert (Bw : k_wib c <= nround_up (k_wib c) (k_h c)).
  { pose proof (ko_h s c K) as Hh. unfold nround_up. pose proof (Nat.mod_upper_bound (k_wib c + (k_h c - 1)) (k_h c) ltac:(lia)). lia. }
  destruct Hcase as [L|(LD & L & L1 & EW)].
  - rewrite (proj2 (Nat.ltb_lt _ _) L).
    assert (G : forall n m buf, m + n <= cnt s c col -> length buf + n <= 10 ->
      foldM (fun xindex buf => b <- vget a c r (col * k_MW c + xindex) ;; put buf [b]) (seq m n) buf =
      Ret (buf ++ map (fun dx => A (k_idx c) r (col * k_MW c + dx)) (seq m n))).
    { induction n as [|n IH]; intros m buf0 Hm Hb; cbn [seq foldM map]; [rewrite app_nil_r; reflexivity|].
      assert (LW : col * k_MW c + m < k_wib c) by (apply (cnt_real s Hs c col m H Hc); lia).
      rewrite (vget_ok a c r (col * k_MW c + m) _ ltac:(lia) ltac:(lia) (Ha c r _ H L LW)). cbn [bind]. rewrite put_ok by (cbn; lia). cbn [bind]. rewrite IH; [|lia|rewrite app_length; cbn; lia].
      rewrite <- app_assoc. reflexivity. }
    rewrite G by lia. cbn [bind]. apply real_then_chain; assumption.
  - rewrite (proj2 (Nat.ltb_ge _ _) L). cbn [seq foldM bind]. rewrite Nat.sub_0_r.
    rewrite (rowpad_dummy s Hs A c r col H Hc L1 L EW). apply dummies_chain_spec; [exact LD|exact Hl].
Qed.

(* the array holds the padded blocks of the rows of iMCU row [row] *)
Definition filled (a : varr) (row : nat) : Prop := forall c r b, In c (k_comps s) ->
  row * k_v c <= r < row * k_v c + k_v c -> b < nround_up (k_wib c) (k_h c) -> a (k_idx c) r b = Some (padA A c r b).
Lemma width_ok : forall c, In c (k_comps s) -> cols * k_MW c <= nround_up (k_wib c) (k_h c).
Proof.
  intros c H. pose proof (so_comps s Hs c H) as K. pose proof (ko_h s c K) as Hh.
  pose proof (ko_lcw s c K) as L. pose proof (ko_wib s c K) as W. pose proof (so_cols s Hs) as Hc.
  destruct (single_dec s) as [Q|Q].
  - destruct (ko_one s c K Q) as [E _]. unfold nround_up. pose proof (Nat.mod_upper_bound (k_wib c + (k_h c - 1)) (k_h c) ltac:(lia)).
    rewrite E in *. lia.
  - destruct (ko_many s c K Q) as [E _]. rewrite E in *. rewrite (round_up_eq _ _ cols); nia.
Qed.
Lemma row_range : forall row yo c yi, row < k_T s -> yo < rows_in s row -> In c (k_comps s) -> yi < k_MH c -> yi + yo < k_v c.
Proof.
  intros row yo c yi Hr Hy Hc Hi. pose proof (so_comps s Hs c Hc) as K.
  unfold rows_in, rows_per_iMCU in Hy. destruct (single_dec s) as [Q|Q].
  - destruct (ko_one s c K Q) as [_ E1]. destruct (single_comps s Q) as [c0 E]. rewrite E in *. destruct Hc as [-> |[]].
    change (1 <? length [c]) with false in Hy. cbv iota in Hy. pose proof (ko_lrh s c K). destruct (row <? k_T s - 1); lia.
  - destruct (ko_many s c K Q) as [_ E1]. rewrite E1 in *.
    assert (L : (1 <? length (k_comps s)) = true).
    { apply Nat.ltb_lt. unfold single in Q. pose proof (so_ne s Hs). destruct (k_comps s) as [|? [|? ?]]; cbn in *; try congruence; lia. }
    rewrite L in Hy. lia.
Qed.
Lemma height_eq : forall c, In c (k_comps s) -> nround_up (k_hib c) (k_v c) = k_v c * k_T s.
Proof.
  intros c H. pose proof (so_comps s Hs c H) as K.
  pose proof (ko_v s c K). pose proof (ko_lrh s c K). pose proof (ko_hib s c K). pose proof (so_T s Hs).
  apply round_up_eq; nia.
Qed.
Lemma co_build_ok : forall a row yo col, row < k_T s -> yo < rows_in s row -> col < cols -> filled a row ->
  co_build s a row yo col = Ret (mcu_spec s A (myof s row + yo) col).
Proof.
  intros a row yo col Hr Hy Hc Ha. rewrite (mcu_spec_pad s Hs A) by (try exact Hc; apply my_lt; assumption).
  unfold co_build. apply (build_ok s Hs A (co_brow a row yo col)); [|apply my_lt; assumption].
  intros c dy buf H Hd Hl _. unfold co_brow.
  pose proof (row_range row yo c dy Hr Hy H Hd) as RR.
  assert (RB : row * k_v c + (dy + yo) < k_v c * k_T s) by nia.
  rewrite <- (height_eq c H) in RB. pose proof (width_ok c H) as WW.
  rewrite <- (brow_eq s Hs row yo c dy Hr Hy H Hd). unfold rowpad.
  assert (G : forall n m buf, m + n <= k_MW c -> length buf + n <= 10 ->
      foldM (fun xindex buf => b <- vget a c (row * k_v c + (dy + yo)) (col * k_MW c + xindex) ;; put buf [b]) (seq m n) buf =
      Ret (buf ++ map (fun dx => padA A c (row * k_v c + (dy + yo)) (col * k_MW c + dx)) (seq m n))).
  { induction n as [|n IH]; intros m buf0 Hm Hb; cbn [seq foldM map]; [rewrite app_nil_r; reflexivity|].
    assert (LW : col * k_MW c + m < nround_up (k_wib c) (k_h c)) by nia.
    rewrite (vget_ok a c _ (col * k_MW c + m) _ RB LW (Ha c (row * k_v c + (dy + yo)) (col * k_MW c + m) H ltac:(lia) LW)). cbn [bind]. rewrite put_ok by (cbn; lia). cbn [bind]. rewrite IH; [|lia|rewrite app_length; cbn; lia].
    rewrite <- app_assoc. reflexivity. }
  apply G; lia.
Qed.
Lemma access_ok : forall c row, In c (k_comps s) -> row < k_T s -> access c row = Ret tt.
Proof.
  intros c row H Hr. unfold access. rewrite (height_eq c H). rewrite (proj2 (Nat.ltb_ge _ _)); [reflexivity|nia].
Qed.
Lemma access_all : forall l row, incl l (k_comps s) -> row < k_T s -> foldM (fun c _ => access c row) l tt = Ret tt.
Proof.
  induction l as [|c l IH]; intros row Hl Hr; [reflexivity|]. cbn [foldM].
  rewrite access_ok by (auto; apply Hl; left; reflexivity). cbn [bind]. apply IH; [|exact Hr]. intros x Hx. apply Hl. right. exact Hx.
Qed.
End Scan.

Lemma cd_build_ok : forall s (Hs : scan_ok s) F row yo col,
  (forall c, In c (k_comps s) -> k_DS c = 8) ->
  row < k_T s -> yo < rows_in s row -> col < k_cols s ->
  cd_build s F row yo col = Ret (mcu_spec s (fun ci r b => F ci (r * 8) (b * 8)) (myof s row + yo) col).
Proof.
  intros s Hs F row yo col HD Hr Hy Hc. set (A := fun ci r b => F ci (r * 8) (b * 8)).
  rewrite (mcu_spec_pad s Hs A) by (try exact Hc; apply my_lt; assumption).
  unfold cd_build. apply (build_ok s Hs A (cd_brow s F row yo col)); [|apply my_lt; assumption].
  intros c dy buf H Hd Hl Hcase. unfold cd_brow.
  rewrite (brow_real s Hs row yo c dy Hr Hy H Hd), (brow_eq s Hs row yo c dy Hr Hy H Hd).
  change (if col <? k_cols s - 1 then k_MW c else k_lcw c) with (cnt s c col). cbv zeta.
  pose proof (cnt_range s Hs c col H) as R. pose proof (so_comps s Hs c H) as K.
  assert (EF : fdct F (k_idx c) (row * k_v c * 8 + (yo * 8 + dy * 8)) (col * k_MSW c) (cnt s c col) =
    map (fun dx => A (k_idx c) ((myof s row + yo) * k_MH c + dy) (col * k_MW c + dx)) (seq 0 (cnt s c col))).
  { unfold fdct. apply map_ext. intros i. unfold A. rewrite <- (brow_eq s Hs row yo c dy Hr Hy H Hd), (ko_msw s c K), (HD c H).
    f_equal; ring. }
  rewrite EF. set (r := (myof s row + yo) * k_MH c + dy) in *. clear EF.
  destruct Hcase as [L|(LD & L & L1 & EW)].
  - rewrite (proj2 (Nat.ltb_lt _ _) L). rewrite put_ok by (rewrite map_length, seq_length; lia). cbn [bind].
    pose proof (real_then_chain s Hs A c r col buf H Hc L Hl) as Q.
    destruct (Nat.ltb_spec (cnt s c col) (k_MW c)) as [B|B]; [exact Q|].
    replace (k_MW c - cnt s c col) with 0 in Q by lia. exact Q.
  - rewrite (proj2 (Nat.ltb_ge _ _) L). rewrite (dc_before_last _ _ LD). cbn [bind].
    rewrite (rowpad_dummy s Hs A c r col H Hc L1 L EW). apply put_ok. rewrite repeat_length. exact Hl.
Qed.
