(* P_MCUDec.v -- the decompressor's iMCU row loops *)
From Verif Require Import Base M_Geom M_Coef S_MCU P_MCU P_MCUPass.
From Coq Require Import Arith Permutation.
Open Scope nat_scope.

Section Dec.
Variable s : ks.
Hypothesis Hs : scan_ok s.
Notation cols := (k_cols s).
Notation N := (mcu_rows s * k_cols s).
Variable M : nat -> list block.
Variable rest : list (list block).
Variable St : Type.
Variable P : nat -> St -> Prop.
Variable store : nat -> nat -> nat -> list block -> St -> outcome St.
Hypothesis HS : forall row yo col a, row < k_T s -> yo < rows_in s row -> col < cols ->
  P ((myof s row + yo) * cols + col) a ->
  exists a', store row yo col (M ((myof s row + yo) * cols + col)) a = Ret a' /\ P ((myof s row + yo) * cols + col + 1) a'.

Definition left_from (k : nat) : list (list block) := map M (seq k (N - k)) ++ rest.
Lemma left_next : forall k, k < N -> left_from k = M k :: left_from (k + 1).
Proof.
  intros k H. unfold left_from. replace (N - k) with (S (N - (k + 1))) by lia. cbn [seq map app].
  replace (S k) with (k + 1) by lia. reflexivity.
Qed.
Lemma left_end : left_from N = rest.
Proof. unfold left_from. rewrite Nat.sub_diag. reflexivity. Qed.

Lemma d_col_spec : forall n row col yo d a, n = cols - col -> col <= cols -> row < k_T s -> yo < rows_in s row ->
  d_row d = row -> P ((myof s row + yo) * cols + col) a -> d_in d = left_from ((myof s row + yo) * cols + col) ->
  (exists d' a', d_col_loop St store n col yo d a = Ret (true, d', a') /\ d_row d' = row /\ d_rows d' = d_rows d /\
     P ((myof s row + (yo + 1)) * cols) a' /\ d_in d' = left_from ((myof s row + (yo + 1)) * cols) /\
     length (d_orc d') <= length (d_orc d)) \/
  (exists d' a', d_col_loop St store n col yo d a = Ret (false, d', a') /\ d_row d' = row /\ d_rows d' = d_rows d /\ d_vo d' = yo /\
     d_ctr d' < cols /\ P ((myof s row + yo) * cols + d_ctr d') a' /\ d_in d' = left_from ((myof s row + yo) * cols + d_ctr d') /\
     length (d_orc d') < length (d_orc d)).
Proof.
  induction n as [|n IH]; intros row col yo d a En Hc Hr Hy Er HP HI; cbn [d_col_loop].
  - left. exists d, a. assert (EQ : (myof s row + (yo + 1)) * cols = (myof s row + yo) * cols + col) by (assert (col = cols) by lia; subst; ring).
    rewrite EQ. split; [reflexivity|]. split; [exact Er|]. split; [reflexivity|]. split; [exact HP|]. split; [exact HI|lia].
  - assert (KN : (myof s row + yo) * cols + col < N).
    { pose proof (my_lt s Hs row yo Hr Hy). nia. }
    rewrite (left_next _ KN) in HI. unfold decode_mcu.
    destruct (hd true (d_orc d)) eqn:EH.
    + rewrite HI. cbn [d_row]. rewrite Er.
      destruct (HS row yo col a Hr Hy ltac:(lia) HP) as (a1 & -> & P1). cbn [bind].
      set (d1 := mkDst row (d_ctr d) (d_vo d) (d_rows d) (tl (d_orc d)) (left_from ((myof s row + yo) * cols + col + 1))).
      assert (LT : length (tl (d_orc d)) <= length (d_orc d)) by (destruct (d_orc d); cbn; lia).
      assert (P2 : P ((myof s row + yo) * cols + (col + 1)) a1) by (rewrite Nat.add_assoc; exact P1).
      assert (I2 : d_in d1 = left_from ((myof s row + yo) * cols + (col + 1))) by (cbn; rewrite Nat.add_assoc; reflexivity).
      destruct (IH row (col + 1) yo d1 a1 ltac:(lia) ltac:(lia) Hr Hy eq_refl P2 I2) as [(d' & a' & E & Q1 & Q2 & Q3 & Q4 & Q5)|(d' & a' & E & Q1 & Q2 & Q3 & Q4 & Q5 & Q6 & Q7)].
      * left. exists d', a'. cbn in Q2, Q5. split; [exact E|]. split; [exact Q1|]. split; [exact Q2|]. split; [exact Q3|]. split; [exact Q4|lia].
      * right. exists d', a'. cbn in Q2, Q7. split; [exact E|]. split; [exact Q1|]. split; [exact Q2|]. split; [exact Q3|]. split; [exact Q4|].
        split; [exact Q5|]. split; [exact Q6|lia].
    + right. eexists _, a. split; [reflexivity|]. cbn. split; [exact Er|]. split; [reflexivity|]. split; [reflexivity|]. split; [lia|].
      split; [exact HP|]. split; [rewrite HI; symmetry; apply left_next; exact KN|]. destruct (d_orc d); cbn in *; [discriminate|lia].
Qed.

Lemma d_row_spec : forall n row yo d a, n = rows_in s row - yo -> yo <= rows_in s row -> d_ctr d < cols -> row < k_T s ->
  d_row d = row -> (yo = rows_in s row -> d_ctr d = 0) -> P ((myof s row + yo) * cols + d_ctr d) a ->
  d_in d = left_from ((myof s row + yo) * cols + d_ctr d) ->
  (exists d' a', d_row_loop s St store n yo d a = Ret (true, d', a') /\ d_row d' = row /\ d_rows d' = d_rows d /\
     P ((myof s row + rows_in s row) * cols) a' /\ d_in d' = left_from ((myof s row + rows_in s row) * cols) /\
     length (d_orc d') <= length (d_orc d)) \/
  (exists d' a', d_row_loop s St store n yo d a = Ret (false, d', a') /\ d_row d' = row /\ d_rows d' = d_rows d /\ d_vo d' < rows_in s row /\
     d_ctr d' < cols /\ P ((myof s row + d_vo d') * cols + d_ctr d') a' /\ d_in d' = left_from ((myof s row + d_vo d') * cols + d_ctr d') /\
     length (d_orc d') < length (d_orc d)).
Proof.
  induction n as [|n IH]; intros row yo d a En Hy Hc Hr Er Ez HP HI; cbn [d_row_loop].
  - left. exists d, a. assert (EQ : (myof s row + rows_in s row) * cols = (myof s row + yo) * cols + d_ctr d).
    { assert (yo = rows_in s row) by lia. rewrite Ez by assumption. subst yo. lia. }
    rewrite EQ. split; [reflexivity|]. split; [exact Er|]. split; [reflexivity|]. split; [exact HP|]. split; [exact HI|lia].
  - destruct (d_col_spec (cols - d_ctr d) row (d_ctr d) yo d a eq_refl ltac:(lia) Hr ltac:(lia) Er HP HI)
      as [(d1 & a1 & -> & R1 & R2 & R3 & R4 & R5)|(d1 & a1 & -> & R1 & R2 & R3 & R4 & R5 & R6 & R7)]; cbn [bind].
    + pose proof (so_cols s Hs).
      destruct (IH row (yo + 1) (mkDst (d_row d1) 0 (d_vo d1) (d_rows d1) (d_orc d1) (d_in d1)) a1)
        as [(d' & a' & E & Q1 & Q2 & Q3 & Q4 & Q5)|(d' & a' & E & Q1 & Q2 & Q3 & Q4 & Q5 & Q6 & Q7)];
        cbn [d_row d_ctr d_vo d_rows d_orc d_in]; try lia; try rewrite Nat.add_0_r; try assumption.
      * left. exists d', a'. cbn in Q2, Q5. split; [exact E|]. split; [exact Q1|]. split; [congruence|]. split; [exact Q3|]. split; [exact Q4|lia].
      * right. exists d', a'. cbn in Q2, Q7. split; [exact E|]. split; [exact Q1|]. split; [congruence|]. split; [exact Q3|]. split; [exact Q4|].
        split; [exact Q5|]. split; [exact Q6|lia].
    + right. exists d1, a1. rewrite R3. split; [reflexivity|]. split; [exact R1|]. split; [exact R2|]. split; [lia|]. split; [exact R4|].
      split; [exact R5|]. split; [exact R6|exact R7].
Qed.

Definition DI (d : dst) (a : St) : Prop :=
  (d_row d < k_T s /\ d_rows d = rows_in s (d_row d) /\ d_vo d < d_rows d /\ d_ctr d < cols /\
     P ((myof s (d_row d) + d_vo d) * cols + d_ctr d) a /\ d_in d = left_from ((myof s (d_row d) + d_vo d) * cols + d_ctr d)) \/
  (d_row d = k_T s /\ P N a /\ d_in d = rest).

Lemma d_imcu_spec : forall d a, DI d a -> d_row d < k_T s ->
  exists r d' a', d_imcu_row s St store d a = Ret (r, d', a') /\ DI d' a' /\
    match r with
    | SUSPENDED => d_row d' = d_row d /\ length (d_orc d') < length (d_orc d)
    | ROW_COMPLETED => d_row d' = d_row d + 1 /\ d_row d' < k_T s /\ length (d_orc d') <= length (d_orc d)
    | SCAN_COMPLETED => d_row d' = d_row d + 1 /\ d_row d' = k_T s /\ length (d_orc d') <= length (d_orc d)
    end.
Proof.
  intros d a [(I1 & I2 & I3 & I4 & I5 & I6)|(I1 & _)] Hr; [|lia]. unfold d_imcu_row.
  destruct (d_row_spec (d_rows d - d_vo d) (d_row d) (d_vo d) d a) as [(d' & a' & -> & Q1 & Q2 & Q3 & Q4 & Q5)|(d' & a' & -> & Q1 & Q2 & Q3 & Q4 & Q5 & Q6 & Q7)];
    try lia; try assumption; try congruence; try reflexivity; cbn [bind].
  - pose proof (myof_next s Hs (d_row d) Hr) as MN. pose proof (so_cols s Hs). rewrite Q1.
    destruct (Nat.ltb_spec (d_row d + 1) (k_T s)) as [L|L].
    + eexists ROW_COMPLETED, _, a'. split; [reflexivity|]. cbn [d_row d_orc]. split; [|lia]. left. cbn [d_row d_ctr d_vo d_rows d_orc d_in].
      split; [exact L|]. split; [reflexivity|]. split; [rewrite rows_in_d; pose proof (rows_pos s Hs (d_row d + 1)); lia|]. split; [lia|].
      rewrite !Nat.add_0_r, <- MN. split; [exact Q3|exact Q4].
    + eexists SCAN_COMPLETED, _, a'. split; [reflexivity|]. cbn [d_row d_orc]. split; [|lia]. right. cbn [d_row d_in].
      rewrite MN in Q3, Q4. rewrite left_end in Q4. split; [lia|]. split; [exact Q3|exact Q4].
  - exists SUSPENDED, d', a'. split; [reflexivity|]. split; [|lia]. left. rewrite Q1. split; [exact Hr|]. split; [congruence|].
    split; [rewrite Q2, I2; exact Q3|]. split; [exact Q4|]. split; [exact Q5|exact Q6].
Qed.

Lemma d_start_DI : forall orc a, P 0 a -> DI (d_start s orc (map M (seq 0 N) ++ rest)) a.
Proof.
  intros orc a HP. left. unfold d_start. cbn [d_row d_ctr d_vo d_rows d_orc d_in]. pose proof (so_T s Hs). pose proof (so_cols s Hs).
  pose proof (rows_pos s Hs 0) as RP. split; [lia|]. split; [reflexivity|]. split; [rewrite rows_in_d; lia|]. split; [lia|].
  assert (E0 : (myof s 0 + 0) * cols + 0 = 0) by (unfold myof; destruct (k_comps s) as [|? [|? ?]]; reflexivity).
  rewrite E0. split; [exact HP|]. unfold left_from. rewrite Nat.sub_0_r. reflexivity.
Qed.

Definition Dstep (step : dst -> St -> outcome (dret * dst * St)) (p : dst * St * option dret) : outcome (dst * St * option dret) :=
  match p with (d, a, _) => '(r, d, a) <- step d a ;; Ret (d, a, Some r) end.
Lemma drive_DI : forall fuel step d a,
  (forall d a, DI d a -> d_row d < k_T s -> step d a = d_imcu_row s St store d a) ->
  DI d a -> k_T s - d_row d + length (d_orc d) <= fuel -> d_row d < k_T s ->
  forall r0, exists d' a', drive fuel (fun p => d_row (fst (fst p))) (k_T s) (Dstep step) (d, a, r0) = Ret (d', a', Some SCAN_COMPLETED) /\
    P N a' /\ d_in d' = rest.
Proof.
  intros fuel step d a Hst. revert d a. induction fuel as [|n IH]; intros d a HI Hf L r0; cbn [drive fst];
    rewrite (proj2 (Nat.leb_gt _ _) L); [lia|].
  destruct (d_imcu_spec d a HI L) as (r & d' & a' & E & HI' & D). cbn [Dstep]. rewrite (Hst d a HI L), E. cbn [bind].
  destruct r.
  - destruct D as (D1 & D2 & D3). apply IH; [exact HI'|lia|lia].
  - destruct D as (D1 & D2 & D3). exists d', a'. destruct HI' as [(I1 & _)|(_ & I2 & I3)]; [lia|]. split; [|split; [exact I2|exact I3]].
    destruct n; cbn [drive fst]; rewrite (proj2 (Nat.leb_le _ _)) by lia; reflexivity.
  - destruct D as (D1 & D2). apply IH; [exact HI'|lia|lia].
Qed.
End Dec.
