(* P_Arith2.v -- the encoder narrows an interval; finish_pass writes a number inside it *)
From Verif Require Import Base M_Arith P_Trellis P_Arith.

Definition binv (sv : Z) : Prop := 0 <= sv < 256 /\ Z.land sv 127 < 114.
Definition binb (sv : Z) : bool := (0 <=? sv) && (sv <? 256) && (Z.land sv 127 <? 114).
Lemma binb_ok sv : binb sv = true -> binv sv.
Proof. unfold binb, binv. intros H. apply andb_true_iff in H as [H C]. apply andb_true_iff in H as [A B]. apply Z.leb_le in A. apply Z.ltb_lt in B, C. auto. Qed.

Definition tabw (sv : Z) : Z := nth (Z.to_nat (Z.land sv 127)) jpeg_aritab 0.
Definition qeof (sv : Z) : Z := Z.shiftr (Z.shiftr (tabw sv) 8) 8.
Definition lpsbin (sv : Z) : Z := Z.lxor (Z.land sv 128) (Z.land (tabw sv) 255).
Definition mpsbin (sv : Z) : Z := Z.lxor (Z.land sv 128) (Z.land (Z.shiftr (tabw sv) 8) 255).

Lemma tab_len : length jpeg_aritab = 114%nat. Proof. vm_compute. reflexivity. Qed.
Lemma tab_all : forallb (fun sv => negb (binb sv) || ((1 <=? qeof sv) && (qeof sv <? 32768) && binb (lpsbin sv) && binb (mpsbin sv) && (0 <=? Z.land sv 127))) (map Z.of_nat (seq 0 256)) = true.
Proof. vm_compute. reflexivity. Qed.
Lemma tab_ok sv : binv sv -> aget jpeg_aritab (Z.land sv 127) = Ret (tabw sv) /\ 1 <= qeof sv < 32768 /\ binv (lpsbin sv) /\ binv (mpsbin sv).
Proof.
  intros [R Hl]. pose proof tab_all as T. rewrite forallb_forall in T. specialize (T sv). cbv beta in T.
  assert (I1 : In sv (map Z.of_nat (seq 0 256))). { apply in_map_iff. exists (Z.to_nat sv). split; [lia|]. apply in_seq. lia. }
  specialize (T I1). assert (B : binb sv = true). { unfold binb. rewrite !andb_true_iff, Z.leb_le, !Z.ltb_lt. lia. } rewrite B in T. cbn [negb orb] in T.
  apply andb_true_iff in T as [T A5]. apply andb_true_iff in T as [T A4]. apply andb_true_iff in T as [T A3]. apply andb_true_iff in T as [A1 A2]. apply Z.leb_le in A1, A5. apply Z.ltb_lt in A2.
  split; [|split; [lia|split; apply binb_ok; assumption]]. unfold tabw. rewrite (aget_nth jpeg_aritab (Z.land sv 127) 0); [reflexivity|]. rewrite tab_len. lia.
Qed.

(* one decision on the interval [L, L+a) *)
Definition pre_step (L a sv : Z) (val : bool) : Z * Z * Z :=
  let qe := qeof sv in let a1 := a - qe in
  if negb (Z.b2z val =? Z.shiftr sv 7) then (if qe <=? a1 then (L + a1, qe, lpsbin sv) else (L, a1, lpsbin sv))
  else if 32768 <=? a1 then (L, a1, sv)
  else if a1 <? qe then (L + a1, qe, mpsbin sv) else (L, a1, mpsbin sv).

Lemma pre_step_in L a sv val : binv sv -> 32768 <= a -> let '(L1, a1, sv1) := pre_step L a sv val in L <= L1 /\ L1 + a1 <= L + a /\ 1 <= a1 <= a /\ binv sv1.
Proof.
  intros B A. destruct (tab_ok sv B) as (_ & Q & B1 & B2). unfold pre_step. cbv zeta. destruct (negb _); [destruct (Z.leb_spec (qeof sv) (a - qeof sv))|destruct (Z.leb_spec 32768 (a - qeof sv)); [|destruct (Z.ltb_spec (a - qeof sv) (qeof sv))]]; (split; [lia|]; split; [lia|]; split; [lia|assumption]).
Qed.

Lemma EInv_sub e L n L1 c1 a1 : EInv e L n -> c1 = e_c e + (L1 - L) -> L <= L1 -> L1 + a1 <= L + e_a e -> 1 <= a1 <= e_a e ->
  EInv (mkE c1 a1 (e_sc e) (e_zc e) (e_ct e) (e_buf e) (e_out e)) L1 n.
Proof.
  intros (P & HR & HL & Hn & HC & HCT & HB & HLA & HA) -> H1 H2 H3. exists P. cbn [e_c e_a e_ct]. split; [exact HR|]. split; [lia|]. split; [exact Hn|]. split; [lia|]. split; [exact HCT|].
  split; [|split; lia]. assert (0 < 2 ^ e_ct e) by (apply Z.pow_pos_nonneg; lia). etransitivity; [|exact HB]. apply Z.mul_le_mono_nonneg_r; lia.
Qed.

Lemma arith_encode_ok e L n sv val : EInv e L n -> 32768 <= e_a e -> binv sv ->
  sat (fun '(e', sv') => exists L1 a1 L' n', pre_step L (e_a e) sv val = (L1, a1, sv') /\ Inorm L1 a1 n L' (e_a e') n' /\ EInv e' L' n' /\ 32768 <= e_a e' /\ binv sv') (arith_encode e sv val).
Proof.
  intros EI A B. destruct (tab_ok sv B) as (TG & Q & B1 & B2). unfold arith_encode. rewrite TG. cbn [bind]. cbv zeta. fold (qeof sv) (lpsbin sv) (mpsbin sv).
  assert (K : forall c1 L1 a1 sv1, c1 = e_c e + (L1 - L) -> L <= L1 -> L1 + a1 <= L + e_a e -> 1 <= a1 <= e_a e -> a1 < 32768 -> binv sv1 -> pre_step L (e_a e) sv val = (L1, a1, sv1) ->
    sat (fun '(e', sv') => exists L1 a1 L' n', pre_step L (e_a e) sv val = (L1, a1, sv') /\ Inorm L1 a1 n L' (e_a e') n' /\ EInv e' L' n' /\ 32768 <= e_a e' /\ binv sv')
      (bind (e_renorm 20 (mkE c1 a1 (e_sc e) (e_zc e) (e_ct e) (e_buf e) (e_out e))) (fun e2 => Ret (e2, sv1)))).
  { intros c1 L1 a1 sv1 H1 H2 H3 H4 H5 H6 H7. eapply sat_bind; [apply (e_renorm_ok 20 _ L1 n); [apply (EInv_sub e L n); assumption|cbn [e_a]; lia|cbn [e_a]; change (2 ^ Z.of_nat 20) with 1048576; lia]|].
    intros e2 (L' & n' & N1 & N2 & N3). cbn [sat]. exists L1, a1, L', n'. cbn [e_a] in N1. split; [exact H7|]. split; [exact N1|]. split; [exact N2|]. split; assumption. }
  unfold pre_step in *. cbv zeta in *. destruct (negb _).
  - destruct (Z.leb_spec (qeof sv) (e_a e - qeof sv)).
    + apply (K _ (L + (e_a e - qeof sv))); try assumption; try lia; reflexivity.
    + apply (K _ L); try assumption; try lia; reflexivity.
  - destruct (Z.leb_spec 32768 (e_a e - qeof sv)).
    + cbn [sat]. exists L, (e_a e - qeof sv), L, n. cbn [e_a]. split; [reflexivity|]. split; [apply In_done; lia|]. split; [|split; [lia|exact B]]. apply (EInv_sub e L n); try assumption; lia.
    + destruct (Z.ltb_spec (e_a e - qeof sv) (qeof sv)).
      * apply (K _ (L + (e_a e - qeof sv))); try assumption; try lia; reflexivity.
      * apply (K _ L); try assumption; try lia; reflexivity.
Qed.

(* all decisions *)
Inductive Run : list (Z * bool) -> Z -> Z -> Z -> list Z -> Z -> Z -> Z -> list Z -> Prop :=
| R_nil : forall L a n bins, Run [] L a n bins L a n bins
| R_cons : forall ctx val ds L a n bins sv L1 a1 sv1 L2 a2 n2 bins2 L3 a3 n3 bins3,
    aget bins ctx = Ret sv -> pre_step L a sv val = (L1, a1, sv1) -> aset bins ctx sv1 = Ret bins2 -> Inorm L1 a1 n L2 a2 n2 ->
    Run ds L2 a2 n2 bins2 L3 a3 n3 bins3 -> Run ((ctx, val) :: ds) L a n bins L3 a3 n3 bins3.

Lemma encode_all_ok : forall ds e L n bins, EInv e L n -> 32768 <= e_a e -> Forall binv bins -> Forall (fun d => 0 <= fst d < len bins) ds ->
  sat (fun '(e', bins') => exists L' n', Run ds L (e_a e) n bins L' (e_a e') n' bins' /\ EInv e' L' n' /\ 32768 <= e_a e' /\ Forall binv bins' /\ length bins' = length bins) (encode_all ds e bins).
Proof.
  induction ds as [|[ctx val] ds IH]; intros e L n bins EI A B F; cbn [encode_all].
  - cbn [sat]. exists L, n. split; [apply R_nil|]. split; [exact EI|]. split; [exact A|]. split; [exact B|reflexivity].
  - assert (C : 0 <= ctx < len bins) by exact (Forall_inv F). rewrite (aget_nth bins ctx 0 C). cbn [bind]. set (sv := nth (Z.to_nat ctx) bins 0).
    assert (SV : binv sv). { unfold sv. rewrite Forall_forall in B. apply B. apply nth_In. lia. }
    eapply sat_bind; [apply (arith_encode_ok e L n sv val EI A SV)|]. intros [e1 sv1] (L1 & a1 & L' & n' & P1 & P2 & P3 & P4 & P5). rewrite (aset_ok bins ctx sv1 C). cbn [bind].
    assert (B' : Forall binv (upd bins (Z.to_nat ctx) sv1)).
    { apply Forall_forall. intros x Hx. apply (In_nth _ _ 0) in Hx as (i & Hi & <-). rewrite length_upd in Hi. destruct (Nat.eq_dec i (Z.to_nat ctx)) as [->|NE].
      - rewrite nth_upd_eq by lia. exact P5.
      - rewrite nth_upd_neq by lia. rewrite Forall_forall in B. apply B. apply nth_In. lia. }
    eapply sat_imp; [apply (IH e1 L' n' _ P3 P4 B'); rewrite length_upd; exact (Forall_inv_tail F)|].
    intros [e2 bins2] (L2 & n2 & Q1 & Q2 & Q3 & Q4 & Q5). exists L2, n2. split; [|split; [exact Q2|split; [exact Q3|split; [exact Q4|rewrite Q5; apply length_upd]]]].
    eapply R_cons; [rewrite (aget_nth bins ctx 0 C); reflexivity|exact P1|apply aset_ok; exact C|exact P2|exact Q1].
Qed.

(* ---- nesting ---- *)
Definition Nest (L a n L' a' n' : Z) : Prop := n <= n' /\ L * 2 ^ (n' - n) <= L' /\ L' + a' <= (L + a) * 2 ^ (n' - n).
Lemma nest_refl L a n : Nest L a n L a n.
Proof. unfold Nest. rewrite Z.sub_diag. change (2 ^ 0) with 1. lia. Qed.
Lemma nest_trans L a n L1 a1 n1 L2 a2 n2 : Nest L a n L1 a1 n1 -> Nest L1 a1 n1 L2 a2 n2 -> Nest L a n L2 a2 n2.
Proof.
  intros (A & B & C) (D & E & F). unfold Nest. replace (n2 - n) with ((n1 - n) + (n2 - n1)) by lia. rewrite Z.pow_add_r by lia. assert (0 < 2 ^ (n2 - n1)) by (apply Z.pow_pos_nonneg; lia).
  split; [lia|]. rewrite !Z.mul_assoc. split; [etransitivity; [|exact E]; apply Z.mul_le_mono_nonneg_r; lia|etransitivity; [exact F|]; apply Z.mul_le_mono_nonneg_r; lia].
Qed.
Lemma inorm_nest L a n L' a' n' : Inorm L a n L' a' n' -> Nest L a n L' a' n'.
Proof.
  induction 1 as [|L a n L' a' n' H N IH]; [apply nest_refl|]. eapply nest_trans; [|exact IH]. unfold Nest. replace (n + 1 - n) with 1 by lia. change (2 ^ 1) with 2. lia.
Qed.
Lemma inorm_big L a n L' a' n' : Inorm L a n L' a' n' -> 32768 <= a'.
Proof. induction 1; assumption. Qed.
Lemma inorm_le L a n L' a' n' : Inorm L a n L' a' n' -> a <= 65536 -> a' <= 65536.
Proof. induction 1; lia. Qed.
Lemma run_nest ds L a n bins L' a' n' bins' : Run ds L a n bins L' a' n' bins' -> 32768 <= a -> Forall binv bins -> Nest L a n L' a' n'.
Proof.
  induction 1 as [|ctx val ds L a n bins sv L1 a1 sv1 L2 a2 n2 bins2 L3 a3 n3 bins3 G P SE IN R IH]; intros A B; [apply nest_refl|].
  assert (C : 0 <= ctx < len bins). { unfold aget in G. destruct (Z.ltb_spec ctx 0); [discriminate|]. destruct (nth_error bins (Z.to_nat ctx)) eqn:E; [|discriminate]. assert (Z.to_nat ctx < length bins)%nat by (apply nth_error_Some; congruence). lia. }
  rewrite (aget_nth bins ctx 0 C) in G. injection G as G.
  assert (SV : binv sv). { subst sv. rewrite Forall_forall in B. apply B. apply nth_In. lia. }
  pose proof (pre_step_in L a sv val SV A) as PI. rewrite P in PI. destruct PI as (I1 & I2 & I3 & I4).
  eapply nest_trans; [|apply IH].
  - eapply nest_trans; [|apply inorm_nest; exact IN]. unfold Nest. rewrite Z.sub_diag. change (2 ^ 0) with 1. lia.
  - eapply inorm_big; exact IN.
  - rewrite (aset_ok bins ctx sv1 C) in SE. injection SE as <-. apply Forall_forall. intros x Hx. apply (In_nth _ _ 0) in Hx as (i & Hi & <-). rewrite length_upd in Hi. destruct (Nat.eq_dec i (Z.to_nat ctx)) as [->|NE].
    + rewrite nth_upd_eq by lia. exact I4.
    + rewrite nth_upd_neq by lia. rewrite Forall_forall in B. apply B. apply nth_In. lia.
Qed.

(* ---- the written number ---- *)
Fixpoint pre (S : list Z) (M : nat) : Z := match M with O => 0 | Datatypes.S M => pre S M * 256 + nth M S 0 end.
Definition Win (S : list Z) (L a n : Z) : Prop :=
  exists K0 : nat, 16 + n <= 8 * Z.of_nat K0 /\ forall K, (K0 <= K)%nat -> L * 2 ^ (8 * Z.of_nat K - 16 - n) <= pre S K < (L + a) * 2 ^ (8 * Z.of_nat K - 16 - n).

Lemma win_nest S L a n L' a' n' : Nest L a n L' a' n' -> Win S L' a' n' -> Win S L a n.
Proof.
  intros (A & B & C) (K0 & HK & W). exists K0. split; [lia|]. intros K HKK. specialize (W K HKK). replace (8 * Z.of_nat K - 16 - n) with ((n' - n) + (8 * Z.of_nat K - 16 - n')) by lia. rewrite Z.pow_add_r by lia.
  assert (0 < 2 ^ (8 * Z.of_nat K - 16 - n')) by (apply Z.pow_pos_nonneg; lia). rewrite !Z.mul_assoc. split.
  - etransitivity; [|apply W]. apply Z.mul_le_mono_nonneg_r; lia.
  - eapply Z.lt_le_trans; [apply W|]. apply Z.mul_le_mono_nonneg_r; lia.
Qed.
Lemma pre_ext S1 S2 : (forall i, nth i S1 0 = nth i S2 0) -> forall M, pre S1 M = pre S2 M.
Proof. intros H. induction M as [|M IH]; [reflexivity|]. cbn [pre]. rewrite IH, H. reflexivity. Qed.
Lemma nth_zeros_tail S n i : nth i (S ++ zeros n) 0 = nth i S 0.
Proof.
  destruct (Nat.lt_ge_cases i (length S)) as [H|H]; [apply app_nth1; exact H|]. rewrite app_nth2, (nth_overflow S) by lia. unfold zeros.
  destruct (Nat.lt_ge_cases (i - length S) (Z.to_nat n)) as [G|G]; [apply nth_repeat_lt; exact G|apply nth_overflow; rewrite repeat_length; exact G].
Qed.
Lemma pre_full : forall S, pre S (length S) = bval S.
Proof.
  induction S as [|x S IH] using rev_ind; [reflexivity|]. rewrite app_length. cbn [length]. rewrite Nat.add_1_r. cbn [pre]. rewrite bval_snoc, app_nth2, Nat.sub_diag by lia. cbn [nth]. f_equal. f_equal.
  rewrite <- IH. assert (H : forall M, (M <= length S)%nat -> pre (S ++ [x]) M = pre S M). { induction M as [|M IHM]; intros H; [reflexivity|]. cbn [pre]. rewrite IHM by lia. rewrite app_nth1 by lia. reflexivity. } apply H. lia.
Qed.
Lemma pre_over S : forall k, pre S (length S + k) = bval S * 256 ^ Z.of_nat k.
Proof.
  induction k as [|k IH]; [rewrite Nat.add_0_r, pre_full; cbn; lia|]. rewrite <- plus_n_Sm. cbn [pre]. rewrite IH, nth_overflow by lia. replace (Z.of_nat (Datatypes.S k)) with (Z.succ (Z.of_nat k)) by lia. rewrite Z.pow_succ_r by lia. ring.
Qed.

Lemma land_ones_shift x k j : 0 <= k -> 0 <= j -> Z.land x (Z.shiftl (Z.ones k) j) = Z.shiftl (Z.land (Z.shiftr x j) (Z.ones k)) j.
Proof.
  intros. apply Z.bits_inj'. intros i Hi. rewrite Z.land_spec, !Z.shiftl_spec by lia. destruct (Z.lt_ge_cases i j) as [G|G].
  - rewrite !(Z.testbit_neg_r _ (i - j)) by lia. apply andb_false_r.
  - rewrite Z.land_spec, Z.shiftr_spec by lia. replace (i - j + j) with i by lia. reflexivity.
Qed.
Lemma land_mask x k j : 0 <= k -> 0 <= j -> Z.land x (Z.shiftl (Z.ones k) j) = ((x / 2 ^ j) mod 2 ^ k) * 2 ^ j.
Proof. intros. rewrite land_ones_shift by lia. rewrite Z.land_ones, Z.shiftl_mul_pow2, Z.shiftr_div_pow2 by lia. reflexivity. Qed.

Lemma finish_ok e L n : EInv e L n -> 32768 <= e_a e -> exists S, finish_pass e = stuff S /\ Forall byte S /\ Win S L (e_a e) n.
Proof.
  intros (P & HR & HL & Hn & HC & HCT & HB & HLA & HA) A. unfold finish_pass. cbv zeta.
  set (temp := Z.land (e_a e - 1 + e_c e) 4294901760). set (c1 := if temp <? e_c e then temp + 32768 else temp).
  assert (PC : 0 < 2 ^ e_ct e) by (apply Z.pow_pos_nonneg; lia).
  assert (PC2 : 2 <= 2 ^ e_ct e). { replace (e_ct e) with (1 + (e_ct e - 1)) by lia. rewrite Z.pow_add_r by lia. assert (0 < 2 ^ (e_ct e - 1)) by (apply Z.pow_pos_nonneg; lia). lia. }
  assert (CB : e_c e < 2 ^ 28) by nia.
  assert (TE : temp = (e_a e - 1 + e_c e) / 65536 * 65536).
  { unfold temp. change 4294901760 with (Z.shiftl (Z.ones 16) 16). rewrite land_mask by lia. rewrite (Z.mod_small ((e_a e - 1 + e_c e) / 2 ^ 16) (2 ^ 16)); [reflexivity|]. split; [apply Z.div_pos; lia|]. apply Z.div_lt_upper_bound; [lia|]. change (2 ^ 16 * 2 ^ 16) with 4294967296. change (2 ^ 28) with 268435456 in CB. lia. }
  clearbody temp. pose proof (Z.div_mod (e_a e - 1 + e_c e) 65536 ltac:(lia)) as D1. pose proof (Z.mod_pos_bound (e_a e - 1 + e_c e) 65536 ltac:(lia)) as D2.
  assert (C1 : e_c e <= c1 <= e_c e + e_a e - 1) by (unfold c1; destruct (Z.ltb_spec temp (e_c e)); lia).
  assert (C2 : exists h, c1 = h * 32768). { unfold c1. destruct (temp <? e_c e); [exists ((e_a e - 1 + e_c e) / 65536 * 2 + 1)|exists ((e_a e - 1 + e_c e) / 65536 * 2)]; rewrite TE; ring. }
  clearbody c1. clear TE D1 D2 temp. destruct C2 as [h C2].
  assert (C3 : exists k, c1 * 2 ^ e_ct e = k * 2048). { exists (h * 16 * 2 ^ e_ct e). rewrite C2. ring. }
  rewrite Z.shiftl_mul_pow2 by lia. destruct C3 as [k C3]. set (x := c1 * 2 ^ e_ct e) in *.
  assert (X : 0 <= x < 2 ^ 27 + 2 ^ 24). { unfold x. split; [apply Z.mul_nonneg_nonneg; lia|]. eapply Z.lt_le_trans; [|exact HB]. apply Z.mul_lt_mono_pos_r; lia. }
  change 4160749568 with (Z.shiftl (Z.ones 5) 27). change 134215680 with (Z.shiftl (Z.ones 16) 11). change 522240 with (Z.shiftl (Z.ones 8) 11). rewrite !land_mask by lia.
  rewrite !Z.shiftr_div_pow2 by lia. assert (L255 : forall y, Z.land y 255 = y mod 2 ^ 8) by (intros y; change 255 with (Z.ones 8); apply Z.land_ones; lia). rewrite !L255.
  set (b1 := (x / 2 ^ 19) mod 2 ^ 8). set (b2 := (x / 2 ^ 11) mod 2 ^ 8).
  assert (KX : x / 2 ^ 11 = k) by (rewrite C3; apply Z.div_mul; lia).
  pose (cy := x / 2 ^ 27).
  assert (DX : x = cy * 2 ^ 27 + b1 * 2 ^ 19 + b2 * 2 ^ 11 /\ 0 <= b1 <= 255 /\ 0 <= b2 <= 255 /\ 0 <= cy <= 1).
  { unfold b1, b2, cy. rewrite KX, C3. assert (k * 2048 / 2 ^ 19 = k / 2 ^ 8) as ->. { change (2 ^ 19) with (2 ^ 8 * 2048). apply Z.div_mul_cancel_r; lia. }
    assert (k * 2048 / 2 ^ 27 = k / 2 ^ 8 / 2 ^ 8) as ->. { rewrite Z.div_div by lia. change (2 ^ 27) with (2 ^ 8 * 2 ^ 8 * 2048). apply Z.div_mul_cancel_r; lia. }
    pose proof (Z.div_mod k (2 ^ 8) ltac:(lia)) as E1. pose proof (Z.mod_pos_bound k (2 ^ 8) ltac:(lia)) as E2. pose proof (Z.div_mod (k / 2 ^ 8) (2 ^ 8) ltac:(lia)) as E3. pose proof (Z.mod_pos_bound (k / 2 ^ 8) (2 ^ 8) ltac:(lia)) as E4.
    split; [lia|]. split; [lia|]. split; [lia|]. lia. }
  assert (M16 : (x / 2 ^ 11) mod 2 ^ 16 = b1 * 256 + b2).
  { symmetry. apply (Z.mod_unique_pos _ _ cy); [lia|]. rewrite KX. lia. }
  rewrite M16. assert (M5 : (x / 2 ^ 27) mod 2 ^ 5 = cy) by (fold cy; apply Z.mod_small; lia). rewrite M5. clearbody b1 b2 cy. destruct DX as (DX & Hb1 & Hb2 & Hcy).
  (* carry or not *)
  assert (Q : exists e1 P1, (if negb (cy * 2 ^ 27 =? 0) then carry e else no_carry e) = e1 /\ Rep0 e1 P1 /\ bval P1 = bval P + cy /\ len P1 = len P).
  { destruct (Z.eqb_spec (cy * 2 ^ 27) 0) as [E|E]; cbn [negb]; eexists.
    - exists P. split; [reflexivity|]. split; [apply no_carry_rep; exact HR|]. split; lia.
    - assert (cy = 1) as CY by lia. assert (HBUF : 0 <= e_buf e).
      { destruct HR as (B & ZC & SC & S & O & F & N & EP). destruct (Z.lt_ge_cases (e_buf e) 0) as [Y|Y]; [|exact Y]. exfalso. assert (e_buf e = -1) as E1 by lia. destruct (N E1) as [E2 E3]. subst S. rewrite E1, E2 in EP. cbn [bufl zeros Z.to_nat repeat app Z.ltb Z.compare] in EP.
        subst P. rewrite bval_effs in HL by lia. rewrite len_effs in Hn by lia.
        assert (X1 : (L + e_a e) * 2 ^ e_ct e <= 2 ^ (8 * e_sc e) * 2 ^ 27).
        { etransitivity; [apply Z.mul_le_mono_nonneg_r; [lia|exact HLA]|]. rewrite <- !Z.pow_add_r by lia. apply Z.pow_le_mono_r; lia. }
        assert (X2 : L * 2 ^ e_ct e = (256 ^ e_sc e - 1) * 2 ^ 27 + e_c e * 2 ^ e_ct e).
        { rewrite HL, Z.mul_add_distr_r, <- Z.mul_assoc, <- Z.pow_add_r by lia. replace (27 - e_ct e + e_ct e) with 27 by lia. reflexivity. }
        change 256 with (2 ^ 8) in X2. rewrite <- Z.pow_mul_r in X2 by lia. assert (X3 : x <= (e_c e + e_a e - 1) * 2 ^ e_ct e) by (unfold x; apply Z.mul_le_mono_nonneg_r; lia). lia. }
      destruct (carry_rep e P HR HBUF) as (P1 & R1 & B1 & L1). exists P1. split; [reflexivity|]. split; [exact R1|]. split; lia. }
  destruct Q as (e1 & P1 & -> & (ZC & SC & S & O & F & EP) & B1 & L1).
  assert (GOAL : forall S', Forall byte S' -> (forall i, nth i S' 0 = nth i (P1 ++ [b1; b2]) 0) -> Win S' L (e_a e) n).
  { intros S' _ HS. assert (LE2 : len (P1 ++ [b1; b2]) = len P + 2) by (rewrite app_length; cbn [length]; lia).
    exists (length (P1 ++ [b1; b2]) + 2)%nat. pose proof (Zle_0_nat (length P)) as LP. split; [lia|]. intros K HK. rewrite (pre_ext S' (P1 ++ [b1; b2]) HS). replace K with (length (P1 ++ [b1; b2]) + (K - length (P1 ++ [b1; b2])))%nat at 2 3 by lia. rewrite pre_over.
    set (j := (K - length (P1 ++ [b1; b2]))%nat) in *. assert (BV : bval (P1 ++ [b1; b2]) = (bval P + cy) * 65536 + b1 * 256 + b2). { rewrite bval_app, B1. cbn [bval fold_left length]. change (256 ^ Z.of_nat 2) with 65536. lia. }
    rewrite BV. change 256 with (2 ^ 8) at 2 4. rewrite <- Z.pow_mul_r by lia. replace (8 * Z.of_nat j) with (11 + (8 * Z.of_nat j - 11)) by lia. rewrite (Z.pow_add_r 2 11) by lia.
    replace (8 * Z.of_nat K - 16 - n) with (e_ct e + (8 * Z.of_nat j - 11)) by lia. rewrite (Z.pow_add_r 2 (e_ct e)) by lia. rewrite !Z.mul_assoc.
    assert (PJ : 0 < 2 ^ (8 * Z.of_nat j - 11)) by (apply Z.pow_pos_nonneg; lia).
    assert (VV : ((bval P + cy) * 65536 + b1 * 256 + b2) * 2 ^ 11 = (L + (c1 - e_c e)) * 2 ^ e_ct e).
    { transitivity (bval P * 2 ^ 27 + x); [lia|]. rewrite HL. unfold x. replace (bval P * 2 ^ (27 - e_ct e) + e_c e + (c1 - e_c e)) with (bval P * 2 ^ (27 - e_ct e) + c1) by lia. rewrite Z.mul_add_distr_r, <- Z.mul_assoc, <- Z.pow_add_r by lia. replace (27 - e_ct e + e_ct e) with 27 by lia. reflexivity. }
    rewrite VV. split; [apply Z.mul_le_mono_nonneg_r; [lia|]; apply Z.mul_le_mono_nonneg_r; lia|apply Z.mul_lt_mono_pos_r; [lia|]; apply Z.mul_lt_mono_pos_r; lia]. }
  destruct (Z.eqb_spec ((b1 * 256 + b2) * 2 ^ 11) 0) as [E|E]; cbn [negb].
  - exists S. split; [exact O|]. split; [exact F|]. apply GOAL; [exact F|]. intros i. assert (b1 = 0) as -> by lia. assert (b2 = 0) as -> by lia. rewrite EP. change [0; 0] with (zeros 2). rewrite !nth_zeros_tail. reflexivity.
  - assert (ST : forall b, 0 <= b <= 255 -> map u8 (if b =? 255 then [b; 0] else [b]) = stuff [b]).
    { intros b Hb. unfold stuff. cbn [flat_map]. rewrite app_nil_r. destruct (Z.eqb_spec b 255) as [->|]; [reflexivity|]. cbn [map]. rewrite u8_id by lia. reflexivity. }
    destruct (Z.eqb_spec (b2 * 2 ^ 11) 0) as [E2|E2]; cbn [negb].
    + rewrite emit_out, (flush_spec e1 S ZC O), (ST b1 Hb1), <- stuff_app. eexists. split; [reflexivity|]. rewrite <- EP.
      assert (FB : Forall byte (P1 ++ [b1])). { apply Forall_app. split; [rewrite EP; apply Forall_app; split; [exact F|apply bytes_zeros]|]. constructor; [exact Hb1|constructor]. }
      split; [exact FB|]. apply GOAL; [exact FB|]. intros i. assert (b2 = 0) as -> by lia. change [b1; 0] with ([b1] ++ zeros 1). rewrite app_assoc, nth_zeros_tail. reflexivity.
    + rewrite !emit_out, (flush_spec e1 S ZC O), (ST b1 Hb1), (ST b2 Hb2), <- !stuff_app. eexists. split; [reflexivity|]. rewrite <- EP, <- app_assoc. cbn [app].
      assert (FB : Forall byte (P1 ++ [b1; b2])). { apply Forall_app. split; [rewrite EP; apply Forall_app; split; [exact F|apply bytes_zeros]|]. constructor; [exact Hb1|]. constructor; [exact Hb2|constructor]. }
      split; [exact FB|]. apply GOAL; [exact FB|]. intros i. reflexivity.
Qed.
