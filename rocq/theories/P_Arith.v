(* P_Arith.v *)
From Verif Require Import Base M_Arith P_Trellis.

Definition byte (b : Z) : Prop := 0 <= b <= 255.
Definition stuff (l : list Z) : list Z := flat_map (fun b => if b =? 255 then [255; 0] else [b]) l.
Definition zeros (n : Z) : list Z := repeat 0 (Z.to_nat n).
Definition effs (n : Z) : list Z := repeat 255 (Z.to_nat n).
Definition bval (l : list Z) : Z := fold_left (fun a b => a * 256 + b) l 0.
Notation len l := (Z.of_nat (length l)).

Lemma fold_acc : forall l a, fold_left (fun a b => a * 256 + b) l a = a * 256 ^ len l + bval l.
Proof.
  unfold bval. induction l as [|x l IH]; intros a; [cbn; lia|]. cbn [fold_left length]. rewrite IH, (IH (0 * 256 + x)). replace (Z.of_nat (S (length l))) with (Z.succ (len l)) by lia. rewrite Z.pow_succ_r by lia. ring.
Qed.
Lemma bval_app l1 l2 : bval (l1 ++ l2) = bval l1 * 256 ^ len l2 + bval l2.
Proof. unfold bval at 1. rewrite fold_left_app. apply fold_acc. Qed.
Lemma bval_snoc l x : bval (l ++ [x]) = bval l * 256 + x.
Proof. rewrite bval_app. cbn [length bval fold_left]. change (256 ^ Z.of_nat 1) with 256. lia. Qed.
Lemma bval_zeros n : bval (zeros n) = 0.
Proof. unfold zeros. induction (Z.to_nat n) as [|k IH]; [reflexivity|]. change (repeat 0 (S k)) with ([0] ++ repeat 0 k). rewrite bval_app, IH. cbn [bval fold_left]. lia. Qed.
Lemma len_zeros n : 0 <= n -> len (zeros n) = n.
Proof. intros. unfold zeros. rewrite repeat_length. lia. Qed.
Lemma len_effs n : 0 <= n -> len (effs n) = n.
Proof. intros. unfold effs. rewrite repeat_length. lia. Qed.
Lemma bval_effs n : 0 <= n -> bval (effs n) = 256 ^ n - 1.
Proof.
  intros H. unfold effs. rewrite <- (Z2Nat.id n) at 2 by lia. induction (Z.to_nat n) as [|k IH]; [reflexivity|]. change (repeat 255 (S k)) with ([255] ++ repeat 255 k). rewrite bval_app, IH, repeat_length. cbn [bval fold_left].
  replace (Z.of_nat (S k)) with (Z.succ (Z.of_nat k)) by lia. rewrite Z.pow_succ_r by lia. lia.
Qed.
Lemma stuff_app l1 l2 : stuff (l1 ++ l2) = stuff l1 ++ stuff l2.
Proof. apply flat_map_app. Qed.
Lemma stuff_zeros n : stuff (zeros n) = zeros n.
Proof. unfold zeros. induction (Z.to_nat n) as [|k IH]; [reflexivity|]. cbn [repeat stuff flat_map]. change (0 =? 255) with false. cbn [app]. f_equal. exact IH. Qed.
Lemma stuff_effs n : stuff (effs n) = concat (repeat [255; 0] (Z.to_nat n)).
Proof. unfold effs. induction (Z.to_nat n) as [|k IH]; [reflexivity|]. cbn [repeat stuff flat_map concat]. change (255 =? 255) with true. cbn [app]. f_equal. f_equal. exact IH. Qed.
Lemma map_u8 l : Forall byte l -> map u8 l = l.
Proof. induction 1 as [|x l H F IH]; [reflexivity|]. cbn [map]. rewrite IH. unfold byte in H. rewrite u8_id by lia. reflexivity. Qed.
Lemma bytes_zeros n : Forall byte (zeros n).
Proof. unfold zeros. apply Forall_forall. intros x Hx. apply repeat_spec in Hx. subst. unfold byte. lia. Qed.
Lemma bytes_effs n : Forall byte (effs n).
Proof. unfold effs. apply Forall_forall. intros x Hx. apply repeat_spec in Hx. subst. unfold byte. lia. Qed.
Lemma zeros_snoc n : 0 <= n -> zeros n ++ [0] = zeros (n + 1).
Proof. intros H. unfold zeros. replace (Z.to_nat (n + 1)) with (Z.to_nat n + 1)%nat by lia. rewrite repeat_app. reflexivity. Qed.
Lemma effs_snoc n : 0 <= n -> effs n ++ [255] = effs (n + 1).
Proof. intros H. unfold effs. replace (Z.to_nat (n + 1)) with (Z.to_nat n + 1)%nat by lia. rewrite repeat_app. reflexivity. Qed.

(* ---- pending bytes ---- *)
Definition bufl (b : Z) : list Z := if b <? 0 then [] else [b].
Definition Rep (e : estate) (P : list Z) : Prop :=
  -1 <= e_buf e <= 254 /\ 0 <= e_zc e /\ 0 <= e_sc e /\
  exists S, e_out e = stuff S /\ Forall byte S /\ (e_buf e = -1 -> e_zc e = 0 /\ S = []) /\ P = S ++ zeros (e_zc e) ++ bufl (e_buf e) ++ effs (e_sc e).
(* buffer and stack consumed *)
Definition Rep0 (e : estate) (P : list Z) : Prop :=
  0 <= e_zc e /\ e_sc e = 0 /\ exists S, e_out e = stuff S /\ Forall byte S /\ P = S ++ zeros (e_zc e).

Lemma flush_spec e S : 0 <= e_zc e -> e_out e = stuff S -> e_out (flush_zc e) = stuff (S ++ zeros (e_zc e)).
Proof.
  intros H E. unfold flush_zc, emit. cbn [e_out e_c e_a e_sc e_zc e_ct e_buf]. rewrite map_u8 by apply bytes_zeros. rewrite E, stuff_app, stuff_zeros. reflexivity.
Qed.
Lemma flush_fields e : e_c (flush_zc e) = e_c e /\ e_a (flush_zc e) = e_a e /\ e_sc (flush_zc e) = e_sc e /\ e_zc (flush_zc e) = 0 /\ e_ct (flush_zc e) = e_ct e /\ e_buf (flush_zc e) = e_buf e.
Proof. unfold flush_zc, emit. cbn [e_out e_c e_a e_sc e_zc e_ct e_buf]. auto 10. Qed.

Lemma emit_out e l : e_out (emit e l) = e_out e ++ map u8 l. Proof. reflexivity. Qed.
Lemma emit_zc e l : e_zc (emit e l) = e_zc e. Proof. reflexivity. Qed.
Lemma emit_sc e l : e_sc (emit e l) = e_sc e. Proof. reflexivity. Qed.
Lemma emit_buf e l : e_buf (emit e l) = e_buf e. Proof. reflexivity. Qed.
Lemma flush_zc0 e : e_zc (flush_zc e) = 0. Proof. reflexivity. Qed.
Lemma flush_sc e : e_sc (flush_zc e) = e_sc e. Proof. reflexivity. Qed.
Lemma flush_buf e : e_buf (flush_zc e) = e_buf e. Proof. reflexivity. Qed.
Lemma carry_fields e : e_c (carry e) = e_c e /\ e_a (carry e) = e_a e /\ e_ct (carry e) = e_ct e.
Proof. unfold carry. destruct (0 <=? e_buf e); [cbv zeta; destruct (_ =? 255)|]; split; try split; reflexivity. Qed.
Lemma no_carry_fields e : e_c (no_carry e) = e_c e /\ e_a (no_carry e) = e_a e /\ e_ct (no_carry e) = e_ct e.
Proof. unfold no_carry. cbv zeta. destruct (e_buf e =? 0); [|destruct (0 <=? e_buf e)]; match goal with |- context [if e_sc ?x =? 0 then _ else _] => destruct (e_sc x =? 0) end; split; try split; reflexivity. Qed.

Lemma carry_rep e P : Rep e P -> 0 <= e_buf e -> exists P', Rep0 (carry e) P' /\ bval P' = bval P + 1 /\ len P' = len P.
Proof.
  intros (B & ZC & SC & S & O & F & N & ->) HB. unfold bufl. destruct (Z.ltb_spec (e_buf e) 0); [lia|].
  exists ((S ++ zeros (e_zc e) ++ [e_buf e + 1]) ++ zeros (e_sc e)). split; [|split].
  - unfold carry. destruct (Z.leb_spec 0 (e_buf e)); [|lia]. cbv zeta.
    set (e1 := if _ =? 255 then _ else _).
    assert (OO : e_out e1 = stuff (S ++ zeros (e_zc e) ++ [e_buf e + 1]) /\ e_zc e1 = 0 /\ e_sc e1 = e_sc e).
    { unfold e1. rewrite app_assoc, stuff_app, <- (flush_spec e S ZC O). rewrite emit_buf, flush_buf. unfold stuff. cbn [flat_map]. rewrite app_nil_r.
      destruct (Z.eqb_spec (e_buf e + 1) 255) as [E|E]; rewrite ?emit_out, ?emit_zc, ?emit_sc, flush_zc0, flush_sc; (split; [|split; reflexivity]); cbn [map]; rewrite !u8_id by lia; [rewrite E, <- app_assoc; reflexivity|reflexivity]. }
    clearbody e1. destruct OO as (O1 & O2 & O3). split; [|split; [reflexivity|]].
    + cbn [e_zc]. lia.
    + exists (S ++ zeros (e_zc e) ++ [e_buf e + 1]). cbn [e_out e_zc]. split; [exact O1|]. split; [apply Forall_app; split; [exact F|]; apply Forall_app; split; [apply bytes_zeros|]; constructor; [unfold byte; lia|constructor]|].
      rewrite O2, O3. reflexivity.
  - rewrite !bval_app, !app_length, !Nat2Z.inj_add, !len_effs, !len_zeros, !bval_zeros, bval_effs by lia. cbn [length bval fold_left]. change (256 ^ Z.of_nat 1) with 256. rewrite !Z.pow_add_r by lia. change (256 ^ Z.of_nat 1) with 256. ring.
  - rewrite !app_length. rewrite !Nat2Z.inj_add, !len_zeros, !len_effs by lia. cbn [length]. lia.
Qed.
Lemma no_carry_rep e P : Rep e P -> Rep0 (no_carry e) P.
Proof.
  intros (B & ZC & SC & S & O & F & N & ->). unfold no_carry, bufl.
  set (e1 := if e_buf e =? 0 then _ else _).
  assert (A : exists S1, e_out e1 = stuff S1 /\ Forall byte S1 /\ 0 <= e_zc e1 /\ e_sc e1 = e_sc e /\ S1 ++ zeros (e_zc e1) = S ++ zeros (e_zc e) ++ (if e_buf e <? 0 then [] else [e_buf e])).
  { unfold e1. destruct (Z.eqb_spec (e_buf e) 0) as [E|E].
    - exists S. cbn [e_out e_zc e_sc]. split; [exact O|]. split; [exact F|]. split; [lia|]. split; [reflexivity|]. rewrite E. cbn [Z.ltb Z.compare]. rewrite zeros_snoc by lia. reflexivity.
    - destruct (Z.leb_spec 0 (e_buf e)) as [G|G].
      + destruct (Z.ltb_spec (e_buf e) 0); [lia|]. exists (S ++ zeros (e_zc e) ++ [e_buf e]). split; [|split; [|split; [|split]]].
        * rewrite !app_assoc, stuff_app, <- (flush_spec e S ZC O). unfold emit. cbn [e_out map]. rewrite u8_id by lia. cbn [stuff flat_map]. destruct (Z.eqb_spec (e_buf e) 255); [lia|]. reflexivity.
        * apply Forall_app; split; [exact F|]; apply Forall_app; split; [apply bytes_zeros|]; constructor; [unfold byte; lia|constructor].
        * unfold emit; cbn [e_zc flush_zc]; lia.
        * reflexivity.
        * unfold emit; cbn [e_zc flush_zc]. unfold zeros at 2. cbn [Z.to_nat repeat]. rewrite app_nil_r. reflexivity.
      + destruct (Z.ltb_spec (e_buf e) 0); [|lia]. exists S. split; [exact O|]. split; [exact F|]. split; [exact ZC|]. split; [reflexivity|]. rewrite app_nil_r. reflexivity. }
  clearbody e1. destruct A as (S1 & O1 & F1 & Z1 & SC1 & E1). destruct (Z.eqb_spec (e_sc e1) 0) as [E|E].
  - split; [exact Z1|]. split; [exact E|]. exists S1. split; [exact O1|]. split; [exact F1|]. rewrite E1. assert (e_sc e = 0) as -> by lia. unfold effs. cbn [Z.to_nat repeat]. rewrite app_nil_r. reflexivity.
  - split; [cbn [e_zc emit flush_zc]; lia|]. split; [reflexivity|]. exists ((S1 ++ zeros (e_zc e1)) ++ effs (e_sc e)). cbn [e_out e_zc emit flush_zc]. split; [|split].
    + rewrite stuff_app, <- (flush_spec e1 S1 Z1 O1), stuff_effs. cbn [e_sc]. rewrite SC1. cbn [e_out flush_zc emit]. f_equal. apply map_u8. rewrite <- stuff_effs. clear. unfold stuff, effs. induction (Z.to_nat (e_sc e)) as [|k IH]; [constructor|]. cbn [repeat flat_map]. change (255 =? 255) with true. cbn [app]. constructor; [unfold byte; lia|]. constructor; [unfold byte; lia|exact IH].
    + apply Forall_app. split; [apply Forall_app; split; [exact F1|apply bytes_zeros]|apply bytes_effs].
    + change (zeros 0) with (@nil Z). rewrite app_nil_r, E1, <- !app_assoc. reflexivity.
Qed.
Lemma rep0_buf e P t c a ct : Rep0 e P -> 0 <= t <= 254 -> Rep (mkE c a (e_sc e) (e_zc e) ct t (e_out e)) (P ++ [t]).
Proof.
  intros (ZC & SC & S & O & F & ->) Ht. unfold Rep. cbn [e_buf e_zc e_sc e_out]. rewrite SC. split; [lia|]. split; [exact ZC|]. split; [lia|]. exists S. split; [exact O|]. split; [exact F|]. split; [lia|].
  unfold bufl, effs. destruct (Z.ltb_spec t 0); [lia|]. cbn [Z.to_nat repeat]. rewrite app_nil_r, app_assoc. reflexivity.
Qed.

(* ---- the encoder registers represent the low end of the interval ---- *)
Definition EInv (e : estate) (L n : Z) : Prop :=
  exists P, Rep e P /\ L = bval P * 2 ^ (27 - e_ct e) + e_c e /\ n = 8 * len P + 11 - e_ct e /\
    0 <= e_c e /\ 1 <= e_ct e <= 11 /\ (e_c e + e_a e) * 2 ^ e_ct e <= 2 ^ 27 + 2 ^ 24 /\ L + e_a e <= 2 ^ (16 + n) /\ 1 <= e_a e <= 65536.

Lemma byte_out_ok e P L n : Rep e P -> e_ct e = 0 -> L = bval P * 2 ^ 27 + e_c e -> n = 8 * len P + 11 -> 0 <= e_c e -> e_c e + e_a e <= 2 ^ 27 + 2 ^ 24 -> L + e_a e <= 2 ^ (16 + n) -> 1 <= e_a e <= 65536 ->
  EInv (byte_out e) L n /\ e_a (byte_out e) = e_a e.
Proof.
  intros HR CT HL Hn HC HB HLA HA. unfold byte_out. rewrite Z.shiftr_div_pow2 by lia. set (t := e_c e / 2 ^ 19). pose proof (Z.div_mod (e_c e) (2 ^ 19) ltac:(lia)) as D1. pose proof (Z.mod_pos_bound (e_c e) (2 ^ 19) ltac:(lia)) as D2. fold t in D1.
  assert (MASK : Z.land (e_c e) 524287 = e_c e mod 2 ^ 19) by (change 524287 with (Z.ones 19); apply Z.land_ones; lia).
  assert (FIN : forall e' P', Rep e' P' -> bval P' = bval P * 256 + t -> len P' = len P + 1 -> e_c e' = e_c e -> e_a e' = e_a e -> e_ct e' = 0 ->
     EInv (mkE (Z.land (e_c e') 524287) (e_a e') (e_sc e') (e_zc e') (e_ct e' + 8) (e_buf e') (e_out e')) L n).
  { intros e' P' R' B' L' C' A' CT'. exists P'. cbn [e_c e_a e_sc e_zc e_ct e_buf e_out]. rewrite C', MASK, A', CT'. change (27 - (0 + 8)) with 19. change (0 + 8) with 8. split; [exact R'|]. split; [rewrite B', HL; lia|]. split; [lia|]. split; [lia|]. split; [lia|]. split; [lia|]. split; [exact HLA|exact HA]. }
  destruct (Z.ltb_spec 255 t) as [G|G]; [|destruct (Z.eqb_spec t 255) as [G2|G2]].
  - destruct (carry_fields e) as (F1 & F2 & F3). split; [|cbn [e_a]; exact F2].
    assert (HBUF : 0 <= e_buf e).
    { destruct HR as (B & ZC & SC & S & O & F & N & EP). destruct (Z.lt_ge_cases (e_buf e) 0) as [X|X]; [|exact X]. exfalso. assert (e_buf e = -1) as E1 by lia. destruct (N E1) as [E2 E3]. subst S. rewrite E1, E2 in EP. cbn [bufl zeros Z.to_nat repeat app Z.ltb Z.compare] in EP.
      subst P. rewrite bval_effs in HL by lia. rewrite len_effs in Hn by lia. rewrite Hn, HL in HLA. change 256 with (2 ^ 8) in HLA. rewrite <- Z.pow_mul_r in HLA by lia. replace (16 + (8 * e_sc e + 11)) with (8 * e_sc e + 27) in HLA by lia. rewrite Z.pow_add_r in HLA by lia. lia. }
    destruct (carry_rep e P HR HBUF) as (P1 & R1 & B1 & L1).
    assert (T : Z.land t 255 = t - 256). { change 255 with (Z.ones 8). rewrite Z.land_ones by lia. change (2 ^ 8) with 256. symmetry. apply (Z.mod_unique_pos _ 256 1); lia. }
    apply (FIN (mkE (e_c (carry e)) (e_a (carry e)) (e_sc (carry e)) (e_zc (carry e)) (e_ct (carry e)) (Z.land t 255) (e_out (carry e))) (P1 ++ [Z.land t 255])).
    + apply rep0_buf; [exact R1|lia].
    + rewrite bval_snoc. lia.
    + rewrite app_length. cbn [length]. lia.
    + exact F1.
    + exact F2.
    + cbn [e_ct]. lia.
  - split; [|reflexivity]. destruct HR as (B & ZC & SC & S & O & F & N & EP).
    apply (FIN (mkE (e_c e) (e_a e) (e_sc e + 1) (e_zc e) (e_ct e) (e_buf e) (e_out e)) (P ++ [255])).
    + unfold Rep. cbn [e_buf e_zc e_sc e_out]. split; [exact B|]. split; [exact ZC|]. split; [lia|]. exists S. split; [exact O|]. split; [exact F|]. split; [exact N|]. rewrite EP, <- !app_assoc, effs_snoc by lia. reflexivity.
    + rewrite bval_snoc. lia.
    + rewrite app_length. cbn [length]. lia.
    + reflexivity.
    + reflexivity.
    + exact CT.
  - destruct (no_carry_fields e) as (F1 & F2 & F3). split; [|cbn [e_a]; exact F2]. assert (T0 : 0 <= t) by (apply Z.div_pos; lia).
    assert (T : Z.land t 255 = t). { change 255 with (Z.ones 8). rewrite Z.land_ones by lia. apply Z.mod_small. change (2 ^ 8) with 256. lia. }
    apply (FIN (mkE (e_c (no_carry e)) (e_a (no_carry e)) (e_sc (no_carry e)) (e_zc (no_carry e)) (e_ct (no_carry e)) (Z.land t 255) (e_out (no_carry e))) (P ++ [Z.land t 255])).
    + apply rep0_buf; [apply no_carry_rep; exact HR|lia].
    + rewrite bval_snoc. lia.
    + rewrite app_length. cbn [length]. lia.
    + exact F1.
    + exact F2.
    + cbn [e_ct]. lia.
Qed.

(* ---- interval arithmetic shared by both sides ---- *)
Inductive Inorm : Z -> Z -> Z -> Z -> Z -> Z -> Prop :=
| In_done : forall L a n, 32768 <= a -> Inorm L a n L a n
| In_step : forall L a n L' a' n', a < 32768 -> Inorm (2 * L) (2 * a) (n + 1) L' a' n' -> Inorm L a n L' a' n'.

Lemma e_renorm_ok : forall fuel e L n, EInv e L n -> e_a e < 32768 -> 32768 <= e_a e * 2 ^ Z.of_nat fuel ->
  sat (fun e' => exists L' n', Inorm L (e_a e) n L' (e_a e') n' /\ EInv e' L' n' /\ 32768 <= e_a e') (e_renorm fuel e).
Proof.
  induction fuel as [|fuel IH]; intros e L n (P & HR & HL & Hn & HC & HCT & HB & HLA & HA) LT HF; [cbn in HF; lia|]. cbn [e_renorm]. rewrite !Z.shiftl_mul_pow2 by lia. change (2 ^ 1) with 2.
  set (e1 := mkE (e_c e * 2) (e_a e * 2) (e_sc e) (e_zc e) (e_ct e - 1) (e_buf e) (e_out e)).
  assert (R1 : Rep e1 P) by exact HR.
  assert (P2 : 2 ^ e_ct e = 2 * 2 ^ (e_ct e - 1)). { rewrite <- Z.pow_succ_r by lia. f_equal. lia. }
  assert (P3 : 2 ^ (27 - (e_ct e - 1)) = 2 * 2 ^ (27 - e_ct e)). { rewrite <- Z.pow_succ_r by lia. f_equal. lia. }
  assert (P4 : 2 ^ (16 + (n + 1)) = 2 * 2 ^ (16 + n)). { rewrite <- Z.pow_succ_r; [f_equal; lia|]. pose proof (Zle_0_nat (length P)). lia. }
  assert (Q : exists e2, (if e_ct e1 =? 0 then byte_out e1 else e1) = e2 /\ EInv e2 (2 * L) (n + 1) /\ e_a e2 = e_a e * 2).
  { eexists. split; [reflexivity|]. unfold e1 at 1 4. cbn [e_ct]. destruct (Z.eqb_spec (e_ct e - 1) 0) as [E|E].
    - assert (E1 : e_ct e = 1) by lia. rewrite E1 in *. apply (byte_out_ok e1 P); unfold e1; cbn [e_ct e_c e_a]; try assumption; try lia.
    - split; [|reflexivity]. exists P. change (e_c e1) with (e_c e * 2). change (e_a e1) with (e_a e * 2). change (e_ct e1) with (e_ct e - 1). split; [exact R1|]. split; [rewrite P3, HL; ring|]. split; [lia|]. split; [lia|]. split; [lia|]. split; [rewrite P2 in HB; lia|]. split; [rewrite P4; lia|lia]. }
  destruct Q as (e2 & -> & I2 & A2). destruct (Z.ltb_spec (e_a e2) 32768) as [G|G].
  - assert (2 ^ Z.of_nat (S fuel) = 2 * 2 ^ Z.of_nat fuel) as PF by (rewrite <- Z.pow_succ_r by lia; f_equal; lia).
    eapply sat_imp; [apply (IH e2 (2 * L) (n + 1) I2 G); rewrite A2; rewrite PF in HF; lia|]. intros e' (L' & n' & N1 & N2 & N3). exists L', n'. split; [|split; assumption]. apply In_step; [exact LT|]. replace (2 * e_a e) with (e_a e2) by lia. exact N1.
  - cbn [sat]. exists (2 * L), (n + 1). split; [|split; assumption]. apply In_step; [exact LT|]. rewrite A2. replace (e_a e * 2) with (2 * e_a e) by lia. apply In_done. lia.
Qed.
