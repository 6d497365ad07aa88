(* P_HuffFast.v -- decode_mcu_fast: memory safety and agreement with the reference decoder *)
From Verif Require Import Base M_HuffTbl S_Huff P_HuffTbl P_HuffTblD M_Source M_BitRead S_Stream P_BitRead P_HuffSym M_HuffDec P_HuffDec M_HuffFast.

(* the segment as the fast path sees it: it ends at any FF not followed by 00 *)
Fixpoint fseg (bs : list Z) : list Z :=
  match bs with
  | [] => []
  | b :: r => if b =? 255 then match r with 0 :: r' => 255 :: fseg r' | _ => [] end else b :: fseg r
  end.

(* the fast segment ends inside the buffer, at an FF not followed by 00 *)
Fixpoint fstop (bs : list Z) : bool :=
  match bs with
  | [] => false
  | b :: r => if b =? 255 then match r with [] => false | 0 :: r' => fstop r' | _ => true end else fstop r
  end.

Section Fast.
Variable E : dst sqst.                 (* state on entry *)
Hypothesis E_src : src_ok (dsrc E).
Hypothesis E_unr : unread E = 0.
Variable S : nat -> bool.
Notation buf := (sbuf (dsrc E)).
Notation FS := (dst fsq).
Notation lft s := (Z.to_nat (bleft s)).
Notation fp s := (Z.to_nat (f_pos (ust s))).

Record finv (p : nat) (s : FS) : Prop := mkFinv {
  f_left : 0 <= bleft s <= 64;
  f_bits : bits_of (lft s) (gbuf s) = bits_at S p (lft s);
  f_src : dsrc s = dsrc E;
  f_ins : insuff s = insuff E;
  f_wrn : warns s = warns E;
  f_p0 : 0 <= f_pos (ust s);
  f_pl : (fp s <= length buf)%nat;
  f_pb : (4 * fp s <= p + lft s)%nat;
  f_rest : forall i, S (p + lft s + i)%nat = nth i (bytes_to_bits (fseg (skipn (fp s) buf))) false;
  f_stop : fstop buf = fstop (skipn (fp s) buf);
  f_unr : unread s <> 0 -> fstop buf = true;
  f_ok : unread s = 0 ->
         abits E = bits_at S 0 p ++ bits_at S p (lft s) ++
                   bytes_to_bits (fst (seg (ssusp (dsrc E)) false (skipn (fp s) (src_bytes (dsrc E))))) /\
         tail E = snd (seg (ssusp (dsrc E)) false (skipn (fp s) (src_bytes (dsrc E))))
}.

Lemma skipn_S {A} (l : list A) n d : (n < length l)%nat -> skipn n l = nth n l d :: skipn (Datatypes.S n) l.
Proof. revert n; induction l as [|x l IH]; intros [|n] H; cbn in *; try lia; auto. apply IH. lia. Qed.

Lemma buf_byte i : (i < length buf)%nat -> byte (nth i buf 0).
Proof.
  intros H. destruct E_src as [F _]. unfold src_bytes in F. apply Forall_app in F. destruct F as [F _].
  rewrite Forall_forall in F. apply F. now apply nth_In.
Qed.

Lemma src_nth i : (i < length buf)%nat -> nth i (src_bytes (dsrc E)) 0 = nth i buf 0.
Proof. intros. unfold src_bytes. now rewrite app_nth1. Qed.

Lemma bits_of_zero_low n v : (8 <= n <= 64)%nat ->
  bits_of n (Z.ldiff (u64 (Z.lor (Z.shiftl v 8) 255)) 255) = bits_of (n - 8) v ++ bits_of 8 0.
Proof.
  intros Hn. replace n with ((n - 8) + 8)%nat at 1 by lia. rewrite bits_of_app. f_equal; apply bits_of_ext; intros i Hi.
  - rewrite Z.shiftr_spec by lia. rewrite Z.ldiff_spec. unfold u64. rewrite Z.mod_pow2_bits_low by lia.
    rewrite Z.lor_spec, Z.shiftl_spec by lia. change 255 with (Z.ones 8). rewrite Z.ones_spec_high by lia.
    rewrite orb_false_r. cbn [negb]. rewrite andb_true_r. f_equal. lia.
  - rewrite Z.ldiff_spec, Z.bits_0. change 255 with (Z.ones 8) at 2. rewrite Z.ones_spec_low by lia.
    cbn [negb]. apply andb_false_r.
Qed.

Lemma nth_bits8 b r i : nth i (bits_of 8 b ++ r) false =
  if (i <? 8)%nat then nth i (bits_of 8 b) false else nth (i - 8) r false.
Proof.
  destruct (Nat.ltb_spec i 8).
  - rewrite app_nth1 by (rewrite length_bits_of; lia). reflexivity.
  - rewrite app_nth2 by (rewrite length_bits_of; lia). now rewrite length_bits_of.
Qed.

Lemma bits_at_eq (T : nat -> bool) p l : (forall i, (i < length l)%nat -> T (p + i)%nat = nth i l false) ->
  bits_at T p (length l) = l.
Proof.
  intros H. apply list_nth_ext; rewrite length_bits_at; auto. intros i Hi. rewrite bits_at_nth by auto. auto.
Qed.

(* loading one byte b *)
Lemma load_bits p (s : FS) b r gb : finv p s -> bleft s <= 56 ->
  (forall i, S (p + lft s + i)%nat = nth i (bits_of 8 b ++ r) false) ->
  bits_of (lft s + 8) gb = bits_of (lft s) (gbuf s) ++ bits_of 8 b ->
  bits_of (Z.to_nat (bleft s + 8)) gb = bits_at S p (Z.to_nat (bleft s + 8)) /\
  bits_at S p (Z.to_nat (bleft s + 8)) = bits_at S p (lft s) ++ bits_of 8 b /\
  (forall i, S (p + Z.to_nat (bleft s + 8) + i)%nat = nth i r false).
Proof.
  intros I Hl HS HG. pose proof (f_left _ _ I). replace (Z.to_nat (bleft s + 8)) with (lft s + 8)%nat by lia.
  assert (H8 : bits_at S (p + lft s) 8 = bits_of 8 b).
  { change 8%nat with (length (bits_of 8 b)) at 1. apply bits_at_eq. rewrite length_bits_of. intros i Hi. rewrite HS, nth_bits8.
    destruct (Nat.ltb_spec i 8); [reflexivity|lia]. }
  rewrite bits_at_app, H8. split; [rewrite HG, (f_bits _ _ I); reflexivity|]. split; [reflexivity|].
  intros i. replace (p + (lft s + 8) + i)%nat with (p + lft s + (8 + i))%nat by lia.
  rewrite HS, nth_bits8. destruct (Nat.ltb_spec (8 + i) 8); [lia|]. f_equal. lia.
Qed.

Lemma GET_BYTE_spec p (s : FS) : finv p s -> bleft s <= 56 -> (fp s + 1 < length buf)%nat ->
  wp GET_BYTE s (fun _ s' => finv p s' /\ bleft s' = bleft s + 8 /\ (fp s' <= fp s + 2)%nat /\
                  f_sq (ust s') = f_sq (ust s)) (fun _ => False).
Proof.
  intros I Hl Hp. pose proof (f_left _ _ I) as HL. pose proof (f_p0 _ _ I) as H0. pose proof (f_pb _ _ I) as Hb.
  pose proof (f_rest _ _ I) as HR. pose proof (f_ok _ _ I) as HO. pose proof (f_stop _ _ I) as HST.
  unfold wp, GET_BYTE. rewrite (f_src _ _ I). rewrite !(aget_nth buf _ 0) by lia.
  replace (Z.to_nat (f_pos (ust s) + 1)) with (Datatypes.S (fp s)) by lia.
  pose proof (buf_byte (fp s) ltac:(lia)) as B0. pose proof (buf_byte (Datatypes.S (fp s)) ltac:(lia)) as B1.
  rewrite (skipn_S buf (fp s) 0) in HR by lia. rewrite (skipn_S buf (Datatypes.S (fp s)) 0) in HR by lia.
  rewrite (skipn_S buf (fp s) 0) in HST by lia. rewrite (skipn_S buf (Datatypes.S (fp s)) 0) in HST by lia.
  assert (Hsl : (length buf <= length (src_bytes (dsrc E)))%nat) by (unfold src_bytes; rewrite app_length; lia).
  rewrite (skipn_S (src_bytes (dsrc E)) (fp s) 0) in HO by lia.
  rewrite (skipn_S (src_bytes (dsrc E)) (Datatypes.S (fp s)) 0) in HO by lia.
  rewrite !src_nth in HO by lia.
  set (c0 := nth (fp s) buf 0) in *. set (c1 := nth (Datatypes.S (fp s)) buf 0) in *.
  destruct (Z.eqb_spec c0 255) as [E0|E0].
  - destruct (Z.eqb_spec c1 0) as [E1|E1]; cbn [negb].
    + (* FF 00 *)
      cbn [fseg] in HR. rewrite E0, E1 in HR. cbn [Z.eqb Pos.eqb bytes_to_bits] in HR.
      destruct (load_bits p s 255 _ (u64 (Z.lor (Z.shiftl (gbuf s) 8) c0)) I Hl HR) as (G1 & G2 & G3).
      { rewrite E0. rewrite bits_of_load by lia. f_equal. f_equal. lia. }
      split; [|split; [reflexivity|split; [cbn [ust f_pos]; lia|reflexivity]]].
      assert (Ef : Z.to_nat (f_pos (ust s) + 1 + 1) = Datatypes.S (Datatypes.S (fp s))) by lia.
      constructor; cbn [bleft gbuf dsrc unread insuff warns ust f_pos]; try lia; auto; try apply I.
      * rewrite Ef. exact G3.
      * rewrite Ef, HST, E0, E1. reflexivity.
      * intros Hu. destruct (HO Hu) as [O1 O2]. rewrite Ef, G2, O1, O2.
        rewrite E0, E1. cbn [seg Z.eqb Pos.eqb].
        destruct (seg _ false (skipn (Datatypes.S (Datatypes.S (fp s))) (src_bytes (dsrc E)))) as [dd tt'].
        cbn [fst snd bytes_to_bits]. rewrite <- !app_assoc. auto.
    + (* marker *)
      cbn [fseg] in HR. rewrite E0 in HR. cbn [Z.eqb Pos.eqb] in HR.
      assert (HZ : forall i, S (p + lft s + i)%nat = false).
      { intros i. rewrite HR. destruct c1; [congruence| |]; cbn [bytes_to_bits]; destruct i; reflexivity. }
      assert (HZ' : forall i, S (p + lft s + i)%nat = nth i (bits_of 8 0 ++ []) false).
      { intros i. rewrite HZ, app_nil_r. do 8 (destruct i; [reflexivity|]). destruct i; reflexivity. }
      destruct (load_bits p s 0 _ (Z.ldiff (u64 (Z.lor (Z.shiftl (gbuf s) 8) c0)) 255) I Hl HZ') as (G1 & G2 & G3).
      { rewrite E0. rewrite bits_of_zero_low by lia. f_equal. f_equal. lia. }
      split; [|split; [reflexivity|split; [cbn [ust f_pos]; lia|reflexivity]]].
      assert (Ef : Z.to_nat (f_pos (ust s) + 1 + 1 - 2) = fp s) by lia.
      constructor; cbn [bleft gbuf dsrc unread insuff warns ust f_pos]; try lia; auto; try apply I.
      2:{ rewrite Ef. apply I. }
      2:{ intros _. rewrite HST, E0. cbn [fstop Z.eqb Pos.eqb]. destruct c1; [congruence| |]; reflexivity. }
      intros i. rewrite G3, Ef. rewrite (skipn_S buf (fp s) 0) by lia. rewrite (skipn_S buf (Datatypes.S (fp s)) 0) by lia.
      fold c0 c1. cbn [fseg]. rewrite E0. cbn [Z.eqb Pos.eqb]. destruct c1; [congruence| |]; cbn [bytes_to_bits]; destruct i; reflexivity.
  - (* plain byte *)
    cbn [fseg] in HR. rewrite (proj2 (Z.eqb_neq c0 255) E0) in HR. cbn [bytes_to_bits] in HR.
    destruct (load_bits p s c0 _ (u64 (Z.lor (Z.shiftl (gbuf s) 8) c0)) I Hl HR) as (G1 & G2 & G3).
    { rewrite bits_of_load by (unfold byte in B0; lia). f_equal. f_equal. lia. }
    split; [|split; [reflexivity|split; [cbn [ust f_pos]; lia|reflexivity]]].
    assert (Ef : Z.to_nat (f_pos (ust s) + 1) = Datatypes.S (fp s)) by lia.
    constructor; cbn [bleft gbuf dsrc unread insuff warns ust f_pos]; try lia; auto; try apply I.
    + rewrite Ef. rewrite (skipn_S buf (Datatypes.S (fp s)) 0) by lia. exact G3.
    + rewrite Ef, HST. cbn [fstop]. rewrite (proj2 (Z.eqb_neq c0 255) E0).
      rewrite (skipn_S buf (Datatypes.S (fp s)) 0) by lia. reflexivity.
    + intros Hu. destruct (HO Hu) as [O1 O2]. rewrite Ef, G2, O1, O2.
      rewrite (skipn_S (src_bytes (dsrc E)) (Datatypes.S (fp s)) 0) by lia. rewrite src_nth by lia. fold c1.
      cbn [seg]. rewrite (proj2 (Z.eqb_neq c0 255) E0).
      fold (seg (ssusp (dsrc E)) false).
      change (if c1 =? 255 then seg (ssusp (dsrc E)) true (skipn (Datatypes.S (Datatypes.S (fp s))) (src_bytes (dsrc E)))
              else let '(d, t) := seg (ssusp (dsrc E)) false (skipn (Datatypes.S (Datatypes.S (fp s))) (src_bytes (dsrc E))) in (c1 :: d, t))
        with (seg (ssusp (dsrc E)) false (c1 :: skipn (Datatypes.S (Datatypes.S (fp s))) (src_bytes (dsrc E)))).
      destruct (seg _ false (c1 :: _)) as [dd tt'].
      cbn [fst snd bytes_to_bits]. rewrite <- !app_assoc. auto.
Qed.

(* room left at position p: enough buffer for one more fill *)
Definition room (p : nat) : Prop := (p + 64 < 4 * length buf)%nat.

Lemma FILL_spec p (s : FS) : finv p s -> room p ->
  wp FILL_BIT_BUFFER_FAST s (fun _ s' => finv p s' /\ 17 <= bleft s' /\ f_sq (ust s') = f_sq (ust s)) (fun _ => False).
Proof.
  intros I HR. unfold room in HR. unfold FILL_BIT_BUFFER_FAST. apply wp_bind. unfold wp at 1, dbits_left. cbn beta.
  pose proof (f_left _ _ I) as HL. pose proof (f_pb _ _ I) as HB.
  destruct (Z.leb_spec (bleft s) 16).
  2:{ unfold wp, dret. split; auto. split; auto. lia. }
  assert (G : forall (n : nat) (s1 : FS), finv p s1 -> f_sq (ust s1) = f_sq (ust s) -> bleft s1 + 8 <= 64 ->
      (fp s1 + 1 < length buf)%nat ->
      wp GET_BYTE s1 (fun _ s' => finv p s' /\ f_sq (ust s') = f_sq (ust s) /\ bleft s' = bleft s1 + 8 /\ (fp s' <= fp s1 + 2)%nat) (fun _ => False)).
  { intros n s1 I1 U1 L1 P1. eapply wp_mono; [apply GET_BYTE_spec; eauto; lia| |intros ? []].
    cbn beta. intros _ s2 (A & B & C & D). split; auto. split; [congruence|]. auto. }
  do 5 (apply wp_bind; eapply wp_mono; [apply (G 0%nat); eauto; lia| |intros ? []]; cbn beta;
        let s1 := fresh "s" in intros _ s1 (? & ? & ? & ?)).
  eapply wp_mono; [apply (G 0%nat); eauto; lia| |intros ? []].
  cbn beta. intros _ s6 (? & ? & ? & ?). split; auto. split; [lia|auto].
Qed.

Lemma fbits_peek p n (s : FS) : finv p s -> (n <= lft s)%nat ->
  Z.land (Z.shiftr (gbuf s) (bleft s - Z.of_nat n)) (2 ^ Z.of_nat n - 1) = bval (bits_at S p n).
Proof.
  intros I Hn. pose proof (f_left _ _ I). pose proof (bits_of_land n (lft s) (gbuf s) Hn) as HL.
  rewrite Z2Nat.id in HL by lia. rewrite HL, (f_bits _ _ I). f_equal.
  replace (lft s) with (n + (lft s - n))%nat by lia. rewrite bits_at_app, firstn_app, length_bits_at, Nat.sub_diag.
  cbn [firstn]. rewrite app_nil_r. apply firstn_all2. rewrite length_bits_at. lia.
Qed.

Lemma finv_drop p n (s : FS) : finv p s -> Z.of_nat n <= bleft s ->
  finv (p + n) (mkD (gbuf s) (bleft s - Z.of_nat n) (dsrc s) (unread s) (insuff s) (warns s) (ust s)).
Proof.
  intros I Hn. pose proof (f_left _ _ I) as HL. pose proof (f_pb _ _ I) as HB.
  assert (EL : Z.to_nat (bleft s - Z.of_nat n) = (lft s - n)%nat) by lia.
  constructor; cbn [bleft gbuf dsrc unread insuff warns ust]; try apply I; try lia.
  - rewrite EL. pose proof (f_bits _ _ I) as F. apply (f_equal (skipn n)) in F. rewrite skipn_bits_of in F by lia.
    rewrite F. replace (lft s) with (n + (lft s - n))%nat at 1 by lia. rewrite bits_at_app, skipn_app, length_bits_at, Nat.sub_diag.
    cbn [skipn]. rewrite skipn_all2 by (rewrite length_bits_at; lia). reflexivity.
  - intros i. rewrite EL. replace (p + n + (lft s - n) + i)%nat with (p + lft s + i)%nat by lia. apply I.
  - intros Hu. destruct (f_ok _ _ I Hu) as [O1 O2]. split; auto. rewrite O1, EL. rewrite (bits_at_app S 0 p n).
    replace (lft s) with (n + (lft s - n))%nat at 1 by lia. rewrite bits_at_app. rewrite <- !app_assoc. reflexivity.
Qed.

Lemma finv_sq p (s : FS) sq : finv p s ->
  finv p (mkD (gbuf s) (bleft s) (dsrc s) (unread s) (insuff s) (warns s) (mkFs sq (f_pos (ust s)))).
Proof. intros I. constructor; cbn [bleft gbuf dsrc unread insuff warns ust f_pos]; apply I. Qed.

Lemma fget_spec p n (s : FS) : finv p s -> Z.of_nat n <= bleft s -> (1 <= n <= 30)%nat ->
  wp (get_bits (Z.of_nat n)) s (fun v s' => v = bval (bits_at S p n) /\ finv (p + n) s' /\ ust s' = ust s /\
                                  bleft s' = bleft s - Z.of_nat n) (fun _ => False).
Proof.
  intros I Hn Hr. unfold wp, get_bits. pose proof (f_left _ _ I) as Hl.
  destruct (Z.ltb_spec (Z.of_nat n) 0); [lia|]. destruct (Z.ltb_spec 30 (Z.of_nat n)); [lia|].
  destruct (Z.ltb_spec (bleft s - Z.of_nat n) 0); [lia|]. destruct (Z.ltb_spec 63 (bleft s - Z.of_nat n)); [lia|].
  cbn [orb]. split; [apply fbits_peek; auto; lia|]. split; [apply finv_drop; auto|]. split; reflexivity.
Qed.

Section Tbl.
Variable t : JHUFF_TBL.
Variable d : d_derived_tbl.
Hypothesis Ht : huff_type_ok t = true.
Hypothesis Hc : code_space_ok (hbits t).
Hypothesis Hd : d_inv t d.
Let bits := hbits t.
Let sz := code_sizes bits.

Lemma fast_loop_spec p : forall fuel l (s : FS),
  (9 <= l <= 17)%nat -> (17 - l < fuel)%nat -> finv (p + l) s -> 17 - Z.of_nat l <= bleft s ->
  kraft (csz bits (l - 1)) <= win S p ->
  wp (fast_loop fuel d (Z.of_nat l) (bval (bits_at S p l))) s
     (fun lc s' => ust s' = ust s /\
        match code_at bits S p with
        | Some k => lc = (Z.of_nat (nth k sz 0%nat), bval (bits_at S p (nth k sz 0%nat))) /\
                    (k < length sz)%nat /\ finv (p + nth k sz 0)%nat s'
        | None => fst lc = 17 /\ finv (p + 17) s'
        end) (fun _ => False).
Proof.
  destruct Hd as (D1 & D2 & D3 & D4 & D5 & D6 & D7).
  induction fuel as [|f IH]; intros l s Hl Hf I HL HW; [lia|]. cbn [fast_loop].
  apply wp_bind.
  destruct (Nat.eq_dec l 17) as [->|Hne].
  - eapply wp_lift; [apply (tget_ok (maxcode d) 17); [exact D5|lia]|]. cbn beta.
    pose proof (bval_range (bits_at S p 17)) as R. rewrite length_bits_at in R.
    destruct (Z.ltb_spec 1048575 (bval (bits_at S p 17))); [change (2 ^ Z.of_nat 17) with 131072 in R; lia|].
    unfold wp, dret. split; auto. rewrite code_at_none; auto.
  - eapply wp_lift; [apply tget_ok; [apply D4; lia|lia]|]. cbn beta.
    destruct l as [|l]; [lia|]. cbn [Nat.sub] in HW. rewrite Nat.sub_0_r in HW.
    destruct (Z.lt_ge_cases (win S p) (kraft (csz bits (Datatypes.S l)))) as [Hin|Hout].
    + destruct (mx_le bits S p l Hc ltac:(lia) (conj HW Hin)) as (M1 & M2 & M3 & M4 & M5 & M6).
      fold bits. destruct (Z.ltb_spec (mx_spec bits (Datatypes.S l)) (bval (bits_at S p (Datatypes.S l)))); [lia|].
      unfold wp, dret. split; auto. rewrite (code_at_some bits S p _ Hc M3 M6). fold sz in M3, M4. fold sz.
      rewrite M4. auto.
    + pose proof (mx_gt bits S p l Hc ltac:(lia) Hout) as M.
      fold bits. destruct (Z.ltb_spec (mx_spec bits (Datatypes.S l)) (bval (bits_at S p (Datatypes.S l)))); [|lia].
      apply wp_bind. change 1 with (Z.of_nat 1) at 1. eapply wp_mono; [apply fget_spec; [exact I|lia|lia]| |intros ? []].
      cbn beta. intros b s2 (-> & I2 & U2 & L2).
      assert (Hcode : Z.lor (Z.shiftl (bval (bits_at S p (Datatypes.S l))) 1) (bval (bits_at S (p + Datatypes.S l) 1)) =
                      bval (bits_at S p (Datatypes.S (Datatypes.S l)))).
      { replace (Datatypes.S (Datatypes.S l)) with (Datatypes.S l + 1)%nat at 1 by lia. rewrite bits_at_app, bval_app, length_bits_at.
        pose proof (bval_range (bits_at S (p + Datatypes.S l) 1)) as R. rewrite length_bits_at in R.
        apply lor_shiftl_add; [lia|exact R]. }
      rewrite Hcode. replace (Z.of_nat (Datatypes.S l) + 1) with (Z.of_nat (Datatypes.S (Datatypes.S l))) by lia.
      replace (p + Datatypes.S l + 1)%nat with (p + Datatypes.S (Datatypes.S l))%nat in I2 by lia.
      eapply wp_mono; [apply IH; [lia|lia|exact I2|lia|exact Hout]| |intros ? []].
      cbn beta. intros lc s3 (E3 & H3). split; [congruence|exact H3].
Qed.

Lemma HUFF_FAST_spec p (s : FS) : finv p s -> room p ->
  wp (HUFF_DECODE_FAST d) s
     (fun v s' => f_sq (ust s') = f_sq (ust s) /\ v = fst (dec_symbol bits (hval t) S p) /\
                  finv (snd (dec_symbol bits (hval t) S p)) s') (fun _ => False).
Proof.
  intros I0 HR. unfold HUFF_DECODE_FAST. apply wp_bind. eapply wp_mono; [apply FILL_spec; eauto| |intros ? []].
  cbn beta. intros _ s1 (I & HL & U1). pose proof (f_left _ _ I) as HL2.
  apply wp_bind. unfold wp at 1, peek_bits.
  destruct (Z.ltb_spec 8 0); [lia|]. destruct (Z.ltb_spec 30 8); [lia|].
  destruct (Z.ltb_spec (bleft s1 - 8) 0); [lia|]. destruct (Z.ltb_spec 63 (bleft s1 - 8)); [lia|]. cbn [orb].
  pose proof (fbits_peek p 8 s1 I ltac:(lia)) as PK. change (Z.of_nat 8) with 8 in PK. rewrite PK.
  destruct (lookup_spec t d Hc Hd S p) as [R HLK]. fold bits sz in HLK.
  pose proof Hd as (D1 & D2 & D3 & D4 & D5 & D6 & (L1 & _ & _)).
  apply wp_bind. eapply wp_lift; [apply (aget_nth (dlookup d) _ 0); lia|]. cbn zeta beta.
  set (e := nth (Z.to_nat (bval (bits_at S p 8))) (dlookup d) 0) in *.
  assert (G : e = 2304 -> kraft (csz bits 8) <= win S p ->
    wp (drop_bits (Z.shiftr e 8) ;~
        (if 8 <? Z.shiftr e 8 then
           s <~ fast_peek (Z.shiftr e 8) ;;
           lc <~ fast_loop 18 d (Z.shiftr e 8) s ;;
           (if 16 <? fst lc then dret 0
            else vo <~ dlift (tget (valoffset d) (fst lc)) ;;
                 dlift (aget (hval (dpub d)) (Z.land (snd lc + vo) 255)))
         else dret (Z.land e 255))) s1
     (fun v s' => f_sq (ust s') = f_sq (ust s) /\ v = fst (dec_symbol bits (hval t) S p) /\
                  finv (snd (dec_symbol bits (hval t) S p)) s') (fun _ => False)).
  { intros He HW. rewrite He. change (Z.shiftr 2304 8) with 9. change (8 <? 9) with true. cbn iota.
    apply wp_bind. unfold wp at 1, drop_bits. destruct (Z.ltb_spec (bleft s1) 9); [lia|].
    pose proof (finv_drop p 9 s1 I ltac:(lia)) as I2. change (Z.of_nat 9) with 9 in I2.
    apply wp_bind. unfold wp at 1, fast_peek. cbn [bleft gbuf].
    destruct (Z.ltb_spec 9 0); [lia|]. destruct (Z.ltb_spec 30 9); [lia|].
    destruct (Z.ltb_spec (bleft s1 - 9) 0); [lia|]. destruct (Z.ltb_spec 63 (bleft s1 - 9)); [lia|]. cbn [orb].
    pose proof (fbits_peek p 9 s1 I ltac:(lia)) as PK9. change (Z.of_nat 9) with 9 in PK9. rewrite PK9.
    apply wp_bind. change 9 with (Z.of_nat 9) at 1. eapply wp_mono; [apply fast_loop_spec; [lia|lia|exact I2|cbn [bleft]; lia|exact HW]| |intros ? []].
    cbn beta. intros lc s3 (U3 & HH3). cbn [ust] in U3.
    unfold dec_symbol. destruct (code_at bits S p) as [k|] eqn:Ek.
    - destruct HH3 as (-> & Hk & I3). cbn [fst snd].
      pose proof (sizes_nth sz k (code_sizes_ok bits) Hk) as Hs.
      destruct (Z.ltb_spec 16 (Z.of_nat (nth k sz 0%nat))); [lia|].
      destruct (nth k sz 0%nat) as [|l] eqn:El; [lia|].
      destruct (code_pos bits k l Hk El) as [Hl Hpos].
      apply wp_bind. eapply wp_lift.
      { apply tget_ok; [apply D6; [lia|]|lia]. pose proof (pos_S bits l). fold bits. lia. }
      cbn beta. cbn [Nat.sub]. rewrite Nat.sub_0_r.
      assert (Hcv : bval (bits_at S p (Datatypes.S l)) = code_value sz k).
      { assert (E2 : code_word sz k = bits_at S p (nth k sz 0%nat)).
        { unfold code_at in Ek. apply find_some in Ek. destruct Ek as [_ Ek]. now apply bits_eqb_eq in Ek. }
        rewrite El in E2. rewrite <- E2. apply code_word_val; auto; [apply code_sizes_ok|apply Hc]. }
      rewrite Hcv, D1. fold bits. unfold sz. rewrite (group_codes bits l k Hc Hl Hpos).
      assert (Hidx : forall x y : Z, x + Z.of_nat (k - pos bits l) + (Z.of_nat (pos bits l) - x) = Z.of_nat k) by lia.
      rewrite Hidx by exact 0. destruct (huff_type_ok_inv t Ht) as (_ & _ & Hv1 & Hv2).
      destruct Hc as [Hlen _]. fold bits sz in Hlen.
      change 255 with (Z.ones 8). rewrite Z.land_ones by lia. rewrite Z.mod_small by lia.
      eapply wp_lift; [apply (aget_nth (hval t) _ (-1)); lia|].
      rewrite Nat2Z.id. fold sz. rewrite El. split; [congruence|]. split; auto.
    - destruct HH3 as (E17 & I3). rewrite E17. change (16 <? 17) with true. cbn iota.
      unfold wp, dret. split; [congruence|]. split; auto. }
  unfold dec_symbol in *. destruct (code_at bits S p) as [k|] eqn:Ek.
  - assert (Hk : (k < length sz)%nat).
    { unfold code_at in Ek. apply find_some in Ek. destruct Ek as [Hin _]. apply in_seq in Hin. fold sz in Hin. lia. }
    pose proof (sizes_nth sz k (code_sizes_ok bits) Hk) as Hs.
    destruct (Nat.leb_spec (nth k sz 0%nat) 8).
    + rewrite HLK. pose proof (look_entry_hi t Ht Hc k Hk) as LH. pose proof (look_entry_lo t Ht Hc k Hk) as LO. fold bits in LH, LO. fold sz in LH. rewrite LH, LO.
      apply wp_bind. unfold wp at 1, drop_bits.
      destruct (Z.ltb_spec (bleft s1) (Z.of_nat (nth k sz 0%nat))); [lia|].
      destruct (Z.ltb_spec 8 (Z.of_nat (nth k sz 0%nat))); [lia|].
      unfold wp, dret. cbn [fst snd ust]. split; [exact U1|]. split; auto. apply finv_drop; auto.
    + destruct HLK as [HLK HW]. apply G; auto.
  - destruct HLK as [HLK HW]. apply G; auto.
Qed.
End Tbl.

Lemma FILL_get p n (s : FS) : finv p s -> room p -> (1 <= n <= 16)%nat ->
  wp (FILL_BIT_BUFFER_FAST ;~ get_bits (Z.of_nat n)) s
     (fun v s' => v = bval (bits_at S p n) /\ finv (p + n) s' /\ f_sq (ust s') = f_sq (ust s)) (fun _ => False).
Proof.
  intros I HR Hn. apply wp_bind. eapply wp_mono; [apply FILL_spec; eauto| |intros ? []].
  cbn beta. intros _ s1 (I1 & L1 & U1). eapply wp_mono; [apply fget_spec; [exact I1|lia|lia]| |intros ? []].
  cbn beta. intros v s2 (-> & I2 & U2 & _). split; auto. split; auto. congruence.
Qed.

(* how far a symbol reaches *)
Lemma dec_symbol_adv t p : code_space_ok (hbits t) ->
  (p <= snd (dec_symbol (hbits t) (hval t) S p) <= p + 17)%nat /\
  (snd (dec_symbol (hbits t) (hval t) S p) = (p + 17)%nat -> fst (dec_symbol (hbits t) (hval t) S p) = 0).
Proof.
  intros Hc. unfold dec_symbol. destruct (code_at (hbits t) S p) as [k|] eqn:Ek; cbn [fst snd]; [|lia].
  assert (Hk : (k < length (code_sizes (hbits t)))%nat).
  { unfold code_at in Ek. apply find_some in Ek. destruct Ek as [Hin _]. apply in_seq in Hin. lia. }
  pose proof (sizes_nth _ k (code_sizes_ok (hbits t)) Hk). lia.
Qed.

Lemma fdbind_assoc_run {A B C} (m : DM fsq A) (f : A -> DM fsq B) (g : B -> DM fsq C) s :
  dbind m (fun a => dbind (f a) g) s = dbind (dbind m f) g s.
Proof. unfold dbind. destruct (m s) as [[a s'|s']| |]; auto. Qed.

Lemma fast_dc_spec bn b t p (s : FS) :
  tbl_ok true t (b_dc b) -> 0 <= b_ci b < Z.of_nat (length (sdc (f_sq (ust s)))) -> finv p s -> room (p + 17) ->
  wp (fast_dc bn b) s
    (fun _ s' =>
       let '(diff, p', ok) := ref_dc (hbits t) (hval t) S p in
       f_sq (ust s') = mkSq (if b_dcneed b then set_dc (sdc (f_sq (ust s))) (b_ci b) diff else sdc (f_sq (ust s)))
                     (souts (f_sq (ust s)) ++ dc_outs bn b (sdc (f_sq (ust s))) diff) /\
       finv p' s' /\ (p' <= p + 31)%nat)
    (fun _ => False).
Proof.
  intros Ht Hci I HR. pose proof Ht as (T1 & [T2 T3] & T4). unfold room in HR. unfold fast_dc. apply wp_bind.
  eapply wp_mono; [apply (HUFF_FAST_spec t (b_dc b) T1 T2 T4 p s I); unfold room; lia| |intros ? []].
  cbn beta. intros s0 s1 (U1 & -> & I1). unfold ref_dc, ref_sym.
  pose proof (dec_symbol_range true t (b_dc b) S p Ht) as [R1 R2]. specialize (R2 eq_refl).
  destruct (dec_symbol_adv t p T2) as [A1 A2].
  set (v := fst (dec_symbol (hbits t) (hval t) S p)) in *.
  set (p1 := snd (dec_symbol (hbits t) (hval t) S p)) in *.
  set (ok := match code_at (hbits t) S p with Some _ => true | None => false end) in *.
  apply wp_bind.
  eapply wp_mono with (P := fun x s2 => f_sq (ust s2) = f_sq (ust s) /\
     let '(diff, p', ok') := (if v =? 0 then (0, p1, ok) else
        (extend (Z.to_nat v) (bval (bits_at S p1 (Z.to_nat v))), (p1 + Z.to_nat v)%nat, ok)) in
     x = diff /\ finv p' s2 /\ (p' <= p + 31)%nat) (Q := fun _ => False); [| |intros ? []].
  { destruct (Z.eqb_spec v 0).
    - unfold wp, dret. split; auto. split; auto. split; auto. lia.
    - eapply wp_run; [apply fdbind_assoc_run|]. apply wp_bind.
      assert (p1 <> (p + 17)%nat) by (intros Hx; specialize (A2 Hx); lia).
      pose proof (FILL_get p1 (Z.to_nat v) s1 I1 ltac:(unfold room; lia) ltac:(lia)) as T. rewrite Z2Nat.id in T by lia.
      eapply wp_mono; [exact T| |intros ? []].
      cbn beta. intros x s2 (-> & I2 & U2). unfold wp, dret. split; [congruence|]. split.
      + rewrite <- (Z2Nat.id v) at 2 by lia. apply HUFF_EXTEND_spec; [lia|].
        pose proof (bval_range (bits_at S p1 (Z.to_nat v))) as R. rewrite length_bits_at in R. exact R.
      + split; auto. lia. }
  cbn beta. intros x s2 (U2 & H2).
  destruct (if v =? 0 then _ else _) as [[diff p'] ok']. destruct H2 as (-> & I2 & B2).
  destruct (b_dcneed b) eqn:En.
  - apply wp_bind. unfold wp at 1, dget. apply wp_bind.
    eapply wp_lift; [apply (aget_nth _ _ 0); rewrite U2; lia|]. apply wp_bind.
    eapply wp_lift; [apply aset_ok; rewrite U2; lia|]. apply wp_bind.
    unfold wp at 1, dmod. cbn beta. rewrite U2. fold (set_dc (sdc (f_sq (ust s))) (b_ci b) diff).
    unfold dc_outs. rewrite En. cbn [andb]. destruct (b_have b).
    + unfold fout_put. cbn [Z.leb Z.ltb Z.compare andb]. unfold wp, dmod. cbn [ust f_sq f_pos sdc souts gbuf bleft dsrc unread insuff warns].
      split; auto. split; auto. apply finv_sq; auto.
    + unfold wp, dret. cbn [ust f_sq f_pos sdc souts gbuf bleft dsrc unread insuff warns].
      rewrite app_nil_r. split; auto. split; auto. apply finv_sq; auto.
  - unfold wp, dret, dc_outs. rewrite En. cbn [andb]. rewrite app_nil_r. split; [rewrite U2; destruct (f_sq (ust s)); reflexivity|].
    auto.
Qed.

Lemma fast_ac_spec bn b t store : tbl_ok false t (b_ac b) ->
  forall fuel k p (s : FS),
  (1 <= k)%nat -> (k <= 79)%nat -> (64 - k < fuel)%nat -> finv p s ->
  (p + 31 * (64 - k) + 64 <= 4 * length buf)%nat ->
  wp (fast_ac fuel bn b store (Z.of_nat k)) s
    (fun _ s' =>
       let '(l, p', ok) := ref_ac fuel (hbits t) (hval t) S p k in
       f_sq (ust s') = mkSq (sdc (f_sq (ust s))) (souts (f_sq (ust s)) ++ (if store then ac_outs bn l else [])) /\
       finv p' s' /\ (p' <= p + 31 * (64 - k))%nat)
    (fun _ => False).
Proof.
  intros Ht. pose proof Ht as (T1 & [T2 T3] & T4).
  induction fuel as [|f IH]; intros k p s Hk Hk2 Hf I HR; [lia|].
  cbn [fast_ac ref_ac].
  destruct (Z.ltb_spec (Z.of_nat k) 64) as [H64|H64]; destruct (Nat.ltb_spec k 64); try lia.
  2:{ unfold wp, dret. split; [|split; [auto|lia]].
      destruct store; cbn; rewrite ?app_nil_r; destruct (f_sq (ust s)); reflexivity. }
  apply wp_bind. eapply wp_mono; [apply (HUFF_FAST_spec t (b_ac b) T1 T2 T4 p s I); unfold room; lia| |intros ? []].
  cbn beta. intros rs s1 (U1 & -> & I1).
  pose proof (dec_symbol_range false t (b_ac b) S p Ht) as [R1 _].
  destruct (dec_symbol_adv t p T2) as [A1 A2].
  unfold ref_sym in *.
  set (v := fst (dec_symbol (hbits t) (hval t) S p)) in *.
  set (p1 := snd (dec_symbol (hbits t) (hval t) S p)) in *.
  set (ok := match code_at (hbits t) S p with Some _ => true | None => false end) in *.
  assert (Er : Z.shiftr v 4 = Z.of_nat (Z.to_nat (v / 16))).
  { rewrite Z.shiftr_div_pow2 by lia. change (2 ^ 4) with 16. rewrite Z2Nat.id; auto. apply Z.div_pos; lia. }
  assert (Es : Z.land v 15 = Z.of_nat (Z.to_nat (v mod 16))).
  { change 15 with (Z.ones 4). rewrite Z.land_ones by lia. change (2 ^ 4) with 16. rewrite Z2Nat.id; auto.
    apply Z.mod_pos_bound. lia. }
  rewrite Er, Es. assert (Hr : (Z.to_nat (v / 16) <= 15)%nat).
  { assert (v / 16 < 16) by (apply Z.div_lt_upper_bound; lia). lia. }
  assert (Hs : (Z.to_nat (v mod 16) <= 15)%nat).
  { pose proof (Z.mod_pos_bound v 16). lia. }
  assert (A3 : p1 = (p + 17)%nat -> v / 16 = 0 /\ v mod 16 = 0) by (intros Hx; rewrite (A2 Hx); auto).
  set (r := Z.to_nat (v / 16)) in *. set (n := Z.to_nat (v mod 16)) in *.
  assert (A4 : (n <> 0 \/ r <> 0)%nat -> (p1 <= p + 16)%nat).
  { intros Hx. destruct (Nat.eq_dec p1 (p + 17)) as [Hy|Hy]; [|lia]. destruct (A3 Hy) as [Q1 Q2].
    unfold r, n in Hx. rewrite Q1, Q2 in Hx. cbn in Hx. lia. }
  clearbody v p1 ok. clearbody r n.
  destruct (Z.eqb_spec (Z.of_nat n) 0); destruct (Nat.eqb_spec n 0); try lia; cbn [negb].
  - destruct (Z.eqb_spec (Z.of_nat r) 15); destruct (Nat.eqb_spec r 15); try lia; cbn [negb].
    + replace (Z.of_nat k + 15 + 1) with (Z.of_nat (k + 16)) by lia.
      eapply wp_mono; [eapply (IH (k + 16)%nat p1); [lia|lia|lia|exact I1|lia]| |intros ? []].
      cbn beta. intros _ s2. destruct (ref_ac f _ _ _ p1 (k + 16)) as [[l p2] ok2].
      intros (U2 & I2 & B2). split; [rewrite U2, U1; reflexivity|]. split; auto. lia.
    + unfold wp, dret. split; [|split; [auto|lia]].
      destruct store; cbn; rewrite ?app_nil_r, U1; destruct (f_sq (ust s)); reflexivity.
  - destruct (ref_ac f (hbits t) (hval t) S (p1 + n) (k + r + 1)) as [[l p2] ok2] eqn:Erec.
    replace (Z.of_nat k + Z.of_nat r) with (Z.of_nat (k + r)) by lia.
    replace (Z.of_nat (k + r) + 1) with (Z.of_nat (k + r + 1)) by lia.
    specialize (A4 ltac:(lia)).
    assert (Hend : forall s2 : FS, finv (p1 + n) s2 ->
       f_sq (ust s2) = mkSq (sdc (f_sq (ust s))) (souts (f_sq (ust s)) ++ (if store then
          [(bn, nth (k + r) jpeg_natural_order 0, s16 (extend n (bval (bits_at S p1 n))))] else [])) ->
       wp (fast_ac f bn b store (Z.of_nat (k + r + 1))) s2
         (fun _ s' => f_sq (ust s') = mkSq (sdc (f_sq (ust s))) (souts (f_sq (ust s)) ++ (if store then
              ac_outs bn (((k + r)%nat, extend n (bval (bits_at S p1 n))) :: l) else [])) /\
            finv p2 s' /\ (p2 <= p + 31 * (64 - k))%nat) (fun _ => False)).
    { intros s2 I2 U2. eapply wp_mono; [eapply (IH (k + r + 1)%nat (p1 + n)%nat); [lia|lia|lia|exact I2|lia]| |intros ? []].
      cbn beta. intros _ s3. rewrite Erec. intros (U3 & I3 & B3). split.
      - rewrite U3, U2. cbn [sdc souts]. f_equal. rewrite <- app_assoc. f_equal. destruct store; reflexivity.
      - split; auto. lia. }
    assert (Hbv : 0 <= bval (bits_at S p1 n) < 2 ^ Z.of_nat n).
    { pose proof (bval_range (bits_at S p1 n)) as R. rewrite length_bits_at in R. exact R. }
    apply wp_bind. eapply wp_mono; [apply (FILL_spec p1 s1 I1); unfold room; lia| |intros ? []].
    cbn beta. intros _ s2 (I2 & L2 & U2). apply wp_bind.
    destruct store.
    + apply wp_bind. eapply wp_mono; [apply fget_spec; [exact I2|lia|lia]| |intros ? []].
      cbn beta. intros x s3 (-> & I3 & U3 & _). apply wp_bind.
      eapply wp_lift; [apply (aget_nth jpeg_natural_order _ 0); change (length jpeg_natural_order) with 80%nat; lia|].
      rewrite Nat2Z.id. pose proof (nat_order_range (k + r) ltac:(lia)) as Hno. unfold fout_put.
      destruct (Z.leb_spec 0 (nth (k + r) jpeg_natural_order 0)); [|lia].
      destruct (Z.ltb_spec (nth (k + r) jpeg_natural_order 0) 64); [|lia]. cbn [andb].
      unfold wp at 1, dmod. apply Hend.
      * apply finv_sq. exact I3.
      * cbn [ust f_sq]. rewrite U3, U2, U1. rewrite HUFF_EXTEND_spec by (auto; lia). reflexivity.
    + unfold wp at 1, drop_bits. destruct (Z.ltb_spec (bleft s2) (Z.of_nat n)); [lia|].
      apply Hend.
      * apply finv_drop; auto.
      * cbn [ust]. rewrite U2, U1, app_nil_r. destruct (f_sq (ust s)); reflexivity.
Qed.

Lemma fast_blocks_spec : forall rbs bn p (s : FS),
  Forall (fun x => blk_ok (fst x) (snd x) (length (sdc (f_sq (ust s))))) rbs -> finv p s ->
  (p + 1984 * length rbs + 64 <= 4 * length buf)%nat ->
  wp (fast_blocks bn (map snd rbs)) s
    (fun _ s' => let '(dcs', o, p', ok) := ref_mcu bn rbs (sdc (f_sq (ust s))) S p in
       f_sq (ust s') = mkSq dcs' (souts (f_sq (ust s)) ++ o) /\ finv p' s')
    (fun _ => False).
Proof.
  induction rbs as [|[rb b] r IH]; intros bn p s Hok I HR; cbn [map fast_blocks ref_mcu snd].
  - unfold wp, dret. rewrite app_nil_r. split; [destruct (f_sq (ust s)); reflexivity|]. auto.
  - inversion Hok as [|? ? Hb Hr]; subst. cbn [fst snd] in Hb. destruct Hb as (B1 & B2 & B3).
    cbn [length] in HR. unfold ref_block, fast_block.
    destruct (ref_dc (hbits (r_dc rb)) (hval (r_dc rb)) S p) as [[diff p1] ok1] eqn:E1.
    destruct (ref_ac 64 (hbits (r_ac rb)) (hval (r_ac rb)) S p1 1) as [[l p2] ok2] eqn:E2.
    apply wp_bind. apply wp_bind. eapply wp_mono; [eapply (fast_dc_spec bn b (r_dc rb) p); eauto; unfold room; lia| |intros ? []].
    cbn beta. intros _ s1. rewrite E1. intros (U1 & I1 & H1).
    eapply wp_mono; [eapply (fast_ac_spec bn b (r_ac rb) _ B2 64 1 p1); [lia|lia|lia|exact I1|lia]| |intros ? []].
    cbn beta. intros _ s2. rewrite E2. intros (U2 & I2 & H2).
    assert (Hdc2 : sdc (f_sq (ust s2)) = if b_dcneed b then set_dc (sdc (f_sq (ust s))) (b_ci b) diff else sdc (f_sq (ust s))).
    { rewrite U2, U1. reflexivity. }
    eapply wp_mono; [eapply (IH (bn + 1) p2); [|exact I2|lia]| |intros ? []].
    + rewrite Hdc2. destruct (b_dcneed b); auto. unfold set_dc. now rewrite length_upd.
    + cbn beta. intros _ s3. rewrite Hdc2.
      destruct (ref_mcu (bn + 1) r _ S p2) as [[[dcs' o] p'] ok'].
      intros (U3 & I3). split; auto.
      rewrite U3, U2, U1. cbn [souts sdc]. f_equal. now rewrite <- !app_assoc.
Qed.
End Fast.
