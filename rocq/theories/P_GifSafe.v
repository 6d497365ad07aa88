(* P_GifSafe.v -- the GIF reader on arbitrary bytes: two runs that differ only in uninitialised memory *)
From Verif Require Import Base M_Gif P_GifBits.

(* both runs end the same way, neither with undefined behaviour *)
Definition orel {A B} (R : A -> B -> Prop) (x : outcome A) (y : outcome B) : Prop :=
  match x, y with Ret a, Ret b => R a b | Error e, Error e' => e = e' | _, _ => False end.
Lemma orel_bind {A B A' B'} (R : A -> B -> Prop) (Q : A' -> B' -> Prop) x y f g :
  orel R x y -> (forall a b, R a b -> orel Q (f a) (g b)) -> orel Q (bind x f) (bind y g).
Proof. destruct x, y; cbn [orel bind]; try contradiction; auto. Qed.
Lemma orel_impl {A B} (R Q : A -> B -> Prop) x y : orel R x y -> (forall a b, R a b -> Q a b) -> orel Q x y.
Proof. destruct x, y; cbn [orel]; auto; contradiction. Qed.

Definition agree {A} (d : A) (n : Z) (l l' : list A) : Prop := forall i, 0 <= i < n -> nth (Z.to_nat i) l d = nth (Z.to_nat i) l' d.

Record brel (b b' : grd) : Prop := {
  br_in : r_in b' = r_in b; br_lb : r_lbyte b' = r_lbyte b; br_lbit : r_lbit b' = r_lbit b; br_cb : r_cbit b' = r_cbit b;
  br_fi : r_first b' = r_first b; br_oob : r_oob b' = r_oob b; br_w : r_warn b' = r_warn b;
  br_l1 : length (r_buf b) = 260%nat; br_l2 : length (r_buf b') = 260%nat; br_y1 : Forall isbyte (r_buf b); br_y2 : Forall isbyte (r_buf b');
  br_ag : agree 0 (r_lbyte b) (r_buf b) (r_buf b'); br_lbr : 2 <= r_lbyte b <= 257; br_cur : 0 <= r_cbit b <= r_lbit b;
  br_bit : r_lbit b = 8 * r_lbyte b \/ r_lbit b = 0; br_byt : Forall isbyte (r_in b) }.

Lemma Forall_upd {A} (P : A -> Prop) l n x : Forall P l -> P x -> Forall P (upd l n x).
Proof. revert n. induction l as [|y l IH]; intros n H Hx; destruct n; cbn [upd]; auto; inversion H; subst; constructor; auto. Qed.
Lemma Forall_nth_ok {A} (P : A -> Prop) l n d : Forall P l -> (n < length l)%nat -> P (nth n l d).
Proof. intros H Hn. rewrite Forall_forall in H. apply H, nth_In, Hn. Qed.
Lemma Forall_firstn_ok {A} (P : A -> Prop) l n : Forall P l -> Forall P (firstn n l).
Proof. intros H. revert n. induction H; intros [|n]; cbn [firstn]; constructor; auto. Qed.
Lemma Forall_skipn_ok {A} (P : A -> Prop) l n : Forall P l -> Forall P (skipn n l).
Proof. intros H. revert n. induction H; intros [|n]; cbn [skipn]; try constructor; auto. Qed.

(* a data block read into two buffers *)
Lemma block_rel inp buf buf' : Forall isbyte inp -> length buf = 260%nat -> length buf' = 260%nat -> Forall isbyte buf -> Forall isbyte buf' -> agree 0 2 buf buf' ->
  orel (fun x x' => let '(c, b, r) := x in let '(c', b', r') := x' in c = c' /\ r = r' /\ 0 <= c < 256 /\ length b = 260%nat /\ length b' = 260%nat /\
     Forall isbyte b /\ Forall isbyte b' /\ agree 0 (2 + c) b b' /\ Forall isbyte r /\ (c <> 0 -> Z.of_nat (length r) + c + 1 = Z.of_nat (length inp)) /\ (length r <= length inp)%nat /\ (c = 0 -> b = buf /\ b' = buf'))
    (GetDataBlock inp buf 2) (GetDataBlock inp buf' 2).
Proof.
  intros HI L1 L2 B1 B2 HA. unfold GetDataBlock. destruct inp as [|c r]; [reflexivity|]. pose proof (Forall_inv HI) as Hc. pose proof (Forall_inv_tail HI) as Hr. unfold isbyte in Hc.
  destruct (Z.ltb_spec 0 c) as [Hp|Hp].
  - destruct (Nat.ltb_spec (length r) (Z.to_nat c)) as [Hl|Hl]; [reflexivity|].
    assert (Lf : length (firstn (Z.to_nat c) r) = Z.to_nat c) by (rewrite firstn_length; lia).
    rewrite !blit_ok by (rewrite ?Lf; change (Z.to_nat 2) with 2%nat; lia). cbn [bind orel]. rewrite Lf. change (Z.to_nat 2) with 2%nat.
    assert (LB : forall bf, length bf = 260%nat -> length (firstn 2 bf ++ firstn (Z.to_nat c) r ++ skipn (2 + Z.to_nat c) bf) = 260%nat).
    { intros bf Hb. rewrite !app_length, !firstn_length, skipn_length. lia. }
    assert (FB : forall bf, Forall isbyte bf -> Forall isbyte (firstn 2 bf ++ firstn (Z.to_nat c) r ++ skipn (2 + Z.to_nat c) bf)).
    { intros bf Hb. apply Forall_app. split; [apply Forall_firstn_ok; exact Hb|]. apply Forall_app. split; [apply Forall_firstn_ok; exact Hr|apply Forall_skipn_ok; exact Hb]. }
    split; [reflexivity|]. split; [reflexivity|]. split; [lia|]. split; [apply LB; exact L1|]. split; [apply LB; exact L2|]. split; [apply FB; exact B1|]. split; [apply FB; exact B2|].
    split; [|split; [apply Forall_skipn_ok; exact Hr|split; [intros _; rewrite skipn_length; cbn [length]; lia|split; [rewrite skipn_length; cbn [length]; lia|lia]]]].
    intros i Hi. destruct buf as [|p0 [|p1 buf]]; try discriminate. destruct buf' as [|q0 [|q1 buf']]; try discriminate. cbn [firstn app].
    pose proof (HA 0 ltac:(lia)) as A0. pose proof (HA 1 ltac:(lia)) as A1. change (p0 = q0) in A0. change (p1 = q1) in A1. subst q0 q1.
    destruct (Z.to_nat i) as [|[|k]] eqn:Ei; [reflexivity|reflexivity|]. cbn [nth]. rewrite !app_nth1 by (rewrite Lf; lia). reflexivity.
  - cbn [orel]. assert (c = 0) by lia. subst c. split; [reflexivity|]. split; [reflexivity|]. split; [lia|]. split; [exact L1|]. split; [exact L2|]. split; [exact B1|]. split; [exact B2|].
    split; [exact HA|]. split; [exact Hr|]. split; [congruence|]. split; [cbn [length]; lia|auto].
Qed.

Definition mu (b : grd) : nat := (bits_left b + (if r_first b then 1 else 0))%nat.

Lemma reload_rel clear size : 1 <= size <= 12 -> forall fuel b b', brel b b' -> size <= r_lbit b - r_cbit b + 8 * Z.of_nat fuel ->
  orel (fun x x' => fst x = fst x' /\ brel (snd x) (snd x') /\ (mu (snd x) <= mu b)%nat /\
      match fst x with
      | None => r_cbit (snd x) + size <= r_lbit (snd x)
      | Some c => (c = clear /\ (mu (snd x) < mu b)%nat) \/ c = clear + 1
      end)
    (get_reload fuel clear size b) (get_reload fuel clear size b').
Proof.
  intros Hs. induction fuel as [|fuel IH]; intros b b' HB Hf; cbn [get_reload]; destruct HB as [B1 B2 B3 B4 B5 B6 B7 L1 L2 Y1 Y2 AG LB CU BT IN]; rewrite B3, B4;
    destruct (Z.ltb_spec (r_lbit b) (r_cbit b + size)) as [Hlt|Hge]; try lia.
  - cbn [orel fst snd]. split; [reflexivity|]. split; [constructor; auto|]. split; [lia|lia].
  - rewrite B5, B6. destruct (r_first b) eqn:EF.
    { cbn [orel fst snd]. split; [reflexivity|]. split; [constructor; cbn [r_in r_buf r_lbyte r_lbit r_cbit r_first r_oob r_warn add_warn z_size z_limit z_max z_head z_tail z_stack z_old z_fc]; auto; lia|]. unfold mu, bits_left. cbn. rewrite EF. split; [lia|]. left. split; [reflexivity|lia]. }
    destruct (r_oob b) eqn:EO.
    { cbn [orel fst snd]. split; [reflexivity|]. split; [constructor; cbn [r_in r_buf r_lbyte r_lbit r_cbit r_first r_oob r_warn add_warn z_size z_limit z_max z_head z_tail z_stack z_old z_fc]; auto; try lia; congruence|]. unfold mu, bits_left. cbn. rewrite EF. split; [lia|]. right. reflexivity. }
    rewrite B2. rewrite (aget_ok (r_buf b) (r_lbyte b - 2) 0) by lia. rewrite (aget_ok (r_buf b') (r_lbyte b - 2) 0) by lia. cbn [bind].
    rewrite (AG (r_lbyte b - 2)) by lia. set (x := nth (Z.to_nat (r_lbyte b - 2)) (r_buf b') 0).
    assert (Hx : isbyte x) by (apply Forall_nth_ok; [exact Y2|lia]).
    rewrite !aset_ok by lia. cbn [bind]. rewrite !(aget_ok _ (r_lbyte b - 1) 0) by (rewrite length_upd; lia). cbn [bind].
    rewrite !nth_upd_neq by (cbn [Z.to_nat]; lia). rewrite (AG (r_lbyte b - 1)) by lia. set (y := nth (Z.to_nat (r_lbyte b - 1)) (r_buf b') 0).
    assert (Hy : isbyte y) by (apply Forall_nth_ok; [exact Y2|lia]).
    rewrite !aset_ok by (rewrite length_upd; lia). cbn [bind]. rewrite B1. change (Z.to_nat 0) with 0%nat. change (Z.to_nat 1) with 1%nat.
    assert (A2 : agree 0 2 (upd (upd (r_buf b) 0 x) 1 y) (upd (upd (r_buf b') 0 x) 1 y)).
    { destruct (r_buf b) as [|p0 [|p1 bf]]; try discriminate. destruct (r_buf b') as [|q0 [|q1 bf']]; try discriminate. intros i Hi. cbn [upd]. assert (i = 0 \/ i = 1) as [->| ->] by lia; reflexivity. }
    eapply orel_bind.
    + apply block_rel; rewrite ?length_upd; auto; apply Forall_upd; auto; apply Forall_upd; auto.
    + intros [[c buf] r] [[c' buf'] r'] (-> & -> & Hc & Q1 & Q2 & Q3 & Q4 & Q5 & Q6 & Q7 & Q8 & Q9). destruct (Z.eqb_spec c' 0) as [E0|E0].
      * cbn [orel fst snd]. split; [reflexivity|]. destruct (Q9 E0) as [-> ->]. split.
        { constructor; cbn [r_in r_buf r_lbyte r_lbit r_cbit r_first r_oob r_warn add_warn z_size z_limit z_max z_head z_tail z_stack z_old z_fc]; auto; try lia; try congruence. intros i Hi. destruct (Z.lt_ge_cases i 2) as [G|G]; [apply A2; lia|]. rewrite !nth_upd_neq by lia. apply AG. lia. }
        unfold mu, bits_left. cbn. rewrite EF. split; [lia|]. right. reflexivity.
      * specialize (Q7 E0). rewrite B7.
        eapply orel_impl; [apply IH|].
        -- constructor; cbn [r_in r_buf r_lbyte r_lbit r_cbit r_first r_oob r_warn add_warn z_size z_limit z_max z_head z_tail z_stack z_old z_fc]; auto; try lia.
        -- cbn [r_lbit r_cbit]. lia.
        -- intros [o b1] [o' b1'] (G1 & G2 & G3 & G4). cbn [fst snd] in *. split; [exact G1|]. split; [exact G2|].
           assert (M : (mu (mkGR r' buf (2 + c') ((2 + c') * 8) (r_cbit b - r_lbit b + 16) false false (r_warn b)) <= mu b)%nat).
           { unfold mu, bits_left. cbn [r_lbit r_cbit r_in r_first]. rewrite EF. lia. }
           split; [lia|]. destruct o; [|exact G4]. destruct G4 as [[G4 G5]|G4]; [left; split; [exact G4|lia]|right; exact G4].
  - cbn [orel fst snd]. split; [reflexivity|]. split; [constructor; auto|]. split; [lia|lia].
Qed.

Lemma accum_bits buf offs : length buf = 260%nat -> Forall isbyte buf -> 0 <= offs -> offs + 2 < 260 ->
  forall j, 0 <= j < 24 ->
  Z.testbit (Z.lor (Z.shiftl (Z.lor (Z.shiftl (nth (Z.to_nat (offs + 2)) buf 0) 8) (nth (Z.to_nat (offs + 1)) buf 0)) 8) (nth (Z.to_nat offs) buf 0)) j =
  Z.testbit (nth (Z.to_nat (offs + j / 8)) buf 0) (j mod 8).
Proof.
  intros L BY Ho Ho2 j Hj. assert (B : forall i, (i < 260)%nat -> isbyte (nth i buf 0)) by (intros i Hi; apply Forall_nth_ok; [exact BY|lia]).
  rewrite Z.lor_spec. pose proof (Z.div_mod j 8 ltac:(lia)). pose proof (Z.mod_pos_bound j 8 ltac:(lia)).
  destruct (Z.lt_ge_cases j 8) as [J|J].
  - rewrite Z.shiftl_spec_low by lia. cbn [orb]. replace (j / 8) with 0 by lia. replace (j mod 8) with j by lia. rewrite Z.add_0_r. reflexivity.
  - rewrite (byte_high (nth (Z.to_nat offs) buf 0)) by (try apply B; lia). rewrite orb_false_r, Z.shiftl_spec by lia. rewrite Z.lor_spec.
    destruct (Z.lt_ge_cases j 16) as [J2|J2].
    + rewrite Z.shiftl_spec_low by lia. cbn [orb]. replace (j / 8) with 1 by lia. f_equal. lia.
    + rewrite (byte_high (nth (Z.to_nat (offs + 1)) buf 0)) by (try apply B; lia). rewrite orb_false_r, Z.shiftl_spec by lia.
      replace (j / 8) with 2 by lia. f_equal. lia.
Qed.

Lemma GetCode_rel clear size b b' : 0 <= clear -> clear + 1 < 2 ^ size -> 1 <= size <= 12 -> brel b b' ->
  orel (fun x x' => fst x = fst x' /\ brel (snd x) (snd x') /\ 0 <= fst x < 2 ^ size /\ (mu (snd x) <= mu b)%nat /\ (fst x = clear -> (mu (snd x) < mu b)%nat))
    (GetCode clear size b) (GetCode clear size b').
Proof.
  intros Hc Hc2 Hs HB. unfold GetCode. eapply orel_bind; [apply (reload_rel clear size Hs 3 b b' HB); pose proof (br_cur _ _ HB); lia|].
  intros [o b1] [o' b1'] (E & HB1 & HM & HO). cbn [fst snd] in *. subst o'. destruct o as [c|].
  - cbn [orel fst snd]. split; [reflexivity|]. split; [exact HB1|]. destruct HO as [[-> HO]|HO]; (split; [lia|]); (split; [lia|]); intros E; lia.
  - pose proof HB1 as [B1 B2 B3 B4 B5 B6 B7 L1 L2 Y1 Y2 AG LB CU BT IN]. rewrite B4.
    rewrite Z.shiftr_div_pow2 by lia. change (2 ^ 3) with 8. set (offs := r_cbit b1 / 8).
    assert (Hq : r_cbit b1 = 8 * offs + r_cbit b1 mod 8) by (apply Z.div_mod; lia). pose proof (Z.mod_pos_bound (r_cbit b1) 8 ltac:(lia)) as Hm.
    assert (Ho : 0 <= offs) by (apply Z.div_pos; lia). assert (Ho2 : offs + 2 < 260) by lia.
    rewrite (aget_ok (r_buf b1) (offs + 2) 0), (aget_ok (r_buf b1) (offs + 1) 0), (aget_ok (r_buf b1) offs 0) by (rewrite L1; lia).
    rewrite (aget_ok (r_buf b1') (offs + 2) 0), (aget_ok (r_buf b1') (offs + 1) 0), (aget_ok (r_buf b1') offs 0) by (rewrite L2; lia). cbn [bind orel fst snd].
    replace (Z.land (r_cbit b1) 7) with (r_cbit b1 mod 8) by (change 7 with (Z.ones 3); rewrite Z.land_ones by lia; reflexivity).
    assert (Em : 2 ^ size - 1 = Z.ones size) by (rewrite Z.ones_equiv; lia). rewrite Em.
    split; [|split; [|split; [|split]]].
    + apply Z.bits_inj'. intros j Hj. rewrite !Z.land_spec. destruct (Z.lt_ge_cases j size) as [J|J]; [|rewrite Z.ones_spec_high by lia; rewrite !andb_false_r; reflexivity].
      f_equal. rewrite !Z.shiftr_spec by lia. set (k := j + r_cbit b1 mod 8).
      rewrite (accum_bits (r_buf b1) offs L1 Y1 Ho Ho2 k ltac:(lia)), (accum_bits (r_buf b1') offs L2 Y2 Ho Ho2 k ltac:(lia)). f_equal. apply AG.
      pose proof (Z.div_mod k 8 ltac:(lia)). pose proof (Z.mod_pos_bound k 8 ltac:(lia)). lia.
    + rewrite B3, B1, B2, B5, B6, B7. constructor; cbn [r_in r_buf r_lbyte r_lbit r_cbit r_first r_oob r_warn add_warn z_size z_limit z_max z_head z_tail z_stack z_old z_fc]; auto; lia.
    + rewrite Z.land_ones by lia. apply Z.mod_pos_bound. apply Z.pow_pos_nonneg; lia.
    + unfold mu, bits_left in *. cbn [r_lbit r_cbit r_in r_first]. lia.
    + intros _. unfold mu, bits_left in *. cbn [r_lbit r_cbit r_in r_first]. lia.
Qed.

Lemma clear_loop_rel clear size : 0 <= clear -> clear + 1 < 2 ^ size -> 1 <= size <= 12 -> forall fuel b b', brel b b' -> (mu b < fuel)%nat ->
  orel (fun x x' => fst x = fst x' /\ brel (snd x) (snd x') /\ 0 <= fst x /\ fst x <> clear) (clear_loop fuel clear size b) (clear_loop fuel clear size b').
Proof.
  intros H1 H2 H3. induction fuel as [|fuel IH]; intros b b' HB Hf; [lia|]. cbn [clear_loop]. eapply orel_bind; [apply (GetCode_rel clear size b b' H1 H2 H3 HB)|].
  intros [c b1] [c' b1'] (E & HB1 & HC & HM & HL). cbn [fst snd] in *. subst c'. destruct (Z.eqb_spec c clear) as [Ec|Ec].
  - apply IH; [exact HB1|]. specialize (HL Ec). lia.
  - cbn [orel fst snd]. split; [reflexivity|]. split; [exact HB1|]. split; [lia|exact Ec].
Qed.

Lemma skip_ok : forall fuel inp, Forall isbyte inp -> (length inp < fuel)%nat -> orel (fun x x' => x = x' /\ Forall isbyte x /\ (length x <= length inp)%nat) (SkipDataBlocks fuel inp) (SkipDataBlocks fuel inp).
Proof.
  induction fuel as [|fuel IH]; intros inp HI Hf; [lia|]. cbn [SkipDataBlocks].
  eapply (orel_bind (fun x x' : Z * list Z * list Z => x = x' /\ Forall isbyte (snd x) /\ (length (snd x) < length inp)%nat)).
  - unfold GetDataBlock. destruct inp as [|c r]; [reflexivity|]. pose proof (Forall_inv HI) as Hc. pose proof (Forall_inv_tail HI) as Hr. unfold isbyte in Hc. destruct (Z.ltb_spec 0 c).
    + destruct (Nat.ltb_spec (length r) (Z.to_nat c)); [reflexivity|]. rewrite blit_ok; [|lia|rewrite firstn_length, repeat_length; cbn [Z.to_nat]; lia]. cbn [bind orel snd].
      split; [reflexivity|]. split; [apply Forall_skipn_ok; exact Hr|rewrite skipn_length; cbn [length]; lia].
    + cbn [orel snd]. split; [reflexivity|]. split; [exact Hr|cbn [length]; lia].
  - intros [[c bf] r] [[c' bf'] r'] (E & HR & HL). inversion E; subst. cbn [snd] in *. destruct (0 <? c').
    + eapply orel_impl; [apply IH; [exact HR|lia]|]. intros a a' (-> & G1 & G2). split; [reflexivity|]. split; [exact G1|lia].
    + cbn [orel]. split; [reflexivity|]. split; [exact HR|lia].
Qed.

Section Z.
Variable ics : Z.
Hypothesis Hics : 2 <= ics <= 8.
Notation clear := (2 ^ ics).
Lemma clr : 4 <= clear <= 256.
Proof. split; [change 4 with (2 ^ 2)|change 256 with (2 ^ 8)]; apply Z.pow_le_mono_r; lia. Qed.
Definition okcode (mx c : Z) : Prop := 0 <= c < clear \/ clear + 2 <= c < mx.
Record zrel (z z' : glz) : Prop := {
  zr_sz : z_size z' = z_size z; zr_lim : z_limit z' = z_limit z; zr_mx : z_max z' = z_max z; zr_old : z_old z' = z_old z; zr_fc : z_fc z' = z_fc z; zr_st : z_stack z' = z_stack z;
  zr_l1 : length (z_head z) = Z.to_nat 4096; zr_l2 : length (z_head z') = Z.to_nat 4096; zr_l3 : length (z_tail z) = Z.to_nat 4096; zr_l4 : length (z_tail z') = Z.to_nat 4096;
  zr_size : ics + 1 <= z_size z <= 12; zr_max : clear + 2 <= z_max z <= 4096; zr_okold : okcode (z_max z) (z_old z); zr_okfc : 0 <= z_fc z < clear;
  zr_stk : Forall (fun c => 0 <= c < clear) (z_stack z);
  zr_tab : forall i, clear + 2 <= i < z_max z -> nth (Z.to_nat i) (z_head z) 0 = nth (Z.to_nat i) (z_head z') 0 /\ nth (Z.to_nat i) (z_tail z) 0 = nth (Z.to_nat i) (z_tail z') 0 /\
    okcode i (nth (Z.to_nat i) (z_head z) 0) /\ 0 <= nth (Z.to_nat i) (z_tail z) 0 < clear }.

Lemma expand_rel z z' : zrel z z' -> forall fuel code st, okcode (z_max z) code -> code - clear <= Z.of_nat fuel -> Forall (fun c => 0 <= c < clear) st -> code - clear + Z.of_nat (length st) <= 4096 ->
  orel (fun x x' => x = x' /\ 0 <= fst x < clear /\ Forall (fun c => 0 <= c < clear) (snd x)) (expand fuel clear code (z_head z) (z_tail z) st) (expand fuel clear code (z_head z') (z_tail z') st).
Proof.
  pose proof clr as CB. intros HZ. destruct HZ as [_ _ _ _ _ _ L1 L2 L3 L4 SZ MX _ _ _ TB]. induction fuel as [|fuel IH]; intros code st HC HF HS HL; cbn [expand].
  - destruct (Z.leb_spec clear code); [unfold okcode in HC; lia|]. cbn [orel fst snd]. unfold okcode in HC. split; [reflexivity|]. split; [lia|exact HS].
  - destruct (Z.leb_spec clear code) as [G|G].
    + unfold okcode in HC. destruct HC as [HC|HC]; [lia|]. destruct (TB code HC) as (T1 & T2 & T3 & T4).
      rewrite (aget_ok (z_tail z) code 0), (aget_ok (z_tail z') code 0) by lia. cbn [bind]. rewrite <- T2. unfold push, LZW_TABLE_SIZE. destruct (Nat.leb_spec (Z.to_nat 4096) (length st)); [lia|]. cbn [bind].
      rewrite (aget_ok (z_head z) code 0), (aget_ok (z_head z') code 0) by lia. cbn [bind]. rewrite <- T1.
      replace (u8 (nth (Z.to_nat code) (z_tail z) 0)) with (nth (Z.to_nat code) (z_tail z) 0) by (unfold u8; change (2 ^ 8) with 256; rewrite Z.mod_small; lia).
      apply IH; [unfold okcode in *; lia|unfold okcode in *; lia|constructor; [exact T4|exact HS]|unfold okcode in *; cbn [length]; lia].
    + cbn [orel fst snd]. unfold okcode in HC. split; [reflexivity|]. split; [lia|exact HS].
Qed.

Lemma clear_lt n : ics + 1 <= n -> clear + 1 < 2 ^ n.
Proof. pose proof clr. intros Hn. assert (E : 2 ^ (ics + 1) <= 2 ^ n) by (apply Z.pow_le_mono_r; lia). rewrite Z.pow_add_r in E by lia. change (2 ^ 1) with 2 in E. lia. Qed.

Lemma add_warn_rel w b b' : brel b b' -> brel (add_warn w b) (add_warn w b').
Proof. intros [B1 B2 B3 B4 B5 B6 B7 L1 L2 Y1 Y2 AG LB CU BT IN]. constructor; cbn [r_in r_buf r_lbyte r_lbit r_cbit r_first r_oob r_warn add_warn z_size z_limit z_max z_head z_tail z_stack z_old z_fc]; auto. congruence. Qed.

Lemma read_rel b b' z z' : brel b b' -> zrel z z' ->
  orel (fun x x' => let '(c, b1, z1) := x in let '(c', b1', z1') := x' in c = c' /\ brel b1 b1' /\ zrel z1 z1' /\ 0 <= c < clear)
    (LZWReadByte ics b z) (LZWReadByte ics b' z').
Proof.
  pose proof clr as CB. intros HB HZ. unfold LZWReadByte. pose proof HZ as [S1 S2 S3 S4 S5 S6 L1 L2 L3 L4 SZ MX OO OF ST TB]. rewrite S6. destruct (z_stack z) as [|x st] eqn:Est.
  2:{ cbn [orel]. split; [reflexivity|]. split; [exact HB|]. split; [|exact (Forall_inv ST)]. constructor; cbn [r_in r_buf r_lbyte r_lbit r_cbit r_first r_oob r_warn add_warn z_size z_limit z_max z_head z_tail z_stack z_old z_fc]; auto. exact (Forall_inv_tail ST). }
  rewrite S1. eapply orel_bind; [apply (GetCode_rel clear (z_size z) b b' ltac:(lia) (clear_lt (z_size z) ltac:(lia)) ltac:(lia) HB)|].
  intros [code b1] [code' b1'] (E & HB1 & HC & HM & HL). cbn [fst snd] in *. subst code'.
  destruct (Z.eqb_spec code clear) as [Ec|Ec].
  - (* clear *)
    assert (BL : bits_left b1' = bits_left b1) by (unfold bits_left; rewrite (br_in _ _ HB1), (br_lbit _ _ HB1), (br_cb _ _ HB1); reflexivity). rewrite BL.
    unfold ReInitLZW. cbn [z_size z_limit z_max z_head z_tail z_stack].
    eapply orel_bind; [apply (clear_loop_rel clear (ics + 1) ltac:(lia) (clear_lt (ics + 1) ltac:(lia)) ltac:(lia) _ b1 b1' HB1); unfold mu; destruct (r_first b1); lia|].
    intros [c2 b2] [c2' b2'] (E2 & HB2 & P2 & N2). cbn [fst snd] in *. subst c2'.
    assert (ZR : forall c, 0 <= c < clear -> zrel (mkGL (ics + 1) (Z.shiftl clear 1) (clear + 2) c c (z_head z) (z_tail z) []) (mkGL (ics + 1) (Z.shiftl clear 1) (clear + 2) c c (z_head z') (z_tail z') [])).
    { intros c Hc. constructor; cbn [z_size z_limit z_max z_head z_tail z_stack z_old z_fc]; auto; try lia; try (left; exact Hc). }
    destruct (Z.ltb_spec clear c2); cbn [orel].
    + split; [reflexivity|]. split; [apply add_warn_rel; exact HB2|]. split; [apply ZR; lia|lia].
    + split; [reflexivity|]. split; [exact HB2|]. split; [apply ZR; lia|lia].
  - destruct (Z.eqb_spec code (clear + 1)) as [Ee|Ee].
    + (* end code *)
      eapply (orel_bind brel).
      * rewrite (br_oob _ _ HB1). destruct (r_oob b1) eqn:EO; [exact HB1|]. rewrite (br_in _ _ HB1). eapply orel_bind; [apply skip_ok; [apply (br_byt _ _ HB1)|lia]|].
        intros inp inp' (-> & Q1 & Q2). cbn [orel]. destruct HB1 as [B1 B2 B3 B4 B5 B6 B7 M1 M2 Y1 Y2 AG LB CU BT IN]. constructor; cbn [r_in r_buf r_lbyte r_lbit r_cbit r_first r_oob r_warn add_warn z_size z_limit z_max z_head z_tail z_stack z_old z_fc]; auto.
      * intros b2 b2' HB2. cbn [orel]. split; [reflexivity|]. split; [apply add_warn_rel; exact HB2|]. split; [exact HZ|lia].
    + (* a code *)
      rewrite S3, S4, S5. assert (Hmx : code < 4096). { assert (2 ^ z_size z <= 2 ^ 12) by (apply Z.pow_le_mono_r; lia). change (2 ^ 12) with 4096 in *. lia. }
      eapply (orel_bind (fun x x' => let '(inc, c1, st1, b2) := x in let '(inc', c1', st1', b2') := x' in inc = inc' /\ c1 = c1' /\ st1 = st1' /\ brel b2 b2' /\
                 okcode (Z.min 4096 (z_max z + 1)) inc /\ okcode (z_max z) c1 /\ Forall (fun c => 0 <= c < clear) st1 /\ (length st1 <= 1)%nat)).
      * destruct (Z.leb_spec (z_max z) code) as [G|G].
        -- unfold push. cbn [length]. destruct (Nat.leb_spec (Z.to_nat LZW_TABLE_SIZE) 0) as [LL|LL]; [unfold LZW_TABLE_SIZE in LL; lia|].
           replace (u8 (z_fc z)) with (z_fc z) by (unfold u8; change (2 ^ 8) with 256; rewrite Z.mod_small; lia).
           assert (F1 : Forall (fun c => 0 <= c < clear) [z_fc z]) by (constructor; [exact OF|constructor]).
           destruct (Z.ltb_spec (z_max z) code) as [G2|G2]; cbn [bind orel].
           ++ split; [reflexivity|]. split; [reflexivity|]. split; [reflexivity|]. split; [apply add_warn_rel; exact HB1|]. split; [left; lia|]. split; [exact OO|]. split; [exact F1|cbn; lia].
           ++ split; [reflexivity|]. split; [reflexivity|]. split; [reflexivity|]. split; [exact HB1|]. split; [right; lia|]. split; [exact OO|]. split; [exact F1|cbn; lia].
        -- cbn [orel]. split; [reflexivity|]. split; [reflexivity|]. split; [reflexivity|]. split; [exact HB1|]. unfold okcode. split; [lia|]. split; [lia|]. split; [constructor|cbn; lia].
      * intros [[[inc c1] st1] b2] [[[inc' c1'] st1'] b2'] (-> & -> & -> & HB2 & O1 & O2 & F1 & LS).
        eapply orel_bind; [apply (expand_rel z z' HZ); [exact O2|unfold okcode, LZW_TABLE_SIZE in *; lia|exact F1|unfold okcode in *; lia]|].
        intros [fc st2] [fc' st2'] (E3 & F2 & F3). inversion E3; subst fc' st2'. cbn [fst snd] in *. clear E3.
        assert (U2 : u8 fc = fc) by (unfold u8; change (2 ^ 8) with 256; rewrite Z.mod_small; lia). rewrite U2.
        assert (U1 : u16 (z_old z) = z_old z) by (unfold u16, okcode in *; change (2 ^ 16) with 65536; rewrite Z.mod_small; lia). rewrite U1.
        eapply (orel_bind zrel).
        -- unfold LZW_TABLE_SIZE, MAX_LZW_BITS. destruct (Z.ltb_spec (z_max z) 4096) as [G|G].
           ++ rewrite !aset_ok by lia. cbn [bind]. rewrite S2.
              assert (ZR : forall sz lm, ics + 1 <= sz <= 12 -> zrel (mkGL sz lm (z_max z + 1) inc' fc (upd (z_head z) (Z.to_nat (z_max z)) (z_old z)) (upd (z_tail z) (Z.to_nat (z_max z)) fc) st2)
                  (mkGL sz lm (z_max z + 1) inc' fc (upd (z_head z') (Z.to_nat (z_max z)) (z_old z)) (upd (z_tail z') (Z.to_nat (z_max z)) fc) st2)).
              { intros sz lm Hsz. constructor; cbn [z_size z_limit z_max z_head z_tail z_stack z_old z_fc]; rewrite ?length_upd; auto; try lia.
                - unfold okcode in *. lia.
                - intros i Hi. destruct (Z.eq_dec i (z_max z)) as [->|N].
                  + rewrite !nth_upd_eq by lia. auto.
                  + rewrite !nth_upd_neq by lia. apply TB. lia. }
              destruct (Z.leb_spec (z_limit z) (z_max z + 1)); destruct (Z.ltb_spec (z_size z) 12); cbn [andb orel]; apply ZR; lia.
           ++ cbn [orel]. rewrite S2. constructor; cbn [z_size z_limit z_max z_head z_tail z_stack z_old z_fc]; auto. unfold okcode in *. lia.
        -- intros z2 z2' HZ2. cbn [orel]. split; [reflexivity|]. split; [exact HB2|]. split; [exact HZ2|exact F2].
Qed.

Lemma read_bytes_rel : forall n b b' z z', brel b b' -> zrel z z' ->
  orel (fun x x' => let '(l, b1, z1) := x in let '(l', b1', z1') := x' in l = l' /\ brel b1 b1' /\ zrel z1 z1' /\ Forall (fun c => 0 <= c < clear) l /\ length l = n)
    (read_bytes n ics b z) (read_bytes n ics b' z').
Proof.
  induction n as [|n IH]; intros b b' z z' HB HZ; cbn [read_bytes].
  - cbn [orel]. auto 10.
  - eapply orel_bind; [apply (read_rel b b' z z' HB HZ)|]. intros [[c b1] z1] [[c' b1'] z1'] (-> & HB1 & HZ1 & HC).
    eapply orel_bind; [apply (IH b1 b1' z1 z1' HB1 HZ1)|]. intros [[l b2] z2] [[l' b2'] z2'] (-> & HB2 & HZ2 & HF & HN). cbn [orel]. cbn [length]. auto 10.
Qed.
End Z.
