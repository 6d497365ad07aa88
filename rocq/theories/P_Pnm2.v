(* P_Pnm2.v -- rows of the PNM reader *)
From Verif Require Import Base M_Pnm S_Pnm P_Pnm.

Definition istext (fmt : Z) : bool := (fmt =? 50) || (fmt =? 51).
Definition src_ok (p : Z) (src : psrc) : Prop :=
  (s_fmt src = 50 \/ s_fmt src = 51 \/ s_fmt src = 53 \/ s_fmt src = 54) /\ 1 <= s_w src <= 65535 /\ 1 <= s_h src <= 65535 /\ 1 <= s_maxval src <= 65535 /\
  comps_of (s_cs src) (s_comps src) /\ (spp (s_fmt src) = 3%nat -> s_cs src <> JCS_GRAYSCALE) /\
  (if s_raw src then istext (s_fmt src) = false /\ p = 8 /\ s_maxval src = 255 /\ ((s_fmt src = 53 /\ s_cs src = JCS_GRAYSCALE) \/ (s_fmt src = 54 /\ (s_cs src = JCS_EXT_RGB \/ s_cs src = JCS_RGB)))
   else s_rescale src = Some (rescale_table p (s_maxval src))) /\
  (istext (s_fmt src) = false -> s_bw src = s_w src * Z.of_nat (spp (s_fmt src)) * (if s_maxval src <=? 255 then 1 else 2)).

Lemma src_ok_file : forall p src l, src_ok p src -> src_ok p (set_file src l).
Proof. intros p src l K. exact K. Qed.

Lemma start_safe : forall p cs maxpix file, prec_ok p -> cs_ok cs -> bytes file ->
  (exists e, start_input p cs maxpix file = Error e) \/
  exists src, start_input p cs maxpix file = Ret src /\ src_ok p src /\ bytes (s_file src) /\ (0 < maxpix -> s_w src * s_h src <= maxpix).
Proof.
  intros p cs maxpix file Hp Hcs Hb. unfold start_input.
  destruct file as [|x l0]; [left; eexists; reflexivity|]. 
  destruct (Z.eq_dec x 80) as [->|Nx]; [|left; destruct x as [|[q|q|]|]; try (eexists; reflexivity); repeat (destruct q as [q|q|]; try (eexists; reflexivity)); lia].
  destruct l0 as [|c l]; [left; eexists; reflexivity|].
  destruct (negb ((c =? 50) || (c =? 51) || (c =? 53) || (c =? 54))) eqn:Ec; [left; eexists; reflexivity|].
  apply negb_false_iff in Ec. rewrite !orb_true_iff, !Z.eqb_eq in Ec.
  assert (Hbl : bytes l) by (inversion Hb as [|? ? _ H1]; subst; inversion H1; assumption).
  destruct (rpi_safe 65535 l Hbl ltac:(lia)) as [(e & ->)|(w & l1 & -> & Hw & _ & B1)]; [left; exists e; reflexivity|]. cbn [bind].
  destruct (rpi_safe 65535 l1 B1 ltac:(lia)) as [(e & ->)|(h & l2 & -> & Hh & _ & B2)]; [left; exists e; reflexivity|]. cbn [bind].
  destruct (rpi_safe 65535 l2 B2 ltac:(lia)) as [(e & ->)|(m & l3 & -> & Hm & _ & B3)]; [left; exists e; reflexivity|]. cbn [bind].
  destruct (Z.leb_spec w 0); [left; eexists; reflexivity|]. destruct (Z.leb_spec h 0); [left; eexists; reflexivity|]. destruct (Z.leb_spec m 0); [left; eexists; reflexivity|]. cbn [orb].
  destruct (negb (maxpix =? 0) && (maxpix <? w * h)) eqn:Emp; [left; eexists; reflexivity|].
  set (cs' := if (c =? 50) || (c =? 53) then if (cs =? JCS_UNKNOWN) || (cs =? JCS_RGB) then JCS_GRAYSCALE else cs else if cs =? JCS_UNKNOWN then JCS_EXT_RGB else cs).
  destruct (negb (IsExtRGB cs' || (cs' =? JCS_CMYK) || (((c =? 50) || (c =? 53)) && (cs' =? JCS_GRAYSCALE)))) eqn:Ecs; [left; eexists; reflexivity|].
  apply negb_false_iff in Ecs.
  assert (Cm : exists n, (if IsExtRGB cs' then aget t_psize cs' else if cs' =? JCS_GRAYSCALE then Ret 1 else Ret 4) = Ret n /\ comps_of cs' n).
  { unfold comps_of. destruct (IsExtRGB cs') eqn:Ee.
    - destruct (layout_ex cs' Ee) as (ri & gi & bi & ai & ps & L1 & L2 & L3 & L4 & L5 & _). exists ps. split; [exact L5|]. right. right. split; [reflexivity|exact L5].
    - cbn [orb] in Ecs. destruct (Z.eqb_spec cs' JCS_GRAYSCALE) as [E|N].
      + exists 1. split; [reflexivity|]. left. auto.
      + rewrite andb_false_r, orb_false_r in Ecs. apply Z.eqb_eq in Ecs. exists 4. split; [reflexivity|]. right. left. auto. }
  destruct Cm as (n & -> & Hn). cbn [bind].
  right. eexists. split; [reflexivity|]. cbn [s_file s_w s_h]. split; [|split; [exact B3|]].
  2:{ intros Hpx. apply andb_false_iff in Emp. destruct Emp as [E|E]; [apply negb_false_iff, Z.eqb_eq in E; lia|apply Z.ltb_ge in E; lia]. }
  unfold src_ok. cbn [s_fmt s_w s_h s_maxval s_cs s_comps s_raw s_rescale s_bw].
  split; [tauto|]. split; [lia|]. split; [lia|]. split; [lia|]. split; [exact Hn|]. split.
  { intros K. unfold spp in K. intros Eg. rewrite Eg in Ecs. change (IsExtRGB JCS_GRAYSCALE) with false in Ecs. change (JCS_GRAYSCALE =? JCS_CMYK) with false in Ecs. cbn [orb] in Ecs.
    apply andb_true_iff in Ecs. destruct Ecs as (Ecs & _). apply orb_true_iff in Ecs. rewrite !Z.eqb_eq in Ecs. destruct Ecs as [-> | ->]; cbn in K; discriminate K. }
  split.
  { set (raw := (m <=? 255) && (m =? maxj p) && (p =? 8) && (((c =? 53) && (cs' =? JCS_GRAYSCALE)) || ((c =? 54) && ((cs' =? JCS_EXT_RGB) || (cs' =? JCS_RGB))))).
    destruct raw eqn:Er; [|reflexivity]. unfold raw in Er. rewrite !andb_true_iff, orb_true_iff, !andb_true_iff, orb_true_iff, !Z.eqb_eq in Er.
    destruct Er as (((R1 & R2) & R3) & R4). subst p. change (maxj 8) with 255 in R2. split; [|split; [reflexivity|]; split; [exact R2|exact R4]].
    unfold istext. destruct R4 as [(-> & _)|(-> & _)]; reflexivity. }
  intros Kt. unfold spp, istext in *. destruct (Z.eqb_spec c 54) as [->|N54]; [reflexivity|]. destruct Ec as [[[->| ->]| ->]| E]; [discriminate Kt|discriminate Kt|reflexivity|contradiction].
Qed.

(* the whole header *)
Lemma start_text : forall p cs fmt w h m hdr rest cs', prec_ok p -> (fmt = 50 \/ fmt = 51 \/ fmt = 53 \/ fmt = 54) ->
  text [w; h; m] hdr -> 1 <= w <= 65535 -> 1 <= h <= 65535 -> 1 <= m <= 65535 -> target fmt cs = Some cs' ->
  exists src, start_input p cs 0 (80 :: fmt :: hdr ++ rest) = Ret src /\ s_fmt src = fmt /\ s_w src = w /\ s_h src = h /\ s_maxval src = m /\ s_cs src = cs' /\ s_file src = rest.
Proof.
  intros p cs fmt w h m hdr rest cs' Hp Hf Ht Hw Hh Hm Hcs.
  inversion Ht as [|b1 d1 b2 ns t1 A1 A2 A3 A4 E1 E2]; subst. inversion A4 as [|b3 d2 b4 ns t2 A5 A6 A7 A8 E1 E2]; subst.
  inversion A8 as [|b5 d3 b6 ns t3 A9 A10 A11 A12 E1 E2]; subst. inversion A12; subst. rewrite app_nil_r. rewrite <- !app_assoc.
  unfold start_input.
  replace (negb ((fmt =? 50) || (fmt =? 51) || (fmt =? 53) || (fmt =? 54))) with false by (destruct Hf as [->|[->|[->| ->]]]; reflexivity).
  rewrite (rpi_text 65535) by (auto; lia). cbn [bind]. rewrite (rpi_text 65535) by (auto; lia). cbn [bind]. rewrite (rpi_text 65535) by (auto; lia). cbn [bind].
  destruct (Z.leb_spec (value d1) 0); [lia|]. destruct (Z.leb_spec (value d2) 0); [lia|]. destruct (Z.leb_spec (value d3) 0); [lia|]. cbn [orb]. 
  change (negb (0 =? 0)) with false. cbn [andb].
  set (cs1 := if (fmt =? 50) || (fmt =? 53) then if (cs =? JCS_UNKNOWN) || (cs =? JCS_RGB) then JCS_GRAYSCALE else cs else if cs =? JCS_UNKNOWN then JCS_EXT_RGB else cs).
  assert (T : cs1 = cs' /\ (IsExtRGB cs' || (cs' =? JCS_CMYK) || (((fmt =? 50) || (fmt =? 53)) && (cs' =? JCS_GRAYSCALE))) = true).
  { unfold target, spp in Hcs. unfold cs1.
    assert (Hg : ((fmt =? 50) || (fmt =? 53)) = negb ((fmt =? 51) || (fmt =? 54))) by (destruct Hf as [->|[->|[->| ->]]]; reflexivity).
    rewrite Hg. destruct ((fmt =? 51) || (fmt =? 54)); cbn [negb andb Nat.eqb] in *.
    - destruct (cs =? JCS_UNKNOWN); [injection Hcs as <-; split; reflexivity|]. destruct (IsExtRGB cs || (cs =? JCS_CMYK)) eqn:E; [|discriminate Hcs]. injection Hcs as <-. rewrite E. split; reflexivity.
    - destruct (Z.eqb_spec cs JCS_UNKNOWN) as [->|N0]; [injection Hcs as <-; split; reflexivity|]. destruct (Z.eqb_spec cs JCS_RGB) as [->|N1]; [injection Hcs as <-; split; reflexivity|].
      cbn [orb] in *. destruct (Z.eqb_spec cs JCS_GRAYSCALE) as [->|N2]; [injection Hcs as <-; split; reflexivity|].
      destruct (IsExtRGB cs || (cs =? JCS_CMYK)) eqn:E; [|discriminate Hcs]. injection Hcs as <-. rewrite E. split; reflexivity. }
  destruct T as (-> & ->). cbn [negb].
  assert (Cm : exists n, (if IsExtRGB cs' then aget t_psize cs' else if cs' =? JCS_GRAYSCALE then Ret 1 else Ret 4) = Ret n).
  { destruct (IsExtRGB cs') eqn:Ee; [|destruct (cs' =? JCS_GRAYSCALE); eexists; reflexivity].
    destruct (layout_ex cs' Ee) as (ri & gi & bi & ai & ps & L1 & L2 & L3 & L4 & L5 & _). exists ps. exact L5. }
  destruct Cm as (n & ->). cbn [bind]. eexists. split; [reflexivity|]. cbn [s_fmt s_w s_h s_maxval s_cs s_file]. auto 10.
Qed.

(* successive samples *)
Inductive reads (p : Z) (src : psrc) (direct : bool) : list Z -> list Z -> list Z -> Prop :=
| rd_nil : forall l, reads p src direct l [] l
| rd_cons : forall l s l1 ss l2, rd_sample p src direct l = Ret (s, l1) -> reads p src direct l1 ss l2 -> reads p src direct l (s :: ss) l2.

Lemma rgbsel : forall src, spp (s_fmt src) = if (s_fmt src =? 51) || (s_fmt src =? 54) then 3%nat else 1%nat.
Proof. reflexivity. Qed.

Lemma row_fun : forall p src direct, comps_of (s_cs src) (s_comps src) -> forall n ptr buf l ss l', reads p src direct l ss l' -> length ss = (spp (s_fmt src) * n)%nat ->
  0 <= ptr -> ptr + Z.of_nat n * s_comps src <= zlen buf ->
  exists buf', row_loop p src direct n ptr buf l = Ret (buf', l') /\ length buf' = length buf /\
    (forall i, (i < n)%nat -> hat p (s_cs src) (ptr + Z.of_nat i * s_comps src) buf' (pix (spp (s_fmt src)) ss i)) /\
    (forall j, 0 <= j < ptr -> gb buf' j = gb buf j).
Proof.
  intros p src direct Hc. assert (Hn : 1 <= s_comps src).
  { destruct Hc as [(_ & ->)|[(_ & ->)|(He & Hn)]]; [lia|lia|]. destruct (layout_ex _ He) as (ri & gi & bi & ai & ps & L1 & L2 & L3 & L4 & L5 & L6 & _). rewrite Hn in L5. injection L5 as ->. lia. }
  induction n as [|n IH]; intros ptr buf l ss l' R Hl Hp Hb.
  - rewrite Nat.mul_0_r in Hl. destruct ss; [|discriminate Hl]. inversion R; subst. exists buf. split; [reflexivity|]. split; [reflexivity|]. split; [lia|auto].
  - cbn [row_loop]. rewrite rgbsel in *. destruct ((s_fmt src =? 51) || (s_fmt src =? 54)).
    + destruct ss as [|a [|b [|d ss]]]; cbn [length] in Hl; try lia. inversion R as [|? ? l1 ? ? E1 R1]; subst. inversion R1 as [|? ? l2 ? ? E2 R2]; subst. inversion R2 as [|? ? l3 ? ? E3 R3]; subst.
      rewrite E1. cbn [bind]. rewrite E2. cbn [bind]. rewrite E3. cbn [bind].
      destruct (put_ok p (s_cs src) (s_comps src) ptr a b d buf Hc Hp ltac:(nia)) as (b1 & Eb & Lb & Hh & Fr). rewrite Eb. cbn [bind].
      destruct (IH (ptr + s_comps src) b1 l3 ss l' R3 ltac:(lia) ltac:(lia) ltac:(rewrite Lb; nia)) as (b2 & E & L & Q & F). exists b2. split; [exact E|]. split; [lia|]. split.
      * intros [|i] Hi.
        -- rewrite Z.add_0_r. apply (hat_frame p _ _ _ b1 b2 _ Hc Hp Hh). intros j Hj. apply F. lia.
        -- replace (ptr + Z.of_nat (S i) * s_comps src) with (ptr + s_comps src + Z.of_nat i * s_comps src) by lia.
           assert (Ep : pix 3 (a :: b :: d :: ss) (S i) = pix 3 ss i).
           { unfold pix. cbn [Nat.eqb]. replace (3 * S i)%nat with (S (S (S (3 * i)))) by lia. reflexivity. }
           rewrite Ep. apply Q. lia.
      * intros j Hj. rewrite F by lia. apply Fr; lia.
    + destruct ss as [|a ss]; cbn [length] in Hl; try lia. inversion R as [|? ? l1 ? ? E1 R1]; subst.
      rewrite E1. cbn [bind].
      destruct (put_ok p (s_cs src) (s_comps src) ptr a a a buf Hc Hp ltac:(nia)) as (b1 & Eb & Lb & Hh & Fr). rewrite Eb. cbn [bind].
      destruct (IH (ptr + s_comps src) b1 l1 ss l' R1 ltac:(lia) ltac:(lia) ltac:(rewrite Lb; nia)) as (b2 & E & L & Q & F). exists b2. split; [exact E|]. split; [lia|]. split.
      * intros [|i] Hi.
        -- rewrite Z.add_0_r. apply (hat_frame p _ _ _ b1 b2 _ Hc Hp Hh). intros j Hj. apply F. lia.
        -- replace (ptr + Z.of_nat (S i) * s_comps src) with (ptr + s_comps src + Z.of_nat i * s_comps src) by lia.
           change (pix 1 (a :: ss) (S i)) with (pix 1 ss i). apply Q. lia.
      * intros j Hj. rewrite F by lia. apply Fr; lia.
Qed.

Definition unit_ (src : psrc) : nat := if s_maxval src <=? 255 then 1%nat else 2%nat.
Definition dir (p : Z) (src : psrc) : bool := (s_maxval src =? maxj p) && negb (s_cs src =? JCS_GRAYSCALE).

Lemma word_val : forall a b, 0 <= a <= 255 -> 0 <= b <= 255 -> Z.lor (Z.shiftl a 8) b = a * 256 + b.
Proof.
  intros a b Ha Hb. rewrite Z.shiftl_mul_pow2 by lia. change (2 ^ 8) with 256.
  rewrite Z.add_nocarry_lxor, Z.lxor_lor; [reflexivity| |]; (apply Z.bits_inj'; intros k Hk; rewrite Z.land_spec, Z.bits_0;
  destruct (Z.ltb_spec k 8); [replace (Z.testbit (a * 256) k) with false; [reflexivity|symmetry; change 256 with (2 ^ 8); apply Z.mul_pow2_bits_low; lia]|
   replace (Z.testbit b k) with false; [apply andb_false_r|]; symmetry; destruct (Z.eq_dec b 0) as [->|Nb]; [apply Z.bits_0|]; apply Z.bits_above_log2; [lia|];
   assert (Z.log2 b < 8) by (apply Z.log2_lt_pow2; lia); lia]).
Qed.

Lemma rd_safe : forall p src l, prec_ok p -> src_ok p src -> s_raw src = false -> bytes l ->
  (istext (s_fmt src) = true \/ (unit_ src <= length l)%nat) ->
  (exists e, rd_sample p src (dir p src) l = Error e) \/
  exists s l', rd_sample p src (dir p src) l = Ret (s, l') /\ 0 <= s <= maxj p /\ bytes l' /\ (istext (s_fmt src) = false -> length l = (unit_ src + length l')%nat).
Proof.
  intros p src l Hp (Hf & _ & _ & Hm & _ & _ & Hr & _) Er Hb Ha. rewrite Er in Hr. unfold rd_sample, unit_, lookup in *. rewrite Hr. clear Hr.
  assert (HM : 255 <= maxj p) by (destruct (maxj_val p Hp) as [(_ & ->)|[(_ & ->)|(_ & ->)]]; lia).
  fold (istext (s_fmt src)). destruct (istext (s_fmt src)).
  - destruct (rpi_safe (s_maxval src) l Hb ltac:(lia)) as [(e & ->)|(v & l' & -> & Hv & _ & B)]; [left; exists e; reflexivity|]. cbn [bind]. right.
    unfold dir. destruct (Z.eqb_spec (s_maxval src) (maxj p)) as [Em|Nm]; [destruct (negb (s_cs src =? JCS_GRAYSCALE)); cbn [andb]|cbn [andb]].
    + cbn [bind]. exists (jcast p v), l'. split; [reflexivity|]. rewrite jcast_id by (try exact Hp; lia). split; [lia|]. split; [exact B|intros K; discriminate K].
    + rewrite table_ok by (try exact Hp; lia). cbn [bind]. eexists _, l'. split; [reflexivity|]. split; [apply scaled_range; [exact Hp|lia|lia]|]. split; [exact B|intros K; discriminate K].
    + rewrite table_ok by (try exact Hp; lia). cbn [bind]. eexists _, l'. split; [reflexivity|]. split; [apply scaled_range; [exact Hp|lia|lia]|]. split; [exact B|intros K; discriminate K].
  - destruct Ha as [Ha|Ha]; [discriminate Ha|]. destruct (Z.leb_spec (s_maxval src) 255).
    + right. destruct l as [|v l]; [cbn in Ha; lia|]. inversion Hb as [|? ? Hv Hl]; subst. destruct (dir p src) eqn:Ed.
      * cbn [bind]. exists v, l. split; [reflexivity|]. split; [lia|]. split; [exact Hl|]. intros _. reflexivity.
      * rewrite table_ok by (try exact Hp; lia). cbn [bind]. eexists _, l. split; [reflexivity|]. split; [apply scaled_range; [exact Hp|lia|lia]|]. split; [exact Hl|]. intros _. reflexivity.
    + destruct l as [|a [|b l]]; try (cbn in Ha; lia). inversion Hb as [|? ? Hv Hl]; subst. inversion Hl as [|? ? Hv2 Hl2]; subst.
      rewrite word_val by lia. destruct (Z.ltb_spec (s_maxval src) (a * 256 + b)); [left; eexists; reflexivity|]. right.
      rewrite table_ok by (try exact Hp; lia). cbn [bind]. eexists _, l. split; [reflexivity|]. split; [apply scaled_range; [exact Hp|lia|lia]|]. split; [exact Hl2|]. intros _. reflexivity.
Qed.

Lemma row_dich : forall p src, prec_ok p -> src_ok p src -> s_raw src = false -> forall n ptr buf l, bytes l ->
  (istext (s_fmt src) = true \/ (unit_ src * (spp (s_fmt src) * n) <= length l)%nat) -> 0 <= ptr -> ptr + Z.of_nat n * s_comps src <= zlen buf ->
  (exists e, row_loop p src (dir p src) n ptr buf l = Error e) \/
  exists ss l', reads p src (dir p src) l ss l' /\ length ss = (spp (s_fmt src) * n)%nat /\ Forall (fun s => 0 <= s <= maxj p) ss /\ bytes l'.
Proof.
  intros p src Hp Hs Hr. assert (Hc : comps_of (s_cs src) (s_comps src)) by (apply Hs).
  assert (Hn : 1 <= s_comps src).
  { destruct Hc as [(_ & ->)|[(_ & ->)|(He & Hn)]]; [lia|lia|]. destruct (layout_ex _ He) as (ri & gi & bi & ai & ps & L1 & L2 & L3 & L4 & L5 & L6 & _). rewrite Hn in L5. injection L5 as ->. lia. }
  induction n as [|n IH]; intros ptr buf l Hb Ha Hpt Hbuf.
  - right. exists [], l. split; [constructor|]. split; [cbn; lia|]. split; [constructor|exact Hb].
  - cbn [row_loop].
    assert (HU : (1 <= unit_ src)%nat) by (unfold unit_; destruct (s_maxval src <=? 255); lia).
    rewrite rgbsel in *. destruct ((s_fmt src =? 51) || (s_fmt src =? 54)).
    + destruct (rd_safe p src l Hp Hs Hr Hb) as [(e & ->)|(a & l1 & E1 & R1 & B1 & N1)]; [destruct Ha; [left; assumption|right; nia]|left; exists e; reflexivity|]. rewrite E1. cbn [bind].
      destruct (rd_safe p src l1 Hp Hs Hr B1) as [(e & ->)|(b & l2 & E2 & R2 & B2 & N2)].
      { destruct (istext (s_fmt src)); [left; reflexivity|right]. destruct Ha as [Ha|Ha]; [discriminate Ha|]. specialize (N1 eq_refl). nia. } { left; exists e; reflexivity. } rewrite E2. cbn [bind].
      destruct (rd_safe p src l2 Hp Hs Hr B2) as [(e & ->)|(d & l3 & E3 & R3 & B3 & N3)].
      { destruct (istext (s_fmt src)); [left; reflexivity|right]. destruct Ha as [Ha|Ha]; [discriminate Ha|]. specialize (N1 eq_refl). specialize (N2 eq_refl). nia. } { left; exists e; reflexivity. } rewrite E3. cbn [bind].
      destruct (put_ok p (s_cs src) (s_comps src) ptr a b d buf Hc Hpt ltac:(nia)) as (b1 & Eb & Lb & _ & _). rewrite Eb. cbn [bind].
      destruct (IH (ptr + s_comps src) b1 l3 B3) as [(e & X)|(ss & l' & X1 & X2 & X3 & X4)].
      { destruct (istext (s_fmt src)); [left; reflexivity|right]. destruct Ha as [Ha|Ha]; [discriminate Ha|]. specialize (N1 eq_refl). specialize (N2 eq_refl). specialize (N3 eq_refl). nia. }
      { lia. } { rewrite Lb. nia. } { left. exists e. exact X. }
      right. exists (a :: b :: d :: ss), l'. split; [eapply rd_cons; [exact E1|]; eapply rd_cons; [exact E2|]; eapply rd_cons; [exact E3|exact X1]|].
      split; [cbn [length]; lia|]. split; [repeat constructor; auto; lia|exact X4].
    + destruct (rd_safe p src l Hp Hs Hr Hb) as [(e & ->)|(a & l1 & E1 & R1 & B1 & N1)]; [destruct Ha; [left; assumption|right; nia]|left; exists e; reflexivity|]. rewrite E1. cbn [bind].
      destruct (put_ok p (s_cs src) (s_comps src) ptr a a a buf Hc Hpt ltac:(nia)) as (b1 & Eb & Lb & _ & _). rewrite Eb. cbn [bind].
      destruct (IH (ptr + s_comps src) b1 l1 B1) as [(e & X)|(ss & l' & X1 & X2 & X3 & X4)].
      { destruct (istext (s_fmt src)); [left; reflexivity|right]. destruct Ha as [Ha|Ha]; [discriminate Ha|]. specialize (N1 eq_refl). nia. }
      { lia. } { rewrite Lb. nia. } { left. exists e. exact X. }
      right. exists (a :: ss), l'. split; [eapply rd_cons; [exact E1|exact X1]|].
      split; [cbn [length]; lia|]. split; [constructor; [lia|exact X3]|exact X4].
Qed.
