(* P_BitRead.v -- the bit reader refines an abstract bit stream *)
From Verif Require Import Base M_HuffTbl S_Huff P_HuffTbl P_HuffTblD M_Source M_BitRead S_Stream.

(* ---- source facts ---- *)
Definition byte (b : Z) : Prop := 0 <= b < 256.
Definition src_ok (s : source) : Prop :=
  Forall byte (src_bytes s) /\ (ssusp s = true -> schunks s = []).

Lemma next_byte_some s c s' : next_byte s = Some (c, s') ->
  ssusp s' = ssusp s /\
  (src_bytes s = c :: src_bytes s' \/
   (ssusp s = false /\ src_bytes s = [] /\ c = 255 /\ src_bytes s' = [217])).
Proof.
  unfold next_byte, src_bytes. destruct s as [b cs u]; cbn [sbuf schunks ssusp].
  destruct b as [|x b].
  - unfold fill_input_buffer; cbn [sbuf schunks ssusp]. destruct u; [discriminate|].
    destruct cs as [|[h t] cs]; cbn [sbuf schunks ssusp]; intros H; inversion H; subst; cbn [sbuf schunks ssusp];
      split; auto.
  - intros H; inversion H; subst; cbn. auto.
Qed.

Lemma next_byte_none s : src_ok s -> next_byte s = None -> ssusp s = true /\ src_bytes s = [].
Proof.
  intros [_ Hs]. unfold next_byte, src_bytes. destruct s as [b cs u]; cbn [sbuf schunks ssusp] in *.
  destruct b as [|x b]; [|discriminate].
  unfold fill_input_buffer; cbn [sbuf schunks ssusp]. destruct u; [rewrite (Hs eq_refl); auto|].
  destruct cs as [|[h t] cs]; cbn; discriminate.
Qed.

Lemma next_byte_ok s c s' : src_ok s -> next_byte s = Some (c, s') -> src_ok s' /\ byte c.
Proof.
  intros [H1 H2] E. destruct (next_byte_some s c s' E) as [Hu [Hb|(Hf & Hb & -> & Hb')]].
  - rewrite Hb in H1. inversion H1; subst. split; [split; auto|auto].
    intros Hs. rewrite Hu in Hs. specialize (H2 Hs).
    unfold next_byte in E. destruct s as [b cs u]; cbn in *. subst cs.
    destruct b; [|inversion E; subst; auto].
    unfold fill_input_buffer in E; cbn in E. subst u. discriminate.
  - split; [split|split; lia].
    + rewrite Hb'. repeat constructor; discriminate.
    + intros Hs. congruence.
Qed.

Lemma seg_ff_255 u r : seg u true (255 :: r) = seg u true r.
Proof. reflexivity. Qed.

Lemma skip_ff_spec : forall fuel s, src_ok s -> (length (src_bytes s) + 3 < fuel)%nat ->
  match skip_ff fuel s with
  | None => False
  | Some None => ssusp s = true /\ seg (ssusp s) true (src_bytes s) = ([], None)
  | Some (Some (c, s')) => c <> 255 /\ byte c /\ src_ok s' /\ ssusp s' = ssusp s /\
      seg (ssusp s) true (src_bytes s) =
      if c =? 0 then let '(d, t) := seg (ssusp s) false (src_bytes s') in (255 :: d, t)
      else ([], Some (c, src_bytes s'))
  end.
Proof.
  induction fuel as [|f IH]; intros s Hs Hf; [lia|]. cbn [skip_ff].
  destruct (next_byte s) as [[c s1]|] eqn:E.
  - destruct (next_byte_ok s c s1 Hs E) as [Hs1 Hc].
    destruct (next_byte_some s c s1 E) as [Hu [Hb|(Hfu & Hb & -> & Hb')]].
    + rewrite Hb. destruct (Z.eqb_spec c 255) as [->|Hne].
      * specialize (IH s1 Hs1). rewrite Hb in Hf. cbn [length] in Hf. specialize (IH ltac:(lia)).
        destruct (skip_ff f s1) as [[[c' s']|]|]; auto.
        -- destruct IH as (I1 & I2 & I3 & I4 & I5). rewrite Hu in I4, I5.
           split; auto. 
        -- destruct IH as (I1 & I2). rewrite Hu in I1, I2. split; auto.
      * split; [auto|]. split; [auto|]. split; [auto|]. split; [auto|].
        cbn [seg]. destruct (Z.eqb_spec c 255); [lia|]. reflexivity.
    + rewrite Hb. cbn [length] in Hf. rewrite Hb in Hf. cbn in Hf.
      replace (255 =? 255) with true by reflexivity.
      destruct f as [|f]; [lia|]. cbn [skip_ff].
      assert (E1 : exists s2, next_byte s1 = Some (217, s2) /\ src_bytes s2 = [] /\ ssusp s2 = ssusp s1).
      { clear - E Hfu Hb. destruct s as [b cs u]. unfold src_bytes in Hb. cbn [sbuf schunks ssusp] in *.
        apply app_eq_nil in Hb. destruct Hb as [-> Hcs]. destruct cs as [|[? ?] ?]; [|cbn in Hcs; discriminate].
        subst u. unfold next_byte in E. cbn in E. inversion E as [Es]. subst s1.
        eexists. split; [reflexivity|]. split; reflexivity. }
      destruct E1 as (s2 & E1 & Hb2 & Hu2). rewrite E1. cbn [Z.eqb Pos.eqb].
      split; [lia|]. split; [split; lia|]. destruct (next_byte_ok s1 217 s2 Hs1 E1) as [Hs2 _].
      split; auto. split; [congruence|]. cbn [seg]. rewrite Hfu, Hb2. reflexivity.
  - destruct (next_byte_none s Hs E) as [Hu Hb]. rewrite Hb, Hu. auto.
Qed.

(* ---- abstraction of a reader state ---- *)
Section Abs.
Context {U : Type}.

Definition sseg (s : source) := seg (ssusp s) false (src_bytes s).
Definition abits (s : dst U) : list bool :=
  bits_of (Z.to_nat (bleft s)) (gbuf s) ++
  (if unread s =? 0 then bytes_to_bits (fst (sseg (dsrc s))) else []).
(* what ends the segment: marker and following bytes *)
Definition tail (s : dst U) : option (Z * list Z) :=
  if unread s =? 0 then snd (sseg (dsrc s)) else Some (unread s, src_bytes (dsrc s)).

Record ctx := mkCtx { cS : nat -> bool; cL : nat; cT : option (Z * list Z); cU : bool }.

(* p = position of the reader, q >= p the furthest position asked for *)
Record inv (c : ctx) (W : list jwarn) (p q : nat) (s : dst U) : Prop := mkInv {
  i_left : 0 <= bleft s <= 64;
  i_src : src_ok (dsrc s);
  i_str : forall i, (i < length (abits s))%nat \/ cT c <> None -> nth i (abits s) false = cS c (p + i);
  i_ins : insuff s = (cL c <? q)%nat;
  i_len : insuff s = false -> (p + length (abits s) = cL c)%nat;
  i_fake : insuff s = true -> unread s <> 0;
  i_tail : tail s = cT c;
  i_susp : ssusp (dsrc s) = cU c;
  i_warn : insuff s = false -> warns s = W;
  i_warn2 : insuff s = true -> In JWRN_HIT_MARKER (warns s)
}.

Definition wp {A} (m : DM U A) (s : dst U) (P : A -> dst U -> Prop) (Q : dst U -> Prop) : Prop :=
  match m s with Ret (Done a s') => P a s' | Ret (Susp s') => Q s' | _ => False end.

Lemma wp_bind {A B} (m : DM U A) (f : A -> DM U B) s P Q :
  wp m s (fun a s' => wp (f a) s' P Q) Q -> wp (dbind m f) s P Q.
Proof. unfold wp, dbind. destruct (m s) as [[a s'|s']| |]; auto. Qed.

Lemma wp_mono {A} (m : DM U A) s (P P' : A -> dst U -> Prop) (Q Q' : dst U -> Prop) :
  wp m s P Q -> (forall a s', P a s' -> P' a s') -> (forall s', Q s' -> Q' s') -> wp m s P' Q'.
Proof. unfold wp. destruct (m s) as [[a s'|s']| |]; auto. Qed.

Lemma wp_run {A} (m m' : DM U A) s P Q : m s = m' s -> wp m' s P Q -> wp m s P Q.
Proof. unfold wp. intros ->. auto. Qed.

(* suspension: only a suspending source without a complete segment; nothing permanent changed *)
Definition susp_post (c : ctx) (s s' : dst U) : Prop :=
  cT c = None /\ cU c = true /\ unread s' = 0 /\ insuff s' = false /\ ust s' = ust s.

Lemma bits_of_load n v c : 0 <= c < 256 -> (n <= 64)%nat -> (8 <= n)%nat ->
  bits_of n (u64 (Z.lor (Z.shiftl v 8) c)) = bits_of (n - 8) v ++ bits_of 8 c.
Proof.
  intros Hc Hn Hn8. replace n with ((n - 8) + 8)%nat at 1 by lia. rewrite bits_of_app. f_equal.
  - apply bits_of_ext. intros i Hi. rewrite Z.shiftr_spec by lia. unfold u64.
    rewrite Z.mod_pow2_bits_low by lia. rewrite Z.lor_spec, Z.shiftl_spec by lia.
    rewrite (Z.bits_above_log2 c (i + Z.of_nat 8)), orb_false_r; [f_equal; lia|lia|].
    destruct (Z.eq_dec c 0) as [->|]; [cbn; lia|]. apply Z.log2_lt_pow2; [lia|].
    eapply Z.lt_le_trans; [apply Hc|]. change 256 with (2 ^ 8). apply Z.pow_le_mono_r; lia.
  - apply bits_of_ext. intros i Hi. unfold u64. rewrite Z.mod_pow2_bits_low by lia.
    rewrite Z.lor_spec, Z.shiftl_spec_low by lia. reflexivity.
Qed.

(* the loading loop *)
Lemma fill_loop_spec : forall fuel (s : dst U),
  unread s = 0 -> 0 <= bleft s <= 64 -> src_ok (dsrc s) -> 57 - bleft s < 8 * Z.of_nat fuel - 7 ->
  wp (fill_loop fuel) s
    (fun m s' =>
       0 <= bleft s' <= 64 /\ bleft s <= bleft s' /\ src_ok (dsrc s') /\ abits s' = abits s /\ tail s' = tail s /\
       insuff s' = insuff s /\ warns s' = warns s /\ ust s' = ust s /\ ssusp (dsrc s') = ssusp (dsrc s) /\
       match m with
       | None => unread s' = 0 /\ 57 <= bleft s'
       | Some k => unread s' = k /\ k <> 0 /\ bleft s' < 57
       end)
    (fun s' => tail s = None /\ ssusp (dsrc s) = true /\ unread s' = 0 /\ insuff s' = insuff s /\
               ust s' = ust s).
Proof.
  induction fuel as [|f IH]; intros s Hu Hb Hs Hf; [lia|].
  unfold wp in *. cbn [fill_loop]. destruct (Z.ltb_spec (bleft s) 57) as [Hlt|Hge].
  2:{ split; [lia|]. split; [lia|]. split; [auto|]. repeat (split; auto). }
  destruct (next_byte (dsrc s)) as [[c s1]|] eqn:E.
  2:{ destruct (next_byte_none _ Hs E) as [H1 H2]. unfold tail, sseg. rewrite Hu, H1, H2. cbn. auto. }
  destruct (next_byte_ok _ _ _ Hs E) as [Hs1 Hc].
  destruct (next_byte_some _ _ _ E) as [Hus Hcase].
  assert (Hload : forall v s2, sseg (dsrc s) = (v :: fst (sseg s2), snd (sseg s2)) -> 0 <= v < 256 ->
    src_ok s2 -> ssusp s2 = ssusp (dsrc s) ->
    let s' := mkD (u64 (Z.lor (Z.shiftl (gbuf s) 8) v)) (bleft s + 8) s2 (unread s) (insuff s) (warns s) (ust s) in
    abits s' = abits s /\ tail s' = tail s).
  { intros v s2 Hseg Hv Hs2 Hu2 s'. unfold abits, tail, s'; cbn [gbuf bleft dsrc unread].
    rewrite Hu, Hseg. cbn [fst snd Z.eqb bytes_to_bits]. split; auto.
    rewrite bits_of_load by lia. rewrite <- app_assoc. f_equal. f_equal. lia. }
  destruct (Z.eqb_spec c 255) as [->|Hne].
  - pose proof (skip_ff_spec (src_size s1 + 4) s1 Hs1 ltac:(unfold src_size; lia)) as Hk.
    assert (Hseg : sseg (dsrc s) = seg (ssusp s1) true (src_bytes s1)).
    { unfold sseg. destruct Hcase as [Hb1|(Hfu & Hb1 & _ & Hb2)].
      - rewrite Hb1, <- Hus. reflexivity.
      - rewrite Hb1, Hb2, Hus, Hfu. reflexivity. }
    destruct (skip_ff (src_size s1 + 4) s1) as [[[c2 s2]|]|]; [| |tauto].
    + destruct Hk as (K1 & K2 & K3 & K4 & K5).
      destruct (Z.eqb_spec c2 0) as [->|Hne2].
      * destruct (Hload 255 s2) as [L1 L2]; auto; try lia.
        { rewrite Hseg, K5. cbn [Z.eqb]. unfold sseg. rewrite K4.
          destruct (seg (ssusp s1) false (src_bytes s2)); reflexivity. }
        { congruence. }
        specialize (IH (mkD (u64 (Z.lor (Z.shiftl (gbuf s) 8) 255)) (bleft s + 8) s2 (unread s) (insuff s) (warns s) (ust s))).
        cbn [unread bleft dsrc insuff warns ust] in IH. specialize (IH Hu ltac:(lia) K3 ltac:(lia)).
        destruct (fill_loop f _) as [[m s'|s']| |]; auto; rewrite L2 in *; [rewrite L1 in *|];
          rewrite K4, Hus in *.
        -- destruct IH as (A1&A2&A3&A4&A5&A6&A7&A8&A9&A10). repeat (split; auto); try lia; destruct m; tauto.
        -- tauto.
      * cbn [bleft dsrc unread insuff warns ust].
        destruct (Z.eqb_spec c2 0); [lia|]. rewrite Hseg in *.
        split; [lia|]. split; [lia|]. split; [auto|].
        split. { unfold abits; cbn [bleft gbuf unread dsrc]. rewrite Hu. destruct (Z.eqb_spec c2 0); [lia|].
                 cbn [Z.eqb]. rewrite Hseg, K5. reflexivity. }
        split. { unfold tail; cbn [bleft gbuf unread dsrc]. rewrite Hu. destruct (Z.eqb_spec c2 0); [lia|].
                 cbn [Z.eqb]. rewrite Hseg, K5. reflexivity. }
        repeat (split; auto); try congruence; try lia.
    + destruct Hk as [K1 K2]. unfold tail. rewrite Hu. cbn [Z.eqb]. rewrite Hseg, K2. cbn.
      repeat split; auto; congruence.
  - destruct Hcase as [Hb1|(_ & _ & Hx & _)]; [|congruence].
    destruct (Hload c s1) as [L1 L2]; auto.
    { unfold sseg. rewrite Hb1, Hus. cbn [seg]. destruct (Z.eqb_spec c 255); [lia|].
      destruct (seg (ssusp (dsrc s)) false (src_bytes s1)); reflexivity. }
    specialize (IH (mkD (u64 (Z.lor (Z.shiftl (gbuf s) 8) c)) (bleft s + 8) s1 (unread s) (insuff s) (warns s) (ust s))).
    cbn [unread bleft dsrc insuff warns ust] in IH. specialize (IH Hu ltac:(lia) Hs1 ltac:(lia)).
    destruct (fill_loop f _) as [[m s'|s']| |]; auto; rewrite L2 in *; [rewrite L1 in *|]; rewrite Hus in *.
    + destruct IH as (A1&A2&A3&A4&A5&A6&A7&A8&A9&A10). repeat (split; auto); try lia; destruct m; tauto.
    + tauto.
Qed.

Lemma abits_len (s : dst U) : 0 <= bleft s -> (Z.to_nat (bleft s) <= length (abits s))%nat.
Proof. intros. unfold abits. rewrite app_length, length_bits_of. lia. Qed.

Lemma nth_app_false (l : list bool) z i : nth i (l ++ repeat false z) false = nth i l false.
Proof.
  destruct (Nat.lt_ge_cases i (length l)).
  - now rewrite app_nth1.
  - rewrite app_nth2, nth_repeat by lia. now rewrite nth_overflow by lia.
Qed.

Lemma bits_of_shift n k v : (n + k <= 64)%nat ->
  bits_of (n + k) (u64 (Z.shiftl v (Z.of_nat k))) = bits_of n v ++ repeat false k.
Proof.
  intros H. rewrite bits_of_app. f_equal.
  - apply bits_of_ext. intros i Hi. rewrite Z.shiftr_spec by lia. unfold u64.
    rewrite Z.mod_pow2_bits_low by lia. rewrite Z.shiftl_spec by lia. f_equal. lia.
  - assert (G : forall j, (j <= k)%nat -> bits_of j (u64 (Z.shiftl v (Z.of_nat k))) = repeat false j).
    { induction j; intros Hj; cbn [bits_of repeat]; auto. f_equal; [|apply IHj; lia].
      unfold u64. rewrite Z.mod_pow2_bits_low by lia. apply Z.shiftl_spec_low. lia. }
    apply G. lia.
Qed.

(* jpeg_fill_bit_buffer *)
Lemma fill_spec c W p q n (s : dst U) :
  inv c W p q s -> (q = p \/ n = 0) -> 0 <= n <= 57 -> bleft s < 57 ->
  wp (jpeg_fill_bit_buffer n) s
     (fun _ s' => inv c W p (max q (p + Z.to_nat n)) s' /\ n <= bleft s' /\ ust s' = ust s /\
                  (n = 0 -> q = p -> inv c W p p s'))
     (susp_post c s).
Proof.
  intros I Hq Hn Hb57. destruct I as [Hl Hs Hstr Hins Hlen Hfake Htail Hsu Hw Hw2].
  (* behaviour of no_more_bytes from a state with everything loaded *)
  assert (NM : forall s1 : dst U, 0 <= bleft s1 <= 64 -> bleft s1 < 57 -> src_ok (dsrc s1) -> abits s1 = abits s -> tail s1 = tail s ->
     insuff s1 = insuff s -> warns s1 = warns s -> ust s1 = ust s -> ssusp (dsrc s1) = ssusp (dsrc s) ->
     unread s1 <> 0 ->
     wp (no_more_bytes n) s1
     (fun _ s' => inv c W p (max q (p + Z.to_nat n)) s' /\ n <= bleft s' /\ ust s' = ust s /\
                  (n = 0 -> q = p -> inv c W p p s'))
     (susp_post c s)).
  { intros s1 L1 L1' S1 A1 T1 I1 W1 U1 SU1 M1. unfold wp, no_more_bytes.
    assert (Hab : length (abits s1) = Z.to_nat (bleft s1)).
    { unfold abits. destruct (Z.eqb_spec (unread s1) 0); [lia|]. rewrite app_nil_r. apply length_bits_of. }
    destruct (Z.ltb_spec (bleft s1) n) as [Hshort|Hgood].
    - destruct (Z.ltb_spec 57 (bleft s1)); [lia|].
      set (s' := mkD _ _ _ _ _ _ _).
      assert (Hab' : abits s' = abits s ++ repeat false (57 - Z.to_nat (bleft s1))).
      { rewrite <- A1. unfold abits, s'; cbn [bleft gbuf unread dsrc].
        destruct (Z.eqb_spec (unread s1) 0); [lia|]. rewrite !app_nil_r.
        replace (57 - bleft s1) with (Z.of_nat (57 - Z.to_nat (bleft s1))) by lia.
        replace (Z.to_nat 57) with (Z.to_nat (bleft s1) + (57 - Z.to_nat (bleft s1)))%nat by lia.
        apply bits_of_shift. lia. }
      assert (Hlt : (cL c < p + Z.to_nat n)%nat).
      { destruct (insuff s) eqn:Ei.
        - symmetry in Hins. apply Nat.ltb_lt in Hins. destruct Hq as [->|Hn0]; lia.
        - specialize (Hlen eq_refl). rewrite <- A1, Hab in Hlen. lia. }
      split; [|split; [cbn; lia|split; [exact U1|lia]]].
      constructor; unfold s'; cbn [bleft gbuf dsrc unread insuff warns ust]; fold s'; auto; try lia; try congruence.
      + intros i _. rewrite Hab', nth_app_false. apply Hstr. right. rewrite <- Htail, <- T1. unfold tail.
        destruct (Z.eqb_spec (unread s1) 0); [lia|discriminate].
      + symmetry. apply Nat.ltb_lt. lia.
      + unfold tail, s'; cbn [unread dsrc]. fold (tail s1). congruence.
      + intros _. destruct (insuff s1) eqn:Ei; [rewrite W1; apply Hw2; congruence|left; reflexivity].
    - assert (Hi : forall q', (insuff s = false -> cL c <? q' = false)%nat -> (insuff s = true -> cL c <? q' = true)%nat ->
        inv c W p q' s1).
      { intros q' H1 H2. constructor; rewrite ?I1, ?A1, ?T1, ?SU1, ?W1; auto.
        destruct (insuff s); symmetry; auto. }
      split; [|split; [exact Hgood|split; [exact U1|]]].
      + apply Hi.
        * intros Ei. specialize (Hlen Ei). rewrite <- A1, Hab in Hlen. rewrite Ei in Hins.
          symmetry in Hins. apply Nat.ltb_ge in Hins. apply Nat.ltb_ge. lia.
        * intros Ei. rewrite Ei in Hins. symmetry in Hins. apply Nat.ltb_lt in Hins. apply Nat.ltb_lt. lia.
      + intros _ Hqp. subst q. apply Hi; intros Ei; congruence. }
  unfold jpeg_fill_bit_buffer. destruct (Z.eqb_spec (unread s) 0) as [Hu|Hu].
  - eapply wp_run with (m' := m <~ fill_loop 9 ;; match m with None => dret tt | Some _ => no_more_bytes n end).
    { rewrite Hu. reflexivity. }
    apply wp_bind. eapply wp_mono; [apply fill_loop_spec; auto; lia| |].
    + intros m s1 (A1 & A0 & A2 & A3 & A4 & A5 & A6 & A7 & A8 & A9). destruct m as [k|].
      * destruct A9 as (B1 & B2 & B3). apply NM; auto. congruence.
      * destruct A9 as (B1 & B2). unfold wp, dret.
        assert (Hins' : insuff s = false).
        { destruct (insuff s); auto. exfalso. apply (Hfake eq_refl Hu). }
        assert (Hi : forall q', (q' = q \/ q' = p + Z.to_nat n \/ q' = max q (p + Z.to_nat n))%nat -> inv c W p q' s1).
        { intros q' Hq'. constructor; rewrite ?A3, ?A4, ?A5, ?A6, ?A8, ?Hins'; auto; try discriminate.
          symmetry. apply Nat.ltb_ge.
          rewrite Hins' in Hins. symmetry in Hins. apply Nat.ltb_ge in Hins.
          pose proof (abits_len s1 ltac:(lia)). rewrite A3 in H. specialize (Hlen Hins'). lia. }
        split; [apply Hi; auto|]. split; [lia|]. split; [auto|]. intros _ ->. apply Hi; auto.
    + intros s1 (B1 & B2 & B3 & B4 & B5). unfold susp_post. rewrite <- Htail, <- Hsu.
      assert (insuff s = false). { destruct (insuff s); auto. exfalso. apply (Hfake eq_refl Hu). }
      repeat split; auto; congruence.
  - eapply wp_run with (m' := no_more_bytes n).
    { destruct (Z.eqb_spec (unread s) 0); [lia|reflexivity]. }
    apply NM; auto.
Qed.

Lemma inv_weaken c W p q q' s : inv c W p q s -> (insuff s = false -> (q' <= cL c)%nat) -> (q <= q')%nat -> inv c W p q' s.
Proof.
  intros [H1 H2 H3 H4 H5 H6 H7 H8 H9 H10] Hq Hqq. constructor; auto.
  destruct (insuff s) eqn:E.
  - symmetry in H4. apply Nat.ltb_lt in H4. symmetry. apply Nat.ltb_lt. lia.
  - symmetry. apply Nat.ltb_ge. auto.
Qed.

Lemma check_spec c W p n (s : dst U) :
  inv c W p p s -> 0 <= n <= 57 ->
  wp (check_bit_buffer n) s
     (fun _ s' => inv c W p (p + Z.to_nat n) s' /\ n <= bleft s' /\ ust s' = ust s)
     (susp_post c s).
Proof.
  intros I Hn. destruct (Z.ltb_spec (bleft s) n).
  - eapply wp_run with (m' := jpeg_fill_bit_buffer n).
    { unfold check_bit_buffer. destruct (Z.ltb_spec (bleft s) n); [reflexivity|lia]. }
    eapply wp_mono; [apply fill_spec; eauto; lia| |auto].
    cbn beta. intros _ s' (H1 & H2 & H3 & _). rewrite Nat.max_r in H1 by lia. auto.
  - eapply wp_run with (m' := dret tt).
    { unfold check_bit_buffer. destruct (Z.ltb_spec (bleft s) n); [lia|reflexivity]. }
    unfold wp, dret. split; auto. eapply inv_weaken; [exact I| |lia].
    intros Hf. destruct I as [Hl _ _ _ Hlen _ _ _ _ _]. specialize (Hlen Hf).
    pose proof (abits_len s ltac:(lia)). lia.
Qed.

Lemma bits_of_land n b v : (n <= b)%nat ->
  Z.land (Z.shiftr v (Z.of_nat b - Z.of_nat n)) (2 ^ Z.of_nat n - 1) = bval (firstn n (bits_of b v)).
Proof.
  intros H. replace b with (n + (b - n))%nat at 2 by lia. rewrite bits_of_app.
  rewrite firstn_app, length_bits_of, Nat.sub_diag. cbn [firstn].
  rewrite app_nil_r, firstn_all2 by (rewrite length_bits_of; lia).
  rewrite bval_bits_of. rewrite <- Z.land_ones by lia. rewrite Z.ones_equiv, Z.sub_1_r.
  f_equal. f_equal. lia.
Qed.

Lemma skipn_bits_of n b v : (n <= b)%nat -> skipn n (bits_of b v) = bits_of (b - n) v.
Proof.
  intros H. replace b with (n + (b - n))%nat at 1 by lia. rewrite bits_of_app.
  rewrite skipn_app, length_bits_of, Nat.sub_diag, skipn_all2 by (rewrite length_bits_of; lia). reflexivity.
Qed.

Lemma bits_at_nth (S : nat -> bool) p n i : (i < n)%nat -> nth i (bits_at S p n) false = S (p + i)%nat.
Proof.
  intros H. unfold bits_at. rewrite (nth_indep _ false (S (p + 0)%nat)) by (rewrite map_length, seq_length; auto).
  rewrite (map_nth (fun i => S (p + i)%nat)), seq_nth by auto. reflexivity.
Qed.
Lemma length_bits_at S p n : length (bits_at S p n) = n.
Proof. unfold bits_at. now rewrite map_length, seq_length. Qed.

Lemma list_nth_ext (a b : list bool) : length a = length b ->
  (forall i, (i < length a)%nat -> nth i a false = nth i b false) -> a = b.
Proof.
  revert b; induction a as [|x a IH]; intros [|y b] Hl H; cbn in *; try lia; auto. f_equal.
  - apply (H 0%nat). lia.
  - apply IH; [lia|]. intros i Hi. apply (H (S i)). lia.
Qed.

Lemma firstn_abits c W p q n (s : dst U) : inv c W p q s -> Z.of_nat n <= bleft s ->
  firstn n (bits_of (Z.to_nat (bleft s)) (gbuf s)) = bits_at (cS c) p n.
Proof.
  intros I Hn. apply list_nth_ext.
  - rewrite firstn_length, length_bits_of, length_bits_at. lia.
  - rewrite firstn_length, length_bits_of. intros i Hi. rewrite bits_at_nth by lia.
    rewrite <- (i_str _ _ _ _ _ I) by (left; pose proof (abits_len s ltac:(pose proof (i_left _ _ _ _ _ I); lia)); lia). unfold abits. rewrite app_nth1 by (rewrite length_bits_of; lia).
    rewrite <- (firstn_skipn n (bits_of _ _)) at 2. rewrite app_nth1; auto.
    rewrite firstn_length, length_bits_of. lia.
Qed.

(* dropping n bits *)
Lemma inv_drop c W p q n (s : dst U) : inv c W p q s -> Z.of_nat n <= bleft s -> (p + n <= q)%nat ->
  inv c W (p + n) q (mkD (gbuf s) (bleft s - Z.of_nat n) (dsrc s) (unread s) (insuff s) (warns s) (ust s)).
Proof.
  intros I Hn Hq. destruct I as [Hl Hs Hstr Hins Hlen Hfake Htail Hsu Hw Hw2].
  set (s' := mkD _ _ _ _ _ _ _).
  assert (Hab : abits s = bits_of n (Z.shiftr (gbuf s) (bleft s - Z.of_nat n)) ++ abits s').
  { unfold abits, s'; cbn [bleft gbuf dsrc unread]. rewrite app_assoc. f_equal.
    replace (Z.to_nat (bleft s)) with (n + Z.to_nat (bleft s - Z.of_nat n))%nat by lia.
    rewrite bits_of_app. f_equal. f_equal. f_equal. lia. }
  constructor; unfold s'; cbn [bleft gbuf dsrc unread insuff warns ust]; fold s'; auto; try lia.
  - intros i Hi. replace (p + n + i)%nat with (p + (n + i))%nat by lia.
    rewrite <- Hstr by (destruct Hi; [left; rewrite Hab, app_length, length_bits_of; lia|right; auto]). rewrite Hab.
    rewrite app_nth2 by (rewrite length_bits_of; lia). rewrite length_bits_of. f_equal. lia.
  - intros Hf. specialize (Hlen Hf). rewrite Hab, app_length, length_bits_of in Hlen. lia.
Qed.

Lemma get_spec c W p n (s : dst U) : inv c W p (p + n) s -> Z.of_nat n <= bleft s -> (1 <= n <= 30)%nat ->
  wp (get_bits (Z.of_nat n)) s
     (fun v s' => v = bval (bits_at (cS c) p n) /\ inv c W (p + n) (p + n) s' /\ ust s' = ust s)
     (fun _ => False).
Proof.
  intros I Hn Hr. unfold wp, get_bits. pose proof (i_left _ _ _ _ _ I) as Hl.
  destruct (Z.ltb_spec (Z.of_nat n) 0); [lia|]. destruct (Z.ltb_spec 30 (Z.of_nat n)); [lia|].
  destruct (Z.ltb_spec (bleft s - Z.of_nat n) 0); [lia|]. destruct (Z.ltb_spec 63 (bleft s - Z.of_nat n)); [lia|].
  cbn [orb]. split; [|split; [apply inv_drop; auto|reflexivity]].
  pose proof (bits_of_land n (Z.to_nat (bleft s)) (gbuf s) ltac:(lia)) as HL.
  rewrite Z2Nat.id in HL by lia. rewrite HL. f_equal. eapply firstn_abits; eauto.
Qed.

Lemma take_spec c W p n (s : dst U) : inv c W p p s -> (1 <= n <= 30)%nat ->
  wp (check_bit_buffer (Z.of_nat n) ;~ get_bits (Z.of_nat n)) s
     (fun v s' => v = bval (bits_at (cS c) p n) /\ inv c W (p + n) (p + n) s' /\ ust s' = ust s)
     (susp_post c s).
Proof.
  intros I Hn. apply wp_bind. eapply wp_mono; [apply check_spec; eauto; lia| |auto].
  cbn beta. intros _ s1 (I1 & L1 & U1). rewrite Nat2Z.id in I1.
  eapply wp_mono; [apply get_spec; eauto| |tauto].
  cbn beta. intros v s2 (E & I2 & U2). split; [auto|split; [auto|congruence]].
Qed.
End Abs.
