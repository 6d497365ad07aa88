(* P_Frame.v -- frame property: a run that completes on a suspending source completes identically if
   more bytes had been appended to the buffer beforehand *)
From Verif Require Import Base M_HuffTbl M_Source M_BitRead M_HuffDec M_HuffFast P_HuffTbl P_HuffTblD S_Huff S_Stream P_BitRead P_HuffSym P_HuffDec P_HuffFast P_HuffMcu P_Marker P_DecRef.

Section Frame.
Variable F : list Z.

Lemma next_byte_frame s c s' : ssusp s = true -> next_byte s = Some (c, s') ->
  ssusp s' = true /\ next_byte (feed s F) = Some (c, feed s' F).
Proof.
  intros Hs. unfold next_byte, fill_input_buffer. rewrite Hs. destruct s as [[|b r] cs u]; cbn [sbuf schunks ssusp] in *; [discriminate|].
  intros H. inversion H; subst. cbn. auto.
Qed.

Lemma skip_ff_frame : forall fuel fuel' s c s', ssusp s = true -> (fuel <= fuel')%nat ->
  skip_ff fuel s = Some (Some (c, s')) -> ssusp s' = true /\ skip_ff fuel' (feed s F) = Some (Some (c, feed s' F)).
Proof.
  induction fuel as [|f IH]; intros fuel' s c s' Hs Hf; cbn [skip_ff]; [discriminate|].
  destruct fuel' as [|f']; [lia|]. destruct (next_byte s) as [[x s1]|] eqn:E; [|discriminate].
  destruct (next_byte_frame _ _ _ Hs E) as [H1 H2]. cbn [skip_ff]. rewrite H2. destruct (x =? 255).
  - apply IH; auto. lia.
  - intros H. inversion H; subst. auto.
Qed.

Lemma src_size_feed s : (src_size s <= src_size (feed s F))%nat.
Proof. unfold src_size, src_bytes, feed. cbn [sbuf schunks]. rewrite !app_length. lia. Qed.

Section U.
Context {U : Type}.
Variable J : dst U -> Prop.
Hypothesis J_ext : forall s s', dsrc s = dsrc s' -> ust s = ust s' -> J s -> J s'.
Hypothesis J_susp : forall s, J s -> ssusp (dsrc s) = true.

Definition feedD (s : dst U) : dst U :=
  mkD (gbuf s) (bleft s) (feed (dsrc s) F) (unread s) (insuff s) (warns s) (ust s).

Definition framed {A} (m : DM U A) : Prop := forall s a s', J s -> m s = Ret (Done a s') ->
  J s' /\ m (feedD s) = Ret (Done a (feedD s')).

Lemma fr_bind {A B} (m : DM U A) (f : A -> DM U B) : framed m -> (forall a, framed (f a)) -> framed (dbind m f).
Proof.
  intros H1 H2 s b s' HJ. unfold dbind. destruct (m s) as [[a s1|s1]| |] eqn:E; try discriminate.
  destruct (H1 s a s1 HJ E) as [H3 H4]. rewrite H4. apply H2. exact H3.
Qed.
Lemma fr_ret {A} (a : A) : framed (dret a).
Proof. intros s b s' HJ H. inversion H; subst. auto. Qed.
Lemma fr_lift {A} (o : outcome A) : framed (dlift o).
Proof. intros s b s' HJ. unfold dlift. destruct o; intros H; inversion H; subst. auto. Qed.
Lemma fr_undef {A} : framed (fun _ : dst U => @Undef (dres U A)).
Proof. intros s b s' HJ H. discriminate. Qed.
Lemma fr_get : framed (@dget U).
Proof. intros s b s' HJ H. inversion H; subst. auto. Qed.
Lemma fr_warn w : framed (@dwarn U w).
Proof. intros s b s' HJ H. inversion H; subst. split; [eapply J_ext; [| |exact HJ]; reflexivity|reflexivity]. Qed.
Lemma fr_bl : framed (@dbits_left U).
Proof. intros s b s' HJ H. inversion H; subst. auto. Qed.
Lemma fr_mod f : (forall s, J s -> J (mkD (gbuf s) (bleft s) (dsrc s) (unread s) (insuff s) (warns s) (f (ust s)))) -> framed (@dmod U f).
Proof. intros Hf s b s' HJ H. inversion H; subst. split; [apply Hf; auto|reflexivity]. Qed.
Lemma fr_get_bits n : framed (@get_bits U n).
Proof. intros s b s' HJ. unfold get_bits. cbn [feedD bleft gbuf]. destruct (_ || _); [discriminate|]. intros H; inversion H; subst.
  split; [eapply J_ext; [| |exact HJ]; reflexivity|reflexivity]. Qed.
Lemma fr_peek n : framed (@peek_bits U n).
Proof. intros s b s' HJ. unfold peek_bits. cbn [feedD bleft gbuf]. destruct (_ || _); [discriminate|]. intros H; inversion H; subst. auto. Qed.
Lemma fr_drop n : framed (@drop_bits U n).
Proof. intros s b s' HJ. unfold drop_bits. cbn [feedD bleft gbuf]. destruct (_ <? _); [discriminate|]. intros H; inversion H; subst.
  split; [eapply J_ext; [| |exact HJ]; reflexivity|reflexivity]. Qed.
Hypothesis J_src : forall s src g b un ins w, J s -> ssusp src = true -> J (mkD g b src un ins w (ust s)).
Lemma fr_fill_loop : forall fuel, framed (@fill_loop U fuel).
Proof.
  induction fuel as [|f IH]; intros s b s' HJ; cbn [fill_loop]; [discriminate|]. cbn [feedD bleft dsrc].
  destruct (bleft s <? 57); [|intros H; inversion H; subst; auto].
  destruct (next_byte (dsrc s)) as [[c s1]|] eqn:E; [|discriminate].
  destruct (next_byte_frame _ _ _ (J_susp _ HJ) E) as [H1 H2]. rewrite H2. destruct (c =? 255).
  - destruct (skip_ff (src_size s1 + 4) s1) as [[[c2 s2]|]|] eqn:E2; try discriminate.
    destruct (skip_ff_frame (src_size s1 + 4) (src_size (feed s1 F) + 4) s1 c2 s2 H1 ltac:(pose proof (src_size_feed s1); lia) E2) as [H3 H4].
    rewrite H4. destruct (c2 =? 0).
    + intros H. apply (IH (mkD _ _ s2 _ _ _ _)) in H; auto.
    + intros H. inversion H; subst. split; [apply J_src; auto|reflexivity].
  - intros H. apply (IH (mkD _ _ s1 _ _ _ _)) in H; auto.
Qed.
Lemma fr_nmb n : framed (@no_more_bytes U n).
Proof.
  intros s b s' HJ. unfold no_more_bytes. cbn [feedD bleft gbuf]. destruct (_ <? _); [destruct (_ <? _); [discriminate|]|];
    intros H; inversion H; subst; (split; [auto|reflexivity]).
Qed.
Lemma fr_fill n : framed (@jpeg_fill_bit_buffer U n).
Proof.
  intros s b s' HJ. unfold jpeg_fill_bit_buffer. cbn [feedD unread]. destruct (unread s =? 0); [|apply fr_nmb; auto].
  apply (fr_bind (fill_loop 9) (fun m => match m with None => dret tt | Some _ => no_more_bytes n end)); auto.
  - apply fr_fill_loop.
  - intros [m|]; [apply fr_nmb|apply fr_ret].
Qed.
Lemma fr_check n : framed (@check_bit_buffer U n).
Proof. intros s b s' HJ. unfold check_bit_buffer. cbn [feedD bleft]. destruct (_ <? _); [apply fr_fill; auto|].
  intros H; inversion H; subst; auto. Qed.
Lemma fr_slow_loop t : forall fuel l c, framed (@huff_slow_loop U fuel t l c).
Proof.
  induction fuel as [|f IH]; intros l c; cbn [huff_slow_loop]; [apply fr_undef|].
  apply fr_bind; [apply fr_lift|]. intros m. destruct (m <? c); [|apply fr_ret].
  apply fr_bind; [apply fr_check|]. intros _. apply fr_bind; [apply fr_get_bits|]. intros b. apply IH.
Qed.
Lemma fr_jhd t n : framed (@jpeg_huff_decode U t n).
Proof.
  unfold jpeg_huff_decode. apply fr_bind; [apply fr_check|]. intros _. apply fr_bind; [apply fr_get_bits|]. intros c.
  apply fr_bind; [apply fr_slow_loop|]. intros lc. destruct (_ <? _).
  - apply fr_bind; [apply fr_warn|]. intros _. apply fr_ret.
  - apply fr_bind; [apply fr_lift|]. intros vo. apply fr_lift.
Qed.
Lemma fr_hd t : framed (@huff_decode U t).
Proof.
  unfold huff_decode. apply fr_bind; [apply fr_bl|]. intros bl. apply fr_bind.
  - destruct (_ <? _); [apply fr_fill|apply fr_ret].
  - intros _. apply fr_bind; [apply fr_bl|]. intros bl'. destruct (_ <? _); [apply fr_jhd|].
    apply fr_bind; [apply fr_peek|]. intros lk. apply fr_bind; [apply fr_lift|]. intros e. cbn zeta.
    destruct (_ <=? _); [|apply fr_jhd]. apply fr_bind; [apply fr_drop|]. intros _. apply fr_ret.
Qed.
End U.

(* ---- slow decoder ---- *)
Definition JS (s : dst sqst) : Prop := ssusp (dsrc s) = true.
Lemma JS_ext s s' : dsrc s = dsrc s' -> ust s = ust s' -> JS s -> JS s'.
Proof. unfold JS. congruence. Qed.
Lemma JS_susp s : JS s -> ssusp (dsrc s) = true.
Proof. auto. Qed.
Lemma JS_src (s : dst sqst) src g b un ins w : JS s -> ssusp src = true -> JS (mkD g b src un ins w (ust s)).
Proof. auto. Qed.
Notation framedS := (framed JS).

Lemma fr_out w : framedS (out_put w).
Proof. unfold out_put. destruct w as [[a b] c]. destruct (_ && _); [apply fr_mod; auto|apply fr_undef]. Qed.
Lemma fr_dc bn b : framedS (decode_dc bn b).
Proof.
  unfold decode_dc. apply fr_bind; [apply (fr_hd JS JS_ext JS_susp JS_src)|]. intros s0. apply fr_bind.
  - destruct (s0 =? 0); [apply fr_ret|]. apply fr_bind; [apply (fr_check JS JS_susp JS_src)|]. intros _.
    apply fr_bind; [apply (fr_get_bits JS JS_ext)|]. intros r. apply fr_ret.
  - intros s. destruct (b_dcneed b); [|apply fr_ret]. apply fr_bind; [apply fr_get|]. intros u.
    apply fr_bind; [apply fr_lift|]. intros l. cbn zeta. apply fr_bind; [apply fr_lift|]. intros d.
    apply fr_bind; [apply fr_mod; auto|]. intros _. destruct (b_have b); [apply fr_out|apply fr_ret].
Qed.
Lemma fr_ac bn b st : forall fuel k, framedS (decode_ac fuel bn b st k).
Proof.
  induction fuel as [|f IH]; intros k; cbn [decode_ac]; [apply fr_undef|].
  destruct (k <? 64); [|apply fr_ret]. apply fr_bind; [apply (fr_hd JS JS_ext JS_susp JS_src)|]. intros rs. cbn zeta.
  destruct (negb (Z.land rs 15 =? 0)).
  - apply fr_bind; [apply (fr_check JS JS_susp JS_src)|]. intros _. apply fr_bind; [|intros _; apply IH].
    destruct st; [|apply (fr_drop JS JS_ext)]. apply fr_bind; [apply (fr_get_bits JS JS_ext)|]. intros x.
    apply fr_bind; [apply fr_lift|]. intros p. apply fr_out.
  - destruct (negb _); [apply fr_ret|apply IH].
Qed.
Lemma fr_blocks : forall bs bn, framedS (decode_blocks bn bs).
Proof.
  induction bs as [|b r IH]; intros bn; cbn [decode_blocks]; [apply fr_ret|].
  apply fr_bind; [|intros _; apply IH]. unfold decode_block. apply fr_bind; [apply fr_dc|]. intros _. apply fr_ac.
Qed.
Lemma fr_mcu_slow bs : framedS (decode_mcu_slow bs).
Proof.
  intros s a s' HJ. unfold decode_mcu_slow. destruct (decode_blocks 0 bs s) as [[a1 s1|s1]| |] eqn:E; try discriminate.
  intros H. inversion H; subst. destruct (fr_blocks bs 0 s a s' HJ E) as [H1 H2]. rewrite H2. auto.
Qed.

(* ---- fast decoder ---- *)
Definition JF (s : dst fsq) : Prop := ssusp (dsrc s) = true /\ 0 <= f_pos (ust s) <= Z.of_nat (length (sbuf (dsrc s))).
Lemma JF_ext s s' : dsrc s = dsrc s' -> ust s = ust s' -> JF s -> JF s'.
Proof. unfold JF. intros -> ->. auto. Qed.
Notation framedF := (framed JF).

Lemma aget_app {A} (l r : list A) i x : aget l i = Ret x -> aget (l ++ r) i = Ret x /\ 0 <= i < Z.of_nat (length l).
Proof.
  intros H. destruct (aget_Ret l i x x H) as [H1 H2]. split; auto. rewrite (aget_nth _ _ x) by (rewrite app_length; lia).
  rewrite app_nth1 by lia. congruence.
Qed.
Lemma ff_GET_BYTE : framedF GET_BYTE.
Proof.
  intros s a s' [H1 H2]. unfold GET_BYTE. cbn [feedD dsrc feed sbuf ust gbuf bleft].
  destruct (aget (sbuf (dsrc s)) (f_pos (ust s))) as [c0| |] eqn:E0; try discriminate.
  destruct (aget (sbuf (dsrc s)) (f_pos (ust s) + 1)) as [c1| |] eqn:E1; try discriminate.
  destruct (aget_app _ F _ _ E0) as [A0 _]. destruct (aget_app _ F _ _ E1) as [A1 A2]. rewrite A0, A1.
  destruct (c0 =? 255); [destruct (negb _)|]; intros H; inversion H; subst; (split; [split; cbn [dsrc ust f_pos]; [auto|lia]|reflexivity]).
Qed.
Lemma ff_FILL : framedF FILL_BIT_BUFFER_FAST.
Proof.
  unfold FILL_BIT_BUFFER_FAST. apply fr_bind; [apply fr_bl|]. intros bl. destruct (_ <=? _); [|apply fr_ret].
  repeat (apply fr_bind; [apply ff_GET_BYTE|intros _]). apply ff_GET_BYTE.
Qed.
Lemma ff_loop t : forall fuel nb s, framedF (fast_loop fuel t nb s).
Proof.
  induction fuel as [|f IH]; intros nb s; cbn [fast_loop]; [apply fr_undef|].
  apply fr_bind; [apply fr_lift|]. intros m. destruct (_ <? _); [|apply fr_ret].
  apply fr_bind; [apply (fr_get_bits JF JF_ext)|]. intros b. apply IH.
Qed.
Lemma ff_peek n : framedF (fast_peek n).
Proof. intros s b s' HJ. unfold fast_peek. cbn [feedD bleft gbuf]. destruct (_ || _); [discriminate|]. intros H; inversion H; subst. auto. Qed.
Lemma ff_hd t : framedF (HUFF_DECODE_FAST t).
Proof.
  unfold HUFF_DECODE_FAST. apply fr_bind; [apply ff_FILL|]. intros _. apply fr_bind; [apply fr_peek|]. intros lk.
  apply fr_bind; [apply fr_lift|]. intros e. cbn zeta. apply fr_bind; [apply (fr_drop JF JF_ext)|]. intros _.
  destruct (_ <? _); [|apply fr_ret]. apply fr_bind; [apply ff_peek|]. intros s. apply fr_bind; [apply ff_loop|]. intros lc.
  destruct (_ <? _); [apply fr_ret|]. apply fr_bind; [apply fr_lift|]. intros vo. apply fr_lift.
Qed.
Lemma ff_out w : framedF (fout_put w).
Proof. unfold fout_put. destruct w as [[a b] c]. destruct (_ && _); [|apply fr_undef]. apply fr_mod. intros s H; exact H. Qed.
Lemma ff_dc bn b : framedF (fast_dc bn b).
Proof.
  unfold fast_dc. apply fr_bind; [apply ff_hd|]. intros s0. apply fr_bind.
  - destruct (s0 =? 0); [apply fr_ret|]. apply fr_bind; [apply ff_FILL|]. intros _.
    apply fr_bind; [apply (fr_get_bits JF JF_ext)|]. intros r. apply fr_ret.
  - intros s. destruct (b_dcneed b); [|apply fr_ret]. apply fr_bind; [apply fr_get|]. intros u.
    apply fr_bind; [apply fr_lift|]. intros l. cbn zeta. apply fr_bind; [apply fr_lift|]. intros d.
    apply fr_bind; [apply fr_mod; intros st H; exact H|]. intros _. destruct (b_have b); [apply ff_out|apply fr_ret].
Qed.
Lemma ff_ac bn b st : forall fuel k, framedF (fast_ac fuel bn b st k).
Proof.
  induction fuel as [|f IH]; intros k; cbn [fast_ac]; [apply fr_undef|].
  destruct (k <? 64); [|apply fr_ret]. apply fr_bind; [apply ff_hd|]. intros rs. cbn zeta.
  destruct (negb (Z.land rs 15 =? 0)).
  - apply fr_bind; [apply ff_FILL|]. intros _. apply fr_bind; [|intros _; apply IH].
    destruct st; [|apply (fr_drop JF JF_ext)]. apply fr_bind; [apply (fr_get_bits JF JF_ext)|]. intros x.
    apply fr_bind; [apply fr_lift|]. intros p. apply ff_out.
  - destruct (negb _); [apply fr_ret|apply IH].
Qed.
Lemma ff_blocks : forall bs bn, framedF (fast_blocks bn bs).
Proof.
  induction bs as [|b r IH]; intros bn; cbn [fast_blocks]; [apply fr_ret|].
  apply fr_bind; [|intros _; apply IH]. unfold fast_block. apply fr_bind; [apply ff_dc|]. intros _. apply ff_ac.
Qed.
Lemma ff_mcu bs s r s' : JS s -> decode_mcu_fast bs s = Ret (r, s') -> decode_mcu_fast bs (feedD s) = Ret (r, feedD s').
Proof.
  intros HJ. unfold decode_mcu_fast.
  set (s0 := mkD (gbuf s) (bleft s) (dsrc s) (unread s) (insuff s) (warns s) (mkFs (ust s) 0) : dst fsq).
  change (mkD (gbuf (feedD s)) (bleft (feedD s)) (dsrc (feedD s)) (unread (feedD s)) (insuff (feedD s)) (warns (feedD s))
     (mkFs (ust (feedD s)) 0)) with (feedD s0).
  destruct (fast_blocks 0 bs s0) as [[a s1|s1]| |] eqn:E; try discriminate.
  destruct (ff_blocks bs 0 s0 a s1) as [[H1 H1'] H2]; [split; [exact HJ|unfold s0; cbn [ust f_pos dsrc]; lia]|exact E|].
  rewrite H2. cbn [feedD unread]. destruct (negb _); intros H; inversion H; subst; [reflexivity|].
  unfold feedD. cbn [gbuf bleft dsrc feed sbuf schunks ssusp unread insuff warns ust]. rewrite skipn_app.
  replace (Z.to_nat (f_pos (ust s1)) - length (sbuf (dsrc s1)))%nat with 0%nat by lia. reflexivity.
Qed.
End Frame.
