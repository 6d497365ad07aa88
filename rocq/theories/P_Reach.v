(* P_Reach.v -- the decoder consumes its source only through next_byte: predicates on sources that
   next_byte preserves are preserved by everything *)
From Verif Require Import Base M_HuffTbl M_Source M_BitRead M_HuffDec M_HuffFast P_HuffTbl P_HuffTblD S_Huff S_Stream P_BitRead P_HuffSym P_HuffDec P_HuffFast P_HuffMcu P_Marker P_DecRef.

Section Reach.
Variable Q : source -> Prop.
Hypothesis QN : forall s c s', Q s -> next_byte s = Some (c, s') -> Q s'.

Lemma skip_ff_reach : forall fuel s, Q s -> match skip_ff fuel s with Some (Some (_, s')) => Q s' | _ => True end.
Proof.
  induction fuel as [|f IH]; intros s H; cbn [skip_ff]; auto.
  destruct (next_byte s) as [[c s']|] eqn:E; auto. destruct (c =? 255); [apply IH; eauto|eauto].
Qed.
Lemma skip_to_ff_reach : forall fuel s d, Q s -> match skip_to_ff fuel s d with
  | Some (s1, _, o) => Q s1 /\ match o with Some s2 => Q s2 | None => True end | None => True end.
Proof.
  induction fuel as [|f IH]; intros s d H; cbn [skip_to_ff]; auto.
  destruct (next_byte s) as [[c s']|] eqn:E; auto. destruct (c =? 255); [eauto|]. apply IH. eauto.
Qed.
Lemma next_marker_loop_reach : forall fuel s d, Q s -> match next_marker_loop fuel s d with Some (s1, _, _) => Q s1 | None => True end.
Proof.
  induction fuel as [|f IH]; intros s d H; cbn [next_marker_loop]; auto.
  pose proof (skip_to_ff_reach (src_size s + 4) s d H) as H1.
  destruct (skip_to_ff _ _ _) as [[[s1 d1] [s2|]]|]; auto; [|tauto]. destruct H1 as [H1 H2].
  pose proof (skip_ff_reach (src_size s2 + 4) s2 H2) as H3.
  destruct (skip_ff _ _) as [[[c s3]|]|]; auto. destruct (c =? 0); [apply IH; auto|auto].
Qed.
Lemma next_marker_reach s d : Q s -> match next_marker s d with Some (s1, _, _) => Q s1 | None => True end.
Proof. apply next_marker_loop_reach. Qed.
Lemma resync_loop_reach num : forall fuel m s d, Q s -> match resync_loop fuel m num s d with Some (_, s1, _, _) => Q s1 | None => True end.
Proof.
  induction fuel as [|f IH]; intros m s d H; cbn [resync_loop]; auto.
  destruct (_ =? 1); auto. destruct (_ =? 2); auto.
  pose proof (next_marker_reach s d H) as H1. destruct (next_marker s d) as [[[s1 d1] [m1|]]|]; auto. apply IH. auto.
Qed.
Lemma read_restart_reach un s d num : Q s -> match read_restart_marker un s d num with Some (_, s1, _, _, _) => Q s1 | None => True end.
Proof.
  intros H. unfold read_restart_marker, jpeg_resync_to_restart.
  assert (G : forall m s d, Q s -> match (if m =? 208 + num then Some (0, s, d, (num + 1) mod 8, true)
    else match resync_loop (src_size s + 4) m num s d with None => None
         | Some (m', s', d', ok) => Some (m', s', d', if ok then (num + 1) mod 8 else num, ok) end)
    with Some (_, s1, _, _, _) => Q s1 | None => True end).
  { intros m s0 d0 H0. destruct (m =? 208 + num); auto. pose proof (resync_loop_reach num (src_size s0 + 4) m s0 d0 H0) as H1.
    destruct (resync_loop _ _ _ _ _) as [[[[? ?] ?] ?]|]; auto. }
  destruct (un =? 0); [|apply G; auto].
  pose proof (next_marker_reach s d H) as H1. destruct (next_marker s d) as [[[s1 d1] [m1|]]|]; auto. apply (G m1 s1 d1). auto.
Qed.

Section U.
Context {U : Type}.
Definition keeps {A} (m : DM U A) : Prop := forall s, Q (dsrc s) ->
  match m s with Ret (Done _ s') => Q (dsrc s') | Ret (Susp s') => Q (dsrc s') | _ => True end.
Lemma keeps_bind {A B} (m : DM U A) (f : A -> DM U B) : keeps m -> (forall a, keeps (f a)) -> keeps (dbind m f).
Proof.
  intros H1 H2 s H. unfold dbind. specialize (H1 s H). destruct (m s) as [[a s'|s']| |]; auto. apply (H2 a s' H1).
Qed.
Lemma keeps_ret {A} (a : A) : keeps (dret a).
Proof. intros s H. exact H. Qed.
Lemma keeps_lift {A} (o : outcome A) : keeps (dlift o).
Proof. intros s H. unfold dlift. destruct o; auto. Qed.
Lemma keeps_undef {A} : keeps (fun _ : dst U => @Undef (dres U A)).
Proof. intros s H. exact I. Qed.
Lemma keeps_mod f : keeps (@dmod U f).
Proof. intros s H. exact H. Qed.
Lemma keeps_get : keeps (@dget U).
Proof. intros s H. exact H. Qed.
Lemma keeps_warn w : keeps (@dwarn U w).
Proof. intros s H. exact H. Qed.
Lemma keeps_bl : keeps (@dbits_left U).
Proof. intros s H. exact H. Qed.
Lemma keeps_get_bits n : keeps (@get_bits U n).
Proof. intros s H. unfold get_bits. destruct (_ || _); auto. Qed.
Lemma keeps_peek n : keeps (@peek_bits U n).
Proof. intros s H. unfold peek_bits. destruct (_ || _); auto. Qed.
Lemma keeps_drop n : keeps (@drop_bits U n).
Proof. intros s H. unfold drop_bits. destruct (_ <? _); auto. Qed.
Lemma keeps_fill_loop : forall fuel, keeps (@fill_loop U fuel).
Proof.
  induction fuel as [|f IH]; intros s H; cbn [fill_loop]; auto.
  destruct (bleft s <? 57); auto. destruct (next_byte (dsrc s)) as [[c s1]|] eqn:E; auto.
  assert (H1 : Q s1) by eauto. destruct (c =? 255); [|apply IH; exact H1].
  pose proof (skip_ff_reach (src_size s1 + 4) s1 H1) as H2. destruct (skip_ff _ _) as [[[c2 s2]|]|]; auto.
  destruct (c2 =? 0); [apply IH; exact H2|exact H2].
Qed.
Lemma keeps_nmb n : keeps (@no_more_bytes U n).
Proof. intros s H. unfold no_more_bytes. destruct (_ <? _); auto. destruct (_ <? _); auto. Qed.
Lemma keeps_fill n : keeps (@jpeg_fill_bit_buffer U n).
Proof.
  intros s H. unfold jpeg_fill_bit_buffer. destruct (unread s =? 0); [|apply keeps_nmb; auto].
  apply (keeps_bind (fill_loop 9) (fun m => match m with None => dret tt | Some _ => no_more_bytes n end)); auto.
  - apply keeps_fill_loop.
  - intros [m|]; [apply keeps_nmb|apply keeps_ret].
Qed.
Lemma keeps_check n : keeps (@check_bit_buffer U n).
Proof. intros s H. unfold check_bit_buffer. destruct (_ <? _); auto. apply keeps_fill; auto. Qed.
Lemma keeps_slow_loop t : forall fuel l c, keeps (@huff_slow_loop U fuel t l c).
Proof.
  induction fuel as [|f IH]; intros l c; cbn [huff_slow_loop]; [apply keeps_undef|].
  apply keeps_bind; [apply keeps_lift|]. intros m. destruct (m <? c); [|apply keeps_ret].
  apply keeps_bind; [apply keeps_check|]. intros _. apply keeps_bind; [apply keeps_get_bits|]. intros b. apply IH.
Qed.
Lemma keeps_jhd t n : keeps (@jpeg_huff_decode U t n).
Proof.
  unfold jpeg_huff_decode. apply keeps_bind; [apply keeps_check|]. intros _. apply keeps_bind; [apply keeps_get_bits|]. intros c.
  apply keeps_bind; [apply keeps_slow_loop|]. intros lc. destruct (_ <? _).
  - apply keeps_bind; [apply keeps_warn|]. intros _. apply keeps_ret.
  - apply keeps_bind; [apply keeps_lift|]. intros vo. apply keeps_lift.
Qed.
Lemma keeps_hd t : keeps (@huff_decode U t).
Proof.
  unfold huff_decode. apply keeps_bind; [apply keeps_bl|]. intros bl. apply keeps_bind.
  - destruct (_ <? _); [apply keeps_fill|apply keeps_ret].
  - intros _. apply keeps_bind; [apply keeps_bl|]. intros bl'. destruct (_ <? _); [apply keeps_jhd|].
    apply keeps_bind; [apply keeps_peek|]. intros lk. apply keeps_bind; [apply keeps_lift|]. intros e. cbn zeta.
    destruct (_ <=? _); [|apply keeps_jhd]. apply keeps_bind; [apply keeps_drop|]. intros _. apply keeps_ret.
Qed.
End U.

Lemma keeps_out w : keeps (out_put w).
Proof. unfold out_put. destruct w as [[a b] c]. destruct (_ && _); [apply keeps_mod|apply keeps_undef]. Qed.
Lemma keeps_dc bn b : keeps (decode_dc bn b).
Proof.
  unfold decode_dc. apply keeps_bind; [apply keeps_hd|]. intros s0. apply keeps_bind.
  - destruct (s0 =? 0); [apply keeps_ret|]. apply keeps_bind; [apply keeps_check|]. intros _.
    apply keeps_bind; [apply keeps_get_bits|]. intros r. apply keeps_ret.
  - intros s. destruct (b_dcneed b); [|apply keeps_ret]. apply keeps_bind; [apply keeps_get|]. intros u.
    apply keeps_bind; [apply keeps_lift|]. intros l. cbn zeta. apply keeps_bind; [apply keeps_lift|]. intros d.
    apply keeps_bind; [apply keeps_mod|]. intros _. destruct (b_have b); [apply keeps_out|apply keeps_ret].
Qed.
Lemma keeps_ac bn b st : forall fuel k, keeps (decode_ac fuel bn b st k).
Proof.
  induction fuel as [|f IH]; intros k; cbn [decode_ac]; [apply keeps_undef|].
  destruct (k <? 64); [|apply keeps_ret]. apply keeps_bind; [apply keeps_hd|]. intros rs. cbn zeta.
  destruct (negb (Z.land rs 15 =? 0)).
  - apply keeps_bind; [apply keeps_check|]. intros _. apply keeps_bind; [|intros _; apply IH].
    destruct st; [|apply keeps_drop]. apply keeps_bind; [apply keeps_get_bits|]. intros x.
    apply keeps_bind; [apply keeps_lift|]. intros p. apply keeps_out.
  - destruct (negb _); [apply keeps_ret|apply IH].
Qed.
Lemma keeps_blocks : forall bs bn, keeps (decode_blocks bn bs).
Proof.
  induction bs as [|b r IH]; intros bn; cbn [decode_blocks]; [apply keeps_ret|].
  apply keeps_bind; [|intros _; apply IH]. unfold decode_block. apply keeps_bind; [apply keeps_dc|]. intros _. apply keeps_ac.
Qed.
Lemma keeps_mcu_slow bs : keeps (decode_mcu_slow bs).
Proof.
  intros s H. unfold decode_mcu_slow. pose proof (keeps_blocks bs 0 s H) as H1.
  destruct (decode_blocks 0 bs s) as [[a s'|s']| |]; auto.
Qed.

Lemma skip_reach : forall k s, Q s -> (k <= length (sbuf s))%nat -> Q (mkSrc (skipn k (sbuf s)) (schunks s) (ssusp s)).
Proof.
  induction k as [|k IH]; intros s H Hk; [destruct s; exact H|].
  destruct s as [[|b r] cs u]; cbn in Hk; [lia|]. cbn [sbuf skipn schunks ssusp].
  apply (IH (mkSrc r cs u)); [|cbn; lia]. eapply QN; [exact H|]. reflexivity.
Qed.

Lemma process_restart_reach ri h : Q (dsrc (hd_st h)) ->
  match process_restart ri h with Ret (_, h') => Q (dsrc (hd_st h')) | _ => True end.
Proof.
  intros H. unfold process_restart.
  pose proof (read_restart_reach (unread (hd_st h)) (dsrc (hd_st h)) (hd_disc h + bleft (hd_st h) / 8) (hd_num h) H) as H1.
  destruct (read_restart_marker _ _ _ _) as [[[[[un s'] d'] num'] [|]]|]; auto.
Qed.
Lemma body_reach ri rbs h : hd_ok h -> blks_ok rbs (hncomp h) -> Q (dsrc (hd_st h)) ->
  match decode_mcu_body ri (map snd rbs) h with Ret (_, h') => Q (dsrc (hd_st h')) | _ => True end.
Proof.
  intros Hh [Hne Hb] H. unfold decode_mcu_body. rewrite map_length.
  destruct (insuff (hd_st h)) eqn:Hi; cbn [bind hd_st]; [exact H|]. cbn zeta.
  assert (G : forall s, Q (dsrc s) -> match bind (match decode_mcu_slow (map snd rbs) s with
         | Ret (Done _ s') => Ret (true, s') | Ret (Susp s') => Ret (false, s') | Error e => Error e | Undef => Undef end)
       (fun '(ok, s) => if ok : bool then Ret (true, mkHD s (if ri =? 0 then hd_togo h else u32 (hd_togo h - 1)) (hd_num h) (hd_disc h))
                                     else Ret (false, mkHD s (hd_togo h) (hd_num h) (hd_disc h)))
       with Ret (_, h') => Q (dsrc (hd_st h')) | _ => True end).
  { intros s Hs. pose proof (keeps_mcu_slow (map snd rbs) s Hs) as H1.
    destruct (decode_mcu_slow (map snd rbs) s) as [[a s'|s']| |]; cbn [bind hd_st]; auto. }
  destruct (_ && _ && _) eqn:Ef; [|apply G; exact H].
  apply andb_prop in Ef. destruct Ef as [Ef Eu]. apply andb_prop in Ef. destruct Ef as [Er El].
  apply Z.eqb_eq in Eu, Er. apply Z.leb_le in El.
  pose proof (decode_mcu_fast_spec rbs (hd_st h) (proj1 Hh) Eu Hne ltac:(lia) Hb) as HF.
  destruct (ref_mcu _ _ _ _ _) as [[[dcs o] p'] ok]. destruct HF as (r & s' & Ed & HF). rewrite Ed. cbn [bind].
  destruct r; cbn [bind hd_st].
  - destruct HF as (_ & _ & _ & _ & _ & _ & _ & _ & k & Hk & Hd). rewrite Hd. apply skip_reach; auto.
  - destruct HF as (_ & Hs'). apply G. rewrite Hs'. exact H.
Qed.

Lemma mcu_reach ri rbs h : hd_ok h -> blks_ok rbs (hncomp h) -> Q (dsrc (hd_st h)) ->
  match decode_mcu ri (map snd rbs) h with Ret (_, h') => Q (dsrc (hd_st h')) | _ => True end.
Proof.
  intros Hh Hb H. unfold decode_mcu. destruct (_ && _).
  - pose proof (process_restart_reach ri h H) as H1. pose proof (process_restart_spec ri h Hh) as H2.
    destruct (process_restart ri h) as [[[|] h1]| |]; cbn [bind negb]; auto.
    apply body_reach; auto; destruct H2 as (A1 & A2 & A3 & A4 & A5 & _); auto. now rewrite A5.
  - cbn [bind negb]. apply body_reach; auto.
Qed.
End Reach.

(* the predicates used *)
Lemma nfz_next s c s' : no_filled_zero (src_bytes s) -> next_byte s = Some (c, s') -> no_filled_zero (src_bytes s').
Proof.
  intros H E. destruct (next_byte_some _ _ _ E) as [_ [Hb|(_ & _ & _ & Hb)]].
  - rewrite Hb in H. apply nfz_tl in H. exact H.
  - rewrite Hb. intros l r E'. destruct l as [|? [|? l]]; cbn in E'; discriminate.
Qed.

