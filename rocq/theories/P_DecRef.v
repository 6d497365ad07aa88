(* P_DecRef.v -- decode_mcu refines a reference machine on (bits at hand, what follows them) *)
From Verif Require Import Base M_HuffTbl S_Huff P_HuffTbl P_HuffTblD M_Source M_BitRead S_Stream P_BitRead P_HuffSym M_HuffDec P_HuffDec M_HuffFast P_HuffFast P_HuffMcu P_Marker.

(* ---- the reference machine ---- *)
Record rstate := mkRS { rs_dcs : list Z; rs_bits : list bool; rs_tail : option (Z * list Z);
                        rs_ins : bool; rs_togo : Z; rs_num : Z }.

Definition ref_restart (u : bool) (ri : Z) (st : rstate) : option rstate :=
  match rs_tail st with
  | None => None
  | Some (m, r) =>
    match restart_ref u m r (rs_num st) with
    | None => None
    | Some (un, r') =>
      Some (mkRS (repeat 0 (length (rs_dcs st)))
                 (if un =? 0 then bytes_to_bits (fst (seg u false r')) else [])
                 (if un =? 0 then snd (seg u false r') else Some (un, r'))
                 (if un =? 0 then false else rs_ins st) ri ((rs_num st + 1) mod 8))
    end
  end.

Definition ref_step (u : bool) (ri : Z) (rbs : list (rblk * blkcfg)) (st0 : rstate)
  : option (list (Z * Z * Z) * rstate) :=
  match (if (negb (ri =? 0)) && (rs_togo st0 =? 0) then ref_restart u ri st0 else Some st0) with
  | None => None
  | Some st =>
    let togo' := if ri =? 0 then rs_togo st else u32 (rs_togo st - 1) in
    if rs_ins st then Some ([], mkRS (rs_dcs st) (rs_bits st) (rs_tail st) true togo' (rs_num st))
    else
      let '(dcs, o, p', _) := ref_mcu 0 rbs (rs_dcs st) (zstream (rs_bits st)) 0 in
      Some (o, mkRS dcs (skipn p' (rs_bits st)) (rs_tail st) (length (rs_bits st) <? p')%nat togo' (rs_num st))
  end.

Definition alpha (h : hdec) : rstate :=
  let s := hd_st h in
  mkRS (sdc (ust s)) (if insuff s then [] else abits s) (tail s) (insuff s) (hd_togo h) (hd_num h).

Definition hd_ok (h : hdec) : Prop := reader_ok (hd_st h) /\ 0 <= hd_num h < 8.
Definition hsusp (h : hdec) : bool := ssusp (dsrc (hd_st h)).
Definition houts (h : hdec) : list (Z * Z * Z) := souts (ust (hd_st h)).
Definition hbytes (h : hdec) : list Z := src_bytes (dsrc (hd_st h)).
Definition hncomp (h : hdec) : nat := length (sdc (ust (hd_st h))).

Lemma continues_zstream l b : continues (zstream l) l b.
Proof. intros i _. reflexivity. Qed.

(* ---- more input ---- *)
Lemma resync_ref_more num f : forall fuel m r un r', (length r + 2 <= fuel)%nat ->
  resync_ref true fuel m r num = Some (un, r') ->
  resync_ref true (length (r ++ f) + 2) m (r ++ f) num = Some (un, r' ++ f).
Proof.
  induction fuel as [|k IH]; intros m r un r' Hf; [lia|].
  rewrite (Nat.add_comm _ 2). change (2 + length (r ++ f))%nat with (S (S (length (r ++ f)))).
  remember (S (length (r ++ f))) as F eqn:EF. cbn [resync_ref].
  destruct (_ =? 1); [intros H; inversion H; reflexivity|].
  destruct (_ =? 2); [|intros H; inversion H; reflexivity].
  destruct (snd (seg true false r)) as [[m1 r1]|] eqn:E; [|discriminate]. intros H.
  rewrite (seg_more true f _ _ _ _ E). cbn [snd].
  destruct (seg_tail_len _ _ _ _ _ E) as [L|(L & _)]; [|discriminate].
  rewrite <- (IH m1 r1 un r' ltac:(lia) H). apply resync_ref_fuel; subst F; rewrite !app_length; lia.
Qed.

Lemma restart_ref_more num f m r un r' : restart_ref true m r num = Some (un, r') ->
  restart_ref true m (r ++ f) num = Some (un, r' ++ f).
Proof.
  unfold restart_ref. destruct (m =? 208 + num); [intros H; inversion H; reflexivity|].
  apply resync_ref_more. lia.
Qed.

Lemma seg_grow f : forall bs ff, snd (seg true ff bs) = None ->
  exists x, fst (seg true ff (bs ++ f)) = fst (seg true ff bs) ++ x.
Proof.
  induction bs as [|b bs IH]; intros ff; cbn [seg app]; [intros _; exists (fst (seg true ff f)); reflexivity|].
  destruct (b =? 255); [apply IH|].
  destruct ff; [destruct (b =? 0)|].
  - specialize (IH false). destruct (seg true false bs) as [d t]. destruct (seg true false (bs ++ f)) as [d' t']. cbn [fst snd] in *.
    intros H. destruct (IH H) as (x & ->). exists x. reflexivity.
  - discriminate.
  - specialize (IH false). destruct (seg true false bs) as [d t]. destruct (seg true false (bs ++ f)) as [d' t']. cbn [fst snd] in *.
    intros H. destruct (IH H) as (x & ->). exists x. reflexivity.
Qed.

(* ---- restart ---- *)
Lemma process_restart_spec ri h : hd_ok h ->
  match process_restart ri h with
  | Ret (true, h') => hd_ok h' /\ ref_restart (hsusp h) ri (alpha h) = Some (alpha h') /\
                      houts h' = houts h /\ hsusp h' = hsusp h /\ hncomp h' = hncomp h /\ hd_togo h' = ri /\
                      (hsusp h = true -> forall f, ref_restart true ri (alpha (hfeed h f)) = Some (alpha (hfeed h' f)))
  | Ret (false, h') => hd_ok h' /\ hsusp h = true /\ hsusp h' = true /\ houts h' = houts h /\
                       ref_restart true ri (alpha h) = None /\
                       sdc (ust (hd_st h')) = sdc (ust (hd_st h)) /\ hd_togo h' = hd_togo h /\
                       (forall f, ref_restart true ri (alpha (hfeed h f)) = ref_restart true ri (alpha (hfeed h' f)))
  | _ => False
  end.
Proof.
  intros [(Hl & Hs & Hi) Hn]. unfold process_restart.
  pose proof (read_restart_marker_spec (unread (hd_st h)) (dsrc (hd_st h)) (hd_disc h + bleft (hd_st h) / 8) (hd_num h) Hs Hn) as H.
  destruct (read_restart_marker _ _ _ _) as [[[[[un s'] d'] num'] [|]]|]; auto.
  - destruct H as (-> & H2 & H3 & m & r & H4 & H5).
    unfold hd_ok, hsusp, houts, hncomp, alpha, ref_restart, reader_ok, tail, abits, sseg.
    cbn [hd_st bleft dsrc insuff unread warns ust sdc souts gbuf hd_togo hd_num rs_tail rs_dcs rs_num rs_bits rs_ins rs_togo].
    unfold next_tail in H4. rewrite H4, H5. rewrite H3.
    split; [|split; [|split; [reflexivity|split; [reflexivity|split; [apply repeat_length|split; [reflexivity|]]]]]].
    + split; [|apply Z.mod_pos_bound; lia]. split; [lia|]. split; [exact H2|].
      destruct (Z.eqb_spec un 0); [discriminate|]. intros Hx. destruct (Hi Hx). auto.
    + f_equal. destruct (un =? 0); [|destruct (insuff (hd_st h))]; reflexivity.
    + intros Hsu f. rewrite Hsu in *.
      cbn [hfeed hd_st bleft dsrc insuff unread warns ust sdc souts gbuf hd_togo hd_num rs_tail rs_dcs rs_num rs_bits rs_ins rs_togo].
      cbn [feed ssusp]. change (mkSrc (sbuf (dsrc (hd_st h)) ++ f) _ _) with (feed (dsrc (hd_st h)) f).
      change (mkSrc (sbuf s' ++ f) _ _) with (feed s' f). rewrite Hsu, H3, !feed_bytes by auto.
      assert (Et' : (if unread (hd_st h) =? 0 then snd (seg true false (src_bytes (dsrc (hd_st h)) ++ f))
                     else Some (unread (hd_st h), src_bytes (dsrc (hd_st h)) ++ f)) = Some (m, r ++ f)).
      { destruct (unread (hd_st h) =? 0); [rewrite (seg_more true f _ _ _ _ H4); reflexivity|]. inversion H4. reflexivity. }
      rewrite Et', (restart_ref_more _ f _ _ _ _ H5). cbn [Z.to_nat bits_of app].
      f_equal. destruct (un =? 0); [|destruct (insuff (hd_st h))]; reflexivity.
  - destruct H as (-> & H2 & H3 & H4 & H5 & H6 & H7).
    unfold hd_ok, hsusp, houts, hncomp, alpha, ref_restart, reader_ok, tail, abits, sseg.
    cbn [hfeed hd_st bleft dsrc insuff unread warns ust sdc souts gbuf hd_togo hd_num rs_tail rs_dcs rs_num rs_bits rs_ins rs_togo].
    unfold next_tail in H5. rewrite H3 in *.
    split; [split; [|auto]|].
    + split; [lia|]. split; [exact H2|]. intros Hx. destruct (Hi Hx). auto.
    + split; [reflexivity|]. split; [exact H4|]. split; [reflexivity|]. split.
      { destruct (if unread (hd_st h) =? 0 then _ else _) as [[m r]|]; auto. rewrite H5. auto. }
      split; [reflexivity|]. split; [reflexivity|].
      intros f. specialize (H7 f). unfold next_tail in H7. cbn [feed ssusp] in *. rewrite ?H3, ?H4 in *.
      set (ta := if unread (hd_st h) =? 0 then snd (seg true false (src_bytes (feed (dsrc (hd_st h)) f)))
                 else Some (unread (hd_st h), src_bytes (feed (dsrc (hd_st h)) f))) in *.
      set (tb := if un =? 0 then snd (seg true false (src_bytes (feed s' f))) else Some (un, src_bytes (feed s' f))) in *.
      destruct ta as [[m r]|]; destruct tb as [[m' r']|]; auto; rewrite <- ?H7; auto; rewrite H7; auto.
Qed.

(* ---- clean data: no stuffed zero after fill bytes ---- *)
(* FF FF .. 00 occurs nowhere (T.81 allows fill FFs only in front of a marker) *)
Definition no_filled_zero (bs : list Z) : Prop := forall l r, bs <> l ++ 255 :: 255 :: 0 :: r.

Lemma nfz_tl b bs : no_filled_zero (b :: bs) -> no_filled_zero bs.
Proof. intros H l r E. apply (H (b :: l) r). cbn. now rewrite E. Qed.

(* after FF FF, only a marker can follow *)
Lemma seg_ffff u : forall bs, no_filled_zero (255 :: 255 :: bs) -> fst (seg u true bs) = [].
Proof.
  induction bs as [|b bs IH]; intros H; cbn [seg]; auto.
  destruct (Z.eqb_spec b 255) as [->|Hb].
  - apply IH. apply nfz_tl in H. exact H.
  - destruct (Z.eqb_spec b 0) as [->|Hz]; auto. exfalso. apply (H [] bs). reflexivity.
Qed.

Lemma fstop_seg u : forall buf r, no_filled_zero (buf ++ r) -> fstop buf = true ->
  fst (seg u false (buf ++ r)) = fseg buf.
Proof.
  induction buf as [buf IH] using (well_founded_induction (Wf_nat.well_founded_ltof _ (@length Z))).
  intros r HC Hst. destruct buf as [|b buf]; [discriminate|]. cbn [fstop fseg app seg] in *.
  destruct (Z.eqb_spec b 255) as [->|Hb].
  - destruct buf as [|c buf]; [discriminate|]. destruct (Z.eq_dec c 0) as [->|Hc].
    + cbn [app seg Z.eqb]. specialize (IH buf ltac:(unfold Wf_nat.ltof; cbn; lia) r ltac:(do 2 apply nfz_tl in HC; exact HC) Hst).
      destruct (seg u false (buf ++ r)). cbn [fst] in *. now rewrite IH.
    + replace (match c with 0 => 255 :: fseg buf | _ => [] end) with (@nil Z) by (destruct c; [congruence|reflexivity|reflexivity]).
      cbn [app seg]. destruct (Z.eqb_spec c 255) as [->|].
      * apply seg_ffff. exact HC.
      * rewrite (proj2 (Z.eqb_neq c 0) Hc). reflexivity.
  - specialize (IH buf ltac:(unfold Wf_nat.ltof; cbn; lia) r ltac:(apply nfz_tl in HC; exact HC) Hst).
    destruct (seg u false (buf ++ r)). cbn [fst] in *. now rewrite IH.
Qed.

Lemma fast_stream_abits (e : dst sqst) : unread e = 0 -> fstop (sbuf (dsrc e)) = true ->
  no_filled_zero (src_bytes (dsrc e)) -> fast_stream e = zstream (abits e).
Proof.
  intros Hu Hs HC. unfold fast_stream, abits, sseg. rewrite Hu. cbn [Z.eqb].
  unfold src_bytes in *. rewrite (fstop_seg _ _ _ HC Hs). reflexivity.
Qed.

Lemma hfeed_nil h : hfeed h [] = h.
Proof. destruct h as [[? ? [? ? ?] ? ? ? ?] ? ? ?]. unfold hfeed, feed. cbn. now rewrite app_nil_r. Qed.

(* what the fast decoder needs to know about the bytes ahead: wherever the buffer ends, if the fast
   segment stops inside the buffer, it is the whole entropy-coded segment *)
Definition clean (bs : list Z) : Prop := forall u buf r, bs = buf ++ r -> fstop buf = true -> fst (seg u false bs) = fseg buf.
Definition hclean (h : hdec) : Prop := unread (hd_st h) = 0 -> clean (hbytes h).
Lemma nfz_clean bs : no_filled_zero bs -> clean bs.
Proof. intros H u buf r -> Hs. apply fstop_seg; auto. Qed.
Lemma nfz_hclean h : no_filled_zero (hbytes h) -> hclean h.
Proof. intros H _. apply nfz_clean. exact H. Qed.

Lemma fast_stream_feed h f : unread (hd_st h) = 0 -> fstop (sbuf (dsrc (hd_st h))) = true ->
  hclean (hfeed h f) -> fast_stream (hd_st h) = zstream (abits (hd_st (hfeed h f))).
Proof.
  intros Hu Hs HC. specialize (HC Hu). unfold fast_stream, abits, sseg. cbn [hfeed hd_st bleft gbuf dsrc unread]. rewrite Hu. cbn [Z.eqb].
  unfold hbytes, src_bytes in *. cbn [hfeed hd_st dsrc feed sbuf schunks ssusp] in *. rewrite <- app_assoc in *.
  rewrite (HC _ _ _ eq_refl Hs). reflexivity.
Qed.

Lemma alpha_feed h f : hd_ok h -> hsusp h = true ->
  exists x, abits (hd_st (hfeed h f)) = abits (hd_st h) ++ x /\
            (tail (hd_st h) <> None -> x = [] /\ exists m r, tail (hd_st h) = Some (m, r) /\ tail (hd_st (hfeed h f)) = Some (m, r ++ f)).
Proof.
  intros [(Hl & Hs & Hi) Hn] Hu. unfold hsusp in Hu. unfold abits, tail, sseg.
  cbn [hfeed hd_st bleft gbuf dsrc unread feed ssusp]. change (mkSrc _ _ _) with (feed (dsrc (hd_st h)) f).
  rewrite feed_bytes by auto. rewrite Hu.
  destruct (Z.eqb_spec (unread (hd_st h)) 0) as [E|E].
  - destruct (snd (seg true false (src_bytes (dsrc (hd_st h))))) as [[m r]|] eqn:Et.
    + rewrite (seg_more true f _ _ _ _ Et). cbn [fst snd]. exists []. rewrite app_nil_r. split; auto. intros _. split; auto. eauto.
    + destruct (seg_grow f _ _ Et) as (x & ->). exists (bytes_to_bits x). rewrite bytes_to_bits_app, app_assoc. split; auto. congruence.
  - exists []. split; [now rewrite !app_nil_r|]. intros _. split; auto. eauto.
Qed.


Definition blks_ok (rbs : list (rblk * blkcfg)) (n : nat) : Prop :=
  rbs <> [] /\ Forall (fun x => blk_ok (fst x) (snd x) n) rbs.

Lemma ref_mcu_len S : forall rbs bn dcs p, length (fst (fst (fst (ref_mcu bn rbs dcs S p)))) = length dcs.
Proof.
  induction rbs as [|[rb b] r IH]; intros bn dcs p; cbn [ref_mcu]; auto.
  destruct (ref_block _ _ _ _ S p) as [[[diff l] p1] ok1].
  set (dcs1 := if b_dcneed b then set_dc dcs (b_ci b) diff else dcs).
  specialize (IH (bn + 1) dcs1 p1). destruct (ref_mcu (bn + 1) r dcs1 S p1) as [[[dcs2 o] p2] ok2]. cbn [fst] in *.
  rewrite IH. unfold dcs1. destruct (b_dcneed b); auto. unfold set_dc. now rewrite length_upd.
Qed.

(* one MCU without restart processing, on the reference machine *)
Definition ref_body (rbs : list (rblk * blkcfg)) (st : rstate) (togo' : Z) : list (Z * Z * Z) * rstate :=
  if rs_ins st then ([], mkRS (rs_dcs st) (rs_bits st) (rs_tail st) true togo' (rs_num st))
  else
    let '(dcs, o, p', _) := ref_mcu 0 rbs (rs_dcs st) (zstream (rs_bits st)) 0 in
    (o, mkRS dcs (skipn p' (rs_bits st)) (rs_tail st) (length (rs_bits st) <? p')%nat togo' (rs_num st)).

Lemma ref_step_body u ri rbs st0 : ref_step u ri rbs st0 =
  match (if (negb (ri =? 0)) && (rs_togo st0 =? 0) then ref_restart u ri st0 else Some st0) with
  | None => None
  | Some st => Some (ref_body rbs st (if ri =? 0 then rs_togo st else u32 (rs_togo st - 1)))
  end.
Proof.
  unfold ref_step, ref_body. destruct (if _ && _ then _ else _) as [st|]; auto. destruct (rs_ins st); auto.
  destruct (ref_mcu _ _ _ _ _) as [[[dcs o] p'] ok]. reflexivity.
Qed.

(* slow decoding of an MCU, with the stores y already made *)
Lemma slow_body rbs h : hd_ok h -> blks_ok rbs (hncomp h) -> insuff (hd_st h) = false ->
  match decode_mcu_slow (map snd rbs) (hd_st h) with
  | Ret (Done _ s') => forall togo', let h' := mkHD s' togo' (hd_num h) (hd_disc h) in
      hd_ok h' /\ hsusp h' = hsusp h /\ hncomp h' = hncomp h /\
      exists o, houts h' = houts h ++ o /\ ref_body rbs (alpha h) togo' = (o, alpha h')
  | Ret (Susp s') => let h' := mkHD s' (hd_togo h) (hd_num h) (hd_disc h) in
      tail (hd_st h) = None /\ hsusp h = true /\ hsusp h' = true /\ hd_ok h' /\ hncomp h' = hncomp h /\
      (forall f, alpha (hfeed h' f) = alpha (hfeed h f)) /\
      exists o1, houts h' = houts h ++ o1 /\
        forall f o st' tg, ref_body rbs (alpha (hfeed h f)) tg = (o, st') -> exists o2, o = o1 ++ o2
  | _ => False
  end.
Proof.
  intros Hh [Hne Hb] Hi. pose proof Hh as [Hr Hn].
  pose proof (decode_mcu_slow_spec rbs (hd_st h) (zstream (abits (hd_st h))) Hr Hi Hb (continues_zstream _ _)) as H.
  unfold ref_body, alpha. cbn [rs_ins rs_bits rs_dcs rs_tail rs_togo rs_num]. rewrite Hi.
  pose proof (ref_mcu_len (zstream (abits (hd_st h))) rbs 0 (sdc (ust (hd_st h))) 0) as Hlen.
  destruct (ref_mcu 0 rbs (sdc (ust (hd_st h))) (zstream (abits (hd_st h))) 0) as [[[dcs o] p'] ok] eqn:Er. cbn [fst] in Hlen.
  destruct (decode_mcu_slow (map snd rbs) (hd_st h)) as [[[] s'|s']| |] eqn:Ed; auto.
  - destruct H as (A1 & A2 & A3 & A4 & A5 & A6). intros togo'. cbn zeta.
    unfold hd_ok, hsusp, hncomp, houts. cbn [hd_st hd_num hd_togo].
    split; [auto|]. split; [auto|]. split; [rewrite A2; exact Hlen|].
    exists o. split; [rewrite A2; reflexivity|]. f_equal. rewrite A2, A3, A5. cbn [sdc]. f_equal.
    destruct (Nat.ltb_spec (length (abits (hd_st h))) p') as [L|L].
    + apply skipn_all2. lia.
    + symmetry. apply A6. exact A5.
  - destruct H as (A1 & A2 & A3 & o1 & o2 & w & A4 & A5). cbn zeta.
    split; [exact A2|]. split; [exact A1|]. split; [unfold hsusp; cbn [hd_st]; rewrite A5; exact A1|].
    split. { destruct Hr as (R1 & R2 & R3). unfold hd_ok, reader_ok. cbn [hd_st hd_num]. rewrite A5. cbn [bleft dsrc insuff unread warns].
             split; [|auto]. split; [auto|]. split; [auto|]. discriminate. }
    split; [unfold hncomp; cbn [hd_st]; rewrite A5; reflexivity|].
    split. { intros f. rewrite A5. unfold alpha, hfeed, abits, tail. cbn [hd_st hd_num hd_togo ust sdc insuff gbuf bleft unread dsrc].
             rewrite A3, Hi. reflexivity. }
    exists o1. split; [unfold houts; cbn [hd_st]; rewrite A5; reflexivity|].
    intros f of st' tg. cbn [hfeed hd_st insuff hd_num ust sdc hd_togo]. cbn [insuff rs_ins]. rewrite Hi.
    destruct (alpha_feed h f Hh A1) as (x & Hx & _). unfold hfeed in Hx. cbn [hd_st] in Hx. rewrite Hi in Hx. rewrite Hx.
    assert (HC : continues (zstream (abits (hd_st h) ++ x)) (abits (hd_st h)) (ended (tail (hd_st h)))).
    { intros i Hor. rewrite A2 in Hor. destruct Hor as [Hl|]; [|discriminate]. unfold zstream. apply app_nth1. exact Hl. }
    pose proof (decode_mcu_slow_spec rbs (hd_st h) _ Hr Hi Hb HC) as H2.
    cbn [rs_dcs rs_bits].
    destruct (ref_mcu 0 rbs (sdc (ust (hd_st h))) (zstream (abits (hd_st h) ++ x)) 0) as [[[dcs2 o'] p2] ok2].
    rewrite Ed in H2. destruct H2 as (_ & _ & _ & o1' & o2' & w' & B4 & B5).
    rewrite A5 in B5. inversion B5 as [[C1 C2]]. apply app_inv_head in C2. subst o1'.
    intros E. inversion E; subst. exists o2'. reflexivity.
Qed.

Lemma fast_body rbs h : hd_ok h -> blks_ok rbs (hncomp h) -> insuff (hd_st h) = false -> unread (hd_st h) = 0 ->
  (512 * length rbs <= length (sbuf (dsrc (hd_st h))))%nat ->
  exists r s', decode_mcu_fast (map snd rbs) (hd_st h) = Ret (r, s') /\
  if r then forall togo', let h' := mkHD s' togo' (hd_num h) (hd_disc h) in
      hd_ok h' /\ hsusp h' = hsusp h /\ hncomp h' = hncomp h /\
      exists o, houts h' = houts h ++ o /\ ref_body rbs (alpha h) togo' = (o, alpha h')
  else fstop (sbuf (dsrc (hd_st h))) = true /\
    exists y, s' = mkD (gbuf (hd_st h)) (bleft (hd_st h)) (dsrc (hd_st h)) 0 false (warns (hd_st h))
                       (mkSq (sdc (ust (hd_st h))) (houts h ++ y)) /\
      (forall f tg, hclean (hfeed h f) -> y = fst (ref_body rbs (alpha (hfeed h f)) tg)).
Proof.
  intros Hh [Hne Hb] Hi Hu Hlen. pose proof Hh as [Hr Hn].
  pose proof (decode_mcu_fast_spec rbs (hd_st h) Hr Hu Hne Hlen Hb) as H.
  set (e := hd_st h) in *.
  unfold ref_body, alpha. cbn [rs_ins rs_bits rs_dcs rs_tail rs_togo rs_num]. fold e. rewrite Hi.
  pose proof (ref_mcu_len (fast_stream e) rbs 0 (sdc (ust e)) 0) as Hl2.
  destruct (ref_mcu_local (fast_stream e) (zstream (abits e)) (hncomp h) rbs 0 (sdc (ust e)) 0 Hb) as [_ Hloc].
  destruct (ref_mcu 0 rbs (sdc (ust e)) (fast_stream e) 0) as [[[dcs o] p'] ok] eqn:Er. cbn [fst snd] in Hloc, Hl2.
  destruct H as (r & s' & Ed & H). exists r, s'. split; [exact Ed|]. destruct r.
  - destruct H as (A1 & A2 & A3 & A4 & A5 & A6 & A7 & A8 & _). intros togo'. cbn zeta.
    assert (HA : agree (fast_stream e) (zstream (abits e)) p').
    { intros i Hip. unfold zstream. rewrite A8, app_nth1 by (rewrite length_bits_at; auto). now rewrite bits_at_nth by auto. }
    rewrite (Hloc HA). unfold hd_ok, hsusp, hncomp, houts. cbn [hd_st hd_num hd_togo]. fold e.
    split; [auto|]. split; [auto|]. split; [rewrite A2; exact Hl2|].
    exists o. split; [rewrite A2; reflexivity|]. f_equal. rewrite A2, A3, A6, Hi. cbn [sdc].
    assert (L : (length (abits e) <? p')%nat = false).
    { apply Nat.ltb_ge. rewrite A8, app_length, length_bits_at. lia. }
    rewrite L. f_equal. rewrite A8, skipn_app, length_bits_at, Nat.sub_diag. cbn [skipn].
    rewrite skipn_all2 by (rewrite length_bits_at; lia). reflexivity.
  - destruct H as (A1 & A2). split; [exact A1|]. exists o. split.
    + rewrite A2, Hi. reflexivity.
    + intros f tg HC. pose proof (fast_stream_feed h f Hu A1 HC) as HF. unfold hfeed in HF |- *.
      cbn [hd_st insuff ust hd_togo hd_num rs_ins rs_bits rs_dcs] in HF |- *. fold e in HF |- *. rewrite Hi in HF |- *.
      rewrite <- HF, Er. reflexivity.
Qed.

(* decode_mcu after restart processing *)
Lemma body_refines ri rbs h : hd_ok h -> blks_ok rbs (hncomp h) ->
  match decode_mcu_body ri (map snd rbs) h with
  | Ret (true, h') => hd_ok h' /\ hsusp h' = hsusp h /\ hncomp h' = hncomp h /\
      exists y o, houts h' = houts h ++ y ++ o /\
        ref_body rbs (alpha h) (if ri =? 0 then hd_togo h else u32 (hd_togo h - 1)) = (o, alpha h') /\
        (hclean h -> y = [] \/ y = o) /\ (ri <> 0 -> y = [])
  | Ret (false, h') => hd_ok h' /\ hsusp h = true /\ hsusp h' = true /\ hncomp h' = hncomp h /\ hd_togo h' = hd_togo h /\
      (forall f, alpha (hfeed h' f) = alpha (hfeed h f)) /\
      exists y o1, houts h' = houts h ++ y ++ o1 /\ (ri <> 0 -> y = []) /\
        (forall f o st' tg, hclean (hfeed h f) -> ref_body rbs (alpha (hfeed h f)) tg = (o, st') -> y = [] \/ y = o) /\
        forall f o st' tg, ref_body rbs (alpha (hfeed h f)) tg = (o, st') -> exists o2, o = o1 ++ o2
  | _ => False
  end.
Proof.
  intros Hh Hb. unfold decode_mcu_body. rewrite map_length.
  destruct (insuff (hd_st h)) eqn:Hi; cbn [bind].
  - split; [exact Hh|]. split; [reflexivity|]. split; [reflexivity|]. exists [], [].
    split; [now rewrite !app_nil_r|]. unfold ref_body, alpha. cbn [rs_ins hd_st hd_togo hd_num rs_dcs rs_bits rs_tail rs_num].
    rewrite Hi. auto.
  - pose (slow := fun s : dst sqst => match decode_mcu_slow (map snd rbs) s with
         | Ret (Done _ s') => Ret (true, s') | Ret (Susp s') => Ret (false, s') | Error e => Error e | Undef => Undef end).
    cbn zeta.
    (* the slow decoder, possibly after stores y *)
    assert (G : forall y, let h0 := mkHD (mkD (gbuf (hd_st h)) (bleft (hd_st h)) (dsrc (hd_st h)) (unread (hd_st h)) false (warns (hd_st h))
                        (mkSq (sdc (ust (hd_st h))) (houts h ++ y))) (hd_togo h) (hd_num h) (hd_disc h) in
       (forall f tg, hclean (hfeed h f) -> y = [] \/ y = fst (ref_body rbs (alpha (hfeed h f)) tg)) ->
       (ri <> 0 -> y = []) ->
       match bind (slow (hd_st h0)) (fun '(ok, s) => if ok : bool then Ret (true, mkHD s (if ri =? 0 then hd_togo h else u32 (hd_togo h - 1)) (hd_num h) (hd_disc h))
                                     else Ret (false, mkHD s (hd_togo h) (hd_num h) (hd_disc h))) with
       | Ret (true, h') => hd_ok h' /\ hsusp h' = hsusp h /\ hncomp h' = hncomp h /\
           exists y o, houts h' = houts h ++ y ++ o /\
             ref_body rbs (alpha h) (if ri =? 0 then hd_togo h else u32 (hd_togo h - 1)) = (o, alpha h') /\
             (hclean h -> y = [] \/ y = o) /\ (ri <> 0 -> y = [])
       | Ret (false, h') => hd_ok h' /\ hsusp h = true /\ hsusp h' = true /\ hncomp h' = hncomp h /\ hd_togo h' = hd_togo h /\
           (forall f, alpha (hfeed h' f) = alpha (hfeed h f)) /\
           exists y o1, houts h' = houts h ++ y ++ o1 /\ (ri <> 0 -> y = []) /\
             (forall f o st' tg, hclean (hfeed h f) -> ref_body rbs (alpha (hfeed h f)) tg = (o, st') -> y = [] \/ y = o) /\
             forall f o st' tg, ref_body rbs (alpha (hfeed h f)) tg = (o, st') -> exists o2, o = o1 ++ o2
       | _ => False
       end).
    { intros y h0 Hy1 Hy2. unfold slow.
      assert (Ha : forall f, alpha (hfeed h0 f) = alpha (hfeed h f)) by (intros f; unfold alpha, hfeed, h0; cbn; rewrite Hi; reflexivity).
      assert (Ha0 : alpha h0 = alpha h) by (unfold alpha, h0; cbn; rewrite Hi; reflexivity).
      assert (Hh0 : hd_ok h0). { destruct Hh as [(R1 & R2 & R3) R4]. split; [|exact R4]. split; [exact R1|]. split; [exact R2|]. discriminate. }
      pose proof (slow_body rbs h0 Hh0 Hb eq_refl) as H.
      destruct (decode_mcu_slow (map snd rbs) (hd_st h0)) as [[[] s'|s']| |] eqn:Ed; auto; cbn [bind].
      - specialize (H (if ri =? 0 then hd_togo h else u32 (hd_togo h - 1))). cbn zeta in H. change (hd_num h0) with (hd_num h) in H.
        change (hd_disc h0) with (hd_disc h) in H.
        destruct H as (A1 & A2 & A3 & o & A4 & A5). rewrite Ha0 in A5.
        split; [exact A1|]. split; [exact A2|]. split; [exact A3|]. exists y, o.
        split; [rewrite A4; unfold houts at 1; cbn; now rewrite <- app_assoc|]. split; [exact A5|].
        split; [|exact Hy2]. intros HC. specialize (Hy1 [] (if ri =? 0 then hd_togo h else u32 (hd_togo h - 1))). rewrite hfeed_nil, A5 in Hy1. exact (Hy1 HC).
      - cbn zeta in H. change (hd_num h0) with (hd_num h) in H. change (hd_disc h0) with (hd_disc h) in H.
        change (hd_togo h0) with (hd_togo h) in H.
        destruct H as (A1 & A2 & A3 & A4 & A5 & A6 & o1 & A7 & A8).
        split; [exact A4|]. split; [exact A2|]. split; [exact A3|]. split; [exact A5|]. split; [reflexivity|].
        split; [intros f; rewrite A6; apply Ha|]. exists y, o1.
        split; [rewrite A7; unfold houts at 1; cbn; now rewrite <- app_assoc|].
        split; [exact Hy2|]. split. { intros f o st' tg HC Ef. specialize (Hy1 f tg HC). rewrite Ef in Hy1. exact Hy1. }
        intros f o st' tg Ef. apply (A8 f o st' tg). rewrite Ha. exact Ef. }
    assert (Hh00 : hd_st h = mkD (gbuf (hd_st h)) (bleft (hd_st h)) (dsrc (hd_st h)) (unread (hd_st h)) false (warns (hd_st h))
                        (mkSq (sdc (ust (hd_st h))) (houts h ++ []))).
    { rewrite app_nil_r, <- Hi. unfold houts. destruct (hd_st h) as [? ? ? ? ? ? [? ?]]. reflexivity. }
    destruct (_ && _ && _) eqn:Ef.
    + apply andb_prop in Ef. destruct Ef as [Ef Eu]. apply andb_prop in Ef. destruct Ef as [Er El].
      apply Z.eqb_eq in Eu, Er. apply Z.leb_le in El.
      destruct (fast_body rbs h Hh Hb Hi Eu ltac:(lia)) as (r & s' & Ed & H). rewrite Ed. cbn [bind].
      destruct r; cbn [bind].
      * specialize (H (if ri =? 0 then hd_togo h else u32 (hd_togo h - 1))). cbn zeta in H.
        destruct H as (A1 & A2 & A3 & o & A4 & A5).
        split; [exact A1|]. split; [exact A2|]. split; [exact A3|]. exists [], o. auto.
      * destruct H as (A1 & y & A2 & A3). rewrite <- Eu in A2. rewrite A2. apply (G y).
        -- intros f tg HC. right. apply A3. exact HC.
        -- intros; congruence.
    + specialize (G [] ltac:(auto) ltac:(auto)). cbn zeta in G. cbn [hd_st] in G.
      rewrite <- Hh00 in G. exact G.
Qed.

Lemma decode_mcu_refines ri rbs h : hd_ok h -> blks_ok rbs (hncomp h) ->
  match decode_mcu ri (map snd rbs) h with
  | Ret (true, h') => hd_ok h' /\ hsusp h' = hsusp h /\ hncomp h' = hncomp h /\
      exists y o, houts h' = houts h ++ y ++ o /\ ref_step (hsusp h) ri rbs (alpha h) = Some (o, alpha h') /\
        (hclean h -> y = [] \/ y = o) /\ (ri <> 0 -> y = [])
  | Ret (false, h') => hd_ok h' /\ hsusp h = true /\ hsusp h' = true /\ hncomp h' = hncomp h /\
      (forall f, ref_step true ri rbs (alpha (hfeed h' f)) = ref_step true ri rbs (alpha (hfeed h f))) /\
      exists y o1, houts h' = houts h ++ y ++ o1 /\ (ri <> 0 -> y = []) /\
        (forall f o st', hclean (hfeed h f) -> ref_step true ri rbs (alpha (hfeed h f)) = Some (o, st') -> y = [] \/ y = o) /\
        forall f o st', ref_step true ri rbs (alpha (hfeed h f)) = Some (o, st') -> exists o2, o = o1 ++ o2
  | _ => False
  end.
Proof.
  intros Hh Hb. unfold decode_mcu.
  destruct (negb (ri =? 0) && (hd_togo h =? 0)) eqn:Er.
  - pose proof Er as Er'. apply andb_prop in Er'. destruct Er' as [Er1 Er2]. apply negb_true_iff, Z.eqb_neq in Er1. apply Z.eqb_eq in Er2.
    assert (Hst : forall u f, ref_step u ri rbs (alpha (hfeed h f)) = match ref_restart u ri (alpha (hfeed h f)) with None => None
          | Some st => Some (ref_body rbs st (if ri =? 0 then rs_togo st else u32 (rs_togo st - 1))) end).
    { intros u f. rewrite ref_step_body. change (rs_togo (alpha (hfeed h f))) with (hd_togo h). rewrite Er. reflexivity. }
    pose proof (process_restart_spec ri h Hh) as HR.
    destruct (process_restart ri h) as [[[|] h1]| |]; auto; cbn [bind negb].
    + destruct HR as (R1 & R2 & R3 & R4 & R5 & R6 & R7). rewrite <- R5 in Hb.
      pose proof (body_refines ri rbs h1 R1 Hb) as H.
      destruct (decode_mcu_body ri (map snd rbs) h1) as [[[|] h']| |]; auto.
      * destruct H as (A1 & A2 & A3 & y & o & A4 & A5 & A6 & A7).
        split; [exact A1|]. split; [congruence|]. split; [congruence|]. exists y, o. split; [congruence|].
        split; [|split; [rewrite (A7 Er1); auto|exact A7]].
        rewrite ref_step_body. change (rs_togo (alpha h)) with (hd_togo h). rewrite Er, R2, <- A5. reflexivity.
      * destruct H as (A1 & A2 & A3 & A4 & A5 & A6 & y & o1 & A7 & A8 & A8' & A9).
        assert (Hu : hsusp h = true) by congruence.
        split; [exact A1|]. split; [exact Hu|]. split; [exact A3|]. split; [congruence|].
        assert (Hs' : forall f, ref_step true ri rbs (alpha (hfeed h f)) =
           Some (ref_body rbs (alpha (hfeed h1 f)) (u32 (ri - 1)))).
        { intros f. rewrite Hst, (R7 Hu). rewrite (proj2 (Z.eqb_neq ri 0) Er1). change (rs_togo (alpha (hfeed h1 f))) with (hd_togo h1). rewrite R6. reflexivity. }
        split.
        -- intros f. rewrite Hs', A6. rewrite ref_step_body.
           change (rs_togo (alpha (hfeed h1 f))) with (hd_togo h1). rewrite R6.
           rewrite (proj2 (Z.eqb_neq ri 0) Er1). cbn [negb andb].
           change (rs_togo (alpha (hfeed h1 f))) with (hd_togo h1). rewrite R6. reflexivity.
        -- exists y, o1. split; [congruence|]. split; [intros _; apply A8; auto|]. split; [intros; left; apply A8; auto|].
           intros f o st'. rewrite Hs'. intros E. inversion E as [E']. apply (A9 f o st' _ E').
    + destruct HR as (R1 & R2 & R3 & R4 & R5 & R6 & R7 & R8).
      split; [exact R1|]. split; [exact R2|]. split; [exact R3|]. split; [unfold hncomp; congruence|].
      split.
      * intros f. rewrite Hst, R8, ref_step_body. change (rs_togo (alpha (hfeed h1 f))) with (hd_togo h1). rewrite R7, Er. reflexivity.
      * exists [], []. split; [now rewrite !app_nil_r|]. split; auto. split; auto. intros f o st' _. exists o. reflexivity.
  - cbn [bind negb].
    assert (Hst : forall u hh, hd_togo hh = hd_togo h -> ref_step u ri rbs (alpha hh) = 
          Some (ref_body rbs (alpha hh) (if ri =? 0 then hd_togo h else u32 (hd_togo h - 1)))).
    { intros u hh Hhh. rewrite ref_step_body. replace (rs_togo (alpha hh)) with (hd_togo h) by (symmetry; exact Hhh). rewrite Er.
      change (rs_togo (alpha hh)) with (hd_togo hh). rewrite Hhh. reflexivity. }
    pose proof (body_refines ri rbs h Hh Hb) as H.
    destruct (decode_mcu_body ri (map snd rbs) h) as [[[|] h']| |]; auto.
    + destruct H as (A1 & A2 & A3 & y & o & A4 & A5 & A6 & A7).
      split; [exact A1|]. split; [auto|]. split; [auto|]. exists y, o. split; [auto|]. split; [|auto].
      rewrite Hst by reflexivity. now rewrite A5.
    + destruct H as (A1 & A2 & A3 & A4 & A5 & A6 & y & o1 & A7 & A8 & A8' & A9).
      split; [exact A1|]. split; [exact A2|]. split; [exact A3|]. split; [exact A4|].
      split; [intros f; rewrite !Hst by (auto; unfold hfeed; cbn; auto); now rewrite A6|].
      exists y, o1. split; [auto|]. split; [exact A8|].
      split. { intros f o st' HC. rewrite Hst by reflexivity. intros E. inversion E as [E']. apply (A8' f o st' _ HC E'). }
      intros f o st'. rewrite Hst by reflexivity. intros E. inversion E as [E'].
      apply (A9 f o st' _ E').
Qed.
