(* P_HuffScan.v -- destination managers, MCUs and whole scans of the Huffman encoder *)
From Verif Require Import Base M_HuffTbl S_Huff S_Stream S_Block P_HuffTbl P_BitRead P_HuffDec M_HuffEnc P_HuffEnc.

(* ---- packing ---- *)
Lemma pack_fuel : forall f l, (length l <= f)%nat -> pack f l = pack (length l) l.
Proof.
  assert (H : forall n f l, (length l <= n)%nat -> (n <= f)%nat -> pack f l = pack n l).
  { induction n as [|n IH]; intros f l Hl Hf.
    - destruct l; [|cbn in Hl; lia]. destruct f; reflexivity.
    - destruct f as [|f]; [lia|]. cbn [pack]. destruct l as [|b l]; [reflexivity|].
      f_equal. apply IH; [|lia]. rewrite skipn_length. cbn [length] in *. lia. }
  intros f l Hl. apply H; auto.
Qed.

Lemma skipn_bits8 b l : skipn 8 (bits_of 8 b ++ l) = l.
Proof. rewrite skipn_app, length_bits_of. cbn [Nat.sub]. rewrite skipn_all2 by (rewrite length_bits_of; lia). reflexivity. Qed.

Lemma firstn_bits8 b l : firstn 8 (bits_of 8 b ++ l) = bits_of 8 b.
Proof. rewrite firstn_app, length_bits_of. cbn [Nat.sub]. rewrite firstn_O, app_nil_r. apply firstn_all2. rewrite length_bits_of. lia. Qed.

Definition pk (l : list bool) : list Z := pack (length l) l.

Lemma pk_byte b l : byte b -> pk (bits_of 8 b ++ l) = b :: pk l.
Proof.
  intros Hb. unfold pk.
  assert (E : exists n, length (bits_of 8 b ++ l) = S n /\ (length l <= n)%nat).
  { rewrite app_length, length_bits_of. exists (7 + length l)%nat. lia. }
  destruct E as (n & -> & Hn). cbn [pack].
  destruct (bits_of 8 b ++ l) as [|x r] eqn:E; [apply (f_equal (@length bool)) in E; rewrite app_length, length_bits_of in E; cbn in E; lia|].
  rewrite <- E. rewrite skipn_bits8, <- app_assoc, firstn_bits8. f_equal.
  - rewrite bval_bits_of. apply Z.mod_small. exact Hb.
  - apply pack_fuel. exact Hn.
Qed.

Lemma pk_bytes D l : Forall byte D -> pk (bytes_to_bits D ++ l) = D ++ pk l.
Proof.
  induction 1 as [|b D Hb HD IH]; [reflexivity|]. cbn [bytes_to_bits]. rewrite <- app_assoc, pk_byte by auto.
  now rewrite IH.
Qed.

Lemma u8_bval v : u8 v = bval (bits_of 8 v).
Proof. rewrite bval_bits_of. reflexivity. Qed.

Lemma bits_of_S_app a b v : bits_of (a + b) v = bits_of a (Z.shiftr v (Z.of_nat b)) ++ bits_of b v.
Proof. apply bits_of_app. Qed.

Lemma flush_bytes_spec : forall fuel n p buf,
  (n < 8 * fuel)%nat -> (length buf + length (stuff (pk (bits_of n p))) + 1 <= 512)%nat ->
  flush_bytes fuel p (Z.of_nat n) buf = Ret (buf ++ stuff (pk (bits_of n p))).
Proof.
  induction fuel as [|f IH]; intros n p buf Hn Hl; [lia|]. cbn [flush_bytes].
  destruct (Z.leb_spec 8 (Z.of_nat n)).
  - replace (Z.of_nat n - 8) with (Z.of_nat (n - 8)) by lia.
    assert (E : bits_of n p = bits_of 8 (u8 (Z.shiftr p (Z.of_nat (n - 8)))) ++ bits_of (n - 8) p).
    { rewrite bits_of_u8. replace n with (8 + (n - 8))%nat at 1 by lia. apply bits_of_app. }
    rewrite E, pk_byte by apply u8_byte. rewrite E, pk_byte in Hl by apply u8_byte.
    set (b := Z.shiftr p (Z.of_nat (n - 8))) in *.
    pose proof (EMIT_BYTES_spec [b] buf) as HE. cbn [EMIT_BYTES map stuff] in HE.
    cbn [stuff] in *. 
    assert (HE' : EMIT_BYTE b buf = Ret (buf ++ (if u8 b =? 255 then [255; 0] else [u8 b]))).
    { specialize (HE ltac:(destruct (u8 b =? 255); cbn [length] in *; lia)).
      destruct (EMIT_BYTE b buf) as [x| |]; cbn [bind] in HE; try discriminate.
      rewrite HE. destruct (u8 b =? 255); reflexivity. }
    rewrite HE'. cbn [bind]. rewrite IH.
    + rewrite <- app_assoc. destruct (u8 b =? 255); reflexivity.
    + lia.
    + rewrite app_length. destruct (u8 b =? 255); cbn [length] in *; lia.
  - destruct (Z.ltb_spec 0 (Z.of_nat n)).
    + assert (E : u8 (Z.lor (Z.shiftl p (8 - Z.of_nat n)) (Z.shiftr 255 (Z.of_nat n))) = bval (firstn 8 (bits_of n p ++ repeat true 7))).
      { rewrite u8_bval. f_equal. replace (8 - Z.of_nat n) with (Z.of_nat (8 - n)) by lia.
        assert (Hc : 0 <= Z.shiftr 255 (Z.of_nat n) < 2 ^ Z.of_nat (8 - n) /\
                     bits_of (8 - n) (Z.shiftr 255 (Z.of_nat n)) = repeat true (8 - n)).
        { assert (n = 1 \/ n = 2 \/ n = 3 \/ n = 4 \/ n = 5 \/ n = 6 \/ n = 7)%nat as Hc by lia.
          destruct Hc as [->|[->|[->|[->|[->|[->| ->]]]]]]; cbn; split; auto; lia. }
        destruct Hc as [Hc1 Hc2].
        pose proof (bits_of_put n (8 - n) p _ ltac:(lia) Hc1) as HP.
        replace (n + (8 - n))%nat with 8%nat in HP by lia.
        assert (HU : forall x, bits_of 8 (u64 x) = bits_of 8 x).
        { intros x. apply bits_of_ext. intros i Hi. unfold u64. apply Z.mod_pow2_bits_low. lia. }
        rewrite HU in HP. rewrite HP, Hc2.
        rewrite firstn_app, length_bits_of. rewrite firstn_all2 by (rewrite length_bits_of; lia).
        f_equal. rewrite firstn_repeat by lia. reflexivity. }
      assert (Epk : pk (bits_of n p) = [u8 (Z.lor (Z.shiftl p (8 - Z.of_nat n)) (Z.shiftr 255 (Z.of_nat n)))]).
      { rewrite E. unfold pk. rewrite length_bits_of. destruct n as [|n]; [lia|]. cbn [pack].
        destruct (bits_of (S n) p) as [|x r] eqn:Eb; [apply (f_equal (@length bool)) in Eb; rewrite length_bits_of in Eb; cbn in Eb; lia|].
        rewrite <- Eb. f_equal. rewrite skipn_all2 by (rewrite length_bits_of; lia). destruct n; reflexivity. }
      rewrite Epk in *. set (b := Z.lor _ _) in *.
      pose proof (EMIT_BYTES_spec [b] buf) as HE. cbn [EMIT_BYTES map] in HE.
      specialize (HE Hl). destruct (EMIT_BYTE b buf) as [x| |]; cbn [bind] in HE; try discriminate. exact HE.
    + destruct n; [|lia]. cbn. now rewrite app_nil_r.
Qed.

(* ---- destinations ---- *)
Definition dest_ok (d : dest) : Prop := 0 < dfree d.

(* a delivery of bytes: succeeded, or a suspending destination ran out of space *)
Definition delivered (bytes : list Z) (d : dest) (o : option dest) : Prop :=
  match o with
  | Some d' => dout d' = dout d ++ bytes /\ dest_ok d' /\ dsusp d' = dsusp d
  | None => dsusp d = true
  end.

Lemma dump_ok d : match dump_buffer d with
  | Some d' => dout d' = dout d /\ dest_ok d' /\ dsusp d' = dsusp d
  | None => dsusp d = true end.
Proof.
  unfold dump_buffer, dest_ok. destruct (dsusp d) eqn:E; auto.
  destruct (drooms d) as [|p [|q r]]; cbn; rewrite ?E; auto; repeat split; auto; lia.
Qed.

Lemma store_loop_spec : forall fuel bytes d, (length bytes <= fuel)%nat -> dest_ok d ->
  exists o, store_loop fuel bytes d = Ret o /\ delivered bytes d o.
Proof.
  induction fuel as [|f IH]; intros bytes d Hl Hd.
  - destruct bytes; [|cbn in Hl; lia]. exists (Some d). cbn. rewrite app_nil_r. auto.
  - cbn [store_loop]. destruct bytes as [|b bs] eqn:Eb.
    + exists (Some d). cbn. rewrite app_nil_r. auto.
    + rewrite <- Eb in *. set (n := Z.min (Z.of_nat (length bytes)) (dfree d)).
      assert (Hn : 1 <= n) by (unfold n, dest_ok in *; rewrite Eb; cbn [length]; lia).
      set (d1 := mkDest _ _ _ _).
      assert (Hr : (length (skipn (Z.to_nat n) bytes) <= f)%nat) by (rewrite skipn_length; lia).
      assert (HS : forall d2, dout d2 = dout d1 -> dest_ok d2 -> dsusp d2 = dsusp d ->
        exists o, store_loop f (skipn (Z.to_nat n) bytes) d2 = Ret o /\ delivered bytes d o).
      { intros d2 H1 H2 H3. destruct (IH _ d2 Hr H2) as (o & E & HD). exists o. split; auto.
        unfold delivered in *. destruct o as [d'|]; [|congruence].
        destruct HD as (A & B & C). split; [|split; [auto|congruence]].
        rewrite A, H1. unfold d1. cbn [dout]. now rewrite <- app_assoc, firstn_skipn. }
      destruct (Z.eqb_spec (dfree d1) 0) as [E0|E0].
      * pose proof (dump_ok d1) as HD. destruct (dump_buffer d1) as [d2|].
        -- destruct HD as (A & B & C). apply HS; auto.
        -- exists None. split; auto.
      * apply HS; auto. unfold dest_ok, d1 in *. cbn [dfree] in *. unfold n in *. lia.
Qed.

Lemma STORE_BUFFER_spec bytes d : dest_ok d -> (length bytes <= 511)%nat ->
  exists o, STORE_BUFFER bytes d = Ret o /\ delivered bytes d o.
Proof.
  intros Hd Hl. unfold STORE_BUFFER. destruct (Z.ltb_spec (dfree d) 512).
  - apply store_loop_spec; auto.
  - destruct (Z.ltb_spec (dfree d) (Z.of_nat (length bytes))); [lia|]. eexists. split; [reflexivity|].
    unfold delivered, dest_ok. cbn [dout dfree dsusp]. repeat split; auto. lia.
Qed.

Lemma emit_byte_spec b d : dest_ok d -> exists o, emit_byte b d = Ret o /\ delivered [u8 b] d o.
Proof.
  intros Hd. unfold emit_byte. unfold dest_ok in Hd. destruct (Z.ltb_spec (dfree d) 1); [lia|].
  set (d1 := mkDest _ _ _ _). destruct (Z.eqb_spec (dfree d1) 0).
  - pose proof (dump_ok d1) as HD. eexists. split; [reflexivity|]. destruct (dump_buffer d1) as [d2|]; cbn [delivered]; auto.
  - eexists. split; [reflexivity|]. unfold delivered, dest_ok. cbn [dout dfree dsusp]. repeat split; auto.
    unfold d1 in *. cbn [dfree] in *. lia.
Qed.

(* ---- encoder state between blocks ---- *)
(* the current segment started after [base]; B = its bits so far *)
Definition sinv (base : list Z) (B : list bool) (v : hsav) (d : dest) : Prop :=
  0 <= v_fb v <= 64 /\ dest_ok d /\ Forall coef16 (v_dc v) /\
  exists D, Forall byte D /\ dout d = base ++ stuff D /\
            bytes_to_bits D ++ bits_of (Z.to_nat (64 - v_fb v)) (v_pb v) = B.

(* the parameters of a block, and its specification counterpart *)
Definition eb_ok (ncomp : nat) (b : eblk) : Prop :=
  ct_ok (eb_dc b) /\ ct_ok (eb_ac b) /\ 0 <= eb_ci b < Z.of_nat ncomp /\
  length (eb_coef b) = 64%nat /\ Forall coef16 (eb_coef b).
Definition to_sb (b : eblk) : sblk :=
  mkSB (Z.to_nat (eb_ci b)) (ecode (eb_dc b)) (ecode (eb_ac b)) (eb_coef b).

(* all coefficients of an MCU can be coded, given the predictions *)
Fixpoint mcu_in_range (mcb : nat) (preds : list Z) (bs : list sblk) : Prop :=
  match bs with
  | [] => True
  | b :: r => block_in_range mcb (nth (s_ci b) preds 0) (s_coef b) /\
              mcu_in_range mcb (upd preds (s_ci b) (nth 0 (s_coef b) 0)) r
  end.

Lemma Forall_upd {A} (P : A -> Prop) l n x : Forall P l -> P x -> Forall P (upd l n x).
Proof. intros H Hx. revert n. induction H; intros n; destruct n; cbn; constructor; auto. Qed.

Lemma Forall_nth' {A} (P : A -> Prop) l n d : Forall P l -> P d -> P (nth n l d).
Proof. intros H Hd. revert n. induction H; intros n; destruct n; cbn; auto. Qed.

Lemma encode_blocks_spec mcb base : (mcb <= 14)%nat -> forall bs B v d,
  Forall (eb_ok (length (v_dc v))) bs -> sinv base B v d ->
  mcu_in_range mcb (v_dc v) (map to_sb bs) ->
  exists o, encode_blocks (Z.of_nat mcb) bs (v, d) = Ret o /\
    match o with
    | None => dsusp d = true
    | Some (v', d') => sinv base (B ++ fst (enc_mcu (v_dc v) (map to_sb bs))) v' d' /\
        v_dc v' = snd (enc_mcu (v_dc v) (map to_sb bs)) /\ length (v_dc v') = length (v_dc v) /\ dsusp d' = dsusp d
    end.
Proof.
  intros Hm. induction bs as [|b bs IH]; intros B v d Hok I Hr; cbn [encode_blocks map enc_mcu].
  - eexists. split; [reflexivity|]. cbn. rewrite app_nil_r. auto.
  - inversion Hok as [|? ? Hb Hbs]; subst. destruct Hb as (T1 & T2 & Hci & Hlen & Hc16).
    destruct I as (Hf & Hd & Hdc & D & HD & Hout & HB).
    cbn [mcu_in_range map to_sb s_ci s_coef] in Hr. destruct Hr as [Hr1 Hr2].
    rewrite (aget_nth (v_dc v) _ 0) by lia. cbn [bind].
    set (last := nth (Z.to_nat (eb_ci b)) (v_dc v) 0) in *.
    assert (Hlast : coef16 last) by (apply Forall_nth'; auto; unfold coef16; lia).
    destruct (encode_one_block_spec mcb (eb_coef b) last (eb_dc b) (eb_ac b) (v_pb v) (v_fb v) _ T1 T2 Hm Hlen Hc16 Hlast Hf eq_refl)
      as [HE _].
    destruct (HE Hr1) as (e & -> & Ie & Le). cbn [bind].
    destruct Ie as (Hfe & De & HDe & Hebuf & HBe).
    assert (Hbl : (length (ebuf e) <= 511)%nat).
    { rewrite <- HBe, app_length, length_bytes_to_bits in Le. rewrite Hebuf. pose proof (stuff_length De). lia. }
    destruct (STORE_BUFFER_spec (ebuf e) d Hd Hbl) as (o & -> & HO). cbn [bind].
    destruct o as [d'|]; [|eexists; split; [reflexivity|exact HO]].
    destruct HO as (O1 & O2 & O3).
    rewrite (aget_nth (eb_coef b) 0 0) by lia. cbn [bind]. change (Z.to_nat 0) with 0%nat.
    rewrite aset_ok by lia. cbn [bind].
    set (dc' := upd (v_dc v) (Z.to_nat (eb_ci b)) (nth 0 (eb_coef b) 0)) in *.
    assert (Hl' : length dc' = length (v_dc v)) by apply length_upd.
    set (w1 := enc_block (ecode (eb_dc b)) (ecode (eb_ac b)) last (eb_coef b)) in *.
    destruct (IH (B ++ w1) (mkSav (pb e) (fb e) dc') d') as (o2 & E2 & H2).
    + cbn [v_dc]. rewrite Hl'. exact Hbs.
    + unfold sinv. cbn [v_fb v_pb v_dc]. split; [auto|]. split; [auto|]. split.
      { apply Forall_upd; auto. apply Forall_nth'; auto. unfold coef16; lia. }
      exists (D ++ De). split; [apply Forall_app; auto|]. split.
      * rewrite O1, Hout, Hebuf, stuff_app, <- app_assoc. reflexivity.
      * rewrite bytes_to_bits_app, <- app_assoc, HBe, <- HB, <- app_assoc. reflexivity.
    + exact Hr2.
    + exists o2. split; [exact E2|]. destruct o2 as [[v2 d2]|]; [|congruence].
      cbn [v_dc] in H2. change (s_ci (to_sb b)) with (Z.to_nat (eb_ci b)). change (s_coef (to_sb b)) with (eb_coef b).
      change (s_dcc (to_sb b)) with (ecode (eb_dc b)). change (s_acc (to_sb b)) with (ecode (eb_ac b)).
      fold dc'. fold last. fold w1.
      destruct (enc_mcu dc' (map to_sb bs)) as [w2 p2] eqn:Ew. cbn [fst snd] in *.
      destruct H2 as (J1 & J2 & J3 & J4). split; [|split; [auto|split; [lia|congruence]]].
      rewrite <- app_assoc in J1. exact J1.
Qed.

Lemma flush_bits_spec base B v d : sinv base B v d ->
  exists o, flush_bits (v, d) = Ret o /\
    match o with
    | None => dsusp d = true
    | Some (v', d') => v' = mkSav 0 64 (v_dc v) /\ dout d' = base ++ segment_bytes B /\ dest_ok d' /\ dsusp d' = dsusp d
    end.
Proof.
  intros (Hf & Hd & Hdc & D & HD & Hout & HB). unfold flush_bits.
  set (n := Z.to_nat (64 - v_fb v)) in *. replace (64 - v_fb v) with (Z.of_nat n) by lia.
  assert (Hpl : forall f l, (8 * length (pack f l) <= length l + 7)%nat).
  { induction f as [|f IH]; intros l; cbn [pack]; [cbn; lia|]. destruct l as [|x l]; [cbn; lia|].
    cbn [length]. specialize (IH (skipn 8 (x :: l))). rewrite skipn_length in IH. cbn [length] in IH.
    destruct (Nat.le_gt_cases 8 (S (length l))); [lia|].
    replace (S (length l) - 8)%nat with 0%nat in IH by lia. lia. }
  pose proof (Hpl (length (bits_of n (v_pb v))) (bits_of n (v_pb v))) as HP. rewrite length_bits_of in HP.
  pose proof (stuff_length (pk (bits_of n (v_pb v)))) as HS. unfold pk in HS at 2. rewrite length_bits_of in HS.
  rewrite flush_bytes_spec by (cbn [length]; lia). cbn [bind app].
  destruct (STORE_BUFFER_spec (stuff (pk (bits_of n (v_pb v)))) d Hd ltac:(lia)) as (o & -> & HO). cbn [bind].
  eexists. split; [reflexivity|]. destruct o as [d'|]; [|exact HO]. destruct HO as (O1 & O2 & O3).
  split; auto. split; [|auto]. rewrite O1, Hout, <- app_assoc. f_equal.
  unfold segment_bytes. fold (pk B). rewrite <- HB, pk_bytes, stuff_app by auto. reflexivity.
Qed.

Lemma emit_restart_spec base B v d num : sinv base B v d -> 0 <= num < 8 ->
  exists o, emit_restart num (v, d) = Ret o /\
    match o with
    | None => dsusp d = true
    | Some (v', d') => sinv (base ++ segment_bytes B ++ [255; 208 + num]) [] v' d' /\
         v_dc v' = repeat 0 (length (v_dc v)) /\ dsusp d' = dsusp d
    end.
Proof.
  intros I Hn. unfold emit_restart. destruct (flush_bits_spec base B v d I) as (o & -> & HO). cbn [bind].
  destruct o as [[v1 d1]|]; [|eexists; split; [reflexivity|auto]].
  destruct HO as (-> & O1 & O2 & O3). cbn [v_pb v_fb v_dc].
  destruct (emit_byte_spec 255 d1 O2) as (o1 & -> & HO1). cbn [bind].
  destruct o1 as [d2|]; [|eexists; split; [reflexivity|cbn in HO1; congruence]].
  destruct HO1 as (P1 & P2 & P3).
  destruct (emit_byte_spec (208 + num) d2 P2) as (o2 & -> & HO2). cbn [bind].
  eexists. split; [reflexivity|]. destruct o2 as [d3|]; [|cbn in HO2; congruence].
  destruct HO2 as (Q1 & Q2 & Q3).
  assert (Em : map (fun _ : Z => 0) (v_dc v) = repeat 0 (length (v_dc v))).
  { generalize (v_dc v). induction l; cbn; f_equal; auto. }
  split; [|split; [cbn [v_dc]; exact Em|congruence]].
  unfold sinv. cbn [v_fb v_pb v_dc]. split; [lia|]. split; [auto|]. split.
  - rewrite Em. apply Forall_forall. intros x Hx. apply repeat_spec in Hx. subst. unfold coef16. lia.
  - exists []. split; [constructor|]. split; [|reflexivity]. cbn [stuff]. rewrite app_nil_r.
    rewrite Q1, P1, O1. change (u8 255) with 255. rewrite (u8_id (208 + num)) by lia.
    rewrite <- !app_assoc. reflexivity.
Qed.

(* ---- MCUs: abstract state = (bytes before the segment, bits of the segment, predictions,
   MCUs left in the interval, restart number) ---- *)
Record absst := mkA { a_base : list Z; a_B : list bool; a_pr : list Z; a_k : nat; a_n : Z }.

Definition amcu (ri : nat) (m : list sblk) (a : absst) : absst :=
  mkA (a_base a) (a_B a ++ fst (enc_mcu (a_pr a) m)) (snd (enc_mcu (a_pr a) m)) (a_k a - 1) (a_n a).
Definition afresh (ri : nat) (a : absst) : absst :=
  mkA (a_base a ++ segment_bytes (a_B a) ++ [255; 208 + a_n a]) [] (repeat 0 (length (a_pr a))) ri ((a_n a + 1) mod 8).
Definition astep (ri : nat) (a : absst) (m : list sblk) : absst :=
  amcu ri m (if (negb (ri =? 0) && (a_k a =? 0))%nat then afresh ri a else a).
Definition afinal (a : absst) : list Z := a_base a ++ segment_bytes (a_B a).

Definition hinv (ri : nat) (a : absst) (h : henc) (d : dest) : Prop :=
  sinv (a_base a) (a_B a) (h_saved h) d /\ v_dc (h_saved h) = a_pr a /\
  0 <= a_n a < 8 /\ h_num h = a_n a /\ (ri <> 0%nat -> h_togo h = Z.of_nat (a_k a)) /\ (a_k a <= ri)%nat.

(* coefficients that every encoder call accepts: DC in [-2^mcb, 2^mcb), |AC| < 2^mcb *)
Definition coefs_ok (mcb : nat) (blk : list Z) : Prop :=
  length blk = 64%nat /\ - 2 ^ Z.of_nat mcb <= nth 0 blk 0 < 2 ^ Z.of_nat mcb /\
  Forall (fun v => - 2 ^ Z.of_nat mcb < v < 2 ^ Z.of_nat mcb) (tl blk).
Definition mcu_ok (mcb ncomp : nat) (m : list eblk) : Prop :=
  Forall (fun b => eb_ok ncomp b /\ coefs_ok mcb (eb_coef b)) m.

Lemma category_le n v : (category v <= n)%nat <-> - 2 ^ Z.of_nat n < v < 2 ^ Z.of_nat n.
Proof.
  unfold category. assert (0 < 2 ^ Z.of_nat n) by (apply Z.pow_pos_nonneg; lia).
  destruct (Z.eqb_spec v 0); [lia|].
  pose proof (Z.log2_nonneg (Z.abs v)).
  assert (HL : Z.log2 (Z.abs v) < Z.of_nat n <-> Z.abs v < 2 ^ Z.of_nat n).
  { symmetry. apply Z.log2_lt_pow2. lia. }
  lia.
Qed.

Definition pr_ok (mcb : nat) (pr : list Z) : Prop := Forall (fun v => - 2 ^ Z.of_nat mcb <= v < 2 ^ Z.of_nat mcb) pr.

Lemma mcu_ok_range mcb ncomp : (mcb <= 14)%nat -> forall m pr, mcu_ok mcb ncomp m -> pr_ok mcb pr ->
  mcu_in_range mcb pr (map to_sb m) /\ pr_ok mcb (snd (enc_mcu pr (map to_sb m))) /\
  length (snd (enc_mcu pr (map to_sb m))) = length pr.
Proof.
  intros Hm. induction m as [|b m IH]; intros pr Hok Hpr; cbn [map mcu_in_range enc_mcu]; [cbn; auto|].
  inversion Hok as [|? ? [Hb Hc] Hok']; subst. destruct Hc as (Hl & Hdc & Hac).
  assert (Hpos : 0 < 2 ^ Z.of_nat mcb) by (apply Z.pow_pos_nonneg; lia).
  assert (Hpr' : pr_ok mcb (upd pr (s_ci (to_sb b)) (nth 0 (s_coef (to_sb b)) 0))) by (apply Forall_upd; auto).
  destruct (IH _ Hok' Hpr') as (I1 & I2 & I3).
  destruct (enc_mcu _ (map to_sb m)) as [w p'] eqn:E. cbn [snd] in *. split; [|split; [auto|]].
  - split; auto. unfold block_in_range. change (s_coef (to_sb b)) with (eb_coef b). split.
    + apply category_le. replace (Z.of_nat (mcb + 1)) with (Z.succ (Z.of_nat mcb)) by lia.
      rewrite Z.pow_succ_r by lia.
      pose proof (Forall_nth' _ pr (s_ci (to_sb b)) 0 Hpr ltac:(cbn beta; lia)) as Hn. cbn beta in Hn. lia.
    + rewrite tl_zz. apply Forall_forall. intros v Hv. apply in_map_iff in Hv. destruct Hv as (k & <- & Hk).
      apply category_le. assert (Hk1 : (1 <= k < 64)%nat).
      { clear -Hk. vm_compute in Hk. repeat (destruct Hk as [<-|Hk]; [lia|]). destruct Hk. }
      destruct (eb_coef b) as [|c0 cs]; [cbn in Hl; lia|]. destruct k as [|k]; [lia|]. cbn [nth tl] in *.
      rewrite Forall_forall in Hac. apply Hac. apply nth_In. cbn in Hl. lia.
  - rewrite I3. apply length_upd.
Qed.

Lemma encode_mcu_spec mcb ri m a h d :
  (mcb <= 14)%nat -> Z.of_nat ri < 2 ^ 32 -> hinv ri a h d -> pr_ok mcb (a_pr a) ->
  mcu_ok mcb (length (a_pr a)) m ->
  exists ok h' d', encode_mcu_huff (Z.of_nat mcb) (Z.of_nat ri) m h d = Ret (ok, h', d') /\
    (if ok then hinv ri (astep ri a (map to_sb m)) h' d' /\ dsusp d' = dsusp d
     else dsusp d = true /\ h' = h /\ d' = d).
Proof.
  intros Hm Hri (I & Hdc & Hn & Hnum & Htogo & Hk) Hpr Hok. unfold encode_mcu_huff, astep.
  (* the body, from a state where no restart is due *)
  set (emit := negb (Z.of_nat ri =? 0) && (h_togo h =? 0)).
  set (emit' := (negb (ri =? 0) && (a_k a =? 0))%nat).
  assert (Ee : emit = emit').
  { unfold emit, emit'. destruct (Nat.eqb_spec ri 0) as [->|Hr0]; [reflexivity|].
    rewrite (Htogo Hr0). destruct (Z.eqb_spec (Z.of_nat ri) 0); [lia|]. cbn [negb andb].
    destruct (Nat.eqb_spec (a_k a) 0); destruct (Z.eqb_spec (Z.of_nat (a_k a)) 0); try lia; reflexivity. }
  rewrite Ee.
  assert (HB : forall (a1 : absst) (v : hsav) (d1 : dest),
    sinv (a_base a1) (a_B a1) v d1 -> v_dc v = a_pr a1 -> pr_ok mcb (a_pr a1) -> length (a_pr a1) = length (a_pr a) ->
    dsusp d1 = dsusp d -> a1 = (if emit' then afresh ri a else a) ->
    exists ok h' d', 
      (o2 <- encode_blocks (Z.of_nat mcb) m (v, d1) ;;
       match o2 with
       | None => Ret (false, h, d)
       | Some (v, d') =>
         Ret (true, (if Z.of_nat ri =? 0 then mkH v (h_togo h) (h_num h)
            else if h_togo h =? 0 then mkH v (u32 (Z.of_nat ri - 1)) (Z.land (h_num h + 1) 7)
            else mkH v (u32 (h_togo h - 1)) (h_num h)), d')
       end) = Ret (ok, h', d') /\
      (if ok : bool then hinv ri (amcu ri (map to_sb m) a1) h' d' /\ dsusp d' = dsusp d
       else dsusp d = true /\ h' = h /\ d' = d)).
  { intros a1 v d1 I1 Hv1 Hp1 Hl1 Hs1 Ha1.
    destruct (mcu_ok_range mcb (length (a_pr a)) Hm m (a_pr a1) Hok Hp1) as (R1 & R2 & R3).
    destruct (encode_blocks_spec mcb (a_base a1) Hm m (a_B a1) v d1) as (o & -> & HO).
    - rewrite Hv1, Hl1. eapply Forall_impl; [|exact Hok]. cbn beta. tauto.
    - exact I1.
    - rewrite Hv1. exact R1.
    - cbn [bind]. destruct o as [[v2 d2]|].
      + destruct HO as (J1 & J2 & J3 & J4). eexists true, _, _. split; [reflexivity|]. split; [|congruence].
        rewrite Hv1 in J1, J2. unfold hinv, amcu. cbn [a_base a_B a_pr a_k a_n].
        destruct (Z.eqb_spec (Z.of_nat ri) 0) as [Er|Er].
        * cbn [h_saved h_num h_togo]. assert (Hr0 : ri = 0%nat) by lia. subst ri.
          unfold emit' in Ha1. cbn in Ha1. subst a1. repeat split; auto; try lia; apply J1.
        * assert (Hr0 : ri <> 0%nat) by lia. specialize (Htogo Hr0). rewrite Htogo in *.
          unfold emit' in Ha1. destruct (Nat.eqb_spec ri 0); [lia|]. cbn [negb andb] in Ha1.
          destruct (Nat.eqb_spec (a_k a) 0) as [E0|E0]; destruct (Z.eqb_spec (Z.of_nat (a_k a)) 0); try lia;
            subst a1; cbn [afresh a_base a_B a_pr a_k a_n h_saved h_num h_togo] in *.
          -- split; [exact J1|]. split; [exact J2|]. split; [apply Z.mod_pos_bound; lia|]. split.
             ++ rewrite Hnum. change 7 with (Z.ones 3). rewrite Z.land_ones by lia. reflexivity.
             ++ split; [intros _; rewrite u32_id by lia; lia|lia].
          -- split; [exact J1|]. split; [exact J2|]. split; [lia|]. split; [auto|].
             split; [intros _; rewrite u32_id by lia; lia|lia].
      + eexists false, h, d. split; [reflexivity|]. split; [congruence|auto]. }
  destruct emit' eqn:Eem.
  - destruct (emit_restart_spec (a_base a) (a_B a) (h_saved h) d (h_num h) I ltac:(lia)) as (o & -> & HO).
    cbn [bind]. destruct o as [[v1 d1]|].
    + destruct HO as (J1 & J2 & J3). apply (HB (afresh ri a) v1 d1); auto.
      * unfold afresh. cbn [a_base a_B]. rewrite <- Hnum. exact J1.
      * unfold afresh. cbn [a_pr]. rewrite J2, Hdc. reflexivity.
      * unfold afresh, pr_ok. cbn [a_pr]. apply Forall_forall. intros x Hx. apply repeat_spec in Hx. subst.
        assert (0 < 2 ^ Z.of_nat mcb) by (apply Z.pow_pos_nonneg; lia). lia.
      * unfold afresh. cbn [a_pr]. apply repeat_length.
    + exists false, h, d. auto.
  - cbn [bind]. apply (HB a (h_saved h) d); auto.
Qed.

Lemma astep_pr mcb ri a m : (mcb <= 14)%nat -> pr_ok mcb (a_pr a) -> mcu_ok mcb (length (a_pr a)) m ->
  pr_ok mcb (a_pr (astep ri a (map to_sb m))) /\
  length (a_pr (astep ri a (map to_sb m))) = length (a_pr a).
Proof.
  intros Hm Hp Hok. unfold astep, amcu. cbn [a_pr].
  set (a1 := if (negb (ri =? 0) && (a_k a =? 0))%nat then afresh ri a else a).
  assert (H1 : pr_ok mcb (a_pr a1) /\ length (a_pr a1) = length (a_pr a)).
  { unfold a1. destruct (_ && _)%nat; auto. unfold afresh. cbn [a_pr]. split; [|apply repeat_length].
    apply Forall_forall. intros x Hx. apply repeat_spec in Hx. subst.
    assert (0 < 2 ^ Z.of_nat mcb) by (apply Z.pow_pos_nonneg; lia). lia. }
  destruct H1 as [H1 H2]. destruct (mcu_ok_range mcb _ Hm m (a_pr a1) Hok H1) as (_ & R2 & R3).
  split; auto. congruence.
Qed.

Lemma encode_mcus_spec mcb ri : (mcb <= 14)%nat -> Z.of_nat ri < 2 ^ 32 -> forall ms a h d,
  hinv ri a h d -> pr_ok mcb (a_pr a) -> Forall (mcu_ok mcb (length (a_pr a))) ms ->
  exists o, encode_mcus (Z.of_nat mcb) (Z.of_nat ri) ms h d = Ret o /\
    match o with
    | Some (h', d') => hinv ri (fold_left (astep ri) (map (map to_sb) ms) a) h' d' /\ dsusp d' = dsusp d
    | None => dsusp d = true
    end.
Proof.
  intros Hm Hri. induction ms as [|m ms IH]; intros a h d I Hp Hok; cbn [encode_mcus map fold_left].
  - eexists. split; [reflexivity|]. cbn. auto.
  - inversion Hok as [|? ? H1 H2]; subst.
    destruct (encode_mcu_spec mcb ri m a h d Hm Hri I Hp H1) as (ok & h1 & d1 & -> & HO). cbn [bind].
    destruct ok.
    + destruct HO as [I1 S1]. destruct (astep_pr mcb ri a m Hm Hp H1) as [P1 P2].
      destruct (IH _ _ _ I1 P1) as (o & -> & HO). { rewrite P2. exact H2. }
      exists o. split; auto. destruct o as [[h' d']|]; [|congruence]. destruct HO; split; auto; congruence.
    + eexists. split; [reflexivity|]. cbn. tauto.
Qed.

(* ---- the abstract run spells out scan_bytes ---- *)
Lemma fold_no_restart ri : forall ms a,
  (ri = 0%nat \/ (length ms <= a_k a)%nat) ->
  a_base (fold_left (astep ri) ms a) = a_base a /\
  a_B (fold_left (astep ri) ms a) = a_B a ++ enc_mcus (a_pr a) ms /\
  a_k (fold_left (astep ri) ms a) = (a_k a - length ms)%nat /\ a_n (fold_left (astep ri) ms a) = a_n a.
Proof.
  induction ms as [|m ms IH]; intros a H; cbn [fold_left enc_mcus length].
  - rewrite app_nil_r. repeat split; auto. lia.
  - unfold astep at 2 4 6 8.
    assert (E : (negb (ri =? 0) && (a_k a =? 0))%nat = false).
    { destruct H as [->|H]; [reflexivity|]. cbn [length] in H.
      destruct (Nat.eqb_spec (a_k a) 0); [lia|]. apply andb_false_r. }
    rewrite E. destruct (IH (amcu ri m a)) as (I1 & I2 & I3 & I4).
    { destruct H as [->|H]; [auto|right]. unfold amcu. cbn [a_k]. cbn [length] in H. lia. }
    rewrite I1, I2, I3, I4. unfold amcu. cbn [a_base a_B a_pr a_k a_n].
    destruct (enc_mcu (a_pr a) m) as [w p']. cbn [fst snd]. rewrite <- app_assoc. repeat split; auto. lia.
Qed.

Lemma fold_pr_len ri : forall ms a, length (a_pr (fold_left (astep ri) ms a)) = length (a_pr a).
Proof.
  assert (HM : forall m pr, length (snd (enc_mcu pr m)) = length pr).
  { induction m as [|b m IH]; intros pr; cbn [enc_mcu]; auto.
    specialize (IH (upd pr (s_ci b) (nth 0 (s_coef b) 0))). destruct (enc_mcu _ m). cbn [snd] in *.
    rewrite IH. apply length_upd. }
  induction ms as [|m ms IH]; intros a; cbn [fold_left]; auto. rewrite IH. unfold astep, amcu. cbn [a_pr].
  rewrite HM. destruct (_ && _)%nat; auto. unfold afresh. cbn [a_pr]. apply repeat_length.
Qed.

Lemma fold_intervals ri nc : ri <> 0%nat -> forall fuel ms base i,
  (length ms < fuel)%nat -> 
  afinal (fold_left (astep ri) ms (mkA base [] (repeat 0 nc) ri (i mod 8))) =
  base ++ join_rst i (map (fun seg => segment_bytes (enc_mcus (repeat 0 nc) seg)) (intervals fuel ri ms)).
Proof.
  intros Hri. induction fuel as [|f IH]; intros ms base i Hl; [lia|]. cbn [intervals].
  destruct (Nat.eqb_spec ri 0); [lia|]. cbn [orb].
  destruct (Nat.leb_spec (length ms) ri) as [Hle|Hgt].
  - cbn [map join_rst]. destruct (fold_no_restart ri ms (mkA base [] (repeat 0 nc) ri (i mod 8))) as (E1 & E2 & _).
    { right. cbn. lia. }
    unfold afinal. rewrite E1, E2. reflexivity.
  - rewrite <- (firstn_skipn ri ms) at 1. rewrite fold_left_app.
    destruct (fold_no_restart ri (firstn ri ms) (mkA base [] (repeat 0 nc) ri (i mod 8))) as (E1 & E2 & E3 & E4).
    { right. cbn [a_k]. rewrite firstn_length. lia. }
    pose proof (fold_pr_len ri (firstn ri ms) (mkA base [] (repeat 0 nc) ri (i mod 8))) as E5.
    set (a1 := fold_left (astep ri) (firstn ri ms) _) in *. cbn [a_base a_B a_pr a_k a_n app] in *.
    rewrite firstn_length in E3. rewrite repeat_length in E5.
    assert (Hne : skipn ri ms <> []).
    { intros E. apply (f_equal (@length _)) in E. rewrite skipn_length in E. cbn in E. lia. }
    assert (Hfr : fold_left (astep ri) (skipn ri ms) a1 = fold_left (astep ri) (skipn ri ms) (afresh ri a1)).
    { destruct (skipn ri ms) as [|m r]; [congruence|]. cbn [fold_left]. f_equal. unfold astep.
      replace (a_k a1) with 0%nat by lia. destruct (Nat.eqb_spec ri 0); [lia|]. cbn [negb andb Nat.eqb].
      unfold afresh at 2. cbn [a_k]. destruct (Nat.eqb_spec ri 0); [lia|]. reflexivity. }
    rewrite Hfr. unfold afresh. rewrite E1, E2, E4, E5.
    replace ((i mod 8 + 1) mod 8) with ((i + 1) mod 8) by (rewrite Z.add_mod_idemp_l; lia).
    rewrite IH by (rewrite skipn_length; lia).
    cbn [map join_rst]. 
    set (T := map _ (intervals f ri (skipn ri ms))).
    assert (HT : T <> []). { unfold T. destruct f; [lia|]. cbn [intervals]. destruct ((ri =? 0) || _)%nat; discriminate. }
    destruct T as [|t0 T']; [congruence|]. rewrite <- !app_assoc. reflexivity.
Qed.

Lemma encode_scan_spec mcb ri nc ms d : (mcb <= 14)%nat -> Z.of_nat ri < 2 ^ 32 -> dest_ok d ->
  Forall (mcu_ok mcb nc) ms ->
  (exists d', encode_scan (Z.of_nat mcb) (Z.of_nat ri) nc ms d = Ret (Some d') /\
      dout d' = dout d ++ scan_bytes nc ri (map (map to_sb) ms)) \/
  (dsusp d = true /\ (encode_scan (Z.of_nat mcb) (Z.of_nat ri) nc ms d = Ret None \/
                      encode_scan (Z.of_nat mcb) (Z.of_nat ri) nc ms d = Error JERR_CANT_SUSPEND)).
Proof.
  intros Hm Hri Hd Hok. unfold encode_scan.
  set (a0 := mkA (dout d) [] (repeat 0 nc) ri 0).
  assert (Hp0 : pr_ok mcb (repeat 0 nc)).
  { apply Forall_forall. intros x Hx. apply repeat_spec in Hx. subst.
    assert (0 < 2 ^ Z.of_nat mcb) by (apply Z.pow_pos_nonneg; lia). lia. }
  assert (I0 : hinv ri a0 (start_pass_huff nc (Z.of_nat ri)) d).
  { unfold hinv, start_pass_huff, a0. cbn [h_saved h_togo h_num a_base a_B a_pr a_k a_n v_dc].
    split; [|repeat split; auto; lia]. unfold sinv. cbn [v_fb v_pb v_dc].
    split; [lia|]. split; [auto|]. split.
    - apply Forall_forall. intros x Hx. apply repeat_spec in Hx. subst. unfold coef16. lia.
    - exists []. split; [constructor|]. split; [cbn; now rewrite app_nil_r|reflexivity]. }
  destruct (encode_mcus_spec mcb ri Hm Hri ms a0 _ d I0 Hp0) as (o & -> & HO).
  { cbn [a0 a_pr]. rewrite repeat_length. exact Hok. }
  cbn [bind]. destruct o as [[h' d']|]; [|right; auto].
  destruct HO as [(I & _) Hs]. unfold finish_pass_huff.
  destruct (flush_bits_spec _ _ _ _ I) as (o2 & -> & HO2). cbn [bind].
  destruct o2 as [[v2 d2]|].
  - left. cbn [bind]. eexists. split; [reflexivity|]. destruct HO2 as (_ & E & _). rewrite E.
    fold (afinal (fold_left (astep ri) (map (map to_sb) ms) a0)).
    unfold scan_bytes. destruct (Nat.eq_dec ri 0) as [->|Hr0].
    + destruct (fold_no_restart 0 (map (map to_sb) ms) a0 (or_introl eq_refl)) as (F1 & F2 & _).
      unfold afinal. rewrite F1, F2. reflexivity.
    + unfold a0. change 0 with (0 mod 8) at 2. apply fold_intervals; auto.
  - right. rewrite Hs in HO2. split; auto.
Qed.
