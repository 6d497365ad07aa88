(* T_Icc.v -- C32: ICC profile embedding and extraction. *)
From Verif Require Import Base M_Icc S_Icc P_Icc.
From Coq Require Import Permutation.

(* C32, reader.  For every list of saved markers, jpeg_read_icc_profile
   terminates without touching memory outside its arrays and answers
   - FALSE silently exactly when there is no ICC chunk at all;
   - TRUE with the profile exactly when the chunks assemble to a non-empty one;
   - FALSE with a warning exactly when there are chunks but they do not
     assemble (or only to an empty profile). *)
Theorem C32_read : forall state l C,
  202 <= state -> Forall marker_ok l -> icc_chunks l C ->
  exists r, jpeg_read_icc_profile state true true l = Ret r /\
    (r = IccNone <-> C = []) /\
    (forall mem, r = IccFound mem <-> exists d, mem = map Some d /\ d <> [] /\ assembled C d) /\
    (r = IccBogus <-> C <> [] /\ forall d, assembled C d -> d = []).
Proof.
  intros state l C Hs HM HC. apply icc_chunks_fun in HC. subst C.
  destruct (read_spec state l Hs HM) as (r & HE & HP). exists r. split; [exact HE|].
  destruct r as [mem| |]; cbn in HP.
  - destruct HP as (d & -> & Hd & HA).
    split; [|split; [|split]].
    + split; [discriminate|]. intros E. rewrite E in HA.
      destruct HA as (S & HP & _ & _ & ->). apply Permutation_sym, Permutation_nil in HP.
      subst S. exfalso; apply Hd; reflexivity.
    + intros mem. split.
      * intros E. injection E as <-. exists d. auto.
      * intros (d' & -> & _ & HA'). rewrite (assembled_unique _ _ _ HA HA'). reflexivity.
    + discriminate.
    + intros [_ H]. exfalso. apply Hd, H, HA.
  - split; [|split; [|split]].
    + split; auto.
    + intros mem. split; [discriminate|]. intros (d & _ & Hd & HA). exfalso.
      rewrite HP in HA. destruct HA as (S & HP' & _ & _ & ->).
      apply Permutation_sym, Permutation_nil in HP'. subst S. apply Hd; reflexivity.
    + discriminate.
    + intros [H _]. contradiction.
  - destruct HP as [H1 H2]. split; [|split; [|split]].
    + split; [discriminate|contradiction].
    + intros mem. split; [discriminate|]. intros (d & _ & Hd & HA). exfalso; auto.
    + auto.
    + auto.
Qed.

(* ------------------------------------------------------------------ *)
(* Writer *)
Lemma emit_fold data c : Forall (fun b => 0 <= b < 256) data ->
  fold_left emit data c = mkC (c_state c) (c_next_scanline c) (c_out c ++ data).
Proof.
  revert c; induction data as [|b d IH]; intros c H.
  - cbn. rewrite app_nil_r. destruct c; reflexivity.
  - cbn [fold_left]. rewrite IH by (eapply Forall_inv_tail; exact H).
    unfold emit; cbn [c_state c_next_scanline c_out].
    apply Forall_inv in H. unfold u8. rewrite Z.mod_small by (cbn; lia).
    rewrite <- app_assoc. reflexivity.
Qed.

Definition write_allowed (c : cobj) : Prop :=
  c_next_scanline c = 0 /\ (c_state c = 101 \/ c_state c = 102 \/ c_state c = 103).

Lemma m_header_ok c n : write_allowed c -> 0 <= n <= 65533 ->
  jpeg_write_m_header c ICC_MARKER n
  = Ret (mkC (c_state c) (c_next_scanline c)
       (c_out c ++ [255; 226; (n + 2) / 256; (n + 2) mod 256])).
Proof.
  intros [H1 H2] Hn. unfold jpeg_write_m_header, write_marker_header.
  replace (negb (c_next_scanline c =? 0) || _) with false.
  2:{ rewrite H1. symmetry. destruct H2 as [-> |[-> | ->]]; reflexivity. }
  destruct (Z.ltb_spec 65533 n); [lia|].
  unfold emit, ICC_MARKER; cbn [c_state c_next_scanline c_out]. f_equal. f_equal.
  rewrite <- !app_assoc. cbn [app]. f_equal.
  change 255 with (Z.ones 8) at 2 3. rewrite !Z.land_ones by lia.
  rewrite Z.shiftr_div_pow2 by lia.
  unfold u8. change (2 ^ 8) with 256.
  rewrite !Zmod_mod. change (255 mod 256) with 255. change (226 mod 256) with 226.
  f_equal. f_equal. f_equal. apply Z.mod_small.
  split; [apply Z.div_pos; lia|apply Z.div_lt_upper_bound; lia].
Qed.

Definition CH : nat := Z.to_nat 65519.
Lemma CH_val : Z.of_nat CH = 65519.
Proof. unfold CH. apply Z2Nat.id. lia. Qed.
Local Opaque CH.

(* the chunks the writer produces: pieces of 65519 bytes *)
Fixpoint pieces (fuel : nat) (data : list Z) : list (list Z) :=
  match fuel with
  | O => []
  | S f => match data with
           | [] => []
           | _ => firstn CH data :: pieces f (skipn CH data)
           end
  end.

Definition chunk_marker (n : Z) (p : nat * list Z) : saved_marker :=
  mkSM 226 (icc_string ++ u8 (Z.of_nat (fst p)) :: u8 n :: snd p).

Lemma icc_loop_spec : forall fuel n cur data c,
  write_allowed c -> Forall (fun b => 0 <= b < 256) data -> (length data < fuel)%nat ->
  icc_loop fuel n (Z.of_nat cur) data c
  = Ret (mkC (c_state c) (c_next_scanline c)
      (c_out c ++ concat (map segment (map (chunk_marker n)
          (combine (seq cur (length (pieces fuel data))) (pieces fuel data)))))).
Proof.
  induction fuel as [|fuel IH]; intros n cur data c HW HB HF; [lia|].
  destruct data as [|b data].
  { cbn. rewrite app_nil_r. destruct c; reflexivity. }
  cbn [icc_loop pieces]. set (d := b :: data) in *.
  assert (Hpos : (0 < length d)%nat) by (unfold d; cbn; lia).
  destruct (Z.eqb_spec (Z.of_nat (length d)) 0); [lia|].
  set (L := if MAX_DATA_BYTES_IN_MARKER <? Z.of_nat (length d)
            then MAX_DATA_BYTES_IN_MARKER else Z.of_nat (length d)).
  assert (HL : 0 < L <= 65519 /\ firstn (Z.to_nat L) d = firstn CH d
               /\ skipn (Z.to_nat L) d = skipn CH d
               /\ Z.of_nat (length (firstn CH d)) = L).
  { unfold L, MAX_DATA_BYTES_IN_MARKER, ICC_OVERHEAD_LEN.
    destruct (Z.ltb_spec (65533 - 14) (Z.of_nat (length d))) as [H|H].
    - split; [lia|]. change (Z.to_nat (65533 - 14)) with CH.
      split; [reflexivity|]. split; [reflexivity|]. rewrite firstn_length. pose proof CH_val. lia.
    - pose proof CH_val. split; [lia|]. rewrite Nat2Z.id.
      rewrite !firstn_all2, !skipn_all2 by lia. auto. }
  destruct HL as (HL & Ef & Es & El). clearbody L.
  rewrite m_header_ok by (try exact HW; unfold ICC_OVERHEAD_LEN; lia).
  cbn [bind]. rewrite Ef, Es.
  set (p := firstn CH d) in *. set (r := skipn CH d) in *.
  assert (HBp : Forall (fun b => 0 <= b < 256) p /\ Forall (fun b => 0 <= b < 256) r).
  { apply Forall_app. unfold p, r. rewrite firstn_skipn. exact HB. }
  destruct HBp as [HBp HBr].
  change jpeg_write_m_byte with emit.
  rewrite (emit_fold icc_id) by (repeat constructor; lia).
  rewrite (emit_fold p) by exact HBp.
  unfold emit; cbn [c_state c_next_scanline c_out].
  replace (Z.of_nat cur + 1) with (Z.of_nat (S cur)) by lia.
  assert (Hlr : (length r < fuel)%nat) by (unfold r; rewrite skipn_length; pose proof CH_val; lia).
  rewrite IH by (try exact HW; try exact HBr; exact Hlr).
  cbn [c_state c_next_scanline c_out]. f_equal. f_equal.
  rewrite <- !app_assoc. f_equal.
  cbn [length seq combine map concat]. unfold segment at 2.
  unfold chunk_marker at 2 3 4 5. cbn [sm_data sm_marker fst snd].
  assert (Hlen : Z.of_nat (length (icc_string ++ u8 (Z.of_nat cur) :: u8 n :: p)) + 2
                 = L + ICC_OVERHEAD_LEN + 2).
  { unfold icc_string. cbn [app length]. unfold ICC_OVERHEAD_LEN. lia. }
  rewrite Hlen. unfold icc_id, icc_string. cbn [app]. reflexivity.
Qed.

Lemma pieces_concat : forall fuel data, (length data < fuel)%nat -> concat (pieces fuel data) = data.
Proof.
  induction fuel as [|fuel IH]; intros data H; [lia|].
  destruct data as [|b data]; [reflexivity|]. cbn [pieces concat].
  rewrite IH; [apply firstn_skipn|]. rewrite skipn_length. pose proof CH_val. cbn [length] in *. lia.
Qed.

Lemma pieces_count : forall fuel data, (length data < fuel)%nat ->
  Z.of_nat (length (pieces fuel data)) = (Z.of_nat (length data) + 65518) / 65519.
Proof.
  induction fuel as [|fuel IH]; intros data H; [lia|].
  destruct data as [|b data]; [reflexivity|]. cbn [pieces]. set (d := b :: data) in *.
  assert (0 < length d)%nat by (unfold d; cbn; lia).
  cbn [length]. rewrite Nat2Z.inj_succ, IH by (rewrite skipn_length; pose proof CH_val; lia).
  rewrite skipn_length. pose proof CH_val as HCH. destruct (Nat.le_gt_cases CH (length d)) as [Hge|Hlt].
  - replace (Z.of_nat (length d - CH) + 65518) with (Z.of_nat (length d) + 65518 + (-1) * 65519) by lia.
    rewrite Z.div_add by lia. lia.
  - replace (Z.of_nat (length d - CH)) with 0 by lia.
    change ((0 + 65518) / 65519) with 0.
    apply Z.div_unique with (Z.of_nat (length d) - 1); lia.
Qed.

Lemma pieces_small : forall fuel data, Forall (fun b => 0 <= b < 256) data ->
  Forall (fun p => Forall (fun b => 0 <= b < 256) p /\ Z.of_nat (length p) <= 65519) (pieces fuel data).
Proof.
  induction fuel as [|fuel IH]; intros data H; [constructor|].
  destruct data as [|b data]; [constructor|]. cbn [pieces].
  set (d := b :: data) in *.
  rewrite <- (firstn_skipn CH d) in H. apply Forall_app in H. destruct H as [H1 H2].
  constructor; [split; [exact H1|rewrite firstn_length; pose proof CH_val; lia]|apply IH; exact H2].
Qed.

Definition count_of (len : Z) : Z := (len + 65518) / 65519.

Lemma num_markers_eq len : 0 < len < 2 ^ 32 ->
  (let n := len / MAX_DATA_BYTES_IN_MARKER in
   if negb (u32 (n * MAX_DATA_BYTES_IN_MARKER) =? len) then n + 1 else n) = count_of len.
Proof.
  intros H. unfold MAX_DATA_BYTES_IN_MARKER, ICC_OVERHEAD_LEN, count_of, u32.
  change (65533 - 14) with 65519. cbv zeta.
  pose proof (Z.div_mod len 65519 ltac:(lia)) as E.
  pose proof (Z.mod_pos_bound len 65519 ltac:(lia)) as B.
  assert (0 <= len / 65519) by (apply Z.div_pos; lia).
  rewrite Z.mod_small by lia.
  destruct (Z.eqb_spec (len / 65519 * 65519) len) as [H1|H1]; cbn [negb].
  - apply Z.div_unique with 65518; lia.
  - apply Z.div_unique with (len mod 65519 - 1); lia.
Qed.

(* C32, writer: the bytes appended to the output are a sequence of APP2
   segments, each at most 65533 bytes of data, holding chunks numbered 1..n
   that announce n and whose data concatenate to the profile. *)
Theorem C32_write : forall c data,
  write_allowed c -> Forall (fun b => 0 <= b < 256) data ->
  0 < Z.of_nat (length data) <= 255 * 65519 ->
  exists segs C,
    jpeg_write_icc_profile c (Some data)
      = Ret (mkC (c_state c) (c_next_scanline c) (c_out c ++ concat (map segment segs))) /\
    Forall marker_ok segs /\ Forall2 holds_chunk segs C /\
    Forall (fun k => ck_data k <> []) C /\
    map ck_seq C = numbers (length C) /\
    Forall (fun k => ck_count k = Z.of_nat (length C)) C /\
    concat (map ck_data C) = data.
Proof.
  intros c data HW HB HL.
  set (fuel := S (length data)). set (ps := pieces fuel data).
  assert (Hcnt : Z.of_nat (length ps) = count_of (Z.of_nat (length data)))
    by (apply pieces_count; unfold fuel; lia).
  assert (Hn255 : 1 <= count_of (Z.of_nat (length data)) <= 255).
  { unfold count_of. split; [apply Z.div_le_lower_bound; lia|].
    apply Z.lt_succ_r. apply Z.div_lt_upper_bound; lia. }
  set (n := count_of (Z.of_nat (length data))) in *.
  set (ips := combine (seq 1 (length ps)) ps).
  exists (map (chunk_marker n) ips),
    (map (fun p => mkChunk (Z.of_nat (fst p)) n (snd p)) ips).
  assert (Hips : length ips = length ps).
  { unfold ips. rewrite combine_length, seq_length. lia. }
  assert (Hin : forall p, In p ips -> 1 <= Z.of_nat (fst p) <= 255 /\ In (snd p) ps).
  { intros [i q] Hi. cbn. split; [|eapply in_combine_r; exact Hi].
    apply in_combine_l in Hi. apply in_seq in Hi. lia. }
  assert (Hu8n : u8 n = n) by (unfold u8; apply Z.mod_small; cbn; lia).
  pose proof (pieces_small fuel data HB) as Hsm. fold ps in Hsm. rewrite Forall_forall in Hsm.
  split; [|split; [|split; [|split; [|split; [|split]]]]].
  - unfold jpeg_write_icc_profile.
    destruct (Z.eqb_spec (Z.of_nat (length data)) 0); [lia|].
    replace (c_state c <? CSTATE_SCANNING) with false.
    2:{ symmetry. apply Z.ltb_ge. unfold CSTATE_SCANNING. destruct HW as [_ HW]; lia. }
    rewrite num_markers_eq by lia. fold n.
    change 1 with (Z.of_nat 1) at 1. rewrite icc_loop_spec by (auto; lia). reflexivity.
  - rewrite Forall_map. apply Forall_forall. intros p Hp. destruct (Hin p Hp) as [Hr Hps].
    destruct (Hsm _ Hps) as [Hb Hl]. unfold chunk_marker, marker_ok; cbn [sm_data]. split.
    + apply Forall_app. split; [unfold icc_string; repeat constructor; lia|].
      constructor; [unfold u8; apply Z.mod_pos_bound; lia|].
      constructor; [unfold u8; apply Z.mod_pos_bound; lia|exact Hb].
    + unfold icc_string; cbn [app length]. lia.
  - clearbody ips. clear Hips. induction ips as [|p ips IH]; [constructor|].
    cbn [map]. constructor.
    + destruct (Hin p ltac:(left; reflexivity)) as [Hr _].
      unfold holds_chunk, chunk_marker; cbn [sm_marker sm_data ck_seq ck_count ck_data].
      split; [reflexivity|]. rewrite Hu8n. unfold u8. rewrite Z.mod_small by (cbn; lia). reflexivity.
    + apply IH. intros q Hq. apply Hin. right; exact Hq.
  - rewrite Forall_map. apply Forall_forall. intros p Hp. destruct (Hin p Hp) as [_ Hps].
    cbn [ck_data]. unfold ps in Hps. clear - Hps. revert Hps.
    generalize data. generalize fuel. induction fuel0 as [|f IH]; intros d H; [destruct H|].
    destruct d as [|b d]; [destruct H|]. cbn [pieces] in H. destruct H as [<-|H].
    + pose proof CH_val. destruct CH; [lia|discriminate].
    + apply (IH _ H).
  - rewrite map_map. cbn [ck_seq]. rewrite map_length, Hips. unfold numbers.
    rewrite <- (map_map fst Z.of_nat). f_equal.
    unfold ips. clear. generalize (seq 1 (length ps)), (seq_length (length ps) 1).
    induction ps as [|q ps IH]; intros [|i l] E; try discriminate; [reflexivity|].
    cbn. f_equal. apply IH. cbn in E; lia.
  - rewrite Forall_map. apply Forall_forall. intros p Hp. cbn [ck_count].
    rewrite map_length, Hips. lia.
  - rewrite map_map. cbn [ck_data]. transitivity (concat ps); [|apply pieces_concat; unfold fuel; lia].
    f_equal. unfold ips. clear.
    generalize (seq 1 (length ps)), (seq_length (length ps) 1).
    induction ps as [|q ps IH]; intros [|i l] E; try discriminate; [reflexivity|].
    cbn. f_equal. apply IH. cbn in E; lia.
Qed.

(* C32, round trip: whatever other markers (l) are saved around them, and in
   whatever order the chunks that were written come back, the reader returns
   the profile byte for byte. *)
Theorem C32_round_trip : forall c data,
  write_allowed c -> Forall (fun b => 0 <= b < 256) data ->
  0 < Z.of_nat (length data) <= 255 * 65519 ->
  exists segs C,
    jpeg_write_icc_profile c (Some data)
      = Ret (mkC (c_state c) (c_next_scanline c) (c_out c ++ concat (map segment segs))) /\
    icc_chunks segs C /\
    forall state l C', 202 <= state -> Forall marker_ok l ->
      icc_chunks l C' -> Permutation C C' ->
      jpeg_read_icc_profile state true true l = Ret (IccFound (map Some data)).
Proof.
  intros c data HW HB HL.
  destruct (C32_write c data HW HB HL) as (segs & C & HE & HM & HF & HN & HS & HC & HD).
  exists segs, C. split; [exact HE|]. split.
  - clear - HF. induction HF; [constructor|]. apply ic_take; assumption.
  - intros state l C' Hst Hl Hch HP.
    destruct (C32_read state l C' Hst Hl Hch) as (r & HR & _ & Hfound & _).
    rewrite HR. f_equal. apply Hfound. exists data. split; [reflexivity|]. split.
    + intros ->. cbn in HL. lia.
    + apply (assembled_perm C C' data HP). exists C.
      split; [reflexivity|]. split; [exact HS|]. split; [exact HC|]. symmetry; exact HD.
Qed.

(* A profile longer than 255 * 65519 bytes is written without an error, but
   the chunk numbers are truncated to a byte and the reader rejects them all:
   "of any size" is false beyond that limit. *)
Theorem C32_oversize_refuted : forall c data,
  write_allowed c -> Forall (fun b => 0 <= b < 256) data ->
  255 * 65519 < Z.of_nat (length data) < 2 ^ 32 ->
  exists segs,
    jpeg_write_icc_profile c (Some data)
      = Ret (mkC (c_state c) (c_next_scanline c) (c_out c ++ concat (map segment segs))) /\
    Forall marker_ok segs /\
    forall state, 202 <= state ->
      jpeg_read_icc_profile state true true segs = Ret IccBogus.
Proof.
  intros c data HW HB HL.
  set (fuel := S (length data)). set (ps := pieces fuel data).
  assert (Hcnt : Z.of_nat (length ps) = count_of (Z.of_nat (length data)))
    by (apply pieces_count; unfold fuel; lia).
  assert (Hn255 : 256 <= count_of (Z.of_nat (length data))).
  { unfold count_of. apply Z.div_le_lower_bound; lia. }
  set (n := count_of (Z.of_nat (length data))) in *.
  set (ips := combine (seq 1 (length ps)) ps).
  exists (map (chunk_marker n) ips).
  assert (Hips : length ips = length ps).
  { unfold ips. rewrite combine_length, seq_length. lia. }
  pose proof (pieces_small fuel data HB) as Hsm. fold ps in Hsm. rewrite Forall_forall in Hsm.
  split; [|split].
  - unfold jpeg_write_icc_profile.
    destruct (Z.eqb_spec (Z.of_nat (length data)) 0); [lia|].
    replace (c_state c <? CSTATE_SCANNING) with false.
    2:{ symmetry. apply Z.ltb_ge. unfold CSTATE_SCANNING. destruct HW as [_ HW]; lia. }
    rewrite num_markers_eq by lia. fold n.
    change 1 with (Z.of_nat 1) at 1. rewrite icc_loop_spec by (auto; lia). reflexivity.
  - rewrite Forall_map. apply Forall_forall. intros [i q] Hp.
    apply in_combine_r in Hp. destruct (Hsm _ Hp) as [Hb Hl].
    unfold chunk_marker, marker_ok; cbn [sm_data fst snd]. split.
    + apply Forall_app. split; [unfold icc_string; repeat constructor; lia|].
      constructor; [unfold u8; apply Z.mod_pos_bound; lia|].
      constructor; [unfold u8; apply Z.mod_pos_bound; lia|exact Hb].
    + unfold icc_string; cbn [app length]. lia.
  - intros state Hst.
    set (C := map (fun p => mkChunk (u8 (Z.of_nat (fst p))) (u8 n) (snd p)) ips).
    assert (HC : icc_chunks (map (chunk_marker n) ips) C).
    { unfold C. clear. induction ips as [|p ips IH]; [constructor|]. cbn [map].
      apply ic_take; [|exact IH]. split; reflexivity. }
    assert (HM : Forall marker_ok (map (chunk_marker n) ips)).
    { rewrite Forall_map. apply Forall_forall. intros [i q] Hp.
      apply in_combine_r in Hp. destruct (Hsm _ Hp) as [Hb Hl].
      unfold chunk_marker, marker_ok; cbn [sm_data fst snd]. split.
      + apply Forall_app. split; [unfold icc_string; repeat constructor; lia|].
        constructor; [unfold u8; apply Z.mod_pos_bound; lia|].
        constructor; [unfold u8; apply Z.mod_pos_bound; lia|exact Hb].
      + unfold icc_string; cbn [app length]. lia. }
    destruct (C32_read state _ C Hst HM HC) as (r & HR & _ & _ & Hb).
    rewrite HR. f_equal. apply Hb.
    assert (HlC : Z.of_nat (length C) = n) by (unfold C; rewrite map_length, Hips; exact Hcnt).
    split.
    + intros E. rewrite E in HlC. cbn in HlC. lia.
    + intros d HA. exfalso. destruct (assembled_facts _ _ HA) as [_ HF].
      assert (HlI : Z.of_nat (length ips) = n) by (rewrite Hips; exact Hcnt).
      unfold C in *. clearbody ips. destruct ips as [|p ips'].
      * cbn in HlI. lia.
      * destruct (HF (mkChunk (u8 (Z.of_nat (fst p))) (u8 n) (snd p)) ltac:(left; reflexivity)) as [E _].
        cbn [ck_count] in E. rewrite HlC in E.
        unfold u8 in E. pose proof (Z.mod_pos_bound n (2 ^ 8) ltac:(lia)). lia.
Qed.

(* C32, rejections: an empty profile or a wrong state is an error, nothing is
   written. *)
Theorem C32_errors : forall c data,
  (jpeg_write_icc_profile c None = Error JERR_BUFFER_SIZE) /\
  (jpeg_write_icc_profile c (Some []) = Error JERR_BUFFER_SIZE) /\
  (data <> [] -> ~ write_allowed c ->
   jpeg_write_icc_profile c (Some data) = Error JERR_BAD_STATE).
Proof.
  intros c data. split; [reflexivity|]. split; [reflexivity|]. intros Hd HW.
  unfold jpeg_write_icc_profile.
  assert (Hl : (length data <> 0)%nat) by (destruct data; cbn; congruence).
  destruct (Z.eqb_spec (Z.of_nat (length data)) 0); [lia|].
  destruct (Z.ltb_spec (c_state c) CSTATE_SCANNING); [reflexivity|].
  cbn [icc_loop]. destruct (Z.eqb_spec (Z.of_nat (length data)) 0); [lia|].
  unfold jpeg_write_m_header.
  replace (negb (c_next_scanline c =? 0) || _) with true; [reflexivity|].
  symmetry. unfold write_allowed in HW. unfold CSTATE_SCANNING, CSTATE_RAW_OK, CSTATE_WRCOEFS.
  destruct (Z.eqb_spec (c_next_scanline c) 0); [|reflexivity].
  destruct (Z.eqb_spec (c_state c) 101); [exfalso; auto|].
  destruct (Z.eqb_spec (c_state c) 102); [exfalso; auto|].
  destruct (Z.eqb_spec (c_state c) 103); [exfalso; auto|]. reflexivity.
Qed.

(* Non-vacuity: two chunks, swapped, with a COM marker in between. *)
Example C32_example :
  jpeg_read_icc_profile 202 true true
    [ mkSM 226 (icc_string ++ [2; 2; 30]); mkSM 254 [1; 2]; mkSM 226 (icc_string ++ [1; 2; 10; 20]) ]
  = Ret (IccFound [Some 10; Some 20; Some 30]).
Proof. reflexivity. Qed.

Example C32_example_dup :
  jpeg_read_icc_profile 202 true true
    [ mkSM 226 (icc_string ++ [1; 2; 30]); mkSM 226 (icc_string ++ [1; 2; 10; 20]) ]
  = Ret IccBogus.
Proof. reflexivity. Qed.

Example C32_write_example :
  write_allowed (mkC 101 0 [255; 216]) /\
  jpeg_write_icc_profile (mkC 101 0 [255; 216]) (Some [7; 8])
  = Ret (mkC 101 0 ([255; 216; 255; 226; 0; 18] ++ icc_string ++ [1; 1; 7; 8])).
Proof. split; [split; auto|reflexivity]. Qed.

Print Assumptions C32_read.
Print Assumptions C32_write.
Print Assumptions C32_round_trip.
Print Assumptions C32_oversize_refuted.
Print Assumptions C32_errors.
