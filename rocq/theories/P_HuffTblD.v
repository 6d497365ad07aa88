(* P_HuffTblD.v -- proofs about the decoder-side derived tables *)
From Verif Require Import Base M_HuffTbl S_Huff P_HuffTbl.
From Coq Require Import Sorted.

(* sizes of the codes of length <= l *)
Definition csz (bits : list Z) (l : nat) : list nat :=
  flat_map (fun l => repeat l (ncodes bits l)) (seq 1 l).
Definition pos (bits : list Z) (l : nat) : nat := length (csz bits l).

Lemma csz_S bits l : csz bits (S l) = csz bits l ++ repeat (S l) (ncodes bits (S l)).
Proof.
  unfold csz. rewrite seq_S, flat_map_app. cbn [flat_map]. rewrite app_nil_r.
  reflexivity.
Qed.

Lemma csz_prefix bits l m : (l <= m)%nat -> exists r, csz bits m = csz bits l ++ r /\ Forall (fun s => l < s <= m)%nat r.
Proof.
  intros H. induction m as [|m IH].
  - replace l with 0%nat by lia. exists []. rewrite app_nil_r. auto.
  - destruct (Nat.eq_dec l (S m)) as [->|Hne].
    + exists []. rewrite app_nil_r. auto.
    + destruct IH as (r & E & F); [lia|]. exists (r ++ repeat (S m) (ncodes bits (S m))).
      rewrite csz_S, E, app_assoc. split; auto. apply Forall_app. split.
      * eapply Forall_impl; [|exact F]. cbn; intros; lia.
      * apply Forall_forall. intros x Hx. apply repeat_spec in Hx. lia.
Qed.

Lemma csz_16 bits : csz bits 16 = code_sizes bits.
Proof. reflexivity. Qed.

Lemma pos_S bits l : pos bits (S l) = (pos bits l + ncodes bits (S l))%nat.
Proof. unfold pos. rewrite csz_S, app_length, repeat_length. reflexivity. Qed.

Lemma pos_mono bits l m : (l <= m)%nat -> (pos bits l <= pos bits m)%nat.
Proof. intros H. destruct (csz_prefix bits l m H) as (r & E & _). unfold pos. rewrite E, app_length. lia. Qed.

Lemma pos_le bits l : (l <= 16)%nat -> (pos bits l <= length (code_sizes bits))%nat.
Proof. intros. rewrite <- csz_16. apply (pos_mono bits l 16); auto. Qed.

Lemma firstn_csz bits l : (l <= 16)%nat -> firstn (pos bits l) (code_sizes bits) = csz bits l.
Proof.
  intros H. rewrite <- csz_16. destruct (csz_prefix bits l 16 H) as (r & E & _).
  rewrite E. unfold pos. rewrite firstn_app, Nat.sub_diag, firstn_all. cbn. apply app_nil_r.
Qed.

Lemma nth_code_sizes bits l k :
  (l < 16)%nat -> (pos bits l <= k < pos bits (S l))%nat -> nth k (code_sizes bits) 0%nat = S l.
Proof.
  intros Hl Hk. rewrite <- csz_16. destruct (csz_prefix bits (S l) 16 ltac:(lia)) as (r & E & _).
  rewrite E, app_nth1 by (unfold pos in Hk; lia). rewrite csz_S.
  rewrite app_nth2 by (unfold pos in Hk; lia). rewrite nth_repeat_lt; auto.
  unfold pos in Hk. rewrite csz_S, app_length, repeat_length in Hk. lia.
Qed.

(* position of a code is in the group of its size *)
Lemma code_pos bits k s :
  (k < length (code_sizes bits))%nat -> nth k (code_sizes bits) 0%nat = S s ->
  (s < 16)%nat /\ (pos bits s <= k < pos bits (S s))%nat.
Proof.
  intros Hk Hs. pose proof (sizes_nth _ k (code_sizes_ok bits) Hk). assert (Hs16 : (s < 16)%nat) by lia.
  split; auto.
  destruct (csz_prefix bits s 16 ltac:(lia)) as (r & E & F).
  destruct (csz_prefix bits (S s) 16 ltac:(lia)) as (r' & E' & F').
  rewrite csz_16 in *.
  split.
  - destruct (Nat.le_gt_cases (pos bits s) k) as [|Hlt]; auto. exfalso.
    rewrite E, app_nth1 in Hs by exact Hlt.
    assert (Hin : In (S s) (csz bits s)) by (rewrite <- Hs; apply nth_In; exact Hlt).
    unfold csz in Hin. apply in_flat_map in Hin. destruct Hin as (x & Hx & Hr).
    apply repeat_spec in Hr. apply in_seq in Hx. lia.
  - destruct (Nat.lt_ge_cases k (pos bits (S s))) as [|Hge]; auto. exfalso.
    rewrite E' in Hs, Hk. rewrite app_length in Hk. rewrite app_nth2 in Hs by exact Hge.
    rewrite Forall_forall in F'. specialize (F' (S s)).
    assert (In (S s) r') by (rewrite <- Hs; apply nth_In; unfold pos in Hge; lia).
    specialize (F' H0). lia.
Qed.

(* within one length group, codes are consecutive *)
Lemma group_codes bits l k :
  code_space_ok bits -> (l < 16)%nat -> (pos bits l <= k < pos bits (S l))%nat ->
  code_value (code_sizes bits) k =
  code_value (code_sizes bits) (pos bits l) + Z.of_nat (k - pos bits l).
Proof.
  intros [_ HK] Hl Hk. set (sz := code_sizes bits) in *.
  pose proof (code_sizes_ok bits) as Hok. fold sz in Hok.
  pose proof (pos_le bits (S l) ltac:(lia)) as Hp. fold sz in Hp.
  pose proof (kraft_div sz k Hok ltac:(lia)) as D1.
  pose proof (kraft_div sz (pos bits l) Hok ltac:(lia)) as D2.
  unfold sz in D1, D2. rewrite (nth_code_sizes bits l k) in D1 by lia.
  rewrite (nth_code_sizes bits l (pos bits l)) in D2 by lia. fold sz in D1, D2.
  assert (Hk2 : kraft (firstn k sz) = kraft (firstn (pos bits l) sz) + Z.of_nat (k - pos bits l) * 2 ^ (16 - Z.of_nat (S l))).
  { assert (Hd : (k - pos bits l <= ncodes bits (S l))%nat) by (rewrite pos_S in Hk; lia).
    assert (Hf : firstn k sz = csz bits l ++ repeat (S l) (k - pos bits l)).
    { unfold sz. rewrite <- csz_16. destruct (csz_prefix bits (S l) 16 ltac:(lia)) as (r & E & _).
      rewrite E, csz_S, <- app_assoc.
      rewrite firstn_app. rewrite firstn_all2 by (unfold pos in Hk; lia). f_equal.
      fold (pos bits l). rewrite firstn_app, repeat_length.
      replace (k - pos bits l - ncodes bits (S l))%nat with 0%nat by lia. cbn [firstn].
      rewrite app_nil_r. apply firstn_repeat. lia. }
    rewrite Hf, kraft_app, kraft_repeat. unfold sz. rewrite firstn_csz by lia. reflexivity. }
  pose proof (pow16_pos (S l) ltac:(lia)) as Hpp. set (q := 2 ^ (16 - Z.of_nat (S l))) in *. nia.
Qed.

(* ---- the F.15 tables ---- *)
Definition mx_spec (bits : list Z) (l : nat) : Z :=
  if (ncodes bits l =? 0)%nat then -1 else code_value (code_sizes bits) (pos bits l - 1).

Definition d_code_inv (bits : list Z) (l : nat) (st : Z * list (option Z) * list (option Z)) : Prop :=
  let '(p, mx, vo) := st in
  p = Z.of_nat (pos bits l) /\ length mx = 18%nat /\ length vo = 18%nat /\
  (forall j, (1 <= j <= l)%nat -> nth j mx None = Some (mx_spec bits j)) /\
  (forall j, (1 <= j <= l)%nat -> ncodes bits j <> 0%nat ->
     nth j vo None = Some (Z.of_nat (pos bits (j - 1)) - code_value (code_sizes bits) (pos bits (j - 1)))).

Lemma ncodes_Z bits l : 0 <= nth l bits 0 -> Z.of_nat (ncodes bits l) = nth l bits 0.
Proof. intros. unfold ncodes. lia. Qed.

Lemma d_code_loop bits n l st :
  length bits = 17%nat -> (forall i, 0 <= nth i bits 0 < 256) -> (l + n <= 16)%nat ->
  d_code_inv bits l st ->
  exists st', for_loop n (Z.of_nat (S l))
    (d_code_step bits (map (code_value (code_sizes bits)) (seq 0 (length (code_sizes bits))))) st = Ret st'
    /\ d_code_inv bits (l + n) st'.
Proof.
  intros Hb Hr. revert l st. induction n as [|n IH]; intros l st Hl Hinv; cbn [for_loop].
  - exists st. rewrite Nat.add_0_r. auto.
  - set (sz := code_sizes bits) in *. set (hc := map (code_value sz) (seq 0 (length sz))) in *.
    destruct st as [[p mx] vo]. destruct Hinv as (-> & Hm & Hv & Im & Iv).
    unfold d_code_step at 1.
    rewrite (aget_nth bits _ 0) by lia. cbn [bind]. rewrite Nat2Z.id.
    pose proof (Hr (S l)) as Hn. pose proof (ncodes_Z bits (S l) ltac:(lia)) as HnZ.
    pose proof (pos_S bits l) as HpS. pose proof (pos_le bits (S l) ltac:(lia)) as Hpl. fold sz in Hpl.
    assert (Hhc : length hc = length sz) by (unfold hc; rewrite map_length, seq_length; auto).
    assert (Hgc : forall i, (i < length sz)%nat -> nth i hc (code_value sz 0) = code_value sz i).
    { intros i Hi. unfold hc. rewrite map_nth, seq_nth by auto. f_equal. }
    destruct (Z.eqb_spec (nth (S l) bits 0) 0) as [E0|E0]; cbn [negb].
    + rewrite aset_ok by lia. cbn [bind]. replace (Z.of_nat (S l) + 1) with (Z.of_nat (S (S l))) by lia.
      replace (l + S n)%nat with (S l + n)%nat by lia. apply IH; [lia|].
      unfold d_code_inv. rewrite Nat2Z.id, length_upd.
      assert (Hz : ncodes bits (S l) = 0%nat) by lia.
      split; [lia|]. split; auto. split; auto. split.
      * intros j Hj. destruct (Nat.eq_dec j (S l)) as [->|Hne].
        -- rewrite nth_upd_eq by lia. unfold mx_spec. rewrite Hz. reflexivity.
        -- rewrite nth_upd_neq by lia. apply Im; lia.
      * intros j Hj Hnz. destruct (Nat.eq_dec j (S l)) as [->|Hne]; [congruence|]. apply Iv; auto; lia.
    + assert (Hz : (ncodes bits (S l) > 0)%nat) by lia.
      rewrite (aget_nth hc _ (code_value sz 0)) by lia. rewrite Nat2Z.id, Hgc by lia. cbn [bind].
      rewrite aset_ok by lia. cbn [bind].
      rewrite (aget_nth hc _ (code_value sz 0)) by lia. cbn [bind].
      replace (Z.to_nat (Z.of_nat (pos bits l) + nth (S l) bits 0 - 1)) with (pos bits (S l) - 1)%nat by lia.
      rewrite Hgc by lia. rewrite aset_ok by lia. cbn [bind].
      replace (Z.of_nat (S l) + 1) with (Z.of_nat (S (S l))) by lia.
      replace (l + S n)%nat with (S l + n)%nat by lia. apply IH; [lia|].
      unfold d_code_inv. rewrite Nat2Z.id, !length_upd.
      split; [lia|]. split; auto. split; auto. split.
      * intros j Hj. destruct (Nat.eq_dec j (S l)) as [->|Hne].
        -- rewrite nth_upd_eq by lia. unfold mx_spec. destruct (Nat.eqb_spec (ncodes bits (S l)) 0); [lia|reflexivity].
        -- rewrite nth_upd_neq by lia. apply Im; lia.
      * intros j Hj Hnz. destruct (Nat.eq_dec j (S l)) as [->|Hne].
        -- rewrite nth_upd_eq by lia. cbn [Nat.sub]. rewrite Nat.sub_0_r. reflexivity.
        -- rewrite nth_upd_neq by lia. apply Iv; auto; lia.
Qed.

(* ---- the lookahead table ---- *)
Lemma look_ctr_loop entry n i b tbl :
  0 <= b -> b + Z.of_nat n <= Z.of_nat (length tbl) ->
  exists tbl', for_loop n i (d_look_ctr entry) (b, tbl) = Ret (b + Z.of_nat n, tbl') /\
    length tbl' = length tbl /\
    forall w, nth w tbl' 0 =
      if (b <=? Z.of_nat w) && (Z.of_nat w <? b + Z.of_nat n) then entry else nth w tbl 0.
Proof.
  revert i b tbl. induction n as [|n IH]; intros i b tbl Hb Hl; cbn [for_loop].
  - exists tbl. split; [f_equal; f_equal; lia|]. split; auto. intros w.
    destruct (Z.leb_spec b (Z.of_nat w)), (Z.ltb_spec (Z.of_nat w) (b + Z.of_nat 0)); cbn; auto; lia.
  - unfold d_look_ctr at 1. rewrite aset_ok by lia. cbn [bind].
    destruct (IH (i + 1) (b + 1) (upd tbl (Z.to_nat b) entry)) as (tbl' & E & Hlen & Hn).
    { lia. } { rewrite length_upd. lia. }
    exists tbl'. split; [rewrite E; f_equal; f_equal; lia|]. split; [now rewrite Hlen, length_upd|].
    intros w. rewrite Hn.
    destruct (Z.leb_spec (b + 1) (Z.of_nat w)), (Z.ltb_spec (Z.of_nat w) (b + 1 + Z.of_nat n)),
      (Z.leb_spec b (Z.of_nat w)), (Z.ltb_spec (Z.of_nat w) (b + Z.of_nat (S n))); cbn [andb]; auto; try lia;
      first [ apply nth_upd_neq; lia | replace w with (Z.to_nat b) by lia; apply nth_upd_eq; lia ].
Qed.

Definition look_entry (bits vals : list Z) (k : nat) : Z :=
  Z.lor (Z.shiftl (Z.of_nat (nth k (code_sizes bits) 0%nat)) 8) (nth k vals (-1)).

(* state after processing the first p codes *)
Definition look_inv (bits vals : list Z) (p : nat) (tbl : list Z) : Prop :=
  length tbl = 256%nat /\
  (forall k w, (k < p)%nat -> kraft (firstn k (code_sizes bits)) <= 256 * Z.of_nat w
        < kraft (firstn (S k) (code_sizes bits)) -> nth w tbl 0 = look_entry bits vals k) /\
  (forall w, (w < 256)%nat -> kraft (firstn p (code_sizes bits)) <= 256 * Z.of_nat w ->
        nth w tbl 0 = 2304).

Lemma look_sym_loop bits vals l n p i tbl :
  code_space_ok bits -> length vals = 256%nat -> (1 <= l <= 8)%nat ->
  (pos bits (l - 1) <= p)%nat -> (p + n <= pos bits l)%nat -> look_inv bits vals p tbl ->
  exists tbl', for_loop n i (d_look_sym vals (map (code_value (code_sizes bits))
                (seq 0 (length (code_sizes bits)))) (Z.of_nat l)) (Z.of_nat p, tbl)
               = Ret (Z.of_nat (p + n), tbl') /\ look_inv bits vals (p + n) tbl'.
Proof.
  intros Hcs Hv Hl. revert p i tbl. induction n as [|n IH]; intros p i tbl Hp1 Hp2 Hinv; cbn [for_loop].
  - exists tbl. rewrite Nat.add_0_r. auto.
  - set (sz := code_sizes bits) in *. set (hc := map (code_value sz) (seq 0 (length sz))) in *.
    pose proof (pos_le bits l ltac:(lia)) as Hpl. fold sz in Hpl.
    destruct Hcs as [Hlen HK]. fold sz in Hlen, HK.
    assert (Hhc : length hc = length sz) by (unfold hc; rewrite map_length, seq_length; auto).
    unfold d_look_sym at 1.
    rewrite (aget_nth hc _ (code_value sz 0)) by lia. unfold hc at 1. rewrite Nat2Z.id, map_nth, seq_nth by lia.
    cbn [bind Nat.add]. rewrite (aget_nth vals _ (-1)) by lia. rewrite Nat2Z.id. cbn [bind].
    pose proof (code_sizes_ok bits) as Hok. fold sz in Hok.
    assert (Hsz : nth p sz 0%nat = l).
    { unfold sz. replace l with (S (l - 1)) by lia. apply nth_code_sizes; [lia|].
      replace (S (l - 1)) with l by lia. lia. }
    pose proof (kraft_div sz p Hok ltac:(lia)) as HD. rewrite Hsz in HD.
    pose proof (kraft_next sz p ltac:(lia)) as HN. rewrite Hsz in HN.
    pose proof (code_value_bound sz p Hok HK ltac:(lia)) as HB. rewrite Hsz in HB.
    assert (Hpw : 2 ^ (16 - Z.of_nat l) = 256 * 2 ^ (8 - Z.of_nat l)).
    { change 256 with (2 ^ 8). rewrite <- Z.pow_add_r by lia. f_equal. lia. }
    assert (Hpw2 : 2 ^ Z.of_nat l * 2 ^ (8 - Z.of_nat l) = 256).
    { rewrite <- Z.pow_add_r by lia. replace (Z.of_nat l + (8 - Z.of_nat l)) with 8 by lia. reflexivity. }
    set (c := code_value sz p) in *. set (q := 2 ^ (8 - Z.of_nat l)) in *.
    assert (Hq : 0 < q) by (unfold q; apply Z.pow_pos_nonneg; lia).
    assert (Hsh : u32 (Z.shiftl c (8 - Z.of_nat l)) = c * q).
    { rewrite Z.shiftl_mul_pow2 by lia. fold q. apply u32_id. split; [nia|].
      assert (c * q < 2 ^ Z.of_nat l * q) by nia. lia. }
    assert (Hcq : c * q + q <= 256).
    { assert ((c + 1) * q <= 2 ^ Z.of_nat l * q) by nia. lia. }
    rewrite Hsh. rewrite Z.shiftl_mul_pow2 by lia. rewrite Z.mul_1_l. fold q.
    destruct Hinv as (Ht & I1 & I2).
    destruct (look_ctr_loop (Z.lor (Z.shiftl (Z.of_nat l) 8) (nth p vals (-1))) (Z.to_nat q) 0 (c * q) tbl)
      as (tbl' & E & Ht' & Hn); [nia|lia|].
    rewrite E. cbn [bind].
    destruct (IH (S p) (i + 1) tbl') as (tbl2 & E2 & Inv2); [lia|lia| |].
    { repeat split.
      - congruence.
      - intros k w Hk Hw. rewrite Hn, Z2Nat.id by lia.
        assert (Hle : kraft (firstn k sz) <= kraft (firstn p sz)) by (apply kraft_mono; lia).
        destruct (Nat.eq_dec k p) as [->|Hne].
        + fold sz in Hw. rewrite HN, <- HD in Hw. rewrite Hpw in Hw.
          destruct (Z.leb_spec (c * q) (Z.of_nat w)); [|lia].
          destruct (Z.ltb_spec (Z.of_nat w) (c * q + q)); [|lia]. cbn [andb].
          unfold look_entry. fold sz. now rewrite Hsz.
        + assert (Hle2 : kraft (firstn (S k) sz) <= kraft (firstn p sz)) by (apply kraft_mono; lia).
          fold sz in Hw. destruct (Z.leb_spec (c * q) (Z.of_nat w)); cbn [andb].
          * exfalso. rewrite <- HD in Hle2. rewrite Hpw in Hle2. nia.
          * apply I1; auto. lia.
      - intros w Hw Hg. rewrite Hn, Z2Nat.id by lia. fold sz in Hg.
        rewrite HN, <- HD, Hpw in Hg.
        destruct (Z.ltb_spec (Z.of_nat w) (c * q + q)); [lia|]. rewrite andb_false_r.
        apply I2; auto. fold sz. rewrite <- HD, Hpw. nia. }
    exists tbl2. replace (p + S n)%nat with (S p + n)%nat by lia.
    split; auto. replace (Z.of_nat p + 1) with (Z.of_nat (S p)) by lia. exact E2.
Qed.

Lemma look_len_loop bits vals n l tbl :
  length bits = 17%nat -> (forall i, 0 <= nth i bits 0 < 256) ->
  code_space_ok bits -> length vals = 256%nat -> (l + n <= 8)%nat ->
  look_inv bits vals (pos bits l) tbl ->
  exists tbl', for_loop n (Z.of_nat (S l)) (d_look_len bits vals (map (code_value (code_sizes bits))
                (seq 0 (length (code_sizes bits))))) (Z.of_nat (pos bits l), tbl)
               = Ret (Z.of_nat (pos bits (l + n)), tbl') /\ look_inv bits vals (pos bits (l + n)) tbl'.
Proof.
  intros Hb Hr Hcs Hv. revert l tbl. induction n as [|n IH]; intros l tbl Hl Hinv; cbn [for_loop].
  - exists tbl. rewrite Nat.add_0_r. auto.
  - unfold d_look_len at 1. rewrite (aget_nth bits _ 0) by lia. rewrite Nat2Z.id. cbn [bind].
    fold (ncodes bits (S l)). pose proof (pos_S bits l) as HS.
    destruct (look_sym_loop bits vals (S l) (ncodes bits (S l)) (pos bits l) 1 tbl) as (tbl' & E & I); auto.
    { lia. } { cbn [Nat.sub]. rewrite Nat.sub_0_r. lia. } { lia. }
    rewrite E. cbn [bind]. rewrite <- HS in *.
    destruct (IH (S l) tbl') as (tbl2 & E2 & I2); auto; [lia|].
    exists tbl2. replace (l + S n)%nat with (S l + n)%nat by lia. split; auto.
    replace (Z.of_nat (S l) + 1) with (Z.of_nat (S (S l))) by lia. exact E2.
Qed.

(* ---- the whole derived table ---- *)
Definition d_inv (t : JHUFF_TBL) (d : d_derived_tbl) : Prop :=
  let bits := hbits t in
  dpub d = t /\ length (maxcode d) = 18%nat /\ length (valoffset d) = 18%nat /\
  (forall j, (1 <= j <= 16)%nat -> nth j (maxcode d) None = Some (mx_spec bits j)) /\
  nth 17 (maxcode d) None = Some 1048575 /\
  (forall j, (1 <= j <= 16)%nat -> ncodes bits j <> 0%nat ->
     nth j (valoffset d) None =
     Some (Z.of_nat (pos bits (j - 1)) - code_value (code_sizes bits) (pos bits (j - 1)))) /\
  look_inv bits (hval t) (pos bits 8) (dlookup d).

Lemma dc_check_loop lossless vals n p :
  length vals = 256%nat -> (forall i, (i < 256)%nat -> 0 <= nth i vals (-1) < 256) ->
  (p + n <= 256)%nat ->
  let P := Forall (fun s => s <= max_symbol lossless true) (firstn n (skipn p vals)) in
  (P /\ for_loop n (Z.of_nat p) (d_dc_check lossless vals) tt = Ret tt) \/
  (~ P /\ for_loop n (Z.of_nat p) (d_dc_check lossless vals) tt = Error JERR_BAD_HUFF_TABLE).
Proof.
  intros Hv Hr. revert p. induction n as [|n IH]; intros p Hp; cbn [for_loop].
  - left. cbn [firstn]. split; auto.
  - unfold d_dc_check at 1 3. rewrite (aget_nth vals _ (-1)) by lia. rewrite Nat2Z.id. cbn [bind].
    assert (Hs : skipn p vals = nth p vals (-1) :: skipn (S p) vals).
    { clear - Hp Hv. assert (p < length vals)%nat by lia. clear Hp Hv. revert p H.
      induction vals as [|x v IHv]; intros [|p] H; cbn in *; try lia; auto. apply IHv. lia. }
    pose proof (Hr p ltac:(lia)) as Hpr.
    assert (Hmx : (if lossless then 16 else 15) = max_symbol lossless true) by reflexivity.
    rewrite Hmx, Hs. cbn [firstn].
    destruct (Z.ltb_spec (nth p vals (-1)) 0); [lia|].
    destruct (Z.ltb_spec (max_symbol lossless true) (nth p vals (-1))); cbn [orb bind].
    + right. split; auto. intros H1. inversion H1; subst. lia.
    + specialize (IH (S p) ltac:(lia)). cbn zeta in IH.
      replace (Z.of_nat p + 1) with (Z.of_nat (S p)) by lia.
      destruct IH as [[H1 H2]|[H1 H2]].
      * left. split; auto.
      * right. split; auto. intros H3. inversion H3; subst. auto.
Qed.

Lemma d_derived_spec lossless isDC t :
  huff_type_ok t = true ->
  (dec_table_ok lossless isDC (hbits t) (hval t) /\
     exists d, jpeg_make_d_derived_tbl lossless isDC (Some t) = Ret d /\ d_inv t d) \/
  (~ dec_table_ok lossless isDC (hbits t) (hval t) /\
     jpeg_make_d_derived_tbl lossless isDC (Some t) = Error JERR_BAD_HUFF_TABLE).
Proof.
  intros Ht. destruct (huff_type_ok_inv t Ht) as (Hb1 & Hb2 & Hv1 & Hv2).
  set (bits := hbits t) in *. set (sz := code_sizes bits).
  pose proof (code_sizes_ok bits) as Hok. fold sz in Hok.
  unfold jpeg_make_d_derived_tbl. fold bits. rewrite make_huffsize_spec by auto. fold sz.
  destruct (Nat.leb_spec (length sz) 256) as [Hl|Hl]; cbn [bind].
  2:{ right. split; [|reflexivity]. intros [[H _] _]. fold sz in H. lia. }
  rewrite make_huffcode_spec by auto.
  destruct (Z.ltb_spec (kraft sz) (2 ^ 16)) as [HK|HK]; cbn [bind].
  2:{ right. split; [|reflexivity]. intros [[_ H] _]. fold sz in H. lia. }
  assert (Hcs : code_space_ok bits) by (split; auto).
  destruct (d_code_loop bits 16 0 (0, repeat None 18, repeat None 18) Hb1 Hb2 ltac:(lia)) as ([[p mx] vo] & E & Inv).
  { split; [reflexivity|]. split; [reflexivity|]. split; [reflexivity|]. split; intros; lia. }
  fold sz in E. change (Z.of_nat 1) with 1 in E. rewrite E. cbn [bind].
  destruct Inv as (Hp & Hm & Hvo & Im & Iv).
  rewrite !aset_ok by lia. cbn [bind].
  destruct (look_len_loop bits (hval t) 8 0 (repeat (Z.shiftl 9 8) 256) Hb1 Hb2 Hcs Hv1 ltac:(lia)) as (lk & E2 & Inv2).
  { split; [reflexivity|]. split; [cbn; intros; lia|]. intros w Hw _.
    rewrite nth_repeat_lt by auto. reflexivity. }
  fold sz in E2. change (Z.of_nat 1) with 1 in E2. change (Z.of_nat (pos bits 0)) with 0 in E2.
  rewrite E2. cbn [bind]. rewrite map_length.
  assert (Dinv : d_inv t (mkDT (upd mx (Z.to_nat 17) (Some 1048575)) (upd vo (Z.to_nat 17) (Some 0)) t lk)).
  { unfold d_inv; cbn [dpub maxcode valoffset dlookup]. rewrite !length_upd.
    split; auto. split; auto. split; auto. change (Z.to_nat 17) with 17%nat.
    split; [intros j Hj; rewrite nth_upd_neq by lia; apply Im; lia|].
    split; [apply nth_upd_eq; lia|].
    split; [intros j Hj Hn; rewrite nth_upd_neq by lia; apply Iv; auto; lia|].
    exact Inv2. }
  destruct isDC.
  - destruct (dc_check_loop lossless (hval t) (length sz) 0 Hv1 Hv2 ltac:(lia)) as [[HP E3]|[HP E3]];
      change (Z.of_nat 0) with 0 in E3; rewrite E3; cbn [bind].
    + left. split; [split; auto|]. eexists. split; [reflexivity|exact Dinv].
    + right. split; [|reflexivity]. intros [_ H]. apply HP. apply H; auto.
  - left. cbn [bind]. split; [split; auto; discriminate|]. eexists. split; [reflexivity|exact Dinv].
Qed.
