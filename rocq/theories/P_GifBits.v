(* P_GifBits.v -- bit packing and data blocks of GIF files *)
From Verif Require Import Base M_Gif.

(* the n low bits of v, least significant first *)
Definition lsb (n : nat) (v : Z) : list bool := map (fun i => Z.testbit v (Z.of_nat i)) (seq 0 n).
Definition bbits (bs : list Z) : list bool := flat_map (lsb 8) bs.
Definition isbyte (x : Z) : Prop := 0 <= x < 256.

(* a series of data blocks: count byte, that many bytes, ... , zero count *)
Inductive framed : list Z -> list Z -> Prop :=
| fr_end rest : framed [] (0 :: rest)
| fr_blk blk X inp : (1 <= length blk <= 255)%nat -> framed X inp ->
    framed (blk ++ X) (Z.of_nat (length blk) :: blk ++ inp).

Lemma lsb_length n v : length (lsb n v) = n.
Proof. unfold lsb. now rewrite map_length, seq_length. Qed.
Lemma lsb_ext n v w : (forall i, 0 <= i < Z.of_nat n -> Z.testbit v i = Z.testbit w i) -> lsb n v = lsb n w.
Proof. intros H. unfold lsb. apply map_ext_in. intros i Hi. apply in_seq in Hi. apply H. lia. Qed.
Lemma lsb_app a b v : lsb (a + b) v = lsb a v ++ lsb b (Z.shiftr v (Z.of_nat a)).
Proof.
  unfold lsb. rewrite seq_app, map_app. f_equal. replace (0 + a)%nat with (a + 0)%nat by lia. generalize 0%nat as k.
  induction b as [|b IH]; intros k; cbn [seq map]; auto. f_equal.
  - rewrite Z.shiftr_spec by lia. f_equal. lia.
  - rewrite <- IH. f_equal. f_equal. lia.
Qed.
Lemma lsb_nth n v i d : (i < n)%nat -> nth i (lsb n v) d = Z.testbit v (Z.of_nat i).
Proof. intros H. unfold lsb. erewrite nth_indep by (rewrite map_length, seq_length; exact H).
  change (Z.testbit v (Z.of_nat i)) with ((fun i => Z.testbit v (Z.of_nat i)) i). rewrite map_nth with (d := 0%nat). now rewrite seq_nth by exact H. Qed.
Lemma high_bits n v i : 0 <= v < 2 ^ Z.of_nat n -> Z.of_nat n <= i -> Z.testbit v i = false.
Proof.
  intros Hv Hi. destruct (Z.eq_dec v 0) as [->|N]; [apply Z.bits_0|]. apply Z.bits_above_log2; [lia|].
  apply Z.lt_le_trans with (Z.of_nat n); [|exact Hi]. apply Z.log2_lt_pow2; lia.
Qed.
Lemma lsb_inj n v w : 0 <= v < 2 ^ Z.of_nat n -> 0 <= w < 2 ^ Z.of_nat n -> lsb n v = lsb n w -> v = w.
Proof.
  intros Hv Hw E. apply Z.bits_inj'. intros i Hi. destruct (Z.lt_ge_cases i (Z.of_nat n)) as [H|H].
  - rewrite <- (Z2Nat.id i Hi). rewrite <- !(lsb_nth n _ _ false) by lia. now rewrite E.
  - rewrite !(high_bits n) by auto. reflexivity.
Qed.
Lemma bbits_app a b : bbits (a ++ b) = bbits a ++ bbits b.
Proof. apply flat_map_app. Qed.
Lemma bbits_length a : length (bbits a) = (8 * length a)%nat.
Proof. induction a as [|x a IH]; [reflexivity|]. cbn [bbits flat_map]. fold (bbits a). rewrite app_length, lsb_length, IH. cbn [length]. lia. Qed.

(* ---------------- writer ---------------- *)
Definition fr (D out : list Z) : Prop := forall X inp, framed X inp -> framed (D ++ X) (out ++ inp).
Definition pinv (hdr D : list Z) (b : gbits) : Prop :=
  exists D1 out, w_file b = hdr ++ out /\ fr D1 out /\ D = D1 ++ w_pkt b /\ (length (w_pkt b) < 255)%nat /\ Forall isbyte out /\ Forall isbyte (w_pkt b).

Lemma fr_nil : fr [] [].
Proof. intros X inp H. exact H. Qed.
Lemma fr_snoc D out blk : fr D out -> (1 <= length blk <= 255)%nat -> fr (D ++ blk) (out ++ Z.of_nat (length blk) :: blk).
Proof.
  intros HF HL X inp HX. rewrite <- !app_assoc. apply HF. cbn [app]. apply fr_blk; auto.
Qed.

Lemma flush_spec hdr D b : pinv hdr D b -> exists out, w_file (flush_packet b) = hdr ++ out /\ fr D out /\ Forall isbyte out.
Proof.
  intros (D1 & out & H1 & H2 & H3 & H4 & H5 & H6). unfold flush_packet. destruct (w_pkt b) as [|x p] eqn:E.
  - exists out. rewrite app_nil_r in H3. subst D. auto.
  - cbn [w_file]. exists (out ++ Z.of_nat (length (x :: p)) :: x :: p). rewrite H1, app_assoc. split; [reflexivity|]. subst D. split; [apply fr_snoc; auto; cbn [length] in *; lia|].
    apply Forall_app. split; [exact H5|]. constructor; [|exact H6]. unfold isbyte. cbn [length] in *. lia.
Qed.

Lemma char_out_spec hdr D c b : pinv hdr D b -> isbyte c -> exists b', char_out c b = Ret b' /\ pinv hdr (D ++ [c]) b' /\ w_accum b' = w_accum b /\ w_cbits b' = w_cbits b.
Proof.
  intros (D1 & out & H1 & H2 & H3 & H4 & H5 & H6) Hc. unfold char_out. destruct (Nat.leb_spec 255 (length (w_pkt b))); [lia|]. cbn [w_pkt].
  destruct (Nat.leb_spec 255 (length (w_pkt b ++ [c]))) as [Hf|Hf].
  - eexists. split; [reflexivity|]. unfold flush_packet. cbn [w_pkt w_file w_accum w_cbits].
    destruct (w_pkt b ++ [c]) as [|x p] eqn:E; [destruct (w_pkt b); discriminate|]. cbn [w_accum w_cbits]. split; [|auto].
    exists (D1 ++ x :: p), (out ++ Z.of_nat (length (x :: p)) :: x :: p). cbn [w_file w_pkt]. rewrite H1, app_nil_r, app_assoc. split; [reflexivity|].
    split; [apply fr_snoc; auto; split; [cbn [length]; lia|]; rewrite <- E, app_length; cbn [length]; lia|]. split; [rewrite H3, <- app_assoc, E; reflexivity|]. split; [cbn; lia|].
    assert (HB : Forall isbyte (x :: p)) by (rewrite <- E; apply Forall_app; auto). split; [|constructor]. apply Forall_app. split; [exact H5|]. constructor; auto.
    rewrite <- E, app_length. unfold isbyte. cbn [length]. lia.
  - eexists. split; [reflexivity|]. cbn [w_accum w_cbits]. split; [|auto]. exists D1, out. cbn [w_file w_pkt]. split; auto. split; auto.
    split; [rewrite H3, app_assoc; reflexivity|]. split; [lia|]. split; [exact H5|]. apply Forall_app; auto.
Qed.

Lemma out_bytes_spec hdr : forall fuel D b, pinv hdr D b -> 0 <= w_cbits b < 8 * Z.of_nat fuel + 8 -> 0 <= w_accum b < 2 ^ w_cbits b ->
  exists b' D', out_bytes fuel b = Ret b' /\ pinv hdr D' b' /\ 0 <= w_cbits b' < 8 /\ 0 <= w_accum b' < 2 ^ w_cbits b' /\
    bbits D' ++ lsb (Z.to_nat (w_cbits b')) (w_accum b') = bbits D ++ lsb (Z.to_nat (w_cbits b)) (w_accum b).
Proof.
  induction fuel as [|fuel IH]; intros D b HP Hc Ha; cbn [out_bytes]; destruct (Z.leb_spec 8 (w_cbits b)) as [H8|H8].
  - lia.
  - exists b, D. auto 10 with zarith.
  - destruct (char_out_spec hdr D (Z.land (w_accum b) 255) b HP ltac:(change 255 with (Z.ones 8); rewrite Z.land_ones by lia; apply Z.mod_pos_bound; reflexivity)) as (b1 & E1 & P1 & A1 & C1). rewrite E1. cbn [bind].
    set (b2 := mkGB _ _ _ _).
    destruct (IH (D ++ [Z.land (w_accum b) 255]) b2) as (b' & D' & E2 & P2 & R1 & R2 & R3).
    + destruct P1 as (D1 & out & Q). exists D1, out. exact Q.
    + unfold b2. cbn [w_cbits]. lia.
    + unfold b2. cbn [w_accum w_cbits]. rewrite A1, C1. rewrite Z.shiftr_div_pow2 by lia. split; [apply Z.div_pos; lia|].
      apply Z.div_lt_upper_bound; [lia|]. rewrite <- Z.pow_add_r by lia. replace (8 + (w_cbits b - 8)) with (w_cbits b) by lia. lia.
    + exists b', D'. split; [exact E2|]. split; [exact P2|]. split; [exact R1|]. split; [exact R2|]. rewrite R3. unfold b2. cbn [w_cbits w_accum].
      rewrite A1, C1, bbits_app. cbn [bbits flat_map]. rewrite app_nil_r, <- app_assoc. f_equal.
      replace (Z.to_nat (w_cbits b)) with (8 + Z.to_nat (w_cbits b - 8))%nat by lia. rewrite lsb_app. f_equal.
      apply lsb_ext. intros i Hi. rewrite Z.land_spec. change 255 with (Z.ones 8). rewrite Z.ones_spec_low by lia. apply andb_true_r.
  - exists b, D. auto 10 with zarith.
Qed.

(* the code stream written so far *)
Definition winv (hdr : list Z) (B : list bool) (b : gbits) : Prop :=
  exists D, pinv hdr D b /\ 0 <= w_cbits b < 8 /\ 0 <= w_accum b < 2 ^ w_cbits b /\ B = bbits D ++ lsb (Z.to_nat (w_cbits b)) (w_accum b).

Definition bump (w : gwid) : gwid :=
  if w_maxcode w <? w_free w then
    mkGW (w_nbits w + 1) (if w_nbits w + 1 =? MAX_LZW_BITS then LZW_TABLE_SIZE else MAXCODE (w_nbits w + 1)) (w_init w) (w_clear w) (w_free w) (w_counter w)
  else w.

Lemma output_spec hdr B b w code : winv hdr B b -> 1 <= w_nbits w <= 12 -> 0 <= code < 2 ^ w_nbits w ->
  exists b', output code (b, w) = Ret (b', bump w) /\ winv hdr (B ++ lsb (Z.to_nat (w_nbits w)) code) b'.
Proof.
  intros (D & HP & H1 & H2 & H3) Hn Hc. unfold output. set (A := Z.lor (w_accum b) (Z.shiftl code (w_cbits b))).
  assert (HA : 0 <= A < 2 ^ (w_cbits b + w_nbits w)).
  { unfold A. assert (E : Z.lor (w_accum b) (Z.shiftl code (w_cbits b)) = w_accum b + code * 2 ^ w_cbits b).
    { rewrite <- Z.shiftl_mul_pow2 by lia.
      assert (HL : Z.land (w_accum b) (Z.shiftl code (w_cbits b)) = 0).
      { apply Z.bits_inj'. intros i Hi. rewrite Z.land_spec, Z.bits_0.
        destruct (Z.lt_ge_cases i (w_cbits b)); [rewrite Z.shiftl_spec_low by lia; apply andb_false_r|].
        rewrite (high_bits (Z.to_nat (w_cbits b))) by (rewrite Z2Nat.id; lia). reflexivity. }
      rewrite <- (Z.lxor_lor _ _ HL). symmetry. apply Z.add_nocarry_lxor. exact HL. }
    rewrite E, Z.pow_add_r by lia. assert (0 < 2 ^ w_cbits b) by (apply Z.pow_pos_nonneg; lia). nia. }
  assert (Hs : s32 A = A).
  { unfold s32. assert (2 ^ (w_cbits b + w_nbits w) <= 2 ^ 20) by (apply Z.pow_le_mono_r; lia). change (2 ^ 20) with 1048576 in *.
    change (2 ^ 31) with 2147483648. change (2 ^ 32) with 4294967296. rewrite Z.mod_small by lia. lia. }
  rewrite Hs.
  destruct (out_bytes_spec hdr 4 D (mkGB (w_file b) (w_pkt b) A (w_cbits b + w_nbits w))) as (b' & D' & E & P' & R1 & R2 & R3).
  - exact HP.
  - cbn [w_cbits]. lia.
  - cbn [w_accum w_cbits]. exact HA.
  - rewrite E. cbn [bind]. exists b'. split; [unfold bump; destruct (w_maxcode w <? w_free w); reflexivity|].
    exists D'. split; [exact P'|]. split; [exact R1|]. split; [exact R2|]. rewrite R3. cbn [w_accum w_cbits]. rewrite H3, <- app_assoc. f_equal.
    rewrite Z2Nat.inj_add by lia. rewrite lsb_app. f_equal.
    + apply lsb_ext. intros i Hi. unfold A. rewrite Z.lor_spec, Z.shiftl_spec_low by lia. symmetry. apply orb_false_r.
    + apply lsb_ext. intros i Hi. rewrite Z2Nat.id by lia. unfold A. rewrite Z.shiftr_spec by lia. rewrite Z.lor_spec.
      rewrite (high_bits (Z.to_nat (w_cbits b)) (w_accum b)) by (rewrite Z2Nat.id; lia). rewrite Z.shiftl_spec by lia. cbn [orb]. f_equal. lia.
Qed.

(* ---------------- reader ---------------- *)
Definition avail (X : list Z) (b : grd) : list bool :=
  skipn (Z.to_nat (r_cbit b)) (firstn (Z.to_nat (r_lbit b)) (bbits (r_buf b))) ++ bbits X.
Record rinv (X : list Z) (b : grd) : Prop := {
  ri_len : length (r_buf b) = 260%nat;
  ri_fr : framed X (r_in b);
  ri_oob : r_oob b = false;
  ri_cur : 0 <= r_cbit b <= r_lbit b;
  ri_lb : 2 <= r_lbyte b <= 257;
  ri_bit : r_lbit b = 8 * r_lbyte b \/ r_lbit b = 0;
  ri_byte : Forall isbyte (r_buf b);
  ri_in : Forall isbyte (r_in b) }.

Lemma aget_ok {A} (l : list A) i d : 0 <= i < Z.of_nat (length l) -> aget l i = Ret (nth (Z.to_nat i) l d).
Proof.
  intros H. unfold aget. destruct (Z.ltb_spec i 0); [lia|]. rewrite (nth_error_nth' l d) by lia. reflexivity.
Qed.
Lemma aset_ok {A} (l : list A) i x : 0 <= i < Z.of_nat (length l) -> aset l i x = Ret (upd l (Z.to_nat i) x).
Proof.
  intros H. unfold aset. destruct (Z.ltb_spec i 0); [lia|]. destruct (Z.leb_spec (Z.of_nat (length l)) i); [lia|]. reflexivity.
Qed.
Lemma upd_split {A} (l : list A) n x : (n < length l)%nat -> upd l n x = firstn n l ++ x :: skipn (S n) l.
Proof.
  revert n. induction l as [|y l IH]; intros n H; cbn [length] in H; [lia|]. destruct n as [|n]; [reflexivity|]. cbn [upd firstn skipn app]. f_equal. apply IH. lia.
Qed.
Lemma skipn_sk {A} (l : list A) : forall a b, skipn a (skipn b l) = skipn (b + a) l.
Proof. induction l as [|x l IH]; intros a [|b]; cbn [skipn Nat.add]; auto. now rewrite !skipn_nil. Qed.
Lemma blit_ok : forall bs buf i, 0 <= i -> (Z.to_nat i + length bs <= length buf)%nat ->
  blit buf i bs = Ret (firstn (Z.to_nat i) buf ++ bs ++ skipn (Z.to_nat i + length bs) buf).
Proof.
  induction bs as [|x bs IH]; intros buf i Hi HL; cbn [blit length] in *.
  - rewrite Nat.add_0_r. cbn [app]. now rewrite firstn_skipn.
  - rewrite aset_ok by lia. cbn [bind]. rewrite upd_split by lia. rewrite IH; [|lia|].
    + replace (Z.to_nat (i + 1)) with (S (Z.to_nat i)) by lia. f_equal.
      assert (Lf : length (firstn (Z.to_nat i) buf) = Z.to_nat i) by (rewrite firstn_length; lia).
      rewrite firstn_app, Lf. replace (S (Z.to_nat i) - Z.to_nat i)%nat with 1%nat by lia. rewrite firstn_all2 by (rewrite Lf; lia). cbn [firstn].
      rewrite <- app_assoc. cbn [app]. f_equal. f_equal. f_equal.
      rewrite skipn_app, Lf. rewrite skipn_all2 by (rewrite Lf; lia). cbn [app].
      replace (S (Z.to_nat i) + length bs - Z.to_nat i)%nat with (S (length bs)) by lia. change (skipn (S (length bs)) (x :: skipn (S (Z.to_nat i)) buf)) with (skipn (length bs) (skipn (S (Z.to_nat i)) buf)). rewrite skipn_sk. f_equal. lia.
    + rewrite app_length, firstn_length. cbn [length]. rewrite skipn_length. lia.
Qed.

Lemma nth_firstn_skip {A} (l : list A) n d : (n < length l)%nat -> nth n l d :: skipn (S n) l = skipn n l.
Proof.
  revert n. induction l as [|y l IH]; intros n H; cbn [length] in H; [lia|]. destruct n as [|n]; [reflexivity|]. cbn [nth skipn]. apply IH. lia.
Qed.
Lemma skipn_bbits n l : skipn (8 * n) (bbits l) = bbits (skipn n l).
Proof.
  revert n. induction l as [|x l IH]; intros n; [rewrite !skipn_nil; reflexivity|]. destruct n as [|n]; [reflexivity|]. cbn [skipn bbits flat_map]. fold (bbits l).
  rewrite skipn_app, lsb_length. rewrite skipn_all2 by (rewrite lsb_length; lia). replace (8 * S n - 8)%nat with (8 * n)%nat by lia. cbn [app]. apply IH.
Qed.
Lemma firstn_bbits n l : firstn (8 * n) (bbits l) = bbits (firstn n l).
Proof.
  revert n. induction l as [|x l IH]; intros n; [rewrite !firstn_nil; reflexivity|]. destruct n as [|n]; [reflexivity|]. cbn [firstn bbits flat_map]. fold (bbits l).
  rewrite firstn_app, lsb_length. rewrite firstn_all2 by (rewrite lsb_length; lia). replace (8 * S n - 8)%nat with (8 * n)%nat by lia. f_equal. apply IH.
Qed.

(* one reload: the bits available do not change *)
Lemma reload_step X b count buf3 inp x y buf1 buf2 size : rinv X b -> r_lbit b < r_cbit b + size -> size <= 16 ->
  Z.of_nat (length (avail X b)) >= size ->
  aget (r_buf b) (r_lbyte b - 2) = Ret x -> aset (r_buf b) 0 x = Ret buf1 -> aget buf1 (r_lbyte b - 1) = Ret y -> aset buf1 1 y = Ret buf2 ->
  GetDataBlock (r_in b) buf2 2 = Ret (count, buf3, inp) ->
  exists X', count <> 0 /\ forall f, let b' := mkGR inp buf3 (2 + count) ((2 + count) * 8) (r_cbit b - r_lbit b + 16) f false (r_warn b) in
    rinv X' b' /\ avail X' b' = avail X b /\ 1 <= count.
Proof.
  intros HI Hlt Hs Hav Ex E1 Ey E2 ED. destruct HI as [L F O C LB LL BY BI].
  destruct (r_buf b) as [|p0 [|p1 rest]] eqn:Eb; try discriminate.
  rewrite aget_ok with (d := 0) in Ex by (rewrite L; lia). rewrite aset_ok in E1 by (rewrite L; lia). cbn [Z.to_nat upd] in E1. inversion E1; subst buf1. clear E1.
  rewrite aget_ok with (d := 0) in Ey by (cbn [length] in *; lia). rewrite aset_ok in E2 by (cbn [length] in *; lia). cbn [Z.to_nat Pos.to_nat Pos.iter_op Nat.add upd] in E2.
  change (Pos.to_nat 1) with 1%nat in E2. cbn [upd] in E2. inversion E2; subst buf2. clear E2.
  set (k := (r_lbit b - r_cbit b)) in *.
  destruct F as [rest0|blk X inp0 Hb F].
  { exfalso. unfold avail in Hav. rewrite Eb, app_nil_r, skipn_length, firstn_length, bbits_length, L in Hav. lia. }
  unfold GetDataBlock in ED. destruct (Z.ltb_spec 0 (Z.of_nat (length blk))); [|lia]. rewrite Nat2Z.id in ED.
  destruct (Nat.ltb_spec (length (blk ++ inp0)) (length blk)); [rewrite app_length in *; lia|].
  rewrite firstn_app, firstn_all, Nat.sub_diag, firstn_O, app_nil_r in ED. rewrite skipn_app, skipn_all, Nat.sub_diag in ED. cbn [skipn app] in ED.
  rewrite blit_ok in ED by (cbn [length] in *; change (Z.to_nat 2) with 2%nat; lia). cbn [bind] in ED. inversion ED; subst count buf3 inp. clear ED.
  change (Z.to_nat 2) with 2%nat. cbn [firstn app Nat.add skipn].
  exists X. split; [lia|]. intros f. split; [|split; [|lia]].
  - constructor; cbn [r_buf r_in r_oob r_cbit r_lbit r_lbyte]; auto; try lia.
    + cbn [length]. rewrite app_length, skipn_length. cbn [length] in L. lia.
    + assert (Bx : isbyte x). { assert (Q : x = nth (Z.to_nat (r_lbyte b - 2)) (p0 :: p1 :: rest) 0) by congruence. rewrite Q. rewrite Forall_forall in BY. apply BY, nth_In. rewrite L. lia. }
      assert (By : isbyte y). { assert (Q : y = nth (Z.to_nat (r_lbyte b - 1)) (x :: p1 :: rest) 0) by congruence. rewrite Q.
        assert (BY' : Forall isbyte (x :: p1 :: rest)) by (constructor; [exact Bx|exact (Forall_inv_tail BY)]). rewrite Forall_forall in BY'. apply BY', nth_In. cbn [length] in *. lia. }
      constructor; auto. constructor; auto. apply Forall_app. inversion BI as [|? ? _ B2]; subst. apply Forall_app in B2. split; [apply B2|].
      apply Forall_forall. intros z Hz. assert (Hz' : In z rest) by (rewrite <- (firstn_skipn (length blk) rest); apply in_or_app; auto).
      rewrite Forall_forall in BY. apply BY. right. right. exact Hz'.
    + inversion BI as [|? ? _ B2]; subst. apply Forall_app in B2. apply B2.
  - unfold avail. cbn [r_cbit r_lbit r_buf]. rewrite Eb. rewrite bbits_app.
    replace (Z.to_nat ((2 + Z.of_nat (length blk)) * 8)) with (8 * (2 + length blk))%nat by lia. rewrite firstn_bbits.
    cbn [Nat.add firstn]. rewrite firstn_app, firstn_all, Nat.sub_diag, firstn_O, app_nil_r.
    change (x :: y :: blk) with ([x; y] ++ blk). rewrite bbits_app, skipn_app, bbits_length. cbn [length].
    replace (Z.to_nat (r_cbit b - r_lbit b + 16) - 8 * 2)%nat with 0%nat by lia. cbn [skipn]. rewrite <- app_assoc. f_equal.
    destruct LL as [LL|LL].
    + rewrite LL. replace (Z.to_nat (8 * r_lbyte b)) with (8 * Z.to_nat (r_lbyte b))%nat by lia. rewrite firstn_bbits.
      set (m := Z.to_nat (r_lbyte b)). set (buf := p0 :: p1 :: rest) in *.
      assert (Hm : (2 <= m <= 257)%nat) by lia.
      assert (Ef : firstn m buf = firstn (m - 2) buf ++ [x; y]).
      { replace m with ((m - 2) + 2)%nat at 1 by lia. rewrite <- (firstn_skipn (m - 2) buf) at 1. rewrite firstn_app, firstn_length, L.
        rewrite firstn_all2 by (rewrite firstn_length; lia). f_equal. replace (m - 2 + 2 - Nat.min (m - 2) 260)%nat with 2%nat by lia.
        assert (Hx : nth (m - 2) buf 0 = x). { replace (m - 2)%nat with (Z.to_nat (r_lbyte b - 2)) by lia. congruence. }
        assert (Hy : nth (m - 1) buf 0 = y).
        { assert (Q : nth (m - 1) (x :: p1 :: rest) 0 = y) by (replace (m - 1)%nat with (Z.to_nat (r_lbyte b - 1)) by lia; congruence).
          destruct (m - 1)%nat as [|q] eqn:Eq; [lia|]. exact Q. }
        rewrite <- (nth_firstn_skip buf (m - 2) 0) by lia. rewrite Hx. cbn [firstn]. f_equal.
        replace (S (m - 2)) with (m - 1)%nat by lia. rewrite <- (nth_firstn_skip buf (m - 1) 0) by lia. rewrite Hy. reflexivity. }
      rewrite Ef, bbits_app, skipn_app, bbits_length, firstn_length, L.
      rewrite (skipn_all2 (bbits (firstn (m - 2) buf))) by (rewrite bbits_length, firstn_length, L; lia). cbn [app]. f_equal. lia.
    + assert (r_cbit b = 0) by lia. rewrite LL, H1. cbn [Z.to_nat firstn skipn]. rewrite skipn_all2 by (rewrite bbits_length; cbn; lia). reflexivity.
Qed.

Lemma get_reload_spec clear size : 1 <= size <= 16 -> forall fuel X b, rinv X b -> r_first b = false -> Z.of_nat (length (avail X b)) >= size ->
  size <= r_lbit b - r_cbit b + 8 * Z.of_nat fuel ->
  exists X' b', get_reload fuel clear size b = Ret (None, b') /\ rinv X' b' /\ r_first b' = false /\ avail X' b' = avail X b /\
    r_cbit b' + size <= r_lbit b' /\ r_warn b' = r_warn b.
Proof.
  intros Hs. induction fuel as [|fuel IH]; intros X b HI HF Hav Hfu; cbn [get_reload]; destruct (Z.ltb_spec (r_lbit b) (r_cbit b + size)) as [Hlt|Hge].
  - lia.
  - exists X, b. auto 10.
  - rewrite HF, (ri_oob _ _ HI). pose proof (ri_len _ _ HI) as L. pose proof (ri_lb _ _ HI) as LB.
    assert (Ex : aget (r_buf b) (r_lbyte b - 2) = Ret (nth (Z.to_nat (r_lbyte b - 2)) (r_buf b) 0)) by (apply aget_ok; lia). rewrite Ex. cbn [bind].
    set (x := nth (Z.to_nat (r_lbyte b - 2)) (r_buf b) 0) in *. assert (E1 : aset (r_buf b) 0 x = Ret (upd (r_buf b) 0 x)) by (apply aset_ok; lia). rewrite E1. cbn [bind].
    assert (Ey : aget (upd (r_buf b) 0 x) (r_lbyte b - 1) = Ret (nth (Z.to_nat (r_lbyte b - 1)) (upd (r_buf b) 0 x) 0)) by (apply aget_ok; rewrite length_upd; lia). rewrite Ey. cbn [bind].
    set (y := nth (Z.to_nat (r_lbyte b - 1)) (upd (r_buf b) 0 x) 0) in *. assert (E2 : aset (upd (r_buf b) 0 x) 1 y = Ret (upd (upd (r_buf b) 0 x) 1 y)) by (apply aset_ok; rewrite length_upd; lia). rewrite E2. cbn [bind].
    set (buf2 := upd (upd (r_buf b) 0 x) 1 y) in *.
    assert (ED : exists count buf3 inp, GetDataBlock (r_in b) buf2 2 = Ret (count, buf3, inp)).
    { unfold GetDataBlock. destruct (ri_fr _ _ HI) as [rest0|blk X0 inp0 Hb F]; [cbn; eauto|].
      destruct (Z.ltb_spec 0 (Z.of_nat (length blk))); [|lia]. rewrite Nat2Z.id.
      destruct (Nat.ltb_spec (length (blk ++ inp0)) (length blk)); [rewrite app_length in *; lia|].
      rewrite blit_ok; [cbn [bind]; eauto|lia|]. unfold buf2. rewrite !length_upd, firstn_length, app_length, L. change (Z.to_nat 2) with 2%nat. lia. }
    destruct ED as (count & buf3 & inp & ED). rewrite ED. cbn [bind].
    destruct (reload_step X b count buf3 inp x y _ _ size HI Hlt ltac:(lia) Hav Ex E1 Ey E2 ED) as (X' & Hc0 & HX). destruct (Z.eqb_spec count 0); [congruence|].
    specialize (HX false). cbn zeta in HX. destruct HX as (HI' & HA' & Hc).
    set (b2 := mkGR _ _ _ _ _ _ _ _) in *.
    destruct (IH X' b2 HI' eq_refl) as (X'' & b'' & G1 & G2 & G3 & G4 & G5 & G6).
    + rewrite HA'. exact Hav.
    + unfold b2. cbn [r_lbit r_cbit]. lia.
    + exists X'', b''. split; [exact G1|]. split; [exact G2|]. split; [exact G3|]. split; [rewrite G4; exact HA'|]. split; [exact G5|]. rewrite G6. reflexivity.
  - exists X, b. auto 10.
Qed.

Lemma nth_bbits buf k j : (k < length buf)%nat -> (j < 8)%nat -> nth (8 * k + j) (bbits buf) false = Z.testbit (nth k buf 0) (Z.of_nat j).
Proof.
  revert k. induction buf as [|x buf IH]; intros k Hk Hj; cbn [length] in Hk; [lia|]. cbn [bbits flat_map]. fold (bbits buf). destruct k as [|k].
  - rewrite app_nth1 by (rewrite lsb_length; lia). cbn [Nat.mul Nat.add nth]. apply lsb_nth. exact Hj.
  - rewrite app_nth2 by (rewrite lsb_length; lia). rewrite lsb_length. replace (8 * S k + j - 8)%nat with (8 * k + j)%nat by lia. cbn [nth]. apply IH; lia.
Qed.
Lemma byte_high x i : isbyte x -> 8 <= i -> Z.testbit x i = false.
Proof. intros H Hi. apply (high_bits 8); [exact H|exact Hi]. Qed.

Lemma GetCode_spec clear size X b : 1 <= size <= 12 -> rinv X b -> r_first b = false -> Z.of_nat (length (avail X b)) >= size ->
  exists c X' b', GetCode clear size b = Ret (c, b') /\ 0 <= c < 2 ^ size /\ avail X b = lsb (Z.to_nat size) c ++ avail X' b' /\
    rinv X' b' /\ r_first b' = false /\ r_warn b' = r_warn b.
Proof.
  intros Hs HI HF Hav. unfold GetCode.
  destruct (get_reload_spec clear size ltac:(lia) 3 X b HI HF Hav) as (X1 & b1 & E1 & I1 & F1 & A1 & C1 & W1).
  { pose proof (ri_cur _ _ HI). lia. }
  rewrite E1. cbn [bind]. destruct I1 as [L F O C LB LL BY BI].
  rewrite Z.shiftr_div_pow2 by lia. change (2 ^ 3) with 8. set (offs := r_cbit b1 / 8).
  assert (Hq : r_cbit b1 = 8 * offs + r_cbit b1 mod 8) by (apply Z.div_mod; lia). pose proof (Z.mod_pos_bound (r_cbit b1) 8 ltac:(lia)) as Hm.
  assert (Ho : 0 <= offs) by (apply Z.div_pos; lia).
  assert (Ho2 : offs + 2 < 260) by lia.
  rewrite !aget_ok with (d := 0) by (rewrite L; lia). cbn [bind].
  set (x0 := nth (Z.to_nat offs) (r_buf b1) 0). set (x1 := nth (Z.to_nat (offs + 1)) (r_buf b1) 0). set (x2 := nth (Z.to_nat (offs + 2)) (r_buf b1) 0).
  assert (B : forall i, (i < 260)%nat -> isbyte (nth i (r_buf b1) 0)) by (intros i Hi; rewrite Forall_forall in BY; apply BY, nth_In; lia).
  assert (B0 : isbyte x0) by (apply B; lia). assert (B1 : isbyte x1) by (apply B; lia). assert (B2 : isbyte x2) by (apply B; lia).
  set (acc := Z.lor (Z.shiftl (Z.lor (Z.shiftl x2 8) x1) 8) x0).
  replace (Z.land (r_cbit b1) 7) with (r_cbit b1 mod 8) by (change 7 with (Z.ones 3); rewrite Z.land_ones by lia; reflexivity).
  assert (Hbit : forall j, 0 <= j < 24 -> Z.testbit acc j = nth (8 * Z.to_nat offs + Z.to_nat j) (bbits (r_buf b1)) false).
  { intros j Hj. unfold acc. rewrite Z.lor_spec.
    destruct (Z.lt_ge_cases j 8) as [J|J].
    - rewrite Z.shiftl_spec_low by lia. cbn [orb]. rewrite nth_bbits by lia. rewrite Z2Nat.id by lia. reflexivity.
    - rewrite (byte_high x0) by (auto; lia). rewrite orb_false_r, Z.shiftl_spec by lia. rewrite Z.lor_spec.
      destruct (Z.lt_ge_cases j 16) as [J2|J2].
      + rewrite Z.shiftl_spec_low by lia. cbn [orb]. replace (8 * Z.to_nat offs + Z.to_nat j)%nat with (8 * Z.to_nat (offs + 1) + Z.to_nat (j - 8))%nat by lia.
        rewrite nth_bbits by lia. rewrite Z2Nat.id by lia. reflexivity.
      + rewrite (byte_high x1) by (auto; lia). rewrite orb_false_r, Z.shiftl_spec by lia.
        replace (8 * Z.to_nat offs + Z.to_nat j)%nat with (8 * Z.to_nat (offs + 2) + Z.to_nat (j - 16))%nat by lia.
        rewrite nth_bbits by lia. rewrite Z2Nat.id by lia. fold x2. f_equal. lia. }
  assert (Em : 2 ^ size - 1 = Z.ones size) by (rewrite Z.ones_equiv; lia). rewrite Em.
  eexists; exists X1; eexists. split; [reflexivity|]. split; [rewrite Z.land_ones by lia; apply Z.mod_pos_bound; apply Z.pow_pos_nonneg; lia|].
  split; [|split; [|split; [exact F1|exact W1]]].
  - rewrite <- A1. unfold avail. cbn [r_cbit r_lbit r_buf]. rewrite app_assoc. f_equal.
    set (T := firstn (Z.to_nat (r_lbit b1)) (bbits (r_buf b1))).
    assert (LT : length T = Z.to_nat (r_lbit b1)) by (unfold T; rewrite firstn_length, bbits_length, L; lia).
    replace (Z.to_nat (r_cbit b1 + size)) with (Z.to_nat (r_cbit b1) + Z.to_nat size)%nat by lia.
    rewrite <- (firstn_skipn (Z.to_nat size) (skipn (Z.to_nat (r_cbit b1)) T)), skipn_sk. f_equal.
    apply (nth_ext _ _ false false).
    + rewrite firstn_length, skipn_length, lsb_length, LT. lia.
    + rewrite firstn_length, skipn_length, LT. intros i Hi.
      rewrite lsb_nth by lia. rewrite Z.land_spec, Z.ones_spec_low, andb_true_r by lia. rewrite Z.shiftr_spec by lia. rewrite Hbit by lia.
      assert (N1 : nth i (firstn (Z.to_nat size) (skipn (Z.to_nat (r_cbit b1)) T)) false = nth (Z.to_nat (r_cbit b1) + i) T false).
      { rewrite <- (firstn_skipn (Z.to_nat size) (skipn (Z.to_nat (r_cbit b1)) T)) at 2 || idtac.
        transitivity (nth i (skipn (Z.to_nat (r_cbit b1)) T) false).
        - rewrite <- (firstn_skipn (Z.to_nat size) (skipn (Z.to_nat (r_cbit b1)) T)) at 2. rewrite app_nth1; auto. rewrite firstn_length, skipn_length, LT. lia.
        - rewrite <- (firstn_skipn (Z.to_nat (r_cbit b1)) T) at 2. rewrite app_nth2 by (rewrite firstn_length; lia). f_equal. rewrite firstn_length. lia. }
      rewrite N1. unfold T.
      transitivity (nth (Z.to_nat (r_cbit b1) + i) (bbits (r_buf b1)) false).
      * rewrite <- (firstn_skipn (Z.to_nat (r_lbit b1)) (bbits (r_buf b1))) at 2. rewrite app_nth1; auto. fold T. rewrite LT. lia.
      * f_equal. lia.
  - constructor; cbn [r_buf r_in r_oob r_cbit r_lbit r_lbyte]; auto; lia.
Qed.

(* the next code in the stream is the one that was written *)
Lemma GetCode_code clear size X b c rest : 1 <= size <= 12 -> rinv X b -> r_first b = false -> 0 <= c < 2 ^ size ->
  avail X b = lsb (Z.to_nat size) c ++ rest ->
  exists X' b', GetCode clear size b = Ret (c, b') /\ avail X' b' = rest /\ rinv X' b' /\ r_first b' = false /\ r_warn b' = r_warn b.
Proof.
  intros Hs HI HF Hc Ha. destruct (GetCode_spec clear size X b Hs HI HF) as (c' & X' & b' & E & Hc' & A & I & F & W).
  { rewrite Ha, app_length, lsb_length. lia. }
  rewrite Ha in A.
  assert (Q : lsb (Z.to_nat size) c = lsb (Z.to_nat size) c' /\ rest = avail X' b').
  { apply (f_equal (firstn (Z.to_nat size))) in A as A1.
    rewrite !firstn_app, !lsb_length, Nat.sub_diag, !firstn_O, !app_nil_r in A1. rewrite !firstn_all2 in A1 by (rewrite lsb_length; lia).
    split; [exact A1|]. rewrite A1 in A. apply app_inv_head in A. exact A. }
  destruct Q as [Q1 Q2]. apply lsb_inj in Q1; [|rewrite Z2Nat.id; lia|rewrite Z2Nat.id; lia]. subst c'.
  exists X', b'. auto.
Qed.
