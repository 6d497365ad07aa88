(* P_Pnm3.v -- whole images *)
From Verif Require Import Base M_Pnm S_Pnm P_Pnm P_Pnm2.

Lemma comps_pos : forall cs n, comps_of cs n -> 1 <= n <= 4.
Proof.
  intros cs n [(_ & ->)|[(_ & ->)|(He & Hn)]]; [lia|lia|]. destruct (layout_ex _ He) as (ri & gi & bi & ai & ps & L1 & L2 & L3 & L4 & L5 & L6 & _). rewrite Hn in L5. injection L5 as ->. lia.
Qed.

Lemma hat_holds : forall p cs n row i rgb, comps_of cs n -> hat p cs (Z.of_nat i * n) row rgb -> holds p cs row i rgb.
Proof.
  intros p cs n row i [[r g] b] Hc Hh. unfold hat, holds, gb in *. destruct Hc as [(-> & ->)|[(-> & ->)|(He & Hn)]].
  - cbn [Z.eqb JCS_GRAYSCALE Pos.eqb] in *. exact Hh.
  - cbn [Z.eqb JCS_CMYK JCS_GRAYSCALE Pos.eqb] in *. destruct (rgb_to_cmyk (maxj p) r g b) as [[[c m] y] k]. exact Hh.
  - destruct (ext_ne cs He) as (N1 & N2). destruct (Z.eqb_spec cs JCS_GRAYSCALE); [contradiction|]. destruct (Z.eqb_spec cs JCS_CMYK); [contradiction|].
    destruct Hh as (ri & gi & bi & ai & ps & M1 & M2 & M3 & M4 & M5 & M6 & M7 & M8 & M9). rewrite Hn in M5. injection M5 as ->.
    exists ri, gi, bi, ai, ps. rewrite Hn. auto 12.
Qed.

(* raw rows: the buffer is the I/O buffer *)
Lemma raw_holds : forall p src io n, src_ok p src -> s_raw src = true -> length io = (spp (s_fmt src) * n)%nat ->
  forall i, (i < n)%nat -> holds p (s_cs src) (map Some io) i (pix (spp (s_fmt src)) io i).
Proof.
  intros p src io n (_ & _ & _ & _ & _ & _ & Hr & _) Er Hl i Hi. rewrite Er in Hr. destruct Hr as (_ & -> & _ & C).
  assert (G : forall k, (k < length io)%nat -> nth_error (map Some io) k = Some (Some (nth k io 0))).
  { intros k Hk. rewrite nth_error_map. rewrite (nth_error_nth' io 0 Hk). reflexivity. }
  destruct C as [(Ef & Ec)|(Ef & Ec)]; rewrite Ef in *; cbn in Hl.
  - rewrite Ec. unfold holds, pix. cbn [spp Z.eqb Pos.eqb orb Nat.eqb JCS_GRAYSCALE]. rewrite G by lia. do 3 f_equal. lia.
  - change (spp 54) with 3%nat in *. unfold pix, holds. cbn [Nat.eqb]. destruct Ec as [-> | ->]; cbn [Z.eqb Pos.eqb JCS_GRAYSCALE JCS_CMYK JCS_EXT_RGB JCS_RGB].
    + exists 0, 1, 2, (-1), 3. cbn [aget Z.ltb Z.compare]. split; [reflexivity|]. split; [reflexivity|]. split; [reflexivity|]. split; [reflexivity|]. split; [reflexivity|].
      rewrite !G by lia. split; [do 3 f_equal; lia|]. split; [do 3 f_equal; lia|]. split; [do 3 f_equal; lia|lia].
    + exists 0, 1, 2, (-1), 3. cbn [aget Z.ltb Z.compare]. split; [reflexivity|]. split; [reflexivity|]. split; [reflexivity|]. split; [reflexivity|]. split; [reflexivity|].
      rewrite !G by lia. split; [do 3 f_equal; lia|]. split; [do 3 f_equal; lia|]. split; [do 3 f_equal; lia|lia].
Qed.

Lemma raw_len : forall p src io, src_ok p src -> s_raw src = true -> length io = (spp (s_fmt src) * Z.to_nat (s_w src))%nat ->
  Z.of_nat (length (map (@Some Z) io)) = s_w src * s_comps src.
Proof.
  intros p src io (_ & Hw & _ & _ & Hc & _ & Hr & _) Er Hl. rewrite Er in Hr. destruct Hr as (_ & _ & _ & C). rewrite map_length.
  destruct Hc as [(E1 & E2)|[(E1 & E2)|(E1 & E2)]].
  - destruct C as [(Ef & Ec)|(Ef & Ec)]; rewrite Ef in *; [cbn in Hl; lia|]. rewrite E1 in Ec. unfold JCS_EXT_RGB, JCS_RGB, JCS_GRAYSCALE in Ec. lia.
  - exfalso. rewrite E1 in C. unfold JCS_EXT_RGB, JCS_RGB, JCS_GRAYSCALE, JCS_CMYK in C. lia.
  - destruct C as [(Ef & Ec)|(Ef & Ec)]; [rewrite Ec in E1; discriminate E1|]. rewrite Ef in *. change (spp 54) with 3%nat in Hl.
    assert (s_comps src = 3) by (destruct Ec as [Ec|Ec]; rewrite Ec in E2; [change (aget t_psize JCS_EXT_RGB) with (@Ret Z 3) in E2|change (aget t_psize JCS_RGB) with (@Ret Z 3) in E2]; injection E2 as E2; lia). lia.
Qed.

Lemma bw_len : forall p src, src_ok p src -> istext (s_fmt src) = false -> Z.to_nat (s_bw src) = (unit_ src * (spp (s_fmt src) * Z.to_nat (s_w src)))%nat.
Proof.
  intros p src (_ & Hw & _ & _ & _ & _ & _ & Hb) Ht. rewrite (Hb Ht). unfold unit_. destruct (s_maxval src <=? 255); nia.
Qed.

(* a row of the file as a sequence of samples *)
Definition rowreads (p : Z) (src : psrc) (ss rest : list Z) : Prop :=
  if istext (s_fmt src) then reads p src (dir p src) (s_file src) ss rest
  else exists io, s_file src = io ++ rest /\ length io = Z.to_nat (s_bw src) /\ if s_raw src then io = ss else exists tl, reads p src (dir p src) io ss tl.

Lemma get_row_fun : forall p src buf ss rest, prec_ok p -> src_ok p src -> Z.of_nat (length buf) = s_w src * s_comps src ->
  rowreads p src ss rest -> length ss = (spp (s_fmt src) * Z.to_nat (s_w src))%nat ->
  exists buf', get_row p src buf = Ret (buf', set_file src rest) /\ Z.of_nat (length buf') = s_w src * s_comps src /\
    forall i, (i < Z.to_nat (s_w src))%nat -> holds p (s_cs src) buf' i (pix (spp (s_fmt src)) ss i).
Proof.
  intros p src buf ss rest Hp Hs Hl Hr Hss. unfold get_row, rowreads in *. fold (istext (s_fmt src)). fold (dir p src).
  pose proof Hs as (_ & Hw & _ & _ & Hc & _).
  destruct (istext (s_fmt src)) eqn:Et.
  - destruct (row_fun p src (dir p src) Hc (Z.to_nat (s_w src)) 0 buf (s_file src) ss rest Hr Hss ltac:(lia)) as (b & E & L & Q & _); [lia|].
    rewrite E. cbn [bind]. exists b. split; [reflexivity|]. split; [lia|]. intros i Hi. apply (hat_holds p _ (s_comps src)); [exact Hc|]. specialize (Q i Hi). rewrite Z.add_0_l in Q. exact Q.
  - destruct Hr as (io & Ef & Li & R). rewrite Ef, app_length, Li. destruct (Nat.ltb_spec (Z.to_nat (s_bw src) + length rest) (Z.to_nat (s_bw src))); [lia|].
    rewrite firstn_app, skipn_app, Li, Nat.sub_diag, <- Li, firstn_all, skipn_all. cbn [firstn skipn app]. rewrite app_nil_r. destruct (s_raw src) eqn:Er.
    + subst io. exists (map Some ss). split; [reflexivity|]. split; [apply (raw_len p); auto|]. intros i Hi. exact (raw_holds p src ss (Z.to_nat (s_w src)) Hs Er Hss i Hi).
    + destruct R as (tl & R). destruct (row_fun p src (dir p src) Hc (Z.to_nat (s_w src)) 0 buf io ss tl R Hss ltac:(lia)) as (b & E & L & Q & _); [lia|].
      rewrite E. cbn [bind]. exists b. split; [reflexivity|]. split; [lia|]. intros i Hi. apply (hat_holds p _ (s_comps src)); [exact Hc|]. specialize (Q i Hi). rewrite Z.add_0_l in Q. exact Q.
Qed.

(* any file: a row is read or an error is reported *)
Lemma get_row_safe : forall p src buf, prec_ok p -> src_ok p src -> bytes (s_file src) -> Z.of_nat (length buf) = s_w src * s_comps src ->
  (exists e, get_row p src buf = Error e) \/
  exists buf' rest ss, get_row p src buf = Ret (buf', set_file src rest) /\ bytes rest /\ Z.of_nat (length buf') = s_w src * s_comps src /\
    length ss = (spp (s_fmt src) * Z.to_nat (s_w src))%nat /\ Forall (fun s => 0 <= s <= maxj p) ss /\
    forall i, (i < Z.to_nat (s_w src))%nat -> holds p (s_cs src) buf' i (pix (spp (s_fmt src)) ss i).
Proof.
  intros p src buf Hp Hs Hb Hl. pose proof Hs as (_ & Hw & _ & _ & Hc & _).
  assert (D : (exists e, get_row p src buf = Error e) \/ exists ss rest, rowreads p src ss rest /\ length ss = (spp (s_fmt src) * Z.to_nat (s_w src))%nat /\ Forall (fun s => 0 <= s <= maxj p) ss /\ bytes rest).
  { unfold get_row, rowreads. fold (istext (s_fmt src)). fold (dir p src). destruct (istext (s_fmt src)) eqn:Et.
    - assert (Er : s_raw src = false). { destruct (s_raw src) eqn:Er; [|reflexivity]. destruct Hs as (_ & _ & _ & _ & _ & _ & Hr & _). rewrite Er in Hr. destruct Hr as (Hr & _). congruence. }
      destruct (row_dich p src Hp Hs Er (Z.to_nat (s_w src)) 0 buf (s_file src) Hb (or_introl Et) ltac:(lia) ltac:(lia)) as [(e & ->)|(ss & l' & A & B & C & E)]; [left; exists e; reflexivity|].
      right. exists ss, l'. auto.
    - destruct (Nat.ltb_spec (length (s_file src)) (Z.to_nat (s_bw src))) as [K|K]; [left; eexists; reflexivity|].
      assert (Hio : bytes (firstn (Z.to_nat (s_bw src)) (s_file src)) /\ bytes (skipn (Z.to_nat (s_bw src)) (s_file src))).
      { unfold bytes in *. rewrite <- (firstn_skipn (Z.to_nat (s_bw src)) (s_file src)) in Hb. apply Forall_app in Hb. exact Hb. }
      assert (Li : length (firstn (Z.to_nat (s_bw src)) (s_file src)) = Z.to_nat (s_bw src)) by (apply firstn_length_le; exact K).
      pose proof (bw_len p src Hs Et) as Bw.
      destruct (s_raw src) eqn:Er.
      + right. exists (firstn (Z.to_nat (s_bw src)) (s_file src)), (skipn (Z.to_nat (s_bw src)) (s_file src)).
        split; [exists (firstn (Z.to_nat (s_bw src)) (s_file src)); split; [symmetry; apply firstn_skipn|]; split; [exact Li|reflexivity]|].
        pose proof Hs as (_ & _ & _ & _ & _ & _ & Hr & _). rewrite Er in Hr. destruct Hr as (_ & -> & Em & _).
        split; [rewrite Li, Bw; unfold unit_; rewrite Em; cbn; lia|]. split; [exact (proj1 Hio)|exact (proj2 Hio)].
      + destruct (row_dich p src Hp Hs Er (Z.to_nat (s_w src)) 0 buf (firstn (Z.to_nat (s_bw src)) (s_file src)) (proj1 Hio)) as [(e & ->)|(ss & l' & A & B & C & E)];
          [right; rewrite Li; lia|lia|lia|left; exists e; reflexivity|].
        right. exists ss, (skipn (Z.to_nat (s_bw src)) (s_file src)). split; [|split; [exact B|]; split; [exact C|exact (proj2 Hio)]].
        exists (firstn (Z.to_nat (s_bw src)) (s_file src)). split; [symmetry; apply firstn_skipn|]. split; [exact Li|]. exists l'. exact A. }
  destruct D as [D|(ss & rest & A & B & C & E)]; [left; exact D|]. right.
  destruct (get_row_fun p src buf ss rest Hp Hs Hl A B) as (b & E1 & L1 & Q). exists b, rest, ss. auto 10.
Qed.

(* ---- well-formed files ---- *)
Lemma scaled_id : forall p v, prec_ok p -> 0 <= v <= maxj p -> scaled p (maxj p) v = v.
Proof.
  intros p v Hp Hv. assert (HM : 255 <= maxj p) by (destruct (maxj_val p Hp) as [(_ & ->)|[(_ & ->)|(_ & ->)]]; lia).
  unfold scaled. destruct (Z.leb_spec v (maxj p)); [|lia]. set (M := maxj p) in *. clearbody M. symmetry. apply Z.div_unique with (r := M); lia.
Qed.

Lemma text_app : forall ns1 ns2 bs, text (ns1 ++ ns2) bs -> exists b1 b2, bs = b1 ++ b2 /\ text ns1 b1 /\ text ns2 b2.
Proof.
  induction ns1 as [|n ns1 IH]; intros ns2 bs T.
  - exists [], bs. split; [reflexivity|]. split; [constructor|exact T].
  - cbn [app] in T. inversion T as [|b1 ds b2 ns t A1 A2 A3 A4 E1 E2]; subst. destruct (IH ns2 t A4) as (c1 & c2 & -> & T1 & T2).
    exists (b1 ++ ds ++ b2 ++ c1), c2. split; [rewrite <- !app_assoc; reflexivity|]. split; [apply tx_cons; assumption|exact T2].
Qed.
Lemma body_app : forall fmt m ns1 ns2 bs, body fmt m (ns1 ++ ns2) bs -> exists b1 b2, bs = b1 ++ b2 /\ body fmt m ns1 b1 /\ body fmt m ns2 b2.
Proof.
  intros fmt m ns1 ns2 bs B. unfold body in *. destruct ((fmt =? 50) || (fmt =? 51)); [|destruct (m <=? 255)].
  - destruct B as (T & F). apply Forall_app in F. destruct F as (F1 & F2). destruct (text_app _ _ _ T) as (b1 & b2 & -> & T1 & T2). exists b1, b2. auto.
  - destruct B as (-> & F). apply Forall_app in F. destruct F as (F1 & F2). exists ns1, ns2. auto.
  - destruct B as (-> & F). apply Forall_app in F. destruct F as (F1 & F2). rewrite flat_map_app. eexists _, _. split; [reflexivity|]. auto.
Qed.

Lemma dir_val : forall p src, prec_ok p -> dir p src = true -> s_maxval src = maxj p.
Proof. intros p src Hp K. unfold dir in K. apply andb_true_iff in K. apply Z.eqb_eq, K. Qed.

Lemma body_reads : forall p src, prec_ok p -> src_ok p src -> s_raw src = false -> forall ns bs rest, body (s_fmt src) (s_maxval src) ns bs ->
  reads p src (dir p src) (bs ++ rest) (map (scaled p (s_maxval src)) ns) rest.
Proof.
  intros p src Hp (Hf & _ & _ & Hm & _ & _ & Hr & _) Er ns bs rest B. rewrite Er in Hr. unfold body in B.
  assert (HM : 255 <= maxj p) by (destruct (maxj_val p Hp) as [(_ & ->)|[(_ & ->)|(_ & ->)]]; lia).
  destruct ((s_fmt src =? 50) || (s_fmt src =? 51)) eqn:Et; [|destruct (s_maxval src <=? 255) eqn:Em].
  - destruct B as (T & F). induction T as [|b1 ds b2 ns t A1 A2 A3 A4 IH]; [constructor|]. inversion F as [|? ? F1 F2]; subst. cbn [map].
    eapply rd_cons; [|apply IH; exact F2]. unfold rd_sample, lookup. rewrite Et, Hr. rewrite <- !app_assoc. rewrite rpi_text by (auto; lia). cbn [bind].
    destruct (dir p src) eqn:Ed.
    + pose proof (dir_val p src Hp Ed) as E. cbn [bind]. rewrite jcast_id by (try exact Hp; lia). rewrite E, scaled_id by (try exact Hp; lia). reflexivity.
    + rewrite table_ok by (try exact Hp; lia). reflexivity.
  - destruct B as (-> & F). induction F as [|n ns F1 F2 IH]; [constructor|]. cbn [map app]. eapply rd_cons; [|exact IH].
    unfold rd_sample, lookup. rewrite Et, Hr, Em. destruct (dir p src) eqn:Ed.
    + pose proof (dir_val p src Hp Ed) as E. cbn [bind]. rewrite E, scaled_id by (try exact Hp; lia). reflexivity.
    + rewrite table_ok by (try exact Hp; lia). reflexivity.
  - destruct B as (-> & F). induction F as [|n ns F1 F2 IH]; [constructor|]. cbn [map app flat_map]. eapply rd_cons; [|exact IH].
    unfold rd_sample, lookup. rewrite Et, Hr, Em. apply Z.leb_gt in Em.
    assert (D : 0 <= n / 256 <= 255) by (split; [apply Z.div_pos; lia|apply Z.lt_succ_r, Z.div_lt_upper_bound; lia]).
    pose proof (Z.mod_pos_bound n 256 ltac:(lia)) as D2. rewrite word_val by lia.
    replace (n / 256 * 256 + n mod 256) with n by (pose proof (Z.div_mod n 256 ltac:(lia)); lia).
    destruct (Z.ltb_spec (s_maxval src) n); [lia|]. rewrite table_ok by (try exact Hp; lia). reflexivity.
Qed.

Lemma body_len : forall fmt m ns bs, istext fmt = false -> body fmt m ns bs -> length bs = ((if (m <=? 255)%Z then 1 else 2) * length ns)%nat.
Proof.
  intros fmt m ns bs Et B. unfold body in B. fold (istext fmt) in B. rewrite Et in B. destruct (m <=? 255); destruct B as (-> & _); [lia|].
  induction ns as [|n ns IH]; [reflexivity|]. cbn [flat_map app length]. lia.
Qed.

Lemma body_rowreads : forall p src ns bs rest, prec_ok p -> src_ok p src -> body (s_fmt src) (s_maxval src) ns bs -> s_file src = bs ++ rest ->
  length ns = (spp (s_fmt src) * Z.to_nat (s_w src))%nat -> rowreads p src (map (scaled p (s_maxval src)) ns) rest.
Proof.
  intros p src ns bs rest Hp Hs B Ef Hl. unfold rowreads. destruct (istext (s_fmt src)) eqn:Et.
  - rewrite Ef. apply body_reads; auto. destruct (s_raw src) eqn:Er; [|reflexivity]. destruct Hs as (_ & _ & _ & _ & _ & _ & Hr & _). rewrite Er in Hr. destruct Hr as (Hr & _). congruence.
  - exists bs. split; [exact Ef|]. split; [rewrite (body_len _ _ _ _ Et B), (bw_len p src Hs Et), Hl; reflexivity|].
    destruct (s_raw src) eqn:Er.
    + pose proof Hs as (_ & _ & _ & _ & _ & _ & Hr & _). rewrite Er in Hr. destruct Hr as (_ & -> & Em & _). unfold body in B. fold (istext (s_fmt src)) in B. rewrite Et, Em in B.
      cbn [Z.leb Z.compare Pos.compare Pos.compare_cont] in B. destruct B as (-> & F). rewrite Em. change 255 with (maxj 8). clear -F Hp. induction F as [|n ns F1 F2 IH]; [reflexivity|].
      cbn [map]. rewrite scaled_id by (try exact Hp; change (maxj 8) with 255; lia). f_equal. exact IH.
    + exists []. rewrite <- (app_nil_r bs). apply body_reads; auto.
Qed.

(* n rows *)
Lemma skipn_skipn : forall (a b : nat) (l : list Z), skipn a (skipn b l) = skipn (a + b) l.
Proof. intros a b. induction b as [|b IH]; intros l; [rewrite Nat.add_0_r; reflexivity|]. rewrite Nat.add_succ_r. destruct l; [rewrite !skipn_nil; reflexivity|]. cbn [skipn]. apply IH. Qed.
Lemma get_rows_fun : forall p n src buf ns bs rest, prec_ok p -> src_ok p src -> Z.of_nat (length buf) = s_w src * s_comps src ->
  body (s_fmt src) (s_maxval src) ns bs -> s_file src = bs ++ rest -> length ns = (n * (spp (s_fmt src) * Z.to_nat (s_w src)))%nat ->
  exists rows, get_rows p n src buf = Ret (rows, set_file src rest) /\ length rows = n /\
    forall y i, (y < n)%nat -> (i < Z.to_nat (s_w src))%nat ->
      holds p (s_cs src) (nth y rows []) i (pix (spp (s_fmt src)) (map (scaled p (s_maxval src)) (skipn (y * (spp (s_fmt src) * Z.to_nat (s_w src))) ns)) i).
Proof.
  intros p. induction n as [|n IH]; intros src buf ns bs rest Hp Hs Hl B Ef Hn.
  - cbn [get_rows]. destruct ns; [|discriminate Hn]. exists []. assert (bs = []).
    { unfold body in B. destruct ((s_fmt src =? 50) || (s_fmt src =? 51)); [|destruct (s_maxval src <=? 255)]; destruct B as (B & _); [inversion B; reflexivity|exact B|exact B]. }
    subst bs. cbn [app] in Ef. split; [|split; [reflexivity|lia]]. rewrite <- Ef. destruct src; reflexivity.
  - set (rl := (spp (s_fmt src) * Z.to_nat (s_w src))%nat) in *. cbn [get_rows].
    rewrite <- (firstn_skipn rl ns) in B. destruct (body_app _ _ _ _ _ B) as (b1 & b2 & -> & B1 & B2).
    assert (L1 : length (firstn rl ns) = rl) by (apply firstn_length_le; lia).
    rewrite <- app_assoc in Ef. pose proof (body_rowreads p src (firstn rl ns) b1 (b2 ++ rest) Hp Hs B1 Ef L1) as R.
    destruct (get_row_fun p src buf _ _ Hp Hs Hl R) as (row & E & Lr & Q); [rewrite map_length; exact L1|]. rewrite E. cbn [bind].
    destruct (IH (set_file src (b2 ++ rest)) row (skipn rl ns) b2 rest Hp Hs Lr B2 eq_refl) as (rows & E2 & Ln & Q2).
    { rewrite skipn_length. cbn [s_fmt s_w set_file]. fold rl. lia. }
    rewrite E2. cbn [bind]. exists (row :: rows). split; [reflexivity|]. split; [cbn; lia|].
    intros [|y] i Hy Hi.
    + cbn [nth Nat.mul skipn]. specialize (Q i Hi).
      assert (Ep : pix (spp (s_fmt src)) (map (scaled p (s_maxval src)) (firstn rl ns)) i = pix (spp (s_fmt src)) (map (scaled p (s_maxval src)) ns) i).
      { assert (Nn : forall k, (k < rl)%nat -> nth k (map (scaled p (s_maxval src)) (firstn rl ns)) 0 = nth k (map (scaled p (s_maxval src)) ns) 0).
        { intros k Hk. rewrite <- (firstn_skipn rl ns) at 2. rewrite map_app, app_nth1 by (rewrite map_length, L1; exact Hk). reflexivity. }
        assert (Hrl : (spp (s_fmt src) = 1 /\ rl = Z.to_nat (s_w src) \/ spp (s_fmt src) = 3 /\ rl = 3 * Z.to_nat (s_w src))%nat) by (unfold rl, spp; destruct ((s_fmt src =? 51) || (s_fmt src =? 54)); lia).
        clearbody rl. destruct Hrl as [(-> & ->)|(-> & ->)]; unfold pix; cbn [Nat.eqb]; rewrite !Nn by lia; reflexivity. }
      rewrite <- Ep. exact Q.
    + cbn [nth]. specialize (Q2 y i ltac:(lia)). cbn [set_file s_fmt s_w s_cs s_maxval] in Q2. specialize (Q2 Hi).
      fold rl in Q2. rewrite skipn_skipn in Q2. replace (S y * rl)%nat with (y * rl + rl)%nat by lia. exact Q2.
Qed.
