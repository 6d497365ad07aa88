(* P_Pnm.v -- proofs about the PNM reader *)
From Verif Require Import Base M_Pnm S_Pnm.

Definition gb (b : rowbuf) (i : Z) : option (option Z) := nth_error b (Z.to_nat i).
Notation zlen b := (Z.of_nat (length b)).

Lemma set_ok : forall (b : rowbuf) i x, 0 <= i < zlen b ->
  exists b', aset b i (Some x) = Ret b' /\ length b' = length b /\ gb b' i = Some (Some x) /\ forall j, 0 <= j -> j <> i -> gb b' j = gb b j.
Proof.
  intros b i x Hi. exists (upd b (Z.to_nat i) (Some x)). unfold aset.
  destruct (Z.ltb_spec i 0); [lia|]. destruct (Z.leb_spec (zlen b) i); [lia|]. cbn [orb]. split; [reflexivity|]. split; [apply length_upd|].
  unfold gb. split; [apply nth_error_upd_eq; lia|]. intros j Hj Ne. apply nth_error_upd_neq. lia.
Qed.

Definition layout (cs ri gi bi ai ps : Z) : Prop :=
  aget t_red cs = Ret ri /\ aget t_green cs = Ret gi /\ aget t_blue cs = Ret bi /\ aget t_alpha cs = Ret ai /\ aget t_psize cs = Ret ps /\
  3 <= ps <= 4 /\ 0 <= ri < ps /\ 0 <= gi < ps /\ 0 <= bi < ps /\ ri <> gi /\ ri <> bi /\ gi <> bi /\ ai < ps /\ ai <> ri /\ ai <> gi /\ ai <> bi.
Lemma layout_ex : forall cs, IsExtRGB cs = true -> exists ri gi bi ai ps, layout cs ri gi bi ai ps.
Proof.
  intros cs K. unfold IsExtRGB in K. apply orb_true_iff in K. rewrite andb_true_iff in K. rewrite Z.eqb_eq, Z.leb_le, Z.leb_le in K.
  assert (C : cs = 2 \/ cs = 6 \/ cs = 7 \/ cs = 8 \/ cs = 9 \/ cs = 10 \/ cs = 11 \/ cs = 12 \/ cs = 13 \/ cs = 14 \/ cs = 15).
  { destruct K as [K|K]; [left; exact K|lia]. }
  unfold layout.
  repeat (destruct C as [->|C]; [do 5 eexists; cbn; repeat (split; [reflexivity|]); lia|]). subst cs.
  do 5 eexists; cbn; repeat (split; [reflexivity|]); lia.
Qed.
Lemma ext_ne : forall cs, IsExtRGB cs = true -> cs <> JCS_GRAYSCALE /\ cs <> JCS_CMYK.
Proof. intros cs K. unfold IsExtRGB, JCS_RGB, JCS_GRAYSCALE, JCS_CMYK in *. destruct (Z.eqb_spec cs 2); [lia|]. cbn [orb] in K. apply andb_true_iff in K. rewrite !Z.leb_le in K. lia. Qed.

(* pixel at offset ptr *)
Definition hat (p cs ptr : Z) (row : rowbuf) (rgb : Z * Z * Z) : Prop :=
  let '(r, g, b) := rgb in
  if cs =? JCS_GRAYSCALE then gb row (ptr + 0) = Some (Some r)
  else if cs =? JCS_CMYK then
    let '(c, m, y, k) := rgb_to_cmyk (maxj p) r g b in
    gb row (ptr + 0) = Some (Some c) /\ gb row (ptr + 1) = Some (Some m) /\ gb row (ptr + 2) = Some (Some y) /\ gb row (ptr + 3) = Some (Some k)
  else exists ri gi bi ai ps, aget t_red cs = Ret ri /\ aget t_green cs = Ret gi /\ aget t_blue cs = Ret bi /\ aget t_alpha cs = Ret ai /\ aget t_psize cs = Ret ps /\
    gb row (ptr + ri) = Some (Some r) /\ gb row (ptr + gi) = Some (Some g) /\ gb row (ptr + bi) = Some (Some b) /\
    (0 <= ai -> gb row (ptr + ai) = Some (Some (maxj p))).

Definition comps_of (cs n : Z) : Prop :=
  (cs = JCS_GRAYSCALE /\ n = 1) \/ (cs = JCS_CMYK /\ n = 4) \/ (IsExtRGB cs = true /\ aget t_psize cs = Ret n).

Lemma hat_frame : forall p cs n ptr b b' rgb, comps_of cs n -> 0 <= ptr -> hat p cs ptr b rgb ->
  (forall j, ptr <= j < ptr + n -> gb b' j = gb b j) -> hat p cs ptr b' rgb.
Proof.
  intros p cs n ptr b b' [[r g] bl] Hc Hp Hh Hf. unfold hat in *. destruct Hc as [(-> & ->)|[(-> & ->)|(He & Hn)]].
  - cbn in *. rewrite Hf by lia. exact Hh.
  - cbn [Z.eqb JCS_CMYK JCS_GRAYSCALE Pos.eqb] in *. destruct (rgb_to_cmyk (maxj p) r g bl) as [[[c m] y] k]. rewrite !Hf by lia. exact Hh.
  - destruct (ext_ne cs He) as (N1 & N2). destruct (Z.eqb_spec cs JCS_GRAYSCALE); [contradiction|]. destruct (Z.eqb_spec cs JCS_CMYK); [contradiction|].
    destruct (layout_ex cs He) as (ri & gi & bi & ai & ps & L1 & L2 & L3 & L4 & L5 & L6). rewrite Hn in L5. injection L5 as ->.
    destruct Hh as (ri' & gi' & bi' & ai' & ps' & M1 & M2 & M3 & M4 & M5 & M6 & M7 & M8 & M9).
    rewrite L1 in M1. rewrite L2 in M2. rewrite L3 in M3. rewrite L4 in M4. injection M1 as <-. injection M2 as <-. injection M3 as <-. injection M4 as <-.
    exists ri, gi, bi, ai, ps'. split; [exact L1|]. split; [exact L2|]. split; [exact L3|]. split; [exact L4|]. split; [exact M5|].
    rewrite !Hf by lia. split; [exact M6|]. split; [exact M7|]. split; [exact M8|]. intros K. rewrite Hf by lia. exact (M9 K).
Qed.

Lemma put_ok : forall p cs n ptr r g bl b, comps_of cs n -> 0 <= ptr -> ptr + n <= zlen b ->
  exists b', put_pixel p cs ptr r g bl b = Ret b' /\ length b' = length b /\ hat p cs ptr b' (r, g, bl) /\
    forall j, 0 <= j -> ~ (ptr <= j < ptr + n) -> gb b' j = gb b j.
Proof.
  intros p cs n ptr r g bl b Hc Hp Hl. unfold put_pixel, hat. destruct Hc as [(-> & ->)|[(-> & ->)|(He & Hn)]].
  - rewrite Z.eqb_refl. destruct (set_ok b ptr r) as (b' & E & L & G & F); [lia|]. exists b'. split; [exact E|]. split; [exact L|].
    split; [rewrite Z.add_0_r; exact G|]. intros j H1 H2. apply F; lia.
  - cbn [Z.eqb JCS_CMYK JCS_GRAYSCALE Pos.eqb]. destruct (rgb_to_cmyk (maxj p) r g bl) as [[[c m] y] k].
    destruct (set_ok b ptr c) as (b1 & E1 & L1 & G1 & F1); [lia|]. rewrite E1. cbn [bind].
    destruct (set_ok b1 (ptr + 1) m) as (b2 & E2 & L2 & G2 & F2); [lia|]. rewrite E2. cbn [bind].
    destruct (set_ok b2 (ptr + 2) y) as (b3 & E3 & L3 & G3 & F3); [lia|]. rewrite E3. cbn [bind].
    destruct (set_ok b3 (ptr + 3) k) as (b4 & E4 & L4 & G4 & F4); [lia|]. exists b4. split; [exact E4|]. split; [lia|]. split.
    + rewrite Z.add_0_r. rewrite (F4 ptr), (F3 ptr), (F2 ptr) by lia. rewrite (F4 (ptr + 1)), (F3 (ptr + 1)) by lia. rewrite (F4 (ptr + 2)) by lia. auto.
    + intros j H1 H2. rewrite F4, F3, F2, F1 by lia. reflexivity.
  - destruct (ext_ne cs He) as (N1 & N2). destruct (Z.eqb_spec cs JCS_GRAYSCALE); [contradiction|]. destruct (Z.eqb_spec cs JCS_CMYK); [contradiction|].
    destruct (layout_ex cs He) as (ri & gi & bi & ai & ps & L1 & L2 & L3 & L4 & L5 & Q1 & Q2 & Q3 & Q4 & Q5 & Q6 & Q7 & Q8 & Q9 & Q10 & Q11).
    assert (ps = n) by congruence. subst ps. rewrite L1, L2, L3, L4. cbn [bind].
    destruct (set_ok b (ptr + ri) r) as (b1 & E1 & M1 & G1 & F1); [lia|]. rewrite E1. cbn [bind].
    destruct (set_ok b1 (ptr + gi) g) as (b2 & E2 & M2 & G2 & F2); [lia|]. rewrite E2. cbn [bind].
    destruct (set_ok b2 (ptr + bi) bl) as (b3 & E3 & M3 & G3 & F3); [lia|]. rewrite E3. cbn [bind].
    assert (G1' : gb b3 (ptr + ri) = Some (Some r)) by (rewrite F3, F2 by lia; exact G1).
    assert (G2' : gb b3 (ptr + gi) = Some (Some g)) by (rewrite F3 by lia; exact G2).
    destruct (Z.leb_spec 0 ai).
    + destruct (set_ok b3 (ptr + ai) (maxj p)) as (b4 & E4 & M4 & G4 & F4); [lia|]. exists b4. split; [exact E4|]. split; [lia|]. split.
      * exists ri, gi, bi, ai, n. rewrite (F4 (ptr + ri)), (F4 (ptr + gi)), (F4 (ptr + bi)) by lia. auto 20.
      * intros j H1 H2. rewrite F4, F3, F2, F1 by lia. reflexivity.
    + exists b3. split; [reflexivity|]. split; [lia|]. split.
      * exists ri, gi, bi, ai, n. split; [reflexivity|]. split; [reflexivity|]. split; [reflexivity|]. split; [reflexivity|]. split; [exact L5|].
        split; [exact G1'|]. split; [exact G2'|]. split; [exact G3|]. lia.
      * intros j H1 H2. rewrite F3, F2, F1 by lia. reflexivity.
Qed.

(* ---- scaling ---- *)
Lemma maxj_val : forall p, prec_ok p -> (p = 8 /\ maxj p = 255) \/ (p = 12 /\ maxj p = 4095) \/ (p = 16 /\ maxj p = 65535).
Proof. intros p [->|[->| ->]]; [left|right; left|right; right]; split; reflexivity. Qed.
Lemma jcast_id : forall p v, prec_ok p -> 0 <= v <= maxj p -> jcast p v = v.
Proof.
  intros p v Hp Hv. destruct (maxj_val p Hp) as [(-> & E)|[(-> & E)|(-> & E)]]; rewrite E in Hv; unfold jcast, u8, s16, u16.
  - change (8 =? 8) with true. cbv iota. apply Z.mod_small. change (2 ^ 8) with 256. lia.
  - change (12 =? 8) with false. change (12 =? 12) with true. cbv iota. rewrite Z.mod_small by (change (2 ^ 16) with 65536; change (2 ^ 15) with 32768; lia). lia.
  - change (16 =? 8) with false. change (16 =? 12) with false. cbv iota. apply Z.mod_small. change (2 ^ 16) with 65536. lia.
Qed.
Lemma scaled_range : forall p m v, prec_ok p -> 1 <= m -> 0 <= v -> 0 <= scaled p m v <= maxj p.
Proof.
  intros p m v Hp Hm Hv. assert (HM : 255 <= maxj p) by (destruct (maxj_val p Hp) as [(_ & ->)|[(_ & ->)|(_ & ->)]]; lia).
  unfold scaled. destruct (Z.leb_spec v m); [|lia]. set (M := maxj p) in *. clearbody M. split.
  - apply Z.div_pos; nia.
  - apply Z.lt_succ_r. apply Z.div_lt_upper_bound; [lia|]. assert (v * M <= m * M) by nia. nia.
Qed.
Lemma half_round : forall x m, 1 <= m -> 0 <= x -> (x + m / 2) / m = (2 * x + m) / (2 * m).
Proof.
  intros x m Hm Hx. pose proof (Z.div_mod (x + m / 2) m ltac:(lia)) as D. pose proof (Z.mod_pos_bound (x + m / 2) m ltac:(lia)) as B.
  pose proof (Z.div_mod m 2 ltac:(lia)) as D2. pose proof (Z.mod_pos_bound m 2 ltac:(lia)) as B2.
  set (q := (x + m / 2) / m) in *. set (h := m / 2) in *. set (r := (x + h) mod m) in *. set (e := m mod 2) in *. clearbody q h r e.
  apply Z.div_unique with (r := 2 * r + e); lia.
Qed.
Lemma table_ok : forall p m v, prec_ok p -> 1 <= m -> 0 <= v <= Z.max m 255 -> aget (rescale_table p m) v = Ret (scaled p m v).
Proof.
  intros p m v Hp Hm Hv. unfold aget. destruct (Z.ltb_spec v 0); [lia|].
  unfold rescale_table. rewrite nth_error_map, (nth_error_nth' _ 0%nat) by (rewrite seq_length; lia). rewrite seq_nth by lia. cbn [option_map].
  rewrite Nat.add_0_l, Z2Nat.id by lia. f_equal. unfold scaled. pose proof (scaled_range p m v Hp Hm ltac:(lia)) as R. unfold scaled in R.
  destruct (Z.leb_spec v m); [|reflexivity].
  assert (0 <= maxj p) by lia. rewrite half_round by nia. apply jcast_id; [exact Hp|exact R].
Qed.

(* ---- integers ---- *)
Lemma skip_comment_len : forall l ch l', skip_comment l = (Some ch, l') -> (length l' < length l)%nat /\ (bytes l -> bytes l').
Proof.
  induction l as [|x l IH]; intros ch l' E; cbn [skip_comment] in E; [discriminate E|]. destruct (x =? 10).
  - injection E as _ ->. cbn [length]. split; [lia|]. intros B. inversion B; assumption.
  - destruct (IH _ _ E) as (A & B). cbn [length]. split; [lia|]. intros C. apply B. inversion C; assumption.
Qed.
Lemma skip_comment_eof : forall l l', skip_comment l = (None, l') -> l' = [].
Proof. induction l as [|x l IH]; intros l' E; cbn [skip_comment] in E; [injection E; auto|]. destruct (x =? 10); [discriminate E|auto]. Qed.
Lemma getc_len : forall l ch l', pbm_getc l = (Some ch, l') -> (length l' < length l)%nat /\ (bytes l -> bytes l').
Proof.
  intros [|x l] ch l' E; cbn [pbm_getc] in E; [discriminate E|]. destruct (x =? 35).
  - destruct (skip_comment_len _ _ _ E) as (A & B). cbn [length]. split; [lia|]. intros C. apply B. inversion C; assumption.
  - injection E as _ ->. cbn [length]. split; [lia|]. intros B. inversion B; assumption.
Qed.
Lemma getc_eof : forall l l', pbm_getc l = (None, l') -> l' = [].
Proof. intros [|x l] l' E; cbn [pbm_getc] in E; [injection E; auto|]. destruct (x =? 35); [exact (skip_comment_eof _ _ E)|discriminate E]. Qed.

Lemma rpi_skip_safe : forall fuel l, (length l < fuel)%nat -> bytes l ->
  (exists e, rpi_skip fuel l = Error e) \/ exists ch l', rpi_skip fuel l = Ret (ch, l') /\ (length l' < length l)%nat /\ bytes l'.
Proof.
  induction fuel as [|fuel IH]; intros l Hf Hb; [lia|]. cbn [rpi_skip]. destruct (pbm_getc l) as [[ch|] l'] eqn:E; [|left; eexists; reflexivity].
  destruct (getc_len _ _ _ E) as (A & B). destruct (is_ws ch).
  - destruct (IH l' ltac:(lia) (B Hb)) as [(e & X)|(c & l2 & X & Y & Z)]; [left; exists e; exact X|right; exists c, l2; split; [exact X|]; split; [lia|exact Z]].
  - right. exists ch, l'. auto.
Qed.
Lemma rpi_digits_safe : forall maxval fuel val l, (length l < fuel)%nat -> bytes l -> 0 <= val <= Z.max 9 maxval -> maxval <= 65535 ->
  (exists e, rpi_digits fuel maxval val l = Error e) \/
  exists v l', rpi_digits fuel maxval val l = Ret (v, l') /\ 0 <= v <= Z.max 9 maxval /\ (length l' <= length l)%nat /\ bytes l'.
Proof.
  intros maxval. induction fuel as [|fuel IH]; intros val l Hf Hb Hv Hm; [lia|]. cbn [rpi_digits]. destruct (pbm_getc l) as [[ch|] l'] eqn:E.
  - destruct (getc_len _ _ _ E) as (A & B). destruct (is_digit ch) eqn:D.
    + unfold is_digit in D. apply andb_true_iff in D. rewrite !Z.leb_le in D.
      set (w := u32 (u32 (val * 10) + (ch - 48))). assert (Hw : 0 <= w) by (unfold w, u32; apply Z.mod_pos_bound; reflexivity).
      destruct (Z.ltb_spec maxval w); [left; eexists; reflexivity|].
      destruct (IH w l' ltac:(lia) (B Hb) ltac:(lia) Hm) as [(e & X)|(v & l2 & X & Y & Z & W)]; [left; exists e; exact X|].
      right. exists v, l2. split; [exact X|]. split; [exact Y|]. split; [lia|exact W].
    + right. exists val, l'. split; [reflexivity|]. split; [exact Hv|]. split; [lia|exact (B Hb)].
  - right. exists val, l'. split; [reflexivity|]. split; [exact Hv|]. rewrite (getc_eof _ _ E). split; [cbn; lia|constructor].
Qed.
Lemma rpi_safe : forall maxval l, bytes l -> maxval <= 65535 ->
  (exists e, read_pbm_integer maxval l = Error e) \/
  exists v l', read_pbm_integer maxval l = Ret (v, l') /\ 0 <= v <= Z.max 9 maxval /\ (length l' < length l)%nat /\ bytes l'.
Proof.
  intros maxval l Hb Hm. unfold read_pbm_integer. destruct (rpi_skip_safe (S (length l)) l ltac:(lia) Hb) as [(e & ->)|(ch & l' & -> & A & B)]; [left; exists e; reflexivity|].
  cbn [bind]. destruct (is_digit ch) eqn:D; cbn [negb]; [|left; eexists; reflexivity].
  unfold is_digit in D. apply andb_true_iff in D. rewrite !Z.leb_le in D.
  destruct (rpi_digits_safe maxval (S (length l')) (ch - 48) l' ltac:(lia) B ltac:(lia) Hm) as [(e & ->)|(v & l2 & -> & Y & Z & W)]; [left; exists e; reflexivity|].
  right. exists v, l2. split; [reflexivity|]. split; [exact Y|]. split; [lia|exact W].
Qed.

(* text tokens *)
Lemma skip_comment_text : forall t rest, Forall (fun ch => ch <> 10) t -> skip_comment (t ++ [10] ++ rest) = (Some 10, rest).
Proof. induction t as [|x t IH]; intros rest F; cbn [app skip_comment]; [reflexivity|]. inversion F as [|? ? Hx Ht]; subst. destruct (Z.eqb_spec x 10); [contradiction|]. apply IH, Ht. Qed.
Lemma getc_blank : forall b rest, blank b -> exists ch, pbm_getc (b ++ rest) = (Some ch, rest) /\ is_ws ch = true /\ is_digit ch = false.
Proof.
  intros b rest [ch Hc|t Ht].
  - exists ch. cbn [app pbm_getc]. cbn [In] in Hc. destruct Hc as [<-|[<-|[<-|[<-|[]]]]]; (split; [reflexivity|split; reflexivity]).
  - exists 10. cbn [app pbm_getc]. change (35 =? 35) with true. cbv iota. rewrite <- app_assoc, (skip_comment_text t rest Ht). split; [reflexivity|split; reflexivity].
Qed.
Lemma blank_len : forall b, blank b -> (1 <= length b)%nat.
Proof. intros b [ch Hc|t Ht]; cbn [length app]; lia. Qed.
Lemma rpi_skip_blanks : forall b, blanks b -> forall fuel d rest, (length (b ++ d :: rest) < fuel)%nat -> 48 <= d <= 57 ->
  rpi_skip fuel (b ++ d :: rest) = Ret (d, rest).
Proof.
  intros b Hb. induction Hb as [|a b Ha Hb IH]; intros fuel d rest Hf Hd; (destruct fuel as [|fuel]; [lia|]); cbn [rpi_skip].
  - cbn [app pbm_getc]. destruct (Z.eqb_spec d 35); [lia|]. unfold is_ws.
    destruct (Z.eqb_spec d 32); [lia|]. destruct (Z.eqb_spec d 9); [lia|]. destruct (Z.eqb_spec d 10); [lia|]. destruct (Z.eqb_spec d 13); [lia|]. reflexivity.
  - rewrite <- app_assoc. destruct (getc_blank a (b ++ d :: rest) Ha) as (ch & -> & -> & _). apply IH; [|exact Hd].
    rewrite <- app_assoc, app_length in Hf. pose proof (blank_len a Ha). lia.
Qed.
Lemma value_mono : forall ds a, Forall (fun d => 48 <= d <= 57) ds -> 0 <= a -> a <= fold_left (fun a d => 10 * a + (d - 48)) ds a.
Proof. induction ds as [|d ds IH]; intros a F Ha; cbn [fold_left]; [lia|]. inversion F as [|? ? Hd Hds]; subst. specialize (IH (10 * a + (d - 48)) Hds ltac:(lia)). lia. Qed.
Lemma rpi_digits_text : forall maxval b rest, blank b -> maxval <= 65535 -> forall ds, Forall (fun d => 48 <= d <= 57) ds -> forall fuel a, 0 <= a ->
  (length (ds ++ b ++ rest) < fuel)%nat -> fold_left (fun a d => 10 * a + (d - 48)) ds a <= maxval ->
  rpi_digits fuel maxval a (ds ++ b ++ rest) = Ret (fold_left (fun a d => 10 * a + (d - 48)) ds a, rest).
Proof.
  intros maxval b rest Hb Hm. induction ds as [|d ds IH]; intros F fuel a Ha Hf Hv; (destruct fuel as [|fuel]; [lia|]); cbn [rpi_digits].
  - destruct (getc_blank b rest Hb) as (ch & E & _ & D). cbn [app fold_left]. rewrite E, D. reflexivity.
  - inversion F as [|? ? Hd Hds]; subst. cbn [app pbm_getc fold_left] in *. destruct (Z.eqb_spec d 35); [lia|].
    unfold is_digit. destruct (Z.leb_spec 48 d); [|lia]. destruct (Z.leb_spec d 57); [|lia]. cbn [andb].
    pose proof (value_mono ds (10 * a + (d - 48)) Hds ltac:(lia)) as Mo.
    assert (E : u32 (u32 (a * 10) + (d - 48)) = 10 * a + (d - 48)).
    { unfold u32. rewrite (Z.mod_small (a * 10)) by (change (2 ^ 32) with 4294967296; lia). rewrite Z.mod_small by (change (2 ^ 32) with 4294967296; lia). lia. }
    rewrite E. destruct (Z.ltb_spec maxval (10 * a + (d - 48))); [lia|]. apply IH; [exact Hds|lia| |exact Hv]. cbn [length] in Hf. lia.
Qed.
Lemma rpi_text : forall maxval b1 ds b2 rest, blanks b1 -> digits ds -> blank b2 -> maxval <= 65535 -> value ds <= maxval ->
  read_pbm_integer maxval (b1 ++ ds ++ b2 ++ rest) = Ret (value ds, rest).
Proof.
  intros maxval b1 ds b2 rest H1 (Hn & Hd) H2 Hm Hv. unfold read_pbm_integer. destruct ds as [|d ds]; [contradiction|].
  inversion Hd as [|? ? Hd1 Hds]; subst. cbn [app] in *. rewrite (rpi_skip_blanks b1 H1) by (try lia; exact Hd1). cbn [bind].
  unfold is_digit. destruct (Z.leb_spec 48 d); [|lia]. destruct (Z.leb_spec d 57); [|lia]. cbn [andb negb].
  unfold value in *. cbn [fold_left] in *. replace (10 * 0 + (d - 48)) with (d - 48) in * by lia.
  apply rpi_digits_text; [exact H2|exact Hm|exact Hds|lia|lia|exact Hv].
Qed.
