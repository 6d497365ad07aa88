(* P_Bmp5.v -- proofs about the BMP reader: rows *)
From Verif Require Import Base M_Pnm S_Pnm P_Pnm P_Pnm2 P_Pnm3 P_Pnm4 M_Bmp S_Bmp P_Bmp P_Bmp2 P_Bmp3 P_Bmp4.

(* pixel at offset ptr *)
Definition pat (cs ptr : Z) (row : rowbuf) (px : Z * Z * Z * Z) : Prop :=
  let '(r, g, b, a) := px in
  if cs =? JCS_GRAYSCALE then gb row (ptr + 0) = Some (Some r)
  else if cs =? JCS_CMYK then
    let '(c, m, y, k) := rgb_to_cmyk 255 r g b in
    gb row (ptr + 0) = Some (Some c) /\ gb row (ptr + 1) = Some (Some m) /\ gb row (ptr + 2) = Some (Some y) /\ gb row (ptr + 3) = Some (Some k)
  else exists ri gi bi ai ps, aget t_red cs = Ret ri /\ aget t_green cs = Ret gi /\ aget t_blue cs = Ret bi /\ aget t_alpha cs = Ret ai /\ aget t_psize cs = Ret ps /\
    gb row (ptr + ri) = Some (Some r) /\ gb row (ptr + gi) = Some (Some g) /\ gb row (ptr + bi) = Some (Some b) /\
    (0 <= ai -> gb row (ptr + ai) = Some (Some a)).

Lemma pat_frame : forall cs n ptr b b' rgb, comps_of cs n -> 0 <= ptr -> pat cs ptr b rgb ->
  (forall j, ptr <= j < ptr + n -> gb b' j = gb b j) -> pat cs ptr b' rgb.
Proof.
  intros cs n ptr b b' [[[r g] bl] a] Hc Hp Hh Hf. unfold pat in *. destruct Hc as [(-> & ->)|[(-> & ->)|(He & Hn)]].
  - cbn in *. rewrite Hf by lia. exact Hh.
  - cbn [Z.eqb JCS_CMYK JCS_GRAYSCALE Pos.eqb] in *. destruct (rgb_to_cmyk 255 r g bl) as [[[c m] y] k]. rewrite !Hf by lia. exact Hh.
  - destruct (ext_ne cs He) as (N1 & N2). destruct (Z.eqb_spec cs JCS_GRAYSCALE); [contradiction|]. destruct (Z.eqb_spec cs JCS_CMYK); [contradiction|].
    destruct (layout_ex cs He) as (ri & gi & bi & ai & ps & L1 & L2 & L3 & L4 & L5 & L6). rewrite Hn in L5. injection L5 as ->.
    destruct Hh as (ri' & gi' & bi' & ai' & ps' & M1 & M2 & M3 & M4 & M5 & M6 & M7 & M8 & M9).
    rewrite L1 in M1. rewrite L2 in M2. rewrite L3 in M3. rewrite L4 in M4. injection M1 as <-. injection M2 as <-. injection M3 as <-. injection M4 as <-.
    exists ri, gi, bi, ai, ps'. split; [exact L1|]. split; [exact L2|]. split; [exact L3|]. split; [exact L4|]. split; [exact M5|].
    rewrite !Hf by lia. split; [exact M6|]. split; [exact M7|]. split; [exact M8|]. intros K. rewrite Hf by lia. exact (M9 K).
Qed.

Lemma px_ok : forall cs n ptr r g bl a b, comps_of cs n -> 0 <= ptr -> ptr + n <= zlen b ->
  exists b', put_px cs ptr r g bl a b = Ret b' /\ length b' = length b /\ pat cs ptr b' (r, g, bl, a) /\
    forall j, 0 <= j -> ~ (ptr <= j < ptr + n) -> gb b' j = gb b j.
Proof.
  intros cs n ptr r g bl a b Hc Hp Hl. unfold put_px, pat. destruct Hc as [(-> & ->)|[(-> & ->)|(He & Hn)]].
  - rewrite Z.eqb_refl. destruct (set_ok b ptr r) as (b' & E & L & G & F); [lia|]. exists b'. split; [exact E|]. split; [exact L|].
    split; [rewrite Z.add_0_r; exact G|]. intros j H1 H2. apply F; lia.
  - cbn [Z.eqb JCS_CMYK JCS_GRAYSCALE Pos.eqb]. destruct (rgb_to_cmyk 255 r g bl) as [[[c m] y] k].
    destruct (set_ok b ptr c) as (b1 & E1 & L1 & G1 & F1); [lia|]. rewrite E1. cbn [bind].
    destruct (set_ok b1 (ptr + 1) m) as (b2 & E2 & L2 & G2 & F2); [lia|]. rewrite E2. cbn [bind].
    destruct (set_ok b2 (ptr + 2) y) as (b3 & E3 & L3 & G3 & F3); [lia|]. rewrite E3. cbn [bind].
    destruct (set_ok b3 (ptr + 3) k) as (b4 & E4 & L4 & G4 & F4); [lia|]. exists b4. split; [exact E4|]. split; [lia|]. split.
    + rewrite Z.add_0_r. rewrite (F4 ptr), (F3 ptr), (F2 ptr) by lia. rewrite (F4 (ptr + 1)), (F3 (ptr + 1)) by lia. rewrite (F4 (ptr + 2)) by lia. auto.
    + intros j H1 H2. rewrite F4, F3, F2, F1 by lia. reflexivity.
  - destruct (ext_ne cs He) as (N1 & N2). destruct (Z.eqb_spec cs JCS_GRAYSCALE); [contradiction|]. destruct (Z.eqb_spec cs JCS_CMYK); [contradiction|].
    destruct (layout_ex cs He) as (ri & gi & bi & ai & ps & L1 & L2 & L3 & L4 & L5 & Q1 & Q2 & Q3 & Q4 & Q5 & Q6 & Q7 & Q8 & Q9 & Q10 & Q11).
    assert (ps = n) by congruence. subst ps. rewrite L1, L2, L3, L4. cbn [bind].
    destruct (set_ok b (ptr + ri) r) as (b1 & E1 & M1 & G1 & F1); [lia|]. rewrite E1. cbn [bind].
    destruct (set_ok b1 (ptr + gi) g) as (b2 & E2 & M2 & G2 & F2); [lia|]. rewrite E2. cbn [bind].
    destruct (set_ok b2 (ptr + bi) bl) as (b3 & E3 & M3 & G3 & F3); [lia|]. rewrite E3. cbn [bind].
    assert (G1' : gb b3 (ptr + ri) = Some (Some r)) by (rewrite F3, F2 by lia; exact G1).
    assert (G2' : gb b3 (ptr + gi) = Some (Some g)) by (rewrite F3 by lia; exact G2).
    destruct (Z.leb_spec 0 ai).
    + destruct (set_ok b3 (ptr + ai) a) as (b4 & E4 & M4 & G4 & F4); [lia|]. exists b4. split; [exact E4|]. split; [lia|]. split.
      * exists ri, gi, bi, ai, n. rewrite (F4 (ptr + ri)), (F4 (ptr + gi)), (F4 (ptr + bi)) by lia. auto 20.
      * intros j H1 H2. rewrite F4, F3, F2, F1 by lia. reflexivity.
    + exists b3. split; [reflexivity|]. split; [lia|]. split.
      * exists ri, gi, bi, ai, n. split; [reflexivity|]. split; [reflexivity|]. split; [reflexivity|]. split; [reflexivity|]. split; [exact L5|].
        split; [exact G1'|]. split; [exact G2'|]. split; [exact G3|]. lia.
      * intros j H1 H2. rewrite F3, F2, F1 by lia. reflexivity.
Qed.


Lemma pat_shows : forall cs n row i px, comps_of cs n -> pat cs (i * n) row px -> shows cs row i px.
Proof.
  intros cs n row i [[[r g] b] a] Hc Hh. unfold pat, gb in Hh. unfold shows. cbv zeta. destruct Hc as [(-> & ->)|[(-> & ->)|(He & Hn)]].
  - cbn in *. exact Hh.
  - cbn [Z.eqb JCS_CMYK JCS_GRAYSCALE Pos.eqb] in *. exact Hh.
  - destruct (ext_ne cs He) as (N1 & N2). destruct (Z.eqb_spec cs JCS_GRAYSCALE); [contradiction|]. destruct (Z.eqb_spec cs JCS_CMYK); [contradiction|].
    destruct Hh as (ri & gi & bi & ai & ps & M1 & M2 & M3 & M4 & M5 & M6). assert (ps = n) by congruence. subst ps.
    exists ri, gi, bi, ai, n. split; [exact M1|]. split; [exact M2|]. split; [exact M3|]. split; [exact M4|]. split; [exact M5|]. exact M6.
Qed.

Lemma col_ok : forall src io, comps_of (b_cs src) (b_comps src) ->
  (forall c, 0 <= c < b_w src -> (exists e, fetch src io c = Error e) \/ exists px, fetch src io c = Ret px) ->
  forall n c buf, 0 <= c -> c + Z.of_nat n <= b_w src -> b_w src * b_comps src <= zlen buf ->
  (exists e c', c <= c' < b_w src /\ fetch src io c' = Error e /\ col_loop src io n c buf = Error e) \/
  exists b', col_loop src io n c buf = Ret b' /\ length b' = length buf /\
    (forall j, 0 <= j < c * b_comps src -> gb b' j = gb buf j) /\
    forall c', c <= c' < c + Z.of_nat n -> exists px, fetch src io c' = Ret px /\ pat (b_cs src) (c' * b_comps src) b' px.
Proof.
  intros src io Hc Hf. pose proof (comps_pos _ _ Hc) as Hp. induction n as [|n IH]; intros c buf H0 Hn Hl; cbn [col_loop].
  - right. exists buf. split; [reflexivity|]. split; [reflexivity|]. split; [reflexivity|]. intros c' K. lia.
  - destruct (Hf c ltac:(lia)) as [(e & E)|(px & E)]; rewrite E; cbn [bind].
    + left. exists e, c. split; [lia|]. split; [exact E|reflexivity].
    + destruct px as [[[r g] bl] a]. destruct (px_ok (b_cs src) (b_comps src) (c * b_comps src) r g bl a buf Hc ltac:(nia) ltac:(nia)) as (b1 & E1 & L1 & A1 & F1).
      rewrite E1. cbn [bind]. destruct (IH (c + 1) b1 ltac:(lia) ltac:(lia) ltac:(lia)) as [(e & c' & K & K1 & K2)|(b2 & E2 & L2 & F2 & A2)].
      * left. exists e, c'. split; [lia|]. split; assumption.
      * right. exists b2. split; [exact E2|]. split; [lia|]. split.
        { intros j Hj. rewrite F2, F1 by nia. reflexivity. }
        intros c' K. destruct (Z.eq_dec c' c) as [->|Ne]; [|apply A2; lia]. exists (r, g, bl, a). split; [exact E|].
        apply (pat_frame (b_cs src) (b_comps src) (c * b_comps src) b1 b2 _ Hc); [nia|exact A1|]. intros j Hj. apply F2. nia.
Qed.

Lemma fetch_cases : forall src io c, b_ok src -> zlen io = b_rw src -> bytes io -> 0 <= c < b_w src ->
  (exists e, fetch src io c = Error e) \/ exists px, fetch src io c = Ret px.
Proof.
  intros src io c H Hl Hb Hc. destruct H as (Hbpp & Hw & _ & Hco & Hwc & R8 & R24 & R32 & Hk & _). change (2 ^ 31) with 2147483648 in *. unfold fetch. destruct Hbpp as [E|[E|E]]; rewrite E in *.
  - cbn [Z.eqb Pos.eqb]. specialize (R8 eq_refl). rewrite (aget_nth _ _ 0) by lia. cbn [bind].
    destruct (Z.leb_spec (zlen (b_cmap src)) (nth (Z.to_nat c) io 0)); [left; eexists; reflexivity|].
    pose proof (byte_range io c Hb) as B. unfold byte in B. rewrite (aget_nth _ _ (0, 0, 0)) by lia. cbn [bind].
    destruct (nth (Z.to_nat (nth (Z.to_nat c) io 0)) (b_cmap src) (0, 0, 0)) as [[r g] b]. right. eexists. reflexivity.
  - cbn [Z.eqb Pos.eqb]. specialize (R24 eq_refl). specialize (Hk ltac:(lia)). assert (Q : b_w src * 3 <= b_w src * b_comps src) by (apply Z.mul_le_mono_nonneg_l; lia). pose proof (pad4_small (b_w src * 3) ltac:(lia)) as (_ & P).
    rewrite !(aget_nth _ _ 0) by lia. cbn [bind]. right. eexists. reflexivity.
  - cbn [Z.eqb Pos.eqb]. specialize (R32 eq_refl). specialize (Hk ltac:(lia)). assert (Q : b_w src * 3 <= b_w src * b_comps src) by (apply Z.mul_le_mono_nonneg_l; lia). pose proof (pad4_small (b_w src * 4) ltac:(lia)) as (_ & P).
    rewrite !(aget_nth _ _ 0) by lia. cbn [bind]. right. eexists. reflexivity.
Qed.

Lemma comps_eq : forall cs n, comps_of cs n -> components cs = n.
Proof.
  intros cs n [(-> & ->)|[(-> & ->)|(He & Hn)]]; [reflexivity|reflexivity|]. destruct (ext_comps cs He) as (E & _). congruence.
Qed.
Lemma room_comps : forall src, comps_of (b_cs src) (b_comps src) -> room (b_cs src) (b_w src) = (b_w src * b_comps src + 3) / 4 * 4.
Proof. intros src H. unfold room. rewrite (comps_eq _ _ H). reflexivity. Qed.
Lemma room_ge : forall src, comps_of (b_cs src) (b_comps src) -> b_w src * b_comps src <= room (b_cs src) (b_w src).
Proof.
  intros src H. rewrite (room_comps src H). pose proof (Z.div_mod (b_w src * b_comps src + 3) 4 ltac:(lia)). pose proof (Z.mod_pos_bound (b_w src * b_comps src + 3) 4 ltac:(lia)). lia.
Qed.

Lemma gb_copy : forall io buf j, 0 <= j < zlen io -> gb (map Some io ++ skipn (length io) buf) j = Some (Some (byte io j)).
Proof.
  intros io buf j Hj. unfold gb, byte. rewrite nth_error_app1 by (rewrite map_length; lia). rewrite nth_error_map, (nth_error_nth' io 0) by lia. reflexivity.
Qed.

Lemma expand_cases : forall src io buf, b_ok src -> zlen io = b_rw src -> bytes io -> room (b_cs src) (b_w src) <= zlen buf ->
  (exists e, expand_row src io buf = Error e /\ exists c e', 0 <= c < b_w src /\ fetch src io c = Error e') \/
  exists b', expand_row src io buf = Ret b' /\ length b' = length buf /\
    forall c, 0 <= c < b_w src -> exists px, fetch src io c = Ret px /\ shows (b_cs src) b' c px.
Proof.
  intros src io buf H Hl Hb Hr. pose proof H as HH. destruct HH as (Hbpp & Hw & _ & Hco & Hwc & R8 & R24 & R32 & Hk & Rn & Rcs). unfold expand_row.
  pose proof (room_ge src Hco) as RG. destruct (copied src) eqn:C.
  - right. assert (Q : b_rw src = room (b_cs src) (b_w src) /\ ((b_bpp src = 24 /\ b_cs src = 8 /\ b_comps src = 3) \/ (b_bpp src = 32 /\ (b_cs src = 9 \/ b_cs src = 13) /\ b_comps src = 4))).
    { rewrite (room_comps src Hco). pose proof (comps_eq _ _ Hco) as CE. unfold copied in C. apply orb_true_iff in C. rewrite !andb_true_iff, orb_true_iff, !Z.eqb_eq in C. destruct C as [(E1 & E2)|(E1 & E2)].
      - rewrite E2 in CE. change (components 8) with 3 in CE. rewrite (R24 E1), <- CE in *. split; [apply pad4_small; lia|]. left. rewrite E2. auto.
      - assert (X : components (b_cs src) = 4) by (destruct E2 as [->| ->]; reflexivity). rewrite X in CE. rewrite (R32 E1), <- CE in *. split; [apply pad4_small; lia|]. right. auto. }
    destruct Q as (Q & K). destruct (Nat.ltb_spec (length buf) (length io)); [lia|]. eexists. split; [reflexivity|]. split; [rewrite app_length, map_length, skipn_length; lia|].
    intros c Hc. unfold fetch, shows. destruct K as [(E1 & E2 & E3)|(E1 & E2 & E3)].
    + rewrite E1, E2, E3 in *. cbn [Z.eqb Pos.eqb]. rewrite !(aget_nth io _ 0) by lia. cbn [bind]. eexists. split; [reflexivity|]. cbv zeta.
      exists 2, 1, 0, (-1), 3. do 5 (split; [reflexivity|]).
      pose proof (gb_copy io buf (c * 3 + 2) ltac:(lia)) as G2. pose proof (gb_copy io buf (c * 3 + 1) ltac:(lia)) as G1. pose proof (gb_copy io buf (c * 3 + 0) ltac:(lia)) as G0. unfold gb, byte in G0, G1, G2.
      rewrite G0, G1, G2. replace (3 * c + 2) with (c * 3 + 2) by lia. replace (3 * c + 1) with (c * 3 + 1) by lia. replace (3 * c) with (c * 3 + 0) by lia.
      do 3 (split; [reflexivity|]). lia.
    + rewrite E1, E3 in *. cbn [Z.eqb Pos.eqb]. rewrite !(aget_nth io _ 0) by lia. cbn [bind]. eexists. split; [reflexivity|]. cbv zeta.
      pose proof (gb_copy io buf (c * 4 + 3) ltac:(lia)) as G3. pose proof (gb_copy io buf (c * 4 + 2) ltac:(lia)) as G2. pose proof (gb_copy io buf (c * 4 + 1) ltac:(lia)) as G1. pose proof (gb_copy io buf (c * 4 + 0) ltac:(lia)) as G0. unfold gb, byte in G0, G1, G2, G3.
      replace (4 * c + 3) with (c * 4 + 3) by lia. replace (4 * c + 2) with (c * 4 + 2) by lia. replace (4 * c + 1) with (c * 4 + 1) by lia. replace (4 * c) with (c * 4 + 0) by lia.
      destruct E2 as [E2|E2]; rewrite E2; cbn [Z.eqb Pos.eqb JCS_GRAYSCALE JCS_CMYK].
      * exists 2, 1, 0, (-1), 4. do 5 (split; [reflexivity|]). rewrite G0, G1, G2. do 3 (split; [reflexivity|]). lia.
      * exists 2, 1, 0, 3, 4. do 5 (split; [reflexivity|]). rewrite G0, G1, G2, G3. do 3 (split; [reflexivity|]). reflexivity.
  - destruct (col_ok src io Hco (fun c Hc => fetch_cases src io c H Hl Hb Hc) (Z.to_nat (b_w src)) 0 buf ltac:(lia) ltac:(lia) ltac:(lia)) as [(e & c & K1 & K2 & K3)|(b' & E & L & _ & A)].
    + left. exists e. split; [exact K3|]. exists c, e. split; [lia|exact K2].
    + right. exists b'. split; [exact E|]. split; [exact L|]. intros c Hc. destruct (A c ltac:(lia)) as (px & A1 & A2). exists px. split; [exact A1|]. apply (pat_shows _ _ _ _ _ Hco A2).
Qed.

Lemma bytes_slice : forall f k n, bytes f -> bytes (slice k n f).
Proof.
  intros f k n H. unfold slice, zs, bytes in *. rewrite Forall_forall in *. intros x Hx. apply H. apply In_nth_error in Hx. destruct Hx as (i & Hi).
  assert (In x (skipn (Z.to_nat k) f)) as K. { apply nth_error_In in Hi. revert Hi. generalize (skipn (Z.to_nat k) f) (Z.to_nat n). clear. induction l as [|y l IH]; intros [|m] H; cbn in *; try contradiction. destruct H as [H|H]; [left; exact H|right; apply (IH m H)]. }
  revert K. clear. generalize (Z.to_nat k). induction f as [|y f IH]; intros [|m] H; cbn [skipn] in *; try contradiction; [exact H|right; apply (IH m H)].
Qed.

(* row y of the rows at k *)
Definition frow (src : bsrc) (f : list Z) (k : Z) (y : nat) : list Z := slice (k + Z.of_nat y * b_rw src) (b_rw src) f.
Definition good_row (src : bsrc) (io : list Z) (n : nat) (row : rowbuf) : Prop :=
  length row = n /\ forall c, 0 <= c < b_w src -> exists px, fetch src io c = Ret px /\ shows (b_cs src) row c px.
Definition bad_row (src : bsrc) (io : list Z) : Prop := exists c e, 0 <= c < b_w src /\ fetch src io c = Error e.

Lemma direct_cases : forall src f, b_ok src -> bytes f -> forall n k buf, 0 <= k <= zlen f -> room (b_cs src) (b_w src) <= zlen buf ->
  (exists e, get_rows_direct src n (zs k f) buf = Error e /\ (zlen f < k + Z.of_nat n * b_rw src \/ exists y, (y < n)%nat /\ bad_row src (frow src f k y))) \/
  exists rows, get_rows_direct src n (zs k f) buf = Ret rows /\ length rows = n /\
    forall y row, nth_error rows y = Some row -> good_row src (frow src f k y) (length buf) row.
Proof.
  intros src f H Hb. pose proof H as HH. destruct HH as (_ & _ & _ & _ & _ & _ & _ & _ & _ & Rn & _).
  induction n as [|n IH]; intros k buf Hk Hr; cbn [get_rows_direct].
  - right. exists []. split; [reflexivity|]. split; [reflexivity|]. intros [|y] row K; discriminate K.
  - destruct (take_cases f k (b_rw src) ltac:(lia) Rn ltac:(lia)) as [(-> & X)|(X & ->)].
    + left. exists JERR_INPUT_EOF. split; [reflexivity|]. left. nia.
    + cbn [bind]. assert (F0 : frow src f k 0 = slice k (b_rw src) f) by (unfold frow; f_equal; lia).
      destruct (expand_cases src (slice k (b_rw src) f) buf H (slice_len f k (b_rw src) ltac:(lia) Rn X) (bytes_slice f k (b_rw src) Hb) Hr) as [(e & -> & K)|(b' & -> & L & A)].
      * left. exists e. split; [reflexivity|]. right. exists O. split; [lia|]. rewrite F0. destruct K as (c & e' & K1 & K2). exists c, e'. split; assumption.
      * cbn [bind]. assert (FS : forall y, frow src f (k + b_rw src) y = frow src f k (S y)) by (intros y; unfold frow; f_equal; lia).
        destruct (IH (k + b_rw src) b' ltac:(lia) ltac:(lia)) as [(e & -> & K)|(rows & -> & Lr & Ar)].
        { left. exists e. split; [reflexivity|]. destruct K as [K|(y & K1 & K2)]; [left; lia|]. right. exists (S y). split; [lia|]. rewrite <- FS. exact K2. }
        right. cbn [bind]. exists (b' :: rows). split; [reflexivity|]. split; [cbn; lia|]. intros [|y] row K; cbn [nth_error] in K.
        { injection K as <-. rewrite F0. split; [exact L|exact A]. }
        rewrite <- FS, <- L. apply Ar, K.
Qed.

Lemma preload_cases : forall f rw, 0 <= rw -> forall n k, 0 <= k <= zlen f ->
  (preload rw n (zs k f) = Error JERR_INPUT_EOF /\ zlen f < k + Z.of_nat n * rw) \/
  (k + Z.of_nat n * rw <= zlen f /\ preload rw n (zs k f) = Ret (map (fun y => slice (k + Z.of_nat y * rw) rw f) (seq 0 n))).
Proof.
  intros f rw Hw. induction n as [|n IH]; intros k Hk; cbn [preload].
  - right. split; [lia|reflexivity].
  - destruct (take_cases f k rw ltac:(lia) Hw ltac:(lia)) as [(-> & X)|(X & ->)]; [left; split; [reflexivity|nia]|]. cbn [bind].
    destruct (IH (k + rw) ltac:(lia)) as [(-> & Y)|(Y & ->)]; [left; split; [reflexivity|lia]|]. right. split; [lia|]. cbn [bind seq map].
    rewrite Z.mul_0_l, Z.add_0_r. rewrite <- seq_shift, map_map. do 2 f_equal. apply map_ext. intros y. f_equal. lia.
Qed.

Lemma inv_cases : forall src img, b_ok src -> Forall (fun io => zlen io = b_rw src /\ bytes io) img -> forall n buf, (n <= length img)%nat -> room (b_cs src) (b_w src) <= zlen buf ->
  (exists e, get_rows_inverted src img n (Z.of_nat n) buf = Error e /\ exists y, (y < n)%nat /\ bad_row src (nth y img [])) \/
  exists rows, get_rows_inverted src img n (Z.of_nat n) buf = Ret rows /\ length rows = n /\
    forall y row, nth_error rows y = Some row -> good_row src (nth (n - 1 - y) img []) (length buf) row.
Proof.
  intros src img H Hi. induction n as [|n IH]; intros buf Hn Hr; cbn [get_rows_inverted].
  - right. exists []. split; [reflexivity|]. split; [reflexivity|]. intros [|y] row K; discriminate K.
  - rewrite (aget_nth img _ []) by lia. cbn [bind]. replace (Z.to_nat (Z.of_nat (S n) - 1)) with n by lia. replace (Z.of_nat (S n) - 1) with (Z.of_nat n) by lia.
    rewrite Forall_forall in Hi. destruct (Hi (nth n img [])) as (I1 & I2); [apply nth_In; lia|].
    destruct (expand_cases src (nth n img []) buf H I1 I2 Hr) as [(e & -> & K)|(b' & -> & L & A)].
    + left. exists e. split; [reflexivity|]. exists n. split; [lia|]. destruct K as (c & e' & K1 & K2). exists c, e'. split; assumption.
    + cbn [bind]. destruct (IH b' ltac:(lia) ltac:(lia)) as [(e & -> & y & K1 & K2)|(rows & -> & Lr & Ar)].
      { left. exists e. split; [reflexivity|]. exists y. split; [lia|exact K2]. }
      right. cbn [bind]. exists (b' :: rows). split; [reflexivity|]. split; [cbn; lia|]. intros [|y] row K; cbn [nth_error] in K.
      { injection K as <-. replace (S n - 1 - 0)%nat with n by lia. split; [exact L|exact A]. }
      replace (S n - 1 - S y)%nat with (n - 1 - y)%nat by lia. rewrite <- L. apply Ar, K.
Qed.

(* all the rows of the image: f is the file, k where the rows start *)
Lemma rows_cases : forall src f k inv buf, b_ok src -> bytes f -> 0 <= k <= zlen f -> b_file src = zs k f -> room (b_cs src) (b_w src) <= zlen buf ->
  let h := Z.to_nat (b_h src) in
  (exists e, get_rows inv src buf = Error e /\ (zlen f < k + b_h src * b_rw src \/ exists y, (y < h)%nat /\ bad_row src (frow src f k y))) \/
  exists rows, get_rows inv src buf = Ret rows /\ length rows = h /\
    forall y row, nth_error rows y = Some row -> good_row src (frow src f k (if inv then h - 1 - y else y)) (length buf) row.
Proof.
  intros src f k inv buf H Hb Hk Hf Hr h. pose proof H as HH. destruct HH as (_ & _ & Hh & _ & _ & _ & _ & _ & _ & Rn & _).
  unfold get_rows. fold h. rewrite Hf. assert (HE : b_h src = Z.of_nat h) by (unfold h; lia). rewrite HE. destruct inv.
  - destruct (preload_cases f (b_rw src) Rn h k Hk) as [(-> & X)|(X & ->)]; [left; eexists; split; [reflexivity|left; exact X]|]. cbn [bind].
    set (img := map _ (seq 0 h)). assert (N : forall y, (y < h)%nat -> nth y img [] = frow src f k y).
    { intros y Hy. unfold img. rewrite (nth_indep _ [] (frow src f k 0)) by (rewrite map_length, seq_length; exact Hy). change (fun y => slice (k + Z.of_nat y * b_rw src) (b_rw src) f) with (frow src f k).
      rewrite map_nth, seq_nth by exact Hy. reflexivity. }
    assert (Li : length img = h) by (unfold img; rewrite map_length, seq_length; reflexivity).
    assert (Fi : Forall (fun io => zlen io = b_rw src /\ bytes io) img).
    { apply Forall_forall. intros io Hio. unfold img in Hio. apply in_map_iff in Hio. destruct Hio as (y & <- & Hy). apply in_seq in Hy. split; [apply slice_len; nia|apply bytes_slice, Hb]. }
    destruct (inv_cases src img H Fi h buf ltac:(lia) Hr) as [(e & E & y & Y1 & Y2)|(rows & E & L & A)].
    + left. exists e. split; [exact E|]. right. exists y. split; [exact Y1|]. rewrite <- N by exact Y1. exact Y2.
    + right. exists rows. split; [exact E|]. split; [exact L|]. intros y row K. assert (y < h)%nat by (rewrite <- L; apply nth_error_Some; rewrite K; discriminate).
      rewrite <- N by lia. apply A, K.
  - exact (direct_cases src f H Hb h k buf Hk Hr).
Qed.
