(* P_GifHdr.v -- GIF headers and colour tables *)
From Verif Require Import Base M_Gif S_Gif P_GifBits P_GifLzw P_GifRead.

Definition ent (m : gcmap) (nc i : Z) : rgb := if i <? nc then colour m nc i else (128, 128, 128).
Definition ents (m : gcmap) (nc : Z) (n : nat) (i : Z) : list rgb := map (fun k => ent m nc (i + Z.of_nat k)) (seq 0 n).
Definition flat3 (l : list rgb) : list Z := flat_map (fun c => let '(r, g, b) := c in [r; g; b]) l.

Lemma ents_S m nc n i : ents m nc (S n) i = ent m nc i :: ents m nc n (i + 1).
Proof.
  unfold ents. cbn [seq map]. rewrite Z.add_0_r. f_equal. rewrite <- seq_shift, map_map. apply map_ext. intros k. f_equal. lia.
Qed.
Lemma ents_length m nc n i : length (ents m nc n i) = n.
Proof. unfold ents. now rewrite map_length, seq_length. Qed.

Lemma entry_ok m nc i : good_palette m nc -> 0 <= i -> cmap_entry m nc i = Ret (flat3 [ent m nc i]).
Proof.
  intros [H1 H2] Hi. unfold cmap_entry, ent, colour. destruct (Z.ltb_spec i nc); [|reflexivity]. destruct m as [l|l|].
  - destruct H2 as [H2 _]. rewrite (aget_ok l i (0, 0, 0)) by lia. cbn [bind]. destruct (nth (Z.to_nat i) l (0, 0, 0)) as [[r g] b]. reflexivity.
  - destruct H2 as [H2 _]. rewrite (aget_ok l i 0) by lia. reflexivity.
  - destruct (Z.eqb_spec (nc - 1) 0); [lia|]. reflexivity.
Qed.
Lemma emit_cmap_ok m nc : good_palette m nc -> forall n i, 0 <= i -> emit_cmap m nc n i = Ret (flat3 (ents m nc n i)).
Proof.
  intros HP. induction n as [|n IH]; intros i Hi; [reflexivity|]. cbn [emit_cmap]. rewrite (entry_ok m nc i HP Hi). cbn [bind]. rewrite IH by lia. cbn [bind].
  rewrite ents_S. cbn [flat3 flat_map]. fold (flat3 (ents m nc n (i + 1))). destruct (ent m nc i) as [[r g] b]. reflexivity.
Qed.

Lemma read_cmap_ok : forall es i rest cm gray, 0 <= i -> (Z.to_nat i + length es <= length cm)%nat ->
  exists cm', ReadColorMap (length es) i (flat3 es ++ rest) cm gray = Ret (cm', gray && forallb is_grey es, rest) /\ length cm' = length cm /\
    (forall k, (k < Z.to_nat i)%nat -> nth k cm' (0, 0, 0) = nth k cm (0, 0, 0)) /\
    (forall k, (k < length es)%nat -> nth (Z.to_nat i + k) cm' (0, 0, 0) = nth k es (0, 0, 0)).
Proof.
  induction es as [|[[r g] b] es IH]; intros i rest cm gray Hi HL; cbn [length ReadColorMap flat3 flat_map app forallb] in *.
  - exists cm. rewrite andb_true_r. split; [reflexivity|]. split; [reflexivity|]. split; [auto|]. intros k Hk. lia.
  - fold (flat3 es). rewrite aset_ok by lia. cbn [bind].
    destruct (IH (i + 1) rest (upd cm (Z.to_nat i) (r, g, b)) (if negb (r =? g) || negb (g =? b) then false else gray)) as (cm' & E & L & K1 & K2); [lia|rewrite length_upd; lia|].
    exists cm'. split; [rewrite E|split; [rewrite L, length_upd; reflexivity|split]].
    + do 3 f_equal. unfold is_grey at 2. destruct (r =? g), (g =? b), gray; reflexivity.
    + intros k Hk. rewrite K1 by lia. rewrite nth_upd_neq by lia. reflexivity.
    + intros k Hk. destruct k as [|k].
      * rewrite Nat.add_0_r, K1 by lia. rewrite nth_upd_eq by lia. reflexivity.
      * replace (Z.to_nat i + S k)%nat with (Z.to_nat (i + 1) + k)%nat by lia. apply K2. lia.
Qed.

Lemma pad_ok : forall n i cm, 0 <= i -> (Z.to_nat i + n <= length cm)%nat ->
  exists cm', pad_cmap n i cm = Ret cm' /\ forall k, (k < Z.to_nat i)%nat -> nth k cm' (0, 0, 0) = nth k cm (0, 0, 0).
Proof.
  induction n as [|n IH]; intros i cm Hi HL; cbn [pad_cmap]; [eauto|]. rewrite aset_ok by lia. cbn [bind].
  destruct (IH (i + 1) (upd cm (Z.to_nat i) (128, 128, 128))) as (cm' & E & K); [lia|rewrite length_upd; lia|]. exists cm'. split; [exact E|].
  intros k Hk. rewrite K by lia. apply nth_upd_neq. lia.
Qed.
Lemma pad_len : forall n i cm cm', pad_cmap n i cm = Ret cm' -> length cm' = length cm.
Proof.
  induction n as [|n IH]; intros i cm cm' E; cbn [pad_cmap] in E; [inversion E; reflexivity|]. unfold aset in E. destruct (i <? 0); [discriminate|]. destruct (Z.of_nat (length cm) <=? i); [discriminate|].
  cbn [bind] in E. apply IH in E. rewrite E. apply length_upd.
Qed.

Lemma bpp_ok nc : 1 <= nc <= 256 -> (gif_bpp nc = 1 \/ gif_bpp nc = 2 \/ gif_bpp nc = 3 \/ gif_bpp nc = 4 \/ gif_bpp nc = 5 \/ gif_bpp nc = 6 \/ gif_bpp nc = 7 \/ gif_bpp nc = 8) /\ nc <= 2 ^ gif_bpp nc.
Proof.
  intros H. unfold gif_bpp. cbn [bits_per_pixel].
  destruct (Z.ltb_spec (2 ^ 1) nc); [|auto 10]. change (1 + 1) with 2. destruct (Z.ltb_spec (2 ^ 2) nc); [|auto 10]. change (2 + 1) with 3.
  destruct (Z.ltb_spec (2 ^ 3) nc); [|auto 10]. change (3 + 1) with 4. destruct (Z.ltb_spec (2 ^ 4) nc); [|auto 10]. change (4 + 1) with 5.
  destruct (Z.ltb_spec (2 ^ 5) nc); [|auto 10]. change (5 + 1) with 6. destruct (Z.ltb_spec (2 ^ 6) nc); [|auto 10]. change (6 + 1) with 7.
  destruct (Z.ltb_spec (2 ^ 7) nc); [|auto 10]. change (7 + 1) with 8. destruct (Z.ltb_spec (2 ^ 8) nc) as [G|G]; [change (2 ^ 8) with 256 in G; lia|]. auto 10.
Qed.

Definition gics (nc : Z) : Z := if gif_bpp nc <=? 1 then 2 else gif_bpp nc.
Lemma gics_ok nc : 1 <= nc <= 256 -> 2 <= gics nc <= 8 /\ nc <= 2 ^ gics nc /\ 2 ^ gif_bpp nc <= 2 ^ gics nc <= 256.
Proof.
  intros H. destruct (bpp_ok nc H) as [B L]. unfold gics. destruct (Z.leb_spec (gif_bpp nc) 1) as [G|G].
  - assert (E : gif_bpp nc = 1) by lia. rewrite E in *. change (2 ^ 1) with 2 in *. change (2 ^ 2) with 4. lia.
  - assert (2 ^ gif_bpp nc <= 2 ^ 8) by (apply Z.pow_le_mono_r; lia). change (2 ^ 8) with 256 in *. lia.
Qed.

Lemma word_ok w : 0 <= w <= 65535 -> Z.land w 255 + Z.shiftl (Z.land (Z.shiftr w 8) 255) 8 = w.
Proof.
  intros H. change 255 with (Z.ones 8). rewrite !Z.land_ones by lia. rewrite Z.shiftl_mul_pow2, Z.shiftr_div_pow2 by lia. change (2 ^ 8) with 256.
  assert (w / 256 < 256) by (apply Z.div_lt_upper_bound; lia). assert (0 <= w / 256) by (apply Z.div_pos; lia). rewrite (Z.mod_small (w / 256)) by lia. pose proof (Z.div_mod w 256). lia.
Qed.

Lemma flags_ok nc : 1 <= nc <= 256 -> let f := Z.lor (Z.lor 128 (Z.shiftl (gif_bpp nc - 1) 4)) (gif_bpp nc - 1) in
  (Z.land f 128 =? 0) = false /\ Z.shiftl 2 (Z.land f 7) = 2 ^ gif_bpp nc.
Proof. intros H. destruct (bpp_ok nc H) as [B _]. cbn zeta. repeat (destruct B as [->|B]; [split; vm_compute; reflexivity|]). rewrite B. split; vm_compute; reflexivity. Qed.

Lemma grey_ents m nc n : 0 <= nc <= Z.of_nat n -> forallb is_grey (ents m nc n 0) = all_grey m nc.
Proof.
  intros H. unfold all_grey, ents. replace n with (Z.to_nat nc + (n - Z.to_nat nc))%nat by lia. rewrite seq_app, map_app, forallb_app.
  assert (E1 : forallb is_grey (map (fun k => ent m nc (0 + Z.of_nat k)) (seq 0 (Z.to_nat nc))) = forallb (fun i => is_grey (colour m nc (Z.of_nat i))) (seq 0 (Z.to_nat nc))).
  { assert (G : forall l, (forall k, In k l -> (k < Z.to_nat nc)%nat) -> forallb is_grey (map (fun k => ent m nc (0 + Z.of_nat k)) l) = forallb (fun i => is_grey (colour m nc (Z.of_nat i))) l).
    { induction l as [|k l IH]; intros Hl; [reflexivity|]. cbn [map forallb]. rewrite IH by (intros q Hq; apply Hl; right; exact Hq). f_equal. unfold ent. rewrite Z.add_0_l.
      destruct (Z.ltb_spec (Z.of_nat k) nc); [reflexivity|]. specialize (Hl k (or_introl eq_refl)). lia. }
    apply G. intros k Hk. apply in_seq in Hk. lia. }
  rewrite E1. assert (E2 : forallb is_grey (map (fun k => ent m nc (0 + Z.of_nat k)) (seq (0 + Z.to_nat nc) (n - Z.to_nat nc))) = true).
  { apply forallb_forall. intros c Hc. apply in_map_iff in Hc. destruct Hc as (k & <- & Hk). apply in_seq in Hk. unfold ent. destruct (Z.ltb_spec (0 + Z.of_nat k) nc); [lia|reflexivity]. }
  rewrite E2. apply andb_true_r.
Qed.

Lemma flat3_len l : length (flat3 l) = (3 * length l)%nat.
Proof. induction l as [|[[r g] b] l IH]; [reflexivity|]. cbn [flat3 flat_map length app]. fold (flat3 l). rewrite IH. lia. Qed.

(* i: with the interlace flag *)
Definition gheadi (i : bool) (w h nc : Z) (m : gcmap) : list Z :=
  [71; 73; 70; 56; 55; 97] ++ put_word w ++ put_word h ++
  [Z.lor (Z.lor 128 (Z.shiftl (gif_bpp nc - 1) 4)) (gif_bpp nc - 1); 0; 0] ++ flat3 (ents m nc (Z.to_nat (2 ^ gif_bpp nc)) 0) ++
  [44] ++ put_word 0 ++ put_word 0 ++ put_word w ++ put_word h ++ [if i then 64 else 0; gics nc].
Definition ghead := gheadi false.

Lemma emit_header_ok w h nc m : good_palette m nc -> emit_header w h nc m = Ret (ghead w h nc m, gics nc).
Proof.
  intros HP. assert (H1 := proj1 HP). unfold emit_header. destruct (Z.ltb_spec 256 nc); [lia|]. rewrite (emit_cmap_ok m nc HP) by lia. reflexivity.
Qed.

Lemma starti_ok i w h nc m rest cmj : good_palette m nc -> 1 <= w <= 65535 -> 1 <= h <= 65535 -> length cmj = Z.to_nat 256 ->
  exists hd, start_input_gif (gheadi i w h nc m ++ rest) cmj = Ret hd /\ h_w hd = w /\ h_h hd = h /\ h_inter hd = i /\ h_ics hd = gics nc /\
    h_gs hd = all_grey m nc /\ h_warn hd = [] /\ h_rest hd = rest /\ length (h_cm hd) = Z.to_nat 256 /\
    forall i, 0 <= i < nc -> nth (Z.to_nat i) (h_cm hd) (0, 0, 0) = colour m nc i.
Proof.
  intros HP Hw Hh HC. assert (H1 : 1 <= nc <= 256) by apply HP. destruct (bpp_ok nc H1) as [B BL]. destruct (gics_ok nc H1) as (G1 & G2 & G3). destruct (flags_ok nc H1) as [F1 F2].
  unfold gheadi. rewrite <- !app_assoc. set (n := 2 ^ gif_bpp nc) in *. set (es := ents m nc (Z.to_nat n) 0).
  set (fl := Z.lor (Z.lor 128 (Z.shiftl (gif_bpp nc - 1) 4)) (gif_bpp nc - 1)) in *.
  unfold put_word. cbn [app]. unfold start_input_gif. cbn [length]. cbn [Nat.ltb Nat.leb firstn skipn]. cbn [Z.eqb Pos.eqb andb negb]. cbn [length Nat.ltb Nat.leb].
  unfold LM_to_uint. cbn [aget nth_error Z.ltb Z.compare Z.to_nat Z.add Pos.add Pos.succ]. 
  change (Pos.to_nat 1) with 1%nat. change (Pos.to_nat 2) with 2%nat. change (Pos.to_nat 3) with 3%nat. change (Pos.to_nat 4) with 4%nat. cbn [nth_error bind].
  rewrite !word_ok by lia. destruct (Z.eqb_spec w 0); [lia|]. destruct (Z.eqb_spec h 0); [lia|]. cbn [orb]. rewrite F1. cbn [negb]. rewrite F2.
  set (tl := 44 :: _). assert (Les : length es = Z.to_nat n) by apply ents_length.
  destruct (read_cmap_ok es 0 tl cmj true) as (cm1 & E1 & L1 & _ & K1); [lia|rewrite Les; cbn [Z.to_nat Nat.add]; lia|].
  rewrite Les in E1. rewrite E1. cbn [bind andb]. unfold es at 1. rewrite grey_ents by lia.
  unfold tl. cbn [scan_image length]. cbn [Z.eqb Pos.eqb negb length Nat.ltb Nat.leb firstn skipn].
  unfold LM_to_uint. cbn [aget nth_error Z.ltb Z.compare Z.to_nat Z.add Pos.add Pos.succ].
  change (Pos.to_nat 4) with 4%nat. change (Pos.to_nat 5) with 5%nat. change (Pos.to_nat 6) with 6%nat. change (Pos.to_nat 7) with 7%nat. change (Pos.to_nat 8) with 8%nat. cbn [nth_error bind].
  rewrite !word_ok by lia. destruct (Z.eqb_spec w 0); [lia|]. destruct (Z.eqb_spec h 0); [lia|]. cbn [orb bind].
  replace (negb (Z.land (if i then 64 else 0) 128 =? 0)) with false by (destruct i; reflexivity). replace (negb (Z.land (if i then 64 else 0) 64 =? 0)) with i by (destruct i; reflexivity). cbn [bind].
  destruct (Z.ltb_spec (gics nc) 2); [lia|]. destruct (Z.ltb_spec 8 (gics nc)); [lia|]. cbn [orb bind h_w h_h h_inter h_ics h_cm h_cmlen h_gs h_warn h_rest].
  destruct (pad_ok (Z.to_nat (2 ^ gics nc - n)) n cm1) as (cm2 & E2 & K2); [lia|rewrite L1, HC; lia|]. rewrite E2. cbn [bind].
  eexists. split; [reflexivity|]. cbn [h_w h_h h_inter h_ics h_cm h_cmlen h_gs h_warn h_rest].
  split; [reflexivity|]. split; [reflexivity|]. split; [reflexivity|]. split; [reflexivity|]. split; [reflexivity|]. split; [reflexivity|]. split; [reflexivity|].
  split; [rewrite (pad_len _ _ _ _ E2), L1; exact HC|]. intros j Hj. rewrite K2 by lia. specialize (K1 (Z.to_nat j)). cbn [Z.to_nat Nat.add] in K1. rewrite K1 by lia.
  unfold es, ents. set (f := fun k => ent m nc (0 + Z.of_nat k)). assert (E0 : f 0%nat = ent m nc 0) by reflexivity.
  rewrite (nth_indep _ (0, 0, 0) (f 0%nat)) by (rewrite map_length, seq_length; lia). rewrite (map_nth f), seq_nth by lia. unfold f, ent. cbn [Nat.add]. rewrite Z2Nat.id, Z.add_0_l by lia.
  destruct (Z.ltb_spec j nc); [reflexivity|lia].
Qed.
Lemma start_ok w h nc m rest cmj : good_palette m nc -> 1 <= w <= 65535 -> 1 <= h <= 65535 -> length cmj = Z.to_nat 256 ->
  exists hd, start_input_gif (ghead w h nc m ++ rest) cmj = Ret hd /\ h_w hd = w /\ h_h hd = h /\ h_inter hd = false /\ h_ics hd = gics nc /\
    h_gs hd = all_grey m nc /\ h_warn hd = [] /\ h_rest hd = rest /\ length (h_cm hd) = Z.to_nat 256 /\
    forall i, 0 <= i < nc -> nth (Z.to_nat i) (h_cm hd) (0, 0, 0) = colour m nc i.
Proof. exact (starti_ok false w h nc m rest cmj). Qed.

(* ---------------- rows ---------------- *)
Definition ready (ics : Z) (pxs : list Z) (b : grd) (z : glz) : Prop :=
  r_warn b = [] /\ match pxs with [] => True | x :: p => exists b' z', LZWReadByte ics b z = Ret (x, b', z') /\ rst ics p b' z' end.
Lemma rst_ready ics pxs b z : 2 <= ics <= 8 -> rst ics pxs b z -> ready ics pxs b z.
Proof.
  intros Hi H. split; [destruct H as (X & D & o & tr & px & s' & rest & _ & _ & HW & _); exact HW|]. destruct pxs as [|x p]; [exact I|]. apply (read_step ics Hi). exact H.
Qed.
Lemma ready_read ics : 2 <= ics <= 8 -> forall l pxs b z, ready ics (l ++ pxs) b z -> exists b' z', read_bytes (length l) ics b z = Ret (l, b', z') /\ ready ics pxs b' z'.
Proof.
  intros Hi [|x l] pxs b z H.
  - exists b, z. auto.
  - cbn [app] in H. destruct H as [HW (b1 & z1 & E & H1)]. cbn [read_bytes length]. rewrite E. cbn [bind].
    destruct (read_bytes_spec ics Hi l b1 z1 pxs H1) as (b2 & z2 & E2 & H2). rewrite E2. cbn [bind]. exists b2, z2. split; [reflexivity|]. apply rst_ready; auto.
Qed.

Lemma map_pixels_ok gs cm m nc : nc <= 256 -> length cm = Z.to_nat 256 -> (forall i, 0 <= i < nc -> nth (Z.to_nat i) cm (0, 0, 0) = colour m nc i) ->
  forall l, Forall (fun i => 0 <= i < nc) l -> map_pixels gs cm l = Ret (flat_map (fun i => samples gs (colour m nc i)) l).
Proof.
  intros HN HL HC. induction l as [|c l IH]; intros HF; [reflexivity|]. cbn [map_pixels flat_map]. pose proof (Forall_inv HF) as Hc. cbn beta in Hc.
  rewrite (aget_ok cm c (0, 0, 0)) by lia. cbn [bind]. rewrite HC by exact Hc. destruct (colour m nc c) as [[r g] b]. rewrite IH by exact (Forall_inv_tail HF). reflexivity.
Qed.

Lemma get_rows_ok m nc w hd : 1 <= nc <= 256 -> h_w hd = w -> 2 <= h_ics hd <= 8 -> length (h_cm hd) = Z.to_nat 256 -> h_gs hd = all_grey m nc ->
  (forall i, 0 <= i < nc -> nth (Z.to_nat i) (h_cm hd) (0, 0, 0) = colour m nc i) ->
  forall rows b z, Forall (fun row => Z.of_nat (length row) = w /\ Forall (fun i => 0 <= i < nc) row) rows -> ready (h_ics hd) (concat rows) b z ->
  exists b', get_rows (length rows) hd b z = Ret (map (shown m nc) rows, b') /\ r_warn b' = [].
Proof.
  intros HN Hw Hi HL HG HC. induction rows as [|row rows IH]; intros b z HF HR; cbn [get_rows length concat map] in *.
  - exists b. split; [reflexivity|apply HR].
  - pose proof (Forall_inv HF) as [R1 R2]. destruct (ready_read (h_ics hd) Hi row (concat rows) b z HR) as (b1 & z1 & E1 & H1).
    replace (Z.to_nat (h_w hd)) with (length row) by lia. rewrite E1. cbn [bind]. rewrite (map_pixels_ok (h_gs hd) (h_cm hd) m nc) by (auto; lia). cbn [bind].
    destruct (IH b1 z1 (Forall_inv_tail HF) H1) as (b2 & E2 & W2). rewrite E2. cbn [bind]. exists b2. split; [|exact W2]. unfold shown at 2. rewrite HG. reflexivity.
Qed.

(* ---------------- the whole file ---------------- *)
Lemma gif_write_ok lzw w h nc m junk rows : good_palette m nc -> good_image w h nc rows -> length junk = Z.to_nat 5003 ->
  exists out, gif_write lzw w h nc m junk rows = Ret (ghead w h nc m ++ out ++ [0; 59]) /\ coded (gics nc) (concat rows) out /\ concat rows <> [].
Proof.
  intros HP (Hw & Hh & HL & HF) HJ. destruct (gics_ok nc (proj1 HP)) as (G1 & G2 & _).
  assert (PX : Forall (fun c => 0 <= c < 2 ^ gics nc) (concat rows)).
  { apply Forall_concat. apply Forall_impl with (2 := HF). intros row [_ R]. apply Forall_impl with (2 := R). intros c Hc. lia. }
  destruct (concat rows) as [|x l] eqn:EC.
  { exfalso. destruct rows as [|row rows]; [cbn in HL; lia|]. pose proof (Forall_inv HF) as [R _]. destruct row; [cbn in R; lia|discriminate]. }
  unfold gif_write. rewrite (emit_header_ok w h nc m HP). cbn [bind]. rewrite EC. destruct lzw.
  - destruct (lzw_all (gics nc) G1 (ghead w h nc m) junk x l HJ PX) as (s & s1 & h1 & E1 & E2 & HS). rewrite E1. cbn [bind]. rewrite E2. cbn [bind].
    destruct (lzw_coded (gics nc) G1 _ _ _ _ HS) as (b & out & E3 & F & C). rewrite E3. cbn [bind]. exists out. rewrite F, <- app_assoc. split; [reflexivity|]. split; [exact C|discriminate].
  - destruct (init_spec (gics nc) G1 (ghead w h nc m)) as (b0 & E1 & HW & HA). rewrite E1. cbn [bind].
    destruct (raw_all (gics nc) G1 (ghead w h nc m) (x :: l) [] _ (rw_clr (gics nc) _ _ _ _ _ HW HA eq_refl) PX) as (s1 & E2 & HS). rewrite E2. cbn [bind].
    destruct (raw_coded (gics nc) G1 _ _ _ HS) as (b & out & E3 & F & C). rewrite E3. cbn [bind]. exists out. rewrite F, <- app_assoc. split; [reflexivity|]. split; [exact C|discriminate].
Qed.

Lemma coded_ready ics px out bufj headj tailj : 2 <= ics <= 8 -> coded ics px out -> px <> [] -> length bufj = 260%nat -> Forall isbyte bufj ->
  length headj = Z.to_nat 4096 -> length tailj = Z.to_nat 4096 ->
  exists b, init_grd (out ++ [0; 59]) bufj = Ret b /\ ready ics px b (init_glz ics headj tailj).
Proof.
  intros Hi (X & tr & rest & s' & F1 & F2 & F3 & F4) HN L1 B1 L2 L3. destruct px as [|x p]; [congruence|].
  assert (E : exists b, init_grd (out ++ [0; 59]) bufj = Ret b /\ r_warn b = []).
  { unfold init_grd. rewrite aset_ok by lia. cbn [bind]. rewrite aset_ok by (rewrite length_upd; lia). cbn [bind]. eexists. split; reflexivity. }
  destruct E as (b & E & W). exists b. split; [exact E|]. split; [exact W|].
  eapply (read_first ics Hi); eauto. apply Forall_app. split; [exact F4|]. repeat constructor; unfold isbyte; lia.
Qed.
