(* T_Pnm.v -- C56: PPM/PGM files: reading is safe on any input, well-formed files
   are read as the format says, and what is written is read back. *)
From Verif Require Import Base M_Pnm S_Pnm P_Pnm P_Pnm2 P_Pnm3 P_Pnm4.

(* every sample of the pixels of a row is in range *)
Definition row_good (p : Z) (src : psrc) (row : rowbuf) : Prop :=
  Z.of_nat (length row) = s_w src * s_comps src /\
  forall i, (i < Z.to_nat (s_w src))%nat -> exists r g b, holds p (s_cs src) row i (r, g, b) /\
    0 <= r <= maxj p /\ 0 <= g <= maxj p /\ 0 <= b <= maxj p.

Lemma pix_range : forall p n ss i w, (n = 1 \/ n = 3)%nat -> length ss = (n * w)%nat -> (i < w)%nat -> Forall (fun s => 0 <= s <= maxj p) ss ->
  exists r g b, pix n ss i = (r, g, b) /\ 0 <= r <= maxj p /\ 0 <= g <= maxj p /\ 0 <= b <= maxj p.
Proof.
  intros p n ss i w Hn Hl Hi F.
  assert (N : forall k, (k < length ss)%nat -> 0 <= nth k ss 0 <= maxj p) by (intros k K; exact (proj1 (Forall_forall _ _) F _ (nth_In _ 0 K))).
  unfold pix. destruct Hn as [-> | ->]; cbn [Nat.eqb]; do 3 eexists; (split; [reflexivity|]); (split; [apply N; lia|]; split; apply N; lia).
Qed.

Lemma rows_safe : forall p n src buf, prec_ok p -> src_ok p src -> bytes (s_file src) -> Z.of_nat (length buf) = s_w src * s_comps src ->
  (exists e, get_rows p n src buf = Error e) \/
  exists rows src', get_rows p n src buf = Ret (rows, src') /\ length rows = n /\ Forall (row_good p src) rows.
Proof.
  intros p. induction n as [|n IH]; intros src buf Hp Hs Hb Hl; cbn [get_rows].
  - right. exists [], src. split; [reflexivity|]. split; [reflexivity|constructor].
  - destruct (get_row_safe p src buf Hp Hs Hb Hl) as [(e & ->)|(row & rest & ss & -> & B & L & Ls & F & Q)]; [left; exists e; reflexivity|]. cbn [bind].
    destruct (IH (set_file src rest) row Hp Hs B L) as [(e & ->)|(rows & src' & -> & Ln & G)]; [left; exists e; reflexivity|]. right. cbn [bind].
    exists (row :: rows), src'. split; [reflexivity|]. split; [cbn; lia|]. constructor; [|exact G]. split; [exact L|].
    intros i Hi. destruct (pix_range p (spp (s_fmt src)) ss i (Z.to_nat (s_w src))) as (r & g & b & E & R); [unfold spp; destruct ((s_fmt src =? 51) || (s_fmt src =? 54)); auto|exact Ls|exact Hi|exact F|].
    exists r, g, b. specialize (Q i Hi). rewrite E in Q. split; [exact Q|exact R].
Qed.

(* Any input: the header and any number of rows are read, or an error is reported;
   never an access outside the tables or buffers.  Rows have the announced length
   and only samples in range; the limit on the number of pixels is respected *)
Theorem C56_safe : forall p cs maxpix file, prec_ok p -> cs_ok cs -> bytes file ->
  (exists e, start_input p cs maxpix file = Error e) \/
  exists src, start_input p cs maxpix file = Ret src /\
    1 <= s_w src <= 65535 /\ 1 <= s_h src <= 65535 /\ (0 < maxpix -> s_w src * s_h src <= maxpix) /\ 1 <= s_comps src <= 4 /\
    forall n buf, Z.of_nat (length buf) = s_w src * s_comps src ->
      (exists e, get_rows p n src buf = Error e) \/
      exists rows src', get_rows p n src buf = Ret (rows, src') /\ length rows = n /\ Forall (row_good p src) rows.
Proof.
  intros p cs maxpix file Hp Hcs Hb. destruct (start_safe p cs maxpix file Hp Hcs Hb) as [(e & E)|(src & E & Hs & Hf & Hx)]; [left; exists e; exact E|].
  right. exists src. split; [exact E|]. pose proof Hs as (_ & Hw & Hh & _ & Hc & _). split; [exact Hw|]. split; [exact Hh|]. split; [exact Hx|]. split; [exact (comps_pos _ _ Hc)|].
  intros n buf Hl. apply rows_safe; assumption.
Qed.

(* Well-formed files, text or binary, any maxval, with comments: every pixel is
   read as its samples scaled to the data precision, into any colour layout *)
Theorem C56_read : forall p cs cs' fmt w h m hdr ns bs rest, prec_ok p -> (fmt = 50 \/ fmt = 51 \/ fmt = 53 \/ fmt = 54) ->
  1 <= w <= 65535 -> 1 <= h <= 65535 -> 1 <= m <= 65535 -> target fmt cs = Some cs' -> cs_ok cs ->
  text [w; h; m] hdr -> body fmt m ns bs -> length ns = (Z.to_nat h * (spp fmt * Z.to_nat w))%nat -> bytes hdr -> bytes bs -> bytes rest ->
  exists src, start_input p cs 0 (80 :: fmt :: hdr ++ bs ++ rest) = Ret src /\ s_w src = w /\ s_h src = h /\ s_cs src = cs' /\
    forall buf, Z.of_nat (length buf) = w * s_comps src ->
    exists rows src', get_rows p (Z.to_nat h) src buf = Ret (rows, src') /\ s_file src' = rest /\ length rows = Z.to_nat h /\
      forall y i, (y < Z.to_nat h)%nat -> (i < Z.to_nat w)%nat ->
        holds p cs' (nth y rows []) i (map3 (scaled p m) (pix (spp fmt) (skipn (y * (spp fmt * Z.to_nat w)) ns) i)).
Proof.
  intros p cs cs' fmt w h m hdr ns bs rest Hp Hf Hw Hh Hm Ht Hcs Th B Hn B1 B2 B3.
  destruct (start_text p cs fmt w h m hdr (bs ++ rest) cs' Hp Hf Th Hw Hh Hm Ht) as (src & E & E1 & E2 & E3 & E4 & E5 & E6).
  exists src. split; [exact E|]. split; [exact E2|]. split; [exact E3|]. split; [exact E5|]. intros buf Hl.
  assert (Hs : src_ok p src).
  { destruct (start_safe p cs 0 (80 :: fmt :: hdr ++ bs ++ rest) Hp Hcs) as [(e & X)|(src2 & X & Y & _)]; [|rewrite E in X; discriminate X|rewrite E in X; injection X as ->; exact Y].
    constructor; [lia|]. constructor; [lia|]. apply Forall_app. split; [exact B1|]. apply Forall_app. split; [exact B2|exact B3]. }
  rewrite <- E1, <- E4 in B.
  destruct (get_rows_fun p (Z.to_nat h) src buf ns bs rest Hp Hs) as (rows & G & L & Q); [rewrite E2; exact Hl|exact B|exact E6|rewrite E1, E2; exact Hn|].
  exists rows, (set_file src rest). split; [exact G|]. split; [reflexivity|]. split; [exact L|]. intros y i Hy Hi.
  rewrite E1, E2, E4, E5 in Q. specialize (Q y i Hy Hi).
  assert (Lk : (S y * (spp fmt * Z.to_nat w) <= length ns)%nat) by (rewrite Hn; apply Nat.mul_le_mono_r; lia).
  assert (Hk : forall k, (k < spp fmt * Z.to_nat w)%nat -> nth k (map (scaled p m) (skipn (y * (spp fmt * Z.to_nat w)) ns)) 0 = scaled p m (nth k (skipn (y * (spp fmt * Z.to_nat w)) ns) 0)).
  { intros k Hk. rewrite (nth_indep _ 0 (scaled p m 0)) by (rewrite map_length, skipn_length; lia). apply map_nth. }
  assert (Ep : pix (spp fmt) (map (scaled p m) (skipn (y * (spp fmt * Z.to_nat w)) ns)) i = map3 (scaled p m) (pix (spp fmt) (skipn (y * (spp fmt * Z.to_nat w)) ns) i)).
  { clear Q. assert (Sp : (spp fmt = 1 \/ spp fmt = 3)%nat) by (unfold spp; destruct ((fmt =? 51) || (fmt =? 54)); auto).
    unfold pix, map3. destruct Sp as [Sp|Sp]; rewrite Sp in *; cbn [Nat.eqb]; rewrite !Hk by lia; reflexivity. }
  rewrite Ep in Q. exact Q.
Qed.

(* What the writer writes, the reader reads back: every pixel, in every colour
   layout on either side, at every data precision *)
Theorem C56_roundtrip : forall p cs1 cs2 cs' w rows, prec_ok p -> wcs cs1 -> cs_ok cs2 ->
  target (if cs1 =? JCS_GRAYSCALE then 53 else 54) cs2 = Some cs' ->
  1 <= w <= 65535 -> 1 <= Z.of_nat (length rows) <= 65535 ->
  Forall (fun row => Z.of_nat (length row) = w * components cs1 /\ Forall (fun v => 0 <= v <= maxj p) row) rows ->
  exists file src, write_ppm p cs1 w (Z.of_nat (length rows)) rows = Ret file /\
    start_input p cs2 0 file = Ret src /\ s_w src = w /\ s_h src = Z.of_nat (length rows) /\ s_cs src = cs' /\
    forall buf, Z.of_nat (length buf) = w * s_comps src ->
    exists rows' src', get_rows p (length rows) src buf = Ret (rows', src') /\ s_file src' = [] /\ length rows' = length rows /\
      forall y i, (y < length rows)%nat -> (i < Z.to_nat w)%nat -> holds p cs' (nth y rows' []) i (wpix p cs1 (nth y rows []) i).
Proof.
  intros p cs1 cs2 cs' w rows Hp Hc Hcs Ht Hw Hh F. set (h := Z.of_nat (length rows)) in *.
  set (fmt := if cs1 =? JCS_GRAYSCALE then 53 else 54) in *. 
  assert (Hfmt : (fmt = 50 \/ fmt = 51 \/ fmt = 53 \/ fmt = 54) /\ istext fmt = false /\ spp fmt = (if cs1 =? JCS_GRAYSCALE then 1%nat else 3%nat)) by (unfold fmt; destruct (cs1 =? JCS_GRAYSCALE); auto 8).
  destruct Hfmt as (Hf & Hnt & Hspp).
  assert (HM : 255 <= maxj p <= 65535) by (destruct (maxj_val p Hp) as [(_ & ->)|[(_ & ->)|(_ & ->)]]; lia).
  set (ns := flat_map (fun row => flat_map (wsamp p cs1 row) (seq 0 (Z.to_nat w))) rows).
  set (bs := flat_map (put_sample p) ns). set (hdr := [10] ++ pdec w ++ [32] ++ pdec h ++ [10] ++ pdec (maxj p) ++ [10]).
  assert (Rl : forall row, length (flat_map (wsamp p cs1 row) (seq 0 (Z.to_nat w))) = (spp fmt * Z.to_nat w)%nat).
  { intros row. rewrite (flat_len _ _ _ (wsamp_len p cs1 row)), seq_length, Hspp. lia. }
  assert (Fr : Forall (fun n => 0 <= n <= maxj p) ns).
  { unfold ns. apply Forall_flat_map. eapply Forall_impl; [|exact F]. intros row (_ & Fr). apply Forall_flat_map. apply Forall_forall. intros i _.
    pose proof (wpix_range p cs1 row i Hp Fr) as R. unfold wsamp. destruct (wpix p cs1 row i) as [[r g] b]. destruct R as (R1 & R2 & R3). destruct (cs1 =? JCS_GRAYSCALE); repeat constructor; assumption || lia. }
  pose proof (put_body p fmt ns Hp Hnt Fr) as Bd. fold bs in Bd.
  assert (W : write_ppm p cs1 w h rows = Ret (80 :: fmt :: hdr ++ bs ++ [])).
  { unfold write_ppm. rewrite (put_rows_ok p cs1 w rows Hc ltac:(lia)) by (eapply Forall_impl; [|exact F]; intros row (A & _); cbn beta; lia).
    assert (So : start_output p cs1 w h = Ret (80 :: fmt :: hdr)).
    { unfold start_output, fmt. destruct (Z.eqb_spec cs1 JCS_GRAYSCALE) as [E|N]; [reflexivity|]. destruct Hc as [E|[E|E]]; [contradiction| |].
      - rewrite E, Z.eqb_refl, orb_true_r. reflexivity.
      - rewrite E. reflexivity. }
    rewrite So. cbn [bind]. fold ns. fold bs. rewrite app_nil_r. reflexivity. }
  assert (Bh : bytes hdr).
  { unfold hdr. assert (Pd : forall n, 0 <= n -> bytes (pdec n)).
    { intros n Hn. destruct (pdec_ok n Hn) as ((_ & D) & _). eapply Forall_impl; [|exact D]. cbn beta. intros. lia. }
    apply Forall_app. split; [repeat constructor; lia|]. apply Forall_app. split; [apply Pd; lia|]. apply Forall_app. split; [repeat constructor; lia|]. apply Forall_app. split; [apply Pd; lia|].
    apply Forall_app. split; [repeat constructor; lia|]. apply Forall_app. split; [apply Pd; lia|repeat constructor; lia]. }
  assert (Bb : bytes bs).
  { unfold bs. apply Forall_flat_map. eapply Forall_impl; [|exact Fr]. intros n Hn. unfold put_sample. destruct (Z.eqb_spec p 8) as [->|N8]; [constructor; [change (maxj 8) with 255 in Hn; lia|constructor]|].
    assert (G : forall x, 0 <= Z.land x 255 <= 255) by (intros x; change 255 with (Z.ones 8); rewrite Z.land_ones by lia; pose proof (Z.mod_pos_bound x (2 ^ 8) ltac:(lia)); change (2 ^ 8) with 256 in *; change (Z.ones 8) with 255; lia).
    constructor; [apply G|]. constructor; [apply G|constructor]. }
  assert (Hlen : length ns = (Z.to_nat h * (spp fmt * Z.to_nat w))%nat) by (unfold ns; rewrite (flat_len _ _ _ Rl); unfold h; rewrite Nat2Z.id; reflexivity).
  destruct (C56_read p cs2 cs' fmt w h (maxj p) hdr ns bs [] Hp Hf Hw Hh ltac:(lia) Ht Hcs) as (src & E & E1 & E2 & E3 & Q);
    [apply header_text; lia|exact Bd|exact Hlen|exact Bh|exact Bb|constructor|].
  exists (80 :: fmt :: hdr ++ bs ++ []), src. split; [exact W|]. split; [exact E|]. split; [exact E1|]. split; [exact E2|]. split; [exact E3|].
  intros buf Hl. destruct (Q buf Hl) as (rows' & src' & G & L1 & L2 & H1). unfold h in G, L2, H1. rewrite Nat2Z.id in G, L2, H1.
  exists rows', src'. split; [exact G|]. split; [exact L1|]. split; [exact L2|]. intros y i Hy Hi. specialize (H1 y i Hy Hi).
  assert (Ep : pix (spp fmt) (skipn (y * (spp fmt * Z.to_nat w)) ns) i = wpix p cs1 (nth y rows []) i).
  { unfold ns. rewrite (flat_skip (fun row => flat_map (wsamp p cs1 row) (seq 0 (Z.to_nat w))) _ Rl).
    destruct (skipn y rows) as [|row t] eqn:Es; [assert (length (skipn y rows) = 0%nat) by (rewrite Es; reflexivity); rewrite skipn_length in *; lia|].
    assert (Er : nth y rows [] = row).
    { rewrite <- (firstn_skipn y rows), Es. rewrite app_nth2 by (rewrite firstn_length; lia). rewrite firstn_length. replace (y - Nat.min y (length rows))%nat with 0%nat by lia. reflexivity. }
    rewrite Er. cbn [flat_map]. apply pix_flat; [exact Hspp|exact Hi]. }
  rewrite Ep in H1.
  assert (Em : map3 (scaled p (maxj p)) (wpix p cs1 (nth y rows []) i) = wpix p cs1 (nth y rows []) i).
  { pose proof (proj1 (Forall_forall _ _) F _ (nth_In rows [] Hy)) as (_ & Fy). pose proof (wpix_range p cs1 _ i Hp Fy) as R. destruct (wpix p cs1 (nth y rows []) i) as [[r g] b].
    destruct R as (R1 & R2 & R3). unfold map3. rewrite !scaled_id by assumption. reflexivity. }
  rewrite Em in H1. exact H1.
Qed.

(* scaling to the data precision: nearest value, order preserving, 0 and maxval
   map to 0 and the maximum, nothing lost when maxval is the maximum *)
Theorem C56_scale : forall p m, prec_ok p -> 1 <= m ->
  (forall v, 0 <= v <= m -> 2 * Z.abs (m * scaled p m v - v * maxj p) <= m) /\
  (forall v v', 0 <= v <= v' -> v' <= m -> scaled p m v <= scaled p m v') /\
  scaled p m 0 = 0 /\ scaled p m m = maxj p /\
  (m = maxj p -> forall v, 0 <= v <= m -> scaled p m v = v) /\
  (m <= maxj p -> forall v v', 0 <= v < v' -> v' <= m -> scaled p m v < scaled p m v').
Proof.
  intros p m Hp Hm. assert (HM : 255 <= maxj p) by (destruct (maxj_val p Hp) as [(_ & ->)|[(_ & ->)|(_ & ->)]]; lia).
  assert (E : forall v, 0 <= v <= m -> scaled p m v = (2 * (v * maxj p) + m) / (2 * m)) by (intros v Hv; unfold scaled; destruct (Z.leb_spec v m); [reflexivity|lia]).
  split; [|split; [|split; [|split; [|split]]]].
  - intros v Hv. rewrite E by exact Hv. pose proof (Z.div_mod (2 * (v * maxj p) + m) (2 * m) ltac:(lia)) as D. pose proof (Z.mod_pos_bound (2 * (v * maxj p) + m) (2 * m) ltac:(lia)) as B. lia.
  - intros v v' H1 H2. rewrite !E by lia. apply Z.div_le_mono; [lia|]. nia.
  - rewrite E by lia. apply Z.div_small. lia.
  - rewrite E by lia. symmetry. apply Z.div_unique with (r := m); [lia|]. lia.
  - intros -> v Hv. apply scaled_id; [exact Hp|exact Hv].
  - intros Hle v v' H1 H2. rewrite !E by lia. set (M := maxj p) in *. clearbody M.
    apply Z.lt_le_trans with ((2 * (v * M) + m) / (2 * m) + 1); [lia|]. rewrite <- Z.div_add with (b := 1) by lia. apply Z.div_le_mono; [lia|]. nia.
Qed.

(* RGB to CMYK and back (in exact arithmetic) loses nothing *)
Theorem C56_cmyk : forall M r g b, 1 <= M -> 0 <= r <= M -> 0 <= g <= M -> 0 <= b <= M ->
  let '(c, m, y, k) := rgb_to_cmyk M r g b in
  cmyk_to_rgb M c m y k = (r, g, b) /\ 0 <= c <= M /\ 0 <= m <= M /\ 0 <= y <= M /\ 0 <= k <= M.
Proof.
  intros M r g b HM Hr Hg Hb. unfold rgb_to_cmyk, cmyk_to_rgb. destruct (Z.eqb_spec (Z.max (Z.max r g) b) 0) as [E|N].
  - assert (r = 0 /\ g = 0 /\ b = 0) as (-> & -> & ->) by lia. rewrite !Z.mul_0_r. replace ((0 + M) / (2 * M)) with 0 by (symmetry; apply Z.div_small; lia). split; [reflexivity|lia].
  - set (k := Z.max (Z.max r g) b) in *. assert (Hk : r <= k <= M /\ g <= k /\ b <= k /\ 1 <= k) by lia. clearbody k.
    assert (G : forall x, 0 <= x <= k -> let q := (2 * M * x + k) / (2 * k) in (2 * (q * k) + M) / (2 * M) = x /\ 0 <= q <= M).
    { intros x Hx q. pose proof (Z.div_mod (2 * M * x + k) (2 * k) ltac:(lia)) as D. pose proof (Z.mod_pos_bound (2 * M * x + k) (2 * k) ltac:(lia)) as B. fold q in D.
      set (t := (2 * M * x + k) mod (2 * k)) in *. clearbody q t. split.
      - symmetry. apply Z.div_unique with (r := M + k - t); [|nia]. left. split; [lia|].
        destruct (Z.eq_dec k M) as [->|]; [|lia]. assert (t = M) by (assert (E2 : 2 * M * (x - q) = t - M) by nia; assert (x - q = 0) by nia; nia). lia.
      - assert (M * x <= M * k) by nia. split; nia. }
    destruct (G r ltac:(lia)) as (A1 & A2). destruct (G g ltac:(lia)) as (B1 & B2). destruct (G b ltac:(lia)) as (C1 & C2). rewrite A1, B1, C1. split; [reflexivity|lia].
Qed.

(* ---- cases ---- *)
(* "P3 # x\n2 1 9\n0 9 3 # y\n 4 5 9 ": 2x1 text PPM with maxval 9 and comments *)
Definition ex_file : list Z := [80;51;32;35;32;120;10; 50;32;49;32;57;10; 48;32;57;32;51;32; 35;32;121;10; 32;52;32;53;32;57;32].
Example C56_case_text : exists src, start_input 8 JCS_UNKNOWN 0 ex_file = Ret src /\ s_w src = 2 /\ s_h src = 1 /\
  exists src', get_rows 8 1 src (repeat None 6) = Ret ([[Some 0; Some 255; Some 85; Some 113; Some 142; Some 255]], src').
Proof. eexists. split; [vm_compute; reflexivity|]. split; [reflexivity|]. split; [reflexivity|]. eexists. vm_compute. reflexivity. Qed.
Example C56_case_round : exists file src, write_ppm 12 9 2 1 [[4095; 7; 300; 0; 1; 2; 3; 0]] = Ret file /\ length file = 24%nat /\
  start_input 12 12 0 file = Ret src /\ exists src', get_rows 12 1 src (repeat None 8) = Ret ([[Some 300; Some 7; Some 4095; Some 4095; Some 3; Some 2; Some 1; Some 4095]], src').
Proof. eexists _, _. split; [vm_compute; reflexivity|]. split; [reflexivity|]. split; [vm_compute; reflexivity|]. eexists. vm_compute. reflexivity. Qed.
Example C56_case_hyp : text [2; 1; 255] ([10] ++ pdec 2 ++ [32] ++ pdec 1 ++ [10] ++ pdec 255 ++ [10]) /\ body 54 255 [1;2;3;4;5;6] [1;2;3;4;5;6] /\
  target 54 JCS_CMYK = Some JCS_CMYK /\ length [1;2;3;4;5;6] = (Z.to_nat 1 * (spp 54 * Z.to_nat 2))%nat.
Proof. split; [apply header_text; lia|]. split; [split; [reflexivity|repeat constructor; lia]|]. split; reflexivity. Qed.
Example C56_case_cmyk : rgb_to_cmyk 255 10 200 77 = (13, 255, 98, 200) /\ cmyk_to_rgb 255 13 255 98 200 = (10, 200, 77).
Proof. split; reflexivity. Qed.

(* findings: a sample above maxval is meant to be rejected (JERR_PPM_OUTOFRANGE),
   but a one-digit text sample is not checked: "P2 1 1 3 9" is a black pixel; in
   the one-byte binary formats nothing is checked *)
Example C56_one_digit_refuted : ~ (forall maxval l v l', 1 <= maxval <= 65535 -> bytes l -> read_pbm_integer maxval l = Ret (v, l') -> v <= maxval).
Proof.
  intros A. assert (B : bytes [57; 32]) by (repeat constructor; lia). specialize (A 3 [57; 32] 9 [] ltac:(lia) B eq_refl). lia.
Qed.
Example C56_over_maxval_refuted : ~ (forall src rows src', start_input 8 JCS_GRAYSCALE 0 [80;53;10; 49;32;49;32;51;10; 9] = Ret src ->
  get_rows 8 1 src [None] = Ret (rows, src') -> rows <> [[Some 0]]).
Proof. intros A. eapply A; [vm_compute; reflexivity|vm_compute; reflexivity|reflexivity]. Qed.

Print Assumptions C56_safe.
Print Assumptions C56_read.
Print Assumptions C56_roundtrip.
Print Assumptions C56_scale.
Print Assumptions C56_cmyk.
