(* T_GifInter.v -- C63: interlaced GIF files *)
From Coq Require Import Permutation.
From Verif Require Import Base M_Gif S_Gif S_GifInter P_GifBits P_GifHdr T_Gif.

(* ---------------- the passes ---------------- *)
Lemma filter_class (step c : Z) : 0 < step -> 0 <= c < step -> forall n,
  filter (fun r => Z.of_nat r mod step =? c) (seq 0 n) = map (fun j => Z.to_nat (step * Z.of_nat j + c)) (seq 0 (Z.to_nat ((Z.of_nat n + step - 1 - c) / step))).
Proof.
  intros Hs Hc. induction n as [|n IH].
  - cbn [seq filter]. rewrite Z.div_small by lia. reflexivity.
  - rewrite seq_S, filter_app, IH. cbn [filter Nat.add]. 
    set (q := (Z.of_nat n + step - 1 - c) / step). assert (Q : step * q <= Z.of_nat n + step - 1 - c < step * q + step) by (unfold q; pose proof (Z.div_mod (Z.of_nat n + step - 1 - c) step ltac:(lia)); pose proof (Z.mod_pos_bound (Z.of_nat n + step - 1 - c) step Hs); lia).
    assert (Q0 : 0 <= q) by (unfold q; apply Z.div_pos; lia).
    replace ((Z.of_nat (S n) + step - 1 - c) / step) with (q + if Z.of_nat n mod step =? c then 1 else 0).
    + destruct (Z.eqb_spec (Z.of_nat n mod step) c) as [E|E].
      * replace (Z.to_nat (q + 1)) with (S (Z.to_nat q)) by lia. rewrite seq_S, map_app. cbn [map Nat.add]. f_equal. f_equal.
        pose proof (Z.div_mod (Z.of_nat n) step ltac:(lia)) as D. rewrite E in D. assert (q = Z.of_nat n / step) by nia. rewrite Z2Nat.id by lia. rewrite H, <- D. lia.
      * rewrite app_nil_r, Z.add_0_r. reflexivity.
    + symmetry. pose proof (Z.div_mod (Z.of_nat n) step ltac:(lia)) as D. pose proof (Z.mod_pos_bound (Z.of_nat n) step Hs) as B.
      destruct (Z.eqb_spec (Z.of_nat n mod step) c) as [E|E].
      * assert (q = Z.of_nat n / step) by nia. symmetry. apply Z.div_unique_pos with (r := 0); [lia|]. nia.
      * assert (Hq : (Z.of_nat n / step) * step + Z.of_nat n mod step = Z.of_nat n) by lia. rewrite Z.add_0_r. symmetry.
        apply Z.div_unique_pos with (r := Z.of_nat (S n) + step - 1 - c - step * q); [|lia].
        split; [lia|]. assert (N : Z.of_nat n + step - 1 - c <> step * q + step - 1).
        { intros K. apply E. assert (K2 : Z.of_nat n = step * q + c) by lia. symmetry. apply Z.mod_unique_pos with (q := q); lia. }
        lia.
Qed.

Lemma rows_at_len step c rows : 0 < step -> 0 <= c < step -> Z.of_nat (length (rows_at rows step c)) = (Z.of_nat (length rows) + step - 1 - c) / step.
Proof.
  intros H1 H2. unfold rows_at. rewrite (filter_class step c H1 H2), !map_length, seq_length, Z2Nat.id; [reflexivity|]. apply Z.div_pos; lia.
Qed.
Lemma rows_at_nth step c rows j : 0 < step -> 0 <= c < step -> 0 <= j -> step * j + c < Z.of_nat (length rows) ->
  nth (Z.to_nat j) (rows_at rows step c) [] = nth (Z.to_nat (step * j + c)) rows [].
Proof.
  intros H1 H2 H3 H4. unfold rows_at. rewrite (filter_class step c H1 H2), map_map.
  set (f := fun j => nth (Z.to_nat (step * Z.of_nat j + c)) rows []). set (k := Z.to_nat ((Z.of_nat (length rows) + step - 1 - c) / step)).
  assert (K : (Z.to_nat j < k)%nat). { unfold k. apply Z2Nat.inj_lt; [lia|apply Z.div_pos; lia|]. assert (j + 1 <= (Z.of_nat (length rows) + step - 1 - c) / step); [|lia]. apply Z.div_le_lower_bound; nia. }
  rewrite (nth_indep _ [] (f 0%nat)) by (rewrite map_length, seq_length; exact K). rewrite (map_nth f), seq_nth by exact K. unfold f. cbn [Nat.add]. rewrite Z2Nat.id by lia. reflexivity.
Qed.

Lemma in_passes_len rows : length (in_passes rows) = length rows.
Proof.
  apply Nat2Z.inj. unfold in_passes. rewrite !app_length, !Nat2Z.inj_add, !rows_at_len by lia. set (n := Z.of_nat (length rows)). assert (0 <= n) by (unfold n; lia). Z.div_mod_to_equations. lia.
Qed.
Lemma in_passes_place rows r : 0 <= r < Z.of_nat (length rows) -> nth (Z.to_nat (interlaced_row (Z.of_nat (length rows)) r)) (in_passes rows) [] = nth (Z.to_nat r) rows [].
Proof.
  intros H. set (n := Z.of_nat (length rows)) in *. unfold interlaced_row. cbv zeta. rewrite !Z.shiftr_div_pow2 by lia. change (2 ^ 3) with 8. change (2 ^ 2) with 4. change (2 ^ 1) with 2.
  replace (Z.land r 7) with (r mod 8) by (change 7 with (Z.ones 3); rewrite Z.land_ones by lia; reflexivity).
  pose proof (rows_at_len 8 0 rows ltac:(lia) ltac:(lia)) as L1. pose proof (rows_at_len 8 4 rows ltac:(lia) ltac:(lia)) as L2. pose proof (rows_at_len 4 2 rows ltac:(lia) ltac:(lia)) as L3. fold n in L1, L2, L3.
  replace (n + 8 - 1 - 0) with (n + 7) in L1 by lia. replace (n + 8 - 1 - 4) with (n + 3) in L2 by lia. replace (n + 4 - 1 - 2) with (n + 1) in L3 by lia.
  pose proof (Z.mod_pos_bound r 8 ltac:(lia)) as B. pose proof (Z.div_mod r 8 ltac:(lia)) as D8.
  assert (N1 : 0 <= (n + 7) / 8) by (apply Z.div_pos; lia). assert (N2 : 0 <= (n + 3) / 8) by (apply Z.div_pos; lia). assert (N3 : 0 <= (n + 1) / 4) by (apply Z.div_pos; lia).
  assert (R8 : 0 <= r / 8) by (apply Z.div_pos; lia). assert (R4 : 0 <= r / 4) by (apply Z.div_pos; lia). assert (R2 : 0 <= r / 2) by (apply Z.div_pos; lia).
  unfold in_passes. destruct (Z.eqb_spec (r mod 8) 0) as [E|N0].
  - assert (r / 8 < (n + 7) / 8) by (Z.div_mod_to_equations; lia). rewrite app_nth1 by lia. rewrite rows_at_nth by (fold n; lia). f_equal. lia.
  - destruct (Z.eqb_spec (r mod 8) 4) as [E|N4].
    + assert (r / 8 < (n + 3) / 8) by (Z.div_mod_to_equations; lia). rewrite app_nth2 by lia. rewrite app_nth1 by lia.
      replace (Z.to_nat (r / 8 + (n + 7) / 8) - length (rows_at rows 8 0))%nat with (Z.to_nat (r / 8)) by lia. rewrite rows_at_nth by (fold n; lia). f_equal. lia.
    + destruct ((r mod 8 =? 2) || (r mod 8 =? 6)) eqn:E.
      * assert (F : r = 4 * (r / 4) + 2) by (apply orb_prop in E; destruct E as [E|E]; apply Z.eqb_eq in E; Z.div_mod_to_equations; lia).
        assert (r / 4 < (n + 1) / 4) by (Z.div_mod_to_equations; lia). do 2 rewrite app_nth2 by lia. rewrite app_nth1 by lia.
        replace (_ - _ - _)%nat with (Z.to_nat (r / 4)) by lia. rewrite rows_at_nth by (fold n; lia). f_equal. lia.
      * apply orb_false_elim in E. destruct E as [E1 E2]. apply Z.eqb_neq in E1, E2.
        assert (F : r = 2 * (r / 2) + 1) by (Z.div_mod_to_equations; lia).
        do 3 rewrite app_nth2 by lia. replace (_ - _ - _ - _)%nat with (Z.to_nat (r / 2)) by lia. rewrite rows_at_nth by (fold n; lia). f_equal. lia.
Qed.
Lemma rows_at_in step c rows row : In row (rows_at rows step c) -> In row rows.
Proof.
  unfold rows_at. intros H. apply in_map_iff in H. destruct H as (r & <- & H). apply filter_In in H. destruct H as [H _]. apply in_seq in H. apply nth_In. lia.
Qed.
Lemma in_passes_good w h nc rows : good_image w h nc rows -> good_image w h nc (in_passes rows).
Proof.
  intros (A & B & C & D). split; [exact A|]. split; [exact B|]. split; [rewrite in_passes_len; exact C|]. rewrite Forall_forall in D. apply Forall_forall. intros row H. apply D.
  unfold in_passes in H. repeat (apply in_app_or in H; destruct H as [H|H]); eapply rows_at_in; exact H.
Qed.

(* ---------------- the header with the flag set ---------------- *)
Lemma interlaced_head w h nc m rest : good_palette m nc -> interlaced (ghead w h nc m ++ rest) = gheadi true w h nc m ++ rest.
Proof.
  intros HP. assert (H1 : 1 <= nc <= 256) by apply HP. destruct (bpp_ok nc H1) as [B _].
  assert (F : let f := Z.lor (Z.lor 128 (Z.shiftl (gif_bpp nc - 1) 4)) (gif_bpp nc - 1) in f mod 8 + 1 = gif_bpp nc).
  { cbn zeta. repeat (destruct B as [->|B]; [vm_compute; reflexivity|]). rewrite B. vm_compute. reflexivity. }
  cbn zeta in F.
  assert (BP : 0 <= gif_bpp nc) by (clear F; repeat (destruct B as [->|B]; [lia|]); lia).
  assert (P : 0 < 2 ^ gif_bpp nc) by (apply Z.pow_pos_nonneg; lia).
  unfold ghead, gheadi. set (n := 2 ^ gif_bpp nc) in *. set (tab := flat3 (ents m nc (Z.to_nat n) 0)).
  assert (LT : length tab = Z.to_nat (3 * n)) by (unfold tab; rewrite flat3_len, ents_length; lia).
  set (fl := Z.lor _ _) in *. set (pre := [71; 73; 70; 56; 55; 97] ++ put_word w ++ put_word h ++ [fl; 0; 0]).
  set (mid := [44] ++ put_word 0 ++ put_word 0 ++ put_word w ++ put_word h).
  assert (S : forall v, ([71; 73; 70; 56; 55; 97] ++ put_word w ++ put_word h ++ [fl; 0; 0] ++ tab ++ [44] ++ put_word 0 ++ put_word 0 ++ put_word w ++ put_word h ++ [v; gics nc]) ++ rest
     = (pre ++ tab ++ mid) ++ v :: gics nc :: rest).
  { intros v. unfold pre, mid. rewrite <- !app_assoc. reflexivity. }
  rewrite !S. unfold interlaced. replace (nth 10 _ 0) with fl by reflexivity. rewrite F. fold n.
  assert (L : length (pre ++ tab ++ mid) = Z.to_nat (13 + 3 * n + 9)) by (rewrite !app_length, LT; change (length pre) with 13%nat; change (length mid) with 9%nat; lia).
  rewrite <- L. rewrite firstn_app, Nat.sub_diag, firstn_all. cbn [firstn]. rewrite app_nil_r. rewrite nth_middle. rewrite skipn_app. rewrite skipn_all2 by lia.
  replace (Datatypes.S (length (pre ++ tab ++ mid)) - length (pre ++ tab ++ mid))%nat with 1%nat by lia. reflexivity.
Qed.

(* ---------------- reading ---------------- *)
Lemma load_rows_ok w nc hd : h_w hd = w -> 2 <= h_ics hd <= 8 -> forall rows b z, Forall (fun row => Z.of_nat (length row) = w /\ Forall (fun i => 0 <= i < nc) row) rows -> ready (h_ics hd) (concat rows) b z ->
  exists b', load_rows (length rows) hd b z = Ret (rows, b') /\ r_warn b' = [].
Proof.
  intros Hw Hi. induction rows as [|row rows IH]; intros b z HF HR; cbn [load_rows length concat] in *.
  - exists b. split; [reflexivity|apply HR].
  - pose proof (Forall_inv HF) as [R1 R2]. destruct (ready_read (h_ics hd) Hi row (concat rows) b z HR) as (b1 & z1 & E1 & H1).
    replace (Z.to_nat (h_w hd)) with (length row) by lia. rewrite E1. cbn [bind]. destruct (IH b1 z1 (Forall_inv_tail HF) H1) as (b2 & E2 & W2). rewrite E2. cbn [bind]. exists b2. auto.
Qed.
Lemma get_inter_ok m nc w hd rows : nc <= 256 -> h_h hd = Z.of_nat (length rows) -> length (h_cm hd) = Z.to_nat 256 -> h_gs hd = all_grey m nc ->
  (forall i, 0 <= i < nc -> nth (Z.to_nat i) (h_cm hd) (0, 0, 0) = colour m nc i) -> Forall (fun row => Z.of_nat (length row) = w /\ Forall (fun i => 0 <= i < nc) row) rows ->
  forall rest done, rows = done ++ rest -> get_interlaced (length rest) (Z.of_nat (length done)) hd (in_passes rows) = Ret (map (shown m nc) rest).
Proof.
  intros HN HH HL HG HC HF. induction rest as [|row rest IH]; intros done E; cbn [get_interlaced length map]; [reflexivity|].
  assert (LR : length rows = (length done + S (length rest))%nat) by (rewrite E, app_length; reflexivity).
  assert (HR : Forall (fun i => 0 <= i < nc) row) by (rewrite Forall_forall in HF; apply (HF row); rewrite E; apply in_elt).
  assert (IL : 0 <= interlaced_row (Z.of_nat (length rows)) (Z.of_nat (length done)) < Z.of_nat (length rows)).
  { set (n := Z.of_nat (length rows)). set (r := Z.of_nat (length done)). assert (0 <= r < n) by (unfold n, r; lia). unfold interlaced_row. cbv zeta. rewrite !Z.shiftr_div_pow2 by lia. change (2 ^ 3) with 8. change (2 ^ 2) with 4. change (2 ^ 1) with 2.
    replace (Z.land r 7) with (r mod 8) by (change 7 with (Z.ones 3); rewrite Z.land_ones by lia; reflexivity).
    destruct (Z.eqb_spec (r mod 8) 0) as [G|N0]; [|destruct (Z.eqb_spec (r mod 8) 4) as [G|N4]; [|destruct (Z.eqb_spec (r mod 8) 2) as [G|N2]; [|destruct (Z.eqb_spec (r mod 8) 6) as [G|N6]]]]; cbn [orb]; Z.div_mod_to_equations; lia. }
  rewrite HH. rewrite (aget_ok (in_passes rows) _ []) by (rewrite in_passes_len; lia). cbn [bind]. rewrite in_passes_place by lia.
  rewrite Nat2Z.id. replace (nth (length done) rows []) with row by (rewrite E; symmetry; apply nth_middle). rewrite (map_pixels_ok (h_gs hd) (h_cm hd) m nc) by (auto; lia). cbn [bind].
  replace (Z.of_nat (length done) + 1) with (Z.of_nat (length (done ++ [row]))) by (rewrite app_length; cbn [length]; lia).
  rewrite (IH (done ++ [row])) by (rewrite E, <- app_assoc; reflexivity). cbn [bind]. unfold shown at 2. rewrite HG. reflexivity.
Qed.

(* C63: write the rows in the order of the four passes, set the interlace flag, and the reader delivers the image
   with its rows in the right order, whatever the palette, the size, the compression mode and uninitialised memory *)
Theorem C63_interlaced : forall lzw w h nc m rows hashj cmj bufj headj tailj,
  good_palette m nc -> good_image w h nc rows -> work_areas hashj cmj bufj headj tailj ->
  exists file, gif_write lzw w h nc m hashj (in_passes rows) = Ret file /\
    gif_read (interlaced file) cmj bufj headj tailj = Ret (w, h, all_grey m nc, map (shown m nc) rows, []).
Proof.
  intros lzw w h nc m rows hashj cmj bufj headj tailj HP HI (J1 & J2 & J3 & J4 & J5 & J6). pose proof (in_passes_good w h nc rows HI) as HI2.
  destruct (gif_write_ok lzw w h nc m hashj (in_passes rows) HP HI2 J1) as (out & E & HC & HN). eexists. split; [exact E|].
  rewrite interlaced_head by exact HP.
  destruct HI as (Hw & Hh & HL & HF). destruct HI2 as (_ & _ & HL2 & HF2). destruct (gics_ok nc (proj1 HP)) as (G1 & _).
  destruct (starti_ok true w h nc m (out ++ [0; 59]) cmj HP Hw Hh J2) as (hd & S1 & S2 & S3 & S4 & S5 & S6 & S7 & S8 & S9 & S10).
  unfold gif_read. rewrite S1. cbn [bind]. rewrite S8.
  destruct (coded_ready (gics nc) _ out bufj headj tailj G1 HC HN J3 J4 J5 J6) as (b & E0 & R0). rewrite E0. cbn [bind]. rewrite S4.
  rewrite <- S5 in R0. replace (Z.to_nat (h_h hd)) with (length (in_passes rows)) by lia.
  destruct (load_rows_ok w nc hd S2 ltac:(lia) (in_passes rows) b _ HF2 R0) as (b' & E1 & W1). rewrite E1. cbn [bind].
  rewrite in_passes_len. pose proof (get_inter_ok m nc w hd rows ltac:(destruct HP; lia) ltac:(lia) S9 S6 S10 HF rows [] eq_refl) as GI. change (Z.of_nat (length (@nil (list Z)))) with 0 in GI. rewrite GI. cbn [bind].
  rewrite W1, S2, S3, S6, S7. reflexivity.
Qed.
Print Assumptions C63_interlaced.

(* every row of the image is in the file exactly once *)
Theorem C63_passes : forall rows, Permutation (in_passes rows) rows.
Proof.
  intros rows. unfold in_passes, rows_at. rewrite <- !map_app.
  assert (E : rows = map (fun r => nth r rows []) (seq 0 (length rows))).
  { apply nth_ext with (d := []) (d' := []); [rewrite map_length, seq_length; reflexivity|]. intros k Hk. rewrite (nth_indep (map _ _) [] (nth 0 rows [])) by (rewrite map_length, seq_length; exact Hk).
    rewrite (map_nth (fun r => nth r rows [])), seq_nth by exact Hk. reflexivity. }
  apply (Permutation_trans (l' := map (fun r => nth r rows []) (seq 0 (length rows)))); [|rewrite <- E; apply Permutation_refl].
  apply Permutation_map. generalize (seq 0 (length rows)). intros l. clear E rows.
  induction l as [|r l IH]; [constructor|]. cbn [filter].
  assert (C : (Z.of_nat r mod 8 =? 0, Z.of_nat r mod 8 =? 4, Z.of_nat r mod 4 =? 2, Z.of_nat r mod 2 =? 1) = (true, false, false, false) \/ (Z.of_nat r mod 8 =? 0, Z.of_nat r mod 8 =? 4, Z.of_nat r mod 4 =? 2, Z.of_nat r mod 2 =? 1) = (false, true, false, false) \/
    (Z.of_nat r mod 8 =? 0, Z.of_nat r mod 8 =? 4, Z.of_nat r mod 4 =? 2, Z.of_nat r mod 2 =? 1) = (false, false, true, false) \/ (Z.of_nat r mod 8 =? 0, Z.of_nat r mod 8 =? 4, Z.of_nat r mod 4 =? 2, Z.of_nat r mod 2 =? 1) = (false, false, false, true)).
  { set (x := Z.of_nat r). destruct (Z.eqb_spec (x mod 8) 0), (Z.eqb_spec (x mod 8) 4), (Z.eqb_spec (x mod 4) 2), (Z.eqb_spec (x mod 2) 1); auto; exfalso; Z.div_mod_to_equations; lia. }
  destruct C as [C|[C|[C|C]]]; injection C as -> -> -> ->.
  - cbn [app]. constructor. exact IH.
  - etransitivity; [apply Permutation_sym, Permutation_middle|]. constructor. exact IH.
  - rewrite app_assoc. etransitivity; [apply Permutation_sym, Permutation_middle|]. constructor. rewrite <- app_assoc. exact IH.
  - rewrite !app_assoc. etransitivity; [apply Permutation_sym, Permutation_middle|]. constructor. rewrite <- !app_assoc. exact IH.
Qed.
Print Assumptions C63_passes.

(* non-vacuity: ten rows of different content; their order in the file *)
Definition ex63 : list (list Z) := map (fun k => [Z.of_nat k mod 3; Z.of_nat k / 3 mod 3; 1]) (seq 0 10).
Example C63_nonvacuous : good_palette ex_cm 3 /\ good_image 3 10 3 ex63 /\ in_passes ex63 <> ex63 /\
  in_passes (map (fun k => [Z.of_nat k]) (seq 0 10)) = [[0]; [8]; [4]; [2]; [6]; [1]; [3]; [5]; [7]; [9]].
Proof.
  split; [exact (proj1 C50_nonvacuous)|]. split; [|split; [vm_compute; discriminate|vm_compute; reflexivity]].
  split; [lia|]. split; [lia|]. split; [reflexivity|]. apply Forall_forall. intros row Hr.
  assert (G : forallb (fun row => (Z.of_nat (length row) =? 3) && forallb (fun i => (0 <=? i) && (i <? 3)) row) ex63 = true) by (vm_compute; reflexivity).
  rewrite forallb_forall in G. specialize (G row Hr). apply andb_prop in G. destruct G as [G1 G2]. apply Z.eqb_eq in G1. split; [exact G1|].
  apply Forall_forall. intros i Hi. rewrite forallb_forall in G2. specialize (G2 i Hi). apply andb_prop in G2. lia.
Qed.
