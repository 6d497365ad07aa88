(* T_Median.v -- C59: the palette chosen by two-pass colour quantization. *)
From Verif Require Import Base M_Pnm M_Quant2 M_Median S_Quant S_Median P_Median T_ColourQuant.
From Coq Require Import Permutation.

Lemma start_box : forall s ps h, ps <> [] -> Forall colour ps -> (forall c, inh c -> hc h c = weight ps c) ->
  exists b, update_box s h (mkBox 0 (Z.shiftr 255 C0_SHIFT) 0 (Z.shiftr 255 C1_SHIFT) 0 (Z.shiftr 255 C2_SHIFT) 0 0) = Ret b /\ good s h b /\ Permutation (bcells h b) (cells_of ps).
Proof.
  intros s ps h NE C W. change (Z.shiftr 255 C0_SHIFT) with 31. change (Z.shiftr 255 C1_SHIFT) with 63. change (Z.shiftr 255 C2_SHIFT) with 31.
  assert (OI : forall c, In c (cells_of ps) -> inh c /\ occ h c = true).
  { intros c Hc. assert (IC : inh c). { unfold cells_of in Hc. apply nodup_In in Hc. apply in_map_iff in Hc. destruct Hc as (p & <- & Hp). apply cell_in. rewrite Forall_forall in C. apply C. exact Hp. }
    split; [exact IC|]. apply (occ_cells ps h c C IC (W c IC)). exact Hc. }
  destruct (update_box_ok s h (mkBox 0 31 0 63 0 31 0 0)) as (b & U & G & A).
  { unfold fits, inh. cbn [c0min c0max c1min c1max c2min c2max]. lia. }
  { destruct ps as [|p ps]; [congruence|]. destruct (OI (cell p)) as (IC & O). { unfold cells_of. apply nodup_In. left. reflexivity. }
    exists (cell p). split; [exact O|]. unfold inb. cbn [c0min c0max c1min c1max c2min c2max]. destruct (cell p) as [[x y] z]. unfold inh, ib in *. lia. }
  exists b. split; [exact U|]. split; [exact G|]. apply NoDup_Permutation; [apply nodup_bcells|apply NoDup_nodup|].
  intros c. rewrite bcells_in. split.
  - intros (O & IB). apply (A c O) in IB. assert (IC : inh c) by (destruct c as [[x y] z]; unfold inb, ib, inh in *; cbn [c0min c0max c1min c1max c2min c2max] in IB; lia).
    apply (occ_cells ps h c C IC (W c IC)). exact O.
  - intros Hc. destruct (OI c Hc) as (IC & O). split; [exact O|]. apply (A c O). destruct c as [[x y] z]. unfold inb, ib, inh in *. cbn [c0min c0max c1min c1max c2min c2max]. lia.
Qed.
Lemma scales_ok : forall cs, In cs [2; 6; 8] -> exists s r, scales_of cs = Ret s /\ aget t_red cs = Ret r /\ scales_pos s.
Proof.
  intros cs [<-|[<-|[<-|[]]]].
  - exists (mkScales 2 3 1), 0. split; [reflexivity|]. split; [reflexivity|]. unfold scales_pos. cbn. lia.
  - exists (mkScales 2 3 1), 0. split; [reflexivity|]. split; [reflexivity|]. unfold scales_pos. cbn. lia.
  - exists (mkScales 1 3 2), 2. split; [reflexivity|]. split; [reflexivity|]. unfold scales_pos. cbn. lia.
Qed.

(* For every image of at least one pixel, every number of colours from 8 to 256 and the
   output colour spaces JCS_RGB, JCS_EXT_RGB and JCS_EXT_BGR (2, 6, 8): the cells that
   occur are divided into min (number of colours) (number of cells) groups, none empty and
   each the content of a box, and the palette has the mean of each group, weighted by the
   number of pixels. *)
Theorem C59_palette : forall cs desired pixels, In cs [2; 6; 8] -> 8 <= desired <= 256 -> pixels <> [] -> Forall colour pixels ->
  exists gs, first_pass cs desired pixels = Ret (map (mean (weight pixels)) gs) /\
    Permutation (concat gs) (cells_of pixels) /\ Forall (fun g => g <> [] /\ boxed pixels g) gs /\
    Z.of_nat (length gs) = Z.min desired (Z.of_nat (length (cells_of pixels))) /\ Forall colour (map (mean (weight pixels)) gs).
Proof.
  intros cs desired pixels Hcs Hd NE C. destruct (scales_ok cs Hcs) as (s & r & Es & Er & SP). destruct (prescan_weight pixels C) as (h & Eh & W).
  unfold first_pass. destruct (Z.ltb_spec desired 8); [lia|]. destruct (Z.ltb_spec 256 desired); [lia|]. cbn [orb]. rewrite Eh, Es, Er. cbn [bind].
  unfold select_colors. destruct (start_box s pixels h NE C W) as (b & -> & G & P). cbn [bind].
  destruct (median_cut_ok s (r =? 0) h desired SP (Z.to_nat (desired - 1)) [b]) as (bs & -> & Gs & Pb & L); [constructor; [exact G|constructor]|]. cbn [bind].
  assert (P2 : Permutation (concat (groups h bs)) (cells_of pixels)).
  { apply (Permutation_trans Pb). unfold groups. cbn [map concat]. rewrite app_nil_r. exact P. }
  assert (MEM : forall b c, In b bs -> In c (bcells h b) -> inh c).
  { intros b' c Hb Hc. rewrite Forall_forall in Gs. pose proof (g_fits _ _ _ (Gs b' Hb)) as F. apply bcells_in in Hc. destruct Hc as (_ & Hc). destruct c as [[x y] z]. unfold fits, inh, inb, ib in *. lia. }
  assert (Q : Forall (fun b => bcells h b <> [] /\ forall c, In c (bcells h b) -> 1 <= weight pixels c /\ hc h c = weight pixels c /\ inh c) bs).
  { rewrite Forall_forall in Gs |- *. intros b' Hb. split; [apply (group_nonempty s); auto|]. intros c Hc. pose proof (MEM b' c Hb Hc) as IC. split; [|split; [apply W; exact IC|exact IC]].
    apply bcells_in in Hc. destruct Hc as (O & _). apply (occ_cells pixels h c C IC (W c IC)) in O. unfold cells_of in O. apply nodup_In in O. apply (count_occ_In same_cell) in O. unfold weight. lia. }
  exists (groups h bs). destruct (compute_colors_ok h (weight pixels) bs Q) as (-> & F). split; [reflexivity|]. split; [exact P2|]. split; [|split; [|exact F]].
  - unfold groups. rewrite Forall_map, Forall_forall. intros b' Hb. rewrite Forall_forall in Q. split; [apply (Q b' Hb)|].
    exists (c0min b'), (c0max b'), (c1min b'), (c1max b'), (c2min b'), (c2max b'). intros x y z. rewrite bcells_in. unfold inb, ib. rewrite Forall_forall in Gs. pose proof (g_fits _ _ _ (Gs b' Hb)) as FT.
    split; intros (A1 & A2); (split; [|exact A2]).
    + assert (IC : inh (x, y, z)) by (unfold fits, inh in *; lia). apply (occ_cells pixels h _ C IC (W _ IC)). exact A1.
    + assert (IC : inh (x, y, z)) by (unfold fits, inh in *; lia). apply (occ_cells pixels h _ C IC (W _ IC)). exact A1.
  - assert (LC : length (concat (groups h bs)) = length (cells_of pixels)) by (apply Permutation_length; exact P2).
    assert (NEg : Forall (fun g => g <> []) (groups h bs)) by (unfold groups; rewrite Forall_map; apply (Forall_impl _ (fun b' H => group_nonempty s h b' H) Gs)).
    pose proof (concat_length_ge _ NEg) as GE. unfold groups in *. rewrite map_length in *. cbn [length] in L. destruct L as [L|(V & L)].
    + rewrite L in *. lia.
    + assert (ONE : Forall (fun g => length g = 1%nat) (map (bcells h) bs)).
      { rewrite Forall_map. rewrite Forall_forall in *. intros b' Hb. apply (single_cell s); auto. }
      pose proof (concat_length_1 _ ONE) as EQ. rewrite map_length in EQ. lia.
Qed.
Print Assumptions C59_palette.

(* If no more cells occur than colours are asked for, the palette has the centre of the cell of every pixel. *)
Lemma mean_single : forall w a b d, 1 <= w (a, b, d) -> mean w [(a, b, d)] = centre (a, b, d).
Proof.
  intros w a b d H. unfold mean. cbn [total]. rewrite !Z.add_0_r. unfold rdiv, centre. cbn [fst snd]. set (m := w (a, b, d)) in *. clearbody m.
  assert (R : forall k, (2 * (k * m) + m) / (2 * m) = k). { intros k. symmetry. apply (Z.div_unique _ _ k m); [left; lia|ring]. }
  rewrite !R. reflexivity.
Qed.
Theorem C59_few_colours : forall cs desired pixels, In cs [2; 6; 8] -> 8 <= desired <= 256 -> pixels <> [] -> Forall colour pixels ->
  Z.of_nat (length (cells_of pixels)) <= desired ->
  exists palette, first_pass cs desired pixels = Ret palette /\ forall p, In p pixels -> In (cell_centre p) palette.
Proof.
  intros cs desired pixels Hcs Hd NE C FEW. destruct (C59_palette cs desired pixels Hcs Hd NE C) as (gs & E & P & F & L & _).
  eexists. split; [exact E|]. intros p Hp. assert (IC : In (cell p) (concat gs)). { apply (Permutation_in _ (Permutation_sym P)). unfold cells_of. apply nodup_In. apply in_map. exact Hp. }
  apply in_concat in IC. destruct IC as (g & Hg & Hc). apply in_map_iff. exists g. split; [|exact Hg].
  assert (ONE : Forall (fun g => length g = 1%nat) gs).
  { assert (LC : length (concat gs) = length gs) by (rewrite (Permutation_length P); lia). assert (NEg : Forall (fun g => g <> []) gs) by (apply (Forall_impl _ (fun g' H => proj1 H) F)).
    clear - LC NEg. induction NEg as [|g' gs Hg NEg IH]; [constructor|]. cbn [concat length] in LC. rewrite app_length in LC. pose proof (concat_length_ge _ NEg). destruct g' as [|x [|y g']]; [congruence| |cbn [length] in LC; lia]. constructor; [reflexivity|apply IH; cbn [length] in LC; lia]. }
  rewrite Forall_forall in ONE. specialize (ONE g Hg). destruct g as [|c [|]]; [destruct Hc| |discriminate ONE]. destruct Hc as [->|[]].
  destruct p as [[a b] d]. unfold cell. rewrite mean_single; [reflexivity|]. unfold weight. assert (X : In (cell (a, b, d)) (map cell pixels)) by (apply in_map; exact Hp). apply (count_occ_In same_cell) in X. unfold cell at 2 in X. lia.
Qed.
Print Assumptions C59_few_colours.

(* Both passes together, without dithering, on such an image: the colour shown for a pixel
   differs from it by at most 4, 2 and 4. *)
Definition within (p c : Z * Z * Z) : Prop :=
  let '(a, b, d) := p in let '(x, y, z) := c in Z.abs (x - a) <= 4 /\ Z.abs (y - b) <= 2 /\ Z.abs (z - d) <= 4.
Lemma centre_within : forall p, within p (cell_centre p).
Proof.
  intros [[a b] d]. unfold within, cell_centre. pose proof (Z.div_mod a 8 ltac:(lia)). pose proof (Z.mod_pos_bound a 8 ltac:(lia)).
  pose proof (Z.div_mod b 4 ltac:(lia)). pose proof (Z.mod_pos_bound b 4 ltac:(lia)). pose proof (Z.div_mod d 8 ltac:(lia)). pose proof (Z.mod_pos_bound d 8 ltac:(lia)). lia.
Qed.
Lemma sq0 : forall w a, 1 <= w -> (w * a) * (w * a) <= 0 -> a = 0.
Proof. intros w a Hw H. assert (w * a = 0) by nia. nia. Qed.
Lemma nearest_exact : forall w0 w1 w2 pal c k, 1 <= w0 -> 1 <= w1 -> 1 <= w2 -> In c pal -> nearest (w0, w1, w2) pal c k -> nth (Z.to_nat k) pal (0, 0, 0) = c.
Proof.
  intros w0 w1 w2 pal c k H0 H1 H2 HI (Hk & HN). apply (In_nth _ _ (0, 0, 0)) in HI. destruct HI as (i & Hi & E).
  destruct (HN (Z.of_nat i) ltac:(lia)) as (D & _). rewrite Nat2Z.id, E in D. destruct (nth (Z.to_nat k) pal (0, 0, 0)) as [[x y] z]. destruct c as [[a b] d]. unfold sqdist in D.
  rewrite !Z.sub_diag, !Z.mul_0_r in D. change (0 * 0 + 0 * 0 + 0 * 0) with 0 in D || idtac.
  pose proof (Z.square_nonneg (w0 * (x - a))). pose proof (Z.square_nonneg (w1 * (y - b))). pose proof (Z.square_nonneg (w2 * (z - d))).
  assert (x - a = 0) by (apply (sq0 w0); lia). assert (y - b = 0) by (apply (sq0 w1); lia). assert (z - d = 0) by (apply (sq0 w2); lia).
  f_equal; [f_equal; lia|lia].
Qed.
Theorem C59_two_passes : forall cs desired garbage pixels, In cs [2; 6; 8] -> 8 <= desired <= 256 -> pixels <> [] -> Forall colour pixels -> length garbage = 128%nat ->
  Z.of_nat (length (cells_of pixels)) <= desired ->
  exists s palette out h, scales_of cs = Ret s /\ first_pass cs desired pixels = Ret palette /\ pass2_no_dither s (palette_map palette) garbage pixels empty_cache = Ret (out, h) /\
    Forall2 (fun p k => 0 <= k < Z.of_nat (length palette) /\ within p (nth (Z.to_nat k) palette (0, 0, 0))) pixels out.
Proof.
  intros cs desired garbage pixels Hcs Hd NE C HG FEW. destruct (C59_palette cs desired pixels Hcs Hd NE C) as (gs & E & _ & _ & L & CP).
  destruct (C59_few_colours cs desired pixels Hcs Hd NE C FEW) as (pal & E' & IN). rewrite E in E'. injection E' as E'. rewrite E' in CP, E. assert (L' : length pal = length gs) by (rewrite <- E'; apply map_length).
  assert (NP : pal <> []). { destruct pixels as [|p ps]; [congruence|]. intros ->. apply (IN p). left. reflexivity. }
  assert (LP : 1 <= Z.of_nat (length pal) <= 256) by (split; [destruct pal; [congruence|cbn [length]; lia]|lia]).
  assert (SC : exists w0 w1 w2, scales_of cs = Ret (mkScales w0 w1 w2) /\ 1 <= w0 <= 3 /\ 1 <= w1 <= 3 /\ 1 <= w2 <= 3).
  { destruct Hcs as [<-|[<-|[<-|[]]]]; [exists 2, 3, 1|exists 2, 3, 1|exists 1, 3, 2]; (split; [reflexivity|lia]). }
  destruct SC as (w0 & w1 & w2 & ES & W0 & W1 & W2).
  destruct (C48_two_pass w0 w1 w2 pal garbage pixels W0 W1 W2 CP LP HG C) as (out & h & E2 & F2).
  exists (mkScales w0 w1 w2), pal, out, h. split; [exact ES|]. split; [exact E|]. split; [exact E2|].
  clear - F2 IN W0 W1 W2. assert (IN' : forall p, In p pixels -> In (cell_centre p) pal) by exact IN. clear IN. induction F2 as [|p k ps ks N F2 IH]; constructor; [|apply IH; intros q Hq; apply IN'; right; exact Hq].
  split; [apply N|]. rewrite (nearest_exact w0 w1 w2 pal (cell_centre p) k); [apply centre_within|lia|lia|lia|apply IN'; left; reflexivity|exact N].
Qed.
Print Assumptions C59_two_passes.

(* Fewer than 8 or more than 256 colours are refused. *)
Theorem C59_counts : forall cs desired pixels, desired < 8 \/ 256 < desired -> first_pass cs desired pixels = Error JERR_OTHER.
Proof.
  intros cs desired pixels H. unfold first_pass. destruct (Z.ltb_spec desired 8); [reflexivity|]. destruct (Z.ltb_spec 256 desired); [reflexivity|lia].
Qed.
Print Assumptions C59_counts.

Example C59_ex_few : first_pass 2 8 [(0, 0, 0); (255, 255, 255); (3, 3, 3); (200, 10, 10); (0, 0, 90)] = Ret [(4, 2, 4); (252, 254, 252); (204, 10, 12); (4, 2, 92)].
Proof. vm_compute. reflexivity. Qed.
Example C59_ex_many : forall gs, gs = map (fun i => (8 * i, 0, 0)) [0; 1; 2; 3; 4; 5; 6; 7; 8; 9] ->
  first_pass 2 8 gs = Ret [(4, 2, 4); (44, 2, 4); (32, 2, 4); (72, 2, 4); (20, 2, 4); (60, 2, 4); (12, 2, 4); (52, 2, 4)].
Proof. intros gs ->. vm_compute. reflexivity. Qed.

(* jdmaster.c:559 lets every 3-component output colour space pass; for JCS_YCbCr (3) there is no
   "red" component and jquant2.c:74 reads c_scales[-1] *)
Example C59_ycc_refuted : first_pass 3 8 [(0, 0, 0)] = Undef.
Proof. vm_compute. reflexivity. Qed.
(* the palette of an image without pixels would divide by zero (select_colors is only reached after a whole pass) *)
Example C59_empty_refuted : first_pass 2 8 [] = Undef.
Proof. vm_compute. reflexivity. Qed.
