(* T_ColourQuant.v -- C48 *)
From Verif Require Import Base M_Quant1 M_Quant2 S_Quant P_Trellis P_Quant1 P_Quant2.

(* ---- two-pass quantizer (jquant2.c), any palette of 1 .. 256 colours ---- *)
Definition palette_map (pal : list (Z * Z * Z)) : cmap :=
  mkCmap (map (fun c => fst (fst c)) pal) (map (fun c => snd (fst c)) pal) (map (fun c => snd c) pal) (Z.of_nat (length pal)).
Definition empty_cache : hist := fun _ _ _ => 0.

Lemma sat_ex {A} (P : A -> Prop) m : sat P m -> exists x, m = Ret x /\ P x.
Proof. destruct m as [x|e|]; cbn [sat]; intros H; [exists x; split; [reflexivity|exact H]|contradiction|contradiction]. Qed.

Theorem C48_two_pass : forall w0 w1 w2 pal garbage row,
  1 <= w0 <= 3 -> 1 <= w1 <= 3 -> 1 <= w2 <= 3 -> Forall colour pal -> 1 <= Z.of_nat (length pal) <= 256 -> length garbage = 128%nat -> Forall colour row ->
  exists out h, pass2_no_dither (mkScales w0 w1 w2) (palette_map pal) garbage row empty_cache = Ret (out, h) /\
    Forall2 (fun c k => nearest (w0, w1, w2) pal (cell_centre c) k) row out.
Proof.
  intros w0 w1 w2 pal garbage row H0 H1 H2 HP HN HG HR.
  pose proof (no_dither_ok (mkScales w0 w1 w2) pal garbage (conj H0 (conj H1 H2)) HP HN HG row empty_cache HR) as Q.
  apply sat_ex in Q; [|intros a b c _; left; reflexivity]. destruct Q as ([out h] & E & Q & _). exists out, h. split; [exact E|exact Q].
Qed.
Print Assumptions C48_two_pass.

Theorem C48_two_pass_fs : forall w0 w1 w2 pal garbage wd rows,
  1 <= w0 <= 3 -> 1 <= w1 <= 3 -> 1 <= w2 <= 3 -> Forall colour pal -> 1 <= Z.of_nat (length pal) <= 256 -> length garbage = 128%nat ->
  Forall (fun r => length r = wd /\ Forall colour r) rows ->
  exists outs, fs_rows (mkScales w0 w1 w2) (palette_map pal) garbage false rows (repeat 0 (wd + 2), repeat 0 (wd + 2), repeat 0 (wd + 2)) empty_cache = Ret outs /\
    Forall2 (Forall2 (diffused (w0, w1, w2) pal)) rows outs.
Proof.
  intros w0 w1 w2 pal garbage wd rows H0 H1 H2 HP HN HG HR.
  pose proof (fs_rows_ok (mkScales w0 w1 w2) pal garbage (conj H0 (conj H1 H2)) HP HN HG wd rows false (repeat 0 (wd + 2), repeat 0 (wd + 2), repeat 0 (wd + 2)) empty_cache HR) as Q.
  apply sat_ex in Q; [exact Q| |intros a b c _; left; reflexivity]. split; [rewrite repeat_length; split; [reflexivity|split; reflexivity]|]. intros q Hq. unfold g. rewrite nth_repeat_lt by lia. lia.
Qed.
Print Assumptions C48_two_pass_fs.

(* ---- one-pass quantizer (jquant1.c) ---- *)
(* choice of the number of levels per component *)
Theorem C48_one_pass_levels : forall rgb nc desired, (1 <= nc)%nat -> (rgb = true -> nc = 3%nat) ->
  match select_ncolors rgb nc desired with
  | Ret (N, total) => length N = nc /\ Forall (fun x => 2 <= x) N /\ total = fold_right Z.mul 1 N /\ total <= desired <= 256
  | Error e => (4 < nc)%nat /\ e = JERR_QUANT_COMPONENTS \/ 256 < desired /\ e = JERR_QUANT_MANY_COLORS \/ desired < 2 ^ Z.of_nat nc /\ e = JERR_QUANT_FEW_COLORS
  | Undef => False
  end.
Proof.
  intros rgb nc desired Hn Hr. pose proof (select_ok rgb nc desired Hn Hr) as H. destruct (select_ncolors rgb nc desired) as [[N t]|e|]; [|exact H|exact H].
  destruct H as (A & _ & B & C & D). split; [exact A|]. split; [exact B|]. split; [exact C|exact D].
Qed.
Print Assumptions C48_one_pass_levels.

Section Setup.
Lemma setup rgb nc desired N total garbage padded : (1 <= nc)%nat -> (rgb = true -> nc = 3%nat) -> select_ncolors rgb nc desired = Ret (N, total) -> Z.of_nat (length garbage) = total ->
  length N = nc /\ Forall (fun x => 2 <= x) N /\ total = prodZ N /\ prodZ N <= 256 /\
  exists cm tabs, create_colormap total N garbage = Ret cm /\ create_colorindex padded total N = Ret tabs /\ rows_ok total (prodZ N) N cm /\ tabs_ok padded N tabs.
Proof.
  intros Hn Hr HS HG. pose proof (select_ok rgb nc desired Hn Hr) as H. rewrite HS in H. destruct H as (A & _ & B & C & D). rewrite C in D. split; [exact A|]. split; [exact B|]. split; [exact C|]. split; [lia|].
  pose proof (rows_create total garbage HG N B) as Q1. apply sat_ex in Q1; [|exists 1; lia]. destruct Q1 as (cm & E1 & R1). pose proof (colorindex_ok padded N B ltac:(lia)) as Q2. apply sat_ex in Q2. destruct Q2 as (tabs & E2 & R2).
  exists cm, tabs. unfold create_colormap. rewrite C. split; [rewrite <- C at 1; exact E1|]. split; [exact E2|]. split; [rewrite <- C at 1; exact R1|exact R2].
Qed.
(* what the codes of a pixel mean for the palette *)
Lemma outs_meaning P N total cm planes width out : Forall (fun x => 2 <= x) N -> total = prodZ N -> rows_ok total (prodZ N) N cm -> outs_ok P N planes width out ->
  forall col, 0 <= col < Z.of_nat width -> 0 <= g out col < total /\ forall i, (i < length N)%nat -> exists v, P (nth i N 0) (g (nth i planes []) col) v /\ entry (nth i cm []) (nth i N 0) total (g out col) v.
Proof.
  intros HF HT HR [_ HO] col Hcol. destruct (HO col Hcol) as (vs & G & E). pose proof (enc_bound _ _ _ _ _ HF G) as B. rewrite E. split; [lia|].
  intros i Hi. destruct (codes_entry P total N cm planes vs col 0 HF ltac:(exists 1; lia) HR G ltac:(lia) ltac:(lia) i Hi) as (v & V1 & V2). exists v. split; [exact V1|]. rewrite Z.mul_0_l, Z.add_0_l in V2. exact V2.
Qed.
Lemma nth_ge2 N i : Forall (fun x => 2 <= x) N -> (i < length N)%nat -> 2 <= nth i N 0.
Proof. intros H Hi. rewrite Forall_forall in H. apply H, nth_In, Hi. Qed.
End Setup.

(* no dithering: per component, the chosen entry is (up to 1) as close as any in the palette *)
Theorem C48_one_pass : forall rgb nc desired N total garbage width planes,
  (1 <= nc)%nat -> (rgb = true -> nc = 3%nat) -> select_ncolors rgb nc desired = Ret (N, total) -> Z.of_nat (length garbage) = total ->
  length planes = nc -> Forall (fun p => length p = width /\ Forall sample p) planes ->
  exists cm tabs out, create_colormap total N garbage = Ret cm /\ create_colorindex false total N = Ret tabs /\
    color_quantize tabs planes width = Ret out /\ length out = width /\
    forall col, (col < width)%nat -> 0 <= nth col out 0 < total /\ forall i, (i < nc)%nat -> near_best (nth i cm []) (nth col (nth i planes []) 0) (nth col out 0).
Proof.
  intros rgb nc desired N total garbage width planes Hn Hr HS HG HL HP. destruct (setup rgb nc desired N total garbage false Hn Hr HS HG) as (A & B & C & D & cm & tabs & E1 & E2 & R1 & R2).
  pose proof (color_quantize_ok N tabs planes width B D R2 ltac:(congruence) HP) as Q. apply sat_ex in Q. destruct Q as (out & E3 & Q). exists cm, tabs, out. split; [exact E1|]. split; [exact E2|]. split; [exact E3|]. split; [exact (proj1 Q)|].
  intros col Hcol. destruct (outs_meaning _ N total cm planes width out B C R1 Q (Z.of_nat col) ltac:(lia)) as [K1 K2]. unfold g in K1, K2. rewrite Nat2Z.id in K1, K2. split; [exact K1|]. intros i Hi. destruct (K2 i ltac:(lia)) as (v & V1 & V2). eapply entry_best; [|exact V2|exact K1|exact V1]. apply nth_ge2; [exact B|lia].
Qed.
Print Assumptions C48_one_pass.

(* ordered dithering: the same for the sample plus a dither of at most half a step, clamped; any number of rows *)
Definition dithered_pixel (N : list Z) (cm planes : list (list Z)) (total : Z) (out : list Z) (col : nat) : Prop :=
  0 <= nth col out 0 < total /\
  forall i, (i < length N)%nat -> exists d, 2 * (nth i N 0 - 1) * Z.abs d <= 255 /\ near_best (nth i cm []) (clamp (nth col (nth i planes []) 0 + d)) (nth col out 0).
Theorem C48_one_pass_ordered : forall rgb nc desired N total garbage width rows ri,
  (1 <= nc)%nat -> (rgb = true -> nc = 3%nat) -> select_ncolors rgb nc desired = Ret (N, total) -> Z.of_nat (length garbage) = total -> 0 <= ri < 16 ->
  Forall (fun planes => length planes = nc /\ Forall (fun p => length p = width /\ Forall sample p) planes) rows ->
  exists cm tabs outs, create_colormap total N garbage = Ret cm /\ create_colorindex true total N = Ret tabs /\
    quantize_ord_dither tabs (map make_odither_array N) ri rows width = Ret outs /\
    Forall2 (fun planes out => length out = width /\ forall col, (col < width)%nat -> dithered_pixel N cm planes total out col) rows outs /\
    (forall planes, In planes rows -> exists out, ord3_row tabs (map make_odither_array N) ri planes width = Ret out /\ length out = width /\ forall col, (col < width)%nat -> dithered_pixel N cm planes total out col).
Proof.
  intros rgb nc desired N total garbage width rows ri Hn Hr HS HG Hri HP. destruct (setup rgb nc desired N total garbage true Hn Hr HS HG) as (A & B & C & D & cm & tabs & E1 & E2 & R1 & R2).
  assert (MEAN : forall planes out, outs_ok Pord N planes width out -> length out = width /\ forall col, (col < width)%nat -> dithered_pixel N cm planes total out col).
  { intros planes out Q. split; [exact (proj1 Q)|]. intros col Hcol. destruct (outs_meaning _ N total cm planes width out B C R1 Q (Z.of_nat col) ltac:(lia)) as [K1 K2]. unfold g in K1, K2. rewrite Nat2Z.id in K1, K2. split; [exact K1|].
    intros i Hi. destruct (K2 i Hi) as (v & (d & D1 & D2) & V2). exists d. split; [exact D1|]. eapply entry_best; [|exact V2|exact K1|exact D2]. apply nth_ge2; [exact B|exact Hi]. }
  rewrite <- A in HP. pose proof (ord_ok width N tabs B D R2 rows ri Hri HP) as Q. apply sat_ex in Q. destruct Q as (outs & E3 & Q). exists cm, tabs, outs. split; [exact E1|]. split; [exact E2|]. split; [exact E3|]. split.
  - clear -Q MEAN. induction Q as [|p o ps os H Q IH]; constructor; [apply MEAN; exact H|exact IH].
  - intros planes IN. rewrite Forall_forall in HP. destruct (HP planes IN) as [L1 L2]. pose proof (ord3_ok width N tabs ri planes Hri B D R2 L1 L2) as Q3. apply sat_ex in Q3. destruct Q3 as (o & E4 & Q3). exists o. split; [exact E4|]. apply MEAN. exact Q3.
Qed.
Print Assumptions C48_one_pass_ordered.

(* Floyd-Steinberg dithering: the same for a sample changed by the diffused error, at most half a step plus one *)
Definition diffused_pixel (N : list Z) (cm planes : list (list Z)) (total : Z) (out : list Z) (col : nat) : Prop :=
  0 <= nth col out 0 < total /\
  forall i, (i < length N)%nat -> exists y, sample y /\ Z.abs (nth col (nth i planes []) 0 - y) <= 255 / (2 * (nth i N 0 - 1)) + 1 /\ near_best (nth i cm []) y (nth col out 0).
Theorem C48_one_pass_fs : forall rgb nc desired N total garbage width rows,
  (1 <= nc)%nat -> (rgb = true -> nc = 3%nat) -> select_ncolors rgb nc desired = Ret (N, total) -> Z.of_nat (length garbage) = total ->
  Forall (fun planes => length planes = nc /\ Forall (fun p => length p = width /\ Forall sample p) planes) rows ->
  exists cm tabs outs, create_colormap total N garbage = Ret cm /\ create_colorindex false total N = Ret tabs /\
    quantize_fs_dither tabs cm false rows width (repeat (repeat 0 (width + 2)) nc) = Ret outs /\
    Forall2 (fun planes out => length out = width /\ forall col, (col < width)%nat -> diffused_pixel N cm planes total out col) rows outs.
Proof.
  intros rgb nc desired N total garbage width rows Hn Hr HS HG HP. destruct (setup rgb nc desired N total garbage false Hn Hr HS HG) as (A & B & C & D & cm & tabs & E1 & E2 & R1 & R2).
  assert (HE : Forall2 (fun n e => err_ok n width e) N (repeat (repeat 0 (width + 2)) nc)).
  { rewrite <- A. clear -B. induction B as [|n N Hn B IH]; cbn [length repeat]; constructor; [|exact IH]. split; [apply repeat_length|]. intros q Hq. unfold g. rewrite nth_repeat_lt by lia. pose proof (gap_range n Hn). lia. }
  rewrite <- A in HP. pose proof (fs1_ok width N tabs cm B D R2 (rows_ok_at total N cm B ltac:(exists 1; lia) R1) rows false _ HE HP) as Q. apply sat_ex in Q. destruct Q as (outs & E3 & Q). exists cm, tabs, outs. split; [exact E1|]. split; [exact E2|]. split; [exact E3|].
  clear E3 HP. induction Q as [|p o ps os H Q IH]; constructor; [|exact IH]. split; [exact (proj1 H)|]. intros col Hcol. destruct (outs_meaning _ N total cm p width o B C R1 H (Z.of_nat col) ltac:(lia)) as [K1 K2]. unfold g in K1, K2. rewrite Nat2Z.id in K1, K2. split; [exact K1|].
  intros i Hi. destruct (K2 i Hi) as (v & (y & Y1 & Y2 & Y3) & V2). exists y. split; [exact Y1|]. split; [exact Y2|]. eapply entry_best; [|exact V2|exact K1|exact Y3]. apply nth_ge2; [exact B|exact Hi].
Qed.
Print Assumptions C48_one_pass_fs.

(* concrete two-pass cases *)
Example C48_two_pass_nonvacuous :
  match pass2_no_dither (mkScales 2 3 1) (palette_map [(0, 0, 0); (255, 255, 255); (200, 10, 10)]) (repeat 77 128) [(10, 20, 30); (250, 240, 230); (180, 30, 0); (10, 20, 30)] empty_cache with
  | Ret (out, _) => out = [0; 1; 2; 0] | _ => False end.
Proof. vm_compute. reflexivity. Qed.
Example C48_two_pass_fs_nonvacuous :
  fs_rows (mkScales 2 3 1) (palette_map [(0, 0, 0); (255, 255, 255)]) (repeat 77 128) false [repeat (118, 118, 118) 6; repeat (118, 118, 118) 6] (repeat 0 8, repeat 0 8, repeat 0 8) empty_cache = Ret [[0; 1; 0; 1; 0; 1]; [1; 0; 1; 0; 1; 0]].
Proof. vm_compute. reflexivity. Qed.
Example C48_one_pass_nonvacuous :
  select_ncolors true 3 16 = Ret ([2; 4; 2], 16) /\ select_ncolors false 1 256 = Ret ([256], 256) /\ select_ncolors true 3 256 = Ret ([6; 7; 6], 252) /\ select_ncolors true 3 7 = Error JERR_QUANT_FEW_COLORS.
Proof. vm_compute. auto. Qed.
(* finding: the one-pass mapping is not exactly the nearest level: with levels 0 and 255, sample 128 goes to 0 *)
Example C48_one_pass_exact_refuted :
  (tabs <- create_colorindex false 2 [2] ;; color_quantize tabs [[127; 128; 129]] 3) = Ret [0; 0; 1] /\ create_colormap 2 [2] [9; 9] = Ret [[0; 255]] /\ Z.abs (128 - 255) < Z.abs (128 - 0).
Proof. vm_compute. auto. Qed.
Example C48_one_pass_dither_nonvacuous :
  (cm <- create_colormap 4 [4] (repeat 9 4) ;; tabs <- create_colorindex false 4 [4] ;; quantize_fs_dither tabs cm false [[repeat 100 6]; [repeat 100 6]] 6 [repeat 0 8]) = Ret [[1; 1; 1; 1; 1; 1]; [1; 1; 1; 2; 1; 1]] /\
  (tabs <- create_colorindex true 4 [4] ;; quantize_ord_dither tabs (map make_odither_array [4]) 0 [[repeat 100 6]; [repeat 100 6]] 6) = Ret [[2; 1; 1; 1; 2; 1]; [1; 1; 1; 1; 1; 1]].
Proof. vm_compute. auto. Qed.
