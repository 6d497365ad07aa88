(* T_MCU.v -- C38: which blocks a scan carries and where they come back. *)
From Verif Require Import Base M_Geom T_Geom M_Coef S_MCU P_MCU P_MCUPass P_MCUFirst P_MCUDec P_MCUStore.
From Coq Require Import Arith Permutation.
Open Scope nat_scope.

(* A scan of the components [l] of the frame that the compressor set up for the
   application's parameters (M_Geom.v; C37: the decompressor computes the same). *)
Definition coded (p : cparams) (f : frame) (l : list comp) (sc : scan) : Prop :=
  c_initial_setup p = Ret f /\ p_lossless p = false /\ incl l (f_comps f) /\ NoDup (map c_index l) /\ c_per_scan_setup f l = Ret sc.

(* the components of the frame, for compress_first_pass and decompress_data *)
Definition kc_frame (c : comp) : kc :=
  mkKc (Z.to_nat (c_index c)) (Z.to_nat (c_h c)) (Z.to_nat (c_v c)) (Z.to_nat (c_width_in_blocks c)) (Z.to_nat (c_height_in_blocks c))
       (Z.to_nat (c_DCT_scaled_size c)) 0 0 0 0 0.

Lemma index_nonneg : forall p f c, c_initial_setup p = Ret f -> In c (f_comps f) -> (0 <= c_index c)%Z.
Proof.
  intros p f c E H. destruct (c_initial_ok p f E) as (_&_&_&_&_&_&_&HI&_&_). apply In_nth_error in H. destruct H as (k & H).
  rewrite (HI k c H). lia.
Qed.
Lemma lossy : forall p f, c_initial_setup p = Ret f -> p_lossless p = false -> unit_of f = 8%Z.
Proof.
  intros p f E H. assert (E2 : f_lossless f = p_lossless p).
  { unfold c_initial_setup in E. repeat (destruct (_ : bool) in E; [discriminate|]).
    destruct (max_samp _ _ _) as [[? ?]|?|]; cbn [bind] in E; try discriminate. injection E as <-. reflexivity. }
  unfold unit_of. rewrite E2, H. reflexivity.
Qed.

Lemma nodup_idx : forall p f l, c_initial_setup p = Ret f -> incl l (f_comps f) -> NoDup (map c_index l) ->
  NoDup (map (fun c => Z.to_nat (c_index c)) l).
Proof.
  intros p f l E Hl N. rewrite <- (map_map c_index Z.to_nat). apply NoDup_map_inj; [exact N|].
  intros a a' H H' Q. apply in_map_iff in H, H'. destruct H as (c & <- & H), H' as (c' & <- & H').
  pose proof (index_nonneg p f c E (Hl c H)). pose proof (index_nonneg p f c' E (Hl c' H')). lia.
Qed.

Lemma znat : forall h v T r : Z, (h = v * (T - 1) + r)%Z ->
  (0 <= v)%Z -> (1 <= T)%Z -> (0 <= r)%Z -> Z.to_nat h = Z.to_nat v * (Z.to_nat T - 1) + Z.to_nat r.
Proof.
  intros h v T r E Hv HT Hr. rewrite E. replace (Z.to_nat T - 1) with (Z.to_nat (T - 1)) by lia.
  rewrite <- Z2Nat.inj_mul by lia. apply Z2Nat.inj_add; [nia|lia].
Qed.

Lemma coded_scan : forall p f l sc, coded p f l sc ->
  scan_ok (ks_of f sc) /\ (forall c, In c (k_comps (ks_of f sc)) -> k_DS c = 8) /\
  map s_comp (s_comps sc) = l.
Proof.
  intros p f l sc (E & HL & Hl & ND & Es). destruct (scan_setup_spec p f l sc E Hl Es) as (NE & L4 & SS).
  pose proof (lossy p f E HL) as EU. pose proof (c_initial_ok p f E) as FO.
  assert (G : forall c, In c l -> _) by (intros c Hc; exact (comp_imcu f c FO (Hl c Hc))).
  assert (HC : forall c, In c l -> comp_ok f c) by (intros c Hc; destruct FO as (_&_&_&_&_&_&_&_&H&_); exact (H c (Hl c Hc))).
  assert (HT : (1 <= f_total_iMCU_rows f)%Z).
  { destruct FO as (_ & F2 & _ & F4 & _ & _ & _ & _ & _ & F5). refine (ceil_pos _ _ _ _ _ F5); [lia|]. rewrite EU. lia. }
  pose proof (ss_comps f l sc SS) as SC.
  assert (DS : forall c, In c (k_comps (ks_of f sc)) -> k_DS c = 8).
  { intros c H. unfold ks_of in H. cbn [k_comps] in H. apply in_map_iff in H. destruct H as (x & <- & H). cbn.
    assert (Hx : In (s_comp x) l) by (rewrite <- SC; apply in_map; exact H). destruct (HC _ Hx) as (_ & _ & -> & _). rewrite EU. reflexivity. }
  split; [|split; [exact DS|exact SC]].
  assert (KL : length (k_comps (ks_of f sc)) = length l) by (cbn [ks_of k_comps]; rewrite map_length, <- SC, map_length; reflexivity).
  assert (CP : forall x, In x (s_comps sc) -> In (s_comp x) l) by (intros x H; rewrite <- SC; apply in_map; exact H).
  assert (CO : (1 <= s_MCUs_per_row sc)%Z /\ forall x, In x (s_comps sc) -> let c := s_comp x in
     s_MCU_sample_width x = (s_MCU_width x * 8)%Z /\ (c_width_in_blocks c = s_MCU_width x * (s_MCUs_per_row sc - 1) + s_last_col_width x)%Z /\
     (1 <= s_last_col_width x <= s_MCU_width x)%Z /\
     (s_last_row_height x = c_height_in_blocks c - c_v c * (f_total_iMCU_rows f - 1))%Z /\
     (length l = 1 -> s_MCU_width x = 1%Z /\ s_MCU_height x = 1%Z) /\
     (length l <> 1 -> s_MCU_width x = c_h c /\ s_MCU_height x = c_v c)).
  { destruct (Nat.eq_dec (length l) 1) as [L1|L1].
    - destruct l as [|c [|? ?]]; try discriminate. destruct (ss_single _ _ _ SS c eq_refl) as (S1 & S2 & S3).
      destruct (G c (or_introl eq_refl)) as (G1 & G2 & G3 & G4). split; [lia|]. intros x Hx. rewrite S3 in Hx. destruct Hx as [<- |[]].
      cbn [s_comp s_MCU_sample_width s_MCU_width s_MCU_height s_last_col_width s_last_row_height length].
      rewrite EU. split; [reflexivity|]. split; [lia|]. split; [lia|]. split; [reflexivity|]. split; [auto|]. intros; lia.
    - assert (L2 : 2 <= length l) by (destruct l as [|? [|? ?]]; [congruence|cbn in L1; lia|cbn; lia]).
      destruct (ss_multi _ _ _ SS L2) as (S1 & S2 & S3 & S4). split.
      { destruct FO as (F1 & _ & F3 & _). refine (ceil_pos _ _ _ _ _ S1); [lia|]. rewrite EU. lia. }
      intros x Hx. rewrite S4 in Hx. apply in_map_iff in Hx. destruct Hx as (c & <- & Hc).
      cbn [s_comp s_MCU_sample_width s_MCU_width s_MCU_height s_last_col_width s_last_row_height length].
      destruct (G c Hc) as (G1 & G2 & G3 & G4). destruct (HC c Hc) as (H1 & H2 & _). pose proof (G2 _ S1) as [Q1 Q2].
      split; [rewrite EU; reflexivity|]. split; [lia|]. split; [lia|]. split; [reflexivity|]. split; [intros; lia|]. auto. }
  destruct CO as (CO1 & CO).
  constructor.
  - intros W. apply (f_equal (@length kc)) in W. rewrite KL in W. cbn in W. destruct l; [congruence|discriminate].
  - cbn. lia.
  - cbn. lia.
  - intros c H. pose proof (DS c H) as D8. cbn [ks_of k_comps] in H. apply in_map_iff in H. destruct H as (x & <- & H).
    pose proof (CP x H) as Hx. destruct (G _ Hx) as (G1 & G2 & G3 & G4). destruct (HC _ Hx) as (H1 & H2 & H3 & _).
    destruct (CO x H) as (O1 & O2 & O3 & O4 & O5 & O6). destruct G1 as [Q1 Q2].
    assert (NN : (0 <= s_MCU_width x)%Z) by lia.
    constructor; cbn [kc_of k_h k_v k_wib k_hib k_lcw k_lrh k_MW k_MH k_MSW k_DS ks_of k_T k_cols].
    + lia.
    + lia.
    + lia.
    + lia.
    + rewrite O4. lia.
    + rewrite O4. apply znat; lia.
    + rewrite O1, H3, EU. rewrite Z2Nat.inj_mul by lia. reflexivity.
    + rewrite H3, EU. cbn. lia.
    + apply znat; lia.
    + intros Q. unfold single in Q. rewrite KL in Q. destruct (O5 Q) as [-> ->]. split; reflexivity.
    + intros Q. unfold single in Q. rewrite KL in Q. destruct (O6 Q) as [-> ->]. split; reflexivity.
  - cbn [ks_of k_comps]. pose proof (ss_max _ _ _ SS) as M. pose proof (ss_blocks _ _ _ SS) as B.
    destruct (Nat.eq_dec (length l) 1) as [L1|L1].
    + destruct l as [|c [|? ?]]; try discriminate. destruct (ss_single _ _ _ SS c eq_refl) as (S1 & S2 & S3). rewrite S3. cbn. lia.
    + assert (L2 : 2 <= length l) by (destruct l as [|? [|? ?]]; [congruence|cbn in L1; lia|cbn; lia]).
      destruct (ss_multi _ _ _ SS L2) as (S1 & S2 & S3 & S4). rewrite S4, B, S3 in *. rewrite !map_map. cbn [kc_of k_MW k_MH s_MCU_width s_MCU_height].
      assert (EQ : forall l0 ci, (forall c, In c l0 -> (1 <= c_h c /\ 1 <= c_v c)%Z) ->
        sum (map (fun c => Z.to_nat (c_h c) * Z.to_nat (c_v c)) l0) = length (members ci l0)).
      { induction l0 as [|c l0 IH]; intros ci Hl0; [reflexivity|]. cbn [map sum fold_right members]. rewrite app_length, repeat_length.
        unfold sum in IH. rewrite (IH (ci + 1)%Z) by (intros; apply Hl0; right; assumption). destruct (Hl0 c (or_introl eq_refl)). rewrite Z2Nat.inj_mul by lia. reflexivity. }
      rewrite (EQ l 0%Z); [lia|]. intros c Hc. destruct (HC c Hc) as (?&?&_). lia.
  - cbn [ks_of k_comps]. rewrite map_map. cbn [kc_of k_idx].
    replace (map (fun x => Z.to_nat (c_index (s_comp x))) (s_comps sc)) with (map (fun c => Z.to_nat (c_index c)) l)
      by (rewrite <- SC, map_map; reflexivity). exact (nodup_idx p f l E Hl ND).
Qed.

(* the frame's components *)
Lemma frame_fc : forall p f c, c_initial_setup p = Ret f -> In c (f_comps f) -> fc_ok (Z.to_nat (f_total_iMCU_rows f)) (kc_frame c).
Proof.
  intros p f c E H. pose proof (c_initial_ok p f E) as FO. destruct (comp_imcu f c FO H) as ([Q1 Q2] & _ & G3 & G4).
  destruct FO as (_ & F2 & _ & F4 & _ & _ & _ & _ & HC & F5). destruct (HC c H) as (H1 & H2 & _).
  assert (HT : (1 <= f_total_iMCU_rows f)%Z).
  { refine (ceil_pos _ _ _ _ _ F5); [lia|]. unfold unit_of. destruct (f_lossless f); lia. }
  constructor; cbn; try lia.
Qed.

Lemma frame_nodup : forall p f, c_initial_setup p = Ret f -> NoDup (map (fun c => Z.to_nat (c_index c)) (f_comps f)).
Proof.
  intros p f E. apply (nodup_idx p f (f_comps f) E (incl_refl _)).
  destruct (c_initial_ok p f E) as (_&_&_&_&_&_&_&HI&_&_).
  assert (G : forall (q : list comp) k, (forall j c, nth_error q j = Some c -> c_index c = Z.of_nat (k + j)) -> NoDup (map c_index q)).
  { induction q as [|c q IH]; intros k HQ; cbn; [constructor|]. constructor.
    - intros W. apply in_map_iff in W. destruct W as (c' & W1 & W2). apply In_nth_error in W2. destruct W2 as (j & W2).
      pose proof (HQ 0 c eq_refl). pose proof (HQ (S j) c' W2). lia.
    - apply (IH (S k)). intros j c' Q. rewrite (HQ (S j) c' Q). lia. }
  apply (G _ 0). exact HI.
Qed.

(* ---------------------------------------------------------------- *)
(* The compressor.  [A ci r b] are the coefficients of block row r, block column b
   of component ci: what the forward DCT makes of the samples from row 8r, column
   8b on, or what the application put into the coefficient arrays.  [orc] says at
   which attempts the entropy coder refuses an MCU for lack of output space; the
   caller then calls again.  Whatever the pattern of refusals, each of the three
   paths sends the same MCUs: in raster order, every MCU holding for each component
   its rectangle of blocks, positions outside the component filled with dummy blocks
   repeating the DC of the block before. *)
Definition again {X} (step : est -> outcome (X * est)) (e : est) : outcome est := '(_, e) <- step e ;; Ret e.

Theorem C38_encode_one_pass : forall p f l sc F orc, coded p f l sc ->
  let s := ks_of f sc in
  exists e, drive (k_T s + length orc) e_row (k_T s) (again (compress_data s F)) (e_start s orc) = Ret e /\
    e_out e = scan_mcus s (fun ci r b => F ci (r * 8) (b * 8)).
Proof.
  intros p f l sc F orc H s. destruct (coded_scan p f l sc H) as (Hs & HD & _). fold s in Hs, HD.
  destruct (drive_EI s (fun ci r b => F ci (r * 8) (b * 8)) (k_T s + length orc) (again (compress_data s F)) (e_start s orc))
    as (e & E & _ & O); [|apply e_start_EI; exact Hs|cbn; lia|exists e; split; assumption].
  intros e I Hr. destruct (imcu_spec s Hs (fun ci r b => F ci (r * 8) (b * 8)) (cd_build s F) e I Hr) as (ok & e' & E & I' & D).
  { intros yo col Hy Hc. apply cd_build_ok; assumption. }
  exists e'. unfold again, compress_data. rewrite E. split; [reflexivity|]. split; [exact I'|]. destruct ok; [left|right]; exact D.
Qed.
Print Assumptions C38_encode_one_pass.

Theorem C38_encode_transcode : forall p f l sc (a : varr) A orc, coded p f l sc ->
  (forall c r b, In c (f_comps f) -> r < Z.to_nat (c_height_in_blocks c) -> b < Z.to_nat (c_width_in_blocks c) ->
     a (Z.to_nat (c_index c)) r b = Some (A (Z.to_nat (c_index c)) r b)) ->
  let s := ks_of f sc in
  exists e, drive (k_T s + length orc) e_row (k_T s) (again (trans_output s a)) (e_start s orc) = Ret e /\
    e_out e = scan_mcus s A.
Proof.
  intros p f l sc a A orc H Ha s. destruct (coded_scan p f l sc H) as (Hs & HD & SC). fold s in Hs, HD.
  destruct (drive_EI s A (k_T s + length orc) (again (trans_output s a)) (e_start s orc))
    as (e & E & _ & O); [|apply e_start_EI; exact Hs|cbn; lia|exists e; split; assumption].
  intros e I Hr. destruct (imcu_spec s Hs A (ct_build s a) e I Hr) as (ok & e' & E & I' & D).
  { intros yo col Hy Hc. apply (ct_build_ok s Hs A); try assumption. intros c r b Hc' Hr' Hb.
    unfold s in Hc'. cbn [ks_of k_comps] in Hc'. apply in_map_iff in Hc'. destruct Hc' as (x & <- & Hx).
    apply (Ha (s_comp x)); try assumption. destruct H as (_ & _ & Hl & _). apply Hl. rewrite <- SC. apply in_map. exact Hx. }
  exists e'. unfold again, trans_output. rewrite (access_all s Hs) by (try exact Hr; intros x Hx; exact Hx). cbn [bind]. rewrite E.
  split; [reflexivity|]. split; [exact I'|]. destruct ok; [left|right]; exact D.
Qed.
Print Assumptions C38_encode_transcode.

(* Multi-pass: the first scan is sent while the coefficient arrays are filled. *)
Definition again_first (s : ks) F all (st : varr * est) : outcome (varr * est) :=
  '(_, a, e) <- compress_first_pass s F all (fst st) (snd st) ;; Ret (a, e).

Lemma kc_frame_pad : forall x A r b, padA A (kc_of x) r b = padA A (kc_frame (s_comp x)) r b.
Proof. reflexivity. Qed.

Theorem C38_encode_first_pass : forall p f l sc F orc a0, coded p f l sc ->
  let s := ks_of f sc in
  exists a e, drive (k_T s + length orc) (fun st => e_row (snd st)) (k_T s) (again_first s F (map kc_frame (f_comps f)))
                (a0, e_start s orc) = Ret (a, e) /\
    e_out e = scan_mcus s (fun ci r b => F ci (r * 8) (b * 8)) /\
    (* the arrays hold every block of every component, for the later scans *)
    forall c r b, In c (f_comps f) -> r < Z.to_nat (c_height_in_blocks c) -> b < Z.to_nat (c_width_in_blocks c) ->
      a (Z.to_nat (c_index c)) r b = Some (F (Z.to_nat (c_index c)) (r * 8) (b * 8)).
Proof.
  intros p f l sc F orc a0 H s. destruct (coded_scan p f l sc H) as (Hs & HD & SC). fold s in Hs, HD.
  destruct H as (E & HL & Hl & ND & Es). set (all := map kc_frame (f_comps f)).
  assert (FC : forall c, In c all -> fc_ok (k_T s) c).
  { intros c Hc. apply in_map_iff in Hc. destruct Hc as (c' & <- & Hc). exact (frame_fc p f c' E Hc). }
  assert (NA : NoDup (map k_idx all)) by (unfold all; rewrite map_map; exact (frame_nodup p f E)).
  set (A := fun ci r b => F ci (r * 8) (b * 8)).
  (* what the arrays hold after the rows below [n] *)
  set (AI := fun (a : varr) n => forall c r b, In c all -> r < n * k_v c -> b < wid c -> a (k_idx c) r b = Some (padA A c r b)).
  assert (ST : forall a e, AI a (e_row e) -> EI s A e -> e_row e < k_T s -> exists a' e',
     again_first s F all (a, e) = Ret (a', e') /\ AI a' (e_row e') /\ EI s A e' /\
     (e_row e' = e_row e + 1 /\ length (e_orc e') <= length (e_orc e) \/ e_row e' = e_row e /\ length (e_orc e') < length (e_orc e))).
  { intros a e HA I Hr. destruct (fp_all_ok2 s F (e_row e) all a FC NA Hr) as (a' & E1 & P1 & P2).
    assert (HA' : AI a' (e_row e + 1)).
    { intros c r b Hc Hrb Hb. destruct (Nat.lt_ge_cases r (e_row e * k_v c)) as [L|L].
      - rewrite P2; [apply HA; assumption| ]. intros c' Hc' Q. assert (c = c').
        { clear - NA Hc Hc' Q. induction all as [|x q IH]; [destruct Hc|]. cbn in NA. inversion NA as [|? ? X Y]; subst.
          destruct Hc as [<- |Hc], Hc' as [<- |Hc']; [reflexivity| | |auto].
          - exfalso. apply X. rewrite Q. apply in_map. exact Hc'.
          - exfalso. apply X. rewrite <- Q. apply in_map. exact Hc. }
        subst c'. lia.
      - apply P1; [exact Hc|lia|exact Hb]. }
    destruct (imcu_spec s Hs A (co_build s a') e I Hr) as (ok & e' & E2 & I' & D).
    { intros yo col Hy Hc. apply (co_build_ok s Hs A); try assumption. intros c r b Hc' Hr' Hb.
      unfold s in Hc'. cbn [ks_of k_comps] in Hc'. apply in_map_iff in Hc'. destruct Hc' as (x & <- & Hx).
      rewrite kc_frame_pad. apply (P1 (kc_frame (s_comp x)) r b); [|exact Hr'|exact Hb].
      apply in_map. apply Hl. rewrite <- SC. apply in_map. exact Hx. }
    exists a', e'. unfold again_first, compress_first_pass, compress_output. cbn [fst snd]. rewrite E1. cbn [bind].
    rewrite (access_all s Hs) by (try exact Hr; intros x Hx; exact Hx). cbn [bind]. rewrite E2. cbn [bind].
    split; [reflexivity|]. split; [|split; [exact I'|destruct ok; [left|right]; exact D]].
    destruct ok; destruct D as [-> _]; [exact HA'|]. intros c r b Hc Hrb Hb. apply HA'; [exact Hc|nia|exact Hb]. }
  assert (DR : forall fuel a e, AI a (e_row e) -> EI s A e -> k_T s - e_row e + length (e_orc e) <= fuel ->
    exists a' e', drive fuel (fun st => e_row (snd st)) (k_T s) (again_first s F all) (a, e) = Ret (a', e') /\
      e_row e' = k_T s /\ AI a' (e_row e') /\ EI s A e').
  { induction fuel as [|n IH]; intros a e HA HI Hf; cbn [drive snd]; destruct (Nat.leb_spec (k_T s) (e_row e)) as [L|L]; try lia.
    1, 2: exists a, e; pose proof (ei_row s A e HI); split; [reflexivity|]; split; [lia|]; split; [exact HA|exact HI].
    destruct (ST a e HA HI L) as (a' & e' & -> & HA' & HI' & D). cbn [bind]. apply IH; [exact HA'|exact HI'|lia]. }
  destruct (DR (k_T s + length orc) a0 (e_start s orc)) as (a & e & E1 & E2 & E3 & E4).
  { intros c r b _ W. cbn in W. lia. }
  { apply e_start_EI; exact Hs. }
  { cbn. lia. }
  exists a, e. split; [exact E1|]. split.
  - exact (EI_done s A e E4 E2).
  - intros c r b Hc Hr Hb. rewrite E2 in E3. pose proof (FC (kc_frame c) (in_map kc_frame _ _ Hc)) as K.
    specialize (E3 (kc_frame c) r b (in_map kc_frame _ _ Hc)). cbn [kc_frame k_idx] in E3. rewrite E3.
    + f_equal. change (F (Z.to_nat (c_index c)) (r * 8) (b * 8)) with (A (k_idx (kc_frame c)) r b). apply padA_real; assumption.
    + pose proof (fc_hi _ _ K) as HH. cbn [kc_frame k_hib k_v] in HH |- *. lia.
    + pose proof (wid_eq s (kc_frame c) K) as (_ & _ & W). cbn [kc_frame k_wib] in W. lia.
Qed.
Print Assumptions C38_encode_first_pass.

(* ---------------------------------------------------------------- *)
(* The decompressor.  It is called again and again (on a suspension, more input
   arrives); [orc] says where it suspends.  Whatever the pattern, it reports
   SCAN_COMPLETED at the end and has used exactly the MCUs of the scan. *)

(* In every scan each real block of each of its components occurs, and no place
   occurs twice. *)
Theorem C38_every_block_once : forall p f l sc ms, coded p f l sc -> let s := ks_of f sc in well_formed s ms ->
  (forall c r b, In c (k_comps s) -> r < k_hib c -> b < k_wib c -> exists x, In (c, r, b, x) (placed s ms)) /\
  NoDup (map (fun q => match q with (c, r, b, _) => (k_idx c, r, b) end) (placed s ms)).
Proof.
  intros p f l sc ms H s WF. destruct (coded_scan p f l sc H) as (Hs & HD & _). fold s in Hs, HD. split.
  2: { unfold placed. rewrite (proj1 WF). exact (keys_NoDup s Hs ms WF _ (le_n _)). }
  intros c r b Hc Hr Hb. pose proof (so_comps s Hs c Hc) as K. pose proof (so_cols s Hs) as HCo.
  pose proof (MW_pos s Hs c Hc) as MW1. pose proof (MH_pos s Hs c Hc) as MH1.
  set (my := r / k_MH c). set (mx := b / k_MW c).
  assert (B1 : my < mcu_rows s).
  { unfold my. apply Nat.div_lt_upper_bound; [lia|]. rewrite (rows_eq s c Hc). pose proof (ko_hib s c K). pose proof (ko_lrh s c K). pose proof (so_T s Hs).
    destruct (Nat.eq_dec _ 1) as [Q|Q]; [destruct (ko_one s c K Q) as [_ ->]; lia|destruct (ko_many s c K Q) as [_ ->]; nia]. }
  assert (B2 : mx < k_cols s).
  { unfold mx. apply Nat.div_lt_upper_bound; [lia|]. pose proof (ko_wib s c K). pose proof (ko_lcw s c K). nia. }
  set (k := my * k_cols s + mx). assert (Hk : k < mcu_rows s * k_cols s) by (unfold k; nia).
  destruct (mcu_at s my mx B2) as [D1 D2]. fold k in D1, D2.
  assert (IP : In (c, r, b) (pos s my mx)).
  { apply in_pos. exists (r mod k_MH c), (b mod k_MW c). split; [exact Hc|].
    pose proof (Nat.mod_upper_bound r (k_MH c) ltac:(lia)). pose proof (Nat.mod_upper_bound b (k_MW c) ltac:(lia)).
    pose proof (Nat.div_mod r (k_MH c) ltac:(lia)). pose proof (Nat.div_mod b (k_MW c) ltac:(lia)). unfold my, mx. lia. }
  apply In_nth_error in IP. destruct IP as (j & IP).
  assert (Lj : j < length (nth k ms [])).
  { rewrite (MM_len s ms WF k Hk), <- (pos_length s my mx). apply nth_error_Some. congruence. }
  destruct (nth_error (nth k ms []) j) as [x|] eqn:Ex; [|apply nth_error_None in Ex; lia].
  exists x. unfold placed. apply in_flat_map. exists k. split; [apply in_seq; rewrite (proj1 WF); lia|]. rewrite D1, D2.
  clear - IP Ex. revert IP Ex. generalize (pos s my mx), (nth k ms []). induction j as [|j IH]; intros u v IP Ex; destruct u, v; try discriminate; cbn in *.
  - left. congruence.
  - right. apply IH; assumption.
Qed.
Print Assumptions C38_every_block_once.

Theorem C38_decode_buffered : forall p f l sc ms rest orc a0, coded p f l sc -> let s := ks_of f sc in well_formed s ms ->
  exists d a, drive (k_T s + length orc) (fun p => d_row (fst (fst p))) (k_T s) (Dstep varr (consume_data s))
                (d_start s orc (ms ++ rest), a0, None) = Ret (d, a, Some SCAN_COMPLETED) /\
    d_in d = rest /\
    (forall c r b x, In (c, r, b, x) (placed s ms) -> a (k_idx c) r b = Some x) /\
    (forall i r b, (forall c x, In (c, r, b, x) (placed s ms) -> i <> k_idx c) -> a i r b = a0 i r b).
Proof.
  intros p f l sc ms rest orc a0 H s WF. destruct (coded_scan p f l sc H) as (Hs & HD & _). fold s in Hs, HD.
  set (part := fun k => combine (pos s (k / k_cols s) (k mod k_cols s)) (nth k ms [])).
  set (P := fun k a => foldM wr (flat_map part (seq 0 k)) a0 = Ret a).
  rewrite (ms_seq s ms WF).
  destruct (drive_DI s Hs (fun k => nth k ms []) rest varr P (cs_store s)) with (fuel := k_T s + length orc) (step := consume_data s)
    (d := d_start s orc (map (fun k => nth k ms []) (seq 0 (mcu_rows s * k_cols s)) ++ rest)) (a := a0) (r0 := @None dret) as (d & a & E & PN & I).
  - intros row yo col a Hr Hy Hc HP. exact (cs_step s Hs ms WF a0 row yo col a Hr Hy Hc HP).
  - intros d a _ Hr. unfold consume_data. rewrite (access_all s Hs) by (try exact Hr; intros x Hx; exact Hx). reflexivity.
  - apply d_start_DI; [exact Hs|]. reflexivity.
  - cbn. lia.
  - cbn. exact (so_T s Hs).
  - exists d, a. split; [exact E|]. split; [exact I|]. unfold P in PN.
    assert (EP : placed s (map (fun k => nth k ms []) (seq 0 (mcu_rows s * k_cols s))) = flat_map part (seq 0 (mcu_rows s * k_cols s))).
    { rewrite <- (ms_seq s ms WF). unfold placed. rewrite (proj1 WF). reflexivity. }
    rewrite EP. destruct (wr_all (flat_map part (seq 0 (mcu_rows s * k_cols s))) a0) as (a' & E' & K1 & K2).
    { intros q Hq. apply in_flat_map in Hq. destruct Hq as (k & Hk & Hq). apply in_seq in Hk. apply (part_inb s Hs ms k q); [lia|exact Hq]. }
    assert (a' = a) by congruence. subst a'. split.
    + apply K2. exact (keys_NoDup s Hs ms WF _ (le_n _)).
    + intros i r b Hn. apply K1. intros W. apply in_map_iff in W. destruct W as ([[[c r'] b'] x] & W1 & W2). cbn in W1. injection W1 as <- -> ->.
      exact (Hn c x W2 eq_refl).
Qed.
Print Assumptions C38_decode_buffered.

Theorem C38_decode_one_pass : forall p f l sc ms rest orc first last needed, coded p f l sc -> let s := ks_of f sc in well_formed s ms ->
  exists d, drive (k_T s + length orc) (fun p => d_row (fst (fst p))) (k_T s) (Dstep (list ev) (decompress_onepass s first last needed))
                (d_start s orc (ms ++ rest), [], None)
            = Ret (d, flat_map (shown first last needed) (placed s ms), Some SCAN_COMPLETED) /\
    d_in d = rest.
Proof.
  intros p f l sc ms rest orc first last needed H s WF. destruct (coded_scan p f l sc H) as (Hs & HD & _). fold s in Hs, HD.
  set (part := fun k => combine (pos s (k / k_cols s) (k mod k_cols s)) (nth k ms [])).
  set (P := fun k l => l = flat_map (shown first last needed) (flat_map part (seq 0 k))).
  assert (EP : placed s ms = flat_map part (seq 0 (mcu_rows s * k_cols s))) by (unfold placed; rewrite (proj1 WF); reflexivity).
  rewrite EP. replace (ms ++ rest) with (map (fun k => nth k ms []) (seq 0 (mcu_rows s * k_cols s)) ++ rest) by (rewrite <- (ms_seq s ms WF); reflexivity).
  destruct (drive_DI s Hs (fun k => nth k ms []) rest (list ev) P (op_store s first last needed)) with (fuel := k_T s + length orc)
    (step := decompress_onepass s first last needed)
    (d := d_start s orc (map (fun k => nth k ms []) (seq 0 (mcu_rows s * k_cols s)) ++ rest)) (a := @nil ev) (r0 := @None dret) as (d & a & E & PN & I).
  - intros row yo col a Hr Hy Hc HP. unfold P in HP. set (k := (myof s row + yo) * k_cols s + col) in *.
    assert (Hk : k < mcu_rows s * k_cols s) by (pose proof (my_lt s Hs row yo Hr Hy); unfold k; nia).
    rewrite (op_store_eq s Hs first last needed) by (try assumption; exact (MM_len s ms WF k Hk)).
    eexists. split; [reflexivity|]. unfold P. rewrite HP. rewrite (Nat.add_1_r k), (seq_S k 0), flat_map_app, flat_map_app. f_equal.
    cbn [flat_map]. rewrite app_nil_r. unfold part. destruct (mcu_at s (myof s row + yo) col Hc) as [D1 D2]. fold k in D1, D2.
    rewrite Nat.add_0_l, D1, D2. reflexivity.
  - reflexivity.
  - apply d_start_DI; [exact Hs|]. reflexivity.
  - cbn. lia.
  - cbn. exact (so_T s Hs).
  - exists d. rewrite E. unfold P in PN. rewrite PN. split; [reflexivity|exact I].
Qed.
Print Assumptions C38_decode_one_pass.

(* Round trip: what the compressor sent comes back. *)
Lemma scan_wf : forall s A, scan_ok s -> well_formed s (scan_mcus s A).
Proof.
  intros s A Hs. unfold scan_mcus. split; [rewrite map_length, seq_length; reflexivity|]. intros m Hm. apply in_map_iff in Hm. destruct Hm as (k & <- & Hk).
  apply in_seq in Hk. pose proof (so_cols s Hs). rewrite (mcu_spec_pad s Hs A) by (try apply Nat.mod_upper_bound; try apply Nat.div_lt_upper_bound; lia).
  apply mpad_part_length.
Qed.
Lemma placed_real : forall s A c r b x, scan_ok s -> In (c, r, b, x) (placed s (scan_mcus s A)) -> r < k_hib c -> b < k_wib c -> x = A (k_idx c) r b.
Proof.
  intros s A c r b x Hs H Hr Hb. unfold placed in H. apply in_flat_map in H. destruct H as (k & Hk & H). apply in_seq in Hk.
  unfold scan_mcus in H, Hk. rewrite map_length, seq_length in Hk. pose proof (so_cols s Hs).
  rewrite (nth_indep _ _ (mcu_spec s A (0 / k_cols s) (0 mod k_cols s))) in H by (rewrite map_length, seq_length; lia).
  rewrite (map_nth (fun k => mcu_spec s A (k / k_cols s) (k mod k_cols s)) _ 0 k) in H. rewrite seq_nth in H by lia. cbn [Nat.add] in H.
  rewrite (mcu_spec_pad s Hs A) in H by (try apply Nat.mod_upper_bound; try apply Nat.div_lt_upper_bound; lia). rewrite mpad_pos in H.
  assert (G : forall (l : list (kc * nat * nat)) (g : kc * nat * nat -> block) p y, In (p, y) (combine l (map g l)) -> y = g p).
  { induction l as [|u l IH]; intros g p0 y W; [destruct W|]. destruct W as [W|W]; [injection W as <- <-; reflexivity|exact (IH g p0 y W)]. }
  rewrite (G _ _ _ _ H). apply padA_real; assumption.
Qed.

Theorem C38_round_trip : forall p f l sc F orc orc' a0, coded p f l sc -> let s := ks_of f sc in
  exists e d a,
    drive (k_T s + length orc) e_row (k_T s) (again (compress_data s F)) (e_start s orc) = Ret e /\
    drive (k_T s + length orc') (fun p => d_row (fst (fst p))) (k_T s) (Dstep varr (consume_data s))
                (d_start s orc' (e_out e), a0, None) = Ret (d, a, Some SCAN_COMPLETED) /\
    d_in d = [] /\
    forall c r b, In c l -> r < Z.to_nat (c_height_in_blocks c) -> b < Z.to_nat (c_width_in_blocks c) ->
      a (Z.to_nat (c_index c)) r b = Some (F (Z.to_nat (c_index c)) (r * 8) (b * 8)).
Proof.
  intros p f l sc F orc orc' a0 H s. destruct (coded_scan p f l sc H) as (Hs & HD & SC). fold s in Hs, HD.
  destruct (C38_encode_one_pass p f l sc F orc H) as (e & E1 & E2). fold s in E1, E2. exists e.
  set (A := fun ci r b => F ci (r * 8) (b * 8)) in *. pose proof (scan_wf s A Hs) as WF.
  destruct (C38_decode_buffered p f l sc _ [] orc' a0 H WF) as (d & a & D1 & D2 & D3 & D4). fold s in D1, D3. exists d, a.
  rewrite E2. rewrite app_nil_r in D1. split; [exact E1|]. split; [exact D1|]. split; [exact D2|].
  intros c r b Hc Hr Hb. rewrite <- SC in Hc. apply in_map_iff in Hc. destruct Hc as (x & <- & Hx).
  assert (HK : In (kc_of x) (k_comps s)) by (unfold s; cbn [ks_of k_comps]; apply in_map; exact Hx).
  destruct (C38_every_block_once p f l sc _ H WF) as [Q _]. destruct (Q (kc_of x) r b HK Hr Hb) as (y & Hy). fold s in Hy.
  pose proof (placed_real s A (kc_of x) r b y Hs Hy Hr Hb) as ->. exact (D3 _ _ _ _ Hy).
Qed.
Print Assumptions C38_round_trip.

(* ---------------------------------------------------------------- *)
(* Output from the coefficient arrays (after all scans of a multi-scan file). *)
Definition output_all (f : frame) (firstc lastc : nat -> nat) (needed : nat -> bool) (a : varr) : outcome (list ev) :=
  let T := Z.to_nat (f_total_iMCU_rows f) in
  foldM (decompress_data T firstc lastc needed (map kc_frame (f_comps f)) a) (seq 0 T) [].

Lemma foldM_flat_ret : forall X Y (g : X -> list Y) (h : X -> list Y -> outcome (list Y)) xs l,
  (forall x l, In x xs -> h x l = Ret (l ++ g x)) -> foldM h xs l = Ret (l ++ flat_map g xs).
Proof.
  intros X Y g h. induction xs as [|x xs IH]; intros l Hh; cbn [foldM flat_map]; [rewrite app_nil_r; reflexivity|].
  rewrite Hh by (left; reflexivity). cbn [bind]. rewrite IH by (intros; apply Hh; right; assumption). rewrite app_assoc. reflexivity.
Qed.

Theorem C38_output_buffered : forall p f firstc lastc needed a A, c_initial_setup p = Ret f -> p_lossless p = false ->
  (forall c, In c (f_comps f) -> lastc (Z.to_nat (c_index c)) < Z.to_nat (c_width_in_blocks c)) ->
  (forall c r b, In c (f_comps f) -> r < Z.to_nat (c_height_in_blocks c) -> b < Z.to_nat (c_width_in_blocks c) ->
     a (Z.to_nat (c_index c)) r b = Some (A (Z.to_nat (c_index c)) r b)) ->
  exists es, output_all f firstc lastc needed a = Ret es /\
    NoDup (map (fun e => (v_ci e, v_y e, v_x e)) es) /\
    forall e, In e es <-> exists c r b, In c (f_comps f) /\ let i := Z.to_nat (c_index c) in needed i = true /\
      r < Z.to_nat (c_height_in_blocks c) /\ firstc i <= b <= lastc i /\
      e = mkEv i (r * 8) ((b - firstc i) * 8) (A i r b).
Proof.
  intros p f firstc lastc needed a A E HL Hlast Ha. set (T := Z.to_nat (f_total_iMCU_rows f)).
  set (s := mkKs [] 0 T). set (all := map kc_frame (f_comps f)).
  assert (FC : forall c, In c all -> fc_ok T c /\ k_DS c = 8 /\ lastc (k_idx c) < k_wib c /\
     (forall r b, r < k_hib c -> b < k_wib c -> a (k_idx c) r b = Some (A (k_idx c) r b))).
  { intros c Hc. apply in_map_iff in Hc. destruct Hc as (c' & <- & Hc). split; [exact (frame_fc p f c' E Hc)|].
    split. { cbn. destruct (c_initial_ok p f E) as (_&_&_&_&_&_&_&_&HC&_). destruct (HC c' Hc) as (_ & _ & -> & _). rewrite (lossy p f E HL). reflexivity. }
    split; [exact (Hlast c' Hc)|]. intros r b. exact (Ha c' r b Hc). }
  set (g := fun row c => if needed (k_idx c) then flat_map (fun br => map (fun i =>
      mkEv (k_idx c) ((row * k_v c + br) * 8) (i * 8) (A (k_idx c) (row * k_v c + br) (firstc (k_idx c) + i)))
      (seq 0 (lastc (k_idx c) + 1 - firstc (k_idx c)))) (seq 0 (fp_rows s c row)) else []).
  exists (flat_map (fun row => flat_map (g row) all) (seq 0 T)). split; [|split].
  - unfold output_all. fold T all. apply (foldM_flat_ret _ _ (fun row => flat_map (g row) all) _ (seq 0 T) []). intros row l0 Hrow. apply in_seq in Hrow. unfold decompress_data.
    apply foldM_flat_ret. intros c l1 Hc. destruct (FC c Hc) as (K & K8 & KL & KA). unfold dd_comp, g.
    destruct (needed (k_idx c)); [|rewrite app_nil_r; reflexivity].
    assert (HA : access c row = Ret tt).
    { unfold access. rewrite (hei_eq s c K). rewrite (proj2 (Nat.ltb_ge _ _)); [reflexivity|]. cbn [s k_T]. nia. }
    rewrite HA. cbn [bind]. change (if row <? T - 1 then _ else _) with (fp_rows s c row).
    destruct (fp_rows_spec s row c K) as (R1 & R2 & _); [cbn [s k_T]; lia|].
    apply foldM_flat_ret. intros br l2 Hbr. apply in_seq in Hbr.
    assert (Gi : forall xs l3, (forall i, In i xs -> firstc (k_idx c) + i < k_wib c) ->
      foldM (fun i l => b <- vget a c (row * k_v c + br) (firstc (k_idx c) + i) ;;
          Ret (l ++ [mkEv (k_idx c) (row * k_v c * k_DS c + br * k_DS c) (i * k_DS c) b])) xs l3 =
      Ret (l3 ++ map (fun i => mkEv (k_idx c) ((row * k_v c + br) * 8) (i * 8) (A (k_idx c) (row * k_v c + br) (firstc (k_idx c) + i))) xs)).
    { induction xs as [|i xs IH]; intros l3 Hi; cbn [foldM map]; [rewrite app_nil_r; reflexivity|].
      pose proof (Hi i (or_introl eq_refl)). rewrite (vget_ok a c _ _ (A (k_idx c) (row * k_v c + br) (firstc (k_idx c) + i))).
      - cbn [bind]. rewrite IH by (intros; apply Hi; right; assumption). rewrite <- app_assoc. rewrite K8. replace (row * k_v c * 8 + br * 8) with ((row * k_v c + br) * 8) by ring. reflexivity.
      - rewrite (hei_eq s c K). pose proof (fc_hi _ _ K). change (k_T s) with T. lia.
      - pose proof (wid_eq s c K) as (_ & _ & W). unfold wid in W. lia.
      - apply KA; lia. }
    apply Gi. intros i Hi. apply in_seq in Hi. lia.
  - rewrite map_flat_map. apply NoDup_flat; [apply seq_NoDup| |].
    + intros row Hrow. apply in_seq in Hrow. rewrite map_flat_map. apply NoDup_flat.
      * apply (NoDup_map_inv k_idx). unfold all. rewrite map_map. cbn [kc_frame k_idx]. exact (frame_nodup p f E).
      * intros c Hc. unfold g. destruct (needed (k_idx c)); [|constructor]. rewrite map_flat_map. apply NoDup_flat; [apply seq_NoDup| |].
        -- intros br _. rewrite map_map. apply NoDup_map_inj; [apply seq_NoDup|]. cbn. intros i i' _ _ Q. injection Q. lia.
        -- intros br br' x _ _ Q Q'. rewrite map_map in Q, Q'. apply in_map_iff in Q, Q'. destruct Q as (i & <- & _), Q' as (i' & Q' & _). cbn in Q'. injection Q'. lia.
      * intros c c' x Hc Hc' Q Q'. unfold g in Q, Q'.
        assert (GI : forall c0, In x (map (fun e => (v_ci e, v_y e, v_x e)) (g row c0)) -> fst (fst x) = k_idx c0).
        { intros c0 W. apply in_map_iff in W. destruct W as (e & <- & W). unfold g in W. destruct (needed (k_idx c0)); [|destruct W].
          apply in_flat_map in W. destruct W as (br & _ & W). apply in_map_iff in W. destruct W as (i & <- & _). reflexivity. }
        pose proof (GI c Q) as G1. pose proof (GI c' Q') as G2. unfold all in Hc, Hc'. apply in_map_iff in Hc, Hc'.
        destruct Hc as (u & <- & Hu), Hc' as (u' & <- & Hu'). f_equal.
        assert (EI' : Z.to_nat (c_index u) = Z.to_nat (c_index u')) by (cbn in G1, G2; congruence).
        pose proof (frame_nodup p f E) as ND. clear - ND Hu Hu' EI'.
        induction (f_comps f) as [|y q IH]; [destruct Hu|]. cbn in ND. inversion ND as [|? ? X Y]; subst.
        destruct Hu as [<- |Hu], Hu' as [<- |Hu']; [reflexivity| | |auto].
        -- exfalso. apply X. rewrite EI'. exact (in_map (fun c => Z.to_nat (c_index c)) _ _ Hu').
        -- exfalso. apply X. rewrite <- EI'. exact (in_map (fun c => Z.to_nat (c_index c)) _ _ Hu).
    + intros row row' x Hr Hr' Q Q'. apply in_seq in Hr, Hr'.
      assert (GR : forall w, w < T -> In x (map (fun e => (v_ci e, v_y e, v_x e)) (flat_map (g w) all)) ->
        exists c br, In c all /\ k_idx c = fst (fst x) /\ br < k_v c /\ snd (fst x) = (w * k_v c + br) * 8).
      { intros w Hw W. apply in_map_iff in W. destruct W as (e & <- & W). apply in_flat_map in W. destruct W as (c & Hc & W). unfold g in W.
        destruct (needed (k_idx c)); [|destruct W]. apply in_flat_map in W. destruct W as (br & Hbr & W). apply in_seq in Hbr.
        apply in_map_iff in W. destruct W as (i & <- & _). exists c, br. destruct (FC c Hc) as (K & _).
        destruct (fp_rows_spec s w c K) as (R1 & _); [cbn [s k_T]; lia|]. split; [exact Hc|]. split; [reflexivity|]. split; [lia|reflexivity]. }
      destruct (GR row ltac:(lia) Q) as (c & br & Hc & I1 & I2 & I3). destruct (GR row' ltac:(lia) Q') as (c' & br' & Hc' & J1 & J2 & J3).
      assert (k_v c = k_v c').
      { unfold all in Hc, Hc'. apply in_map_iff in Hc, Hc'. destruct Hc as (u & <- & Hu), Hc' as (u' & <- & Hu').
        assert (EI' : Z.to_nat (c_index u) = Z.to_nat (c_index u')) by (cbn in I1, J1; congruence). f_equal. f_equal.
        pose proof (frame_nodup p f E) as ND. clear - ND Hu Hu' EI'.
        induction (f_comps f) as [|y q IH]; [destruct Hu|]. cbn in ND. inversion ND as [|? ? X Y]; subst.
        destruct Hu as [<- |Hu], Hu' as [<- |Hu']; [reflexivity| | |auto].
        - exfalso. apply X. rewrite EI'. exact (in_map (fun c => Z.to_nat (c_index c)) _ _ Hu').
        - exfalso. apply X. rewrite <- EI'. exact (in_map (fun c => Z.to_nat (c_index c)) _ _ Hu). }
      rewrite <- H in *. assert (row * k_v c + br = row' * k_v c + br') by lia. nia.
  - intros e. split.
    + intros W. apply in_flat_map in W. destruct W as (row & Hrow & W). apply in_seq in Hrow. apply in_flat_map in W. destruct W as (c & Hc & W).
      destruct (FC c Hc) as (K & _). unfold all in Hc. apply in_map_iff in Hc. destruct Hc as (u & <- & Hu).
      unfold g in W. destruct (needed (k_idx (kc_frame u))) eqn:En; [|destruct W]. apply in_flat_map in W. destruct W as (br & Hbr & W). apply in_seq in Hbr.
      apply in_map_iff in W. destruct W as (i & <- & Hi). apply in_seq in Hi.
      destruct (fp_rows_spec s row (kc_frame u) K) as (R1 & R2 & _); [cbn [s k_T]; lia|].
      exists u, (row * k_v (kc_frame u) + br), (firstc (k_idx (kc_frame u)) + i). split; [exact Hu|]. cbv zeta. split; [exact En|].
      change (Z.to_nat (c_height_in_blocks u)) with (k_hib (kc_frame u)). change (Z.to_nat (c_index u)) with (k_idx (kc_frame u)).
      split; [lia|]. split; [lia|]. f_equal. f_equal. lia.
    + intros (u & r & b & Hu & En & Hr & Hb & ->). assert (Hc : In (kc_frame u) all) by (apply in_map; exact Hu).
      destruct (FC _ Hc) as (K & _). pose proof (fc_v _ _ K) as Hv. pose proof (fc_hi _ _ K) as Hh.
      set (c := kc_frame u) in *. change (Z.to_nat (c_index u)) with (k_idx c) in *. change (Z.to_nat (c_height_in_blocks u)) with (k_hib c) in Hr.
      pose proof (Nat.div_mod r (k_v c) ltac:(lia)) as D. pose proof (Nat.mod_upper_bound r (k_v c) ltac:(lia)) as M.
      assert (RT : r / k_v c < T) by (apply Nat.div_lt_upper_bound; lia).
      destruct (fp_rows_spec s (r / k_v c) c K) as (R1 & R2 & R3 & R4); [cbn [s k_T]; lia|]. cbn [s k_T] in R3, R4.
      apply in_flat_map. exists (r / k_v c). split; [apply in_seq; lia|]. apply in_flat_map. exists c. split; [exact Hc|].
      unfold g. rewrite En. apply in_flat_map. exists (r mod k_v c). split.
      { apply in_seq. destruct (Nat.lt_ge_cases (r / k_v c) (T - 1)) as [L|L]; [rewrite (R3 L); lia|]. specialize (R4 ltac:(lia)). lia. }
      apply in_map_iff. exists (b - firstc (k_idx c)). split; [|apply in_seq; lia].
      replace (r / k_v c * k_v c + r mod k_v c) with r by lia. replace (firstc (k_idx c) + (b - firstc (k_idx c))) with b by lia. reflexivity.
Qed.
Print Assumptions C38_output_buffered.

(* Non-vacuity: the 227 x 149 4:2:0 image of T_Geom.v, interleaved and luma only. *)
Definition ex_sc := mkScan [mkSC (mkComp 0 2 2 8 29 19 227 149) 2 2 4 16 1 1; mkSC (mkComp 1 1 1 8 15 10 114 75) 1 1 1 8 1 1;
               mkSC (mkComp 2 1 1 8 15 10 114 75) 1 1 1 8 1 1] 15 10 6 [0; 0; 0; 0; 1; 2]%Z.
Example ex_coded : coded ex_p ex_f (f_comps ex_f) ex_sc.
Proof.
  split; [reflexivity|]. split; [reflexivity|]. split; [apply incl_refl|]. split; [|reflexivity]. cbn.
  repeat constructor; cbn; intuition discriminate.
Qed.
Example ex_coded_luma : coded ex_p ex_f [mkComp 0 2 2 8 29 19 227 149] (mkScan [mkSC (mkComp 0 2 2 8 29 19 227 149) 1 1 1 8 1 1] 29 19 1 [0%Z]).
Proof.
  split; [reflexivity|]. split; [reflexivity|]. split; [intros c [<- |[]]; left; reflexivity|]. split; [|reflexivity].
  repeat constructor; cbn; intuition discriminate.
Qed.
(* the last MCU: one real luma block, three dummies repeating its DC, two chroma blocks *)
Example ex_last_mcu : mcu_spec (ks_of ex_f ex_sc) (fun ci r b => (Z.of_nat (ci * 10000 + r * 100 + b), repeat 1%Z 63)) 9 14 =
  [(1828, repeat 1 63); (1828, zeros); (1828, zeros); (1828, zeros); (10914, repeat 1 63); (20914, repeat 1 63)]%Z.
Proof. reflexivity. Qed.
Example ex_wf : well_formed (ks_of ex_f ex_sc) (scan_mcus (ks_of ex_f ex_sc) (fun _ _ _ => (0%Z, zeros))).
Proof. apply scan_wf. exact (proj1 (coded_scan _ _ _ _ ex_coded)). Qed.
