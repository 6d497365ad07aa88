(* S_MarkWr.v -- what "the decompressor restores what the compressor wrote" means (C30). *)
From Verif Require Import Base M_MarkRd M_MarkWr S_MarkRd.

(* legal parameters of the compressor *)
Definition legal_qtab (t : qtab) : Prop := legal_quant (q_val t).
Definition ncodes (h : htab) : Z := zsum (tl (h_bits h)).
Definition legal_htab (h : htab) : Prop :=
  length (h_bits h) = 17%nat /\ length (h_val h) = 256%nat /\ ncodes h <= 256 /\ bytes (h_bits h) /\ bytes (h_val h).
Definition NTBL : Z := 4.
Definition legal_wcomp (arith : bool) (p : comp) : Prop :=
  byte_val (c_id p) /\ 1 <= c_h p <= 4 /\ 1 <= c_v p <= 4 /\ 0 <= c_q p <= 3 /\
  0 <= c_dc p <= (if arith then 15 else 3) /\ 0 <= c_ac p <= (if arith then 15 else 3).
Record legal_params (c : wst) : Prop := {
  lp_q : length (x_q c) = 4%nat; lp_q2 : Each legal_qtab (x_q c);
  lp_dc : length (x_dc c) = 4%nat; lp_dc2 : Each legal_htab (x_dc c);
  lp_ac : length (x_ac c) = 4%nat; lp_ac2 : Each legal_htab (x_ac c);
  lp_L : length (x_L c) = 16%nat; lp_U : length (x_U c) = 16%nat; lp_K : length (x_K c) = 16%nat;
  lp_LUK : forall k a b d, nth_error (x_L c) k = Some a -> nth_error (x_U c) k = Some b -> nth_error (x_K c) k = Some d -> 0 <= a <= b /\ b <= 15 /\ byte_val d;
  lp_ri : 0 <= x_ri c <= 65535;
  lp_n : 1 <= Z.of_nat (length (x_comps c)) <= 10;
  lp_c : Forall (legal_wcomp (x_arith c)) (x_comps c);
  lp_ids : NoDup (map c_id (x_comps c));
  lp_prec : byte_val (x_prec c); lp_h : 1 <= x_height c <= 65535; lp_w : 1 <= x_width c <= 65535 }.
(* a scan: 1..4 components in increasing order, the decompressor's limit of four selectable components, and parameter ranges.
   In lossless mode the writer must be in its FASTEST profile and use DC table 0 (see the refuted examples in T_MarkWr.v). *)
Record legal_scan_params (c : wst) : Prop := {
  ls_n : 1 <= Z.of_nat (length (x_scan c)) <= 4;
  ls_inc : forall i j a b, (i < j)%nat -> nth_error (x_scan c) i = Some a -> nth_error (x_scan c) j = Some b -> a < b;
  ls_rng : Forall (fun a => 0 <= a < Z.min 4 (Z.of_nat (length (x_comps c)))) (x_scan c);
  ls_Ss : byte_val (x_Ss c); ls_Se : byte_val (x_Se c); ls_Ah : 0 <= x_Ah c <= 15; ls_Al : 0 <= x_Al c <= 15;
  ls_lossless : x_lossless c = true -> x_fastest c = true /\ x_arith c = false /\ x_Se c = 0 /\
     forall a p, In a (x_scan c) -> nth_error (x_comps c) (Z.to_nat a) = Some p -> c_dc p = 0 }.
(* the k-th component of the scan *)
Definition kth (c : wst) (k : nat) (p : comp) : Prop := exists a, nth_error (x_scan c) k = Some a /\ nth_error (x_comps c) (Z.to_nat a) = Some p.
Definition dc_used (c : wst) : Prop := (x_Ss c = 0 /\ x_Ah c = 0) \/ x_lossless c = true.
Definition ac_used (c : wst) : Prop := x_Se c <> 0 /\ x_lossless c = false.
Definition q_has_sent (c : wst) (n : Z) : Prop := exists t, nth_error (x_q c) (Z.to_nat n) = Some (Some t) /\ q_sent t = true.
Definition dc_sent (c : wst) (n : Z) : Prop := exists h, nth_error (x_dc c) (Z.to_nat n) = Some (Some h) /\ h_sent h = true.
Definition ac_sent (c : wst) (n : Z) : Prop := exists h, nth_error (x_ac c) (Z.to_nat n) = Some (Some h) /\ h_sent h = true.
(* emit_multi_dht is right only for scans in which a component whose DC table goes out with an earlier component (or went out
   before) has an AC table of which the same is true *)
Definition paired_tables (c : wst) : Prop :=
  x_fastest c = false -> x_arith c = false -> x_Ss c = 0 -> x_Ah c = 0 -> x_Se c <> 0 ->
  forall k p, kth c k p -> dc_sent c (c_dc p) \/ (exists j q, (j < k)%nat /\ kth c j q /\ c_dc q = c_dc p) ->
    ac_sent c (c_ac p) \/ (exists j q, (j < k)%nat /\ kth c j q /\ c_ac q = c_ac p).

(* the reader's tables agree with the writer's *)
Definition same_huff (h : htab) (r : list Z * list Z) : Prop :=
  tl (fst r) = tl (h_bits h) /\ firstn (Z.to_nat (ncodes h)) (snd r) = firstn (Z.to_nat (ncodes h)) (h_val h).
Definition has_q (c : wst) (s : rst) (n : Z) : Prop :=
  exists t, nth_error (x_q c) (Z.to_nat n) = Some (Some t) /\ nth_error (qt s) (Z.to_nat n) = Some (Some (q_val t)).
Definition has_dc (c : wst) (s : rst) (n : Z) : Prop :=
  exists h r, nth_error (x_dc c) (Z.to_nat n) = Some (Some h) /\ nth_error (dch s) (Z.to_nat n) = Some (Some r) /\ same_huff h r.
Definition has_ac (c : wst) (s : rst) (n : Z) : Prop :=
  exists h r, nth_error (x_ac c) (Z.to_nat n) = Some (Some h) /\ nth_error (ach s) (Z.to_nat n) = Some (Some r) /\ same_huff h r.
(* every table the writer regards as already sent is known to the reader *)
Definition tables_synced (c : wst) (s : rst) : Prop :=
  (forall n, 0 <= n -> q_has_sent c n -> has_q c s n) /\ (forall n, 0 <= n -> dc_sent c n -> has_dc c s n) /\ (forall n, 0 <= n -> ac_sent c n -> has_ac c s n).
(* the frame, as seen by both sides *)
Definition same_comp (p : comp) (r : comp) : Prop := c_id r = c_id p /\ c_h r = c_h p /\ c_v r = c_v p /\ c_q r = c_q p.
Definition frame_synced (c : wst) (s : rst) : Prop :=
  saw_SOI s = true /\ saw_SOF s = true /\ prog s = x_prog c /\ arith s = x_arith c /\
  (x_prog c = false -> x_arith c = false -> lossless s = x_lossless c) /\
  precision s = x_prec c /\ height s = x_height c /\ width s = x_width c /\ ncomp s = Z.of_nat (length (x_comps c)) /\
  (exists cs, comps s = Some cs /\ Forall2 same_comp (x_comps c) cs) /\ ri s = x_last_ri c.
(* the scan, as the reader describes it *)
Definition scan_restored (c : wst) (s : rst) : Prop :=
  nscan s = Z.of_nat (length (x_scan c)) /\ cur s = map Some (x_scan c) ++ repeat None (4 - length (x_scan c)) /\
  rSs s = x_Ss c /\ rSe s = x_Se c /\ rAh s = x_Ah c /\ rAl s = x_Al c /\ ri s = x_ri c /\
  forall k p, kth c k p -> exists cs a r, comps s = Some cs /\ nth_error (x_scan c) k = Some a /\ nth_error cs (Z.to_nat a) = Some r /\ same_comp p r /\
    (dc_used c -> c_dc r = c_dc p) /\ (ac_used c -> c_ac r = c_ac p) /\
    (x_arith c = false -> dc_used c -> has_dc c s (c_dc p)) /\ (x_arith c = false -> ac_used c -> has_ac c s (c_ac p)) /\
    (x_arith c = true -> dc_used c -> nth_error (aL s) (Z.to_nat (c_dc p)) = nth_error (x_L c) (Z.to_nat (c_dc p)) /\ nth_error (aU s) (Z.to_nat (c_dc p)) = nth_error (x_U c) (Z.to_nat (c_dc p))) /\
    (x_arith c = true -> ac_used c -> nth_error (aK s) (Z.to_nat (c_ac p)) = nth_error (x_K c) (Z.to_nat (c_ac p))).

(* the reader's state between headers: no marker pending, tables of the right sizes (every used state has legal_tables, C31_tables) *)
Definition sized (s : rst) : Prop :=
  length (qt s) = 4%nat /\ (forall n t, nth_error (qt s) n = Some (Some t) -> length t = 64%nat) /\ length (dch s) = 4%nat /\ length (ach s) = 4%nat /\
  length (aL s) = 16%nat /\ length (aU s) = 16%nat /\ length (aK s) = 16%nat.
Definition in_step (c : wst) (s : rst) : Prop := frame_synced c s /\ tables_synced c s /\ sized s /\ unread s = 0.
(* a reader that is about to read a new datastream: created or reset, and using the default APP0/APP14 routines *)
Definition fresh (s : rst) : Prop :=
  saw_SOI s = false /\ saw_SOF s = false /\ comps s = None /\ unread s = 0 /\ nth_error (proc_app s) 0 = Some 1 /\ nth_error (proc_app s) 14 = Some 1.
(* the tables the scan needs exist *)
Definition scan_tables (c : wst) : Prop :=
  x_arith c = false -> forall k p, kth c k p ->
    (dc_used c -> exists h, nth_error (x_dc c) (Z.to_nat (c_dc p)) = Some (Some h)) /\ (ac_used c -> exists h, nth_error (x_ac c) (Z.to_nat (c_ac p)) = Some (Some h)).
Definition quant_tables (c : wst) : Prop := x_lossless c = false -> forall p, In p (x_comps c) -> exists t, nth_error (x_q c) (Z.to_nat (c_q p)) = Some (Some t).
Definition legal_app (c : wst) : Prop :=
  byte_val (x_jmaj c) /\ byte_val (x_jmin c) /\ byte_val (x_unit c) /\ 0 <= x_xd c <= 65535 /\ 0 <= x_yd c <= 65535 /\ byte_val (x_transform c).
(* the application markers, as the reader reports them *)
Definition app_restored (c : wst) (s : rst) : Prop :=
  saw_JFIF s = x_jfif c /\ (x_jfif c = true -> jf_maj s = x_jmaj c /\ jf_min s = x_jmin c /\ dunit s = x_unit c /\ xdens s = x_xd c /\ ydens s = x_yd c) /\
  saw_Adobe s = x_adobe c /\ (x_adobe c = true -> transform s = x_transform c).
(* c' is c, but for tables now marked as sent and the recorded restart interval *)
Definition same_settings (c c' : wst) : Prop :=
  (exists q d a r, c' = put_last_ri (put_q (put_dc (put_ac c a) d) q) r) /\
  map (option_map q_val) (x_q c') = map (option_map q_val) (x_q c) /\
  map (option_map (fun h => (h_bits h, h_val h))) (x_dc c') = map (option_map (fun h => (h_bits h, h_val h))) (x_dc c) /\
  map (option_map (fun h => (h_bits h, h_val h))) (x_ac c') = map (option_map (fun h => (h_bits h, h_val h))) (x_ac c).
