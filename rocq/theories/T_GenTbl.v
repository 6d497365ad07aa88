(* T_GenTbl.v -- property C10: tables built from statistics *)
From Verif Require Import Base M_HuffTbl S_Huff P_HuffTbl P_HuffTblD M_GenTbl P_GenMerge P_GenTbl T_HuffTbl.
From Coq Require Import Permutation.

(* number of occurrences of symbol s (freq[s]), total count, number of distinct symbols *)
Definition count (freq : list Z) (s : Z) : Z := nth (Z.to_nat s) freq 0.
Definition total (freq : list Z) : Z := fold_right Z.add 0 (firstn 256 freq).
Definition distinct (freq : list Z) : nat :=
  length (filter (fun x => 0 <? x) (firstn 256 freq)).

Local Opaque seq firstn.
Lemma filter_map_len {A B} (f : A -> B) p l : length (filter p (map f l)) = length (filter (fun x => p (f x)) l).
Proof. induction l as [|a l IH]; cbn; auto. destruct (p (f a)); cbn; lia. Qed.
Local Transparent seq firstn.

Lemma map_nth_seq (l : list Z) n : (n <= length l)%nat -> map (fun i => nth i l 0) (seq 0 n) = firstn n l.
Proof.
  intros H. apply (nth_ext _ _ 0 0).
  - rewrite map_length, seq_length, firstn_length. lia.
  - intros i Hi. rewrite map_length, seq_length in Hi.
    rewrite (nth_indep _ 0 (nth 0 l 0)) by (rewrite map_length, seq_length; lia).
    rewrite (map_nth (fun i => nth i l 0) (seq 0 n) 0%nat i). rewrite seq_nth by lia. cbn [Nat.add].
    rewrite <- (firstn_skipn n l) at 1. rewrite app_nth1; auto. rewrite firstn_length; lia.
Qed.

Lemma distinct_gen freq n : (n <= length freq)%nat ->
  length (filter (fun x => 0 <? x) (firstn n freq)) =
  length (filter (fun s => 0 <? nth (Z.to_nat s) freq 0) (map Z.of_nat (seq 0 n))).
Proof.
  intros L. rewrite <- (map_nth_seq freq n) by lia. rewrite !filter_map_len. f_equal.
  apply filter_ext. intros a. now rewrite Nat2Z.id.
Qed.
Lemma distinct_used freq : length freq = 257%nat -> distinct freq = length (used_symbols freq).
Proof. intros L. apply distinct_gen. lia. Qed.
Local Opaque used_symbols.

(* C10.  For any statistics with at most 254 distinct symbols and a total below 10^9, the generator
   either reports JERR_HUFF_CLEN_OVERFLOW or produces a table in which exactly the symbols with a
   nonzero count have a code, of 1..16 bits and never all ones; and the compressor and decompressor accept it. *)
Theorem C10_optimal_table : forall old freq,
  huff_type_ok old = true ->
  length freq = 257%nat -> Forall (fun x => 0 <= x) freq ->
  (distinct freq <= 254)%nat -> total freq < 1000000000 ->
  match jpeg_gen_optimal_table old freq with
  | Undef => False
  | Error e => e = JERR_HUFF_CLEN_OVERFLOW
  | Ret t =>
      huff_type_ok t = true /\ code_space_ok (hbits t) /\ NoDup (listed (hbits t) (hval t)) /\
      (forall s, 0 <= s < 256 ->
         (0 < count freq s <-> exists w, sym_code (hbits t) (hval t) s w)) /\
      (forall s w, sym_code (hbits t) (hval t) s w ->
         0 <= s < 256 /\ (1 <= length w <= 16)%nat /\ w <> repeat true (length w)) /\
      (forall lossless isDC, (forall s, 0 <= s < 256 -> 0 < count freq s -> s <= max_symbol lossless isDC) ->
         (exists d, jpeg_make_c_derived_tbl lossless isDC (Some t) = Ret d) /\
         (exists d, jpeg_make_d_derived_tbl lossless isDC (Some t) = Ret d))
  end.
Proof.
  intros old freq Ho L N Hd Ht. rewrite distinct_used in Hd by auto.
  destruct (huff_type_ok_inv old Ho) as (Hb1 & Hb2 & Hv1 & Hv2).
  pose proof (gen_table_spec old freq L N Hv1 Hd Ht) as H.
  destruct (jpeg_gen_optimal_table old freq) as [t|e|]; auto.
  destruct H as (A1 & A2 & A3 & A4 & A5 & A6 & A7).
  assert (Hval : Forall (fun x => 0 <= x < 256) (hval t)).
  { rewrite <- (firstn_skipn (length (used_symbols freq)) (hval t)). apply Forall_app. split.
    - rewrite Forall_forall. intros x Hx. unfold listed in A6. rewrite A5 in A6.
      apply (Permutation_in x A6) in Hx. apply used_spec in Hx; tauto.
    - rewrite A7. rewrite Forall_forall in *. intros x Hx.
      assert (Hx' : In x (hval old)) by (rewrite <- (firstn_skipn (length (used_symbols freq)) (hval old)); apply in_or_app; auto).
      apply (In_nth _ _ (-1)) in Hx' as (i & Hi & <-). apply Hv2. lia. }
  assert (Hty : huff_type_ok t = true).
  { unfold huff_type_ok. rewrite A1, A3. 
    cbn [Nat.eqb andb]. rewrite andb_true_r. apply andb_true_iff. rewrite !forallb_forall. rewrite Forall_forall in A2, Hval.
    assert (G : forall z, 0 <= z < 256 -> byte_ok z = true) by (intros; unfold byte_ok; lia).
    split; intros z Hz; apply G; auto. }
  assert (Hin : forall s, In s (listed (hbits t) (hval t)) <-> exists k, (k < length (code_sizes (hbits t)))%nat /\ nth k (hval t) (-1) = s).
  { intros s. unfold listed. split.
    - intros Hi. apply In_firstn_nth; auto. lia.
    - intros (k & Hk & <-). rewrite <- (firstn_skipn (length (code_sizes (hbits t))) (hval t)) at 1.
      rewrite app_nth1 by (rewrite firstn_length; lia). apply nth_In. rewrite firstn_length; lia. }
  assert (ND : NoDup (listed (hbits t) (hval t))).
  { eapply Permutation_NoDup; [symmetry; exact A6|]. apply used_nodup. }
  assert (Hu : forall s, In s (listed (hbits t) (hval t)) <-> 0 <= s < 256 /\ 0 < count freq s).
  { intros s. split; intros Hs.
    - apply (Permutation_in s A6) in Hs. apply used_spec in Hs. exact Hs.
    - apply (Permutation_in s (Permutation_sym A6)). apply used_spec; auto. }
  split; [exact Hty|]. split; [exact A4|]. split; [exact ND|]. split; [|split].
  - intros s Hs. split.
    + intros Hc. destruct (proj1 (Hin s) (proj2 (Hu s) (conj Hs Hc))) as (k & Hk & E).
      exists (code_word (code_sizes (hbits t)) k), k. auto.
    + intros (w & k & Hk & E & _). apply (proj1 (Hu s)). apply Hin. eauto.
  - intros s w (k & Hk & E & ->). split; [|split].
    + apply (proj1 (Hu s)). apply Hin. eauto.
    + rewrite code_word_length. apply sizes_nth; auto. apply code_sizes_ok.
    + destruct A4. apply code_word_not_ones; auto. apply code_sizes_ok.
  - intros lossless isDC Hm.
    assert (Fm : Forall (fun s => s <= max_symbol lossless isDC) (listed (hbits t) (hval t))).
    { apply Forall_forall. intros s Hs. apply Hu in Hs. apply Hm; tauto. }
    split.
    + pose proof (C01_encoder_table lossless isDC t Hty) as H.
      destruct (jpeg_make_c_derived_tbl lossless isDC (Some t)) as [d|e|]; eauto; [|tauto].
      destruct H as [_ H]. exfalso. apply H. split; auto. split; auto.
    + pose proof (d_derived_spec lossless isDC t Hty) as H.
      destruct H as [[_ (d & E & _)]|[H _]]; eauto.
      exfalso. apply H. split; auto. intros ->. exact Fm.
Qed.
Print Assumptions C10_optimal_table.

(* The two limits are needed.  With 255 distinct symbols (plus the reserved one) of equal count, 256
   codes of length 8 arise and the UINT8 counter bits[8] wraps to 0. *)
Theorem C10_255_symbols_refuted : exists freq,
  length freq = 257%nat /\ Forall (fun x => 0 <= x) freq /\ distinct freq = 255%nat /\ total freq = 255 /\
  jpeg_gen_optimal_table (mkHuff (repeat 0 17) (repeat 0 256)) freq = Undef.
Proof.
  exists (repeat 1 255 ++ [0; 0]). repeat apply conj; try (vm_compute; reflexivity).
  apply Forall_forall. intros x Hx. apply in_app_or in Hx as [Hx|[<-|[<-|[]]]]; [apply repeat_spec in Hx|..]; lia.
Qed.

(* Counts of 10^9 and above are ignored by the search for the two smallest counts; such a symbol keeps
   code length 0 and bit_pos[0], which is never initialised, is used as its index. *)
Theorem C10_huge_counts_refuted : exists freq,
  length freq = 257%nat /\ Forall (fun x => 0 <= x) freq /\ distinct freq = 2%nat /\
  jpeg_gen_optimal_table (mkHuff (repeat 0 17) (repeat 0 256)) freq = Undef.
Proof.
  exists (2000000000 :: 2000000000 :: repeat 0 255). repeat apply conj; try (vm_compute; reflexivity).
  constructor; [lia|constructor; [lia|]]. apply Forall_forall. intros x Hx. apply repeat_spec in Hx. lia.
Qed.

(* Non-vacuity *)
Definition demo_counts : list Z := [5; 0; 3; 1; 1; 9; 20] ++ repeat 0 250.
Example C10_nonvacuous :
  length demo_counts = 257%nat /\ distinct demo_counts = 6%nat /\ total demo_counts = 39 /\
  jpeg_gen_optimal_table (mkHuff (repeat 0 17) (repeat 0 256)) demo_counts =
  Ret (mkHuff ([0; 1; 1; 1; 1; 1; 1] ++ repeat 0 10) ([6; 5; 0; 2; 3; 4] ++ repeat 0 250)).
Proof. repeat split; vm_compute; reflexivity. Qed.
