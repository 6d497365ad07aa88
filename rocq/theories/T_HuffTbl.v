(* T_HuffTbl.v -- property C01 (encoder tables) *)
From Verif Require Import Base M_HuffTbl S_Huff P_HuffTbl.

(* the code the derived encoder table holds for symbol s, as a bit string *)
Definition enc_code (d : c_derived_tbl) (s : Z) : list bool :=
  bits_of (Z.to_nat (nth (Z.to_nat s) (ehufsi d) 0)) (nth (Z.to_nat s) (ehufco d) 0).

(* C01: a Huffman table handed to the compressor is rejected with JERR_BAD_HUFF_TABLE exactly
   when it is not a valid code; otherwise the derived table holds, for each listed symbol, its
   canonical T.81 code (1..16 bits, prefix-free, never all ones) and length 0 for the rest. *)
Theorem C01_encoder_table : forall lossless isDC t,
  huff_type_ok t = true ->
  match jpeg_make_c_derived_tbl lossless isDC (Some t) with
  | Undef => False
  | Error e => e = JERR_BAD_HUFF_TABLE /\ ~ enc_table_ok lossless isDC (hbits t) (hval t)
  | Ret d =>
      enc_table_ok lossless isDC (hbits t) (hval t) /\
      (forall s, 0 <= s < 256 -> In s (listed (hbits t) (hval t)) ->
         sym_code (hbits t) (hval t) s (enc_code d s) /\
         (1 <= length (enc_code d s) <= 16)%nat /\
         enc_code d s <> repeat true (length (enc_code d s))) /\
      (forall s, 0 <= s < 256 -> ~ In s (listed (hbits t) (hval t)) -> enc_code d s = []) /\
      (forall s s', 0 <= s < 256 -> 0 <= s' < 256 ->
         In s (listed (hbits t) (hval t)) -> In s' (listed (hbits t) (hval t)) ->
         prefix (enc_code d s) (enc_code d s') -> s = s')
  end.
Proof.
  intros lossless isDC t Ht. pose proof (c_derived_spec lossless isDC t Ht) as H. cbn zeta in H.
  destruct (huff_type_ok_inv t Ht) as (Hb1 & Hb2 & Hv1 & Hv2).
  destruct H as [[Hok (d & E & Hc)]|[Hno E]]; rewrite E; [|split; auto; fail].
  split; [exact Hok|].
  destruct Hok as [[Hlen HK] _].
  pose proof (code_sizes_ok (hbits t)) as Hs.
  set (sz := code_sizes (hbits t)) in *. unfold listed. fold sz.
  destruct Hc as (_ & _ & Hc & Hn).
  assert (Hcode : forall k, (k < length sz)%nat -> enc_code d (nth k (hval t) (-1)) = code_word sz k).
  { intros k Hk. unfold enc_code, code_word. destruct (Hc k Hk) as [-> ->]. now rewrite Nat2Z.id. }
  assert (Hin : forall s, In s (firstn (length sz) (hval t)) ->
                exists k, (k < length sz)%nat /\ nth k (hval t) (-1) = s).
  { intros s Hi. apply In_firstn_nth; auto. lia. }
  split; [|split].
  - intros s Hsr Hi. destruct (Hin s Hi) as (k & Hk & <-). rewrite Hcode by auto. split; [|split].
    + exists k. auto.
    + rewrite code_word_length. apply sizes_nth; auto.
    + apply code_word_not_ones; auto.
  - intros s Hsr Hi. unfold enc_code. destruct (Hn s Hsr Hi) as [-> _]. reflexivity.
  - intros s s' _ _ Hi Hi' Hp. destruct (Hin s Hi) as (k & Hk & <-), (Hin s' Hi') as (k' & Hk' & <-).
    rewrite !Hcode in Hp by auto. apply code_words_prefix_free in Hp; auto. now subst.
Qed.
Print Assumptions C01_encoder_table.

(* a missing table is reported, not dereferenced *)
Theorem C01_missing_table : forall lossless isDC,
  jpeg_make_c_derived_tbl lossless isDC None = Error JERR_NO_HUFF_TABLE.
Proof. reflexivity. Qed.

(* Non-vacuity: the standard luminance DC table (T.81 K.3.1, jstdhuff.c:77-80) is accepted, and a
   table with an all-ones code is rejected. *)
Definition k3_dc_lum : JHUFF_TBL :=
  mkHuff [0;0;1;5;1;1;1;1;1;1;0;0;0;0;0;0;0] ([0;1;2;3;4;5;6;7;8;9;10;11] ++ repeat 0 244).
Example C01_nonvacuous : huff_type_ok k3_dc_lum = true /\
  (exists d, jpeg_make_c_derived_tbl false true (Some k3_dc_lum) = Ret d /\
             enc_code d 2 = [false; true; true]).
Proof. split; [reflexivity|]. eexists. split; [vm_compute; reflexivity|reflexivity]. Qed.
Example C01_reject :
  jpeg_make_c_derived_tbl false true (Some (mkHuff (0 :: 2 :: repeat 0 15) (0 :: 1 :: repeat 0 254)))
  = Error JERR_BAD_HUFF_TABLE.
Proof. vm_compute. reflexivity. Qed.
