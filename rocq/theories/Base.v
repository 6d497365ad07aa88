(* Base.v -- conventions shared by all models of the mozjpeg C code.

   C integers are modelled by Z.  Unsigned wrap-around is written explicitly
   with [u8], [u16], [u32], [u64].  A C function returns an [outcome]:
     Ret v    normal return
     Error e  ERREXIT with message code e (jerror.h)
     Undef    undefined behaviour (out-of-bounds access, bad shift count, ...)
   "return FALSE" (suspension) is an ordinary value of the modelled function. *)
From Coq Require Export ZArith List Lia Bool.
Export ListNotations.
Open Scope Z_scope.

(* Error codes used by the models, named as in jerror.h *)
Inductive jerr : Set :=
| JERR_ARITH_NOTIMPL | JERR_BAD_BUFFER_MODE | JERR_BAD_COMPONENT_ID
| JERR_BAD_CROP_SPEC | JERR_BAD_DCT_COEF | JERR_BAD_DCTSIZE | JERR_BAD_HUFF_TABLE
| JERR_BAD_IN_COLORSPACE | JERR_BAD_J_COLORSPACE | JERR_BAD_LENGTH | JERR_BAD_LIB_VERSION
| JERR_BAD_MCU_SIZE | JERR_BAD_POOL_ID | JERR_BAD_PRECISION | JERR_BAD_PROGRESSION
| JERR_BAD_PROG_SCRIPT | JERR_BAD_SAMPLING | JERR_BAD_SCAN_SCRIPT | JERR_BAD_STATE
| JERR_BAD_STRUCT_SIZE | JERR_BAD_VIRTUAL_ACCESS | JERR_BUFFER_SIZE | JERR_CANT_SUSPEND
| JERR_CCIR601_NOTIMPL | JERR_COMPONENT_COUNT | JERR_CONVERSION_NOTIMPL | JERR_DAC_INDEX
| JERR_DAC_VALUE | JERR_DHT_INDEX | JERR_DQT_INDEX | JERR_EMPTY_IMAGE | JERR_EOI_EXPECTED
| JERR_FILE_WRITE | JERR_HUFF_CLEN_OVERFLOW | JERR_HUFF_MISSING_CODE | JERR_IMAGE_TOO_BIG
| JERR_INPUT_EMPTY | JERR_INPUT_EOF | JERR_MISMATCHED_QUANT_TABLE | JERR_MISSING_DATA
| JERR_MODE_CHANGE | JERR_NOTIMPL | JERR_NOT_COMPILED | JERR_NO_ARITH_TABLE
| JERR_NO_HUFF_TABLE | JERR_NO_IMAGE | JERR_NO_QUANT_TABLE | JERR_NO_SOI
| JERR_OUT_OF_MEMORY | JERR_QUANT_COMPONENTS | JERR_QUANT_FEW_COLORS
| JERR_QUANT_MANY_COLORS | JERR_SOF_BEFORE | JERR_SOF_DUPLICATE | JERR_SOF_NO_SOS
| JERR_SOF_UNSUPPORTED | JERR_SOI_DUPLICATE | JERR_SOS_NO_SOF | JERR_TOO_LITTLE_DATA
| JERR_UNKNOWN_MARKER | JERR_WIDTH_OVERFLOW | JERR_BAD_RESTART | JERR_UNSUPPORTED_SUSPEND
| JERR_BAD_PARAM | JERR_OTHER.

Inductive outcome (A : Type) : Type :=
| Ret (a : A)
| Error (e : jerr)
| Undef.
Arguments Ret {A} _.
Arguments Error {A} _.
Arguments Undef {A}.

Definition bind {A B} (m : outcome A) (f : A -> outcome B) : outcome B :=
  match m with Ret a => f a | Error e => Error e | Undef => Undef end.

Notation "x <- m ;; k" := (bind m (fun x => k))
  (at level 61, m at next level, right associativity).
Notation "' p <- m ;; k" := (bind m (fun p => k))
  (at level 61, p pattern, m at next level, right associativity).

(* Wrap-around of unsigned C types *)
Definition u8  (x : Z) : Z := x mod 2 ^ 8.
Definition u16 (x : Z) : Z := x mod 2 ^ 16.
Definition u32 (x : Z) : Z := x mod 2 ^ 32.
Definition u64 (x : Z) : Z := x mod 2 ^ 64.
(* Conversion to a signed 16-bit / 32-bit two's complement type *)
Definition s16 (x : Z) : Z := (x + 2 ^ 15) mod 2 ^ 16 - 2 ^ 15.
Definition s32 (x : Z) : Z := (x + 2 ^ 31) mod 2 ^ 32 - 2 ^ 31.

(* Checked array access: out-of-bounds is undefined behaviour. *)
Definition aget {A} (l : list A) (i : Z) : outcome A :=
  if i <? 0 then Undef
  else match nth_error l (Z.to_nat i) with Some x => Ret x | None => Undef end.

Fixpoint upd {A} (l : list A) (n : nat) (x : A) : list A :=
  match l, n with
  | [], _ => []
  | _ :: t, O => x :: t
  | h :: t, S m => h :: upd t m x
  end.

Definition aset {A} (l : list A) (i : Z) (x : A) : outcome (list A) :=
  if (i <? 0) || (Z.of_nat (length l) <=? i) then Undef
  else Ret (upd l (Z.to_nat i) x).

(* "for (i = lo; i < lo + n; i++) body" over a state *)
Fixpoint for_loop {S} (n : nat) (i : Z) (body : Z -> S -> outcome S) (s : S) : outcome S :=
  match n with
  | O => Ret s
  | Datatypes.S m => s' <- body i s ;; for_loop m (i + 1) body s'
  end.

(* ------------------------------------------------------------------ *)
(* Facts about the conventions *)

Lemma length_upd {A} (l : list A) n x : length (upd l n x) = length l.
Proof. revert n; induction l as [|h t IH]; intros [|n]; cbn; auto. Qed.

Lemma nth_upd_eq {A} (l : list A) n x d :
  (n < length l)%nat -> nth n (upd l n x) d = x.
Proof. revert n; induction l as [|h t IH]; intros [|n] H; cbn in *; try lia; auto.
  apply IH; lia. Qed.

Lemma nth_upd_neq {A} (l : list A) n m x d :
  n <> m -> nth m (upd l n x) d = nth m l d.
Proof. revert n m; induction l as [|h t IH]; intros [|n] [|m] H; cbn in *; try lia; auto. Qed.

Lemma upd_same {A} (l : list A) n d : upd l n (nth n l d) = l.
Proof. revert n; induction l as [|h t IH]; intros [|n]; cbn; auto. f_equal; apply IH. Qed.

Lemma nth_error_upd_eq {A} (l : list A) n x :
  (n < length l)%nat -> nth_error (upd l n x) n = Some x.
Proof. revert n; induction l as [|h t IH]; intros [|n] H; cbn in *; try lia; auto.
  apply IH; lia. Qed.

Lemma nth_error_upd_neq {A} (l : list A) n m x :
  n <> m -> nth_error (upd l n x) m = nth_error l m.
Proof. revert n m; induction l as [|h t IH]; intros [|n] [|m] H; cbn in *; try lia; auto. Qed.

Lemma aget_nth {A} (l : list A) i d :
  0 <= i < Z.of_nat (length l) -> aget l i = Ret (nth (Z.to_nat i) l d).
Proof.
  intros H. unfold aget. destruct (Z.ltb_spec i 0); try lia.
  rewrite (nth_error_nth' l d) by lia. reflexivity.
Qed.

Lemma aget_Ret {A} (l : list A) i x d :
  aget l i = Ret x -> 0 <= i < Z.of_nat (length l) /\ nth (Z.to_nat i) l d = x.
Proof.
  unfold aget. destruct (Z.ltb_spec i 0); [discriminate|].
  destruct (nth_error l (Z.to_nat i)) eqn:E; [|discriminate].
  intros H1; inversion H1; subst. split.
  - assert (Z.to_nat i < length l)%nat by (apply nth_error_Some; congruence). lia.
  - now apply nth_error_nth.
Qed.

Lemma aget_not_Error {A} (l : list A) i e : aget l i <> Error e.
Proof. unfold aget. destruct (i <? 0); [discriminate|].
  destruct (nth_error l (Z.to_nat i)); discriminate. Qed.

Lemma aset_ok {A} (l : list A) i x :
  0 <= i < Z.of_nat (length l) -> aset l i x = Ret (upd l (Z.to_nat i) x).
Proof. intros H. unfold aset. destruct (Z.ltb_spec i 0); try lia.
  destruct (Z.leb_spec (Z.of_nat (length l)) i); try lia. reflexivity. Qed.

Lemma bind_Ret_inv {A B} (m : outcome A) (f : A -> outcome B) b :
  bind m f = Ret b -> exists a, m = Ret a /\ f a = Ret b.
Proof. destruct m; cbn; intros H; try discriminate. eauto. Qed.

Lemma u64_id x : 0 <= x < 2 ^ 64 -> u64 x = x.
Proof. intros; unfold u64; now rewrite Z.mod_small. Qed.
Lemma u32_id x : 0 <= x < 2 ^ 32 -> u32 x = x.
Proof. intros; unfold u32; now rewrite Z.mod_small. Qed.
Lemma u16_id x : 0 <= x < 2 ^ 16 -> u16 x = x.
Proof. intros; unfold u16; now rewrite Z.mod_small. Qed.
Lemma u8_id x : 0 <= x < 2 ^ 8 -> u8 x = x.
Proof. intros; unfold u8; now rewrite Z.mod_small. Qed.
Lemma u8_range x : 0 <= u8 x < 256.
Proof. unfold u8. apply Z.mod_pos_bound. lia. Qed.

(* ------------------------------------------------------------------ *)
(* Bit strings, most significant bit first *)

Fixpoint bits_of (n : nat) (v : Z) : list bool :=
  match n with
  | O => []
  | S m => Z.testbit v (Z.of_nat m) :: bits_of m v
  end.

Fixpoint bval (l : list bool) : Z :=
  match l with
  | [] => 0
  | b :: t => Z.b2z b * 2 ^ Z.of_nat (length t) + bval t
  end.

Lemma length_bits_of n v : length (bits_of n v) = n.
Proof. induction n; cbn; congruence. Qed.

Lemma bval_range l : 0 <= bval l < 2 ^ Z.of_nat (length l).
Proof.
  induction l as [|b t IH]; cbn [bval length].
  - cbn; lia.
  - rewrite Nat2Z.inj_succ, Z.pow_succ_r by lia. destruct b; cbn [Z.b2z]; lia.
Qed.

Lemma bval_app a b : bval (a ++ b) = bval a * 2 ^ Z.of_nat (length b) + bval b.
Proof.
  induction a as [|x a IH]; cbn [app bval]; [lia|].
  rewrite IH, app_length, Nat2Z.inj_add, Z.pow_add_r by lia. ring.
Qed.

Lemma bits_of_ext n v w :
  (forall i, 0 <= i < Z.of_nat n -> Z.testbit v i = Z.testbit w i) ->
  bits_of n v = bits_of n w.
Proof.
  induction n; cbn; intros H; auto. f_equal; [apply H; lia|apply IHn; intros; apply H; lia].
Qed.

Lemma bits_of_mod n v : bits_of n (v mod 2 ^ Z.of_nat n) = bits_of n v.
Proof. apply bits_of_ext. intros i Hi. apply Z.mod_pow2_bits_low. lia. Qed.

Lemma bits_of_app m n v :
  bits_of (m + n) v = bits_of m (Z.shiftr v (Z.of_nat n)) ++ bits_of n v.
Proof.
  induction m; cbn; auto. f_equal; auto.
  rewrite Z.shiftr_spec by lia. f_equal; lia.
Qed.

Lemma nth_bits_of n v i d :
  (i < n)%nat -> nth i (bits_of n v) d = Z.testbit v (Z.of_nat (n - 1 - i)).
Proof.
  revert i; induction n; intros i H; [lia|]. cbn [bits_of].
  destruct i as [|i]; cbn [nth].
  - f_equal. lia.
  - rewrite IHn by lia. f_equal. lia.
Qed.

Lemma bval_bits_of n v : bval (bits_of n v) = v mod 2 ^ Z.of_nat n.
Proof.
  induction n as [|n IH].
  - cbn. symmetry; apply Z.mod_1_r.
  - cbn [bits_of bval]. rewrite length_bits_of, IH.
    rewrite Z.testbit_spec' by lia.
    rewrite Nat2Z.inj_succ, Z.pow_succ_r by lia.
    set (p := 2 ^ Z.of_nat n). assert (0 < p) by (apply Z.pow_pos_nonneg; lia).
    rewrite (Z.mul_comm 2 p).
    rewrite (Z.rem_mul_r v p 2) by lia. ring.
Qed.

Lemma bits_of_add_high n k v : bits_of n (k * 2 ^ Z.of_nat n + v) = bits_of n v.
Proof.
  rewrite <- (bits_of_mod n (k * _ + v)), Z.add_comm, Z.mod_add by lia.
  apply bits_of_mod.
Qed.

Lemma bits_of_bval l : bits_of (length l) (bval l) = l.
Proof.
  induction l as [|b t IH]; [reflexivity|].
  cbn [length bits_of bval]. pose proof (bval_range t) as R.
  rewrite bits_of_add_high, IH. f_equal.
  apply Z.b2z_inj. rewrite Z.testbit_spec' by lia.
  rewrite Z.div_add_l, Z.div_small by lia.
  destruct b; reflexivity.
Qed.

Lemma bits_of_bval_n n l : n = length l -> bits_of n (bval l) = l.
Proof. intros ->. apply bits_of_bval. Qed.

Lemma bval_inj a b : length a = length b -> bval a = bval b -> a = b.
Proof. intros H E. rewrite <- (bits_of_bval a), <- (bits_of_bval b). congruence. Qed.

(* The specification of byte packing: bits grouped 8 at a time, MSB first. *)
Fixpoint bytes_to_bits (bs : list Z) : list bool :=
  match bs with [] => [] | b :: t => bits_of 8 b ++ bytes_to_bits t end.

Lemma bytes_to_bits_app a b : bytes_to_bits (a ++ b) = bytes_to_bits a ++ bytes_to_bits b.
Proof. induction a; cbn [bytes_to_bits app]; auto. now rewrite IHa, app_assoc. Qed.

Lemma length_bytes_to_bits bs : length (bytes_to_bits bs) = (8 * length bs)%nat.
Proof. induction bs; cbn [bytes_to_bits length]; auto.
  rewrite app_length, length_bits_of, IHbs. lia. Qed.

(* ------------------------------------------------------------------ *)
(* Small list facts *)
Lemma map_repeat {A B} (f : A -> B) x n : map f (repeat x n) = repeat (f x) n.
Proof. induction n; cbn; congruence. Qed.

Lemma nth_repeat_lt {A} (a d : A) n i : (i < n)%nat -> nth i (repeat a n) d = a.
Proof. revert i; induction n; intros [|i] H; cbn; try lia; auto. apply IHn; lia. Qed.

Lemma firstn_repeat {A} (a : A) n i : (i <= n)%nat -> firstn i (repeat a n) = repeat a i.
Proof. revert n; induction i; intros [|n] H; cbn; try lia; auto. f_equal; apply IHi; lia. Qed.

Lemma repeat_app' {A} (a : A) m n : repeat a (m + n) = repeat a m ++ repeat a n.
Proof. induction m; cbn; congruence. Qed.

Lemma NoDup_app_l {A} (a b : list A) : NoDup (a ++ b) -> NoDup a.
Proof. induction a; cbn; intros H; [constructor|]. inversion H; subst.
  constructor; auto. intros Hi. apply H2. apply in_or_app; auto. Qed.

Lemma NoDup_app_r {A} (a b : list A) : NoDup (a ++ b) -> NoDup b.
Proof. induction a; cbn; intros H; auto. inversion H; subst. auto. Qed.

Lemma NoDup_snoc {A} (a : list A) x : NoDup a -> ~ In x a -> NoDup (a ++ [x]).
Proof. intros H Hn. induction H; cbn; [constructor; auto; constructor|].
  constructor; [|apply IHNoDup; intros Hi; apply Hn; now right].
  rewrite in_app_iff. intros [Hi|[Hi|[]]]; [auto|]. subst. apply Hn; now left. Qed.

Lemma lor_shiftl_add x y n : 0 <= n -> 0 <= y < 2 ^ n -> Z.lor (Z.shiftl x n) y = x * 2 ^ n + y.
Proof.
  intros Hn Hy. assert (L : Z.land (Z.shiftl x n) y = 0).
  { apply Z.bits_inj'. intros i Hi. rewrite Z.land_spec, Z.bits_0.
    destruct (Z.lt_ge_cases i n).
    - rewrite Z.shiftl_spec_low by lia. reflexivity.
    - destruct (Z.eq_dec y 0) as [->|]; [rewrite Z.bits_0; apply andb_false_r|].
      rewrite (Z.bits_above_log2 y i); [apply andb_false_r|lia|]. apply Z.log2_lt_pow2; [lia|].
      eapply Z.lt_le_trans; [apply Hy|]. apply Z.pow_le_mono_r; lia. }
  rewrite <- Z.lxor_lor, <- Z.add_nocarry_lxor by exact L. now rewrite Z.shiftl_mul_pow2 by lia.
Qed.
