(* P_Bmp.v -- proofs about the BMP reader: file fields *)
From Verif Require Import Base M_Pnm S_Pnm P_Pnm P_Pnm3 M_Bmp S_Bmp.

Definition zs (k : Z) (f : list Z) : list Z := skipn (Z.to_nat k) f.
Definition slice (k n : Z) (f : list Z) : list Z := firstn (Z.to_nat n) (zs k f).

Lemma take_cases : forall f k n, 0 <= k -> 0 <= n -> k <= zlen f ->
  (take n (zs k f) = Error JERR_INPUT_EOF /\ zlen f < k + n) \/ (k + n <= zlen f /\ take n (zs k f) = Ret (slice k n f, zs (k + n) f)).
Proof.
  intros f k n Hk Hn Hl. unfold take, slice, zs. rewrite skipn_length. destruct (Z.ltb_spec (Z.of_nat (length f - Z.to_nat k)) n).
  - left. split; [reflexivity|lia].
  - right. split; [lia|]. rewrite skipn_skipn. replace (Z.to_nat n + Z.to_nat k)%nat with (Z.to_nat (k + n)) by lia. reflexivity.
Qed.
Lemma take_ok : forall f k n, 0 <= k -> 0 <= n -> k + n <= zlen f -> take n (zs k f) = Ret (slice k n f, zs (k + n) f).
Proof. intros f k n Hk Hn Hl. destruct (take_cases f k n Hk Hn ltac:(lia)) as [(_ & X)|(_ & X)]; [lia|exact X]. Qed.
Lemma slice_len : forall f k n, 0 <= k -> 0 <= n -> k + n <= zlen f -> zlen (slice k n f) = n.
Proof. intros. unfold slice, zs. rewrite firstn_length, skipn_length. lia. Qed.
Lemma nth_skipz : forall (l : list Z) a b, nth (a + b) l 0 = nth b (skipn a l) 0.
Proof. induction l as [|x l IH]; intros [|a] b; cbn [skipn Nat.add]; try reflexivity; [destruct b; reflexivity|apply IH]. Qed.
Lemma nth_firstnz : forall (l : list Z) n i, (i < n)%nat -> nth i (firstn n l) 0 = nth i l 0.
Proof. induction l as [|x l IH]; intros [|n] [|i] H; cbn [firstn nth]; try reflexivity; try lia. apply IH. lia. Qed.
Lemma byte_slice : forall f k n o, 0 <= k -> 0 <= o < n -> byte (slice k n f) o = byte f (k + o).
Proof. intros. unfold byte, slice, zs. rewrite nth_firstnz by lia. rewrite <- nth_skipz. f_equal. lia. Qed.
Lemma aget_slice : forall f k n o, 0 <= k -> 0 <= o < n -> k + n <= zlen f -> aget (slice k n f) o = Ret (byte f (k + o)).
Proof. intros. rewrite (aget_nth _ _ 0) by (rewrite slice_len; lia). f_equal. apply byte_slice; lia. Qed.
Lemma slice_app : forall f k a b, 0 <= k -> 0 <= a -> 0 <= b -> slice k a f ++ slice (k + a) b f = slice k (a + b) f.
Proof.
  intros f k a b Hk Ha Hb. unfold slice, zs. rewrite !Z2Nat.inj_add by lia. generalize (Z.to_nat k) (Z.to_nat a) (Z.to_nat b). clear. intros k a b.
  rewrite (Nat.add_comm k a), <- skipn_skipn. generalize (skipn k f). clear. induction a as [|a IH]; intros l; [reflexivity|]. destruct l as [|x l]; cbn [firstn skipn Nat.add app].
  - rewrite firstn_nil. reflexivity.
  - f_equal. apply IH.
Qed.
Lemma byte_range : forall f o, bytes f -> 0 <= byte f o <= 255.
Proof. intros f o H. unfold byte. destruct (nth_in_or_default (Z.to_nat o) f 0) as [K| ->]; [|lia]. unfold bytes in H. rewrite Forall_forall in H. apply (H _ K). Qed.
Lemma le2_range : forall f o, bytes f -> 0 <= le2 f o < 65536.
Proof. intros f o H. unfold le2. pose proof (byte_range f o H). pose proof (byte_range f (o + 1) H). lia. Qed.
Lemma le4_range : forall f o, bytes f -> 0 <= le4 f o < 2 ^ 32.
Proof. intros f o H. unfold le4. pose proof (le2_range f o H). pose proof (le2_range f (o + 2) H). change (2 ^ 32) with 4294967296. lia. Qed.
Lemma get2_slice : forall f k n o, 0 <= k -> 0 <= o -> o + 2 <= n -> k + n <= zlen f -> get2 (slice k n f) o = Ret (le2 f (k + o)).
Proof.
  intros. unfold get2. rewrite !aget_slice by lia. cbn [bind]. unfold le2. rewrite Z.shiftl_mul_pow2 by lia. change (2 ^ 8) with 256. rewrite Z.add_assoc. f_equal. lia.
Qed.
Lemma get4_slice : forall f k n o, 0 <= k -> 0 <= o -> o + 4 <= n -> k + n <= zlen f -> get4 (slice k n f) o = Ret (le4 f (k + o)).
Proof.
  intros. unfold get4. rewrite !aget_slice by lia. cbn [bind]. unfold le4, le2. rewrite !Z.shiftl_mul_pow2 by lia.
  change (2 ^ 8) with 256. change (2 ^ 16) with 65536. change (2 ^ 24) with 16777216.
  replace (k + (o + 1)) with (k + o + 1) by lia. replace (k + (o + 2)) with (k + o + 2) by lia. replace (k + (o + 3)) with (k + o + 2 + 1) by lia. f_equal. lia.
Qed.
Lemma s32_small : forall x, 0 <= x < 2 ^ 31 -> s32 x = x.
Proof. intros x H. unfold s32. change (2 ^ 31) with 2147483648 in *. change (2 ^ 32) with 4294967296. rewrite Z.mod_small by lia. lia. Qed.
Lemma s32_range : forall x, - 2 ^ 31 <= s32 x < 2 ^ 31.
Proof. intros x. unfold s32. change (2 ^ 31) with 2147483648 in *. change (2 ^ 32) with 4294967296. pose proof (Z.mod_pos_bound (x + 2147483648) 4294967296 ltac:(lia)). lia. Qed.
Lemma s32_eq : forall x, 0 <= x < 2 ^ 32 -> 0 <= s32 x -> s32 x = x.
Proof.
  intros x H K. unfold s32 in *. change (2 ^ 31) with 2147483648 in *. change (2 ^ 32) with 4294967296 in *.
  destruct (Z.lt_ge_cases x 2147483648); [rewrite Z.mod_small by lia; lia|].
  replace (x + 2147483648) with ((x - 2147483648) + 1 * 4294967296) in * by lia. rewrite Z_mod_plus_full in K |- *. rewrite Z.mod_small in K |- * by lia. lia.
Qed.

(* ---- colour map ---- *)
Definition pent (f : list Z) (k es : Z) (t : Z) : Z * Z * Z := (byte f (k + t * es + 2), byte f (k + t * es + 1), byte f (k + t * es)).
Definition isgray (e : Z * Z * Z) : bool := let '(r, g, b) := e in (b =? g) && (g =? r).
Lemma pent_shift : forall f k es t, pent f (k + es) es t = pent f k es (t + 1).
Proof. intros. unfold pent. replace (k + es + t * es) with (k + (t + 1) * es) by ring. reflexivity. Qed.
Lemma cmap_cases : forall f es n k, 3 <= es <= 4 -> 0 <= k <= zlen f ->
  (read_colormap n es (zs k f) = Error JERR_INPUT_EOF /\ zlen f < k + Z.of_nat n * es) \/
  (k + Z.of_nat n * es <= zlen f /\
   read_colormap n es (zs k f) = Ret (map (fun t => pent f k es (Z.of_nat t)) (seq 0 n), forallb (fun t => isgray (pent f k es (Z.of_nat t))) (seq 0 n), zs (k + Z.of_nat n * es) f)).
Proof.
  intros f es. induction n as [|n IH]; intros k He Hk.
  - right. cbn [Z.of_nat Z.mul]. rewrite Z.add_0_r. split; [lia|reflexivity].
  - cbn [read_colormap]. destruct (take_cases f k es ltac:(lia) ltac:(lia) ltac:(lia)) as [(-> & X)|(X & ->)].
    + left. split; [reflexivity|lia].
    + cbn [bind]. rewrite !aget_slice by lia. cbn [bind]. destruct (IH (k + es) He ltac:(lia)) as [(-> & Y)|(Y & ->)].
      * left. split; [reflexivity|lia].
      * right. split; [lia|]. cbn [bind]. cbn [seq map forallb].
        replace (k + es + Z.of_nat n * es) with (k + Z.of_nat (S n) * es) by lia.
        assert (A1 : map (fun t => pent f (k + es) es (Z.of_nat t)) (seq 0 n) = map (fun t => pent f k es (Z.of_nat t)) (seq 1 n)).
        { rewrite <- seq_shift, map_map. apply map_ext. intros t. rewrite pent_shift. do 2 f_equal. lia. }
        assert (A2 : forallb (fun t => isgray (pent f (k + es) es (Z.of_nat t))) (seq 0 n) = forallb (fun t => isgray (pent f k es (Z.of_nat t))) (seq 1 n)).
        { rewrite <- seq_shift. generalize (seq 0 n). induction l as [|t l IHl]; [reflexivity|]. cbn [map forallb]. rewrite IHl, pent_shift. do 3 f_equal. lia. }
        rewrite A1, A2. unfold pent at 3 5. unfold isgray at 2. cbn [Z.of_nat Z.mul]. rewrite !Z.add_0_r. reflexivity.
Qed.
