(* P_Targa2.v -- proofs about the Targa reader: pixels, rows *)
From Verif Require Import Base M_Pnm S_Pnm M_Bmp S_Bmp M_Targa S_Targa P_Targa.

Lemma expand_ok : forall v, 0 <= v < 32 -> aget c5to8bits v = Ret (expand5 v).
Proof.
  assert (A : forallb (fun n => nth n c5to8bits 0 =? expand5 (Z.of_nat n)) (seq 0 32) = true) by (vm_compute; reflexivity).
  intros v Hv. rewrite (aget_nth c5to8bits v 0) by (cbn [length c5to8bits]; lia). f_equal. rewrite forallb_forall in A. specialize (A (Z.to_nat v)). rewrite Z.eqb_eq, Z2Nat.id in A by lia. apply A. apply in_seq. lia.
Qed.
Lemma land31 : forall v, 0 <= v -> Z.land v 31 = v mod 32.
Proof. intros v _. change 31 with (Z.ones 5). rewrite Z.land_ones by lia. reflexivity. Qed.
Lemma rgb16_ok : forall x y, 0 <= x <= 255 -> 0 <= y <= 255 ->
  put_pixel (mkT false 2 Rgb16 0 0 3 0 false [] (mkS [] 0 0 [])) [x; y] = Ret (let v := x + 256 * y in [expand5 (v / 1024 mod 32); expand5 (v / 32 mod 32); expand5 (v mod 32)]).
Proof.
  intros x y Hx Hy. unfold put_pixel. cbn [t_row]. change (aget [x; y] 0) with (Ret x). change (aget [x; y] 1) with (Ret y). cbn [bind].
  rewrite Z.shiftl_mul_pow2 by lia. change (2 ^ 8) with 256. replace (x + y * 256) with (x + 256 * y) by lia. set (v := x + 256 * y). assert (0 <= v) by (unfold v; lia). clearbody v.
  rewrite !Z.shiftr_div_pow2 by lia. change (2 ^ 5) with 32. pose proof (Z.div_pos v 32 ltac:(lia) ltac:(lia)). pose proof (Z.div_pos (v / 32) 32 ltac:(lia) ltac:(lia)).
  rewrite !land31 by lia. rewrite Z.div_div by lia. change (32 * 32) with 1024.
  rewrite !expand_ok by (apply Z.mod_pos_bound; lia). cbn [bind]. reflexivity.
Qed.

Definition row_of (k : tkind) : trow := match k with KGray => Gray8 | KMapped => Map8 | KRgb15 => Rgb16 | _ => Rgb24 end.
Lemma put_pixel_ok : forall src k px, t_row src = row_of k -> Z.of_nat (length px) = kind_bytes k -> bytes px ->
  (k = KMapped -> byte px 0 < Z.of_nat (length (t_map src))) -> put_pixel src px = Ret (tga_colour k (t_map src) px).
Proof.
  intros src k px R L B M. unfold put_pixel. rewrite R. pose proof (byte_rng px 0 B) as B0. pose proof (byte_rng px 1 B) as B1.
  destruct k; cbn [row_of kind_bytes tga_colour] in *.
  - rewrite byte_at by lia. reflexivity.
  - rewrite byte_at by lia. cbn [bind]. specialize (M eq_refl). destruct (Z.leb_spec (Z.of_nat (length (t_map src))) (byte px 0)); [lia|]. rewrite (aget_nth _ _ (0, 0, 0)) by lia. cbn [bind]. destruct (nth _ _ _) as [[r g] b]. reflexivity.
  - destruct px as [|x [|y [|z px]]]; cbn [length] in L; try lia. change (byte [x; y] 0) with x in B0. change (byte [x; y] 1) with y in B1.
    pose proof (rgb16_ok x y B0 B1) as Q. unfold put_pixel in Q. cbn [t_row] in Q. exact Q.
  - rewrite !byte_at by lia. reflexivity.
  - rewrite !byte_at by lia. reflexivity.
Qed.
Definition row_bytes (r : trow) : Z := match r with Gray8 | Map8 => 1 | Rgb16 => 2 | Rgb24 => 3 end.
Definition comps_of_row (r : trow) : nat := match r with Gray8 => 1 | _ => 3 end.
Lemma put_pixel_cases : forall src px, row_bytes (t_row src) <= Z.of_nat (length px) -> bytes px ->
  (exists e, put_pixel src px = Error e) \/ exists p, put_pixel src px = Ret p /\ length p = comps_of_row (t_row src).
Proof.
  intros src px L B. pose proof (byte_rng px 0 B) as B0. pose proof (byte_rng px 1 B) as B1. unfold put_pixel. destruct (t_row src); cbn [row_bytes comps_of_row] in *.
  - right. rewrite byte_at by lia. eexists. split; reflexivity.
  - rewrite byte_at by lia. cbn [bind]. destruct (Z.leb_spec (Z.of_nat (length (t_map src))) (byte px 0)); [left; eexists; reflexivity|]. rewrite (aget_nth _ _ (0, 0, 0)) by lia. cbn [bind]. destruct (nth _ _ _) as [[r g] b]. right. eexists. split; reflexivity.
  - right. rewrite !byte_at by lia. cbn [bind]. rewrite Z.shiftl_mul_pow2 by lia. assert (V : 0 <= byte px 0 + byte px 1 * 2 ^ 8) by lia. set (v := byte px 0 + byte px 1 * 2 ^ 8) in *. clearbody v.
    rewrite !Z.shiftr_div_pow2 by lia. change (2 ^ 5) with 32. pose proof (Z.div_pos v 32 ltac:(lia) ltac:(lia)). pose proof (Z.div_pos (v / 32) 32 ltac:(lia) ltac:(lia)).
    rewrite !land31 by lia. rewrite !expand_ok by (apply Z.mod_pos_bound; lia). cbn [bind]. eexists. split; reflexivity.
  - right. rewrite !byte_at by lia. eexists. split; reflexivity.
Qed.

(* ---- rows ---- *)
Definition out (k : tkind) (cmap : list (Z * Z * Z)) (l : list (list Z)) : list Z := concat (map (tga_colour k cmap) l).
Definition good_px (src : tsrc) (k : tkind) (p : list Z) : Prop := bytes p /\ (k = KMapped -> byte p 0 < Z.of_nat (length (t_map src))).
Lemma tga_row_ok : forall src k, t_row src = row_of k -> t_size src = kind_bytes k -> forall l1 l2 s, Forall (good_px src k) l1 -> feeds src s (l1 ++ l2) ->
  exists s', tga_row src (length l1) s = Ret (out k (t_map src) l1, s') /\ feeds src s' l2.
Proof.
  intros src k R SZ. induction l1 as [|p l1 IH]; intros l2 s G F; [exists s; split; [reflexivity|exact F]|]. inversion G as [|? ? (Bp & Mp) G']; subst.
  cbn [app] in F. assert (SP : sized src p) by (destruct F as (F & _); inversion F; assumption). destruct (read_pixel_ok src s p _ F) as (s1 & E1 & EP & F1). cbn [length tga_row]. rewrite E1. cbn [bind]. rewrite EP.
  rewrite (put_pixel_ok src k p R) by (try assumption; unfold sized in SP; lia). cbn [bind]. destruct (IH l2 s1 G' F1) as (s2 & -> & F2). cbn [bind]. exists s2. split; [reflexivity|exact F2].
Qed.
Fixpoint chop (k : tkind) (cmap : list (Z * Z * Z)) (w n : nat) (l : list (list Z)) : list (list Z) :=
  match n with O => [] | S n => out k cmap (firstn w l) :: chop k cmap w n (skipn w l) end.
Lemma tga_rows_ok : forall src k, t_row src = row_of k -> t_size src = kind_bytes k -> forall n l s, Forall (good_px src k) l -> feeds src s l -> (n * Z.to_nat (t_w src) <= length l)%nat ->
  tga_rows src n s = Ret (chop k (t_map src) (Z.to_nat (t_w src)) n l).
Proof.
  intros src k R SZ. induction n as [|n IH]; intros l s G F L; [reflexivity|]. cbn [tga_rows chop]. set (w := Z.to_nat (t_w src)) in *.
  rewrite <- (firstn_skipn w l) in F, G. apply Forall_app in G. destruct G as (G1 & G2).
  destruct (tga_row_ok src k R SZ (firstn w l) (skipn w l) s G1 F) as (s1 & E & F1). rewrite firstn_length_le in E by lia. rewrite E. cbn [bind].
  rewrite (IH (skipn w l) s1 G2 F1) by (rewrite skipn_length; lia). reflexivity.
Qed.
Lemma chop_length : forall k cmap w n l, length (chop k cmap w n l) = n.
Proof. intros k cmap w. induction n as [|n IH]; intros l; [reflexivity|]. cbn [chop length]. rewrite IH. reflexivity. Qed.
Lemma chop_nth : forall k cmap w n l y, (y < n)%nat -> nth_error (chop k cmap w n l) y = Some (out k cmap (firstn w (skipn (y * w) l))).
Proof.
  intros k cmap w. induction n as [|n IH]; intros l y H; [lia|]. destruct y as [|y]; [reflexivity|]. cbn [chop nth_error]. rewrite IH by lia. rewrite skipn_skipn'. reflexivity.
Qed.
Definition kcomps (k : tkind) : nat := match k with KGray => 1 | _ => 3 end.
Lemma colour_length : forall k cmap p, length (tga_colour k cmap p) = kcomps k.
Proof. intros k cmap p. destruct k; try reflexivity. cbn [tga_colour kcomps]. destruct (nth _ _ _) as [[r g] b]. reflexivity. Qed.
Lemma out_length : forall k cmap l, length (out k cmap l) = (kcomps k * length l)%nat.
Proof. intros k cmap l. unfold out. induction l as [|p l IH]; [cbn; lia|]. cbn [map concat length]. rewrite app_length, IH, colour_length. lia. Qed.
Lemma out_nth : forall k cmap l x, (x < length l)%nat -> firstn (kcomps k) (skipn (x * kcomps k) (out k cmap l)) = tga_colour k cmap (nth x l []).
Proof.
  intros k cmap l. unfold out. induction l as [|p l IH]; intros x H; cbn [length] in H; [lia|]. cbn [map concat]. destruct x as [|x].
  - cbn [Nat.mul skipn nth]. rewrite <- (colour_length k cmap p), firstn_app, Nat.sub_diag, firstn_all. cbn [firstn]. apply app_nil_r.
  - cbn [Nat.mul nth]. rewrite <- skipn_skipn'. rewrite skipn_app, colour_length, Nat.sub_diag. rewrite (skipn_all2 (tga_colour k cmap p)) by (rewrite colour_length; lia). cbn [skipn app]. apply IH. lia.
Qed.
Lemma nth_cut : forall (l : list (list Z)) a w x, (x < w)%nat -> (a + w <= length l)%nat -> nth x (firstn w (skipn a l)) [] = nth (a + x) l [].
Proof.
  intros l a w x H L.
  assert (E : nth x (firstn w (skipn a l)) [] = nth x (skipn a l) []).
  { rewrite <- (firstn_skipn w (skipn a l)) at 2. rewrite app_nth1; [reflexivity|]. rewrite firstn_length_le; [exact H|]. rewrite skipn_length. lia. }
  rewrite E. clear E H. revert l L. induction a as [|a IH]; intros l L; [reflexivity|]. destruct l as [|p l]; [cbn [length] in L; lia|]. cbn [skipn Nat.add nth]. apply IH. cbn [length] in L. lia.
Qed.
Lemma memory_ok : forall src img, Z.of_nat (length img) = t_h src -> forall n c, 0 <= c -> c + Z.of_nat n <= t_h src ->
  exists rs, memory_rows src img n c = Ret rs /\ length rs = n /\ forall y, (y < n)%nat -> nth_error rs y = nth_error img (Z.to_nat (t_h src - c - 1 - Z.of_nat y)).
Proof.
  intros src img L. induction n as [|n IH]; intros c H0 H1; [exists []; split; [reflexivity|]; split; [reflexivity|]; intros y Hy; lia|]. cbn [memory_rows].
  destruct (IH (c + 1) ltac:(lia) ltac:(lia)) as (rs & -> & Lr & N). rewrite (aget_nth _ _ []) by lia. cbn [bind]. eexists. split; [reflexivity|]. split; [cbn [length]; lia|].
  intros y Hy. destruct y as [|y]; cbn [nth_error].
  - rewrite Z.sub_0_r || idtac. replace (t_h src - c - 1 - Z.of_nat 0) with (t_h src - c - 1) by lia. symmetry. apply nth_error_nth'. lia.
  - rewrite N by lia. f_equal. lia.
Qed.
(* any stream *)
Lemma tga_row_cases : forall src, 0 <= t_size src -> row_bytes (t_row src) <= t_size src -> forall n s, sane src s ->
  (exists e, tga_row src n s = Error e) \/ exists r s', tga_row src n s = Ret (r, s') /\ length r = (comps_of_row (t_row src) * n)%nat /\ sane src s'.
Proof.
  intros src H0 H1. induction n as [|n IH]; intros s H; [right; exists [], s; split; [reflexivity|]; split; [cbn [length]; lia|exact H]|]. cbn [tga_row].
  destruct (read_pixel_cases src s H0 H) as [(e & ->)|(s1 & -> & S1 & SZ & B)]; [left; eexists; reflexivity|]. cbn [bind].
  destruct (put_pixel_cases src (s_px s1)) as [(e & ->)|(p & -> & Lp)]; [unfold sized in SZ; lia|exact B|left; eexists; reflexivity|]. cbn [bind].
  destruct (IH s1 S1) as [(e & ->)|(r & s2 & -> & Lr & S2)]; [left; eexists; reflexivity|]. right. cbn [bind]. do 2 eexists. split; [reflexivity|]. split; [rewrite app_length; lia|exact S2].
Qed.
Lemma tga_rows_cases : forall src, 0 <= t_size src -> row_bytes (t_row src) <= t_size src -> forall n s, sane src s ->
  (exists e, tga_rows src n s = Error e) \/ exists rs, tga_rows src n s = Ret rs /\ length rs = n /\ Forall (fun r => length r = (comps_of_row (t_row src) * Z.to_nat (t_w src))%nat) rs.
Proof.
  intros src H0 H1. induction n as [|n IH]; intros s H; [right; exists []; split; [reflexivity|]; split; [reflexivity|constructor]|]. cbn [tga_rows].
  destruct (tga_row_cases src H0 H1 (Z.to_nat (t_w src)) s H) as [(e & ->)|(r & s1 & -> & Lr & S1)]; [left; eexists; reflexivity|]. cbn [bind].
  destruct (IH s1 S1) as [(e & ->)|(rs & -> & Ln & F)]; [left; eexists; reflexivity|]. right. cbn [bind]. eexists. split; [reflexivity|]. split; [cbn [length]; lia|constructor; assumption].
Qed.
