(* P_Pixel.v -- mirroring and transposing in the frequency domain. *)
From Coq Require Import Reals.
From Verif Require Import Base M_Xform S_Xform S_Pixel.

Lemma cos_even k a : cos (- a + 2 * INR k * PI) = cos a.
Proof. rewrite cos_period. apply cos_neg. Qed.
Lemma cos_odd k a : cos (- a + PI + 2 * INR k * PI) = (- cos a)%R.
Proof. rewrite cos_period, neg_cos, cos_neg. reflexivity. Qed.

Lemma basis_mirror u x : 0 <= u < 8 -> basis u (7 - x) = ((if Z.odd u then -1 else 1) * basis u x)%R.
Proof.
  intros Hu. unfold basis.
  assert (E : (IZR ((2 * (7 - x) + 1) * u) * PI / 16 = - (IZR ((2 * x + 1) * u) * PI / 16) + IZR u * PI)%R).
  { replace ((2 * (7 - x) + 1) * u) with (16 * u - (2 * x + 1) * u) by lia.
    rewrite minus_IZR, (mult_IZR 16). field. }
  rewrite E.
  assert (C : u = 0 \/ u = 1 \/ u = 2 \/ u = 3 \/ u = 4 \/ u = 5 \/ u = 6 \/ u = 7) by lia.
  set (a := (IZR ((2 * x + 1) * u) * PI / 16)%R) in *. clearbody a. clear E.
  destruct C as [-> |[-> |[-> |[-> |[-> |[-> |[-> | ->]]]]]]]; cbn [Z.odd Z.eqb].
  - replace (- a + 0 * PI)%R with (- a + 2 * INR 0 * PI)%R by (cbn; ring). rewrite cos_even. ring.
  - replace (- a + 1 * PI)%R with (- a + PI + 2 * INR 0 * PI)%R by (cbn; ring). rewrite cos_odd. ring.
  - replace (- a + 2 * PI)%R with (- a + 2 * INR 1 * PI)%R by (cbn; ring). rewrite cos_even. ring.
  - replace (- a + 3 * PI)%R with (- a + PI + 2 * INR 1 * PI)%R by (cbn; ring). rewrite cos_odd. ring.
  - replace (- a + 4 * PI)%R with (- a + 2 * INR 2 * PI)%R by (cbn; ring). rewrite cos_even. ring.
  - replace (- a + 5 * PI)%R with (- a + PI + 2 * INR 2 * PI)%R by (cbn; ring). rewrite cos_odd. ring.
  - replace (- a + 6 * PI)%R with (- a + 2 * INR 3 * PI)%R by (cbn; ring). rewrite cos_even. ring.
  - replace (- a + 7 * PI)%R with (- a + PI + 2 * INR 3 * PI)%R by (cbn; ring). rewrite cos_odd. ring.
Qed.

Lemma sum8_ext f g : (forall u, 0 <= u < 8 -> f u = g u) -> sum8 f = sum8 g.
Proof. intros H. unfold sum8. rewrite !H by lia. reflexivity. Qed.
Lemma sum8_swap f : sum8 (fun r => sum8 (fun c => f r c)) = sum8 (fun c => sum8 (fun r => f r c)).
Proof. unfold sum8. ring. Qed.

Lemma mirror_pos n X : 0 <= X < 8 * n -> (8 * n - 1 - X) / 8 = n - 1 - X / 8 /\ (8 * n - 1 - X) mod 8 = 7 - X mod 8.
Proof.
  intros H. pose proof (Z.div_mod X 8 ltac:(lia)). pose proof (Z.mod_pos_bound X 8 ltac:(lia)).
  split; symmetry; [apply Z.div_unique with (r := 7 - X mod 8)|apply Z.mod_unique with (q := n - 1 - X / 8)]; lia.
Qed.

Definition sgR (b : bool) : R := if b then (-1)%R else 1%R.
Lemma IZR_msign (on : bool) n k f v q : k < n -> IZR (msign on n k f v * q) = (sgR (on && Z.odd f) * IZR (v * q))%R.
Proof.
  intros H. unfold msign. rewrite (proj2 (Z.ltb_lt k n) H), andb_true_r. destruct (on && Z.odd f); cbn [sgR].
  - rewrite <- mult_IZR. f_equal. lia.
  - rewrite Rmult_1_l. reflexivity.
Qed.
Lemma basis_pos (on : bool) n X u : 0 <= u < 8 -> 0 <= X < 8 * n ->
  basis u ((if on then 8 * n - 1 - X else X) mod 8) = (sgR (on && Z.odd u) * basis u (X mod 8))%R.
Proof.
  intros Hu HX. destruct on; cbn [andb].
  - rewrite (proj2 (mirror_pos n X HX)), basis_mirror by lia. destruct (Z.odd u); reflexivity.
  - cbn [sgR]. ring.
Qed.
Lemma block_pos (on : bool) n X : 0 <= X < 8 * n -> (if on then 8 * n - 1 - X else X) / 8 = mirror on n (X / 8).
Proof.
  intros HX. unfold mirror. assert (X / 8 < n) by (apply Z.div_lt_upper_bound; lia).
  rewrite (proj2 (Z.ltb_lt _ _) H), andb_true_r. destruct on; [|reflexivity]. apply (mirror_pos n X HX).
Qed.

Definition tq (tr : bool) (q : Z -> Z -> Z) : Z -> Z -> Z := fun r c => if tr then q c r else q r c.

Lemma sample_sym t nx ny q P Y X : 0 <= Y < 8 * ny -> 0 <= X < 8 * nx ->
  sample_at (tq (is_tr t) q) (sym_plane t nx ny P) Y X =
  sample_at q P (fst (src_pos t (8 * nx) (8 * ny) Y X)) (snd (src_pos t (8 * nx) (8 * ny) Y X)).
Proof.
  intros HY HX.
  assert (Hx : X / 8 < nx) by (apply Z.div_lt_upper_bound; lia).
  assert (Hy : Y / 8 < ny) by (apply Z.div_lt_upper_bound; lia).
  assert (Pos : src_pos t (8 * nx) (8 * ny) Y X =
     let sy := if mirrors_y t then 8 * ny - 1 - Y else Y in let sx := if mirrors_x t then 8 * nx - 1 - X else X in
     if is_tr t then (sx, sy) else (sy, sx)) by (destruct t; reflexivity).
  rewrite Pos. cbv zeta. unfold sample_at.
  assert (Sp : forall y x r c, sym_plane t nx ny P y x r c = msign (mirrors_x t) nx x c (msign (mirrors_y t) ny y r
     (if is_tr t then P (mirror (mirrors_x t) nx x) (mirror (mirrors_y t) ny y) c r else P (mirror (mirrors_y t) ny y) (mirror (mirrors_x t) nx x) r c))).
  { intros. unfold sym_plane, is_tr, mirrors_x, mirrors_y. destruct (sym t) as [[a b] c0]. reflexivity. }
  destruct (is_tr t); cbn [fst snd].
  - rewrite sum8_swap. apply sum8_ext. intros c Hc. apply sum8_ext. intros r Hr.
    rewrite Sp, IZR_msign by lia. rewrite IZR_msign by lia.
    rewrite !block_pos by lia. rewrite !basis_pos by lia. unfold tq. rewrite <- !Rmult_assoc.
    replace (sgR (mirrors_x t && Z.odd c) * sgR (mirrors_y t && Z.odd r) * IZR (P (mirror (mirrors_x t) nx (X / 8)) (mirror (mirrors_y t) ny (Y / 8)) c r * q c r) * basis r (Y mod 8) * basis c (X mod 8))%R
      with (IZR (P (mirror (mirrors_x t) nx (X / 8)) (mirror (mirrors_y t) ny (Y / 8)) c r * q c r) * sgR (mirrors_x t && Z.odd c) * basis c (X mod 8) * sgR (mirrors_y t && Z.odd r) * basis r (Y mod 8))%R by ring.
    ring.
  - apply sum8_ext. intros r Hr. apply sum8_ext. intros c Hc.
    rewrite Sp, IZR_msign by lia. rewrite IZR_msign by lia.
    rewrite !block_pos by lia. rewrite !basis_pos by lia. unfold tq. ring.
Qed.
