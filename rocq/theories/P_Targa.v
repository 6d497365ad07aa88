(* P_Targa.v -- proofs about the Targa reader *)
From Verif Require Import Base M_Pnm S_Pnm M_Bmp S_Bmp M_Targa S_Targa.

Lemma skipn_skipn' : forall {A} (a b : nat) (l : list A), skipn a (skipn b l) = skipn (b + a) l.
Proof. intros A a b. induction b as [|b IH]; intros l; [reflexivity|]. destruct l; [rewrite !skipn_nil; reflexivity|]. cbn [skipn Nat.add]. apply IH. Qed.
Lemma byte_at : forall l o, 0 <= o < Z.of_nat (length l) -> aget l o = Ret (byte l o).
Proof. intros l o H. apply aget_nth. exact H. Qed.
Lemma byte_rng : forall f o, bytes f -> 0 <= byte f o <= 255.
Proof.
  intros f o H. unfold byte. destruct (Nat.lt_ge_cases (Z.to_nat o) (length f)) as [L|L]; [|rewrite nth_overflow by lia; lia].
  unfold bytes in H. rewrite Forall_forall in H. apply H. apply nth_In. exact L.
Qed.
Lemma get2_at : forall l o, bytes l -> 0 <= o -> o + 2 <= Z.of_nat (length l) -> get2 l o = Ret (le2 l o).
Proof. intros l o Hb H0 H1. unfold get2. rewrite !byte_at by lia. cbn [bind]. unfold le2. rewrite Z.shiftl_mul_pow2 by lia. f_equal. change (2 ^ 8) with 256. lia. Qed.

(* ---- bytes ---- *)
Lemma read_bytes_app : forall p l, read_bytes (length p) (p ++ l) = Ret (p, l).
Proof. induction p as [|b p IH]; intros l; [reflexivity|]. cbn [length app read_bytes read_byte bind]. rewrite IH. reflexivity. Qed.
Lemma read_bytes_cases : forall n l, (exists e, read_bytes n l = Error e) \/ exists p l', l = p ++ l' /\ length p = n /\ read_bytes n l = Ret (p, l').
Proof.
  induction n as [|n IH]; intros l; [right; exists [], l; split; [reflexivity|]; split; reflexivity|]. destruct l as [|b l]; [left; eexists; reflexivity|]. cbn [read_bytes read_byte bind].
  destruct (IH l) as [(e & ->)|(p & l' & -> & <- & ->)]; [left; eexists; reflexivity|]. right. exists (b :: p), l'. split; [reflexivity|]. split; reflexivity.
Qed.
Definition bgr (e : Z * Z * Z) : list Z := let '(r, g, b) := e in [b; g; r].
Lemma colormap_app : forall m l, tga_colormap (length m) (flat_map bgr m ++ l) = Ret (m, l).
Proof. induction m as [|[[r g] b] m IH]; intros l; [reflexivity|]. cbn [length flat_map bgr app tga_colormap read_byte bind]. rewrite IH. reflexivity. Qed.
Lemma colormap_cases : forall n l, (exists e, tga_colormap n l = Error e) \/ exists m l', l = flat_map bgr m ++ l' /\ length m = n /\ tga_colormap n l = Ret (m, l').
Proof.
  induction n as [|n IH]; intros l; [right; exists [], l; split; [reflexivity|]; split; reflexivity|].
  destruct l as [|b [|g [|r l]]]; try (left; eexists; reflexivity). cbn [tga_colormap read_byte bind].
  destruct (IH l) as [(e & ->)|(p & l' & -> & <- & ->)]; [left; eexists; reflexivity|]. right. exists ((r, g, b) :: p), l'. split; [reflexivity|]. split; reflexivity.
Qed.

(* ---- the pixel stream ---- *)
Lemma bits7 : forall x, 0 <= x < 128 -> Z.land x 128 = 0 /\ Z.land x 127 = x /\ Z.land (128 + x) 128 = 128 /\ Z.land (128 + x) 127 = x.
Proof.
  assert (A : forallb (fun n => let x := Z.of_nat n in (Z.land x 128 =? 0) && (Z.land x 127 =? x) && (Z.land (128 + x) 128 =? 128) && (Z.land (128 + x) 127 =? x)) (seq 0 128) = true) by (vm_compute; reflexivity).
  intros x Hx. rewrite forallb_forall in A. specialize (A (Z.to_nat x)). cbv zeta in A. rewrite Z2Nat.id in A by lia. rewrite !andb_true_iff, !Z.eqb_eq in A. destruct A as (((A1 & A2) & A3) & A4); [apply in_seq; lia|]. tauto.
Qed.
Definition sized (src : tsrc) (p : list Z) : Prop := Z.of_nat (length p) = t_size src.
Definition feeds (src : tsrc) (s : tstate) (pxs : list (list Z)) : Prop :=
  Forall (sized src) pxs /\
  if t_rle src then exists ps ks tail, Forall packet_ok ks /\ s_block s = Z.of_nat (length ps) /\ 0 <= s_dup s /\ (0 < s_dup s -> ps = []) /\
    s_in s = concat ps ++ flat_map packet_bytes ks ++ tail /\ pxs = repeat (s_px s) (Z.to_nat (s_dup s)) ++ ps ++ flat_map packet_pixels ks
  else exists tail, s_in s = concat pxs ++ tail.
Lemma read_sized : forall src p l, sized src p -> read_bytes (Z.to_nat (t_size src)) (p ++ l) = Ret (p, l).
Proof. intros src p l H. unfold sized in H. rewrite <- H, Nat2Z.id. apply read_bytes_app. Qed.
Lemma read_pixel_ok : forall src s p pxs, feeds src s (p :: pxs) -> exists s', read_pixel src s = Ret s' /\ s_px s' = p /\ feeds src s' pxs.
Proof.
  intros src s p pxs (SZ & F). inversion SZ as [|? ? SP SZ']; subst. unfold read_pixel, feeds. destruct (t_rle src) eqn:RLE.
  - destruct F as (ps & ks & tail & OK & EB & D0 & DP & EI & EP). destruct (Z.ltb_spec 0 (s_dup s)) as [D|D].
    + rewrite (DP D) in *. eexists. split; [reflexivity|]. cbn [s_px s_block s_dup s_in]. replace (Z.to_nat (s_dup s)) with (S (Z.to_nat (s_dup s - 1))) in EP by lia. cbn [repeat app] in EP. injection EP as -> EP. split; [reflexivity|].
      split; [exact SZ'|]. exists [], ks, tail. split; [exact OK|]. split; [exact EB|]. split; [lia|]. split; [reflexivity|]. split; [exact EI|exact EP].
    + replace (s_dup s) with 0 in * by lia. cbn [Z.to_nat repeat app] in EP. destruct ps as [|q ps].
      * cbn [length app concat] in *. rewrite EB. cbn [Z.sub Z.of_nat Z.opp Z.add Z.ltb Z.compare]. destruct ks as [|k ks]; [discriminate EP|]. inversion OK as [|? ? OKk OKs]; subst. cbn [flat_map] in *. unfold packet_ok in OKk.
        destruct k as [[|q ps]|[|n] q]; cbn [packet_pixels packet_bytes length repeat] in *; try lia.
        { cbn [app] in EP. injection EP as -> EP. rewrite EI. rewrite <- app_assoc. cbn [app read_byte bind]. destruct (bits7 (Z.of_nat (S (length ps)) - 1) ltac:(lia)) as (L1 & L2 & _). rewrite L1, L2. cbn [Z.eqb negb bind concat].
          rewrite <- !app_assoc. rewrite (read_sized src q _ SP). cbn [bind]. eexists. split; [reflexivity|]. cbn [s_px s_block s_dup s_in]. split; [reflexivity|]. split; [exact SZ'|].
          exists ps, ks, tail. split; [exact OKs|]. split; [lia|]. split; [lia|]. split; [lia|]. split; [reflexivity|]. cbn [Z.to_nat repeat app]. exact EP. }
        { cbn [app] in EP. injection EP as -> EP. rewrite EI. rewrite <- app_assoc. cbn [app read_byte bind]. rewrite repeat_length in OKk. destruct (bits7 (Z.of_nat (S n) - 1) ltac:(lia)) as (_ & _ & L1 & L2). rewrite L1, L2. cbn [Z.eqb negb bind].
          rewrite (read_sized src q _ SP). cbn [bind]. eexists. split; [reflexivity|]. cbn [s_px s_block s_dup s_in]. split; [reflexivity|]. split; [exact SZ'|].
          exists [], ks, tail. split; [exact OKs|]. split; [reflexivity|]. split; [lia|]. split; [reflexivity|]. split; [reflexivity|]. replace (Z.to_nat (Z.of_nat (S n) - 1)) with n by lia. exact EP. }
      * cbn [app] in EP. injection EP as -> EP. cbn [length] in EB. destruct (Z.ltb_spec (s_block s - 1) 0); [lia|]. cbn [bind]. rewrite EI. cbn [concat]. rewrite <- !app_assoc. rewrite (read_sized src q _ SP). cbn [bind].
        eexists. split; [reflexivity|]. cbn [s_px s_block s_dup s_in]. split; [reflexivity|]. split; [exact SZ'|]. exists ps, ks, tail. split; [exact OK|]. split; [lia|]. split; [lia|]. split; [lia|]. split; [reflexivity|]. exact EP.
  - destruct F as (tail & EI). rewrite EI. cbn [concat]. rewrite <- app_assoc. rewrite (read_sized src p _ SP). cbn [bind]. eexists. split; [reflexivity|]. cbn [s_px s_in]. split; [reflexivity|]. split; [exact SZ'|]. exists tail. reflexivity.
Qed.
(* whatever the file has: a pixel or an error *)
Definition sane (src : tsrc) (s : tstate) : Prop := 0 <= s_block s /\ bytes (s_in s) /\ (0 < s_dup s -> sized src (s_px s) /\ bytes (s_px s)).
Lemma bytes_app : forall a b, bytes (a ++ b) <-> bytes a /\ bytes b.
Proof. intros. apply Forall_app. Qed.
Lemma read_pixel_cases : forall src s, 0 <= t_size src -> sane src s -> (exists e, read_pixel src s = Error e) \/
  exists s', read_pixel src s = Ret s' /\ sane src s' /\ sized src (s_px s') /\ bytes (s_px s').
Proof.
  intros src s HS (B0 & BI & DP). unfold read_pixel. destruct (t_rle src).
  - destruct (Z.ltb_spec 0 (s_dup s)) as [D|D].
    + right. destruct (DP D) as (P1 & P2). eexists. split; [reflexivity|]. unfold sane. cbn [s_px s_block s_dup s_in]. tauto.
    + assert (R : forall block dup l, 0 <= block -> bytes l -> (exists e, ('(px, l0) <- read_bytes (Z.to_nat (t_size src)) l;; Ret (mkS px block dup l0)) = Error e) \/
        exists s', ('(px, l0) <- read_bytes (Z.to_nat (t_size src)) l;; Ret (mkS px block dup l0)) = Ret s' /\ sane src s' /\ sized src (s_px s') /\ bytes (s_px s')).
      { intros block dup l Hb Bl. destruct (read_bytes_cases (Z.to_nat (t_size src)) l) as [(e & ->)|(p & l' & -> & Lp & ->)]; [left; eexists; reflexivity|]. right. cbn [bind]. apply bytes_app in Bl. eexists. split; [reflexivity|].
        assert (sized src p) by (unfold sized; lia). unfold sane. cbn [s_px s_block s_dup s_in]. tauto. }
      destruct (Z.ltb_spec (s_block s - 1) 0); [|cbn [bind]; apply R; [lia|exact BI]].
      destruct (s_in s) as [|i l]; [left; eexists; reflexivity|]. cbn [read_byte bind]. inversion BI as [|? ? Bi Bl]; subst.
      destruct (negb (Z.land i 128 =? 0)); cbn [bind]; apply R; [lia|exact Bl|apply Z.land_nonneg; left; lia|exact Bl].
  - destruct (read_bytes_cases (Z.to_nat (t_size src)) (s_in s)) as [(e & ->)|(p & l' & E & Lp & ->)]; [left; eexists; reflexivity|]. right. cbn [bind]. rewrite E in BI. apply bytes_app in BI. eexists. split; [reflexivity|].
    assert (sized src p) by (unfold sized; lia). unfold sane. cbn [s_px s_block s_dup s_in]. tauto.
Qed.
