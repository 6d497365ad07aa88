(* T_Targa.v -- C60: Targa input. *)
From Verif Require Import Base M_Pnm S_Pnm M_Bmp S_Bmp M_Targa S_Targa P_Targa P_Targa2.

Lemma bits6 : forall x, 0 <= x < 64 -> (Z.land x 32 =? 0) = (x / 32 =? 0) /\ Z.shiftr x 6 = 0.
Proof.
  assert (A : forallb (fun n => let x := Z.of_nat n in Bool.eqb (Z.land x 32 =? 0) (x / 32 =? 0) && (Z.shiftr x 6 =? 0)) (seq 0 64) = true) by (vm_compute; reflexivity).
  intros x Hx. rewrite forallb_forall in A. specialize (A (Z.to_nat x)). cbv zeta in A. rewrite Z2Nat.id in A by lia. rewrite andb_true_iff, Z.eqb_eq in A. destruct A as (A1 & A2); [apply in_seq; lia|]. split; [apply Bool.eqb_prop; exact A1|exact A2].
Qed.
Lemma take_hd : forall hd l, length hd = 18%nat -> take 18 (hd ++ l) = Ret (hd, l).
Proof.
  intros hd l H. unfold take. rewrite app_length, H. destruct (Z.ltb_spec (Z.of_nat (18 + length l)) 18); [lia|]. change (Z.to_nat 18) with 18%nat. rewrite <- H, firstn_app, firstn_all, Nat.sub_diag, skipn_app, skipn_all, Nat.sub_diag. cbn [firstn skipn app]. rewrite app_nil_r. reflexivity.
Qed.
Definition kcs (k : tkind) : Z := match k with KGray => JCS_GRAYSCALE | _ => JCS_RGB end.
Lemma start_ok : forall f k rle up w h cmap pxs maxpix, tga_file f k rle up w h cmap pxs -> (maxpix = 0 \/ w * h <= maxpix) ->
  exists src, start_input_tga maxpix f = Ret src /\ t_w src = w /\ t_h src = h /\ t_comps src = Z.of_nat (kcomps k) /\ t_cs src = kcs k /\ t_up src = up /\ t_map src = cmap /\
    t_row src = row_of k /\ t_size src = kind_bytes k /\ feeds src (t_start src) pxs.
Proof.
  intros f k rle up w h cmap pxs maxpix (hd & id & data & tail & EF & L & BF & Eid & Emap & Lmap & Map1 & Map0 & MapK & Esub & Ew & Eh & W1 & H1 & Ebits & Fl & Eup & ST & SZ & Lp & IX) MP.
  assert (Bh : bytes hd) by (rewrite EF in BF; apply bytes_app in BF; apply BF).
  unfold start_input_tga. rewrite EF, take_hd by exact L. cbn [bind].
  rewrite !byte_at by lia. cbn [bind]. rewrite !get2_at by (try exact Bh; lia). cbn [bind]. rewrite Ew, Eh, Emap, Esub, Eid.
  assert (EB : (if byte hd 16 =? 15 then 16 else byte hd 16) = 8 * kind_bytes k).
  { destruct Ebits as [-> |(-> & ->)]; [|reflexivity]. destruct k; reflexivity. }
  rewrite EB. replace (Z.shiftr (8 * kind_bytes k) 3) with (kind_bytes k) by (destruct k; reflexivity). replace (Z.land (8 * kind_bytes k) 7) with 0 by (destruct k; reflexivity).
  pose proof (byte_rng hd 17 Bh) as R17. destruct (bits6 (byte hd 17) ltac:(lia)) as (-> & ->). rewrite Eup.
  assert (C1 : byte hd 1 <= 1). { destruct cmap as [|e cmap]; [rewrite (Map0 eq_refl); lia|apply Map1; discriminate]. }
  destruct (Z.ltb_spec 1 (byte hd 1)); [lia|]. replace (kind_bytes k <? 1) with false by (destruct k; reflexivity). replace (4 <? kind_bytes k) with false by (destruct k; reflexivity). cbn [orb negb Z.eqb].
  destruct (Z.eqb_spec w 0); [lia|]. destruct (Z.eqb_spec h 0); [lia|]. cbn [orb].
  replace (negb (maxpix =? 0) && (maxpix <? w * h)) with false.
  2:{ symmetry. apply andb_false_iff. destruct MP as [-> |MP]; [left; reflexivity|right; apply Z.ltb_ge; exact MP]. }
  replace (8 <? (if rle then 8 else 0) + match k with KMapped => 1 | KGray => 3 | _ => 2 end) with rle by (destruct rle, k; reflexivity).
  set (sub := if rle then _ else _). replace sub with (match k with KMapped => 1 | KGray => 3 | _ => 2 end) by (unfold sub; destruct rle, k; reflexivity). clear sub.
  assert (ROW : (if match k with KMapped => 1 | KGray => 3 | _ => 2 end =? 1 then if (kind_bytes k =? 1) && (byte hd 1 =? 1) then Ret Map8 else Error JERR_OTHER
            else if match k with KMapped => 1 | KGray => 3 | _ => 2 end =? 2 then
              if kind_bytes k =? 2 then Ret Rgb16 else if (kind_bytes k =? 3) || (kind_bytes k =? 4) then Ret Rgb24 else Error JERR_OTHER
            else if match k with KMapped => 1 | KGray => 3 | _ => 2 end =? 3 then if kind_bytes k =? 1 then Ret Gray8 else Error JERR_OTHER
            else Error JERR_OTHER) = Ret (row_of k)).
  { destruct k; try reflexivity. rewrite (MapK eq_refl). reflexivity. }
  rewrite ROW. cbn [bind]. clear ROW. replace (match row_of k with Gray8 => (1, JCS_GRAYSCALE) | _ => (3, JCS_RGB) end) with (Z.of_nat (kcomps k), kcs k) by (destruct k; reflexivity).
  rewrite Nat2Z.id, read_bytes_app. cbn [bind].
  assert (M : (if 0 <? Z.of_nat (length cmap) then
         if (256 <? Z.of_nat (length cmap)) || negb (le2 hd 3 =? 0) then Error JERR_OTHER
         else if negb (byte hd 7 =? 24) then Error JERR_OTHER else tga_colormap (Z.to_nat (Z.of_nat (length cmap))) (flat_map bgr cmap ++ data ++ tail)
       else if negb (byte hd 1 =? 0) then Error JERR_OTHER else Ret ([], flat_map bgr cmap ++ data ++ tail)) = Ret (cmap, data ++ tail)).
  { destruct (Z.ltb_spec 0 (Z.of_nat (length cmap))) as [P|P].
    - destruct (Map1 ltac:(intros ->; cbn [length] in P; lia)) as (_ & M3 & M7). rewrite M3. destruct (Z.ltb_spec 256 (Z.of_nat (length cmap))); [lia|]. cbn [orb negb Z.eqb].
      rewrite M7. cbn [negb Z.eqb Pos.eqb]. rewrite Nat2Z.id. apply colormap_app.
    - destruct cmap as [|e cmap]; [|cbn [length] in P; lia]. rewrite (Map0 eq_refl). reflexivity. }
  unfold bgr in M. rewrite M. cbn [bind]. clear M.
  eexists. split; [reflexivity|]. cbn [t_w t_h t_comps t_cs t_up t_map t_row t_size t_start]. split; [reflexivity|]. split; [reflexivity|]. split; [reflexivity|]. split; [reflexivity|].
  split; [destruct up; reflexivity|]. split; [reflexivity|]. split; [reflexivity|]. split; [reflexivity|].
  split; [exact SZ|]. cbn [t_rle s_px s_block s_dup s_in]. unfold stored in ST. destruct rle.
  - destruct ST as (ks & OK & -> & ->). exists [], ks, tail. split; [exact OK|]. split; [reflexivity|]. split; [lia|]. split; [reflexivity|]. split; reflexivity.
  - exists tail. rewrite ST. reflexivity.
Qed.

(* Every well-formed file is read: the size, the components and every pixel are those of
   the file, run-length packets expanded and rows in top-to-bottom order. *)
Lemma concat_bytes : forall (l : list (list Z)), bytes (concat l) -> Forall bytes l.
Proof. induction l as [|p l IH]; intros H; constructor; cbn [concat] in H; apply bytes_app in H; [apply H|apply IH, H]. Qed.
Lemma packets_bytes : forall ks, Forall packet_ok ks -> bytes (flat_map packet_bytes ks) -> Forall bytes (flat_map packet_pixels ks).
Proof.
  induction ks as [|k ks IH]; intros OK H; [constructor|]. inversion OK; subst. cbn [flat_map] in *. apply bytes_app in H. destruct H as (H & H'). apply Forall_app. split; [|apply IH; assumption].
  destruct k as [ps|n p]; cbn [packet_bytes packet_pixels] in *; inversion H; subst; [apply concat_bytes; assumption|]. apply Forall_forall. intros q Hq. apply repeat_spec in Hq. subst q. assumption.
Qed.
Theorem C60_read : forall f k rle up w h cmap pxs maxpix, tga_file f k rle up w h cmap pxs -> (maxpix = 0 \/ w * h <= maxpix) ->
  exists src rows, start_input_tga maxpix f = Ret src /\ t_w src = w /\ t_h src = h /\
    t_comps src = (match k with KGray => 1 | _ => 3 end) /\ t_cs src = (match k with KGray => JCS_GRAYSCALE | _ => JCS_RGB end) /\
    tga_image src = Ret rows /\ Z.of_nat (length rows) = h /\
    forall y x, 0 <= y < h -> 0 <= x < w ->
      exists row, nth_error rows (Z.to_nat y) = Some row /\ Z.of_nat (length row) = w * t_comps src /\
        firstn (Z.to_nat (t_comps src)) (skipn (Z.to_nat (x * t_comps src)) row) =
        tga_colour k cmap (nth (Z.to_nat ((if up then h - 1 - y else y) * w + x)) pxs []).
Proof.
  intros f k rle up w h cmap pxs maxpix H MP. destruct (start_ok f k rle up w h cmap pxs maxpix H MP) as (src & E & Ew & Eh & Ec & Es & Eu & Em & Er & Ez & F).
  destruct H as (hd & id & data & tail & EF & _ & BF & _ & _ & _ & _ & _ & _ & _ & _ & _ & W1 & H1 & _ & _ & _ & ST & SZ & Lp & IX).
  assert (BP : Forall bytes pxs).
  { rewrite EF in BF. apply bytes_app in BF. destruct BF as (_ & BF). apply bytes_app in BF. destruct BF as (_ & BF). apply bytes_app in BF. destruct BF as (_ & BF). apply bytes_app in BF. destruct BF as (BD & _).
    unfold stored in ST. destruct rle; [destruct ST as (ks & OK & -> & ->); apply packets_bytes; assumption|subst data; apply concat_bytes; exact BD]. }
  assert (G : Forall (good_px src k) pxs).
  { apply Forall_forall. intros p Hp. rewrite Forall_forall in BP. split; [apply BP; exact Hp|]. intros K. specialize (IX K). rewrite Forall_forall in IX. rewrite Em. apply IX. exact Hp. }
  assert (LL : (Z.to_nat h * Z.to_nat w <= length pxs)%nat) by nia.
  pose proof (tga_rows_ok src k Er Ez (Z.to_nat h) pxs (t_start src) G F) as R. rewrite Ew in R. specialize (R LL). rewrite Em in R. set (img := chop k cmap (Z.to_nat w) (Z.to_nat h) pxs) in *.
  assert (Limg : length img = Z.to_nat h) by apply chop_length.
  assert (N : forall y, 0 <= y < h -> nth_error img (Z.to_nat y) = Some (out k cmap (firstn (Z.to_nat w) (skipn (Z.to_nat y * Z.to_nat w) pxs)))) by (intros y Hy; apply chop_nth; lia).
  assert (PX : forall y x, 0 <= y < h -> 0 <= x < w -> let row := out k cmap (firstn (Z.to_nat w) (skipn (Z.to_nat y * Z.to_nat w) pxs)) in
     Z.of_nat (length row) = w * t_comps src /\ firstn (Z.to_nat (t_comps src)) (skipn (Z.to_nat (x * t_comps src)) row) = tga_colour k cmap (nth (Z.to_nat (y * w + x)) pxs [])).
  { intros y x Hy Hx. cbv zeta. assert (LE : (Z.to_nat y * Z.to_nat w + Z.to_nat w <= Z.to_nat h * Z.to_nat w)%nat) by nia.
    assert (LF : length (firstn (Z.to_nat w) (skipn (Z.to_nat y * Z.to_nat w) pxs)) = Z.to_nat w) by (apply firstn_length_le; rewrite skipn_length; lia).
    split; [rewrite out_length, LF, Ec; lia|]. rewrite Ec. rewrite Nat2Z.id. replace (Z.to_nat (x * Z.of_nat (kcomps k))) with (Z.to_nat x * kcomps k)%nat by nia.
    rewrite out_nth by (rewrite LF; lia). rewrite nth_cut by lia. f_equal. f_equal. nia. }
  assert (IMG : exists rows, tga_image src = Ret rows /\ length rows = Z.to_nat h /\ forall y, 0 <= y < h -> nth_error rows (Z.to_nat y) = nth_error img (Z.to_nat (if up then h - 1 - y else y))).
  { unfold tga_image. rewrite Eh, R, Eu. cbn [bind]. destruct up.
    - destruct (memory_ok src img ltac:(lia) (Z.to_nat h) 0 ltac:(lia) ltac:(lia)) as (rs & -> & Lr & Nr). exists rs. split; [reflexivity|]. split; [exact Lr|]. intros y Hy. rewrite Nr by lia. f_equal. rewrite Eh. lia.
    - exists img. split; [reflexivity|]. split; [exact Limg|]. reflexivity. }
  destruct IMG as (rows & EI & Lr & Nr). exists src, rows. split; [exact E|]. split; [exact Ew|]. split; [exact Eh|]. split; [rewrite Ec; destruct k; reflexivity|]. split; [rewrite Es; destruct k; reflexivity|]. split; [exact EI|]. split; [lia|].
  intros y x Hy Hx. rewrite Nr by exact Hy. set (y' := if up then h - 1 - y else y). assert (Hy' : 0 <= y' < h) by (unfold y'; destruct up; lia). rewrite (N y' Hy'). destruct (PX y' x Hy' Hx) as (P1 & P2). eexists. split; [reflexivity|]. split; [exact P1|exact P2].
Qed.
Print Assumptions C60_read.

(* ---- any bytes ---- *)
Definition tga_header (f : list Z) (k : tkind) (rle : bool) : Prop :=
  byte f 1 <= 1 /\ byte f 2 = (if rle then 8 else 0) + (match k with KMapped => 1 | KGray => 3 | _ => 2 end) /\
  (byte f 16 = 8 * kind_bytes k \/ (k = KRgb15 /\ byte f 16 = 15)) /\ byte f 17 < 64 /\ 1 <= le2 f 12 /\ 1 <= le2 f 14 /\
  le2 f 5 <= 256 /\ (1 <= le2 f 5 -> le2 f 3 = 0 /\ byte f 7 = 24) /\ (le2 f 5 = 0 -> byte f 1 = 0) /\ (k = KMapped -> byte f 1 = 1) /\
  18 + byte f 0 + 3 * le2 f 5 <= Z.of_nat (length f).
Lemma byte_hd : forall f o, 0 <= o < 18 -> byte (firstn 18 f) o = byte f o.
Proof.
  intros f o H. unfold byte. assert (L : (Z.to_nat o < 18)%nat) by lia. set (i := Z.to_nat o) in *. clearbody i. clear H. rewrite <- (firstn_skipn 18 f) at 2.
  destruct (Nat.lt_ge_cases i (length (firstn 18 f))) as [H|H]; [rewrite app_nth1 by exact H; reflexivity|]. rewrite firstn_length in H. rewrite !nth_overflow; [reflexivity|rewrite firstn_skipn; lia|rewrite firstn_length; lia].
Qed.
Lemma flat_bgr : forall m, Z.of_nat (length (flat_map bgr m)) = 3 * Z.of_nat (length m).
Proof. induction m as [|[[r g] b] m IH]; [reflexivity|]. cbn [flat_map bgr app length]. lia. Qed.
Lemma land7 : forall x, 0 <= x -> Z.land x 7 = x mod 8.
Proof. intros x _. change 7 with (Z.ones 3). rewrite Z.land_ones by lia. reflexivity. Qed.
Lemma start_cases : forall f maxpix, bytes f -> (exists e, start_input_tga maxpix f = Error e) \/
  exists src k rle, start_input_tga maxpix f = Ret src /\ tga_header f k rle /\ t_w src = le2 f 12 /\ t_h src = le2 f 14 /\ (maxpix = 0 \/ t_w src * t_h src <= maxpix) /\
    t_comps src = Z.of_nat (kcomps k) /\ t_row src = row_of k /\ t_size src = kind_bytes k /\ sane src (t_start src).
Proof.
  intros f maxpix B. unfold start_input_tga, take. destruct (Z.ltb_spec (Z.of_nat (length f)) 18); [left; eexists; reflexivity|]. change (Z.to_nat 18) with 18%nat. cbn [bind].
  set (hd := firstn 18 f). assert (L : length hd = 18%nat) by (apply firstn_length_le; lia). assert (Bh : bytes hd) by (rewrite <- (firstn_skipn 18 f) in B; apply bytes_app in B; apply B).
  assert (Bl : bytes (skipn 18 f)) by (rewrite <- (firstn_skipn 18 f) in B; apply bytes_app in B; apply B). assert (Ll : Z.of_nat (length (skipn 18 f)) = Z.of_nat (length f) - 18) by (rewrite skipn_length; lia). set (l := skipn 18 f) in *. clearbody l.
  assert (HB : forall o, 0 <= o < 18 -> byte hd o = byte f o) by (intros o Ho; apply byte_hd; exact Ho).
  rewrite !byte_at by lia. cbn [bind]. rewrite !get2_at by (try exact Bh; lia). cbn [bind]. unfold le2. rewrite !HB by lia. fold (le2 f 5) (le2 f 12) (le2 f 14) (le2 f 3). clearbody hd.
  assert (R : forall o, 0 <= byte f o <= 255) by (intros o; apply byte_rng; exact B).
  assert (R2 : forall o, 0 <= le2 f o < 65536) by (intros o; unfold le2; pose proof (R o); pose proof (R (o + 1)); lia).
  set (bits := if byte f 16 =? 15 then 16 else byte f 16). assert (Rb : 0 <= bits <= 255) by (unfold bits; pose proof (R 16); destruct (byte f 16 =? 15); lia).
  match goal with |- context [if ?c then Error JERR_OTHER else if negb (maxpix =? 0) && _ then _ else _] => destruct c eqn:CK end; [left; eexists; reflexivity|].
  rewrite !orb_false_iff, !negb_false_iff, !Z.eqb_eq, !Z.eqb_neq, !Z.ltb_ge in CK. destruct CK as ((((((C1 & C2) & C3) & C4) & C5) & C6) & C7).
  rewrite land7 in C4 by lia. rewrite Z.shiftr_div_pow2 in C2, C3, C5 by lia. change (2 ^ 3) with 8 in *. change (2 ^ 6) with 64 in *.
  assert (Rf : byte f 17 < 64) by (pose proof (R 17); pose proof (Z.div_mod (byte f 17) 64 ltac:(lia)); pose proof (Z.mod_pos_bound (byte f 17) 64 ltac:(lia)); lia).
  destruct (negb (maxpix =? 0) && (maxpix <? le2 f 12 * le2 f 14)) eqn:MP; [left; eexists; reflexivity|].
  assert (MP' : maxpix = 0 \/ le2 f 12 * le2 f 14 <= maxpix).
  { apply andb_false_iff in MP. destruct MP as [MP|MP]; [left; apply negb_false_iff, Z.eqb_eq in MP; exact MP|right; apply Z.ltb_ge in MP; exact MP]. }
  rewrite Z.shiftr_div_pow2 by lia. change (2 ^ 3) with 8. pose proof (Z.div_mod bits 8 ltac:(lia)) as DM. set (size := bits / 8) in *. clearbody size.
  set (rle := 8 <? byte f 2). set (sub := if rle then byte f 2 - 8 else byte f 2).
  match goal with |- context [bind ?rr _] => set (rw := rr) end.
  assert (RW : (exists e, rw = Error e) \/ exists k, rw = Ret (row_of k) /\ size = kind_bytes k /\ byte f 2 = (if rle then 8 else 0) + (match k with KMapped => 1 | KGray => 3 | _ => 2 end) /\ (k = KMapped -> byte f 1 = 1)).
  { unfold rw, sub. destruct (Z.eqb_spec (if rle then byte f 2 - 8 else byte f 2) 1) as [E1|N1].
    - destruct (Z.eqb_spec size 1); [|left; eexists; reflexivity]. destruct (Z.eqb_spec (byte f 1) 1); [|left; eexists; reflexivity]. right. exists KMapped. split; [reflexivity|]. split; [assumption|]. split; [destruct rle; lia|tauto].
    - destruct (Z.eqb_spec (if rle then byte f 2 - 8 else byte f 2) 2) as [E2|N2].
      + destruct (Z.eqb_spec size 2); [right; exists KRgb15; split; [reflexivity|]; split; [assumption|]; split; [destruct rle; lia|discriminate]|].
        destruct (Z.eqb_spec size 3); [right; exists KRgb24; split; [reflexivity|]; split; [assumption|]; split; [destruct rle; lia|discriminate]|].
        destruct (Z.eqb_spec size 4); [right; exists KRgb32; split; [reflexivity|]; split; [assumption|]; split; [destruct rle; lia|discriminate]|left; eexists; reflexivity].
      + destruct (Z.eqb_spec (if rle then byte f 2 - 8 else byte f 2) 3) as [E3|N3]; [|left; eexists; reflexivity].
        destruct (Z.eqb_spec size 1); [|left; eexists; reflexivity]. right. exists KGray. split; [reflexivity|]. split; [assumption|]. split; [destruct rle; lia|discriminate]. }
  destruct RW as [(e & ->)|(k & -> & Ek & Es & E1)]; [left; eexists; reflexivity|]. cbn [bind].
  assert (KC : match row_of k with Gray8 => (1, JCS_GRAYSCALE) | _ => (3, JCS_RGB) end = (Z.of_nat (kcomps k), kcs k)) by (destruct k; reflexivity). rewrite KC.
  destruct (read_bytes_cases (Z.to_nat (byte f 0)) l) as [(e & ->)|(p & l1 & -> & Lp & ->)]; [left; eexists; reflexivity|]. cbn [bind]. apply bytes_app in Bl. destruct Bl as (_ & Bl). rewrite app_length in Ll. pose proof (R 0).
  assert (HB16 : byte f 16 = 8 * kind_bytes k \/ k = KRgb15 /\ byte f 16 = 15).
  { unfold bits in DM, C4. destruct (Z.eqb_spec (byte f 16) 15) as [E15|N15]; [|left; lia]. right. split; [|exact E15]. rewrite C4 in DM. assert (kind_bytes k = 2) by lia. destruct k; cbn [kind_bytes] in *; try lia. reflexivity. }
  pose proof (R2 12). pose proof (R2 14). pose proof (R2 5).
  destruct (Z.ltb_spec 0 (le2 f 5)) as [P|P].
  - destruct (Z.ltb_spec 256 (le2 f 5)); [left; eexists; reflexivity|]. destruct (Z.eqb_spec (le2 f 3) 0) as [E3|]; [|left; eexists; reflexivity]. cbn [orb negb].
    destruct (Z.eqb_spec (byte f 7) 24) as [E7|]; [|left; eexists; reflexivity]. cbn [negb].
    destruct (colormap_cases (Z.to_nat (le2 f 5)) l1) as [(e & ->)|(m & l2 & -> & Lm & ->)]; [left; eexists; reflexivity|]. cbn [bind]. right. apply bytes_app in Bl. destruct Bl as (_ & Bl). rewrite app_length in Ll. pose proof (flat_bgr m).
    eexists. exists k, rle. split; [reflexivity|]. cbn [t_w t_h t_comps t_row t_size t_start]. split; [|split; [reflexivity|]; split; [reflexivity|]; split; [exact MP'|]; split; [reflexivity|]; split; [reflexivity|]; split; [exact Ek|]; unfold sane; cbn [s_block s_dup s_in s_px]; split; [lia|]; split; [exact Bl|lia]].
    unfold tga_header. split; [exact C1|]. split; [exact Es|]. split; [exact HB16|]. split; [exact Rf|]. split; [lia|]. split; [lia|]. split; [lia|]. split; [tauto|]. split; [lia|]. split; [exact E1|lia].
  - destruct (Z.eqb_spec (byte f 1) 0) as [E0|]; cbn [negb bind]; [|left; eexists; reflexivity]. right.
    eexists. exists k, rle. split; [reflexivity|]. cbn [t_w t_h t_comps t_row t_size t_start]. split; [|split; [reflexivity|]; split; [reflexivity|]; split; [exact MP'|]; split; [reflexivity|]; split; [reflexivity|]; split; [exact Ek|]; unfold sane; cbn [s_block s_dup s_in s_px]; split; [lia|]; split; [exact Bl|lia]].
    unfold tga_header. split; [exact C1|]. split; [exact Es|]. split; [exact HB16|]. split; [exact Rf|]. split; [lia|]. split; [lia|]. split; [lia|]. split; [lia|]. split; [intros _; exact E0|]. split; [exact E1|lia].
Qed.

(* Any bytes: an error, or a header as the format has it and then either an error or all
   the rows, each of the announced size; no undefined behaviour. *)
Theorem C60_safe : forall f maxpix, bytes f ->
  (exists e, start_input_tga maxpix f = Error e) \/
  exists src k rle, start_input_tga maxpix f = Ret src /\ tga_header f k rle /\ t_w src = le2 f 12 /\ t_h src = le2 f 14 /\ (maxpix = 0 \/ t_w src * t_h src <= maxpix) /\
    t_comps src = (match k with KGray => 1 | _ => 3 end) /\
    ((exists e, tga_image src = Error e) \/
     exists rows, tga_image src = Ret rows /\ Z.of_nat (length rows) = t_h src /\ Forall (fun r => Z.of_nat (length r) = t_w src * t_comps src) rows).
Proof.
  intros f maxpix B. destruct (start_cases f maxpix B) as [E|(src & k & rle & E & HD & Ew & Eh & MP & Ec & Er & Ez & SN)]; [left; exact E|]. right. exists src, k, rle.
  split; [exact E|]. split; [exact HD|]. split; [exact Ew|]. split; [exact Eh|]. split; [exact MP|]. split; [rewrite Ec; destruct k; reflexivity|].
  assert (W : 1 <= t_w src /\ 1 <= t_h src) by (rewrite Ew, Eh; unfold tga_header in HD; lia).
  destruct (tga_rows_cases src ltac:(rewrite Ez; destruct k; cbn; lia) ltac:(rewrite Er, Ez; destruct k; cbn; lia) (Z.to_nat (t_h src)) (t_start src) SN) as [(e & X)|(rs & X & Ln & F)]; unfold tga_image; rewrite X; [left; eexists; reflexivity|]. right. cbn [bind].
  assert (FR : Forall (fun r : list Z => Z.of_nat (length r) = t_w src * t_comps src) rs).
  { rewrite Forall_forall in F |- *. intros r Hr. rewrite (F r Hr), Ec, Er. destruct k; cbn [row_of comps_of_row kcomps]; lia. }
  destruct (t_up src); [|exists rs; split; [reflexivity|]; split; [lia|exact FR]].
  destruct (memory_ok src rs ltac:(lia) (Z.to_nat (t_h src)) 0 ltac:(lia) ltac:(lia)) as (ms & -> & Lm & Nm). exists ms. split; [reflexivity|]. split; [lia|].
  apply Forall_forall. intros r Hr. apply In_nth_error in Hr. destruct Hr as (y & Hy). assert (Ly : (y < length ms)%nat) by (apply nth_error_Some; congruence). rewrite Nm in Hy by lia. apply nth_error_In in Hy. rewrite Forall_forall in FR. apply FR. exact Hy.
Qed.
Print Assumptions C60_safe.

(* ---- non-vacuity ---- *)
(* 3 x 2, run-length coded, 24 bits, bottom-up, with an identification of 2 bytes; the
   second packet crosses the end of the first row and the last goes past the image *)
Definition ex_file : list Z :=
  [2; 0; 10; 0; 0; 0; 0; 0; 0; 0; 0; 0; 3; 0; 2; 0; 24; 0] ++ [65; 66] ++ [] ++ ([1; 1; 2; 3; 4; 5; 6] ++ [129; 7; 8; 9] ++ [132; 10; 11; 12]) ++ [99].
Definition ex_pxs : list (list Z) := [[1; 2; 3]; [4; 5; 6]; [7; 8; 9]; [7; 8; 9]; [10; 11; 12]; [10; 11; 12]; [10; 11; 12]; [10; 11; 12]; [10; 11; 12]].
Example C60_ex_file : tga_file ex_file KRgb24 true true 3 2 [] ex_pxs.
Proof.
  exists [2; 0; 10; 0; 0; 0; 0; 0; 0; 0; 0; 0; 3; 0; 2; 0; 24; 0], [65; 66], ([1; 1; 2; 3; 4; 5; 6] ++ [129; 7; 8; 9] ++ [132; 10; 11; 12]), [99].
  split; [reflexivity|]. split; [reflexivity|]. split; [unfold bytes; repeat constructor; cbn; lia|]. split; [reflexivity|]. split; [reflexivity|]. split; [cbn; lia|]. split; [congruence|]. split; [reflexivity|]. split; [discriminate|].
  split; [reflexivity|]. split; [reflexivity|]. split; [reflexivity|]. split; [lia|]. split; [lia|]. split; [left; reflexivity|]. split; [reflexivity|]. split; [reflexivity|].
  split; [exists [Raw [[1; 2; 3]; [4; 5; 6]]; Run 2 [7; 8; 9]; Run 5 [10; 11; 12]]; split; [repeat constructor; cbn; lia|]; split; reflexivity|].
  split; [repeat constructor|]. split; [cbn; lia|discriminate].
Qed.
Example C60_ex_read : (src <- start_input_tga 0 ex_file ;; tga_image src) = Ret [[9; 8; 7; 12; 11; 10; 12; 11; 10]; [3; 2; 1; 6; 5; 4; 9; 8; 7]].
Proof. vm_compute. reflexivity. Qed.
Example C60_ex_truncated : (src <- start_input_tga 0 (firstn 30 ex_file) ;; tga_image src) = Error JERR_INPUT_EOF.
Proof. vm_compute. reflexivity. Qed.
