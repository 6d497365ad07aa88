(* P_Wrcom.v *)
From Verif Require Import Base M_Wrcom S_Wrcom.

Lemma find_ff_junk junk r : Forall (fun x => byte x /\ x <> 255) junk -> find_ff (junk ++ 255 :: r) = Ret r.
Proof. induction 1 as [|c l [_ H] _ IH]; cbn [app find_ff]; [reflexivity|]. destruct (Z.eqb_spec c 255); [congruence|]. exact IH. Qed.
Lemma skip_ff_fill n c r : c <> 255 -> skip_ff (repeat 255 n ++ c :: r) = Ret (c, r).
Proof. intros Hc. induction n as [|n IH]; cbn [repeat app skip_ff]; [|exact IH]. destruct (Z.eqb_spec c 255); [congruence|reflexivity]. Qed.
Lemma next_lead junk fill code r : Forall (fun x => byte x /\ x <> 255) junk -> code <> 255 -> next_marker (lead junk fill code ++ r) = Ret (code, r).
Proof.
  intros HJ HC. unfold next_marker, lead. rewrite <- !app_assoc. cbn [repeat app]. rewrite find_ff_junk by exact HJ. cbn [bind]. apply skip_ff_fill. exact HC.
Qed.
Lemma next_inv i m r : Forall byte i -> next_marker i = Ret (m, r) -> exists junk fill, i = lead junk fill m ++ r /\ Forall (fun x => byte x /\ x <> 255) junk /\ m <> 255 /\ byte m /\ Forall byte r.
Proof.
  intros HF H. unfold next_marker in H. destruct (find_ff i) as [r1| |] eqn:E1; try discriminate. cbn [bind] in H.
  assert (K1 : exists junk, i = junk ++ 255 :: r1 /\ Forall (fun x => byte x /\ x <> 255) junk).
  { clear H. revert HF E1. induction i as [|c i IH]; intros HF E1; cbn [find_ff] in E1; [discriminate|]. destruct (Z.eqb_spec c 255) as [->|N]; cbn [negb] in E1.
    - inversion E1; subst. exists []. auto.
    - destruct (IH (Forall_inv_tail HF) E1) as (junk & -> & HJ). exists (c :: junk). split; [reflexivity|]. constructor; auto. split; [exact (Forall_inv HF)|exact N]. }
  destruct K1 as (junk & -> & HJ). apply Forall_app in HF. destruct HF as [_ HF]. apply Forall_inv_tail in HF.
  assert (K2 : exists n, r1 = repeat 255 n ++ m :: r /\ m <> 255).
  { clear E1 HF. revert H. induction r1 as [|c r1 IH]; intros H; cbn [skip_ff] in H; [discriminate|]. destruct (Z.eqb_spec c 255) as [->|N].
    - destruct (IH H) as (n & -> & HN). exists (S n). auto.
    - inversion H; subst. exists 0%nat. auto. }
  destruct K2 as (n & -> & HN). apply Forall_app in HF. destruct HF as [_ HF]. exists junk, n. unfold lead. rewrite <- !app_assoc. cbn [repeat app].
  split; [reflexivity|]. split; [exact HJ|]. split; [exact HN|]. split; [exact (Forall_inv HF)|exact (Forall_inv_tail HF)].
Qed.

Lemma take_ok l r : take_bytes (length l) (l ++ r) = Ret (l, r).
Proof. induction l as [|c l IH]; [reflexivity|]. cbn [length app take_bytes wread1 bind]. rewrite IH. reflexivity. Qed.
Lemma take_inv : forall n i l r, take_bytes n i = Ret (l, r) -> i = l ++ r /\ length l = n.
Proof.
  induction n as [|n IH]; intros i l r H; cbn [take_bytes] in H; [inversion H; subst; auto|]. destruct i as [|c i]; cbn [wread1 bind] in H; [discriminate|].
  destruct (take_bytes n i) as [[l1 r1]| |] eqn:E; cbn [bind] in H; try discriminate. inversion H; subst. destruct (IH _ _ _ E) as [-> <-]. auto.
Qed.

Lemma write2_eq n : 0 <= n <= 65535 -> write2 n = [n / 256; n mod 256].
Proof.
  intros H. unfold write2. change 255 with (Z.ones 8). rewrite !Z.land_ones, Z.shiftr_div_pow2 by lia. change (2 ^ 8) with 256. rewrite (Z.mod_small (n / 256)); [reflexivity|].
  split; [apply Z.div_pos; lia|apply Z.div_lt_upper_bound; lia].
Qed.
Lemma wread2_eq n r : 0 <= n -> wread2 ([n / 256; n mod 256] ++ r) = Ret (n, r).
Proof. intros H. unfold wread2, wread1. cbn [app bind]. rewrite Z.shiftl_mul_pow2 by lia. change (2 ^ 8) with 256. pose proof (Z.div_mod n 256). do 2 f_equal. lia. Qed.

Lemma copy_ok d r : Z.of_nat (length d) <= 65533 -> let n := Z.of_nat (length d) + 2 in
  copy_variable ([n / 256; n mod 256] ++ d ++ r) = Ret ([n / 256; n mod 256] ++ d, r).
Proof.
  intros H n. unfold copy_variable. rewrite wread2_eq by lia. cbn [bind]. destruct (Z.ltb_spec n 2); [lia|]. replace (Z.to_nat (n - 2)) with (length d) by lia.
  rewrite take_ok. cbn [bind]. rewrite write2_eq by lia. reflexivity.
Qed.
Lemma skip_ok d r : Z.of_nat (length d) <= 65533 -> let n := Z.of_nat (length d) + 2 in
  skip_variable ([n / 256; n mod 256] ++ d ++ r) = Ret r.
Proof.
  intros H n. unfold skip_variable. rewrite wread2_eq by lia. cbn [bind]. destruct (Z.ltb_spec n 2); [lia|]. replace (Z.to_nat (n - 2)) with (length d) by lia.
  rewrite take_ok. reflexivity.
Qed.
(* any successful reading of a parameter segment *)
Lemma seg_inv i : Forall byte i ->
  (exists d r, i = [(Z.of_nat (length d) + 2) / 256; (Z.of_nat (length d) + 2) mod 256] ++ d ++ r /\ Z.of_nat (length d) <= 65533 /\ Forall byte d /\ Forall byte r) \/
  (exists e, copy_variable i = Error e /\ skip_variable i = Error e).
Proof.
  intros HF. unfold copy_variable, skip_variable. destruct i as [|c1 [|c2 r]]; cbn [wread2 wread1 bind]; [right; eauto|right; eauto|].
  assert (H1 := Forall_inv HF). assert (H2 := Forall_inv (Forall_inv_tail HF)). unfold byte in H1, H2. assert (H3 := Forall_inv_tail (Forall_inv_tail HF)).
  rewrite Z.shiftl_mul_pow2 by lia. change (2 ^ 8) with 256. set (n := c1 * 256 + c2). destruct (Z.ltb_spec n 2) as [G|G]; [right; eauto|].
  destruct (take_bytes (Z.to_nat (n - 2)) r) as [[l r2]|e|] eqn:E; cbn [bind].
  - destruct (take_inv _ _ _ _ E) as [-> L]. left. exists l, r2. apply Forall_app in H3. rewrite L. replace (Z.of_nat (Z.to_nat (n - 2)) + 2) with n by lia.
    split; [|split; [lia|exact H3]]. cbn [app]. f_equal; [|f_equal].
    + apply (Z.div_unique_pos n 256 c1 c2); lia.
    + apply (Z.mod_unique_pos n 256 c1 c2); lia.
  - right. eauto.
  - exfalso. clear -E. revert E. generalize (Z.to_nat (n - 2)) as k. intros k. revert r. induction k as [|k IH]; intros r E; cbn [take_bytes] in E; [discriminate|].
    destruct r as [|c r]; cbn [wread1 bind] in E; [discriminate|]. destruct (take_bytes k r) as [[l1 r1]| |] eqn:E1; cbn [bind] in E; try discriminate. eapply IH; exact E1.
Qed.

Lemma is_SOF_spec c : is_SOF c = true <-> SOF c.
Proof.
  unfold is_SOF, SOF. rewrite !andb_true_iff, !negb_true_iff. destruct (Z.leb_spec 192 c), (Z.leb_spec c 207), (Z.eqb_spec c 196), (Z.eqb_spec c 200), (Z.eqb_spec c 204); intuition (try lia; try discriminate).
Qed.

Lemma seg_len s : (4 <= length (seg_bytes s))%nat.
Proof. unfold seg_bytes, lead. rewrite !app_length, repeat_length. cbn [length]. lia. Qed.
Lemma segs_len l : (length l <= length (flat_map seg_bytes l))%nat.
Proof. induction l as [|s l IH]; [cbn; lia|]. cbn [flat_map length]. rewrite app_length. pose proof (seg_len s). lia. Qed.

Lemma scan_step f keep s r : good_seg s ->
  scan_header (S f) keep (seg_bytes s ++ r) =
    if negb keep && (sg_code s =? COM) then scan_header f keep r
    else ('(m', w', r3) <- scan_header f keep r ;; Ret (m', seg_bytes (tidy_seg s) ++ w', r3)).
Proof.
  intros (H1 & H2 & H3 & H4 & H5 & H6 & H7 & H8). cbn [scan_header]. unfold seg_bytes at 1. rewrite <- !app_assoc. rewrite (next_lead _ _ _ _ H1 H3). cbn [bind].
  destruct (is_SOF (sg_code s)) eqn:ES; [apply is_SOF_spec in ES; contradiction|]. unfold SOS, EOI, COM in *.
  destruct (Z.eqb_spec (sg_code s) 218); [congruence|]. destruct (Z.eqb_spec (sg_code s) 217); [congruence|]. rewrite (andb_comm (negb keep)).
  destruct ((sg_code s =? 254) && negb keep).
  - rewrite (skip_ok (sg_data s) r H8). reflexivity.
  - rewrite (copy_ok (sg_data s) r H8). cbn [bind]. destruct (scan_header f keep r) as [[[m' w'] r3]| |]; cbn [bind]; auto.
Qed.

Lemma scan_file keep f : good_file f -> forall fuel, (length (jf_segs f) < fuel)%nat ->
  scan_header fuel keep (flat_map seg_bytes (jf_segs f) ++ lead (jf_junk f) (jf_fill f) (jf_stop f) ++ jf_rest f) =
  Ret (jf_stop f, flat_map seg_bytes (map tidy_seg (filter (fun s => negb (negb keep && (sg_code s =? COM))) (jf_segs f))), jf_rest f).
Proof.
  intros (H1 & H2 & H3 & H4). induction H1 as [|s l HS HL IH]; intros fuel Hf; (destruct fuel as [|fuel]; [cbn in Hf; lia|]).
  - cbn [flat_map app filter map]. cbn [scan_header]. rewrite next_lead; [|exact H2|destruct H3 as [[G _]|G]; unfold EOI in *; lia]. cbn [bind].
    destruct H3 as [G|G]; [apply is_SOF_spec in G; rewrite G; reflexivity|]. rewrite G. reflexivity.
  - cbn [length] in Hf. cbn [flat_map]. rewrite <- app_assoc, (scan_step fuel keep s _ HS), IH by lia. cbn [filter]. destruct (negb keep && (sg_code s =? COM)); cbn [negb]; [reflexivity|].
    cbn [bind map flat_map]. reflexivity.
Qed.

Lemma scan_inv keep : forall fuel i, Forall byte i -> (length i < fuel)%nat ->
  (exists f, good_file f /\ i = flat_map seg_bytes (jf_segs f) ++ lead (jf_junk f) (jf_fill f) (jf_stop f) ++ jf_rest f) \/ (exists e, scan_header fuel keep i = Error e).
Proof.
  induction fuel as [|fuel IH]; intros i HF HL; [lia|]. cbn [scan_header]. destruct (next_marker i) as [[m r]|e|] eqn:EN; cbn [bind]; [|right; eauto|].
  2:{ exfalso. unfold next_marker in EN. clear -EN. assert (A : forall l, skip_ff l <> Undef). { induction l as [|c l IH]; cbn [skip_ff]; [discriminate|]. destruct (c =? 255); [exact IH|discriminate]. }
      assert (B : forall l, find_ff l <> Undef). { induction l as [|c l IH]; cbn [find_ff]; [discriminate|]. destruct (negb (c =? 255)); [exact IH|discriminate]. }
      destruct (find_ff i) eqn:E; cbn [bind] in EN; [eapply A; exact EN|discriminate|eapply B; exact E]. }
  destruct (next_inv i m r HF EN) as (junk & fill & -> & HJ & N & BM & HR).
  destruct (is_SOF m) eqn:ES.
  { left. exists (mkFile [] junk fill m r). cbn. split; [|reflexivity]. split; [constructor|]. split; [exact HJ|]. split; [left; apply is_SOF_spec; exact ES|exact HR]. }
  destruct (Z.eqb_spec m 218) as [E1|E1]; [right; eauto|].
  destruct (Z.eqb_spec m 217) as [E2|E2].
  { left. exists (mkFile [] junk fill m r). cbn. split; [|reflexivity]. split; [constructor|]. split; [exact HJ|]. split; [right; exact E2|exact HR]. }
  destruct (seg_inv r HR) as [(d & r2 & -> & LD & FD & FR)|(e & C1 & C2)].
  2:{ right. exists e. destruct ((m =? 254) && negb keep); [rewrite C2|rewrite C1]; reflexivity. }
  assert (GS : good_seg (mkSeg junk fill m d)).
  { split; [exact HJ|]. cbn. split; [exact BM|]. split; [exact N|]. split; [intros G; apply is_SOF_spec in G; congruence|]. auto. }
  assert (L2 : (length r2 < fuel)%nat). { unfold lead in HL. rewrite !app_length in HL. cbn [length] in HL. lia. }
  assert (OUT : (exists f, good_file f /\ r2 = flat_map seg_bytes (jf_segs f) ++ lead (jf_junk f) (jf_fill f) (jf_stop f) ++ jf_rest f) ->
     exists f, good_file f /\ lead junk fill m ++ [(Z.of_nat (length d) + 2) / 256; (Z.of_nat (length d) + 2) mod 256] ++ d ++ r2 = flat_map seg_bytes (jf_segs f) ++ lead (jf_junk f) (jf_fill f) (jf_stop f) ++ jf_rest f).
  { intros (f & (G1 & G2) & E). exists (mkFile (mkSeg junk fill m d :: jf_segs f) (jf_junk f) (jf_fill f) (jf_stop f) (jf_rest f)). cbn [jf_segs jf_junk jf_fill jf_stop jf_rest]. split.
    - split; [constructor; [exact GS|exact G1]|exact G2].
    - rewrite E. cbn [flat_map]. unfold seg_bytes at 2. cbn [sg_junk sg_fill sg_code sg_data]. rewrite <- !app_assoc. reflexivity. }
  destruct (IH r2 FR L2) as [K|(e & K)]; [left; apply OUT; exact K|right; exists e].
  destruct ((m =? 254) && negb keep); [rewrite (skip_ok d r2 LD)|rewrite (copy_ok d r2 LD)]; cbn [bind]; rewrite K; reflexivity.
Qed.

(* ---- rdjpgcom ---- *)
Lemma rd_step f raw isp s r : good_seg s ->
  rd_scan (S f) raw isp (seg_bytes s ++ r) =
    (t' <- rd_scan f raw isp r ;; Ret ((if sg_code s =? COM then show_com raw isp 0 (sg_data s) ++ [10] else []) ++ t')).
Proof.
  intros (H1 & H2 & H3 & H4 & H5 & H6 & H7 & H8). cbn [rd_scan]. unfold seg_bytes at 1. rewrite <- !app_assoc. rewrite (next_lead _ _ _ _ H1 H3). cbn [bind].
  unfold SOS, EOI, COM in *. destruct (Z.eqb_spec (sg_code s) 218); [congruence|]. destruct (Z.eqb_spec (sg_code s) 217); [congruence|]. cbn [orb].
  destruct (sg_code s =? 254).
  - unfold process_COM. rewrite wread2_eq by lia. cbn [bind]. destruct (Z.ltb_spec (Z.of_nat (length (sg_data s)) + 2) 2); [lia|].
    replace (Z.to_nat (Z.of_nat (length (sg_data s)) + 2 - 2)) with (length (sg_data s)) by lia. rewrite take_ok. reflexivity.
  - rewrite (skip_ok (sg_data s) r H8). cbn [bind app]. destruct (rd_scan f raw isp r); reflexivity.
Qed.

Lemma take_undef : forall k r, take_bytes k r <> Undef.
Proof.
  induction k as [|k IH]; intros r E; cbn [take_bytes] in E; [discriminate|].
  destruct r as [|c r]; cbn [wread1 bind] in E; [discriminate|]. destruct (take_bytes k r) as [[l1 r1]| |] eqn:E1; cbn [bind] in E; try discriminate. eapply IH; exact E1.
Qed.
Lemma find_len : forall i r, find_ff i = Ret r -> (length r < length i)%nat.
Proof. induction i as [|c i IH]; intros r H; cbn [find_ff] in H; [discriminate|]. destruct (negb (c =? 255)); [apply IH in H; cbn [length]; lia|inversion H; subst; cbn [length]; lia]. Qed.
Lemma skipff_len : forall i m r, skip_ff i = Ret (m, r) -> (length r < length i)%nat.
Proof. induction i as [|c i IH]; intros m r H; cbn [skip_ff] in H; [discriminate|]. destruct (c =? 255); [apply IH in H; cbn [length]; lia|inversion H; subst; cbn [length]; lia]. Qed.
Lemma next_len i m r : next_marker i = Ret (m, r) -> (length r < length i)%nat.
Proof. unfold next_marker. destruct (find_ff i) as [a| |] eqn:E; cbn [bind]; try discriminate. intros H. apply find_len in E. apply skipff_len in H. lia. Qed.
Lemma wread2_len i n r : wread2 i = Ret (n, r) -> (length r < length i)%nat.
Proof. destruct i as [|a [|b i]]; cbn [wread2 wread1 bind]; try discriminate. intros H. inversion H; subst. cbn [length]. lia. Qed.
Lemma take_len k i l r : take_bytes k i = Ret (l, r) -> (length r <= length i)%nat.
Proof. intros H. apply take_inv in H. destruct H as [-> _]. rewrite app_length. lia. Qed.
Lemma skipv_len i r : skip_variable i = Ret r -> (length r < length i)%nat.
Proof.
  unfold skip_variable. destruct (wread2 i) as [[n a]| |] eqn:E; cbn [bind]; try discriminate. destruct (n <? 2); [discriminate|].
  destruct (take_bytes (Z.to_nat (n - 2)) a) as [[l b]| |] eqn:E2; cbn [bind]; try discriminate. intros H. inversion H; subst. apply wread2_len in E. apply take_len in E2. lia.
Qed.
Lemma procCOM_len raw isp i t r : process_COM raw isp i = Ret (t, r) -> (length r < length i)%nat.
Proof.
  unfold process_COM. destruct (wread2 i) as [[n a]| |] eqn:E; cbn [bind]; try discriminate. destruct (n <? 2); [discriminate|].
  destruct (take_bytes (Z.to_nat (n - 2)) a) as [[l b]| |] eqn:E2; cbn [bind]; try discriminate. intros H. inversion H; subst. apply wread2_len in E. apply take_len in E2. lia.
Qed.
Lemma rd_fuel raw isp : forall f1 f2 i, (length i < f1)%nat -> (length i < f2)%nat -> rd_scan f1 raw isp i = rd_scan f2 raw isp i.
Proof.
  induction f1 as [|f1 IH]; intros f2 i H1 H2; [lia|]. destruct f2 as [|f2]; [lia|]. cbn [rd_scan].
  destruct (next_marker i) as [[m r]| |] eqn:EN; cbn [bind]; auto. apply next_len in EN. destruct ((m =? 218) || (m =? 217)); [reflexivity|].
  destruct (m =? 254).
  - destruct (process_COM raw isp r) as [[t r2]| |] eqn:EP; cbn [bind]; auto. apply procCOM_len in EP. rewrite (IH f2 r2) by lia. reflexivity.
  - destruct (skip_variable r) as [r2| |] eqn:EP; cbn [bind]; auto. apply skipv_len in EP. rewrite (IH f2 r2) by lia. reflexivity.
Qed.
Definition texts (raw : bool) (isp : Z -> bool) (l : list segment) : list Z :=
  flat_map (fun s => show_com raw isp 0 (sg_data s) ++ [10]) (filter (fun s => sg_code s =? COM) l).
Lemma rd_segs raw isp tail : forall l, Forall good_seg l -> forall f, (length (flat_map seg_bytes l ++ tail) < f)%nat ->
  rd_scan f raw isp (flat_map seg_bytes l ++ tail) = (t' <- rd_scan (S (length tail)) raw isp tail ;; Ret (texts raw isp l ++ t')).
Proof.
  induction 1 as [|s l HS HL IH]; intros f Hf.
  - cbn [flat_map app] in *. rewrite (rd_fuel raw isp f (S (length tail)) tail) by lia. destruct (rd_scan (S (length tail)) raw isp tail); reflexivity.
  - cbn [flat_map] in *. rewrite <- app_assoc in *. destruct f as [|f]; [lia|]. rewrite app_length in Hf. pose proof (seg_len s).
    rewrite (rd_step f raw isp s _ HS), IH by lia. destruct (rd_scan (S (length tail)) raw isp tail) as [t'| |]; cbn [bind]; auto.
    unfold texts. cbn [filter]. destruct (sg_code s =? COM); cbn [flat_map]; rewrite ?app_assoc; reflexivity.
Qed.
Lemma rd_lead raw isp junk fill code r f1 f2 : Forall (fun x => byte x /\ x <> 255) junk -> code <> 255 ->
  (length r < f1)%nat -> (length r < f2)%nat -> rd_scan (S f1) raw isp (lead junk fill code ++ r) = rd_scan (S f2) raw isp (lead [] 0 code ++ r).
Proof.
  intros HJ HC H1 H2. cbn [rd_scan]. rewrite (next_lead _ _ _ _ HJ HC), (next_lead [] 0 code r (Forall_nil _) HC). cbn [bind].
  destruct ((code =? 218) || (code =? 217)); [reflexivity|]. destruct (code =? 254).
  - destruct (process_COM raw isp r) as [[t r2]| |] eqn:EP; cbn [bind]; auto. apply procCOM_len in EP. rewrite (rd_fuel raw isp f1 f2 r2) by lia. reflexivity.
  - destruct (skip_variable r) as [r2| |] eqn:EP; cbn [bind]; auto. apply skipv_len in EP. rewrite (rd_fuel raw isp f1 f2 r2) by lia. reflexivity.
Qed.
Lemma texts_tidy raw isp l : texts raw isp (map tidy_seg l) = texts raw isp l.
Proof. unfold texts. induction l as [|s l IH]; [reflexivity|]. cbn [map filter]. cbn [sg_code tidy_seg]. destruct (sg_code s =? COM); cbn [flat_map sg_data tidy_seg]; rewrite IH; reflexivity. Qed.
Lemma texts_app raw isp l1 l2 : texts raw isp (l1 ++ l2) = texts raw isp l1 ++ texts raw isp l2.
Proof. unfold texts. rewrite filter_app, flat_map_app. reflexivity. Qed.
Lemma texts_drop raw isp l : texts raw isp (filter (fun s => negb (true && (sg_code s =? COM))) l) = [].
Proof.
  unfold texts. induction l as [|s l IH]; [reflexivity|]. cbn [filter andb]. destruct (sg_code s =? COM) eqn:E; cbn [negb]; [exact IH|]. cbn [filter]. rewrite E. exact IH.
Qed.
Lemma texts_keep raw isp l : texts raw isp (filter (fun s => negb (false && (sg_code s =? COM))) l) = texts raw isp l.
Proof. f_equal. induction l as [|s l IH]; [reflexivity|]. cbn [filter andb negb] in *. rewrite IH. reflexivity. Qed.
Lemma texts_comments raw isp f : texts raw isp (jf_segs f) = flat_map (fun t => show_com raw isp 0 t ++ [10]) (comments f).
Proof. unfold texts, comments. rewrite !flat_map_concat_map, map_map. reflexivity. Qed.
Lemma show_raw isp : forall l last, show_com true isp last l = l.
Proof. induction l as [|c l IH]; intros last; [reflexivity|]. cbn [show_com app]. rewrite IH. reflexivity. Qed.
Lemma show_plain isp : forall l last, Forall (fun c => isp c = true /\ c <> 13 /\ c <> 10 /\ c <> 92) l -> show_com false isp last l = l.
Proof.
  induction l as [|c l IH]; intros last H; [reflexivity|]. destruct (Forall_inv H) as (H1 & H2 & H3 & H4). cbn [show_com].
  destruct (Z.eqb_spec c 13); [congruence|]. destruct (Z.eqb_spec c 10); [congruence|]. destruct (Z.eqb_spec c 92); [congruence|]. rewrite H1. cbn [app]. rewrite IH by exact (Forall_inv_tail H). reflexivity.
Qed.
Lemma good_add b c f : good_file f -> Forall byte c -> Z.of_nat (length c) <= 65000 -> good_file (add_comment b c f).
Proof.
  intros (H1 & H2 & H3 & H4) HC HL. unfold add_comment, good_file. cbn [jf_segs jf_junk jf_fill jf_stop jf_rest]. split; [|split; [constructor|split; [exact H3|exact H4]]].
  apply Forall_app. split.
  - apply Forall_forall. intros s HS. apply in_map_iff in HS. destruct HS as (s0 & <- & HS). apply filter_In in HS. destruct HS as [HS _].
    rewrite Forall_forall in H1. destruct (H1 _ HS) as (G1 & G2 & G3). unfold good_seg, tidy_seg. cbn [sg_junk sg_code sg_data sg_fill]. split; [constructor|]. split; [exact G2|exact G3].
  - destruct c as [|a c]; [constructor|]. constructor; [|constructor]. unfold good_seg. cbn [sg_junk sg_code sg_data sg_fill]. split; [constructor|]. unfold byte, COM, SOF, SOS, EOI.
    split; [lia|]. split; [lia|]. split; [lia|]. split; [lia|]. split; [lia|]. split; [exact HC|lia].
Qed.
