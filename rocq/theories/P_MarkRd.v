(* P_MarkRd.v -- safety of the marker reader. *)
From Verif Require Import Base M_HuffDec M_MarkRd.

Definition isb (x : Z) : Prop := 0 <= x < 256.
Definition isq (x : Z) : Prop := 0 <= x < 65536.
Definition qok (q : option (list Z)) : Prop := match q with None => True | Some t => length t = 64%nat /\ Forall isq t end.
Definition hok (h : option (list Z * list Z)) : Prop :=
  match h with None => True | Some (b, v) => length b = 17%nat /\ length v = 256%nat /\ Forall isb b /\ Forall isb v /\ zsum b <= 256 end.
Definition isn (x : Z) : Prop := 0 <= x < 16.
Definition cok (c : comp) : Prop := isb (c_id c) /\ isn (c_h c) /\ isn (c_v c) /\ isb (c_q c) /\ isn (c_dc c) /\ isn (c_ac c).
Definition csok (o : option (list comp)) : Prop := match o with None => True | Some cs => Forall cok cs end.
Definition pmok (o : option pmark) : Prop :=
  match o with None => True | Some m => Z.of_nat (length (pm_data m)) <= pm_len m /\ pm_len m <= pm_orig m /\ pm_orig m <= 65533 /\ Forall isb (pm_data m) end.
Definition frame_ok (s : rst) : Prop := exists cs, comps s = Some cs /\ Z.of_nat (length cs) = ncomp s /\ 1 <= ncomp s <= 255 /\ 1 <= height s <= 65535 /\ 1 <= width s <= 65535.

Record wf (s : rst) : Prop := mkWf {
  w_q : length (qt s) = 4%nat; w_q2 : Forall qok (qt s);
  w_d : length (dch s) = 4%nat; w_d2 : Forall hok (dch s);
  w_a : length (ach s) = 4%nat; w_a2 : Forall hok (ach s);
  w_L : length (aL s) = 16%nat; w_U : length (aU s) = 16%nat; w_K : length (aK s) = 16%nat;
  w_L2 : Forall isn (aL s); w_U2 : Forall isn (aU s); w_K2 : Forall isb (aK s);
  w_ri : 0 <= ri s < 65536; w_cs : csok (comps s); w_cur : length (cur s) = 4%nat;
  w_frame : saw_SOF s = true -> frame_ok s;
  w_pa : length (proc_app s) = 16%nat; w_la : length (lim_app s) = 16%nat; w_la2 : Forall (fun x => 0 <= x) (lim_app s); w_lc : 0 <= lim_com s;
  w_pm : pmok (cur_marker s); w_sk : 0 <= skip s }.
Definition dac_ok (s : rst) : Prop := saw_SOI s = true -> Forall2 Z.le (aL s) (aU s).
Definition nosof (s : rst) : Prop := saw_SOF s = false -> comps s = None.
Record G (s : rst) : Prop := mkG { g_wf : wf s; g_dac : dac_ok s; g_ns : nosof s }.
Definition issof (m : Z) : Prop := m = 192 \/ m = 193 \/ m = 194 \/ m = 195 \/ m = 201 \/ m = 202 \/ m = 203.
(* a SOF segment is being read again after a suspension: the component array has the size the segment announces *)
Definition sofpend (s : rst) (l : list Z) : Prop :=
  wf s /\ dac_ok s /\ saw_SOF s = false /\ issof (unread s) /\ exists cs, comps s = Some cs /\ nth_error l 7 = Some (Z.of_nat (length cs)).

Definition sat {A} (W : rst -> list Z -> Prop) (Q : A -> rst -> list Z -> Prop) (r : rr A) : Prop :=
  match r with ROk a s l => Q a s l | RSusp s l => W s l | RErr _ s => wf s | RUb => False end.
Definition WG (s : rst) (l : list Z) : Prop := G s /\ Forall isb l.
Definition QG (n : nat) {A} (_ : A) (s : rst) (l : list Z) : Prop := G s /\ Forall isb l /\ (length l <= n)%nat.

Ltac wf_c := match goal with H : wf _ |- wf _ => destruct H; constructor; cbn; try assumption | H : G _ |- wf _ => destruct H as [H _ _]; destruct H; constructor; cbn; try assumption end.
Ltac g_c := match goal with H : G _ |- G _ => let a := fresh in let b := fresh in let c := fresh in destruct H as [a b c]; constructor; [wf_c|try exact b|try exact c] end.

Lemma byte_sat {A} (Q : A -> rst -> list Z -> Prop) s l0 l k : G s -> Forall isb l0 -> Forall isb l ->
  (forall b l', l = b :: l' -> isb b -> Forall isb l' -> (S (length l') = length l)%nat -> sat WG Q (k b l')) -> sat WG Q (byte s l0 l k).
Proof.
  intros HG H0 Hl K. unfold byte. destruct l as [|b l]; [split; assumption|]. inversion Hl; subst. apply K; auto.
Qed.
Lemma byte2_sat {A} (Q : A -> rst -> list Z -> Prop) s l0 l k : G s -> Forall isb l0 -> Forall isb l ->
  (forall v l', isq v -> Forall isb l' -> (S (S (length l')) = length l)%nat -> sat WG Q (k v l')) -> sat WG Q (byte2 s l0 l k).
Proof.
  intros HG H0 Hl K. unfold byte2. apply byte_sat; auto. intros b1 l1 -> B1 F1 L1. apply byte_sat; auto. intros b2 l2 -> B2 F2 L2. apply K; [unfold isb, isq in *; lia|assumption|cbn in *; lia].
Qed.
Lemma nbytes_sat {A} (Q : A -> rst -> list Z -> Prop) n : forall acc s l0 l k, G s -> Forall isb l0 -> Forall isb l -> Forall isb acc ->
  (forall r l', length r = (length acc + n)%nat -> Forall isb r -> Forall isb l' -> (length l' + n = length l)%nat -> sat WG Q (k r l')) -> sat WG Q (nbytes n acc s l0 l k).
Proof.
  induction n as [|n IH]; intros acc s l0 l k HG H0 Hl Ha K; cbn [nbytes]; [apply K; auto; lia|].
  apply byte_sat; auto. intros b l' -> Hb Hl' _. apply IH; auto; [apply Forall_app; auto|].
  intros r l'' Lr Fr Fl Ll. apply K; auto; [rewrite app_length in Lr; cbn in Lr; lia|cbn; lia].
Qed.
Lemma chk_get {A B} (Q : B -> rst -> list Z -> Prop) (t : list A) i s (k : A -> rr B) : 0 <= i < Z.of_nat (length t) ->
  (forall x, nth_error t (Z.to_nat i) = Some x -> sat WG Q (k x)) -> sat WG Q (chk (aget t i) s k).
Proof.
  intros Hi K. unfold aget. destruct (Z.ltb_spec i 0); [lia|]. destruct (nth_error t (Z.to_nat i)) eqn:E; [cbn; now apply K|apply nth_error_None in E; lia].
Qed.
Lemma chk_set {A B} (Q : B -> rst -> list Z -> Prop) (t : list A) i v s (k : list A -> rr B) : 0 <= i < Z.of_nat (length t) ->
  sat WG Q (k (upd t (Z.to_nat i) v)) -> sat WG Q (chk (aset t i v) s k).
Proof. intros Hi K. rewrite aset_ok by exact Hi. exact K. Qed.
Lemma Forall_upd {A} (P : A -> Prop) l n x : Forall P l -> P x -> Forall P (upd l n x).
Proof. intros H Hx. revert n. induction H as [|h t Hh Ht IH]; intros [|n]; cbn; auto. Qed.
Lemma Forall2_upd {A B} (R : A -> B -> Prop) l m n x y : Forall2 R l m -> R x y -> Forall2 R (upd l n x) (upd m n y).
Proof. intros H Hx. revert n. induction H as [|h t Hh Ht IH]; intros [|n]; cbn; auto. Qed.
Lemma Forall_nth_error {A} (P : A -> Prop) l n x : Forall P l -> nth_error l n = Some x -> P x.
Proof. intros H E. rewrite Forall_forall in H. apply H. eapply nth_error_In; eauto. Qed.
Lemma land15 x : 0 <= x -> isn (Z.land x 15).
Proof. intros H. unfold isn. change 15 with (Z.ones 4). rewrite Z.land_ones by lia. apply Z.mod_pos_bound. lia. Qed.
Lemma shr4 x : isb x -> isn (Z.shiftr x 4).
Proof. intros H. unfold isb, isn in *. rewrite Z.shiftr_div_pow2 by lia. change (2 ^ 4) with 16. split; [apply Z.div_pos; lia|apply Z.div_lt_upper_bound; lia]. Qed.
Lemma zsum_nonneg l : Forall isb l -> 0 <= zsum l.
Proof. induction 1 as [|x l Hx Hl IH]; cbn [zsum fold_right]; unfold zsum, isb in *; lia. Qed.
Lemma Forall_skipn {A} (P : A -> Prop) n l : Forall P l -> Forall P (skipn n l).
Proof. intros H. revert l H. induction n as [|n IH]; intros l H; [exact H|]. destruct H; cbn; [constructor|auto]. Qed.
Lemma Forall_firstn {A} (P : A -> Prop) n l : Forall P l -> Forall P (firstn n l).
Proof. intros H. revert l H. induction n as [|n IH]; intros l H; [constructor|]. destruct H; cbn; constructor; auto. Qed.
Lemma skip_G n s l : G s -> Forall isb l -> 0 <= n -> let '(s', l') := skip_input n s l in G s' /\ Forall isb l' /\ (length l' <= length l)%nat /\ saw_SOF s' = saw_SOF s.
Proof.
  intros HG Hl Hn. unfold skip_input. destruct (Z.leb_spec n (Z.of_nat (length l))).
  - split; [exact HG|]. split; [now apply Forall_skipn|]. split; [rewrite skipn_length; lia|reflexivity].
  - split; [g_c; lia|]. split; [constructor|]. split; [cbn; lia|reflexivity].
Qed.

Lemma dac_sat fuel : forall len s l0 l, G s -> Forall isb l0 -> Forall isb l -> len <= Z.of_nat fuel -> sat WG (QG (length l)) (dac_loop fuel len s l0 l).
Proof.
  induction fuel as [|f IH]; intros len s l0 l HG H0 Hl Hf; cbn [dac_loop].
  - destruct (Z.leb_spec len 0); [|lia]. destruct (negb _); [apply HG|]. split; [exact HG|]. auto.
  - destruct (Z.leb_spec len 0); [destruct (negb _); [apply HG|split; [exact HG|auto]]|].
    assert (MONO : forall r n m, (n <= m)%nat -> sat WG (@QG n unit) r -> sat WG (@QG m unit) r).
    { intros r n m Hnm. destruct r as [a s' l'| | |]; cbn; auto. intros (A & B & C). split; [exact A|]. split; [exact B|lia]. }
    apply byte_sat; auto. intros ix l1 E1 B1 F1 L1. apply byte_sat; auto. intros v l2 E2 B2 F2 L2. cbn zeta. unfold NUM_ARITH_TBLS.
    destruct (Z.ltb_spec ix 0); [unfold isb in B1; lia|]. destruct (Z.leb_spec (2 * 16) ix); cbn [orb]; [apply HG|].
    destruct (Z.leb_spec 16 ix).
    + apply chk_set; [rewrite (w_K _ (g_wf _ HG)); cbn; lia|]. apply (MONO _ (length l2)); [lia|]. apply IH; auto; [|lia].
      g_c; [rewrite length_upd; assumption|apply Forall_upd; [assumption|apply u8_range]].
    + apply chk_set; [rewrite (w_L _ (g_wf _ HG)); cbn; lia|]. apply chk_set; [rewrite (w_U _ (g_wf _ HG)); cbn; lia|].
      assert (W1 : wf (set_aU (set_aL s (upd (aL s) (Z.to_nat ix) (Z.land v 15))) (upd (aU s) (Z.to_nat ix) (Z.shiftr v 4)))).
      { wf_c; rewrite ?length_upd; try assumption; apply Forall_upd; auto; [apply land15; unfold isb in *; lia|now apply shr4]. }
      destruct (Z.ltb_spec (Z.shiftr v 4) (Z.land v 15)); [exact W1|]. apply (MONO _ (length l2)); [lia|]. apply IH; auto; [|lia].
      constructor; [exact W1| |exact (g_ns _ HG)]. unfold dac_ok. cbn [set_aU set_aL aL aU saw_SOI]. intros HS. apply Forall2_upd; [exact (g_dac _ HG HS)|lia].
Qed.

Lemma dht_sat fuel : forall len s l0 l, G s -> Forall isb l0 -> Forall isb l -> len <= Z.of_nat fuel -> sat WG (QG (length l)) (dht_loop fuel len s l0 l).
Proof.
  induction fuel as [|f IH]; intros len s l0 l HG H0 Hl Hf; cbn [dht_loop].
  - destruct (Z.leb_spec len 16); [|lia]. destruct (negb _); [apply HG|]. split; [exact HG|]. auto.
  - destruct (Z.leb_spec len 16); [destruct (negb _); [apply HG|split; [exact HG|auto]]|].
    assert (MONO : forall r n m, (n <= m)%nat -> sat WG (@QG n unit) r -> sat WG (@QG m unit) r).
    { intros r n m Hnm. destruct r as [a s' l'| | |]; cbn; auto. intros (A & B & C). split; [exact A|]. split; [exact B|lia]. }
    apply byte_sat; auto. intros ix l1 E1 B1 F1 L1. apply nbytes_sat; auto. intros b l2 Lb Fb F2 L2. cbn zeta. cbn [length] in Lb.
    destruct (Z.ltb_spec 256 (zsum b)) as [|ZB]; cbn [orb]; [apply HG|]. destruct (Z.ltb_spec (len - 17) (zsum b)); [apply HG|].
    pose proof (zsum_nonneg b Fb) as ZN.
    apply nbytes_sat; auto. intros v l3 Lv Fv F3 L3. cbn [length] in Lv.
    assert (HK : hok (Some (0 :: b, v ++ repeat 0 (Z.to_nat (256 - zsum b))))).
    { unfold hok. split; [cbn [length]; lia|]. split; [rewrite app_length, repeat_length; lia|]. split; [constructor; [unfold isb; lia|assumption]|]. split; [|exact ZB].
      apply Forall_app. split; [assumption|]. apply Forall_forall. intros x Hx. apply repeat_spec in Hx. subst. unfold isb. lia. }
    destruct (negb _).
    + destruct (Z.ltb_spec (ix - 16) 0); cbn [orb]; [apply HG|]. unfold NUM_HUFF_TBLS. destruct (Z.leb_spec 4 (ix - 16)); [apply HG|].
      apply chk_set; [rewrite (w_a _ (g_wf _ HG)); cbn; lia|]. apply (MONO _ (length l3)); [lia|]. apply IH; auto; [|lia].
      g_c; [rewrite length_upd; assumption|apply Forall_upd; assumption].
    + destruct (Z.ltb_spec ix 0); cbn [orb]; [apply HG|]. unfold NUM_HUFF_TBLS. destruct (Z.leb_spec 4 ix); [apply HG|].
      apply chk_set; [rewrite (w_d _ (g_wf _ HG)); cbn; lia|]. apply (MONO _ (length l3)); [lia|]. apply IH; auto; [|lia].
      g_c; [rewrite length_upd; assumption|apply Forall_upd; assumption].
Qed.

Lemma nat_order i : 0 <= i < 64 -> exists p, aget jpeg_natural_order i = Ret p /\ 0 <= p < 64.
Proof.
  intros H. assert (E : Forall (fun i => exists p, aget jpeg_natural_order (Z.of_nat i) = Ret p /\ 0 <= p < 64) (seq 0 64)).
  { cbn [seq]. repeat (constructor; [eexists; split; [reflexivity|lia]|]). constructor. }
  rewrite Forall_forall in E. specialize (E (Z.to_nat i)). rewrite Z2Nat.id in E by lia. apply E. apply in_seq. lia.
Qed.
Lemma dqt_vals_sat (Q : unit -> rst -> list Z -> Prop) m : forall i prec n s l0 l k, G s -> Forall isb l0 -> Forall isb l -> 0 <= i -> i + Z.of_nat m = 64 -> 0 <= n < 4 ->
  (exists t, nth_error (qt s) (Z.to_nat n) = Some (Some t)) ->
  (forall s' l', G s' -> Forall isb l' -> (length l' <= length l)%nat -> sat WG Q (k s' l')) ->
  sat WG Q (dqt_vals m i prec n s l0 l k).
Proof.
  induction m as [|m IH]; intros i prec n s l0 l k HG H0 Hl Hi Hm Hn Ht K; cbn [dqt_vals]; [apply K; auto|].
  assert (ST : forall tmp l', Forall isb l' -> (length l' <= length l)%nat -> sat WG Q
     (chk (aget (qt s) n) s (fun q => match q with None => RUb | Some t =>
      chk (aget jpeg_natural_order i) s (fun pos => chk (aset t pos (u16 tmp)) s (fun t => chk (aset (qt s) n (Some t)) s (fun qs =>
      dqt_vals m (i + 1) prec n (set_qt s qs) l0 l' k))) end))).
  { intros tmp l' F' L'. pose proof (g_wf _ HG) as HW. apply chk_get; [rewrite (w_q _ HW); cbn; lia|]. intros q Eq. destruct Ht as (t & Et). rewrite Et in Eq. injection Eq as <-.
    pose proof (Forall_nth_error _ _ _ _ (w_q2 _ HW) Et) as [Lt Ft].
    destruct (nat_order i ltac:(lia)) as (p & Ep & Hp). rewrite Ep. cbn [chk]. apply chk_set; [rewrite Lt; cbn; lia|]. apply chk_set; [rewrite (w_q _ HW); cbn; lia|].
    apply IH; auto; [|lia|lia| |intros; apply K; auto; lia].
    - g_c; [rewrite length_upd; assumption|apply Forall_upd; [assumption|]]. split; [rewrite length_upd; exact Lt|]. apply Forall_upd; [exact Ft|]. unfold isq, u16. apply Z.mod_pos_bound. lia.
    - cbn [set_qt qt]. eexists. apply nth_error_upd_eq. rewrite (w_q _ HW). lia. }
  destruct (negb _); [apply byte2_sat|apply byte_sat]; auto.
  - intros v l' _ F' L'. apply ST; [assumption|lia].
  - intros v l' _ _ F' L'. apply ST; [assumption|lia].
Qed.
Lemma dqt_sat fuel : forall len s l0 l, G s -> Forall isb l0 -> Forall isb l -> len <= Z.of_nat fuel -> sat WG (QG (length l)) (dqt_loop fuel len s l0 l).
Proof.
  induction fuel as [|f IH]; intros len s l0 l HG H0 Hl Hf; cbn [dqt_loop].
  - destruct (Z.leb_spec len 0); [|lia]. destruct (negb _); [apply HG|]. split; [exact HG|]. auto.
  - destruct (Z.leb_spec len 0); [destruct (negb _); [apply HG|split; [exact HG|auto]]|].
    assert (MONO : forall r n m, (n <= m)%nat -> sat WG (@QG n unit) r -> sat WG (@QG m unit) r).
    { intros r n m Hnm. destruct r as [a s' l'| | |]; cbn; auto. intros (A & B & C). split; [exact A|]. split; [exact B|lia]. }
    apply byte_sat; auto. intros b l1 E1 B1 F1 L1. cbn zeta. pose proof (land15 b ltac:(unfold isb in *; lia)) as N15. unfold isn in N15.
    unfold NUM_QUANT_TBLS. destruct (Z.leb_spec 4 (Z.land b 15)); [apply HG|]. set (n := Z.land b 15) in *. pose proof (g_wf _ HG) as HW.
    apply chk_get; [rewrite (w_q _ HW); cbn; lia|]. intros q Eq.
    assert (REC : forall s' l', G s' -> Forall isb l' -> (length l' <= length l1)%nat -> sat WG (QG (length l)) (dqt_loop f (len - 65 - (if negb (Z.shiftr b 4 =? 0) then 64 else 0)) s' l0 l')).
    { intros s' l' G' F' L'. apply (MONO _ (length l')); [lia|]. apply IH; auto. destruct (negb _); lia. }
    destruct q as [t|].
    + cbn [chk]. apply dqt_vals_sat; auto; try lia; [g_c|]. exists t. exact Eq.
    + rewrite aset_ok by (rewrite (w_q _ HW); cbn; lia). cbn [chk]. apply dqt_vals_sat; auto; try lia.
      * g_c; [rewrite length_upd; assumption|apply Forall_upd; [assumption|]]. split; [reflexivity|]. repeat (constructor; [unfold isq; lia|]). constructor.
      * cbn [set_qt qt]. eexists. apply nth_error_upd_eq. rewrite (w_q _ HW). lia.
Qed.

Lemma match_at_ok data w : forall k, 0 <= k -> k + Z.of_nat (length w) <= Z.of_nat (length data) -> exists b, match_at data k w = Ret b.
Proof.
  induction w as [|x w IH]; intros k Hk H; cbn [match_at]; [eauto|]. cbn [length] in H. rewrite (aget_nth data k 0) by lia. cbn [bind]. destruct (_ =? x); [apply IH; lia|eauto].
Qed.
Lemma app0_G data s : G s -> exists s', examine_app0 data s = Ret s' /\ G s'.
Proof.
  intros HG. unfold examine_app0. destruct (Z.leb_spec 14 (Z.of_nat (length data))) as [L|L]; [|eauto].
  destruct (match_at_ok data [74; 70; 73; 70; 0] 0 ltac:(lia) ltac:(cbn; lia)) as (b & ->). cbn [bind]. destruct b; [|eauto].
  rewrite !(aget_nth data _ 0) by lia. cbn [bind]. eexists. split; [reflexivity|]. g_c.
Qed.
Lemma app14_G data s : G s -> exists s', examine_app14 data s = Ret s' /\ G s'.
Proof.
  intros HG. unfold examine_app14. destruct (Z.leb_spec 12 (Z.of_nat (length data))) as [L|L]; [|eauto].
  destruct (match_at_ok data [65; 100; 111; 98; 101] 0 ltac:(lia) ltac:(cbn; lia)) as (b & ->). cbn [bind]. destruct b; [|eauto].
  rewrite !(aget_nth data _ 0) by lia. cbn [bind]. eexists. split; [reflexivity|]. g_c.
Qed.
Lemma skip_sat n len s l : G s -> Forall isb l -> (length l <= n)%nat -> sat WG (QG n) (if 0 <? len then let '(s, l) := skip_input len s l in ROk tt s l else ROk tt s l).
Proof.
  intros HG Hl Hn. destruct (Z.ltb_spec 0 len); [|split; auto]. pose proof (skip_G len s l HG Hl ltac:(lia)) as K. destruct (skip_input len s l) as [s' l']. destruct K as (A & B & C & _).
  split; [exact A|]. split; [exact B|lia].
Qed.
Lemma interesting_sat s l : G s -> Forall isb l -> sat WG (QG (length l)) (get_interesting_appn s l).
Proof.
  intros HG Hl. unfold get_interesting_appn. apply byte2_sat; auto. intros len l1 Q1 F1 L1. cbn zeta. apply nbytes_sat; auto. intros b l2 Lb Fb F2 L2. cbn zeta.
  set (o := if unread s =? 224 then _ else _). assert (O : (exists s', o = Ret s' /\ G s') \/ exists e, o = Error e).
  { subst o. destruct (_ =? 224); [left; now apply app0_G|]. destruct (_ =? 238); [left; now apply app14_G|right; eauto]. }
  destruct O as [(s' & -> & G')|(e & ->)]; cbn [chk]; [apply skip_sat; auto; lia|apply HG].
Qed.
Lemma skip_var_sat s l : G s -> Forall isb l -> sat WG (QG (length l)) (skip_variable s l).
Proof. intros HG Hl. unfold skip_variable. apply byte2_sat; auto. intros len l1 Q1 F1 L1. apply skip_sat; auto. lia. Qed.
Lemma save_finish_sat n s data len l : G s -> Forall isb l -> (length l <= n)%nat -> sat WG (QG n) (save_finish s data len l).
Proof.
  intros HG Hl Hn. unfold save_finish. cbn zeta. assert (G0 : G (set_cur_marker s None)) by (g_c; exact I). set (s0 := set_cur_marker s None) in *.
  set (o := if unread s0 =? 224 then _ else _). assert (O : exists s', o = Ret s' /\ G s').
  { subst o. destruct (_ =? 224); [now apply app0_G|]. destruct (_ =? 238); [now apply app14_G|eauto]. }
  destruct O as (s' & -> & G'); cbn [chk]. apply skip_sat; auto.
Qed.
Lemma save_resume_sat n s m l : G s -> pmok (Some m) -> Forall isb l -> (length l <= n)%nat -> sat WG (QG n) (save_resume s m l).
Proof.
  intros HG (M1 & M2 & M3 & M4) Hl Hn. unfold save_resume. cbn zeta. set (need := pm_len m - _). destruct (Z.ltb_spec (Z.of_nat (length l)) need).
  - split; [|constructor]. g_c. cbn. rewrite app_length. split; [lia|]. split; [lia|]. split; [lia|]. apply Forall_app; auto.
  - apply save_finish_sat; [g_c|now apply Forall_skipn|rewrite skipn_length; lia].
Qed.
Lemma save_marker_sat s l : G s -> Forall isb l -> unread s = 254 \/ 224 <= unread s <= 239 -> sat WG (QG (length l)) (save_marker s l).
Proof.
  intros HG Hl HU. unfold save_marker. pose proof (g_wf _ HG) as HW. destruct (cur_marker s) as [m|] eqn:E.
  - apply save_resume_sat; auto. pose proof (w_pm _ HW) as P. rewrite E in P. exact P.
  - apply byte2_sat; auto. intros len l1 Q1 F1 L1. cbn zeta. unfold isq in Q1.
    destruct (Z.leb_spec 0 (len - 2)); [|apply save_finish_sat; auto; lia].
    assert (K : forall limit, 0 <= limit -> sat WG (QG (length l)) (save_resume (set_cur_marker s (Some (mkPM (u8 (unread s)) (len - 2) (if len - 2 <? limit then len - 2 else limit) []))) (mkPM (u8 (unread s)) (len - 2) (if len - 2 <? limit then len - 2 else limit) []) l1)).
    { intros limit HL. assert (P : pmok (Some (mkPM (u8 (unread s)) (len - 2) (if len - 2 <? limit then len - 2 else limit) []))).
      { cbn. destruct (Z.ltb_spec (len - 2) limit); (split; [lia|split; [lia|split; [lia|constructor]]]). }
      apply save_resume_sat; auto; [g_c; exact P|lia]. }
    destruct (Z.eqb_spec (unread s) 254); [apply K; apply (w_lc _ HW)|].
    apply chk_get; [rewrite (w_la _ HW); cbn; lia|]. intros x Ex. apply K. exact (Forall_nth_error _ _ _ _ (w_la2 _ HW) Ex).
Qed.
Lemma run_proc_sat p s l : G s -> Forall isb l -> unread s = 254 \/ 224 <= unread s <= 239 -> sat WG (QG (length l)) (run_proc p s l).
Proof. intros HG Hl HU. unfold run_proc. destruct (p =? 0); [now apply skip_var_sat|]. destruct (p =? 1); [now apply interesting_sat|now apply save_marker_sat]. Qed.

Lemma next_marker_sat l : forall (st : bool) s l0, G s -> Forall isb l0 -> Forall isb l ->
  sat WG (fun _ s' l' => G s' /\ Forall isb l' /\ (length l' + (if st then 1 else 2) <= length l)%nat /\ 0 < unread s' < 255) (next_marker_loop st s l0 l).
Proof.
  induction l as [|c l IH]; intros st s l0 HG H0 Hl; cbn [next_marker_loop]; [split; auto|]. inversion Hl as [|? ? Hc Hl']; subst.
  assert (MONO : forall r st st', (forall n : nat, (n + (if (st : bool) then 1 else 2) <= length l)%nat -> (n + (if (st' : bool) then 1 else 2) <= S (length l))%nat) ->
     sat WG (fun (_ : unit) s' l' => G s' /\ Forall isb l' /\ (length l' + (if st then 1 else 2) <= length l)%nat /\ 0 < unread s' < 255) r ->
     sat WG (fun (_ : unit) s' l' => G s' /\ Forall isb l' /\ (length l' + (if st' then 1 else 2) <= length (c :: l))%nat /\ 0 < unread s' < 255) r).
  { intros r a b Hab. destruct r as [x s' l'| | |]; cbn; auto. intros (A & B & C & D). split; [exact A|]. split; [exact B|]. split; [apply Hab; exact C|exact D]. }
  destruct st.
  - destruct (Z.eqb_spec c 255); [apply (MONO _ true true); [intros; lia|now apply IH]|].
    destruct (Z.eqb_spec c 0); cbn [negb].
    + apply (MONO _ false true); [intros; lia|]. apply IH; auto. g_c.
    + cbn [sat]. split; [g_c|]. split; [exact Hl'|]. split; [cbn; lia|]. cbn. unfold isb in Hc. lia.
  - destruct (Z.eqb_spec c 255); [apply (MONO _ true false); [intros; lia|now apply IH]|].
    apply (MONO _ false false); [intros; lia|]. apply IH; auto. g_c.
Qed.

(* ---- SOS ---- *)
Lemma find_comp_ok n : forall ci cc cs cu nc, 0 <= ci -> Z.of_nat (length cs) = nc -> length cu = 4%nat ->
  exists r, find_comp n ci cc cs cu nc = Ret r /\ match r with
    | Some c => ci <= c < nc /\ c < 4 /\ nth_error cu (Z.to_nat c) = Some None /\ (exists p, nth_error cs (Z.to_nat c) = Some p /\ c_id p = cc)
    | None => True end.
Proof.
  induction n as [|n IH]; intros ci cc cs cu nc Hc Hn Hu; cbn [find_comp]; [exists None; auto|]. unfold MAX_COMPS_IN_SCAN.
  destruct (Z.ltb_spec ci nc); cbn [andb]; [|exists None; auto]. destruct (Z.ltb_spec ci 4); [|exists None; auto].
  destruct (nth_error cs (Z.to_nat ci)) as [p|] eqn:Ep; [|apply nth_error_None in Ep; lia]. destruct (nth_error cu (Z.to_nat ci)) as [q|] eqn:Eq; [|apply nth_error_None in Eq; lia].
  assert (REC : exists r, find_comp n (ci + 1) cc cs cu nc = Ret r /\ match r with
    | Some c => ci <= c < nc /\ c < 4 /\ nth_error cu (Z.to_nat c) = Some None /\ (exists p, nth_error cs (Z.to_nat c) = Some p /\ c_id p = cc)
    | None => True end).
  { destruct (IH (ci + 1) cc cs cu nc ltac:(lia) Hn Hu) as (r & E & P). exists r. split; [exact E|]. destruct r; [|exact P]. destruct P as (P1 & P2). split; [lia|exact P2]. }
  unfold aget at 1. destruct (Z.ltb_spec ci 0); [lia|]. rewrite Ep. cbn [bind]. destruct (Z.eqb_spec cc (c_id p)); [|exact REC].
  unfold aget. destruct (Z.ltb_spec ci 0); [lia|]. rewrite Eq. cbn [bind]. destruct q; [exact REC|]. eexists. split; [reflexivity|]. split; [lia|]. split; [lia|]. split; [exact Eq|]. exists p. auto.
Qed.
Lemma already_ok n : forall pi ci cu, 0 <= pi -> pi + Z.of_nat n <= Z.of_nat (length cu) ->
  exists b, already n pi ci cu = Ret b /\ (b = false -> forall j, pi <= j < pi + Z.of_nat n -> nth_error cu (Z.to_nat j) <> Some (Some ci)).
Proof.
  induction n as [|n IH]; intros pi ci cu Hp Hn; cbn [already]; [eexists; split; [reflexivity|intros; lia]|].
  destruct (nth_error cu (Z.to_nat pi)) as [q|] eqn:Eq; [|apply nth_error_None in Eq; lia]. unfold aget. destruct (Z.ltb_spec pi 0); [lia|]. rewrite Eq. cbn [bind].
  destruct (match q with Some d => d =? ci | None => false end) eqn:E; [eexists; split; [reflexivity|discriminate]|].
  destruct (IH (pi + 1) ci cu ltac:(lia) ltac:(lia)) as (b & Eb & Hb). exists b. split; [exact Eb|]. intros Hf j Hj. destruct (Z.eq_dec j pi) as [-> |N]; [|apply Hb; auto; lia].
  rewrite Eq. intros X. injection X as ->. rewrite Z.eqb_refl in E. discriminate.
Qed.
(* slots 0..i-1 hold pairwise different component numbers, the rest are NULL *)
Definition cur_ok (i : Z) (s : rst) : Prop :=
  (forall j, 0 <= j < i -> exists c, nth_error (cur s) (Z.to_nat j) = Some (Some c) /\ 0 <= c < Z.min (ncomp s) 4) /\
  (forall j, i <= j < 4 -> nth_error (cur s) (Z.to_nat j) = Some None) /\
  (forall j k c, 0 <= j < i -> 0 <= k < i -> nth_error (cur s) (Z.to_nat j) = Some (Some c) -> nth_error (cur s) (Z.to_nat k) = Some (Some c) -> j = k).
Lemma sos_comps_sat (Q : unit -> rst -> list Z -> Prop) n : forall i s l0 l k, G s -> saw_SOF s = true -> Forall isb l0 -> Forall isb l -> 0 <= i -> i + Z.of_nat n = nscan s -> nscan s <= 4 -> cur_ok i s ->
  (forall s' l', G s' -> saw_SOF s' = true -> nscan s' = nscan s -> cur_ok (nscan s) s' -> scan_no s' = scan_no s -> Forall isb l' -> (length l' <= length l)%nat -> sat WG Q (k s' l')) ->
  sat WG Q (sos_comps n i s l0 l k).
Proof.
  induction n as [|n IH]; intros i s l0 l k HG HS H0 Hl Hi Hn H4 HC K; cbn [sos_comps].
  { apply K; auto. replace (nscan s) with i by lia. exact HC. }
  apply byte_sat; auto. intros cc l1 E1 B1 F1 L1. apply byte_sat; auto. intros c l2 E2 B2 F2 L2.
  pose proof (g_wf _ HG) as HW. destruct (w_frame _ HW HS) as (cs & Ec & Lc & FR). rewrite Ec.
  destruct (find_comp_ok 5 0 cc cs (cur s) (ncomp s) ltac:(lia) Lc (w_cur _ HW)) as (r & Er & Hr). rewrite Er. cbn [chk]. destruct r as [ci|]; [|apply HW].
  destruct Hr as (R1 & R2 & R3 & p & R4 & R5).
  apply chk_set; [rewrite (w_cur _ HW); cbn; lia|]. apply chk_get; [lia|]. intros p' Ep'. rewrite R4 in Ep'. injection Ep' as <-. apply chk_set; [lia|].
  set (cu := upd (cur s) (Z.to_nat i) (Some ci)). set (cs' := upd cs _ _). set (s1 := set_comps (set_cur s cu) (Some cs')).
  assert (CO : Forall cok cs) by (pose proof (w_cs _ HW) as X; rewrite Ec in X; exact X).
  assert (G1 : G s1).
  { subst s1. constructor; [|exact (g_dac _ HG)|intros X; cbn in X; congruence]. destruct HW; constructor; cbn [set_comps set_cur qt dch ach aL aU aK ri comps cur saw_SOF proc_app lim_app lim_com cur_marker skip]; try assumption.
    - subst cs'. cbn [csok]. apply Forall_upd; [exact CO|]. pose proof (Forall_nth_error _ _ _ _ CO R4) as (C1 & C2 & C3 & C4 & _). unfold cok. cbn [c_id c_h c_v c_q c_dc c_ac]. pose proof (land15 (Z.shiftr c 4)) as LL. pose proof (shr4 c B2) as S4.
      split; [exact C1|]. split; [exact C2|]. split; [exact C3|]. split; [exact C4|]. split; apply land15; [unfold isn in S4; lia|unfold isb in B2; lia].
    - subst cu. rewrite length_upd. assumption.
    - intros _. exists cs'. cbn. subst cs'. rewrite length_upd. auto. }
  destruct (already_ok (Z.to_nat i) 0 ci cu ltac:(lia)) as (b & Eb & Hb).
  { subst cu. rewrite length_upd, (w_cur _ HW). lia. }
  rewrite Eb. cbn [chk]. destruct b; [apply G1|]. specialize (Hb eq_refl).
  apply IH; auto.
  - lia.
  - cbn. lia.
  - destruct HC as (C1 & C2 & C3). unfold cur_ok. subst s1. cbn [set_comps set_cur cur ncomp].
    assert (LI : (Z.to_nat i < length (cur s))%nat) by (rewrite (w_cur _ HW); lia).
    assert (UP : forall j, 0 <= j -> j <> i -> nth_error cu (Z.to_nat j) = nth_error (cur s) (Z.to_nat j)) by (intros j Hj N; apply nth_error_upd_neq; lia).
    split; [|split].
    + intros j Hj. destruct (Z.eq_dec j i) as [-> |N]; [exists ci; split; [apply nth_error_upd_eq; exact LI|lia]|]. rewrite UP by lia. apply C1. lia.
    + intros j Hj. rewrite UP by lia. apply C2. lia.
    + assert (DI : forall j, 0 <= j < i -> nth_error cu (Z.to_nat j) <> Some (Some ci)) by (intros j Hj; apply Hb; lia).
      assert (EI : nth_error cu (Z.to_nat i) = Some (Some ci)) by (apply nth_error_upd_eq; exact LI).
      intros j k' d Hj Hk Ej Ek. destruct (Z.eq_dec j i) as [Ji|Nj], (Z.eq_dec k' i) as [Ki|Nk].
      * lia.
      * subst j. rewrite EI in Ej. injection Ej as <-. destruct (DI k' ltac:(lia) Ek).
      * subst k'. rewrite EI in Ek. injection Ek as <-. destruct (DI j ltac:(lia) Ej).
      * rewrite UP in Ej, Ek by lia. apply (C3 j k' d); auto; lia.
  - intros s' l' A B C D E F L. apply K; auto. lia.
Qed.
Definition scan_ok (s : rst) : Prop := 1 <= nscan s <= 4 /\ cur_ok (nscan s) s /\ isb (rSs s) /\ isb (rSe s) /\ isn (rAh s) /\ isn (rAl s) /\ saw_SOF s = true.
Lemma get_sos_sat s l : G s -> Forall isb l -> sat WG (fun _ s' l' => QG (length l) tt s' l' /\ scan_ok s' /\ scan_no s' = scan_no s + 1) (get_sos s l).
Proof.
  intros HG Hl. unfold get_sos. destruct (saw_SOF s) eqn:HS; cbn [negb]; [|apply HG].
  apply byte2_sat; auto. intros len l1 Q1 F1 L1. apply byte_sat; auto. intros n l2 E2 B2 F2 L2.
  destruct (negb _); cbn [orb]; [apply HG|]. destruct (Z.ltb_spec n 1); cbn [orb]; [apply HG|]. unfold MAX_COMPS_IN_SCAN. destruct (Z.ltb_spec 4 n); [apply HG|].
  set (s1 := set_cur (set_nscan s n) (repeat None 4)).
  assert (G1 : G s1) by (subst s1; g_c; reflexivity).
  apply sos_comps_sat; auto.
  - lia.
  - subst s1. cbn. lia.
  - split; [intros; lia|]. split; [|intros; lia]. intros j Hj. subst s1. cbn [set_cur cur]. assert (J : j = 0 \/ j = 1 \/ j = 2 \/ j = 3) by lia. destruct J as [-> |[-> |[-> | ->]]]; reflexivity.
  - intros s2 l3 G2 HS2 N2 C2 SN2 F3 L3. change (nscan s1) with n in N2, C2. change (scan_no s1) with (scan_no s) in SN2.
    assert (GG : forall v, G (set_rSs s2 v)) by (intros; clear -G2; g_c).
    apply byte_sat; auto. intros a l4 E4 B4 F4 L4. apply byte_sat; auto. intros b l5 E5 B5 F5 L5. apply byte_sat; auto; [clear -G2; g_c|]. intros c l6 E6 B6 F6 L6.
    cbn [sat]. split; [split; [clear -G2; g_c|split; [exact F6|lia]]|]. split.
    + unfold scan_ok, cur_ok in *. cbn -[nth_error Z.land Z.shiftr Z.min]. rewrite N2. split; [lia|]. split; [exact C2|]. split; [exact B4|]. split; [exact B5|]. pose proof (shr4 c B6) as S4.
      split; [apply land15; unfold isn in S4; lia|]. split; [apply land15; unfold isb in B6; lia|exact HS2].
    + cbn. rewrite SN2. reflexivity.
Qed.

(* ---- SOF ---- *)
Definition WS (s : rst) (l : list Z) : Prop := (G s \/ sofpend s l) /\ Forall isb l.
Lemma sof_comps_sat n : forall ci s l0 l, sofpend s l0 -> ncomp s = ci + Z.of_nat n -> 0 <= ci -> (forall cs, comps s = Some cs -> Z.of_nat (length cs) = ncomp s) ->
  1 <= ncomp s <= 255 -> 1 <= height s <= 65535 -> 1 <= width s <= 65535 -> Forall isb l0 -> Forall isb l ->
  sat WS (QG (length l)) (sof_comps n ci s l0 l).
Proof.
  induction n as [|n IH]; intros ci s l0 l HP Hn Hci Hlen HN HH HWd H0 Hl; cbn [sof_comps].
  - destruct HP as (W & D & S & U & cs & Ec & Nc). cbn [sat]. split; [|auto]. constructor; [|exact D|intros X; cbn in X; discriminate].
    destruct W. constructor; cbn; try assumption. intros _. exists cs. cbn. specialize (Hlen cs Ec). auto.
  - (* one field update *)
    assert (WR : forall s f, sofpend s l0 -> (forall cs, comps s = Some cs -> Z.of_nat (length cs) = ncomp s) -> ncomp s = ci + Z.of_nat (S n) -> (forall c, cok c -> cok (f c)) ->
       exists s', (forall k : rst -> rr unit, wr_comp ci s f k = k s') /\
          sofpend s' l0 /\ (forall cs, comps s' = Some cs -> Z.of_nat (length cs) = ncomp s') /\ ncomp s' = ncomp s /\ height s' = height s /\ width s' = width s).
    { clear -Hci. intros s f (W & D & S & U & cs & Ec & Nc) Hlen Hn Hf. pose proof (Hlen cs Ec) as LC.
      destruct (nth_error cs (Z.to_nat ci)) as [p|] eqn:Ep; [|apply nth_error_None in Ep; lia].
      exists (set_comps s (Some (upd cs (Z.to_nat ci) (f p)))). assert (CO : Forall cok cs) by (pose proof (w_cs _ W) as X; rewrite Ec in X; exact X).
      split; [|split; [|split; [|auto]]].
      - intros k. unfold wr_comp. rewrite Ec. unfold aget. destruct (Z.ltb_spec ci 0); [lia|]. rewrite Ep. cbn [chk]. rewrite aset_ok by lia. reflexivity.
      - split; [|split; [exact D|split; [exact S|split; [exact U|]]]].
        + destruct W; constructor; cbn; try assumption.
          * apply Forall_upd; [exact CO|]. apply Hf. exact (Forall_nth_error _ _ _ _ CO Ep).
          * intros X. congruence.
        + eexists. split; [reflexivity|]. rewrite length_upd. exact Nc.
      - intros cs' E'. cbn in E'. injection E' as <-. rewrite length_upd. exact LC. }
    assert (BY : forall (s : rst) (l : list Z) (k : Z -> list Z -> rr unit) N, sofpend s l0 -> Forall isb l -> (forall b l', Forall isb l' -> isb b -> (S (length l') = length l)%nat -> sat WS (QG N) (k b l')) -> sat WS (QG N) (byte s l0 l k)).
    { clear -H0. intros s l k N HP Hl K. unfold byte. destruct l as [|b l]; [split; [now right|exact H0]|]. inversion Hl; subst. apply K; auto. }
    apply BY; auto. intros id l1 F1 B1 L1.
    destruct (WR s (fun c => mkComp id (c_h c) (c_v c) (c_q c) (c_dc c) (c_ac c)) HP Hlen Hn) as (s1 & E1 & P1 & N1 & A1 & A2 & A3).
    { intros c (C1 & C2). split; [exact B1|exact C2]. }
    rewrite E1. apply BY; auto. intros hv l2 F2 B2 L2.
    destruct (WR s1 (fun c => mkComp (c_id c) (Z.land (Z.shiftr hv 4) 15) (Z.land hv 15) (c_q c) (c_dc c) (c_ac c)) P1 N1 ltac:(lia)) as (s2 & E2 & P2 & N2 & A4 & A5 & A6).
    { intros c (C1 & C2 & C3 & C4). pose proof (shr4 hv B2) as S4. split; [exact C1|]. cbn [c_h c_v c_q]. split; [apply land15; unfold isn in S4; lia|]. split; [apply land15; unfold isb in B2; lia|exact C4]. }
    rewrite E2. apply BY; auto. intros q l3 F3 B3 L3.
    destruct (WR s2 (fun c => mkComp (c_id c) (c_h c) (c_v c) q (c_dc c) (c_ac c)) P2 N2 ltac:(lia)) as (s3 & E3 & P3 & N3 & A7 & A8 & A9).
    { intros c (C1 & C2 & C3 & C4 & C5). split; [exact C1|]. split; [exact C2|]. split; [exact C3|]. split; [exact B3|exact C5]. }
    rewrite E3. specialize (IH (ci + 1) s3 l0 l3 P3 ltac:(lia) ltac:(lia) N3 ltac:(lia) ltac:(lia) ltac:(lia) H0 F3).
    destruct (sof_comps n (ci + 1) s3 l0 l3) as [a s' l'|s' l'|e s'|]; [|exact IH|exact IH|exact IH]. destruct IH as (I1 & I2 & I3). split; [exact I1|]. split; [exact I2|lia].
Qed.
Lemma sofpend_G s l : WS s l -> ~ issof (unread s) -> G s.
Proof. intros ([H|(_ & _ & _ & H & _)] & _) N; [exact H|contradiction]. Qed.
Lemma get_sof_sat p lo a s l0 : WS s l0 -> issof (unread s) -> sat WS (QG (length l0)) (get_sof p lo a s l0).
Proof.
  intros [HW H0] HU. unfold get_sof. assert (W : wf s /\ dac_ok s) by (destruct HW as [HW|HW]; [split; apply HW|destruct HW as (A & B & _); auto]). destruct W as [W D].
  destruct (saw_SOF s) eqn:HS; [exact W|]. cbn zeta.
  (* comps is NULL or has the announced size *)
  assert (C0 : comps s = None \/ exists cs, comps s = Some cs /\ nth_error l0 7 = Some (Z.of_nat (length cs))).
  { destruct HW as [HW|(_ & _ & _ & _ & HW)]; [left; now apply (g_ns _ HW)|now right]. }
  assert (KEEP : forall s', wf s' -> dac_ok s' -> saw_SOF s' = false -> unread s' = unread s -> comps s' = comps s -> WS s' l0).
  { intros s' A B C E F. split; [|exact H0]. destruct C0 as [C0|C0]; [left; constructor; auto; intros _; congruence|right]. split; [exact A|]. split; [exact B|]. split; [exact C|]. split; [now rewrite E|]. rewrite F. exact C0. }
  destruct l0 as [|b1 [|b2 [|b3 [|b4 [|b5 [|b6 [|b7 [|b8 l]]]]]]]]; cbn [byte2 byte]; try (cbn [sat]; apply KEEP; [clear -W HS; destruct W; constructor; cbn; try assumption; intros; congruence|exact D|exact HS|reflexivity|reflexivity]).
  repeat match goal with H : Forall isb (_ :: _) |- _ => inversion H; subst; clear H end.
  set (s1 := set_ncomp _ _). assert (W1 : wf s1) by (subst s1; clear -W HS; destruct W; constructor; cbn; try assumption; intros; congruence).
  destruct ((_ || _) || _) eqn:EZ; [exact W1|]. destruct (negb _); [exact W1|].
  set (s2 := match comps s1 with None => _ | Some _ => s1 end).
  assert (E8 : isb b8) by assumption. unfold isb in *.
  apply orb_false_iff in EZ. destruct EZ as [EZ EZ3]. apply orb_false_iff in EZ. destruct EZ as [EZ1 EZ2]. apply Z.leb_gt in EZ1, EZ2, EZ3.
  assert (P2 : sofpend s2 (b1 :: b2 :: b3 :: b4 :: b5 :: b6 :: b7 :: b8 :: l) /\ (forall cs, comps s2 = Some cs -> Z.of_nat (length cs) = ncomp s2) /\ ncomp s2 = b8 /\ height s2 = b4 * 256 + b5 /\ width s2 = b6 * 256 + b7).
  { subst s2. change (comps s1) with (comps s). destruct C0 as [C0|(cs & C0 & CL)]; rewrite C0.
    - split; [|split; [|auto]].
      + split; [|split; [exact D|split; [exact HS|split; [exact HU|]]]].
        * clear -W1 HS. destruct W1; constructor; cbn; try assumption; [|intros; congruence]. apply Forall_forall. intros c Hc. apply repeat_spec in Hc. subst c. unfold cok, isb, isn. cbn. lia.
        * eexists. split; [reflexivity|]. rewrite repeat_length. cbn [nth_error]. f_equal. lia.
      + intros cs E. cbn in E. injection E as <-. rewrite repeat_length. cbn. lia.
    - cbn [nth_error] in CL. injection CL as CL. split; [|split; [|auto]].
      + split; [exact W1|]. split; [exact D|]. split; [exact HS|]. split; [exact HU|]. exists cs. split; [exact C0|]. cbn [nth_error]. f_equal. exact CL.
      + intros cs' E. change (comps s1) with (comps s) in E. rewrite C0 in E. injection E as <-. change (ncomp s1) with b8. lia. }
  destruct P2 as (P2 & N2 & X1 & X2 & X3).
  assert (FF : Forall isb (b1 :: b2 :: b3 :: b4 :: b5 :: b6 :: b7 :: b8 :: l)) by (repeat (constructor; [assumption|]); assumption).
  pose proof (sof_comps_sat (Z.to_nat b8) 0 s2 _ l P2 ltac:(lia) ltac:(lia) N2 ltac:(lia) ltac:(lia) ltac:(lia) FF ltac:(assumption)) as R.
  destruct (sof_comps _ _ _ _ _) as [x s' l'|s' l'|e s'|]; [|exact R|exact R|exact R]. destruct R as (R1 & R2 & R3). split; [exact R1|]. split; [exact R2|cbn [length]; lia].
Qed.

(* ---- one marker, and the loop ---- *)
Lemma get_soi_sat s l : G s -> Forall isb l -> sat WG (QG (length l)) (get_soi s l).
Proof.
  intros HG Hl. unfold get_soi. destruct (saw_SOI s); [apply HG|]. cbn [sat]. split; [|auto].
  constructor; [|intros _; cbn [set_saw_SOI aL aU set_transform set_saw_Adobe set_ydens set_xdens set_dunit set_jf_min set_jf_maj set_saw_JFIF set_ri set_aK set_aU set_aL]; repeat constructor; lia|exact (g_ns _ HG)].
  wf_c; try reflexivity; try lia; repeat (constructor; [unfold isn, isb; lia|]); constructor.
Qed.
Lemma WG_WS {A} (Q : A -> rst -> list Z -> Prop) r : sat WG Q r -> sat WS Q r.
Proof. destruct r as [a s l|s l|e s|]; cbn; auto. intros [H1 H2]. split; [now left|exact H2]. Qed.
Lemma get_dri_sat s l : G s -> Forall isb l -> sat WG (QG (length l)) (get_dri s l).
Proof.
  intros HG Hl. unfold get_dri. apply byte2_sat; auto. intros len l1 Q1 F1 L1. destruct (negb _); [apply HG|]. apply byte2_sat; auto. intros v l2 Q2 F2 L2.
  split; [g_c; exact Q2|]. split; [exact F2|lia].
Qed.
Lemma loop2_sat s l (f : nat -> Z -> rst -> list Z -> list Z -> rr unit) : (forall fuel len s l0 l, G s -> Forall isb l0 -> Forall isb l -> len <= Z.of_nat fuel -> sat WG (QG (length l)) (f fuel len s l0 l)) ->
  G s -> Forall isb l -> sat WG (QG (length l)) (byte2 s l l (fun len l1 => f (Z.to_nat len) (len - 2) s l l1)).
Proof.
  intros H HG Hl. apply byte2_sat; auto. intros len l1 Q1 F1 L1. unfold isq in Q1. specialize (H (Z.to_nat len) (len - 2) s l l1 HG Hl F1 ltac:(lia)).
  destruct (f _ _ _ _ _) as [x s' l'|s' l'|e s'|]; [|exact H|exact H|exact H]. destruct H as (R1 & R2 & R3). split; [exact R1|]. split; [exact R2|lia].
Qed.
Definition QP (n : nat) (o : option reached) (s : rst) (l : list Z) : Prop :=
  G s /\ Forall isb l /\ (length l <= n)%nat /\ unread s = 0 /\ (o = Some REACHED_SOS -> scan_ok s).
Lemma process_sat s l : WS s l -> sat WS (QP (length l)) (process_marker s l).
Proof.
  intros HW. unfold process_marker.
  set (cont := fun r : rr unit => match r return rr (option reached) with ROk _ s l => ROk None (set_unread s 0) l | RSusp s l => RSusp s l | RErr e s => RErr e s | RUb => RUb end).
  assert (CT : forall r, sat WS (QG (length l)) r -> sat WS (QP (length l)) (cont r)).
  { intros r. destruct r as [a s' l'|s' l'|e s'|]; cbn; auto. intros (A & B & C). split; [g_c|]. split; [exact B|]. split; [exact C|]. split; [reflexivity|discriminate]. }
  assert (SOF : forall p lo a, issof (unread s) -> sat WS (QP (length l)) (cont (get_sof p lo a s l))) by (intros; apply CT; now apply get_sof_sat).
  assert (W0 : wf s) by (destruct HW as [[HW|HW] _]; [apply HW|apply HW]).
  pose proof (proj2 HW) as Hl. unfold issof in SOF.
  destruct (Z.eqb_spec (unread s) 216) as [E|N0]; [apply CT, WG_WS, get_soi_sat; auto; apply (sofpend_G s l HW); unfold issof; lia|].
  destruct (Z.eqb_spec (unread s) 192); [apply SOF; lia|]. destruct (Z.eqb_spec (unread s) 193); [apply SOF; lia|]. cbn [orb].
  destruct (Z.eqb_spec (unread s) 194); [apply SOF; lia|]. destruct (Z.eqb_spec (unread s) 195); [apply SOF; lia|]. destruct (Z.eqb_spec (unread s) 201); [apply SOF; lia|].
  destruct (Z.eqb_spec (unread s) 202); [apply SOF; lia|]. destruct (Z.eqb_spec (unread s) 203); [apply SOF; lia|].
  assert (HG : G s) by (apply (sofpend_G s l HW); unfold issof; lia).
  destruct (_ || _); [exact W0|].
  destruct (Z.eqb_spec (unread s) 218).
  { pose proof (get_sos_sat s l HG Hl) as R. destruct (get_sos s l) as [a s' l'|s' l'|e' s'|]; [|split; [left; apply R|apply R]|exact R|exact R].
    destruct R as ((R1 & R2 & R3) & R4 & _). split; [clear -R1; g_c|]. split; [exact R2|]. split; [exact R3|]. split; [reflexivity|]. intros _. exact R4. }
  destruct (Z.eqb_spec (unread s) 217); [split; [clear -HG; g_c|split; [exact Hl|split; [auto|split; [reflexivity|discriminate]]]]|].
  destruct (Z.eqb_spec (unread s) 204); [apply CT, WG_WS, (loop2_sat s l dac_loop dac_sat HG Hl)|].
  destruct (Z.eqb_spec (unread s) 196); [apply CT, WG_WS, (loop2_sat s l dht_loop dht_sat HG Hl)|].
  destruct (Z.eqb_spec (unread s) 219); [apply CT, WG_WS, (loop2_sat s l dqt_loop dqt_sat HG Hl)|].
  destruct (Z.eqb_spec (unread s) 221); [apply CT, WG_WS, get_dri_sat; auto|].
  unfold in_range. destruct (Z.leb_spec 224 (unread s)), (Z.leb_spec (unread s) 239); cbn [andb].
  { unfold aget. destruct (Z.ltb_spec (unread s - 224) 0); [lia|]. destruct (nth_error (proc_app s) (Z.to_nat (unread s - 224))) eqn:EP; [|apply nth_error_None in EP; rewrite (w_pa _ W0) in EP; lia].
    cbn [chk]. apply CT, WG_WS, run_proc_sat; auto. }
  all: destruct (Z.eqb_spec (unread s) 254); [apply CT, WG_WS, run_proc_sat; auto|].
  all: destruct (_ || _); [apply (CT (ROk tt s l)); split; auto|].
  all: destruct (Z.eqb_spec (unread s) 220); [apply CT, WG_WS, skip_var_sat; auto|exact W0].
Qed.
Lemma first_marker_sat s l : G s -> Forall isb l -> sat WG (fun _ s' l' => G s' /\ Forall isb l' /\ (length l' + 2 <= length l)%nat) (first_marker s l).
Proof.
  intros HG Hl. unfold first_marker. apply byte_sat; auto. intros c l1 E1 B1 F1 L1. apply byte_sat; auto. intros c2 l2 E2 B2 F2 L2. destruct (_ || _); [apply HG|].
  split; [g_c|]. split; [exact F2|lia].
Qed.
Definition QR (n : nat) (o : reached) (s : rst) (l : list Z) : Prop :=
  G s /\ Forall isb l /\ (length l <= n)%nat /\ unread s = 0 /\ (o = REACHED_SOS -> scan_ok s).
Lemma read_loop_sat fuel : forall s l, WS s l -> ((length l < fuel)%nat /\ (unread s <> 0 -> (length l + 1 < fuel)%nat)) -> sat WS (QR (length l)) (read_loop fuel s l).
Proof.
  induction fuel as [|f IH]; intros s l HW [Hf Hf2]; [lia|]. cbn [read_loop].
  assert (GO : forall s1 l1, WS s1 l1 -> (length l1 <= length l)%nat -> (length l1 < f)%nat -> sat WS (QR (length l)) 
    (match process_marker s1 l1 with ROk None s l => read_loop f s l | ROk (Some r) s l => ROk r s l | RSusp s l => RSusp s l | RErr e s => RErr e s | RUb => RUb end)).
  { intros s1 l1 W1 L1 L2. pose proof (process_sat s1 l1 W1) as R. destruct (process_marker s1 l1) as [[r|] s' l'|s' l'|e s'|]; [| |exact R|exact R|exact R].
    - destruct R as (R1 & R2 & R3 & R4 & R5). split; [exact R1|]. split; [exact R2|]. split; [lia|]. split; [exact R4|]. intros ->. now apply R5.
    - destruct R as (R1 & R2 & R3 & R4 & _). specialize (IH s' l' (conj (or_introl R1) R2)). assert (Z1 : (length l' < f)%nat) by lia. specialize (IH (conj Z1 (fun x : unread s' <> 0 => False_ind _ (x R4)))).
      destruct (read_loop f s' l') as [r s2 l2|s2 l2|e s2|]; [|exact IH|exact IH|exact IH]. destruct IH as (A & B & C & D). split; [exact A|]. split; [exact B|]. split; [lia|exact D]. }
  destruct (Z.eqb_spec (unread s) 0) as [E|N].
  - assert (HG : G s) by (apply (sofpend_G s l HW); rewrite E; unfold issof; lia). pose proof (proj2 HW) as Hl.
    destruct (saw_SOI s).
    + pose proof (next_marker_sat l false s l HG Hl Hl) as R. unfold next_marker. destruct (next_marker_loop false s l l) as [a s1 l1|s1 l1|e s1|]; [|split; [left; apply R|apply R]|exact R|exact R].
      destruct R as (R1 & R2 & R3 & _). apply GO; [split; [now left|exact R2]|lia|lia].
    + pose proof (first_marker_sat s l HG Hl) as R. destruct (first_marker s l) as [a s1 l1|s1 l1|e s1|]; [|split; [left; apply R|apply R]|exact R|exact R].
      destruct R as (R1 & R2 & R3). apply GO; [split; [now left|exact R2]|lia|lia].
  - apply GO; [exact HW|lia|specialize (Hf2 N); lia].
Qed.
Lemma read_markers_sat s l : WS s l -> sat WS (QR (length l)) (read_markers s l).
Proof. intros H. apply read_loop_sat; [exact H|]. split; [lia|intros; lia]. Qed.
