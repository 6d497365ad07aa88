(* P_PHuff6.v -- progressive Huffman: from items to bits and bytes *)
From Verif Require P_ArithBlk P_ArithBlk3.
From Verif Require Import Base M_HuffTbl M_Source M_BitRead M_HuffEnc M_LossHuff M_HuffDec S_Huff S_Stream S_Block P_HuffTbl P_HuffTblD P_BitRead P_HuffSym P_HuffDec P_Marker P_HuffEnc P_HuffScan P_EncTbl P_Round P_RoundScan P_LossHuff P_LossDec T_LossHuff M_PHuff P_PHuff P_PHuff2 P_PHuff3 P_PHuff4 P_PHuff5.

Notation etbls := (list (option c_derived_tbl)).
Notation dtbls := (list (option d_derived_tbl)).
Definition ibits (et : etbls) (i : item) : list bool :=
  match i with
  | ISym t s => match aget et t with Ret (Some ct) => ecode ct s | _ => [] end
  | IBits c n => bits_of (Z.to_nat n) c
  end.
Definition ibitss (et : etbls) (l : list item) : list bool := flat_map (ibits et) l.
Definition icoded (et : etbls) (i : item) : Prop :=
  match i with ISym t s => exists ct, aget et t = Ret (Some ct) /\ ecode ct s <> [] | IBits _ _ => True end.
Definition et_ok (et : etbls) : Prop := forall t ct, aget et t = Ret (Some ct) -> ct_ok ct.
Definition same_tables (isDC : bool) (et : etbls) (dt : dtbls) : Prop :=
  forall t ct, aget et t = Ret (Some ct) -> exists h d, huff_type_ok h = true /\
    jpeg_make_c_derived_tbl false isDC (Some h) = Ret ct /\ jpeg_make_d_derived_tbl false isDC (Some h) = Ret d /\ aget dt t = Ret (Some d).
Lemma same_et_ok isDC et dt : same_tables isDC et dt -> et_ok et.
Proof. intros H t ct E. destruct (H t ct E) as (h & d & T & C & _). exact (derived_ct_ok _ _ _ _ T C). Qed.

(* ---- the encoder ---- *)
Lemma bits_n n c : 1 <= n -> Z.of_nat (Z.to_nat n) = n /\ length (bits_of (Z.to_nat n) c) = Z.to_nat n.
Proof. intros H. split; [lia|apply length_bits_of]. Qed.
Lemma out_item_ok et base B v d i : et_ok et -> iok i -> linv base B v d -> icoded et i ->
  exists v' d', out_item et i v d = Ret (v', d') /\ linv base (B ++ ibits et i) v' d'.
Proof.
  intros T K HI C. destruct i as [t s|c n]; cbn [iok icoded out_item ibits] in *.
  - destruct C as (ct & E & C). rewrite E. cbn [bind]. destruct (ct_get ct s (T t ct E) K) as (n & co & G1 & G2 & G3 & G4 & G5). rewrite G1. cbn [bind]. rewrite G2. cbn [bind].
    assert (Hn : n <> 0%nat) by (intros ->; apply C; rewrite G5; reflexivity). destruct (emit_bits_spec base B v d n co HI ltac:(lia)) as (v' & d' & E' & HI'). rewrite E'. cbn [nosusp bind]. exists v', d'. rewrite G5. auto.
  - destruct (emit_bits_spec base B v d (Z.to_nat n) c HI ltac:(lia)) as (v' & d' & E' & HI'). rewrite Z2Nat.id in E' by lia. rewrite E'. cbn [nosusp bind]. eauto.
Qed.
(* a symbol without a code: an error; a table that is not there at all is dereferenced *)
Definition tbl_there (et : etbls) (i : item) : Prop := match i with ISym t _ => exists ct, aget et t = Ret (Some ct) | IBits _ _ => True end.
Lemma out_item_not et i v d : et_ok et -> iok i -> tbl_there et i -> ~ icoded et i -> out_item et i v d = Error JERR_HUFF_MISSING_CODE.
Proof.
  intros T K TH C. destruct i as [t s|c n]; cbn [iok icoded out_item tbl_there] in *; [|exfalso; apply C; exact Logic.I].
  destruct TH as (ct & E). rewrite E. cbn [bind]. destruct (ct_get ct s (T t ct E) K) as (n & co & G1 & G2 & G3 & G4 & G5). rewrite G1. cbn [bind]. rewrite G2. cbn [bind].
  assert (Hn : n = 0%nat) by (destruct n; [reflexivity|]; exfalso; apply C; exists ct; split; [exact E|]; rewrite G5; cbn [bits_of]; discriminate). rewrite Hn. reflexivity.
Qed.
Lemma out_item_inv et i v d r : et_ok et -> iok i -> out_item et i v d = Ret r -> icoded et i.
Proof.
  intros T K E. destruct i as [t s|c n]; cbn [icoded]; [|exact Logic.I]. assert (TH : tbl_there et (ISym t s)).
  { cbn [tbl_there]. cbn [out_item] in E. destruct (aget et t) as [[ct|]| |]; cbn [bind] in E; try discriminate. eauto. }
  destruct (Bool.bool_dec (match TH with _ => true end) true) as [_|X]; [|exfalso; apply X; reflexivity].
  destruct TH as (ct & TE). exists ct. split; [exact TE|]. intros X. rewrite (out_item_not et (ISym t s) v d T K) in E; [discriminate|exists ct; exact TE|]. intros (ct' & E1 & E2). rewrite TE in E1. injection E1 as <-. contradiction.
Qed.
Lemma icoded_dec et i : {icoded et i} + {~ icoded et i}.
Proof.
  destruct i as [t s|c n]; cbn [icoded]; [|left; exact Logic.I]. destruct (aget et t) as [[ct|]| |] eqn:E; [|right; intros (ct & X & _); discriminate..]. destruct (ecode ct s) eqn:G.
  - right. intros (ct' & X & Y). injection X as <-. apply Y. exact G.
  - left. exists ct. split; [reflexivity|]. rewrite G. discriminate.
Qed.

Definition evcoded (et : etbls) (e : event) : Prop := match e with EItem i => icoded et i | _ => True end.
Definition evthere (et : etbls) (e : event) : Prop := match e with EItem i => tbl_there et i | _ => True end.
Definition evtbl (p : pscan) (e : event) : Prop := match e with EItem i => itbl p i | _ => True end.
Definition evok (e : event) : Prop := match e with EItem i => iok i | ERst n => 0 <= n < 8 | EEnd => True end.
Fixpoint evbytes (et : etbls) (B : list bool) (es : list event) : list Z :=
  match es with
  | [] => []
  | EItem i :: es => evbytes et (B ++ ibits et i) es
  | ERst n :: es => segment_bytes B ++ 255 :: (208 + n) :: evbytes et [] es
  | EEnd :: es => segment_bytes B ++ evbytes et [] es
  end.
Lemma evbytes_items et its es : forall B, evbytes et B (map EItem its ++ es) = evbytes et (B ++ ibitss et its) es.
Proof. induction its as [|i its IH]; intros B; cbn [map app evbytes ibitss flat_map]; [rewrite app_nil_r; reflexivity|]. rewrite IH, <- app_assoc. reflexivity. Qed.
(* coded events *)
Lemma out_events_ok et : et_ok et -> forall es base B v d, Forall evok es -> Forall (evcoded et) es -> linv base B v d ->
  exists d', out_events et (es ++ [EEnd]) v d = Ret d' /\ dout d' = base ++ evbytes et B (es ++ [EEnd]) /\ dest_ok d' /\ dsusp d' = false.
Proof.
  intros T. induction es as [|e es IH]; intros base B v d K C HI.
  - cbn [app out_events out_event evbytes]. destruct (lflush_spec base B v d HI) as (d' & E & O & K1 & S1). rewrite E. cbn [nosusp bind]. exists d'. rewrite app_nil_r. auto.
  - pose proof (Forall_inv K) as K0. pose proof (Forall_inv C) as C0. apply Forall_inv_tail in K. apply Forall_inv_tail in C. cbn [app out_events]. destruct e as [i|n|]; cbn [out_event evbytes evok evcoded] in *.
    + destruct (out_item_ok et base B v d i T K0 HI C0) as (v1 & d1 & E & HI1). rewrite E. cbn [bind]. apply IH; assumption.
    + destruct (lrestart_spec base B v d n HI K0) as (d1 & E & HI1). rewrite E. cbn [nosusp bind]. destruct (IH _ [] _ d1 K C HI1) as (d' & E' & O' & X). exists d'. split; [exact E'|]. split; [rewrite O', <- !app_assoc; reflexivity|exact X].
    + destruct (lflush_spec base B v d HI) as (d1 & E & O & K1 & S1). rewrite E. cbn [nosusp bind]. destruct (IH _ [] _ d1 K C (linv_nil _ d1 O K1 S1)) as (d' & E' & O' & X). exists d'. split; [exact E'|]. split; [rewrite O', <- !app_assoc; reflexivity|exact X].
Qed.
Lemma out_events_not et : et_ok et -> forall es base B v d, Forall evok es -> Forall (evthere et) es -> ~ Forall (evcoded et) es -> linv base B v d ->
  out_events et (es ++ [EEnd]) v d = Error JERR_HUFF_MISSING_CODE.
Proof.
  intros T. induction es as [|e es IH]; intros base B v d K TH C HI; [exfalso; apply C; constructor|].
  pose proof (Forall_inv K) as K0. pose proof (Forall_inv TH) as T0. apply Forall_inv_tail in K. apply Forall_inv_tail in TH. cbn [app out_events].
  destruct e as [i|n|]; cbn [out_event evok evcoded evthere] in *.
  - destruct (icoded_dec et i) as [C0|C0].
    + destruct (out_item_ok et base B v d i T K0 HI C0) as (v1 & d1 & E & HI1). rewrite E. cbn [bind]. eapply IH; try eassumption. intros X. apply C. constructor; assumption.
    + rewrite (out_item_not et i v d T K0 T0 C0). reflexivity.
  - destruct (lrestart_spec base B v d n HI K0) as (d1 & E & HI1). rewrite E. cbn [nosusp bind]. eapply IH; try eassumption. intros X. apply C. constructor; [exact Logic.I|exact X].
  - destruct (lflush_spec base B v d HI) as (d1 & E & O & K1 & S1). rewrite E. cbn [nosusp bind]. eapply IH; try eassumption; [intros X; apply C; constructor; [exact Logic.I|exact X]|exact (linv_nil _ d1 O K1 S1)].
Qed.
Lemma out_events_inv et : et_ok et -> forall es base B v d d', Forall evok es -> linv base B v d -> out_events et (es ++ [EEnd]) v d = Ret d' -> Forall (evcoded et) es.
Proof.
  intros T. induction es as [|e es IH]; intros base B v d d' K HI E; [constructor|].
  pose proof (Forall_inv K) as K0. apply Forall_inv_tail in K. cbn [app out_events] in E.
  destruct e as [i|n|]; cbn [out_event evok] in *.
  - destruct (out_item et i v d) as [[v1 d1]| |] eqn:E1; cbn [bind] in E; try discriminate. pose proof (out_item_inv et i v d _ T K0 E1) as C0. constructor; [exact C0|].
    destruct (out_item_ok et base B v d i T K0 HI C0) as (v2 & d2 & E2 & HI1). rewrite E1 in E2. injection E2 as <- <-. exact (IH _ _ _ _ _ K HI1 E).
  - constructor; [exact Logic.I|]. destruct (lrestart_spec base B v d n HI K0) as (d1 & E1 & HI1). rewrite E1 in E. cbn [nosusp bind] in E. exact (IH _ _ _ _ _ K HI1 E).
  - constructor; [exact Logic.I|]. destruct (lflush_spec base B v d HI) as (d1 & E1 & O & K1 & S1). rewrite E1 in E. cbn [nosusp bind] in E. exact (IH _ _ _ _ _ K (linv_nil _ d1 O K1 S1) E).
Qed.
Lemma land7 n : 0 <= n < 8 -> Z.land (n + 1) 7 = (n + 1) mod 8.
Proof. intros _. change 7 with (Z.ones 3). rewrite Z.land_ones by lia. reflexivity. Qed.
Lemma pev_ok p num ss os es news : pev p num ss os es news -> 0 <= num < 8 -> exists es', es = es' ++ [EEnd] /\ Forall evok es' /\ Forall (evtbl p) es'.
Proof.
  induction 1 as [num ss os its news H SF|num ss os its news ss2 os2 es news2 P0 L NE SF PV IH]; intros HN; destruct SF as (_ & (SK & STB) & _).
  - exists (map EItem its). split; [reflexivity|]. split; apply Forall_map; [exact SK|exact STB].
  - destruct (IH ltac:(rewrite land7 by assumption; apply Z.mod_pos_bound; lia)) as (es' & -> & K & KT). exists (map EItem its ++ ERst num :: es'). split; [rewrite <- app_assoc; reflexivity|]. split; (apply Forall_app; split; [apply Forall_map; assumption|]; constructor; [try exact Logic.I; exact HN|assumption]).
Qed.

(* ---- the decoder ---- *)
Section Dec.
Variables (isDC : bool) (et : etbls) (dt : dtbls).
Hypothesis ST : same_tables isDC et dt.

Lemma prun_ans {A} (t : ptree A) c W : cT c <> None -> forall items a items' q (s : dst unit), pans t items = Some (a, items') -> Forall iok items -> Forall (icoded et) items ->
  inv c W q q s -> starts (cS c) q (ibitss et items) ->
  exists s' used, prun dt t s = Ret (Done a s') /\ items = used ++ items' /\ inv c W (q + length (ibitss et used)) (q + length (ibitss et used)) s'.
Proof.
  intros HT. induction t as [x|o|k IH|tb k IH|n k IH]; intros items a items' q s P K C HI HS; cbn [pans prun] in *; try discriminate.
  - injection P as <- <-. exists s, []. cbn [ibitss flat_map length]. rewrite Nat.add_0_r. auto.
  - destruct items as [|[t' sy|co n'] items]; try discriminate. destruct (Z.eqb_spec tb t') as [<-|]; [|discriminate].
    pose proof (Forall_inv K) as K0. pose proof (Forall_inv C) as C0. apply Forall_inv_tail in K. apply Forall_inv_tail in C. cbn [iok icoded] in *. destruct C0 as (ct & E & C0).
    destruct (ST tb ct E) as (h & d & T1 & T2 & T3 & T4). cbn [ibitss flat_map ibits] in HS. rewrite E in HS. fold (ibitss et items) in HS. destruct (starts_app _ _ _ _ HS) as [S1 S2].
    pose proof (derived_code _ _ _ _ sy T1 T2 K0) as EC. rewrite EC in *.
    destruct (d_derived_spec false isDC h T1) as [[DO (d' & E' & DI)]|[_ E']]; rewrite E' in T3; [|discriminate]. injection T3 as ->.
    assert (CS : code_space_ok (hbits h)) by (destruct DO as [DO _]; exact DO). apply (has_code_nonnil h sy CS) in C0.
    pose proof (ref_sym_code _ _ _ _ _ CS C0 S1) as HR. destruct (ref_sym_inv _ _ _ _ _ _ _ HR) as (R1 & R2 & R3).
    pose proof (huff_decode_spec h d T1 CS DI c W q s HI) as G. unfold wp in G. unfold dbind at 1, dlift. rewrite T4. cbn [bind]. unfold dbind.
    destruct (huff_decode d s) as [[v s1|s1]| |]; try contradiction; [|exfalso; apply HT; apply G]. destruct G as (U1 & -> & I1). rewrite (R3 eq_refl), R1, R2 in *.
    destruct (IH sy items a items' _ s1 P K C I1 S2) as (s2 & used & P2 & -> & I2). exists s2, (ISym tb sy :: used). split; [exact P2|]. split; [reflexivity|]. cbn [ibitss flat_map ibits]. fold (ibitss et used). rewrite E, EC, app_length, Nat.add_assoc. exact I2.
  - destruct items as [|[t' sy|co n'] items]; try discriminate. destruct (Z.eqb_spec n n') as [<-|]; [|discriminate].
    pose proof (Forall_inv K) as K0. apply Forall_inv_tail in K. apply Forall_inv_tail in C. cbn [iok] in *. cbn [ibitss flat_map ibits] in HS. fold (ibitss et items) in HS. destruct (starts_app _ _ _ _ HS) as [S1 S2]. rewrite length_bits_of in S2.
    pose proof (take_spec c W q (Z.to_nat n) s HI ltac:(lia)) as G. rewrite Z2Nat.id in G by lia. unfold wp in G. unfold dbind in G |- *. destruct (check_bit_buffer n s) as [[u s0|s0]| |]; try contradiction; [|exfalso; apply HT; apply G].
    destruct (get_bits n s0) as [[v s1|s1]| |]; try contradiction; [|exfalso; apply HT; apply G]. destruct G as (-> & I1 & _). unfold starts in S1. rewrite length_bits_of in S1. rewrite S1, bval_bits_of, Z2Nat.id in * by lia.
    destruct (IH (co mod 2 ^ n) items a items' _ s1 P K C I1 S2) as (s2 & used & P2 & -> & I2). exists s2, (IBits co n :: used). split; [exact P2|]. split; [reflexivity|]. cbn [ibitss flat_map ibits]. fold (ibitss et used). rewrite app_length, length_bits_of, Nat.add_assoc. exact I2.
Qed.
End Dec.
