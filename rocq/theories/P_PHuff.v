(* P_PHuff.v -- progressive Huffman: what the encoder emits for a block is what the decoder asks for.  First AC scans. *)
From Verif Require Import Base M_HuffTbl M_Source M_BitRead M_HuffEnc M_LossHuff M_HuffDec S_Huff S_Stream S_Block P_BitRead P_HuffDec P_HuffEnc P_HuffScan P_Round P_Gather P_Trellis S_Prog P_ArithBlk2 M_PHuff.

(* the items the decoder's requests consume *)
Fixpoint pans {A} (t : ptree A) (l : list item) : option (A * list item) :=
  match t with
  | PDone a => Some (a, l)
  | PStop _ => None | PWarn _ => None
  | PSym tb k => match l with ISym t' s :: l => if tb =? t' then pans (k s) l else None | _ => None end
  | PBits n k => match l with IBits c n' :: l => if n =? n' then pans (k (c mod 2 ^ n)) l else None | _ => None end
  end.
Lemma pans_bind {A B} (t : ptree A) (f : A -> ptree B) : forall l, pans (pbind t f) l = match pans t l with Some (a, r) => pans (f a) r | None => None end.
Proof.
  induction t as [a|o|k IH|tb k IH|n k IH]; intros l; cbn [pbind pans]; try reflexivity.
  - destruct o; reflexivity.
  - destruct l as [|[t' s|c n'] l]; try reflexivity. destruct (tb =? t'); [apply IH|reflexivity].
  - destruct l as [|[t' s|c n'] l]; try reflexivity. destruct (n =? n'); [apply IH|reflexivity].
Qed.
Lemma pans_sym {A} t (k : Z -> ptree A) s l : pans (PSym t k) (ISym t s :: l) = pans (k s) l.
Proof. cbn [pans]. rewrite Z.eqb_refl. reflexivity. Qed.
Lemma pans_bits {A} n (k : Z -> ptree A) c l : pans (PBits n k) (IBits c n :: l) = pans (k (c mod 2 ^ n)) l.
Proof. cbn [pans]. rewrite Z.eqb_refl. reflexivity. Qed.

(* outcomes: a result with P, or a rejected coefficient *)
Definition sate {A} (bad : Prop) (P : A -> Prop) (o : outcome A) : Prop :=
  match o with Ret a => P a | Error e => e = JERR_BAD_DCT_COEF /\ bad | Undef => False end.
Lemma sate_bind {A B} bad (P : A -> Prop) (Q : B -> Prop) (m : outcome A) (f : A -> outcome B) :
  sate bad P m -> (forall x, P x -> sate bad Q (f x)) -> sate bad Q (bind m f).
Proof. destruct m; cbn; auto. Qed.
Lemma sate_imp {A} (b b' : Prop) (P Q : A -> Prop) m : sate b P m -> (b -> b') -> (forall x, P x -> Q x) -> sate b' Q m.
Proof. destruct m; cbn; auto. intros [H1 H2] HB _. auto. Qed.

Definition iok (i : item) : Prop := match i with ISym _ s => 0 <= s < 256 | IBits _ n => 1 <= n <= 16 end.
Definition on_tbl (a : Z) (i : item) : Prop := match i with ISym t _ => t = a | IBits _ _ => True end.
Definition iat (a : Z) (i : item) : Prop := iok i /\ on_tbl a i.

(* the items of a pending end-of-band run *)
Definition eobi (a n : Z) : list item := ISym a (Z.shiftl (Z.log2 n) 4) :: (if Z.log2 n =? 0 then [] else [IBits n (Z.log2 n)]).
Definition pending (a : Z) (s : pst) : list item := if 0 <? p_run s then eobi a (p_run s) ++ buffered (p_be s) else [].
Definition st_ok (s : pst) : Prop := 0 <= p_run s <= 32766 /\ (p_run s = 0 -> p_be s = []) /\ Z.of_nat (length (p_be s)) <= 937.

Lemma log2_run n : 1 <= n <= 32767 -> 0 <= Z.log2 n <= 14.
Proof. intros H. split; [apply Z.log2_nonneg|]. assert (Z.log2 n < 15); [|lia]. apply Z.log2_lt_pow2; [lia|]. change (2 ^ 15) with 32768. lia. Qed.
Lemma emit_eobrun_gen a s : 0 <= p_run s <= 32767 -> (p_run s = 0 -> p_be s = []) -> emit_eobrun a s = Ret (pending a s, mkPst (p_dc s) 0 []).
Proof.
  intros R Z0. unfold emit_eobrun, pending. destruct (Z.ltb_spec 0 (p_run s)) as [H|H].
  - unfold JPEG_NBITS. destruct (Z.ltb_spec (p_run s) 0); [lia|]. destruct (Z.ltb_spec 65535 (p_run s)); [lia|]. cbn [orb]. destruct (Z.eqb_spec (p_run s) 0); [lia|]. cbn [bind]. cbv zeta. rewrite Z.add_simpl_r.
    pose proof (log2_run (p_run s) ltac:(lia)). destruct (Z.ltb_spec 14 (Z.log2 (p_run s))); [lia|]. unfold eobi. reflexivity.
  - assert (E : p_run s = 0) by lia. destruct s as [dc run be]. cbn [p_run p_be p_dc] in *. rewrite E, (Z0 E). reflexivity.
Qed.
Lemma emit_eobrun_spec a s : st_ok s -> emit_eobrun a s = Ret (pending a s, mkPst (p_dc s) 0 []).
Proof. intros (A & B & C). apply emit_eobrun_gen; [lia|exact B]. Qed.

Lemma iat_app a l1 l2 : Forall (iat a) l1 -> Forall (iat a) l2 -> Forall (iat a) (l1 ++ l2).
Proof. intros. apply Forall_app. split; assumption. Qed.
Lemma buffered_iat a l : Forall (iat a) (buffered l).
Proof. apply Forall_forall. intros x Hx. apply in_map_iff in Hx. destruct Hx as (b & <- & _). split; [cbn; lia|exact Logic.I]. Qed.
Lemma buffered_app l1 l2 : buffered (l1 ++ l2) = buffered l1 ++ buffered l2. Proof. apply map_app. Qed.
Lemma eobi_iat a n : 1 <= n <= 32767 -> Forall (iat a) (eobi a n).
Proof.
  intros H. pose proof (log2_run n H) as L. unfold eobi. constructor.
  - split; [|reflexivity]. cbn [iok]. rewrite Z.shiftl_mul_pow2 by lia. change (2 ^ 4) with 16. lia.
  - destruct (Z.eqb_spec (Z.log2 n) 0); constructor; [|constructor]. split; [cbn; lia|exact Logic.I].
Qed.
Lemma pending_iat a s : 0 <= p_run s <= 32767 -> Forall (iat a) (pending a s).
Proof. intros H. unfold pending. destruct (Z.ltb_spec 0 (p_run s)); [|constructor]. apply iat_app; [apply eobi_iat; lia|apply buffered_iat]. Qed.

(* what one block of an AC scan contributes: items c of its own, whether it ends the band early (e), correction bits b for after the end of band *)
Definition blkfact (dec : Z -> list Z -> ptree (Z * list Z)) (a : Z) (c : list item) (e : bool) (b : list Z) (old new : list Z) : Prop :=
  (c = [] -> e = true) /\
  (e = false -> forall rest, pans (dec 0 old) (c ++ rest) = Some ((0, new), rest)) /\
  (e = true -> forall n rest, 1 <= n <= 32767 -> pans (dec 0 old) (c ++ eobi a n ++ buffered b ++ rest) = Some ((n - 1, new), rest)) /\
  (c = [] -> forall n rest, 1 <= n -> pans (dec n old) (buffered b ++ rest) = Some ((n - 1, new), rest)).
(* what the encoder does with it *)
Definition nilb {A} (l : list A) : bool := match l with [] => true | _ => false end.
Definition enc_next (s : pst) (c : list item) (e : bool) (b : list Z) : pst :=
  if nilb c then mkPst (p_dc s) (p_run s + 1) (p_be s ++ b) else if e then mkPst (p_dc s) 1 b else mkPst (p_dc s) 0 [].
Definition encfact (a : Z) (s : pst) (c : list item) (e : bool) (b : list Z) (r : list item * pst) : Prop :=
  Forall (iat a) c /\
  (r = ((if nilb c then [] else pending a s) ++ c, enc_next s c e b) /\ st_ok (enc_next s c e b) \/
   r = (((if nilb c then [] else pending a s) ++ c) ++ pending a (enc_next s c e b), mkPst (p_dc s) 0 []) /\ 1 <= p_run (enc_next s c e b) <= 32767).

Lemma sym_split r s : 0 <= r -> 0 <= s < 16 -> Z.shiftr (Z.shiftl r 4 + s) 4 = r /\ Z.land (Z.shiftl r 4 + s) 15 = s.
Proof.
  intros Hr Hs. rewrite Z.shiftl_mul_pow2 by lia. change (2 ^ 4) with 16. split.
  - rewrite Z.shiftr_div_pow2 by lia. change (2 ^ 4) with 16. rewrite Z.div_add_l by lia. rewrite (Z.div_small s 16) by lia. lia.
  - change 15 with (Z.ones 4). rewrite Z.land_ones by lia. change (2 ^ 4) with 16. rewrite Z.add_comm, Z.mod_add by lia. apply Z.mod_small. lia.
Qed.
(* an end-of-band symbol with its run *)
Lemma eob_run n : 1 <= n <= 32767 -> 2 ^ Z.log2 n + n mod 2 ^ Z.log2 n = n.
Proof.
  intros H. pose proof (Z.log2_spec n ltac:(lia)) as [L1 L2]. rewrite Z.pow_succ_r in L2 by apply Z.log2_nonneg. set (q := 2 ^ Z.log2 n) in *. assert (E : n mod q = n - q) by (symmetry; apply (Z.mod_unique_pos n q 1); lia). lia.
Qed.
Lemma eob_sym n : 1 <= n <= 32767 -> Z.shiftr (Z.shiftl (Z.log2 n) 4) 4 = Z.log2 n /\ Z.land (Z.shiftl (Z.log2 n) 4) 15 = 0 /\ Z.log2 n <> 15.
Proof.
  intros H. pose proof (log2_run n H). destruct (sym_split (Z.log2 n) 0 ltac:(lia) ltac:(lia)) as [A B]. rewrite Z.add_0_r in A, B. split; [exact A|]. split; [exact B|lia].
Qed.
Lemma pans_run {A} n (f : Z -> ptree A) rest : 1 <= n <= 32767 ->
  pans (pbind (if Z.log2 n =? 0 then PDone 1 else PBits (Z.log2 n) (fun x => PDone (Z.shiftl 1 (Z.log2 n) + x))) f) ((if Z.log2 n =? 0 then [] else [IBits n (Z.log2 n)]) ++ rest) = pans (f n) rest.
Proof.
  intros H. pose proof (log2_run n H) as L. rewrite pans_bind. destruct (Z.eqb_spec (Z.log2 n) 0) as [E|E].
  - cbn [pans app]. assert (n = 1) as ->; [|reflexivity]. destruct (Z.eq_dec n 1); [assumption|]. assert (2 <= n) by lia. assert (1 <= Z.log2 n); [|lia]. change 1 with (Z.log2 2). apply Z.log2_le_mono. lia.
  - cbn [app]. rewrite pans_bits. cbn [pans]. rewrite Z.shiftl_mul_pow2 by lia. rewrite Z.mul_1_l, eob_run by lia. reflexivity.
Qed.

Lemma absvalue_spec Al c : -32768 <= c <= 32767 -> 0 <= Al -> absvalue Al c = (mag Al c, if c <? 0 then - mag Al c - 1 else mag Al c).
Proof.
  intros H HA. unfold absvalue. cbv zeta. rewrite (sign_apply c c) by (unfold s16r; lia). rewrite (sign_val c) by (unfold s16r; lia).
  replace (if c <? 0 then - c else c) with (Z.abs c) by (destruct (Z.ltb_spec c 0); lia). fold (mag Al c). f_equal.
  destruct (c <? 0); [rewrite Z.lxor_m1_l; unfold Z.lnot; lia|apply Z.lxor_0_l].
Qed.
Lemma huff_ext v : v <> 0 -> (category v <= 16)%nat -> HUFF_EXTEND ((if v <? 0 then v - 1 else v) mod 2 ^ Z.of_nat (category v)) (Z.of_nat (category v)) = v.
Proof.
  intros N C. pose proof (extend_extra v N) as E. unfold extra_bits in E. rewrite bval_bits_of in E.
  rewrite HUFF_EXTEND_spec; [exact E| |apply Z.mod_pos_bound; apply Z.pow_pos_nonneg; lia]. split; [|exact C]. destruct (category v) eqn:EC; [|lia]. apply category_0 in EC. contradiction.
Qed.
Lemma u16_mod x n : 0 <= n <= 16 -> u16 x mod 2 ^ n = x mod 2 ^ n.
Proof. intros H. unfold u16. change 65536 with (2 ^ 16). symmetry. rewrite <- (Znumtheory.Zmod_div_mod (2 ^ n) (2 ^ 16)); [reflexivity|apply Z.pow_pos_nonneg; lia|lia|]. exists (2 ^ (16 - n)). rewrite <- Z.pow_add_r by lia. f_equal. lia. Qed.
Lemma category_opp v : category (- v) = category v.
Proof. unfold category. rewrite Z.abs_opp. destruct (Z.eqb_spec (- v) 0); destruct (Z.eqb_spec v 0); try lia; reflexivity. Qed.

Lemma zrls_ok a : forall fuel r, 0 <= r < 16 * (Z.of_nat fuel + 1) -> zrls fuel a r = Ret (repeat (ISym a 240) (Z.to_nat (r / 16)), r mod 16).
Proof.
  induction fuel as [|fuel IH]; intros r H; cbn [zrls]; destruct (Z.ltb_spec 15 r) as [G|G]; try lia.
  - rewrite Z.div_small, Z.mod_small by lia. reflexivity.
  - rewrite IH by lia. cbn [bind]. replace r with (r - 16 + 1 * 16) at 3 4 by lia. rewrite Z.div_add, Z.mod_add by lia. replace (Z.to_nat ((r - 16) / 16 + 1)) with (S (Z.to_nat ((r - 16) / 16))); [reflexivity|]. pose proof (Z.div_pos (r - 16) 16 ltac:(lia) ltac:(lia)). lia.
  - rewrite Z.div_small, Z.mod_small by lia. reflexivity.
Qed.

Section Band.
Variables (src : list Z) (Al Se a prec : Z).
Hypotheses (SL : length src = 64%nat) (SR : forall i, 0 <= i < 64 -> -32768 <= g src (no i) <= 32767) (HAl : 0 <= Al) (HSe : 0 <= Se <= 63) (HP : 0 <= prec <= 12).
Notation cf i := (g src (no i)).
Fixpoint cfs (n : nat) (k : Z) : list Z := match n with O => [] | S n => cf k :: cfs n (k + 1) end.
Lemma band_ok : forall n k, 0 <= k -> k + Z.of_nat n <= 64 -> band n k src = Ret (cfs n k).
Proof.
  induction n as [|n IH]; intros k H1 H2; cbn [band cfs]; [reflexivity|]. rewrite no_ok by lia. cbn [bind]. pose proof (no_range k ltac:(lia)). rewrite aget_g by lia. cbn [bind]. rewrite IH by lia. reflexivity.
Qed.

(* ---- AC first ---- *)
Lemma acf_zrl blk : forall q f k rest, k + 16 * Z.of_nat q <= Se + 1 -> (q <= f)%nat ->
  pans (pdec_ac_first f a k Se Al blk) (repeat (ISym a 240) q ++ rest) = pans (pdec_ac_first (f - q) a (k + 16 * Z.of_nat q) Se Al blk) rest.
Proof.
  induction q as [|q IH]; intros f k rest HK HF.
  - cbn [repeat app]. rewrite Nat.sub_0_r. replace (k + 16 * Z.of_nat 0) with k by lia. reflexivity.
  - destruct f as [|f]; [lia|]. cbn [repeat app pdec_ac_first]. destruct (Z.leb_spec k Se); [|lia]. rewrite pans_sym. change (Z.shiftr 240 4) with 15. change (Z.land 240 15) with 0. change (negb (0 =? 0)) with false. cbv iota zeta. change (15 =? 15) with true. cbv iota.
    replace (k + 15 + 1) with (k + 16) by lia. rewrite IH by lia. replace (k + 16 + 16 * Z.of_nat q) with (k + 16 * Z.of_nat (S q)) by lia. reflexivity.
Qed.
Lemma acf_eob f k blk n rest : k <= Se -> 1 <= n <= 32767 -> pans (pdec_ac_first (S f) a k Se Al blk) (eobi a n ++ rest) = Some ((n - 1, blk), rest).
Proof.
  intros HK HN. cbn [pdec_ac_first]. destruct (Z.leb_spec k Se); [|lia]. unfold eobi. cbn [app]. rewrite pans_sym. destruct (eob_sym n HN) as (-> & -> & N15). change (negb (0 =? 0)) with false. cbv iota zeta. destruct (Z.eqb_spec (Z.log2 n) 15); [lia|]. rewrite pans_run by exact HN. reflexivity.
Qed.

Definition bad_from (K : Z) : Prop := exists i, K <= i <= Se /\ 2 ^ (prec + 2) <= mag Al (cf i).
Lemma acf_ok p : pAl p = Al -> pprec p = prec -> forall n K z blk, K + Z.of_nat n = Se + 1 -> 0 <= z -> 1 <= K - z -> (forall i, K - z <= i < K -> mag Al (cf i) = 0) ->
  length blk = 64%nat -> (forall i, K - z <= i <= Se -> g blk (no i) = 0) ->
  sate (bad_from K) (fun '(its, z') => Forall (iat a) its /\ exists blk', 0 <= z' /\ K - z <= Se + 1 - z' <= Se + 1 /\ (forall i, Se + 1 - z' <= i <= Se -> mag Al (cf i) = 0) /\
      ((its = [] /\ blk' = blk /\ Se + 1 - z' = K - z /\ forall i, K <= i <= Se -> mag Al (cf i) = 0) \/ (its <> [] /\ exists i, K <= i <= Se /\ mag Al (cf i) <> 0)) /\
      length blk' = 64%nat /\ (forall i, 0 <= i < 64 -> g blk' (no i) = if (K - z <=? i) && (i <? Se + 1 - z') then ac_at Al (cf i) else g blk (no i)) /\
      forall f, Se + 1 - (K - z) <= Z.of_nat f -> exists f', z' <= Z.of_nat f' /\ forall rest, pans (pdec_ac_first f a (K - z) Se Al blk) (its ++ rest) = pans (pdec_ac_first f' a (Se + 1 - z') Se Al blk') rest)
    (penc_ac_first p a z (cfs n K)).
Proof.
  intros EAl EP. induction n as [|n IH]; intros K z blk EK HZ HK Z0 LB B0.
  - cbn [cfs penc_ac_first sate]. split; [constructor|]. exists blk. replace (Se + 1 - z) with (K - z) by lia. split; [lia|]. split; [lia|]. split; [intros i Hi; apply Z0; lia|].
    split; [left; split; [reflexivity|]; split; [reflexivity|]; split; [reflexivity|]; intros i Hi; lia|]. split; [exact LB|]. split.
    + intros i Hi. destruct (Z.leb_spec (K - z) i); destruct (Z.ltb_spec i (K - z)); cbn [andb]; try reflexivity; lia.
    + intros f Hf. exists f. split; [lia|]. intros rest. reflexivity.
  - cbn [cfs penc_ac_first]. pose proof (SR K ltac:(lia)) as R. rewrite EAl, absvalue_spec by assumption. destruct (Z.eqb_spec (mag Al (cf K)) 0) as [M|M].
    + specialize (IH (K + 1) (z + 1) blk ltac:(lia) ltac:(lia) ltac:(lia)). replace (K + 1 - (z + 1)) with (K - z) in IH by lia.
      eapply sate_imp; [apply IH; [|exact LB|exact B0]| |].
      * intros i Hi. destruct (Z.eq_dec i K) as [->|]; [exact M|apply Z0; lia].
      * intros (i & Hi & HB). exists i. split; [lia|exact HB].
      * intros [its z'] (F & blk' & A1 & A2 & A3 & A4 & A5). split; [exact F|]. exists blk'. split; [exact A1|]. split; [lia|]. split; [exact A3|]. split; [|exact A5].
        destruct A4 as [(Q1 & Q2 & Q3 & Q4)|(Q1 & i & Q2 & Q3)]; [left|right; split; [exact Q1|]; exists i; split; [lia|exact Q3]]. split; [exact Q1|]. split; [exact Q2|]. split; [exact Q3|]. intros i Hi. destruct (Z.eq_dec i K) as [->|]; [exact M|apply Q4; lia].
    + rewrite zrls_ok by lia. cbn [bind]. pose proof (mag_nonneg Al (cf K) HAl) as MN. pose proof (mag_le Al (cf K) HAl R) as ML.
      set (v := if cf K <? 0 then - mag Al (cf K) else mag Al (cf K)).
      assert (CV : category v = category (mag Al (cf K))) by (unfold v; destruct (cf K <? 0); [apply category_opp|reflexivity]).
      assert (NV : v <> 0) by (unfold v; destruct (cf K <? 0); lia).
      assert (V2 : (if cf K <? 0 then - mag Al (cf K) - 1 else mag Al (cf K)) = if v <? 0 then v - 1 else v).
      { unfold v. destruct (cf K <? 0); [destruct (Z.ltb_spec (- mag Al (cf K)) 0)|destruct (Z.ltb_spec (mag Al (cf K)) 0)]; lia. }
      rewrite V2. rewrite <- (Z.abs_eq (mag Al (cf K))) at 1 by lia. rewrite nbits_spec by lia. cbn [bind]. rewrite <- CV, EP.
      destruct (Z.ltb_spec (prec + 2) (Z.of_nat (category v))) as [B|B].
      { cbn [sate]. split; [reflexivity|]. exists K. split; [lia|]. destruct (Z.le_gt_cases (2 ^ (prec + 2)) (mag Al (cf K))) as [L|L]; [exact L|]. exfalso.
        assert (category (mag Al (cf K)) <= Z.to_nat (prec + 2))%nat by (apply category_le; rewrite Z2Nat.id by lia; lia). lia. }
      pose proof (Z.div_mod z 16 ltac:(lia)) as DM. pose proof (Z.mod_pos_bound z 16 ltac:(lia)) as MB. pose proof (Z.div_pos z 16 HZ ltac:(lia)) as DP.
      set (blk1 := upd blk (Z.to_nat (no K)) (ac_at Al (cf K))). pose proof (no_range K ltac:(lia)) as NR.
      assert (L1 : length blk1 = 64%nat) by (unfold blk1; rewrite length_upd; exact LB).
      assert (U1 : forall i, 0 <= i < 64 -> g blk1 (no i) = if K =? i then ac_at Al (cf K) else g blk (no i)) by (intros i Hi; unfold blk1; apply no_upd; lia).
      specialize (IH (K + 1) 0 blk1 ltac:(lia) ltac:(lia) ltac:(lia)). rewrite Z.sub_0_r in IH.
      eapply sate_bind; [eapply sate_imp; [apply IH; [intros i Hi; lia|exact L1|]| |]|].
      * intros i Hi. rewrite U1 by lia. destruct (Z.eqb_spec K i); [lia|]. apply B0. lia.
      * intros (i & Hi & HB). exists i. split; [lia|exact HB].
      * intros x Hx. exact Hx.
      * intros [its z'] (F & blk' & A1 & A2 & A3 & A4 & A5 & A6 & A7). cbn [sate].
        assert (NC : (1 <= category v)%nat) by (destruct (category v) eqn:EC; [apply category_0 in EC; contradiction|lia]).
        split; [|].
        { apply iat_app; [apply Forall_forall; intros x Hx; apply repeat_spec in Hx; subst x; split; [cbn; lia|reflexivity]|]. constructor; [split; [|reflexivity]; cbn [iok]; rewrite Z.shiftl_mul_pow2 by lia; change (2 ^ 4) with 16; lia|]. constructor; [split; [cbn [iok]; lia|exact Logic.I]|exact F]. }
        exists blk'. split; [exact A1|]. split; [lia|]. split; [exact A3|]. split; [right; split; [destruct (repeat (ISym a 240) (Z.to_nat (z / 16))); discriminate|]; exists K; split; [lia|exact M]|]. split; [exact A5|]. split.
        -- intros i Hi. rewrite (A6 i Hi), U1 by exact Hi. destruct (Z.eqb_spec K i) as [<-|N].
           ++ destruct (Z.leb_spec (K + 1) K); [lia|]. destruct (Z.leb_spec (K - z) K); [|lia]. destruct (Z.ltb_spec K (Se + 1 - z')); [|lia]. reflexivity.
           ++ destruct (Z.leb_spec (K + 1) i); destruct (Z.ltb_spec i (Se + 1 - z')); destruct (Z.leb_spec (K - z) i); cbn [andb]; try lia; try reflexivity. rewrite (B0 i) by lia. symmetry. apply mag_zero_at; [exact HAl|]. apply Z0. lia.
        -- intros f Hf. set (q := Z.to_nat (z / 16)). destruct (f - q)%nat as [|f1] eqn:EF; [exfalso; unfold q in EF; lia|].
           destruct (A7 f1 ltac:(lia)) as (f' & G1 & G2). exists f'. split; [exact G1|]. intros rest. rewrite <- app_assoc. rewrite acf_zrl by (unfold q; lia). rewrite EF. unfold q at 1. rewrite Z2Nat.id by lia.
           cbn [app pdec_ac_first]. destruct (Z.leb_spec (K - z + 16 * (z / 16)) Se); [|lia]. rewrite pans_sym. destruct (sym_split (z mod 16) (Z.of_nat (category v)) ltac:(lia) ltac:(lia)) as [-> ->].
           destruct (Z.eqb_spec (Z.of_nat (category v)) 0); [lia|]. cbn [negb]. rewrite pans_bits, u16_mod by lia. rewrite huff_ext by (try assumption; lia).
           replace (K - z + 16 * (z / 16) + z mod 16) with K by lia. rewrite no_ok by lia. cbn [bind]. unfold v. rewrite stored by (try assumption; lia). rewrite aset_ok by lia. cbn [plift pbind]. fold blk1. apply G2.
Qed.

Lemma ac_first_ok p s old Ss : pAl p = Al -> pprec p = prec -> pSs p = Ss -> pSe p = Se -> 1 <= Ss <= Se -> st_ok s -> length old = 64%nat -> (forall i, Ss <= i <= Se -> g old (no i) = 0) ->
  sate (bad_from Ss) (fun r => exists c e b new, encfact a s c e b r /\ blkfact (pdec_mcu_ac_first a Ss Se Al) a c e b old new /\ after_from src Al Se Ss old new) (penc_mcu_ac_first p a s src).
Proof.
  intros EAl EP ESs ESe HS ST LO O0. unfold penc_mcu_ac_first. rewrite ESs, ESe, EAl. rewrite band_ok by lia. cbn [bind].
  pose proof (acf_ok p EAl EP (Z.to_nat (Se - Ss + 1)) Ss 0 old ltac:(lia) ltac:(lia) ltac:(lia) ltac:(intros; lia) LO) as AC. rewrite Z.sub_0_r in AC. specialize (AC O0).
  assert (EX : existsb (fun c => negb (fst (absvalue Al c) =? 0)) (cfs (Z.to_nat (Se - Ss + 1)) Ss) = true <-> exists i, Ss <= i <= Se /\ mag Al (cf i) <> 0).
  { assert (G : forall n k, 0 <= k -> k + Z.of_nat n <= 64 -> (existsb (fun c => negb (fst (absvalue Al c) =? 0)) (cfs n k) = true <-> exists i, k <= i < k + Z.of_nat n /\ mag Al (cf i) <> 0)).
    { induction n as [|n IH]; intros k H1 H2; cbn [cfs existsb]; [split; [discriminate|intros (i & Hi & _); lia]|]. rewrite orb_true_iff, IH by lia. rewrite absvalue_spec by (try assumption; apply SR; lia). cbn [fst]. destruct (Z.eqb_spec (mag Al (cf k)) 0) as [E|E]; cbn [negb]; split.
      - intros [X|(i & Hi & N)]; [discriminate|]. exists i. split; [lia|exact N].
      - intros (i & Hi & N). right. exists i. split; [|exact N]. destruct (Z.eq_dec i k) as [->|]; [contradiction|lia].
      - intros _. exists k. split; [lia|exact E].
      - intros _. left. reflexivity. }
    rewrite G by lia. split; intros (i & Hi & N); exists i; (split; [lia|exact N]). }
  set (anyb := existsb _ _) in *. destruct (penc_ac_first p a 0 _) as [[its z']|er|] eqn:EE; cbn [sate] in AC; [| |contradiction].
  2:{ destruct anyb; [rewrite emit_eobrun_spec by exact ST|]; cbn [bind]; exact AC. }
  destruct AC as (F & new & A1 & A2 & A3 & A4 & A5 & A6 & A7).
  assert (I1 : (if anyb then emit_eobrun a s else Ret ([], s)) = Ret (if nilb its then [] else pending a s, if nilb its then s else mkPst (p_dc s) 0 [])).
  { destruct A4 as [(-> & _ & _ & Q)|(Q1 & Q2)].
    - cbn [nilb]. destruct anyb eqn:EB; [|reflexivity]. destruct (proj1 EX eq_refl) as (i & Hi & N). exfalso. apply N. apply Q. exact Hi.
    - rewrite (proj2 EX Q2). rewrite emit_eobrun_spec by exact ST. destruct its; [contradiction|reflexivity]. }
  rewrite I1. cbn [bind].
  assert (AF : after_from src Al Se Ss old new).
  { split; [exact A5|]. intros i Hi. rewrite (A6 i Hi). destruct (Z.leb_spec Ss i); destruct (Z.leb_spec i Se); destruct (Z.ltb_spec i (Se + 1 - z')); cbn [andb]; try reflexivity; try lia. rewrite (O0 i) by lia. symmetry. apply mag_zero_at; [exact HAl|]. apply A3. lia. }
  assert (BF : blkfact (pdec_mcu_ac_first a Ss Se Al) a its (0 <? z') [] old new).
  { unfold blkfact, pdec_mcu_ac_first. split; [intros ->; destruct A4 as [(_ & _ & Q & _)|(Q & _)]; [|contradiction]; apply Z.ltb_lt; lia|]. destruct (A7 64%nat ltac:(lia)) as (f' & G1 & G2). change (0 <? 0) with false. cbv iota. split; [|split].
    - intros E rest. apply Z.ltb_ge in E. rewrite G2. assert (z' = 0) as -> by lia. destruct f' as [|f']; cbn [pdec_ac_first]; (destruct (Z.leb_spec (Se + 1 - 0) Se); [lia|]); reflexivity.
    - intros E n rest HN. apply Z.ltb_lt in E. rewrite G2. destruct f' as [|f']; [lia|]. cbn [buffered map app]. apply acf_eob; [lia|exact HN].
    - intros -> n rest HN. destruct (Z.ltb_spec 0 n); [|lia]. destruct A4 as [(_ & -> & _)|(Q & _)]; [|contradiction]. reflexivity. }
  destruct ST as (T1 & T2 & T3).
  destruct (Z.ltb_spec 0 z') as [GZ|GZ].
  - cbv zeta. set (s1 := mkPst _ _ _).
    assert (N1 : s1 = enc_next s its true []).
    { unfold s1, enc_next. destruct (nilb its); cbn [p_dc p_run p_be]; [rewrite app_nil_r; reflexivity|reflexivity]. }
    assert (R1 : 1 <= p_run s1 <= 32767 /\ Z.of_nat (length (p_be s1)) <= 937) by (unfold s1; destruct (nilb its); cbn [p_run p_be length]; lia).
    change (p_run s1) with (p_run s1). destruct (Z.eqb_spec (p_run s1) 32767) as [E|E].
    + rewrite emit_eobrun_gen by lia. cbn [bind sate]. exists its, true, [], new. split; [|split; [exact BF|exact AF]]. split; [exact F|]. right. rewrite <- N1. split; [|lia]. f_equal; [rewrite app_assoc; reflexivity|]. f_equal. unfold s1. destruct (nilb its); reflexivity.
    + cbn [bind sate]. exists its, true, [], new. split; [|split; [exact BF|exact AF]]. split; [exact F|]. left. rewrite <- N1. split; [rewrite app_nil_r; reflexivity|]. split; [lia|]. split; [lia|lia].
  - cbn [sate]. exists its, false, [], new. split; [|split; [exact BF|exact AF]]. split; [exact F|]. left. destruct its as [|x its]; [exfalso; destruct A4 as [(_ & _ & Q & _)|(Q & _)]; [lia|contradiction]|]. unfold enc_next. cbn [nilb]. split; [reflexivity|]. unfold st_ok. cbn [p_run p_be length]. split; [lia|]. split; [reflexivity|lia].
Qed.
End Band.
