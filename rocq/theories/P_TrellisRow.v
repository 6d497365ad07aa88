(* P_TrellisRow.v -- the loop over blocks, EOB-run optimization and DC backtracking *)
From Verif Require Import Base M_HuffDec M_HuffEnc M_Trellis S_Block S_Trellis P_Gather P_Trellis.

Lemma aget_d {A} (d : A) l i : 0 <= i < Z.of_nat (length l) -> aget l i = Ret (nth (Z.to_nat i) l d).
Proof. intros H. apply aget_nth. lia. Qed.
Lemma nth_upd_z {A} (d : A) l i j x : 0 <= i < Z.of_nat (length l) -> 0 <= j -> nth (Z.to_nat j) (upd l (Z.to_nat i) x) d = if i =? j then x else nth (Z.to_nat j) l d.
Proof. intros H Hj. destruct (Z.eqb_spec i j) as [->|N]; [apply nth_upd_eq; lia|apply nth_upd_neq; lia]. Qed.
Definition gl (l : list (list Z)) (i : Z) : list Z := nth (Z.to_nat i) l [].
Definition gd (l : list (list Z * list Z)) (i : Z) : list Z * list Z := nth (Z.to_nat i) l ([], []).

(* number of candidates *)
Lemma num_dc_ok q : 1 <= q <= 65535 -> exists n, num_dc_candidates q = Ret n /\ 3 <= n <= 9 /\ n mod 2 = 1.
Proof.
  intros H. unfold num_dc_candidates. destruct (Z.eqb_spec q 0); [lia|]. eexists. split; [reflexivity|].
  assert (D : 0 <= 60 / q <= 60). { split; [apply Z.div_pos; lia|apply Z.div_le_upper_bound; nia]. }
  assert (T : forallb (fun k => let m := Z.min 9 (Z.lor (2 + Z.of_nat k) 1) in (3 <=? m) && (m <=? 9) && (m mod 2 =? 1)) (seq 0 61) = true) by (vm_compute; reflexivity).
  rewrite forallb_forall in T. specialize (T (Z.to_nat (60 / q)) ltac:(apply in_seq; lia)). cbv zeta in T. rewrite Z2Nat.id in T by lia. rewrite !andb_true_iff in T. lia.
Qed.

Section ROW.
Variables (o : oracle) (p : params) (Ss : Z) (ehufsi qtbl : list Z) (srcs orig : list (list Z)) (n : Z).
Hypothesis HS : 1 <= Ss <= p_Se p.
Hypothesis HSe : p_Se p <= 63.
Hypothesis HP : 0 <= p_precision p <= 12.
Hypothesis HE : length ehufsi = 256%nat.
Hypothesis HQL : length qtbl = 64%nat.
Hypothesis HQ : forall z, 0 <= z < 64 -> 1 <= g qtbl z <= 65535.
Hypothesis F2 : forall bi i j k s, lt_cand o bi i j k s false = false.
Hypothesis F3 : forall bi i, lt_last o bi i false = false.
Hypothesis F4 : forall bi i, lt_block o bi i false = true.
Hypothesis F5 : forall i, lt_end o i false = true.
Hypothesis FB : exists v, heap_below o = Some v.
Hypothesis HN : num_dc_candidates (g qtbl 0) = Ret n.
Hypothesis Hn : 3 <= n <= 9.
Hypothesis LSrc : length srcs = length orig.
Hypothesis LN : Z.of_nat (length orig) <= 65000.
Hypothesis HSrc : forall b, 0 <= b < Z.of_nat (length orig) -> length (gl srcs b) = 64%nat /\ (forall z, 0 <= z < 64 -> s16r (g (gl srcs b) z)).
Hypothesis HOrig : forall b, 0 <= b < Z.of_nat (length orig) -> vals p Ss qtbl (gl srcs b) (gl orig b) (gl orig b).
Let N := Z.of_nat (length orig).

Definition bok (b : Z) (blk : list Z) : Prop := vals p Ss qtbl (gl srcs b) (gl orig b) blk /\ encodable ehufsi Ss (p_Se p) (p_precision p + 2) blk.
Definition dcok (b : Z) (d : list Z * list Z) : Prop :=
  length (fst d) = Z.to_nat n /\ length (snd d) = Z.to_nat n /\
  (forall k, 0 <= k < n -> exists sign x q qval, quant_of (g (gl srcs b) 0) (g qtbl 0) = Ret (sign, x, q, qval) /\ g (fst d) k = dc_cand p n sign qval k) /\
  (0 < b -> forall k, 0 <= k < n -> 0 <= g (snd d) k < n).
Definition eobok (bi : Z) (req brs : list Z) : Prop :=
  length req = Z.to_nat (bi + 1) /\ g req 0 = 0 /\ length brs = length orig /\ (forall b, 0 <= b <= bi -> 0 <= g req b <= 2) /\
  (forall b, 0 <= b < bi -> g req (b + 1) <> 2 -> 0 <= g brs b <= b /\ g req (g brs b) <> 2).
Definition RI (bi : Z) (st : trst) : Prop :=
  length (t_blocks st) = length orig /\ (forall b, 0 <= b < bi -> bok b (gl (t_blocks st) b)) /\ (forall b, bi <= b < N -> gl (t_blocks st) b = gl orig b) /\
  length (t_rs st) = 64%nat /\ (p_eob_opt p = true -> eobok bi (t_req st) (t_brs st)) /\
  (p_dc p = true -> length (t_dc st) = Z.to_nat bi /\ forall b, 0 <= b < bi -> dcok b (gd (t_dc st) b)).

Lemma app_g (l : list Z) x i : 0 <= i -> g (l ++ [x]) i = if i =? Z.of_nat (length l) then x else g l i.
Proof.
  intros H. unfold g. destruct (Z.eqb_spec i (Z.of_nat (length l))) as [->|E].
  - rewrite Nat2Z.id, app_nth2 by lia. rewrite Nat.sub_diag. reflexivity.
  - destruct (Z.lt_ge_cases i (Z.of_nat (length l))); [apply app_nth1; lia|]. rewrite !nth_overflow; [reflexivity|lia|rewrite app_length; cbn; lia].
Qed.

Lemma dc_block_ok bi : 0 <= bi < N -> sat (dcok bi) (dc_block o p n bi (g (gl srcs bi) 0) (g qtbl 0)).
Proof.
  intros Hb. unfold dc_block. destruct (quant_of (g (gl srcs bi) 0) (g qtbl 0)) as [[[[sign x] q] qval]| |] eqn:EQ.
  2,3: exfalso; revert EQ; unfold quant_of; pose proof (HQ 0 ltac:(lia)); destruct (Z.eqb_spec (8 * g qtbl 0) 0); [lia|discriminate].
  cbn [bind].
  eapply sat_imp. 1: apply (sat_for (fun k d => length (fst d) = Z.to_nat k /\ length (snd d) = Z.to_nat k /\ (forall m, 0 <= m < k -> g (fst d) m = dc_cand p n sign qval m) /\ (0 < bi -> forall m, 0 <= m < k -> 0 <= g (snd d) m < n))).
  - cbn. split; [reflexivity|]. split; [reflexivity|]. split; [intros; lia|intros; lia].
  - intros k [cs bt] Hk (L1 & L2 & C & B). cbn [fst snd] in *. rewrite Z2Nat.id in Hk by lia.
    assert (STEP : forall b, (0 < bi -> 0 <= b < n) -> length (cs ++ [dc_cand p n sign qval k]) = Z.to_nat (k + 1) /\ length (bt ++ [b]) = Z.to_nat (k + 1) /\
       (forall m, 0 <= m < k + 1 -> g (cs ++ [dc_cand p n sign qval k]) m = dc_cand p n sign qval m) /\ (0 < bi -> forall m, 0 <= m < k + 1 -> 0 <= g (bt ++ [b]) m < n)).
    { intros b HB. rewrite !app_length. cbn [length]. split; [lia|]. split; [lia|]. split.
      - intros m Hm. rewrite app_g by lia. destruct (Z.eqb_spec m (Z.of_nat (length cs))) as [E|E]; [f_equal; lia|apply C; lia].
      - intros Hb0 m Hm. rewrite app_g by lia. destruct (Z.eqb_spec m (Z.of_nat (length bt))) as [E|E]; [apply HB; exact Hb0|apply B; [exact Hb0|lia]]. }
    destruct (Z.eqb_spec bi 0) as [E|E].
    + cbn [sat fst snd]. apply STEP. lia.
    + eapply sat_bind. 1: apply (sat_for (fun (_ : Z) b => 0 <= b < n)).
      * lia.
      * intros l b Hl Hbb. rewrite Z2Nat.id in Hl by lia. cbn [sat]. destruct ((l =? 0) || lt_dc o bi k l); lia.
      * intros b HB. cbn [sat fst snd]. apply STEP. intros _. exact HB.
  - intros [cs bt] (L1 & L2 & C & B). rewrite Z2Nat.id in L1, L2, C, B by lia. cbn [Z.add] in *. unfold dcok. cbn [fst snd] in *.
    replace (0 + n) with n in * by lia. split; [exact L1|]. split; [exact L2|]. split; [|exact B]. intros k Hk. exists sign, x, q, qval. split; [exact EQ|apply C; exact Hk].
Qed.

Lemma eob_choose_ok bi e req brs : 0 <= bi < N -> 0 <= e <= 2 -> eobok bi req brs ->
  sat (fun brs' => eobok (bi + 1) (req ++ [e]) brs') (eob_choose o bi e req brs).
Proof.
  intros Hb He (L1 & R0 & L2 & RR & C). unfold eob_choose.
  assert (STEP : forall brs', length brs' = length orig -> (forall b, 0 <= b < bi -> g brs' b = g brs b) -> (e <> 2 -> 0 <= g brs' bi <= bi /\ g req (g brs' bi) <> 2) -> eobok (bi + 1) (req ++ [e]) brs').
  { intros brs' L' S' E'. assert (A : forall b, 0 <= b <= bi -> g (req ++ [e]) b = g req b). { intros b Hbb. rewrite app_g by lia. destruct (Z.eqb_spec b (Z.of_nat (length req))); [lia|reflexivity]. }
    assert (A2 : g (req ++ [e]) (bi + 1) = e). { rewrite app_g by lia. destruct (Z.eqb_spec (bi + 1) (Z.of_nat (length req))); [reflexivity|lia]. }
    split; [rewrite app_length; cbn [length]; lia|]. split; [rewrite A by lia; exact R0|]. split; [exact L'|]. split.
    - intros b Hbb. destruct (Z.eq_dec b (bi + 1)) as [->|NE]; [rewrite A2; lia|rewrite A by lia; apply RR; lia].
    - intros b Hbb NE. destruct (Z.eq_dec b bi) as [->|N1].
      + rewrite A2 in NE. destruct (E' NE) as [E1 E2]. split; [exact E1|]. rewrite A by lia. exact E2.
      + rewrite A in NE by lia. rewrite S' by lia. destruct (C b ltac:(lia) NE) as [E1 E2]. split; [exact E1|]. rewrite A by lia. exact E2. }
  destruct (Z.eqb_spec e 2) as [->|NE]; cbn [negb].
  { cbn [sat]. apply STEP; [exact L2|reflexivity|congruence]. }
  eapply sat_bind. 1: apply (sat_for (fun i s => length (fst s) = length orig /\ (forall b, 0 <= b < bi -> g (fst s) b = g brs b) /\ (snd s = false -> i = 0) /\ (snd s = true -> 0 <= g (fst s) bi <= bi /\ g req (g (fst s) bi) <> 2))).
  - cbn [fst snd]. split; [exact L2|]. split; [reflexivity|]. split; [reflexivity|discriminate].
  - intros i [b1 best] Hi (K1 & K2 & K3 & K4). cbn [fst snd] in *. rewrite Z2Nat.id in Hi by lia. rewrite aget_g by lia. cbn [bind].
    destruct (Z.eqb_spec (g req i) 2) as [E2|E2].
    { cbn [sat fst snd]. split; [exact K1|]. split; [exact K2|]. split; [|exact K4]. intros BF. rewrite (K3 BF) in E2. rewrite R0 in E2. lia. }
    pose proof (RR i ltac:(lia)) as RRi. unfold JPEG_NBITS. destruct (Z.ltb_spec (bi - i + g req i) 0); [lia|]. destruct (Z.ltb_spec 65535 (bi - i + g req i)); [unfold N in *; lia|]. cbn [orb bind].
    destruct (lt_block o bi i best) eqn:EL.
    + rewrite aset_ok by (unfold N in *; lia). cbn [bind sat fst snd]. split; [rewrite length_upd; exact K1|]. split; [|split; [discriminate|intros _]].
      * intros b Hbb. rewrite g_upd by (unfold N in *; lia). destruct (Z.eqb_spec bi b); [lia|apply K2; lia].
      * rewrite g_upd by (unfold N in *; lia). rewrite Z.eqb_refl. split; [lia|exact E2].
    + cbn [sat fst snd]. split; [exact K1|]. split; [exact K2|]. split; [|exact K4]. intros ->. rewrite F4 in EL. discriminate.
  - intros [b1 best] (K1 & K2 & K3 & K4). cbn [fst snd] in *. cbn [sat]. apply STEP; [exact K1|exact K2|]. intros _. apply K4. destruct best; [reflexivity|]. specialize (K3 eq_refl). lia.
Qed.

Lemma block_step_ok bi st : 0 <= bi < N -> RI bi st -> sat (RI (bi + 1)) (block_step o p Ss n ehufsi qtbl srcs bi st).
Proof.
  intros Hb (L & B1 & B2 & LR & EO & DC). unfold block_step. unfold N in *.
  rewrite (aget_d [] srcs) by lia. cbn [bind]. rewrite (aget_d [] (t_blocks st)) by lia. cbn [bind]. fold (gl srcs bi) (gl (t_blocks st) bi).
  destruct (HSrc bi Hb) as [LS RS]. pose proof (HQ 0 ltac:(lia)) as Q0.
  eapply sat_bind with (P := fun dcs => p_dc p = true -> length dcs = Z.to_nat (bi + 1) /\ forall b, 0 <= b < bi + 1 -> dcok b (gd dcs b)).
  { destruct (p_dc p) eqn:ED; [|intros; discriminate]. rewrite aget_g by lia. cbn [bind]. rewrite aget_g by lia. cbn [bind].
    eapply sat_bind; [apply (dc_block_ok bi); unfold N; lia|]. intros d HD. cbn [sat]. intros _. destruct (DC eq_refl) as [D1 D2]. split; [rewrite app_length; cbn [length]; lia|].
    intros b Hbb. unfold gd. destruct (Z.eq_dec b bi) as [->|NE].
    - rewrite app_nth2 by lia. replace (Z.to_nat bi - length (t_dc st))%nat with 0%nat by lia. exact HD.
    - rewrite app_nth1 by lia. apply D2. lia. }
  intros dcs HD. rewrite (B2 bi) by lia.
  eapply sat_bind; [apply (ac_block_ok o p Ss ehufsi qtbl HS HSe HP HE HQL HQ F2 F3 bi (gl srcs bi) (gl orig bi) LS RS (t_rs st)); [apply HOrig; exact Hb|exact LR]|].
  intros [[b' rs'] e] (V & EN & LR' & RE). rewrite aset_ok by lia. cbn [bind].
  assert (OUT : forall req brs, (p_eob_opt p = true -> eobok (bi + 1) req brs) -> RI (bi + 1) (mkTr (upd (t_blocks st) (Z.to_nat bi) b') rs' req brs dcs)).
  { intros req brs HEO. unfold RI. cbn [t_blocks t_rs t_req t_brs t_dc]. split; [rewrite length_upd; exact L|].
    assert (A : forall b, 0 <= b -> gl (upd (t_blocks st) (Z.to_nat bi) b') b = if bi =? b then b' else gl (t_blocks st) b). { intros b Hbb. unfold gl. apply nth_upd_z; lia. }
    split; [|split; [|split; [exact LR'|split; [exact HEO|exact HD]]]].
    - intros b Hbb. rewrite A by lia. destruct (Z.eqb_spec bi b) as [<-|NE]; [split; assumption|apply B1; lia].
    - intros b Hbb. rewrite A by lia. destruct (Z.eqb_spec bi b); [lia|apply B2; unfold N in *; lia]. }
  destruct (p_eob_opt p) eqn:EEO.
  - eapply sat_bind; [apply (eob_choose_ok bi e (t_req st) (t_brs st)); [unfold N; lia|exact RE|apply EO; reflexivity]|]. intros brs' HB. cbn [sat]. apply OUT. intros _. exact HB.
  - cbn [sat]. apply OUT. intros; discriminate.
Qed.

Lemma end_choose_ok req brs : eobok N req brs -> sat (fun last => 0 <= last <= N /\ g req last <> 2) (end_choose o N req).
Proof.
  intros (L1 & R0 & L2 & RR & C). assert (N0 : 0 <= N) by (unfold N; lia). unfold end_choose.
  eapply sat_bind. 1: apply (sat_for (fun i s => (snd s = false -> i = 0) /\ (snd s = true -> 0 <= fst s <= N /\ g req (fst s) <> 2))).
  - cbn [snd fst]. split; [reflexivity|discriminate].
  - intros i [l best] Hi [K1 K2]. cbn [fst snd] in *. rewrite Z2Nat.id in Hi by lia. rewrite aget_g by lia. cbn [bind]. destruct (Z.eqb_spec (g req i) 2) as [E2|E2].
    { cbn [sat fst snd]. split; [|exact K2]. intros BF. rewrite (K1 BF), R0 in E2. lia. }
    pose proof (RR i ltac:(lia)) as RRi. unfold JPEG_NBITS. destruct (Z.ltb_spec (N - i + g req i) 0); [lia|]. destruct (Z.ltb_spec 65535 (N - i + g req i)); [unfold N in *; lia|]. cbn [orb bind sat].
    destruct (lt_end o i best) eqn:EL; cbn [fst snd].
    + split; [discriminate|]. intros _. split; [lia|exact E2].
    + split; [|exact K2]. intros ->. rewrite F5 in EL. discriminate.
  - intros [l best] [K1 K2]. cbn [fst snd] in *. cbn [sat]. apply K2. destruct best; [reflexivity|]. specialize (K1 eq_refl). lia.
Qed.

Definition allok (blocks : list (list Z)) : Prop := length blocks = length orig /\ forall b, 0 <= b < N -> bok b (gl blocks b).

Lemma zbu_ok last : -1 <= last -> forall fuel bi blocks, last <= bi < N -> bi - last < Z.of_nat fuel -> allok blocks ->
  sat (fun '(bi', b) => bi' = last /\ allok b) (zero_blocks_until fuel Ss (p_Se p) last bi blocks).
Proof.
  intros HL. induction fuel as [|fuel IH]; intros bi blocks Hb Hf [L A]; [lia|]. cbn [zero_blocks_until]. unfold N in *. destruct (Z.ltb_spec last bi) as [G|G].
  - rewrite (aget_d [] blocks) by lia. cbn [bind]. fold (gl blocks bi).
    eapply sat_bind; [apply (zero_band_ok p Ss ehufsi qtbl HS HSe HE HQL HQ (gl srcs bi) (gl orig bi) (proj1 (HSrc bi ltac:(lia)))); apply A; lia|]. intros b' [V EN]. rewrite aset_ok by lia. cbn [bind].
    apply IH; [lia|lia|]. split; [rewrite length_upd; exact L|]. intros b Hbb. unfold gl at 1. rewrite nth_upd_z by lia. destruct (Z.eqb_spec bi b) as [<-|NE]; [split; assumption|apply A; lia].
  - cbn [sat]. split; [lia|]. split; assumption.
Qed.

Lemma zb_ok req brs : eobok N req brs -> forall fuel last bi blocks, Z.max (bi + 2) 1 <= Z.of_nat fuel -> -1 <= last <= bi -> bi < N -> g req (last + 1) <> 2 -> allok blocks ->
  sat allok (zero_blocks fuel o Ss (p_Se p) last bi blocks brs).
Proof.
  intros (L1 & R0 & L2 & RR & C). induction fuel as [|fuel IH]; intros last bi blocks Hf HL Hb HR HA; [lia|]. cbn [zero_blocks].
  destruct (Z.leb_spec 0 bi) as [G|G]; [|cbn [sat]; exact HA].
  eapply sat_bind; [apply (zbu_ok last); [lia|lia| |exact HA]|].
  { destruct HA as [-> _]. unfold N in *. lia. }
  intros [bi' b] [-> HB]. unfold get_brs. destruct (Z.eqb_spec last (-1)) as [->|NL].
  - destruct FB as [v ->]. cbn [bind]. destruct fuel as [|fuel]; [lia|]. cbn [zero_blocks Z.leb Z.sub Z.add Z.opp Pos.add]. exact HB.
  - rewrite aget_g by (unfold N in *; lia). cbn [bind]. destruct (C last ltac:(lia) HR) as [C1 C2]. apply IH; [lia|lia|lia| |exact HB]. replace (g brs last - 1 + 1) with (g brs last) by lia. exact C2.
Qed.

(* DC candidates *)
Lemma backtrack_ok dcs : length dcs = length orig -> (forall b, 0 <= b < N -> dcok b (gd dcs b)) -> forall bi j blocks, (bi <= length orig)%nat -> 0 <= j < n ->
  length blocks = length orig -> (forall b, 0 <= b < N -> length (gl blocks b) = 64%nat) ->
  sat (fun bl => length bl = length orig /\ forall b, 0 <= b < N ->
         (Z.of_nat bi <= b -> gl bl b = gl blocks b) /\
         (b < Z.of_nat bi -> length (gl bl b) = 64%nat /\ (forall z, 1 <= z -> g (gl bl b) z = g (gl blocks b) z) /\ exists k sign x q qval, 0 <= k < n /\ quant_of (g (gl srcs b) 0) (g qtbl 0) = Ret (sign, x, q, qval) /\ g (gl bl b) 0 = dc_cand p n sign qval k))
      (dc_backtrack bi j dcs blocks).
Proof.
  intros LD HD. induction bi as [|bi IH]; intros j blocks Hb Hj LB LL; cbn [dc_backtrack].
  - cbn [sat]. split; [exact LB|]. intros b Hbb. split; [reflexivity|intros; lia].
  - rewrite (aget_d ([], []) dcs) by lia. cbn [bind]. fold (gd dcs (Z.of_nat bi)). destruct (gd dcs (Z.of_nat bi)) as [cs bt] eqn:EG. destruct (HD (Z.of_nat bi) ltac:(unfold N; lia)) as (D1 & D2 & D3 & D4). rewrite EG in D1, D2, D3, D4. cbn [fst snd] in *.
    rewrite aget_g by lia. cbn [bind]. rewrite (aget_d [] blocks) by lia. cbn [bind]. fold (gl blocks (Z.of_nat bi)). pose proof (LL (Z.of_nat bi) ltac:(unfold N; lia)) as L64.
    rewrite aset_ok by lia. cbn [bind]. rewrite aset_ok by lia. cbn [bind]. rewrite aget_g by lia. cbn [bind].
    set (blk' := upd (gl blocks (Z.of_nat bi)) (Z.to_nat 0) (g cs j)).
    assert (A : forall b, 0 <= b -> gl (upd blocks (Z.to_nat (Z.of_nat bi)) blk') b = if Z.of_nat bi =? b then blk' else gl blocks b). { intros b Hbb. unfold gl. apply nth_upd_z; lia. }
    destruct bi as [|bi].
    + cbn [dc_backtrack sat]. split; [rewrite length_upd; exact LB|]. intros b Hbb. rewrite A by lia. split; [intros G; destruct (Z.eqb_spec (Z.of_nat 0) b); [lia|reflexivity]|]. intros G. destruct (Z.eqb_spec (Z.of_nat 0) b) as [<-|NE]; [|lia].
      split; [unfold blk'; rewrite length_upd; exact L64|]. split; [intros z Hz; unfold blk'; rewrite g_upd by lia; destruct (Z.eqb_spec 0 z); [lia|reflexivity]|].
      destruct (D3 j Hj) as (sign & x & q & qval & E1 & E2). exists j, sign, x, q, qval. split; [exact Hj|]. split; [exact E1|]. unfold blk'. rewrite g_upd by lia. exact E2.
    + eapply sat_imp; [apply IH; [lia|apply D4; lia|rewrite length_upd; exact LB|]|].
      { intros b Hbb. rewrite A by lia. destruct (Z.of_nat (S bi) =? b); [unfold blk'; rewrite length_upd; exact L64|apply LL; exact Hbb]. }
      intros bl (LBL & HBL). split; [exact LBL|]. intros b Hbb. destruct (HBL b Hbb) as [H1 H2]. split.
      * intros G. rewrite H1 by lia. rewrite A by lia. destruct (Z.eqb_spec (Z.of_nat (S bi)) b); [lia|reflexivity].
      * intros G. destruct (Z.eq_dec b (Z.of_nat (S bi))) as [->|NE].
        -- rewrite H1 by lia. rewrite A, Z.eqb_refl by lia. split; [unfold blk'; rewrite length_upd; exact L64|]. split; [intros z Hz; unfold blk'; rewrite g_upd by lia; destruct (Z.eqb_spec 0 z); [lia|reflexivity]|].
           destruct (D3 j Hj) as (sign & x & q & qval & E1 & E2). exists j, sign, x, q, qval. split; [exact Hj|]. split; [exact E1|]. unfold blk'. rewrite g_upd by lia. exact E2.
        -- destruct (H2 ltac:(lia)) as (K1 & K2 & K3). split; [exact K1|]. split; [|exact K3]. intros z Hz. rewrite K2 by lia. rewrite A by lia. destruct (Z.eqb_spec (Z.of_nat (S bi)) b); [lia|reflexivity].
Qed.
End ROW.
