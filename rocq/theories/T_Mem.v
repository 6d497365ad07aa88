(* T_Mem.v -- C41: the memory manager. *)
From Verif Require Import Base M_Mem S_Mem P_Mem.
From Coq Require Import Permutation.

Lemma c_heap_ok h : c_heap h -> heap_ok h.
Proof.
  intros [H1 H2]. split; [|exact H2]. clear H2. induction h as [|b h IH]; [exact I|]. destruct H1 as [A B]. split; [exact A|auto].
Qed.
Lemma pw_all_disjoint l : pairwise oapart l -> all_disjoint (map (fun o => (o_addr o, o_size o)) l).
Proof.
  induction l as [|o l IH]; [auto|]. intros [H1 H2]. cbn [map all_disjoint]. split; [|auto]. apply Forall_map. exact H1.
Qed.
Lemma reach_inv al others s : align_ok al -> c_heap others -> reachable al others s -> Inv al others s.
Proof.
  intros Ha Ho. induction 1 as [orc s E|c s R IH L].
  - exact (init_ok al others orc s (c_heap_ok _ Ho) E).
  - destruct c as [p n|p n|p z w r|p w r|p]; cbn [do_call legal_call] in *.
    + pose proof (alloc_small_ok al Ha others p n s IH ltac:(lia)) as A. destruct (alloc_small al p n s) as [q s']. cbn [snd]. destruct q; [apply A|exact (same_inv _ _ _ _ A IH)|destruct A].
    + pose proof (alloc_large_ok al Ha others p n s IH ltac:(lia)) as A. destruct (alloc_large al p n s) as [q s']. cbn [snd]. destruct q; [apply A|exact (same_inv _ _ _ _ A IH)|destruct A].
    + destruct L as (L1 & L2 & L3). pose proof (alloc_sarray_ok al Ha others p z w r s IH L1 L2 ltac:(lia)) as A. destruct (alloc_sarray al p z w r s) as [q s']. apply A.
    + destruct L as (L1 & L2). pose proof (alloc_barray_ok al Ha others p w r s IH ltac:(lia) ltac:(lia)) as A. destruct (alloc_barray al p w r s) as [q s']. apply A.
    + unfold free_pool. destruct (_ || _) eqn:PC; [exact IH|]. pose proof (pool_cond _ PC) as HP. destruct (free_pool_ok al others p s IH HP) as (h' & E & I'). unfold free_pool in I'. rewrite PC in I'. exact I'.
Qed.
Lemma inv_objects al others s : align_ok al -> Inv al others s -> objects_ok al s.
Proof.
  intros Ha I. split; [|apply pw_all_disjoint, (I_apart _ _ _ I)]. eapply Forall_impl; [|apply (I_obj _ _ _ I)]. intros o (_ & _ & D & p & Hp).
  split; [exact D|]. pose proof (obj_in_block al Ha s o p (I_pool _ _ _ I) Hp) as (B1 & B2). destruct Hp as (Hp & E & _). exists (block al p).
  split; [rewrite (I_heap _ _ _ I); apply in_app_iff; right; right; apply in_map; exact (sel_in_pools _ _ _ Hp)|]. cbn [block fst snd] in *. auto.
Qed.

(* At any moment of any history the live objects are aligned, inside live blocks (after the header)
   and pairwise disjoint, and the library's own count of bytes is right. *)
Theorem C41_invariant : forall al others s, align_ok al -> c_heap others -> reachable al others s ->
  objects_ok al s /\ c_heap (heap s) /\ total s = (sizes (heap s) - sizes others) mod 2 ^ 64.
Proof.
  intros al others s Ha Ho R. pose proof (reach_inv al others s Ha Ho R) as I. split; [exact (inv_objects al others s Ha I)|]. split.
  - destruct (I_ok _ _ _ I) as [H1 H2]. split; [|exact H2]. clear H2. induction (heap s) as [|b h IH]; [exact Logic.I|]. destruct H1 as [A B]. split; [exact A|auto].
  - rewrite (I_total _ _ _ I). f_equal. change sizes with bsum. rewrite (bsum_perm _ _ (I_heap _ _ _ I)), bsum_app. cbn [bsum fold_right snd]. unfold bsum. lia.
Qed.

Definition alloc_of (large : bool) := if large then alloc_large else alloc_small.
(* One allocation, from any reachable state.  Success: the new object is aligned, inside a live block and shares no
   byte with any live object, any foreign block, the manager's own block or any block's header.
   Failure: a reported error that leaves everything as it was. Never undefined behaviour. *)
Theorem C41_alloc : forall al others s (large : bool) pool size, align_ok al -> c_heap others -> reachable al others s -> 0 <= size < SIZE_MAX1 ->
  match alloc_of large al pool size s with
  | (Ok a, s') =>
    (pool = 0 \/ pool = 1) /\ (al | a) /\
    (exists b, In b (heap s') /\ fst b + HDR <= a /\ a + size <= fst b + snd b /\ objs s' = mkO pool (fst b) a size :: objs s) /\
    Forall (fun o => disjoint a size (o_addr o) (o_size o)) (objs s) /\
    Forall (fun b => disjoint a size (fst b) (snd b)) others /\
    disjoint a size (ctl s') MGR /\
    (forall b, In b (heap s') -> In b others \/ fst b = ctl s' \/ disjoint a size (fst b) HDR)
  | (Err e, s') => unchanged s s'
  | (Ub, _) => False
  end.
Proof.
  intros al others s large pool size Ha Ho R Hs. pose proof (reach_inv al others s Ha Ho R) as I.
  assert (A : let '(r, s') := alloc_of large al pool size s in match r with Ok a => (pool = 0 \/ pool = 1) /\ alloc_ok al others s s' pool size a | Err _ => same s s' | Ub => False end).
  { assert (PV : let '(r, s') := alloc_of large al pool size s in match r with Ok a => (pool = 0 \/ pool = 1) | _ => True end).
    { destruct large; cbn [alloc_of]; unfold alloc_large, alloc_small.
      - destruct (_ <? size); [exact Logic.I|]. destruct (_ <? _); [exact Logic.I|]. destruct (_ || _) eqn:PC; [exact Logic.I|]. apply pool_cond in PC. destruct (malloc _ s) as [[?|] ?]; [exact PC|exact Logic.I].
      - destruct (_ <? size); [exact Logic.I|]. destruct (_ <? _); [exact Logic.I|]. destruct (_ || _) eqn:PC; [exact Logic.I|]. apply pool_cond in PC.
        destruct (find_pool _ _) as [? [|? ?]]; [|exact PC]. cbn zeta. destruct (get_slop _ _ _ _) as [[[? ?]|?|] ?]; [exact PC|exact Logic.I|exact Logic.I]. }
    destruct large; cbn [alloc_of] in *.
    - pose proof (alloc_large_ok al Ha others pool size s I ltac:(lia)) as A. destruct (alloc_large al pool size s) as [[?|?|] ?]; auto.
    - pose proof (alloc_small_ok al Ha others pool size s I ltac:(lia)) as A. destruct (alloc_small al pool size s) as [[?|?|] ?]; auto. }
  destruct (alloc_of large al pool size s) as [[a|e|] s']; [|exact A|exact A]. destruct A as (HP & I' & D & (b & Ob & Hb & B1 & B2) & OA & (O1 & O2 & O3)).
  split; [exact HP|]. split; [exact D|]. split; [|split; [exact OA|split; [exact O1|split; [exact O2|]]]].
  - exists b. split; [exact Hb|]. split; [|auto].
    pose proof (inv_objects al others s' Ha I') as [OO _]. rewrite Ob in OO. inversion OO as [|? ? (X1 & b' & X2 & X3 & X4 & X5) _]; subst. cbn [o_base o_addr] in *. lia.
  - intros c Hc. rewrite (I_heap _ _ _ I') in Hc. apply in_app_iff in Hc. destruct Hc as [Hc|[<- |Hc]]; [now left|right; now left|right; right].
    apply in_map_iff in Hc. destruct Hc as (p & <- & Hp). rewrite Forall_forall in O3. exact (O3 p Hp).
Qed.

(* Requests that cannot be represented are refused, never wrapped: a successful allocation means
   size plus header plus alignment fits in the 10^9-byte limit; a size over the limit or a bad
   pool number gives the documented error with nothing changed. *)
Theorem C41_overflow : forall al s (large : bool) pool size, align_ok al -> 0 <= size < SIZE_MAX1 ->
  (MAX_ALLOC_CHUNK < size -> alloc_of large al pool size s = (Err JERR_OUT_OF_MEMORY, s)) /\
  (forall a s', alloc_of large al pool size s = (Ok a, s') -> size + HDR + al - 1 <= MAX_ALLOC_CHUNK) /\
  (size + HDR + 2 * al - 1 <= MAX_ALLOC_CHUNK -> ~ (pool = 0 \/ pool = 1) -> alloc_of large al pool size s = (Err JERR_BAD_POOL_ID, s)) /\
  (* and a request of that size is refused only when malloc itself fails *)
  (size + HDR + 2 * al - 1 <= MAX_ALLOC_CHUNK -> forall e s', alloc_of large al pool size s = (Err e, s') -> (pool = 0 \/ pool = 1) ->
     e = JERR_OUT_OF_MEMORY /\ exists n, (n > size) /\ fst (malloc n s) = None).
Proof.
  intros al s large pool size Ha Hs.
  assert (X : MAX_ALLOC_CHUNK < size \/ 0 <= size <= MAX_ALLOC_CHUNK) by lia. destruct X as [X|X].
  { assert (E : alloc_of large al pool size s = (Err JERR_OUT_OF_MEMORY, s)) by (destruct large; cbn [alloc_of]; unfold alloc_large, alloc_small; (destruct (Z.ltb_spec MAX_ALLOC_CHUNK size); [reflexivity|lia])).
    pose proof (al_pos al Ha). unfold HDR. split; [auto|]. split; [rewrite E; discriminate|]. split; lia. }
  destruct (round_al al Ha size X) as (_ & RD). cbn zeta in RD. pose proof (al_pos al Ha) as AP.
  split; [lia|]. split; [|split].
  - intros a s' E. destruct large; cbn [alloc_of] in E; unfold alloc_large, alloc_small in E; (destruct (Z.ltb_spec MAX_ALLOC_CHUNK size); [discriminate|]);
      (destruct (Z.ltb_spec MAX_ALLOC_CHUNK (HDR + round_up_pow2 size al + al - 1)); [discriminate|]); lia.
  - intros H N. assert (PC : (pool <? 0) || (JPOOL_NUMPOOLS <=? pool) = true) by (unfold JPOOL_NUMPOOLS; apply orb_true_iff; lia).
    destruct large; cbn [alloc_of]; unfold alloc_large, alloc_small; (destruct (Z.ltb_spec MAX_ALLOC_CHUNK size); [lia|]);
      (destruct (Z.ltb_spec MAX_ALLOC_CHUNK (HDR + round_up_pow2 size al + al - 1)); [lia|]); rewrite PC; reflexivity.
  - intros H e s' E HP. assert (PC : (pool <? 0) || (JPOOL_NUMPOOLS <=? pool) = false) by (unfold JPOOL_NUMPOOLS; destruct HP; subst pool; reflexivity).
    destruct large; cbn [alloc_of] in E; unfold alloc_large, alloc_small in E; (destruct (Z.ltb_spec MAX_ALLOC_CHUNK size); [lia|]);
      (destruct (Z.ltb_spec MAX_ALLOC_CHUNK (HDR + round_up_pow2 size al + al - 1)); [lia|]); rewrite PC in E.
    + destruct (malloc _ s) as [[a|] s1] eqn:EM; [discriminate|]. injection E as <- <-. split; [reflexivity|]. exists (round_up_pow2 size al + HDR + al - 1). rewrite EM. unfold HDR. split; [lia|reflexivity].
    + destruct (find_pool _ _) as [bf [|h af]]; [|discriminate]. cbn zeta in E. set (m := HDR + round_up_pow2 size al + al - 1) in *.
      set (sl := if MAX_ALLOC_CHUNK - m <? _ then _ else _) in E. rewrite get_slop_S in E.
      assert (SL : 0 <= sl). { subst sl. set (x := match bf with [] => _ | _ => _ end). assert (0 <= x) by (subst x; unfold first_pool_slop, extra_pool_slop; destruct bf, (pool =? 0); lia). destruct (_ <? x); lia. }
      destruct (malloc (m + sl) s) as [[a|] s1] eqn:EM; [discriminate|]. split.
      * clear -E. cbn zeta in E. revert E. generalize 19%nat as f. intros f. generalize (sl / 2) as t. revert s1. induction f as [|f IH]; intros s1 t E.
        -- destruct (t <? MIN_SLOP); [now injection E as <- <-|discriminate].
        -- destruct (t <? MIN_SLOP); [now injection E as <- <-|]. rewrite get_slop_S in E. destruct (malloc (m + t) s1) as [[a|] s2]; [discriminate|]. cbn zeta in E. exact (IH s2 _ E).
      * exists (m + sl). rewrite EM. subst m. unfold HDR in *. split; [lia|reflexivity].
Qed.

(* Row arrays: numrows rows, each aligned and of the requested width, no two sharing a byte, inside new
   objects of that pool, hence disjoint from everything allocated before.  Never undefined behaviour. *)
Definition rows_of (barray : bool) al pool z w numrows s :=
  if barray then alloc_barray al pool w numrows s else alloc_sarray al pool z w numrows s.
Theorem C41_rows : forall al others s (barray : bool) pool z w numrows, align_ok al -> c_heap others -> reachable al others s ->
  (z = 1 \/ z = 2) -> 0 < w < 2 ^ 32 -> 0 <= numrows < 2 ^ 32 ->
  let width := w * (if barray then 128 else z) in
  match rows_of barray al pool z w numrows s with
  | (Ok rows, s') =>
    exists news, objs s' = news ++ objs s /\ Forall (fun o => o_pool o = pool) news /\ Z.of_nat (length rows) = numrows /\
      Forall (fun r => (al | r) /\ (exists o, In o news /\ o_addr o <= r /\ r + width <= o_addr o + o_size o) /\
                       Forall (fun o => disjoint r width (o_addr o) (o_size o)) (objs s)) rows /\
      all_disjoint (map (fun r => (r, width)) rows)
  | (Err _, s') => exists news, objs s' = news ++ objs s /\ Forall (fun o => o_pool o = pool) news
  | (Ub, _) => False
  end.
Proof.
  intros al others s barray pool z w numrows Ha Ho R Hz Hw Hn width. pose proof (reach_inv al others s Ha Ho R) as I.
  assert (A : let '(r, s') := rows_of barray al pool z w numrows s in Inv al others s' /\ (exists news, objs s' = news ++ objs s /\ Forall (fun o => o_pool o = pool) news /\
     match r with Ok rows => Z.of_nat (length rows) = numrows /\ rows_ok al pool width news rows | Err _ => True | Ub => False end)).
  { destruct barray; cbn [rows_of]; [apply (alloc_barray_ok al Ha others pool w numrows s I); lia|apply (alloc_sarray_ok al Ha others pool z w numrows s I Hz Hw); lia]. }
  destruct (rows_of barray al pool z w numrows s) as [[rows|e|] s']; destruct A as (I' & news & A1 & A2 & A3); [|exists news; auto|exact A3].
  destruct A3 as (L & RO & W). exists news. split; [exact A1|]. split; [exact A2|]. split; [exact L|]. split.
  - eapply Forall_impl; [|exact RO]. intros r (C1 & o & C2 & C3 & C4). split; [exact C1|]. split; [exists o; auto|].
    pose proof (I_apart _ _ _ I') as PW. rewrite A1 in PW. apply Forall_forall. intros o' Ho'.
    assert (X : oapart o o'). { clear -PW C2 Ho'. induction news as [|q news IH]; [destruct C2|]. destruct PW as [W1 W2]. destruct C2 as [-> |C2]; [|auto]. rewrite Forall_forall in W1. apply W1. apply in_app_iff. now right. }
    unfold oapart in X. unfold disjoint. lia.
  - clear -W. induction rows as [|x rows IH]; [exact Logic.I|]. destruct W as [W1 W2]. cbn [map all_disjoint]. split; [|auto]. apply Forall_map. exact W1.
Qed.

(* Freeing a pool: exactly the objects of that pool disappear; the blocks that held them are returned to malloc; the
   objects of the other pool, which were not in any of the returned blocks, stay as they were. *)
Theorem C41_free : forall al others s pool, align_ok al -> c_heap others -> reachable al others s -> (pool = 0 \/ pool = 1) ->
  exists s' freed, free_pool al pool s = (Ok tt, s') /\ Permutation (heap s) (freed ++ heap s') /\
    objs s' = filter (fun o => negb (o_pool o =? pool)) (objs s) /\
    Forall (fun o => In (o_base o) (map fst freed) <-> o_pool o = pool) (objs s) /\
    objects_ok al s' /\ total s' = (total s - sizes freed) mod 2 ^ 64 /\
    (* what remains: foreign blocks, the manager's block, and the other pool's blocks *)
    Permutation (heap s') (others ++ (ctl s, MGR) :: map (fun p => (p_addr p, p_used p + p_left p + HDR + al - 1)) (sel (1 - pool) (smalls s) ++ sel (1 - pool) (larges s))).
Proof.
  intros al others s pool Ha Ho R HP. pose proof (reach_inv al others s Ha Ho R) as I.
  destruct (free_pool_ok al others pool s I HP) as (h' & E & I'). rewrite E in I'. cbn [snd] in I'.
  match type of I' with Inv _ _ ?x => set (s' := x) in * end.
  set (freed := map (block al) (sel pool (smalls s) ++ sel pool (larges s))).
  assert (P' : pools s' = sel (1 - pool) (smalls s) ++ sel (1 - pool) (larges s)).
  { unfold pools, s', both, put, sel. cbn [smalls larges]. destruct HP as [-> | ->]; cbn [Z.eqb fst snd Z.sub app]; [reflexivity|]. now rewrite !app_nil_r. }
  assert (PS : Permutation (pools s) ((sel pool (smalls s) ++ sel pool (larges s)) ++ pools s')).
  { rewrite P'. unfold pools, both, sel. destruct (smalls s) as [a1 a2], (larges s) as [b1 b2]. destruct HP as [-> | ->]; cbn [Z.eqb fst snd Z.sub].
    - change (Z.pos_sub 1 1) with 0. cbn. rewrite <- !app_assoc. apply Permutation_app_head. rewrite !app_assoc. apply Permutation_app_tail. apply Permutation_app_comm.
    - cbn. rewrite <- !app_assoc. rewrite (Permutation_app_comm a1). rewrite <- !app_assoc. apply Permutation_app_head.
      rewrite (app_assoc b1), (app_assoc b2). rewrite (Permutation_app_comm b1 b2). rewrite <- !app_assoc. apply Permutation_app_head. apply Permutation_app_comm. }
  assert (PH : Permutation (heap s) (freed ++ heap s')).
  { rewrite (I_heap _ _ _ I), (I_heap _ _ _ I'), PS, map_app. fold freed. change (ctl s') with (ctl s).
    rewrite !app_assoc. rewrite (Permutation_app_comm freed others). rewrite <- !app_assoc. apply Permutation_app_head. apply Permutation_middle. }
  exists s', freed. split; [exact E|]. split; [exact PH|]. split; [reflexivity|]. split; [|split; [exact (inv_objects al others s' Ha I')|split]].
  - pose proof (I_obj _ _ _ I) as IO. eapply Forall_impl; [|exact IO]. intros o (Q1 & _ & _ & q & Q4 & Q5 & _). unfold freed. rewrite map_map. cbn [block fst].
    split; [|intros EP; rewrite <- EP; rewrite <- Q5; apply (in_map p_addr); exact Q4].
    intros Hi. apply in_map_iff in Hi. destruct Hi as (p & Ep & Hp). destruct (Z.eq_dec (o_pool o) pool) as [|N]; [assumption|exfalso].
    assert (Hq' : In q (pools s')). { rewrite P'. replace (1 - pool) with (o_pool o) by lia. exact Q4. }
    pose proof (heap_ok_perm _ _ (I_heap _ _ _ I) (I_ok _ _ _ I)) as [W _]. apply pw_app in W. destruct W as [_ [_ W]]. rewrite PS in W || idtac.
    assert (W2 : pairwise apart (map (block al) ((sel pool (smalls s) ++ sel pool (larges s)) ++ pools s'))) by (apply (pw_perm apart apart_sym _ _ (Permutation_map (block al) PS)); exact W).
    rewrite map_app in W2. pose proof (I_pool _ _ _ I) as PO. rewrite Forall_forall in PO.
    pose proof (PO q (sel_in_pools _ _ _ Q4)) as (U1 & L1 & _). pose proof (PO p (sel_in_pools _ _ _ Hp)) as (U2 & L2 & _). pose proof (al_pos al Ha) as AP.
    assert (AA : apart (block al p) (block al q)).
    { apply (in_map (block al)) in Hp. apply (in_map (block al)) in Hq'. revert W2 Hp Hq'. generalize (block al p) (block al q) (map (block al) (sel pool (smalls s) ++ sel pool (larges s))) (map (block al) (pools s')).
      clear. intros x y l1 l2 W Hx Hy. induction l1 as [|z l1 IH]; [destruct Hx|]. destruct W as [W1 W2]. destruct Hx as [-> |Hx]; [|auto]. rewrite Forall_forall in W1. apply W1. apply in_app_iff. now right. }
    unfold apart, block, size_of, HDR in AA. cbn [fst snd] in AA. lia.
  - rewrite (I_total _ _ _ I), (I_total _ _ _ I'). rewrite Zminus_mod_idemp_l. f_equal. change sizes with bsum. rewrite (bsum_perm _ _ (Permutation_map (block al) PS)), map_app, bsum_app. fold freed. lia.
  - rewrite (I_heap _ _ _ I'), P'. reflexivity.
Qed.
(* Destroying the manager returns every block it ever took, once: the heap is what it was. *)
Theorem C41_destroy : forall al others s, align_ok al -> c_heap others -> reachable al others s ->
  exists s', self_destruct al s = (Ok tt, s') /\ Permutation (heap s') others.
Proof. intros al others s Ha Ho R. exact (self_destruct_ok al others s (reach_inv al others s Ha Ho R)). Qed.

(* ---- the hypotheses are met ---- *)
Definition orc1 : list (option Z) := [Some 4096; Some 5001; Some 70000; None; Some 100000; Some 9000; Some 200000; Some 300000].
Example ex_others : c_heap [(1000, 500); (2000, 8)].
Proof. split; [cbn; split; [constructor; [left; cbn; lia|constructor]|split; [constructor|exact I]]|repeat constructor]. Qed.
Definition hist : list call := [CSmall 0 100; CSmall 1 17; CLarge 1 40000; CSarray 1 1 100 3; CSmall 0 0; CFree 1; CLarge 0 3000000000; CSmall 1 5; CBarray 1 2 2].
Definition state1 (n : nat) : option mst := match jinit_memory_mgr [(1000, 500); (2000, 8)] orc1 with Some s => Some (fold_left (fun s c => do_call 32 c s) (firstn n hist) s) | None => None end.
Example ex_hist : match state1 5, state1 9 with
  | Some s, Some s' =>
    heap s = [(100000, 439); (70000, 16087); (5001, 1783); (4096, 200); (1000, 500); (2000, 8)] /\
    objs s = [mkO 0 5001 5184 0; mkO 1 100000 100032 384; mkO 1 70000 70080 24; mkO 1 70000 70048 17; mkO 0 5001 5056 100] /\
    heap s' = [(200000, 567); (9000, 16087); (5001, 1783); (4096, 200); (1000, 500); (2000, 8)] /\
    objs s' = [mkO 1 200000 200032 512; mkO 1 9000 9056 16; mkO 1 9000 9024 5; mkO 0 5001 5184 0; mkO 0 5001 5056 100]
  | _, _ => False end.
Proof. vm_compute. auto. Qed.
Example ex_reach : exists s, state1 9 = Some s /\ reachable 32 [(1000, 500); (2000, 8)] s.
Proof.
  unfold state1. destruct (jinit_memory_mgr _ orc1) as [s|] eqn:E; [|discriminate E]. eexists. split; [reflexivity|].
  pose proof (R_init 32 _ _ _ E) as R. cbn [firstn hist fold_left].
  repeat (apply R_call; [|cbn; unfold SIZE_MAX1; lia]). exact R.
Qed.
(* ---- outside the hypotheses ---- *)
(* alloc_sarray with samplesperrow = 0 divides by zero (jmemmgr.c:468) *)
Example C41_width_zero_refuted : forall s, fst (alloc_sarray 32 0 1 0 5 s) = Ub.
Proof. intros s. reflexivity. Qed.
(* a request that would fit the 10^9-byte chunk exactly is refused *)
Example ex_boundary : forall s, alloc_large 32 1 999999969 s = (Err JERR_OUT_OF_MEMORY, s).
Proof. intros s. reflexivity. Qed.

Print Assumptions C41_invariant. Print Assumptions C41_alloc. Print Assumptions C41_overflow. Print Assumptions C41_rows. Print Assumptions C41_free. Print Assumptions C41_destroy.
