(* T_Merge.v -- C54: merged upsampling delivers what separate upsampling and
   colour conversion deliver. *)
From Verif Require Import Base M_RangeLimit T_RangeLimit M_Color T_Color M_Merge S_Merge P_Merge P_Merge2 P_Merge3.
Open Scope nat_scope.

(* In any session of reads and (supported) skips, a read of any number of rows
   delivers at least one line and at most what was asked or remains; the caller's
   row i then holds exactly what the separate path would have written over it for
   output line y+i, and no other row of the caller is touched. *)
Theorem C54_read : forall cs c j e s ids, mcfg_ok cs c -> msession cs c j e s -> g_y s < e_O c ->
  caller_rows cs c ids (g_mem s) -> 1 <= length ids -> (e = true -> length ids <= e_O c - g_y s) ->
  exists s' num, mread c ids s = Ret (s', num) /\ 1 <= num <= length ids /\ g_y s' = g_y s + num /\ g_y s' <= e_O c /\
    (forall i d, nth_error ids i = Some d -> i < num -> separate c (g_y s + i) (g_mem s d) = Ret (g_mem s' d)) /\
    (forall d, d <> SPARE -> ~ In d (firstn num ids) -> g_mem s' d = g_mem s d).
Proof.
  intros cs c j e s ids Hc HS Hy HC Hl He.
  destruct (msession_inv cs c Hc j e s HS) as (_ & RO & [K|HP]); [lia|].
  destruct (mread_ok cs c Hc j e ids s Hy HP RO Hl (or_introl HC) He) as (s' & num & E & N1 & N2 & Y & _ & (_ & EF & FR)).
  exists s', num. split; [exact E|]. split; [exact N1|]. split; [exact Y|]. split; [lia|]. destruct HC as [ND HR].
  assert (NS : ~ In SPARE ids) by (intros K; exact (proj1 (HR _ K) eq_refl)). specialize (EF NS). split.
  - intros i d Hd Hi. pose proof (EF i d Hd) as Q. destruct (Nat.ltb_spec i num) as [_|B]; [|lia]. rewrite Q.
    pose proof (OT cs c Hc) as HT. destruct (wides cs c Hc (g_y s + i) ltac:(lia)) as (WY & WB & WR).
    apply (separate_ok cs c Hc); [exact WY|exact WB|exact WR|]. apply HR. eapply nth_error_In, Hd.
  - intros d Nd Hd. destruct (in_dec Nat.eq_dec d ids) as [Hin|Hin]; [|apply FR; assumption].
    destruct (In_nth_error _ _ Hin) as (i & Hi). rewrite (EF i d Hi). destruct (Nat.ltb_spec i num) as [B|_]; [|reflexivity].
    exfalso. apply Hd. rewrite <- (firstn_skipn num ids) in Hi. rewrite nth_error_app1 in Hi.
    + eapply nth_error_In, Hi.
    + rewrite firstn_length. apply Nat.min_glb_lt; lia.
Qed.
Print Assumptions C54_read.

(* jpeg_skip_scanlines in such a session skips the number of lines it says *)
Theorem C54_skip : forall cs c j e s n, mcfg_ok cs c -> msession cs c j e s -> mskip_ok c j (g_y s) n ->
  exists s', mskip c n s = Ret (s', Nat.min n (e_O c - g_y s)) /\ g_y s' = g_y s + Nat.min n (e_O c - g_y s) /\
    forall d, d <> SPARE -> g_mem s' d = g_mem s d.
Proof.
  intros cs c j e s n Hc HS Hok.
  destruct (mskip_okay cs c Hc j e s n (msession_inv cs c Hc j e s HS) Hok) as (s' & E & Y & _ & F).
  exists s'. split; [exact E|]. split; [exact Y|exact F].
Qed.
Print Assumptions C54_skip.

(* the bytes of a delivered line: pixel x is the colour conversion of luma sample
   x and chroma sample x/2 of the line, in the caller's pixel format, for every
   width, odd or even; what follows the line in the caller's row is left alone *)
Theorem C54_pixels : forall cs c y old, mcfg_ok cs c -> y < e_O c -> roomy cs c old ->
  exists px, length px = e_W c /\ separate c y old = Ret (pack cs (map (opaque (e_p c)) px) ++ skipn (e_W c * length (layout cs)) old) /\
    forall x, x < e_W c ->
      ycc_rgb_pixel (e_p c) (e_rl c) (e_t c) (nth x (e_Y c y) 0%Z) (nth (x / 2) (e_Cb c (y / e_v c)) 0%Z) (nth (x / 2) (e_Cr c (y / e_v c)) 0%Z)
      = Ret (nth x px (0, 0, 0)%Z).
Proof.
  intros cs c y old Hc Hy RO. pose proof (OT cs c Hc) as HT. destruct (wides cs c Hc y ltac:(lia)) as (WY & WB & WR).
  exists (map (pix c (e_Y c y) (e_Cb c (y / e_v c)) (e_Cr c (y / e_v c))) (seq 0 (e_W c))).
  split; [rewrite map_length, seq_length; reflexivity|]. split.
  - rewrite (separate_ok cs c Hc) by assumption. unfold rowst, done. rewrite map_map. reflexivity.
  - intros x Hx. rewrite (nth_indep _ _ (pix c (e_Y c y) (e_Cb c (y / e_v c)) (e_Cr c (y / e_v c)) 0)) by (rewrite map_length, seq_length; lia).
    rewrite map_nth, seq_nth by lia. pose proof (Nat.div_mod x 2 ltac:(lia)) as Dx.
    destruct (yw c _ x WY ltac:(lia)) as (_ & SY). destruct (cw c _ (x / 2) WB ltac:(lia)) as (_ & SB). destruct (cw c _ (x / 2) WR ltac:(lia)) as (_ & SR).
    apply (PX_ok cs c Hc); assumption.
Qed.
Print Assumptions C54_pixels.

(* ---- the hypotheses are met ---- *)
Definition tabs8 : tblmem * ycc_rgb_tabs :=
  match prepare_range_limit_table 8, build_ycc_rgb_table 8 with
  | Ret rl, Ret t => (rl, t)
  | _, _ => (fun _ => None, {| Cr_r := fun _ => None; Cb_b := fun _ => None; Cr_g := fun _ => None; Cb_g := fun _ => None |})
  end.
(* a 3 x 5 image, 4:2:0, one-row IDCT output blocks of 2 row groups, BGRX output *)
Definition ex_c (v : nat) : mcfg := mkMC 8 (fst tabs8) (snd tabs8) (fmt_of JCS_EXT_BGRX) 2 v 3 5 3
  (fun y => map Z.of_nat [10 * y; 10 * y + 1; 10 * y + 2; 77]) (fun y => [128; Z.of_nat (120 + y)]%Z) (fun y => [Z.of_nat (100 + y); 128]%Z).
Lemma tabs8_ok : prepare_range_limit_table 8 = Ret (fst tabs8) /\ build_ycc_rgb_table 8 = Ret (snd tabs8).
Proof.
  destruct (C23_ycc_to_rgb 8 (or_introl eq_refl)) as (rl & t & E1 & E2 & _). unfold tabs8. rewrite E1, E2. split; reflexivity.
Qed.
Example C54_config : forall v, v = 1 \/ v = 2 -> mcfg_ok JCS_EXT_BGRX (ex_c v).
Proof.
  intros v Hv. destruct tabs8_ok as (A & B). unfold mcfg_ok, ex_c. cbn [e_p e_rl e_t e_f e_M e_v e_W e_O e_T e_Y e_Cb e_Cr].
  split; [left; reflexivity|]. split; [exact A|]. split; [exact B|]. split; [reflexivity|]. split; [lia|]. split; [exact Hv|]. split; [lia|].
  split; [|]; intros y Hy; unfold wide, sample; change (2 ^ 8)%Z with 256%Z.
  - split; [|cbn [map length]; lia]. cbn [map]. repeat (apply Forall_cons; [lia|]). apply Forall_nil.
  - split; (split; [repeat (apply Forall_cons; [lia|]); apply Forall_nil|cbn; lia]).
Qed.
Definition ex_m : mem := fun _ => repeat 9%Z 14.

Inductive op := Rd (ids : list nat) | Sk (n : nat).
Fixpoint ops (c : mcfg) (l : list op) (s : mst) : option (list nat * mst) :=
  match l with
  | [] => Some ([], s)
  | o :: l =>
    match (match o with Rd ids => mread c ids s | Sk n => mskip c n s end) with
    | Ret (s', k) => match ops c l s' with Some (ks, s2) => Some (k :: ks, s2) | None => None end
    | _ => None
    end
  end.
(* what each call returned, the final line number, and the named buffers *)
Definition see (l : list nat) (r : option (list nat * mst)) : option (list nat * nat * list (list Z)) :=
  match r with Some (ks, s) => Some (ks, g_y s, map (g_mem s) l) | None => None end.
Definition want (c : mcfg) (y : nat) : list Z := match separate c y (repeat 9%Z 14) with Ret r => r | _ => [] end.

(* 4:2:0: read one line, two lines (only one comes: the spare row), skip one, read
   the last line *)
Example C54_run : see [1; 2; 3; 4] (ops (ex_c 2) [Rd [1]; Rd [2; 3]; Sk 2; Rd [4]] (mstart (ex_c 2) ex_m)) =
  Some ([1; 1; 2; 1], 5, [want (ex_c 2) 0; want (ex_c 2) 1; repeat 9%Z 14; want (ex_c 2) 4]).
Proof. vm_compute. reflexivity. Qed.
Example C54_run_session : exists s, msession JCS_EXT_BGRX (ex_c 2) true true s /\ g_y s = 3.
Proof.
  pose proof (C54_config 2 (or_intror eq_refl)) as Hc.
  assert (S0 : msession JCS_EXT_BGRX (ex_c 2) false false (mstart (ex_c 2) ex_m)) by (apply ms_start; cbv; lia).
  assert (HC : caller_rows JCS_EXT_BGRX (ex_c 2) [1] (g_mem (mstart (ex_c 2) ex_m))).
  { split; [apply NoDup_cons; [intros []|apply NoDup_nil]|]. intros x [<-|[]]. split; [discriminate|]. cbv. lia. }
  destruct (C54_read _ _ _ _ _ [1] Hc S0) as (s1 & n1 & E1 & N1 & Y1 & _);
    [cbn; lia|exact HC|cbn; lia|intros K; discriminate K|].
  cbn [length] in N1. assert (n1 = 1) by lia. subst n1. cbn [mstart g_y Nat.add] in Y1.
  assert (S1 : msession JCS_EXT_BGRX (ex_c 2) false false s1).
  { eapply ms_read; [exact S0|exact HC|cbn; lia|intros K; discriminate K|cbn; lia|exact E1]. }
  assert (OK : mskip_ok (ex_c 2) false (g_y s1) 2) by (right; left; rewrite Y1; reflexivity).
  destruct (C54_skip _ _ _ _ _ 2 Hc S1 OK) as (s2 & E2 & Y2 & _).
  exists s2. split; [eapply ms_skip; [exact S1|exact OK|exact E2]|]. rewrite Y2, Y1. reflexivity.
Qed.

(* ---- outside the supported use the property fails in the code as written ---- *)
(* 4:2:0: read one line, then skip out of the iMCU row: the stale spare row (line
   1) is delivered for line 4 *)
Example C54_odd_skip_refuted :
  see [2] (ops (ex_c 2) [Rd [1]; Sk 3; Rd [2]] (mstart (ex_c 2) ex_m)) = Some ([1; 3; 1], 5, [want (ex_c 2) 1]) /\
  want (ex_c 2) 1 <> want (ex_c 2) 4.
Proof. split; [vm_compute; reflexivity|]. vm_compute. discriminate. Qed.
(* after a skip the counter of rows to go is stale: asking for two lines at the
   last line of the image writes two and moves output_scanline past the bottom *)
Example C54_past_bottom_refuted :
  see [] (ops (ex_c 2) [Sk 4; Rd [1; 2]] (mstart (ex_c 2) ex_m)) = Some ([4; 2], 6, []) /\ e_O (ex_c 2) = 5.
Proof. split; vm_compute; reflexivity. Qed.
(* 4:2:2: two skips in a row, the second leaving the iMCU row *)
Example C54_two_skips_refuted :
  see [2] (ops (ex_c 1) [Sk 1; Sk 2; Rd [2]] (mstart (ex_c 1) ex_m)) = Some ([1; 2; 1], 4, [want (ex_c 1) 1]) /\
  want (ex_c 1) 1 <> want (ex_c 1) 3.
Proof. split; [vm_compute; reflexivity|]. vm_compute. discriminate. Qed.
(* jpeg_read_scanlines with max_lines = 0 uses the first row of an empty array *)
Example C54_read_zero_refuted : forall v, v = 1 \/ v = 2 -> mread (ex_c v) [] (mstart (ex_c v) ex_m) = Undef.
Proof. intros v [-> | ->]; reflexivity. Qed.
