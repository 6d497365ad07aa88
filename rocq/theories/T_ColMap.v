(* T_ColMap.v -- C61: djpeg -map. *)
From Verif Require Import Base M_Pnm S_Pnm S_Quant M_ColMap S_ColMap.

Definition notin (m : list (Z * Z * Z)) (c : Z * Z * Z) : bool := negb (existsb (fun d => if same_colour c d then true else false) m).
Fixpoint adds (m l : list (Z * Z * Z)) : outcome (list (Z * Z * Z)) :=
  match l with [] => Ret m | (r, g, b) :: l => m <- add_map_entry m r g b ;; adds m l end.
Lemma ext_filter : forall {A} (f g : A -> bool) l, (forall x, f x = g x) -> filter f l = filter g l.
Proof. intros A f g l H. induction l as [|x l IH]; [reflexivity|]. cbn [filter]. rewrite H, IH. reflexivity. Qed.
Lemma filter2 : forall {A} (f g : A -> bool) l, filter f (filter g l) = filter (fun x => f x && g x) l.
Proof. intros A f g l. induction l as [|x l IH]; [reflexivity|]. cbn [filter]. destruct (g x) eqn:G; cbn [filter]; rewrite IH; destruct (f x); reflexivity. Qed.
Lemma exists_eq : forall m r g b, existsb (fun '(x, y, z) => (x =? r) && (y =? g) && (z =? b)) m = negb (notin m (r, g, b)).
Proof.
  intros m r g b. unfold notin. rewrite negb_involutive. induction m as [|[[x y] z] m IH]; [reflexivity|]. cbn [existsb]. rewrite IH. f_equal. destruct (same_colour (r, g, b) (x, y, z)) as [E|N].
  - injection E as -> -> ->. rewrite !Z.eqb_refl. reflexivity.
  - apply not_true_is_false. intros H. rewrite !andb_true_iff, !Z.eqb_eq in H. apply N. destruct H as ((-> & ->) & ->). reflexivity.
Qed.
Lemma adds_ok : forall l m, Forall colour l -> (length m <= 256)%nat ->
  adds m l = if Z.of_nat (length (m ++ filter (notin m) (first_seen l))) <=? 256 then Ret (m ++ filter (notin m) (first_seen l)) else Error JERR_OTHER.
Proof.
  induction l as [|[[r g] b] l IH]; intros m C L.
  - cbn [adds first_seen filter]. rewrite app_nil_r. destruct (Z.leb_spec (Z.of_nat (length m)) 256); [reflexivity|lia].
  - inversion C as [|? ? C1 C2]; subst. cbn [adds first_seen]. unfold add_map_entry. rewrite exists_eq. cbn [filter]. rewrite filter2. destruct (notin m (r, g, b)) eqn:N; cbn [negb].
    + destruct (Z.leb_spec 256 (Z.of_nat (length m))).
      * cbn [bind]. rewrite app_length. cbn [length]. destruct (Z.leb_spec (Z.of_nat (length m + S (length (filter (fun x => notin m x && (if same_colour (r, g, b) x then false else true)) (first_seen l))))) 256); [lia|reflexivity].
      * cbn [bind]. unfold colour, sample in C1. unfold u8. rewrite !Z.mod_small by (change (2 ^ 8) with 256; lia). rewrite IH; [|exact C2|rewrite app_length; cbn [length]; lia].
        assert (E : filter (notin (m ++ [(r, g, b)])) (first_seen l) = filter (fun x => notin m x && (if same_colour (r, g, b) x then false else true)) (first_seen l)).
        { apply ext_filter. intros x. unfold notin. rewrite existsb_app. cbn [existsb]. rewrite negb_orb, orb_false_r. f_equal. destruct (same_colour x (r, g, b)) as [E|E], (same_colour (r, g, b) x) as [E'|E']; try reflexivity; congruence. }
        rewrite E, <- app_assoc. reflexivity.
    + cbn [bind]. rewrite IH by assumption. assert (E : filter (notin m) (first_seen l) = filter (fun x => notin m x && (if same_colour (r, g, b) x then false else true)) (first_seen l)).
      { apply ext_filter. intros x. destruct (same_colour (r, g, b) x) as [<-|E]; [rewrite N; reflexivity|rewrite andb_true_r; reflexivity]. }
      rewrite E. reflexivity.
Qed.
Lemma all_in : forall l, filter (notin []) l = l.
Proof. induction l as [|x l IH]; [reflexivity|]. cbn [filter]. change (notin [] x) with true. cbv iota. rewrite IH. reflexivity. Qed.
Lemma adds_seen : forall l, Forall colour l -> adds [] l = if Z.of_nat (length (first_seen l)) <=? 256 then Ret (first_seen l) else Error JERR_OTHER.
Proof. intros l C. rewrite adds_ok by (try exact C; cbn; lia). rewrite all_in. reflexivity. Qed.
Lemma raw_ok : forall cs l m, raw_entries (length cs) (rgb_bytes cs ++ l) m = adds m cs.
Proof.
  induction cs as [|[[r g] b] cs IH]; intros l m; [reflexivity|]. cbn [length rgb_bytes flat_map app raw_entries adds]. destruct (add_map_entry m r g b) as [m'| |]; cbn [bind]; [apply IH|reflexivity|reflexivity].
Qed.
Lemma raw_inv : forall n l m r, raw_entries n l m = Ret r -> exists cs rest, l = rgb_bytes cs ++ rest /\ length cs = n.
Proof.
  induction n as [|n IH]; intros l m r H; [exists [], l; split; reflexivity|]. cbn [raw_entries] in H. destruct l as [|x [|y [|z l]]]; try discriminate H.
  destruct (add_map_entry m x y z) as [m'| |]; cbn [bind] in H; [|discriminate H|discriminate H]. destruct (IH _ _ _ H) as (cs & rest & -> & <-). exists ((x, y, z) :: cs), rest. split; reflexivity.
Qed.
Lemma add_cases : forall m r g b, Forall colour m -> (length m <= 256)%nat -> add_map_entry m r g b = Error JERR_OTHER \/ exists m', add_map_entry m r g b = Ret m' /\ Forall colour m' /\ (length m' <= 256)%nat.
Proof.
  intros m r g b C L. unfold add_map_entry. destruct (existsb _ m); [right; exists m; tauto|]. destruct (Z.leb_spec 256 (Z.of_nat (length m))); [left; reflexivity|]. right. eexists. split; [reflexivity|]. split; [|rewrite app_length; cbn [length]; lia].
  apply Forall_app. split; [exact C|]. constructor; [|constructor]. assert (U : forall x, 0 <= u8 x <= 255) by (intros x; unfold u8; pose proof (Z.mod_pos_bound x (2 ^ 8) ltac:(lia)); lia). unfold colour, sample. split; [apply U|]. split; apply U.
Qed.
Lemma raw_cases : forall n l m, Forall colour m -> (length m <= 256)%nat -> raw_entries n l m = Error JERR_OTHER \/ exists m', raw_entries n l m = Ret m' /\ Forall colour m' /\ (length m' <= 256)%nat.
Proof.
  induction n as [|n IH]; intros l m C L; [right; exists m; tauto|]. cbn [raw_entries]. destruct l as [|x [|y [|z l]]]; try (left; reflexivity).
  destruct (add_cases m x y z C L) as [-> |(m' & -> & C' & L')]; [left; reflexivity|]. cbn [bind]. apply IH; assumption.
Qed.

(* ---- numbers ---- *)
Lemma skip_line_ok : forall t l, ~ In 10 t -> skip_line (t ++ 10 :: l) = (Some 10, l).
Proof. induction t as [|c t IH]; intros l H; [reflexivity|]. cbn [app skip_line]. destruct (Z.eqb_spec c 10) as [-> |]; [elim H; left; reflexivity|]. apply IH. intros X. apply H. right. exact X. Qed.
Lemma skip_line_len : forall l o l', skip_line l = (o, l') -> (length l' <= length l)%nat /\ (o <> None -> (length l' < length l)%nat).
Proof.
  induction l as [|c l IH]; intros o l' H; cbn [skip_line] in H; [injection H as <- <-; split; [lia|congruence]|]. destruct (c =? 10); [injection H as <- <-; cbn [length]; split; [lia|lia]|].
  apply IH in H. cbn [length]. destruct H as (H1 & H2). split; [lia|]. intros X. specialize (H2 X). lia.
Qed.
Lemma getc_len : forall l c l', pbm_getc l = (Some c, l') -> (length l' < length l)%nat.
Proof.
  intros l c l' H. destruct l as [|d l]; [discriminate H|]. cbn [pbm_getc] in H. destruct (d =? 35); [|injection H as _ <-; cbn [length]; lia]. apply skip_line_len in H. cbn [length]. destruct H as (H & _). lia.
Qed.
Lemma skip_space_cases : forall n l, (length l < n)%nat -> skip_space n l = Error JERR_OTHER \/ exists c l', skip_space n l = Ret (c, l') /\ (length l' < length l)%nat.
Proof.
  induction n as [|n IH]; intros l H; [lia|]. cbn [skip_space]. destruct (pbm_getc l) as [[c|] l'] eqn:G; [|left; reflexivity]. apply getc_len in G.
  destruct ((c =? 32) || (c =? 9) || (c =? 10) || (c =? 13)); [|right; exists c, l'; split; [reflexivity|exact G]].
  destruct (IH l' ltac:(lia)) as [-> |(d & l2 & -> & L2)]; [left; reflexivity|]. right. exists d, l2. split; [reflexivity|lia].
Qed.
Lemma more_digits_cases : forall n l v, (length l < n)%nat -> 0 <= v < 2 ^ 32 -> exists v' l', more_digits n l v = Ret (v', l') /\ 0 <= v' < 2 ^ 32.
Proof.
  induction n as [|n IH]; intros l v H V; [lia|]. cbn [more_digits]. destruct (pbm_getc l) as [[c|] l'] eqn:G; [|exists v, l'; split; [reflexivity|exact V]]. apply getc_len in G.
  destruct ((48 <=? c) && (c <=? 57)); [|exists v, l'; split; [reflexivity|exact V]]. apply IH; [lia|]. unfold u32. apply Z.mod_pos_bound. lia.
Qed.
Lemma integer_cases : forall l, read_pbm_integer l = Error JERR_OTHER \/ exists v l', read_pbm_integer l = Ret (v, l') /\ 0 <= v < 2 ^ 32.
Proof.
  intros l. unfold read_pbm_integer. destruct (skip_space_cases (S (length l)) l ltac:(lia)) as [-> |(c & l' & -> & _)]; [left; reflexivity|]. cbn [bind].
  destruct (Z.ltb_spec c 48); [left; reflexivity|]. destruct (Z.ltb_spec 57 c); [left; reflexivity|]. cbn [orb]. right. apply more_digits_cases; [lia|]. change (2 ^ 32) with 4294967296. lia.
Qed.
Lemma skip_gap : forall g, gap g -> forall n d l, (length g < n)%nat -> 48 <= d <= 57 -> skip_space n (g ++ d :: l) = Ret (d, l).
Proof.
  intros g G. induction G as [|c g SP G IH|t g NT G IH]; intros n d l Hn Hd; (destruct n as [|n]; [cbn [length] in Hn; lia|]); cbn [skip_space app].
  - cbn [pbm_getc]. destruct (Z.eqb_spec d 35); [lia|]. destruct (Z.eqb_spec d 32); [lia|]. destruct (Z.eqb_spec d 9); [lia|]. destruct (Z.eqb_spec d 10); [lia|]. destruct (Z.eqb_spec d 13); [lia|]. reflexivity.
  - cbn [pbm_getc]. cbn [length] in Hn. unfold space in SP. destruct (Z.eqb_spec c 35); [lia|]. replace ((c =? 32) || (c =? 9) || (c =? 10) || (c =? 13)) with true by (symmetry; rewrite !orb_true_iff, !Z.eqb_eq; tauto). apply IH; [lia|exact Hd].
  - cbn [pbm_getc Z.eqb Pos.eqb]. rewrite <- app_assoc. cbn [app]. rewrite skip_line_ok by exact NT. cbn [Z.eqb Pos.eqb orb]. apply IH; [|exact Hd]. cbn [length] in Hn. rewrite app_length in Hn. cbn [length] in Hn. lia.
Qed.
Lemma value_ge : forall ds v, 0 <= v -> Forall (fun d => 48 <= d <= 57) ds -> v <= value v ds.
Proof. induction ds as [|d ds IH]; intros v Hv F; [cbn; lia|]. inversion F; subst. cbn [value]. specialize (IH (10 * v + (d - 48)) ltac:(lia) ltac:(assumption)). lia. Qed.
Lemma digits_ok : forall ds v e rest n, 0 <= v -> Forall (fun d => 48 <= d <= 57) ds -> value v ds < 2 ^ 32 -> ending e rest -> (length ds < n)%nat ->
  more_digits n (ds ++ e ++ rest) v = Ret (value v ds, rest).
Proof.
  induction ds as [|d ds IH]; intros v e rest n Hv F V E Hn; (destruct n as [|n]; [cbn [length] in Hn; lia|]); cbn [more_digits app value].
  - destruct E as [c rest N1 N2|t rest NT|].
    + cbn [app pbm_getc]. destruct (Z.eqb_spec c 35); [contradiction|]. replace ((48 <=? c) && (c <=? 57)) with false by (symmetry; apply andb_false_iff; rewrite !Z.leb_gt; lia). reflexivity.
    + cbn [app pbm_getc Z.eqb Pos.eqb]. rewrite <- app_assoc. cbn [app]. rewrite skip_line_ok by exact NT. reflexivity.
    + reflexivity.
  - inversion F as [|? ? D F']; subst. cbn [pbm_getc]. destruct (Z.eqb_spec d 35); [lia|]. destruct (Z.leb_spec 48 d); [|lia]. destruct (Z.leb_spec d 57); [|lia]. cbn [andb].
    cbn [value] in V. pose proof (value_ge ds (10 * v + (d - 48)) ltac:(lia) F') as GE. unfold u32. rewrite (Z.mod_small (v * 10)) by lia. rewrite Z.mod_small by lia. replace (v * 10 + (d - 48)) with (10 * v + (d - 48)) by lia.
    apply IH; [lia|exact F'|exact V|exact E|cbn [length] in Hn; lia].
Qed.
Lemma number_ok : forall f v rest, number f v rest -> read_pbm_integer f = Ret (v, rest) /\ 0 <= v < 2 ^ 32.
Proof.
  intros f v rest (g & ds & e & -> & G & (ND & F) & E & -> & V). destruct ds as [|d ds]; [congruence|]. inversion F as [|? ? D F']; subst. unfold read_pbm_integer. cbn [app].
  rewrite skip_gap; [|exact G|rewrite app_length; lia|exact D]. cbn [bind]. destruct (Z.ltb_spec d 48); [lia|]. destruct (Z.ltb_spec 57 d); [lia|]. cbn [orb value] in *. change (10 * 0 + (d - 48)) with (d - 48) in *.
  split; [apply digits_ok; [lia|exact F'|exact V|exact E|rewrite app_length; lia]|]. pose proof (value_ge ds (d - 48) ltac:(lia) F'). lia.
Qed.
Lemma text_ok : forall cs l rest m, Forall colour cs -> numbers l (rgb_bytes cs) rest -> text_entries (length cs) l m = adds m cs.
Proof.
  induction cs as [|[[r g] b] cs IH]; intros l rest m C H; [reflexivity|]. inversion C as [|? ? C1 C2]; subst. cbn [rgb_bytes flat_map app] in H.
  inversion H as [|? ? l1 ? ? N1 H1]; subst. inversion H1 as [|? ? l2 ? ? N2 H2]; subst. inversion H2 as [|? ? l3 ? ? N3 H3]; subst.
  cbn [length text_entries adds]. rewrite (proj1 (number_ok _ _ _ N1)). cbn [bind]. rewrite (proj1 (number_ok _ _ _ N2)). cbn [bind]. rewrite (proj1 (number_ok _ _ _ N3)). cbn [bind].
  unfold colour, sample in C1. assert (S32 : forall x, 0 <= x <= 255 -> s32 x = x) by (intros x Hx; unfold s32; change (2 ^ 31) with 2147483648; change (2 ^ 32) with 4294967296; rewrite ?Z.mod_small by lia; repeat match goal with |- context [if ?c then _ else _] => destruct c eqn:? end; lia).
  rewrite !S32 by lia. destruct (add_map_entry m r g b) as [m'| |]; cbn [bind]; [apply (IH l3 rest m' C2 H3)|reflexivity|reflexivity].
Qed.
Lemma text_cases : forall n l m, Forall colour m -> (length m <= 256)%nat -> text_entries n l m = Error JERR_OTHER \/ exists m', text_entries n l m = Ret m' /\ Forall colour m' /\ (length m' <= 256)%nat.
Proof.
  induction n as [|n IH]; intros l m C L; [right; exists m; tauto|]. cbn [text_entries].
  destruct (integer_cases l) as [-> |(r & l1 & -> & _)]; [left; reflexivity|]. cbn [bind]. destruct (integer_cases l1) as [-> |(g & l2 & -> & _)]; [left; reflexivity|]. cbn [bind]. destruct (integer_cases l2) as [-> |(b & l3 & -> & _)]; [left; reflexivity|]. cbn [bind].
  destruct (add_cases m (s32 r) (s32 g) (s32 b) C L) as [-> |(m' & -> & C' & L')]; [left; reflexivity|]. cbn [bind]. apply IH; assumption.
Qed.

Lemma land_flags : forall x, 0 <= x <= 255 -> ((Z.land x 128 =? 0) = (x <? 128)) /\ Z.shiftl 2 (Z.land x 7) = 2 ^ (x mod 8 + 1).
Proof.
  intros x H. assert (P : forallb (fun n => let x := Z.of_nat n in Bool.eqb (Z.land x 128 =? 0) (x <? 128) && (Z.shiftl 2 (Z.land x 7) =? 2 ^ (x mod 8 + 1))) (seq 0 256) = true) by (vm_compute; reflexivity).
  rewrite forallb_forall in P. specialize (P (Z.to_nat x) ltac:(apply in_seq; lia)). cbv zeta in P. rewrite Z2Nat.id in P by lia. rewrite andb_true_iff in P. destruct P as (P1 & P2).
  split; [apply Bool.eqb_prop; exact P1|apply Z.eqb_eq; exact P2].
Qed.
Lemma pow_le : forall x, 2 ^ (x mod 8 + 1) <= 256.
Proof. intros x. pose proof (Z.mod_pos_bound x 8 ltac:(lia)). change 256 with (2 ^ 8). apply Z.pow_le_mono_r; lia. Qed.
Lemma seen_len : forall l, (length (first_seen l) <= length l)%nat.
Proof.
  assert (F : forall (f : Z * Z * Z -> bool) l, (length (filter f l) <= length l)%nat) by (intros f l; induction l as [|x l IH]; [cbn; lia|cbn [filter]; destruct (f x); cbn [length]; lia]).
  induction l as [|c l IH]; [cbn; lia|]. cbn [first_seen length]. pose proof (F (fun d => if same_colour c d then false else true) (first_seen l)). lia.
Qed.
Lemma rgb_colours : forall cs rest, bytes (rgb_bytes cs ++ rest) -> Forall colour cs.
Proof.
  induction cs as [|[[r g] b] cs IH]; intros rest H; [constructor|]. cbn [rgb_bytes flat_map app] in H. inversion H as [|? ? H1 X1]; subst. inversion X1 as [|? ? H2 X2]; subst. inversion X2 as [|? ? H3 X3]; subst.
  constructor; [unfold colour, sample; lia|]. apply (IH rest). exact X3.
Qed.
Lemma bytes_app_r : forall a b, bytes (a ++ b) -> bytes b.
Proof. intros a b H. apply Forall_app in H. apply H. Qed.

(* every file: an error or a map of at most 256 colours of the sample range *)
Theorem C61_safe : forall f, bytes f ->
  read_color_map f = Error JERR_OTHER \/ exists m, read_color_map f = Ret m /\ Forall colour m /\ Z.of_nat (length m) <= 256.
Proof.
  intros f _. assert (W : forall o : outcome (list (Z * Z * Z)), (o = Error JERR_OTHER \/ exists m', o = Ret m' /\ Forall colour m' /\ (length m' <= 256)%nat) -> o = Error JERR_OTHER \/ exists m, o = Ret m /\ Forall colour m /\ Z.of_nat (length m) <= 256).
  { intros o [H|(m & H1 & H2 & H3)]; [left; exact H|right; exists m; split; [exact H1|split; [exact H2|lia]]]. }
  apply W. clear W. destruct f as [|c l]; [left; reflexivity|]. cbn [read_color_map]. destruct (c =? 71); [|destruct (c =? 80); [|left; reflexivity]].
  - unfold read_gif_map. destruct (Z.ltb_spec (Z.of_nat (length l)) 12); [left; reflexivity|].
    destruct l as [|x0 [|x1 [|x2 [|x3 [|x4 [|x5 [|x6 [|x7 [|x8 [|x9 l]]]]]]]]]]; try (cbn [length] in *; lia).
    unfold aget. change (Z.to_nat 0) with 0%nat. change (Z.to_nat 1) with 1%nat. change (Z.to_nat 9) with 9%nat. cbn [Z.ltb Z.compare nth_error bind].
    destruct (negb (x0 =? 73) || negb (x1 =? 70)); [left; reflexivity|]. destruct (Z.land x9 128 =? 0); [left; reflexivity|]. apply raw_cases; [constructor|cbn; lia].
  - unfold read_ppm_map. destruct (match l with [] => (-1, []) | c0 :: l0 => (c0, l0) end) as [k l0].
    destruct (integer_cases l0) as [-> |(w & l1 & -> & _)]; [left; reflexivity|]. cbn [bind]. destruct (integer_cases l1) as [-> |(h & l2 & -> & _)]; [left; reflexivity|]. cbn [bind]. destruct (integer_cases l2) as [-> |(v & l3 & -> & _)]; [left; reflexivity|]. cbn [bind].
    destruct (_ || (v <=? 0)); [left; reflexivity|]. destruct (negb (v =? 255)); [left; reflexivity|]. destruct (k =? 51); [apply text_cases; [constructor|cbn; lia]|]. destruct (k =? 54); [apply raw_cases; [constructor|cbn; lia]|left; reflexivity].
Qed.
Print Assumptions C61_safe.

(* GIF: the colours of the file, each once, in the order of the file *)
Theorem C61_gif : forall f cs, bytes f -> gif_map_file f cs -> read_color_map f = Ret (first_seen cs).
Proof.
  intros f cs B (x & flags & y & rest & -> & Lx & Ly & Fl & Lc).
  destruct x as [|x0 [|x1 [|x2 [|x3 [|x4 [|x5 [|x6 [|? ?]]]]]]]]; try discriminate Lx. destruct y as [|y0 [|y1 [|? ?]]]; try discriminate Ly. cbn [app] in *.
  assert (BF : 0 <= flags <= 255 /\ bytes (rgb_bytes cs ++ rest)).
  { apply (bytes_app_r [71; 73; 70; x0; x1; x2; x3; x4; x5; x6]) in B. inversion B as [|? ? B1 B2]; subst. split; [lia|]. inversion B2 as [|? ? _ B3]; subst. inversion B3; subst; assumption. }
  destruct BF as (BF & BR). destruct (land_flags flags BF) as (L1 & L2). cbn [read_color_map Z.eqb Pos.eqb]. unfold read_gif_map. cbn [length].
  destruct (Z.ltb_spec (Z.of_nat (S (S (S (S (S (S (S (S (S (S (S (S (length (rgb_bytes cs ++ rest))))))))))))))) 12); [lia|].
  unfold aget. change (Z.to_nat 0) with 0%nat. change (Z.to_nat 1) with 1%nat. change (Z.to_nat 9) with 9%nat. cbn [Z.ltb Z.compare nth_error bind Z.eqb Pos.eqb negb orb skipn]. rewrite L1. destruct (Z.ltb_spec flags 128); [lia|].
  rewrite L2, <- Lc, Nat2Z.id, raw_ok, adds_seen by (apply (rgb_colours cs rest BR)). pose proof (seen_len cs). pose proof (pow_le flags). destruct (Z.leb_spec (Z.of_nat (length (first_seen cs))) 256); [reflexivity|lia].
Qed.
Print Assumptions C61_gif.

(* and nothing else that begins with a G is accepted *)
Theorem C61_gif_only : forall l m, bytes (71 :: l) -> read_color_map (71 :: l) = Ret m -> exists cs, gif_map_file (71 :: l) cs /\ m = first_seen cs.
Proof.
  intros l m B H. assert (X : exists cs, gif_map_file (71 :: l) cs).
  { cbn [read_color_map Z.eqb Pos.eqb] in H. unfold read_gif_map in H. destruct (Z.ltb_spec (Z.of_nat (length l)) 12); [discriminate H|].
    destruct l as [|x0 [|x1 [|x2 [|x3 [|x4 [|x5 [|x6 [|x7 [|x8 [|x9 [|y0 [|y1 l]]]]]]]]]]]]; try (cbn [length] in *; lia).
    unfold aget in H. change (Z.to_nat 0) with 0%nat in H. change (Z.to_nat 1) with 1%nat in H. change (Z.to_nat 9) with 9%nat in H. cbn [Z.ltb Z.compare nth_error bind skipn] in H.
    destruct (Z.eqb_spec x0 73) as [-> |]; [|discriminate H]. destruct (Z.eqb_spec x1 70) as [-> |]; [|discriminate H]. cbn [negb orb] in H.
    assert (BF : 0 <= x9 <= 255) by (apply (bytes_app_r [71; 73; 70; x2; x3; x4; x5; x6; x7; x8]) in B; inversion B; subst; lia).
    destruct (land_flags x9 BF) as (L1 & L2). rewrite L1, L2 in H. destruct (Z.ltb_spec x9 128); [discriminate H|]. destruct (raw_inv _ _ _ _ H) as (cs & rest & -> & Lc). exists cs, [x2; x3; x4; x5; x6; x7; x8], x9, [y0; y1], rest.
    split; [reflexivity|]. split; [reflexivity|]. split; [reflexivity|]. split; [lia|]. rewrite Lc, Z2Nat.id; [reflexivity|]. apply Z.pow_nonneg. lia. }
  destruct X as (cs & G). exists cs. split; [exact G|]. rewrite (C61_gif _ _ B G) in H. injection H as <-. reflexivity.
Qed.
Print Assumptions C61_gif_only.

(* PPM, binary or text: the same, or the error if there are more than 256 different colours *)
Theorem C61_ppm : forall f text cs, bytes f -> ppm_map_file f text cs -> Forall colour cs ->
  read_color_map f = if Z.of_nat (length (first_seen cs)) <=? 256 then Ret (first_seen cs) else Error JERR_OTHER.
Proof.
  intros f text cs B (l & body & w & h & -> & N & W & H & Lc & Body) C. cbn [app read_color_map Z.eqb Pos.eqb]. unfold read_ppm_map.
  inversion N as [|? ? l1 ? ? N1 H1]; subst. inversion H1 as [|? ? l2 ? ? N2 H2]; subst. inversion H2 as [|? ? l3 ? ? N3 H3]; subst. inversion H3; subst.
  rewrite (proj1 (number_ok _ _ _ N1)). cbn [bind]. rewrite (proj1 (number_ok _ _ _ N2)). cbn [bind]. rewrite (proj1 (number_ok _ _ _ N3)). cbn [bind].
  destruct (Z.leb_spec w 0); [lia|]. destruct (Z.leb_spec h 0); [lia|]. cbn [orb Z.leb Z.compare Z.eqb Pos.eqb negb]. rewrite <- Lc, Nat2Z.id. rewrite <- (adds_seen cs C).
  destruct text; cbn [Z.eqb Pos.eqb].
  - destruct Body as (rest & Nb). apply (text_ok _ _ _ _ C Nb).
  - destruct Body as (rest & ->). apply raw_ok.
Qed.
Print Assumptions C61_ppm.

(* ---- the hypotheses can be met ---- *)
Definition gif1 : list Z := [71; 73; 70; 56; 57; 97; 1; 0; 1; 0; 129; 0; 0; 1; 2; 3; 255; 0; 9; 1; 2; 3; 4; 4; 4; 44].
Example C61_gif_ex : gif_map_file gif1 [(1, 2, 3); (255, 0, 9); (1, 2, 3); (4, 4, 4)] /\ bytes gif1 /\ read_color_map gif1 = Ret [(1, 2, 3); (255, 0, 9); (4, 4, 4)].
Proof.
  split; [|split; [|vm_compute; reflexivity]].
  - exists [56; 57; 97; 1; 0; 1; 0], 129, [0; 0], [44]. split; [reflexivity|]. split; [reflexivity|]. split; [reflexivity|]. split; [lia|reflexivity].
  - unfold bytes, gif1. repeat (constructor; [lia|]). constructor.
Qed.
(* "P3 #x<newline>1 2 255<newline>7 0 255 7 0 255" *)
Definition ppm1 : list Z := [80; 51; 32; 35; 120; 10; 49; 32; 50; 32; 50; 53; 53; 10; 55; 32; 48; 32; 50; 53; 53; 32; 55; 32; 48; 32; 50; 53; 53].
Lemma one : forall g ds e rest v, gap g -> digits ds -> ending e rest -> v = value 0 ds -> v < 2 ^ 32 -> number (g ++ ds ++ e ++ rest) v rest.
Proof. intros g ds e rest v G D E V L. exists g, ds, e. split; [reflexivity|]. split; [exact G|]. split; [exact D|]. split; [exact E|]. split; assumption. Qed.
Ltac dig := split; [discriminate|]; repeat (constructor; [lia|]); constructor.
Lemma sp : forall rest, ending [32] rest. Proof. intros rest. apply end_char; lia. Qed.
Example C61_ppm_ex : ppm_map_file ppm1 true [(7, 0, 255); (7, 0, 255)] /\ bytes ppm1 /\ read_color_map ppm1 = Ret [(7, 0, 255)].
Proof.
  split; [|split; [|vm_compute; reflexivity]].
  - exists [32; 35; 120; 10; 49; 32; 50; 32; 50; 53; 53; 10; 55; 32; 48; 32; 50; 53; 53; 32; 55; 32; 48; 32; 50; 53; 53], [55; 32; 48; 32; 50; 53; 53; 32; 55; 32; 48; 32; 50; 53; 53], 1, 2.
    split; [reflexivity|]. split; [|split; [lia|split; [lia|split; [reflexivity|]]]].
    + eapply numbers_cons. { apply (one [32; 35; 120; 10] [49] [32] [50; 32; 50; 53; 53; 10; 55; 32; 48; 32; 50; 53; 53; 32; 55; 32; 48; 32; 50; 53; 53]); [|dig|apply sp|reflexivity|lia]. apply gap_space; [left; reflexivity|]. apply (gap_comment [120] []); [intros [X|[]]; lia|constructor]. }
      eapply numbers_cons. { apply (one [] [50] [32] [50; 53; 53; 10; 55; 32; 48; 32; 50; 53; 53; 32; 55; 32; 48; 32; 50; 53; 53]); [constructor|dig|apply sp|reflexivity|lia]. }
      eapply numbers_cons. { apply (one [] [50; 53; 53] [10] [55; 32; 48; 32; 50; 53; 53; 32; 55; 32; 48; 32; 50; 53; 53]); [constructor|dig|apply end_char; lia|reflexivity|lia]. }
      constructor.
    + exists []. cbn [rgb_bytes flat_map app].
      eapply numbers_cons. { apply (one [] [55] [32] [48; 32; 50; 53; 53; 32; 55; 32; 48; 32; 50; 53; 53]); [constructor|dig|apply sp|reflexivity|lia]. }
      eapply numbers_cons. { apply (one [] [48] [32] [50; 53; 53; 32; 55; 32; 48; 32; 50; 53; 53]); [constructor|dig|apply sp|reflexivity|lia]. }
      eapply numbers_cons. { apply (one [] [50; 53; 53] [32] [55; 32; 48; 32; 50; 53; 53]); [constructor|dig|apply sp|reflexivity|lia]. }
      eapply numbers_cons. { apply (one [] [55] [32] [48; 32; 50; 53; 53]); [constructor|dig|apply sp|reflexivity|lia]. }
      eapply numbers_cons. { apply (one [] [48] [32] [50; 53; 53]); [constructor|dig|apply sp|reflexivity|lia]. }
      eapply numbers_cons. { apply (one [] [50; 53; 53] [] []); [constructor|dig|constructor|reflexivity|lia]. }
      constructor.
  - unfold bytes, ppm1. repeat (constructor; [lia|]). constructor.
Qed.
(* the 257 colours of a 1 x 257 binary file are refused *)
Example C61_ppm_many_ex : read_color_map ([80; 54; 32; 49; 32; 50; 53; 55; 32; 50; 53; 53; 10] ++ flat_map (fun i => [Z.of_nat i; 0; 0]) (seq 0 256) ++ [0; 1; 0]) = Error JERR_OTHER /\
  (exists m, read_color_map ([80; 54; 32; 49; 32; 50; 53; 55; 32; 50; 53; 53; 10] ++ flat_map (fun i => [Z.of_nat i; 0; 0]) (seq 0 256) ++ [0; 0; 0]) = Ret m /\ length m = 256%nat).
Proof. split; [vm_compute; reflexivity|]. eexists. split; vm_compute; reflexivity. Qed.

(* finding: the numbers of a text file are not compared with the 255 of its header: 256 is
   stored as 0, so the map holds values the file does not and the same colour twice.
   "P3 1 2 255 256 0 0 256 0 0" *)
Example C61_text_refuted : read_color_map [80; 51; 32; 49; 32; 50; 32; 50; 53; 53; 32; 50; 53; 54; 32; 48; 32; 48; 32; 50; 53; 54; 32; 48; 32; 48] = Ret [(0, 0, 0); (0, 0, 0)].
Proof. vm_compute. reflexivity. Qed.
