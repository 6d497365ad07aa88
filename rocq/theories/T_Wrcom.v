(* T_Wrcom.v -- C51: wrjpgcom inserts a comment and changes nothing else; rdjpgcom reads it back *)
From Verif Require Import Base M_Wrcom S_Wrcom P_Wrcom.

(* wrjpgcom on a well-formed file: the file with the comment segment added right before the frame header.
   With -replace (keep = false) the comments that were there are dropped. *)
Theorem C51_insert : forall keep text f, good_file f -> Forall byte text -> Z.of_nat (length text) <= 65000 ->
  wrjpgcom keep text (file_bytes f) = Ret (file_bytes (add_comment (negb keep) text f)).
Proof.
  intros keep text f G HT HL. unfold wrjpgcom, MAX_COM_LENGTH. destruct (Z.ltb_spec 65000 (Z.of_nat (length text))); [lia|]. unfold file_bytes at 1. cbn [app first_marker Z.eqb Pos.eqb negb orb bind].
  rewrite (scan_file keep f G).
  2:{ rewrite !app_length. pose proof (segs_len (jf_segs f)). lia. }
  cbn [bind]. f_equal. unfold file_bytes, add_comment. cbn [jf_segs jf_junk jf_fill jf_stop jf_rest]. unfold write_marker at 1. f_equal. rewrite flat_map_app, <- app_assoc. f_equal.
  unfold lead. cbn [repeat app]. destruct text as [|a t]; [reflexivity|]. destruct (Z.ltb_spec 0 (Z.of_nat (length (a :: t)))) as [_|E]; [|cbn [length] in E; lia].
  rewrite write2_eq by lia. cbn [flat_map seg_bytes sg_junk sg_fill sg_code sg_data lead repeat app]. rewrite app_nil_r. reflexivity.
Qed.

(* the same with bytes: when the file has no stray or fill bytes between markers, the bytes before the frame header and
   from it on are unchanged, and exactly FF FE <length> <text> is put between them *)
Theorem C51_bytes : forall text f, good_file f -> tidy f -> Forall byte text -> Z.of_nat (length text) <= 65000 -> text <> [] ->
  exists before after, file_bytes f = before ++ after /\
    after = [255; jf_stop f] ++ jf_rest f /\
    wrjpgcom true text (file_bytes f) = Ret (before ++ [255; 254; (Z.of_nat (length text) + 2) / 256; (Z.of_nat (length text) + 2) mod 256] ++ text ++ after).
Proof.
  intros text f G (T1 & T2 & T3) HT HL NE. exists ([255; 216] ++ flat_map seg_bytes (jf_segs f)), ([255; jf_stop f] ++ jf_rest f).
  split; [|split; [reflexivity|]].
  - unfold file_bytes. rewrite T1, T2, <- app_assoc. reflexivity.
  - rewrite C51_insert by assumption. cbn [negb]. f_equal. unfold file_bytes, add_comment. cbn [jf_segs jf_junk jf_fill jf_stop jf_rest andb negb].
    rewrite flat_map_app, <- !app_assoc. f_equal. f_equal.
    + assert (E : filter (fun _ : segment => true) (jf_segs f) = jf_segs f) by (clear; induction (jf_segs f) as [|s l IH]; [reflexivity|cbn [filter]; rewrite IH; reflexivity]).
      rewrite E. clear -T3. induction T3 as [|[j fl c d] l [H1 H2] _ IH]; [reflexivity|]. cbn in H1, H2. subst. cbn [map flat_map]. rewrite IH. reflexivity.
    + destruct text as [|a t]; [congruence|]. cbn [flat_map seg_bytes sg_junk sg_fill sg_code sg_data lead repeat app]. rewrite app_nil_r, <- ?app_assoc. reflexivity.
Qed.

(* every file of bytes: either it has that form or it is refused; the program never reads beyond its input *)
Theorem C51_any_file : forall keep text file, Forall byte file ->
  (exists e, wrjpgcom keep text file = Error e) \/
  (exists f, good_file f /\ file = file_bytes f /\ Z.of_nat (length text) <= 65000).
Proof.
  intros keep text file HF. unfold wrjpgcom, MAX_COM_LENGTH. destruct (Z.ltb_spec 65000 (Z.of_nat (length text))); [left; eauto|].
  destruct file as [|c1 [|c2 r]]; cbn [first_marker bind]; [left; eauto|left; eauto|].
  destruct (Z.eqb_spec c1 255) as [->|]; cbn [negb orb bind]; [|left; eauto]. destruct (Z.eqb_spec c2 216) as [->|]; cbn [negb orb bind]; [|left; eauto].
  destruct (scan_inv keep (S (length r)) r (Forall_inv_tail (Forall_inv_tail HF)) ltac:(lia)) as [(f & G & ->)|(e & ->)]; [|left; cbn [bind]; eauto].
  right. exists f. split; [exact G|]. split; [reflexivity|lia].
Qed.

(* rdjpgcom on the new file: the earlier comments (none of them with -replace), then the new one, then what it shows for
   the part of the file from the frame header on, which does not depend on what precedes it. *)
Theorem C51_read_back : forall raw isprint keep text f, good_file f -> Forall byte text -> Z.of_nat (length text) <= 65000 -> text <> [] ->
  exists newfile, wrjpgcom keep text (file_bytes f) = Ret newfile /\
    let shown := fun t => show_com raw isprint 0 t ++ [10] in
    let old := if keep then comments f else [] in
    match rdjpgcom raw isprint ([255; 216] ++ [255; jf_stop f] ++ jf_rest f) with
    | Ret after =>
        rdjpgcom raw isprint (file_bytes f) = Ret (flat_map shown (comments f) ++ after) /\
        rdjpgcom raw isprint newfile = Ret (flat_map shown (old ++ [text]) ++ after)
    | Error e => rdjpgcom raw isprint (file_bytes f) = Error e /\ rdjpgcom raw isprint newfile = Error e
    | Undef => False
    end.
Proof.
  intros raw isp keep text f G HT HL NE. exists (file_bytes (add_comment (negb keep) text f)). split; [apply C51_insert; assumption|]. cbv zeta.
  assert (KEY : forall f', good_file f' -> rdjpgcom raw isp (file_bytes f') =
     (t' <- rdjpgcom raw isp ([255; 216] ++ [255; jf_stop f'] ++ jf_rest f') ;; Ret (texts raw isp (jf_segs f') ++ t'))).
  { intros f' (G1 & G2 & G3 & G4). unfold rdjpgcom, file_bytes. cbn [app first_marker Z.eqb Pos.eqb negb orb bind]. rewrite (rd_segs raw isp _ _ G1) by lia.
    assert (NS : jf_stop f' <> 255). { destruct G3 as [(G3 & _)|G3]; unfold EOI in *; lia. }
    rewrite (rd_lead raw isp (jf_junk f') (jf_fill f') (jf_stop f') (jf_rest f') _ (length (255 :: jf_stop f' :: jf_rest f')) G2 NS).
    - reflexivity.
    - unfold lead. rewrite !app_length. cbn [length]. lia.
    - cbn [length]. lia. }
  rewrite (KEY _ G), (KEY _ (good_add (negb keep) text f G HT HL)). unfold add_comment. cbn [jf_segs jf_junk jf_fill jf_stop jf_rest].
  rewrite texts_app, texts_tidy. destruct text as [|a t]; [congruence|].
  assert (E : texts raw isp (filter (fun s => negb (negb keep && (sg_code s =? COM))) (jf_segs f)) ++ texts raw isp [mkSeg [] 0 COM (a :: t)] =
     flat_map (fun t0 => show_com raw isp 0 t0 ++ [10]) ((if keep then comments f else []) ++ [a :: t])).
  { rewrite flat_map_app. f_equal. destruct keep; cbn [negb]; [rewrite texts_keep; apply texts_comments|apply texts_drop]. }
  rewrite E, texts_comments. destruct (rdjpgcom raw isp ([255; 216] ++ [255; jf_stop f] ++ jf_rest f)) as [after|e|] eqn:ER; cbn [bind]; [split; reflexivity|split; reflexivity|].
  revert ER. unfold rdjpgcom. cbn [app first_marker Z.eqb Pos.eqb negb orb bind].
  assert (NU : forall fuel i, (length i < fuel)%nat -> rd_scan fuel raw isp i <> Undef); [|intros ER; revert ER; apply NU; lia].
  clear. induction fuel as [|fuel IH]; intros i H; [lia|]. cbn [rd_scan]. destruct (next_marker i) as [[m r]| |] eqn:EN; cbn [bind]; [|discriminate|].
  2:{ exfalso. revert EN. unfold next_marker. destruct (find_ff i) as [r| |] eqn:EF; cbn [bind]; [|discriminate|].
      - clear. induction r as [|c r IH]; cbn [skip_ff]; [discriminate|]. destruct (c =? 255); [exact IH|discriminate].
      - exfalso. revert EF. clear. induction i as [|c r IH]; cbn [find_ff]; [discriminate|]. destruct (negb (c =? 255)); [exact IH|discriminate]. }
  apply next_len in EN. destruct ((m =? 218) || (m =? 217)); [discriminate|].
  assert (W : forall l, wread2 l <> Undef). { intros [|x [|y l]]; discriminate. }
  destruct (m =? 254).
  - destruct (process_COM raw isp r) as [[t r2]| |] eqn:EP; cbn [bind]; [|discriminate|].
    + apply procCOM_len in EP. specialize (IH r2 ltac:(lia)). destruct (rd_scan fuel raw isp r2); cbn [bind]; congruence.
    + exfalso. revert EP. unfold process_COM. destruct (wread2 r) as [[n q]| |] eqn:EW; cbn [bind]; [|discriminate|exfalso; eapply W; exact EW]. destruct (n <? 2); [discriminate|].
      destruct (take_bytes (Z.to_nat (n - 2)) q) as [[l b]| |] eqn:ET; cbn [bind]; [discriminate|discriminate|exfalso; eapply take_undef; exact ET].
  - destruct (skip_variable r) as [r2| |] eqn:EP; cbn [bind]; [|discriminate|].
    + apply skipv_len in EP. apply IH. lia.
    + exfalso. revert EP. unfold skip_variable. destruct (wread2 r) as [[n q]| |] eqn:EW; cbn [bind]; [|discriminate|exfalso; eapply W; exact EW]. destruct (n <? 2); [discriminate|].
      destruct (take_bytes (Z.to_nat (n - 2)) q) as [[l b]| |] eqn:ET; cbn [bind]; [discriminate|discriminate|exfalso; eapply take_undef; exact ET].
Qed.

(* how a comment is shown: with -raw byte for byte; otherwise printable characters other than the backslash as they are,
   the backslash doubled, CR, LF and CR LF each as one newline, the rest as backslash and three octal digits *)
Theorem C51_shown_raw : forall isprint text, show_com true isprint 0 text = text.
Proof. intros. apply show_raw. Qed.
Theorem C51_shown_text : forall isprint text, Forall (fun c => isprint c = true /\ c <> 13 /\ c <> 10 /\ c <> 92) text -> show_com false isprint 0 text = text.
Proof. intros. apply show_plain. assumption. Qed.

Inductive shows (isprint : Z -> bool) : list Z -> list Z -> Prop :=
| sh_nil : shows isprint [] []
| sh_crlf : forall t o, shows isprint t o -> shows isprint (13 :: 10 :: t) (10 :: o)
| sh_cr : forall t o, (forall u, t <> 10 :: u) -> shows isprint t o -> shows isprint (13 :: t) (10 :: o)
| sh_lf : forall t o, shows isprint t o -> shows isprint (10 :: t) (10 :: o)
| sh_backslash : forall t o, shows isprint t o -> shows isprint (92 :: t) (92 :: 92 :: o)
| sh_print : forall c t o, c <> 13 -> c <> 10 -> c <> 92 -> isprint c = true -> shows isprint t o -> shows isprint (c :: t) (c :: o)
| sh_octal : forall c d1 d2 d3 t o, c <> 13 -> c <> 10 -> c <> 92 -> isprint c = false -> c = 64 * d1 + 8 * d2 + d3 ->
    0 <= d1 <= 3 -> 0 <= d2 <= 7 -> 0 <= d3 <= 7 -> shows isprint t o -> shows isprint (c :: t) (92 :: 48 + d1 :: 48 + d2 :: 48 + d3 :: o).
Theorem C51_shown : forall isprint text, Forall byte text -> shows isprint text (show_com false isprint 0 text).
Proof.
  intros isp text HT.
  assert (K : forall n l last, (length l <= n)%nat -> Forall byte l -> (last = 13 -> forall u, l <> 10 :: u) -> shows isp l (show_com false isp last l)).
  { induction n as [|n IH]; intros l last HL HB HN; (destruct l as [|c t]; [constructor|]); cbn [length] in HL; [lia|].
    assert (HBt := Forall_inv_tail HB). assert (HBc := Forall_inv HB). unfold byte in HBc. cbn [show_com].
    destruct (Z.eqb_spec c 13) as [->|N13].
    - cbn [app]. destruct t as [|d t].
      + apply sh_cr; [intros u; discriminate|]. constructor.
      + destruct (Z.eqb_spec d 10) as [->|N].
        * cbn [show_com Z.eqb Pos.eqb negb app]. apply sh_crlf. apply IH; [cbn [length] in HL; lia|exact (Forall_inv_tail HBt)|intros; discriminate].
        * apply sh_cr; [intros u E; inversion E; congruence|]. apply IH; [lia|exact HBt|intros _ u E; inversion E; congruence].
    - destruct (Z.eqb_spec c 10) as [->|N10].
      + destruct (Z.eqb_spec last 13) as [->|NL]; [exfalso; apply (HN eq_refl t); reflexivity|]. cbn [negb app]. apply sh_lf. apply IH; [lia|exact HBt|intros; discriminate].
      + destruct (Z.eqb_spec c 92) as [->|N92]; [cbn [app]; apply sh_backslash; apply IH; [lia|exact HBt|intros; discriminate]|].
        destruct (isp c) eqn:EP; cbn [app octal3].
        * apply sh_print; auto. apply IH; [lia|exact HBt|intros; congruence].
        * pose proof (Z.div_mod c 64). pose proof (Z.mod_pos_bound c 64). pose proof (Z.div_mod c 8). pose proof (Z.mod_pos_bound c 8). pose proof (Z.div_mod (c / 8) 8). pose proof (Z.mod_pos_bound (c / 8) 8).
          assert (E64 : c / 64 = c / 8 / 8) by (rewrite Z.div_div by lia; reflexivity).
          apply (sh_octal isp c (c / 64) ((c / 8) mod 8) (c mod 8)); auto; try lia. apply IH; [lia|exact HBt|intros; congruence]. }
  apply (K (length text)); [lia|exact HT|intros; discriminate].
Qed.

(* non-vacuity: a file with an APP0, a comment with stray and fill bytes, a DQT, then SOF0, a later comment and SOS *)
Definition ex_file := mkFile [mkSeg [] 0 224 [74;70]; mkSeg [3;7] 2 COM [104;105]; mkSeg [] 0 219 [1;255;3]] [] 1 192 [0;4;8;8; 255;254;0;3;90; 255;218;1;2;3].
Example C51_ex_good : good_file ex_file.
Proof. unfold good_file, ex_file, good_seg, SOF, SOS, EOI, COM, byte. cbn [jf_segs jf_junk jf_fill jf_stop jf_rest]. repeat (constructor; cbn [sg_junk sg_code sg_data length]); try lia; try (intros ?; lia); cbn; lia. Qed.
Example C51_ex_insert : wrjpgcom true [72;33] (file_bytes ex_file) =
  Ret [255;216; 255;224;0;4;74;70; 255;254;0;4;104;105; 255;219;0;5;1;255;3; 255;254;0;4;72;33; 255;192;0;4;8;8; 255;254;0;3;90; 255;218;1;2;3].
Proof. vm_compute. reflexivity. Qed.
Example C51_ex_replace : wrjpgcom false [72;33] (file_bytes ex_file) =
  Ret [255;216; 255;224;0;4;74;70; 255;219;0;5;1;255;3; 255;254;0;4;72;33; 255;192;0;4;8;8; 255;254;0;3;90; 255;218;1;2;3].
Proof. vm_compute. reflexivity. Qed.
Example C51_ex_read : rdjpgcom false (fun c => (32 <=? c) && (c <? 127)) (file_bytes (add_comment false [72;13;10;92;200] ex_file)) =
  Ret ([104;105;10] ++ [72;10;92;92;92;51;49;48;10] ++ [90;10]).
Proof. vm_compute. reflexivity. Qed.
(* finding: stray and fill bytes are dropped, so for such files "everything else byte-identical" does not hold literally *)
Example C51_stray_bytes_refuted : exists f, good_file f /\ wrjpgcom true [] (file_bytes f) <> Ret (file_bytes f).
Proof. exists ex_file. split; [exact C51_ex_good|]. vm_compute. discriminate. Qed.

Print Assumptions C51_insert.
Print Assumptions C51_bytes.
Print Assumptions C51_any_file.
Print Assumptions C51_read_back.
Print Assumptions C51_shown_raw.
Print Assumptions C51_shown_text.
Print Assumptions C51_shown.
