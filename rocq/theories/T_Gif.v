(* T_Gif.v -- C50: what the GIF writer writes, the GIF reader reads back *)
From Verif Require Import Base M_Gif S_Gif P_GifBits P_GifHdr.

(* every uninitialised array the C code allocates *)
Definition work_areas (hashj : list Z) (cmj : list (Z * Z * Z)) (bufj headj tailj : list Z) : Prop :=
  length hashj = Z.to_nat 5003 /\ length cmj = Z.to_nat 256 /\ length bufj = 260%nat /\ Forall isbyte bufj /\
  length headj = Z.to_nat 4096 /\ length tailj = Z.to_nat 4096.

(* C50: whatever the palette, the image, the compression mode and the contents of uninitialised memory, the file
   written is read back without a warning, with the same size, and with every pixel showing its palette colour *)
Theorem C50_round_trip : forall lzw w h nc m rows hashj cmj bufj headj tailj,
  good_palette m nc -> good_image w h nc rows -> work_areas hashj cmj bufj headj tailj ->
  exists file, gif_write lzw w h nc m hashj rows = Ret file /\
    gif_read file cmj bufj headj tailj = Ret (w, h, all_grey m nc, map (shown m nc) rows, []).
Proof.
  intros lzw w h nc m rows hashj cmj bufj headj tailj HP HI (J1 & J2 & J3 & J4 & J5 & J6).
  destruct (gif_write_ok lzw w h nc m hashj rows HP HI J1) as (out & E & HC & HN). eexists. split; [exact E|].
  destruct HI as (Hw & Hh & HL & HF). destruct (gics_ok nc (proj1 HP)) as (G1 & _).
  destruct (start_ok w h nc m (out ++ [0; 59]) cmj HP Hw Hh J2) as (hd & S1 & S2 & S3 & S4 & S5 & S6 & S7 & S8 & S9 & S10).
  unfold gif_read. rewrite S1. cbn [bind]. rewrite S8.
  destruct (coded_ready (gics nc) _ out bufj headj tailj G1 HC HN J3 J4 J5 J6) as (b & E0 & R0). rewrite E0. cbn [bind]. rewrite S4.
  rewrite <- S5 in R0. replace (Z.to_nat (h_h hd)) with (length rows) by lia.
  destruct (get_rows_ok m nc w hd (proj1 HP) S2 ltac:(lia) S9 S6 S10 rows b _ HF R0) as (b' & E1 & W1). rewrite E1. cbn [bind].
  rewrite W1, S2, S3, S6, S7. reflexivity.
Qed.
Print Assumptions C50_round_trip.

(* C50: below the palette, the LZW decoder delivers the very indices that were written *)
Theorem C50_indices : forall lzw w h nc m rows hashj cmj bufj headj tailj,
  good_palette m nc -> good_image w h nc rows -> work_areas hashj cmj bufj headj tailj ->
  exists file hd b0 b1 z1, gif_write lzw w h nc m hashj rows = Ret file /\
    start_input_gif file cmj = Ret hd /\ init_grd (h_rest hd) bufj = Ret b0 /\
    read_bytes (length (concat rows)) (h_ics hd) b0 (init_glz (h_ics hd) headj tailj) = Ret (concat rows, b1, z1).
Proof.
  intros lzw w h nc m rows hashj cmj bufj headj tailj HP HI (J1 & J2 & J3 & J4 & J5 & J6).
  destruct (gif_write_ok lzw w h nc m hashj rows HP HI J1) as (out & E & HC & HN).
  destruct HI as (Hw & Hh & HL & HF). destruct (gics_ok nc (proj1 HP)) as (G1 & _).
  destruct (start_ok w h nc m (out ++ [0; 59]) cmj HP Hw Hh J2) as (hd & S1 & S2 & S3 & S4 & S5 & S6 & S7 & S8 & S9 & S10).
  destruct (coded_ready (gics nc) _ out bufj headj tailj G1 HC HN J3 J4 J5 J6) as (b & E0 & R0).
  rewrite <- (app_nil_r (concat rows)) in R0. rewrite <- S5 in R0, G1. destruct (ready_read (h_ics hd) G1 (concat rows) [] b _ R0) as (b1 & z1 & E1 & _).
  exists (ghead w h nc m ++ out ++ [0; 59]), hd, b, b1, z1. rewrite S8. auto.
Qed.
Print Assumptions C50_indices.

(* non-vacuity: an image with long repeats (codes used before they are defined), 3 colours, one of them not grey *)
Definition ex_rows : list (list Z) := [repeat 1 50; repeat 1 50; map (fun k => Z.of_nat k mod 3) (seq 0 50)].
Definition ex_cm : gcmap := CmapRGB [(1, 2, 3); (255, 0, 7); (9, 9, 9)].
Example C50_nonvacuous : good_palette ex_cm 3 /\ good_image 50 3 3 ex_rows /\
  work_areas (repeat 7 (Z.to_nat 5003)) (repeat (1, 2, 3) (Z.to_nat 256)) (repeat 99 260) (repeat (-1) (Z.to_nat 4096)) (repeat 55 (Z.to_nat 4096)) /\
  match gif_write true 50 3 3 ex_cm (repeat 7 (Z.to_nat 5003)) ex_rows, gif_write false 50 3 3 ex_cm (repeat 7 (Z.to_nat 5003)) ex_rows with
  | Ret f, Ret g => f <> g /\ (length f < length g)%nat
  | _, _ => False end.
Proof.
  split; [|split; [|split]].
  - split; [lia|]. split; [reflexivity|]. repeat constructor; lia.
  - split; [lia|]. split; [lia|]. split; [reflexivity|]. apply Forall_forall. intros row Hr.
    assert (G : forallb (fun row => (Z.of_nat (length row) =? 50) && forallb (fun i => (0 <=? i) && (i <? 3)) row) ex_rows = true) by (vm_compute; reflexivity).
    rewrite forallb_forall in G. specialize (G row Hr). apply andb_prop in G. destruct G as [G1 G2]. apply Z.eqb_eq in G1. split; [exact G1|].
    apply Forall_forall. intros i Hi. rewrite forallb_forall in G2. specialize (G2 i Hi). apply andb_prop in G2. lia.
  - split; [apply repeat_length|]. split; [apply repeat_length|]. split; [apply repeat_length|]. split; [|split; apply repeat_length].
    apply Forall_forall. intros y Hy. apply repeat_spec in Hy. subst. unfold isbyte. lia.
  - vm_compute. split; [discriminate|]. repeat constructor.
Qed.

(* FINDING: ReadColorMap sets in_color_space to JCS_GRAYSCALE for a grey table and never resets it, so a file
   whose global table is grey and whose local table is not is delivered as greyscale: the red pixel (200,10,10)
   of this 1x1 file comes out as the single sample 200. *)
Definition two_tables : list Z :=
  [71; 73; 70; 56; 55; 97; 1; 0; 1; 0; 128; 0; 0;  0; 0; 0; 255; 255; 255;
   44; 0; 0; 0; 0; 1; 0; 1; 0; 128;  200; 10; 10; 0; 0; 0;  2;  2; 68; 1; 0; 59].
Example C50_local_table_refuted :
  gif_read two_tables (repeat (0, 0, 0) 256) (repeat 0 260) (repeat 0 (Z.to_nat 4096)) (repeat 0 (Z.to_nat 4096)) = Ret (1, 1, true, [[200]], []).
Proof. vm_compute. reflexivity. Qed.
