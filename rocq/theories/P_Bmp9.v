(* P_Bmp9.v -- proofs about the BMP writer: its files are well formed *)
From Verif Require Import Base M_Pnm S_Pnm P_Pnm P_Pnm2 P_Pnm3 P_Pnm4 M_Bmp S_Bmp P_Bmp P_Bmp2 P_Bmp3 P_Bmp4 P_Bmp5 P_Bmp6 P_Bmp7 P_Bmp8.

Lemma put2_bytes : forall v, bytes (put2 v).
Proof. intros v. unfold put2, bytes. repeat (constructor; [apply land255|]). constructor. Qed.
Lemma put4_bytes : forall v, bytes (put4 v).
Proof. intros v. unfold put4, bytes. repeat (constructor; [apply land255|]). constructor. Qed.
Lemma zeros_bytes : forall n, bytes (repeat 0 n).
Proof. intros n. unfold bytes. apply Forall_forall. intros x Hx. apply repeat_spec in Hx. lia. Qed.
Lemma bytes_app : forall a b, bytes a -> bytes b -> bytes (a ++ b).
Proof. intros a b Ha Hb. unfold bytes. apply Forall_app. split; assumption. Qed.
Lemma hdr_bytes : forall p, bytes (hdr p).
Proof.
  intros p. assert (Z8 : bytes [0; 0; 0; 0; 0; 0; 0; 0]) by exact (zeros_bytes 8). assert (Z4 : bytes [0; 0; 0; 0]) by exact (zeros_bytes 4). assert (Z2 : bytes [0; 0]) by exact (zeros_bytes 2).
  assert (BM : bytes [66; 77]) by (unfold bytes; repeat (constructor; [lia|]); constructor).
  unfold hdr. apply bytes_app; [apply bytes_app; [exact BM|]; apply bytes_app; [apply put4_bytes|]; apply bytes_app; [exact Z4|apply put4_bytes]|].
  destruct (w_os2 p).
  - repeat (apply bytes_app; [first [exact Z2 | apply put2_bytes]|]). apply put2_bytes.
  - apply bytes_app; [apply put2_bytes|]. apply bytes_app; [exact Z2|]. apply bytes_app; [apply put4_bytes|]. apply bytes_app; [apply put4_bytes|]. apply bytes_app; [apply put2_bytes|]. apply bytes_app; [apply put2_bytes|].
    apply bytes_app; [exact Z4|]. apply bytes_app; [exact Z4|]. apply bytes_app; [|apply bytes_app; [apply put2_bytes|apply bytes_app; [exact Z2|exact Z4]]].
    destruct (w_dens p) as [[x y]|]; [apply bytes_app; apply put4_bytes|exact Z8].
Qed.
Lemma cmb_bytes : forall p rows, writable p rows -> bytes (cmb p).
Proof.
  intros p rows H. unfold cmb. destruct (full_color p); [constructor|]. unfold bytes. apply Forall_forall. intros x Hx. apply in_flat_map in Hx. destruct Hx as ([[r g] b] & E & Hx).
  assert (R : 0 <= r <= 255 /\ 0 <= g <= 255 /\ 0 <= b <= 255).
  { unfold wpal in E. cbv zeta in E. apply in_app_iff in E. destruct E as [E|E]; [|apply repeat_spec in E; injection E; lia].
    destruct H as (_ & _ & _ & _ & _ & H & _). destruct (w_map p) as [m|].
    - destruct H as (_ & H). rewrite Forall_forall in H. exact (H _ E).
    - apply in_map_iff in E. destruct E as (i & E & Hi). apply in_seq in Hi. injection E; lia. }
  unfold cmap_entry in Hx. destruct (esz p =? 4); cbn [In] in Hx; lia.
Qed.
Lemma ofile_bytes : forall p rows inv, writable p rows -> bytes (ofile p rows inv).
Proof.
  intros p rows inv H. unfold ofile. apply bytes_app; [apply hdr_bytes|]. apply bytes_app; [exact (cmb_bytes p rows H)|]. unfold bytes. apply Forall_forall. intros x Hx. apply in_flat_map in Hx. destruct Hx as (r & Hr & Hx).
  assert (B : bytes (rowb p r)) by (apply rowb_bytes, (in_bytes p rows H); destruct inv; [apply in_rev; exact Hr|exact Hr]). unfold bytes in B. rewrite Forall_forall in B. apply B, Hx.
Qed.
Lemma ofile_ok : forall p rows inv, writable p rows -> bmp_file (ofile p rows inv).
Proof.
  intros p rows inv H. unfold bmp_file. pose proof (ofile_bytes p rows inv H) as BB. split; [exact BB|].
  assert (B0 : byte (ofile p rows inv) 0 = 66 /\ byte (ofile p rows inv) 1 = 77) by (split; reflexivity). destruct B0 as (B0 & B1). split; [exact B0|]. split; [exact B1|]. clear B0 B1.
  pose proof (ofile_len p rows H inv) as FL. pose proof (orw_pos p rows H) as (OP & OW). destruct (w_dims p rows H) as (DW & DH). pose proof (hsz_range p) as HR.
  unfold ofile in *. set (X := cmb p ++ _) in *.
  rewrite (F_hsize p), (F_bpp p), (F_planes p), (F_comp p), (F_width p rows H), (F_height p rows H), (F_colors p), (F_offset p), (F_rowbytes p rows H).
  change (2 ^ 31) with 2147483648.
  assert (BP : bppv p = 8 \/ bppv p = 24) by (unfold bppv; destruct (full_color p); auto).
  split; [destruct (w_os2 p); auto|]. split; [tauto|]. split; [reflexivity|]. split; [reflexivity|]. split; [lia|]. split; [lia|]. split; [lia|].
  split.
  { split; [|lia]. unfold f_esize. rewrite (F_bpp p), (F_old p). unfold hsz, ent, esz, bppv. destruct (full_color p), (w_os2 p); cbn; lia. }
  split; [lia|]. intros E8 y i Hy Hi. pose proof (byte_range (hdr p ++ X) (hsz p + y * out_row_width p + i) BB). lia.
Qed.
Lemma f_dens_w : forall p rows inv x y, writable p rows -> w_os2 p = false -> w_dens p = Some (x, y) -> 1 <= x -> 1 <= y -> f_dens (ofile p rows inv) = Some (x, y).
Proof.
  intros p rows inv x y H O D Hx Hy. unfold f_dens, ofile. rewrite F_old, O, (F_xppm p rows H _ O), (F_yppm p rows H _ O), D.
  destruct H as (_ & _ & _ & _ & _ & _ & R). rewrite D in R. unfold densv. rewrite !s32_small by (change (2 ^ 31) with 2147483648; lia).
  destruct (Z.ltb_spec 0 (x * 100)); [|lia]. destruct (Z.ltb_spec 0 (y * 100)); [|lia]. cbn [andb]. rewrite !Z.quot_mul by lia. unfold u16. change (2 ^ 16) with 65536. rewrite !Z.mod_small by lia. reflexivity.
Qed.
Lemma orow_nth : forall p rows (inv : bool) y, writable p rows -> 0 <= y < w_h p -> orow rows inv (Z.to_nat y) = nth (Z.to_nat (if inv then w_h p - 1 - y else y)) rows [].
Proof.
  intros p rows inv y H Hy. pose proof H as (_ & _ & _ & L & _). unfold orow. destruct inv; [|reflexivity]. rewrite rev_nth by lia. f_equal. lia.
Qed.
