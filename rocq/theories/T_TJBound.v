(* T_TJBound.v -- C49: the JPEG buffer bound is not a bound for every coefficient image. *)
From Verif Require Import Base M_HuffTbl M_HuffEnc S_Huff S_Block T_HuffTbl T_HuffEnc M_TJBuf.

(* a grayscale 56 x 32 image: 28 blocks, every AC coefficient of the largest legal magnitude *)
Definition big_blk : list Z := 0 :: repeat 1023 63.
Definition big_scan : list (list ublk) := repeat [mkUB 0 k3_dc_lum k5_ac_lum big_blk] 28.

(* Defect: a legal coefficient image (what a lossless transform writes), coded with the standard
   tables, needs more bytes for its entropy-coded data alone than tj3JPEGBufSize promises. *)
Theorem C49_jpeg_bound_refuted : exists d' n,
  scan_ok 10 1 big_scan /\
  encode_scan 10 0 1 (map (map ex_prep) big_scan) (mkDest [] 20000 [] false) = Ret (Some d') /\
  tj3JPEGBufSize 56 32 TJSAMP_GRAY = Ret n /\ n < Z.of_nat (length (dout d')).
Proof.
  assert (E : match encode_scan 10 0 1 (map (map ex_prep) big_scan) (mkDest [] 20000 [] false) with
              | Ret (Some d') => 5632 <? Z.of_nat (length (dout d')) | _ => false end = true) by (vm_compute; reflexivity).
  destruct (encode_scan _ _ _ _ _) as [[d'|]| |]; try discriminate. exists d', 5632. split; [|split; [reflexivity|split; [reflexivity|]]].
  - unfold scan_ok, big_scan. apply Forall_forall. intros x Hx. apply repeat_spec in Hx. subst x. constructor; [|constructor].
    cbn [u_ci u_coef]. split; [lia|]. unfold big_blk. split; [reflexivity|]. cbn [nth tl]. split; [lia|].
    apply Forall_forall. intros x Hx. apply repeat_spec in Hx. subst x. cbn. lia.
  - now apply Z.ltb_lt.
Qed.
Print Assumptions C49_jpeg_bound_refuted.
