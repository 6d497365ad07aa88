(* M_Script.v -- scan scripts: validation (jcmaster.c:268-443 validate_script) and the built-in
   progressive script (jcparam.c:657-722, 856-1010) *)
From Verif Require Import Base S_Script.

(* jpeglib.h:232-237 jpeg_scan_info; component_index is an array of MAX_COMPS_IN_SCAN = 4 ints *)
Record scan_info := mkSI { si_n : Z; si_idx : list Z; si_Ss : Z; si_Se : Z; si_Ah : Z; si_Al : Z }.

(* jcmaster.c:341-351: component indexes of one scan *)
Definition check_indexes (nc : Z) (s : scan_info) : outcome unit :=
  if (si_n s <=? 0) || (4 <? si_n s) then Error JERR_COMPONENT_COUNT else
  for_loop (Z.to_nat (si_n s)) 0
    (fun ci _ =>
       thisi <- aget (si_idx s) ci ;;
       if (thisi <? 0) || (nc <=? thisi) then Error JERR_BAD_SCAN_SCRIPT
       else if 0 <? ci then
              prev <- aget (si_idx s) (ci - 1) ;;
              if thisi <=? prev then Error JERR_BAD_SCAN_SCRIPT else Ret tt
            else Ret tt) tt.

(* jcmaster.c:387-398: the coefficient loop, on the row last_bitpos[component] *)
Definition check_coefs (s : scan_info) (row : list Z) : outcome (list Z) :=
  for_loop (Z.to_nat (si_Se s - si_Ss s + 1)) (si_Ss s)
    (fun coefi row =>
       lb <- aget row coefi ;;
       if lb <? 0 then
         if negb (si_Ah s =? 0) then Error JERR_BAD_PROG_SCRIPT else aset row coefi (si_Al s)
       else
         if negb (si_Ah s =? lb) || negb (si_Al s =? si_Ah s - 1) then Error JERR_BAD_PROG_SCRIPT
         else aset row coefi (si_Al s)) row.

(* jcmaster.c:357-400: one scan of a progressive script; lb = last_bitpos *)
Definition check_progressive (prec : Z) (s : scan_info) (lb : list (list Z)) : outcome (list (list Z)) :=
  let m := if prec =? 12 then 13 else 10 in
  if (si_Ss s <? 0) || (64 <=? si_Ss s) || (si_Se s <? si_Ss s) || (64 <=? si_Se s) ||
     (si_Ah s <? 0) || (m <? si_Ah s) || (si_Al s <? 0) || (m <? si_Al s)
  then Error JERR_BAD_PROG_SCRIPT
  else if (if si_Ss s =? 0 then negb (si_Se s =? 0) else negb (si_n s =? 1))
  then Error JERR_BAD_PROG_SCRIPT
  else
    for_loop (Z.to_nat (si_n s)) 0
      (fun ci lb =>
         thisi <- aget (si_idx s) ci ;;
         row <- aget lb thisi ;;
         dc <- aget row 0 ;;
         if negb (si_Ss s =? 0) && (dc <? 0) then Error JERR_BAD_PROG_SCRIPT
         else row' <- check_coefs s row ;; aset lb thisi row') lb.

(* jcmaster.c:402-428: one scan of a sequential or lossless script; sent = component_sent *)
Definition check_plain (lossless : bool) (prec : Z) (s : scan_info) (sent : list bool) : outcome (list bool) :=
  if (if lossless
      then (si_Ss s <? 1) || (7 <? si_Ss s) || negb (si_Se s =? 0) || negb (si_Ah s =? 0) ||
           (si_Al s <? 0) || (prec <=? si_Al s)
      else negb (si_Ss s =? 0) || negb (si_Se s =? 63) || negb (si_Ah s =? 0) || negb (si_Al s =? 0))
  then Error JERR_BAD_PROG_SCRIPT
  else
    for_loop (Z.to_nat (si_n s)) 0
      (fun ci sent =>
         thisi <- aget (si_idx s) ci ;;
         b <- aget sent thisi ;;
         if (b : bool) then Error JERR_BAD_SCAN_SCRIPT else aset sent thisi true) sent.

(* jcmaster.c:338-429: the loop over the scans *)
Fixpoint progressive_loop (nc prec : Z) (l : list scan_info) (lb : list (list Z)) : outcome (list (list Z)) :=
  match l with
  | [] => Ret lb
  | s :: r => _ <- check_indexes nc s ;; lb' <- check_progressive prec s lb ;; progressive_loop nc prec r lb'
  end.
Fixpoint plain_loop (lossless : bool) (nc prec : Z) (l : list scan_info) (sent : list bool) : outcome (list bool) :=
  match l with
  | [] => Ret sent
  | s :: r => _ <- check_indexes nc s ;; sent' <- check_plain lossless prec s sent ;;
              plain_loop lossless nc prec r sent'
  end.

(* jcmaster.c:268-443 validate_script, with optimize_scans = FALSE and all features compiled in.
   The local arrays last_bitpos and component_sent have MAX_COMPONENTS = 10 rows; num_components is
   not checked before they are filled, so more is undefined behaviour.  The result is the mode
   recorded in progressive_mode / master->lossless.  num_scans = length of the list. *)
Definition validate_script (nc prec : Z) (script : list scan_info) : outcome mode :=
  match script with
  | [] => Error JERR_BAD_SCAN_SCRIPT
  | s0 :: _ =>
    if 10 <? nc then Undef else
    if negb (si_Ss s0 =? 0) && (si_Se s0 =? 0) then
      sent <- plain_loop true nc prec script (repeat false (Z.to_nat nc)) ;;
      (if forallb id sent then Ret Lossless else Error JERR_MISSING_DATA)
    else if negb (si_Ss s0 =? 0) || negb (si_Se s0 =? 63) then
      lb <- progressive_loop nc prec script (repeat (repeat (-1) 64) (Z.to_nat nc)) ;;
      (if forallb (fun row => 0 <=? nth 0 row (-1)) lb then Ret Progressive else Error JERR_MISSING_DATA)
    else
      sent <- plain_loop false nc prec script (repeat false (Z.to_nat nc)) ;;
      (if forallb id sent then Ret Sequential else Error JERR_MISSING_DATA)
  end.

(* jcmaster.c:470-497 select_scan_parameters, script case, optimize_scans = FALSE: the scan's Al is
   stored in master->actual_Al[scan_number] (jcmaster.h:38, 64 entries) *)
Definition select_scan_store (script : list scan_info) (actual_Al : list Z) (scan_number : Z)
  : outcome (list Z) :=
  s <- aget script scan_number ;; aset actual_Al scan_number (si_Al s).

(* ---- the built-in script ---- *)
(* a component_index array whose first entries are l (the rest is old memory, shown as 0) *)
Definition idx4 (l : list Z) : list Z := firstn 4 (l ++ repeat 0 4).
(* jcparam.c:659-671 fill_a_scan *)
Definition fill_a_scan (ci Ss Se Ah Al : Z) : list scan_info := [mkSI 1 (idx4 [ci]) Ss Se Ah Al].
(* jcparam.c:673-687 fill_a_scan_pair *)
Definition fill_a_scan_pair (ci Ss Se Ah Al : Z) : list scan_info := [mkSI 2 (idx4 [ci; ci + 1]) Ss Se Ah Al].
(* jcparam.c:689-704 fill_scans *)
Definition fill_scans (ncomps : nat) (Ss Se Ah Al : Z) : list scan_info :=
  flat_map (fun ci => fill_a_scan (Z.of_nat ci) Ss Se Ah Al) (seq 0 ncomps).
(* jcparam.c:706-727 fill_dc_scans *)
Definition fill_dc_scans (ncomps : nat) (Ah Al : Z) : list scan_info :=
  if (ncomps <=? 4)%nat
  then [mkSI (Z.of_nat ncomps) (idx4 (map Z.of_nat (seq 0 ncomps))) 0 0 Ah Al]
  else fill_scans ncomps 0 0 Ah Al.

(* jcparam.c:882-912: space reserved *)
Definition simple_nscans (ncomps : nat) (ycc max_compression : bool) (dcmode : Z) : nat :=
  if (ncomps =? 3)%nat && ycc then
    if max_compression then
      if dcmode =? 0 then 9 else if dcmode =? 1 then 11 else 10
    else 10
  else if max_compression then
    if (4 <? ncomps)%nat then 5 * ncomps else 1 + 4 * ncomps
  else if (4 <? ncomps)%nat then 6 * ncomps else 2 + 4 * ncomps.

(* jcparam.c:929-1004: jpeg_simple_progression (optimize_scans off, or not applicable), script body *)
Definition simple_progression (ncomps : nat) (ycc max_compression : bool) (dcmode : Z) : list scan_info :=
  if (ncomps =? 3)%nat && ycc then
    if max_compression then
      (if dcmode =? 0 then fill_dc_scans ncomps 0 0
       else if dcmode =? 1 then fill_a_scan 0 0 0 0 0 ++ fill_a_scan 1 0 0 0 0 ++ fill_a_scan 2 0 0 0 0
       else fill_dc_scans 1 0 0 ++ fill_a_scan_pair 1 0 0 0 0) ++
      fill_a_scan 0 1 8 0 2 ++ fill_a_scan 1 1 8 0 0 ++ fill_a_scan 2 1 8 0 0 ++
      fill_a_scan 0 9 63 0 2 ++ fill_a_scan 0 1 63 2 1 ++ fill_a_scan 0 1 63 1 0 ++
      fill_a_scan 1 9 63 0 0 ++ fill_a_scan 2 9 63 0 0
    else
      fill_dc_scans ncomps 0 1 ++ fill_a_scan 0 1 5 0 2 ++ fill_a_scan 2 1 63 0 1 ++
      fill_a_scan 1 1 63 0 1 ++ fill_a_scan 0 6 63 0 2 ++ fill_a_scan 0 1 63 2 1 ++
      fill_dc_scans ncomps 1 0 ++ fill_a_scan 2 1 63 1 0 ++ fill_a_scan 1 1 63 1 0 ++
      fill_a_scan 0 1 63 1 0
  else if max_compression then
    fill_dc_scans ncomps 0 0 ++ fill_scans ncomps 1 8 0 2 ++ fill_scans ncomps 9 63 0 2 ++
    fill_scans ncomps 1 63 2 1 ++ fill_scans ncomps 1 63 1 0
  else
    fill_dc_scans ncomps 0 1 ++ fill_scans ncomps 1 5 0 2 ++ fill_scans ncomps 6 63 0 2 ++
    fill_scans ncomps 1 63 2 1 ++ fill_dc_scans ncomps 1 0 ++ fill_scans ncomps 1 63 1 0.
