(* M_ScanOpt.v -- scan optimization (optimize_scans): trial script (jcparam.c:729-843
   jpeg_search_progression), pass sequencing (jcmaster.c:612-715 prepare_for_pass, 968-1035
   finish_pass_master, jcapimin.c:176-223 jpeg_finish_compress) and selection (jcmaster.c:738-962
   copy_buffer, select_scans), with Huffman coding (optimize_coding = TRUE is forced in progressive
   mode, jcmaster.c:1091-1093).

   The sizes of the encoded trial scans are not computed: they are a parameter.  A cost (an unsigned
   long in C) is represented by the list of scan numbers whose sizes are added up; the only thing the
   code does with costs is to compare them, so a computation is a tree whose nodes are comparisons
   "cost a < cost b".  [run sz t] is the computation with concrete sizes, added modulo 2^64.

   pass_number is kept relative to pass_number_scan_opt_base (i.e. the number here is
   pass_number - pass_number_scan_opt_base), to which the C code always refers. *)
From Verif Require Import Base S_Script M_Script.

Inductive tree (A : Type) : Type :=
| Leaf (a : A)
| Ask (a b : list Z) (k : bool -> tree A).
Arguments Leaf {A} _.
Arguments Ask {A} _ _ _.

Definition cost (sz : Z -> Z) (l : list Z) : Z := fold_left (fun acc i => u64 (acc + sz i)) l 0.
Fixpoint run {A} (sz : Z -> Z) (t : tree A) : A :=
  match t with Leaf a => a | Ask a b k => run sz (k (cost sz a <? cost sz b)) end.

Fixpoint tbind {A B} (t : tree (outcome A)) (f : A -> tree (outcome B)) : tree (outcome B) :=
  match t with
  | Leaf (Ret a) => f a
  | Leaf (Error e) => Leaf (Error e)
  | Leaf Undef => Leaf Undef
  | Ask a b k => Ask a b (fun c => tbind (k c) f)
  end.
Definition ret {A} (a : A) : tree (outcome A) := Leaf (Ret a).

(* ---- jcparam.c:729-843 jpeg_search_progression ---- *)
Definition frequency_split : list Z := [2; 8; 5; 12; 18].
(* luma part: 23 scans *)
Definition search_luma (ncomps : nat) (dcmode : Z) : list scan_info :=
  (if dcmode =? 0 then fill_dc_scans ncomps 0 0 else fill_dc_scans 1 0 0) ++
  fill_a_scan 0 1 8 0 0 ++ fill_a_scan 0 9 63 0 0 ++
  flat_map (fun al => let Al := Z.of_nat al in
    fill_a_scan 0 1 63 (Al + 1) Al ++ fill_a_scan 0 1 8 0 (Al + 1) ++ fill_a_scan 0 9 63 0 (Al + 1)) (seq 0 3) ++
  fill_a_scan 0 1 63 0 0 ++
  flat_map (fun f => fill_a_scan 0 1 f 0 0 ++ fill_a_scan 0 (f + 1) 63 0 0) frequency_split.
(* chroma part: 41 scans *)
Definition search_chroma : list scan_info :=
  fill_a_scan_pair 1 0 0 0 0 ++ fill_a_scan 1 0 0 0 0 ++ fill_a_scan 2 0 0 0 0 ++
  fill_a_scan 1 1 8 0 0 ++ fill_a_scan 1 9 63 0 0 ++ fill_a_scan 2 1 8 0 0 ++ fill_a_scan 2 9 63 0 0 ++
  flat_map (fun al => let Al := Z.of_nat al in
    fill_a_scan 1 1 63 (Al + 1) Al ++ fill_a_scan 2 1 63 (Al + 1) Al ++
    fill_a_scan 1 1 8 0 (Al + 1) ++ fill_a_scan 1 9 63 0 (Al + 1) ++
    fill_a_scan 2 1 8 0 (Al + 1) ++ fill_a_scan 2 9 63 0 (Al + 1)) (seq 0 2) ++
  fill_a_scan 1 1 63 0 0 ++ fill_a_scan 2 1 63 0 0 ++
  flat_map (fun f => fill_a_scan 1 1 f 0 0 ++ fill_a_scan 1 (f + 1) 63 0 0 ++
                     fill_a_scan 2 1 f 0 0 ++ fill_a_scan 2 (f + 1) 63 0 0) frequency_split.

(* cinfo->scan_info plus the parameters recorded in cinfo->master *)
Record search := mkSearch {
  sr_script : list scan_info;
  sr_Al_max_luma : Z; sr_num_scans_luma_dc : Z; sr_num_scans_luma : Z;
  sr_Al_max_chroma : Z; sr_num_scans_chroma_dc : Z }.
(* ycc = (jpeg_color_space == JCS_YCbCr); None = returned FALSE (jcparam.c:752-754) *)
Definition search_progression (ncomps : nat) (ycc : bool) (dcmode : Z) : option search :=
  if (ncomps =? 3)%nat && ycc
  then Some (mkSearch (search_luma ncomps dcmode ++ search_chroma) 3 1 (1 + (3 * 3 + 2) + (2 * 5 + 1)) 2 3)
  else if (ncomps =? 1)%nat
  then Some (mkSearch (search_luma ncomps dcmode) 3 1 (1 + (3 * 3 + 2) + (2 * 5 + 1)) 0 0)
  else None.
(* jcparam.c:745-751 nscans *)
Definition search_nscans (ncomps : nat) : Z := if (ncomps =? 3)%nat then 64 else 23.

(* ---- state: my_comp_master (jcmaster.h:23-46) ---- *)
Inductive ptype := PMain | PHuffOpt | PTrellis | POutput.
Record mst := mkM {
  m_type : ptype;                (* pass_type *)
  m_pass : Z;                    (* pass_number - pass_number_scan_opt_base *)
  m_scan : Z;                    (* scan_number *)
  m_last : bool;                 (* pub.is_last_pass *)
  m_cur : option scan;           (* cinfo->comps_in_scan, Ss, Se, Ah, Al set by select_scan_parameters *)
  m_buf : list (option scan);    (* scan_buffer[64]: the scan encoded in it *)
  m_cost : list Z;               (* best_cost *)
  m_Al_luma : option Z;          (* best_Al_luma; None = left over from an earlier image *)
  m_Al_chroma : option Z;
  m_split_luma : option Z;       (* best_freq_split_idx_luma *)
  m_split_chroma : option Z;
  m_ildc : option bool;          (* interleave_chroma_dc *)
  m_out : list scan;             (* scans copied to the output file, in order *)
  m_copied : list Z }.           (* their numbers *)

Definition get {A} (o : option A) : outcome A := match o with Some a => Ret a | None => Undef end.

Section Search.
Variable sr : search.
Variable dcmode : Z.             (* cinfo->master->dc_scan_opt_mode *)
Variable trellis : bool.         (* cinfo->master->trellis_quant *)

Definition num_scans : Z := Z.of_nat (length (sr_script sr)).
(* jcmaster.c:1121-1138 total_passes, relative *)
Definition total_passes : Z := num_scans * 2.
Definition luma_split_start : Z := sr_num_scans_luma_dc sr + 3 * sr_Al_max_luma sr + 2.
Definition chroma_split_start : Z :=
  sr_num_scans_luma sr + sr_num_scans_chroma_dc sr + (6 * sr_Al_max_chroma sr + 4).

(* jcmaster.c:446-497 select_scan_parameters, in an optimization (not a trellis) pass *)
Definition select_scan_parameters (m : mst) : outcome mst :=
  if m_pass m <? 0 then Ret m (* trellis phase: parameters of no consequence here *) else
  s <- aget (sr_script sr) (m_scan m) ;;
  Al <- (if (luma_split_start <=? m_scan m) && (m_scan m <? sr_num_scans_luma sr) then get (m_Al_luma m)
         else if (chroma_split_start <=? m_scan m) && (m_scan m <? num_scans) then get (m_Al_chroma m)
         else Ret (si_Al s)) ;;
  (* actual_Al[scan_number] (64 entries) *)
  if 64 <=? m_scan m then Undef else
  let comps := map (fun i => nth i (si_idx s) (-1)) (seq 0 (Z.to_nat (si_n s))) in
  Ret (mkM (m_type m) (m_pass m) (m_scan m) (m_last m) (Some (mkScan comps (si_Ss s) (si_Se s) (si_Ah s) Al))
           (m_buf m) (m_cost m) (m_Al_luma m) (m_Al_chroma m) (m_split_luma m) (m_split_chroma m) (m_ildc m)
           (m_out m) (m_copied m)).

Definition set_buf (m : mst) : outcome mst :=
  cur <- get (m_cur m) ;; b <- aset (m_buf m) (m_scan m) (Some cur) ;;
  Ret (mkM (m_type m) (m_pass m) (m_scan m) (m_last m) (m_cur m) b (m_cost m) (m_Al_luma m) (m_Al_chroma m)
           (m_split_luma m) (m_split_chroma m) (m_ildc m) (m_out m) (m_copied m)).
Definition set_last (b : bool) (m : mst) : mst :=
  mkM (m_type m) (m_pass m) (m_scan m) b (m_cur m) (m_buf m) (m_cost m) (m_Al_luma m) (m_Al_chroma m)
      (m_split_luma m) (m_split_chroma m) (m_ildc m) (m_out m) (m_copied m).
Definition set_pass (t : ptype) (p s : Z) (m : mst) : mst :=
  mkM t p s (m_last m) (m_cur m) (m_buf m) (m_cost m) (m_Al_luma m) (m_Al_chroma m)
      (m_split_luma m) (m_split_chroma m) (m_ildc m) (m_out m) (m_copied m).

(* jcmaster.c:612-715 prepare_for_pass, and the encoding of the pass: an output pass leaves the scan
   described by the current parameters in scan_buffer[scan_number] *)
Definition prepare_for_pass (m : mst) : outcome mst :=
  m1 <- match m_type m with
        | PMain => select_scan_parameters m
        | PHuffOpt =>
          m1 <- select_scan_parameters m ;;
          match m_cur m1 with
          | Some c => if (0 <=? m_pass m) && (Ss c =? 0) && negb (Ah c =? 0)
                      then set_buf (set_pass POutput (m_pass m1 + 1) (m_scan m1) m1)  (* 650-663 *)
                      else Ret m1
          | None => Ret m1
          end
        | POutput => set_buf m
        | PTrellis => Ret m
        end ;;
  Ret (set_last (m_pass m1 =? total_passes - 1) m1).

(* jcmaster.c:738-771 copy_buffer *)
Definition copy_buffer (i : Z) (m : mst) : outcome mst :=
  b <- aget (m_buf m) i ;; s <- get b ;;
  Ret (mkM (m_type m) (m_pass m) (m_scan m) (m_last m) (m_cur m) (m_buf m) (m_cost m) (m_Al_luma m)
           (m_Al_chroma m) (m_split_luma m) (m_split_chroma m) (m_ildc m) (m_out m ++ [s]) (m_copied m ++ [i])).
Fixpoint copy_all (l : list Z) (m : mst) : outcome mst :=
  match l with [] => Ret m | i :: r => m' <- copy_buffer i m ;; copy_all r m' end.
(* for (Al = hi - 1; Al >= lo; Al--) *)
Definition downto (hi lo : Z) : list Z := map (fun j => hi - 1 - Z.of_nat j) (seq 0 (Z.to_nat (hi - lo))).

(* jcmaster.c:898-961: the final assembly *)
Definition assemble (m : mst) : outcome mst :=
  L <- get (m_Al_luma m) ;; C <- get (m_Al_chroma m) ;;
  let min_Al := Z.min L C in
  let color := sr_num_scans_luma sr <? num_scans in
  m1 <- copy_buffer 0 m ;;
  m2 <- (if color && negb (dcmode =? 0) then
           il <- get (m_ildc m1) ;;
           if (il : bool) && negb (dcmode =? 1) then copy_buffer (sr_num_scans_luma sr) m1
           else copy_all [sr_num_scans_luma sr + 1; sr_num_scans_luma sr + 2] m1
         else Ret m1) ;;
  sl <- get (m_split_luma m2) ;;
  m3 <- (if sl =? 0 then copy_buffer luma_split_start m2
         else copy_all [luma_split_start + 2 * (sl - 1) + 1; luma_split_start + 2 * (sl - 1) + 2] m2) ;;
  m4 <- copy_all (map (fun Al => 3 + 3 * Al) (downto L min_Al)) m3 ;;
  let base := sr_num_scans_luma sr + sr_num_scans_chroma_dc sr in
  m5 <- (if color then
           sc <- get (m_split_chroma m4) ;;
           m5 <- (if sc =? 0 then copy_all [chroma_split_start; chroma_split_start + 1] m4
                  else let b := chroma_split_start + 4 * (sc - 1) in copy_all [b + 2; b + 3; b + 4; b + 5] m4) ;;
           copy_all (flat_map (fun Al => [base + 6 * Al + 4; base + 6 * Al + 5]) (downto C min_Al)) m5
         else Ret m4) ;;
  copy_all (flat_map (fun Al => (3 + 3 * Al) :: (if color then [base + 6 * Al + 4; base + 6 * Al + 5] else []))
                     (downto min_Al 0)) m5.

Definition upd_luma (c : list Z) (Al : Z) (m : mst) : mst :=
  mkM (m_type m) (m_pass m) (m_scan m) (m_last m) (m_cur m) (m_buf m) c (Some Al) (m_Al_chroma m)
      (m_split_luma m) (m_split_chroma m) (m_ildc m) (m_out m) (m_copied m).
Definition upd_chroma (c : list Z) (Al : Z) (m : mst) : mst :=
  mkM (m_type m) (m_pass m) (m_scan m) (m_last m) (m_cur m) (m_buf m) c (m_Al_luma m) (Some Al)
      (m_split_luma m) (m_split_chroma m) (m_ildc m) (m_out m) (m_copied m).
Definition upd_split_luma (c : list Z) (i : Z) (m : mst) : mst :=
  mkM (m_type m) (m_pass m) (m_scan m) (m_last m) (m_cur m) (m_buf m) c (m_Al_luma m) (m_Al_chroma m)
      (Some i) (m_split_chroma m) (m_ildc m) (m_out m) (m_copied m).
Definition upd_split_chroma (c : list Z) (i : Z) (m : mst) : mst :=
  mkM (m_type m) (m_pass m) (m_scan m) (m_last m) (m_cur m) (m_buf m) c (m_Al_luma m) (m_Al_chroma m)
      (m_split_luma m) (Some i) (m_ildc m) (m_out m) (m_copied m).
Definition upd_ildc (b : bool) (m : mst) : mst :=
  mkM (m_type m) (m_pass m) (m_scan m) (m_last m) (m_cur m) (m_buf m) (m_cost m) (m_Al_luma m) (m_Al_chroma m)
      (m_split_luma m) (m_split_chroma m) (Some b) (m_out m) (m_copied m).
(* master->scan_number = s; master->pass_number = passes_per_scan * (s + 1) - 1 + base *)
Definition jump (s : Z) (m : mst) : mst := set_pass (m_type m) (2 * (s + 1) - 1) s m.
Definition relast (m : mst) : mst := set_last (m_pass m =? total_passes - 1) m.

(* jcmaster.c:773-897: the decisions after scan next-1 has been encoded *)
Definition decide (next : Z) (m : mst) : tree (outcome mst) :=
  let nl := sr_num_scans_luma sr in
  let ncd := sr_num_scans_chroma_dc sr in
  if (1 <? next) && (next <=? luma_split_start) then
    if (next - 1) mod 3 =? 2 then
      let Al := (next - 1) / 3 in
      let c := [next - 2; next - 1] ++ map (fun i => 3 + 3 * Z.of_nat i) (seq 0 (Z.to_nat Al)) in
      if Al =? 0 then ret (upd_luma c Al m)
      else Ask c (m_cost m) (fun lt => if lt then ret (upd_luma c Al m) else ret (jump (luma_split_start - 1) m))
    else ret m
  else if (luma_split_start <? next) && (next <=? nl) then
    if next =? luma_split_start + 1 then ret (upd_split_luma [next - 1] 0 m)
    else if (next - luma_split_start) mod 2 =? 1 then
      let idx := Z.shiftr (next - luma_split_start) 1 in
      let c := [next - 2; next - 1] in
      Ask c (m_cost m) (fun lt =>
        let m1 := if (lt : bool) then upd_split_luma c idx m else m in
        match m_split_luma m1 with
        | None => Leaf Undef
        | Some best =>
          if ((idx =? 2) && (best =? 0)) || ((idx =? 3) && negb (best =? 2)) || ((idx =? 4) && negb (best =? 4))
          then ret (relast (jump (nl - 1) m1)) else ret m1
        end)
    else ret m
  else if nl <? num_scans then
    if next =? nl + ncd then
      (* scan_size[b] <= scan_size[b+1] + scan_size[b+2] is the negation of "sum < scan_size[b]" *)
      Ask [nl + 1; nl + 2] [nl] (fun lt => ret (upd_ildc (negb lt) m))
    else if (nl + ncd <? next) && (next <=? chroma_split_start) then
      let base := nl + ncd in
      if (next - base) mod 6 =? 4 then
        let Al := (next - base) / 6 in
        let c := [next - 4; next - 3; next - 2; next - 1] ++
                 flat_map (fun i => [base + 4 + 6 * Z.of_nat i; base + 5 + 6 * Z.of_nat i]) (seq 0 (Z.to_nat Al)) in
        if Al =? 0 then ret (upd_chroma c Al m)
        else Ask c (m_cost m) (fun lt => if lt then ret (upd_chroma c Al m) else ret (jump (chroma_split_start - 1) m))
      else ret m
    else if (chroma_split_start <? next) && (next <=? num_scans) then
      if next =? chroma_split_start + 2 then ret (upd_split_chroma [next - 2; next - 1] 0 m)
      else if (next - chroma_split_start) mod 4 =? 2 then
        let idx := Z.shiftr (next - chroma_split_start) 2 in
        let c := [next - 4; next - 3; next - 2; next - 1] in
        Ask c (m_cost m) (fun lt =>
          let m1 := if (lt : bool) then upd_split_chroma c idx m else m in
          match m_split_chroma m1 with
          | None => Leaf Undef
          | Some best =>
            if ((idx =? 2) && (best =? 0)) || ((idx =? 3) && negb (best =? 2)) || ((idx =? 4) && negb (best =? 4))
            then ret (relast (jump (num_scans - 1) m1)) else ret m1
          end)
      else ret m
    else ret m
  else ret m.

(* jcmaster.c:773-962 select_scans *)
Definition select_scans (next : Z) (m : mst) : tree (outcome mst) :=
  tbind (decide next m) (fun m1 =>
    if m_scan m1 =? num_scans - 1 then Leaf (assemble m1) else ret m1).

(* jcmaster.c:968-1035 finish_pass_master *)
Definition finish_pass_master (m : mst) : tree (outcome mst) :=
  match m_type m with
  | PMain => ret (set_pass (if trellis then PTrellis else POutput) (m_pass m + 1) (m_scan m) m)
  | PHuffOpt => ret (set_pass (if m_pass m <? -1 then PTrellis else POutput) (m_pass m + 1) (m_scan m) m)
  | PTrellis => ret (set_pass PHuffOpt (m_pass m + 1) (m_scan m) m)
  | POutput =>
    tbind (select_scans (m_scan m + 1) m) (fun m1 =>
      ret (set_pass PHuffOpt (m_pass m1 + 1) (m_scan m1 + 1) m1))
  end.

(* jcapimin.c:190-223: prepare_for_pass, encode, finish_pass, until is_last_pass.  (The first pass is
   prepared in jpeg_start_compress and finished by jpeg_finish_compress: the same sequence.)
   None = the fuel ran out. *)
Fixpoint passes (fuel : nat) (m : mst) : tree (outcome (option mst)) :=
  match fuel with
  | O => ret None
  | S f =>
    match prepare_for_pass m with
    | Ret m1 => tbind (finish_pass_master m1) (fun m2 => if m_last m2 then ret (Some m2) else passes f m2)
    | Error e => Leaf (Error e)
    | Undef => Leaf Undef
    end
  end.

(* jcmaster.c:1108-1147: initial state; trellis_passes = pass_number_scan_opt_base.
   transcode_only starts with huff_opt_pass. *)
Definition init (transcode : bool) (trellis_passes : Z) : mst :=
  mkM (if transcode then PHuffOpt else PMain) (- trellis_passes) 0 false None (repeat None 64) []
      None (Some 0) None None None [] [].
(* jcmaster.c:1128-1139 pass_number_scan_opt_base (optimize_coding is TRUE) *)
Definition scan_opt_base (num_components loops : Z) (use_scans_in_trellis : bool) : Z :=
  if trellis then (if use_scans_in_trellis then 4 else 2) * num_components * loops else 0.
End Search.
