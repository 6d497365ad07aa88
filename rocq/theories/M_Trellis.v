(* M_Trellis.v -- quantize_trellis (jcdctmgr.c:936-1330): rate-distortion quantization of a row of blocks.
   Costs are floats whose value depends on libm, on the evaluation method and on the tuning parameters.  They are
   used only to decide comparisons "cost < best".  Every such comparison is executed at most once for given loop indices,
   so any run is an instance of the model with boolean functions of the loop indices (record oracle) in their place; the
   theorems hold for all such functions.  Two comparisons also get ghost flags telling whether a cost involved is still
   the initial 1e38; they serve only to state what "no cost overflows" means.
   Uninitialised memory (run_start on the stack, block_run_start from malloc) has arbitrary contents.
   Not modelled: trellis_q_opt sums (norm_src, norm_coef) and malloc failure. *)
From Verif Require Import Base M_HuffDec M_HuffEnc.

Record oracle := mkOracle {
  lt_cand : Z -> Z -> Z -> Z -> bool -> bool -> bool;  (* bi i j k, accumulated_cost[i] set?, accumulated_cost[j] set?  :1178 *)
  lt_last : Z -> Z -> bool -> bool;                    (* bi i, accumulated_cost[i] set?  :1201 *)
  lt_block : Z -> Z -> bool -> bool;                   (* bi i, best_cost set?  :1248 *)
  lt_end : Z -> bool -> bool;                          (* i, best_cost set?  :1275 *)
  lt_dc : Z -> Z -> Z -> bool;                         (* bi k l  :1111 *)
  lt_dcend : Z -> Z -> bool;                           (* i j  :1311 *)
  stack_run_start : list Z;                            (* initial contents of run_start *)
  heap_run_start : list Z;                             (* initial contents of block_run_start *)
  heap_below : option Z                                (* the int before block_run_start; None = not readable *)
}.
Record params := mkParams { p_Ss : Z; p_Se : Z; p_precision : Z; p_eob_opt : bool; p_dc : bool }.

(* int arithmetic: overflow is undefined *)
Definition i32 (x : Z) : outcome Z := if (- 2 ^ 31 <=? x) && (x <? 2 ^ 31) then Ret x else Undef.

(* jcdctmgr.c:1124-1135: sign, x, q and the quantized value; q = 0 divides by zero *)
Definition quant_of (v quant : Z) : outcome (Z * Z * Z * Z) :=
  let sign := Z.shiftr v 31 in
  let x := Z.abs v in
  let q := 8 * quant in
  if q =? 0 then Undef else Ret (sign, x, q, (x + q / 2) / q).

(* jcdctmgr.c:1149 *)
Definition candidate (num qval k : Z) : Z := if k <? num - 1 then Z.shiftl 2 k - 1 else qval.

(* jcdctmgr.c:1147-1153: the candidate distances; only the int part can go wrong *)
Definition check_dists (num qval q x : Z) : outcome unit :=
  for_loop (Z.to_nat num) 0 (fun k _ => d <- i32 (candidate num qval k * q - x) ;; _ <- i32 (d * d) ;; Ret tt) tt.

(* state of the AC pass over one block: block, run_start, ghost flags "accumulated_cost[i] was set" *)
Definition acst := (list Z * list Z * list bool)%type.

(* jcdctmgr.c:1169-1183 *)
Definition try_candidates (o : oracle) (ehufsi : list Z) (bi i j z sign num qval zero_run : Z) (st : acst) : outcome acst :=
  for_loop (Z.to_nat num) 0 (fun k '(blk, rs, fl) =>
    coef_bits <- aget ehufsi (16 * zero_run + (k + 1)) ;;
    if coef_bits =? 0 then Ret (blk, rs, fl)
    else
      fi <- aget fl i ;; fj <- aget fl j ;;
      if lt_cand o bi i j k fi fj then
        blk' <- aset blk z (s16 (Z.lxor (candidate num qval k) sign - sign)) ;;
        rs' <- aset rs i j ;;
        fl' <- aset fl i true ;; Ret (blk', rs', fl')
      else Ret (blk, rs, fl)) st.

(* jcdctmgr.c:1121-1185: one turn of the loop over i *)
Definition ac_step (o : oracle) (p : params) (Ss : Z) (ehufsi qtbl src : list Z) (bi i : Z) (st : acst) : outcome acst :=
  let '(blk, rs, fl) := st in
  z <- aget jpeg_natural_order i ;;
  v <- aget src z ;; quant <- aget qtbl z ;;
  '(sign, x, q, qval) <- quant_of v quant ;;
  _ <- i32 (x * x) ;;
  if qval =? 0 then blk' <- aset blk z 0 ;; Ret (blk', rs, fl)
  else
    let lim := Z.shiftl 1 (p_precision p + 2) in
    let qval := if lim <=? qval then lim - 1 else qval in
    num <- JPEG_NBITS qval ;;
    _ <- check_dists num qval q x ;;
    for_loop (Z.to_nat (i - (Ss - 1))) (Ss - 1) (fun j '(blk, rs, fl) =>
      zz <- aget jpeg_natural_order j ;; cj <- aget blk zz ;;
      if negb (j =? Ss - 1) && (cj =? 0) then Ret (blk, rs, fl)
      else
        let zero_run := i - 1 - j in
        zrl <- aget ehufsi 240 ;;
        if negb (Z.shiftr zero_run 4 =? 0) && (zrl =? 0) then Ret (blk, rs, fl)
        else try_candidates o ehufsi bi i j z sign num qval (Z.land zero_run 15) (blk, rs, fl)) (blk, rs, fl).

(* jcdctmgr.c:1187-1207 *)
Definition find_last (o : oracle) (Ss Se bi : Z) (blk : list Z) (fl : list bool) : outcome Z :=
  for_loop (Z.to_nat (Se - Ss + 1)) Ss (fun i last =>
    z <- aget jpeg_natural_order i ;; c <- aget blk z ;;
    if negb (c =? 0) then fi <- aget fl i ;; Ret (if lt_last o bi i fi then i else last) else Ret last) (Ss - 1).

(* jcdctmgr.c:1215-1219 *)
Fixpoint zero_until (fuel : nat) (last i : Z) (blk : list Z) : outcome (Z * list Z) :=
  match fuel with
  | O => Undef
  | S f => if last <? i then
             z <- aget jpeg_natural_order i ;; blk' <- aset blk z 0 ;; zero_until f last (i - 1) blk'
           else Ret (i, blk)
  end.
(* jcdctmgr.c:1212-1222; at most 64 turns, each inner loop at most 65 before leaving the table *)
Fixpoint zero_runs (fuel : nat) (Ss last i : Z) (blk rs : list Z) : outcome (list Z) :=
  match fuel with
  | O => Undef
  | S f => if Ss <=? i then
             '(i', blk') <- zero_until 70 last i blk ;;
             last' <- aget rs i' ;;
             zero_runs f Ss last' (i' - 1) blk' rs
           else Ret blk
  end.

(* jcdctmgr.c:1041-1222 for one block: the AC coefficients; returns also has_eob *)
Definition ac_block (o : oracle) (p : params) (Ss : Z) (ehufsi qtbl : list Z) (bi : Z) (src blk rs : list Z) : outcome (list Z * list Z * Z) :=
  let Se := p_Se p in
  fl <- aset (repeat false 64) (Ss - 1) true ;;
  '(blk1, rs1, fl1) <- for_loop (Z.to_nat (Se - Ss + 1)) Ss (fun i st => ac_step o p Ss ehufsi qtbl src bi i st) (blk, rs, fl) ;;
  last <- find_last o Ss Se bi blk1 fl1 ;;
  let has_eob := (if last <? Se then 1 else 0) + (if last =? Ss - 1 then 1 else 0) in
  blk2 <- zero_runs 70 Ss last Se blk1 rs1 ;;
  Ret (blk2, rs1, has_eob).

(* jcdctmgr.c:1229-1254: best start of the run of zero blocks before block bi *)
Definition eob_choose (o : oracle) (bi has_eob : Z) (req brs : list Z) : outcome (list Z) :=
  if negb (has_eob =? 2) then
    '(brs', _) <- for_loop (Z.to_nat (bi + 1)) 0 (fun i '(brs, best) =>
      r <- aget req i ;;
      if r =? 2 then Ret (brs, best)
      else _ <- JPEG_NBITS (bi - i + r) ;;
        if lt_block o bi i best then brs' <- aset brs bi i ;; Ret (brs', true) else Ret (brs, best)) (brs, false) ;;
    Ret brs'
  else Ret brs.

(* jcdctmgr.c:930-933 get_num_dc_trellis_candidates *)
Definition num_dc_candidates (quant : Z) : outcome Z := if quant =? 0 then Undef else Ret (Z.min 9 (Z.lor (2 + 60 / quant) 1)).

(* jcdctmgr.c:1058-1062, 1066: the k-th DC candidate of a block; a JCOEF at each store *)
Definition dc_cand (p : params) (n sign qval k : Z) : Z :=
  let lim := Z.shiftl 1 (p_precision p + 2) in
  let c0 := s16 (qval - n / 2 + k) in
  let c1 := if lim <=? c0 then s16 (lim - 1) else c0 in
  let c2 := if c1 <=? - lim then s16 (- lim + 1) else c1 in
  s16 (c2 * (1 + 2 * sign)).

(* jcdctmgr.c:1045-1118 for one block: candidates and backtrack entries.  prev: the previous block's candidates.
   Costs and dctbl are not modelled.  delta * delta may overflow int: see C22_dc_overflow. *)
Definition dc_block (o : oracle) (p : params) (n bi : Z) (v quant : Z) : outcome (list Z * list Z) :=
  '(sign, x, q, qval) <- quant_of v quant ;;
  for_loop (Z.to_nat n) 0 (fun k '(cs, bt) =>
    let c := dc_cand p n sign qval k in
    if bi =? 0 then Ret (cs ++ [c], bt ++ [-1])
    else b <- for_loop (Z.to_nat n) 0 (fun l b => Ret (if (l =? 0) || lt_dc o bi k l then l else b)) 0 ;;
         Ret (cs ++ [c], bt ++ [b])) ([], []).

(* jcdctmgr.c:1025-1256: the loop over blocks.  State: the blocks, run_start, requires_eob, block_run_start and
   the DC candidates and backtrack entries of the blocks done *)
Record trst := mkTr { t_blocks : list (list Z); t_rs : list Z; t_req : list Z; t_brs : list Z; t_dc : list (list Z * list Z) }.
Definition block_step (o : oracle) (p : params) (Ss n : Z) (ehufsi qtbl : list Z) (srcs : list (list Z)) (bi : Z) (st : trst) : outcome trst :=
  src <- aget srcs bi ;; blk <- aget (t_blocks st) bi ;;
  dcs <- (if p_dc p then v <- aget src 0 ;; q0 <- aget qtbl 0 ;; d <- dc_block o p n bi v q0 ;; Ret (t_dc st ++ [d]) else Ret (t_dc st)) ;;
  '(blk', rs', has_eob) <- ac_block o p Ss ehufsi qtbl bi src blk (t_rs st) ;;
  blocks' <- aset (t_blocks st) bi blk' ;;
  if p_eob_opt p then
    let req' := t_req st ++ [has_eob] in
    brs' <- eob_choose o bi has_eob (t_req st) (t_brs st) ;;
    Ret (mkTr blocks' rs' req' brs' dcs)
  else Ret (mkTr blocks' rs' (t_req st) (t_brs st) dcs).

(* jcdctmgr.c:1284-1287 *)
Definition zero_band (Ss Se : Z) (blk : list Z) : outcome (list Z) :=
  for_loop (Z.to_nat (Se - Ss + 1)) Ss (fun j b => z <- aget jpeg_natural_order j ;; aset b z 0) blk.
(* jcdctmgr.c:1283-1289 *)
Fixpoint zero_blocks_until (fuel : nat) (Ss Se last bi : Z) (blocks : list (list Z)) : outcome (Z * list (list Z)) :=
  match fuel with
  | O => Undef
  | S f => if last <? bi then
             b <- aget blocks bi ;; b' <- zero_band Ss Se b ;; blocks' <- aset blocks bi b' ;;
             zero_blocks_until f Ss Se last (bi - 1) blocks'
           else Ret (bi, blocks)
  end.
(* jcdctmgr.c:1290: block_run_start[bi]; bi may be -1 here *)
Definition get_brs (o : oracle) (brs : list Z) (bi : Z) : outcome Z :=
  if bi =? -1 then match heap_below o with Some v => Ret v | None => Undef end else aget brs bi.
(* jcdctmgr.c:1282-1292 *)
Fixpoint zero_blocks (fuel : nat) (o : oracle) (Ss Se last bi : Z) (blocks : list (list Z)) (brs : list Z) : outcome (list (list Z)) :=
  match fuel with
  | O => Undef
  | S f => if 0 <=? bi then
             '(bi', blocks') <- zero_blocks_until (S (S (length blocks))) Ss Se last bi blocks ;;
             r <- get_brs o brs bi' ;;
             zero_blocks f o Ss Se (r - 1) (bi' - 1) blocks' brs
           else Ret blocks
  end.
(* jcdctmgr.c:1258-1279 *)
Definition end_choose (o : oracle) (num_blocks : Z) (req : list Z) : outcome Z :=
  '(last, _) <- for_loop (Z.to_nat (num_blocks + 1)) 0 (fun i '(last, best) =>
     r <- aget req i ;;
     if r =? 2 then Ret (last, best)
     else _ <- JPEG_NBITS (num_blocks - i + r) ;;
       Ret (if lt_end o i best then (i, true) else (last, best))) (num_blocks, false) ;;
  Ret last.

(* jcdctmgr.c:1309-1317 *)
Fixpoint dc_backtrack (bi : nat) (j : Z) (dcs : list (list Z * list Z)) (blocks : list (list Z)) : outcome (list (list Z)) :=
  match bi with
  | O => Ret blocks
  | S b =>
    '(cs, bt) <- aget dcs (Z.of_nat b) ;; c <- aget cs j ;; blk <- aget blocks (Z.of_nat b) ;;
    blk' <- aset blk 0 c ;; blocks' <- aset blocks (Z.of_nat b) blk' ;;
    j' <- aget bt j ;; dc_backtrack b j' dcs blocks'
  end.

(* jcdctmgr.c:936-1330 quantize_trellis: the blocks afterwards and *last_dc_val if saved *)
Definition quantize_trellis (o : oracle) (p : params) (ehufsi qtbl : list Z) (srcs blocks : list (list Z)) (last_dc : Z) : outcome (list (list Z) * Z) :=
  let num_blocks := Z.of_nat (length blocks) in
  q0 <- aget qtbl 0 ;; n <- num_dc_candidates q0 ;;
  let Ss := if p_Ss p =? 0 then 1 else p_Ss p in
  if p_Se p <? Ss then Ret (blocks, last_dc)
  else
    st <- for_loop (length blocks) 0 (block_step o p Ss n ehufsi qtbl srcs) (mkTr blocks (stack_run_start o) [0] (heap_run_start o) []) ;;
    blocks1 <- (if p_eob_opt p then
                  last_block <- end_choose o num_blocks (t_req st) ;;
                  zero_blocks (S (S (length blocks))) o Ss (p_Se p) (last_block - 1) (num_blocks - 1) (t_blocks st) (t_brs st)
                else Ret (t_blocks st)) ;;
    if p_dc p then
      j <- for_loop (Z.to_nat (n - 1)) 1 (fun i j => Ret (if lt_dcend o i j then i else j)) 0 ;;
      blocks2 <- dc_backtrack (length blocks) j (t_dc st) blocks1 ;;
      lb <- aget blocks2 (num_blocks - 1) ;; d <- aget lb 0 ;; Ret (blocks2, d)
    else Ret (blocks1, last_dc).
