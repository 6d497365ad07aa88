(* M_Mem.v -- model of the memory manager (jmemmgr.c with the malloc back end jmemnobs.c):
   jinit_memory_mgr, alloc_small, alloc_large, alloc_sarray, alloc_barray, free_pool, self_destruct.
   Addresses and sizes are integers.  The pool headers (small_pool_hdr, large_pool_hdr), which the
   code keeps at the start of each malloc'ed block, are kept in records here; C41_alloc shows that no
   object handed to the caller overlaps a header, so the caller cannot change them.
   The linked lists are lists of headers.  malloc is an oracle: the list [orc] holds its answers
   (an address or NULL).  An answer that breaks malloc's contract (block not inside the address
   space or overlapping a live block) is taken as NULL, so every list is a possible behaviour.
   [objs] is a ghost: the live objects, for stating the property; no operation reads it.
   Virtual arrays are in M_Coef.v; backing store is never opened (jmemnobs.c). *)
From Verif Require Import Base.

Definition SIZE_MAX1 : Z := 2 ^ 64.                  (* size_t is 64 bits *)
Definition MAX_ALLOC_CHUNK : Z := 1000000000.        (* jmemsys.h:62 *)
Definition HDR : Z := 24.                            (* sizeof(small_pool_hdr) = sizeof(large_pool_hdr) *)
Definition MGR : Z := 200.                           (* sizeof(my_memory_mgr); the value is not used *)
Definition JPOOL_NUMPOOLS : Z := 2.
Definition MIN_SLOP : Z := 50.

Record phdr := mkP { p_addr : Z; p_used : Z; p_left : Z }.
Record obj := mkO { o_pool : Z; o_base : Z; o_addr : Z; o_size : Z }.
Record mst := mkM {
  heap : list (Z * Z);           (* live malloc blocks: address, size *)
  smalls : list phdr * list phdr; (* mem->small_list[JPOOL_NUMPOOLS] *)
  larges : list phdr * list phdr; (* mem->large_list[JPOOL_NUMPOOLS] *)
  total : Z;                     (* mem->total_space_allocated *)
  ctl : Z;                       (* address of the control block *)
  orc : list (option Z);
  objs : list obj }.

(* the result of a call: value, ERREXIT, or undefined behaviour; the state survives an ERREXIT *)
Inductive res (A : Type) : Type := Ok (a : A) | Err (e : jerr) | Ub.
Arguments Ok {A} _. Arguments Err {A} _. Arguments Ub {A}.

Definition overlap (a n b m : Z) : bool := (a <? b + m) && (b <? a + n).
(* C library malloc *)
Definition malloc (n : Z) (s : mst) : option Z * mst :=
  let s' r := mkM (match r with Some a => (a, n) :: heap s | None => heap s end)
                  (smalls s) (larges s) (total s) (ctl s) (tl (orc s)) (objs s) in
  match orc s with
  | Some a :: _ =>
    if (0 <? a) && (a + n <? SIZE_MAX1) && forallb (fun b => negb (overlap a n (fst b) (snd b))) (heap s)
    then (Some a, s' (Some a)) else (None, s' None)
  | _ => (None, s' None)
  end.
(* C library free: freeing anything but a live block is undefined *)
Fixpoint remove_block (a : Z) (h : list (Z * Z)) : option (list (Z * Z)) :=
  match h with
  | [] => None
  | b :: h => if fst b =? a then Some h else match remove_block a h with Some h' => Some (b :: h') | None => None end
  end.

(* list[pool_id]; the callers have checked 0 <= pool_id < JPOOL_NUMPOOLS *)
Definition sel {A} (pool : Z) (x : A * A) : A := if pool =? 0 then fst x else snd x.
Definition put {A} (pool : Z) (x : A * A) (y : A) : A * A := if pool =? 0 then (y, snd x) else (fst x, y).
Definition set_small (s : mst) (pool : Z) (l : list phdr) : mst :=
  mkM (heap s) (put pool (smalls s) l) (larges s) (total s) (ctl s) (orc s) (objs s).
Definition set_large (s : mst) (pool : Z) (l : list phdr) : mst :=
  mkM (heap s) (smalls s) (put pool (larges s) l) (total s) (ctl s) (orc s) (objs s).
Definition add_total (s : mst) (n : Z) : mst :=
  mkM (heap s) (smalls s) (larges s) (u64 (total s + n)) (ctl s) (orc s) (objs s).
Definition add_obj (s : mst) (o : obj) : mst :=
  mkM (heap s) (smalls s) (larges s) (total s) (ctl s) (orc s) (o :: objs s).

Section Mem.
Variable al : Z.          (* ALIGN_SIZE (jmemmgr.c:85-93): 8 without SIMD, 32 with *)

(* jmemmgr.c:41-47 round_up_pow2, on size_t *)
Definition round_up_pow2 (a b : Z) : Z := Z.land (u64 (a + b - 1)) (u64 (Z.lnot (b - 1))).

(* jmemmgr.c:246-255 *)
Definition first_pool_slop (pool : Z) : Z := if pool =? 0 then 1600 else 16000.
Definition extra_pool_slop (pool : Z) : Z := if pool =? 0 then 0 else 5000.

(* jmemmgr.c:340-344: first data byte of a pool, aligned *)
Definition data_ptr (hdr : Z) : Z :=
  let d := hdr + HDR in if d mod al =? 0 then d else d + (al - d mod al).

(* jmemmgr.c:297-302: headers before the first pool with enough room, and the rest *)
Fixpoint find_pool (size : Z) (l : list phdr) : list phdr * list phdr :=
  match l with
  | [] => ([], [])
  | h :: t => if size <=? p_left h then ([], h :: t) else let '(a, b) := find_pool size t in (h :: a, b)
  end.

(* jmemmgr.c:316-323: ask for min_request + slop, halving the slop on failure *)
Fixpoint get_slop (fuel : nat) (min_request slop : Z) (s : mst) : res (Z * Z) * mst :=
  match fuel with
  | O => (Ub, s)
  | S f =>
    let '(r, s) := malloc (min_request + slop) s in
    match r with
    | Some a => (Ok (a, slop), s)
    | None => let slop := slop / 2 in
              if slop <? MIN_SLOP then (Err JERR_OUT_OF_MEMORY, s) else get_slop f min_request slop s
    end
  end.

(* jmemmgr.c:261-350 alloc_small *)
Definition alloc_small (pool size : Z) (s : mst) : res Z * mst :=
  if MAX_ALLOC_CHUNK <? size then (Err JERR_OUT_OF_MEMORY, s)
  else
    let sz := round_up_pow2 size al in
    if MAX_ALLOC_CHUNK <? HDR + sz + al - 1 then (Err JERR_OUT_OF_MEMORY, s)
    else if (pool <? 0) || (JPOOL_NUMPOOLS <=? pool) then (Err JERR_BAD_POOL_ID, s)
    else
      let '(before, rest) := find_pool sz (sel pool (smalls s)) in
      let '(r, s) :=
        match rest with
        | h :: after => (Ok (h, after), s)
        | [] =>
          let min_request := HDR + sz + al - 1 in
          let slop := match before with [] => first_pool_slop pool | _ => extra_pool_slop pool end in
          let slop := if MAX_ALLOC_CHUNK - min_request <? slop then MAX_ALLOC_CHUNK - min_request else slop in
          let '(r, s) := get_slop 20 min_request slop s in
          match r with
          | Ok (a, slop) => (Ok (mkP a 0 (sz + slop), []), add_total s (min_request + slop))
          | Err e => (Err e, s)
          | Ub => (Ub, s)
          end
        end in
      match r with
      | Ok (h, after) =>
        let d := data_ptr (p_addr h) + p_used h in
        let s := set_small s pool (before ++ mkP (p_addr h) (p_used h + sz) (p_left h - sz) :: after) in
        (Ok d, add_obj s (mkO pool (p_addr h) d size))
      | Err e => (Err e, s)
      | Ub => (Ub, s)
      end.

(* jmemmgr.c:363-416 alloc_large *)
Definition alloc_large (pool size : Z) (s : mst) : res Z * mst :=
  if MAX_ALLOC_CHUNK <? size then (Err JERR_OUT_OF_MEMORY, s)
  else
    let sz := round_up_pow2 size al in
    if MAX_ALLOC_CHUNK <? HDR + sz + al - 1 then (Err JERR_OUT_OF_MEMORY, s)
    else if (pool <? 0) || (JPOOL_NUMPOOLS <=? pool) then (Err JERR_BAD_POOL_ID, s)
    else
      let '(r, s) := malloc (sz + HDR + al - 1) s in
      match r with
      | None => (Err JERR_OUT_OF_MEMORY, s)
      | Some a =>
        let s := add_total s (sz + HDR + al - 1) in
        let s := set_large s pool (mkP a sz 0 :: sel pool (larges s)) in
        (Ok (data_ptr a), add_obj s (mkO pool a (data_ptr a) size))
      end.

(* jmemmgr.c:489-499 (and 509-519, 527-537, 583-594): the rows, chunk by chunk.
   width = bytes per row *)
Fixpoint get_rows (fuel : nat) (pool width rowsperchunk left : Z) (s : mst) : res (list Z) * mst :=
  if left <=? 0 then (Ok [], s)
  else match fuel with
  | O => (Ub, s)
  | S f =>
    let rowsperchunk := Z.min rowsperchunk left in
    let '(r, s) := alloc_large pool (rowsperchunk * width) s in
    match r with
    | Ok w =>
      let rows := map (fun i => w + Z.of_nat i * width) (seq 0 (Z.to_nat rowsperchunk)) in
      let '(r, s) := get_rows f pool width rowsperchunk (left - rowsperchunk) s in
      (match r with Ok l => Ok (rows ++ l) | Err e => Err e | Ub => Ub end, s)
    | Err e => (Err e, s)
    | Ub => (Ub, s)
    end
  end.
(* row pointers (small object of 8-byte pointers), then the rows *)
Definition get_array (pool width numrows : Z) (s : mst) : res (list Z) * mst :=
  if width =? 0 then (Ub, s)                                      (* division by zero *)
  else
    let ltemp := (MAX_ALLOC_CHUNK - HDR) / width in
    if ltemp <=? 0 then (Err JERR_WIDTH_OVERFLOW, s)
    else
      let rowsperchunk := if ltemp <? numrows then ltemp else numrows in
      let '(r, s) := alloc_small pool (numrows * 8) s in
      match r with
      | Ok _ => get_rows (Z.to_nat numrows) pool width rowsperchunk numrows s
      | Err e => (Err e, s)
      | Ub => (Ub, s)
      end.
(* jmemmgr.c:433-541 alloc_sarray; sample_size is 1 or 2 (12- and 16-bit samples).
   samplesperrow and numrows are JDIMENSIONs *)
Definition alloc_sarray (pool sample_size samplesperrow numrows : Z) (s : mst) : res (list Z) * mst :=
  if negb (al mod sample_size =? 0) then (Err JERR_OUT_OF_MEMORY, s)
  else if MAX_ALLOC_CHUNK <? samplesperrow then (Err JERR_OUT_OF_MEMORY, s)
  else
    let samplesperrow := u32 (round_up_pow2 samplesperrow (2 * al / sample_size)) in
    get_array pool (samplesperrow * sample_size) numrows s.
(* jmemmgr.c:549-597 alloc_barray; sizeof(JBLOCK) = 128 *)
Definition alloc_barray (pool blocksperrow numrows : Z) (s : mst) : res (list Z) * mst :=
  if negb (128 mod al =? 0) then (Err JERR_OUT_OF_MEMORY, s)
  else get_array pool (blocksperrow * 128) numrows s.

(* jmemmgr.c:1134-1142 and 1148-1155: free every pool of a list *)
Fixpoint free_list (l : list phdr) (s : mst) : res unit * mst :=
  match l with
  | [] => (Ok tt, s)
  | h :: t =>
    let space_freed := p_used h + p_left h + HDR + al - 1 in
    match remove_block (p_addr h) (heap s) with
    | None => (Ub, s)
    | Some h' => free_list t (mkM h' (smalls s) (larges s) (u64 (total s - space_freed)) (ctl s) (orc s) (objs s))
    end
  end.
(* jmemmgr.c:1096-1157 free_pool *)
Definition free_pool (pool : Z) (s : mst) : res unit * mst :=
  if (pool <? 0) || (JPOOL_NUMPOOLS <=? pool) then (Err JERR_BAD_POOL_ID, s)
  else
    let l := sel pool (larges s) in
    let '(r, s) := free_list l (set_large s pool []) in
    match r with
    | Ok _ =>
      let l := sel pool (smalls s) in
      let '(r, s) := free_list l (set_small s pool []) in
      (r, mkM (heap s) (smalls s) (larges s) (total s) (ctl s) (orc s) (filter (fun o => negb (o_pool o =? pool)) (objs s)))
    | r => (r, s)
    end.
(* jmemmgr.c:1166-1185 self_destruct *)
Definition self_destruct (s : mst) : res unit * mst :=
  let '(r, s) := free_pool 1 s in
  match r with
  | Ok _ =>
    let '(r, s) := free_pool 0 s in
    match r with
    | Ok _ => match remove_block (ctl s) (heap s) with
              | None => (Ub, s)
              | Some h => (Ok tt, mkM h (smalls s) (larges s) (total s) (ctl s) (orc s) (objs s))
              end
    | r => (r, s)
    end
  | r => (r, s)
  end.
(* jmemmgr.c:1194-1269 jinit_memory_mgr, in a heap that already holds other blocks; None = JERR_OUT_OF_MEMORY *)
Definition jinit_memory_mgr (others : list (Z * Z)) (orc : list (option Z)) : option mst :=
  let '(r, s) := malloc MGR (mkM others ([], []) ([], []) 0 0 orc []) in
  match r with
  | None => None
  | Some a => Some (mkM (heap s) ([], []) ([], []) MGR a (M_Mem.orc s) [])
  end.

(* what an application (or the library) may call, in any order; a call that exits with an error
   leaves the manager in the state reached *)
Inductive call := CSmall (pool size : Z) | CLarge (pool size : Z)
  | CSarray (pool sample_size samplesperrow numrows : Z) | CBarray (pool blocksperrow numrows : Z) | CFree (pool : Z).
Definition do_call (c : call) (s : mst) : mst :=
  match c with
  | CSmall p n => snd (alloc_small p n s)
  | CLarge p n => snd (alloc_large p n s)
  | CSarray p z w r => snd (alloc_sarray p z w r s)
  | CBarray p w r => snd (alloc_barray p w r s)
  | CFree p => snd (free_pool p s)
  end.
End Mem.
