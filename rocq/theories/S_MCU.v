(* S_MCU.v -- what the scans of an image must contain, block by block. *)
From Verif Require Import Base M_Coef.
Open Scope nat_scope.

(* Dimensions as established by C37 (T_Geom.v). *)
Definition single (s : ks) : Prop := length (k_comps s) = 1.
Record kc_ok (s : ks) (c : kc) : Prop := mkKcOk {
  ko_h : 1 <= k_h c; ko_v : 1 <= k_v c; ko_w : 1 <= k_wib c;
  ko_lcw : 1 <= k_lcw c <= k_MW c; ko_lrh : 1 <= k_lrh c <= k_v c;
  ko_hib : k_hib c = k_v c * (k_T s - 1) + k_lrh c;
  ko_msw : k_MSW c = k_MW c * k_DS c; ko_ds : 1 <= k_DS c;
  ko_wib : k_wib c = k_MW c * (k_cols s - 1) + k_lcw c;
  ko_one : single s -> k_MW c = 1 /\ k_MH c = 1;
  ko_many : ~ single s -> k_MW c = k_h c /\ k_MH c = k_v c }.
Definition sum (l : list nat) : nat := fold_right Nat.add 0 l.
Record scan_ok (s : ks) : Prop := mkSok {
  so_ne : k_comps s <> []; so_T : 1 <= k_T s; so_cols : 1 <= k_cols s;
  so_comps : forall c, In c (k_comps s) -> kc_ok s c;
  so_max : sum (map (fun c => k_MW c * k_MH c) (k_comps s)) <= 10;
  so_nodup : NoDup (map k_idx (k_comps s)) }.

(* Number of MCU rows: the block rows of the component when there is one, else
   the iMCU rows (C37). *)
Definition mcu_rows (s : ks) : nat :=
  match k_comps s with [c] => k_hib c | _ => k_T s end.

(* The block positions of MCU (my, mx): component after component, in raster
   order within the component's rectangle of the MCU. *)
Definition pos (s : ks) (my mx : nat) : list (kc * nat * nat) :=
  flat_map (fun c => flat_map (fun dy => map (fun dx => (c, my * k_MH c + dy, mx * k_MW c + dx)) (seq 0 (k_MW c)))
                              (seq 0 (k_MH c))) (k_comps s).

(* Positions beyond the component's blocks carry a dummy: AC zero, DC equal to
   that of the block before it in the MCU. *)
Fixpoint fill (prev : Z) (l : list (option block)) : list block :=
  match l with
  | [] => []
  | Some b :: t => b :: fill (fst b) t
  | None :: t => (prev, zeros) :: fill prev t
  end.
(* [A ci r b]: the coefficients of the block in block row r, block column b *)
Definition real (A : nat -> nat -> nat -> block) (p : kc * nat * nat) : option block :=
  match p with (c, r, b) => if (r <? k_hib c) && (b <? k_wib c) then Some (A (k_idx c) r b) else None end.
Definition mcu_spec (s : ks) (A : nat -> nat -> nat -> block) (my mx : nat) : list block :=
  fill 0%Z (map (real A) (pos s my mx)).
(* all MCUs of the scan, in raster order *)
Definition scan_mcus (s : ks) (A : nat -> nat -> nat -> block) : list (list block) :=
  map (fun k => mcu_spec s A (k / k_cols s) (k mod k_cols s)) (seq 0 (mcu_rows s * k_cols s)).

(* A whole compressor pass: the controller is called again and again, whether it
   reported completion of an iMCU row or a suspension, until total_iMCU_rows are
   done. *)
Fixpoint drive {S} (fuel : nat) (row : S -> nat) (T : nat) (step : S -> outcome S) (e : S) : outcome S :=
  if T <=? row e then Ret e
  else match fuel with O => Undef | Datatypes.S n => e' <- step e ;; drive n row T step e' end.

(* ---------------- decompressor ---------------- *)
(* A scan is a list of MCUs, each with one block per position. *)
Definition well_formed (s : ks) (ms : list (list block)) : Prop :=
  length ms = mcu_rows s * k_cols s /\
  forall m, In m ms -> length m = sum (map (fun c => k_MW c * k_MH c) (k_comps s)).
(* the blocks of the scan with their places: component, block row, block column *)
Definition placed (s : ks) (ms : list (list block)) : list (kc * nat * nat * block) :=
  flat_map (fun k => combine (pos s (k / k_cols s) (k mod k_cols s)) (nth k ms [])) (seq 0 (length ms)).
(* What one-pass decompression hands to the inverse DCT: the real blocks of the
   needed components, within the iMCU columns first .. last; block (r, b) goes to
   output sample row r * DS, column (b - first * MW) * DS. *)
Definition shown (first last : nat) (needed : nat -> bool) (q : kc * nat * nat * block) : list ev :=
  match q with (c, r, b, x) =>
    if needed (k_idx c) && (r <? k_hib c) && (b <? k_wib c) && (first <=? b / k_MW c) && (b / k_MW c <=? last)
    then [mkEv (k_idx c) (r * k_DS c) ((b - first * k_MW c) * k_DS c) x] else []
  end.
