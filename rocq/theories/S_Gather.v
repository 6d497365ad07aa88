(* S_Gather.v -- the Huffman symbols that coding a scan uses (T.81 F.1.2), per table *)
From Verif Require Import Base S_Block M_Gather.

(* (true, t, s): symbol s of DC table t; (false, t, s): symbol s of AC table t *)
Definition use : Type := bool * nat * Z.
Definition block_uses (pred : Z) (b : gblk) : list use :=
  (true, g_dct b, Z.of_nat (category (nth 0 (g_coef b) 0 - pred))) ::
  map (fun s => (false, g_act b, s)) (ac_symbols 0 (tl (zz (g_coef b)))).
Fixpoint mcu_uses (preds : list Z) (bs : list gblk) : list use * list Z :=
  match bs with
  | [] => ([], preds)
  | b :: r =>
    let '(w, p') := mcu_uses (upd preds (g_ci b) (nth 0 (g_coef b) 0)) r in
    (block_uses (nth (g_ci b) preds 0) b ++ w, p')
  end.
(* the MCUs of a restart interval, each with the DC predictions in force *)
Fixpoint with_preds (preds : list Z) (ms : list (list gblk)) : list (list Z * list gblk) :=
  match ms with
  | [] => []
  | m :: r => (preds, m) :: with_preds (snd (mcu_uses preds m)) r
  end.
(* predictions start at 0 in every interval *)
Definition scan_mcus (nc ri : nat) (ms : list (list gblk)) : list (list Z * list gblk) :=
  flat_map (with_preds (repeat 0 nc)) (intervals (S (length ms)) ri ms).
Definition scan_uses (nc ri : nat) (ms : list (list gblk)) : list use :=
  flat_map (fun pm => fst (mcu_uses (fst pm) (snd pm))) (scan_mcus nc ri ms).

(* every coefficient within the limits of the baseline coder: at most mcb bits, mcb + 1 for DC
   differences (mcb = data precision + 2) *)
Fixpoint mcu_fits (mcb : nat) (preds : list Z) (bs : list gblk) : Prop :=
  match bs with
  | [] => True
  | b :: r => ((category (nth 0 (g_coef b) 0%Z - nth (g_ci b) preds 0%Z)%Z <= mcb + 1)%nat /\
               Forall (fun v => (category v <= mcb)%nat) (tl (zz (g_coef b)))) /\
              mcu_fits mcb (upd preds (g_ci b) (nth 0 (g_coef b) 0)) r
  end.
Definition scan_fits (mcb nc ri : nat) (ms : list (list gblk)) : Prop :=
  Forall (fun pm => mcu_fits mcb (fst pm) (snd pm)) (scan_mcus nc ri ms).

Definition use_eqb (a b : use) : bool :=
  Bool.eqb (fst (fst a)) (fst (fst b)) && (snd (fst a) =? snd (fst b))%nat && (snd a =? snd b).
(* number of uses of a symbol *)
Definition uses (l : list use) (u : use) : Z := Z.of_nat (length (filter (use_eqb u) l)).
