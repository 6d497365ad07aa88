(* S_Lossless.v -- independent specification of lossless prediction (T.81 H.1.2.1, Table H.1) *)
From Verif Require Import Base.

(* Table H.1; a right shift by one is division by 2 rounding down (H.1.2.1) *)
Definition table_H1 (psv Ra Rb Rc : Z) : Z :=
  match psv with
  | 1 => Ra
  | 2 => Rb
  | 3 => Rc
  | 4 => Ra + Rb - Rc
  | 5 => Ra + (Rb - Rc) / 2
  | 6 => Rb + (Ra - Rc) / 2
  | 7 => (Ra + Rb) / 2
  | _ => 0
  end.

Definition pixel (img : list (list Z)) (y x : nat) : Z := nth x (nth y img []) 0.

(* rr = rows per restart interval, 0 = no restarts: is row y the first of its interval? *)
Definition interval_start (rr y : nat) : bool :=
  match rr with O => (y =? 0)%nat | _ => (y mod rr =? 0)%nat end.

(* the prediction of sample x of row y; img holds the samples after the point transform *)
Definition prediction (P Pt psv : Z) (rr : nat) (img : list (list Z)) (y x : nat) : Z :=
  if interval_start rr y then
    match x with O => 2 ^ (P - Pt - 1) | S x' => pixel img y x' end
  else
    match x with
    | O => pixel img (y - 1) 0
    | S x' => table_H1 psv (pixel img y x') (pixel img (y - 1) x) (pixel img (y - 1) x')
    end.

(* point transform: division by 2^Pt on input, multiplication on output (H.1.2.1, H.2.1) *)
Definition point_down (Pt : Z) (img : list (list Z)) : list (list Z) := map (map (fun s => s / 2 ^ Pt)) img.
Definition point_up (Pt : Z) (img : list (list Z)) : list (list Z) := map (map (fun s => s * 2 ^ Pt)) img.

(* differences are only defined modulo 2^16 (H.1.2.1) *)
Definition cong16 (a b : Z) : Prop := a mod 65536 = b mod 65536.
