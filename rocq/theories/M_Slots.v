(* M_Slots.v -- the arguments of cjpeg's -qslots and -sample switches (rdswitch.c).
   An argument is the list of its (non-zero) characters; the terminating NUL is the end of
   the list.  isspace and isdigit are those of the C locale. *)
From Verif Require Import Base M_Switch.

(* the conversion %d of sscanf (C11 7.21.6.2): white space, an optional sign, digits; None
   if there is no number; a number that an int cannot hold is undefined behaviour *)
Fixpoint scan_white (l : list Z) : list Z := match l with [] => [] | c :: r => if isspace c then scan_white r else l end.
Fixpoint scan_digits (acc : Z) (l : list Z) : Z * list Z :=
  match l with [] => (acc, []) | c :: r => if isdigit c then scan_digits (10 * acc + (c - 48)) r else (acc, l) end.
Definition scan_d (l : list Z) : outcome (option (Z * list Z)) :=
  let l1 := scan_white l in
  let neg := match l1 with c :: _ => c =? 45 | [] => false end in
  let l2 := match l1 with c :: r => if (c =? 45) || (c =? 43) then r else l1 | [] => [] end in
  match l2 with
  | [] => Ret None
  | c :: _ =>
    if negb (isdigit c) then Ret None
    else let '(a, r) := scan_digits 0 l2 in
         let v := if neg then - a else a in
         if (- 2 ^ 31 <=? v) && (v <? 2 ^ 31) then Ret (Some (v, r)) else Undef
  end.
(* the conversion %c: the character, or what the variable held before *)
Definition scan_c (ch : Z) (l : list Z) : Z * list Z := match l with [] => (ch, []) | c :: r => (c, r) end.

(* rdswitch.c:601-602 and 638-639: while ( *arg && *arg++ != ',' ) *)
Fixpoint next_segment (l : list Z) : list Z := match l with [] => [] | c :: r => if c =? 44 then r else next_segment r end.

(* rdswitch.c:575-608 set_quant_slots: the loop (n turns left) and the whole, on the
   quant_tbl_no fields of the MAX_COMPONENTS components *)
Fixpoint slots_loop (n : nat) (ci val : Z) (arg : list Z) (qs : list Z) : outcome (bool * list Z) :=
  match n with
  | O => Ret (true, qs)
  | S n =>
    match arg with
    | [] => qs <- aset qs ci val ;; slots_loop n (ci + 1) val [] qs
    | _ =>
      r <- scan_d arg ;;
      match r with
      | None => Ret (false, qs)
      | Some (val, l) =>
        let '(ch, _) := scan_c 44 l in
        if negb (ch =? 44) then Ret (false, qs)
        else if (val <? 0) || (4 <=? val) then Ret (false, qs)
        else qs <- aset qs ci val ;; slots_loop n (ci + 1) val (next_segment arg) qs
      end
    end
  end.
Definition set_quant_slots (arg : list Z) (qs : list Z) : outcome (bool * list Z) := slots_loop 10 0 0 arg qs.

(* rdswitch.c:611-643 set_sample_factors, on the pairs (h_samp_factor, v_samp_factor) *)
Fixpoint factors_loop (n : nat) (ci : Z) (arg : list Z) (fs : list (Z * Z)) : outcome (bool * list (Z * Z)) :=
  match n with
  | O => Ret (true, fs)
  | S n =>
    match arg with
    | [] => fs <- aset fs ci (1, 1) ;; factors_loop n (ci + 1) [] fs
    | _ =>
      r1 <- scan_d arg ;;
      match r1 with
      | None => Ret (false, fs)
      | Some (val1, []) => Ret (false, fs)
      | Some (val1, ch1 :: l1) =>
        r2 <- scan_d l1 ;;
        match r2 with
        | None => Ret (false, fs)
        | Some (val2, l2) =>
          let '(ch2, _) := scan_c 44 l2 in
          if negb ((ch1 =? 120) || (ch1 =? 88)) || negb (ch2 =? 44) then Ret (false, fs)
          else if (val1 <=? 0) || (4 <? val1) || (val2 <=? 0) || (4 <? val2) then Ret (false, fs)
          else fs <- aset fs ci (val1, val2) ;; factors_loop n (ci + 1) (next_segment arg) fs
        end
      end
    end
  end.
Definition set_sample_factors (arg : list Z) (fs : list (Z * Z)) : outcome (bool * list (Z * Z)) := factors_loop 10 0 arg fs.
