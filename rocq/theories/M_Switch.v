(* M_Switch.v -- the text files of cjpeg's -qtables and -scans switches (rdswitch.c).
   A file is the list of its bytes; None stands for EOF; isspace and isdigit are those of
   the C locale.  A result (false, _) is the FALSE return (with a message on stderr). *)
From Verif Require Import Base M_Quant M_Script.

Definition isspace (c : Z) : bool := (c =? 32) || ((9 <=? c) && (c <=? 13)).
Definition isdigit (c : Z) : bool := (48 <=? c) && (c <=? 57).

(* rdswitch.c:28-43 text_getc *)
Fixpoint skip_comment (l : list Z) : option Z * list Z :=
  match l with [] => (None, []) | c :: l => if c =? 10 then (Some c, l) else skip_comment l end.
Definition text_getc (l : list Z) : option Z * list Z :=
  match l with [] => (None, []) | c :: l => if c =? 35 then skip_comment l else (Some c, l) end.

(* rdswitch.c:46-78 read_text_integer: the value or None for FALSE, termchar, the rest of
   the file.  Every turn of a loop takes a byte, so the length of the file bounds them;
   val is a (64-bit) long and val * 10 + digit may overflow *)
Fixpoint skip_white (n : nat) (l : list Z) : outcome (option Z * list Z) :=
  match n with
  | O => Undef
  | S n =>
    match text_getc l with
    | (None, l) => Ret (None, l)
    | (Some c, l) => if isspace c then skip_white n l else Ret (Some c, l)
    end
  end.
Fixpoint more_text_digits (n : nat) (l : list Z) (val : Z) : outcome (Z * option Z * list Z) :=
  match n with
  | O => Undef
  | S n =>
    match text_getc l with
    | (Some c, l) =>
      if isdigit c then val <- clong (val * 10) ;; val <- clong (val + (c - 48)) ;; more_text_digits n l val
      else Ret (val, Some c, l)
    | (None, l) => Ret (val, None, l)
    end
  end.
Definition read_text_integer (l : list Z) : outcome (option Z * option Z * list Z) :=
  '(ch, l) <- skip_white (S (length l)) l ;;
  match ch with
  | None => Ret (None, None, l)
  | Some c =>
    if negb (isdigit c) then Ret (None, Some c, l)
    else '(val, ch, l) <- more_text_digits (S (length l)) l (c - 48) ;; Ret (Some val, ch, l)
  end.

(* rdswitch.c:86-148 read_quant_tables: 63 more values; then the loop over the tables
   (at most four turns and a fifth that refuses); the table that is complete is added *)
Fixpoint more_values (n : nat) (l : list Z) : outcome (option (list Z) * option Z * list Z) :=
  match n with
  | O => Ret (Some [], None, l)
  | S n =>
    '(v, ch, l) <- read_text_integer l ;;
    match v with
    | None => Ret (None, ch, l)
    | Some v => '(vs, ch, l) <- more_values n l ;; Ret (match vs with None => None | Some vs => Some (u32 v :: vs) end, ch, l)
    end
  end.
Fixpoint quant_loop (n : nat) (factors : list Z) (fb : bool) (tbls : list (list Z)) (tblno : Z) (l : list Z) : outcome (bool * list (list Z)) :=
  match n with
  | O => Undef
  | S n =>
    '(v, ch, l) <- read_text_integer l ;;
    match v with
    | None => Ret (match ch with None => true | Some _ => false end, tbls)
    | Some v =>
      if 4 <=? tblno then Ret (false, tbls)
      else
        '(vs, _, l) <- more_values 63 l ;;
        match vs with
        | None => Ret (false, tbls)
        | Some vs =>
          f <- aget factors tblno ;;
          tbls <- jpeg_add_quant_table true tbls tblno (u32 v :: vs) f fb ;;
          quant_loop n factors fb tbls (tblno + 1) l
        end
    end
  end.
Definition read_quant_tables (factors : list Z) (fb : bool) (tbls : list (list Z)) (file : list Z) : outcome (bool * list (list Z)) :=
  quant_loop 5 factors fb tbls 0 file.

(* rdswitch.c:153-181 read_scan_integer *)
Fixpoint skip_after (n : nat) (ch : option Z) (l : list Z) : outcome (option Z * list Z) :=
  match n with
  | O => Undef
  | S n =>
    match ch with
    | None => Ret (None, l)
    | Some c => if isspace c then let '(ch, l) := text_getc l in skip_after n ch l else Ret (Some c, l)
    end
  end.
Definition read_scan_integer (l : list Z) : outcome (option Z * option Z * list Z) :=
  '(v, ch, l) <- read_text_integer l ;;
  match v with
  | None => Ret (None, ch, l)
  | Some v =>
    '(ch, l) <- skip_after (S (S (length l))) ch l ;;
    match ch with
    | None => Ret (Some v, None, l)
    | Some c =>
      if isdigit c then Ret (Some v, Some 32, c :: l)
      else Ret (Some v, Some (if (c =? 59) || (c =? 58) then c else 32), l)
    end
  end.

(* rdswitch.c:225-238: the component indexes after the first; None is FALSE.  At most
   MAX_COMPS_IN_SCAN = 4 turns *)
Fixpoint more_components (n : nat) (idx : list Z) (term : option Z) (l : list Z) : outcome (option (list Z * option Z * list Z)) :=
  match n with
  | O => Undef
  | S n =>
    match term with
    | Some 32 =>
      if 4 <=? Z.of_nat (length idx) then Ret None
      else
        '(v, term, l) <- read_scan_integer l ;;
        match v with
        | None => Ret None
        | Some v => more_components n (idx ++ [s32 v]) term l
        end
    | _ => Ret (Some (idx, term, l))
    end
  end.
(* rdswitch.c:240-257: n of the numbers Ss, Se, Ah that must be followed by a separator *)
Fixpoint separated (n : nat) (l : list Z) : outcome (option (list Z * list Z)) :=
  match n with
  | O => Ret (Some ([], l))
  | S n =>
    '(v, term, l) <- read_scan_integer l ;;
    match v, term with
    | Some v, Some 32 => r <- separated n l ;; Ret (match r with None => None | Some (vs, l) => Some (s32 v :: vs, l) end)
    | _, _ => Ret None
    end
  end.
(* rdswitch.c:239-266: what follows the component indexes: the four parameters (or their
   defaults), termchar *)
Definition scan_params (term : option Z) (l : list Z) : outcome (option (list Z * option Z * list Z)) :=
  match term with
  | Some 58 =>
    r <- separated 3 l ;;
    match r with
    | None => Ret None
    | Some (vs, l) =>
      '(v, term, l) <- read_scan_integer l ;;
      match v with None => Ret None | Some v => Ret (Some (vs ++ [s32 v], term, l)) end
    end
  | _ => Ret (Some ([0; 63; 0; 0], term, l))
  end.
(* rdswitch.c:217-275: the loop over the scans, at most MAX_SCANS = 64 and one turn that
   refuses, and the test of termchar after it.  The unused entries of component_index,
   which the C leaves as they are, are 0 here. *)
Fixpoint scan_loop (n : nat) (scans : list scan_info) (l : list Z) : outcome (option (list scan_info)) :=
  match n with
  | O => Undef
  | S n =>
    '(v, term, l) <- read_scan_integer l ;;
    match v with
    | None => Ret (match term with None => Some scans | Some _ => None end)
    | Some v =>
      if 64 <=? Z.of_nat (length scans) then Ret None
      else
        r <- more_components 4 [s32 v] term l ;;
        match r with
        | None => Ret None
        | Some (idx, term, l) =>
          p <- scan_params term l ;;
          match p with
          | None => Ret None
          | Some (ps, term, l) =>
            ss <- aget ps 0 ;; se <- aget ps 1 ;; ah <- aget ps 2 ;; al <- aget ps 3 ;;
            match term with
            | None | Some 59 => scan_loop n (scans ++ [mkSI (Z.of_nat (length idx)) (idx4 idx) ss se ah al]) l
            | _ => Ret None
            end
          end
        end
    end
  end.
(* rdswitch.c:184-300 read_scan_script; the state is scan_info (num_scans entries) and the
   parameter JBOOLEAN_OPTIMIZE_SCANS *)
Definition read_scan_script (st : list scan_info * bool) (file : list Z) : outcome (bool * (list scan_info * bool)) :=
  r <- scan_loop 65 [] file ;;
  match r with
  | None => Ret (false, st)
  | Some [] => Ret (true, st)
  | Some scans => Ret (true, (scans, false))
  end.
