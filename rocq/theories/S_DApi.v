(* S_DApi.v -- what the decompressor call protocol promises (libjpeg.txt). *)
From Verif Require Import Base M_DMain S_DMain M_DApi.
Open Scope nat_scope.

(* Which calls are legal when ([buffered] = the object's buffered_image flag). *)
Definition allowed (st : dstate) (buffered : bool) (cl : call) : bool :=
  match cl with
  | Abort | Destroy | SetParams _ _ => true
  | ReadHeader _ => match st with DSTATE_START | DSTATE_INHEADER => true | _ => false end
  | ConsumeInput => match st with DSTATE_DESTROYED | DSTATE_RDCOEFS => false | _ => true end
  | InputComplete => match st with DSTATE_DESTROYED => false | _ => true end
  | HasMultipleScans | ReadIccProfile =>
    match st with DSTATE_DESTROYED | DSTATE_START | DSTATE_INHEADER => false | _ => true end
  | CalcOutputDimensions => match st with DSTATE_READY => true | _ => false end
  | StartDecompress =>
    match st with DSTATE_READY | DSTATE_PRELOAD | DSTATE_PRESCAN => true | _ => false end
  | ReadScanlines _ => match st with DSTATE_SCANNING => true | _ => false end
  | ReadRawData _ => match st with DSTATE_RAW_OK => true | _ => false end
  | StartOutput _ => match st with DSTATE_BUFIMAGE | DSTATE_PRESCAN => true | _ => false end
  | NewColormap _ => match st with DSTATE_BUFIMAGE => true | _ => false end
  | FinishOutput =>
    match st with DSTATE_SCANNING | DSTATE_RAW_OK => buffered | DSTATE_BUFPOST => true | _ => false end
  | FinishDecompress =>
    match st with
    | DSTATE_SCANNING | DSTATE_RAW_OK => negb buffered
    | DSTATE_BUFIMAGE | DSTATE_STOPPING => true | _ => false
    end
  | ReadCoefficients =>
    match st with
    | DSTATE_READY | DSTATE_RDCOEFS => true
    | DSTATE_STOPPING | DSTATE_BUFIMAGE => buffered | _ => false
    end
  end.

(* An output pass: the call that opened it (jpeg_start_decompress or
   jpeg_start_output returning TRUE), then any number of jpeg_read_scanlines
   calls with any max_lines.  The second argument collects the numbers of lines
   returned. *)
Inductive reading (prec : nat) (s0 : dobj) : list nat -> dobj -> Prop :=
| rd_start : forall s n, start_decompress s0 = ROk true s \/ start_output n s0 = ROk true s ->
    x_st s = DSTATE_SCANNING -> reading prec s0 [] s
| rd_read : forall ks s n k s',
    reading prec s0 ks s -> read_scanlines prec n s = ROk k s' -> reading prec s0 (ks ++ [k]) s'.

Definition total (l : list nat) : nat := fold_right Nat.add 0 l.
