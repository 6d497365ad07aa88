(* S_CApi.v -- what the compressor call protocol promises (libjpeg.txt),
   independent of how the controllers count rows. *)
From Verif Require Import Base M_CApi.
Open Scope nat_scope.

(* Which calls are legal when.  [fresh] = no scanline accepted yet. *)
Definition allowed (st : cstate) (fresh : bool) (cl : call) : bool :=
  match cl with
  | Abort | Destroy => true
  | Start | Coefficients | Tables | SetParams =>
      match st with CSTATE_START => true | _ => false end
  | Scanlines _ => match st with CSTATE_SCANNING => true | _ => false end
  | RawData _ => match st with CSTATE_RAW_OK => true | _ => false end
  | Finish => match st with CSTATE_SCANNING | CSTATE_RAW_OK | CSTATE_WRCOEFS => true | _ => false end
  | Marker | IccProfile _ =>
      match st with CSTATE_SCANNING | CSTATE_RAW_OK | CSTATE_WRCOEFS => fresh | _ => false end
  end.

(* the scanlines that entered the compressor, in order *)
Fixpoint rows_of (l : list event) : list row :=
  match l with [] => [] | EvConv _ r :: t => r :: rows_of t | _ :: t => rows_of t end.
(* the row groups handed to the downsampler, in order *)
Fixpoint groups_of (l : list event) : list (list row) :=
  match l with [] => [] | EvGroup b :: t => b :: groups_of t | _ :: t => groups_of t end.
(* number of iMCU rows accepted by the coefficient controller *)
Fixpoint imcus_of (l : list event) : nat :=
  match l with [] => 0 | EvIMCU :: t => S (imcus_of t) | _ :: t => imcus_of t end.

(* row group k of an image: v consecutive rows, the bottom row replicated *)
Definition image_group (img : list row) (v k : nat) : list row :=
  map (fun j => nth (Nat.min (k * v + j) (length img - 1)) img []) (seq 0 v).

(* parameters as computed by initial_setup from a legal image *)
Definition cfg_ok (c : cfg) : Prop :=
  1 <= c_h c /\ 1 <= c_v c /\ 1 <= c_du c /\
  c_rows c = (c_h c + c_v c * c_du c - 1) / (c_v c * c_du c).

(* The caller offers the next unaccepted rows of the image (it may also offer
   rows beyond the bottom). *)
Definition offers (img : list row) (next : nat) (scan : list row) : Prop :=
  forall j, j < length scan -> next + j < length img -> nth j scan [] = nth (next + j) img [].

(* A compression of [img]: jpeg_start_compress, then any number of
   jpeg_write_scanlines calls of any sizes *)
Inductive compressing (img : list row) (s0 : cobj) : cobj -> Prop :=
| cp_start : forall s, start_compress s0 = ROk tt s -> compressing img s0 s
| cp_write : forall s scan k s',
    compressing img s0 s -> offers img (k_next s) scan ->
    write_scanlines (c_prec (k_cfg s0)) scan s = ROk k s' -> compressing img s0 s'.
