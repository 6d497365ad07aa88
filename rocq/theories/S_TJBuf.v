(* S_TJBuf.v -- what the TurboJPEG size functions should return (turbojpeg.h). *)
From Verif Require Import Base.

(* luma sampling factors of the seven subsamplings; chroma planes have factors 1x1 *)
Inductive subs : Type := S444 | S422 | S420 | SGray | S440 | S411 | S441.
Definition subs_of (n : Z) : option subs :=
  nth (Z.to_nat n) (if n <? 0 then [] else [Some S444; Some S422; Some S420; Some SGray; Some S440; Some S411; Some S441]) None.
Definition hfac (s : subs) : Z := match s with S422 | S420 => 2 | S411 => 4 | _ => 1 end.
Definition vfac (s : subs) : Z := match s with S420 | S440 => 2 | S441 => 4 | _ => 1 end.
Definition nplanes (s : subs) : Z := match s with SGray => 1 | _ => 3 end.

(* m is the least multiple of p that is at least v *)
Definition padded (v p m : Z) : Prop := (p | m) /\ v <= m < v + p.

(* plane 0 covers the image padded to the sampling factor, the chroma planes have 1/h of that *)
Definition plane_dim (comp dim fac d : Z) : Prop :=
  exists m, padded dim fac m /\ (if comp =? 0 then d = m else d * fac = m).

(* number of samples in the padded iMCU grid of the image, over all components *)
Definition grid_samples (s : subs) (width height n : Z) : Prop :=
  exists w h, padded width (8 * hfac s) w /\ padded height (8 * vfac s) h /\
    n * hfac s * vfac s = w * h * (hfac s * vfac s + (nplanes s - 1)).
