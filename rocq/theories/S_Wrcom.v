(* S_Wrcom.v -- the layout of a JPEG file up to its frame header, independent of the programs *)
From Verif Require Import Base.

(* a marker segment as it stands in a file: stray bytes, fill bytes (extra FFs), marker code, parameters *)
Record segment := mkSeg { sg_junk : list Z; sg_fill : nat; sg_code : Z; sg_data : list Z }.
Definition lead (junk : list Z) (fill : nat) (code : Z) : list Z := junk ++ repeat 255 (S fill) ++ [code].
Definition seg_bytes (s : segment) : list Z :=
  let n := Z.of_nat (length (sg_data s)) + 2 in
  lead (sg_junk s) (sg_fill s) (sg_code s) ++ [n / 256; n mod 256] ++ sg_data s.
(* SOI, segments, then the marker that ends the header (SOFn or EOI) and everything after it *)
Record jfile := mkFile { jf_segs : list segment; jf_junk : list Z; jf_fill : nat; jf_stop : Z; jf_rest : list Z }.
Definition file_bytes (f : jfile) : list Z :=
  [255; 216] ++ flat_map seg_bytes (jf_segs f) ++ lead (jf_junk f) (jf_fill f) (jf_stop f) ++ jf_rest f.

Definition byte (x : Z) : Prop := 0 <= x <= 255.
Definition SOS : Z := 218.
Definition EOI : Z := 217.
Definition COM : Z := 254.
Definition SOF (c : Z) : Prop := 192 <= c <= 207 /\ c <> 196 /\ c <> 200 /\ c <> 204.
Definition good_seg (s : segment) : Prop :=
  Forall (fun x => byte x /\ x <> 255) (sg_junk s) /\ byte (sg_code s) /\ sg_code s <> 255 /\ ~ SOF (sg_code s) /\ sg_code s <> SOS /\ sg_code s <> EOI /\
  Forall byte (sg_data s) /\ Z.of_nat (length (sg_data s)) <= 65533.
Definition good_file (f : jfile) : Prop :=
  Forall good_seg (jf_segs f) /\ Forall (fun x => byte x /\ x <> 255) (jf_junk f) /\ (SOF (jf_stop f) \/ jf_stop f = EOI) /\ Forall byte (jf_rest f).

(* no stray and no fill bytes between markers *)
Definition tidy_seg (s : segment) : segment := mkSeg [] 0 (sg_code s) (sg_data s).
Definition tidy (f : jfile) : Prop := jf_junk f = [] /\ jf_fill f = 0%nat /\ Forall (fun s => sg_junk s = [] /\ sg_fill s = 0%nat) (jf_segs f).

(* the file with a comment added before the frame header; replace = existing comments before it are dropped *)
Definition add_comment (replace : bool) (text : list Z) (f : jfile) : jfile :=
  let kept := filter (fun s => negb (replace && (sg_code s =? COM))) (jf_segs f) in
  let new := match text with [] => [] | _ => [mkSeg [] 0 COM text] end in
  mkFile (map tidy_seg kept ++ new) [] 0 (jf_stop f) (jf_rest f).
(* the texts of the comments before the frame header *)
Definition comments (f : jfile) : list (list Z) := map sg_data (filter (fun s => sg_code s =? COM) (jf_segs f)).
