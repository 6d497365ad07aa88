(* M_Source.v -- data source managers (jdatasrc.c) as seen by the decoder, and the marker
   scanner used for resynchronisation (jdmarker.c). *)
From Verif Require Import Base.

(* jpeglib.h jpeg_source_mgr + jdatasrc.c: [sbuf] = the bytes next_input_byte[0..bytes_in_buffer),
   [schunks] = what successive calls of fill_input_buffer will load (each fread result is non-empty,
   hence the pair head/tail), [ssusp] = a suspending source, whose fill_input_buffer always returns
   FALSE (libjpeg.txt "I/O suspension"). *)
Record source := mkSrc { sbuf : list Z; schunks : list (Z * list Z); ssusp : bool }.

(* jdatasrc.c:100-122 fill_input_buffer and 125-145 fill_mem_input_buffer: next chunk, or a fake
   EOI (FF D9) when the input is exhausted.  None = returned FALSE.  The JWRN_JPEG_EOF warning and
   the empty-input-file error are not represented here. *)
Definition fill_input_buffer (s : source) : option source :=
  if ssusp s then None
  else match schunks s with
       | (b, r) :: cs => Some (mkSrc (b :: r) cs false)
       | [] => Some (mkSrc [255; 217] [] false)
       end.

(* jdhuff.c:301-312 / jdmarker.c INPUT_BYTE: get one byte, refilling if the buffer is empty *)
Definition next_byte (s : source) : option (Z * source) :=
  match sbuf s with
  | b :: r => Some (b, mkSrc r (schunks s) (ssusp s))
  | [] => match fill_input_buffer s with
          | None => None
          | Some s' => match sbuf s' with
                       | b :: r => Some (b, mkSrc r (schunks s') (ssusp s'))
                       | [] => None
                       end
          end
  end.

Definition src_bytes (s : source) : list Z := sbuf s ++ flat_map (fun c => fst c :: snd c) (schunks s).
Definition src_size (s : source) : nat := length (src_bytes s).

(* the application delivers more bytes to a suspending source (libjpeg.txt, "I/O suspension") *)
Definition feed (s : source) (f : list Z) : source := mkSrc (sbuf s ++ f) (schunks s) (ssusp s).

(* "do { INPUT_BYTE(c) } while (c == 0xFF)": jdhuff.c:321-329, jdmarker.c:912-914.
   Result: outer None = out of fuel, inner None = suspended. *)
Fixpoint skip_ff (fuel : nat) (s : source) : option (option (Z * source)) :=
  match fuel with
  | O => None
  | S f => match next_byte s with
           | None => Some None
           | Some (c, s') => if c =? 255 then skip_ff f s' else Some (Some (c, s'))
           end
  end.

(* "while (c != 0xFF) { discarded_bytes++; INPUT_SYNC; INPUT_BYTE(c) }": jdmarker.c:901-906.
   Returns the source synced so far, the discard count, and whether an FF was found. *)
Fixpoint skip_to_ff (fuel : nat) (s : source) (disc : Z) : option (source * Z * option source) :=
  match fuel with
  | O => None
  | S f => match next_byte s with
           | None => Some (s, disc, None)
           | Some (c, s') => if c =? 255 then Some (s, disc, Some s') else skip_to_ff f s' (disc + 1)
           end
  end.

(* jdmarker.c:890-933 next_marker.  [sync] is the last INPUT_SYNCed position (what a suspension
   leaves behind).  Returns (source, discarded_bytes, marker or None if suspended). *)
Fixpoint next_marker_loop (fuel : nat) (s : source) (disc : Z) : option (source * Z * option Z) :=
  match fuel with
  | O => None
  | S f =>
    match skip_to_ff (src_size s + 4) s disc with
    | None => None
    | Some (s1, d1, None) => Some (s1, d1, None)
    | Some (s1, d1, Some s2) =>
      match skip_ff (src_size s2 + 4) s2 with
      | None => None
      | Some None => Some (s1, d1, None)
      | Some (Some (c, s3)) =>
        if c =? 0 then next_marker_loop f s3 (d1 + 2)
        else Some (s3, 0, Some c)
      end
    end
  end.
Definition next_marker (s : source) (disc : Z) : option (source * Z * option Z) :=
  next_marker_loop (src_size s + 4) s disc.

(* jdmarker.c:1216-1259 jpeg_resync_to_restart: the decision (1 discard, 2 scan on, 3 leave) *)
Definition resync_action (marker desired : Z) : Z :=
  if marker <? 192 then 2
  else if (marker <? 208) || (215 <? marker) then 3
  else if (marker =? 208 + (desired + 1) mod 8) || (marker =? 208 + (desired + 2) mod 8) then 3
  else if (marker =? 208 + (desired - 1) mod 8) || (marker =? 208 + (desired - 2) mod 8) then 2
  else 1.

(* the decision loop; (unread_marker, source, discarded_bytes, returned TRUE?) *)
Fixpoint resync_loop (fuel : nat) (marker desired : Z) (s : source) (disc : Z)
  : option (Z * source * Z * bool) :=
  match fuel with
  | O => None
  | S f =>
    let a := resync_action marker desired in
    if a =? 1 then Some (0, s, disc, true)
    else if a =? 2 then
      match next_marker s disc with
      | None => None
      | Some (s', d', None) => Some (marker, s', d', false)
      | Some (s', d', Some m) => resync_loop f m desired s' d'
      end
    else Some (marker, s, disc, true)
  end.
Definition jpeg_resync_to_restart (marker desired : Z) (s : source) (disc : Z) :=
  resync_loop (src_size s + 4) marker desired s disc.

(* jdmarker.c:1137-1166 read_restart_marker:
   (unread_marker, source, discarded, next_restart_num, TRUE?) *)
Definition read_restart_marker (unread : Z) (s : source) (disc : Z) (num : Z)
  : option (Z * source * Z * Z * bool) :=
  let go (m : Z) (s : source) (disc : Z) :=
    if m =? 208 + num then Some (0, s, disc, (num + 1) mod 8, true)
    else match jpeg_resync_to_restart m num s disc with
         | None => None
         | Some (m', s', d', ok) => Some (m', s', d', if ok then (num + 1) mod 8 else num, ok)
         end in
  if unread =? 0 then
    match next_marker s disc with
    | None => None
    | Some (s', d', None) => Some (unread, s', d', num, false)
    | Some (s', d', Some m) => go m s' d'
    end
  else go unread s disc.
