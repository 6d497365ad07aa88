(* M_Arith.v -- the adaptive binary arithmetic coder (jaricom.c, jcarith.c, jdarith.c) *)
From Verif Require Import Base.

(* jaricom.c:32-33: packing of Qe_Value, Next_Index_LPS, Next_Index_MPS, Switch_MPS *)
Definition V (a b c d : Z) : Z := Z.lor (Z.lor (Z.lor (Z.shiftl a 16) (Z.shiftl c 8)) (Z.shiftl d 7)) b.
(* jaricom.c:35-160 jpeg_aritab (the index argument of the macro is unused) *)
Definition jpeg_aritab : list Z := [
  V 23069 1 1 1; V 9606 14 2 0; V 4372 16 3 0; V 2059 18 4 0; V 984 20 5 0; V 474 23 6 0; V 229 25 7 0; V 111 28 8 0; V 54 30 9 0; V 26 33 10 0; V 13 35
  11 0; V 6 9 12 0; V 3 10 13 0; V 1 12 13 0; V 23167 15 15 1; V 16165 36 16 0; V 11506 38 17 0; V 8316 39 18 0; V 6073 40 19 0; V 4482 42 20 0; V 3311
  43 21 0; V 2465 45 22 0; V 1839 46 23 0; V 1372 48 24 0; V 1030 49 25 0; V 771 51 26 0; V 576 52 27 0; V 433 54 28 0; V 324 56 29 0; V 245 57 30 0; V
  183 59 31 0; V 138 60 32 0; V 104 62 33 0; V 78 63 34 0; V 59 32 35 0; V 44 33 9 0; V 23265 37 37 1; V 18508 64 38 0; V 14861 65 39 0; V 12017 67 40
  0; V 9759 68 41 0; V 7987 69 42 0; V 6568 70 43 0; V 5400 72 44 0; V 4471 73 45 0; V 3700 74 46 0; V 3067 75 47 0; V 2552 77 48 0; V 2145 78 49 0; V
  1798 79 50 0; V 1485 48 51 0; V 1246 50 52 0; V 1039 50 53 0; V 867 51 54 0; V 724 52 55 0; V 604 53 56 0; V 504 54 57 0; V 420 55 58 0; V 352 56 59
  0; V 293 57 60 0; V 246 58 61 0; V 203 59 62 0; V 171 61 63 0; V 143 61 32 0; V 23314 65 65 1; V 19716 80 66 0; V 16684 81 67 0; V 14296 82 68 0; V
  12264 83 69 0; V 10556 84 70 0; V 9081 86 71 0; V 7903 87 72 0; V 6825 87 73 0; V 5966 72 74 0; V 5156 72 75 0; V 4508 74 76 0; V 3947 74 77 0; V 3409
  75 78 0; V 2998 77 79 0; V 2624 77 48 0; V 22578 80 81 1; V 19740 88 82 0; V 17294 89 83 0; V 15325 90 84 0; V 13550 91 85 0; V 11950 92 86 0; V 10650
  93 87 0; V 9494 86 71 0; V 21872 88 89 1; V 19625 95 90 0; V 17625 96 91 0; V 15906 97 92 0; V 14372 99 93 0; V 12980 99 94 0; V 11799 93 86 0; V
  22184 95 96 1; V 20294 101 97 0; V 18405 102 98 0; V 16847 103 99 0; V 15421 104 100 0; V 14174 99 93 0; V 21041 105 102 0; V 19471 106 103 0; V 17977
  107 104 0; V 16734 103 99 0; V 22055 105 106 1; V 20711 108 107 0; V 19333 109 103 0; V 21911 110 109 0; V 20559 111 107 0; V 23056 110 111 1; V 21794
  112 109 0; V 23019 112 111 1; V 23069 113 113 0 ].

(* ---- encoder ---- *)
(* jcarith.c:29-42: registers of arith_entropy_encoder; e_out: bytes passed to emit_byte, in order (no trellis passes) *)
Record estate := mkE { e_c : Z; e_a : Z; e_sc : Z; e_zc : Z; e_ct : Z; e_buf : Z; e_out : list Z }.
(* jcarith.c:876-882 and 353-360 *)
Definition e_init : estate := mkE 0 65536 0 0 11 (-1) [].
(* jcarith.c:119-134 emit_byte *)
Definition emit (e : estate) (bytes : list Z) : estate := mkE (e_c e) (e_a e) (e_sc e) (e_zc e) (e_ct e) (e_buf e) (e_out e ++ map u8 bytes).
(* jcarith.c:157-159 and repetitions: if (e->zc) do emit_byte(0x00) while (--e->zc) *)
Definition flush_zc (e : estate) : estate :=
  let e' := emit e (repeat 0 (Z.to_nat (e_zc e))) in mkE (e_c e') (e_a e') (e_sc e') 0 (e_ct e') (e_buf e') (e_out e').
(* jcarith.c:264-274, 155-166: overflow over all stacked 0xFF bytes *)
Definition carry (e : estate) : estate :=
  let e := if 0 <=? e_buf e then
      let e := emit (flush_zc e) [e_buf e + 1] in if e_buf e + 1 =? 255 then emit e [0] else e
    else e in
  mkE (e_c e) (e_a e) 0 (e_zc e + e_sc e) (e_ct e) (e_buf e) (e_out e).
(* jcarith.c:284-300, 168-184: output buffer and all stacked 0xFF bytes *)
Definition no_carry (e : estate) : estate :=
  let e := if e_buf e =? 0 then mkE (e_c e) (e_a e) (e_sc e) (e_zc e + 1) (e_ct e) (e_buf e) (e_out e)
           else if 0 <=? e_buf e then emit (flush_zc e) [e_buf e] else e in
  if e_sc e =? 0 then e else
  let e := emit (flush_zc e) (concat (repeat [255; 0] (Z.to_nat (e_sc e)))) in
  mkE (e_c e) (e_a e) 0 (e_zc e) (e_ct e) (e_buf e) (e_out e).
(* jcarith.c:259-304: a byte is ready *)
Definition byte_out (e : estate) : estate :=
  let temp := Z.shiftr (e_c e) 19 in
  let e := if 255 <? temp then let e := carry e in mkE (e_c e) (e_a e) (e_sc e) (e_zc e) (e_ct e) (Z.land temp 255) (e_out e)
           else if temp =? 255 then mkE (e_c e) (e_a e) (e_sc e + 1) (e_zc e) (e_ct e) (e_buf e) (e_out e)
           else let e := no_carry e in mkE (e_c e) (e_a e) (e_sc e) (e_zc e) (e_ct e) (Z.land temp 255) (e_out e) in
  mkE (Z.land (e_c e) 524287) (e_a e) (e_sc e) (e_zc e) (e_ct e + 8) (e_buf e) (e_out e).
(* jcarith.c:254-306: do ... while (e->a < 0x8000) *)
Fixpoint e_renorm (fuel : nat) (e : estate) : outcome estate :=
  match fuel with
  | O => Undef
  | S fuel =>
    let e := mkE (Z.shiftl (e_c e) 1) (Z.shiftl (e_a e) 1) (e_sc e) (e_zc e) (e_ct e - 1) (e_buf e) (e_out e) in
    let e := if e_ct e =? 0 then byte_out e else e in
    if e_a e <? 32768 then e_renorm fuel e else Ret e
  end.
(* jcarith.c:212-307 arith_encode; sv: the statistics bin; the new bin is returned *)
Definition arith_encode (e : estate) (sv : Z) (val : bool) : outcome (estate * Z) :=
  qe <- aget jpeg_aritab (Z.land sv 127) ;;
  let nl := Z.land qe 255 in let qe := Z.shiftr qe 8 in
  let nm := Z.land qe 255 in let qe := Z.shiftr qe 8 in
  let a := e_a e - qe in
  let setca := fun c a => mkE c a (e_sc e) (e_zc e) (e_ct e) (e_buf e) (e_out e) in
  if negb (Z.b2z val =? Z.shiftr sv 7) then
    let e1 := if qe <=? a then setca (e_c e + a) qe else setca (e_c e) a in
    e2 <- e_renorm 20 e1 ;; Ret (e2, Z.lxor (Z.land sv 128) nl)
  else if 32768 <=? a then Ret (setca (e_c e) a, sv)
  else
    let e1 := if a <? qe then setca (e_c e + a) qe else setca (e_c e) a in
    e2 <- e_renorm 20 e1 ;; Ret (e2, Z.lxor (Z.land sv 128) nm).
(* successive decisions (bin number, value) *)
Fixpoint encode_all (ds : list (Z * bool)) (e : estate) (bins : list Z) : outcome (estate * list Z) :=
  match ds with
  | [] => Ret (e, bins)
  | (ctx, val) :: ds => sv <- aget bins ctx ;; '(e, sv) <- arith_encode e sv val ;; bins <- aset bins ctx sv ;; encode_all ds e bins
  end.
(* jcarith.c:141-199 finish_pass: the bytes of the whole segment *)
Definition finish_pass (e : estate) : list Z :=
  let temp := Z.land (e_a e - 1 + e_c e) 4294901760 in
  let c := if temp <? e_c e then temp + 32768 else temp in
  let c := Z.shiftl c (e_ct e) in
  let e := if negb (Z.land c 4160749568 =? 0) then carry e else no_carry e in
  let stuffed := fun b => if b =? 255 then [b; 0] else [b] in
  let e := if negb (Z.land c 134215680 =? 0) then
      let e := flush_zc e in
      let e := emit e (stuffed (Z.land (Z.shiftr c 19) 255)) in
      if negb (Z.land c 522240 =? 0) then emit e (stuffed (Z.land (Z.shiftr c 11) 255)) else e
    else e in
  e_out e.

(* ---- decoder ---- *)
(* jdarith.c:32-41; d_in: bytes not yet read; d_marker: cinfo->unread_marker *)
Record dstate := mkD { d_c : Z; d_a : Z; d_ct : Z; d_in : list Z; d_marker : Z }.
(* jdarith.c:216-219: values at the start of a segment *)
Definition d_init (input : list Z) : dstate := mkD 0 0 (-16) input 0.
(* jdarith.c:128-129: do data = get_byte() while (data == 0xFF); running out of input is JERR_CANT_SUSPEND (jdarith.c:73-84) *)
Fixpoint skip_ff (l : list Z) : outcome (Z * list Z) :=
  match l with [] => Error JERR_CANT_SUSPEND | b :: t => if b =? 255 then skip_ff t else Ret (b, t) end.
(* jdarith.c:121-144: the next data byte *)
Definition next_data (d : dstate) : outcome (Z * dstate) :=
  if negb (d_marker d =? 0) then Ret (0, d) else
  match d_in d with
  | [] => Error JERR_CANT_SUSPEND
  | b :: t =>
    if b =? 255 then
      '(b, t) <- skip_ff t ;;
      if b =? 0 then Ret (255, mkD (d_c d) (d_a d) (d_ct d) t (d_marker d)) else Ret (0, mkD (d_c d) (d_a d) (d_ct d) t b)
    else Ret (b, mkD (d_c d) (d_a d) (d_ct d) t (d_marker d))
  end.
(* jdarith.c:118-153: while (e->a < 0x8000) *)
Fixpoint d_renorm (fuel : nat) (d : dstate) : outcome dstate :=
  if d_a d <? 32768 then
    match fuel with
    | O => Undef
    | S fuel =>
      let d := mkD (d_c d) (d_a d) (d_ct d - 1) (d_in d) (d_marker d) in
      d <- (if d_ct d <? 0 then
              '(data, d) <- next_data d ;;
              let d := mkD (Z.lor (Z.shiftl (d_c d) 8) data) (d_a d) (d_ct d + 8) (d_in d) (d_marker d) in
              Ret (if d_ct d <? 0 then
                     let d := mkD (d_c d) (d_a d) (d_ct d + 1) (d_in d) (d_marker d) in
                     if d_ct d =? 0 then mkD (d_c d) 32768 (d_ct d) (d_in d) (d_marker d) else d
                   else d)
            else Ret d) ;;
      d_renorm fuel (mkD (d_c d) (Z.shiftl (d_a d) 1) (d_ct d) (d_in d) (d_marker d))
    end
  else Ret d.
(* jdarith.c:108-190 arith_decode; returns the decision and the new bin *)
Definition arith_decode (d : dstate) (sv : Z) : outcome (bool * Z * dstate) :=
  d <- d_renorm 20 d ;;
  qe <- aget jpeg_aritab (Z.land sv 127) ;;
  let nl := Z.land qe 255 in let qe := Z.shiftr qe 8 in
  let nm := Z.land qe 255 in let qe := Z.shiftr qe 8 in
  let a := d_a d - qe in
  let temp := Z.shiftl a (d_ct d) in
  let setca := fun c a => mkD c a (d_ct d) (d_in d) (d_marker d) in
  let mps := negb (Z.shiftr sv 7 =? 0) in
  let lps := negb (Z.shiftr (Z.lxor sv 128) 7 =? 0) in
  if temp <=? d_c d then
    if a <? qe then Ret (mps, Z.lxor (Z.land sv 128) nm, setca (d_c d - temp) qe)
    else Ret (lps, Z.lxor (Z.land sv 128) nl, setca (d_c d - temp) qe)
  else if a <? 32768 then
    if a <? qe then Ret (lps, Z.lxor (Z.land sv 128) nl, setca (d_c d) a)
    else Ret (mps, Z.lxor (Z.land sv 128) nm, setca (d_c d) a)
  else Ret (mps, sv, setca (d_c d) a).
(* decoding with a given sequence of bins *)
Fixpoint decode_all (ctxs : list Z) (d : dstate) (bins : list Z) : outcome (list bool * dstate * list Z) :=
  match ctxs with
  | [] => Ret ([], d, bins)
  | ctx :: ctxs => sv <- aget bins ctx ;; '(v, sv, d) <- arith_decode d sv ;; bins <- aset bins ctx sv ;;
      '(vs, d, bins) <- decode_all ctxs d bins ;; Ret (v :: vs, d, bins)
  end.
