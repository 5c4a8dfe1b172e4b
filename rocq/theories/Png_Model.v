(* Model of the pixel side of the PNG decoder: blend2d/codec/pngops_p.h, blend2d/codec/pngops.cpp (portable inverse filter)
   and blend2d/codec/pngcodec.cpp (Adam7 layout, deinterlacing, the second half of decoder_read_pixel_data).
   Memory is one list of bytes holding the inflated data, its scratch area and the temporary rows; pointers are indices into it and
   any access outside is UB.  Pixel conversion is not modelled: BLPixelConverter::convert_rect is recorded as the packed source rows
   it is given, each with the number of the destination row (the log). *)
From Verif Require Import Base IntOps_Model Algorithm_Model.

(* blend2d/core/api.h *)
Definition BL_ERROR_OUT_OF_MEMORY : Z := 0x10000.
Definition BL_ERROR_INVALID_DATA : Z := 0x1002E.
Definition BL_ERROR_IMAGE_TOO_LARGE : Z := 0x1003A.
(* blend2d/core/runtime.h 23 *)
Definition BL_RUNTIME_MAX_IMAGE_SIZE : Z := 65535.

(* ------------------------------------------------------------------ inverse filter *)

(* pngcodec_p.h 28-35 *)
Definition kFilterTypeNone : Z := 0.
Definition kFilterTypeSub : Z := 1.
Definition kFilterTypeUp : Z := 2.
Definition kFilterTypeAvg : Z := 3.
Definition kFilterTypePaeth : Z := 4.
Definition kFilterTypeCount : Z := 5.
Definition kFilterTypeAvg0 : Z := 5.

(* pngops_p.h 25-35 *)
Definition kReplacement : Z :=
  Z.lor (Z.lor (Z.lor (Z.lor (Z.shiftl kFilterTypeNone 0) (Z.shiftl kFilterTypeSub 4)) (Z.shiftl kFilterTypeNone 8))
    (Z.shiftl kFilterTypeAvg0 12)) (Z.shiftl kFilterTypeSub 16).
Definition simplify_filter_of_first_row (filter : Z) : Z := Z.land (Z.shiftr kReplacement (filter * 4)) 0xF.
(* pngops_p.h 37-38 *)
Definition apply_sum_filter (a b : Z) : Z := w8 (Z.land (w32 (a + b)) 0xFF).
(* pngops_p.h 40-41 *)
Definition apply_avg_filter (a b : Z) : Z := Z.shiftr (w32 (a + b)) 1.
(* pngops_p.h 107-117; a, b, c are bytes, so the conversions to int32_t are exact *)
Definition apply_paeth_filter (a b c : Z) : Z :=
  let threshold := w32 (c * 3) - w32 (a + b) in
  let min_ab := Z.min a b in
  let max_ab := Z.max a b in
  let t0 := if threshold <? max_ab then c else min_ab in
  if min_ab <? threshold then t0 else max_ab.

(* The loops `for (i = n; i != 0; i--, p++, u++) p[off] = body` of pngops.cpp 41-94; [g] computes the stored byte. *)
Fixpoint filter_loop (fuel : nat) (off : Z) (g : list Z -> Z -> Z -> outcome Z) (i p u : Z) (m : list Z) : outcome (list Z * Z) :=
  if i =? 0 then Ok (m, p) else
  match fuel with
  | O => NoFuel
  | S fuel' => let* v := g m p u in let* m := wr m (p + off) v in filter_loop fuel' off g (i - 1) (p + 1) (u + 1) m
  end.

Definition g_sum (off : Z) (h : list Z -> Z -> Z -> outcome Z) (m : list Z) (p u : Z) : outcome Z :=
  let* x := rd m (p + off) in let* y := h m p u in Ok (apply_sum_filter x y).
Definition g_left (m : list Z) (p u : Z) : outcome Z := rd m p.
Definition g_up (m : list Z) (p u : Z) : outcome Z := rd m u.
Definition g_up_half (m : list Z) (p u : Z) : outcome Z := let* b := rd m u in Ok (Z.shiftr b 1).
Definition g_left_half (m : list Z) (p u : Z) : outcome Z := let* a := rd m p in Ok (Z.shiftr a 1).
Definition g_avg (m : list Z) (p u : Z) : outcome Z := let* a := rd m p in let* b := rd m u in Ok (apply_avg_filter a b).
Definition g_paeth (bpp : Z) (m : list Z) (p u : Z) : outcome Z :=
  let* a := rd m p in let* b := rd m (u + bpp) in let* c := rd m u in Ok (apply_paeth_filter a b c).

(* pngops.cpp 38-95: the switch of one row; gives the memory and `p` after the row.  The loops over the first [bpp] bytes
   (`for (i = 0; i < bpp; i++) p[i] = ...`) do not advance p and u. *)
Definition filter_row (filter_type bpp bpl p u : Z) (m : list Z) : outcome (list Z * Z) :=
  let fuel := S (length m) in
  let n := w32 (bpl - bpp) in
  if filter_type =? kFilterTypeSub then
    let* (m, p) := filter_loop fuel bpp (g_sum bpp g_left) n p u m in Ok (m, p + bpp)
  else if filter_type =? kFilterTypeUp then
    filter_loop fuel 0 (g_sum 0 g_up) bpl p u m
  else if filter_type =? kFilterTypeAvg then
    let* (m, _) := filter_loop fuel 0 (g_sum 0 g_up_half) bpp p u m in
    let* (m, p) := filter_loop fuel bpp (g_sum bpp g_avg) n p (u + bpp) m in Ok (m, p + bpp)
  else if filter_type =? kFilterTypePaeth then
    let* (m, _) := filter_loop fuel 0 (g_sum 0 g_up) bpp p u m in
    let* (m, p) := filter_loop fuel bpp (g_sum bpp (g_paeth bpp)) n p u m in Ok (m, p + bpp)
  else if filter_type =? kFilterTypeAvg0 then
    let* (m, p) := filter_loop fuel bpp (g_sum bpp g_left_half) n p u m in Ok (m, p + bpp)
  else Ok (m, p + bpl).

(* pngops.cpp 97-104: `--y`, the next row *)
Fixpoint filter_rows (fuel : nat) (filter_type y bpp bpl p u : Z) (m : list Z) : outcome (list Z) :=
  match fuel with
  | O => NoFuel
  | S fuel' =>
    let* (m, p) := filter_row filter_type bpp bpl p u m in
    let y := w32 (y - 1) in
    if y =? 0 then Ok m else
    let u := p - bpl in
    let* ft := rd m p in
    filter_rows fuel' (if kFilterTypeCount <=? ft then kFilterTypeNone else ft) y bpp bpl (p + 1) u m
  end.

(* pngops.cpp 18-108; [u] is null (index -1) until the second row.  The assertions bpp > 0, bpl > 1, h > 0 are only checked in debug
   builds. *)
Definition inverse_filter_impl (p bpp bpl h : Z) (m : list Z) : outcome (list Z) :=
  let bpl := w32 (bpl - 1) in
  let* ft := rd m p in
  let ft := if kFilterTypeCount <=? ft then kFilterTypeNone else ft in
  filter_rows (S (length m)) (simplify_filter_of_first_row ft) h bpp bpl (p + 1) (-1) m.

(* ------------------------------------------------------------------ interlacing *)

(* pngcodec.cpp 89-107 *)
Record step := { s_used : bool; s_width : Z; s_height : Z; s_bpl : Z; s_offset : Z; s_size : Z }.
Record itab := { x_off : Z; y_off : Z; x_pow : Z; y_pow : Z }.
Definition tab (a b c d : Z) : itab := {| x_off := a; y_off := b; x_pow := c; y_pow := d |}.

(* pngcodec.cpp 109-136 *)
Definition interlace_table_none : list itab := [tab 0 0 0 0].
Definition interlaceTableAdam7 : list itab :=
  [tab 0 0 3 3; tab 4 0 3 3; tab 0 4 2 3; tab 2 0 2 2; tab 0 2 1 2; tab 1 0 1 1; tab 0 1 0 1].

(* pngcodec.cpp 147-170: one iteration *)
Definition interlace_step (t : itab) (sample_depth sample_count w h offset : Z) : step :=
  let sx := Z.shiftl 1 (x_pow t) in
  let sy := Z.shiftl 1 (y_pow t) in
  let sw := Z.shiftr (w32 (w + sx - x_off t - 1)) (x_pow t) in
  let sh := Z.shiftr (w32 (h + sy - y_off t - 1)) (y_pow t) in
  let used := negb (sw =? 0) && negb (sh =? 0) in
  let bpl := w32 (w32 (w32 (w32 (sw * sample_depth) + 7) / 8 * sample_count) + 1) in
  let size := if used then w32 (bpl * sh) else 0 in
  {| s_used := used; s_width := sw; s_height := sh; s_bpl := bpl; s_offset := offset; s_size := size |}.

(* pngcodec.cpp 138-182; gives the steps and the returned total (0 if the sum of the sizes overflows) *)
Fixpoint interlace_steps (table : list itab) (sample_depth sample_count w h offset : Z) (acc : list step) : list step * Z :=
  match table with
  | [] => (rev acc, offset)
  | t :: table' =>
    let s := interlace_step t sample_depth sample_count w h offset in
    let '(offset', of) := add_overflow 32 false offset (s_size s) false in
    if of then (rev (s :: acc), 0) else interlace_steps table' sample_depth sample_count w h offset' (s :: acc)
  end.
Definition calculate_interlace_steps (table : list itab) (sample_depth sample_count w h : Z) : list step * Z :=
  interlace_steps table sample_depth sample_count w h 0 [].

(* ------------------------------------------------------------------ deinterlacing, less than 8 bits per pixel *)

(* pngcodec.cpp 184-194 *)
Definition combineByte1bpp (b0 b1 b2 b3 b4 b5 b6 b7 : Z) : Z :=
  w8 (Z.lor (Z.lor (Z.lor (Z.lor (Z.lor (Z.lor (Z.lor (Z.land b0 0x80) (Z.land b1 0x40)) (Z.land b2 0x20)) (Z.land b3 0x10))
    (Z.land b4 0x08)) (Z.land b5 0x04)) (Z.land b6 0x02)) (Z.land b7 0x01)).
Definition combineByte2bpp (b0 b1 b2 b3 : Z) : Z :=
  w8 (Z.land b0 0xC0 + Z.land b1 0x30 + Z.land b2 0x0C + Z.land b3 0x03).
Definition combineByte4bpp (b0 b1 : Z) : Z := w8 (Z.land b0 0xF0 + Z.land b1 0x0F).

Notation "a '<<' n" := (w32 (Z.shiftl a n)) (at level 35).
Notation "a '>>' n" := (Z.shiftr a n) (at level 35).

(* Row n = 0 of every four (image rows 0 mod 8): the four bytes made of one 32 bit block.
   N = 1: pngcodec.cpp 248-251 and 271-280; N = 2: 395-398 and 417-426; N = 4: 544-547 and 566-575. *)
Definition emit0 (N a b : Z) : list Z :=
  if N =? 1 then
    [combineByte1bpp a        (b >> 9)  (b >> 2) (b >> 10) (a >> 12) (b >> 11) (b >> 5) (b >> 12);
     combineByte1bpp (a << 1) (b >> 5)  b        (b >> 6)  (a >> 11) (b >> 7)  (b >> 3) (b >> 8);
     combineByte1bpp (a << 2) (b >> 17) (b << 2) (b >> 18) (a >> 10) (b >> 19) (b >> 1) (b >> 20);
     combineByte1bpp (a << 3) (b >> 13) (b << 4) (b >> 14) (a >> 9)  (b >> 15) (b << 1) (b >> 16)]
  else if N =? 2 then
    [combineByte2bpp a        (b >> 10) (b >> 4) (b >> 12);
     combineByte2bpp (a >> 8) (b >> 6)  (b >> 2) (b >> 8);
     combineByte2bpp (a << 2) (b >> 18) b        (b >> 20);
     combineByte2bpp (a >> 6) (b >> 14) (b << 2) (b >> 16)]
  else
    [combineByte4bpp a        (b >> 12);
     combineByte4bpp b        (b >> 8);
     combineByte4bpp (a >> 8) (b >> 20);
     combineByte4bpp (b << 4) (b >> 16)].

(* Row n = 2 (image rows 4 mod 8), a full block; b1 and b2 are the two bytes of pass 5.
   N = 1: pngcodec.cpp 295-302; N = 2: 443-452; N = 4: 592-599. *)
Definition emit2 (N a b1 b2 : Z) : list Z :=
  if N =? 1 then
    let b := w32 (b1 + (b2 << 8)) in
    [combineByte1bpp a        (b >> 1) (a >> 10) (b >> 2)  (a >> 3) (b >> 3)  (a >> 13) (b >> 4);
     combineByte1bpp (a << 2) (b << 3) (a >> 8)  (b << 2)  (a >> 1) (b << 1)  (a >> 11) b;
     combineByte1bpp (a << 4) (b >> 9) (a >> 6)  (b >> 10) (a << 1) (b >> 11) (a >> 9)  (b >> 12);
     combineByte1bpp (a << 6) (b >> 5) (a >> 4)  (b >> 6)  (a << 3) (b >> 7)  (a >> 7)  (b >> 8)]
  else if N =? 2 then
    [combineByte2bpp a        (b1 >> 2) (a >> 12) (b1 >> 4);
     combineByte2bpp (a << 2) (b1 << 2) (a >> 10) b1;
     combineByte2bpp (a << 4) (b2 >> 2) (a >> 8)  (b2 >> 4);
     combineByte2bpp (a << 6) (b2 << 2) (a >> 6)  b2]
  else
    [combineByte4bpp a        (b1 >> 4);
     combineByte4bpp (a >> 8) b1;
     combineByte4bpp (a << 4) (b2 >> 4);
     combineByte4bpp (a >> 4) b2].

(* Row n = 2, the rest of the row for N = 1 (pngcodec.cpp 317-326) and N = 2 (464-473); b holds both bytes of pass 5. *)
Definition emit2_tail (N a b : Z) : list Z :=
  if N =? 1 then
    [combineByte1bpp a        (b >> 1) (a >> 10) (b >> 2)  (a >> 3) (b >> 3)  (a >> 13) (b >> 4);
     combineByte1bpp (a << 2) (b << 3) (a >> 8)  (b << 2)  (a >> 1) (b << 1)  (a >> 11) b;
     combineByte1bpp (a << 4) (b >> 9) (a >> 6)  (b >> 10) (a << 1) (b >> 11) (a >> 9)  (b >> 12);
     combineByte1bpp (a << 6) (b >> 5) (a >> 4)  (b >> 6)  (a << 3) (b >> 7)  (a >> 7)  (b >> 8)]
  else
    [combineByte2bpp a        (b >> 2)  (a >> 12) (b >> 4);
     combineByte2bpp (a << 2) (b << 2)  (a >> 10) b;
     combineByte2bpp (a << 4) (b >> 10) (a >> 8)  (b >> 12);
     combineByte2bpp (a << 6) (b >> 6)  (a >> 6)  (b >> 8)].

(* Rows n = 1 and n = 3 (image rows 2 and 6 mod 8), a full block.
   N = 1: pngcodec.cpp 344-345; N = 2: 493-494; N = 4: 640-641. *)
Definition emit13 (N a b : Z) : list Z :=
  if N =? 1 then
    [combineByte1bpp a        (b >> 1) (a >> 1) (b >> 2) (a >> 2) (b >> 3) (a >> 3) (b >> 4);
     combineByte1bpp (a << 4) (b << 3) (a << 3) (b << 2) (a << 2) (b << 1) (a << 1) b]
  else if N =? 2 then
    [combineByte2bpp a        (b >> 2) (a >> 2) (b >> 4);
     combineByte2bpp (a << 4) (b << 2) (a << 2) b]
  else
    [combineByte4bpp a        (b >> 4);
     combineByte4bpp (a << 4) b].

(* Rows n = 1 and n = 3, the rest of the row.  N = 1: pngcodec.cpp 360-363; N = 2: 509-512; N = 4: 656-659. *)
Definition emit13_tail (N a b : Z) : list Z :=
  if N =? 2 then
    [combineByte2bpp a        (b >> 10) (b >> 4) (b >> 12);
     combineByte2bpp (a >> 8) (b >> 6)  (b >> 2) (b >> 8)]
  else emit13 N a b.

Fixpoint wr_list (m : list Z) (t : Z) (l : list Z) : outcome (list Z) :=
  match l with [] => Ok m | v :: l' => let* m := wr m t v in wr_list m (t + 1) l' end.
(* `tmp_data[0] = ..; if (x <= g) break; tmp_data[1] = ..; if (x <= 2g) break; ...` *)
Fixpoint wr_tail (m : list Z) (t : Z) (l : list Z) (x lim g : Z) : outcome (list Z) :=
  match l with
  | [] => Ok m
  | v :: l' => let* m := wr m t v in if x <=? lim then Ok m else wr_tail m (t + 1) l' x (lim + g) g
  end.

(* The pointers d0 .. d5 into the passes. *)
Record ptrs := { d0 : Z; d1 : Z; d2 : Z; d3 : Z; d4 : Z; d5 : Z }.
Definition b2z (b : bool) : Z := if b then 1 else 0.

(* pngcodec.cpp 240-241 (N = 1), 386-388 (N = 2), 535-537 (N = 4): fetched every second iteration *)
Definition fetch_a (m : list Z) (a p0 p1 : Z) : outcome (Z * Z * Z) :=
  if Z.land a 0x80000000 =? 0 then
    let* v0 := rd m p0 in let* v1 := rd m p1 in Ok (w32 (v0 + (v1 << 8) + 0x08000000), p0 + 1, p1 + 1)
  else Ok (a, p0, p1).

(* pngcodec.cpp 238-256 (N = 1), 384-402 (N = 2), 533-551 (N = 4): one block is 32 / N pixels *)
Fixpoint loop0 (fuel : nat) (N x t a p0 p1 p3 p5 : Z) (m : list Z) : outcome (Z * Z * Z * Z * Z * Z * Z * list Z) :=
  if x <? 32 / N then Ok (x, t, a, p0, p1, p3, p5, m) else
  match fuel with
  | O => NoFuel
  | S fuel' =>
    let* (a, p0, p1) := fetch_a m a p0 p1 in
    let* v3 := rd m p3 in let* v5 := rd m p5 in let* v5' := rd m (p5 + 1) in
    let b := w32 (v3 + (v5 << 8) + (v5' << 16)) in
    let* m := wr_list m t (emit0 N a b) in
    loop0 fuel' N (x - 32 / N) (t + 4) (a << 4) p0 p1 (p3 + 1) (p5 + 2) m
  end.

(* `if (c) { v = *p++ }` *)
Definition fetch_if (c : bool) (m : list Z) (p : Z) : outcome (Z * Z) :=
  if c then let* v := rd m p in Ok (v, p + 1) else Ok (0, p).

(* pngcodec.cpp 261-280 (N = 1), 407-426 (N = 2), 556-575 (N = 4): the rest of row n = 0; the second byte of pass 5 is fetched from
   x >= 18, 10 and 6 pixels on *)
Definition tail0 (N x t a p0 p1 p3 p5 : Z) (m : list Z) : outcome (Z * Z * Z * Z * list Z) :=
  let* (a, p0, p1) :=
    (if Z.land a 0x80000000 =? 0 then
       let* v0 := rd m p0 in
       let* (v1, p1) := fetch_if (5 <=? x) m p1 in
       Ok (w32 (v0 + (v1 << 8)), p0 + 1, p1)
     else Ok (a, p0, p1)) in
  let* (v3, p3) := fetch_if (3 <=? x) m p3 in
  let* (v5, p5) := fetch_if (2 <=? x) m p5 in
  let* (v5', p5) := fetch_if ((if N =? 1 then 18 else if N =? 2 then 10 else 6) <=? x) m p5 in
  let b := w32 (v3 + (v5 << 8) + (v5' << 16)) in
  let* m := wr_tail m t (emit0 N a b) x (8 / N) (8 / N) in
  Ok (p0, p1, p3, p5, m).

(* pngcodec.cpp 230-282 (N = 1), 376-428 (N = 2), 525-577 (N = 4) *)
Definition row0 (N w t : Z) (d : ptrs) (m : list Z) : outcome (ptrs * list Z) :=
  let* (x, t, a, p0, p1, p3, p5, m) :=
    loop0 (S (length m)) N w t 0 (d0 d + 1) (d1 d + b2z (5 <=? w)) (d3 d + b2z (3 <=? w)) (d5 d + b2z (2 <=? w)) m in
  let* (p0, p1, p3, p5, m) := (if x =? 0 then Ok (p0, p1, p3, p5, m) else tail0 N x t a p0 p1 p3 p5 m) in
  Ok ({| d0 := p0; d1 := p1; d2 := d2 d; d3 := p3; d4 := d4 d; d5 := p5 |}, m).

(* pngcodec.cpp 294-306 (N = 1), 441-456 (N = 2), 590-603 (N = 4) *)
Fixpoint loop2 (fuel : nat) (N x t p2 p3 p5 : Z) (m : list Z) : outcome (Z * Z * Z * Z * Z * list Z) :=
  if x <? 32 / N then Ok (x, t, p2, p3, p5, m) else
  match fuel with
  | O => NoFuel
  | S fuel' =>
    let* v2 := rd m p2 in let* v3 := rd m p3 in let* b1 := rd m p5 in let* b2 := rd m (p5 + 1) in
    let a := w32 (v2 + (v3 << 8)) in
    let* m := wr_list m t (emit2 N a b1 b2) in
    loop2 fuel' N (x - 32 / N) (t + 4) (p2 + 1) (p3 + 1) (p5 + 2) m
  end.

(* pngcodec.cpp 311-326 (N = 1) and 458-473 (N = 2): for N = 2 the line `a = uint32_t(..) << 8` replaces a *)
Definition tail2 (N x t p2 p3 p5 : Z) (m : list Z) : outcome (Z * Z * Z * list Z) :=
  let* v2 := rd m p2 in
  let* (v3, p3) := fetch_if (3 <=? x) m p3 in
  let a := if (N =? 2) && (3 <=? x) then v3 << 8 else w32 (v2 + (v3 << 8)) in
  let* (v5, p5) := fetch_if (2 <=? x) m p5 in
  let* (v5', p5) := fetch_if ((if N =? 1 then 18 else 10) <=? x) m p5 in
  let b := w32 (v5 + (v5' << 8)) in
  let* m := wr_tail m t (emit2_tail N a b) x (8 / N) (8 / N) in
  Ok (p2 + 1, p3, p5, m).

(* pngcodec.cpp 608-624 (N = 4) *)
Definition tail2_4 (x t p2 p3 p5 : Z) (m : list Z) : outcome (Z * Z * Z * list Z) :=
  let* v2 := rd m p2 in
  let* (v3, p3) := fetch_if (3 <=? x) m p3 in
  let a := w32 (v2 + (v3 << 8)) in
  let* (b, p5) := fetch_if (2 <=? x) m p5 in
  let* m := wr m t (combineByte4bpp a (b >> 4)) in
  if x <=? 2 then Ok (p2 + 1, p3, p5, m) else
  let* m := wr m (t + 1) (combineByte4bpp (a >> 8) b) in
  if x <=? 4 then Ok (p2 + 1, p3, p5, m) else
  let* b := rd m p5 in
  let* m := wr m (t + 2) (combineByte4bpp (a << 4) (b >> 4)) in
  if x <=? 6 then Ok (p2 + 1, p3, p5 + 1, m) else
  let* m := wr m (t + 3) (combineByte4bpp (a >> 4) b) in
  Ok (p2 + 1, p3, p5 + 1, m).

(* pngcodec.cpp 287-328 (N = 1), 434-475 (N = 2), 583-626 (N = 4) *)
Definition row2 (N w t : Z) (d : ptrs) (m : list Z) : outcome (ptrs * list Z) :=
  let* (x, t, p2, p3, p5, m) :=
    loop2 (S (length m)) N w t (d2 d + 1) (d3 d + b2z (3 <=? w)) (d5 d + b2z (2 <=? w)) m in
  let* (p2, p3, p5, m) :=
    (if x =? 0 then Ok (p2, p3, p5, m) else if N =? 4 then tail2_4 x t p2 p3 p5 m else tail2 N x t p2 p3 p5 m) in
  Ok ({| d0 := d0 d; d1 := d1 d; d2 := p2; d3 := p3; d4 := d4 d; d5 := p5 |}, m).

(* pngcodec.cpp 340-349 (N = 1), 489-498 (N = 2), 636-645 (N = 4): one block is 16 / N pixels *)
Fixpoint loop13 (fuel : nat) (N x t p4 p5 : Z) (m : list Z) : outcome (Z * Z * Z * Z * list Z) :=
  if x <? 16 / N then Ok (x, t, p4, p5, m) else
  match fuel with
  | O => NoFuel
  | S fuel' =>
    let* a := rd m p4 in let* b := rd m p5 in
    let* m := wr_list m t (emit13 N a b) in
    loop13 fuel' N (x - 16 / N) (t + 2) (p4 + 1) (p5 + 1) m
  end.

(* pngcodec.cpp 354-364 (N = 1), 503-513 (N = 2), 650-660 (N = 4) *)
Definition tail13 (N x t p4 p5 : Z) (m : list Z) : outcome (Z * Z * list Z) :=
  let* a := rd m p4 in
  let* (b, p5) := fetch_if (2 <=? x) m p5 in
  let* m := wr_tail m t (emit13_tail N a b) x (8 / N) (8 / N) in
  Ok (p4 + 1, p5, m).

(* pngcodec.cpp 333-365 (N = 1), 482-514 (N = 2), 629-661 (N = 4) *)
Definition row13 (N w t : Z) (d : ptrs) (m : list Z) : outcome (ptrs * list Z) :=
  let* (x, t, p4, p5, m) := loop13 (S (length m)) N w t (d4 d + 1) (d5 d + b2z (2 <=? w)) m in
  let* (p4, p5, m) := (if x =? 0 then Ok (p4, p5, m) else tail13 N x t p4 p5 m) in
  Ok ({| d0 := d0 d; d1 := d1 d; d2 := d2 d; d3 := d3 d; d4 := p4; d5 := p5 |}, m).

(* pngcodec.cpp 226-663: the body of the row loop of deinterlace_bits<N> *)
Definition row_bits (N w n t : Z) (d : ptrs) (m : list Z) : outcome (ptrs * list Z) :=
  if n =? 0 then row0 N w t d m else if n =? 2 then row2 N w t d m else row13 N w t d m.

(* ------------------------------------------------------------------ deinterlacing, whole bytes *)

(* pngcodec.cpp 679-702: copy_bytes<N> *)
Fixpoint copy_bytes (n : nat) (dst src : Z) (m : list Z) : outcome (list Z) :=
  match n with
  | O => Ok m
  | S n' => let* v := rd m src in let* m := wr m dst v in copy_bytes n' (dst + 1) (src + 1) m
  end.

(* `for (x = start * N; x < x_max; x += inc * N) d = copy_bytes<N>(tmp_data + x, d)`; x and x_max are uint32_t *)
Fixpoint copy_loop (fuel : nat) (N x x_max inc t d : Z) (m : list Z) : outcome (Z * list Z) :=
  if negb (x <? x_max) then Ok (d, m) else
  match fuel with
  | O => NoFuel
  | S fuel' => let* m := copy_bytes (Z.to_nat N) (t + x) d m in copy_loop fuel' N (w32 (x + inc * N)) x_max inc t (d + N) m
  end.

(* pngcodec.cpp 728-769: the body of the row loop of deinterlace_bytes<N> *)
Definition row_bytes (N w n t : Z) (d : ptrs) (m : list Z) : outcome (ptrs * list Z) :=
  let x_max := w32 (w * N) in
  let fuel := S (length m) in
  if n =? 0 then
    let* (p0, m) := copy_loop fuel N (0 * N) x_max 8 t (d0 d + 1) m in
    let* (p1, m) := copy_loop fuel N (4 * N) x_max 8 t (d1 d + b2z (5 <=? w)) m in
    let* (p3, m) := copy_loop fuel N (2 * N) x_max 4 t (d3 d + b2z (3 <=? w)) m in
    let* (p5, m) := copy_loop fuel N (1 * N) x_max 2 t (d5 d + b2z (2 <=? w)) m in
    Ok ({| d0 := p0; d1 := p1; d2 := d2 d; d3 := p3; d4 := d4 d; d5 := p5 |}, m)
  else if n =? 2 then
    let* (p2, m) := copy_loop fuel N (0 * N) x_max 4 t (d2 d + 1) m in
    let* (p3, m) := copy_loop fuel N (2 * N) x_max 4 t (d3 d + b2z (3 <=? w)) m in
    let* (p5, m) := copy_loop fuel N (1 * N) x_max 2 t (d5 d + b2z (2 <=? w)) m in
    Ok ({| d0 := d0 d; d1 := d1 d; d2 := p2; d3 := p3; d4 := d4 d; d5 := p5 |}, m)
  else
    let* (p4, m) := copy_loop fuel N (0 * N) x_max 2 t (d4 d + 1) m in
    let* (p5, m) := copy_loop fuel N (1 * N) x_max 2 t (d5 d + b2z (2 <=? w)) m in
    Ok ({| d0 := d0 d; d1 := d1 d; d2 := d2 d; d3 := d3 d; d4 := p4; d5 := p5 |}, m).

(* ------------------------------------------------------------------ rows of the image *)

(* The bytes at [p, p + n). *)
Fixpoint rd_list (m : list Z) (p : Z) (n : nat) : outcome (list Z) :=
  match n with O => Ok [] | S n' => let* v := rd m p in let* l := rd_list m (p + 1) n' in Ok (v :: l) end.

(* convert_rect(dst, dst_stride, src, src_stride, w, h): [row] is the destination row of dst, [drow] the rows per dst_stride,
   [depth] the bits per source pixel *)
Fixpoint convert_rect (h : nat) (row drow src src_stride w depth : Z) (m : list Z) : outcome (list (Z * list Z)) :=
  match h with
  | O => Ok []
  | S h' =>
    let* l := rd_list m src (Z.to_nat ((w * depth + 7) / 8)) in
    let* log := convert_rect h' (row + drow) drow (src + src_stride) src_stride w depth m in
    Ok ((row, l) :: log)
  end.

(* pngcodec.cpp 216-219, 665-674 (deinterlace_bits) and 719-727, 771-780 (deinterlace_bytes): the row loop, [depth] bits per pixel *)
Fixpoint deinterlace_loop (fuel : nat) (depth w y n row tmp tmp_stride : Z) (d : ptrs) (m : list Z) (log : list (Z * list Z)) :
    outcome (list (Z * list Z)) :=
  match fuel with
  | O => NoFuel
  | S fuel' =>
    let t := tmp + n * tmp_stride in
    let* (d, m) := (if depth <? 8 then row_bits depth w n t d m else row_bytes (depth / 8) w n t d m) in
    let y := w32 (y - 1) in
    let n := n + 1 in
    if (y =? 0) || (n =? 4) then
      let* l := convert_rect (Z.to_nat n) row 2 tmp tmp_stride w depth m in
      let log := log ++ l in
      if y =? 0 then Ok log else deinterlace_loop fuel' depth w y 0 (row + 8) tmp tmp_stride d m log
    else deinterlace_loop fuel' depth w y n row tmp tmp_stride d m log
  end.

Definition no_step : step := {| s_used := false; s_width := 0; s_height := 0; s_bpl := 0; s_offset := 0; s_size := 0 |}.
Definition nstep (steps : list step) (i : nat) : step := nth i steps no_step.

(* pngcodec.cpp 200-219 / 704-722: deinterlace_bits<depth>, deinterlace_bytes<depth / 8> *)
Definition deinterlace (depth w h tmp tmp_stride : Z) (steps : list step) (m : list Z) : outcome (list (Z * list Z)) :=
  let off i := s_offset (nstep steps i) in
  deinterlace_loop (S (length m)) depth w (w32 (h + 1) / 2) 0 0 tmp tmp_stride
    {| d0 := off 0%nat; d1 := off 1%nat; d2 := off 2%nat; d3 := off 3%nat; d4 := off 4%nat; d5 := off 5%nat |} m [].

(* ------------------------------------------------------------------ decoder_read_pixel_data after inflating *)

(* pngcodec.cpp 1462-1468: inverse filter of every used step *)
Fixpoint filter_steps (bpp : Z) (steps : list step) (m : list Z) : outcome (list Z) :=
  match steps with
  | [] => Ok m
  | s :: steps' =>
    let* m := (if s_used s then inverse_filter_impl (s_offset s) bpp (s_bpl s) (s_height s) m else Ok m) in
    filter_steps bpp steps' m
  end.

(* pngcodec.cpp 1555-1597; [pad] is the distance from the temporary buffer to the next address that is a multiple of 16 and [oom] says
   that its allocation fails *)
Definition read_interlaced (depth w h pad : Z) (oom : bool) (steps : list step) (m : list Z) : outcome (list (Z * list Z)) :=
  let s6 := nstep steps 6 in
  let tmp_height := Z.min (w32 (h + 1) / 2) 4 in
  let tmp_bpl := s_bpl s6 in
  let* log :=
    (if s_height s6 =? 0 then Ok []
     else convert_rect (Z.to_nat (s_height s6)) 1 2 (1 + s_offset s6) tmp_bpl w depth m) in
  let tmp_bpl := align_up 32 tmp_bpl 16 in
  let tmp_size := w32 (tmp_bpl * tmp_height) in
  let* (tmp, m) :=
    (if s_size s6 <? w32 (tmp_size + 15) then
       if oom then Err BL_ERROR_OUT_OF_MEMORY
       else Ok (Z.of_nat (length m), m ++ repeat 0 (Z.to_nat (w32 (tmp_size + 15))))
     else Ok (s_offset s6, m)) in
  let* log' := deinterlace depth w h (tmp + pad) tmp_bpl steps m in
  Ok (log ++ log').

(* pngcodec.cpp 1386-1396, 1424-1427, 1459-1477, 1548-1604 for the first frame: [data] is what the deflate decoder produced, [scratch]
   the rest of the memory of png_pixel_data (at least kOutputSizeScratch bytes), [pad] and [oom] as above.
   Gives the rows handed to the pixel converter. *)
Definition read_pixels (progressive : bool) (sample_depth sample_count w h pad : Z) (oom : bool) (data scratch : list Z) :
    outcome (list (Z * list Z)) :=
  let '(steps, size) :=
    calculate_interlace_steps (if progressive then interlaceTableAdam7 else interlace_table_none) sample_depth sample_count w h in
  if size =? 0 then Err BL_ERROR_INVALID_DATA else
  if negb (Z.of_nat (length data) =? size) then Err BL_ERROR_INVALID_DATA else
  let bpp := Z.max (sample_depth * sample_count / 8) 1 in
  let* m := filter_steps bpp steps (data ++ scratch) in
  if (BL_RUNTIME_MAX_IMAGE_SIZE <? w) || (BL_RUNTIME_MAX_IMAGE_SIZE <? h) then Err BL_ERROR_IMAGE_TOO_LARGE else
  let depth := sample_depth * sample_count in
  if progressive then read_interlaced depth w h pad oom steps m
  else convert_rect (Z.to_nat h) 0 1 1 (s_bpl (nstep steps 0)) w depth m.
