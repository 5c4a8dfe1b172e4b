(* Model of blend2d/codec/qoicodec.cpp (64-bit arithmetic variant of UnpackedPixel).
   Pixel memory is addressed in pixels: the pixel at column x of row y has offset y * stride + x, where the stride may be
   negative; the byte stride of 32-bit images is assumed to be a multiple of four.  Reading or writing any offset that is
   not a pixel of the image (padding included) is undefined behaviour of the model. *)
From Verif Require Import Base Algorithm_Model PixelOps_Model.

(* blend2d/core/api.h 1143-1214, blend2d/core/runtime.h 23 *)
Definition BL_ERROR_INVALID_VALUE : Z := 0x10001.
Definition BL_ERROR_INVALID_SIGNATURE : Z := 0x1002D.
Definition BL_ERROR_INVALID_DATA : Z := 0x1002E.
Definition BL_ERROR_DATA_TRUNCATED : Z := 0x10031.
Definition BL_ERROR_IMAGE_TOO_LARGE : Z := 0x1003A.
Definition BL_ERROR_IMAGE_UNKNOWN_FILE_FORMAT : Z := 0x1003C.
Definition BL_RUNTIME_MAX_IMAGE_SIZE : Z := 65535.

(* qoicodec.cpp 35-53 *)
Definition kQoiHeaderSize : Z := 14.
Definition kQoiEndMarkerSize : Z := 8.
Definition kQoiOpIndex : Z := 0x00.
Definition kQoiOpDiff : Z := 0x40.
Definition kQoiOpLuma : Z := 0x80.
Definition kQoiOpRun : Z := 0xC0.
Definition kQoiOpRgb : Z := 0xFE.
Definition kQoiOpRgba : Z := 0xFF.
Definition qoi_magic : list Z := [113; 111; 105; 102].
Definition qoi_end_marker : list Z := [0; 0; 0; 0; 0; 0; 0; 1].

(* qoicodec.cpp 57-79 *)
Definition lut_rgb (r g b luma_mask : Z) : Z :=
  Z.lor (Z.lor (Z.lor (Z.shiftl (Z.land r 0xFF) 24) (Z.shiftl (Z.land g 0xFF) 16)) (Z.shiftl (Z.land b 0xFF) 8)) luma_mask.
Definition lut_diff (b0 : Z) : Z :=
  lut_rgb (w32 (Z.land (Z.shiftr b0 4) 0x3 - 2)) (w32 (Z.land (Z.shiftr b0 2) 0x3 - 2)) (w32 (Z.land b0 0x3 - 2)) 0x00.
Definition lut_luma (b0 : Z) : Z := lut_rgb (w32 (b0 - 40)) (w32 (b0 - 32)) (w32 (b0 - 40)) 0xFF.
Definition lut_value (idx : Z) : Z :=
  if idx <? 64 then lut_diff idx else if idx <? 128 then lut_luma (idx - 64) else 0.
Definition qoiIndexDiffLumaLUT : list Z := map (fun n => lut_value (Z.of_nat n)) (seq 0 129).

(* qoicodec.cpp 84-88 *)
Definition hashPixelAGxRBx64 (ag_rb : Z) : Z :=
  Z.shiftr (w64 (ag_rb * (11 * 2 ^ 10 + 5 * 2 ^ 26 + 3 * 2 ^ 42 + 7 * 2 ^ 58))) 58.
(* qoicodec.cpp 90-95 *)
Definition hashPixelAGxRBx32 (ag rb : Z) : Z :=
  Z.shiftr (w32 (w32 (ag * (11 * 2 ^ 2 + 5 * 2 ^ 18)) + w32 (rb * (3 * 2 ^ 10 + 7 * 2 ^ 26)))) 26.
(* qoicodec.cpp 97-103 (64-bit branch, 32-bit branch) *)
Definition mask64 : Z := 0x00FF00FF00FF00FF.
Definition hashPixelRGBA32 (pixel : Z) : Z := hashPixelAGxRBx64 (Z.land (Z.lor (w64 (Z.shiftl pixel 24)) pixel) mask64).
Definition hashPixelRGBA32_32bit (pixel : Z) : Z := hashPixelAGxRBx32 (Z.land pixel 0xFF00FF00) (Z.land pixel 0x00FF00FF).
(* qoicodec.cpp 105-107 *)
Definition hashPixelA8 (a : Z) : Z := Z.land (w32 (0xFF * (3 + 5 + 7) + a * 11)) 0x3F.

(* qoicodec.cpp 113-143: struct UnpackedPixel, one 64-bit word 0x00AA00GG00RR00BB *)
Definition up_unpack (packed : Z) : Z := Z.land (Z.lor (w64 (Z.shiftl packed 24)) packed) mask64.
Definition up_unpackRGBA (r g b a : Z) : Z :=
  Z.lor (Z.lor (Z.lor (w64 (Z.shiftl a 48)) (w64 (Z.shiftl g 32))) (w64 (Z.shiftl r 16))) b.
Definition up_pack (has_alpha : bool) (ag_rb : Z) : Z :=
  let rgba32 := Z.lor (w32 (Z.shiftr ag_rb 24)) (w32 (Z.land ag_rb 0xFFFFFFFF)) in
  if has_alpha then cvt_prgb32_from_argb32 rgba32 else Z.lor rgba32 0xFF000000.
Definition up_hash (ag_rb : Z) : Z := hashPixelAGxRBx64 ag_rb.
Definition up_add (ag_rb other : Z) : Z := w64 (ag_rb + other).
Definition up_mask (ag_rb : Z) : Z := Z.land ag_rb mask64.
Definition up_opRGBX (ag_rb hbyte0 other : Z) : Z :=
  let msk := w64 (Z.shiftl (w32 (hbyte0 + 1)) 48) in
  Z.lor (Z.land ag_rb msk) (Z.land other (w64 (Z.lnot msk))).

(* A pixel offset belongs to the image. *)
Definition in_image (w h stride o : Z) : bool :=
  let y := Z.sgn stride * (o / Z.abs stride) in
  (0 <=? y) && (y <? h) && (o mod Z.abs stride <? w).

Definition be32 (b0 b1 b2 b3 : Z) : Z := b0 * 2 ^ 24 + b1 * 2 ^ 16 + b2 * 2 ^ 8 + b3.
Definition rd_be32 (d : list Z) (i : Z) : outcome Z :=
  let* b0 := rd d i in let* b1 := rd d (i + 1) in let* b2 := rd d (i + 2) in let* b3 := rd d (i + 3) in Ok (be32 b0 b1 b2 b3).

(* ------------------------------------------------------------------ decoder *)

Record info := { i_w : Z; i_h : Z; i_depth : Z }.

(* qoicodec.cpp 204-246 *)
Definition read_info (d : list Z) : outcome info :=
  if Z.of_nat (length d) <? kQoiHeaderSize then Err BL_ERROR_DATA_TRUNCATED else
  let* m0 := rd d 0 in let* m1 := rd d 1 in let* m2 := rd d 2 in let* m3 := rd d 3 in
  if negb ((m0 =? 113) && (m1 =? 111) && (m2 =? 105) && (m3 =? 102)) then Err BL_ERROR_INVALID_SIGNATURE else
  let* w := rd_be32 d 4 in let* h := rd_be32 d 8 in
  if (w =? 0) || (h =? 0) then Err BL_ERROR_INVALID_DATA else
  let* channels := rd d 12 in let* colorspace := rd d 13 in
  if negb (channels =? 3) && negb (channels =? 4) then Err BL_ERROR_IMAGE_UNKNOWN_FILE_FORMAT else
  if 1 <? colorspace then Err BL_ERROR_IMAGE_UNKNOWN_FILE_FORMAT else
  if (BL_RUNTIME_MAX_IMAGE_SIZE <? w) || (BL_RUNTIME_MAX_IMAGE_SIZE <? h) then Err BL_ERROR_IMAGE_TOO_LARGE else
  Ok {| i_w := w; i_h := h; i_depth := channels * 8 |}.

(* Local variables of decode_qoi_data; d_log lists the pixel stores performed so far, latest first. *)
Record dstate := {
  d_src : Z; d_row : Z; d_ptr : Z; d_end : Z; d_h : Z;
  d_pix : Z; d_upix : Z; d_ptab : list Z; d_utab : list Z;
  d_log : list (Z * Z) }.

Inductive dres := Done (log : list (Z * Z)) | More (s : dstate).

Section Decode.
  Context (has_alpha : bool) (w h0 stride : Z) (data : list Z).

  Definition set_src (s : dstate) (o : Z) : dstate :=
    {| d_src := o; d_row := d_row s; d_ptr := d_ptr s; d_end := d_end s; d_h := d_h s; d_pix := d_pix s; d_upix := d_upix s;
       d_ptab := d_ptab s; d_utab := d_utab s; d_log := d_log s |}.
  Definition set_pix (s : dstate) (p u : Z) : dstate :=
    {| d_src := d_src s; d_row := d_row s; d_ptr := d_ptr s; d_end := d_end s; d_h := d_h s; d_pix := p; d_upix := u;
       d_ptab := d_ptab s; d_utab := d_utab s; d_log := d_log s |}.
  Definition set_tabs (s : dstate) (pt ut : list Z) : dstate :=
    {| d_src := d_src s; d_row := d_row s; d_ptr := d_ptr s; d_end := d_end s; d_h := d_h s; d_pix := d_pix s; d_upix := d_upix s;
       d_ptab := pt; d_utab := ut; d_log := d_log s |}.

  (* `*dst_ptr = packed_pixel; ++dst_ptr` *)
  Definition put (s : dstate) : outcome dstate :=
    if in_image w h0 stride (d_ptr s) then
      Ok {| d_src := d_src s; d_row := d_row s; d_ptr := d_ptr s + 1; d_end := d_end s; d_h := d_h s; d_pix := d_pix s;
            d_upix := d_upix s; d_ptab := d_ptab s; d_utab := d_utab s; d_log := (d_ptr s, d_pix s) :: d_log s |}
    else UB.

  (* qoicodec.cpp 189-193: fillRgba32(dst_ptr, packed_pixel, fill) *)
  Fixpoint fill (n : nat) (s : dstate) : outcome dstate :=
    match n with O => Ok s | S n' => let* s := put s in fill n' s end.

  (* qoicodec.cpp 379-381 *)
  Definition next_row (s : dstate) : dstate :=
    {| d_src := d_src s; d_row := d_row s + stride; d_ptr := d_row s + stride; d_end := d_row s + stride + w; d_h := d_h s - 1;
       d_pix := d_pix s; d_upix := d_upix s; d_ptab := d_ptab s; d_utab := d_utab s; d_log := d_log s |}.

  (* qoicodec.cpp 360-386: the `store_rle` loop over rows; entered with hbyte0 = n *)
  Fixpoint store_rle (fuel : nat) (n : Z) (s : dstate) : outcome dres :=
    match fuel with
    | O => NoFuel
    | S f =>
      let limit := d_end s - d_ptr s in
      let cnt := Z.min n limit in
      let n := n - cnt in
      let* s := fill (Z.to_nat cnt) s in
      if negb (d_ptr s =? d_end s) then Ok (More s) else
      if d_h s - 1 =? 0 then Ok (Done (d_log s)) else
      let s := next_row s in
      if negb (n =? 0) then store_rle f n s else Ok (More s)
    end.

  (* qoicodec.cpp 375-386 with hbyte0 = 0 *)
  Definition end_of_row (s : dstate) : outcome dres :=
    if d_h s - 1 =? 0 then Ok (Done (d_log s)) else Ok (More (next_row s)).

  (* qoicodec.cpp 329-341, then 375-386 *)
  Definition store_pixel (s : dstate) : outcome dres :=
    let hash := up_hash (d_upix s) in
    let pp := up_pack has_alpha (d_upix s) in
    let* ut := wr (d_utab s) hash (d_upix s) in
    let s := set_pix s pp (d_upix s) in
    let* s := put s in
    let* pt := wr (d_ptab s) hash pp in
    let s := set_tabs s pt ut in
    if negb (d_ptr s =? d_end s) then Ok (More s) else end_of_row s.

  (* qoicodec.cpp 279-387: one iteration of the main loop *)
  Definition decode_step (s : dstate) : outcome dres :=
    let remaining := Z.of_nat (length data) - d_src s in
    if remaining <? kQoiEndMarkerSize + 1 then Err BL_ERROR_DATA_TRUNCATED else
    let* hbyte0 := rd data (d_src s) in
    let* hbyte1 := rd data (d_src s + 1) in
    let s := set_src s (d_src s + 1) in
    if hbyte0 <? kQoiOpRun then
      if hbyte0 <? 64 then
        let* p := rd (d_ptab s) hbyte0 in
        let* u := rd (d_utab s) hbyte0 in
        let s := set_pix s p u in
        let* s := put s in
        if negb (d_ptr s =? d_end s) then
          if negb (hbyte1 <? 64) then Ok (More s) else
          let* p := rd (d_ptab s) hbyte1 in
          let* u := rd (d_utab s) hbyte1 in
          let s := set_src (set_pix s p u) (d_src s + 1) in
          let* s := put s in
          if negb (d_ptr s =? d_end s) then Ok (More s) else end_of_row s
        else end_of_row s
      else
        let s := set_src s (d_src s + Z.shiftr hbyte0 7) in
        let* delta := rd qoiIndexDiffLumaLUT (hbyte0 - 64) in
        let hbyte1 := Z.land hbyte1 delta in
        let delta := Z.shiftr delta 8 in
        let u := up_add (d_upix s) (Z.land (Z.lor hbyte1 (w32 (Z.shiftl hbyte1 12))) 0x000F000F) in
        let u := up_add u (up_unpack delta) in
        store_pixel (set_pix s (d_pix s) (up_mask u))
    else
      if kQoiOpRgb <=? hbyte0 then
        let* b1 := rd data (d_src s + 1) in
        let* b2 := rd data (d_src s + 2) in
        let* b3 := rd data (d_src s + 3) in
        let u := up_opRGBX (d_upix s) hbyte0 (up_unpackRGBA hbyte1 b1 b2 b3) in
        store_pixel (set_src (set_pix s (d_pix s) u) (d_src s + (hbyte0 - 251)))
      else store_rle 64 (Z.land hbyte0 0x3F + 1) s.

  Fixpoint decode_loop (fuel : nat) (s : dstate) : outcome (list (Z * Z)) :=
    match fuel with
    | O => NoFuel
    | S f => let* r := decode_step s in match r with Done l => Ok l | More s => decode_loop f s end
    end.

  (* qoicodec.cpp 248-277, src0 = index of the first chunk byte *)
  Definition decode_qoi_data (src0 : Z) (ptab utab : list Z) : outcome (list (Z * Z)) :=
    let pix := 0xFF000000 in
    let upix := up_unpack pix in
    let* hbyte0 := rd data src0 in
    let* (pt, ut) :=
      if (kQoiOpRun <=? hbyte0) && (hbyte0 <? kQoiOpRun + 62) then
        let hash := up_hash upix in
        let* pt := wr ptab hash pix in
        let* ut := wr utab hash upix in
        Ok (pt, ut)
      else Ok (ptab, utab) in
    decode_loop (S (length data))
      {| d_src := src0; d_row := 0; d_ptr := 0; d_end := w; d_h := h0; d_pix := pix; d_upix := upix; d_ptab := pt; d_utab := ut; d_log := [] |}.
End Decode.

(* qoicodec.cpp 390-428.  image_out->create is assumed to succeed and to choose the stride.
   The result lists the pixel stores in execution order. *)
Definition read_frame (inf : info) (stride : Z) (d : list Z) : outcome (list (Z * Z)) :=
  if Z.of_nat (length d) <? kQoiHeaderSize then Err BL_ERROR_DATA_TRUNCATED else
  if Z.of_nat (length d) <=? kQoiHeaderSize then Err BL_ERROR_DATA_TRUNCATED else
  let ptab := repeat (if i_depth inf =? 32 then 0 else 0xFF000000) 64 in
  let utab := repeat 0 64 in
  let* log := decode_qoi_data (i_depth inf =? 32) (i_w inf) (i_h inf) stride d kQoiHeaderSize ptab utab in
  Ok (rev log).

(* qoicodec.cpp 460-471 on a fresh decoder: read_info then read_frame; stride_of w is the stride of the created image *)
Definition qoi_decode (stride_of : Z -> Z) (d : list Z) : outcome (info * list (Z * Z)) :=
  let* inf := read_info d in
  let* log := read_frame inf (stride_of (i_w inf)) d in
  Ok (inf, log).

(* ------------------------------------------------------------------ encoder *)

(* BLRgba32 accessors, blend2d/core/rgba.h 54-63 *)
Definition rgba_r (v : Z) : Z := Z.land (Z.shiftr v 16) 0xFF.
Definition rgba_g (v : Z) : Z := Z.land (Z.shiftr v 8) 0xFF.
Definition rgba_b (v : Z) : Z := Z.land v 0xFF.
Definition rgba_a (v : Z) : Z := Z.shiftr v 24.

(* qoicodec.cpp 633-664 and, with the same statements, 741-772: DIFF, LUMA or RGB chunk for p after pixel *)
Definition delta_chunk (pixel p : Z) : list Z :=
  let dr := w32 (rgba_r p - rgba_r pixel) in
  let dg := w32 (rgba_g p - rgba_g pixel) in
  let db := w32 (rgba_b p - rgba_b pixel) in
  let xr := Z.land (w32 (dr + 2)) 0xFF in
  let xg := Z.land (w32 (dg + 2)) 0xFF in
  let xb := Z.land (w32 (db + 2)) 0xFF in
  if Z.lor (Z.lor xr xg) xb <=? 0x3 then
    [w8 (Z.lor (Z.lor (Z.lor kQoiOpDiff (Z.shiftl xr 4)) (Z.shiftl xg 2)) xb)]
  else
    let dg_r := w32 (dr - dg) in
    let dg_b := w32 (db - dg) in
    let xr := Z.land (w32 (dg_r + 8)) 0xFF in
    let xg := Z.land (w32 (dg + 32)) 0xFF in
    let xb := Z.land (w32 (dg_b + 8)) 0xFF in
    if (Z.lor xr xb <=? 0xF) && (xg <=? 0x3F) then
      [w8 (Z.lor kQoiOpLuma xg); w8 (Z.lor (Z.shiftl xr 4) xb)]
    else [kQoiOpRgb; w8 (rgba_r p); w8 (rgba_g p); w8 (rgba_b p)].

(* Encoding of one pixel that does not continue a run: previous (non-premultiplied) pixel, table, pixel ->
   bytes, new previous pixel, new table. *)
(* qoicodec.cpp 547-563 *)
Definition emit_a8 (prev : Z) (tbl : list Z) (p : Z) : outcome (list Z * Z * list Z) :=
  let hash := hashPixelA8 p in
  let* t := rd tbl hash in
  if t =? p then Ok ([w8 (Z.lor kQoiOpIndex hash)], p, tbl)
  else let* tbl := wr tbl hash (w16 p) in Ok ([kQoiOpRgba; 0xFF; 0xFF; 0xFF; w8 p], p, tbl).
(* qoicodec.cpp 625-667 *)
Definition emit_xrgb (prev : Z) (tbl : list Z) (p : Z) : outcome (list Z * Z * list Z) :=
  let hash := hashPixelRGBA32 p in
  let* t := rd tbl hash in
  if t =? p then Ok ([w8 (Z.lor kQoiOpIndex hash)], p, tbl)
  else let* tbl := wr tbl hash p in Ok (delta_chunk prev p, p, tbl).
(* qoicodec.cpp 730-785 *)
Definition emit_prgb (prev : Z) (tbl : list Z) (pm : Z) : outcome (list Z * Z * list Z) :=
  let* np := cvt_argb32_from_prgb32 pm in
  let hash := hashPixelRGBA32 np in
  let* t := rd tbl hash in
  if t =? np then Ok ([w8 (Z.lor kQoiOpIndex hash)], np, tbl)
  else
    let* tbl := wr tbl hash np in
    if rgba_a prev =? rgba_a np then Ok (delta_chunk prev np, np, tbl)
    else Ok ([kQoiOpRgba; w8 (rgba_r np); w8 (rgba_g np); w8 (rgba_b np); w8 (rgba_a np)], np, tbl).

(* The three encoders (493-574, 576-678, 680-796) have the same loop structure; they differ in the normalisation of the
   pixel read (identity or | 0xFF000000), in the initial previous pixel and in the emission code above. *)
Section Encode.
  Context (norm : Z -> Z) (emit : Z -> list Z -> Z -> outcome (list Z * Z * list Z)).
  Context (w h0 : nat) (stride : Z) (src : Z -> Z).

  Definition rd_src (o : Z) : outcome Z :=
    if in_image (Z.of_nat w) (Z.of_nat h0) stride o then Ok (norm (src o)) else UB.

  (* 518-523: `while (x)` *)
  Fixpoint scan_row (x : nat) (o pixel p : Z) : outcome (nat * Z * Z) :=
    match x with
    | O => Ok (O, o, p)
    | S x' => let* p := rd_src o in if negb (p =? pixel) then Ok (x, o + 1, p) else scan_row x' (o + 1) pixel p
    end.

  (* 515-534: `for (;;)` over rows; h >= 1 *)
  Fixpoint scan_rows (h x : nat) (o pixel p n : Z) : outcome (nat * nat * Z * Z * Z) :=
    match h with
    | O => NoFuel
    | S h' =>
      let* (x', o, p) := scan_row x o pixel p in
      let n := n + (Z.of_nat x - Z.of_nat x') in
      match x' with
      | O => match h' with O => Ok (O, O, o, p, n) | S _ => scan_rows h' w (o + (stride - Z.of_nat w)) pixel p n end
      | S _ => Ok (x', h, o, p, n)
      end
    end.

  (* 536-540: `do ... while (n)` *)
  Fixpoint emit_runs (fuel : nat) (n : Z) : outcome (list Z) :=
    match fuel with
    | O => NoFuel
    | S f =>
      let run := Z.min n 62 in
      let b := w8 (run + (kQoiOpRun - 1)) in
      if n - run =? 0 then Ok [b] else let* r := emit_runs f (n - run) in Ok (b :: r)
    end.

  Fixpoint encode_loop (fuel : nat) (h x : nat) (o pixel prev : Z) (tbl out : list Z) : outcome (list Z) :=
    match fuel with
    | O => NoFuel
    | S f =>
      let literal h x o p out :=
        let* (bs, prev, tbl) := emit prev tbl p in
        let out := out ++ bs in
        match x with
        | O => UB
        | S O => match h with
                 | O => UB
                 | S O => Ok out
                 | S h' => encode_loop f h' w (o + (stride - Z.of_nat w)) p prev tbl out
                 end
        | S x' => encode_loop f h x' o p prev tbl out
        end in
      let* p := rd_src o in
      let o := o + 1 in
      if p =? pixel then
        let* (x, h, o, p, n) := scan_rows h (x - 1) o pixel p 1 in
        let* r := emit_runs (Z.to_nat n) n in
        match x with O => Ok (out ++ r) | S _ => literal h x o p (out ++ r) end
      else literal h x o p out
    end.

  Definition encode_data (pixel : Z) (tbl : list Z) : outcome (list Z) :=
    encode_loop (w * h0) h0 w 0 pixel 0xFF000000 tbl [].
End Encode.

Inductive qoi_format := FmtA8 | FmtXRGB32 | FmtPRGB32.

(* qoicodec.cpp 493-502, 576-581, 680-686 *)
Definition encodeQoiData (f : qoi_format) (w h : nat) (stride : Z) (src : Z -> Z) : outcome (list Z) :=
  match f with
  | FmtA8 => encode_data (fun p => p) emit_a8 w h stride src 0xFFFFFFFF (repeat 0xFFFF 64)
  | FmtXRGB32 => encode_data (fun p => Z.lor p 0xFF000000) emit_xrgb w h stride src 0xFF000000 (repeat 0 64)
  | FmtPRGB32 => encode_data (fun p => p) emit_prgb w h stride src 0xFF000000 (repeat 0 64)
  end.

Definition be32_bytes (v : Z) : list Z := [w8 (Z.shiftr v 24); w8 (Z.shiftr v 16); w8 (Z.shiftr v 8); w8 v].
Definition channels_of (f : qoi_format) : Z := match f with FmtXRGB32 => 3 | _ => 4 end.
(* 823-827 *)
Definition max_size_of (f : qoi_format) (w h : Z) : Z := w64 (w64 (w64 (w * h) * (channels_of f + 1)) + kQoiHeaderSize + kQoiEndMarkerSize).

(* qoicodec.cpp 806-868 on a valid image; the array is assumed to be allocated with max_size bytes, writing more is UB *)
Definition write_frame (f : qoi_format) (w h : nat) (stride : Z) (src : Z -> Z) : outcome (list Z) :=
  if (Z.of_nat w =? 0) || (Z.of_nat h =? 0) then Err BL_ERROR_INVALID_VALUE else
  let max_size := max_size_of f (Z.of_nat w) (Z.of_nat h) in
  let hdr := qoi_magic ++ be32_bytes (Z.of_nat w) ++ be32_bytes (Z.of_nat h) ++ [channels_of f; 0] in
  let* body := encodeQoiData f w h stride src in
  let file := hdr ++ body ++ qoi_end_marker in
  if max_size <? Z.of_nat (length file) then UB else Ok file.

(* qoicodec.cpp 895-928 *)
Definition inspect_data (d : list Z) : outcome Z :=
  let size := Z.of_nat (length d) in
  if size =? 0 then Ok 0 else
  let magic_size := Z.min size 4 in
  if negb (forallb (fun '(a, b) => a =? b) (combine qoi_magic (firstn 4 d))) then Ok 0 else
  if size <? 12 then Ok magic_size else
  let* w := rd_be32 d 4 in let* h := rd_be32 d 8 in
  if (w =? 0) || (h =? 0) then Ok 0 else
  if size <? 14 then Ok (magic_size + 1) else
  let* channels := rd d 12 in let* colorspace := rd d 13 in
  if negb (channels =? 3) && negb (channels =? 4) then Ok 0 else
  if 1 <? colorspace then Ok 0 else Ok 100.
