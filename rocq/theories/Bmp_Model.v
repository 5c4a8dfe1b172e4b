(* Model of blend2d/codec/bmpcodec.cpp and bmpcodec_p.h (little-endian machine).
   Pixel memory of an image is a flat list of 32-bit pixels: the pixel at column x of row y is element y * stride + x, the
   stride being counted in pixels (it may be negative while decoding bottom-up files).  Reading or writing outside of the
   list, or reading outside of the input buffer, is undefined behaviour of the model.
   Not modelled: the text fields of BLImageInfo, the partially filled BLImageInfo returned by a failed read_info, allocation
   failure, and the arithmetic of BLPixelConverter, which is a parameter (one row of bytes to one row of pixels). *)
From Verif Require Import Base Algorithm_Model IntOps_Model Qoi_Model.

(* blend2d/core/api.h 1143-1214 *)
Definition BL_ERROR_NO_MORE_DATA : Z := 0x10019.
Definition BL_ERROR_DECOMPRESSION_FAILED : Z := 0x10033.

(* bmpcodec_p.h 24-29 *)
Definition kHeaderSizeOS2_V1 : Z := 12.
Definition kHeaderSizeWIN_V1 : Z := 40.
Definition kHeaderSizeWIN_V2 : Z := 52.
Definition kHeaderSizeWIN_V3 : Z := 56.
Definition kHeaderSizeWIN_V4 : Z := 108.
Definition kHeaderSizeWIN_V5 : Z := 12.

(* bmpcodec_p.h 31-52 *)
Definition kCompressionRGB : Z := 0.
Definition kCompressionRLE8 : Z := 1.
Definition kCompressionRLE4 : Z := 2.
Definition kCompressionBitFields : Z := 3.
Definition kCompressionAlphaBitFields : Z := 6.
Definition kColorSpaceDD_RGB : Z := 1.
Definition kRleLine : Z := 0.
Definition kRleStop : Z := 1.
Definition kRleMove : Z := 2.
Definition kRleCount : Z := 3.
Definition kRleBackground : Z := 0.

(* ---------------------------------------------------------------- RLE ---- *)

(* bmpcodec.cpp 137-146 (RLE4): the i pixels of a filled run, two at a time, then one *)
Fixpoint rle4_fill (i : nat) (m : list Z) (d c0 c1 : Z) : outcome (list Z * Z) :=
  match i with
  | S (S i') => let* m1 := wr m d c0 in let* m2 := wr m1 (d + 1) c1 in rle4_fill i' m2 (d + 2) c0 c1
  | S O => let* m1 := wr m d c0 in Ok (m1, d + 1)
  | O => Ok (m, d)
  end.

(* bmpcodec.cpp 254-256 (RLE8) and 220-222 / 317-319: i pixels of one color *)
Fixpoint rle_solid (i : nat) (m : list Z) (d c : Z) : outcome (list Z * Z) :=
  match i with
  | S i' => let* m1 := wr m d c in rle_solid i' m1 (d + 1) c
  | O => Ok (m, d)
  end.

(* bmpcodec.cpp 157-183 (RLE4): the i pixels of an absolute run; [p] is the rest of the input *)
Fixpoint rle4_abs (i : nat) (pal p m : list Z) (d : Z) : outcome (list Z * list Z * Z) :=
  match i with
  | O => Ok (p, m, d)
  | S O =>
      match p with
      | b0 :: _ :: p' =>
          let* c0 := rd pal (Z.shiftr b0 4) in let* m1 := wr m d c0 in Ok (p', m1, d + 1)
      | _ => UB
      end
  | S (S O) =>
      match p with
      | b0 :: _ :: p' =>
          let* c0 := rd pal (Z.shiftr b0 4) in let* m1 := wr m d c0 in
          let* c1 := rd pal (Z.land b0 15) in let* m2 := wr m1 (d + 1) c1 in Ok (p', m2, d + 2)
      | _ => UB
      end
  | S (S (S O)) =>
      match p with
      | b0 :: b1 :: p' =>
          let* c0 := rd pal (Z.shiftr b0 4) in let* m1 := wr m d c0 in
          let* c1 := rd pal (Z.land b0 15) in let* m2 := wr m1 (d + 1) c1 in
          let* c2 := rd pal (Z.shiftr b1 4) in let* m3 := wr m2 (d + 2) c2 in Ok (p', m3, d + 3)
      | _ => UB
      end
  | S (S (S (S i'))) =>
      match p with
      | b0 :: b1 :: p' =>
          let* c0 := rd pal (Z.shiftr b0 4) in let* m1 := wr m d c0 in
          let* c1 := rd pal (Z.land b0 15) in let* m2 := wr m1 (d + 1) c1 in
          let* c2 := rd pal (Z.shiftr b1 4) in let* m3 := wr m2 (d + 2) c2 in
          let* c3 := rd pal (Z.land b1 15) in let* m4 := wr m3 (d + 3) c3 in
          rle4_abs i' pal p' m4 (d + 4)
      | _ => UB
      end
  end.

(* bmpcodec.cpp 267-280 (RLE8) *)
Fixpoint rle8_abs (i : nat) (pal p m : list Z) (d : Z) : outcome (list Z * list Z * Z) :=
  match i with
  | O => Ok (p, m, d)
  | S O =>
      match p with
      | b0 :: _ :: p' => let* c0 := rd pal b0 in let* m1 := wr m d c0 in Ok (p', m1, d + 1)
      | _ => UB
      end
  | S (S i') =>
      match p with
      | b0 :: b1 :: p' =>
          let* c0 := rd pal b0 in let* m1 := wr m d c0 in
          let* c1 := rd pal b1 in let* m2 := wr m1 (d + 1) c1 in rle8_abs i' pal p' m2 (d + 2)
      | _ => UB
      end
  end.

(* bmpcodec.cpp 211-218 / 308-315: for (; y < to_y; y++) { for (x = w - x; x; x--) write; line += stride; data = line };
   [k] is to_y - y.  The result is (memory, line, data, x). *)
Fixpoint rle_skip_rows (k : nat) (w stride : Z) (m : list Z) (line d x : Z) : outcome (list Z * Z * Z * Z) :=
  match k with
  | O => Ok (m, line, d, x)
  | S k' =>
      let* md := rle_solid (Z.to_nat (w - x)) m d kRleBackground in
      rle_skip_rows k' w stride (fst md) (line + stride) (line + stride) 0
  end.

(* bmpcodec.cpp 117-229 decodeRLE4 ([four] = true) and 234-326 decodeRLE8 ([four] = false): the two functions differ only in
   the fill and absolute branches.  [p] is the rest of the input, [line] and [d] the offsets of dst_line and dst_data.
   The result is the BLResult and the pixel memory. *)
Fixpoint decode_rle (fuel : nat) (four : bool) (w h stride : Z) (pal p m : list Z) (line d x y : Z)
  : outcome (Z * list Z) :=
  match fuel with
  | O => NoFuel
  | S fuel' =>
      match p with
      | b0 :: b1 :: p1 =>
          if negb (b0 =? 0) then
            let i := Z.to_nat (Z.min b0 (w - x)) in
            if four then
              let* c0 := rd pal (Z.shiftr b1 4) in
              let* c1 := rd pal (Z.land b1 15) in
              let* md := rle4_fill i m d c0 c1 in
              decode_rle fuel' four w h stride pal p1 (fst md) line (snd md) (x + Z.of_nat i) y
            else
              let* c0 := rd pal b1 in
              let* md := rle_solid i m d c0 in
              decode_rle fuel' four w h stride pal p1 (fst md) line (snd md) (x + Z.of_nat i) y
          else if kRleCount <=? b1 then
            let i := Z.to_nat (Z.min b1 (w - x)) in
            let req_bytes := if four then Z.land (Z.shiftr (b1 + 3) 1) (Z.lnot 1) else Z.shiftl (Z.shiftr (b1 + 1) 1) 1 in
            if Z.of_nat (length p1) <? req_bytes then Ok (BL_ERROR_DATA_TRUNCATED, m)
            else
              let* pmd := if four then rle4_abs i pal p1 m d else rle8_abs i pal p1 m d in
              let '(p2, m2, d2) := pmd in
              decode_rle fuel' four w h stride pal p2 m2 line d2 (x + Z.of_nat i) y
          else
            let* t :=
              if b1 =? kRleLine then Ok (inr (p1, 0, y + 1))
              else if b1 =? kRleMove then
                match p1 with
                | dx :: dy :: p2 =>
                    if (w <? x + dx) || (h <? y + dy) then Ok (inl BL_ERROR_DECOMPRESSION_FAILED)
                    else Ok (inr (p2, x + dx, y + dy))
                | _ => Ok (inl BL_ERROR_DATA_TRUNCATED)
                end
              else Ok (inr (p1, 0, h)) in
            match t with
            | inl code => Ok (code, m)
            | inr (p2, to_x, to_y) =>
                let* r := rle_skip_rows (Z.to_nat (to_y - y)) w stride m line d x in
                let '(m1, line1, d1, x1) := r in
                let* md := rle_solid (Z.to_nat (to_x - x1)) m1 d1 kRleBackground in
                let y1 := Z.max y to_y in
                if (b1 =? kRleStop) || (y1 =? h) then Ok (0, fst md)
                else decode_rle fuel' four w h stride pal p2 (fst md) line1 (snd md) (Z.max x1 to_x) y1
            end
      | _ => Ok (BL_ERROR_DATA_TRUNCATED, m)
      end
  end.

(* ------------------------------------------------------------- header ---- *)

(* memops_p.h readU32uLE and the memcpy of little-endian header fields *)
Definition r8 (data : list Z) (i : Z) : outcome Z := rd data i.
Definition r16 (data : list Z) (i : Z) : outcome Z :=
  let* b0 := rd data i in let* b1 := rd data (i + 1) in Ok (b0 + 256 * b1).
Definition r32 (data : list Z) (i : Z) : outcome Z :=
  let* a := r16 data i in let* b := r16 data (i + 2) in Ok (a + 65536 * b).

(* bmpcodec.cpp 64-71 *)
Definition check_header_size (n : Z) : bool :=
  (n =? kHeaderSizeOS2_V1) || (n =? kHeaderSizeWIN_V1) || (n =? kHeaderSizeWIN_V2) || (n =? kHeaderSizeWIN_V3) ||
  (n =? kHeaderSizeWIN_V4) || (n =? kHeaderSizeWIN_V5).
(* bmpcodec.cpp 73-80 *)
Definition check_depth (n : Z) : bool :=
  (n =? 1) || (n =? 4) || (n =? 8) || (n =? 16) || (n =? 24) || (n =? 32).
(* bmpcodec.cpp 82-85 *)
Definition check_image_size (w h : Z) : bool := (w <=? BL_RUNTIME_MAX_IMAGE_SIZE) && (h <=? BL_RUNTIME_MAX_IMAGE_SIZE).
(* bmpcodec.cpp 87-112; [i] is the index of the head of [masks] *)
Fixpoint check_bit_masks (i combined : Z) (masks : list Z) : bool :=
  match masks with
  | [] => true
  | m :: t =>
      if (m =? 0) && negb (i =? 3) then false
      else if negb (m =? 0) && negb (is_bit_mask_consecutive 32 m) then false
      else if negb (Z.land combined m =? 0) then false
      else check_bit_masks (i + 1) (Z.lor combined m) t
  end.

(* core/format_p.h 125-144 assign_absolute_masks: one channel, as (size, shift) *)
Definition mask_size_shift (m : Z) : Z * Z :=
  if m =? 0 then (0, 0)
  else
    let shift := ctz_fallback 5 m in
    let m1 := Z.shiftr m shift in
    ((if 0xFFFFFFFF <=? m1 then 32 else ctz_fallback 5 (0xFFFFFFFF - m1)), shift).

(* BLFormatInfo as filled by the codec: depth, indexed flag, (size, shift) of R, G, B, A *)
Record bmp_format : Type := BmpFormat { f_depth : Z; f_indexed : bool; f_chan : list (Z * Z) }.

(* The members of BLBmpDecoderImpl that a successful read_info leaves behind: file.image_offset, info.header_size,
   info.win.width/height (height still signed), bits_per_pixel, compression, image_size, stride, fmt, buffer_index *)
Record bmp_info : Type := BmpInfo {
  i_offset : Z; i_hsize : Z; i_w : Z; i_h : Z; i_depth : Z; i_comp : Z; i_size : Z; i_stride : Z;
  i_fmt : bmp_format; i_index : Z }.

(* bmpcodec.cpp 473-496: fmt before bit fields are considered *)
Definition default_format (depth : Z) : bmp_format :=
  if depth <=? 8 then BmpFormat depth true [(0, 0); (0, 0); (0, 0); (0, 0)]
  else if depth =? 16 then BmpFormat depth false [(5, 10); (5, 5); (5, 0); (0, 0)]
  else BmpFormat depth false [(8, 16); (8, 8); (8, 0); (0, 0)].

(* the four masks of info.win after memcpy(&info, data, header_size) on a zeroed header: masks[i] lies at offset 40 + 4i *)
Definition header_mask (data : list Z) (hsize i : Z) : outcome Z :=
  if 44 + 4 * i <=? hsize then r32 data (14 + 40 + 4 * i) else Ok 0.

(* bmpcodec.cpp 498-528: the format and the number of mask bytes that follow the header *)
Definition read_masks (data : list Z) (hsize depth comp : Z) : outcome (bmp_format * Z) :=
  let* ext :=
    if (hsize =? kHeaderSizeWIN_V1) && ((comp =? kCompressionBitFields) || (comp =? kCompressionAlphaBitFields)) then
      let channels := 3 + (if comp =? kCompressionAlphaBitFields then 1 else 0) in
      if negb (depth =? 16) && negb (depth =? 32) then Err BL_ERROR_IMAGE_UNKNOWN_FILE_FORMAT
      else if Z.of_nat (length data) - (14 + hsize) <? channels * 4 then Err BL_ERROR_DATA_TRUNCATED
      else
        let* r := r32 data (14 + hsize) in
        let* g := r32 data (14 + hsize + 4) in
        let* b := r32 data (14 + hsize + 8) in
        let* a := if channels =? 4 then r32 data (14 + hsize + 12) else Ok 0 in
        Ok (Some [r; g; b; a], channels * 4)
    else if (8 <? depth) && (kHeaderSizeWIN_V2 <=? hsize) then
      let* r := header_mask data hsize 0 in
      let* g := header_mask data hsize 1 in
      let* b := header_mask data hsize 2 in
      let* a := header_mask data hsize 3 in
      Ok (Some [r; g; b; a], 0)
    else Ok (None, 0) in
  match ext with
  | (None, n) => Ok (default_format depth, n)
  | (Some masks, n) =>
      if check_bit_masks 0 0 masks then Ok (BmpFormat depth (f_indexed (default_format depth)) (map mask_size_shift masks), n)
      else Err BL_ERROR_INVALID_DATA
  end.

(* bmpcodec.cpp 331-532 decoder_read_info_internal *)
Definition read_info_internal (data : list Z) : outcome bmp_info :=
  let size := Z.of_nat (length data) in
  if size <? 18 then Err BL_ERROR_DATA_TRUNCATED
  else
    let* s0 := r8 data 0 in
    let* s1 := r8 data 1 in
    if negb ((s0 =? 0x42) && (s1 =? 0x4D)) then Err BL_ERROR_INVALID_SIGNATURE
    else
      let* offset := r32 data 10 in
      let* hsize := r32 data 14 in
      if negb (check_header_size hsize) then Err BL_ERROR_IMAGE_UNKNOWN_FILE_FORMAT
      else if size - 14 <? hsize then Err BL_ERROR_DATA_TRUNCATED
      else
        let os2 := hsize =? kHeaderSizeOS2_V1 in
        let* w := if os2 then let* v := r16 data 18 in Ok (to_s 16 v) else let* v := r32 data 18 in Ok (to_s 32 v) in
        let* h := if os2 then let* v := r16 data 20 in Ok (to_s 16 v) else let* v := r32 data 22 in Ok (to_s 32 v) in
        let* planes := if os2 then r16 data 22 else r16 data 26 in
        let* depth := if os2 then r16 data 24 else r16 data 28 in
        let* comp := if os2 then Ok kCompressionRGB else r32 data 30 in
        if (h =? - 2 ^ 31) || (w <=? 0) then Err BL_ERROR_INVALID_DATA
        else if negb (planes =? 1) then Err BL_ERROR_IMAGE_UNKNOWN_FILE_FORMAT
        else
          let ah := Z.abs h in
          let rle_used := ((depth =? 4) && (comp =? kCompressionRLE4)) || ((depth =? 8) && (comp =? kCompressionRLE8)) in
          if negb (comp =? kCompressionRGB) && (depth <=? 8) && negb rle_used then Err BL_ERROR_IMAGE_UNKNOWN_FILE_FORMAT
          else if offset <? 14 + hsize then Err BL_ERROR_INVALID_DATA
          else if negb (check_image_size w ah) then Err BL_ERROR_IMAGE_TOO_LARGE
          else if negb (check_depth depth) then Err BL_ERROR_IMAGE_UNKNOWN_FILE_FORMAT
          else
            let stride := Z.land ((w * depth + 7) / 8 + 3) (0xFFFFFFFC) in
            let image_size := Z.land stride 0xFFFFFFFF * ah in
            if (0xFFFFFFFF <=? stride) || (0xFFFFFFFF <? image_size) then Err BL_ERROR_INVALID_DATA
            else
              let* fsize := if os2 then Ok image_size else r32 data 34 in
              let isize := if os2 || ((fsize =? 0) && negb rle_used) then image_size else fsize in
              if negb rle_used && (isize <? image_size) then Err BL_ERROR_INVALID_DATA
              else
                let* fm := read_masks data hsize depth comp in
                Ok (BmpInfo offset hsize w h depth comp isize stride (fst fm) (14 + hsize + snd fm)).

(* --------------------------------------------------------------- frame ---- *)

(* bmpcodec.cpp 569-573: n palette entries of [entity] bytes (B, G, R[, X]) starting at [pos] *)
Fixpoint read_palette (n : nat) (data : list Z) (pos entity : Z) : outcome (list Z) :=
  match n with
  | O => Ok []
  | S n' =>
      let* b := rd data pos in
      let* g := rd data (pos + 1) in
      let* r := rd data (pos + 2) in
      let* t := read_palette n' data (pos + entity) entity in
      Ok (Z.lor (Z.lor (Z.lor b (Z.shiftl g 8)) (Z.shiftl r 16)) 0xFF000000 :: t)
  end.

(* A run of list elements; outside of the list it is undefined behaviour *)
Definition rd_slice (data : list Z) (pos n : Z) : outcome (list Z) :=
  if (0 <=? pos) && (0 <=? n) && (pos + n <=? Z.of_nat (length data))
  then Ok (firstn (Z.to_nat n) (skipn (Z.to_nat pos) data)) else UB.
Fixpoint wr_slice (m : list Z) (pos : Z) (l : list Z) : outcome (list Z) :=
  match l with
  | [] => Ok m
  | v :: t => let* m1 := wr m pos v in wr_slice m1 (pos + 1) t
  end.

(* pixelconverter.h convert_rect with a row function: rows of [nbytes] bytes at pos + k * src_stride become rows of pixels *)
Fixpoint convert_rect (n : nat) (conv : list Z -> list Z) (m : list Z) (line dst_stride : Z) (data : list Z)
  (pos src_stride nbytes : Z) : outcome (list Z) :=
  match n with
  | O => Ok m
  | S n' =>
      let* row := rd_slice data pos nbytes in
      let* m1 := wr_slice m line (conv row) in
      convert_rect n' conv m1 (line + dst_stride) dst_stride data (pos + src_stride) src_stride nbytes
  end.

(* A decoded image: format (true = PRGB32, false = XRGB32), width, height, stride in pixels, pixel memory *)
Record image : Type := Image { im_alpha : bool; im_w : Z; im_h : Z; im_stride : Z; im_mem : list Z }.

(* core/image.cpp 34, 47-70: the largest image, in bytes *)
Definition kMaxAddressableOffset : Z := 0x7FFFFFFF.
(* core/image.cpp 47-70 calc_stride_from_create_params for a 32-bit format with positive or zero sizes *)
Definition create_error (w h : Z) : option Z :=
  if (w <=? 0) || (h <=? 0) then Some BL_ERROR_INVALID_VALUE
  else if (BL_RUNTIME_MAX_IMAGE_SIZE <? w) || (BL_RUNTIME_MAX_IMAGE_SIZE <? h) || (kMaxAddressableOffset <? w * 4 * h)
  then Some BL_ERROR_IMAGE_TOO_LARGE else None.

Section Frame.
  (* BLPixelConverter: create (with the destination format) may fail or give a function from a row of source bytes and a
     width to a row of pixels. *)
  Context (pc : bool -> bmp_format -> list Z -> outcome (Z -> list Z -> list Z)).
  (* bl_image_create + make_mutable: the stride and the (arbitrary) former contents of the pixel memory of a w * h image *)
  Context (alloc : Z -> Z -> Z * list Z).

  (* bmpcodec.cpp 534-634 decoder_read_frame_internal *)
  Definition read_frame_internal (i : bmp_info) (data : list Z) : outcome image :=
    let size := Z.of_nat (length data) in
    let w := i_w i in
    let h := Z.abs (i_h i) in
    let alpha := negb (fst (nth 3 (f_chan (i_fmt i)) (0, 0)) =? 0) in
    let hdr := 14 + i_hsize i in
    if size <? hdr then Err BL_ERROR_DATA_TRUNCATED
    else
      let* pal :=
        if i_depth i <=? 8 then
          let entity := if i_hsize i =? kHeaderSizeOS2_V1 then 3 else 4 in
          let pal_size := Z.min ((i_offset i - hdr) / entity) 256 in
          if size - hdr <? pal_size * entity then Err BL_ERROR_DATA_TRUNCATED
          else
            let* l := read_palette (Z.to_nat pal_size) data hdr entity in
            Ok (l ++ repeat 0xFF000000 (Z.to_nat (256 - pal_size)))
        else Ok [] in
      if (size <=? i_offset i) || (size - i_offset i <? i_size i) then Err BL_ERROR_DATA_TRUNCATED
      else
        match create_error w h with
        | Some e => Err e
        | None =>
            let '(stride, m0) := alloc w h in
            let line := if 0 <? i_h i then (h - 1) * stride else 0 in
            let dst_stride := if 0 <? i_h i then - stride else stride in
            if ((i_depth i =? 4) && (i_comp i =? kCompressionRLE4)) || ((i_depth i =? 8) && (i_comp i =? kCompressionRLE8)) then
              let* src := rd_slice data (i_offset i) (i_size i) in
              let* r := decode_rle (S (length src)) (i_depth i =? 4) w h dst_stride pal src m0 line line 0 0 in
              let '(code, m1) := r in
              if code =? 0 then Ok (Image alpha w h stride m1) else Err code
            else
              let* conv := pc alpha (i_fmt i) pal in
              let nbytes := (w * i_depth i + 7) / 8 in
              let* m1 := convert_rect (Z.to_nat h) (conv w) m0 line dst_stride data (i_offset i) (i_stride i) nbytes in
              Ok (Image alpha w h stride m1)
        end.

  (* BLBmpDecoderImpl as seen by its callers: last_result, the header once it was read (buffer_index <> 0), frame_index <> 0 *)
  Record decoder : Type := Decoder { d_last : Z; d_info : option bmp_info; d_frame : bool }.
  (* bmpcodec.cpp 639-652 decoder_restart_impl *)
  Definition decoder_fresh : decoder := Decoder 0 None false.

  (* bmpcodec.cpp 654-668 decoder_read_info_impl: the decoder after the call and the returned BLResult *)
  Definition dec_read_info (s : decoder) (data : list Z) : outcome (decoder * Z) :=
    match d_info s with
    | Some _ => Ok (s, d_last s)
    | None =>
        if d_last s =? 0 then
          match read_info_internal data with
          | Ok i => Ok (Decoder 0 (Some i) (d_frame s), 0)
          | Err e => Ok (Decoder e None (d_frame s), e)
          | UB => UB
          | NoFuel => NoFuel
          end
        else Ok (s, d_last s)
    end.

  (* bmpcodec.cpp 670-681 decoder_read_frame_impl *)
  Definition dec_read_frame (s : decoder) (data : list Z) : outcome (decoder * (Z + image)) :=
    let* r := dec_read_info s data in
    let '(s1, code) := r in
    if negb (code =? 0) then Ok (s1, inl code)
    else
      match d_info s1 with
      | None => UB
      | Some i =>
          if d_frame s1 then Ok (s1, inl BL_ERROR_NO_MORE_DATA)
          else
            match read_frame_internal i data with
            | Ok im => Ok (Decoder (d_last s1) (Some i) true, inr im)
            | Err e => Ok (Decoder e (Some i) false, inl e)
            | UB => UB
            | NoFuel => NoFuel
            end
      end.
End Frame.

(* ------------------------------------------------------------- encoder ---- *)

(* BLFormat of the encoded image; its memory is a flat list of pixels (32-bit values, or bytes for A8) *)
Inductive pixel_format : Type := PRGB32 | XRGB32 | A8.

(* little-endian fields as copied by memcpy *)
Definition le16 (v : Z) : list Z := [w8 v; w8 (Z.shiftr v 8)].
Definition le32 (v : Z) : list Z := [w8 v; w8 (Z.shiftr v 8); w8 (Z.shiftr v 16); w8 (Z.shiftr v 24)].

(* bmpcodec.cpp 741-777: header size, bytes per line, depth, palette bytes *)
Definition enc_header_size (f : pixel_format) : Z := match f with PRGB32 => kHeaderSizeWIN_V4 | _ => kHeaderSizeWIN_V1 end.
Definition enc_bpl (f : pixel_format) (w : Z) : Z := match f with PRGB32 => w32 (w * 4) | XRGB32 => w32 (w * 3) | A8 => w end.
Definition enc_gap (f : pixel_format) (w : Z) : Z := match f with PRGB32 => 0 | _ => align_up_diff 32 (enc_bpl f w) 4 end.
Definition enc_depth (f : pixel_format) : Z := match f with PRGB32 => 32 | XRGB32 => 24 | A8 => 8 end.
Definition enc_palette_size (f : pixel_format) : Z := match f with A8 => 256 * 4 | _ => 0 end.
(* bmpcodec.cpp 788-792: the masks r, g, b, a; zero when there is a palette *)
Definition enc_masks (f : pixel_format) : list Z :=
  match f with
  | PRGB32 => [0xFF0000; 0xFF00; 0xFF; 0xFF000000]
  | XRGB32 => [0xFF0000; 0xFF00; 0xFF; 0]
  | A8 => [0; 0; 0; 0]
  end.

(* bmpcodec_p.h BmpInfoHeader::Win: 124 bytes, of which header_size are written *)
Definition win_header (f : pixel_format) (w h image_size : Z) : list Z :=
  le32 (enc_header_size f) ++ le32 w ++ le32 h ++ le16 1 ++ le16 (enc_depth f) ++ le32 kCompressionRGB ++ le32 image_size ++
  le32 0 ++ le32 0 ++ le32 (match f with A8 => 256 | _ => 0 end) ++ le32 0 ++ concat (map le32 (enc_masks f)) ++
  le32 kColorSpaceDD_RGB ++ repeat 0 64.

(* One converted row.  32-bit to 32-bit with the same masks is a copy, XRGB32 to 24 bits stores B, G, R; A8 is copied. *)
Definition enc_row (f : pixel_format) (row : list Z) : list Z :=
  match f with
  | PRGB32 => concat (map le32 row)
  | XRGB32 => concat (map (fun v => [w8 v; w8 (Z.shiftr v 8); w8 (Z.shiftr v 16)]) row)
  | A8 => row
  end.

(* bmpcodec.cpp 831-834 and 846-851: rows from last to first, each followed by [gap] zero bytes *)
Fixpoint enc_rows (n : nat) (f : pixel_format) (w gap : Z) (src : list Z) (pos src_stride : Z) (buf : list Z) (d : Z)
  : outcome (list Z * Z) :=
  match n with
  | O => Ok (buf, d)
  | S n' =>
      let* row := rd_slice src pos w in
      let bs := enc_row f row in
      let* b1 := wr_slice buf d bs in
      let* b2 := wr_slice b1 (d + Z.of_nat (length bs)) (repeat 0 (Z.to_nat gap)) in
      enc_rows n' f w gap src (pos - src_stride) src_stride b2 (d + Z.of_nat (length bs) + gap)
  end.

(* bmpcodec.cpp 839-844 *)
Definition enc_palette : list Z := concat (map (fun i => [Z.of_nat i; Z.of_nat i; Z.of_nat i; 0xFF]) (seq 0 256)).

(* bmpcodec.cpp 710-854 encoder_write_frame_impl of a nonempty w * h image; [buf0] is the storage that
   modify_op(ASSIGN_FIT, n) hands out *)
Definition write_frame (f : pixel_format) (w h : Z) (src : list Z) (src_stride : Z) (buf0 : Z -> list Z) : outcome (list Z) :=
  if (w =? 0) || (h =? 0) then Err BL_ERROR_INVALID_VALUE
  else
    let bpl := enc_bpl f w in
    let gap := enc_gap f w in
    let image_offset := 2 + 12 + enc_header_size f + enc_palette_size f in
    let image_size := w32 (w32 (bpl + gap) * h) in
    let file_size := w32 (image_offset + image_size) in
    let buf := buf0 file_size in
    let* b1 := wr_slice buf 0 [0x42; 0x4D] in
    let* b2 := wr_slice b1 2 (le32 file_size ++ le32 0 ++ le32 image_offset) in
    let* b3 := wr_slice b2 14 (firstn (Z.to_nat (enc_header_size f)) (win_header f w h image_size)) in
    let d := 14 + enc_header_size f in
    let* b4 := match f with A8 => wr_slice b3 d enc_palette | _ => Ok b3 end in
    let* r := enc_rows (Z.to_nat h) f w gap src ((h - 1) * src_stride) src_stride b4 (d + enc_palette_size f) in
    Ok (fst r).
