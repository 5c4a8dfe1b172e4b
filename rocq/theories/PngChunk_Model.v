(* Model of the chunk side of the PNG decoder: blend2d/codec/pngcodec.cpp (ChunkReader, decoder_read_info_internal, decoderReadFCTL,
   decoder_read_important_chunks, decoder_read_pixel_data, decoder_read_info_impl, decoder_read_frame_impl) and pngcodec_p.h.
   The file is a list of bytes; reading outside of it is UB.  Pointers into the file are indices.  Not modelled: DEFLATE (an argument),
   BLImage (its memory is checked as a rectangle of iw x ih pixels), sequence numbers and delays of frames. *)
From Verif Require Import Base IntOps_Model Algorithm_Model Png_Model.

(* blend2d/core/api.h 1145-1223 *)
Definition BL_SUCCESS : Z := 0.
Definition BL_ERROR_INVALID_STATE : Z := 0x10002.
Definition BL_ERROR_NO_MORE_DATA : Z := 0x10019.
Definition BL_ERROR_INVALID_SIGNATURE : Z := 0x1002D.
Definition BL_ERROR_DATA_TRUNCATED : Z := 0x10031.
Definition BL_ERROR_IMAGE_UNKNOWN_FILE_FORMAT : Z := 0x1003C.
Definition BL_ERROR_PNG_MULTIPLE_IHDR : Z := 0x1003F.
Definition BL_ERROR_PNG_INVALID_IEND : Z := 0x10041.
Definition BL_ERROR_PNG_INVALID_PLTE : Z := 0x10042.
Definition BL_ERROR_PNG_INVALID_TRNS : Z := 0x10043.

(* ------------------------------------------------------------------ constants: pngcodec.cpp 42-59 *)
Definition kPngSignature : list Z := [0x89; 0x50; 0x4E; 0x47; 0x0D; 0x0A; 0x1A; 0x0A].
Definition kColorTypeBitDepthTable : list Z := [0x1F; 0; 0x18; 0x0F; 0x18; 0; 0x18].
Definition kColorTypeToSampleCountTable : list Z := [1; 0; 3; 1; 2; 0; 4].
Definition kPngSignatureSize : Z := 8.
Definition kPngChunkHeaderSize : Z := 8.
Definition kPngChunkBaseSize : Z := 12.
Definition kPngChunkDataSize_CgBI : Z := 4.
Definition kPngChunkDataSize_IHDR : Z := 13.
Definition kPngChunkDataSize_acTL : Z := 8.
Definition kPngChunkDataSize_fcTL : Z := 26.

(* BL_MAKE_TAG *)
Definition tag (a b c d : Z) : Z := a * 2 ^ 24 + b * 2 ^ 16 + c * 2 ^ 8 + d.
Definition IHDR : Z := tag 73 72 68 82.
Definition CgBI : Z := tag 67 103 66 73.
Definition acTL : Z := tag 97 99 84 76.
Definition PLTE : Z := tag 80 76 84 69.
Definition tRNS : Z := tag 116 82 78 83.
Definition IDAT : Z := tag 73 68 65 84.
Definition fdAT : Z := tag 102 100 65 84.
Definition fcTL : Z := tag 102 99 84 76.
Definition IEND : Z := tag 73 69 78 68.

(* pngcodec.cpp 64-72; IntOps::is_power_of_2 *)
Definition check_color_type_and_bit_depth (color_type depth : Z) : bool :=
  if depth =? 16 then false else
  (color_type <? 7) && negb (Z.land (nth (Z.to_nat color_type) kColorTypeBitDepthTable 0) depth =? 0) &&
  negb (depth =? 0) && (Z.land depth (depth - 1) =? 0).

(* ------------------------------------------------------------------ ChunkReader: pngcodec.cpp 787-847 *)

(* PtrOps::bytes_until: the difference of the pointers as size_t *)
Definition remaining_bytes (e p : Z) : Z := w64 (e - p).
Definition has_chunk (e p : Z) : bool := kPngChunkBaseSize <=? remaining_bytes e p.
Definition has_chunk_with_size (e p size : Z) : bool := size <=? w64 (remaining_bytes e p - kPngChunkBaseSize).
(* MemOps::readU16uBE, readU32uBE *)
Definition rd16 (f : list Z) (i : Z) : outcome Z :=
  let* a := rd f i in let* b := rd f (i + 1) in Ok (a * 256 + b).
Definition rd32 (f : list Z) (i : Z) : outcome Z :=
  let* a := rd16 f i in let* b := rd16 f (i + 2) in Ok (a * 65536 + b).
Definition read_chunk_size (f : list Z) (p : Z) : outcome Z := rd32 f p.
Definition read_chunk_tag (f : list Z) (p : Z) : outcome Z := rd32 f (p + 4).

(* ------------------------------------------------------------------ decoder state *)

(* pngcodec_p.h 78-89 *)
Record fctl := Fctl { c_w : Z; c_h : Z; c_x : Z; c_y : Z; c_dispose : Z; c_blend : Z }.
Definition no_fctl : fctl := Fctl 0 0 0 0 0 0.

(* pngcodec_p.h 93-149 (and last_result, frame_index, buffer_index of BLImageDecoderImpl); the status flags are booleans.
   Palette entries are None until they are written.  [saved]: the previous_pixel_buffer; None as long as its fields are indeterminate,
   Some n for a block of n bytes. *)
Record dec := Dec {
  last : Z; frame : Z; buf : Z;
  f_cgbi : bool; f_actl : bool; f_plte : bool; f_trns : bool; f_fctl : bool; f_key : bool;
  iw : Z; ih : Z; prog : bool; frames : Z;
  ctype : Z; sdepth : Z; scount : Z;
  key : Z; pal : list (option Z); palsize : Z;
  prev : fctl; ctrl : fctl; first : Z;
  saved : option Z }.

Definition set_last (d : dec) v := let '(Dec _ a b c e f g h i j k l m n o p q r s t u v' w) := d in Dec v a b c e f g h i j k l m n o p q r s t u v' w.
Definition set_frame (d : dec) v := let '(Dec x _ b c e f g h i j k l m n o p q r s t u v' w) := d in Dec x v b c e f g h i j k l m n o p q r s t u v' w.
Definition set_buf (d : dec) v := let '(Dec x a _ c e f g h i j k l m n o p q r s t u v' w) := d in Dec x a v c e f g h i j k l m n o p q r s t u v' w.
Definition set_cgbi (d : dec) v := let '(Dec x a b _ e f g h i j k l m n o p q r s t u v' w) := d in Dec x a b v e f g h i j k l m n o p q r s t u v' w.
Definition set_actl (d : dec) v := let '(Dec x a b c _ f g h i j k l m n o p q r s t u v' w) := d in Dec x a b c v f g h i j k l m n o p q r s t u v' w.
Definition set_plte (d : dec) v := let '(Dec x a b c e _ g h i j k l m n o p q r s t u v' w) := d in Dec x a b c e v g h i j k l m n o p q r s t u v' w.
Definition set_trns (d : dec) v := let '(Dec x a b c e f _ h i j k l m n o p q r s t u v' w) := d in Dec x a b c e f v h i j k l m n o p q r s t u v' w.
Definition set_fctl (d : dec) v := let '(Dec x a b c e f g _ i j k l m n o p q r s t u v' w) := d in Dec x a b c e f g v i j k l m n o p q r s t u v' w.
Definition set_key (d : dec) v := let '(Dec x a b c e f g h _ j k l m n o p _ r s t u v' w) := d in Dec x a b c e f g h true j k l m n o p v r s t u v' w.
Definition set_info (d : dec) w' h' p' ct sd sc := let '(Dec x a b c e f g h i _ _ _ _ _ _ _ p q r s t u v) := d in Dec x a b c e f g h i w' h' p' 1 ct sd sc p q r s t u v.
Definition set_frames (d : dec) v := let '(Dec x a b c e f g h i j k l _ n o p q r s t u v' w) := d in Dec x a b c e f g h i j k l v n o p q r s t u v' w.
Definition set_pal (d : dec) v := let '(Dec x a b c e f g h i j k l m n o p q _ s t u v' w) := d in Dec x a b c e f g h i j k l m n o p q v s t u v' w.
Definition set_palsize (d : dec) v := let '(Dec x a b c e f g h i j k l m n o p q r _ t u v' w) := d in Dec x a b c e f g h i j k l m n o p q r v t u v' w.
Definition set_ctrl (d : dec) pr ct fi := let '(Dec x a b c e f g h i j k l m n o p q r s _ _ _ w) := d in Dec x a b c e f g h i j k l m n o p q r s pr ct fi w.
Definition set_saved (d : dec) v := let '(Dec x a b c e f g h i j k l m n o p q r s t u v' _) := d in Dec x a b c e f g h i j k l m n o p q r s t u v' v.

(* pngcodec.cpp 854-874: decoder_restart_impl; neither the palette nor the previous_pixel_buffer is touched *)
Definition decoder_restart (d : dec) : dec :=
  Dec BL_SUCCESS 0 0 false false false false false false 0 0 false 0 0 0 0 0 (pal d) 0 no_fctl no_fctl 0 (saved d).
(* pngcodec.cpp 1657-1664, pngcodec_p.h 138-142: the impl is allocated by malloc; ctor() initializes png_pixel_data and pixel_converter only *)
Definition decoder_create : dec :=
  decoder_restart (Dec 0 0 0 false false false false false false 0 0 false 0 0 0 0 0 (repeat None 256) 0 no_fctl no_fctl 0 None).

(* pngcodec.cpp 876-917: decoderReadFCTL of the chunk data of [size] bytes at index [p]; [off] is the index of the chunk *)
Definition decoderReadFCTL (f : list Z) (d : dec) (off p size : Z) : outcome (dec * Z) :=
  if size <? kPngChunkDataSize_fcTL then Ok (d, BL_ERROR_INVALID_DATA) else
  let* _ := rd32 f p in
  let* w := rd32 f (p + 4) in
  let* h := rd32 f (p + 8) in
  let* x := rd32 f (p + 12) in
  let* y := rd32 f (p + 16) in
  let* _ := rd16 f (p + 20) in
  let* _ := rd16 f (p + 22) in
  let* dispose := rd f (p + 24) in
  let* blend := rd f (p + 25) in
  if (iw d <=? x) || (ih d <=? y) || (w32 (iw d - x) <? w) || (w32 (ih d - y) <? h) || (2 <? dispose) || (1 <? blend)
  then Ok (d, BL_ERROR_INVALID_DATA) else
  let d := set_ctrl d (ctrl d) (Fctl w h x y dispose blend) (if first d =? 0 then off else first d) in
  Ok (set_fctl d true, BL_SUCCESS).

(* ------------------------------------------------------------------ decoder_read_info_internal: pngcodec.cpp 919-1062 *)

(* 1022-1059: the loop that looks for 'acTL' *)
Fixpoint actl_loop (fuel : nat) (f : list Z) (e p : Z) (d : dec) : outcome dec :=
  match fuel with
  | O => NoFuel
  | S fuel' =>
    if negb (has_chunk e p) then Ok d else
    let* chunk_tag := read_chunk_tag f p in
    let* chunk_size := read_chunk_size f p in
    if negb (has_chunk_with_size e p chunk_size) then Ok d else
    if chunk_tag =? acTL then
      if negb (chunk_size =? kPngChunkDataSize_acTL) then Ok d else
      let* frame_count := rd32 f (p + kPngChunkHeaderSize) in
      let* _ := rd32 f (p + kPngChunkHeaderSize + 4) in
      if frame_count <=? 1 then Ok d else Ok (set_actl (set_frames d frame_count) true)
    else if (chunk_tag =? IHDR) || (chunk_tag =? PLTE) || (chunk_tag =? IDAT) || (chunk_tag =? IEND) then Ok d
    else actl_loop fuel' f e (p + (kPngChunkBaseSize + chunk_size)) d
  end.

Fixpoint rd_n (f : list Z) (p : Z) (n : nat) : outcome (list Z) :=
  match n with O => Ok [] | S n' => let* x := rd f p in let* l := rd_n f (p + 1) n' in Ok (x :: l) end.

Definition decoder_read_info_internal (f : list Z) (d : dec) : outcome (dec * Z) :=
  let size := Z.of_nat (length f) in
  let kMinSize_PNG := kPngSignatureSize + kPngChunkBaseSize + kPngChunkDataSize_IHDR in
  let kMinSize_CgBI := kMinSize_PNG + kPngChunkBaseSize + kPngChunkDataSize_CgBI in
  if size <? kMinSize_PNG then Ok (d, BL_ERROR_DATA_TRUNCATED) else
  let* sig := rd_n f 0 8 in
  if negb (forallb (fun '(a, b) => a =? b) (combine sig kPngSignature)) then Ok (d, BL_ERROR_INVALID_SIGNATURE) else
  let p := kPngSignatureSize in
  let e := size - kPngSignatureSize in
  let* chunk_tag := read_chunk_tag f p in
  let* chunk_size := read_chunk_size f p in
  let* r :=
    (if chunk_tag =? CgBI then
       if negb (chunk_size =? kPngChunkDataSize_CgBI) then Ok (inl BL_ERROR_IMAGE_UNKNOWN_FILE_FORMAT)
       else if size <? kMinSize_CgBI then Ok (inl BL_ERROR_DATA_TRUNCATED)
       else
         let p := p + (kPngChunkBaseSize + kPngChunkDataSize_CgBI) in
         let* chunk_tag := read_chunk_tag f p in
         let* chunk_size := read_chunk_size f p in
         Ok (inr (set_cgbi d true, p, chunk_tag, chunk_size))
     else Ok (inr (d, p, chunk_tag, chunk_size))) in
  match r with
  | inl err => Ok (d, err)
  | inr (d, p, chunk_tag, chunk_size) =>
    if negb (chunk_tag =? IHDR) || negb (chunk_size =? kPngChunkDataSize_IHDR) then Ok (d, BL_ERROR_IMAGE_UNKNOWN_FILE_FORMAT) else
    let* w := rd32 f (p + kPngChunkHeaderSize) in
    let* h := rd32 f (p + kPngChunkHeaderSize + 4) in
    let* sample_depth := rd f (p + kPngChunkHeaderSize + 8) in
    let* color_type := rd f (p + kPngChunkHeaderSize + 9) in
    let* compression := rd f (p + kPngChunkHeaderSize + 10) in
    let* filter := rd f (p + kPngChunkHeaderSize + 11) in
    let* progressive := rd f (p + kPngChunkHeaderSize + 12) in
    let p := p + (kPngChunkBaseSize + kPngChunkDataSize_IHDR) in
    if (w =? 0) || (h =? 0) then Ok (d, BL_ERROR_INVALID_DATA) else
    if (0x80000000 <=? w) || (0x80000000 <=? h) then Ok (d, BL_ERROR_IMAGE_TOO_LARGE) else
    if negb (check_color_type_and_bit_depth color_type sample_depth) then Ok (d, BL_ERROR_IMAGE_UNKNOWN_FILE_FORMAT) else
    if negb (compression =? 0) || negb (filter =? 0) || (2 <=? progressive) then Ok (d, BL_ERROR_IMAGE_UNKNOWN_FILE_FORMAT) else
    let d := set_info d w h (negb (progressive =? 0)) color_type sample_depth (nth (Z.to_nat color_type) kColorTypeToSampleCountTable 0) in
    let d := set_buf d p in
    let* d := actl_loop (S (length f)) f e p d in
    Ok (d, BL_SUCCESS)
  end.

(* ------------------------------------------------------------------ decoder_read_important_chunks: pngcodec.cpp 1065-1282 *)

(* BLRgba32(r, g, b, a = 0xFF) *)
Definition rgba32 (r g b a : Z) : Z := a * 2 ^ 24 + r * 2 ^ 16 + g * 2 ^ 8 + b.
(* BLRgba32::setA *)
Definition set_alpha (v a : Z) : Z := Z.land v 0x00FFFFFF + a * 2 ^ 24.
(* palette_data[i] = v; the array has 256 elements *)
Definition wr_pal (l : list (option Z)) (i : Z) (v : option Z) : outcome (list (option Z)) :=
  if (0 <=? i) && (i <? 256) then Ok (upd l (Z.to_nat i) v) else UB.

(* 1107-1112: entries from the chunk *)
Fixpoint plte_loop (f : list Z) (p i : Z) (n : nat) (l : list (option Z)) : outcome (list (option Z)) :=
  match n with
  | O => Ok l
  | S n' =>
    let* r := rd f p in let* g := rd f (p + 1) in let* b := rd f (p + 2) in
    let* l := wr_pal l i (Some (rgba32 r g b 0xFF)) in
    plte_loop f (p + 3) (i + 1) n' l
  end.
(* 1114-1116: the rest *)
Fixpoint black_loop (i : Z) (n : nat) (l : list (option Z)) : outcome (list (option Z)) :=
  match n with
  | O => Ok l
  | S n' => let* l := wr_pal l i (Some (rgba32 0 0 0 0xFF)) in black_loop (i + 1) n' l
  end.
(* 1182-1184: alpha values; entries that were not written stay indeterminate *)
Fixpoint trns_loop (f : list Z) (p i : Z) (n : nat) (l : list (option Z)) : outcome (list (option Z)) :=
  match n with
  | O => Ok l
  | S n' =>
    let* a := rd f (p + i) in
    let* l := wr_pal l i (option_map (fun v => set_alpha v a) (nth (Z.to_nat i) l None)) in
    trns_loop f p (i + 1) n' l
  end.

(* 1072-1214: the loop; gives the decoder, the result and the final pointer *)
Fixpoint important_loop (fuel : nat) (f : list Z) (e p : Z) (d : dec) : outcome (dec * Z * Z) :=
  match fuel with
  | O => NoFuel
  | S fuel' =>
    if negb (has_chunk e p) then Ok (d, BL_ERROR_DATA_TRUNCATED, p) else
    let* chunk_tag := read_chunk_tag f p in
    let* chunk_size := read_chunk_size f p in
    if negb (has_chunk_with_size e p chunk_size) then Ok (d, BL_ERROR_DATA_TRUNCATED, p) else
    if chunk_tag =? PLTE then
      if f_plte d || f_trns d then Ok (d, BL_ERROR_PNG_INVALID_PLTE, p) else
      if (chunk_size =? 0) || (768 <? chunk_size) || negb (chunk_size mod 3 =? 0) then Ok (d, BL_ERROR_PNG_INVALID_PLTE, p) else
      let palette_size := chunk_size / 3 in
      let d := set_palsize (set_plte d true) palette_size in
      let* l := plte_loop f (p + kPngChunkHeaderSize) 0 (Z.to_nat palette_size) (pal d) in
      let* l := black_loop palette_size (Z.to_nat (256 - palette_size)) l in
      important_loop fuel' f e (p + kPngChunkHeaderSize + 3 * palette_size + 4) (set_pal d l)
    else if chunk_tag =? tRNS then
      if f_trns d then Ok (d, BL_ERROR_PNG_INVALID_TRNS, p) else
      if (ctype d =? 4) || (ctype d =? 6) then Ok (d, BL_ERROR_PNG_INVALID_TRNS, p) else
      if ctype d =? 0 then
        if negb (chunk_size =? 2) then Ok (d, BL_ERROR_PNG_INVALID_TRNS, p) else
        let* gray := rd16 f (p + kPngChunkHeaderSize) in
        important_loop fuel' f e (p + (kPngChunkBaseSize + 2)) (set_trns (set_key d gray) true)
      else if ctype d =? 2 then
        if negb (chunk_size =? 6) then Ok (d, BL_ERROR_PNG_INVALID_TRNS, p) else
        let* r := rd16 f (p + kPngChunkHeaderSize) in
        let* _ := rd16 f (p + kPngChunkHeaderSize + 2) in
        let* _ := rd16 f (p + kPngChunkHeaderSize + 4) in
        important_loop fuel' f e (p + (kPngChunkBaseSize + 6)) (set_trns (set_key d r) true)
      else
        if negb (f_plte d) || (chunk_size =? 0) || (palsize d <? chunk_size) then Ok (d, BL_ERROR_PNG_INVALID_TRNS, p) else
        let* l := trns_loop f (p + kPngChunkHeaderSize) 0 (Z.to_nat chunk_size) (pal d) in
        important_loop fuel' f e (p + kPngChunkHeaderSize + w32 (chunk_size + 4)) (set_trns (set_pal d l) true)
    else if (chunk_tag =? IHDR) || (chunk_tag =? IDAT) || (chunk_tag =? IEND) || (chunk_tag =? fcTL) then Ok (d, BL_SUCCESS, p)
    else important_loop fuel' f e (p + w32 (kPngChunkBaseSize + chunk_size)) d
  end.

(* pngcodec.cpp 74-90 *)
Fixpoint gray_loop (value scale i : Z) (n : nat) (l : list (option Z)) : outcome (list (option Z)) :=
  match n with
  | O => Ok l
  | S n' => let* l := wr_pal l i (Some value) in gray_loop (w32 (value + scale)) scale (i + 1) n' l
  end.
Definition create_grayscale_palette (depth : Z) (l : list (option Z)) : outcome (list (option Z)) :=
  let scale_table := [0; 0xFF; 0x55; 0; 0x11; 0; 0; 0; 0x01] in
  let scale := w32 (nth (Z.to_nat depth) scale_table 0 * 0x00010101) in
  gray_loop 0xFF000000 scale 0 (Z.to_nat (w32 (Z.shiftl 1 depth))) l.

(* [conv]: the result of pixel_converter.create() *)
Definition decoder_read_important_chunks (conv : Z) (f : list Z) (d : dec) : outcome (dec * Z) :=
  let size := Z.of_nat (length f) in
  if size <? buf d then Ok (d, BL_ERROR_INVALID_STATE) else
  let* (d, err, p) := important_loop (S (length f)) f size (buf d) d in
  if negb (err =? BL_SUCCESS) then Ok (d, err) else
  let* d :=
    (if (ctype d =? 0) && (sdepth d <=? 8) then
       let* l := create_grayscale_palette (sdepth d) (pal d) in
       let* l := (if f_key d && (key d <? w32 (Z.shiftl 1 (sdepth d))) then wr_pal l (key d) (Some 0) else Ok l) in
       Ok (set_pal d l)
     else Ok d) in
  if negb (conv =? BL_SUCCESS) then Ok (d, conv) else
  Ok (set_buf d p, BL_SUCCESS).

(* ------------------------------------------------------------------ decoder_read_pixel_data: pngcodec.cpp 1299-1612 *)

Inductive inflated := Done (out : list Z) | More | Fail (code : Z).

(* 1324-1361: skip to the first chunk with pixel data *)
Fixpoint skip_loop (fuel : nat) (f : list Z) (e p frame_tag : Z) (d : dec) : outcome (dec * Z * Z) :=
  match fuel with
  | O => NoFuel
  | S fuel' =>
    if negb (has_chunk e p) then Ok (d, BL_ERROR_DATA_TRUNCATED, p) else
    let* chunk_tag := read_chunk_tag f p in
    let* chunk_size := read_chunk_size f p in
    if negb (has_chunk_with_size e p chunk_size) then Ok (d, BL_ERROR_DATA_TRUNCATED, p) else
    if chunk_tag =? frame_tag then Ok (d, BL_SUCCESS, p) else
    if chunk_tag =? IHDR then Ok (d, BL_ERROR_PNG_MULTIPLE_IHDR, p) else
    if chunk_tag =? IEND then Ok (d, BL_ERROR_PNG_INVALID_IEND, p) else
    let* (d, err) :=
      (if (chunk_tag =? fcTL) && f_actl d then
         if f_fctl d then Ok (d, BL_ERROR_INVALID_DATA) else decoderReadFCTL f d p (p + 8) chunk_size
       else Ok (d, BL_SUCCESS)) in
    if negb (err =? BL_SUCCESS) then Ok (d, err, p) else
    skip_loop fuel' f e (p + (kPngChunkBaseSize + chunk_size)) frame_tag d
  end.

(* 1399-1451: consecutive chunks of pixel data; [acc] is what the DEFLATE decoder got so far.  Gives the result, the inflated data and
   the final pointer. *)
Fixpoint idat_loop (fuel : nat) (inflate : list Z -> inflated) (f : list Z) (e p frame_tag chunk_size pixel_data_size : Z) (acc : list Z) :
    outcome (Z * list Z * Z) :=
  match fuel with
  | O => NoFuel
  | S fuel' =>
    let chunk_data := p + kPngChunkHeaderSize in
    let p := p + (kPngChunkBaseSize + chunk_size) in
    if (frame_tag =? fdAT) && (chunk_size <? 4) then Ok (BL_ERROR_INVALID_DATA, [], p) else
    let '(chunk_data, chunk_size) := if frame_tag =? fdAT then (chunk_data + 4, chunk_size - 4) else (chunk_data, chunk_size) in
    let* part := rd_n f chunk_data (Z.to_nat chunk_size) in
    let acc := acc ++ part in
    match (if 0 <? chunk_size then inflate acc else More) with
    | Done out => if negb (Z.of_nat (length out) =? pixel_data_size) then Ok (BL_ERROR_INVALID_DATA, [], p) else Ok (BL_SUCCESS, out, p)
    | Fail code => Ok (code, [], p)
    | More =>
      if negb (has_chunk e p) then Ok (BL_ERROR_DATA_TRUNCATED, [], p) else
      let* chunk_size := read_chunk_size f p in
      if negb (has_chunk_with_size e p chunk_size) then Ok (BL_ERROR_DATA_TRUNCATED, [], p) else
      let* chunk_tag := read_chunk_tag f p in
      if negb (chunk_tag =? frame_tag) then Ok (BL_ERROR_INVALID_DATA, [], p) else
      idat_loop fuel' inflate f e p frame_tag chunk_size pixel_data_size acc
    end
  end.

(* copy_pixels, zero_pixels, convert_rect (1284-1297, 1491-1602): the rectangle has to lie inside of the image *)
Definition in_image (d : dec) (x y w h : Z) : bool := (0 <=? x) && (0 <=? y) && (x + w <=? iw d) && (y + h <=? ih d).

(* What a call depends on besides the file: DEFLATE, the scratch memory behind the inflated data, the distance of the temporary rows to
   the next multiple of 16, failing allocations (temporary rows, previous_pixel_buffer), the result of the pixel converter's create(),
   and whether the image passed for a later frame has the size and format of the animation. *)
Record env := Env {
  inflate : list Z -> inflated; scratch : list Z; pad : Z; oom : bool; oom_saved : bool; conv : Z; image_matches : bool }.

(* 1491-1541: disposal of the previous frame and saving of the current window; bytes per pixel of PRGB32 and XRGB32 are 4 *)
Definition dispose (en : env) (d : dec) (x y w h : Z) : outcome (dec * Z) :=
  let pr := prev d in
  let* _ :=
    (if c_dispose pr =? 1 then (if in_image d (c_x pr) (c_y pr) (c_w pr) (c_h pr) then Ok tt else UB)
     else if c_dispose pr =? 2 then
       match saved d with
       | None => UB
       | Some n => if in_image d (c_x pr) (c_y pr) (c_w pr) (c_h pr) && (c_h pr * (c_w pr * 4) <=? n) then Ok tt else UB
       end
     else Ok tt) in
  if c_dispose (ctrl d) =? 2 then
    (* previous_pixel_buffer.alloc(): scopedbuffer_p.h 54-66 *)
    match saved d with
    | None => UB
    | Some n =>
      if h * (w * 4) <=? n then (if in_image d x y w h then Ok (d, BL_SUCCESS) else UB)
      else if oom_saved en then Ok (d, BL_ERROR_OUT_OF_MEMORY)
      else if in_image d x y w h then Ok (set_saved d (Some (h * (w * 4))), BL_SUCCESS) else UB
    end
  else Ok (d, BL_SUCCESS).

(* The inverse filter (1463-1468) is part of read_pixels here, so it runs after the image has been checked; it changes nothing but the
   inflated data. *)
Definition decoder_read_pixel_data (en : env) (f : list Z) (d : dec) : outcome (dec * Z * list (Z * list Z)) :=
  let size := Z.of_nat (length f) in
  if size <? buf d then Ok (d, BL_ERROR_INVALID_STATE, []) else
  let frame_tag := if frame d =? 0 then IDAT else fdAT in
  let* (d, err, p) := skip_loop (S (length f)) f size (buf d) frame_tag d in
  if negb (err =? BL_SUCCESS) then Ok (d, err, []) else
  if negb (frame d =? 0) && negb (f_fctl d) then Ok (d, BL_ERROR_INVALID_DATA, []) else
  let '(x, y, w, h) := if frame d =? 0 then (0, 0, iw d, ih d) else (c_x (ctrl d), c_y (ctrl d), c_w (ctrl d), c_h (ctrl d)) in
  let '(_, pixel_data_size) :=
    calculate_interlace_steps (if prog d then interlaceTableAdam7 else interlace_table_none) (sdepth d) (scount d) w h in
  if pixel_data_size =? 0 then Ok (d, BL_ERROR_INVALID_DATA, []) else
  let* chunk_size := read_chunk_size f p in
  let* (err, data, p) := idat_loop (S (length f)) (inflate en) f size p frame_tag chunk_size pixel_data_size [] in
  if negb (err =? BL_SUCCESS) then Ok (d, err, []) else
  let d := set_buf (set_fctl d false) p in
  if negb (frame d =? 0) && negb (image_matches en) then Ok (d, BL_ERROR_INVALID_STATE, []) else
  let* (d, err) := (if frame d =? 0 then Ok (d, BL_SUCCESS) else dispose en d x y w h) in
  if negb (err =? BL_SUCCESS) then Ok (d, err, []) else
  match read_pixels (prog d) (sdepth d) (scount d) w h (pad en) (oom en) data (scratch en) with
  | Err code => Ok (d, code, [])
  | Ok log =>
    if negb (in_image d x y w h) then UB else
    let d := set_frame d (w64 (frame d + 1)) in
    let d := if f_actl d && (frames d <=? frame d) then set_buf (set_frame d 0) (first d) else d in
    Ok (d, BL_SUCCESS, log)
  | UB => UB
  | NoFuel => NoFuel
  end.

(* ------------------------------------------------------------------ the virtual functions: pngcodec.cpp 1614-1655 *)

Definition decoder_read_info (f : list Z) (d : dec) : outcome (dec * Z) :=
  if (buf d =? 0) && (last d =? BL_SUCCESS) then
    let* (d, result) := decoder_read_info_internal f d in
    Ok (if result =? BL_SUCCESS then d else set_last d result, result)
  else Ok (d, last d).

Definition decoder_read_frame (en : env) (f : list Z) (d : dec) : outcome (dec * Z * list (Z * list Z)) :=
  let* (d, result) := decoder_read_info f d in
  if negb (result =? BL_SUCCESS) then Ok (d, result, []) else
  let* (d, result, fatal) :=
    (if (frame d =? 0) && (first d =? 0) then let* (d, result) := decoder_read_important_chunks (conv en) f d in Ok (d, result, true)
     else if negb (f_actl d) then Ok (d, BL_ERROR_NO_MORE_DATA, false) else Ok (d, BL_SUCCESS, true)) in
  if negb (result =? BL_SUCCESS) then Ok (if fatal : bool then set_last d result else d, result, []) else
  let* (d, result, log) := decoder_read_pixel_data en f d in
  Ok (if result =? BL_SUCCESS then d else set_last d result, result, log).
