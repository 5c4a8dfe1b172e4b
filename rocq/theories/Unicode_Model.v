(* Model of blend2d/unicode/unicode_p.h and blend2d/unicode/unicode.cpp: readers, writers, validation, conversion.
   Little-endian target. Buffers are byte lists; pointers are byte offsets; an access outside a buffer is UB.
   size_t sums of text lengths are not wrapped (they cannot exceed the address space), except where the code tests overflow. *)
From Verif Require Import Base Algorithm_Model.

(* blend2d/core/api.h: BLResult codes *)
Definition BL_SUCCESS : Z := 0.
Definition BL_ERROR_INVALID_VALUE : Z := 0x10001.
Definition BL_ERROR_NO_SPACE_LEFT : Z := 0x1001B.
Definition BL_ERROR_DATA_TRUNCATED : Z := 0x10031.
Definition BL_ERROR_DATA_TOO_LARGE : Z := 0x10032.
Definition BL_ERROR_INVALID_STRING : Z := 0x1002F.

(* blend2d/core/api.h 1385-1403 *)
Inductive encoding := EncUTF8 | EncUTF16 | EncUTF32 | EncLatin1.

(* unicode_p.h 105-129 *)
Definition is_surrogate (uc : Z) : bool := (0xD800 <=? uc) && (uc <=? 0xDFFF).
Definition is_hi_surrogate (uc : Z) : bool := (0xD800 <=? uc) && (uc <=? 0xDBFF).
Definition is_lo_surrogate (uc : Z) : bool := (0xDC00 <=? uc) && (uc <=? 0xDFFF).
Definition char_from_surrogate (hi lo : Z) : Z :=
  w32 (w32 (w32 (Z.shiftl hi 10) + lo) - w32 (w32 (Z.shiftl 0xD800 10) + 0xDC00 - 0x10000)).
Definition hi_surrogate_of (uc : Z) : Z := Z.lor 0xD800 (Z.shiftr (w32 (uc - 0x10000)) 10).
Definition lo_surrogate_of (uc : Z) : Z := Z.lor 0xDC00 (Z.land (w32 (uc - 0x10000)) 0x3FF).

(* Result of Reader::next: the character, its size in bytes and the two index counters' increments; or an error, in
   which case the pointer is restored. *)
Inductive next_res := NOk (uc size inc1 inc2 : Z) | NErr (e : Z).

Section Readers.
  Context (src : list Z).

  (* unicode_p.h 247-348: Utf8Reader::next; inc1 = _utf32_index_subtract, inc2 = _utf16_surrogate_count *)
  Definition utf8_next (ptr end_ : Z) : outcome next_res :=
    let kMultiByte := 0xC2 in
    let* c := rd src ptr in
    let ptr := ptr + 1 in
    if c <? 0x80 then Ok (NOk c 1 0 0) else
    let uc := w32 (c - kMultiByte) in
    if uc <? 0xE0 - kMultiByte then
      let ptr := ptr + 1 in
      if end_ <? ptr then Ok (NErr BL_ERROR_DATA_TRUNCATED) else
      let* x1 := rd src (ptr - 1) in
      let b1 := Z.lxor x1 0x80 in
      let uc := w32 (w32 (Z.shiftl (w32 (uc + kMultiByte - 0xC0)) 6) + b1) in
      if 0x3F <? b1 then Ok (NErr BL_ERROR_INVALID_STRING) else
      Ok (NOk uc 2 1 0)
    else if uc <? 0xF0 - kMultiByte then
      let ptr := ptr + 2 in
      if end_ <? ptr then Ok (NErr BL_ERROR_DATA_TRUNCATED) else
      let* x1 := rd src (ptr - 2) in
      let* x2 := rd src (ptr - 1) in
      let b1 := Z.lxor x1 0x80 in
      let b2 := Z.lxor x2 0x80 in
      let uc := w32 (w32 (w32 (Z.shiftl (w32 (uc + kMultiByte - 0xE0)) 12) + w32 (Z.shiftl b1 6)) + b2) in
      if (0x3F <? Z.lor b1 b2) || (uc <? 0x800) then Ok (NErr BL_ERROR_INVALID_STRING) else
      Ok (NOk uc 3 2 0)
    else
      let ptr := ptr + 3 in
      if end_ <? ptr then
        if 0xF5 - kMultiByte <=? uc then Ok (NErr BL_ERROR_INVALID_STRING) else Ok (NErr BL_ERROR_DATA_TRUNCATED)
      else
      let* x1 := rd src (ptr - 3) in
      let* x2 := rd src (ptr - 2) in
      let* x3 := rd src (ptr - 1) in
      let b1 := Z.lxor x1 0x80 in
      let b2 := Z.lxor x2 0x80 in
      let b3 := Z.lxor x3 0x80 in
      let uc := w32 (w32 (w32 (w32 (Z.shiftl (w32 (uc + kMultiByte - 0xF0)) 18) + w32 (Z.shiftl b1 12)) + w32 (Z.shiftl b2 6)) + b3) in
      if (0x3F <? Z.lor (Z.lor b1 b2) b3) || (uc <? 0x10000) || (0x10FFFF <? uc) then Ok (NErr BL_ERROR_INVALID_STRING) else
      Ok (NOk uc 4 3 1).

  (* unicode_p.h 500-505 / 607-613, native little endian order *)
  Definition readU16 (ptr : Z) : outcome Z := let* a := rd src ptr in let* b := rd src (ptr + 1) in Ok (a + 256 * b).
  Definition readU32 (ptr : Z) : outcome Z :=
    let* a := rd src ptr in let* b := rd src (ptr + 1) in let* c := rd src (ptr + 2) in let* d := rd src (ptr + 3) in
    Ok (a + 256 * b + 65536 * c + 16777216 * d).

  (* unicode_p.h 425-470: Utf16Reader::next; inc1 = _utf8_index_add, inc2 = _utf16_surrogate_count *)
  Definition utf16_next (strict : bool) (ptr end_ : Z) : outcome next_res :=
    let* uc := readU16 ptr in
    let ptr := ptr + 2 in
    let fallback := Ok (NOk uc 2 ((if 0x80 <=? uc then 1 else 0) + (if 0x800 <=? uc then 1 else 0)) 0) in
    if is_surrogate uc then
      if is_hi_surrogate uc then
        if negb (ptr =? end_) then
          let* lo := readU16 ptr in
          if is_lo_surrogate lo then Ok (NOk (char_from_surrogate uc lo) 4 2 1)
          else if strict then Ok (NErr BL_ERROR_INVALID_STRING) else fallback
        else if strict then Ok (NErr BL_ERROR_DATA_TRUNCATED) else fallback
      else if strict then Ok (NErr BL_ERROR_INVALID_STRING) else fallback
    else fallback.

  (* unicode_p.h 562-586: Utf32Reader::next; inc1 = _utf8_index_add, inc2 = _utf16_surrogate_count *)
  Definition utf32_next (strict : bool) (ptr end_ : Z) : outcome next_res :=
    let* uc := readU32 ptr in
    if 0x10FFFF <? uc then Ok (NErr BL_ERROR_INVALID_STRING) else
    if strict && is_surrogate uc then Ok (NErr BL_ERROR_INVALID_STRING) else
    Ok (NOk uc 4 ((if 0x800 <=? uc then 1 else 0) + (if 0x80 <=? uc then 1 else 0)) (if 0x10000 <=? uc then 1 else 0)).

  (* unicode_p.h 355-366, 482-493, 593-604: validate(); the loop ends because each character has positive size *)
  Fixpoint validate (next : Z -> Z -> outcome next_res) (fuel : nat) (ptr end_ n1 n2 : Z) : outcome (Z * Z * Z * Z) :=
    if ptr =? end_ then Ok (BL_SUCCESS, ptr, n1, n2) else
    match fuel with
    | O => NoFuel
    | S f =>
      let* r := next ptr end_ in
      match r with
      | NErr e => Ok (e, ptr, n1, n2)
      | NOk _ size i1 i2 => validate next f (ptr + size) end_ (n1 + i1) (n2 + i2)
      end
    end.
End Readers.

Definition align_down (x k : Z) : Z := x / k * k.
Definition size_of (src : list Z) : Z := Z.of_nat (length src).

(* Reader::kCharSize and the reader itself *)
Definition char_size (e : encoding) : Z := match e with EncUTF8 => 1 | EncUTF16 => 2 | EncUTF32 => 4 | EncLatin1 => 1 end.

(* ValidationState *)
Record vstate := { v_utf8 : Z; v_utf16 : Z; v_utf32 : Z }.

(* unicode.cpp 41-66 and 68-106: result code and state *)
Definition bl_validate_unicode (e : encoding) (src : list Z) : outcome (Z * vstate) :=
  let size := size_of src in
  match e with
  | EncLatin1 =>
    let extra := fold_left (fun acc b => acc + Z.shiftr b 7) src 0 in
    if 2 ^ 64 <=? size + extra then Ok (BL_ERROR_DATA_TOO_LARGE, {| v_utf8 := 0; v_utf16 := size; v_utf32 := size |})
    else Ok (BL_SUCCESS, {| v_utf8 := size + extra; v_utf16 := size; v_utf32 := size |})
  | EncUTF8 =>
    let* (r, ptr, n1, n2) := validate (utf8_next src) (length src) 0 size 0 0 in
    Ok (r, {| v_utf8 := ptr; v_utf16 := (ptr - n1) + n2; v_utf32 := ptr - n1 |})
  | EncUTF16 =>
    let* (r, ptr, n1, n2) := validate (utf16_next src true) (length src) 0 (align_down size 2) 0 0 in
    let r := if (r =? BL_SUCCESS) && negb (size mod 2 =? 0) then BL_ERROR_DATA_TRUNCATED else r in
    Ok (r, {| v_utf8 := ptr / 2 + n1; v_utf16 := ptr / 2; v_utf32 := ptr / 2 - n2 |})
  | EncUTF32 =>
    let* (r, ptr, n1, n2) := validate (utf32_next src true) (length src) 0 (align_down size 4) 0 0 in
    let r := if (r =? BL_SUCCESS) && negb (size mod 4 =? 0) then BL_ERROR_DATA_TRUNCATED else r in
    Ok (r, {| v_utf8 := ptr / 4 + n2 + n1; v_utf16 := ptr / 4 + n2; v_utf32 := ptr / 4 |})
  end.

(* ------------------------------------------------------------------ writers *)

Fixpoint store_bytes (dst : list Z) (i : Z) (bs : list Z) : outcome (list Z) :=
  match bs with [] => Ok dst | b :: r => let* d := wr dst i b in store_bytes d (i + 1) r end.

(* unicode_p.h 679-745: the bytes of a character *)
Definition utf8_bytes2 (uc : Z) : list Z := [w8 (Z.lor 0xC0 (Z.shiftr uc 6)); w8 (Z.lor 0x80 (Z.land uc 63))].
Definition utf8_bytes3 (uc : Z) : list Z :=
  [w8 (Z.lor 0xE0 (Z.shiftr uc 12)); w8 (Z.lor 0x80 (Z.land (Z.shiftr uc 6) 63)); w8 (Z.lor 0x80 (Z.land uc 63))].
Definition utf8_bytes4 (uc : Z) : list Z :=
  [w8 (Z.lor 0xF0 (Z.shiftr uc 18)); w8 (Z.lor 0x80 (Z.land (Z.shiftr uc 12) 63));
   w8 (Z.lor 0x80 (Z.land (Z.shiftr uc 6) 63)); w8 (Z.lor 0x80 (Z.land uc 63))].
Definition u16_bytes (v : Z) : list Z := [w8 v; w8 (Z.shiftr v 8)].
Definition u32_bytes (v : Z) : list Z := [w8 v; w8 (Z.shiftr v 8); w8 (Z.shiftr v 16); w8 (Z.shiftr v 24)].

(* Writer::write: result code, buffer, pointer *)
Definition write_checked (dst : list Z) (ptr end_ : Z) (bs : list Z) : outcome (Z * list Z * Z) :=
  let n := Z.of_nat (length bs) in
  if end_ <? ptr + n then Ok (BL_ERROR_NO_SPACE_LEFT, dst, ptr)
  else let* d := store_bytes dst ptr bs in Ok (BL_SUCCESS, d, ptr + n).

(* unicode_p.h 646-655 (write_byte's test is at_end(); the pointer never passes the end) *)
Definition utf8_write (dst : list Z) (ptr end_ uc : Z) : outcome (Z * list Z * Z) :=
  if uc <=? 0x7F then
    if ptr =? end_ then Ok (BL_ERROR_NO_SPACE_LEFT, dst, ptr)
    else let* d := store_bytes dst ptr [w8 uc] in Ok (BL_SUCCESS, d, ptr + 1)
  else if uc <=? 0x7FF then write_checked dst ptr end_ (utf8_bytes2 uc)
  else if uc <=? 0xFFFF then write_checked dst ptr end_ (utf8_bytes3 uc)
  else write_checked dst ptr end_ (utf8_bytes4 uc).
(* unicode_p.h 791-837 *)
Definition utf16_write (dst : list Z) (ptr end_ uc : Z) : outcome (Z * list Z * Z) :=
  if uc <=? 0xFFFF then
    if ptr =? end_ then Ok (BL_ERROR_NO_SPACE_LEFT, dst, ptr)
    else let* d := store_bytes dst ptr (u16_bytes uc) in Ok (BL_SUCCESS, d, ptr + 2)
  else write_checked dst ptr end_ (u16_bytes (hi_surrogate_of uc) ++ u16_bytes (lo_surrogate_of uc)).
(* unicode_p.h 900-907 *)
Definition utf32_write (dst : list Z) (ptr end_ uc : Z) : outcome (Z * list Z * Z) :=
  if ptr =? end_ then Ok (BL_ERROR_NO_SPACE_LEFT, dst, ptr)
  else let* d := store_bytes dst ptr (u32_bytes uc) in Ok (BL_SUCCESS, d, ptr + 4).

(* ------------------------------------------------------------------ conversion *)

(* result code, destination buffer, ConversionState *)
Record cres := { c_result : Z; c_dst : list Z; c_dst_index : Z; c_src_index : Z }.

(* unicode.cpp 119-151; csize = Iterator::kCharSize *)
Fixpoint convert_loop (write : list Z -> Z -> Z -> Z -> outcome (Z * list Z * Z)) (next : Z -> Z -> outcome next_res) (csize : Z)
    (fuel : nat) (dst : list Z) (dptr dend sptr send : Z) : outcome cres :=
  let finish r :=
    let r := if (1 <? csize) && (r =? BL_SUCCESS) && negb (sptr mod csize =? 0) then BL_ERROR_DATA_TRUNCATED else r in
    Ok {| c_result := r; c_dst := dst; c_dst_index := dptr; c_src_index := sptr |} in
  if sptr =? send then finish BL_SUCCESS else
  match fuel with
  | O => NoFuel
  | S f =>
    let* nr := next sptr send in
    match nr with
    | NErr e => finish e
    | NOk uc size _ _ =>
      let* (wres, dst, dptr) := write dst dptr dend uc in
      if negb (wres =? BL_SUCCESS) then
        Ok {| c_result := wres; c_dst := dst; c_dst_index := dptr; c_src_index := sptr + size - size |}
      else convert_loop write next csize f dst dptr dend (sptr + size) send
    end
  end.
Definition convert_impl write (wsize : Z) next (csize : Z) (dst src : list Z) : outcome cres :=
  convert_loop write next csize (length src) dst 0 (align_down (size_of dst) wsize) 0 (align_down (align_down (size_of src) csize) csize).

(* memcpy(dst, src, n), non-overlapping *)
Definition memcpy (dst src : list Z) (n : Z) : outcome (list Z) :=
  if (n <? 0) || (size_of src <? n) then UB else store_bytes dst 0 (firstn (Z.to_nat n) src).

(* unicode.cpp 188-213, fast and slow loop *)
Fixpoint latin1_fast (dst : list Z) (ptr : Z) (src : list Z) : outcome (list Z * Z) :=
  match src with
  | [] => Ok (dst, ptr)
  | uc :: r =>
    if uc <=? 0x7F then let* d := store_bytes dst ptr [w8 uc] in latin1_fast d (ptr + 1) r
    else let* d := store_bytes dst ptr (utf8_bytes2 uc) in latin1_fast d (ptr + 2) r
  end.
Fixpoint latin1_slow (dst : list Z) (ptr end_ i : Z) (src : list Z) : outcome cres :=
  match src with
  | [] => Ok {| c_result := BL_SUCCESS; c_dst := dst; c_dst_index := 0; c_src_index := 0 |}
  | uc :: r =>
    let* (res, d, p) := utf8_write dst ptr end_ uc in
    if negb (res =? BL_SUCCESS) then Ok {| c_result := res; c_dst := d; c_dst_index := p; c_src_index := i |}
    else latin1_slow d p end_ (i + 1) r
  end.
(* unicode.cpp 248-267, 330-349: loop of unchecked writes of k-byte units *)
Fixpoint widen (unit_bytes : Z -> list Z) (k : Z) (dst : list Z) (i : Z) (src : list Z) : outcome (list Z) :=
  match src with
  | [] => Ok dst
  | b :: r => let* d := store_bytes dst (i * k) (unit_bytes b) in widen unit_bytes k d (i + 1) r
  end.

(* unicode.cpp 153-395 *)
Definition convert_unicode (de se : encoding) (dst src : list Z) : outcome cres :=
  let dsize := size_of dst in
  let ssize := size_of src in
  match de, se with
  | EncLatin1, EncLatin1 =>
    let copy := Z.min dsize ssize in
    let* d := memcpy dst src copy in
    Ok {| c_result := if dsize <? ssize then BL_ERROR_NO_SPACE_LEFT else BL_SUCCESS; c_dst := d; c_dst_index := copy; c_src_index := copy |}
  | EncUTF8, EncLatin1 =>
    if ssize <=? dsize / 2 then
      let* (d, p) := latin1_fast dst 0 src in
      Ok {| c_result := BL_SUCCESS; c_dst := d; c_dst_index := p; c_src_index := ssize |}
    else latin1_slow dst 0 dsize 0 src
  | EncUTF8, EncUTF8 =>
    let copy := Z.min dsize ssize in
    let* (r, st) := bl_validate_unicode EncUTF8 (firstn (Z.to_nat copy) src) in
    let validated := v_utf8 st in
    let* d := if validated =? 0 then Ok dst else memcpy dst src validated in
    let r := if (copy <? ssize) && ((r =? BL_SUCCESS) || (r =? BL_ERROR_DATA_TRUNCATED)) then BL_ERROR_NO_SPACE_LEFT else r in
    Ok {| c_result := r; c_dst := d; c_dst_index := validated; c_src_index := validated |}
  | EncUTF8, EncUTF16 => convert_impl utf8_write 1 (utf16_next src true) 2 dst src
  | EncUTF8, EncUTF32 => convert_impl utf8_write 1 (utf32_next src true) 4 dst src
  | EncUTF16, EncLatin1 =>
    let count := Z.min (dsize / 2) ssize in
    let* d := widen u16_bytes 2 dst 0 (firstn (Z.to_nat count) src) in
    Ok {| c_result := if count <? ssize then BL_ERROR_NO_SPACE_LEFT else BL_SUCCESS; c_dst := d; c_dst_index := count * 2; c_src_index := count |}
  | EncUTF16, EncUTF8 => convert_impl utf16_write 2 (utf8_next src) 1 dst src
  | EncUTF16, EncUTF16 =>
    let copy := align_down (Z.min dsize ssize) 2 in
    let* (r, st) := bl_validate_unicode EncUTF16 (firstn (Z.to_nat copy) src) in
    let validated := v_utf16 st * 2 in
    let* d := memcpy dst src validated in
    let r := if (copy <? ssize) && ((r =? BL_SUCCESS) || (r =? BL_ERROR_DATA_TRUNCATED)) then BL_ERROR_NO_SPACE_LEFT else r in
    let r := if (r =? BL_SUCCESS) && negb (ssize mod 2 =? 0) then BL_ERROR_DATA_TRUNCATED else r in
    Ok {| c_result := r; c_dst := d; c_dst_index := validated; c_src_index := validated |}
  | EncUTF16, EncUTF32 => convert_impl utf16_write 2 (utf32_next src true) 4 dst src
  | EncUTF32, EncLatin1 =>
    let count := Z.min (dsize / 4) ssize in
    let* d := widen u32_bytes 4 dst 0 (firstn (Z.to_nat count) src) in
    Ok {| c_result := if count <? ssize then BL_ERROR_NO_SPACE_LEFT else BL_SUCCESS; c_dst := d; c_dst_index := count * 4; c_src_index := count |}
  | EncUTF32, EncUTF8 => convert_impl utf32_write 4 (utf8_next src) 1 dst src
  | EncUTF32, EncUTF16 => convert_impl utf32_write 4 (utf16_next src true) 2 dst src
  | EncUTF32, EncUTF32 => convert_impl utf32_write 4 (utf32_next src true) 4 dst src
  | EncLatin1, _ => Ok {| c_result := BL_ERROR_INVALID_VALUE; c_dst := dst; c_dst_index := 0; c_src_index := 0 |}
  end.
