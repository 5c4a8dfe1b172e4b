(* BLFormatInfo: the built-in descriptions, bl_format_info_query and bl_format_info_sanitize
   (blend2d/core/format.cpp, blend2d/core/format.h, blend2d/core/format_p.h), on a 64-bit little endian host. *)
From Verif Require Import Base Object_Model.

(* One component of BLFormatInfo: sizes[i] and shifts[i], both uint8_t (format.h lines 122-150). *)
Record comp := Comp { c_size : Z; c_shift : Z }.

(* BLFormatInfo (format.h lines 118-152). The eight bytes of sizes and shifts share storage with the palette
   pointer on a 64-bit host, so the pointer is null exactly when all of them are zero. *)
Record finfo := Info {
  f_depth : Z;
  f_flags : Z;
  f_r : comp;
  f_g : comp;
  f_b : comp;
  f_a : comp
}.
Definition comps (f : finfo) : list comp := [f_r f; f_g f; f_b f; f_a f].
Definition palette_null (f : finfo) : bool := forallb (fun c => (c_size c =? 0) && (c_shift c =? 0)) (comps f).

(* BLFormatFlags (format.h lines 49-84) and kAllPublicFlags (format_p.h lines 66-67). *)
Definition F_RGB : Z := 1.
Definition F_ALPHA : Z := 2.
Definition F_RGBA : Z := 3.
Definition F_LUM : Z := 4.
Definition F_LUMA : Z := 6.
Definition F_INDEXED : Z := 16.
Definition F_PREMULTIPLIED : Z := 256.
Definition F_BYTE_SWAP : Z := 512.
Definition F_BYTE_ALIGNED : Z := 65536.
Definition F_UNDEFINED_BITS : Z := 131072.
Definition F_PUBLIC : Z := 791. (* 0x317 *)

(* bl_test_flag (core/api-internal_p.h). *)
Definition test_flag (flags m : Z) : bool := negb (Z.land flags m =? 0).

(* BLPixelConverterComponentIndexesGen (format.cpp lines 41-52). *)
Definition component_indexes (i : Z) : Z :=
  if i =? F_RGB then 7 else if i =? F_ALPHA then 8 else if i =? F_RGBA then 15
  else if i =? F_LUM then 7 else if i =? F_LUMA then 15 else 0.

(* bl_format_info[] (format.cpp lines 13-19) with make_flags_static (format_p.h lines 77-85): the public formats. *)
Definition format_info (fmt : Z) : finfo :=
  if fmt =? 1 then Info 32 (F_RGBA + F_PREMULTIPLIED + F_BYTE_ALIGNED) (Comp 8 16) (Comp 8 8) (Comp 8 0) (Comp 8 24)
  else if fmt =? 2 then Info 32 (F_RGB + F_BYTE_ALIGNED + F_UNDEFINED_BITS) (Comp 8 16) (Comp 8 8) (Comp 8 0) (Comp 0 0)
  else if fmt =? 3 then Info 8 (F_ALPHA + F_BYTE_ALIGNED) (Comp 0 0) (Comp 0 0) (Comp 0 0) (Comp 8 0)
  else Info 0 0 (Comp 0 0) (Comp 0 0) (Comp 0 0) (Comp 0 0).

(* bl_format_info_query (format.cpp lines 57-65): the result code and the new content of the struct. *)
Definition query (fmt : Z) : Z * finfo :=
  if (fmt =? 0) || (3 <? fmt) then (BL_ERROR_INVALID_VALUE, Info 0 0 (Comp 0 0) (Comp 0 0) (Comp 0 0) (Comp 0 0))
  else (BL_SUCCESS, format_info fmt).

(* bl_format_info_is_depth_valid (format.cpp lines 70-84). *)
Definition depth_valid (d : Z) : bool :=
  (d =? 1) || (d =? 2) || (d =? 4) || (d =? 8) || (d =? 16) || (d =? 24) || (d =? 32).

(* IntOps::non_zero_lsb_mask (support/intops_p.h lines 262-265): all ones shifted right by w - n. A shift count outside
   0..w-1 is undefined. *)
Definition lsb_mask (w n : Z) : outcome Z :=
  if (0 <? n) && (n <=? w) then Ok (Z.shiftr (Z.ones w) (w - n)) else UB.
(* uint64_t << n *)
Definition shl64 (x n : Z) : outcome Z := if (0 <=? n) && (n <? 64) then Ok (w64 (Z.shiftl x n)) else UB.

(* The variables of the loop (format.cpp lines 94-97 and 113). *)
Record lstate := LS { l_comb : Z; l_overlap : bool; l_unaligned : bool; l_crosses : bool }.

(* One turn of the loop over the components (format.cpp lines 120-167). *)
Definition check_comp (depth idx i : Z) (c : comp) (s : lstate) : outcome lstate :=
  let size := c_size c in
  let shift := c_shift c in
  if size =? 0 then
    if test_flag idx (2 ^ i) then Err BL_ERROR_INVALID_VALUE
    else if negb (shift =? 0) then Err BL_ERROR_INVALID_VALUE
    else Ok s
  else if negb (test_flag idx (2 ^ i)) then Err BL_ERROR_INVALID_VALUE
  else if 16 <? size then Err BL_ERROR_INVALID_VALUE
  else if depth <? w32 (shift + size) then Err BL_ERROR_INVALID_VALUE
  else
    let unaligned := if negb (size =? 8) || negb (Z.land shift 7 =? 0) then true else l_unaligned s in
    let crosses := if negb (shift / 8 =? w32 (shift + size - 1) / 8) then true else l_crosses s in
    let* m := lsb_mask 32 size in
    let* mask := shl64 m shift in
    if negb (Z.land (l_comb s) mask =? 0) then
      if i =? 3 then Err BL_ERROR_INVALID_VALUE
      else Ok (LS (Z.lor (l_comb s) mask) true unaligned crosses)
    else Ok (LS (Z.lor (l_comb s) mask) (l_overlap s) unaligned crosses).

Definition check_all (f : finfo) (idx : Z) : outcome lstate :=
  let* s := check_comp (f_depth f) idx 0 (f_r f) (LS 0 false false false) in
  let* s := check_comp (f_depth f) idx 1 (f_g f) s in
  let* s := check_comp (f_depth f) idx 2 (f_b f) s in
  check_comp (f_depth f) idx 3 (f_a f) s.

Definition comp_eqb (a b : comp) : bool := (c_size a =? c_size b) && (c_shift a =? c_shift b).

(* The part that reads the description (format.cpp lines 91-185): the flags so far, whether a component is not byte
   aligned, whether one crosses a byte boundary, whether some bits are undefined. On an error the struct has not been
   written (the memset of line 105 exists on 32-bit hosts only). *)
Definition examine (f : finfo) : outcome (Z * bool * bool * bool) :=
  let flags := Z.land (f_flags f) F_PUBLIC in
  if negb (depth_valid (f_depth f)) then Err BL_ERROR_INVALID_VALUE
  else if test_flag flags F_INDEXED then
    if (8 <? f_depth f) || palette_null f then Err BL_ERROR_INVALID_VALUE
    else Ok (flags, false, false, false)
  else
    let idx := component_indexes (Z.land flags 15) in
    if idx =? 0 then Err BL_ERROR_INVALID_VALUE
    else
      let* s := check_all f idx in
      let* all := lsb_mask 64 (f_depth f) in
      let undef := negb (Z.lxor all (l_comb s) =? 0) in
      let flags := if negb (test_flag flags F_ALPHA) then Z.ldiff flags F_PREMULTIPLIED else flags in
      let is_lum := test_flag flags F_LUM in
      if negb (Bool.eqb is_lum (l_overlap s)) then Err BL_ERROR_INVALID_VALUE
      else if is_lum && negb (comp_eqb (f_r f) (f_g f) && comp_eqb (f_g f) (f_b f)) then Err BL_ERROR_INVALID_VALUE
      else Ok (flags, l_unaligned s, l_crosses s, undef).

(* f.shifts[i] = uint8_t(f.depth - f.shifts[i] - size) (format.cpp lines 196-199). *)
Definition swap_comp (depth : Z) (c : comp) : comp :=
  if c_size c =? 0 then c else Comp (c_size c) (w8 (w32 (depth - c_shift c - c_size c))).
Definition swap_comps (f : finfo) : finfo :=
  Info (f_depth f) (f_flags f) (swap_comp (f_depth f) (f_r f)) (swap_comp (f_depth f) (f_g f))
       (swap_comp (f_depth f) (f_b f)) (swap_comp (f_depth f) (f_a f)).

Definition with_flags (f : finfo) (flags : Z) : finfo := Info (f_depth f) flags (f_r f) (f_g f) (f_b f) (f_a f).

(* bl_format_info_sanitize (format.cpp lines 86-214): the new content of the struct or the error. *)
Definition sanitize (f : finfo) : outcome finfo :=
  let* (flags, unaligned, crosses, undef) := examine f in
  let (f, flags) :=
    if test_flag flags F_BYTE_SWAP then
      if f_depth f <=? 8 then (f, Z.ldiff flags F_BYTE_SWAP)
      else if negb crosses then (swap_comps f, Z.ldiff flags F_BYTE_SWAP)
      else (f, flags)
    else (f, flags) in
  let flags := if negb unaligned then Z.lor flags F_BYTE_ALIGNED else flags in
  let flags := if undef then Z.lor flags F_UNDEFINED_BITS else flags in
  Ok (with_flags f flags).
