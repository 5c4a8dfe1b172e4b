(* Model of BLBitArray: blend2d/core/bitarray.cpp, blend2d/core/bitarray_p.h and the parts of
   blend2d/support/bitops_p.h (ParametrizedBitOps<BitOrder::kMSB, uint32_t>) it uses. *)
From Verif Require Import Base IntOps_Model Algorithm_Model Object_Model.

(* ---- bitops_p.h / intops_p.h: 32-bit words, most significant bit first ---- *)
Definition ones32 : Z := 4294967295.
Definition not32 (x : Z) : Z := Z.lxor x ones32.
(* intops_p.h 188-199: shl, shr; a shift by 32 or more is undefined. *)
Definition shl32 (x y : Z) : outcome Z := if (0 <=? y) && (y <? 32) then Ok (w32 (Z.shiftl x y)) else UB.
Definition shr32 (x y : Z) : outcome Z := if (0 <=? y) && (y <? 32) then Ok (Z.shiftr x y) else UB.
(* intops_p.h 204-207: sar on the value reinterpreted as int32_t. *)
Definition sar32 (x y : Z) : outcome Z :=
  if (0 <=? y) && (y <? 32) then Ok (w32 (Z.shiftr (to_s 32 x) y)) else UB.
(* intops_p.h 262-271: non_zero_lsb_mask, non_zero_msb_mask (the subtraction is unsigned 64-bit). *)
Definition non_zero_lsb_mask (n : Z) : outcome Z := shr32 ones32 (w64 (32 - n)).
Definition non_zero_msb_mask (n : Z) : outcome Z := let* x := shl32 1 31 in sar32 x (w64 (n - 1)).
(* bitops_p.h 141-178 (kIsMSB) *)
Definition shift_to_start (x y : Z) : outcome Z := shl32 x y.
Definition shift_to_end (x y : Z) : outcome Z := shr32 x y.
Definition non_zero_start_mask (n : Z) : outcome Z := non_zero_msb_mask n.
Definition non_zero_start_mask_at (n index : Z) : outcome Z :=
  let* m := non_zero_start_mask n in shift_to_end m index.
Definition non_zero_end_mask (n : Z) : outcome Z := non_zero_lsb_mask n.
Definition index_as_mask (i : Z) : outcome Z := let* m := non_zero_msb_mask 1 in shr32 m i.
Definition index_as_mask_value (i : Z) (v : bool) : outcome Z :=
  let* m := shl32 (if v then 1 else 0) 31 in shr32 m i.
(* bitops_p.h 180-187: IntOps::clz / ctz of a non-zero word. *)
Definition count_zeros_from_start (x : Z) : Z := clz_fallback 5 x.
Definition count_zeros_from_end (x : Z) : Z := ctz_fallback 5 x.
(* bitops_p.h 188-193 *)
Definition compare_words (x y : Z) : Z := (if x >? y then 1 else 0) - (if x <? y then 1 else 0).

(* bitops_p.h 39-97: the bit operators used by BLBitArray. *)
Inductive bitop := BAssign | BAndNot | BOr.
Definition op (o : bitop) (a b : Z) : Z :=
  match o with
  | BAssign => b
  | BAndNot => Z.land a (not32 b)
  | BOr => Z.lor a b
  end.
Definition op_masked (o : bitop) (a b m : Z) : Z :=
  match o with
  | BAssign => Z.lor (Z.land a (not32 m)) (Z.land b m)
  | BAndNot => Z.land a (not32 (Z.land b m))
  | BOr => Z.lor a (Z.land b m)
  end.

(* bitops_p.h 195-232 *)
Definition bit_array_test_bit (c : list cell) (index : Z) : outcome bool :=
  let* w := rdc c (index / 32) in
  let* m := index_as_mask (index mod 32) in
  Ok (negb (Z.land w m =? 0)).
Definition bit_array_set_bit (c : list cell) (index : Z) : outcome (list cell) :=
  let* w := rdc c (index / 32) in
  let* m := index_as_mask (index mod 32) in
  wrc c (index / 32) (Z.lor w m).
Definition bit_array_or_bit (c : list cell) (index : Z) (v : bool) : outcome (list cell) :=
  let* w := rdc c (index / 32) in
  let* m := index_as_mask_value (index mod 32) v in
  wrc c (index / 32) (Z.lor w m).
Definition bit_array_clear_bit (c : list cell) (index : Z) : outcome (list cell) :=
  let* w := rdc c (index / 32) in
  let* m := index_as_mask (index mod 32) in
  wrc c (index / 32) (Z.land w (not32 m)).

(* bitops_p.h 234-266: bit_array_op; [set = true] is bit_array_fill (Or / Assign ones, 275-277),
   [set = false] is bit_array_clear (AndNot / AssignNot ones, 284-286). *)
Definition fill_op (set : bool) (a m : Z) : Z := if set then Z.lor a m else Z.land a (not32 m).
Definition full_op (set : bool) : Z := if set then ones32 else not32 ones32.
(* the [while (count >= kNumBits)] loop: 253-257 *)
Fixpoint bit_array_op_loop (fuel : nat) (set : bool) (c : list cell) (wi count : Z)
  : outcome (list cell * Z * Z) :=
  match fuel with
  | O => NoFuel
  | S fuel' => if 32 <=? count
               then let* c' := wrc c wi (full_op set) in bit_array_op_loop fuel' set c' (wi + 1) (count - 32)
               else Ok (c, wi, count)
  end.
Definition bit_array_op (set : bool) (c : list cell) (index count : Z) : outcome (list cell) :=
  if count =? 0 then Ok c else
  let wi := index / 32 in
  let bi := index mod 32 in
  let first_n := Z.min (32 - bi) count in
  let* m0 := non_zero_start_mask first_n in
  let* m := shift_to_end m0 bi in
  let* w := rdc c wi in
  let* c := wrc c wi (fill_op set w m) in
  let count := count - first_n in
  if count =? 0 then Ok c else
  let* (c, wi, count) := bit_array_op_loop (S (Z.to_nat (count / 32))) set c (wi + 1) count in
  if count =? 0 then Ok c else
  let* m := non_zero_start_mask count in
  let* w := rdc c wi in
  wrc c wi (fill_op set w m).

(* bitops_p.h 268-272: bit_array_combine_words *)
Fixpoint combine_words (o : bitop) (n : nat) (c : list cell) (di : Z) (wd : list Z) (si : Z) : outcome (list cell) :=
  match n with
  | O => Ok c
  | S n' => let* a := rdc c di in
            let* b := rd wd si in
            let* c' := wrc c di (op o a b) in
            combine_words o n' c' (di + 1) wd (si + 1)
  end.

(* ---- bitarray.cpp 16-44: commons ---- *)
Definition kSSOWordCapacity : Z := 3.
Definition kSSOBitCapacity : Z := 96.
Definition UINT32_MAX : Z := 4294967295.
Definition bit_index_of (w : Z) : Z := w * 32.
Definition word_index_of (i : Z) : Z := i / 32.
Definition word_count_from_bit_count (n : Z) : Z := w32 ((n + 31) / 32).
Definition bit_count_from_word_count (w : Z) : Z := Z.min (w * 32) UINT32_MAX.
Definition sizeof_BLBitArrayImpl : Z := 8.   (* bitarray.h 25-30: two uint32_t, empty base *)
Definition impl_size_from_word_capacity (w : Z) : Z := sizeof_BLBitArrayImpl + w * 4.
Definition word_capacity_from_impl_size (s : Z) : Z := (s - sizeof_BLBitArrayImpl) / 4.

(* bitarray.cpp 49-57: init_sso (init_static clears the data). *)
Definition init_sso (size : Z) : obj := Sso size (repeat (Some 0) 3).

(* bitarray.cpp 62-72: init_dynamic; [m] tells whether malloc succeeds. *)
Definition init_dynamic (m : bool) (h : heap) (impl_size size : Z) : option (heap * obj) :=
  if m then
    let wc := word_capacity_from_impl_size impl_size in
    Some (alloc_impl h (w32 size) (w32 (bit_count_from_word_count wc)) (Z.to_nat wc))
  else None.

(* bitarray_p.h 92-105: unpack. *)
Definition unpack (h : heap) (o : obj) : outcome (list cell * Z) :=
  match o with
  | Sso s c => Ok (c, s)
  | Dyn p => let* im := get_impl h p in Ok (mem im, isize im)
  end.
(* Writing the words of [self] through the data pointer handed out by make_mutable_for_* (which is
   always the data of self as it is after that call). *)
Definition store (h : heap) (o : obj) (c : list cell) : outcome (heap * obj) :=
  match o with
  | Sso s _ => Ok (h, Sso s c)
  | Dyn p => let* im := get_impl h p in Ok (put_impl h p (Impl (rc im) (base im) (isize im) (icap im) c), o)
  end.
Definition set_dyn (h : heap) (p : nat) (im : impl) (size : Z) (c : list cell) : heap :=
  put_impl h p (Impl (rc im) (base im) (w32 size) (icap im) c).

Definition result : Type := outcome (Z * heap * obj).

(* bitarray.cpp 75-108: make_mutable_for_modify_op; returns (code, heap, self, size). *)
Definition make_mutable_for_modify_op (m : bool) (h : heap) (self : obj) (from : Z)
  : outcome (Z * heap * obj * Z) :=
  match self with
  | Sso size _ => if size <=? from then Ok (BL_ERROR_INVALID_VALUE, h, self, 0) else Ok (BL_SUCCESS, h, self, size)
  | Dyn p =>
    let* im := get_impl h p in
    let size := isize im in
    if size <=? from then Ok (BL_ERROR_INVALID_VALUE, h, self, 0)
    else if is_impl_mutable im then Ok (BL_SUCCESS, h, self, size)
    else if size <=? kSSOBitCapacity then
      let* (h', o') := replace_instance h self (init_sso size) in
      Ok (BL_SUCCESS, h', o', size)
    else match init_dynamic m h (impl_size_from_word_capacity (word_count_from_bit_count size)) size with
         | None => Ok (BL_ERROR_OUT_OF_MEMORY, h, self, 0)
         | Some (h1, newO) =>
           let* (h', o') := replace_instance h1 self newO in
           Ok (BL_SUCCESS, h', o', size)
         end
  end.

(* bitarray.cpp 111-175: make_mutable_for_append_op; returns (code, heap, self, bit_index, new size).
   The final part (154-174) is [append_realloc]. *)
Definition append_realloc (m : bool) (h : heap) (self : obj) (c : list cell) (size n : Z)
  : outcome (Z * heap * obj * Z * Z) :=
  let '(new_size, of) := add_overflow 64 false size n false in
  if of then Ok (BL_ERROR_OUT_OF_MEMORY, h, self, 0, 0) else
  let old_wc := word_count_from_bit_count size in
  let new_wc := word_count_from_bit_count new_size in
  let* sz := expand_impl_size (impl_size_from_word_capacity new_wc) in
  match init_dynamic m h sz new_size with
  | None => Ok (BL_ERROR_OUT_OF_MEMORY, h, self, 0, 0)
  | Some (h1, newO) =>
    let* (d, _) := unpack h1 newO in
    let* d := copy_cells (Z.to_nat old_wc) d 0 c 0 in
    let* d := fill_cells (Z.to_nat (new_wc - old_wc)) d old_wc 0 in
    let* (h2, newO) := store h1 newO d in
    let* (h3, o') := replace_instance h2 self newO in
    Ok (BL_SUCCESS, h3, o', size, new_size)
  end.
Definition make_mutable_for_append_op (m : bool) (h : heap) (self : obj) (n : Z)
  : outcome (Z * heap * obj * Z * Z) :=
  match self with
  | Sso size c =>
    if n <=? kSSOBitCapacity - size then Ok (BL_SUCCESS, h, Sso (size + n) c, size, size + n)
    else if UINT32_MAX - size <? n then Ok (BL_ERROR_OUT_OF_MEMORY, h, self, 0, 0)
    else append_realloc m h self c size n
  | Dyn p =>
    let* im := get_impl h p in
    let size := isize im in
    let mutable_msk := bool_as_mask 64 false (is_impl_mutable im) in
    if n <=? Z.land (icap im - size) mutable_msk then
      let new_size := size + n in
      let from_word := word_index_of (size + 31) in
      let last_word := word_index_of (new_size - 1) in
      let* c := fill_cells (Z.to_nat (last_word - from_word + 1)) (mem im) from_word 0 in
      Ok (BL_SUCCESS, set_dyn h p im new_size c, self, size, new_size)
    else append_realloc m h self (mem im) size n
  end.

(* bitarray.cpp 178-236: combine_word_data on the words [c] of an array of [size] bits; [wd] is the
   caller's buffer. *)
Fixpoint combine_loop (o : bitop) (n : nat) (c : list cell) (dst : Z) (wd : list Z) (i w shift inv : Z)
  : outcome (list cell * Z * Z) :=
  match n with
  | O => Ok (c, i, w)
  | S n' =>
    let* prev := shift_to_start w inv in
    let* w := rd wd i in
    let* nxt := shift_to_end w shift in
    let* a := rdc c (dst + i) in
    let* c := wrc c (dst + i) (op o a (Z.lor prev nxt)) in
    combine_loop o n' c dst wd (i + 1) w shift inv
  end.
Definition combine_word_data (o : bitop) (c : list cell) (size bit_index : Z) (wd : list Z) (word_count : Z)
  : outcome (list cell) :=
  let bit_end := bit_index + Z.min (bit_index_of word_count) (size - bit_index) in
  let bit_count := bit_end - bit_index in
  let dst := word_index_of bit_index in
  let shift := bit_index mod 32 in
  if shift =? 0 then
    let word_count := Z.min (word_count_from_bit_count bit_count) word_count in
    let end_bit_count := bit_end mod 32 in
    let e := word_count - (if end_bit_count =? 0 then 0 else 1) in
    let* c := combine_words o (Z.to_nat e) c dst wd 0 in
    if end_bit_count =? 0 then Ok c
    else let* a := rdc c (dst + e) in
         let* b := rd wd e in
         let* m := non_zero_start_mask end_bit_count in
         wrc c (dst + e) (op_masked o a b m)
  else
    let* w := rd wd 0 in
    let inv := 32 - shift in
    if bit_count <=? inv then
      let* mask := non_zero_start_mask_at bit_count shift in
      let* x := shift_to_end w shift in
      let* a := rdc c dst in
      wrc c dst (op_masked o a x mask)
    else
      let* mask := non_zero_end_mask inv in
      let* x := shift_to_end w shift in
      let* a := rdc c dst in
      let* c := wrc c dst (op_masked o a x mask) in
      let bit_count := bit_count - inv in
      let n := word_index_of bit_count in
      let* (c, i, w) := combine_loop o (Z.to_nat n) c dst wd 1 w shift inv in
      let bit_count := bit_count mod 32 in
      if bit_count =? 0 then Ok c
      else
        let* last := shift_to_start w inv in
        let* last := (if inv <? bit_count
                      then let* b := rd wd i in let* y := shift_to_end b shift in Ok (Z.lor last y)
                      else Ok last) in
        let* m := non_zero_start_mask bit_count in
        let* a := rdc c (dst + i) in
        wrc c (dst + i) (op_masked o a last m).

(* ---- bitarray.cpp 243-309: init, init_move, init_weak, destroy, reset, assign_move, assign_weak ---- *)
Definition ba_init : obj := init_sso 0.
(* init_move / assign_move return (self, other). *)
Definition ba_init_move (other : obj) : obj * obj := (other, init_sso 0).
Definition ba_init_weak (h : heap) (other : obj) : outcome (heap * obj) :=
  let* h' := retain h other in Ok (h', other).
Definition ba_destroy (h : heap) (self : obj) : outcome heap := release h self.
Definition ba_reset (h : heap) (self : obj) : outcome (heap * obj) :=
  let* h' := release h self in Ok (h', init_sso 0).
Definition ba_assign_move (h : heap) (self other : obj) : outcome (heap * obj * obj) :=
  let* (h', self') := replace_instance h self other in Ok (h', self', init_sso 0).
Definition ba_assign_weak (h : heap) (self other : obj) : outcome (heap * obj) :=
  let* h1 := retain h other in replace_instance h1 self other.

(* bitarray.cpp 311-345: assign_words. *)
Definition copy_words (c : list cell) (wd : list Z) (n : Z) : outcome (list cell) :=
  copy_cells (Z.to_nat n) c 0 (map Some wd) 0.
Definition assign_words_new (m : bool) (h : heap) (self : obj) (wd : list Z) (word_count : Z) : result :=
  match init_dynamic m h (impl_size_from_word_capacity word_count) 0 with
  | None => Ok (BL_ERROR_OUT_OF_MEMORY, h, self)
  | Some (h1, newO) =>
    let* (d, _) := unpack h1 newO in
    let* d := copy_words d wd word_count in
    let* (h2, newO) := store h1 newO d in
    let* (h3, o') := replace_instance h2 self newO in
    Ok (BL_SUCCESS, h3, o')
  end.
Definition ba_assign_words (m : bool) (h : heap) (self : obj) (wd : list Z) (word_count : Z) : result :=
  match self with
  | Sso _ c =>
    if word_count <=? kSSOWordCapacity then
      let* c := copy_words c wd word_count in
      let* c := fill_cells (Z.to_nat (kSSOWordCapacity - word_count)) c word_count 0 in
      Ok (BL_SUCCESS, h, Sso (word_count * 32) c)
    else assign_words_new m h self wd word_count
  | Dyn p =>
    let* im := get_impl h p in
    let capacity_in_words := word_count_from_bit_count (icap im) in
    let immutable_msk := bool_as_mask 64 false (negb (is_impl_mutable im)) in
    if capacity_in_words <? Z.lor word_count immutable_msk then
      match init_sso (word_count * 32) with
      | Sso s c => let* c := copy_words c wd word_count in
                   let* (h', o') := replace_instance h self (Sso s c) in
                   Ok (BL_SUCCESS, h', o')
      | Dyn _ => UB
      end
    else assign_words_new m h self wd word_count
  end.

(* ---- accessors: bitarray.cpp 350-472 ---- *)
Definition ba_size (h : heap) (o : obj) : outcome Z := let* (_, s) := unpack h o in Ok s.
Fixpoint read_words (n : nat) (c : list cell) (i : Z) : outcome (list Z) :=
  match n with
  | O => Ok []
  | S n' => let* w := rdc c i in let* l := read_words n' c (i + 1) in Ok (w :: l)
  end.
(* 387-398; PopCounter is the Harley-Seal counter (intops_p.h 529-583). *)
Definition ba_cardinality (h : heap) (o : obj) : outcome Z :=
  let* (c, size) := unpack h o in
  if size =? 0 then Ok 0 else
  let* l := read_words (Z.to_nat (word_count_from_bit_count size)) c 0 in
  Ok (hs_get 4 (hs_add_array 4 hs_reset l)).
(* 400-429 *)
Definition ba_cardinality_in_range (h : heap) (o : obj) (start_bit end_bit : Z) : outcome Z :=
  let* (c, size) := unpack h o in
  let start := start_bit in
  let e := Z.min end_bit size in
  if e <=? start then Ok 0 else
  let start_word := word_index_of start in
  let last_word := word_index_of (e - 1) in
  if start_word =? last_word then
    let* mask := non_zero_start_mask_at (e - start) start_bit in
    let* w := rdc c start_word in
    Ok (hs_get 4 (hs_add_item 4 hs_reset (Z.land w mask)))
  else
    let* start_mask := non_zero_end_mask (32 - start mod 32) in
    let* end_mask := non_zero_start_mask ((e - 1) mod 32 + 1) in
    let* w0 := rdc c start_word in
    let s := hs_add_item 4 hs_reset (Z.land w0 start_mask) in
    let* l := read_words (Z.to_nat (last_word - start_word - 1)) c (start_word + 1) in
    let s := hs_add_array 4 s l in
    let* w1 := rdc c last_word in
    let s := hs_add_item 4 s (Z.land w1 end_mask) in
    Ok (hs_get 4 s).
(* 431-440 *)
Definition ba_has_bit (h : heap) (o : obj) (bit_index : Z) : outcome bool :=
  let* (c, size) := unpack h o in
  if size <=? bit_index then Ok false else bit_array_test_bit c bit_index.
(* 442-472 *)
Fixpoint any_word (n : nat) (c : list cell) (i : Z) : outcome bool :=
  match n with
  | O => Ok false
  | S n' => let* w := rdc c i in if w =? 0 then any_word n' c (i + 1) else Ok true
  end.
Definition ba_has_bits_in_range (h : heap) (o : obj) (start_bit end_bit : Z) : outcome bool :=
  let* (c, size) := unpack h o in
  let start := start_bit in
  let e := Z.min size end_bit in
  if e <=? start then Ok false else
  let start_word := word_index_of start in
  let end_word := word_index_of e in
  if start_word =? end_word then
    let* mask := non_zero_start_mask_at (e - start) start in
    let* w := rdc c start_word in
    Ok (negb (Z.land w mask =? 0))
  else
    let* start_mask := non_zero_end_mask (32 - start mod 32) in
    let* w := rdc c start_word in
    if negb (Z.land w start_mask =? 0) then Ok true else
    let* b := any_word (Z.to_nat (end_word - (start_word + 1))) c (start_word + 1) in
    if b then Ok true else
    let* end_mask := non_zero_start_mask (e mod 32) in
    let* w := rdc c end_word in
    Ok (negb (Z.land w end_mask =? 0)).

(* ---- 477-511: subsumes, intersects ---- *)
Fixpoint subsumes_loop (n : nat) (a b : list cell) (i : Z) : outcome bool :=
  match n with
  | O => Ok true
  | S n' => let* x := rdc a i in let* y := rdc b i in
            if Z.land x y =? y then subsumes_loop n' a b (i + 1) else Ok false
  end.
Definition ba_subsumes (h : heap) (a b : obj) : outcome bool :=
  let* (ac, asz) := unpack h a in
  let* (bc, bsz) := unpack h b in
  let shared := word_count_from_bit_count (Z.min asz bsz) in
  let* r := subsumes_loop (Z.to_nat shared) ac bc 0 in
  if negb r then Ok false else
  let bwc := word_count_from_bit_count bsz in
  let* x := any_word (Z.to_nat (bwc - shared)) bc shared in
  Ok (negb x).
Fixpoint intersects_loop (n : nat) (a b : list cell) (i : Z) : outcome bool :=
  match n with
  | O => Ok false
  | S n' => let* x := rdc a i in let* y := rdc b i in
            if Z.land x y =? 0 then intersects_loop n' a b (i + 1) else Ok true
  end.
Definition ba_intersects (h : heap) (a b : obj) : outcome bool :=
  let* (ac, asz) := unpack h a in
  let* (bc, bsz) := unpack h b in
  intersects_loop (Z.to_nat (word_count_from_bit_count (Z.min asz bsz))) ac bc 0.

(* ---- 513-543: get_range; the result is (found, start, end). ---- *)
Fixpoint last_word_loop (j : nat) (c : list cell) : outcome (option Z) :=
  match j with
  | O => Ok None
  | S j' => let* bits := rdc c (Z.of_nat j') in
            if bits =? 0 then last_word_loop j' c
            else Ok (Some (bit_index_of (Z.of_nat j) - count_zeros_from_end bits))
  end.
Fixpoint get_range_loop (n : nat) (wc : nat) (c : list cell) (i : Z) : outcome (bool * Z * Z) :=
  match n with
  | O => Ok (false, 0, 0)
  | S n' =>
    let* bits := rdc c i in
    if bits =? 0 then get_range_loop n' wc c (i + 1)
    else let start := bit_index_of i + count_zeros_from_start bits in
         let* r := last_word_loop wc c in
         match r with
         | Some e => Ok (true, w32 start, w32 e)
         | None => get_range_loop n' wc c (i + 1)
         end
  end.
Definition ba_get_range (h : heap) (o : obj) : outcome (bool * Z * Z) :=
  let* (c, size) := unpack h o in
  let wc := Z.to_nat (word_count_from_bit_count size) in
  get_range_loop wc wc c 0.

(* ---- 548-585: equals, compare ---- *)
Fixpoint equals_loop (n : nat) (a b : list cell) (i : Z) : outcome bool :=
  match n with
  | O => Ok true
  | S n' => let* x := rdc a i in let* y := rdc b i in
            if x =? y then equals_loop n' a b (i + 1) else Ok false
  end.
Definition ba_equals (h : heap) (a b : obj) : outcome bool :=
  let* (ac, asz) := unpack h a in
  let* (bc, bsz) := unpack h b in
  if negb (asz =? bsz) then Ok false
  else equals_loop (Z.to_nat (word_count_from_bit_count asz)) ac bc 0.
Fixpoint compare_loop (n : nat) (a b : list cell) (i : Z) : outcome (option Z) :=
  match n with
  | O => Ok None
  | S n' => let* x := rdc a i in let* y := rdc b i in
            if x =? y then compare_loop n' a b (i + 1) else Ok (Some (compare_words x y))
  end.
Definition ba_compare (h : heap) (a b : obj) : outcome Z :=
  let* (ac, asz) := unpack h a in
  let* (bc, bsz) := unpack h b in
  let* r := compare_loop (Z.to_nat (word_count_from_bit_count (Z.min asz bsz))) ac bc 0 in
  match r with
  | Some x => Ok x
  | None => Ok (if asz <? bsz then -1 else if asz >? bsz then 1 else 0)
  end.

(* ---- 590-607: clear ---- *)
Definition ba_clear (h : heap) (self : obj) : result :=
  match self with
  | Sso _ _ => Ok (BL_SUCCESS, h, init_sso 0)
  | Dyn p =>
    let* im := get_impl h p in
    if is_impl_mutable im then Ok (BL_SUCCESS, set_dyn h p im 0 (mem im), self)
    else let* h' := release h self in Ok (BL_SUCCESS, h', init_sso 0)
  end.

(* ---- 612-684: resize; the final part (660-683) is [resize_realloc]. ---- *)
Definition resize_realloc (m : bool) (h : heap) (self : obj) (c : list cell) (size n : Z) : result :=
  let r := if n <=? kSSOBitCapacity then Some (h, init_sso n)
           else init_dynamic m h (impl_size_from_word_capacity (word_count_from_bit_count n)) n in
  match r with
  | None => Ok (BL_ERROR_OUT_OF_MEMORY, h, self)
  | Some (h1, newO) =>
    let* (d, _) := unpack h1 newO in
    let bit_count := Z.min n size in
    let wc := word_count_from_bit_count bit_count in
    let* d := copy_cells (Z.to_nat wc) d 0 c 0 in
    let lw := bit_count mod 32 in
    let* d := (if lw =? 0 then Ok d
               else let* w := rdc d (wc - 1) in
                    let* k := non_zero_start_mask lw in
                    wrc d (wc - 1) (Z.land w k)) in
    let* (h2, newO) := store h1 newO d in
    let* (h3, o') := replace_instance h2 self newO in
    Ok (BL_SUCCESS, h3, o')
  end.
Definition ba_resize (m : bool) (h : heap) (self : obj) (n : Z) : result :=
  match self with
  | Sso size c =>
    if n <=? kSSOBitCapacity then
      if n <? size then
        let i := word_index_of n in
        let* (c, i) := (if n mod 32 =? 0 then Ok (c, i)
                         else let* w := rdc c i in
                              let* k := non_zero_start_mask (n mod 32) in
                              let* c := wrc c i (Z.land w k) in Ok (c, i + 1)) in
        let* c := fill_cells (Z.to_nat (kSSOWordCapacity - i)) c i 0 in
        Ok (BL_SUCCESS, h, Sso n c)
      else Ok (BL_SUCCESS, h, Sso n c)
    else resize_realloc m h self c size n
  | Dyn p =>
    let* im := get_impl h p in
    let immutable_mask := bool_as_mask 64 false (negb (is_impl_mutable im)) in
    let size := isize im in
    if Z.lor n immutable_mask <=? icap im then
      if n <? size then
        let i := word_index_of n in
        let* c := (if n mod 32 =? 0 then Ok (mem im)
                   else let* w := rdc (mem im) i in
                        let* k := non_zero_start_mask (n mod 32) in
                        wrc (mem im) i (Z.land w k)) in
        Ok (BL_SUCCESS, set_dyn h p im n c, self)
      else
        let from := word_index_of (size + 31) in
        let e := word_count_from_bit_count n in
        let* c := fill_cells (Z.to_nat (e - from)) (mem im) from 0 in
        Ok (BL_SUCCESS, set_dyn h p im n c, self)
    else resize_realloc m h self (mem im) size n
  end.

(* ---- 689-718: reserve ---- *)
Definition reserve_realloc (m : bool) (h : heap) (self : obj) (c : list cell) (size n : Z) : result :=
  match init_dynamic m h (impl_size_from_word_capacity (word_count_from_bit_count n)) size with
  | None => Ok (BL_ERROR_OUT_OF_MEMORY, h, self)
  | Some (h1, newO) =>
    let* (d, _) := unpack h1 newO in
    let* d := copy_cells (Z.to_nat (word_count_from_bit_count size)) d 0 c 0 in
    let* (h2, newO) := store h1 newO d in
    let* (h3, o') := replace_instance h2 self newO in
    Ok (BL_SUCCESS, h3, o')
  end.
Definition ba_reserve (m : bool) (h : heap) (self : obj) (n : Z) : result :=
  match self with
  | Sso size c => if n <=? kSSOBitCapacity then Ok (BL_SUCCESS, h, self) else reserve_realloc m h self c size n
  | Dyn p =>
    let* im := get_impl h p in
    let immutable_mask := bool_as_mask 64 false (negb (is_impl_mutable im)) in
    if Z.lor n immutable_mask <=? icap im then Ok (BL_SUCCESS, h, self)
    else reserve_realloc m h self (mem im) (isize im) n
  end.

(* ---- 723-755: shrink ---- *)
Definition ba_shrink (m : bool) (h : heap) (self : obj) : result :=
  match self with
  | Sso _ _ => Ok (BL_SUCCESS, h, self)
  | Dyn p =>
    let* im := get_impl h p in
    let size := isize im in
    let capacity := icap im in
    if size <=? kSSOBitCapacity then
      match init_sso size with
      | Sso s c => let* c := copy_cells (Z.to_nat (word_count_from_bit_count size)) c 0 (mem im) 0 in
                   let* (h', o') := replace_instance h self (Sso s c) in
                   Ok (BL_SUCCESS, h', o')
      | Dyn _ => UB
      end
    else
      let current := impl_size_from_word_capacity (word_count_from_bit_count capacity) in
      let optimal := impl_size_from_word_capacity (word_count_from_bit_count size) in
      if optimal + 16 <=? current then
        match init_dynamic m h optimal size with
        | None => Ok (BL_ERROR_OUT_OF_MEMORY, h, self)
        | Some (h1, newO) =>
          let* (d, _) := unpack h1 newO in
          let* d := copy_cells (Z.to_nat (word_count_from_bit_count size)) d 0 (mem im) 0 in
          let* (h2, newO) := store h1 newO d in
          let* (h3, o') := replace_instance h2 self newO in
          Ok (BL_SUCCESS, h3, o')
        end
      else Ok (BL_SUCCESS, h, self)
  end.

(* ---- 760-901: single bit, range and word modification ---- *)
Definition modify (m : bool) (h : heap) (self : obj) (from : Z) (f : list cell -> Z -> outcome (list cell)) : result :=
  let* (code, h, self, size) := make_mutable_for_modify_op m h self from in
  if negb (code =? BL_SUCCESS) then Ok (code, h, self) else
  let* (c, _) := unpack h self in
  let* c := f c size in
  let* (h, self) := store h self c in
  Ok (BL_SUCCESS, h, self).
(* 760-769 set_bit, 800-809 clear_bit, 886-894 replace_bit *)
Definition ba_set_bit m h self bit_index : result :=
  modify m h self bit_index (fun c _ => bit_array_set_bit c bit_index).
Definition ba_clear_bit m h self bit_index : result :=
  modify m h self bit_index (fun c _ => bit_array_clear_bit c bit_index).
Definition ba_replace_bit m h self bit_index (v : bool) : result :=
  if v then ba_set_bit m h self bit_index else ba_clear_bit m h self bit_index.
(* 771-785 fill_range, 811-825 clear_range *)
Definition ba_fill_range m h self start_bit end_bit : result :=
  if end_bit <=? start_bit then Ok (BL_ERROR_INVALID_VALUE, h, self) else
  modify m h self start_bit (fun c size => bit_array_op true c start_bit (Z.min end_bit size - start_bit)).
Definition ba_clear_range m h self start_bit end_bit : result :=
  if end_bit <=? start_bit then Ok (BL_ERROR_INVALID_VALUE, h, self) else
  modify m h self start_bit (fun c size => bit_array_op false c start_bit (Z.min end_bit size - start_bit)).
(* 787-796 fill_words, 831-840 clear_words, 903-912 replace_words *)
Definition ba_fill_words m h self bit_index wd word_count : result :=
  modify m h self bit_index (fun c size => combine_word_data BOr c size bit_index wd word_count).
Definition ba_clear_words m h self bit_index wd word_count : result :=
  modify m h self bit_index (fun c size => combine_word_data BAndNot c size bit_index wd word_count).
Definition ba_replace_words m h self bit_index wd word_count : result :=
  modify m h self bit_index (fun c size => combine_word_data BAssign c size bit_index wd word_count).

(* ---- 845-884: replace_op (the data pointer returned is the data of self) ---- *)
Definition ba_replace_op (m : bool) (h : heap) (self : obj) (n : Z) : result :=
  let wc := word_count_from_bit_count n in
  let new h self :=
    match init_dynamic m h (impl_size_from_word_capacity wc) n with
    | None => Ok (BL_ERROR_OUT_OF_MEMORY, h, self)
    | Some (h1, newO) =>
      let* h2 := release h1 self in
      let* (d, _) := unpack h2 newO in
      let* d := fill_cells (Z.to_nat wc) d 0 0 in
      let* (h3, o') := store h2 newO d in
      Ok (BL_SUCCESS, h3, o')
    end in
  match self with
  | Sso _ _ => if n <=? kSSOBitCapacity then Ok (BL_SUCCESS, h, init_sso n) else new h self
  | Dyn p =>
    let* im := get_impl h p in
    let immutable_mask := bool_as_mask 64 false (negb (is_impl_mutable im)) in
    if Z.lor n immutable_mask <=? icap im then
      let* c := fill_cells (Z.to_nat wc) (mem im) 0 0 in
      Ok (BL_SUCCESS, set_dyn h p im n c, self)
    else if n <=? kSSOBitCapacity then
      let* h' := release h self in Ok (BL_SUCCESS, h', init_sso n)
    else new h self
  end.

(* ---- 917-956: append_bit, append_words (append_word is append_words with one word) ---- *)
Definition ba_append_bit (m : bool) (h : heap) (self : obj) (v : bool) : result :=
  let* (code, h, self, bit_index, _) := make_mutable_for_append_op m h self 1 in
  if negb (code =? BL_SUCCESS) then Ok (code, h, self) else
  let* (c, _) := unpack h self in
  let* c := bit_array_or_bit c bit_index v in
  let* (h, self) := store h self c in
  Ok (BL_SUCCESS, h, self).
Definition ba_append_words (m : bool) (h : heap) (self : obj) (wd : list Z) (word_count : Z) : result :=
  if word_count =? 0 then Ok (BL_SUCCESS, h, self) else
  let* (code, h, self, bit_index, size) := make_mutable_for_append_op m h self (word_count * 32) in
  if negb (code =? BL_SUCCESS) then Ok (code, h, self) else
  let* (c, _) := unpack h self in
  let* c := combine_word_data BOr c size bit_index wd word_count in
  let* (h, self) := store h self c in
  Ok (BL_SUCCESS, h, self).
