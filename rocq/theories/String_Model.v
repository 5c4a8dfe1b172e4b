(* Model of BLString: blend2d/core/string.cpp, blend2d/core/string_p.h, blend2d/core/string.h.

   The cells of a dynamic string are the bytes behind BLStringImpl (capacity + 1 of them, the last for the terminator). An SSO
   string occupies bytes 0..14 of the handle: 14 characters, and byte 14, which is both the terminator of a full string and the
   "A" field of the object info that holds size XOR 14 (string.h 99-109, object.h 116-137).  [Sso s c]: [c] are these 15 bytes;
   [s] is always the size decoded from byte 14 ([sso_of]).  Byte 15 (type, flags) is never touched by the code.
   Little endian target; the slack that rounding an allocation up gives is not part of the block; static (eternal) strings and
   failing vsnprintf are not modelled. *)
From Verif Require Import Base IntOps_Model Algorithm_Model Object_Model BitArray_Model Array_Model.

(* string.h 100-103, 25-29 *)
Definition kSSOCapacity : Z := 14.
Definition sizeof_BLStringImpl : Z := 16.

(* string_p.h 23-29; size_t arithmetic wraps *)
Definition s_impl_size (cap : Z) : Z := w64 (sizeof_BLStringImpl + 1 + cap).
Definition s_capacity (impl_size : Z) : Z := w64 (impl_size - sizeof_BLStringImpl - 1).
(* string.cpp 30-32 *)
Definition s_maximum_size : Z := s_capacity BL_OBJECT_IMPL_MAX_SIZE.

(* string_p.h 93-95: get_sso_size; bytes 12, 13 are shifted out and byte 15 cancels against the signature *)
Definition sso_size (c : list cell) : Z := match nth_error c 14 with Some (Some b) => Z.lxor b kSSOCapacity | _ => -1 end.
Definition sso_of (c : list cell) : obj := Sso (sso_size c) c.
(* string.cpp 42-44: set_sso_size, object.h 465 set_field: bits 6, 7 of byte 14 belong to the type *)
Definition set_sso_size (c : list cell) (n : Z) : outcome (list cell) :=
  let* b := rdc c 14 in wrc c 14 (Z.lor (Z.land b 0xC0) (Z.lxor n kSSOCapacity)).
(* string.cpp 61-65: init_sso - all bytes zero but the size *)
Definition sso_cells (size : Z) : list cell := repeat (Some 0) 14 ++ [Some (Z.lxor size kSSOCapacity)].
Definition init_sso (size : Z) : obj := sso_of (sso_cells size).

(* string.cpp 67-76: init_dynamic; object.cpp 38-40 the size limit; [m]: does malloc succeed *)
Definition s_init_dynamic (m : bool) (h : heap) (impl_size size : Z) : outcome (option (heap * obj)) :=
  if m && (impl_size <=? BL_OBJECT_IMPL_MAX_SIZE) then
    let* d := wrc (repeat None (Z.to_nat (impl_size - sizeof_BLStringImpl))) size 0 in
    Ok (Some (h ++ [Some (Impl 1 1 size (s_capacity impl_size) d)], Dyn (length h)))
  else Ok None.
(* string.cpp 78-91: init_string *)
Definition init_string (m : bool) (h : heap) (size cap : Z) : outcome (option (heap * obj)) :=
  if cap <=? kSSOCapacity then Ok (Some (h, init_sso size)) else s_init_dynamic m h (s_impl_size size) size.

(* string_p.h 97-106: unpack_data *)
Definition s_unpack (h : heap) (o : obj) : outcome (loc * Z * Z) :=
  match o with
  | Sso s _ => Ok (LSelf, s, kSSOCapacity)
  | Dyn p => let* im := get_impl h p in Ok (LDyn p, isize im, icap im)
  end.
(* string.cpp 46-52: set_size *)
Definition s_set_size (h : heap) (o : obj) (n : Z) : outcome (heap * obj) :=
  match o with
  | Sso _ c => let* c := set_sso_size c n in Ok (h, sso_of c)
  | Dyn p => let* im := get_impl h p in Ok (put_impl h p (Impl (rc im) (base im) n (icap im) (mem im)), o)
  end.
(* bytes written through a data pointer *)
Definition s_store (h : heap) (o : obj) (c : list cell) : outcome (heap * obj) :=
  match o with Sso _ _ => Ok (h, sso_of c) | Dyn _ => store h o c end.
Definition is_sso (o : obj) : bool := match o with Sso _ _ => true | Dyn _ => false end.

(* fresh storage [newO] with text copied into it by [f] replaces [self] *)
Definition fill_new (h : heap) (newO : obj) (f : list cell -> outcome (list cell)) : outcome (heap * obj) :=
  let* dst := block h newO (own_loc newO) in let* dst := f dst in s_store h newO dst.
Definition finish (h : heap) (self newO : obj) : result :=
  let* (h', self) := replace_instance h self newO in Ok (BL_SUCCESS, h', self).

(* strlen: the number of bytes before the first zero byte *)
Fixpoint strlen_loop (fuel : nat) (c : list cell) (i n : Z) : outcome Z :=
  match fuel with
  | O => UB
  | S f => let* b := rdc c i in if b =? 0 then Ok n else strlen_loop f c (i + 1) (n + 1)
  end.
Definition src_strlen (data : outcome (list cell)) (s : src) : outcome Z :=
  match s with
  | SExt _ l => strlen_loop (length l) (map Some l) 0 0
  | SIn i => let* c := data in strlen_loop (length c) c i 0
  end.
(* the length argument; SIZE_MAX stands for a NUL terminated string *)
Definition arg_size (data : outcome (list cell)) (s : src) (n : Z) : outcome Z := if n =? 2 ^ 64 - 1 then src_strlen data s else Ok n.

(* string.cpp 107-151: modify_and_copy.  In the branch of lines 121-124 [newO] is never initialized, and it replaces [self]. *)
Definition modify_and_copy (m : bool) (h : heap) (self : obj) (op : modify_op) (str : src) (n : Z) : result :=
  let* (data, size, cap) := s_unpack h self in
  let index := if is_assign op then 0 else size in
  let size_after := uadd_saturate 64 index n in
  let* mut := is_instance_mutable h self in
  if cap <? Z.lor size_after (immutable_msk mut) then
    if s_maximum_size <? size_after then Ok (BL_ERROR_OUT_OF_MEMORY, h, self)
    else if (size_after <=? kSSOCapacity) && negb (does_grow op) then UB
    else
      let* impl_size := expand_impl_size_with_modify_op (s_impl_size size_after) (does_grow op) in
      let* r := s_init_dynamic m h impl_size size_after in
      match r with
      | None => Ok (BL_ERROR_OUT_OF_MEMORY, h, self)
      | Some (h1, newO) =>
        let* src := block h1 self data in
        let* (h2, newO) := fill_new h1 newO (fun d => let* d := copy_cells (Z.to_nat index) d 0 src 0 in copy_to n d index (Ok src) str) in
        finish h2 self newO
      end
  else
    let* c := block h self data in
    let* c := move_own n c index str in
    let* c := wrc c size_after 0 in
    if is_sso self then
      let* c := set_sso_size c size_after in
      let* c := if is_assign op then fill_cells (Z.to_nat (kSSOCapacity - size_after)) c size_after 0 else Ok c in
      Ok (BL_SUCCESS, h, sso_of c)
    else
      let* (h1, self) := s_store h self c in
      let* (h2, self) := s_set_size h1 self size_after in
      Ok (BL_SUCCESS, h2, self).

(* string.cpp 153-226: insert_and_copy *)
Definition insert_and_copy (m : bool) (h : heap) (self : obj) (index : Z) (str : src) (n : Z) : result :=
  let* (data, size, cap) := s_unpack h self in
  let end_index := w64 (index + n) in
  let size_after := uadd_saturate 64 size n in
  let* mut := is_instance_mutable h self in
  if cap <? Z.lor size_after (immutable_msk mut) then
    if s_maximum_size <? size_after then Ok (BL_ERROR_OUT_OF_MEMORY, h, self)
    else
      let* impl_size := expand_impl_size (s_impl_size size_after) in
      let* r := s_init_dynamic m h impl_size size_after in
      match r with
      | None => Ok (BL_ERROR_OUT_OF_MEMORY, h, self)
      | Some (h1, newO) =>
        let* src := block h1 self data in
        let* (h2, newO) := fill_new h1 newO (fun d =>
          let* d := copy_cells (Z.to_nat index) d 0 src 0 in
          let* d := copy_cells (Z.to_nat (size - index)) d end_index src index in
          copy_to n d index (Ok src) str) in
        finish h2 self newO
      end
  else
    let* (h1, self) := s_set_size h self size_after in
    let* c := block h1 self data in
    let dst := index in
    let dst_end := size + n in
    (* 192: the terminator moves along *)
    let* c := move_own (size - index + 1) c (dst + n) (SIn dst) in
    (* 212-219 *)
    let lead := if src_off 1 str <? dst then Z.min (dst - src_off 1 str) n else 0 in
    let* c := copy_own lead c dst str in
    let dst := dst + lead in
    let str := src_add 1 str lead in
    (* 221-225 *)
    let str := if src_off 1 str <? dst_end then src_add 1 str n else str in
    let* c := copy_own (n - lead) c dst str in
    let* (h2, self) := s_store h1 self c in
    Ok (BL_SUCCESS, h2, self).

(* string.cpp 265-275: init_with_data *)
Definition str_init_with_data (m : bool) (h : heap) (str : src) (n : Z) : result :=
  let* size := arg_size UB str n in
  let* r := init_string m h size size in
  match r with
  | None => Ok (BL_ERROR_OUT_OF_MEMORY, h, init_sso 0)
  | Some (h1, newO) => let* (h2, newO) := fill_new h1 newO (fun d => copy_to size d 0 UB str) in Ok (BL_SUCCESS, h2, newO)
  end.

(* string.cpp 324-355: clear *)
Definition str_clear (h : heap) (self : obj) : result :=
  match self with
  | Sso size c =>
    if size =? 0 then Ok (BL_SUCCESS, h, self)
    else let* c := fill_cells 14 c 0 0 in let* c := set_sso_size c 0 in Ok (BL_SUCCESS, h, sso_of c)
  | Dyn p =>
    let* im := get_impl h p in
    if negb (is_impl_mutable im) then
      let* h1 := release h self in Ok (BL_SUCCESS, h1, init_sso 0)
    else if isize im =? 0 then Ok (BL_SUCCESS, h, self)
    else
      let* (h1, self) := s_set_size h self 0 in
      let* c := block h1 self (LDyn p) in let* c := wrc c 0 0 in
      let* (h2, self) := s_store h1 self c in Ok (BL_SUCCESS, h2, self)
  end.

(* a copy of the first [n] bytes in new storage (init_string_and_copy, string.cpp 93-102), which replaces [self] *)
Definition copy_and_replace (m : bool) (h : heap) (self : obj) (n : Z) : result :=
  let* r := init_string m h n n in
  match r with
  | None => Ok (BL_ERROR_OUT_OF_MEMORY, h, self)
  | Some (h1, newO) =>
    let* src := block h1 self (own_loc self) in
    let* (h2, newO) := fill_new h1 newO (fun d => copy_cells (Z.to_nat n) d 0 src 0) in
    finish h2 self newO
  end.

(* string.cpp 357-381: shrink *)
Definition str_shrink (m : bool) (h : heap) (self : obj) : result :=
  match self with
  | Sso _ _ => Ok (BL_SUCCESS, h, self)
  | Dyn p =>
    let* im := get_impl h p in
    if (isize im <=? kSSOCapacity) || (w64 (isize im + BL_OBJECT_IMPL_ALIGNMENT) <=? icap im) then copy_and_replace m h self (isize im)
    else Ok (BL_SUCCESS, h, self)
  end.

(* string.cpp 383-399: reserve *)
Definition str_reserve (m : bool) (h : heap) (self : obj) (n : Z) : result :=
  let* (data, size, cap) := s_unpack h self in
  let* mut := is_instance_mutable h self in
  if Z.lor n (immutable_msk mut) <=? cap then Ok (BL_SUCCESS, h, self)
  else
    let* r := s_init_dynamic m h (s_impl_size (Z.max size n)) size in
    match r with
    | None => Ok (BL_ERROR_OUT_OF_MEMORY, h, self)
    | Some (h1, newO) =>
      let* src := block h1 self data in
      let* (h2, newO) := fill_new h1 newO (fun d => copy_cells (Z.to_nat size) d 0 src 0) in
      finish h2 self newO
    end.

(* string.cpp 444-466: make_mutable *)
Definition str_make_mutable (m : bool) (h : heap) (self : obj) : result :=
  match self with
  | Sso _ _ => Ok (BL_SUCCESS, h, self)
  | Dyn p =>
    let* im := get_impl h p in
    if is_impl_mutable im then Ok (BL_SUCCESS, h, self) else copy_and_replace m h self (isize im)
  end.

(* string.cpp 468-518: modify_op; the position of the first new byte is returned *)
Definition str_modify_op (m : bool) (h : heap) (self : obj) (op : modify_op) (n : Z) : outcome (Z * heap * obj * Z) :=
  let* (data, size, cap) := s_unpack h self in
  let index := if is_assign op then 0 else size in
  let size_after := uadd_saturate 64 index n in
  let* mut := is_instance_mutable h self in
  if cap <? Z.lor size_after (immutable_msk mut) then
    let* r := if (size_after <=? kSSOCapacity) && negb (does_grow op) then Ok (Some (h, init_sso size_after))
              else if s_maximum_size <? size_after then Ok None
              else let* impl_size := expand_impl_size_with_modify_op (s_impl_size size_after) (does_grow op) in
                   s_init_dynamic m h impl_size size_after in
    match r with
    | None => Ok (BL_ERROR_OUT_OF_MEMORY, h, self, 0)
    | Some (h1, newO) =>
      let* src := block h1 self data in
      let* (h2, newO) := fill_new h1 newO (fun d => let* d := copy_cells (Z.to_nat index) d 0 src 0 in wrc d size_after 0) in
      let* h3 := release h2 self in
      Ok (BL_SUCCESS, h3, newO, index)
    end
  else
    let* c := block h self data in
    let* c := wrc c size_after 0 in
    if is_sso self then
      let* c := set_sso_size c size_after in
      let* c := if is_assign op then fill_cells 14 c 0 0 else Ok c in
      Ok (BL_SUCCESS, h, sso_of c, index)
    else
      let* (h1, self) := s_store h self c in
      let* (h2, self) := s_set_size h1 self size_after in
      Ok (BL_SUCCESS, h2, self, index).
(* bytes written through the pointer returned by modify_op / insert_op *)
Definition s_write_at (h : heap) (self : obj) (index : Z) (text : list Z) : result :=
  let* c := block h self (own_loc self) in
  let* c := copy_cells (length text) c index (map Some text) 0 in
  let* (h1, self) := s_store h self c in
  Ok (BL_SUCCESS, h1, self).
Definition str_modify_op_write (m : bool) (h : heap) (self : obj) (op : modify_op) (text : list Z) : result :=
  let* (code, h1, self, index) := str_modify_op m h self op (Z.of_nat (length text)) in
  if negb (code =? BL_SUCCESS) then Ok (code, h1, self) else s_write_at h1 self index text.
(* memset(dst, c, n) *)
Definition s_memset_at (h : heap) (self : obj) (index n b : Z) : result :=
  let* c := block h self (own_loc self) in
  let* c := fill_cells (Z.to_nat n) c index b in
  let* (h1, self) := s_store h self c in
  Ok (BL_SUCCESS, h1, self).
(* string.cpp 601-610: apply_op_char *)
Definition str_apply_op_char (m : bool) (h : heap) (self : obj) (op : modify_op) (b n : Z) : result :=
  let* (code, h1, self, index) := str_modify_op m h self op n in
  if negb (code =? BL_SUCCESS) then Ok (code, h1, self) else s_memset_at h1 self index n b.

(* string.cpp 401-438: resize *)
Definition str_resize (m : bool) (h : heap) (self : obj) (n fill : Z) : result :=
  let* (data, size, cap) := s_unpack h self in
  if n <=? size then
    if n =? size then Ok (BL_SUCCESS, h, self)
    else
      let* mut := is_instance_mutable h self in
      if negb mut then copy_and_replace m h self n
      else match self with
           | Sso _ c =>
             let* c := fill_cells (Z.to_nat (size - n)) c n 0 in
             let* c := set_sso_size c n in Ok (BL_SUCCESS, h, sso_of c)
           | Dyn p =>
             let* (h1, self) := s_set_size h self n in
             let* c := block h1 self data in let* c := wrc c n 0 in
             let* (h2, self) := s_store h1 self c in Ok (BL_SUCCESS, h2, self)
           end
  else str_apply_op_char m h self (ModifyOp false false) fill (n - size).

(* string.cpp 520-553: insert_op *)
Definition str_insert_op (m : bool) (h : heap) (self : obj) (index n : Z) : outcome (Z * heap * obj * Z) :=
  let* (data, size, cap) := s_unpack h self in
  let size_after := uadd_saturate 64 size n in
  let* mut := is_instance_mutable h self in
  if cap <? Z.lor size_after (immutable_msk mut) then
    if s_maximum_size <? size_after then Ok (BL_ERROR_OUT_OF_MEMORY, h, self, 0)
    else
      let* impl_size := expand_impl_size (s_impl_size size_after) in
      let* r := s_init_dynamic m h impl_size size_after in
      match r with
      | None => Ok (BL_ERROR_OUT_OF_MEMORY, h, self, 0)
      | Some (h1, newO) =>
        let* src := block h1 self data in
        let* (h2, newO) := fill_new h1 newO (fun d =>
          let* d := copy_cells (Z.to_nat index) d 0 src 0 in
          copy_cells (Z.to_nat (size - index)) d (index + n) src index) in
        let* (h3, self) := replace_instance h2 self newO in
        Ok (BL_SUCCESS, h3, self, index)
      end
  else
    let* (h1, self) := s_set_size h self size_after in
    let* c := block h1 self data in
    let* c := move_own (size - index) c (index + n) (SIn index) in
    let* c := wrc c size_after 0 in
    let* (h2, self) := s_store h1 self c in
    Ok (BL_SUCCESS, h2, self, index).
Definition str_insert_op_write (m : bool) (h : heap) (self : obj) (index : Z) (text : list Z) : result :=
  let* (code, h1, self, index) := str_insert_op m h self index (Z.of_nat (length text)) in
  if negb (code =? BL_SUCCESS) then Ok (code, h1, self) else s_write_at h1 self index text.
(* string.cpp 718-727: insert_char *)
Definition str_insert_char (m : bool) (h : heap) (self : obj) (index b n : Z) : result :=
  let* (code, h1, self, index) := str_insert_op m h self index n in
  if negb (code =? BL_SUCCESS) then Ok (code, h1, self) else s_memset_at h1 self index n b.

(* string.cpp 588-596 assign_data (op = assign, fit), 612-620 apply_op_data *)
Definition str_apply_op_data (m : bool) (h : heap) (self : obj) (op : modify_op) (str : src) (n : Z) : result :=
  let* n := arg_size (block h self (own_loc self)) str n in modify_and_copy m h self op str n.
(* string.cpp 729-737: insert_data *)
Definition str_insert_data (m : bool) (h : heap) (self : obj) (index : Z) (str : src) (n : Z) : result :=
  let* n := arg_size (block h self (own_loc self)) str n in insert_and_copy m h self index str n.

(* string.cpp 674-698: the last part of apply_op_format_v - new storage, formatted into directly *)
Definition str_format_new (m : bool) (h : heap) (self : obj) (op : modify_op) (data : loc) (index : Z) (f : list Z) : result :=
  let size_after := uadd_saturate 64 index (Z.of_nat (length f)) in
  if s_maximum_size <? size_after then Ok (BL_ERROR_OUT_OF_MEMORY, h, self)
  else
    let* impl_size := expand_impl_size_with_modify_op (s_impl_size size_after) (does_grow op) in
    let* r := s_init_dynamic m h impl_size size_after in
    match r with
    | None => Ok (BL_ERROR_OUT_OF_MEMORY, h, self)
    | Some (h1, newO) =>
      let* src := block h1 self data in
      let* (h2, newO) := fill_new h1 newO (fun d =>
        let* d := copy_cells (length f + 1) d index (map Some (f ++ [0])) 0 in
        copy_cells (Z.to_nat index) d 0 src 0) in
      finish h2 self newO
    end.
(* string.cpp 629-699: apply_op_format_v; [f] is what vsnprintf formats (the arguments do not refer to the string itself). *)
Definition str_apply_op_format (m : bool) (h : heap) (self : obj) (op : modify_op) (f : list Z) : result :=
  let* (data, size, cap) := s_unpack h self in
  let index := if is_assign op then 0 else size in
  let remaining := cap - index in
  let* mut := is_instance_mutable h self in
  let n := Z.of_nat (length f) in
  if mut && (64 <=? remaining) then
    (* vsnprintf(dst + index, remaining + 1): at most [remaining] characters and the terminator *)
    let f' := firstn (Z.to_nat remaining) f ++ [0] in
    let* c := block h self data in
    let* c := copy_cells (length f') c index (map Some f') 0 in
    let* (h1, self) := s_store h self c in
    if n <=? remaining then
      let* (h2, self) := s_set_size h1 self (index + n) in Ok (BL_SUCCESS, h2, self)
    else str_format_new m h1 self op data index f
  else
    if n <? 1024 then modify_and_copy m h self op (SExt (-4096) (f ++ [0])) n else str_format_new m h self op data index f.

(* string.cpp 764-806: remove_range, 757-762 remove_index *)
Definition str_remove_range (m : bool) (h : heap) (self : obj) (r_start r_end : Z) : result :=
  let* (data, size, cap) := s_unpack h self in
  let end_ := Z.min r_end size in
  let index := Z.min r_start end_ in
  let n := end_ - index in
  let size_after := size - n in
  if n =? 0 then Ok (BL_SUCCESS, h, self)
  else
    match self with
    | Sso _ c =>
      let* c := move_own (size - end_) c index (SIn (index + n)) in
      let* c := fill_cells (Z.to_nat (kSSOCapacity - size_after)) c size_after 0 in
      let* c := set_sso_size c size_after in
      Ok (BL_SUCCESS, h, sso_of c)
    | Dyn p =>
      let* im := get_impl h p in
      if is_impl_mutable im then
        let* c := move_own (size - end_ + 1) (mem im) index (SIn (index + n)) in
        Ok (BL_SUCCESS, put_impl h p (Impl (rc im) (base im) size_after (icap im) c), self)
      else
        let* r := init_string m h size_after size_after in
        match r with
        | None => Ok (BL_ERROR_OUT_OF_MEMORY, h, self)
        | Some (h1, newO) =>
          let* src := block h1 self data in
          let* (h2, newO) := fill_new h1 newO (fun d =>
            let* d := copy_cells (Z.to_nat index) d 0 src 0 in
            copy_cells (Z.to_nat (size - end_)) d index src end_) in
          finish h2 self newO
        end
    end.
Definition str_remove_index (m : bool) (h : heap) (self : obj) (index : Z) : result :=
  str_remove_range m h self index (w64 (index + 1)).

(* The data of another handle, as a pointer: the same handle or a shared Impl is the string's own data. *)
Definition other_src (h : heap) (self other : obj) (same : bool) (off : Z) : outcome (src * Z) :=
  let* n := get_size h other in
  let* c := block h other (own_loc other) in
  let own := match self, other with Dyn p, Dyn q => Nat.eqb p q | _, _ => same end in
  Ok (if own then SIn 0 else SExt off (map (fun x => match x with Some v => v | None => 0 end) (firstn (Z.to_nat n) c)), n).
(* string.cpp 579-586 assign_deep, 622-627 apply_op_string *)
Definition str_apply_op_string (m : bool) (h : heap) (self other : obj) (same : bool) (off : Z) (op : modify_op) : result :=
  let* (s, n) := other_src h self other same off in modify_and_copy m h self op s n.
(* string.cpp 739-752: insert_string. A string inserted into itself is inserted from a bitwise copy of the handle, which has its
   own bytes when it is an SSO string; [off] is then the distance to the stack. *)
Definition str_insert_string (m : bool) (h : heap) (self other : obj) (same : bool) (off : Z) (index : Z) : result :=
  let* (s, n) := other_src h self other (same && negb (is_sso self)) off in insert_and_copy m h self index s n.

(* string.cpp 811-824: equals; memcmp of the text *)
Fixpoint cells_cmp (n : nat) (a b : list cell) (i : Z) : outcome Z :=
  match n with
  | O => Ok 0
  | S n' => let* x := rdc a i in let* y := rdc b i in
            if x =? y then cells_cmp n' a b (i + 1) else Ok (if x <? y then -1 else 1)
  end.
Definition str_equals (h : heap) (a b : obj) : outcome bool :=
  let* (_, sa, _) := s_unpack h a in let* (_, sb, _) := s_unpack h b in
  if negb (sa =? sb) then Ok false
  else let* ca := block h a (own_loc a) in let* cb := block h b (own_loc b) in
       let* c := cells_cmp (Z.to_nat sa) ca cb 0 in Ok (c =? 0).
(* string.cpp 849-865: compare; memcmp gives some number of the right sign, here -1, 0 or 1 *)
Definition str_compare (h : heap) (a b : obj) : outcome Z :=
  let* (_, sa, _) := s_unpack h a in let* (_, sb, _) := s_unpack h b in
  let* ca := block h a (own_loc a) in let* cb := block h b (own_loc b) in
  let* c := cells_cmp (Z.to_nat (Z.min sa sb)) ca cb 0 in
  if negb (c =? 0) then Ok c else Ok (if sa <? sb then -1 else if sb <? sa then 1 else 0).
(* string.cpp 826-847: equals_data; [b] is the caller's buffer *)
Fixpoint equals_cstr (k : nat) (a b : list cell) (i : Z) : outcome bool :=
  match k with
  | O => let* y := rdc b i in Ok (y =? 0)
  | S k' => let* x := rdc a i in let* y := rdc b i in
            if negb (x =? y) || (y =? 0) then Ok false else equals_cstr k' a b (i + 1)
  end.
Definition str_equals_data (h : heap) (a : obj) (b : list Z) (n : Z) : outcome bool :=
  let* (_, sa, _) := s_unpack h a in let* ca := block h a (own_loc a) in
  if n =? 2 ^ 64 - 1 then equals_cstr (Z.to_nat sa) ca (map Some b) 0
  else if negb (sa =? n) then Ok false
  else let* c := cells_cmp (Z.to_nat sa) ca (map Some b) 0 in Ok (c =? 0).
(* string.cpp 867-913: compare_data *)
Fixpoint compare_cstr (k : nat) (a b : list cell) (i : Z) : outcome Z :=
  match k with
  | O => let* y := rdc b i in Ok (if y =? 0 then 0 else -1)
  | S k' => let* x := rdc a i in let* y := rdc b i in
            let c := if y =? 0 then 1 else x - y in
            if negb (c =? 0) then Ok (Z.sgn c) else compare_cstr k' a b (i + 1)
  end.
Definition str_compare_data (h : heap) (a : obj) (b : list Z) (n : Z) : outcome Z :=
  let* (_, sa, _) := s_unpack h a in let* ca := block h a (own_loc a) in
  if n =? 2 ^ 64 - 1 then compare_cstr (Z.to_nat sa) ca (map Some b) 0
  else let* c := cells_cmp (Z.to_nat (Z.min sa n)) ca (map Some b) 0 in
       if negb (c =? 0) then Ok c else Ok (if sa <? n then -1 else if n <? sa then 1 else 0).

(* string.h 375-390: index_of; SIZE_MAX when there is none *)
Fixpoint index_of_loop (k : nat) (c : list cell) (b i : Z) : outcome Z :=
  match k with
  | O => Ok (2 ^ 64 - 1)
  | S k' => let* x := rdc c i in if x =? b then Ok i else index_of_loop k' c b (i + 1)
  end.
Definition str_index_of (h : heap) (a : obj) (b from : Z) : outcome Z :=
  let* (_, sa, _) := s_unpack h a in let* c := block h a (own_loc a) in index_of_loop (Z.to_nat (sa - from)) c b from.
(* string.h 392-402, 406-418: last_index_of; the loop looks at [i], [i - 1], ... *)
Fixpoint last_index_of_loop (k : nat) (c : list cell) (b : Z) : outcome Z :=
  match k with
  | O => Ok (2 ^ 64 - 1)
  | S k' => let* x := rdc c (Z.of_nat k') in if x =? b then Ok (Z.of_nat k') else last_index_of_loop k' c b
  end.
Definition str_last_index_of (h : heap) (a : obj) (b from : Z) : outcome Z :=
  let* (_, sa, _) := s_unpack h a in let* c := block h a (own_loc a) in
  if sa =? 0 then Ok (2 ^ 64 - 1) else last_index_of_loop (Z.to_nat (Z.min (sa - 1) from + 1)) c b.
