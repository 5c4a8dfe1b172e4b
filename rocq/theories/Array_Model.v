(* Model of BLArray over plain items: blend2d/core/array.cpp, blend2d/core/array_p.h.

   An item of [w] bytes is one cell; byte counts are kept as [n * w].  The item type (and so [w]) is fixed for the life of an
   array and equal for all arrays of a program, as the API requires.  Arrays of BLObjectCore items are in ArrayObj_Model.v.
   The slack that rounding an allocation up to 16 bytes gives is not part of the block. *)
From Verif Require Import Base IntOps_Model Algorithm_Model Object_Model BitArray_Model.

(* core/object_p.h 31, core/object.h 657, core/array.h BLArrayImpl (data, size, capacity) *)
Definition BL_OBJECT_IMPL_MAX_SIZE : Z := (2 ^ 64 - 1) / 2 - 4096.
Definition BL_OBJECT_IMPL_ALIGNMENT : Z := 16.
Definition kStaticDataSize : Z := 12.
Definition sizeof_BLArrayImpl : Z := 24.

(* core/api-internal_p.h, core/api.h BLModifyOp: assign/append and fit/grow *)
Record modify_op := ModifyOp { is_assign : bool; does_grow : bool }.

(* Where a data pointer points: into the 16 bytes of the handle itself or into an Impl. *)
Inductive loc := LSelf | LDyn (p : nat).

(* A pointer to items passed by the caller: into a buffer of the caller holding [l], [off] bytes away from the start of the
   data of the array, or to item [i] of the array's own data. *)
Inductive src := SExt (off : Z) (l : list Z) | SIn (i : Z).

Section Array.
  Context (w : Z).

  (* array.cpp 49-63 *)
  Definition sso_capacity : Z := kStaticDataSize / w.
  Definition maximum_capacity : Z := (BL_OBJECT_IMPL_MAX_SIZE - sizeof_BLArrayImpl) / w.
  (* array.cpp 89-95; size_t arithmetic wraps *)
  Definition capacity_from_impl_size (s : Z) : Z := w64 (s - sizeof_BLArrayImpl) / w.
  Definition impl_size_from_capacity (c : Z) : Z := w64 (sizeof_BLArrayImpl + w64 (c * w)).

  (* array.cpp 229-235: init_static - the default instance (all zero) with the given size *)
  Definition init_static (size : Z) : obj := Sso size (repeat (Some 0) (Z.to_nat sso_capacity)).

  (* array.cpp 237-249: init_dynamic, object.cpp 38-40: the size limit; [m] tells whether malloc succeeds. The block holds the
     items that fit into the bytes behind the header. *)
  Definition init_dynamic (m : bool) (h : heap) (size impl_size : Z) : option (heap * obj) :=
    if m && (impl_size <=? BL_OBJECT_IMPL_MAX_SIZE)
    then Some (alloc_impl h size (capacity_from_impl_size impl_size) (Z.to_nat ((impl_size - sizeof_BLArrayImpl) / w)))
    else None.

  (* array.cpp 269-281: init_array *)
  Definition init_array (m : bool) (h : heap) (size cap : Z) : option (heap * obj) :=
    if cap <=? sso_capacity then Some (h, init_static size) else init_dynamic m h size (impl_size_from_capacity cap).

  (* array_p.h 80-88: unpack *)
  Definition unpack (h : heap) (o : obj) : outcome (loc * Z * Z) :=
    match o with
    | Sso s _ => Ok (LSelf, s, sso_capacity)
    | Dyn p => let* im := get_impl h p in Ok (LDyn p, isize im, icap im)
    end.
  Definition get_size (h : heap) (o : obj) : outcome Z :=
    match o with Sso s _ => Ok s | Dyn p => let* im := get_impl h p in Ok (isize im) end.
  (* array_p.h 114-120: set_size *)
  Definition set_size (h : heap) (o : obj) (n : Z) : outcome (heap * obj) :=
    match o with
    | Sso _ c => Ok (h, Sso n c)
    | Dyn p => let* im := get_impl h p in Ok (put_impl h p (Impl (rc im) (base im) n (icap im) (mem im)), o)
    end.
  (* object_p.h: is_instance_mutable, is_instance_dynamic_and_mutable *)
  Definition is_instance_mutable (h : heap) (o : obj) : outcome bool :=
    match o with Sso _ _ => Ok true | Dyn p => let* im := get_impl h p in Ok (is_impl_mutable im) end.
  Definition is_instance_dynamic_and_mutable (h : heap) (o : obj) : outcome bool :=
    match o with Sso _ _ => Ok false | Dyn p => let* im := get_impl h p in Ok (is_impl_mutable im) end.
  Definition immutable_msk (mut : bool) : Z := bool_as_mask 64 false (negb mut).

  (* the cells behind a data pointer; a pointer into the handle is dead once the handle became dynamic *)
  Definition block (h : heap) (o : obj) (d : loc) : outcome (list cell) :=
    match d with
    | LSelf => match o with Sso _ c => Ok c | Dyn _ => UB end
    | LDyn p => let* im := get_impl h p in Ok (mem im)
    end.
  Definition own_loc (o : obj) : loc := match o with Sso _ _ => LSelf | Dyn p => LDyn p end.

  (* caller's pointers *)
  Definition src_off (s : src) : Z := match s with SExt off _ => off | SIn i => i * w end.
  Definition src_add (s : src) (k : Z) : src :=
    match s with SExt off l => SExt (off + k * w) (skipn (Z.to_nat k) l) | SIn i => SIn (i + k) end.

  (* memcpy of [n] items from [s] into another block [d]; [data] is the array's own data *)
  Definition copy_to (n : Z) (d : list cell) (di : Z) (data : outcome (list cell)) (s : src) : outcome (list cell) :=
    match s with
    | SExt _ l => copy_cells (Z.to_nat n) d di (map Some l) 0
    | SIn i => let* b := data in copy_cells (Z.to_nat n) d di b i
    end.
  (* memcpy of [n] items from [s] into the array's own data [c]; overlapping ranges are undefined *)
  Definition copy_own (n : Z) (c : list cell) (di : Z) (s : src) : outcome (list cell) :=
    match s with
    | SExt _ l => copy_cells (Z.to_nat n) c di (map Some l) 0
    | SIn i => if (0 <? n) && (i <? di + n) && (di <? i + n) then UB else copy_cells (Z.to_nat n) c di c i
    end.
  (* memmove of [n] items; the source is read before anything is written *)
  Definition move_own (n : Z) (c : list cell) (di : Z) (s : src) : outcome (list cell) :=
    match s with
    | SExt _ l => copy_cells (Z.to_nat n) c di (map Some l) 0
    | SIn i => copy_cells (Z.to_nat n) c di c i
    end.

  (* array.cpp 283-303: realloc_to_dynamic *)
  Definition realloc_to_dynamic (m : bool) (h : heap) (self : obj) (impl_size : Z) : result :=
    let* size := get_size h self in
    match init_dynamic m h size impl_size with
    | None => Ok (BL_ERROR_OUT_OF_MEMORY, h, self)
    | Some (h1, newO) =>
      let* dst := block h1 newO (own_loc newO) in
      let* src := block h1 self (own_loc self) in
      let* dst := copy_cells (Z.to_nat size) dst 0 src 0 in
      let* (h2, newO) := store h1 newO dst in
      let* dm := is_instance_dynamic_and_mutable h2 self in
      let* (h3, self) := if dm then set_size h2 self 0 else Ok (h2, self) in
      let* (h4, self) := replace_instance h3 self newO in
      Ok (BL_SUCCESS, h4, self)
    end.

  (* array.cpp 402-451: init, init_move, init_weak, destroy, reset *)
  Definition arr_init : obj := init_static 0.

  (* array.cpp 487-518: clear *)
  Definition arr_clear (h : heap) (self : obj) : result :=
    match self with
    | Sso size c => if size =? 0 then Ok (BL_SUCCESS, h, self) else Ok (BL_SUCCESS, h, Sso 0 (repeat (Some 0) (length c)))
    | Dyn p =>
      let* im := get_impl h p in
      if negb (is_impl_mutable im) then
        let* h1 := release h self in Ok (BL_SUCCESS, h1, init_static 0)
      else if isize im =? 0 then Ok (BL_SUCCESS, h, self)
      else let* (h1, self) := set_size h self 0 in Ok (BL_SUCCESS, h1, self)
    end.

  (* array.cpp 520-554: shrink; [ext] tells whether the Impl holds external data *)
  Definition arr_shrink (m ext : bool) (h : heap) (self : obj) : result :=
    let* (data, size, cap) := unpack h self in
    if size <=? sso_capacity then
      match self with
      | Sso _ _ => Ok (BL_SUCCESS, h, self)
      | Dyn _ =>
        let* src := block h self data in
        let* dst := copy_cells (Z.to_nat size) (repeat (Some 0) (Z.to_nat sso_capacity)) 0 src 0 in
        let* (h1, self) := replace_instance h self (Sso size dst) in
        Ok (BL_SUCCESS, h1, self)
      end
    else if ext then Ok (BL_SUCCESS, h, self)
    else
      let fitting := impl_size_from_capacity size in
      let current := impl_size_from_capacity cap in
      if BL_OBJECT_IMPL_ALIGNMENT <=? w64 (current - fitting) then realloc_to_dynamic m h self fitting
      else Ok (BL_SUCCESS, h, self).

  (* array.cpp 662-777: modify_op; on success the position of the first new item is returned *)
  Definition arr_modify_op (m : bool) (h : heap) (self : obj) (op : modify_op) (n : Z) : outcome (Z * heap * obj * Z) :=
    let* (data, size, cap) := unpack h self in
    let* mut := is_instance_mutable h self in
    let '(index, size_after, of) :=
      if is_assign op then (0, n, false)
      else let (s, of) := add_overflow 64 false size n false in (size, s, of) in
    if of then Ok (BL_ERROR_OUT_OF_MEMORY, h, self, 0)
    else if Z.lor size_after (immutable_msk mut) <=? cap then
      (* 683-689, 699-704, 719-725, 735-741 *)
      let* (h1, self) := set_size h self size_after in
      let self := match self with
                  | Sso s c => if is_assign op then Sso s (repeat (Some 0) (length c)) else self
                  | Dyn _ => self end in
      Ok (BL_SUCCESS, h1, self, index)
    else if size_after <=? sso_capacity then
      (* 748-758 *)
      let* src := block h self data in
      let* dst := copy_cells (Z.to_nat index) (repeat (Some 0) (Z.to_nat sso_capacity)) 0 src 0 in
      let* (h1, self) := replace_instance h self (Sso size_after dst) in
      Ok (BL_SUCCESS, h1, self, index)
    else
      (* 760-775 *)
      let* impl_size := expand_impl_size_with_modify_op (impl_size_from_capacity size_after) (does_grow op) in
      match init_dynamic m h size_after impl_size with
      | None => Ok (BL_ERROR_OUT_OF_MEMORY, h, self, 0)
      | Some (h1, newO) =>
        let* dst := block h1 newO (own_loc newO) in
        let* src := block h1 self data in
        let* dst := copy_cells (Z.to_nat index) dst 0 src 0 in
        let* (h2, newO) := store h1 newO dst in
        let* dm := is_instance_dynamic_and_mutable h2 self in
        let* (h3, self) := if dm then set_size h2 self 0 else Ok (h2, self) in
        let* (h4, self) := replace_instance h3 self newO in
        Ok (BL_SUCCESS, h4, self, index)
      end.

  (* the caller writes items through the pointer returned by modify_op / insert_op: [n] copies of an item, or given items *)
  Definition write_at (h : heap) (self : obj) (index : Z) (items : list Z) : result :=
    let* c := block h self (own_loc self) in
    let* c := copy_cells (length items) c index (map Some items) 0 in
    let* (h1, self) := store h self c in
    Ok (BL_SUCCESS, h1, self).
  Definition arr_modify_op_write (m : bool) (h : heap) (self : obj) (op : modify_op) (items : list Z) : result :=
    let* (code, h1, self, index) := arr_modify_op m h self op (Z.of_nat (length items)) in
    if negb (code =? BL_SUCCESS) then Ok (code, h1, self) else write_at h1 self index items.

  (* array.cpp 556-599: resize. [fill = None] is the null pointer: memset of n * item_size bytes. A fill pointer into the
     array's own data is read after modify_op, through the pointer obtained before. *)
  Definition arr_resize (m : bool) (h : heap) (self : obj) (n : Z) (fill : option src) : result :=
    let* (data, size, cap) := unpack h self in
    if n <=? size then
      let* mut := is_instance_mutable h self in
      if negb mut then
        if n =? size then Ok (BL_SUCCESS, h, self)
        else match init_array m h n n with
             | None => Ok (BL_ERROR_OUT_OF_MEMORY, h, self)
             | Some (h1, newO) =>
               let* dst := block h1 newO (own_loc newO) in
               let* src := block h1 self data in
               let* dst := copy_cells (Z.to_nat n) dst 0 src 0 in
               let* (h2, newO) := store h1 newO dst in
               let* (h3, self) := replace_instance h2 self newO in
               Ok (BL_SUCCESS, h3, self)
             end
      else let* (h1, self) := set_size h self n in Ok (BL_SUCCESS, h1, self)
    else
      let n := n - size in
      let* (code, h1, self, index) := arr_modify_op m h self (ModifyOp false false) n in
      if negb (code =? BL_SUCCESS) then Ok (code, h1, self) else
      let* c := block h1 self (own_loc self) in
      let* c := match fill with
                | None => fill_cells (Z.to_nat (w64 (n * w) / w)) c index 0
                | Some (SExt _ l) => let* v := rdc (map Some l) 0 in fill_cells (Z.to_nat n) c index v
                | Some (SIn i) => let* b := block h1 self data in
                                  let* v := rdc b i in fill_cells (Z.to_nat n) c index v
                end in
      let* (h2, self) := store h1 self c in
      Ok (BL_SUCCESS, h2, self).

  (* array.cpp 601-630: reserve *)
  Definition arr_reserve (m : bool) (h : heap) (self : obj) (n : Z) : result :=
    let* (data, size, cap) := unpack h self in
    let* mut := is_instance_mutable h self in
    if Z.lor n (immutable_msk mut) <=? cap then Ok (BL_SUCCESS, h, self)
    else if maximum_capacity <? n then Ok (BL_ERROR_OUT_OF_MEMORY, h, self)
    else
      let n := Z.max n size in
      if n <=? sso_capacity then
        let* src := block h self data in
        let* dst := copy_cells (Z.to_nat size) (repeat (Some 0) (Z.to_nat sso_capacity)) 0 src 0 in
        let* (h1, self) := replace_instance h self (Sso size dst) in
        Ok (BL_SUCCESS, h1, self)
      else realloc_to_dynamic m h self (impl_size_from_capacity n).

  (* array.cpp 632-660: make_mutable *)
  Definition arr_make_mutable (m : bool) (h : heap) (self : obj) : result :=
    match self with
    | Sso _ _ => Ok (BL_SUCCESS, h, self)
    | Dyn p =>
      let* im := get_impl h p in
      if is_impl_mutable im then Ok (BL_SUCCESS, h, self)
      else
        match init_array m h (isize im) (isize im) with
        | None => Ok (BL_ERROR_OUT_OF_MEMORY, h, self)
        | Some (h1, newO) =>
          let* dst := block h1 newO (own_loc newO) in
          let* im := get_impl h1 p in
          let* dst := copy_cells (Z.to_nat (isize im)) dst 0 (mem im) 0 in
          let* (h2, newO) := store h1 newO dst in
          let* h3 := release h2 self in
          Ok (BL_SUCCESS, h3, newO)
        end
    end.

  (* array.cpp 779-833: insert_op *)
  Definition arr_insert_op (m : bool) (h : heap) (self : obj) (index n : Z) : outcome (Z * heap * obj * Z) :=
    let* (data, size, cap) := unpack h self in
    let size_after := uadd_saturate 64 size n in
    let* mut := is_instance_mutable h self in
    if cap <? Z.lor size_after (immutable_msk mut) then
      if maximum_capacity <? size_after then Ok (BL_ERROR_OUT_OF_MEMORY, h, self, 0)
      else
        let* impl_size := if size_after <=? sso_capacity then Ok 0 else expand_impl_size (impl_size_from_capacity size_after) in
        match (if size_after <=? sso_capacity then Some (h, init_static size_after) else init_dynamic m h size_after impl_size) with
        | None => Ok (BL_ERROR_OUT_OF_MEMORY, h, self, 0)
        | Some (h1, newO) =>
          let* dst := block h1 newO (own_loc newO) in
          let* src := block h1 self data in
          let* dst := copy_cells (Z.to_nat index) dst 0 src 0 in
          let* dst := copy_cells (Z.to_nat (size - index)) dst (index + n) src index in
          let* (h2, newO) := store h1 newO dst in
          let* (h3, tmp) := if mut then set_size h2 self 0 else Ok (h2, self) in
          let* h4 := release h3 tmp in
          Ok (BL_SUCCESS, h4, newO, index)
        end
    else
      let* (h1, self) := set_size h self size_after in
      let* c := block h1 self data in
      let* c := move_own (size - index) c (index + n) (SIn index) in
      let* (h2, self) := store h1 self c in
      Ok (BL_SUCCESS, h2, self, index).
  Definition arr_insert_op_write (m : bool) (h : heap) (self : obj) (index : Z) (items : list Z) : result :=
    let* (code, h1, self, index) := arr_insert_op m h self index (Z.of_nat (length items)) in
    if negb (code =? BL_SUCCESS) then Ok (code, h1, self) else write_at h1 self index items.
  (* array.cpp 352-362: insert_value_t *)
  Definition arr_insert_value (m : bool) (h : heap) (self : obj) (index v : Z) : result := arr_insert_op_write m h self index [v].

  (* array.cpp 873-914: assign_data *)
  Definition arr_assign_data (m : bool) (h : heap) (self : obj) (items : src) (n : Z) : result :=
    let* (data, size, cap) := unpack h self in
    let* mut := is_instance_mutable h self in
    if cap <? Z.lor n (immutable_msk mut) then
      if maximum_capacity <? n then Ok (BL_ERROR_OUT_OF_MEMORY, h, self)
      else
        match init_dynamic m h n (impl_size_from_capacity size) with
        | None => Ok (BL_ERROR_OUT_OF_MEMORY, h, self)
        | Some (h1, newO) =>
          let* dst := block h1 newO (own_loc newO) in
          let* dst := copy_to n dst 0 (block h1 self data) items in
          let* (h2, newO) := store h1 newO dst in
          let* (h3, self) := replace_instance h2 self newO in
          Ok (BL_SUCCESS, h3, self)
        end
    else if n =? 0 then arr_clear h self
    else
      let* (h1, self) := set_size h self n in
      let* c := block h1 self data in
      let* c := move_own n c 0 items in
      let* (h2, self) := store h1 self c in
      Ok (BL_SUCCESS, h2, self).
  (* array.cpp 863-871: assign_deep; the data of another handle is the array's own data when both share an Impl *)
  Definition arr_assign_deep (m : bool) (h : heap) (self other : obj) (same : bool) (off : Z) : result :=
    let* n := get_size h other in
    let* c := block h other (own_loc other) in
    let own := match self, other with Dyn p, Dyn q => Nat.eqb p q | _, _ => same end in
    arr_assign_data m h self
      (if own then SIn 0 else SExt off (map (fun x => match x with Some v => v | None => 0 end) (firstn (Z.to_nat n) c))) n.

  (* array.cpp 916-933: assign_external_data, 251-267 init_external. [valid] tells whether the access flags are valid
     (bl_data_access_flags_is_valid), [wr] whether they contain BL_DATA_ACCESS_WRITE; [buf] is the caller's buffer. *)
  Definition arr_assign_external_data (m valid wr : bool) (h : heap) (self : obj) (buf : list cell) (size cap : Z) : result :=
    let* (_, of) := mul_overflow 64 false cap w false in
    if (cap =? 0) || (cap <? size) || negb valid || of then Ok (BL_ERROR_INVALID_VALUE, h, self)
    else if m then
      let b := if wr then 1 else 3 in
      let h1 := h ++ [Some (Impl b b size cap buf)] in
      let* (h2, self) := replace_instance h1 self (Dyn (length h)) in
      Ok (BL_SUCCESS, h2, self)
    else Ok (BL_ERROR_OUT_OF_MEMORY, h, self).

  (* array.cpp 983-1021: append_data *)
  Definition arr_append_data (m : bool) (h : heap) (self : obj) (items : src) (n : Z) : result :=
    let* (data, size, cap) := unpack h self in
    let* mut := is_instance_mutable h self in
    let size_after := uadd_saturate 64 size n in
    if cap <? Z.lor size_after (immutable_msk mut) then
      if maximum_capacity <? size_after then Ok (BL_ERROR_OUT_OF_MEMORY, h, self)
      else
        let* impl_size := expand_impl_size (impl_size_from_capacity size_after) in
        match init_dynamic m h size_after impl_size with
        | None => Ok (BL_ERROR_OUT_OF_MEMORY, h, self)
        | Some (h1, newO) =>
          let* (h1, self) := if mut then set_size h1 self 0 else Ok (h1, self) in
          let* dst := block h1 newO (own_loc newO) in
          let* src := block h1 self data in
          let* dst := copy_cells (Z.to_nat size) dst 0 src 0 in
          let* dst := copy_to n dst size (block h1 self data) items in
          let* (h2, newO) := store h1 newO dst in
          let* (h3, self) := replace_instance h2 self newO in
          Ok (BL_SUCCESS, h3, self)
        end
    else
      let* c := block h self data in
      let* c := copy_own n c size items in
      let* (h1, self) := store h self c in
      let* (h2, self) := set_size h1 self size_after in
      Ok (BL_SUCCESS, h2, self).

  (* array.cpp 945-981: append_item *)
  Definition arr_append_item (m : bool) (h : heap) (self : obj) (item : src) : result :=
    let* (data, size, cap) := unpack h self in
    let* mut := is_instance_mutable h self in
    if cap <=? Z.lor size (immutable_msk mut) then
      if maximum_capacity <=? size then Ok (BL_ERROR_OUT_OF_MEMORY, h, self)
      else
        let* impl_size := expand_impl_size (impl_size_from_capacity (w64 (size + 1))) in
        match init_dynamic m h (w64 (size + 1)) impl_size with
        | None => Ok (BL_ERROR_OUT_OF_MEMORY, h, self)
        | Some (h1, newO) =>
          let* (h1, self) := if mut then set_size h1 self 0 else Ok (h1, self) in
          let* dst := block h1 newO (own_loc newO) in
          let* src := block h1 self data in
          let* dst := copy_cells (Z.to_nat size) dst 0 src 0 in
          let* dst := copy_to 1 dst size (block h1 self data) item in
          let* (h2, newO) := store h1 newO dst in
          let* (h3, self) := replace_instance h2 self newO in
          Ok (BL_SUCCESS, h3, self)
        end
    else
      let* c := block h self data in
      let* c := copy_own 1 c size item in
      let* (h1, self) := store h self c in
      let* (h2, self) := set_size h1 self (w64 (size + 1)) in
      Ok (BL_SUCCESS, h2, self).

  (* array.cpp 314-350: append_value_t; the value is a copy on the stack *)
  Definition arr_append_value (m : bool) (h : heap) (self : obj) (v off : Z) : result :=
    let* (data, size, cap) := unpack h self in
    let* mut := is_instance_mutable h self in
    if (match self with Sso _ _ => size =? cap | Dyn _ => cap <=? Z.lor size (immutable_msk mut) end)
    then arr_append_item m h self (SExt off [v])
    else
      let* (h1, self) := set_size h self (size + 1) in
      let* c := block h1 self data in
      let* c := wrc c size v in
      let* (h2, self) := store h1 self c in
      Ok (BL_SUCCESS, h2, self).

  (* array.cpp 1034-1124: insert_data *)
  Definition arr_insert_data (m : bool) (h : heap) (self : obj) (index : Z) (items : src) (n : Z) : result :=
    let* (data, size, cap) := unpack h self in
    let* mut := is_instance_mutable h self in
    let end_index := w64 (index + n) in
    let size_after := uadd_saturate 64 size n in
    if cap <? Z.lor size_after (immutable_msk mut) then
      if maximum_capacity <? size_after then Ok (BL_ERROR_OUT_OF_MEMORY, h, self)
      else
        let* impl_size := expand_impl_size (impl_size_from_capacity size_after) in
        match init_dynamic m h size_after impl_size with
        | None => Ok (BL_ERROR_OUT_OF_MEMORY, h, self)
        | Some (h1, newO) =>
          let* (h1, self) := if mut then set_size h1 self 0 else Ok (h1, self) in
          let* dst := block h1 newO (own_loc newO) in
          let* src := block h1 self data in
          let* dst := copy_cells (Z.to_nat index) dst 0 src 0 in
          let* dst := copy_cells (Z.to_nat (size - index)) dst end_index src index in
          let* dst := copy_to n dst index (block h1 self data) items in
          let* (h2, newO) := store h1 newO dst in
          let* (h3, self) := replace_instance h2 self newO in
          Ok (BL_SUCCESS, h3, self)
        end
    else
      let* c := block h self data in
      let* c := move_own (size - index) c (index + n) (SIn index) in
      let dst := index in
      let dst_end := size + n in
      (* 1106-1113 *)
      let lead := if src_off items <? dst * w then Z.min (dst * w - src_off items) (n * w) / w else 0 in
      let* c := copy_own lead c dst items in
      let dst := dst + lead in
      let items := src_add items lead in
      (* 1115-1119 *)
      let items := if src_off items <? dst_end * w then src_add items n else items in
      let* c := copy_own (n - lead) c dst items in
      let* (h1, self) := store h self c in
      let* (h2, self) := set_size h1 self size_after in
      Ok (BL_SUCCESS, h2, self).

  (* array.cpp 1136-1170: replace_item *)
  Definition arr_replace_item (m : bool) (h : heap) (self : obj) (index : Z) (item : src) : result :=
    let* (data, size, cap) := unpack h self in
    if size <=? index then Ok (BL_ERROR_INVALID_VALUE, h, self)
    else
      let* mut := is_instance_mutable h self in
      if negb mut then
        match init_dynamic m h size (impl_size_from_capacity size) with
        | None => Ok (BL_ERROR_OUT_OF_MEMORY, h, self)
        | Some (h1, newO) =>
          let* dst := block h1 newO (own_loc newO) in
          let* src := block h1 self data in
          let* dst := copy_cells (Z.to_nat index) dst 0 src 0 in
          let* dst := copy_to 1 dst index (Ok src) item in
          let* dst := copy_cells (Z.to_nat (size - index - 1)) dst (index + 1) src (index + 1) in
          let* (h2, newO) := store h1 newO dst in
          let* (h3, self) := replace_instance h2 self newO in
          Ok (BL_SUCCESS, h3, self)
        end
      else
        let* c := block h self data in
        let* c := move_own 1 c index item in
        let* (h1, self) := store h self c in
        Ok (BL_SUCCESS, h1, self).
  (* array.cpp 364-395: replace_value_t *)
  Definition arr_replace_value (m : bool) (h : heap) (self : obj) (index v off : Z) : result :=
    let* (data, size, cap) := unpack h self in
    if size <=? index then Ok (BL_ERROR_INVALID_VALUE, h, self)
    else
      let* mut := is_instance_mutable h self in
      if negb mut then arr_replace_item m h self index (SExt off [v])
      else
        let* c := block h self data in
        let* c := wrc c index v in
        let* (h1, self) := store h self c in
        Ok (BL_SUCCESS, h1, self).

  (* array.cpp 1172-1232: replace_data *)
  Definition arr_replace_data (m : bool) (h : heap) (self : obj) (r_start r_end : Z) (items : src) (n : Z) : result :=
    let* (data, size, cap) := unpack h self in
    let end_ := Z.min r_end size in
    let index := Z.min r_start end_ in
    let range_size := end_ - index in
    if range_size =? 0 then arr_insert_data m h self index items n
    else
      let tail_size := size - end_ in
      let size_after := w64 (size - range_size + n) in
      let* mut := is_instance_mutable h self in
      (* 1201: the comparison is in bytes *)
      if mut && ((size * n <=? src_off items) || (src_off items + n * w <=? 0)) then
        if range_size =? n then
          let* c := block h self data in
          let* c := copy_own n c index items in
          let* (h1, self) := store h self c in
          Ok (BL_SUCCESS, h1, self)
        else
          let* c := block h self data in
          let* c := move_own tail_size c (index + range_size) (SIn end_) in
          let* c := copy_own n c index items in
          let* (h1, self) := store h self c in
          let* (h2, self) := set_size h1 self size_after in
          Ok (BL_SUCCESS, h2, self)
      else
        match init_array m h size_after size_after with
        | None => Ok (BL_ERROR_OUT_OF_MEMORY, h, self)
        | Some (h1, newO) =>
          let* dst := block h1 newO (own_loc newO) in
          let* src := block h1 self data in
          let* dst := copy_cells (Z.to_nat index) dst 0 src 0 in
          let* dst := copy_to n dst index (Ok src) items in
          let* dst := copy_cells (Z.to_nat tail_size) dst (index + n) src (index + range_size) in
          let* (h2, newO) := store h1 newO dst in
          let* (h3, self) := replace_instance h2 self newO in
          Ok (BL_SUCCESS, h3, self)
        end.

  (* array.cpp 1244-1291: remove_range, 1237-1242 remove_index *)
  Definition arr_remove_range (m : bool) (h : heap) (self : obj) (r_start r_end : Z) : result :=
    let* (data, size, cap) := unpack h self in
    let end_ := Z.min r_end size in
    let index := Z.min r_start end_ in
    let n := end_ - index in
    let size_after := size - n in
    if n =? 0 then Ok (BL_SUCCESS, h, self)
    else
      match self with
      | Sso _ c =>
        let* c := move_own (size - end_) c index (SIn (index + n)) in
        let* c := fill_cells (Z.to_nat (cap - size_after)) c size_after 0 in
        Ok (BL_SUCCESS, h, Sso size_after c)
      | Dyn p =>
        let* im := get_impl h p in
        if negb (is_impl_mutable im) then
          match init_array m h size_after size_after with
          | None => Ok (BL_ERROR_OUT_OF_MEMORY, h, self)
          | Some (h1, newO) =>
            let* dst := block h1 newO (own_loc newO) in
            let* src := block h1 self data in
            let* dst := copy_cells (Z.to_nat index) dst 0 src 0 in
            let* dst := copy_cells (Z.to_nat (size - end_)) dst index src end_ in
            let* (h2, newO) := store h1 newO dst in
            let* (h3, self) := replace_instance h2 self newO in
            Ok (BL_SUCCESS, h3, self)
          end
        else
          let* c := move_own (size - end_) (mem im) index (SIn (index + n)) in
          Ok (BL_SUCCESS, put_impl h p (Impl (rc im) (base im) size_after (icap im) c), self)
      end.
  Definition arr_remove_index (m : bool) (h : heap) (self : obj) (index : Z) : result :=
    arr_remove_range m h self index (w64 (index + 1)).

  (* array.cpp 1296-1321: equals; memcmp of the items *)
  Fixpoint cells_eq (n : nat) (a b : list cell) (i : Z) : outcome bool :=
    match n with
    | O => Ok true
    | S n' => let* x := rdc a i in let* y := rdc b i in if x =? y then cells_eq n' a b (i + 1) else Ok false
    end.
  Definition arr_equals (h : heap) (a b : obj) : outcome bool :=
    match a, b with
    | Dyn p, Dyn q => if Nat.eqb p q then Ok true else
      let* ia := get_impl h p in let* ib := get_impl h q in
      if negb (isize ia =? isize ib) then Ok false else cells_eq (Z.to_nat (isize ia)) (mem ia) (mem ib) 0
    | _, _ =>
      let* sa := get_size h a in let* sb := get_size h b in
      let* ca := block h a (own_loc a) in let* cb := block h b (own_loc b) in
      if negb (sa =? sb) then Ok false else cells_eq (Z.to_nat sa) ca cb 0
    end.
End Array.
