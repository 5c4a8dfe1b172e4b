(* Model of the object system shared by the containers: blend2d/core/object_p.h, blend2d/core/object.cpp.

   An Impl (the heap part of an object) is a header {reference count, base reference count}, the
   container fields {size, capacity} and a block of cells.  A cell is [None] while it has never been
   written (malloc'ed memory is not cleared).  A heap is the list of Impls ever allocated; a freed Impl
   is [None].  Addresses are never reused, so every use of a freed Impl is visible as UB.
   Simplifications: sequential execution (the reference count operations are atomic in the code), the
   alignment padding of an allocation is not part of the block, allocation failure is an input. *)
From Verif Require Import Base IntOps_Model Algorithm_Model.

Notation cell := (option Z).

Record impl := Impl { rc : Z; base : Z; isize : Z; icap : Z; mem : list cell }.

Definition heap := list (option impl).

(* The 16 byte object detail (object.h BLObjectDetail): either the content itself (SSO) or a pointer. *)
Inductive obj :=
| Sso (size : Z) (c : list cell)
| Dyn (p : nat).

(* Result codes: api.h 1145-1146. *)
Definition BL_SUCCESS : Z := 0.
Definition BL_ERROR_OUT_OF_MEMORY : Z := 0x10000.
Definition BL_ERROR_INVALID_VALUE : Z := 0x10001.

Definition get_impl (h : heap) (p : nat) : outcome impl :=
  match nth_error h p with Some (Some im) => Ok im | _ => UB end.
Definition put_impl (h : heap) (p : nat) (im : impl) : heap := upd h p (Some im).

(* object_p.h 312-315: is_impl_mutable. *)
Definition is_impl_mutable (im : impl) : bool := rc im =? 1.

(* object_p.h 341-346: retain_impl / 388-393 retain_instance. *)
Definition retain (h : heap) (o : obj) : outcome heap :=
  match o with
  | Sso _ _ => Ok h
  | Dyn p => let* im := get_impl h p in
             Ok (put_impl h p (Impl (rc im + 1) (base im) (isize im) (icap im) (mem im)))
  end.

(* object_p.h 348-357: deref_impl_and_test, followed by free_impl (258-262) when the count before the
   decrement equals the base reference count. *)
Definition release (h : heap) (o : obj) : outcome heap :=
  match o with
  | Sso _ _ => Ok h
  | Dyn p => let* im := get_impl h p in
             if rc im =? base im then Ok (upd h p None)
             else Ok (put_impl h p (Impl (rc im - 1) (base im) (isize im) (icap im) (mem im)))
  end.

(* bitarray_p.h 72-79, array_p.h, string_p.h: replace_instance - store the new detail, release the old. *)
Definition replace_instance (h : heap) (self new : obj) : outcome (heap * obj) :=
  let* h' := release h self in Ok (h', new).

(* object.cpp 38-66, 68-71: bl_object_alloc_impl - reference count 1 (flag kRefCountedFlag), no cell written. *)
Definition alloc_impl (h : heap) (size cap : Z) (ncells : nat) : heap * obj :=
  (h ++ [Some (Impl 1 1 size cap (repeat None ncells))], Dyn (length h)).

(* Cell access; an index outside of the block or a cell never written is UB (a read). *)
Definition rdc (c : list cell) (i : Z) : outcome Z :=
  if i <? 0 then UB else match nth_error c (Z.to_nat i) with Some (Some w) => Ok w | _ => UB end.
Definition wrc (c : list cell) (i : Z) (w : Z) : outcome (list cell) :=
  if (i <? 0) || (Z.of_nat (length c) <=? i) then UB else Ok (upd c (Z.to_nat i) (Some w)).

(* support/memops_p.h: copy_forward_inline_t / fill_inline_t as loops over cells. *)
Fixpoint copy_cells (n : nat) (dst : list cell) (di : Z) (src : list cell) (si : Z) : outcome (list cell) :=
  match n with
  | O => Ok dst
  | S n' => let* w := rdc src si in
            let* dst' := wrc dst di w in
            copy_cells n' dst' (di + 1) src (si + 1)
  end.
Fixpoint fill_cells (n : nat) (dst : list cell) (di : Z) (w : Z) : outcome (list cell) :=
  match n with
  | O => Ok dst
  | S n' => let* dst' := wrc dst di w in fill_cells n' dst' (di + 1) w
  end.

(* object_p.h 479-481: bl_object_grow_impl_size_to_power_of_2 (size_t is 64 bits); clz of 0 and a shift
   by 64 are undefined. *)
Definition grow_impl_size_to_power_of_2 (x : Z) : outcome Z :=
  let y := w64 (x + 1) in
  if y =? 0 then UB
  else let s := 64 - clz_fallback 6 y in
       if s <? 64 then Ok (w64 (Z.shiftl 1 s)) else UB.

(* api-internal_p.h 547 *)
Definition BL_ALLOC_GROW_LIMIT : Z := 2 ^ 23.

(* object_p.h 487-497: bl_object_expand_impl_size. *)
Definition expand_impl_size (impl_size : Z) : outcome Z :=
  let* n := if BL_ALLOC_GROW_LIMIT <=? impl_size
            then Ok (w64 (w64 (impl_size + Z.shiftr impl_size 2) + Z.shiftr impl_size 3))
            else grow_impl_size_to_power_of_2 impl_size in
  Ok (Z.max n impl_size).

(* object_p.h 499-504: bl_object_expand_impl_size_with_modify_op. *)
Definition expand_impl_size_with_modify_op (impl_size : Z) (grow : bool) : outcome Z :=
  if grow then expand_impl_size impl_size else Ok impl_size.
