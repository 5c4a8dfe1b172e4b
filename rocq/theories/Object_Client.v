(* Histories of object handles: creation, weak copies, moves, assignment, reset and destruction. *)
From Verif Require Import Base IntOps_Model Algorithm_Model Object_Model Object_Spec.

(* The generic functions of object.cpp / object_p.h: bl_object_init_move (object.cpp 176-180), bl_object_init_weak (182-186),
   bl_object_reset (191-198), bl_object_assign_move (203-214), bl_object_assign_weak (216-222), bl_object_alloc_impl (68-71) and
   bl_object_alloc_impl_external (82-90). Default instances are not reference counted, like in-place content. *)
Inductive lcall :=
| LNew (external_immutable : bool) (size cap : Z) (c : list cell)
| LInit | LWeak (j : nat) | LMove (j : nat) | LDestroy (i : nat) | LReset (i : nat)
| LAssignMove (i j : nat) | LAssignWeak (i j : nat).

Definition dflt_obj : obj := Sso 0 [].
Definition lhandle (os : list obj) (i : nat) : outcome obj := match nth_error os i with Some o => Ok o | None => UB end.
Definition remove_at {A} (l : list A) (i : nat) : list A := firstn i l ++ skipn (S i) l.
(* object.cpp 54-55: the count starts at the base value: 1, or 3 with the immutable flag *)
Definition new_impl (imm : bool) (size cap : Z) (c : list cell) : impl := let b := if imm then 3 else 1 in Impl b b size cap c.

Definition lrun_call (h : heap) (os : list obj) (l : lcall) : outcome (heap * list obj) :=
  match l with
  | LNew imm size cap c => Ok (h ++ [Some (new_impl imm size cap c)], os ++ [Dyn (length h)])
  | LInit => Ok (h, os ++ [dflt_obj])
  | LWeak j => let* o := lhandle os j in let* h' := retain h o in Ok (h', os ++ [o])
  | LMove j => let* o := lhandle os j in Ok (h, upd os j dflt_obj ++ [o])
  | LDestroy i => let* o := lhandle os i in let* h' := release h o in Ok (h', remove_at os i)
  | LReset i => let* o := lhandle os i in let* h' := release h o in Ok (h', upd os i dflt_obj)
  | LAssignMove i j =>
    let* tmp := lhandle os j in let os1 := upd os j dflt_obj in
    let* self := lhandle os1 i in let* h' := release h self in Ok (h', upd os1 i tmp)
  | LAssignWeak i j =>
    let* self := lhandle os i in let* other := lhandle os j in
    let* h1 := retain h other in let* h' := release h1 self in Ok (h', upd os i other)
  end.
Fixpoint lrun (h : heap) (os : list obj) (p : list lcall) : outcome (heap * list obj) :=
  match p with [] => Ok (h, os) | l :: p' => let* (h', os') := lrun_call h os l in lrun h' os' p' end.

(* handle numbers exist; [n] is the number of handles *)
Fixpoint lvalid (n : nat) (p : list lcall) : Prop :=
  match p with
  | [] => True
  | LNew _ _ _ _ :: p' | LInit :: p' => lvalid (S n) p'
  | LWeak j :: p' | LMove j :: p' => (j < n)%nat /\ lvalid (S n) p'
  | LDestroy i :: p' => (i < n)%nat /\ lvalid (pred n) p'
  | LReset i :: p' => (i < n)%nat /\ lvalid n p'
  | LAssignMove i j :: p' | LAssignWeak i j :: p' => (i < n)%nat /\ (j < n)%nat /\ lvalid n p'
  end.

(* ---- growth: a container of [size] bytes (header included) with room for [cap] bytes appends [n] items of [w] bytes.
   Capacity is kept in items by the containers: header + k * w <= cap is the same test as k <= (cap - header) / w.
   [cost] counts the bytes moved to new storage. ---- *)
Fixpoint append_many (n : nat) (w size cap cost : Z) : outcome (Z * Z * Z) :=
  match n with
  | O => Ok (size, cap, cost)
  | S n' => let need := size + w in
            if need <=? cap then append_many n' w need cap cost
            else let* r := expand_impl_size need in append_many n' w need r (cost + size)
  end.
