(* Programs over handles of one container type, generic in the container: a heap, a list of live handles and API calls on
   them, and the same calls on independent values.  Used for BLArray, BLString and others. *)
From Verif Require Import Base Algorithm_Model Object_Model Object_Spec.

Section Client.
  Context {T OP OP2 : Type}
    (empty : obj) (vempty : T)                                              (* the default instance and its value *)
    (run_op : bool -> heap -> obj -> OP -> outcome (Z * heap * obj))        (* a call on one handle *)
    (op_ok : bool -> T -> OP -> Z -> T -> Prop)                             (* what it has to do: code and new value *)
    (run_op2 : bool -> heap -> obj -> obj -> bool -> OP2 -> outcome (Z * heap * obj)) (* a call on [self] reading [other]; the same handle? *)
    (op2_ok : bool -> T -> T -> OP2 -> Z -> T -> Prop).

  Inductive hcall :=
  | HInit | HInitWeak (j : nat) | HInitMove (j : nat) | HDestroy (i : nat) | HReset (i : nat)
  | HAssignMove (i j : nat) | HAssignWeak (i j : nat) | HOp (i : nat) (b : OP) | HOp2 (i j : nat) (b : OP2).

  Definition hhandle (os : list obj) (i : nat) : outcome obj := match nth_error os i with Some o => Ok o | None => UB end.
  Definition hdel {A} (l : list A) (i : nat) : list A := firstn i l ++ skipn (S i) l.

  (* [m] tells whether allocations made by this call succeed; the result is (code, heap, handles). A new handle is appended, a
     destroyed one is removed. assign_move empties [j] first, so [self] is read afterwards. *)
  Definition hrun_call (m : bool) (h : heap) (os : list obj) (c : hcall) : outcome (Z * heap * list obj) :=
    match c with
    | HInit => Ok (BL_SUCCESS, h, os ++ [empty])
    | HInitWeak j => let* o := hhandle os j in let* h' := retain h o in Ok (BL_SUCCESS, h', os ++ [o])
    | HInitMove j => let* o := hhandle os j in Ok (BL_SUCCESS, h, upd os j empty ++ [o])
    | HDestroy i => let* o := hhandle os i in let* h' := release h o in Ok (BL_SUCCESS, h', hdel os i)
    | HReset i => let* o := hhandle os i in let* (h', o') := replace_instance h o empty in Ok (BL_SUCCESS, h', upd os i o')
    | HAssignMove i j =>
      let* tmp := hhandle os j in
      let os1 := upd os j empty in
      let* self := hhandle os1 i in
      let* (h', self') := replace_instance h self tmp in Ok (BL_SUCCESS, h', upd os1 i self')
    | HAssignWeak i j =>
      let* self := hhandle os i in let* other := hhandle os j in
      let* h1 := retain h other in
      let* (h', self') := replace_instance h1 self other in Ok (BL_SUCCESS, h', upd os i self')
    | HOp i b => let* o := hhandle os i in let* (code, h', o') := run_op m h o b in Ok (code, h', upd os i o')
    | HOp2 i j b =>
      let* o := hhandle os i in let* other := hhandle os j in
      let* (code, h', o') := run_op2 m h o other (Nat.eqb i j) b in Ok (code, h', upd os i o')
    end.

  (* the same calls on independent values *)
  Definition hcall_ok (m : bool) (vs : list T) (c : hcall) (code : Z) (vs' : list T) : Prop :=
    let v i := nth i vs vempty in
    match c with
    | HInit => code = BL_SUCCESS /\ vs' = vs ++ [vempty]
    | HInitWeak j => code = BL_SUCCESS /\ vs' = vs ++ [v j]
    | HInitMove j => code = BL_SUCCESS /\ vs' = upd vs j vempty ++ [v j]
    | HDestroy i => code = BL_SUCCESS /\ vs' = hdel vs i
    | HReset i => code = BL_SUCCESS /\ vs' = upd vs i vempty
    | HAssignMove i j => code = BL_SUCCESS /\ vs' = upd (upd vs j vempty) i (v j)
    | HAssignWeak i j => code = BL_SUCCESS /\ vs' = upd vs i (v j)
    | HOp i b => exists l', op_ok m (v i) b code l' /\ vs' = upd vs i l'
    | HOp2 i j b => exists l', op2_ok m (v i) (v j) b code l' /\ vs' = upd vs i l'
    end.

  Fixpoint hrun (h : heap) (os : list obj) (p : list (bool * hcall)) : outcome (list Z * heap * list obj) :=
    match p with
    | [] => Ok ([], h, os)
    | (m, c) :: p' => let* (code, h', os') := hrun_call m h os c in
                      let* (codes, h'', os'') := hrun h' os' p' in Ok (code :: codes, h'', os'')
    end.
  Fixpoint hrun_ok (vs : list T) (p : list (bool * hcall)) (codes : list Z) (vs' : list T) : Prop :=
    match p, codes with
    | [], [] => vs' = vs
    | (m, c) :: p', code :: codes' => exists vs1, hcall_ok m vs c code vs1 /\ hrun_ok vs1 p' codes' vs'
    | _, _ => False
    end.

  (* handle numbers exist and the arguments of each call are acceptable in the state the call is made in *)
  Context (op_safe : bool -> heap -> obj -> OP -> Prop) (op2_safe : bool -> heap -> obj -> obj -> OP2 -> Prop).
  Definition hcall_safe (m : bool) (h : heap) (os : list obj) (c : hcall) : Prop :=
    match c with
    | HInit => True
    | HInitWeak j | HInitMove j | HDestroy j | HReset j => (j < length os)%nat
    | HAssignMove i j | HAssignWeak i j => (i < length os)%nat /\ (j < length os)%nat
    | HOp i b => exists o, nth_error os i = Some o /\ op_safe m h o b
    | HOp2 i j b => exists o o2, nth_error os i = Some o /\ nth_error os j = Some o2 /\ op2_safe m h o o2 b
    end.
  Fixpoint hrun_safe (h : heap) (os : list obj) (p : list (bool * hcall)) : Prop :=
    match p with
    | [] => True
    | (m, c) :: p' => hcall_safe m h os c /\
        match hrun_call m h os c with Ok (_, h', os') => hrun_safe h' os' p' | _ => True end
    end.
End Client.

Arguments HInit {OP OP2}.
Arguments HInitWeak {OP OP2} j.
Arguments HInitMove {OP OP2} j.
Arguments HDestroy {OP OP2} i.
Arguments HReset {OP OP2} i.
Arguments HAssignMove {OP OP2} i j.
Arguments HAssignWeak {OP OP2} i j.
Arguments HOp {OP OP2} i b.
Arguments HOp2 {OP OP2} i j b.
