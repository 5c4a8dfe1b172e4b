(* Programs over BLBitArray: a heap, a list of live handles (BLBitArrayCore objects) and API calls on them, and the
   same calls on a list of lists of booleans. *)
From Verif Require Import Base Algorithm_Model Object_Model Object_Spec BitArray_Model BitArray_Spec.

(* calls that modify one array *)
Inductive bop :=
| BSet (i : Z) | BClear (i : Z) | BReplace (i : Z) (v : bool)
| BFillRange (a b : Z) | BClearRange (a b : Z)
| BFillWords (i : Z) (wd : list Z) | BClearWords (i : Z) (wd : list Z) | BReplaceWords (i : Z) (wd : list Z)
| BAppendBit (v : bool) | BAppendWords (wd : list Z)
| BClearAll | BResize (n : Z) | BReserve (n : Z) | BShrink | BReplaceOp (n : Z) | BAssignWords (wd : list Z).

Definition run_bop (m : bool) (h : heap) (o : obj) (b : bop) : result :=
  match b with
  | BSet i => ba_set_bit m h o i
  | BClear i => ba_clear_bit m h o i
  | BReplace i v => ba_replace_bit m h o i v
  | BFillRange x y => ba_fill_range m h o x y
  | BClearRange x y => ba_clear_range m h o x y
  | BFillWords i wd => ba_fill_words m h o i wd (len wd)
  | BClearWords i wd => ba_clear_words m h o i wd (len wd)
  | BReplaceWords i wd => ba_replace_words m h o i wd (len wd)
  | BAppendBit v => ba_append_bit m h o v
  | BAppendWords wd => ba_append_words m h o wd (len wd)
  | BClearAll => ba_clear h o
  | BResize n => ba_resize m h o n
  | BReserve n => ba_reserve m h o n
  | BShrink => ba_shrink m h o
  | BReplaceOp n => ba_replace_op m h o n
  | BAssignWords wd => ba_assign_words m h o wd (len wd)
  end.

(* the intended effect: result code and new content *)
Definition spec_bop (l : list bool) (b : bop) : Z * list bool :=
  let at_ i r := if len l <=? i then (BL_ERROR_INVALID_VALUE, l) else (BL_SUCCESS, r) in
  let range a b r := if (b <=? a) || (len l <=? a) then (BL_ERROR_INVALID_VALUE, l) else (BL_SUCCESS, r) in
  match b with
  | BSet i => at_ i (l_set l i true)
  | BClear i => at_ i (l_set l i false)
  | BReplace i v => at_ i (l_set l i v)
  | BFillRange a b => range a b (l_fill l a b true)
  | BClearRange a b => range a b (l_fill l a b false)
  | BFillWords i wd => at_ i (l_combine orb l i (words_bits wd))
  | BClearWords i wd => at_ i (l_combine (fun x y => x && negb y) l i (words_bits wd))
  | BReplaceWords i wd => at_ i (l_combine (fun _ y => y) l i (words_bits wd))
  | BAppendBit v => (BL_SUCCESS, l ++ [v])
  | BAppendWords wd => (BL_SUCCESS, l ++ words_bits wd)
  | BClearAll => (BL_SUCCESS, [])
  | BResize n => (BL_SUCCESS, l_resize l n)
  | BReserve _ | BShrink => (BL_SUCCESS, l)
  | BReplaceOp n => (BL_SUCCESS, repeat false (Z.to_nat n))
  | BAssignWords wd => (BL_SUCCESS, words_bits wd)
  end.
(* the allowed outcomes when allocation may fail: nothing happens and the error is reported *)
Definition bop_ok (m : bool) (l : list bool) (b : bop) (code : Z) (l' : list bool) : Prop :=
  (code, l') = spec_bop l b \/ (m = false /\ code = BL_ERROR_OUT_OF_MEMORY /\ l' = l).

Inductive call :=
| CInit | CInitWeak (j : nat) | CInitMove (j : nat) | CDestroy (i : nat) | CReset (i : nat)
| CAssignMove (i j : nat) | CAssignWeak (i j : nat) | COp (i : nat) (b : bop).

Definition handle (os : list obj) (i : nat) : outcome obj := match nth_error os i with Some o => Ok o | None => UB end.
Definition del {A} (l : list A) (i : nat) : list A := firstn i l ++ skipn (S i) l.

(* [m] tells whether allocations made by this call succeed; the result is (code, heap, handles). A new handle is
   appended, a destroyed one is removed. assign_move empties [j] first (bitarray.cpp 289-298), so [self] is read
   afterwards. *)
Definition run_call (m : bool) (h : heap) (os : list obj) (c : call) : outcome (Z * heap * list obj) :=
  match c with
  | CInit => Ok (BL_SUCCESS, h, os ++ [ba_init])
  | CInitWeak j => let* o := handle os j in let* (h', o') := ba_init_weak h o in Ok (BL_SUCCESS, h', os ++ [o'])
  | CInitMove j => let* o := handle os j in let (n, o') := ba_init_move o in Ok (BL_SUCCESS, h, upd os j o' ++ [n])
  | CDestroy i => let* o := handle os i in let* h' := ba_destroy h o in Ok (BL_SUCCESS, h', del os i)
  | CReset i => let* o := handle os i in let* (h', o') := ba_reset h o in Ok (BL_SUCCESS, h', upd os i o')
  | CAssignMove i j =>
    let* tmp := handle os j in
    let os1 := upd os j (init_sso 0) in
    let* self := handle os1 i in
    let* (h', self', _) := ba_assign_move h self tmp in Ok (BL_SUCCESS, h', upd os1 i self')
  | CAssignWeak i j =>
    let* self := handle os i in let* other := handle os j in
    let* (h', self') := ba_assign_weak h self other in Ok (BL_SUCCESS, h', upd os i self')
  | COp i b => let* o := handle os i in let* (code, h', o') := run_bop m h o b in Ok (code, h', upd os i o')
  end.

(* the same calls on independent lists of booleans *)
Definition call_ok (m : bool) (vs : list (list bool)) (c : call) (code : Z) (vs' : list (list bool)) : Prop :=
  let v i := nth i vs [] in
  match c with
  | CInit => code = BL_SUCCESS /\ vs' = vs ++ [[]]
  | CInitWeak j => code = BL_SUCCESS /\ vs' = vs ++ [v j]
  | CInitMove j => code = BL_SUCCESS /\ vs' = upd vs j [] ++ [v j]
  | CDestroy i => code = BL_SUCCESS /\ vs' = del vs i
  | CReset i => code = BL_SUCCESS /\ vs' = upd vs i []
  | CAssignMove i j => code = BL_SUCCESS /\ vs' = upd (upd vs j []) i (v j)
  | CAssignWeak i j => code = BL_SUCCESS /\ vs' = upd vs i (v j)
  | COp i b => exists l', bop_ok m (v i) b code l' /\ vs' = upd vs i l'
  end.

(* whole programs: each call comes with its allocation outcome *)
Fixpoint run (h : heap) (os : list obj) (p : list (bool * call)) : outcome (list Z * heap * list obj) :=
  match p with
  | [] => Ok ([], h, os)
  | (m, c) :: p' => let* (code, h', os') := run_call m h os c in
                    let* (codes, h'', os'') := run h' os' p' in Ok (code :: codes, h'', os'')
  end.
Fixpoint run_ok (vs : list (list bool)) (p : list (bool * call)) (codes : list Z) (vs' : list (list bool)) : Prop :=
  match p, codes with
  | [], [] => vs' = vs
  | (m, c) :: p', code :: codes' => exists vs1, call_ok m vs c code vs1 /\ run_ok vs1 p' codes' vs'
  | _, _ => False
  end.

(* one array on its own *)
Fixpoint run1 (h : heap) (o : obj) (p : list (bool * bop)) : outcome (list Z * heap * obj) :=
  match p with
  | [] => Ok ([], h, o)
  | (m, b) :: p' => let* (code, h', o') := run_bop m h o b in
                    let* (codes, h'', o'') := run1 h' o' p' in Ok (code :: codes, h'', o'')
  end.
Fixpoint run1_ok (l : list bool) (p : list (bool * bop)) (codes : list Z) (l' : list bool) : Prop :=
  match p, codes with
  | [], [] => l' = l
  | (m, b) :: p', code :: codes' => exists l1, bop_ok m l b code l1 /\ run1_ok l1 p' codes' l'
  | _, _ => False
  end.

(* ---- which calls are excluded from the partial theorems (the ones shown to go wrong in the refutations) ---- *)
(* combine_word_data (bitarray.cpp 178-236) is right when the start is word aligned, or at least one bit is written
   and the last partial destination word needs a further source word exactly when it is read. *)
Definition combine_good (size bit_index n : Z) : Prop :=
  let shift := bit_index mod 32 in
  let bits := Z.min (32 * n) (size - bit_index) in
  let rest := (bits - (32 - shift)) mod 32 in
  shift = 0 \/ (0 < bits /\ (bits <= 32 - shift \/ rest = 0 \/ (shift < rest <-> 32 - shift < rest))).
Definition is_word (w : Z) : Prop := 0 <= w < 2 ^ 32.

(* conditions on arguments and size only *)
Definition bop_args (l : list bool) (b : bop) : Prop :=
  match b with
  | BSet i | BClear i | BReplace i _ => 0 <= i
  | BFillRange a _ | BClearRange a _ => 0 <= a
  | BFillWords i wd | BClearWords i wd | BReplaceWords i wd =>
    0 <= i /\ Forall is_word wd /\ (i < len l -> combine_good (len l) i (len wd))
  | BAppendBit _ => len l < 4294967295
  | BAppendWords wd => Forall is_word wd /\ len l + 32 * len wd <= 4294967295 /\ len l mod 32 <= 16
  | BClearAll | BShrink => True
  | BResize n | BReserve n | BReplaceOp n => 0 <= n <= 4294967295
  | BAssignWords wd => Forall is_word wd /\ len wd <= 3
  end.
(* unshared: in-place, or the only reference to its Impl *)
Definition unshared (h : heap) (o : obj) : Prop :=
  match o with Sso _ _ => True | Dyn p => match nth_error h p with Some (Some im) => rc im = 1 | _ => False end end.
Definition capacity (h : heap) (o : obj) : Z :=
  match o with Sso _ _ => 96 | Dyn p => match nth_error h p with Some (Some im) => icap im | _ => 0 end end.
(* conditions on the representation *)
Definition bop_repr (h : heap) (o : obj) (l : list bool) (b : bop) : Prop :=
  match b with
  | BSet _ | BClear _ | BReplace _ _ | BFillRange _ _ | BClearRange _ _
  | BFillWords _ _ | BClearWords _ _ | BReplaceWords _ _ => unshared h o
  | BResize n => n <= 96 \/ n <= 32 * ((len l + 31) / 32) \/ (unshared h o /\ n <= capacity h o)
  | BReserve n => unshared h o \/ len l <= 32 * ((n + 31) / 32)
  | BAssignWords wd => match o with Sso _ _ => True | Dyn _ => unshared h o -> (capacity h o + 31) / 32 < len wd end
  | _ => True
  end.
Definition call_safe (h : heap) (os : list obj) (c : call) : Prop :=
  match c with
  | CInit => True
  | CInitWeak j | CInitMove j | CDestroy j | CReset j => (j < length os)%nat
  | CAssignMove i j | CAssignWeak i j => (i < length os)%nat /\ (j < length os)%nat
  | COp i b => exists o, nth_error os i = Some o /\ bop_args (ba_value h o) b /\ bop_repr h o (ba_value h o) b
  end.
Fixpoint run_safe (h : heap) (os : list obj) (p : list (bool * call)) : Prop :=
  match p with
  | [] => True
  | (m, c) :: p' => call_safe h os c /\
      match run_call m h os c with Ok (_, h', os') => run_safe h' os' p' | _ => True end
  end.
(* one array on its own: conditions on the contents only *)
Definition bop_one (l : list bool) (b : bop) : Prop :=
  bop_args l b /\
  match b with
  | BResize n => n <= 96 \/ n <= 32 * ((len l + 31) / 32)
  | BAssignWords _ => False
  | _ => True
  end.
Fixpoint run1_safe (l : list bool) (p : list (bool * bop)) : Prop :=
  match p with
  | [] => True
  | (m, b) :: p' => bop_one l b /\ forall code l', bop_ok m l b code l' -> run1_safe l' p'
  end.

(* arguments a caller may pass: indexes and sizes are unsigned, words have 32 bits, sizes fit the 32-bit size field *)
Definition bop_valid (b : bop) : Prop :=
  match b with
  | BSet i | BClear i | BReplace i _ => 0 <= i
  | BFillRange a b | BClearRange a b => 0 <= a /\ 0 <= b
  | BFillWords i wd | BClearWords i wd | BReplaceWords i wd => 0 <= i /\ Forall is_word wd
  | BAppendWords wd | BAssignWords wd => Forall is_word wd
  | BResize n | BReserve n | BReplaceOp n => 0 <= n <= 4294967295
  | BAppendBit _ | BClearAll | BShrink => True
  end.
Definition call_valid (c : call) : Prop := match c with COp _ b => bop_valid b | _ => True end.
