(* BLArray as a list of items. *)
From Verif Require Import Base Algorithm_Model Object_Model Object_Spec BitArray_Spec Handle_Client Array_Model.

(* ---- representation ---- *)
Definition vals (c : list cell) : list Z := map (fun x => match x with Some v => v | None => 0 end) c.
Definition items (size : Z) (c : list cell) : list Z := vals (firstn (Z.to_nat size) c).
(* the first [n] items are initialized *)
Definition inits (n : Z) (c : list cell) : Prop := forall i, 0 <= i < n -> exists v, nth_error c (Z.to_nat i) = Some (Some v).

(* No object is larger than half the address space less a page. *)
Definition max_bytes : Z := 2 ^ 63 - 4096.
(* size and capacity fit the storage *)
Definition arr_okI (w size cap : Z) (c : list cell) : Prop :=
  0 <= size <= cap /\ cap <= len c /\ cap * w <= max_bytes /\ inits size c.
Definition arr_okS (w size : Z) (c : list cell) : Prop :=
  0 <= size <= 12 / w /\ len c = 12 / w /\ inits size c.
Definition arr_wf (w : Z) := wf (ext := True) (arr_okI w) (arr_okS w).
Definition arr_value := value items [].

(* ---- operations on lists ---- *)
Definition take (l : list Z) (n : Z) : list Z := firstn (Z.to_nat n) l.
Definition drop (l : list Z) (n : Z) : list Z := skipn (Z.to_nat n) l.
Definition l_insert (l : list Z) (i : Z) (x : list Z) : list Z := take l i ++ x ++ drop l i.
Definition l_replace (l : list Z) (a b : Z) (x : list Z) : list Z := take l a ++ x ++ drop l b.
(* the [n] items a source pointer refers to *)
Definition src_items (l : list Z) (s : src) (n : Z) : list Z :=
  match s with SExt _ e => take e n | SIn i => take (drop l i) n end.

(* ---- calls that modify one array ---- *)
Inductive aop :=
| AClear | AShrink (external : bool) | AResize (n : Z) (fill : option src) | AReserve (n : Z) | AMakeMutable
| AModify (op : modify_op) (x : list Z) | AInsertOp (i : Z) (x : list Z) | AInsertValue (i v : Z)
| AAssignExternal (valid wr : bool) (buf : list cell) (size cap : Z)
| AAppendData (s : src) (n : Z) | AAppendItem (s : src) | AAppendValue (v off : Z)
| AInsertData (i : Z) (s : src) (n : Z) | AReplaceItem (i : Z) (s : src) | AReplaceValue (i v off : Z)
| ARemoveRange (a b : Z) | ARemoveIndex (i : Z)
| AAssignData (s : src) (n : Z) | AReplaceData (a b : Z) (s : src) (n : Z).

Definition run_aop (w : Z) (m : bool) (h : heap) (o : obj) (b : aop) : outcome (Z * heap * obj) :=
  match b with
  | AClear => arr_clear w h o
  | AShrink e => arr_shrink w m e h o
  | AResize n fill => arr_resize w m h o n fill
  | AReserve n => arr_reserve w m h o n
  | AMakeMutable => arr_make_mutable w m h o
  | AModify op x => arr_modify_op_write w m h o op x
  | AInsertOp i x => arr_insert_op_write w m h o i x
  | AInsertValue i v => arr_insert_value w m h o i v
  | AAssignExternal valid wr buf size cap => arr_assign_external_data w m valid wr h o buf size cap
  | AAppendData s n => arr_append_data w m h o s n
  | AAppendItem s => arr_append_item w m h o s
  | AAppendValue v off => arr_append_value w m h o v off
  | AInsertData i s n => arr_insert_data w m h o i s n
  | AReplaceItem i s => arr_replace_item w m h o i s
  | AReplaceValue i v off => arr_replace_value w m h o i v off
  | ARemoveRange a b => arr_remove_range w m h o a b
  | ARemoveIndex i => arr_remove_index w m h o i
  | AAssignData s n => arr_assign_data w m h o s n
  | AReplaceData a b s n => arr_replace_data w m h o a b s n
  end.

(* the intended effect: result code and new content *)
Definition spec_aop (w : Z) (l : list Z) (b : aop) : Z * list Z :=
  let ok l' := (BL_SUCCESS, l') in
  match b with
  | AClear => ok []
  | AShrink _ | AReserve _ | AMakeMutable => ok l
  | AResize n fill =>
    let v := match fill with None => 0 | Some s => hd 0 (src_items l s 1) end in
    ok (take l n ++ repeat v (Z.to_nat (n - len l)))
  | AModify op x => ok (if is_assign op then x else l ++ x)
  | AInsertOp i x => ok (l_insert l i x)
  | AInsertValue i v => ok (l_insert l i [v])
  | AAssignExternal valid _ buf size cap =>
    if (cap =? 0) || (cap <? size) || negb valid || (2 ^ 64 <=? cap * w) then (BL_ERROR_INVALID_VALUE, l)
    else ok (items size buf)
  | AAppendData s n => ok (l ++ src_items l s n)
  | AAppendItem s => ok (l ++ src_items l s 1)
  | AAppendValue v _ => ok (l ++ [v])
  | AInsertData i s n => ok (l_insert l i (src_items l s n))
  | AReplaceItem i s => if len l <=? i then (BL_ERROR_INVALID_VALUE, l) else ok (l_replace l i (i + 1) (src_items l s 1))
  | AReplaceValue i v _ => if len l <=? i then (BL_ERROR_INVALID_VALUE, l) else ok (l_replace l i (i + 1) [v])
  | ARemoveRange a b => let e := Z.min b (len l) in ok (l_replace l (Z.min a e) e [])
  | ARemoveIndex i => ok (if i <? len l then l_replace l i (i + 1) [] else l)
  | AAssignData s n => ok (src_items l s n)
  | AReplaceData a b s n => let e := Z.min b (len l) in ok (l_replace l (Z.min a e) e (src_items l s n))
  end.

(* number of items the call may need storage for *)
Definition demand (l : list Z) (b : aop) : Z :=
  match b with
  | AResize n _ | AReserve n => Z.max n (len l)
  | AModify op x => if is_assign op then len x else len l + len x
  | AInsertOp _ x => len l + len x
  | AInsertValue _ _ | AAppendItem _ | AAppendValue _ _ => len l + 1
  | AAppendData _ n | AInsertData _ _ n | AReplaceData _ _ _ n => len l + n
  | AAssignData _ n => Z.max n (len l)
  | _ => len l
  end.
(* When allocation fails, nothing happens and the error is reported. Allocation fails when malloc does ([m = false]) and may
   fail when 2^60 bytes or more are needed. *)
Definition aop_ok (w : Z) (m : bool) (l : list Z) (b : aop) (code : Z) (l' : list Z) : Prop :=
  (code, l') = spec_aop w l b \/
  ((m = false \/ 2 ^ 60 <= demand l b * w) /\ code = BL_ERROR_OUT_OF_MEMORY /\ l' = l).

(* ---- arguments ---- *)
Definition acapacity (w : Z) (h : heap) (o : obj) : Z :=
  match o with Sso _ _ => 12 / w | Dyn p => match nth_error h p with Some (Some im) => icap im | _ => 0 end end.
Definition amutable (h : heap) (o : obj) : Prop :=
  match o with Sso _ _ => True | Dyn p => match nth_error h p with Some (Some im) => rc im = 1 | _ => False end end.
(* [n] items can be read through the pointer: they are in a buffer outside of the array's storage, or in the array *)
Definition src_valid (w : Z) (h : heap) (o : obj) (l : list Z) (s : src) (n : Z) : Prop :=
  0 <= n /\
  match s with
  | SExt off e => n <= len e /\ len e * w <= max_bytes /\ (off + len e * w <= 0 \/ acapacity w h o * w <= off)
  | SIn i => 0 <= i /\ i + n <= len l
  end.

(* the arguments the theorems cover; what is excluded beyond nonsensical arguments is refuted separately *)
Definition aop_safe (w : Z) (h : heap) (o : obj) (b : aop) : Prop :=
  let l := arr_value h o in
  match b with
  | AClear | AShrink _ | AMakeMutable => True
  | AResize n fill =>
    0 <= n /\ 24 + n * w < 2 ^ 64 /\
    match fill with
    | None => True
    | Some (SExt off e) => src_valid w h o l (SExt off e) 1
    | Some (SIn i) => n <= len l \/ (src_valid w h o l (SIn i) 1 /\ amutable h o /\ n <= acapacity w h o)
    end
  | AReserve n => 0 <= n < 2 ^ 64
  | AModify op x => 24 + demand l (AModify op x) * w < 2 ^ 64
  | AInsertOp i x => 0 <= i <= len l /\ len x * w <= max_bytes
  | AInsertValue i _ => 0 <= i <= len l
  | AAssignExternal valid wr buf size cap =>
    0 <= size /\ 0 <= cap < 2 ^ 64 /\ cap <= len buf /\ cap * w <= max_bytes /\ inits size buf
  | AAppendData s n => src_valid w h o l s n
  | AAppendItem s => src_valid w h o l s 1
  | AAppendValue v off => src_valid w h o l (SExt off [v]) 1
  | AInsertData i s n => 0 <= i <= len l /\ src_valid w h o l s n
  | AReplaceItem i s => 0 <= i /\ src_valid w h o l s 1
  | AReplaceValue i v off => 0 <= i /\ src_valid w h o l (SExt off [v]) 1
  | ARemoveRange a b => 0 <= a /\ 0 <= b
  | ARemoveIndex i => 0 <= i < 2 ^ 64 - 1
  | AAssignData s n => src_valid w h o l s n /\ ((amutable h o /\ n <= acapacity w h o) \/ n <= len l)
  | AReplaceData a b s n =>
    let e := Z.min b (len l) in let i := Z.min a e in
    0 <= a /\ 0 <= b /\ src_valid w h o l s n /\
    (e - i = 0 \/ ~ amutable h o \/
     (* the pointer comparison of line 1201 sends the call to the copying path *)
     match s with SExt off _ => 0 < off < len l * n | SIn k => k * w < len l * n end \/
     (* same length, or the range reaches the end and the replacement fits; not from an overlapping part of the array *)
     ((n = e - i \/ (e = len l /\ i + n <= acapacity w h o)) /\
      match s with SExt _ _ => True | SIn k => k + n <= i \/ i + n <= k end))
  end.

(* ---- assign_deep: a copy of another array; [off] is the distance of its data in bytes ---- *)
Inductive aop2 := ADeep (off : Z).
Definition run_aop2 (w : Z) (m : bool) (h : heap) (o x : obj) (same : bool) (b : aop2) : outcome (Z * heap * obj) :=
  match b with ADeep off => arr_assign_deep w m h o x same off end.
Definition aop2_ok (w : Z) (m : bool) (l lx : list Z) (b : aop2) (code : Z) (l' : list Z) : Prop :=
  (code = BL_SUCCESS /\ l' = lx) \/
  ((m = false \/ 2 ^ 60 <= Z.max (len lx) (len l) * w) /\ code = BL_ERROR_OUT_OF_MEMORY /\ l' = l).
(* as for AAssignData *)
Definition aop2_safe (w : Z) (h : heap) (o x : obj) (b : aop2) : Prop :=
  match b with
  | ADeep off =>
    let n := len (arr_value h x) in
    ((amutable h o /\ n <= acapacity w h o) \/ n <= len (arr_value h o)) /\
    (off + n * w <= 0 \/ acapacity w h o * w <= off)
  end.

(* what the user of the library has to guarantee: pointers to readable items, positions within the array *)
Definition aop_valid (w : Z) (h : heap) (o : obj) (b : aop) : Prop :=
  let l := arr_value h o in
  match b with
  | AClear | AShrink _ | AMakeMutable => True
  | AResize n fill => 0 <= n < 2 ^ 64 /\ match fill with None => True | Some s => src_valid w h o l s 1 end
  | AReserve n => 0 <= n < 2 ^ 64
  | AModify op x => len x * w <= max_bytes
  | AInsertOp i x => 0 <= i <= len l /\ len x * w <= max_bytes
  | AInsertValue i _ => 0 <= i <= len l
  | AAssignExternal valid wr buf size cap =>
    0 <= size /\ 0 <= cap < 2 ^ 64 /\ cap <= len buf /\ cap * w <= max_bytes /\ inits size buf
  | AAppendData s n | AAssignData s n => src_valid w h o l s n
  | AAppendItem s => src_valid w h o l s 1
  | AAppendValue v off => src_valid w h o l (SExt off [v]) 1
  | AInsertData i s n => 0 <= i <= len l /\ src_valid w h o l s n
  | AReplaceItem i s => 0 <= i /\ src_valid w h o l s 1
  | AReplaceValue i v off => 0 <= i /\ src_valid w h o l (SExt off [v]) 1
  | ARemoveRange a b => 0 <= a /\ 0 <= b
  | ARemoveIndex i => 0 <= i < 2 ^ 64 - 1
  | AReplaceData a b s n => 0 <= a /\ 0 <= b /\ src_valid w h o l s n
  end.

(* programs over arrays of [w] byte items *)
Definition arr_run (w : Z) := hrun (arr_init w) (run_aop w) (run_aop2 w).
Definition arr_run_ok (w : Z) := hrun_ok [] (aop_ok w) (aop2_ok w).
Definition arr_run_safe (w : Z) := hrun_safe (arr_init w) (run_aop w) (run_aop2 w) (fun _ => aop_safe w) (fun _ => aop2_safe w).
