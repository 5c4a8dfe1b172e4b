(* BLString as a list of bytes. *)
From Verif Require Import Base Algorithm_Model Object_Model Object_Spec BitArray_Spec Handle_Client Array_Model Array_Spec String_Model.

(* ---- representation: the text is followed by a zero byte ---- *)
Definition terminated (size : Z) (c : list cell) : Prop := nth_error c (Z.to_nat size) = Some (Some 0).
Definition str_okI (size cap : Z) (c : list cell) : Prop :=
  0 <= size <= cap /\ cap + 1 <= len c /\ cap + 1 <= max_bytes /\ inits size c /\ terminated size c.
(* in place: 14 characters; the byte behind them holds the size such that a full string is terminated *)
Definition str_okS (size : Z) (c : list cell) : Prop :=
  0 <= size <= 14 /\ len c = 15 /\ nth_error c 14 = Some (Some (Z.lxor size 14)) /\ inits size c /\ terminated size c.
Definition str_wf := wf (ext := False) str_okI str_okS.
Definition str_value := value items [].

(* ---- calls that modify one string ---- *)
Inductive sop :=
| SClear | SShrink | SReserve (n : Z) | SResize (n b : Z) | SMakeMutable
| SModify (op : modify_op) (x : list Z) | SInsertOp (i : Z) (x : list Z)
| SApply (op : modify_op) (s : src) (n : Z) | SApplyChar (op : modify_op) (b n : Z) | SFormat (op : modify_op) (f : list Z)
| SInsertData (i : Z) (s : src) (n : Z) | SInsertChar (i b n : Z)
| SRemoveRange (a b : Z) | SRemoveIndex (i : Z).

Definition run_sop (m : bool) (h : heap) (o : obj) (b : sop) : outcome (Z * heap * obj) :=
  match b with
  | SClear => str_clear h o
  | SShrink => str_shrink m h o
  | SReserve n => str_reserve m h o n
  | SResize n c => str_resize m h o n c
  | SMakeMutable => str_make_mutable m h o
  | SModify op x => str_modify_op_write m h o op x
  | SInsertOp i x => str_insert_op_write m h o i x
  | SApply op s n => str_apply_op_data m h o op s n
  | SApplyChar op c n => str_apply_op_char m h o op c n
  | SFormat op f => str_apply_op_format m h o op f
  | SInsertData i s n => str_insert_data m h o i s n
  | SInsertChar i c n => str_insert_char m h o i c n
  | SRemoveRange a e => str_remove_range m h o a e
  | SRemoveIndex i => str_remove_index m h o i
  end.

(* a C string: the bytes before the first zero *)
Fixpoint cstr (l : list Z) : list Z := match l with [] => [] | x :: r => if x =? 0 then [] else x :: cstr r end.
(* the bytes a pointer into the caller's memory, or into the (terminated) text [l] itself, refers to; SIZE_MAX: a C string *)
Definition src_text (l : list Z) (s : src) (n : Z) : list Z :=
  let t := match s with SExt _ e => e | SIn i => drop (l ++ [0]) i end in
  if n =? 2 ^ 64 - 1 then cstr t else take t n.
Definition put (op : modify_op) (l x : list Z) : list Z := if is_assign op then x else l ++ x.

(* the intended effect *)
Definition spec_sop (l : list Z) (b : sop) : list Z :=
  match b with
  | SClear => []
  | SShrink | SReserve _ | SMakeMutable => l
  | SResize n c => take l n ++ repeat c (Z.to_nat (n - len l))
  | SModify op x | SFormat op x => put op l x
  | SInsertOp i x => l_insert l i x
  | SApply op s n => put op l (src_text l s n)
  | SApplyChar op c n => put op l (repeat c (Z.to_nat n))
  | SInsertData i s n => l_insert l i (src_text l s n)
  | SInsertChar i c n => l_insert l i (repeat c (Z.to_nat n))
  | SRemoveRange a b => let e := Z.min b (len l) in l_replace l (Z.min a e) e []
  | SRemoveIndex i => if i <? len l then l_replace l i (i + 1) [] else l
  end.
(* number of bytes the call may need storage for *)
Definition s_demand (l : list Z) (b : sop) : Z :=
  Z.max (len l) (match b with SReserve n => n | _ => 0 end) + match b with
    | SResize n _ => Z.max 0 (n - len l)
    | SModify _ x | SInsertOp _ x | SFormat _ x => len x
    | SApply _ s n | SInsertData _ s n => len (src_text l s n)
    | SApplyChar _ _ n | SInsertChar _ _ n => n
    | _ => 0
    end.
(* when allocation fails, nothing happens and the error is reported *)
Definition sop_ok (m : bool) (l : list Z) (b : sop) (code : Z) (l' : list Z) : Prop :=
  (code = BL_SUCCESS /\ l' = spec_sop l b) \/
  ((m = false \/ 2 ^ 60 <= s_demand l b) /\ code = BL_ERROR_OUT_OF_MEMORY /\ l' = l).

(* ---- arguments ---- *)
Definition s_cap (h : heap) (o : obj) : Z :=
  match o with Sso _ _ => 14 | Dyn p => match nth_error h p with Some (Some im) => icap im | _ => 0 end end.
(* the bytes can be read through the pointer *)
Definition text_valid (h : heap) (o : obj) (l : list Z) (s : src) (n : Z) : Prop :=
  match s with
  | SExt off e => len e <= max_bytes /\ (off + len e <= 0 \/ s_cap h o + 1 <= off) /\ (if n =? 2 ^ 64 - 1 then In 0 e else 0 <= n <= len e)
  | SIn i => 0 <= i <= len l /\ (if n =? 2 ^ 64 - 1 then True else 0 <= n /\ i + n <= len l + 1)
  end.
(* what a user has to guarantee *)
Definition sop_valid (h : heap) (o : obj) (b : sop) : Prop :=
  let l := str_value h o in
  match b with
  | SReserve n | SResize n _ => 0 <= n < 2 ^ 64
  | SModify _ x => len x <= max_bytes
  | SFormat _ f => len f < 2 ^ 31 /\ ~ In 0 f
  | SInsertOp i x => 0 <= i <= len l /\ len x <= max_bytes
  | SApply _ s n => text_valid h o l s n
  | SInsertData i s n => 0 <= i <= len l /\ text_valid h o l s n
  | SApplyChar _ _ n => 0 <= n < 2 ^ 64
  | SInsertChar i _ n => 0 <= i <= len l /\ 0 <= n < 2 ^ 64
  | SRemoveRange a b => 0 <= a < 2 ^ 64 /\ 0 <= b < 2 ^ 64
  | SRemoveIndex i => 0 <= i < 2 ^ 64 - 1
  | _ => True
  end.
(* The faulty path of modify_and_copy: the result would fit into the handle, the string has to leave its storage, and the operation
   does not grow. *)
Definition short_copy (h : heap) (o : obj) (op : modify_op) (x : list Z) : Prop :=
  does_grow op = false /\ len (put op (str_value h o) x) <= 14 /\ ~ (amutable h o /\ len (put op (str_value h o) x) <= s_cap h o).
(* The formatted text is first written into the spare room of the string and does not fit. *)
Definition format_spills (h : heap) (o : obj) (op : modify_op) (f : list Z) : Prop :=
  let r := s_cap h o - len (put op (str_value h o) []) in amutable h o /\ 64 <= r /\ r < len f.
(* valid calls on which the code is right *)
Definition sop_safe (m : bool) (h : heap) (o : obj) (b : sop) : Prop :=
  sop_valid h o b /\
  match b with
  | SReserve n => 17 + n < 2 ^ 64
  | SApply op s n => ~ short_copy h o op (src_text (str_value h o) s n)
  | SFormat op f => ~ short_copy h o op f /\ (format_spills h o op f -> m = true /\ len (str_value h o) < 2 ^ 59)
  | _ => True
  end.

(* ---- calls that read another string; [off] is the distance of its bytes ---- *)
Inductive sop2 := TApply (op : modify_op) (off : Z) | TInsert (i off : Z).
Definition run_sop2 (m : bool) (h : heap) (o x : obj) (same : bool) (b : sop2) : outcome (Z * heap * obj) :=
  match b with
  | TApply op off => str_apply_op_string m h o x same off op
  | TInsert i off => str_insert_string m h o x same off i
  end.
Definition sop2_ok (m : bool) (l lx : list Z) (b : sop2) (code : Z) (l' : list Z) : Prop :=
  (code = BL_SUCCESS /\ l' = match b with TApply op _ => put op l lx | TInsert i _ => l_insert l i lx end) \/
  ((m = false \/ 2 ^ 60 <= len l + len lx) /\ code = BL_ERROR_OUT_OF_MEMORY /\ l' = l).
Definition off_ok (h : heap) (o x : obj) (off : Z) : Prop := off + len (str_value h x) <= 0 \/ s_cap h o + 1 <= off.
Definition sop2_safe (m : bool) (h : heap) (o x : obj) (b : sop2) : Prop :=
  match b with
  | TApply op off => off_ok h o x off /\ ~ short_copy h o op (str_value h x)
  | TInsert i off => 0 <= i <= len (str_value h o) /\ off_ok h o x off
  end.

(* ---- programs ---- *)
Definition str_run := hrun (init_sso 0) run_sop run_sop2.
Definition str_run_ok := hrun_ok [] sop_ok sop2_ok.
Definition str_run_safe := hrun_safe (init_sso 0) run_sop run_sop2 sop_safe sop2_safe.

(* ---- queries ---- *)
(* lexicographic order *)
Fixpoint lex (a b : list Z) : Z :=
  match a, b with
  | [], [] => 0
  | [], _ => -1
  | _, [] => 1
  | x :: a', y :: b' => if x <? y then -1 else if y <? x then 1 else lex a' b'
  end.
(* the first (last) index at or behind (at or before) [from] that holds [b], or SIZE_MAX *)
Definition first_at (l : list Z) (b from r : Z) : Prop :=
  (r = 2 ^ 64 - 1 /\ forall i, from <= Z.of_nat i -> nth_error l i <> Some b) \/
  (from <= r < len l /\ nth_error l (Z.to_nat r) = Some b /\ forall i, from <= Z.of_nat i < r -> nth_error l i <> Some b).
Definition last_at (l : list Z) (b from r : Z) : Prop :=
  (r = 2 ^ 64 - 1 /\ forall i, Z.of_nat i <= from -> nth_error l i <> Some b) \/
  (0 <= r <= from /\ r < len l /\ nth_error l (Z.to_nat r) = Some b /\ forall i, r < Z.of_nat i <= from -> nth_error l i <> Some b).
(* the bytes of a caller's buffer *)
Definition buf_text (b : list Z) (n : Z) : list Z := if n =? 2 ^ 64 - 1 then cstr b else take b n.
Definition buf_valid (b : list Z) (n : Z) : Prop := len b <= max_bytes /\ if n =? 2 ^ 64 - 1 then In 0 b else 0 <= n <= len b.
