(* Shared definitions: machine words, outcomes, list access with bounds. *)
From Coq Require Export ZArith List Bool Lia.
From Coq Require Export ZifyBool ZifyNat ZifyN.
Export ListNotations.
Global Open Scope Z_scope.
Global Open Scope bool_scope.

Ltac Zify.zify_post_hook ::= Z.div_mod_to_equations.

(* Unsigned wrap to [w] bits: the value stored by an unsigned C++ integer of that width. *)
Definition wrap (w x : Z) : Z := x mod 2 ^ w.
Definition w8 (x : Z) : Z := x mod 256.
Definition w16 (x : Z) : Z := x mod 65536.
Definition w32 (x : Z) : Z := x mod 4294967296.
Definition w64 (x : Z) : Z := x mod 18446744073709551616.

(* Result of a piece of C++ code: a value, a reported error code, undefined behaviour
   (out-of-bounds access, oversized shift, use of freed memory ...) or exhausted fuel of the model. *)
Inductive outcome (A : Type) : Type :=
| Ok (a : A)
| Err (code : Z)
| UB
| NoFuel.
Arguments Ok {A} a.
Arguments Err {A} code.
Arguments UB {A}.
Arguments NoFuel {A}.

Definition bind {A B} (m : outcome A) (f : A -> outcome B) : outcome B :=
  match m with Ok a => f a | Err c => Err c | UB => UB | NoFuel => NoFuel end.
Notation "'let*' x ':=' m 'in' k" := (bind m (fun x => k))
  (at level 200, x pattern, m at level 100, k at level 200, right associativity).

(* Byte predicate. *)
Definition is_byte (b : Z) : Prop := 0 <= b < 256.
Definition bytes (l : list Z) : Prop := Forall is_byte l.

(* Bounded read: reading outside the list is undefined behaviour. *)
Definition rd {A} (l : list A) (i : Z) : outcome A :=
  if (i <? 0) then UB else match nth_error l (Z.to_nat i) with Some x => Ok x | None => UB end.
