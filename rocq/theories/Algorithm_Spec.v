(* Independent specification of sorting and searching. *)
From Verif Require Import Base.
From Coq Require Export Permutation Sorted.

(* cmp is a three-way comparison of a total preorder. *)
Record total_preorder {A} (cmp : A -> A -> Z) : Prop := {
  tp_sign : forall x y, cmp x y > 0 <-> cmp y x < 0;
  tp_trans : forall x y z, cmp x y <= 0 -> cmp y z <= 0 -> cmp x z <= 0 }.

Definition sorted_by {A} (cmp : A -> A -> Z) (l : list A) : Prop := StronglySorted (fun x y => cmp x y <= 0) l.

(* element at position i *)
Definition elem_at {A} (l : list A) (i : Z) : option A := if i <? 0 then None else nth_error l (Z.to_nat i).

(* p holds for the elements before position r and for none from r on *)
Definition splits_at {A} (p : A -> bool) (l : list A) (r : Z) : Prop :=
  0 <= r <= Z.of_nat (length l) /\
  forall i x, elem_at l i = Some x -> p x = (i <? r).

(* once p is false it stays false *)
Definition downward {A} (p : A -> bool) (l : list A) : Prop :=
  forall i j x y, elem_at l i = Some x -> elem_at l j = Some y -> i <= j -> p y = true -> p x = true.
