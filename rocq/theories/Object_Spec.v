(* Specification vocabulary for reference counted objects: which handles refer to an Impl, and when a
   heap and the set of live handles are consistent. *)
From Verif Require Import Base Object_Model.

(* Number of handles in [os] that refer to Impl [p]. *)
Definition refers (p : nat) (o : obj) : bool := match o with Dyn q => Nat.eqb p q | Sso _ _ => false end.
Definition refs (p : nat) (os : list obj) : Z := Z.of_nat (length (filter (refers p) os)).

Section Heap.
  Context {T : Type} {ext : Prop}           (* ext: Impls over external data (base count 3) may occur *)
    (okI : Z -> Z -> list cell -> Prop)     (* container invariant of an Impl: size, capacity, cells *)
    (okS : Z -> list cell -> Prop)          (* container invariant of the in-place representation *)
    (V : Z -> list cell -> T) (dflt : T).   (* abstract value from size and cells *)

  Definition sso_ok (o : obj) : Prop := match o with Sso s c => okS s c | Dyn _ => True end.

  (* Exactly the Impls with at least one live handle are allocated, and each carries the right count. *)
  Definition wf (h : heap) (os : list obj) : Prop :=
    Forall sso_ok os /\
    forall p, match nth_error h p with
              | Some (Some im) => okI (isize im) (icap im) (mem im) /\ (base im = 1 \/ base im = 3 /\ ext) /\
                                  0 < refs p os /\ rc im = base im - 1 + refs p os
              | _ => refs p os = 0
              end.

  Definition value (h : heap) (o : obj) : T :=
    match o with
    | Sso s c => V s c
    | Dyn p => match nth_error h p with Some (Some im) => V (isize im) (mem im) | _ => dflt end
    end.
End Heap.
