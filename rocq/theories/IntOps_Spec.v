(* Independent specification of the integer helpers. *)
From Verif Require Import Base.

(* Range of the integer type (w, signed). *)
Definition int_min (w : Z) (sg : bool) : Z := if sg then - 2 ^ (w - 1) else 0.
Definition int_max (w : Z) (sg : bool) : Z := if sg then 2 ^ (w - 1) - 1 else 2 ^ w - 1.
Definition in_range (w : Z) (sg : bool) (x : Z) : Prop := int_min w sg <= x <= int_max w sg.

(* A checked operation with exact mathematical result [e], previous flag [of]: the flag is raised iff it was
   raised before or [e] is not representable; the result is exact when representable, and always
   congruent to [e] modulo 2^w and of the type. *)
Definition checked_ok (w : Z) (sg : bool) (e : Z) (of : bool) (res : Z * bool) : Prop :=
  (snd res = true <-> (of = true \/ ~ in_range w sg e)) /\
  (in_range w sg e -> fst res = e) /\
  in_range w sg (fst res) /\ (2 ^ w | fst res - e).

(* Number of one bits among the low n bits. *)
Fixpoint bit_count (n : nat) (x : Z) : Z :=
  match n with O => 0 | S n' => bit_count n' x + (if Z.testbit x (Z.of_nat n') then 1 else 0) end.

Definition sum_bits (n : nat) (l : list Z) : Z := fold_right (fun x acc => bit_count n x + acc) 0 l.

(* x has exactly the bits lo .. hi-1 set. *)
Definition bits_exactly (lo hi x : Z) : Prop := x = 2 ^ hi - 2 ^ lo /\ 0 <= lo < hi.

(* r is x rotated left by n in w bits. *)
Definition rotated_left (w x n r : Z) : Prop :=
  0 <= r < 2 ^ w /\ forall i, 0 <= i < w -> Z.testbit r ((i + n) mod w) = Z.testbit x i.

(* m is the least multiple of a that is >= x. *)
Definition least_multiple_ge (a x m : Z) : Prop :=
  (a | m) /\ x <= m /\ forall m', (a | m') -> x <= m' -> m <= m'.
(* m is the greatest multiple of a that is <= x. *)
Definition greatest_multiple_le (a x m : Z) : Prop :=
  (a | m) /\ m <= x /\ forall m', (a | m') -> m' <= x -> m' <= m.
(* m is the least power of two that is >= x. *)
Definition least_pow2_ge (x m : Z) : Prop :=
  (exists k, 0 <= k /\ m = 2 ^ k) /\ x <= m /\ forall k, 0 <= k -> x <= 2 ^ k -> m <= 2 ^ k.

(* Standard integer widths. *)
Definition std_width (w : Z) : Prop := w = 8 \/ w = 16 \/ w = 32 \/ w = 64.

(* A list of words of n bytes. *)
Definition words (n : nat) (l : list Z) : Prop := Forall (fun x => 0 <= x < 2 ^ (8 * Z.of_nat n)) l.

(* Operations of a population counter over words of n bytes, their preconditions and the bits each one adds. *)
Inductive hs_op := OpItem (x : Z) | OpArray (l : list Z) | OpPop (v : Z).
Definition hs_op_ok n op := match op with OpItem x => 0 <= x < 2 ^ (8 * Z.of_nat n) | OpArray l => words n l | OpPop v => 0 <= v end.
Definition hs_op_bits n op := match op with OpItem x => bit_count (8 * n) x | OpArray l => sum_bits (8 * n) l | OpPop v => v end.
