(* Model of blend2d/support/algorithm_p.h: binary searches, insertion sort, quick sort with an explicit stack.
   Arrays are lists, positions are Z; any access outside the array is UB. *)
From Verif Require Import Base.

Section Arrays.
  Context {A : Type}.

  (* store into an array cell; UB outside *)
  Fixpoint upd (l : list A) (n : nat) (x : A) : list A :=
    match l, n with
    | [], _ => []
    | _ :: t, O => x :: t
    | h :: t, S n' => h :: upd t n' x
    end.
  Definition wr (l : list A) (i : Z) (x : A) : outcome (list A) :=
    if (i <? 0) || (Z.of_nat (length l) <=? i) then UB else Ok (upd l (Z.to_nat i) x).

  (* BLInternal::swap(a[i], a[j]) *)
  Definition swap (l : list A) (i j : Z) : outcome (list A) :=
    let* x := rd l i in let* y := rd l j in let* l1 := wr l i y in wr l1 j x.

  (* ---- searches; [lt]/[le]/[eq] are the C++ operators applied as (element, key) ---- *)
  Context {K : Type}.

  (* algorithm_p.h 20-40: lower_bound with predicate; fuel bounds the loop *)
  Fixpoint lower_bound_loop (fuel : nat) (pred : A -> K -> bool) (data : list A) (index size : Z) (value : K) : outcome Z :=
    if size =? 0 then Ok index else
    match fuel with
    | O => NoFuel
    | S fuel' =>
      let half := size / 2 in
      let middle := index + half in
      let* x := rd data middle in
      let b := pred x value in
      let size := size - (half + (if b then 1 else 0)) in
      let middle := middle + 1 in
      if b then lower_bound_loop fuel' pred data middle size value
      else lower_bound_loop fuel' pred data index half value
    end.
  Definition lower_bound (pred : A -> K -> bool) (data : list A) (value : K) : outcome Z :=
    lower_bound_loop (length data) pred data 0 (Z.of_nat (length data)) value.

  (* algorithm_p.h 59-65, 79-85, 99-105: the shared halving loop; returns the final base *)
  Fixpoint bs_loop (fuel : nat) (goes : A -> K -> bool) (data : list A) (base size : Z) (value : K) : outcome Z :=
    let half := size / 2 in
    if half =? 0 then Ok base else
    match fuel with
    | O => NoFuel
    | S fuel' =>
      let middle := base + half in
      let size := size - half in
      let* x := rd data middle in
      bs_loop fuel' goes data (if goes x value then middle else base) size value
    end.

  Definition SIZE_MAX : Z := 2 ^ 64 - 1.

  (* algorithm_p.h 53-71 *)
  Definition binary_search (le eq : A -> K -> bool) (data : list A) (value : K) : outcome Z :=
    if Z.of_nat (length data) =? 0 then Ok SIZE_MAX else
    let* base := bs_loop (length data) le data 0 (Z.of_nat (length data)) value in
    let* x := rd data base in
    Ok (if eq x value then base else SIZE_MAX).

  (* algorithm_p.h 73-91 *)
  Definition binary_search_closest_first (lt : A -> K -> bool) (data : list A) (value : K) : outcome Z :=
    if Z.of_nat (length data) =? 0 then Ok 0 else
    let* base := bs_loop (length data) lt data 0 (Z.of_nat (length data)) value in
    let* x := rd data base in
    Ok (if lt x value then base + 1 else base).

  (* algorithm_p.h 93-108 *)
  Definition binary_search_closest_last (le : A -> K -> bool) (data : list A) (value : K) : outcome Z :=
    if Z.of_nat (length data) =? 0 then Ok 0 else
    bs_loop (length data) le data 0 (Z.of_nat (length data)) value.

  (* ---- sorting; cmp returns a negative, zero or positive int ---- *)
  Context (cmp : A -> A -> Z).

  (* algorithm_p.h 135-136: the inner loop, pl = base + k *)
  Fixpoint isort_inner (a : list A) (base : Z) (k : nat) : outcome (list A) :=
    match k with
    | O => Ok a                                             (* pl > base is false *)
    | S k' =>
      let pl := base + Z.of_nat k in
      let* x := rd a (pl - 1) in
      let* y := rd a pl in
      if cmp x y >? 0 then let* a' := swap a (pl - 1) pl in isort_inner a' base k' else Ok a
    end.
  (* algorithm_p.h 133-137: the outer loop, pm = base + k, n iterations left *)
  Fixpoint isort_outer (a : list A) (base : Z) (k n : nat) : outcome (list A) :=
    match n with
    | O => Ok a
    | S n' => let* a' := isort_inner a base k in isort_outer a' base (S k) n'
    end.
  Definition insertion_sort (a : list A) (base size : Z) : outcome (list A) :=
    isort_outer a base 1 (Z.to_nat (size - 1)).

  (* algorithm_p.h 168: while (pi < pj && cmp( *++pi, *base ) < 0) continue *)
  Fixpoint scan_right (fuel : nat) (a : list A) (base pi pj : Z) : outcome Z :=
    if negb (pi <? pj) then Ok pi else
    match fuel with
    | O => NoFuel
    | S f =>
      let pi := pi + 1 in
      let* x := rd a pi in let* p := rd a base in
      if cmp x p <? 0 then scan_right f a base pi pj else Ok pi
    end.
  (* algorithm_p.h 169: while (pj > base && cmp( *--pj, *base ) > 0) continue *)
  Fixpoint scan_left (fuel : nat) (a : list A) (base pj : Z) : outcome Z :=
    if negb (pj >? base) then Ok pj else
    match fuel with
    | O => NoFuel
    | S f =>
      let pj := pj - 1 in
      let* x := rd a pj in let* p := rd a base in
      if cmp x p >? 0 then scan_left f a base pj else Ok pj
    end.
  (* algorithm_p.h 167-173: partition loop *)
  Fixpoint partition_loop (fuel : nat) (a : list A) (base pi pj : Z) : outcome (list A * Z * Z) :=
    match fuel with
    | O => NoFuel
    | S f =>
      let* pi := scan_right (length a) a base pi pj in
      let* pj := scan_left (length a) a base pj in
      if pi >? pj then Ok (a, pi, pj)
      else let* a := swap a pi pj in partition_loop f a base pi pj
    end.

  (* one "if (cmp(a[i], a[j]) > 0) swap" *)
  Definition cswap (a : list A) (i j : Z) : outcome (list A) :=
    let* x := rd a i in let* y := rd a j in if cmp x y >? 0 then swap a i j else Ok a.

  (* algorithm_p.h 157-176: pivot selection, partition, pivot placement *)
  Definition partition (a : list A) (base end_ : Z) : outcome (list A * Z * Z) :=
    let pi := base + 1 in
    let pj := end_ - 1 in
    let* a := swap a (base + (end_ - base) / 2) base in
    let* a := cswap a pi pj in
    let* a := cswap a base pj in
    let* a := cswap a pi base in
    let* r := partition_loop (length a) a base pi pj in
    let '(a, pi, pj) := r in
    let* a := swap a base pj in
    Ok (a, pi, pj).

  Definition kStackSize : Z := 64 * 2.
  Definition kISortThreshold : Z := 7.

  (* pushing a (base, end) pair onto the fixed-size stack (181-182, 187-188); the stack is a list of pairs *)
  Definition push (stack : list (Z * Z)) (p : Z * Z) : outcome (list (Z * Z)) :=
    if 2 * Z.of_nat (length stack) + 2 <=? kStackSize then Ok (p :: stack) else UB.

  (* algorithm_p.h 150-201 *)
  Fixpoint qsort_loop (fuel : nat) (a : list A) (base end_ : Z) (stack : list (Z * Z)) : outcome (list A) :=
    match fuel with
    | O => NoFuel
    | S f =>
      if end_ - base >? kISortThreshold then
        let* r := partition a base end_ in
        let '(a, pi, pj) := r in
        if pj - base >? end_ - pi then
          let* stack := push stack (base, pj) in qsort_loop f a pi end_ stack
        else
          let* stack := push stack (pi, end_) in qsort_loop f a base pj stack
      else
        let* a := insertion_sort a base (end_ - base) in
        match stack with
        | [] => Ok a
        | (b, e) :: stack => qsort_loop f a b e stack
        end
    end.

  (* algorithm_p.h 206-210 *)
  Definition quick_sort (a : list A) : outcome (list A) :=
    let n := Z.of_nat (length a) in
    qsort_loop (2 * length a + 2) a 0 n [].
End Arrays.

(* algorithm_p.h 122-129: CompareOp for an integer type *)
Definition compare_op (ascending : bool) (a b : Z) : Z :=
  if ascending then (if a <? b then -1 else if a >? b then 1 else 0)
  else (if a <? b then 1 else if a >? b then -1 else 0).
