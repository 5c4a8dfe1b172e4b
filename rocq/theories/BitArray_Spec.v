(* BLBitArray as a list of booleans. *)
From Verif Require Import Base Object_Model Object_Spec.

(* ---- operations on lists of bits (independent of any representation) ---- *)
Definition len {A} (l : list A) : Z := Z.of_nat (length l).
Definition mapi {A B} (f : Z -> A -> B) (l : list A) : list B :=
  map (fun p => f (Z.of_nat (fst p)) (snd p)) (combine (seq 0 (length l)) l).
(* the bits of a sequence of 32-bit words, most significant bit first *)
Definition word_bits (w : Z) : list bool := map (fun k => Z.testbit w (31 - Z.of_nat k)) (seq 0 32).
Definition words_bits (wd : list Z) : list bool := flat_map word_bits wd.
Definition bit_at (l : list bool) (i : Z) : bool := if i <? 0 then false else nth (Z.to_nat i) l false.

Definition l_set (l : list bool) (i : Z) (v : bool) : list bool := mapi (fun j b => if j =? i then v else b) l.
Definition l_fill (l : list bool) (a b : Z) (v : bool) : list bool :=
  mapi (fun j x => if (a <=? j) && (j <? b) then v else x) l.
(* bits starting at [i] combined with the bits [ws] as far as both exist *)
Definition l_combine (f : bool -> bool -> bool) (l : list bool) (i : Z) (ws : list bool) : list bool :=
  mapi (fun j x => if (i <=? j) && (j <? i + len ws) then f x (bit_at ws (j - i)) else x) l.
Definition l_resize (l : list bool) (n : Z) : list bool :=
  firstn (Z.to_nat n) l ++ repeat false (Z.to_nat n - length l).
Definition count_true (l : list bool) : Z := len (filter (fun b => b) l).
Definition slice (l : list bool) (a b : Z) : list bool := firstn (Z.to_nat (b - a)) (skipn (Z.to_nat a) l).
(* index of the first / one past the last set bit *)
Fixpoint first_true (l : list bool) (i : Z) : option Z :=
  match l with [] => None | b :: t => if b then Some i else first_true t (i + 1) end.
Fixpoint last_true (l : list bool) (i : Z) : option Z :=
  match l with
  | [] => None
  | b :: t => match last_true t (i + 1) with Some k => Some k | None => if b then Some (i + 1) else None end
  end.
(* lexicographic comparison, a proper prefix is smaller *)
Fixpoint lex (a b : list bool) : Z :=
  match a, b with
  | [], [] => 0
  | [], _ :: _ => -1
  | _ :: _, [] => 1
  | x :: s, y :: t => if Bool.eqb x y then lex s t else if x then 1 else -1
  end.
(* b's bits are a subset of a's; a and b have a common bit *)
Definition l_subsumes (a b : list bool) : Prop := forall i, bit_at b i = true -> bit_at a i = true.
Definition l_intersects (a b : list bool) : Prop := exists i, bit_at a i = true /\ bit_at b i = true.

(* ---- the representation ---- *)
(* bit [i] of a block of 32-bit words *)
Definition cbit (c : list cell) (i : Z) : bool :=
  match nth_error c (Z.to_nat (i / 32)) with Some (Some w) => Z.testbit w (31 - i mod 32) | _ => false end.
Definition view (size : Z) (c : list cell) : list bool :=
  map (fun i => cbit c (Z.of_nat i)) (seq 0 (Z.to_nat size)).
(* the first [n] words are initialized 32-bit words *)
Definition words_ok (c : list cell) (n : Z) : Prop :=
  forall i, 0 <= i < n -> exists w, nth_error c (Z.to_nat i) = Some (Some w) /\ 0 <= w < 2 ^ 32.
(* bits between the size and the end of the last word are zero *)
Definition zero_tail (c : list cell) (size n : Z) : Prop := forall i, size <= i < 32 * n -> cbit c i = false.

Definition ba_okI (size cap : Z) (c : list cell) : Prop :=
  0 <= size <= cap /\ cap < 2 ^ 32 /\ cap <= 32 * len c /\
  words_ok c ((size + 31) / 32) /\ zero_tail c size ((size + 31) / 32).
Definition ba_okS (size : Z) (c : list cell) : Prop :=
  0 <= size <= 96 /\ length c = 3%nat /\ words_ok c 3 /\ zero_tail c size 3.

(* BLBitArray has no API to create an Impl over external data. *)
Definition ba_wf := wf (ext := False) ba_okI ba_okS.
Definition ba_value := value view [].
