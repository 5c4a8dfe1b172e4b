(* Specification of gradient stops, independent of the model: the number a double stands for, well formed stop
   lists, and what the calls should do to them. *)
From Verif Require Import Base.
From Coq Require Export Permutation Sorted.

(* The number of a binary64 pattern in units of 2^-1074; None is NaN; the infinities are above all finite numbers. *)
Definition num (b : Z) : option Z :=
  let mag := b mod 2 ^ 63 in
  let e := mag / 2 ^ 52 in
  let m := mag mod 2 ^ 52 in
  if (e =? 2047) && negb (m =? 0) then None
  else let a := if e =? 0 then m else (m + 2 ^ 52) * 2 ^ (e - 1) in
       Some (if Z.testbit b 63 then - a else a).
Definition nval (b : Z) : Z := match num b with Some x => x | None => 0 end.
Definition one : Z := 2 ^ 1074.
(* offsets of stops are numbers between 0 and 1 *)
Definition in01 (b : Z) : Prop := num b <> None /\ 0 <= nval b <= one.

(* a stop is an offset and a color *)
Definition at_offset (x : Z) (l : list (Z * Z)) : list (Z * Z) := filter (fun s => nval (fst s) =? x) l.

(* offsets in 0..1, sorted, never more than two stops with the same offset *)
Definition wf (l : list (Z * Z)) : Prop :=
  Forall (fun s => in01 (fst s)) l /\
  StronglySorted (fun s t => nval (fst s) <= nval (fst t)) l /\
  forall x, (length (at_offset x l) <= 2)%nat.

(* add_stop: behind all stops that are not greater, or replacing the color of the second stop of a pair *)
Definition added (l : list (Z * Z)) (o c : Z) (r : list (Z * Z)) : Prop :=
  ((length (at_offset (nval o) l) < 2)%nat /\ exists lo hi, l = lo ++ hi /\ Forall (fun s => nval (fst s) <= nval o) lo /\
     Forall (fun s => nval o < nval (fst s)) hi /\ r = lo ++ (o, c) :: hi) \/
  (exists lo s1 s2 hi, l = lo ++ s1 :: s2 :: hi /\ nval (fst s1) = nval o /\ nval (fst s2) = nval o /\
     r = lo ++ s1 :: (fst s2, c) :: hi).

(* assign_stops: of the stops with the same offset the first and the last one are kept, in this order *)
Definition ends {A} (g : list A) : list A := match g with x :: y :: t => [x; last t y] | _ => g end.
Definition assigned (l r : list (Z * Z)) : Prop := wf r /\ forall x, at_offset x r = ends (at_offset x l).

(* the components of a 64-bit color reduced to 8 bits: alpha, red, green, blue *)
Definition alpha8 (c : Z) : Z := c / 2 ^ 56.
Definition color8 (c : Z) : Z * Z * Z * Z := (alpha8 c, c / 2 ^ 40 mod 256, c / 2 ^ 24 mod 256, c / 2 ^ 8 mod 256).
