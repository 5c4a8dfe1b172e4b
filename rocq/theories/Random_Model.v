(* Model of blend2d/core/random_p.h (portable next_double; the SSE2 variant performs the same operations in lane 0)
   and blend2d/core/random.cpp. *)
From Verif Require Import Base.
From Flocq Require IEEE754.Binary IEEE754.Bits.

(* BLRandom::data[2] (random.h 40-46) *)
Definition rstate : Type := Z * Z.
Definition rstate_ok (s : rstate) : Prop := 0 <= fst s < 2 ^ 64 /\ 0 <= snd s < 2 ^ 64.

(* random_p.h 36-49: one splitmix64 round, then both words *)
Definition kZeroSeed : Z := 0x1F0A2BE71D163FA0.
Definition splitmix (seed : Z) : Z :=
  let x := seed in
  let x := w64 (Z.lxor x (Z.shiftr x 30) * 0xBF58476D1CE4E5B9) in
  let x := w64 (Z.lxor x (Z.shiftr x 27) * 0x94D049BB133111EB) in
  let x := Z.lxor x (Z.shiftr x 31) in
  if negb (x =? 0) then x else kZeroSeed.
Definition reset_seed (seed : Z) : rstate :=
  let seed1 := w64 (seed + 0x9E3779B97F4A7C15) in
  let seed2 := w64 (seed1 + 0x9E3779B97F4A7C15) in
  (splitmix seed1, splitmix seed2).

(* random_p.h 22-24 *)
Definition kStep1Shift : Z := 23.
Definition kStep2Shift : Z := 18.
Definition kStep3Shift : Z := 5.
Definition kMantissaShift : Z := 64 - 52.

(* random_p.h 51-64: new state and returned value *)
Definition next_uint64 (s : rstate) : rstate * Z :=
  let x := fst s in
  let y := snd s in
  let x := Z.lxor x (w64 (Z.shiftl x kStep1Shift)) in
  let y := Z.lxor y (Z.shiftr y kStep3Shift) in
  let x := Z.lxor x (Z.shiftr x kStep2Shift) in
  let x := Z.lxor x y in
  ((y, x), w64 (x + y)).

(* random_p.h 66-68 *)
Definition next_uint32 (s : rstate) : rstate * Z :=
  let (s', v) := next_uint64 s in (s', w32 (Z.shiftr v 32)).

(* random_p.h 105-109; doubles are IEEE binary64 with round-to-nearest-even *)
Definition kExpMsk : Z := 0x3FF0000000000000.
Definition next_double (s : rstate) : rstate * Bits.binary64 :=
  let (s', v) := next_uint64 s in
  let u := Z.lor (Z.shiftr v kMantissaShift) kExpMsk in
  (s', Bits.b64_minus BinarySingleNaN.mode_NE (Bits.b64_of_bits u) (Bits.b64_of_bits kExpMsk)).

(* state after n draws *)
Definition advance (n : N) (s : rstate) : rstate := N.iter n (fun s => fst (next_uint64 s)) s.
