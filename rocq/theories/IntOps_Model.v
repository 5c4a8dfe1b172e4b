(* Model of blend2d/support/intops_p.h (integer helpers).  A C++ integer type is a pair (w, sg):
   its width in bits and whether it is signed; values are the mathematical values. *)
From Verif Require Import Base.

(* Conversion to the unsigned / signed type of width w (two's complement). *)
Definition to_u (w x : Z) : Z := x mod 2 ^ w.
Definition to_s (w x : Z) : Z := let u := x mod 2 ^ w in if u <? 2 ^ (w - 1) then u else u - 2 ^ w.
(* Conversion to the type (w, sg). *)
Definition to_t (w : Z) (sg : bool) (x : Z) : Z := if sg then to_s w x else to_u w x.

(* intops_p.h 152-156: negate. *)
Definition negate (w : Z) (sg : bool) (x : Z) : Z := to_t w sg (to_u w (0 - to_u w x)).
(* intops_p.h 292: bool_as_mask. *)
Definition bool_as_mask (w : Z) (sg : bool) (b : bool) : Z := negate w sg (if b then 1 else 0).

(* intops_p.h 649-655: add_overflow_fallback; [of] is the previous content of the flag. *)
Definition add_overflow (w : Z) (sg : bool) (x y : Z) (of : bool) : Z * bool :=
  let ux := to_u w x in let uy := to_u w y in
  let result := to_u w (ux + uy) in
  let o := if sg then to_s w (Z.land (Z.lxor ux (Z.lnot uy)) (Z.lxor ux result)) <? 0 else result <? ux in
  (to_t w sg result, of || o).

(* intops_p.h 658-664: sub_overflow_fallback. *)
Definition sub_overflow (w : Z) (sg : bool) (x y : Z) (of : bool) : Z * bool :=
  let ux := to_u w x in let uy := to_u w y in
  let result := to_u w (ux - uy) in
  let o := if sg then to_s w (Z.land (Z.lxor ux uy) (Z.lxor ux result)) <? 0 else result >? ux in
  (to_t w sg result, of || o).

(* C++ integer promotion: a product of two unsigned operands of width [w] is computed in `int` when
   w < 32 (undefined above INT_MAX) and modulo 2^w otherwise. *)
Definition umul_promoted (w a b : Z) : outcome Z :=
  if w <? 32 then (if a * b <=? 2147483647 then Ok (to_u w (a * b)) else UB) else Ok (to_u w (a * b)).

(* intops_p.h 666-682: mul_overflow_fallback, primary template (8, 16 and 32 bit operands; double width I/U). *)
Definition mul_overflow_narrow (w : Z) (sg : bool) (x y : Z) (of : bool) : outcome (Z * bool) :=
  let w2 := 2 * w in
  let mask := 2 ^ w - 1 in
  if sg then
    let* prod := umul_promoted w2 (to_u w2 x) (to_u w2 y) in
    let i := to_s w2 prod in
    Ok (to_t w sg (Z.land prod mask), of || ((i <? - 2 ^ (w - 1)) || (i >? 2 ^ (w - 1) - 1)))
  else
    let* prod := umul_promoted w2 (to_u w2 x) (to_u w2 y) in
    Ok (to_t w sg (Z.land prod mask), of || negb (Z.land prod (to_u w2 (Z.lnot mask)) =? 0)).

(* C++ signed division: undefined for divisor zero and for MIN / -1; truncates. *)
Definition sdiv (w x y : Z) : outcome Z :=
  if y =? 0 then UB else if (x =? - 2 ^ (w - 1)) && (y =? -1) then UB else Ok (Z.quot x y).

(* intops_p.h 684-689: int64_t specialization. *)
Definition mul_overflow_i64 (x y : Z) (of : bool) : outcome (Z * bool) :=
  let result := to_s 64 (to_u 64 x * to_u 64 y) in
  let* o := (if x =? 0 then Ok false else let* q := sdiv 64 result x in Ok (negb (q =? y))) in
  Ok (result, of || o).

(* intops_p.h 691-696: uint64_t specialization. *)
Definition mul_overflow_u64 (x y : Z) (of : bool) : outcome (Z * bool) :=
  let result := to_u 64 (x * y) in
  Ok (result, of || (negb (y =? 0) && ((2 ^ 64 - 1) / y <? x))).

(* intops_p.h 701, 757-758: dispatch on the type (portable build, no intrinsics). *)
Definition mul_overflow (w : Z) (sg : bool) (x y : Z) (of : bool) : outcome (Z * bool) :=
  if w =? 64 then (if sg then mul_overflow_i64 x y of else mul_overflow_u64 x y of)
  else mul_overflow_narrow w sg x y of.

(* intops_p.h 760-782: saturating unsigned arithmetic. *)
Definition uadd_saturate (w x y : Z) : Z :=
  let '(r, of) := add_overflow w false x y false in Z.lor r (bool_as_mask w false of).
Definition usub_saturate (w x y : Z) : Z :=
  let '(r, of) := sub_overflow w false x y false in Z.land r (bool_as_mask w false (negb of)).
Definition umul_saturate (w x y : Z) : outcome Z :=
  let* p := mul_overflow w false x y false in Ok (Z.lor (fst p) (bool_as_mask w false (snd p))).

(* intops_p.h 598-603: is_aligned. *)
Definition is_aligned (w x a : Z) : bool := to_u w x mod to_u w a =? 0.
(* intops_p.h 606-612: is_power_of_2. *)
Definition is_power_of_2 (w x : Z) : bool :=
  let x1 := to_u w (to_u w x - 1) in to_u w (Z.lxor (to_u w x) x1) >? x1.
(* intops_p.h 614-619: align_up (unsigned X; 32 and 64 bit types, no promotion). *)
Definition align_up (w x a : Z) : Z :=
  Z.land (to_u w (to_u w x + to_u w (to_u w a - 1))) (to_u w (Z.lnot (to_u w (to_u w a - 1)))).
(* intops_p.h 622-627: align_up_diff. *)
Definition align_up_diff (w x a : Z) : Z :=
  Z.land (to_u w (0 - to_u w x)) (to_u w (a - 1)).
(* intops_p.h 636-641: align_down. *)
Definition align_down (w x a : Z) : Z :=
  Z.land (to_u w x) (to_u w (Z.lnot (to_u w (to_u w a - 1)))).

(* intops_p.h 245-249: shr_or. *)
Definition shr_or (x y : Z) : Z := Z.lor x (Z.shiftr x y).
(* intops_p.h 256-259: fill_trailing_bits for a type of 2^k bits: shifts 1, 2, 4, ..., 2^(k-1). *)
Fixpoint fill_trailing_bits (k : nat) (x : Z) : Z :=
  match k with O => x | S k' => shr_or (fill_trailing_bits k' x) (2 ^ Z.of_nat k') end.
(* intops_p.h 629-634: align_up_power_of_2, type of 2^k bits. *)
Definition align_up_power_of_2 (k : nat) (x : Z) : Z :=
  let w := 2 ^ Z.of_nat k in to_u w (fill_trailing_bits k (to_u w (to_u w x - 1)) + 1).

(* intops_p.h 307-312: is_bit_mask_consecutive; [cw] is the width the expression is computed in
   (w itself for 32/64-bit types, 32 for narrower types because of integer promotion). *)
Definition is_bit_mask_consecutive (cw x : Z) : bool :=
  negb (x =? 0) && (to_u cw (Z.lxor x (to_u cw (x + Z.land x (to_u cw (to_u cw (Z.lnot x) + 1))))) >=? x).

(* intops_p.h 338-384: BitScanImpl<T, N> for a T of w bits; the template recursion N, N/2, ..., 1, 0 is the
   recursion on k with N = 2^(k-1).  A shift by n < w never is undefined. *)
Fixpoint bitscan_clz (w : Z) (k : nat) (x n : Z) : Z :=
  match k with
  | O => to_u 32 (n - Z.shiftr x (w - 1))
  | S k' =>
    let N := 2 ^ Z.of_nat k' in
    let adv := if Z.land x (to_u w (Z.shiftl (2 ^ w - 1) (w - N))) =? 0 then N else 0 in
    bitscan_clz w k' (to_u w (Z.shiftl x adv)) (to_u 32 (n + adv))
  end.
Fixpoint bitscan_ctz (w : Z) (k : nat) (x n : Z) : Z :=
  match k with
  | O => to_u 32 (n - Z.land x 1)
  | S k' =>
    let N := 2 ^ Z.of_nat k' in
    let adv := if Z.land x (Z.shiftr (2 ^ w - 1) (w - N)) =? 0 then N else 0 in
    bitscan_ctz w k' (Z.shiftr x adv) (to_u 32 (n + adv))
  end.
Definition clz_fallback (k : nat) (x : Z) : Z := bitscan_clz (2 ^ Z.of_nat k) k x 1.
Definition ctz_fallback (k : nat) (x : Z) : Z := bitscan_ctz (2 ^ Z.of_nat k) k x 1.

(* intops_p.h 441-460: pop_count_static for a type of n bytes. *)
Definition pc_mask (n : nat) (m : Z) : Z := Z.land m (2 ^ (8 * Z.of_nat n) - 1).
Definition pop_count_static (n : nat) (x : Z) : Z :=
  let w := 8 * Z.of_nat n in
  let m1 := pc_mask n 0x5555555555555555 in
  let m2 := pc_mask n 0x3333333333333333 in
  let m4 := pc_mask n 0x0F0F0F0F0F0F0F0F in
  let mX := pc_mask n 0x0101010101010101 in
  let u := to_u w x in
  let u := to_u w (u - Z.land (Z.shiftr u 1) m1) in
  let u := to_u w (Z.land (Z.shiftr u 2) m2 + Z.land u m2) in
  let u := Z.land (to_u w (Z.shiftr u 4 + u)) m4 in
  if 1 <? Z.of_nat n then to_u 32 (Z.shiftr (to_u w (u * mX)) (w - 8))
  else to_u 32 (Z.land u 255).

(* intops_p.h 160-164: csa (carry-save adder); returns (hi, lo). *)
Definition csa (a b c : Z) : Z * Z :=
  let u := Z.lxor a b in (Z.lor (Z.land a b) (Z.land u c), Z.lxor u c).

(* intops_p.h 496-524: PopCounterSimple; [n] is the size of T in bytes. *)
Fixpoint pcs_add_array (n : nat) (counter : Z) (data : list Z) : Z :=
  match data with [] => counter | x :: t => pcs_add_array n (to_u 32 (counter + pop_count_static n x)) t end.

(* intops_p.h 529-583: PopCounterHarleySeal. *)
Record hs_state := HS { hs_counter : Z; hs_ones : Z; hs_twos : Z; hs_fours : Z }.
Definition hs_reset : hs_state := HS 0 0 0 0.
Definition hs_get (n : nat) (s : hs_state) : Z :=
  to_u 32 (hs_counter s + 4 * pop_count_static n (hs_fours s) + 2 * pop_count_static n (hs_twos s)
           + pop_count_static n (hs_ones s)).
Definition hs_add_population (s : hs_state) (v : Z) : hs_state :=
  HS (to_u 32 (hs_counter s + v)) (hs_ones s) (hs_twos s) (hs_fours s).
Definition hs_add_item (n : nat) (s : hs_state) (x : Z) : hs_state :=
  HS (to_u 32 (hs_counter s + pop_count_static n x)) (hs_ones s) (hs_twos s) (hs_fours s).
(* the block loop (558-574) followed by the tail loop (576-581) *)
Fixpoint hs_add_array_loop (n : nat) (s : hs_state) (eights_count : Z) (data : list Z) : hs_state :=
  match data with
  | d0 :: d1 :: d2 :: d3 :: d4 :: d5 :: d6 :: d7 :: rest =>
    let '(twosA, ones) := csa (hs_ones s) d0 d1 in
    let '(twosB, ones) := csa ones d2 d3 in
    let '(foursA, twos) := csa (hs_twos s) twosA twosB in
    let '(twosA, ones) := csa ones d4 d5 in
    let '(twosB, ones) := csa ones d6 d7 in
    let '(foursB, twos) := csa twos twosA twosB in
    let '(eights, fours) := csa (hs_fours s) foursA foursB in
    hs_add_array_loop n (HS (hs_counter s) ones twos fours)
      (to_u 32 (eights_count + pop_count_static n eights)) rest
  | _ =>
    HS (pcs_add_array n (to_u 32 (hs_counter s + to_u 32 (8 * eights_count))) data)
       (hs_ones s) (hs_twos s) (hs_fours s)
  end.
Definition hs_add_array (n : nat) (s : hs_state) (data : list Z) : hs_state := hs_add_array_loop n s 0 data.

(* intops_p.h 789-809: clamp_to_impl with y = 2^d - 1 (d = 8: clamp_to_byte, d = 16: clamp_to_word);
   the source type is (w, sg). *)
Definition clamp_to_impl (w : Z) (sg : bool) (d x : Z) : Z :=
  let y := 2 ^ d - 1 in
  if to_u w x <=? to_u w y then to_u d x
  else if sg then to_u d (Z.land (to_s w y) (to_s w (Z.shiftr (to_s w (negate w sg x)) (w - 1)))) else to_u d y.

(* intops_p.h 817-822: pmod; signed overflow of the final additions is undefined (w >= 32). *)
Definition in_s (w x : Z) : bool := (- 2 ^ (w - 1) <=? x) && (x <=? 2 ^ (w - 1) - 1).
Definition pmod (w : Z) (sg : bool) (x y : Z) : outcome Z :=
  if y =? 0 then UB else
  if sg then
    if (x =? - 2 ^ (w - 1)) && (y =? -1) then UB else
    let result := Z.rem x y in
    let t := y + Z.shiftr result (w - 1) in
    if in_s w t && in_s w (result + t) then Ok (result + t) else UB
  else Ok (x mod y).

(* intops_p.h 209-240: rol / ror of an unsigned X of w bits: evaluated in cw = max(w, 32) bits (asUInt32AtLeast). *)
Definition rol_impl (cw x n : Z) : Z :=
  Z.lor (to_u cw (Z.shiftl x (n mod cw))) (Z.shiftr x (to_u 32 (0 - n) mod cw)).
Definition ror_impl (cw x n : Z) : Z :=
  Z.lor (Z.shiftr x (n mod cw)) (to_u cw (Z.shiftl x (to_u 32 (0 - n) mod cw))).
Definition rol (w x n : Z) : Z := to_u w (rol_impl (Z.max w 32) x n).
Definition ror (w x n : Z) : Z := to_u w (ror_impl (Z.max w 32) x n).

