(* Property theorems for the integer helpers: C03, C04, C05, C29. *)
From Verif Require Import Base IntOps_Model IntOps_Spec IntOps_Proofs IntOps_Proofs2 IntOps_Proofs3 IntOps_Proofs4.

(* ---------- C03: checked and saturating arithmetic ---------- *)

Theorem C03_add_overflow_exact : forall w sg x y of, 0 < w -> in_range w sg x -> in_range w sg y ->
  checked_ok w sg (x + y) of (add_overflow w sg x y of).
Proof. exact add_overflow_ok. Qed.
Print Assumptions C03_add_overflow_exact.

Theorem C03_sub_overflow_exact : forall w sg x y of, 0 < w -> in_range w sg x -> in_range w sg y ->
  checked_ok w sg (x - y) of (sub_overflow w sg x y of).
Proof. exact sub_overflow_ok. Qed.
Print Assumptions C03_sub_overflow_exact.

(* The full claim for multiplication (every width, every pair of operands) is false: *)
Theorem C03_mul_overflow_int64_refuted : exists x y, in_range 64 true x /\ in_range 64 true y /\
  mul_overflow 64 true x y false = UB.
Proof. exists (-1), (- 2 ^ 63). unfold in_range, int_min, int_max. vm_compute. intuition congruence. Qed.
Print Assumptions C03_mul_overflow_int64_refuted.

Theorem C03_mul_overflow_int8_refuted : exists x y, in_range 8 true x /\ in_range 8 true y /\ in_range 8 true (x * y) /\
  mul_overflow 8 true x y false = UB.
Proof. exists (-1), (-1). unfold in_range, int_min, int_max. vm_compute. intuition congruence. Qed.
Print Assumptions C03_mul_overflow_int8_refuted.

(* Everything else is exact: the only undefined cases are (-1) * INT64_MIN in the portable int64_t version and
   products of two negative int8_t operands. *)
Theorem C03_mul_overflow_exact_partial : forall w sg x y of, std_width w -> in_range w sg x -> in_range w sg y ->
  ~ (w = 8 /\ sg = true /\ x < 0 /\ y < 0) -> ~ (w = 64 /\ sg = true /\ x = -1 /\ y = - 2 ^ 63) ->
  exists res, mul_overflow w sg x y of = Ok res /\ checked_ok w sg (x * y) of res.
Proof. exact mul_overflow_ok. Qed.
Print Assumptions C03_mul_overflow_exact_partial.

Theorem C03_uadd_saturate : forall w x y, 0 < w -> in_range w false x -> in_range w false y ->
  uadd_saturate w x y = Z.min (x + y) (2 ^ w - 1).
Proof. exact uadd_saturate_ok. Qed.
Print Assumptions C03_uadd_saturate.

Theorem C03_usub_saturate : forall w x y, 0 < w -> in_range w false x -> in_range w false y ->
  usub_saturate w x y = Z.max (x - y) 0.
Proof. exact usub_saturate_ok. Qed.
Print Assumptions C03_usub_saturate.

Theorem C03_umul_saturate : forall w x y, std_width w -> in_range w false x -> in_range w false y ->
  umul_saturate w x y = Ok (Z.min (x * y) (2 ^ w - 1)).
Proof. exact umul_saturate_ok. Qed.
Print Assumptions C03_umul_saturate.

Example C03_ex1 : add_overflow 32 true 2147483647 1 false = (-2147483648, true).
Proof. reflexivity. Qed.
Example C03_ex2 : mul_overflow 64 true (-3) 3074457345618258603 false = Ok (9223372036854775807, true).
Proof. vm_compute. reflexivity. Qed.
Example C03_ex3 : mul_overflow 64 true (-3) 3074457345618258602 false = Ok (-9223372036854775806, false).
Proof. vm_compute. reflexivity. Qed.
Example C03_ex4 : umul_saturate 16 300 300 = Ok 65535.
Proof. reflexivity. Qed.

(* ---------- C04: alignment ---------- *)

Theorem C04_align_up : forall w x k, 0 <= k < w -> 0 <= x < 2 ^ w ->
  exists m, least_multiple_ge (2 ^ k) x m /\ align_up w x (2 ^ k) = m mod 2 ^ w.
Proof. exact align_up_ok. Qed.
Print Assumptions C04_align_up.

Theorem C04_align_down : forall w x k, 0 <= k < w -> 0 <= x < 2 ^ w ->
  greatest_multiple_le (2 ^ k) x (align_down w x (2 ^ k)).
Proof. exact align_down_ok. Qed.
Print Assumptions C04_align_down.

Theorem C04_align_up_diff : forall w x k, 0 <= k < w -> 0 <= x < 2 ^ w ->
  exists m, least_multiple_ge (2 ^ k) x m /\ align_up_diff w x (2 ^ k) = m - x.
Proof. exact align_up_diff_ok. Qed.
Print Assumptions C04_align_up_diff.

Theorem C04_is_aligned : forall w x a, 0 <= x < 2 ^ w -> 0 < a < 2 ^ w -> is_aligned w x a = true <-> (a | x).
Proof. exact is_aligned_ok. Qed.
Print Assumptions C04_is_aligned.

Theorem C04_is_power_of_2 : forall w x, 0 < w -> 0 <= x < 2 ^ w ->
  is_power_of_2 w x = true <-> exists k, 0 <= k < w /\ x = 2 ^ k.
Proof. exact is_power_of_2_ok. Qed.
Print Assumptions C04_is_power_of_2.

Theorem C04_align_up_power_of_2 : forall k x, (k <> 0)%nat -> let w := 2 ^ Z.of_nat k in
  0 < x <= 2 ^ (w - 1) -> least_pow2_ge x (align_up_power_of_2 k x).
Proof. intros k x Hk w Hx. exact (align_up_power_of_2_ok k x Hx Hk). Qed.
Print Assumptions C04_align_up_power_of_2.

Theorem C04_align_up_power_of_2_unrepresentable : forall k x, (k <> 0)%nat -> let w := 2 ^ Z.of_nat k in
  (x = 0 \/ 2 ^ (w - 1) < x < 2 ^ w) -> align_up_power_of_2 k x = 0.
Proof. intros k x Hk w Hx. exact (align_up_power_of_2_edge k x Hk Hx). Qed.
Print Assumptions C04_align_up_power_of_2_unrepresentable.

Theorem C04_is_bit_mask_consecutive : forall w cw x, 0 < w <= cw -> 0 <= x < 2 ^ w ->
  is_bit_mask_consecutive cw x = true <-> exists lo hi, bits_exactly lo hi x /\ hi <= w.
Proof. exact is_bit_mask_consecutive_ok. Qed.
Print Assumptions C04_is_bit_mask_consecutive.

Example C04_ex1 : align_up 32 17 16 = 32. Proof. reflexivity. Qed.
Example C04_ex2 : align_up 32 4294967295 16 = 0. Proof. reflexivity. Qed.
Example C04_ex3 : is_bit_mask_consecutive 32 0x0FF0 = true /\ is_bit_mask_consecutive 32 0x0F0F = false /\
  is_bit_mask_consecutive 32 0xF0000000 = true.
Proof. vm_compute. auto. Qed.
Example C04_ex4 : align_up_power_of_2 5 1000 = 1024. Proof. reflexivity. Qed.

(* ---------- C05: population count and bit scans ---------- *)

Theorem C05_pop_count : forall n x, (n = 1 \/ n = 2 \/ n = 4 \/ n = 8)%nat -> 0 <= x < 2 ^ (8 * Z.of_nat n) ->
  pop_count_static n x = bit_count (8 * n) x.
Proof. exact pop_count_static_ok. Qed.
Print Assumptions C05_pop_count.

Theorem C05_clz : forall k x, (k = 5 \/ k = 6)%nat -> let w := 2 ^ Z.of_nat k in 0 < x < 2 ^ w ->
  let r := clz_fallback k x in 0 <= r < w /\ 2 ^ (w - 1 - r) <= x < 2 ^ (w - r).
Proof. exact clz_fallback_ok. Qed.
Print Assumptions C05_clz.

Theorem C05_ctz : forall k x, (k = 5 \/ k = 6)%nat -> let w := 2 ^ Z.of_nat k in 0 < x < 2 ^ w ->
  let r := ctz_fallback k x in 0 <= r < w /\ (2 ^ r | x) /\ ~ (2 ^ (r + 1) | x).
Proof. exact ctz_fallback_ok. Qed.
Print Assumptions C05_ctz.

(* The counter's result after any sequence of add_item / add_array / add_population calls is the total number of
   one bits, as a 32-bit number. *)
Theorem C05_harley_seal_history : forall n ops, (n = 1 \/ n = 2 \/ n = 4 \/ n = 8)%nat -> Forall (hs_op_ok n) ops ->
  hs_get n (fold_left (hs_apply n) ops hs_reset) =
  fold_right (fun op acc => hs_op_bits n op + acc) 0 ops mod 2 ^ 32.
Proof.
  intros n ops Hn Ho.
  assert (Hp : 0 < 2 ^ (8 * Z.of_nat n)) by (apply pow2_pos; lia).
  assert (H0 : hs_ok n hs_reset) by (unfold hs_ok; cbn [hs_reset hs_ones hs_twos hs_fours]; lia).
  destruct (hs_history_ok n Hn ops hs_reset H0 Ho) as [H1 H2].
  rewrite hs_get_ok by assumption. rewrite H2. unfold to_u. f_equal. unfold hs_total; cbn [hs_reset hs_counter hs_ones hs_twos hs_fours].
  assert (E : forall m, bit_count m 0 = 0) by (induction m; cbn [bit_count]; rewrite ?Z.bits_0; lia). rewrite E. lia.
Qed.
Print Assumptions C05_harley_seal_history.

Theorem C05_simple_counter : forall n l c, (n = 1 \/ n = 2 \/ n = 4 \/ n = 8)%nat -> words n l -> 
  (pcs_add_array n c l) mod 2 ^ 32 = (c + sum_bits (8 * n) l) mod 2 ^ 32.
Proof. intros n l c Hn Hl. exact (pcs_add_array_ok n Hn l c Hl). Qed.
Print Assumptions C05_simple_counter.

Example C05_ex1 : clz_fallback 5 1 = 31 /\ ctz_fallback 6 0x8000000000000000 = 63 /\ pop_count_static 4 0xFFFFFFFF = 32.
Proof. vm_compute. auto. Qed.
Example C05_ex2 : hs_get 4 (fold_left (hs_apply 4) [OpArray (repeat 0xFFFFFFFF 19); OpItem 5; OpArray (repeat 1 9)] hs_reset) = 619.
Proof. vm_compute. reflexivity. Qed.

(* ---------- C29: clamp, positive modulo, rotation ---------- *)

Theorem C29_clamp_refuted : exists x, in_range 32 true x /\ clamp_to_impl 32 true 8 x <> Z.min (Z.max x 0) 255.
Proof. exists (- 2 ^ 31). split; [unfold in_range, int_min, int_max; lia|]. vm_compute. congruence. Qed.
Print Assumptions C29_clamp_refuted.

Theorem C29_clamp_signed_partial : forall w d x, 0 < d < w -> in_range w true x -> x <> - 2 ^ (w - 1) ->
  clamp_to_impl w true d x = Z.min (Z.max x 0) (2 ^ d - 1).
Proof. exact clamp_signed_ok. Qed.
Print Assumptions C29_clamp_signed_partial.

Theorem C29_clamp_unsigned : forall w d x, 0 < d <= w -> in_range w false x ->
  clamp_to_impl w false d x = Z.min (Z.max x 0) (2 ^ d - 1).
Proof. exact clamp_unsigned_ok. Qed.
Print Assumptions C29_clamp_unsigned.

(* -4 pmod 3 is documented to be 2 (intops_p.h 816); the code returns 1. *)
Theorem C29_pmod_refuted : pmod 32 true (-4) 3 = Ok 1 /\ pmod 32 true 4 3 = Ok 4.
Proof. vm_compute. auto. Qed.
Print Assumptions C29_pmod_refuted.

Theorem C29_pmod_unsigned_partial : forall w x y, in_range w false x -> in_range w false y -> y <> 0 ->
  exists r, pmod w false x y = Ok r /\ 0 <= r < y /\ (y | x - r).
Proof. exact pmod_unsigned_ok. Qed.
Print Assumptions C29_pmod_unsigned_partial.

Theorem C29_rol_refuted : exists x n, 0 <= x < 2 ^ 8 /\ 0 <= n < 2 ^ 32 /\ ~ rotated_left 8 x n (rol 8 x n).
Proof.
  exists 128, 1. repeat split; try lia. intros [_ H]. specialize (H 7 ltac:(lia)). vm_compute in H. discriminate.
Qed.
Print Assumptions C29_rol_refuted.

Theorem C29_rol_partial : forall w x n, (w = 32 \/ w = 64) -> 0 <= x < 2 ^ w -> 0 <= n < 2 ^ 32 ->
  rotated_left w x n (rol w x n).
Proof. exact rol_ok. Qed.
Print Assumptions C29_rol_partial.

Theorem C29_ror_partial : forall w x n, (w = 32 \/ w = 64) -> 0 <= x < 2 ^ w -> 0 <= n < 2 ^ 32 ->
  rotated_left w x (- n) (ror w x n).
Proof. exact ror_ok. Qed.
Print Assumptions C29_ror_partial.

Example C29_ex : rol 32 0x80000001 4 = 0x18 /\ clamp_to_impl 32 true 8 (-5) = 0 /\ clamp_to_impl 32 true 8 300 = 255.
Proof. vm_compute. auto. Qed.
