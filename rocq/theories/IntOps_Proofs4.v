(* Proofs for clamp, positive modulo and rotations. *)
From Verif Require Import Base Bits IntOps_Model IntOps_Spec IntOps_Proofs IntOps_Proofs2.

Definition clamp_spec (d x : Z) : Z := Z.min (Z.max x 0) (2 ^ d - 1).

Lemma clamp_unsigned_ok w d x : 0 < d <= w -> in_range w false x -> clamp_to_impl w false d x = clamp_spec d x.
Proof.
  intros Hd Hx. unfold in_range, int_min, int_max in Hx. unfold clamp_to_impl, clamp_spec.
  pose proof (pow2_le d w ltac:(lia)). pose proof (pow2_pos d ltac:(lia)).
  rewrite (to_u_small w x), (to_u_small w (2 ^ d - 1)) by lia. rewrite (to_u_small d (2 ^ d - 1)) by lia.
  destruct (Z.leb_spec x (2 ^ d - 1)); [rewrite to_u_small by lia; lia|lia].
Qed.

Lemma clamp_signed_ok w d x : 0 < d < w -> in_range w true x -> x <> - 2 ^ (w - 1) -> clamp_to_impl w true d x = clamp_spec d x.
Proof.
  intros Hd Hx Hmin. pose proof (to_u_of_range w true x ltac:(lia) Hx) as Ex.
  unfold in_range, int_min, int_max in Hx. unfold clamp_to_impl, clamp_spec.
  pose proof (pow2_le d (w - 1) ltac:(lia)). pose proof (pow2_pos d ltac:(lia)). pose proof (pow2_half w ltac:(lia)).
  rewrite Ex, (to_u_small w (2 ^ d - 1)) by lia.
  assert (Hneg : to_s w (negate w true x) = - x).
  { unfold negate, to_t. rewrite (to_s_small w (to_s w _)) by (try apply to_s_range; lia).
    rewrite to_s_to_u by lia. destruct (to_u_congr w x ltac:(lia)) as [k Ek]. rewrite Ek.
    rewrite (to_s_eq w _ (- x) (- k)) by lia. apply to_s_small; lia. }
  rewrite Hneg. rewrite (to_s_small w (2 ^ d - 1)) by lia.
  destruct (Z.ltb_spec x 0).
  - destruct (Z.leb_spec (x + 2 ^ w) (2 ^ d - 1)); [lia|].
    replace (Z.shiftr (- x) (w - 1)) with 0.
    + rewrite to_s_small by lia. rewrite Z.land_0_r. rewrite to_u_small by lia. lia.
    + rewrite Z.shiftr_div_pow2 by lia. symmetry. apply Z.div_small. lia.
  - destruct (Z.leb_spec x (2 ^ d - 1)); [rewrite to_u_small by lia; lia|].
    replace (Z.shiftr (- x) (w - 1)) with (-1).
    + rewrite to_s_small by lia. rewrite Z.land_m1_r. rewrite to_u_small by lia. lia.
    + rewrite Z.shiftr_div_pow2 by lia. apply Z.div_unique with (2 ^ (w - 1) - x); lia.
Qed.

Lemma pmod_unsigned_ok w x y : in_range w false x -> in_range w false y -> y <> 0 ->
  exists r, pmod w false x y = Ok r /\ 0 <= r < y /\ (y | x - r).
Proof.
  intros Hx Hy H0. unfold in_range, int_min in *. unfold pmod. rewrite (proj2 (Z.eqb_neq y 0) H0).
  exists (x mod y). split; [reflexivity|]. split; [apply Z.mod_pos_bound; lia|]. apply divide_sub_mod. lia.
Qed.

Lemma neg_mod32 cw n : cw = 32 \/ cw = 64 -> to_u 32 (0 - n) mod cw = (- n) mod cw.
Proof.
  intros Hc. unfold to_u. replace (0 - n) with (- n) by lia.
  destruct Hc as [->| ->]; [change 32 with (2 ^ 5) at 2 3|change 64 with (2 ^ 6)]; apply mod_mod_pow2; lia.
Qed.

Lemma rol_impl_bit w x n m j : (w = 32 \/ w = 64) -> 0 <= x < 2 ^ w -> m = n mod w -> 0 <= j < w ->
  Z.testbit (Z.lor (to_u w (Z.shiftl x m)) (Z.shiftr x ((- n) mod w))) j = Z.testbit x ((j - m) mod w).
Proof.
  intros Hw Hx Hm Hj. assert (0 <= m < w) by (subst m; apply Z.mod_pos_bound; lia).
  assert (E : (- n) mod w = (w - m) mod w).
  { subst m. replace (w - n mod w) with (- (n mod w) + 1 * w) by lia. rewrite Z.mod_add by lia.
    destruct Hw as [->| ->]; lia. }
  rewrite E. rewrite Z.lor_spec, Z.shiftr_spec by lia. unfold to_u. rewrite mod_pow2_testbit by lia.
  rewrite Z.shiftl_spec by lia. destruct (Z.ltb_spec j w); [|lia]. cbn [andb].
  destruct (Z.eq_dec m 0) as [->|Hm0].
  - replace ((w - 0) mod w) with 0 by (rewrite Z.sub_0_r, Z.mod_same; lia). rewrite Z.add_0_r, Z.sub_0_r, Z.mod_small by lia. apply orb_diag.
  - rewrite (Z.mod_small (w - m)) by lia. destruct (Z.lt_ge_cases j m).
    + rewrite Z.testbit_neg_r by lia. cbn [orb]. replace ((j - m) mod w) with (j + (w - m)); [reflexivity|].
      apply Z.mod_unique with (-1); [left|]; lia.
    + rewrite (testbit_small x w (j + (w - m))) by lia. rewrite orb_false_r. rewrite Z.mod_small by lia. reflexivity.
Qed.

Lemma rotate_back w i m : 0 < w -> 0 <= i < w -> (((i + m) mod w) - (m mod w)) mod w = i.
Proof.
  intros. rewrite Zminus_mod_idemp_l, Zminus_mod_idemp_r. replace (i + m - m) with i by lia. apply Z.mod_small. lia.
Qed.

Lemma rol_ok w x n : (w = 32 \/ w = 64) -> 0 <= x < 2 ^ w -> 0 <= n < 2 ^ 32 -> rotated_left w x n (rol w x n).
Proof.
  intros Hw Hx Hn. unfold rol, rol_impl. replace (Z.max w 32) with w by lia. split; [apply to_u_range; lia|].
  intros i Hi. rewrite neg_mod32 by assumption. pose proof (Z.mod_pos_bound (i + n) w ltac:(lia)).
  unfold to_u at 1. rewrite Z.mod_pow2_bits_low by lia.
  rewrite (rol_impl_bit w x n (n mod w)) by (auto; lia). rewrite rotate_back by lia. reflexivity.
Qed.

Lemma ror_ok w x n : (w = 32 \/ w = 64) -> 0 <= x < 2 ^ w -> 0 <= n < 2 ^ 32 -> rotated_left w x (- n) (ror w x n).
Proof.
  intros Hw Hx Hn. unfold ror, ror_impl. replace (Z.max w 32) with w by lia. split; [apply to_u_range; lia|].
  intros i Hi. rewrite neg_mod32 by assumption. pose proof (Z.mod_pos_bound (i + - n) w ltac:(lia)).
  unfold to_u at 1. rewrite Z.mod_pow2_bits_low by lia. rewrite Z.lor_comm.
  replace (n mod w) with ((- - n) mod w) by (f_equal; lia).
  rewrite (rol_impl_bit w x (- n) ((- n) mod w)) by (auto; lia). rewrite rotate_back by lia. reflexivity.
Qed.
