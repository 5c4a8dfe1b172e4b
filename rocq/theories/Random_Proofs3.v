(* next_double: the double produced is exactly (v >> 12) / 2^52. *)
From Coq Require Import Reals Lra.
From Flocq Require Import Core IEEE754.Binary IEEE754.Bits.
From Verif Require Import Base Bits Random_Model Random_Proofs.
Open Scope Z_scope.

Lemma exp_mask_or m : 0 <= m < 2 ^ 52 -> Z.lor m kExpMsk = 1023 * 2 ^ 52 + m.
Proof.
  intros Hm. unfold kExpMsk. change 0x3FF0000000000000 with (1023 * 2 ^ 52). rewrite Z.lor_comm.
  rewrite lor_mul_add by lia. reflexivity.
Qed.

Lemma bits_1_m m : 0 <= m < 2 ^ 52 ->
  B2R 53 1024 (b64_of_bits (1023 * 2 ^ 52 + m)) = (1 + IZR m / IZR (2 ^ 52))%R /\
  is_finite 53 1024 (b64_of_bits (1023 * 2 ^ 52 + m)) = true.
Proof.
  intros Hm. unfold b64_of_bits, binary_float_of_bits.
  set (C := binary_float_of_bits_aux_correct 52 11 eq_refl eq_refl eq_refl (1023 * 2 ^ 52 + m)). clearbody C. revert C.
  assert (E : binary_float_of_bits_aux 52 11 (1023 * 2 ^ 52 + m) = F754_finite false (Z.to_pos (2 ^ 52 + m)) (-52)).
  { unfold binary_float_of_bits_aux, split_bits.
    replace (Zle_bool (2 ^ 52 * 2 ^ 11) (1023 * 2 ^ 52 + m)) with false by (symmetry; apply Z.leb_gt; lia).
    replace ((1023 * 2 ^ 52 + m) mod 2 ^ 52) with m by (rewrite Z.add_comm, Z.mod_add by lia; symmetry; apply Z.mod_small; lia).
    replace ((1023 * 2 ^ 52 + m) / 2 ^ 52) with 1023 by (rewrite Z.add_comm, Z.div_add by lia; rewrite Z.div_small by lia; lia).
    change (1023 mod 2 ^ 11) with 1023. cbn [Zeq_bool Z.compare Pos.compare Pos.compare_cont].
    replace (Zeq_bool 1023 0) with false by reflexivity. replace (Zeq_bool 1023 (2 ^ 11 - 1)) with false by reflexivity.
    destruct (m + 2 ^ 52) as [|p|p] eqn:Ep; [lia| |lia].
    replace (2 ^ 52 + m) with (Z.pos p) by lia. cbn [Z.to_pos]. f_equal. }
  rewrite E. intros C. cbn [FF2B B2R is_finite]. split; [|reflexivity].
  unfold F2R. cbn [Fnum Fexp cond_Zopp]. rewrite Z2Pos.id by lia.
  rewrite plus_IZR. change (bpow radix2 (-52)) with (/ IZR (2 ^ 52))%R.
  assert (IZR (2 ^ 52) <> 0%R) by (apply not_0_IZR; lia). field. assumption.
Qed.

Lemma minus_exact m : 0 <= m < 2 ^ 52 ->
  let d := b64_minus BinarySingleNaN.mode_NE (b64_of_bits (1023 * 2 ^ 52 + m)) (b64_of_bits kExpMsk) in
  B2R 53 1024 d = (IZR m / IZR (2 ^ 52))%R /\ is_finite 53 1024 d = true.
Proof.
  intros Hm d. destruct (bits_1_m m Hm) as [Rm Fm]. destruct (bits_1_m 0 ltac:(lia)) as [R1 F1].
  assert (E1 : b64_of_bits kExpMsk = b64_of_bits (1023 * 2 ^ 52 + 0)) by reflexivity.
  assert (Hnz : IZR (2 ^ 52) <> 0%R) by (apply not_0_IZR; lia).
  assert (Hpos : (0 < IZR (2 ^ 52))%R) by (apply IZR_lt; lia).
  subst d. rewrite E1. unfold b64_minus.
  match goal with |- context [Bminus 53 1024 ?h1 ?h2 _ _ _ _] =>
    pose proof (Bminus_correct 53 1024 h1 h2 binop_nan_pl64 BinarySingleNaN.mode_NE _ _ Fm F1) as H end.
  assert (Ed : (B2R 53 1024 (b64_of_bits (1023 * 2 ^ 52 + m)) - B2R 53 1024 (b64_of_bits (1023 * 2 ^ 52 + 0)) = IZR m / IZR (2 ^ 52))%R).
  { rewrite Rm, R1. lra. }
  rewrite Ed in H.
  assert (Er : round radix2 (FLT_exp (3 - 1024 - 53) 53) (BinarySingleNaN.round_mode BinarySingleNaN.mode_NE) (IZR m / IZR (2 ^ 52)) = (IZR m / IZR (2 ^ 52))%R).
  { apply round_generic; [apply BinarySingleNaN.valid_rnd_round_mode|].
    replace (IZR m / IZR (2 ^ 52))%R with (F2R (Float radix2 m (-52))).
    - apply generic_format_FLT. exists (Float radix2 m (-52)); cbn [Fnum Fexp]; [reflexivity| |lia].
      change (Zpower radix2 53) with (2 ^ 53). lia.
    - unfold F2R; cbn [Fnum Fexp]. change (bpow radix2 (-52)) with (/ IZR (2 ^ 52))%R. reflexivity. }
  change (SpecFloat.fexp 53 1024) with (FLT_exp (3 - 1024 - 53) 53) in H.
  rewrite Er in H.
  rewrite Rlt_bool_true in H; [destruct H as (H1 & H2 & _); split; assumption|].
  assert (0 <= IZR m)%R by (apply IZR_le; lia). assert (IZR m < IZR (2 ^ 52))%R by (apply IZR_lt; lia).
  rewrite Rabs_pos_eq; [|apply Rmult_le_pos; [lra|left; now apply Rinv_0_lt_compat]].
  apply Rlt_trans with 1%R.
  - apply Rmult_lt_reg_r with (IZR (2 ^ 52)); [assumption|]. unfold Rdiv. rewrite Rmult_assoc, Rinv_l by assumption. lra.
  - change 1%R with (bpow radix2 0). apply bpow_lt. lia.
Qed.

Lemma next_double_ok s :
  let d := snd (next_double s) in
  fst (next_double s) = fst (next_uint64 s) /\ is_finite 53 1024 d = true /\ B2R 53 1024 d = (IZR (snd (next_uint64 s) / 2 ^ 12) / IZR (2 ^ 52))%R /\ (0 <= B2R 53 1024 d < 1)%R.
Proof.
  intros d. subst d. unfold next_double. pose proof (next_value_ok s) as Hv. destruct (next_uint64 s) as [s' v]. cbn [fst snd] in *.
  unfold kMantissaShift. change (64 - 52) with 12. rewrite Z.shiftr_div_pow2 by lia.
  assert (Hm : 0 <= v / 2 ^ 12 < 2 ^ 52).
  { split; [apply Z.div_pos; lia|]. apply Z.div_lt_upper_bound; [lia|]. change (2 ^ 12 * 2 ^ 52) with (2 ^ 64). lia. }
  rewrite exp_mask_or by exact Hm. destruct (minus_exact _ Hm) as [E F]. split; [reflexivity|]. split; [exact F|]. split; [exact E|].
  rewrite E. set (m := v / 2 ^ 12) in *. clearbody m.
  assert (Hpos : (0 < IZR (2 ^ 52))%R) by (apply IZR_lt; lia).
  assert (0 <= IZR m)%R by (apply IZR_le; lia). assert (IZR m < IZR (2 ^ 52))%R by (apply IZR_lt; lia).
  split; [apply Rmult_le_pos; [lra|left; now apply Rinv_0_lt_compat]|].
  apply Rmult_lt_reg_r with (IZR (2 ^ 52)); [assumption|]. unfold Rdiv. rewrite Rmult_assoc, Rinv_l by lra. lra.
Qed.
