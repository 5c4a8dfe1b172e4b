(* Proofs about the decode tables of DeflateTable_Model.v. *)
From Verif Require Import Base Bits Algorithm_Model Deflate_Spec DeflateTable_Model.

(* ---- bit-reversed reading ---- *)
Lemma b2z_testbit x n : 0 <= n -> (if Z.testbit x n then 1 else 0) = x / 2 ^ n mod 2.
Proof.
  intros Hn. rewrite <- Z.shiftr_div_pow2 by lia. rewrite <- Z.bit0_mod, Z.shiftr_spec by lia.
  rewrite Z.add_0_l. destruct (Z.testbit x n); reflexivity.
Qed.

Lemma rc_range n x : 0 <= read_code n x < 2 ^ Z.of_nat n.
Proof.
  induction n as [|n IH]; [cbn; lia|].
  cbn [read_code]. rewrite Nat2Z.inj_succ, Z.pow_succ_r by lia. destruct (Z.testbit x (Z.of_nat n)); lia.
Qed.

Lemma rc_ext n x y : (forall k, 0 <= k < Z.of_nat n -> Z.testbit x k = Z.testbit y k) -> read_code n x = read_code n y.
Proof.
  induction n as [|n IH]; intros H; cbn [read_code]; [reflexivity|].
  rewrite IH, H by (intros; try apply H; lia). reflexivity.
Qed.

Lemma rc_mod n m x : Z.of_nat n <= m -> read_code n (x mod 2 ^ m) = read_code n x.
Proof.
  intros H. apply rc_ext. intros k Hk. rewrite mod_pow2_testbit by lia.
  replace (k <? m) with true by lia. reflexivity.
Qed.

Lemma rc_plus n k x : read_code (n + k) x / 2 ^ Z.of_nat k = read_code n x.
Proof.
  induction k as [|k IH]; [rewrite Nat.add_0_r; cbn; apply Z.div_1_r|].
  rewrite Nat.add_succ_r. cbn [read_code]. rewrite Nat2Z.inj_succ, Z.pow_succ_r by lia.
  rewrite <- Z.div_div by lia.
  replace ((2 * read_code (n + k) x + (if Z.testbit x (Z.of_nat (n + k)) then 1 else 0)) / 2) with (read_code (n + k) x).
  - exact IH.
  - destruct (Z.testbit x (Z.of_nat (n + k))); lia.
Qed.

Lemma rc_prefix n m x : (n <= m)%nat -> read_code m x / 2 ^ Z.of_nat (m - n) = read_code n x.
Proof. intros H. replace m with (n + (m - n))%nat at 1 by lia. apply rc_plus. Qed.

Lemma rc_inj n x y : 0 <= x < 2 ^ Z.of_nat n -> 0 <= y < 2 ^ Z.of_nat n -> read_code n x = read_code n y -> x = y.
Proof.
  intros Hx Hy H. apply (bits_ext_bounded x y (Z.of_nat n)); [lia|assumption..|].
  revert H. clear Hx Hy. intros H.
  assert (G : forall k, (k < n)%nat -> Z.testbit x (Z.of_nat k) = Z.testbit y (Z.of_nat k)).
  { induction n as [|n IH]; [lia|]. cbn [read_code] in H. intros k Hk.
    assert (read_code n x = read_code n y /\ Z.testbit x (Z.of_nat n) = Z.testbit y (Z.of_nat n)) as [A B].
    { destruct (Z.testbit x (Z.of_nat n)), (Z.testbit y (Z.of_nat n)); split; try reflexivity; lia. }
    destruct (Nat.eq_dec k n) as [->|]; [exact B|]. apply IH; [exact A|lia]. }
  intros k Hk. specialize (G (Z.to_nat k)). rewrite Z2Nat.id in G by lia. apply G. lia.
Qed.

Lemma rc_ones n x : 0 <= x < 2 ^ Z.of_nat n -> (read_code n x = 2 ^ Z.of_nat n - 1 <-> x = 2 ^ Z.of_nat n - 1).
Proof.
  intros Hx. assert (E : read_code n (2 ^ Z.of_nat n - 1) = 2 ^ Z.of_nat n - 1).
  { clear. rewrite <- Z.ones_equiv || idtac.
    assert (G : forall m, (m <= n)%nat -> read_code m (2 ^ Z.of_nat n - 1) = 2 ^ Z.of_nat m - 1).
    { induction m as [|m IH]; intros Hm; [reflexivity|]. cbn [read_code]. rewrite IH by lia.
      rewrite Nat2Z.inj_succ, Z.pow_succ_r by lia.
      replace (2 ^ Z.of_nat n - 1) with (Z.ones (Z.of_nat n)) by (rewrite Z.ones_equiv; lia).
      rewrite Z.ones_spec_low by lia. lia. }
    apply G. lia. }
  split; intros H; [|subst; exact E].
  apply (rc_inj n); [exact Hx| |congruence].
  assert (0 < 2 ^ Z.of_nat n) by (apply Z.pow_pos_nonneg; lia). lia.
Qed.

(* the increment of a bit-reversed codeword *)
Lemma next_codeword_ok n x : 0 <= x < 2 ^ Z.of_nat n -> x <> 2 ^ Z.of_nat n - 1 ->
  exists y, next_codeword x (2 ^ Z.of_nat n - 1) = Ok y /\ 0 <= y < 2 ^ Z.of_nat n /\ read_code n y = read_code n x + 1.
Proof.
  revert x. induction n as [|n IH]; intros x Hx Hne.
  { cbn in *. lia. }
  assert (P0 : 0 < 2 ^ Z.of_nat n) by (apply Z.pow_pos_nonneg; lia).
  rewrite Nat2Z.inj_succ, Z.pow_succ_r in * by lia.
  assert (Ones : forall k, 0 <= k -> 2 ^ k - 1 = Z.ones k) by (intros; rewrite Z.ones_equiv; lia).
  destruct (Z_lt_ge_dec x (2 ^ Z.of_nat n)) as [Hlo|Hhi].
  - (* top bit clear: it is the highest zero bit *)
    assert (L : Z.log2 (Z.lxor x (2 * 2 ^ Z.of_nat n - 1)) = Z.of_nat n).
    { assert (B : Z.lxor x (2 * 2 ^ Z.of_nat n - 1) = 2 ^ Z.of_nat n + (2 ^ Z.of_nat n - 1 - x)).
      { replace (2 * 2 ^ Z.of_nat n - 1) with (Z.ones (Z.of_nat n + 1))
          by (rewrite Z.ones_equiv, Z.pow_add_r by lia; lia).
        replace (2 ^ Z.of_nat n + (2 ^ Z.of_nat n - 1 - x)) with (Z.ones (Z.of_nat n + 1) - x)
          by (rewrite Z.ones_equiv, Z.pow_add_r by lia; lia).
        rewrite Z.sub_nocarry_ldiff.
        - apply Z.bits_inj'. intros k Hk. rewrite Z.lxor_spec, Z.ldiff_spec.
          destruct (Z_lt_ge_dec k (Z.of_nat n + 1)).
          + rewrite Z.ones_spec_low by lia. destruct (Z.testbit x k); reflexivity.
          + rewrite Z.ones_spec_high by lia. rewrite (testbit_small x (Z.of_nat n)) by lia. reflexivity.
        - apply Z.bits_inj'. intros k Hk. rewrite Z.ldiff_spec, Z.bits_0.
          destruct (Z_lt_ge_dec k (Z.of_nat n + 1)).
          + rewrite Z.ones_spec_low by lia. destruct (Z.testbit x k); reflexivity.
          + rewrite (testbit_small x (Z.of_nat n)) by lia. reflexivity. }
      rewrite B. apply Z.log2_unique; [lia|]. rewrite Z.pow_succ_r by lia. lia. }
    unfold next_codeword.
    assert (Hpos : 0 < Z.lxor x (2 * 2 ^ Z.of_nat n - 1)).
    { assert (0 <= Z.lxor x (2 * 2 ^ Z.of_nat n - 1)) by (apply Z.lxor_nonneg; lia).
      destruct (Z.eq_dec (Z.lxor x (2 * 2 ^ Z.of_nat n - 1)) 0) as [E|]; [|lia].
      apply Z.lxor_eq in E. lia. }
    replace (Z.lxor x (2 * 2 ^ Z.of_nat n - 1) <=? 0) with false by lia.
    rewrite L, Z.shiftl_1_l, land_mask, Z.mod_small by lia.
    assert (Lor : Z.lor x (2 ^ Z.of_nat n) = 2 ^ Z.of_nat n + x).
    { rewrite Z.lor_comm. pose proof (lor_mul_add x 1 (Z.of_nat n) ltac:(lia) ltac:(lia)) as E.
      rewrite Z.mul_1_l in E. exact E. }
    eexists. split; [reflexivity|]. rewrite Lor. split; [lia|]. cbn [read_code].
    rewrite (rc_ext n (2 ^ Z.of_nat n + x) x).
    2:{ intros k Hk. rewrite <- (Z.mod_small x (2 ^ Z.of_nat n)) at 2 by lia.
        replace (x mod 2 ^ Z.of_nat n) with ((2 ^ Z.of_nat n + x) mod 2 ^ Z.of_nat n).
        - rewrite mod_pow2_testbit by lia. replace (k <? Z.of_nat n) with true by lia. reflexivity.
        - rewrite <- (Z.mod_add x 1 (2 ^ Z.of_nat n)) by lia. f_equal. lia. }
    rewrite (testbit_small x (Z.of_nat n)) by lia.
    rewrite b2z_testbit by lia.
    replace ((2 ^ Z.of_nat n + x) / 2 ^ Z.of_nat n) with 1.
    2:{ apply Z.div_unique with x; lia. }
    change (1 mod 2) with 1. lia.
  - (* top bit set *)
    set (lo := x - 2 ^ Z.of_nat n).
    assert (Hlo : 0 <= lo < 2 ^ Z.of_nat n) by lia.
    destruct (IH lo Hlo ltac:(lia)) as [y [Hy [Ry Ey]]].
    assert (Lx : Z.lxor x (2 * 2 ^ Z.of_nat n - 1) = Z.lxor lo (2 ^ Z.of_nat n - 1)).
    { replace x with (lo + 2 ^ Z.of_nat n * 1) by lia.
      replace (2 * 2 ^ Z.of_nat n - 1) with ((2 ^ Z.of_nat n - 1) + 2 ^ Z.of_nat n * 1) by lia.
      rewrite (bitop_split Z.lxor xorb); [change (Z.lxor 1 1) with 0; lia|exact Z.lxor_spec|reflexivity| |lia..].
      intros; apply Z.lxor_nonneg; lia. }
    unfold next_codeword in Hy |- *. rewrite Lx.
    destruct (Z.lxor lo (2 ^ Z.of_nat n - 1) <=? 0) eqn:Hz; [discriminate|].
    set (j := Z.log2 (Z.lxor lo (2 ^ Z.of_nat n - 1))) in *.
    assert (Hj : 0 <= j < Z.of_nat n).
    { unfold j. split; [apply Z.log2_nonneg|]. apply Z.log2_lt_pow2; [lia|].
      apply lxor_bound; lia. }
    eexists. split; [reflexivity|].
    rewrite Z.shiftl_1_l, land_mask in * by lia.
    assert (Em : x mod 2 ^ j = lo mod 2 ^ j).
    { replace x with (lo + 2 ^ (Z.of_nat n - j) * 2 ^ j).
      - apply Z.mod_add. apply Z.pow_nonzero; lia.
      - rewrite <- Z.pow_add_r by lia. replace (Z.of_nat n - j + j) with (Z.of_nat n) by lia. lia. }
    rewrite Em. injection Hy as Hy. rewrite Hy.
    split; [lia|]. cbn [read_code].
    rewrite (testbit_small y (Z.of_nat n)) by lia. rewrite Ey.
    replace (Z.testbit x (Z.of_nat n)) with true.
    2:{ symmetry. pose proof (testbit_top x (Z.of_nat n + 1) ltac:(lia)) as T.
        rewrite Z.pow_add_r in T by lia. replace (Z.of_nat n + 1 - 1) with (Z.of_nat n) in T by lia.
        rewrite T by lia. lia. }
    rewrite (rc_ext n x lo); [lia|].
    intros k Hk. replace x with (lo + 1 * 2 ^ Z.of_nat n) by lia.
    rewrite <- (Z.mod_small lo (2 ^ Z.of_nat n)) at 2 by lia.
    rewrite <- (Z.mod_add lo 1) by lia. rewrite mod_pow2_testbit by lia.
    replace (k <? Z.of_nat n) with true by lia. reflexivity.
Qed.
