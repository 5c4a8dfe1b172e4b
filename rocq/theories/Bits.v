(* Bit-level lemmas on Z shared by several developments. *)
From Verif Require Import Base.

Lemma testbit_small a k n : 0 <= a < 2 ^ k -> 0 <= k <= n -> Z.testbit a n = false.
Proof.
  intros Ha Hk. destruct (Z.eq_dec a 0) as [->|Hne]; [apply Z.bits_0|].
  apply Z.bits_above_log2; [lia|]. apply Z.lt_le_trans with k; [|lia]. apply Z.log2_lt_pow2; lia.
Qed.

Lemma bits_small_iff a k : 0 <= k -> 0 <= a -> (forall n, k <= n -> Z.testbit a n = false) -> a < 2 ^ k.
Proof.
  intros Hk Ha H. destruct (Z.eq_dec a 0) as [->|Hne]; [apply Z.pow_pos_nonneg; lia|].
  apply Z.log2_lt_pow2; [lia|].
  destruct (Z.lt_ge_cases (Z.log2 a) k) as [|Hge]; [assumption|exfalso].
  specialize (H _ Hge). rewrite Z.bit_log2 in H by lia. discriminate.
Qed.

Lemma land_shift_low a b k : 0 <= k -> 0 <= a < 2 ^ k -> Z.land (Z.shiftl b k) a = 0.
Proof.
  intros Hk Ha. apply Z.bits_inj'. intros n Hn. rewrite Z.bits_0, Z.land_spec.
  destruct (Z.lt_ge_cases n k).
  - rewrite Z.shiftl_spec_low by lia. reflexivity.
  - rewrite (testbit_small a k n) by lia. apply andb_false_r.
Qed.

Lemma lor_shift_add a b k : 0 <= k -> 0 <= a < 2 ^ k -> Z.lor (Z.shiftl b k) a = b * 2 ^ k + a.
Proof.
  intros Hk Ha. pose proof (land_shift_low a b k Hk Ha) as E.
  rewrite <- Z.lxor_lor by exact E. rewrite <- Z.add_nocarry_lxor by exact E.
  rewrite Z.shiftl_mul_pow2 by lia. reflexivity.
Qed.

Lemma lor_mul_add a b k : 0 <= k -> 0 <= a < 2 ^ k -> Z.lor (b * 2 ^ k) a = b * 2 ^ k + a.
Proof. intros. rewrite <- Z.shiftl_mul_pow2 by lia. rewrite lor_shift_add by lia. now rewrite Z.shiftl_mul_pow2 by lia. Qed.

Lemma testbit_add_mul a b k n : 0 <= k -> 0 <= a < 2 ^ k -> 0 <= n ->
  Z.testbit (a + 2 ^ k * b) n = if n <? k then Z.testbit a n else Z.testbit b (n - k).
Proof.
  intros Hk Ha Hn.
  replace (a + 2 ^ k * b) with (Z.lor (Z.shiftl b k) a) by (rewrite lor_shift_add by lia; lia).
  rewrite Z.lor_spec. destruct (Z.ltb_spec n k).
  - rewrite Z.shiftl_spec_low by lia. reflexivity.
  - rewrite (testbit_small a k n) by lia. rewrite Z.shiftl_spec by lia. apply orb_false_r.
Qed.

Lemma bitop_split (op : Z -> Z -> Z) (f : bool -> bool -> bool)
  (Hspec : forall x y n, Z.testbit (op x y) n = f (Z.testbit x n) (Z.testbit y n))
  (Hff : f false false = false) (Hnn : forall x y, 0 <= x -> 0 <= y -> 0 <= op x y)
  a b c d k : 0 <= k -> 0 <= a < 2 ^ k -> 0 <= c < 2 ^ k ->
  op (a + 2 ^ k * b) (c + 2 ^ k * d) = op a c + 2 ^ k * op b d.
Proof.
  intros Hk Ha Hc.
  assert (Hop : 0 <= op a c < 2 ^ k).
  { split; [apply Hnn; lia|]. apply bits_small_iff; [lia|apply Hnn; lia|].
    intros n Hn. rewrite Hspec, (testbit_small a k), (testbit_small c k) by lia. exact Hff. }
  apply Z.bits_inj'. intros n Hn. rewrite Hspec. rewrite !testbit_add_mul by lia.
  destruct (n <? k); rewrite Hspec; reflexivity.
Qed.

Lemma land_split a b c d k : 0 <= k -> 0 <= a < 2 ^ k -> 0 <= c < 2 ^ k ->
  Z.land (a + 2 ^ k * b) (c + 2 ^ k * d) = Z.land a c + 2 ^ k * Z.land b d.
Proof.
  apply (bitop_split Z.land andb).
  - intros; apply Z.land_spec.
  - reflexivity.
  - intros; apply Z.land_nonneg; lia.
Qed.


Lemma land_mask x k : 0 <= k -> Z.land x (2 ^ k - 1) = x mod 2 ^ k.
Proof. intros. replace (2 ^ k - 1) with (Z.ones k) by (rewrite Z.ones_equiv; lia). apply Z.land_ones; lia. Qed.

Lemma mod_pow2_testbit x k n : 0 <= k -> 0 <= n -> Z.testbit (x mod 2 ^ k) n = (n <? k) && Z.testbit x n.
Proof.
  intros Hk Hn. destruct (Z.ltb_spec n k).
  - apply Z.mod_pow2_bits_low. lia.
  - apply Z.mod_pow2_bits_high. lia.
Qed.

(* sign bit *)
Lemma testbit_top u w : 0 < w -> 0 <= u < 2 ^ w -> Z.testbit u (w - 1) = (2 ^ (w - 1) <=? u).
Proof.
  intros Hw Hu. assert (E : 2 ^ w = 2 * 2 ^ (w - 1)) by (rewrite <- Z.pow_succ_r by lia; f_equal; lia).
  assert (Hp : 0 < 2 ^ (w - 1)) by (apply Z.pow_pos_nonneg; lia).
  rewrite Z.testbit_odd, Z.shiftr_div_pow2 by lia.
  destruct (Z.leb_spec (2 ^ (w - 1)) u).
  - replace (u / 2 ^ (w - 1)) with 1; [reflexivity|].
    apply Z.div_unique with (u - 2 ^ (w - 1)); lia.
  - rewrite Z.div_small by lia. reflexivity.
Qed.

Lemma lxor_bound a b k : 0 <= k -> 0 <= a < 2 ^ k -> 0 <= b < 2 ^ k -> 0 <= Z.lxor a b < 2 ^ k.
Proof.
  intros Hk Ha Hb. assert (H0 : 0 <= Z.lxor a b) by (apply Z.lxor_nonneg; lia). split; [exact H0|].
  apply bits_small_iff; auto. intros n Hn. rewrite Z.lxor_spec, (testbit_small a k), (testbit_small b k) by lia. reflexivity.
Qed.

Lemma lor_bound a b k : 0 <= k -> 0 <= a < 2 ^ k -> 0 <= b < 2 ^ k -> 0 <= Z.lor a b < 2 ^ k.
Proof.
  intros Hk Ha Hb. assert (H0 : 0 <= Z.lor a b) by (apply Z.lor_nonneg; lia). split; [exact H0|].
  apply bits_small_iff; auto. intros n Hn. rewrite Z.lor_spec, (testbit_small a k), (testbit_small b k) by lia. reflexivity.
Qed.

Lemma land_bound a b k : 0 <= k -> 0 <= a < 2 ^ k -> 0 <= Z.land a b < 2 ^ k.
Proof.
  intros Hk Ha. assert (H0 : 0 <= Z.land a b) by (apply Z.land_nonneg; lia). split; [exact H0|].
  apply bits_small_iff; auto. intros n Hn. rewrite Z.land_spec, (testbit_small a k) by lia. reflexivity.
Qed.

(* equality of bounded words by their bits *)
Lemma bits_ext_bounded a b k : 0 <= k -> 0 <= a < 2 ^ k -> 0 <= b < 2 ^ k ->
  (forall n, 0 <= n < k -> Z.testbit a n = Z.testbit b n) -> a = b.
Proof.
  intros Hk Ha Hb H. apply Z.bits_inj'. intros n Hn.
  destruct (Z.lt_ge_cases n k); [apply H; lia|].
  rewrite (testbit_small a k), (testbit_small b k) by lia. reflexivity.
Qed.

(* lifting finite boolean sweeps *)
Lemma forallb_range (P : Z -> bool) (n : nat) :
  forallb P (map Z.of_nat (seq 0 n)) = true -> forall i, 0 <= i < Z.of_nat n -> P i = true.
Proof.
  intros H i Hi. rewrite forallb_forall in H. apply H.
  apply in_map_iff. exists (Z.to_nat i). split; [lia|]. apply in_seq. lia.
Qed.
