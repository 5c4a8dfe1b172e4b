(* Proofs for alignment helpers, bit scans and population counts. *)
From Verif Require Import Base Bits IntOps_Model IntOps_Spec IntOps_Proofs.

(* ---- alignment ---- *)
Lemma pow2_le a b : 0 <= a <= b -> 2 ^ a <= 2 ^ b.
Proof. intros. apply Z.pow_le_mono_r; lia. Qed.
Lemma pow2_lt a b : 0 <= a < b -> 2 ^ a < 2 ^ b.
Proof. intros. apply Z.pow_lt_mono_r; lia. Qed.

Lemma land_not_low w x k : 0 <= k <= w -> 0 <= x < 2 ^ w ->
  Z.land x (to_u w (Z.lnot (2 ^ k - 1))) = x - x mod 2 ^ k.
Proof.
  intros Hk Hx. replace (x - x mod 2 ^ k) with (2 ^ k * (x / 2 ^ k)) by (pose proof (Z.div_mod x (2 ^ k) ltac:(pose proof (pow2_pos k); lia)); lia).
  apply Z.bits_inj'. intros n Hn. rewrite Z.land_spec. unfold to_u. rewrite mod_pow2_testbit, Z.lnot_spec by lia.
  replace (2 ^ k - 1) with (Z.ones k) by (rewrite Z.ones_equiv; lia).
  rewrite (Z.mul_comm (2 ^ k)), Z.mul_pow2_bits by lia. rewrite <- Z.shiftr_div_pow2 by lia.
  rewrite Z.testbit_ones_nonneg by lia.
  destruct (Z.ltb_spec n k).
  - rewrite !(Z.testbit_neg_r _ (n - k)) by lia. cbn [negb]. rewrite !andb_false_r. reflexivity.
  - rewrite Z.shiftr_spec by lia. replace (n - k + k) with n by lia. cbn [negb]. rewrite andb_true_r.
    destruct (Z.ltb_spec n w).
    + apply andb_true_r.
    + rewrite (testbit_small x w) by lia. reflexivity.
Qed.

Lemma pow2_minus1_u w k : 0 <= k < w -> to_u w (to_u w (2 ^ k) - 1) = 2 ^ k - 1.
Proof.
  intros. pose proof (pow2_lt k w). pose proof (pow2_pos k). rewrite (to_u_small w (2 ^ k)) by lia. apply to_u_small. lia.
Qed.

Lemma divide_sub_mod x a : 0 < a -> (a | x - x mod a).
Proof. intros. exists (x / a). pose proof (Z.div_mod x a). lia. Qed.

Lemma greatest_multiple_mod a x : 0 < a -> greatest_multiple_le a x (x - x mod a).
Proof.
  intros. split; [now apply divide_sub_mod|]. pose proof (Z.mod_pos_bound x a H). split; [lia|].
  intros m' [q ->] Hle. pose proof (Z.div_mod x a ltac:(lia)).
  assert (q <= x / a) by (apply Z.div_le_lower_bound; lia). nia.
Qed.

Lemma least_multiple_mod a x : 0 < a -> least_multiple_ge a x (x + (- x) mod a).
Proof.
  intros. pose proof (Z.mod_pos_bound (- x) a H). pose proof (Z.div_mod (- x) a ltac:(lia)).
  split; [exists (- ((- x) / a)); lia|]. split; [lia|].
  intros m' [q ->] Hle. assert (- q <= (- x) / a) by (apply Z.div_le_lower_bound; lia). nia.
Qed.

Lemma align_down_ok w x k : 0 <= k < w -> 0 <= x < 2 ^ w ->
  greatest_multiple_le (2 ^ k) x (align_down w x (2 ^ k)).
Proof.
  intros Hk Hx. unfold align_down. rewrite pow2_minus1_u, (to_u_small w x), land_not_low by lia.
  apply greatest_multiple_mod. apply pow2_pos. lia.
Qed.

Lemma mod_mod_pow2 x k w : 0 <= k <= w -> (x mod 2 ^ w) mod 2 ^ k = x mod 2 ^ k.
Proof.
  intros. replace (2 ^ w) with (2 ^ k * 2 ^ (w - k)) by (rewrite <- Z.pow_add_r by lia; f_equal; lia).
  pose proof (pow2_pos k). pose proof (pow2_pos (w - k)).
  rewrite Z.rem_mul_r by lia. rewrite Z.mul_comm, Z.mod_add by lia. apply Z.mod_mod. lia.
Qed.

Lemma align_up_ok w x k : 0 <= k < w -> 0 <= x < 2 ^ w ->
  exists m, least_multiple_ge (2 ^ k) x m /\ align_up w x (2 ^ k) = m mod 2 ^ w.
Proof.
  intros Hk Hx. pose proof (pow2_pos k ltac:(lia)) as Hp. pose proof (pow2_lt k w Hk).
  exists (x + (- x) mod 2 ^ k). split; [now apply least_multiple_mod|].
  unfold align_up. rewrite pow2_minus1_u, (to_u_small w x) by lia. 
  rewrite land_not_low by (try apply to_u_range; lia).
  set (a := 2 ^ k) in *.
  assert (Hm : to_u w (x + (a - 1)) mod a = (x + (a - 1)) mod a) by (apply mod_mod_pow2; lia).
  rewrite Hm.
  assert (E : x + (- x) mod a = x + (a - 1) - (x + (a - 1)) mod a).
  { pose proof (Z.mod_pos_bound (- x) a Hp). pose proof (Z.mod_pos_bound (x + (a - 1)) a Hp).
    pose proof (Z.div_mod (- x) a ltac:(lia)). pose proof (Z.div_mod (x + (a - 1)) a ltac:(lia)).
    assert (- x / a = - ((x + (a - 1)) / a)) by nia. nia. }
  rewrite E.
  assert (Hr : 0 <= to_u w (x + (a - 1)) - (x + (a - 1)) mod a < 2 ^ w).
  { pose proof (to_u_range w (x + (a - 1)) ltac:(lia)). pose proof (Z.mod_pos_bound (x + (a - 1)) a Hp).
    split; [|lia]. rewrite <- Hm. pose proof (Z.mod_le (to_u w (x + (a - 1))) a). lia. }
  unfold to_u in *. set (t := x + (a - 1)) in *.
  rewrite <- (Z.mod_small _ _ Hr). rewrite Zminus_mod_idemp_l. reflexivity.
Qed.

Lemma align_up_diff_ok w x k : 0 <= k < w -> 0 <= x < 2 ^ w ->
  exists m, least_multiple_ge (2 ^ k) x m /\ align_up_diff w x (2 ^ k) = m - x.
Proof.
  intros Hk Hx. pose proof (pow2_pos k ltac:(lia)) as Hp. pose proof (pow2_lt k w Hk).
  exists (x + (- x) mod 2 ^ k). split; [now apply least_multiple_mod|].
  unfold align_up_diff. rewrite (to_u_small w x), (to_u_small w (2 ^ k - 1)) by lia.
  rewrite land_mask by lia. unfold to_u. rewrite mod_mod_pow2 by lia. replace (0 - x) with (- x) by lia. lia.
Qed.

Lemma is_aligned_ok w x a : 0 <= x < 2 ^ w -> 0 < a < 2 ^ w -> is_aligned w x a = true <-> (a | x).
Proof.
  intros Hx Ha. unfold is_aligned. rewrite (to_u_small w x), (to_u_small w a) by lia. rewrite Z.eqb_eq.
  apply Z.mod_divide. lia. 
Qed.

Lemma lxor_pred_pow2 k : 0 <= k -> Z.lxor (2 ^ k) (2 ^ k - 1) = 2 ^ (k + 1) - 1.
Proof.
  intros. rewrite <- Z.add_nocarry_lxor.
  - rewrite Z.pow_add_r by lia. lia.
  - pose proof (land_shift_low (2 ^ k - 1) 1 k ltac:(lia)) as E. rewrite Z.shiftl_1_l in E. apply E. pose proof (pow2_pos k). lia.
Qed.

Lemma testbit_log2_range x k : 0 <= k -> 2 ^ k <= x < 2 ^ (k + 1) -> Z.testbit x k = true.
Proof.
  intros Hk Hx. replace k with (Z.log2 x) by (apply Z.log2_unique; lia). apply Z.bit_log2. pose proof (pow2_pos k). lia.
Qed.

Lemma lxor_same_top x y k : 0 <= k -> 2 ^ k <= x < 2 ^ (k + 1) -> 2 ^ k <= y < 2 ^ (k + 1) -> 0 <= Z.lxor x y < 2 ^ k.
Proof.
  intros Hk Hx Hy. pose proof (pow2_pos k Hk).
  assert (0 <= Z.lxor x y) by (apply Z.lxor_nonneg; lia). split; [assumption|].
  apply bits_small_iff; try lia. intros n Hn. rewrite Z.lxor_spec. destruct (Z.eq_dec n k) as [->|].
  - rewrite !testbit_log2_range by lia. reflexivity.
  - rewrite !(testbit_small _ (k + 1)) by lia. reflexivity.
Qed.

Lemma is_power_of_2_ok w x : 0 < w -> 0 <= x < 2 ^ w ->
  is_power_of_2 w x = true <-> exists k, 0 <= k < w /\ x = 2 ^ k.
Proof.
  intros Hw Hx. unfold is_power_of_2. rewrite (to_u_small w x) by lia.
  destruct (Z.eq_dec x 0) as [->|Hx0].
  - assert (E : to_u w (0 - 1) = 2 ^ w - 1).
    { unfold to_u. symmetry. apply Z.mod_unique with (-1); [left|]; lia. }
    rewrite E, Z.lxor_0_l, to_u_small by lia. split; [lia|]. intros (k & Hk & E0). pose proof (pow2_pos k). lia.
  - rewrite (to_u_small w (x - 1)) by lia.
    pose proof (Z.log2_spec x ltac:(lia)) as Hl. pose proof (Z.log2_nonneg x). set (k := Z.log2 x) in *.
    rewrite <- Z.add_1_r in Hl.
    assert (Hkw : k < w) by (apply Z.log2_lt_pow2; lia).
    assert (Hxb : 0 <= Z.lxor x (x - 1) < 2 ^ w) by (apply (lxor_bound x (x - 1) w); lia).
    rewrite to_u_small by lia. rewrite Z.gtb_lt.
    destruct (Z.eq_dec x (2 ^ k)) as [E|Hne].
    + rewrite E. rewrite lxor_pred_pow2 by lia. rewrite E in Hl at 2. split; [|intros; lia]. intros _. exists k. split; [lia|reflexivity].
    + pose proof (lxor_same_top x (x - 1) k). split; [lia|]. intros (j & Hj & Ej). exfalso. apply Hne.
      rewrite Ej. unfold k. rewrite Ej, Z.log2_pow2 by lia. reflexivity.
Qed.

(* ---- fill_trailing_bits ---- *)
Lemma fill_bits k : forall x i, 0 <= x -> 0 <= i ->
  0 <= fill_trailing_bits k x /\
  (Z.testbit (fill_trailing_bits k x) i = true <-> exists j, i <= j < i + 2 ^ Z.of_nat k /\ Z.testbit x j = true).
Proof.
  induction k as [|k IH]; intros x i Hx Hi.
  - cbn. split; [lia|]. split.
    + intros. exists i. split; [lia|assumption].
    + intros (j & Hj & E). now replace i with j by lia.
  - cbn [fill_trailing_bits]. unfold shr_or.
    pose proof (pow2_pos (Z.of_nat k) ltac:(lia)) as Hp.
    assert (E2 : 2 ^ Z.of_nat (S k) = 2 ^ Z.of_nat k + 2 ^ Z.of_nat k).
    { rewrite Nat2Z.inj_succ, Z.pow_succ_r by lia. lia. }
    destruct (IH x i Hx Hi) as [Hnn H1]. destruct (IH x (i + 2 ^ Z.of_nat k) Hx ltac:(lia)) as [_ H2].
    split.
    + apply Z.lor_nonneg. split; [lia|]. apply Z.shiftr_nonneg. lia.
    + rewrite Z.lor_spec, Z.shiftr_spec, orb_true_iff, H1, H2, E2 by lia. split.
      * intros [(j & Hj & E)|(j & Hj & E)]; exists j; split; auto; lia.
      * intros (j & Hj & E). destruct (Z.lt_ge_cases j (i + 2 ^ Z.of_nat k)); [left|right]; exists j; split; auto; lia.
Qed.

Lemma fill_trailing_value k x : 0 < x < 2 ^ (2 ^ Z.of_nat k) ->
  fill_trailing_bits k x = 2 ^ (Z.log2 x + 1) - 1.
Proof.
  intros Hx. set (w := 2 ^ Z.of_nat k) in *.
  assert (Hl : Z.log2 x < w) by (apply (proj1 (Z.log2_lt_pow2 x w (proj1 Hx))); apply Hx). pose proof (Z.log2_nonneg x).
  apply Z.bits_inj'. intros i Hi. destruct (fill_bits k x i ltac:(lia) Hi) as [_ H1]. fold w in H1.
  replace (2 ^ (Z.log2 x + 1) - 1) with (Z.ones (Z.log2 x + 1)) by (rewrite Z.ones_equiv; lia).
  rewrite Z.testbit_ones_nonneg by lia.
  apply eq_true_iff_eq. rewrite H1, Z.ltb_lt. split.
  - intros (j & Hj & E). destruct (Z.lt_ge_cases i (Z.log2 x + 1)); [assumption|exfalso].
    rewrite Z.bits_above_log2 in E by lia. discriminate.
  - intros. exists (Z.log2 x). split; [lia|]. apply Z.bit_log2. lia.
Qed.

Lemma fill_trailing_zero k : fill_trailing_bits k 0 = 0.
Proof. induction k; cbn [fill_trailing_bits]; [reflexivity|]. rewrite IHk. unfold shr_or. now rewrite Z.shiftr_0_l. Qed.

Lemma align_up_power_of_2_ok k x : let w := 2 ^ Z.of_nat k in
  0 < x <= 2 ^ (w - 1) -> (k <> 0)%nat -> least_pow2_ge x (align_up_power_of_2 k x).
Proof.
  intros w Hx Hk0. unfold align_up_power_of_2. fold w.
  assert (Hw : 2 <= w).
  { unfold w. destruct k; [lia|]. rewrite Nat2Z.inj_succ, Z.pow_succ_r by lia. pose proof (pow2_pos (Z.of_nat k)). lia. }
  pose proof (pow2_half w ltac:(lia)) as Eh. pose proof (pow2_pos (w - 1) ltac:(lia)) as Hp1.
  rewrite (to_u_small w x) by lia. rewrite (to_u_small w (x - 1)) by lia.
  destruct (Z.eq_dec x 1) as [->|].
  - change (1 - 1) with 0. rewrite fill_trailing_zero. assert (1 < 2 ^ w) by (pose proof (pow2_le 2 w); lia).
    rewrite to_u_small by lia. split; [exists 0; split; [lia|reflexivity]|]. split; [lia|]. intros j Hj _. pose proof (pow2_pos j). lia.
  - rewrite fill_trailing_value by (fold w; lia).
    pose proof (Z.log2_spec (x - 1) ltac:(lia)) as Hl. rewrite <- Z.add_1_r in Hl.
    pose proof (Z.log2_nonneg (x - 1)). set (l := Z.log2 (x - 1)) in *.
    assert (Hlw : l < w - 1) by (apply Z.log2_lt_pow2; lia).
    pose proof (pow2_le (l + 1) (w - 1)).
    replace (2 ^ (l + 1) - 1 + 1) with (2 ^ (l + 1)) by lia.
    rewrite to_u_small by lia. split; [exists (l + 1); split; [lia|reflexivity]|]. split; [lia|].
    intros j Hj Hle. apply pow2_le. split; [lia|].
    destruct (Z.le_gt_cases (l + 1) j); [lia|exfalso]. pose proof (pow2_le j l). lia.
Qed.

Lemma align_up_power_of_2_edge k x : let w := 2 ^ Z.of_nat k in
  (k <> 0)%nat -> (x = 0 \/ 2 ^ (w - 1) < x < 2 ^ w) -> align_up_power_of_2 k x = 0.
Proof.
  intros w Hk0 Hx. unfold align_up_power_of_2. fold w.
  assert (Hw : 2 <= w).
  { unfold w. destruct k; [lia|]. rewrite Nat2Z.inj_succ, Z.pow_succ_r by lia. pose proof (pow2_pos (Z.of_nat k)). lia. }
  pose proof (pow2_half w ltac:(lia)) as Eh. pose proof (pow2_pos (w - 1) ltac:(lia)) as Hp1.
  assert (F : forall v, 2 ^ (w - 1) <= v < 2 ^ w -> to_u w (fill_trailing_bits k v + 1) = 0).
  { intros v Hv. rewrite fill_trailing_value by (fold w; lia).
    replace (Z.log2 v) with (w - 1).
    - replace (w - 1 + 1) with w by lia. replace (2 ^ w - 1 + 1) with (2 ^ w) by lia. unfold to_u. apply Z.mod_same. lia.
    - symmetry. apply Z.log2_unique; [lia|]. replace (Z.succ (w - 1)) with w by lia. lia. }
  rewrite (to_u_small w x) by lia.
  destruct Hx as [->|Hx].
  - replace (to_u w (0 - 1)) with (2 ^ w - 1).
    + apply F. lia.
    + unfold to_u. apply Z.mod_unique with (-1); [left|]; lia.
  - rewrite (to_u_small w (x - 1)) by lia. apply F. lia.
Qed.

(* ---- consecutive bit mask ---- *)
Lemma two_adic x : 0 < x -> exists k m, 0 <= k /\ 0 <= m /\ x = 2 ^ k * (2 * m + 1).
Proof.
  intros Hx. destruct x as [|p|p]; try lia. clear Hx. induction p as [p IH|p IH|].
  - exists 0, (Z.pos p). split; [lia|]. split; [lia|]. rewrite Z.pow_0_r. lia.
  - destruct IH as (k & m & Hk & Hm & E). exists (k + 1), m. split; [lia|]. split; [lia|].
    rewrite Z.pow_add_r by lia. change (Z.pos p~0) with (2 * Z.pos p). rewrite E. lia.
  - exists 0, 0. split; [lia|]. split; [lia|]. reflexivity.
Qed.

Lemma lsb_isolate cw k m : 0 <= k -> 0 <= m -> 0 < cw -> 2 ^ k * (2 * m + 1) < 2 ^ cw ->
  Z.land (2 ^ k * (2 * m + 1)) (to_u cw (to_u cw (Z.lnot (2 ^ k * (2 * m + 1))) + 1)) = 2 ^ k.
Proof.
  intros Hk Hm Hc Hx. set (x := 2 ^ k * (2 * m + 1)) in *.
  pose proof (pow2_pos k Hk) as Hp. assert (Hx0 : 0 < x) by (unfold x; nia).
  assert (E : to_u cw (to_u cw (Z.lnot x) + 1) = 2 ^ cw - x).
  { unfold Z.lnot.
    assert (E1 : to_u cw (Z.pred (- x)) = 2 ^ cw - x - 1) by (unfold to_u; symmetry; apply Z.mod_unique with (-1); [left|]; lia).
    rewrite E1. rewrite to_u_small by lia. lia. }
  rewrite E.
  assert (Hkc : k < cw).
  { destruct (Z.lt_ge_cases k cw); [assumption|exfalso]. pose proof (pow2_le cw k). nia. }
  assert (Ec : 2 ^ cw = 2 ^ k * 2 ^ (cw - k)) by (rewrite <- Z.pow_add_r by lia; f_equal; lia).
  assert (Ec2 : 2 ^ (cw - k) = 2 * 2 ^ (cw - k - 1)) by (apply pow2_half; lia).
  replace (2 ^ cw - x) with (0 + 2 ^ k * (1 + 2 ^ 1 * (2 ^ (cw - k - 1) - m - 1))) by (unfold x; rewrite Ec, Ec2; change (2 ^ 1) with 2; ring).
  replace x with (0 + 2 ^ k * (1 + 2 ^ 1 * m)) by (unfold x; change (2 ^ 1) with 2; ring).
  rewrite land_split by lia. rewrite land_split by lia. 
  replace (Z.land m (2 ^ (cw - k - 1) - m - 1)) with 0.
  - change (Z.land 1 1) with 1. change (Z.land 0 0) with 0. ring.
  - assert (Hm2 : m < 2 ^ (cw - k - 1)). { unfold x in Hx. rewrite Ec, Ec2 in Hx. nia. }
    replace (2 ^ (cw - k - 1) - m - 1) with (Z.lxor m (2 ^ (cw - k - 1) - 1)).
    + symmetry. apply Z.bits_inj'. intros n Hn. rewrite Z.bits_0, Z.land_spec, Z.lxor_spec.
      replace (2 ^ (cw - k - 1) - 1) with (Z.ones (cw - k - 1)) by (rewrite Z.ones_equiv; lia).
      rewrite Z.testbit_ones_nonneg by lia.
      destruct (Z.ltb_spec n (cw - k - 1)).
      * destruct (Z.testbit m n); reflexivity.
      * rewrite (testbit_small m (cw - k - 1)) by lia. reflexivity.
    + set (j := cw - k - 1) in *.
      assert (El : Z.lxor m (2 ^ j - 1) = Z.ldiff (2 ^ j - 1) m).
      { apply Z.bits_inj'. intros n Hn. rewrite Z.lxor_spec, Z.ldiff_spec.
        replace (2 ^ j - 1) with (Z.ones j) by (rewrite Z.ones_equiv; lia).
        rewrite Z.testbit_ones_nonneg by lia. destruct (Z.ltb_spec n j).
        - destruct (Z.testbit m n); reflexivity.
        - rewrite (testbit_small m j) by lia. reflexivity. }
      rewrite El. rewrite <- Z.sub_nocarry_ldiff; [lia|].
      apply Z.bits_inj'. intros n Hn. rewrite Z.ldiff_spec, Z.bits_0.
      replace (2 ^ j - 1) with (Z.ones j) by (rewrite Z.ones_equiv; lia).
      rewrite Z.testbit_ones_nonneg by lia. destruct (Z.ltb_spec n j); [apply andb_false_r|].
      rewrite (testbit_small m j) by lia. reflexivity.
Qed.

(* m xor (m+1) for m = 2^j - 1 + 2^(j+1) q *)
Lemma lxor_succ j q : 0 <= j -> 0 <= q ->
  Z.lxor (2 ^ j - 1 + 2 ^ (j + 1) * q) (2 ^ j + 2 ^ (j + 1) * q) = 2 ^ (j + 1) - 1.
Proof.
  intros Hj Hq. pose proof (pow2_pos j Hj). assert (E : 2 ^ (j + 1) = 2 * 2 ^ j) by (rewrite Z.pow_add_r by lia; lia).
  rewrite (bitop_split Z.lxor xorb Z.lxor_spec eq_refl (fun x y hx hy => proj2 (Z.lxor_nonneg x y) (conj (fun _ => hy) (fun _ => hx)))) by lia.
  rewrite Z.lxor_nilpotent, Z.lxor_comm, lxor_pred_pow2 by lia. lia.
Qed.

Lemma trailing_ones m : 0 <= m -> exists j q, 0 <= j /\ 0 <= q /\ m = 2 ^ j - 1 + 2 ^ (j + 1) * q.
Proof.
  intros Hm. destruct (two_adic (m + 1) ltac:(lia)) as (j & q & Hj & Hq & E). exists j, q. split; [lia|]. split; [lia|].
  rewrite Z.pow_add_r by lia. change (2 ^ 1) with 2. lia.
Qed.

Lemma is_bit_mask_consecutive_ok w cw x : 0 < w <= cw -> 0 <= x < 2 ^ w ->
  is_bit_mask_consecutive cw x = true <-> exists lo hi, bits_exactly lo hi x /\ hi <= w.
Proof.
  intros Hw Hx. unfold is_bit_mask_consecutive.
  destruct (Z.eqb_spec x 0) as [->|Hx0]; cbn [negb andb].
  - split; [discriminate|]. intros (lo & hi & [E H] & _). pose proof (pow2_lt lo hi). lia.
  - destruct (two_adic x ltac:(lia)) as (k & m & Hk & Hm & Ex).
    pose proof (pow2_le w cw ltac:(lia)) as Hwc.
    rewrite Ex at 3 4. rewrite lsb_isolate by lia.
    destruct (trailing_ones (2 * m + 1) ltac:(lia)) as (j & q & Hj & Hq & Em).
    pose proof (pow2_pos k Hk) as Hpk. pose proof (pow2_pos j Hj) as Hpj.
    assert (Ej : 2 ^ (j + 1) = 2 * 2 ^ j) by (rewrite Z.pow_add_r by lia; lia).
    assert (Ekj : 2 ^ (k + j) = 2 ^ k * 2 ^ j) by (apply Z.pow_add_r; lia).
    assert (Ex2 : x + 2 ^ k = 2 ^ k * (2 ^ j + 2 ^ (j + 1) * q)) by (rewrite Ex, Em; ring).
    assert (Ex1 : x = 2 ^ k * (2 ^ j - 1 + 2 ^ (j + 1) * q)) by (rewrite Ex, Em; ring).
    assert (Hj1 : 1 <= j). { destruct (Z.eq_dec j 0) as [->|]; [|lia]. exfalso. change (2 ^ 0) with 1 in Em. change (2 ^ (0 + 1)) with 2 in Em. lia. }
    assert (Exor : Z.lxor x (x + 2 ^ k) = 2 ^ k * (2 ^ (j + 1) - 1)).
    { rewrite Ex2, Ex1 at 1. rewrite <- (lxor_succ j q) by lia.
      rewrite !(Z.mul_comm (2 ^ k)), <- !Z.shiftl_mul_pow2 by lia. symmetry. apply Z.shiftl_lxor. }
    (* the answer in terms of q *)
    assert (Hspec : (exists lo hi, bits_exactly lo hi x /\ hi <= w) <-> q = 0).
    { split.
      - intros (lo & hi & [E H] & Hhi).
        (* lsb determines lo *)
        assert (lo = k).
        { assert (E3 : x = 2 ^ lo * (2 * (2 ^ (hi - lo - 1) - 1) + 1)).
          { rewrite E. replace hi with (lo + (hi - lo)) at 1 by lia. rewrite Z.pow_add_r by lia.
            rewrite (pow2_half (hi - lo)) by lia. ring. }
          destruct (Z.lt_trichotomy lo k) as [L|[->|L]]; [exfalso|reflexivity|exfalso].
          - rewrite Ex in E3. replace k with (lo + (k - lo)) in E3 by lia. rewrite Z.pow_add_r, (pow2_half (k - lo)) in E3 by lia.
            rewrite <- !Z.mul_assoc in E3. apply Z.mul_reg_l in E3; [lia|pose proof (pow2_pos lo); lia].
          - rewrite Ex in E3. replace lo with (k + (lo - k)) in E3 by lia. rewrite Z.pow_add_r, (pow2_half (lo - k)) in E3 by lia.
            rewrite <- !Z.mul_assoc in E3. apply Z.mul_reg_l in E3; [lia|lia]. }
        subst lo.
        assert (E4 : 2 ^ (hi - k) = 2 ^ j * (2 * q + 1)).
        { apply (Z.mul_reg_l _ _ (2 ^ k)); [lia|]. rewrite <- Z.pow_add_r by lia. replace (k + (hi - k)) with hi by lia.
          assert (2 ^ hi = x + 2 ^ k) by lia. rewrite H0, Ex2, Ej. ring. }
        destruct (Z.lt_trichotomy (hi - k) j) as [L|[L|L]].
        + pose proof (pow2_lt (hi - k) j). nia.
        + rewrite L in E4. nia.
        + replace (hi - k) with (j + (hi - k - j)) in E4 by lia. rewrite Z.pow_add_r, (pow2_half (hi - k - j)) in E4 by lia.
          apply Z.mul_reg_l in E4; lia.
      - intros ->. exists k, (k + j). split; [split; [rewrite Ex1, Ekj; ring|lia]|].
        destruct (Z.le_gt_cases (k + j) w); [lia|exfalso]. 
        assert (Hx3 : x = 2 ^ (k + j) - 2 ^ k) by (rewrite Ex1, Ekj; ring).
        assert (2 ^ (k + j) = 2 * 2 ^ (k + j - 1)) by (apply pow2_half; lia).
        pose proof (pow2_le w (k + j - 1)). pose proof (pow2_le k (k + j - 1)). lia. }
    rewrite Hspec.
    (* wrap of the sum *)
    destruct (Z.lt_ge_cases (x + 2 ^ k) (2 ^ cw)) as [Hlt|Hge].
    + rewrite (to_u_small cw (x + 2 ^ k)) by lia. rewrite Exor.
      assert (Hb : 0 <= 2 ^ k * (2 ^ (j + 1) - 1) < 2 ^ cw).
      { rewrite <- Exor. apply (lxor_bound x (x + 2 ^ k) cw); lia. }
      rewrite to_u_small by lia. rewrite Z.geb_le. rewrite Ex1 at 1. split.
      * intros Hle. apply Z.mul_le_mono_pos_l in Hle; [|lia]. nia.
      * intros ->. apply Z.mul_le_mono_nonneg_l; lia.
    + (* then x + 2^k = 2^cw *)
      assert (Hkc : k < cw). { destruct (Z.lt_ge_cases k cw); [assumption|exfalso]. pose proof (pow2_le cw k). nia. }
      assert (Ec : 2 ^ cw = 2 ^ k * 2 ^ (cw - k)) by (rewrite <- Z.pow_add_r by lia; f_equal; lia).
      assert (Eq : x + 2 ^ k = 2 ^ cw). { rewrite Ex in *. rewrite Ec in *. set (P := 2 ^ (cw - k)) in *. assert (2 * m + 1 < P) by nia. nia. }
      rewrite Eq. unfold to_u at 2. rewrite Z.mod_same by lia. rewrite Z.lxor_0_r, to_u_small by lia.
      rewrite Z.geb_le. split; [intros _|lia].
      (* 2^cw = 2^k 2^j (2q+1) -> q = 0 *)
      rewrite Ex2, Ec in Eq. apply Z.mul_reg_l in Eq; [|lia]. rewrite Ej in Eq.
      destruct (Z.lt_trichotomy (cw - k) j) as [L|[L|L]].
      * pose proof (pow2_lt (cw - k) j). nia.
      * rewrite L in Eq. nia.
      * replace (cw - k) with (j + (cw - k - j)) in Eq by lia. rewrite Z.pow_add_r, (pow2_half (cw - k - j)) in Eq by lia.
        replace (2 ^ j + 2 * 2 ^ j * q) with (2 ^ j * (1 + 2 * q)) in Eq by ring. apply Z.mul_reg_l in Eq; lia.
Qed.
