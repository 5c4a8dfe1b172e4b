(* Proofs about the filler of rasterized paths: masks, words of bits. *)
From Verif Require Import Base Algorithm_Model PixelOps_Model IntOps_Model IntOps_Proofs3 Fill_Model Fill_Spec Fill_Proofs Analytic_Model Analytic_Spec.
Ltac Zify.zify_post_hook ::= idtac.

(* ---- the mask ---- *)
Lemma s32_w32 x : - 2 ^ 31 <= x < 2 ^ 31 -> s32 (w32 x) = x.
Proof.
  intros X. unfold s32, w32. change (2 ^ 31) with 2147483648 in *. change (2 ^ 32) with 4294967296.
  destruct (Z.lt_ge_cases x 0).
  - replace (x mod 4294967296) with (x + 4294967296) by (symmetry; rewrite <- (Z_mod_plus_full x 1), Z.mod_small; lia).
    destruct (Z.ltb_spec (x + 4294967296) 2147483648); lia.
  - rewrite Z.mod_small by lia. destruct (Z.ltb_spec x 2147483648); lia.
Qed.
Lemma calc_mask_ok eo alpha c : 0 <= alpha <= 255 -> - 2 ^ 30 <= c <= 2 ^ 30 ->
  calc_mask (w32 (131072 + c)) (rule_mask eo) alpha = fill_mask_of eo alpha c.
Proof.
  intros AL C. unfold calc_mask. change (2 ^ 30) with 1073741824 in C. rewrite (s32_w32 (131072 + c)) by (change (2 ^ 31) with 2147483648; lia).
  rewrite (Z.shiftr_div_pow2 (131072 + c)) by lia. change (2 ^ 9) with 512. replace (131072 + c) with (c + 256 * 512) by lia. rewrite Z.div_add by lia.
  unfold fill_mask_of, non_zero, even_odd, winding256. set (q := c / 512).
  assert (Q : - 2097152 <= q <= 2097152).
  { pose proof (Z.div_mod c 512 ltac:(lia)). pose proof (Z.mod_pos_bound c 512 ltac:(lia)). fold q in H. lia. }
  clearbody q. clear C.
  assert (E : Z.min (w32 (Z.abs (s32 (w32 (Z.land (w32 (q + 256)) (rule_mask eo) - 256))))) 256 = (if eo then Z.min (q mod 512) (512 - q mod 512) else Z.min 256 (Z.abs q))).
  { destruct eo; cbn [rule_mask].
    - change kEvenOddMask with (Z.ones 9). rewrite Z.land_ones by lia. change (2 ^ 9) with 512. unfold w32 at 3.
      replace ((q + 256) mod 4294967296 mod 512) with ((q + 256) mod 512).
      2:{ change 4294967296 with (512 * 8388608). rewrite Z.rem_mul_r by lia. rewrite Z.mul_comm, Z_mod_plus_full, Z.mod_mod by lia. reflexivity. }
      pose proof (Z.mod_pos_bound q 512 ltac:(lia)). pose proof (Z.mod_pos_bound (q + 256) 512 ltac:(lia)).
      rewrite s32_w32 by (change (2 ^ 31) with 2147483648; lia).
      assert (R : (q + 256) mod 512 = if q mod 512 <? 256 then q mod 512 + 256 else q mod 512 - 256).
      { pose proof (Z.div_mod q 512 ltac:(lia)). destruct (Z.ltb_spec (q mod 512) 256).
        - symmetry; apply (Z.mod_unique_pos _ _ (q / 512)); lia.
        - symmetry; apply (Z.mod_unique_pos _ _ (q / 512 + 1)); lia. }
      rewrite R. unfold w32. destruct (Z.ltb_spec (q mod 512) 256); rewrite Z.mod_small by (change (2 ^ 32) with 4294967296; lia); lia.
    - change kNonZeroMask with (Z.ones 32). rewrite Z.land_ones by lia. unfold w32 at 3. rewrite Z.mod_mod by lia.
      assert (X : w32 ((q + 256) mod 2 ^ 32 - 256) = w32 q).
      { unfold w32. rewrite Zminus_mod_idemp_l. f_equal. lia. }
      rewrite X, s32_w32 by (change (2 ^ 31) with 2147483648; lia). unfold w32. rewrite Z.mod_small by (change (2 ^ 32) with 4294967296; lia). apply Z.min_comm. }
  rewrite E. set (r := if eo then _ else _). assert (R : 0 <= r <= 256).
  { unfold r. destruct eo; [pose proof (Z.mod_pos_bound q 512 ltac:(lia))|]; lia. }
  clearbody r. rewrite Z.shiftr_div_pow2 by lia. change (2 ^ 8) with 256. f_equal. unfold w32. apply Z.mod_small. change (2 ^ 32) with 4294967296. nia.
Qed.

(* ---- words ---- *)
Definition word_is (w k : Z) (f : Z -> bool) : Prop := 0 <= w < 2 ^ 64 /\ forall t, 0 <= t < 64 -> Z.testbit w t = f (64 * k + t).
Lemma word_ext w k f g : word_is w k f -> (forall j, 64 * k <= j < 64 * k + 64 -> f j = g j) -> word_is w k g.
Proof. intros [R T] E. split; [exact R|]. intros t H. rewrite T by exact H. apply E. lia. Qed.
Lemma bits_above w t : 0 <= w < 2 ^ 64 -> 64 <= t -> Z.testbit w t = false.
Proof.
  intros W T. destruct (Z.eq_dec w 0) as [->|N]; [apply Z.testbit_0_l|]. apply Z.bits_above_log2; [lia|].
  assert (Z.log2 w < 64) by (apply Z.log2_lt_pow2; lia). lia.
Qed.
Lemma bits_range w : 0 <= w -> (forall t, 64 <= t -> Z.testbit w t = false) -> 0 <= w < 2 ^ 64.
Proof.
  intros W H. split; [exact W|]. destruct (Z.eq_dec w 0) as [->|N]; [lia|]. apply Z.log2_lt_pow2; [lia|].
  destruct (Z.lt_ge_cases (Z.log2 w) 64); [assumption|]. pose proof (H _ H0). rewrite Z.bit_log2 in H1 by lia. discriminate.
Qed.
Lemma word_zero k f : word_is 0 k f -> forall j, 64 * k <= j < 64 * k + 64 -> f j = false.
Proof. intros [_ T] j J. specialize (T (j - 64 * k) ltac:(lia)). rewrite Z.testbit_0_l in T. rewrite T. f_equal. lia. Qed.
Lemma word_nonzero w k f : word_is w k f -> (forall j, 64 * k <= j < 64 * k + 64 -> f j = false) -> w = 0.
Proof.
  intros [R T] F. apply Z.bits_inj_iff'. intros t H. rewrite Z.testbit_0_l. destruct (Z.lt_ge_cases t 64).
  - rewrite T by lia. apply F. lia.
  - apply bits_above; assumption.
Qed.
Lemma find w k f : word_is w k f -> w <> 0 ->
  exists i, ctz64 w = Ok i /\ 0 <= i < 64 /\ f (64 * k + i) = true /\ forall j, 64 * k <= j < 64 * k + i -> f j = false.
Proof.
  intros [R T] N. unfold ctz64. destruct (Z.eqb_spec w 0); [contradiction|].
  pose proof (ctz_fallback_ok 6 w (or_intror eq_refl) ltac:(change (2 ^ Z.of_nat 6) with 64; lia)) as C. cbv zeta in C.
  set (r := ctz_fallback 6 w) in *. clearbody r. change (2 ^ Z.of_nat 6) with 64 in C. destruct C as (RR & D & ND).
  exists r. split; [reflexivity|]. split; [exact RR|]. destruct D as [q Q]. split.
  - rewrite <- T by lia. rewrite Q, Z.mul_pow2_bits by lia. rewrite Z.sub_diag. destruct (Z.testbit q 0) eqn:O; [reflexivity|exfalso].
    apply ND. rewrite Z.bit0_odd in O. rewrite <- Z.negb_even in O. apply negb_false_iff in O. apply Z.even_spec in O. destruct O as [q' ->].
    exists q'. rewrite Z.pow_add_r by lia. lia.
  - intros j J. replace j with (64 * k + (j - 64 * k)) by lia. rewrite <- T by lia. rewrite Q, Z.mul_pow2_bits by lia. apply Z.testbit_neg_r. lia.
Qed.
Lemma xor_end w k f i : word_is w k f -> 0 <= i < 64 ->
  exists tmp, shift_to_end ones i = Ok tmp /\ word_is (Z.lxor w tmp) k (fun j => xorb (f j) (64 * k + i <=? j)).
Proof.
  intros [R T] I. unfold shift_to_end. destruct (Z.ltb_spec i 64); [|lia]. eexists. split; [reflexivity|].
  assert (X : forall t, 0 <= t -> Z.testbit (Z.lxor w (w64 (Z.shiftl ones i))) t = if t <? 64 then xorb (Z.testbit w t) (i <=? t) else false).
  { intros t H0. rewrite Z.lxor_spec. unfold w64. change 18446744073709551616 with (2 ^ 64). destruct (Z.ltb_spec t 64).
    - rewrite Z.mod_pow2_bits_low by lia. rewrite Z.shiftl_spec by lia. change ones with (Z.ones 64). f_equal. destruct (Z.leb_spec i t).
      + apply Z.ones_spec_low. lia.
      + apply Z.testbit_neg_r. lia.
    - rewrite Z.mod_pow2_bits_high by lia. rewrite bits_above by assumption. reflexivity. }
  split.
  - apply bits_range.
    + apply Z.lxor_nonneg. split; intros _; [|lia]. unfold w64. apply Z.mod_pos_bound. lia.
    + intros t H0. rewrite X by lia. destruct (Z.ltb_spec t 64); [lia|reflexivity].
  - intros t H0. rewrite X by lia. destruct (Z.ltb_spec t 64); [|lia]. rewrite T by lia. f_equal.
    destruct (Z.leb_spec i t), (Z.leb_spec (64 * k + i) (64 * k + t)); try lia; reflexivity.
Qed.
Lemma xor_ones w k f : word_is w k f -> word_is (Z.lxor ones w) k (fun j => negb (f j)).
Proof.
  intros H. destruct (xor_end w k f 0 H ltac:(lia)) as (tmp & E & W). unfold shift_to_end in E. cbn [Z.ltb Z.compare] in E.
  rewrite Z.shiftl_0_r in E. injection E as <-. change (w64 ones) with ones in W. rewrite Z.lxor_comm. eapply word_ext; [exact W|].
  intros j J. cbv beta. destruct (Z.leb_spec (64 * k + 0) j); [|lia]. apply xorb_true_r.
Qed.

(* ---- sums ---- *)
Lemma cover_step v x : 0 <= x -> cover v x = cover v (x - 1) + v x.
Proof.
  intros X. unfold cover. replace (Z.to_nat (x + 1)) with (S (Z.to_nat (x - 1 + 1))) by lia. cbn [sum_to]. f_equal. f_equal. lia.
Qed.
Lemma cover_neg v : cover v (-1) = 0.
Proof. reflexivity. Qed.
Lemma cover_flat v a b : -1 <= a <= b -> (forall x, a < x <= b -> v x = 0) -> cover v b = cover v a.
Proof.
  intros H F. replace b with (a + Z.of_nat (Z.to_nat (b - a))) by lia. assert (B : a + Z.of_nat (Z.to_nat (b - a)) <= b) by lia.
  induction (Z.to_nat (b - a)) as [|n IH]; [f_equal; lia|]. rewrite cover_step by lia. rewrite (F (a + Z.of_nat (S n))) by lia.
  replace (a + Z.of_nat (S n) - 1) with (a + Z.of_nat n) by lia. rewrite IH by lia. lia.
Qed.
