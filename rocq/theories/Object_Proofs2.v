(* Growth policy. *)
From Verif Require Import Base Bits IntOps_Model IntOps_Spec IntOps_Proofs IntOps_Proofs3 Object_Model.

Lemma grow_ok x : 0 <= x < 2 ^ 63 - 1 -> exists k, 0 <= k < 64 /\ grow_impl_size_to_power_of_2 x = Ok (2 ^ k) /\ 2 ^ (k - 1) <= x + 1 < 2 ^ k.
Proof.
  intros X. unfold grow_impl_size_to_power_of_2.
  replace (w64 (x + 1)) with (x + 1) by (unfold w64; rewrite Z.mod_small; lia).
  replace (x + 1 =? 0) with false by lia.
  pose proof (clz_fallback_ok 6 (x + 1) ltac:(auto)) as H. cbv zeta in H. change (2 ^ Z.of_nat 6) with 64 in H.
  specialize (H ltac:(lia)). set (r := clz_fallback 6 (x + 1)) in *. destruct H as (R & H). clearbody r.
  assert (N : r <> 0). { intros ->. change (2 ^ (64 - 1 - 0)) with (2 ^ 63) in H. lia. }
  replace (64 - r <? 64) with true by lia. exists (64 - r). split; [lia|]. split.
  - f_equal. rewrite Z.shiftl_1_l. unfold w64. apply Z.mod_small. split. { apply Z.pow_nonneg; lia. }
    change 18446744073709551616 with (2 ^ 64). apply Z.pow_lt_mono_r; lia.
  - replace (64 - r - 1) with (64 - 1 - r) by lia. exact H.
Qed.

Lemma shiftr_2 s : Z.shiftr s 2 = s / 4. Proof. apply Z.shiftr_div_pow2. lia. Qed.
Lemma shiftr_3 s : Z.shiftr s 3 = s / 8. Proof. apply Z.shiftr_div_pow2. lia. Qed.

Lemma expand_ok s : 0 <= s < 2 ^ 64 -> exists r, expand_impl_size s = Ok r /\ s <= r < 2 ^ 64 /\
  (s < BL_ALLOC_GROW_LIMIT -> exists k, 0 <= k <= 24 /\ r = 2 ^ k /\ 2 ^ (k - 1) <= s + 1 < r) /\
  (BL_ALLOC_GROW_LIMIT <= s -> s + s / 4 + s / 8 < 2 ^ 64 -> r = s + s / 4 + s / 8).
Proof.
  intros S. unfold expand_impl_size. rewrite shiftr_2, shiftr_3. unfold BL_ALLOC_GROW_LIMIT. destruct (Z.leb_spec (2 ^ 23) s).
  - cbn [bind]. eexists; split; [reflexivity|]. split; [|split].
    + unfold w64. pose proof (Z.mod_pos_bound ((s + s / 4) mod 18446744073709551616 + s / 8) 18446744073709551616 ltac:(lia)). lia.
    + lia.
    + intros _ L. unfold w64. rewrite (Z.mod_small (s + s / 4)) by lia. rewrite Z.mod_small by lia. lia.
  - destruct (grow_ok s ltac:(lia)) as (k & K & E & P). rewrite E. cbn [bind].
    assert (K24 : k <= 24).
    { destruct (Z.le_gt_cases k 24); auto. exfalso. assert (2 ^ 24 <= 2 ^ (k - 1)) by (apply Z.pow_le_mono_r; lia). lia. }
    assert (2 ^ k <= 2 ^ 24) by (apply Z.pow_le_mono_r; lia).
    exists (2 ^ k). split; [f_equal; lia|]. split; [lia|]. split; [|lia].
    intros _. exists k. split; [lia|]. split; [reflexivity|]. lia.
Qed.

Lemma expand_bound s r : 0 <= s < 2 ^ 62 -> expand_impl_size s = Ok r -> s <= r /\ r <= 2 * s + 2.
Proof.
  intros S E. destruct (expand_ok s ltac:(lia)) as (r' & E' & B & L1 & L2). rewrite E in E'. injection E' as <-.
  split; [lia|]. unfold BL_ALLOC_GROW_LIMIT in *. destruct (Z.lt_ge_cases s (2 ^ 23)) as [Q|Q].
  - destruct (L1 Q) as (k & K & -> & P). destruct (Z.eq_dec k 0) as [->|]. { cbn in *. lia. }
    replace (2 ^ k) with (2 * 2 ^ (k - 1)) by (rewrite <- Z.pow_succ_r by lia; f_equal; lia). lia.
  - rewrite L2 by lia. lia.
Qed.
