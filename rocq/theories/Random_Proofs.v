From Verif Require Import Base Bits Random_Model.

Lemma w64_mod x : w64 x = x mod 2 ^ 64.
Proof. reflexivity. Qed.
Lemma w64_range x : 0 <= w64 x < 2 ^ 64.
Proof. rewrite w64_mod. apply Z.mod_pos_bound. lia. Qed.
Lemma shiftr_range x k : 0 <= k -> 0 <= x < 2 ^ 64 -> 0 <= Z.shiftr x k < 2 ^ 64.
Proof.
  intros Hk Hx. rewrite Z.shiftr_div_pow2 by lia. pose proof (Z.pow_pos_nonneg 2 k). split; [apply Z.div_pos; lia|].
  apply Z.le_lt_trans with x; [|lia]. apply Z.div_le_upper_bound; nia.
Qed.
Lemma lxor64 a b : 0 <= a < 2 ^ 64 -> 0 <= b < 2 ^ 64 -> 0 <= Z.lxor a b < 2 ^ 64.
Proof. intros. apply lxor_bound; lia. Qed.

Lemma splitmix_ok s : 0 < splitmix s < 2 ^ 64.
Proof.
  unfold splitmix. set (x := w64 (Z.lxor (w64 _) _ * _)). pose proof (w64_range (Z.lxor (w64 (Z.lxor s (Z.shiftr s 30) * 0xBF58476D1CE4E5B9)) (Z.shiftr (w64 (Z.lxor s (Z.shiftr s 30) * 0xBF58476D1CE4E5B9)) 27) * 0x94D049BB133111EB)) as Hx.
  fold x in Hx. clearbody x. pose proof (lxor64 x (Z.shiftr x 31) Hx (shiftr_range x 31 ltac:(lia) Hx)).
  destruct (Z.eqb_spec (Z.lxor x (Z.shiftr x 31)) 0); cbn [negb]; [unfold kZeroSeed|]; lia.
Qed.

Lemma reset_seed_ok seed : rstate_ok (reset_seed seed) /\ fst (reset_seed seed) <> 0 /\ snd (reset_seed seed) <> 0.
Proof.
  unfold reset_seed, rstate_ok. cbn [fst snd].
  pose proof (splitmix_ok (w64 (seed + 0x9E3779B97F4A7C15))).
  pose proof (splitmix_ok (w64 (w64 (seed + 0x9E3779B97F4A7C15) + 0x9E3779B97F4A7C15))). lia.
Qed.

Lemma next_state_ok s : rstate_ok s -> rstate_ok (fst (next_uint64 s)).
Proof.
  intros [Hx Hy]. unfold next_uint64, rstate_ok. cbn [fst snd]. unfold kStep1Shift, kStep2Shift, kStep3Shift.
  assert (Hy' := lxor64 _ _ Hy (shiftr_range (snd s) 5 ltac:(lia) Hy)). split; [exact Hy'|].
  assert (Hx1 := lxor64 _ _ Hx (w64_range (Z.shiftl (fst s) 23))).
  apply lxor64; [|exact Hy']. apply lxor64; [exact Hx1|]. apply shiftr_range; [lia|exact Hx1].
Qed.

Lemma next_value_ok s : 0 <= snd (next_uint64 s) < 2 ^ 64.
Proof. apply w64_range. Qed.

(* ---- xor-shift steps are bijections of 64-bit words ---- *)
(* y ^ (y >> k): fixed-point iteration from the top *)
Fixpoint inv_shr (k : Z) (y : Z) (n : nat) : Z :=
  match n with O => 0 | S n => Z.lxor y (Z.shiftr (inv_shr k y n) k) end.
Lemma inv_shr_range k y n : 0 <= k -> 0 <= y < 2 ^ 64 -> 0 <= inv_shr k y n < 2 ^ 64.
Proof. intros Hk Hy. induction n; cbn [inv_shr]; [lia|]. apply lxor64; [lia|]. apply shiftr_range; lia. Qed.
Lemma inv_shr_stable k y n : 0 < k -> 0 <= y < 2 ^ 64 -> forall i, 64 - k * Z.of_nat n <= i -> 0 <= i ->
  Z.testbit (inv_shr k y (S n)) i = Z.testbit (inv_shr k y n) i.
Proof.
  intros Hk Hy. induction n as [|n IH]; intros i Hi Hi0.
  - cbn [inv_shr]. rewrite Z.bits_0, Z.shiftr_0_l, Z.lxor_0_r. apply (testbit_small _ 64); lia.
  - change (inv_shr k y (S (S n))) with (Z.lxor y (Z.shiftr (inv_shr k y (S n)) k)).
    change (inv_shr k y (S n)) with (Z.lxor y (Z.shiftr (inv_shr k y n) k)) at 2.
    rewrite !Z.lxor_spec, !Z.shiftr_spec by lia. f_equal. apply IH; lia.
Qed.
Lemma shr_surj k y : 1 <= k -> 0 <= y < 2 ^ 64 -> exists z, 0 <= z < 2 ^ 64 /\ Z.lxor z (Z.shiftr z k) = y.
Proof.
  intros Hk Hy. exists (inv_shr k y 64). split; [apply inv_shr_range; lia|].
  assert (E : inv_shr k y 65 = inv_shr k y 64).
  { apply Z.bits_inj'. intros i Hi. apply inv_shr_stable; lia. }
  rewrite <- E at 1. change (inv_shr k y 65) with (Z.lxor y (Z.shiftr (inv_shr k y 64) k)).
  rewrite Z.lxor_assoc, Z.lxor_nilpotent, Z.lxor_0_r. reflexivity.
Qed.
Lemma shr_inj k a b : 1 <= k -> 0 <= a < 2 ^ 64 -> 0 <= b < 2 ^ 64 ->
  Z.lxor a (Z.shiftr a k) = Z.lxor b (Z.shiftr b k) -> a = b.
Proof.
  intros Hk Ha Hb E. apply Z.bits_inj'. intros i Hi.
  assert (G : forall n i, 0 <= i -> 64 - Z.of_nat n <= i -> Z.testbit a i = Z.testbit b i).
  { induction n as [|n IH]; intros j Hj Hn.
    - rewrite (testbit_small a 64), (testbit_small b 64) by lia. reflexivity.
    - assert (Z.testbit (Z.lxor a (Z.shiftr a k)) j = Z.testbit (Z.lxor b (Z.shiftr b k)) j) as E2 by now rewrite E.
      rewrite !Z.lxor_spec, !Z.shiftr_spec in E2 by lia. rewrite (IH (j + k)) in E2 by lia.
      destruct (Z.testbit a j), (Z.testbit b j), (Z.testbit b (j + k)); cbn in E2; congruence. }
  apply (G 64%nat i Hi). lia.
Qed.

Definition shl64 (k x : Z) : Z := Z.lxor x (w64 (Z.shiftl x k)).
Lemma w64_shl_bit x k i : 0 <= k -> 0 <= i -> Z.testbit (w64 (Z.shiftl x k)) i = (i <? 64) && Z.testbit x (i - k).
Proof. intros Hk Hi. rewrite w64_mod, mod_pow2_testbit by lia. rewrite Z.shiftl_spec by lia. destruct (i <? 64); reflexivity. Qed.
Fixpoint inv_shl (k : Z) (y : Z) (n : nat) : Z :=
  match n with O => 0 | S n => Z.lxor y (w64 (Z.shiftl (inv_shl k y n) k)) end.
Lemma inv_shl_stable k y n : 0 < k -> forall i, i < k * Z.of_nat n -> 0 <= i ->
  Z.testbit (inv_shl k y (S n)) i = Z.testbit (inv_shl k y n) i.
Proof.
  intros Hk. induction n as [|n IH]; intros i Hi Hi0; [lia|].
  change (inv_shl k y (S (S n))) with (Z.lxor y (w64 (Z.shiftl (inv_shl k y (S n)) k))).
  change (inv_shl k y (S n)) with (Z.lxor y (w64 (Z.shiftl (inv_shl k y n) k))) at 2.
  rewrite !Z.lxor_spec, !w64_shl_bit by lia. destruct (Z.lt_ge_cases i k).
  - rewrite !(Z.testbit_neg_r _ (i - k)) by lia. reflexivity.
  - rewrite IH by lia. reflexivity.
Qed.
Lemma inv_shl_range k y n : 0 <= y < 2 ^ 64 -> 0 <= inv_shl k y n < 2 ^ 64.
Proof. intros Hy. induction n; cbn [inv_shl]; [lia|]. apply lxor64; [lia|]. apply w64_range. Qed.
Lemma shl_surj k y : 1 <= k -> 0 <= y < 2 ^ 64 -> exists z, 0 <= z < 2 ^ 64 /\ shl64 k z = y.
Proof.
  intros Hk Hy. exists (inv_shl k y 64). split; [apply inv_shl_range; lia|].
  assert (E : inv_shl k y 65 = inv_shl k y 64).
  { apply (bits_ext_bounded _ _ 64); try apply inv_shl_range; try lia. intros i Hi. apply inv_shl_stable; lia. }
  unfold shl64. rewrite <- E at 1. change (inv_shl k y 65) with (Z.lxor y (w64 (Z.shiftl (inv_shl k y 64) k))).
  rewrite Z.lxor_assoc, Z.lxor_nilpotent, Z.lxor_0_r. reflexivity.
Qed.
Lemma shl_inj k a b : 1 <= k -> 0 <= a < 2 ^ 64 -> 0 <= b < 2 ^ 64 -> shl64 k a = shl64 k b -> a = b.
Proof.
  intros Hk Ha Hb E. apply (bits_ext_bounded _ _ 64); try lia. intros i Hi.
  assert (G : forall n i, 0 <= i < 64 -> i < Z.of_nat n -> Z.testbit a i = Z.testbit b i).
  { induction n as [|n IH]; intros j Hj Hn; [lia|].
    assert (Z.testbit (shl64 k a) j = Z.testbit (shl64 k b) j) as E2 by now rewrite E.
    unfold shl64 in E2. rewrite !Z.lxor_spec, !w64_shl_bit in E2 by lia.
    assert (Z.testbit a (j - k) = Z.testbit b (j - k)) as E3.
    { destruct (Z.lt_ge_cases j k); [rewrite !Z.testbit_neg_r by lia; reflexivity|]. apply IH; lia. }
    rewrite E3 in E2. destruct (Z.testbit a j), (Z.testbit b j), ((j <? 64) && Z.testbit b (j - k)); cbn in E2; congruence. }
  apply (G 64%nat i); lia.
Qed.

Lemma lxor_inj_r a b c : Z.lxor a c = Z.lxor b c -> a = b.
Proof. intros H. assert (Z.lxor (Z.lxor a c) c = Z.lxor (Z.lxor b c) c) as E by now rewrite H.
  now rewrite !Z.lxor_assoc, Z.lxor_nilpotent, !Z.lxor_0_r in E. Qed.

Lemma next_inj s t : rstate_ok s -> rstate_ok t -> fst (next_uint64 s) = fst (next_uint64 t) -> s = t.
Proof.
  destruct s as [x y], t as [x' y']. intros [Hx Hy] [Hx' Hy']. unfold next_uint64. cbn [fst snd] in *.
  unfold kStep1Shift, kStep2Shift, kStep3Shift. intros E.
  pose proof (f_equal fst E) as E1. pose proof (f_equal snd E) as E2. cbn [fst snd] in E1, E2. clear E.
  apply shr_inj in E1; [|lia|lia|lia]. subst y'. apply lxor_inj_r in E2.
  fold (shl64 23 x) in E2. fold (shl64 23 x') in E2.
  apply shr_inj in E2; [| lia | apply lxor64; [lia|apply w64_range] | apply lxor64; [lia|apply w64_range] ].
  apply shl_inj in E2; [congruence|lia|lia|lia].
Qed.

Lemma next_surj t : rstate_ok t -> exists s, rstate_ok s /\ fst (next_uint64 s) = t.
Proof.
  destruct t as [y' x']. intros [Hy Hx]. cbn [fst snd] in *.
  destruct (shr_surj 5 y' ltac:(lia) Hy) as (y & Ry & Ey).
  assert (H := lxor64 _ _ Hx Hy). destruct (shr_surj 18 _ ltac:(lia) H) as (x1 & Rx1 & Ex1).
  destruct (shl_surj 23 x1 ltac:(lia) Rx1) as (x & Rx & Ex).
  exists (x, y). split; [split; cbn; lia|]. unfold next_uint64. cbn [fst snd]. unfold kStep1Shift, kStep2Shift, kStep3Shift.
  rewrite Ey. fold (shl64 23 x). rewrite Ex, Ex1. rewrite Z.lxor_assoc, Z.lxor_nilpotent, Z.lxor_0_r. reflexivity.
Qed.

Lemma next_zero : fst (next_uint64 (0, 0)) = (0, 0).
Proof. reflexivity. Qed.

Lemma next_nonzero s : rstate_ok s -> s <> (0, 0) -> fst (next_uint64 s) <> (0, 0).
Proof. intros Hs Hn E. apply Hn. apply next_inj; [exact Hs|split; cbn; lia|]. rewrite E. symmetry. apply next_zero. Qed.

Lemma next_uint32_ok s : snd (next_uint32 s) = snd (next_uint64 s) / 2 ^ 32 /\ fst (next_uint32 s) = fst (next_uint64 s)
  /\ 0 <= snd (next_uint32 s) < 2 ^ 32.
Proof.
  unfold next_uint32. pose proof (next_value_ok s). destruct (next_uint64 s) as [s' v]. cbn [fst snd] in *.
  rewrite Z.shiftr_div_pow2 by lia. unfold w32. change 4294967296 with (2 ^ 32).
  assert (0 <= v / 2 ^ 32 < 2 ^ 32).
  { split; [apply Z.div_pos; lia|]. apply Z.div_lt_upper_bound; [lia|]. change (2 ^ 32 * 2 ^ 32) with (2 ^ 64). lia. }
  rewrite Z.mod_small by lia. auto.
Qed.

(* ---- linearity and matrix powers ---- *)
Definition vxor (a b : rstate) : rstate := (Z.lxor (fst a) (fst b), Z.lxor (snd a) (snd b)).
Definition step (s : rstate) : rstate := fst (next_uint64 s).

Lemma wrap_lxor a b : w64 (Z.lxor a b) = Z.lxor (w64 a) (w64 b).
Proof.
  apply Z.bits_inj'. intros i Hi. rewrite Z.lxor_spec, !w64_mod, !mod_pow2_testbit by lia. rewrite Z.lxor_spec.
  destruct (i <? 64); reflexivity.
Qed.
Lemma lxor_4 a b c d : Z.lxor (Z.lxor a b) (Z.lxor c d) = Z.lxor (Z.lxor a c) (Z.lxor b d).
Proof. rewrite !Z.lxor_assoc. f_equal. rewrite <- !Z.lxor_assoc. f_equal. apply Z.lxor_comm. Qed.
Lemma step_linear a b : step (vxor a b) = vxor (step a) (step b).
Proof.
  unfold step, next_uint64, vxor. cbn [fst snd]. rewrite !Z.shiftl_lxor, wrap_lxor.
  rewrite !Z.shiftr_lxor. f_equal.
  - rewrite lxor_4. reflexivity.
  - set (x1 := fst a). set (x2 := fst b). set (y1 := snd a). set (y2 := snd b). clearbody x1 x2 y1 y2.
    set (p1 := w64 (Z.shiftl x1 kStep1Shift)). set (p2 := w64 (Z.shiftl x2 kStep1Shift)).

    apply Z.bits_inj'. intros i Hi. rewrite !Z.lxor_spec.
    repeat match goal with |- context [Z.testbit ?z i] => destruct (Z.testbit z i) end; reflexivity.
Qed.
