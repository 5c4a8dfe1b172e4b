(* Queries. *)
From Verif Require Import Base Bits IntOps_Model IntOps_Spec IntOps_Proofs IntOps_Proofs3 IntOps_Props Algorithm_Model Object_Model Object_Spec Object_Proofs
  BitArray_Model BitArray_Spec BitArray_Proofs BitArray_Proofs2 BitArray_Proofs3.
Require Import Permutation.

Lemma unpack_in h os o : ba_wf h os -> In o os -> exists c size n, unpack h o = Ok (c, size) /\ ba_value h o = view size c /\
  words_ok c n /\ 0 <= size <= 32 * n /\ size < 2 ^ 32 /\ zero_tail c size n /\ (size + 31) / 32 <= n.
Proof.
  intros W I. destruct (in_split _ _ I) as (l1 & l2 & ->). apply (unpack_ok h (l1 ++ l2)).
  eapply wf_perm; [|exact W]. apply Permutation_sym, Permutation_middle.
Qed.

Lemma size_q h os o : ba_wf h os -> In o os -> ba_size h o = Ok (len (ba_value h o)).
Proof.
  intros W I. destruct (unpack_in h os o W I) as (c & s & n & U & V & K & S1 & S2 & Zt & LN).
  unfold ba_size. rewrite U. cbn [bind]. now rewrite V, view_len by lia.
Qed.
Lemma has_bit_q h os o i : ba_wf h os -> In o os -> 0 <= i -> ba_has_bit h o i = Ok (bit_at (ba_value h o) i).
Proof.
  intros W I P. destruct (unpack_in h os o W I) as (c & s & n & U & V & K & S1 & S2 & Zt & LN).
  unfold ba_has_bit. rewrite U. cbn [bind]. rewrite V. destruct (Z.leb_spec s i).
  - rewrite bit_at_out; auto. rewrite view_len by lia. lia.
  - rewrite bit_at_view by lia. apply (test_bit_ok c n); auto. lia.
Qed.

(* ---- counting ---- *)
Fixpoint cf (f : Z -> bool) (a : Z) (n : nat) : Z :=
  match n with O => 0 | S n' => Z.b2z (f a) + cf f (a + 1) n' end.
Lemma cf_ext f g n : forall a, (forall j, a <= j < a + Z.of_nat n -> f j = g j) -> cf f a n = cf g a n.
Proof. induction n as [|n IH]; intros a H; cbn [cf]; auto. rewrite H by lia. f_equal. apply IH. intros j J. apply H. lia. Qed.
Lemma cf_shift f d n : forall a, cf f (a + d) n = cf (fun j => f (j + d)) a n.
Proof. induction n as [|n IH]; intros a; cbn [cf]; auto. f_equal. rewrite <- IH. f_equal. lia. Qed.
Lemma cf_app f n m : forall a, cf f a (n + m) = cf f a n + cf f (a + Z.of_nat n) m.
Proof.
  induction n as [|n IH]; intros a. - cbn. f_equal. lia.
  - replace (S n + m)%nat with (S (n + m)) by lia. cbn [cf]. rewrite IH. replace (a + 1 + Z.of_nat n) with (a + Z.of_nat (S n)) by lia. lia.
Qed.
Lemma cf_false f n : forall a, (forall j, a <= j < a + Z.of_nat n -> f j = false) -> cf f a n = 0.
Proof. induction n as [|n IH]; intros a H; cbn [cf]; auto. rewrite H, IH by (intros; try apply H; lia). reflexivity. Qed.
Lemma cf_bound f n : forall a, 0 <= cf f a n <= Z.of_nat n.
Proof. induction n as [|n IH]; intros a; cbn [cf]; [lia|]. specialize (IH (a + 1)). destruct (f a); cbn [Z.b2z]; lia. Qed.
Lemma count_cons b l : count_true (b :: l) = Z.b2z b + count_true l.
Proof. unfold count_true, len. cbn [filter]. destruct b; cbn [length Z.b2z]; lia. Qed.
Lemma count_cf l : count_true l = cf (bit_at l) 0 (length l).
Proof.
  induction l as [|b l IH]; auto. rewrite count_cons. cbn [length cf]. f_equal.
  rewrite IH. replace (0 + 1) with (0 + 1) by lia. rewrite (cf_shift (bit_at (b :: l)) 1 (length l) 0). apply cf_ext. intros j J. unfold bit_at.
  replace (j <? 0) with false by lia. replace (j + 1 <? 0) with false by lia. replace (Z.to_nat (j + 1)) with (S (Z.to_nat j)) by lia. reflexivity.
Qed.
Lemma count_le l n : (length l <= n)%nat -> count_true l = cf (bit_at l) 0 n.
Proof.
  intros L. rewrite count_cf. replace n with (length l + (n - length l))%nat by lia. rewrite cf_app.
  rewrite (cf_false _ (n - length l)); [lia|]. intros j J. apply bit_at_out. unfold len. lia.
Qed.
Lemma bit_at_slice l a b j : 0 <= a -> bit_at (slice l a b) j = if (0 <=? j) && (j <? b - a) then bit_at l (a + j) else false.
Proof.
  intros A. unfold slice. rewrite bit_at_firstn. destruct (Z.leb_spec 0 j); cbn [andb].
  - destruct (Z.ltb_spec j (b - a)).
    + replace (j <? Z.of_nat (Z.to_nat (b - a))) with true by lia. unfold bit_at.
      replace (j <? 0) with false by lia. replace (a + j <? 0) with false by lia.
      rewrite <- (firstn_skipn (Z.to_nat a) l) at 2. destruct (Nat.le_gt_cases (Z.to_nat a) (length l)).
      * rewrite app_nth2 by (rewrite firstn_length; lia). f_equal. rewrite firstn_length. lia.
      * rewrite !nth_overflow; auto; [|rewrite skipn_length; lia]. rewrite app_length, skipn_length, firstn_length. lia.
    + replace (j <? Z.of_nat (Z.to_nat (b - a))) with false by lia. reflexivity.
  - destruct (j <? Z.of_nat (Z.to_nat (b - a))); auto. apply bit_at_out. lia.
Qed.
Lemma count_slice l a b : 0 <= a -> count_true (slice l a b) = cf (bit_at l) a (Z.to_nat (b - a)).
Proof.
  intros A. rewrite (count_le _ (Z.to_nat (b - a))) by (unfold slice; rewrite firstn_length; lia).
  transitivity (cf (bit_at l) (0 + a) (Z.to_nat (b - a))); [|reflexivity]. rewrite cf_shift. apply cf_ext. intros j J. rewrite bit_at_slice by auto.
  replace ((0 <=? j) && (j <? b - a)) with true by lia. f_equal. lia.
Qed.
Lemma bit_count_cf w : bit_count 32 w = cf (wbit w) 0 32.
Proof.
  unfold wbit. cbn [bit_count cf Z.of_nat Pos.of_succ_nat Pos.succ].
  repeat match goal with |- context [cf _ ?a _] => fail end.
  repeat match goal with |- context [Z.testbit w (31 - ?e)] => let v := eval cbv in (31 - e) in progress change (31 - e) with v end.
  repeat match goal with |- context [Z.b2z ?b] => change (Z.b2z b) with (if b then 1 else 0) end. ring.
Qed.
Lemma bit_count_range w f a lo hi : (forall k, 0 <= k < 32 -> wbit w k = (lo <=? k) && (k <? hi) && f (a + k)) -> 0 <= lo -> lo <= hi -> hi <= 32 ->
  bit_count 32 w = cf f (a + lo) (Z.to_nat (hi - lo)).
Proof.
  intros H L1 L2 L3. rewrite bit_count_cf.
  replace 32%nat with (Z.to_nat lo + (Z.to_nat (hi - lo) + Z.to_nat (32 - hi)))%nat by lia. rewrite !cf_app.
  rewrite (cf_false _ (Z.to_nat lo)), (cf_false _ (Z.to_nat (32 - hi))).
  - rewrite Z.add_0_r, Z.add_0_l. replace (0 + Z.of_nat (Z.to_nat lo)) with lo by lia.
    rewrite (Z.add_comm a lo), cf_shift. apply cf_ext. intros j J. rewrite H by lia. 
    replace ((lo <=? j) && (j <? hi)) with true by lia. cbn [andb]. f_equal. lia.
  - intros j J. rewrite H by lia. replace ((lo <=? j) && (j <? hi)) with false by lia. reflexivity.
  - intros j J. rewrite H by lia. replace ((lo <=? j) && (j <? hi)) with false by lia. reflexivity.
Qed.
Lemma read_words_ok c N : words_ok c N -> forall n i, 0 <= i -> i + Z.of_nat n <= N ->
  exists l, read_words n c i = Ok l /\ IntOps_Spec.words 4 l /\ sum_bits 32 l = cf (cbit c) (32 * i) (32 * n).
Proof.
  intros K. induction n as [|n IH]; intros i I L.
  - exists []. split; auto. split; [constructor|]. reflexivity.
  - destruct (rdc_ok c N i K ltac:(lia)) as (w & E & W & _ & B). destruct (IH (i + 1) ltac:(lia) ltac:(lia)) as (l & El & Wl & Bl).
    exists (w :: l). cbn [read_words]. rewrite E. cbn [bind]. rewrite El. cbn [bind]. split; auto. split. { constructor; auto. }
    cbn [sum_bits fold_right]. fold (sum_bits 32 l). rewrite Bl.
    replace (32 * S n)%nat with (32 + 32 * n)%nat by lia. rewrite cf_app.
    rewrite (bit_count_range w (cbit c) (32 * i) 0 32) by (try lia; intros k Hk; rewrite B by auto; replace ((0 <=? k) && (k <? 32)) with true by lia; reflexivity).
    f_equal; f_equal; lia.
Qed.

Lemma cardinality_q h os o : ba_wf h os -> In o os -> ba_cardinality h o = Ok (count_true (ba_value h o)).
Proof.
  intros W I. destruct (unpack_in h os o W I) as (c & s & n & U & V & K & S1 & S2 & Zt & LN).
  unfold ba_cardinality. rewrite U. cbn [bind]. rewrite V. destruct (Z.eqb_spec s 0) as [->|]; [reflexivity|].
  rewrite wcount by lia. destruct (read_words_ok c n K (Z.to_nat ((s + 31) / 32)) 0 ltac:(lia) ltac:(lia)) as (l & E & Wl & B). rewrite E. cbn [bind]. f_equal.
  change (hs_get 4 (fold_left (hs_apply 4) [OpArray l] hs_reset) = count_true (view s c)).
  rewrite C05_harley_seal_history by (auto; repeat constructor; auto). cbn [fold_right hs_op_bits]. change (8 * 4)%nat with 32%nat. rewrite B, Z.add_0_r.
  assert (Q : cf (cbit c) 0 (32 * Z.to_nat ((s + 31) / 32)) = count_true (view s c)).
  { rewrite count_cf, view_length. replace (32 * Z.to_nat ((s + 31) / 32))%nat with (Z.to_nat s + (Z.to_nat (32 * ((s + 31) / 32)) - Z.to_nat s))%nat by lia.
    rewrite cf_app. rewrite (cf_false (cbit c) (Z.to_nat (32 * ((s + 31) / 32)) - Z.to_nat s)).
    - rewrite Z.add_0_r. apply cf_ext. intros j J. rewrite bit_at_view by lia. reflexivity.
    - intros j J. apply Zt. lia. }
  change (32 * 0) with 0. rewrite Q, Z.mod_small; auto. rewrite count_cf, view_length.
  pose proof (cf_bound (bit_at (view s c)) (Z.to_nat s) 0). lia.
Qed.

(* not undefined: the range starts in the first word or spans more than one word *)
Definition card_range_safe (size a b : Z) : Prop := Z.min b size <= a \/ a < 32 \/ a / 32 <> (Z.min b size - 1) / 32.
Lemma cardinality_in_range_q h os o a b : ba_wf h os -> In o os -> 0 <= a -> card_range_safe (len (ba_value h o)) a b ->
  ba_cardinality_in_range h o a b = Ok (count_true (slice (ba_value h o) a b)).
Proof.
  intros W I A SAFE. destruct (unpack_in h os o W I) as (c & s & n & U & V & K & S1 & S2 & Zt & LN).
  unfold ba_cardinality_in_range. rewrite U. cbn [bind]. rewrite V in *. rewrite view_len in SAFE by lia. unfold card_range_safe in SAFE.
  rewrite count_slice by auto. set (e := Z.min b s) in *.
  assert (TR : cf (bit_at (view s c)) a (Z.to_nat (b - a)) = cf (cbit c) a (Z.to_nat (e - a))).
  { replace (Z.to_nat (b - a)) with (Z.to_nat (e - a) + (Z.to_nat (b - a) - Z.to_nat (e - a)))%nat by lia.
    rewrite cf_app. rewrite (cf_false _ (Z.to_nat (b - a) - Z.to_nat (e - a))).
    - rewrite Z.add_0_r. apply cf_ext. intros j J. apply bit_at_view. lia.
    - intros j J. apply bit_at_out. rewrite view_len by lia. lia. }
  rewrite TR. clear TR. assert (ES : e <= s) by lia. assert (SZ : s < 2 ^ 32) by lia.
  clearbody e. destruct (Z.leb_spec e a) as [Q|Q]. { replace (e - a) with (Z.min 0 (e - a)) by lia. replace (Z.to_nat (Z.min 0 (e - a))) with 0%nat by lia. reflexivity. }
  unfold word_index_of. 
  assert (CB : 0 <= cf (cbit c) a (Z.to_nat (e - a)) < 2 ^ 32). { pose proof (cf_bound (cbit c) (Z.to_nat (e - a)) a). lia. }
  destruct (Z.eqb_spec (a / 32) ((e - 1) / 32)) as [Q1|Q1].
  - destruct (start_mask_at_ok (e - a) a ltac:(lia) ltac:(lia)) as (m & Em & Wm & Bm). rewrite Em. cbn [bind].
    destruct (rdc_ok c n (a / 32) K ltac:(lia)) as (w & E & Ww & _ & B). rewrite E. cbn [bind]. f_equal.
    change (hs_get 4 (fold_left (hs_apply 4) [OpItem (Z.land w m)] hs_reset) = cf (cbit c) a (Z.to_nat (e - a))).
    rewrite C05_harley_seal_history; auto. 2:{ repeat constructor; apply (word_land w m Ww). }
    cbn [fold_right hs_op_bits]. change (8 * 4)%nat with 32%nat. rewrite Z.add_0_r.
    rewrite (bit_count_range (Z.land w m) (cbit c) 0 a e); try lia.
    + rewrite Z.add_0_l. apply Z.mod_small. auto.
    + intros k Hk. rewrite wbit_land, Bm, B by auto. replace (a / 32) with 0 by lia. rewrite andb_comm. f_equal; f_equal; lia.
  - destruct (lsb_mask_ok (32 - a mod 32) ltac:(lia)) as (m0 & Em0 & Wm0 & Bm0). unfold non_zero_end_mask. rewrite Em0. cbn [bind].
    destruct (msb_mask_ok ((e - 1) mod 32 + 1) ltac:(lia)) as (m1 & Em1 & Wm1 & Bm1). unfold non_zero_start_mask. rewrite Em1. cbn [bind].
    destruct (rdc_ok c n (a / 32) K ltac:(lia)) as (w0 & E0 & Ww0 & _ & B0). rewrite E0. cbn [bind].
    destruct (read_words_ok c n K (Z.to_nat ((e - 1) / 32 - a / 32 - 1)) (a / 32 + 1) ltac:(lia) ltac:(lia)) as (l & El & Wl & Bl). rewrite El. cbn [bind].
    destruct (rdc_ok c n ((e - 1) / 32) K ltac:(lia)) as (w1 & E1 & Ww1 & _ & B1). rewrite E1. cbn [bind]. f_equal.
    change (hs_get 4 (fold_left (hs_apply 4) [OpItem (Z.land w0 m0); OpArray l; OpItem (Z.land w1 m1)] hs_reset) = cf (cbit c) a (Z.to_nat (e - a))).
    rewrite C05_harley_seal_history; auto. 2:{ repeat constructor; auto; solve [apply (word_land _ _ Ww0)|apply (word_land _ _ Ww1)]. }
    cbn [fold_right hs_op_bits]. change (8 * 4)%nat with 32%nat. rewrite Bl, Z.add_0_r.
    rewrite (bit_count_range (Z.land w0 m0) (cbit c) (32 * (a / 32)) (a mod 32) 32); try lia.
    2:{ intros k Hk. rewrite wbit_land, Bm0, B0 by auto. rewrite andb_comm. f_equal. lia. }
    rewrite (bit_count_range (Z.land w1 m1) (cbit c) (32 * ((e - 1) / 32)) 0 ((e - 1) mod 32 + 1)); try lia.
    2:{ intros k Hk. rewrite wbit_land, Bm1, B1 by auto. rewrite andb_comm. f_equal. lia. }
    assert (SP : cf (cbit c) a (Z.to_nat (e - a)) = cf (cbit c) (32 * (a / 32) + a mod 32) (Z.to_nat (32 - a mod 32)) +
      (cf (cbit c) (32 * (a / 32 + 1)) (32 * Z.to_nat ((e - 1) / 32 - a / 32 - 1)) +
       cf (cbit c) (32 * ((e - 1) / 32) + 0) (Z.to_nat ((e - 1) mod 32 + 1 - 0)))).
    { replace (Z.to_nat (e - a)) with (Z.to_nat (32 - a mod 32) + (32 * Z.to_nat ((e - 1) / 32 - a / 32 - 1) + Z.to_nat ((e - 1) mod 32 + 1 - 0)))%nat by lia.
      rewrite !cf_app. replace (32 * (a / 32) + a mod 32) with a by lia. f_equal. f_equal; f_equal; lia. }
    rewrite <- SP. apply Z.mod_small. auto.
Qed.
