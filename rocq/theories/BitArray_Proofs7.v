(* Range and set queries, equality and order. *)
From Verif Require Import Base Bits IntOps_Model IntOps_Spec IntOps_Proofs IntOps_Proofs3 Algorithm_Model Object_Model Object_Spec Object_Proofs
  BitArray_Model BitArray_Spec BitArray_Proofs BitArray_Proofs2 BitArray_Proofs3 BitArray_Proofs6.

Lemma word_zero_dec w : word w -> if w =? 0 then (forall k, 0 <= k < 32 -> wbit w k = false) else exists k, 0 <= k < 32 /\ wbit w k = true.
Proof.
  intros W. pose proof (word_zero w W) as Q. destruct (Z.eqb_spec w 0) as [->|N]; [now apply Q|].
  assert (P : 0 < w) by (unfold word in W; lia). exists (31 - Z.log2 w). pose proof (Z.log2_nonneg w).
  assert (Z.log2 w < 32) by (apply Z.log2_lt_pow2; unfold word in W; lia).
  split; [lia|]. unfold wbit. replace (31 - (31 - Z.log2 w)) with (Z.log2 w) by lia. apply Z.bit_log2. auto.
Qed.

Lemma any_word_ok c N : words_ok c N -> forall n i, 0 <= i -> i + Z.of_nat n <= N ->
  exists b, any_word n c i = Ok b /\ (b = true <-> exists j, 32 * i <= j < 32 * (i + Z.of_nat n) /\ cbit c j = true).
Proof.
  intros K. induction n as [|n IH]; intros i I L.
  - exists false. split; auto. split; [discriminate|]. intros (j & J & _). lia.
  - destruct (rdc_ok c N i K ltac:(lia)) as (w & E & W & _ & B). cbn [any_word]. rewrite E. cbn [bind].
    pose proof (word_zero_dec w W) as Q. destruct (w =? 0).
    + destruct (IH (i + 1) ltac:(lia) ltac:(lia)) as (b & Eb & Hb). exists b. split; auto. rewrite Hb. split; intros (j & J & C).
      * exists j. split; auto. lia.
      * exists j. split; auto. destruct (Z.lt_ge_cases j (32 * (i + 1))); [|lia]. specialize (Q (j - 32 * i) ltac:(lia)). rewrite B in Q by lia.
        replace (32 * i + (j - 32 * i)) with j in Q by lia. congruence.
    + exists true. split; auto. split; auto. intros _. destruct Q as (k & Hk & D). exists (32 * i + k). split; [lia|]. now rewrite <- B.
Qed.

Lemma bit_view_iff s c i : 0 <= s -> bit_at (view s c) i = true <-> 0 <= i < s /\ cbit c i = true.
Proof.
  intros S0. destruct (Z.lt_ge_cases i 0). { rewrite bit_at_out by auto. split; [discriminate|lia]. }
  destruct (Z.lt_ge_cases i s). { rewrite bit_at_view by lia. intuition lia. }
  rewrite bit_at_out by (rewrite view_len; lia). split; [discriminate|lia].
Qed.

(* ---- has_bits_in_range ---- *)
Definition any_in (l : list bool) (a b : Z) : Prop := exists i, a <= i < b /\ bit_at l i = true.
Definition has_range_safe (size a b : Z) : Prop :=
  Z.min size b <= a \/ (Z.min size b mod 32 <> 0 /\ (a < 32 \/ a / 32 <> Z.min size b / 32)).
Lemma has_bits_q h os o a b : ba_wf h os -> In o os -> 0 <= a -> has_range_safe (len (ba_value h o)) a b ->
  exists r, ba_has_bits_in_range h o a b = Ok r /\ (r = true <-> any_in (ba_value h o) a b).
Proof.
  intros W I A SAFE. destruct (unpack_in h os o W I) as (c & s & n & U & V & K & S1 & S2 & Zt & LN).
  unfold ba_has_bits_in_range. rewrite U. cbn [bind]. rewrite V in *. rewrite view_len in SAFE by lia. unfold has_range_safe in SAFE.
  assert (AN : any_in (view s c) a b <-> exists i, a <= i < Z.min s b /\ cbit c i = true).
  { unfold any_in. split; intros (i & J & C). - apply bit_view_iff in C; [|lia]. exists i. split; [lia|tauto].
    - exists i. split; [lia|]. apply bit_view_iff; [lia|]. split; auto. lia. }
  set (e := Z.min s b) in *. assert (ES : e <= s) by lia. clearbody e. clear V.
  destruct (Z.leb_spec e a) as [Q|Q]. { exists false. split; auto. split; [discriminate|]. intros H. apply AN in H. destruct H as (i & J & _). lia. }
  destruct SAFE as [?|(SA & SB)]; [lia|]. unfold word_index_of.
  assert (ZD : forall w m lo hi wi, word w -> (forall k, 0 <= k < 32 -> wbit w k = cbit c (32 * wi + k)) ->
     (forall k, 0 <= k < 32 -> wbit m k = (lo <=? 32 * wi + k) && (32 * wi + k <? hi)) -> 32 * wi <= lo -> hi <= 32 * (wi + 1) ->
     negb (Z.land w m =? 0) = true <-> exists i, lo <= i < hi /\ cbit c i = true).
  { intros w m lo hi wi Ww B Bm L H. pose proof (word_zero_dec _ (word_land w m Ww)) as D. destruct (Z.land w m =? 0); cbn [negb].
    - split; [discriminate|]. intros (i & J & C). specialize (D (i - 32 * wi) ltac:(lia)). rewrite wbit_land, B, Bm in D by lia.
      replace (32 * wi + (i - 32 * wi)) with i in D by lia. rewrite C in D. lia.
    - split; auto. intros _. destruct D as (k & Hk & D). rewrite wbit_land, B, Bm in D by lia. exists (32 * wi + k).
      apply andb_prop in D. destruct D as [D1 D2]. split; auto. lia. }
  destruct (Z.eqb_spec (a / 32) (e / 32)) as [Q1|Q1].
  - destruct (start_mask_at_ok (e - a) a ltac:(lia) ltac:(lia)) as (m & Em & Wm & Bm). rewrite Em. cbn [bind].
    destruct (rdc_ok c n (a / 32) K ltac:(lia)) as (w & E & Ww & _ & B). rewrite E. cbn [bind]. eexists. split; [reflexivity|].
    rewrite AN. apply (ZD w m a e (a / 32)); auto; try lia. intros k Hk. rewrite Bm by auto. replace (a / 32) with 0 by lia. f_equal; lia.
  - destruct (lsb_mask_ok (32 - a mod 32) ltac:(lia)) as (m0 & Em0 & Wm0 & Bm0). unfold non_zero_end_mask. rewrite Em0. cbn [bind].
    destruct (rdc_ok c n (a / 32) K ltac:(lia)) as (w0 & E0 & Ww0 & _ & B0). rewrite E0. cbn [bind].
    assert (Z0 : negb (Z.land w0 m0 =? 0) = true <-> exists i, a <= i < 32 * (a / 32 + 1) /\ cbit c i = true).
    { apply (ZD w0 m0 a _ (a / 32)); auto; try lia. intros k Hk. rewrite Bm0 by auto. lia. }
    destruct (negb (Z.land w0 m0 =? 0)).
    { exists true. split; auto. split; auto. intros _. apply AN. destruct Z0 as [Z0 _]. destruct (Z0 eq_refl) as (i & J & C). exists i. split; auto. lia. }
    destruct (any_word_ok c n K (Z.to_nat (e / 32 - (a / 32 + 1))) (a / 32 + 1) ltac:(lia) ltac:(lia)) as (b1 & E1 & H1). rewrite E1. cbn [bind].
    destruct b1.
    { exists true. split; auto. split; auto. intros _. apply AN. destruct H1 as [H1 _]. destruct (H1 eq_refl) as (i & J & C). exists i. split; auto. lia. }
    destruct (msb_mask_ok (e mod 32) ltac:(lia)) as (m1 & Em1 & Wm1 & Bm1). unfold non_zero_start_mask. rewrite Em1. cbn [bind].
    destruct (rdc_ok c n (e / 32) K ltac:(lia)) as (w1 & E2 & Ww1 & _ & B1). rewrite E2. cbn [bind]. eexists. split; [reflexivity|].
    rewrite (ZD w1 m1 (32 * (e / 32)) e (e / 32)); auto; try lia. 2:{ intros k Hk. rewrite Bm1 by auto. lia. }
    rewrite AN. split; intros (i & J & C).
    + exists i. split; auto. lia.
    + exists i. split; auto. destruct (Z.lt_ge_cases i (32 * (a / 32 + 1))).
      { exfalso. destruct Z0 as [_ Z0]. discriminate Z0. exists i. split; auto. lia. }
      destruct (Z.lt_ge_cases i (32 * (e / 32))); [|lia].
      exfalso. destruct H1 as [_ H1]. discriminate H1. exists i. split; auto. lia.
Qed.

(* ---- subsumes, intersects ---- *)
Lemma subsumes_loop_ok a b N M : words_ok a N -> words_ok b M -> forall n i, 0 <= i -> i + Z.of_nat n <= N -> i + Z.of_nat n <= M ->
  exists r, subsumes_loop n a b i = Ok r /\ (r = true <-> forall j, 32 * i <= j < 32 * (i + Z.of_nat n) -> cbit b j = true -> cbit a j = true).
Proof.
  intros KA KB. induction n as [|n IH]; intros i I LA LB.
  - exists true. split; auto. split; auto. intros _ j J. lia.
  - destruct (rdc_ok a N i KA ltac:(lia)) as (x & Ex & Wx & _ & Bx). destruct (rdc_ok b M i KB ltac:(lia)) as (y & Ey & Wy & _ & By).
    cbn [subsumes_loop]. rewrite Ex. cbn [bind]. rewrite Ey. cbn [bind].
    assert (Q : Z.land x y = y <-> forall j, 32 * i <= j < 32 * (i + 1) -> cbit b j = true -> cbit a j = true).
    { split.
      - intros EQ j J C. specialize (Bx (j - 32 * i) ltac:(lia)). specialize (By (j - 32 * i) ltac:(lia)).
        replace (32 * i + (j - 32 * i)) with j in * by lia. rewrite <- EQ, wbit_land, C in By. rewrite Bx in By. now destruct (cbit a j).
      - intros H. apply word_ext; auto. { now apply word_land. } intros k Hk. rewrite wbit_land, Bx, By by auto.
        specialize (H (32 * i + k) ltac:(lia)). destruct (cbit b (32 * i + k)); [rewrite H by auto; reflexivity|apply andb_false_r]. }
    destruct (Z.eqb_spec (Z.land x y) y) as [E|E].
    + destruct (IH (i + 1) ltac:(lia) ltac:(lia) ltac:(lia)) as (r & Er & Hr). exists r. split; auto. rewrite Hr.
      split; intros H j J C. * destruct (Z.lt_ge_cases j (32 * (i + 1))); [apply Q; auto; lia|apply H; auto; lia]. * apply H; auto. lia.
    + exists false. split; auto. split; [discriminate|]. intros H. exfalso. apply E, Q. intros j J. apply H. lia.
Qed.
Lemma subsumes_q h os a b : ba_wf h os -> In a os -> In b os -> exists r, ba_subsumes h a b = Ok r /\ (r = true <-> l_subsumes (ba_value h a) (ba_value h b)).
Proof.
  intros W IA IB. destruct (unpack_in h os a W IA) as (ca & sa & na & Ua & Va & Ka & S1a & S2a & Zta & LNa).
  destruct (unpack_in h os b W IB) as (cb & sb & nb & Ub & Vb & Kb & S1b & S2b & Ztb & LNb).
  unfold ba_subsumes. rewrite Ua. cbn [bind]. rewrite Ub. cbn [bind]. rewrite !wcount by lia. rewrite Va, Vb.
  set (sh := (Z.min sa sb + 31) / 32).
  assert (SU : l_subsumes (view sa ca) (view sb cb) <-> forall j, 0 <= j < 32 * ((sb + 31) / 32) -> cbit cb j = true -> j < sa /\ cbit ca j = true).
  { unfold l_subsumes. split.
    - intros H j J C. specialize (H j). rewrite !bit_view_iff in H by lia. destruct (Z.lt_ge_cases j sb). { pose proof (H ltac:(split; [lia|auto])) as X. split; [lia|tauto]. }
      rewrite Ztb in C by lia. discriminate.
    - intros H j C. apply bit_view_iff in C; [|lia]. apply bit_view_iff; [lia|]. destruct (H j ltac:(lia) ltac:(tauto)). split; auto. lia. }
  destruct (subsumes_loop_ok ca cb na nb Ka Kb (Z.to_nat sh) 0 ltac:(lia) ltac:(lia) ltac:(lia)) as (r & Er & Hr). rewrite Er. cbn [bind].
  destruct r; cbn [negb].
  - destruct (any_word_ok cb nb Kb (Z.to_nat ((sb + 31) / 32 - sh)) sh ltac:(lia) ltac:(lia)) as (x & Ex & Hx). rewrite Ex. cbn [bind].
    exists (negb x). split; auto. rewrite SU. assert (NX : negb x = true <-> ~ (x = true)) by (destruct x; cbn; intuition congruence). rewrite NX, Hx.
    pose proof (proj1 Hr eq_refl) as HR. split.
    + intros H j J C. destruct (Z.lt_ge_cases j (32 * sh)).
      * assert (CA : cbit ca j = true) by (apply HR; auto; lia). split; auto. destruct (Z.lt_ge_cases j sa); auto.
        rewrite Zta in CA by lia. discriminate.
      * exfalso. apply H. exists j. split; auto. lia.
    + intros H (j & J & C). destruct (H j ltac:(lia) C) as [L CA]. 
      assert (cbit cb j = false); [|congruence]. lia.
  - exists false. split; auto. split; [discriminate|]. intros H. exfalso. rewrite SU in H. discriminate (proj2 Hr).
    intros j J C. apply H; auto. lia.
Qed.
Lemma intersects_loop_ok a b N M : words_ok a N -> words_ok b M -> forall n i, 0 <= i -> i + Z.of_nat n <= N -> i + Z.of_nat n <= M ->
  exists r, intersects_loop n a b i = Ok r /\ (r = true <-> exists j, 32 * i <= j < 32 * (i + Z.of_nat n) /\ cbit a j = true /\ cbit b j = true).
Proof.
  intros KA KB. induction n as [|n IH]; intros i I LA LB.
  - exists false. split; auto. split; [discriminate|]. intros (j & J & _). lia.
  - destruct (rdc_ok a N i KA ltac:(lia)) as (x & Ex & Wx & _ & Bx). destruct (rdc_ok b M i KB ltac:(lia)) as (y & Ey & Wy & _ & By).
    cbn [intersects_loop]. rewrite Ex. cbn [bind]. rewrite Ey. cbn [bind].
    pose proof (word_zero_dec _ (word_land x y Wx)) as D. destruct (Z.land x y =? 0).
    + destruct (IH (i + 1) ltac:(lia) ltac:(lia) ltac:(lia)) as (r & Er & Hr). exists r. split; auto. rewrite Hr.
      split; intros (j & J & CA & CB). * exists j. split; auto. lia. * exists j. split; auto. destruct (Z.lt_ge_cases j (32 * (i + 1))); [|lia].
      specialize (D (j - 32 * i) ltac:(lia)). rewrite wbit_land, Bx, By in D by lia. replace (32 * i + (j - 32 * i)) with j in D by lia. rewrite CA, CB in D. discriminate.
    + exists true. split; auto. split; auto. intros _. destruct D as (k & Hk & D). rewrite wbit_land, Bx, By in D by lia. apply andb_prop in D.
      exists (32 * i + k). split; [lia|tauto].
Qed.
Lemma intersects_q h os a b : ba_wf h os -> In a os -> In b os -> exists r, ba_intersects h a b = Ok r /\ (r = true <-> l_intersects (ba_value h a) (ba_value h b)).
Proof.
  intros W IA IB. destruct (unpack_in h os a W IA) as (ca & sa & na & Ua & Va & Ka & S1a & S2a & Zta & LNa).
  destruct (unpack_in h os b W IB) as (cb & sb & nb & Ub & Vb & Kb & S1b & S2b & Ztb & LNb).
  unfold ba_intersects. rewrite Ua. cbn [bind]. rewrite Ub. cbn [bind]. rewrite !wcount by lia. rewrite Va, Vb.
  destruct (intersects_loop_ok ca cb na nb Ka Kb (Z.to_nat ((Z.min sa sb + 31) / 32)) 0 ltac:(lia) ltac:(lia) ltac:(lia)) as (r & Er & Hr).
  exists r. split; auto. rewrite Hr. unfold l_intersects. split.
  - intros (j & J & CA & CB). exists j. rewrite !bit_view_iff by lia.
    assert (j < sa). { destruct (Z.lt_ge_cases j sa); auto. rewrite Zta in CA by lia. discriminate. }
    assert (j < sb). { destruct (Z.lt_ge_cases j sb); auto. rewrite Ztb in CB by lia. discriminate. }
    split; (split; [lia|auto]).
  - intros (j & CA & CB). rewrite bit_view_iff in CA, CB by lia. exists j. split; [lia|tauto].
Qed.

(* ---- get_range ---- *)
Lemma bit_at_cons b l i : bit_at (b :: l) (i + 1) = if i =? -1 then b else bit_at l i.
Proof.
  destruct (Z.eqb_spec i (-1)) as [->|]. { reflexivity. } unfold bit_at. destruct (Z.ltb_spec i 0).
  - replace (i + 1 <? 0) with true by lia. reflexivity.
  - replace (i + 1 <? 0) with false by lia. replace (Z.to_nat (i + 1)) with (S (Z.to_nat i)) by lia. reflexivity.
Qed.
Lemma first_true_spec l : forall d, match first_true l d with
  | Some i => d <= i < d + len l /\ bit_at l (i - d) = true /\ forall j, j < i - d -> bit_at l j = false
  | None => forall j, bit_at l j = false end.
Proof.
  induction l as [|b l IH]; intros d; cbn [first_true].
  - intros j. unfold bit_at. destruct (j <? 0); auto. now destruct (Z.to_nat j).
  - unfold len in *. cbn [length]. destruct b.
    + split; [lia|]. rewrite Z.sub_diag. split; [reflexivity|]. intros j J. apply bit_at_out. lia.
    + specialize (IH (d + 1)). destruct (first_true l (d + 1)) as [i|].
      * destruct IH as (I & B & P). split; [lia|]. split.
        -- replace (i - d) with ((i - d - 1) + 1) by lia. rewrite bit_at_cons. replace (i - d - 1 =? -1) with false by lia. replace (i - d - 1) with (i - (d + 1)) by lia. auto.
        -- intros j J. replace j with ((j - 1) + 1) by lia. rewrite bit_at_cons. destruct (j - 1 =? -1); auto. apply P. lia.
      * intros j. replace j with ((j - 1) + 1) by lia. rewrite bit_at_cons. destruct (j - 1 =? -1); auto.
Qed.
Lemma last_true_spec l : forall d, match last_true l d with
  | Some i => d < i <= d + len l /\ bit_at l (i - d - 1) = true /\ forall j, i - d <= j -> bit_at l j = false
  | None => forall j, bit_at l j = false end.
Proof.
  induction l as [|b l IH]; intros d; cbn [last_true].
  - intros j. unfold bit_at. destruct (j <? 0); auto. now destruct (Z.to_nat j).
  - unfold len in *. cbn [length]. specialize (IH (d + 1)). destruct (last_true l (d + 1)) as [i|].
    + destruct IH as (I & B & P). split; [lia|]. split.
      * replace (i - d - 1) with ((i - d - 2) + 1) by lia. rewrite bit_at_cons. replace (i - d - 2 =? -1) with false by lia. replace (i - d - 2) with (i - (d + 1) - 1) by lia. auto.
      * intros j J. replace j with ((j - 1) + 1) by lia. rewrite bit_at_cons. replace (j - 1 =? -1) with false by lia. apply P. lia.
    + destruct b.
      * split; [lia|]. replace (d + 1 - d - 1) with 0 by lia. split; [reflexivity|]. intros j J. replace j with ((j - 1) + 1) by lia. rewrite bit_at_cons.
        replace (j - 1 =? -1) with false by lia. auto.
      * intros j. replace j with ((j - 1) + 1) by lia. rewrite bit_at_cons. destruct (j - 1 =? -1); auto.
Qed.
Lemma first_true_intro l i : bit_at l i = true -> (forall j, j < i -> bit_at l j = false) -> first_true l 0 = Some i.
Proof.
  intros B P. pose proof (first_true_spec l 0) as Q. destruct (first_true l 0) as [k|].
  - destruct Q as (K & BK & PK). replace (k - 0) with k in * by lia. f_equal. destruct (Z.lt_trichotomy k i) as [L|[L|L]]; auto.
    + rewrite P in BK by auto. discriminate. + rewrite PK in B by auto. discriminate.
  - rewrite Q in B. discriminate.
Qed.
Lemma last_true_intro l i : bit_at l (i - 1) = true -> (forall j, i <= j -> bit_at l j = false) -> last_true l 0 = Some i.
Proof.
  intros B P. pose proof (last_true_spec l 0) as Q. destruct (last_true l 0) as [k|].
  - destruct Q as (K & BK & PK). replace (k - 0) with k in * by lia. f_equal. destruct (Z.lt_trichotomy k i) as [L|[L|L]]; auto.
    + rewrite PK in B by lia. discriminate. + rewrite P in BK by lia. discriminate.
  - rewrite Q in B. discriminate.
Qed.
Lemma none_intro l : (forall j, bit_at l j = false) -> first_true l 0 = None /\ last_true l 0 = None.
Proof.
  intros H. pose proof (first_true_spec l 0) as Q1. pose proof (last_true_spec l 0) as Q2. split.
  - destruct (first_true l 0); auto. destruct Q1 as (_ & B & _). rewrite H in B. discriminate.
  - destruct (last_true l 0); auto. destruct Q2 as (_ & B & _). rewrite H in B. discriminate.
Qed.

Lemma czs_ok w : word w -> w <> 0 -> forall r, r = count_zeros_from_start w -> 0 <= r < 32 /\ wbit w r = true /\ forall k, 0 <= k < r -> wbit w k = false.
Proof.
  intros W N r ->. pose proof (clz_fallback_ok 5 w (or_introl eq_refl)) as Q. cbv zeta in Q. change (2 ^ Z.of_nat 5) with 32 in Q.
  specialize (Q ltac:(unfold word in W; lia)). unfold count_zeros_from_start. revert Q. generalize (clz_fallback 5 w) as z. intros z Q. destruct Q as (R & B1 & B2).
  replace (32 - z) with (Z.succ (31 - z)) in B2 by lia. replace (32 - 1 - z) with (31 - z) in B1 by lia.
  assert (L : Z.log2 w = 31 - z) by (apply Z.log2_unique; lia).
  split; auto. unfold wbit. split.
  - rewrite <- L. apply Z.bit_log2. unfold word in W. lia.
  - intros k K. apply Z.bits_above_log2; unfold word in W; lia.
Qed.
Lemma cze_ok w : word w -> w <> 0 -> forall r, r = count_zeros_from_end w -> 0 <= r < 32 /\ wbit w (31 - r) = true /\ forall k, 31 - r < k < 32 -> wbit w k = false.
Proof.
  intros W N r ->. pose proof (ctz_fallback_ok 5 w (or_introl eq_refl)) as Q. cbv zeta in Q. change (2 ^ Z.of_nat 5) with 32 in Q.
  specialize (Q ltac:(unfold word in W; lia)). unfold count_zeros_from_end. revert Q. generalize (ctz_fallback 5 w) as z. intros z Q. destruct Q as (R & (q & B1) & B2).
  split; auto. unfold wbit. split.
  - replace (31 - (31 - z)) with z by lia. destruct (Z.testbit w z) eqn:T; auto. exfalso. apply B2.
    rewrite B1 in T. rewrite <- Z.shiftl_mul_pow2, Z.shiftl_spec, Z.sub_diag in T by lia. exists (q / 2).
    rewrite Z.pow_add_r by lia. rewrite B1. change (2 ^ 1) with 2. rewrite Z.bit0_odd in T.
    assert (q = 2 * (q / 2)). { rewrite Zodd_mod in T. pose proof (Z.div_mod q 2 ltac:(lia)). apply Zeq_bool_neq in T. pose proof (Z.mod_pos_bound q 2 ltac:(lia)). lia. }
    rewrite H at 1. ring.
  - intros k K. rewrite B1, <- Z.shiftl_mul_pow2, Z.shiftl_spec by lia. apply Z.testbit_neg_r. lia.
Qed.

Lemma last_word_loop_ok c N : words_ok c N -> forall j, Z.of_nat j <= N ->
  exists r, last_word_loop j c = Ok r /\ match r with
    | None => forall k, 0 <= k < 32 * Z.of_nat j -> cbit c k = false
    | Some e => 0 < e <= 32 * Z.of_nat j /\ cbit c (e - 1) = true /\ forall k, e <= k < 32 * Z.of_nat j -> cbit c k = false end.
Proof.
  intros K. induction j as [|j IH]; intros L.
  - exists None. split; auto. intros k Hk. lia.
  - destruct (rdc_ok c N (Z.of_nat j) K ltac:(lia)) as (w & E & W & _ & B). cbn [last_word_loop]. rewrite E. cbn [bind].
    assert (B' : forall k, 32 * Z.of_nat j <= k < 32 * Z.of_nat (S j) -> cbit c k = wbit w (k - 32 * Z.of_nat j)).
    { intros k Hk. rewrite B by lia. f_equal. lia. }
    destruct (Z.eqb_spec w 0) as [->|NZ].
    + assert (BF : forall k, 32 * Z.of_nat j <= k < 32 * Z.of_nat (S j) -> cbit c k = false).
      { intros k Hk. rewrite B' by auto. unfold wbit. apply Z.bits_0. }
      destruct (IH ltac:(lia)) as (r & Er & Hr). exists r. split; auto. destruct r as [e|].
      * destruct Hr as (H1 & H2 & H3). split; [lia|]. split; auto. intros k Hk. destruct (Z.lt_ge_cases k (32 * Z.of_nat j)); [apply H3; lia|apply BF; lia].
      * intros k Hk. destruct (Z.lt_ge_cases k (32 * Z.of_nat j)); [apply Hr; lia|apply BF; lia].
    + eexists. split; [reflexivity|]. unfold bit_index_of. remember (count_zeros_from_end w) as z eqn:EZ. destruct (cze_ok w W NZ z EZ) as (R & T & F).
      split; [lia|]. split.
      * rewrite B' by lia. rewrite <- T. f_equal. lia.
      * intros k Hk. rewrite B' by lia. apply F. lia.
Qed.
Lemma get_range_loop_ok c N wc : words_ok c N -> Z.of_nat wc <= N -> 32 * Z.of_nat wc < 2 ^ 32 + 32 -> forall n i, i + Z.of_nat n = Z.of_nat wc -> 0 <= i ->
  (forall k, 0 <= k < 32 * i -> cbit c k = false) ->
  exists f s e, get_range_loop n wc c i = Ok (f, s, e) /\
  if f then exists e', e = w32 e' /\ 0 <= s < e' /\ e' <= 32 * Z.of_nat wc /\ cbit c s = true /\ cbit c (e' - 1) = true /\ (forall k, 0 <= k < s -> cbit c k = false) /\ (forall k, e' <= k < 32 * Z.of_nat wc -> cbit c k = false)
  else s = 0 /\ e = 0 /\ forall k, 0 <= k < 32 * Z.of_nat wc -> cbit c k = false.
Proof.
  intros K L SZ. induction n as [|n IH]; intros i I I0 H.
  - exists false, 0, 0. cbn [get_range_loop]. sp. intros k Hk. apply H. lia.
  - destruct (rdc_ok c N i K ltac:(lia)) as (w & E & W & _ & B). cbn [get_range_loop]. rewrite E. cbn [bind].
    assert (B' : forall k, 32 * i <= k < 32 * (i + 1) -> cbit c k = wbit w (k - 32 * i)).
    { intros k Hk. rewrite B by lia. f_equal. lia. }
    destruct (Z.eqb_spec w 0) as [->|NZ].
    + apply IH; try lia. intros k Hk. destruct (Z.lt_ge_cases k (32 * i)); [apply H; lia|]. rewrite B' by lia. unfold wbit. apply Z.bits_0.
    + remember (count_zeros_from_start w) as z eqn:EZ. destruct (czs_ok w W NZ z EZ) as (R & T & F). 
      destruct (last_word_loop_ok c N K wc L) as (r & Er & Hr). rewrite Er. cbn [bind]. unfold bit_index_of.
      assert (CS : cbit c (i * 32 + z) = true). { rewrite B' by lia. rewrite <- T. f_equal. lia. }
      destruct r as [e|].
      2:{ exfalso. rewrite Hr in CS by lia. discriminate. }
      destruct Hr as (H1 & H2 & H3). exists true, (w32 (i * 32 + z)), (w32 e). split; auto.
      assert (LT : i * 32 + z < e). { destruct (Z.lt_ge_cases (i * 32 + z) e); auto. rewrite H3 in CS by lia. discriminate. }
      exists e. split; auto. replace (w32 (i * 32 + z)) with (i * 32 + z). 2:{ unfold w32. rewrite Z.mod_small; lia. }
      split; [lia|]. split; [lia|]. sp. split; auto. intros k Hk. destruct (Z.lt_ge_cases k (32 * i)); [apply H; lia|]. rewrite B' by lia. apply F. lia.
Qed.
Lemma get_range_q h os o : ba_wf h os -> In o os -> ba_get_range h o =
  Ok (match first_true (ba_value h o) 0, last_true (ba_value h o) 0 with Some s, Some e => (true, s, e) | _, _ => (false, 0, 0) end).
Proof.
  intros W I. destruct (unpack_in h os o W I) as (c & s & n & U & V & K & S1 & S2 & Zt & LN).
  unfold ba_get_range. rewrite U. cbn [bind]. rewrite wcount by lia. rewrite V.
  destruct (get_range_loop_ok c n (Z.to_nat ((s + 31) / 32)) K ltac:(lia) ltac:(lia) (Z.to_nat ((s + 31) / 32)) 0 ltac:(lia) ltac:(lia) ltac:(intros; lia))
    as (f & st & e & E & H). rewrite E. f_equal. rewrite Z2Nat.id in H by lia. destruct f.
  - destruct H as (e' & -> & H1 & H2 & H3 & H4 & H5 & H6).
    assert (e' <= s). { destruct (Z.le_gt_cases e' s); auto. rewrite Zt in H4 by lia. discriminate. }
    replace (w32 e') with e' by (unfold w32; rewrite Z.mod_small; lia).
    assert (FT : first_true (view s c) 0 = Some st); [apply first_true_intro|assert (LT : last_true (view s c) 0 = Some e'); [apply last_true_intro|now rewrite FT, LT]].
    + apply bit_view_iff; [lia|]. split; auto. lia.
    + intros j J. destruct (bit_at (view s c) j) eqn:B; auto. apply bit_view_iff in B; [|lia]. rewrite <- (H5 j) by lia. symmetry. tauto.
    + apply bit_view_iff; [lia|]. split; auto. lia.
    + intros j J. destruct (bit_at (view s c) j) eqn:B; auto. apply bit_view_iff in B; [|lia]. rewrite <- (H6 j) by lia. symmetry. tauto.
  - destruct H as (-> & -> & H). destruct (none_intro (view s c)) as [FT LT]; [|now rewrite FT].
    intros j. destruct (bit_at (view s c) j) eqn:B; auto. apply bit_view_iff in B; [|lia]. rewrite <- (H j) by lia. symmetry. tauto.
Qed.

(* ---- equals, compare ---- *)
Lemma equals_loop_ok a b N M : words_ok a N -> words_ok b M -> forall n i, 0 <= i -> i + Z.of_nat n <= N -> i + Z.of_nat n <= M ->
  exists r, equals_loop n a b i = Ok r /\ (r = true <-> forall j, 32 * i <= j < 32 * (i + Z.of_nat n) -> cbit a j = cbit b j).
Proof.
  intros KA KB. induction n as [|n IH]; intros i I LA LB.
  - exists true. split; auto. split; auto. intros _ j J. lia.
  - destruct (rdc_ok a N i KA ltac:(lia)) as (x & Ex & Wx & _ & Bx). destruct (rdc_ok b M i KB ltac:(lia)) as (y & Ey & Wy & _ & By).
    cbn [equals_loop]. rewrite Ex. cbn [bind]. rewrite Ey. cbn [bind].
    destruct (Z.eqb_spec x y) as [->|NE].
    + destruct (IH (i + 1) ltac:(lia) ltac:(lia) ltac:(lia)) as (r & Er & Hr). exists r. split; auto. rewrite Hr. split; intros H j J.
      * destruct (Z.lt_ge_cases j (32 * (i + 1))); [|apply H; lia].
        specialize (Bx (j - 32 * i) ltac:(lia)). specialize (By (j - 32 * i) ltac:(lia)). replace (32 * i + (j - 32 * i)) with j in * by lia. congruence.
      * apply H. lia.
    + exists false. split; auto. split; [discriminate|]. intros H. exfalso. apply NE. apply word_ext; auto. intros k Hk. rewrite Bx, By by auto. apply H. lia.
Qed.
Lemma equals_q h os a b : ba_wf h os -> In a os -> In b os -> exists r, ba_equals h a b = Ok r /\ (r = true <-> ba_value h a = ba_value h b).
Proof.
  intros W IA IB. destruct (unpack_in h os a W IA) as (ca & sa & na & Ua & Va & Ka & S1a & S2a & Zta & LNa).
  destruct (unpack_in h os b W IB) as (cb & sb & nb & Ub & Vb & Kb & S1b & S2b & Ztb & LNb).
  unfold ba_equals. rewrite Ua. cbn [bind]. rewrite Ub. cbn [bind]. rewrite !wcount by lia. rewrite Va, Vb.
  destruct (Z.eqb_spec sa sb) as [->|NE]; cbn [negb].
  - destruct (equals_loop_ok ca cb na nb Ka Kb (Z.to_nat ((sb + 31) / 32)) 0 ltac:(lia) ltac:(lia) ltac:(lia)) as (r & Er & Hr). exists r. split; auto. rewrite Hr.
    split.
    + intros H. apply view_ext. intros j J. apply H. lia.
    + intros H j J. destruct (Z.lt_ge_cases j sb).
      * rewrite <- (bit_at_view sb ca), <- (bit_at_view sb cb) by lia. now rewrite H.
      * rewrite Zta, Ztb by lia. reflexivity.
  - exists false. split; auto. split; [discriminate|]. intros H. exfalso. apply NE. rewrite <- (view_len sa ca), <- (view_len sb cb) by lia. now rewrite H.
Qed.

Lemma higher_bit x y p : 0 <= p -> (forall n, p < n -> Z.testbit x n = Z.testbit y n) -> Z.testbit x p = true -> Z.testbit y p = false -> y < x.
Proof.
  intros P H X Y.
  assert (Q : x / 2 ^ p / 2 = y / 2 ^ p / 2).
  { rewrite !Z.div_div by (try lia; apply Z.pow_nonzero; lia). replace (2 ^ p * 2) with (2 ^ (p + 1)) by (rewrite Z.pow_add_r by lia; reflexivity).
    rewrite <- !Z.shiftr_div_pow2 by lia. apply Z.bits_inj'. intros n N. rewrite !Z.shiftr_spec by auto. apply H. lia. }
  pose proof (Z.testbit_spec' x p P) as TX. pose proof (Z.testbit_spec' y p P) as TY. rewrite X in TX. rewrite Y in TY. cbn [Z.b2z] in *.
  assert (0 < 2 ^ p) by (apply Z.pow_pos_nonneg; lia).
  pose proof (Z.div_mod x (2 ^ p) ltac:(lia)). pose proof (Z.div_mod y (2 ^ p) ltac:(lia)).
  pose proof (Z.mod_pos_bound x (2 ^ p) ltac:(lia)). pose proof (Z.mod_pos_bound y (2 ^ p) ltac:(lia)).
  pose proof (Z.div_mod (x / 2 ^ p) 2 ltac:(lia)). pose proof (Z.div_mod (y / 2 ^ p) 2 ltac:(lia)).
  set (a := x / 2 ^ p) in *. set (b := y / 2 ^ p) in *. assert (a = b + 1) by lia. clearbody a b. subst a. nia.
Qed.
Lemma word_compare x y : word x -> word y -> x <> y -> exists k, 0 <= k < 32 /\ (forall j, 0 <= j < k -> wbit x j = wbit y j) /\
  wbit x k = negb (wbit y k) /\ compare_words x y = if wbit x k then 1 else -1.
Proof.
  intros WX WY NE. set (d := Z.lxor x y).
  assert (WD : word d) by (apply lxor_bound; unfold word in *; lia).
  assert (ND : d <> 0). { intros E. apply NE. apply Z.lxor_eq. exact E. }
  destruct (czs_ok d WD ND _ eq_refl) as (R & T & F). revert R T F. generalize (count_zeros_from_start d) as k. intros k R T F. exists k. split; auto.
  assert (XB : forall j, wbit d j = xorb (wbit x j) (wbit y j)) by (intros j; unfold wbit, d; apply Z.lxor_spec).
  rewrite XB in T. split.
  { intros j J. specialize (F j J). rewrite XB in F. apply Bool.xorb_eq in F; exact F. }
  assert (HI : forall n, 31 - k < n -> Z.testbit x n = Z.testbit y n).
  { intros n Hn. destruct (Z.lt_ge_cases n 32).
    - specialize (F (31 - n) ltac:(lia)). rewrite XB in F. unfold wbit in F. replace (31 - (31 - n)) with n in F by lia. apply Bool.xorb_eq in F; exact F.
    - rewrite !(testbit_small _ 32); auto; unfold word in *; lia. }
  split. { destruct (wbit x k), (wbit y k); auto; discriminate. }
  unfold compare_words. unfold wbit in T |- *. destruct (Z.testbit x (31 - k)) eqn:TX, (Z.testbit y (31 - k)) eqn:TY; try discriminate.
  - pose proof (higher_bit x y (31 - k) ltac:(lia) HI TX TY). replace (x >? y) with true by lia. replace (x <? y) with false by lia. reflexivity.
  - pose proof (higher_bit y x (31 - k) ltac:(lia) ltac:(intros; symmetry; auto) TY TX). replace (x >? y) with false by lia. replace (x <? y) with true by lia. reflexivity.
Qed.

Lemma bit_at_cons0 b l : bit_at (b :: l) 0 = b. Proof. reflexivity. Qed.
Lemma bit_at_consS b l i : 0 <= i -> bit_at (b :: l) (i + 1) = bit_at l i.
Proof. intros. rewrite bit_at_cons. now replace (i =? -1) with false by lia. Qed.
Lemma lex_prefix a : forall b, (forall j, 0 <= j < Z.min (len a) (len b) -> bit_at a j = bit_at b j) ->
  lex a b = if len a <? len b then -1 else if len a >? len b then 1 else 0.
Proof.
  unfold len. induction a as [|x a IH]; intros [|y b] H; cbn [lex length]; auto.
  - cbn [length] in H. pose proof (H 0 ltac:(lia)) as E. rewrite !bit_at_cons0 in E. subst y. rewrite eqb_reflx.
    rewrite IH. + replace (Z.of_nat (S (length a)) <? Z.of_nat (S (length b))) with (Z.of_nat (length a) <? Z.of_nat (length b)) by lia.
      replace (Z.of_nat (S (length a)) >? Z.of_nat (S (length b))) with (Z.of_nat (length a) >? Z.of_nat (length b)) by lia. reflexivity.
    + intros j J. specialize (H (j + 1) ltac:(lia)). now rewrite !bit_at_consS in H by lia.
Qed.
Lemma lex_diff a : forall b i, 0 <= i < Z.min (len a) (len b) -> (forall j, 0 <= j < i -> bit_at a j = bit_at b j) ->
  bit_at a i = negb (bit_at b i) -> lex a b = if bit_at a i then 1 else -1.
Proof.
  unfold len. induction a as [|x a IH]; intros [|y b] i I H D; cbn [length] in I; try lia. cbn [lex].
  destruct (Z.eq_dec i 0) as [->|NZ].
  - rewrite !bit_at_cons0 in *. subst x. destruct y; reflexivity.
  - pose proof (H 0 ltac:(lia)) as E. rewrite !bit_at_cons0 in E. subst y. rewrite eqb_reflx.
    replace i with ((i - 1) + 1) in D |- * by lia. rewrite !bit_at_consS in * by lia. apply IH; auto; [lia|].
    intros j J. specialize (H (j + 1) ltac:(lia)). now rewrite !bit_at_consS in H by lia.
Qed.
Lemma compare_loop_ok a b N M : words_ok a N -> words_ok b M -> forall n i, 0 <= i -> i + Z.of_nat n <= N -> i + Z.of_nat n <= M ->
  (forall j, 0 <= j < 32 * i -> cbit a j = cbit b j) ->
  exists r, compare_loop n a b i = Ok r /\ match r with
   | None => forall j, 0 <= j < 32 * (i + Z.of_nat n) -> cbit a j = cbit b j
   | Some x => exists j, 0 <= j < 32 * (i + Z.of_nat n) /\ (forall k, 0 <= k < j -> cbit a k = cbit b k) /\ cbit a j = negb (cbit b j) /\ x = if cbit a j then 1 else -1
   end.
Proof.
  intros KA KB. induction n as [|n IH]; intros i I LA LB H.
  - exists None. split; auto. intros j J. apply H. lia.
  - destruct (rdc_ok a N i KA ltac:(lia)) as (x & Ex & Wx & _ & Bx). destruct (rdc_ok b M i KB ltac:(lia)) as (y & Ey & Wy & _ & By).
    cbn [compare_loop]. rewrite Ex. cbn [bind]. rewrite Ey. cbn [bind].
    destruct (Z.eqb_spec x y) as [->|NE].
    + destruct (IH (i + 1) ltac:(lia) ltac:(lia) ltac:(lia)) as (r & Er & Hr).
      { intros j J. destruct (Z.lt_ge_cases j (32 * i)); [apply H; lia|].
        specialize (Bx (j - 32 * i) ltac:(lia)). specialize (By (j - 32 * i) ltac:(lia)). replace (32 * i + (j - 32 * i)) with j in * by lia. congruence. }
      exists r. split; auto. replace (i + 1 + Z.of_nat n) with (i + Z.of_nat (S n)) in Hr by lia. exact Hr.
    + destruct (word_compare x y Wx Wy NE) as (k & Hk & P & D & C). eexists. split; [reflexivity|]. exists (32 * i + k). split; [lia|].
      rewrite <- Bx, <- By by auto. split; [|split; auto].
      intros j J. destruct (Z.lt_ge_cases j (32 * i)); [apply H; lia|]. specialize (P (j - 32 * i) ltac:(lia)). rewrite Bx, By in P by lia.
      now replace (32 * i + (j - 32 * i)) with j in P by lia.
Qed.
Lemma compare_q h os a b : ba_wf h os -> In a os -> In b os -> ba_compare h a b = Ok (lex (ba_value h a) (ba_value h b)).
Proof.
  intros W IA IB. destruct (unpack_in h os a W IA) as (ca & sa & na & Ua & Va & Ka & S1a & S2a & Zta & LNa).
  destruct (unpack_in h os b W IB) as (cb & sb & nb & Ub & Vb & Kb & S1b & S2b & Ztb & LNb).
  unfold ba_compare. rewrite Ua. cbn [bind]. rewrite Ub. cbn [bind]. rewrite !wcount by lia. rewrite Va, Vb.
  destruct (compare_loop_ok ca cb na nb Ka Kb (Z.to_nat ((Z.min sa sb + 31) / 32)) 0 ltac:(lia) ltac:(lia) ltac:(lia) ltac:(intros; lia)) as (r & Er & Hr).
  rewrite Er. cbn [bind]. rewrite Z2Nat.id, Z.add_0_l in Hr by lia.
  assert (PX : (forall j, 0 <= j < Z.min sa sb -> cbit ca j = cbit cb j) -> lex (view sa ca) (view sb cb) = if sa <? sb then -1 else if sa >? sb then 1 else 0).
  { intros H. rewrite lex_prefix; rewrite !view_len by lia; auto. intros j J. rewrite !bit_at_view by lia. auto. }
  destruct r as [x|].
  - destruct Hr as (j & J & P & D & ->). f_equal. destruct (Z.lt_ge_cases j (Z.min sa sb)) as [L|L].
    + rewrite (lex_diff _ _ j); rewrite ?view_len, ?bit_at_view by lia; auto; [lia|]. intros k Hk. rewrite !bit_at_view by lia. apply P. lia.
    + rewrite PX by (intros k Hk; apply P; lia). destruct (Z.lt_trichotomy sa sb) as [LT|[EQ|GT]].
      * assert (CA : cbit ca j = false) by (apply Zta; lia). rewrite CA. now replace (sa <? sb) with true by lia.
      * assert (CA : cbit ca j = false) by (apply Zta; lia). assert (CB : cbit cb j = false) by (apply Ztb; lia). rewrite CA, CB in D. discriminate.
      * assert (CB : cbit cb j = false) by (apply Ztb; lia). rewrite CB in D. cbn in D. rewrite D.
        replace (sa <? sb) with false by lia. now replace (sa >? sb) with true by lia.
  - f_equal. symmetry. apply PX. intros j J. apply Hr. lia.
Qed.
