(* BLFontFeatureSettings: digits packed into a word, and the word operations of the SSO representation on them. *)
From Verif Require Import Base Bits TagData_Model TagData_Spec TagData_Proofs FontFeature_Model FontFeature_Spec.
Ltac Zify.zify_post_hook ::= idtac.

Fixpoint pack (w : Z) (l : list Z) : Z :=
  match l with [] => 0 | x :: r => x + 2 ^ w * pack w r end.
Definition digits (w : Z) (l : list Z) : Prop := Forall (fun x => 0 <= x < 2 ^ w) l.

Lemma pow_pos2 w : 0 <= w -> 0 < 2 ^ w.
Proof. intros. apply Z.pow_pos_nonneg; lia. Qed.

Lemma pow_S w n : 0 <= w -> 2 ^ (w * Z.of_nat (S n)) = 2 ^ w * 2 ^ (w * Z.of_nat n).
Proof. intros H. rewrite <- Z.pow_add_r by nia. f_equal. nia. Qed.

Lemma pack_bound w l : 0 <= w -> digits w l -> 0 <= pack w l < 2 ^ (w * Z.of_nat (length l)).
Proof.
  intros Hw. induction l as [|x r IH]; intros D.
  - cbn. rewrite Z.mul_0_r. cbn. lia.
  - inversion D; subst. specialize (IH H2). cbn [pack length]. rewrite pow_S by lia. pose proof (pow_pos2 w Hw). nia.
Qed.

Lemma pack_app w a b : 0 <= w -> pack w (a ++ b) = pack w a + 2 ^ (w * Z.of_nat (length a)) * pack w b.
Proof.
  intros Hw. induction a as [|x r IH].
  - cbn [app pack length]. rewrite Z.mul_0_r. change (2 ^ 0) with 1. lia.
  - cbn [app pack length]. rewrite IH, pow_S by lia. ring.
Qed.

Lemma pack_zeros w n : pack w (repeat 0 n) = 0.
Proof. induction n; cbn; lia. Qed.

Lemma pack_inj w a b : 0 <= w -> digits w a -> digits w b -> length a = length b -> pack w a = pack w b -> a = b.
Proof.
  intros Hw. revert b. induction a as [|x a IH]; intros [|y b] Da Db L E; try discriminate; auto.
  inversion Da; subst. inversion Db; subst. cbn [pack] in E.
  pose proof (pow_pos2 w Hw).
  assert (x = y).
  { assert (A : (x + 2 ^ w * pack w a) mod 2 ^ w = x).
    { symmetry. apply Z.mod_unique with (pack w a); lia. }
    assert (B : (y + 2 ^ w * pack w b) mod 2 ^ w = y) by (symmetry; apply Z.mod_unique with (pack w b); lia).
    rewrite E in A. lia. }
  subst. f_equal. apply IH; auto. nia.
Qed.

(* low part, high part *)
Lemma pack_mod w a b : 0 <= w -> digits w a -> pack w (a ++ b) mod 2 ^ (w * Z.of_nat (length a)) = pack w a.
Proof.
  intros Hw D. rewrite pack_app by auto. pose proof (pack_bound w a Hw D).
  symmetry. apply Z.mod_unique with (pack w b); lia.
Qed.
Lemma pack_div w a b : 0 <= w -> digits w a -> pack w (a ++ b) / 2 ^ (w * Z.of_nat (length a)) = pack w b.
Proof.
  intros Hw D. rewrite pack_app by auto. pose proof (pack_bound w a Hw D).
  symmetry. apply Z.div_unique with (pack w a); lia.
Qed.

(* word operations as arithmetic *)
Lemma lor_add k a b : 0 <= k -> 0 <= a < 2 ^ k -> Z.lor a (b * 2 ^ k) = a + b * 2 ^ k.
Proof.
  intros Hk Ha. rewrite <- Z.lxor_lor, <- Z.add_nocarry_lxor; auto.
  all: apply Z.bits_inj'; intros i Hi; rewrite Z.bits_0, Z.land_spec, <- Z.shiftl_mul_pow2 by lia;
    destruct (Z.lt_ge_cases i k); [rewrite Z.shiftl_spec_low by lia; apply andb_false_r|];
    rewrite <- (Z.mod_small a (2 ^ k)) by lia; rewrite Z.mod_pow2_bits_high by lia; reflexivity.
Qed.
Lemma lor_add' k a b : 0 <= k -> 0 <= a < 2 ^ k -> Z.lor (b * 2 ^ k) a = a + b * 2 ^ k.
Proof. intros. rewrite Z.lor_comm. apply lor_add; auto. Qed.

Lemma land_mask k a : 0 <= k -> Z.land a (2 ^ k - 1) = a mod 2 ^ k.
Proof. intros. replace (2 ^ k - 1) with (Z.ones k) by (rewrite Z.ones_equiv; lia). apply Z.land_ones; auto. Qed.
Lemma ldiff_mask k a : 0 <= k -> Z.ldiff a (2 ^ k - 1) = a / 2 ^ k * 2 ^ k.
Proof.
  intros. replace (2 ^ k - 1) with (Z.ones k) by (rewrite Z.ones_equiv; lia).
  rewrite Z.ldiff_ones_r by auto. rewrite Z.shiftr_div_pow2, Z.shiftl_mul_pow2 by auto. reflexivity.
Qed.

Lemma w32_small x : 0 <= x < 4294967296 -> w32 x = x.
Proof. intros. unfold w32. apply Z.mod_small. auto. Qed.

Lemma mask_of k : 0 <= k < 32 -> w32 (Z.shiftl 1 k) - 1 = 2 ^ k - 1.
Proof.
  intros. rewrite Z.shiftl_mul_pow2 by lia. rewrite w32_small; [lia|].
  assert (2 ^ k < 2 ^ 32) by (apply Z.pow_lt_mono_r; lia). pose proof (pow_pos2 k). change (2 ^ 32) with 4294967296 in *. lia.
Qed.

(* inserting a digit at position |a| of a word of n digits whose last digit is dropped *)
Lemma insert_digit w a r z x : 0 < w -> digits w a -> digits w r -> 0 <= x < 2 ^ w -> 0 <= z < 2 ^ w ->
  w * Z.of_nat (length a) < 32 -> w * (Z.of_nat (length a) + Z.of_nat (length r) + 1) <= 32 ->
  (z = 0 \/ w * (Z.of_nat (length a) + Z.of_nat (length r) + 1) = 32) ->
  let k := w * Z.of_nat (length a) in
  let v := pack w (a ++ r ++ [z]) in
  Z.lor (Z.lor (Z.land v (w32 (Z.shiftl 1 k) - 1)) (w32 (Z.shiftl (Z.ldiff v (w32 (Z.shiftl 1 k) - 1)) w)))
        (w32 (Z.shiftl x k)) = pack w (a ++ x :: r).
Proof.
  intros Hw Da Dr Hx Hz Hk Hn Hlast k v.
  assert (Hk0 : 0 <= k) by (unfold k; nia).
  rewrite mask_of by lia. rewrite land_mask, ldiff_mask by lia.
  unfold v, k. rewrite pack_mod, pack_div by (auto; lia). fold k.
  pose proof (pack_bound w a ltac:(lia) Da) as Ba. fold k in Ba.
  pose proof (pack_bound w r ltac:(lia) Dr) as Br. set (kr := w * Z.of_nat (length r)) in *.
  assert (Hkr : 0 <= kr) by (unfold kr; nia).
  assert (S1 : w32 (Z.shiftl (pack w (r ++ [z]) * 2 ^ k) w) = pack w r * 2 ^ (k + w)).
  { rewrite Z.shiftl_mul_pow2, pack_app by lia. fold kr. cbn [pack]. rewrite Z.mul_0_r, Z.add_0_r.
    rewrite Z.pow_add_r by lia.
    assert (P : 2 ^ kr * 2 ^ k * 2 ^ w = 2 ^ (kr + k + w)) by (rewrite !Z.pow_add_r by lia; ring).
    assert (Q : 2 ^ (kr + k + w) <= 4294967296) by (change 4294967296 with (2 ^ 32); apply Z.pow_le_mono_r; unfold kr, k; lia).
    assert (B : 0 <= pack w r * (2 ^ k * 2 ^ w) < 4294967296).
    { pose proof (pow_pos2 k Hk0). pose proof (pow_pos2 w ltac:(lia)). nia. }
    replace ((pack w r + 2 ^ kr * z) * 2 ^ k * 2 ^ w) with (pack w r * (2 ^ k * 2 ^ w) + z * (2 ^ kr * 2 ^ k * 2 ^ w)) by ring.
    rewrite P. destruct Hlast as [->|Hlast].
    - rewrite Z.mul_0_l, Z.add_0_r. apply w32_small. auto.
    - replace (kr + k + w) with 32 by (unfold kr, k; lia). change (2 ^ 32) with 4294967296. unfold w32.
      rewrite Z_mod_plus_full. apply Z.mod_small. auto. }
  rewrite S1.
  assert (S2 : w32 (Z.shiftl x k) = x * 2 ^ k).
  { rewrite Z.shiftl_mul_pow2 by lia. apply w32_small.
    assert (2 ^ (k + w) <= 4294967296) by (change 4294967296 with (2 ^ 32); apply Z.pow_le_mono_r; unfold k; nia).
    rewrite Z.pow_add_r in H by lia. pose proof (pow_pos2 k Hk0). nia. }
  rewrite S2. rewrite (lor_add (k + w)).
  - rewrite Z.pow_add_r by lia.
    replace (Z.lor (pack w a + pack w r * (2 ^ k * 2 ^ w)) (x * 2 ^ k))
      with (Z.lor (pack w a) (Z.lor (pack w r * 2 ^ w) x * 2 ^ k)).
    + rewrite lor_add by lia. rewrite (lor_add' w) by lia. rewrite pack_app by lia. fold k. cbn [pack]. ring.
    + replace (pack w a + pack w r * (2 ^ k * 2 ^ w)) with (pack w a + (pack w r * 2 ^ w) * 2 ^ k) by ring.
      rewrite <- (lor_add k (pack w a)) by lia. rewrite <- Z.lor_assoc. f_equal.
      rewrite <- !Z.shiftl_mul_pow2 by lia. apply Z.shiftl_lor.
  - lia.
  - rewrite Z.pow_add_r by lia. pose proof (pow_pos2 w ltac:(lia)). nia.
Qed.

(* removing the digit at position |a|, filling up with z at the top *)
Lemma remove_digit w a r x z : 0 < w -> digits w a -> digits w r -> 0 <= x < 2 ^ w -> 0 <= z < 2 ^ w ->
  w * (Z.of_nat (length a) + Z.of_nat (length r) + 1) = 32 ->
  let k := w * Z.of_nat (length a) in
  let v := pack w (a ++ x :: r) in
  Z.lor (Z.lor (Z.land v (w32 (Z.shiftl 1 k) - 1)) (Z.ldiff (Z.shiftr v w) (w32 (Z.shiftl 1 k) - 1)))
        (w32 (Z.shiftl z (32 - w))) = pack w (a ++ r ++ [z]).
Proof.
  intros Hw Da Dr Hx Hz Hn k v.
  assert (Hk0 : 0 <= k) by (unfold k; nia). assert (Hk : k < 32) by (unfold k; nia).
  rewrite mask_of by lia. rewrite land_mask, ldiff_mask, Z.shiftr_div_pow2 by lia.
  rewrite Z.div_div by (pose proof (pow_pos2 w); pose proof (pow_pos2 k); lia). rewrite <- Z.pow_add_r by lia.
  assert (V1 : v mod 2 ^ k = pack w a) by (unfold v, k; apply pack_mod; auto; lia).
  assert (V2 : v / 2 ^ (w + k) = pack w r).
  { unfold v. replace (a ++ x :: r) with ((a ++ [x]) ++ r) by (rewrite <- app_assoc; reflexivity).
    replace (w + k) with (w * Z.of_nat (length (a ++ [x]))) by (rewrite app_length; cbn [length]; unfold k; lia).
    apply pack_div; [lia|]. apply Forall_app. split; auto. }
  rewrite V1, V2. pose proof (pack_bound w a ltac:(lia) Da) as Ba. fold k in Ba.
  pose proof (pack_bound w r ltac:(lia) Dr) as Br. set (kr := w * Z.of_nat (length r)) in *.
  rewrite lor_add by lia.
  assert (Hkr : 0 <= kr) by (unfold kr; apply Z.mul_nonneg_nonneg; lia).
  assert (P32 : 32 - w = k + kr) by (unfold k, kr; lia).
  assert (S2 : w32 (Z.shiftl z (32 - w)) = z * 2 ^ (32 - w)).
  { rewrite Z.shiftl_mul_pow2 by lia. apply w32_small.
    assert (2 ^ w * 2 ^ (32 - w) = 4294967296).
    { rewrite <- Z.pow_add_r by lia. replace (w + (32 - w)) with 32 by lia. reflexivity. }
    pose proof (pow_pos2 (32 - w) ltac:(lia)) as P3. clear - Hz H P3. nia. }
  rewrite S2, lor_add; [|lia|].
  - rewrite !pack_app by lia. fold k kr. cbn [pack]. rewrite P32, Z.pow_add_r by lia. ring.
  - rewrite P32, Z.pow_add_r by lia. clear - Ba Br. nia.
Qed.

(* the value digits after remove_sso_fat_tag: the mask of the tags is used for the values *)
Lemma remove_value_digits i v0 v1 v2 v3 : digits 4 [v0; v1; v2; v3] -> 0 <= i < 4 ->
  Z.lor (Z.land (pack 4 [v0; v1; v2; v3]) (w32 (Z.shiftl 1 (i * 4)) - 1))
        (Z.ldiff (Z.shiftr (pack 4 [v0; v1; v2; v3]) 4) (w32 (Z.shiftl 1 (i * 8)) - 1)) =
  pack 4 (if i =? 0 then [v1; v2; v3; 0] else if i =? 1 then [v0; 0; v3; 0] else if i =? 2 then [v0; v1; 0; 0] else [v0; v1; v2; 0]).
Proof.
  intros D Hi. set (l := [v0; v1; v2; v3]) in *.
  rewrite !mask_of by lia. rewrite land_mask, ldiff_mask, Z.shiftr_div_pow2 by lia.
  rewrite Z.div_div by (pose proof (pow_pos2 (i * 8)); lia). rewrite <- Z.pow_add_r by lia.
  pose proof (pack_bound 4 l ltac:(lia) D) as B. cbn [length] in B. change (2 ^ (4 * Z.of_nat 4)) with 65536 in B.
  inversion D as [|? ? H0 D1]; subst. inversion D1 as [|? ? H1 D2]; subst. inversion D2 as [|? ? H2 D3]; subst.
  inversion D3 as [|? ? H3 _]; subst. change (2 ^ 4) with 16 in *.
  assert (E : pack 4 l = v0 + 16 * v1 + 256 * v2 + 4096 * v3) by (cbn [pack l]; change (2 ^ 4) with 16; lia).
  assert (i = 0 \/ i = 1 \/ i = 2 \/ i = 3) as C by lia; destruct C as [C|[C|[C|C]]]; subst i; cbn [Z.eqb Pos.eqb]; rewrite E; clear E B D D1 D2 D3;
    unfold l; cbn [pack]; change (2 ^ 4) with 16.
  - change (2 ^ (0 * 4)) with 1. change (2 ^ (0 * 8)) with 1. change (2 ^ (4 + 0 * 8)) with 16. rewrite Z.mod_1_r, Z.lor_0_l.
    rewrite Z.mul_1_r. symmetry. apply Z.div_unique with v0; lia.
  - change (2 ^ (1 * 4)) with (2 ^ 4). change (2 ^ (1 * 8)) with (16 * 2 ^ 4). change (2 ^ (4 + 1 * 8)) with 4096.
    replace ((v0 + 16 * v1 + 256 * v2 + 4096 * v3) mod 2 ^ 4) with v0 by (apply Z.mod_unique with (v1 + 16 * v2 + 256 * v3); lia).
    replace ((v0 + 16 * v1 + 256 * v2 + 4096 * v3) / 4096) with v3 by (apply Z.div_unique with (v0 + 16 * v1 + 256 * v2); lia).
    rewrite Z.mul_assoc, lor_add by lia. lia.
  - change (2 ^ (2 * 4)) with (2 ^ 8). change (2 ^ (2 * 8)) with (256 * 2 ^ 8). change (2 ^ (4 + 2 * 8)) with 1048576.
    replace ((v0 + 16 * v1 + 256 * v2 + 4096 * v3) mod 2 ^ 8) with (v0 + 16 * v1) by (apply Z.mod_unique with (v2 + 16 * v3); lia).
    rewrite (Z.div_small _ 1048576) by lia. rewrite Z.lor_0_r. lia.
  - change (2 ^ (3 * 4)) with (2 ^ 12). change (2 ^ (3 * 8)) with (4096 * 2 ^ 12). change (2 ^ (4 + 3 * 8)) with 268435456.
    replace ((v0 + 16 * v1 + 256 * v2 + 4096 * v3) mod 2 ^ 12) with (v0 + 16 * v1 + 256 * v2) by (apply Z.mod_unique with v3; lia).
    rewrite (Z.div_small _ 268435456) by lia. rewrite Z.lor_0_r. lia.
Qed.

Lemma ldiff_lor_l a b c : Z.ldiff (Z.lor a b) c = Z.lor (Z.ldiff a c) (Z.ldiff b c).
Proof. rewrite !Z.ldiff_land. apply Z.land_lor_distr_l. Qed.

(* replacing a digit *)
Lemma replace_digit w a r x y hi n : 0 < w -> digits w a -> digits w r -> 0 <= x < 2 ^ w -> 0 <= y < 2 ^ w ->
  n = w * (Z.of_nat (length a) + Z.of_nat (length r) + 1) -> n <= 32 ->
  let k := w * Z.of_nat (length a) in
  Z.lor (Z.ldiff (pack w (a ++ x :: r) + 2 ^ n * hi) (w32 (Z.shiftl (2 ^ w - 1) k))) (w32 (Z.shiftl y k)) =
  pack w (a ++ y :: r) + 2 ^ n * hi.
Proof.
  intros Hw Da Dr Hx Hy Hn Hn32 k.
  assert (Hk0 : 0 <= k) by (unfold k; nia). pose proof (pow_pos2 k Hk0) as Pk. pose proof (pow_pos2 w ltac:(lia)) as Pw.
  set (kr := w * Z.of_nat (length r)). assert (Hkr : 0 <= kr) by (unfold kr; nia).
  assert (Hnk : n = k + w + kr) by (unfold k, kr; lia).
  assert (Q : 2 ^ (k + w) <= 4294967296) by (change 4294967296 with (2 ^ 32); apply Z.pow_le_mono_r; lia).
  rewrite Z.pow_add_r in Q by lia.
  rewrite !Z.shiftl_mul_pow2 by lia. rewrite !w32_small by nia.
  set (H := pack w r + 2 ^ kr * hi).
  assert (E1 : forall u, pack w (a ++ u :: r) + 2 ^ n * hi = pack w a + (u + H * 2 ^ w) * 2 ^ k).
  { intros u. rewrite pack_app by lia. fold k. cbn [pack]. unfold H. rewrite Hnk, !Z.pow_add_r by lia. ring. }
  rewrite !E1. pose proof (pack_bound w a ltac:(lia) Da) as Ba. fold k in Ba.
  rewrite <- (lor_add k) by lia. rewrite ldiff_lor_l.
  assert (L1 : Z.ldiff (pack w a) ((2 ^ w - 1) * 2 ^ k) = pack w a).
  { apply Z.bits_inj'. intros i Hi. rewrite Z.ldiff_spec, <- Z.shiftl_mul_pow2 by lia.
    destruct (Z.lt_ge_cases i k).
    - rewrite Z.shiftl_spec_low by lia. cbn. apply andb_true_r.
    - rewrite <- (Z.mod_small (pack w a) (2 ^ k)) by lia. rewrite Z.mod_pow2_bits_high by lia. reflexivity. }
  assert (L2 : Z.ldiff ((x + H * 2 ^ w) * 2 ^ k) ((2 ^ w - 1) * 2 ^ k) = (H * 2 ^ w) * 2 ^ k).
  { rewrite <- !Z.shiftl_mul_pow2 with (n := k) by lia. rewrite <- Z.shiftl_ldiff. f_equal.
    rewrite ldiff_mask by lia. f_equal. rewrite Z.add_comm. symmetry. apply Z.div_unique with x; lia. }
  rewrite L1, L2, <- Z.lor_assoc.
  rewrite <- !Z.shiftl_mul_pow2 with (n := k) by lia. rewrite <- Z.shiftl_lor.
  rewrite (lor_add' w) by lia. rewrite Z.shiftl_mul_pow2 by lia. rewrite lor_add by lia. reflexivity.
Qed.

(* reading a digit *)
Lemma read_digit w a r x hi n : 0 < w -> digits w a -> 0 <= x < 2 ^ w ->
  n = w * (Z.of_nat (length a) + Z.of_nat (length r) + 1) ->
  Z.land (Z.shiftr (pack w (a ++ x :: r) + 2 ^ n * hi) (w * Z.of_nat (length a))) (2 ^ w - 1) = x.
Proof.
  intros Hw Da Hx Hn. set (k := w * Z.of_nat (length a)). assert (Hk0 : 0 <= k) by (unfold k; nia).
  set (kr := w * Z.of_nat (length r)). assert (Hkr : 0 <= kr) by (unfold kr; nia).
  rewrite Z.shiftr_div_pow2, land_mask by lia.
  pose proof (pack_bound w a ltac:(lia) Da) as Ba. fold k in Ba.
  replace (pack w (a ++ x :: r) + 2 ^ n * hi) with (2 ^ k * (x + 2 ^ w * (pack w r + 2 ^ kr * hi)) + pack w a).
  - replace ((2 ^ k * (x + 2 ^ w * (pack w r + 2 ^ kr * hi)) + pack w a) / 2 ^ k) with (x + 2 ^ w * (pack w r + 2 ^ kr * hi)) by (apply Z.div_unique with (pack w a); lia).
    symmetry. apply Z.mod_unique with (pack w r + 2 ^ kr * hi); lia.
  - rewrite pack_app by lia. fold k. cbn [pack]. replace n with (k + w + kr) by (unfold k, kr; lia).
    rewrite !Z.pow_add_r by lia. ring.
Qed.
