(* The closed form of bl_format_info_sanitize. *)
From Verif Require Import Base Bits Object_Model Format_Model Format_Spec.
Ltac Zify.zify_post_hook ::= idtac.

Lemma test_flag_pow2 x k : 0 <= k -> test_flag x (2 ^ k) = Z.testbit x k.
Proof.
  intros Hk. unfold test_flag. destruct (Z.testbit x k) eqn:E.
  - apply negb_true_iff, Z.eqb_neq. intros H.
    assert (X : Z.testbit (Z.land x (2 ^ k)) k = true) by (rewrite Z.land_spec, E, Z.pow2_bits_true by lia; reflexivity).
    rewrite H, Z.bits_0 in X. discriminate.
  - apply negb_false_iff, Z.eqb_eq. apply Z.bits_inj'. intros n Hn. rewrite Z.land_spec, Z.bits_0, Z.pow2_bits_eqb by lia.
    destruct (Z.eqb_spec k n); [subst; rewrite E; reflexivity|apply andb_false_r].
Qed.

Definition cmask (c : comp) : Z := Z.shiftl (Z.ones (c_size c)) (c_shift c).
Definition coversb (c : comp) (k : Z) : bool := (c_shift c <=? k) && (k <? c_shift c + c_size c).
Lemma coversb_spec c k : coversb c k = true <-> covers c k.
Proof. unfold coversb, covers. rewrite andb_true_iff. lia. Qed.
Lemma cmask_bit c k : byte_comp c -> 0 <= k -> Z.testbit (cmask c) k = coversb c k.
Proof.
  intros [Hs Ht] Hk. unfold cmask, coversb. rewrite Z.shiftl_spec by lia. destruct (Z.leb_spec (c_shift c) k).
  - rewrite Z.testbit_ones_nonneg by lia. cbn [andb]. lia.
  - rewrite Z.testbit_neg_r by lia. reflexivity.
Qed.
Lemma lsb_mask_ok w n : 0 < n <= w -> lsb_mask w n = Ok (Z.ones n).
Proof.
  intros H. unfold lsb_mask. replace ((0 <? n) && (n <=? w)) with true by lia. f_equal.
  apply Z.bits_inj'. intros k Hk. rewrite Z.shiftr_spec, !Z.testbit_ones_nonneg by lia. lia.
Qed.
Lemma shl64_ok c : 1 <= c_size c <= 16 -> 0 <= c_shift c -> c_shift c + c_size c <= 32 -> shl64 (Z.ones (c_size c)) (c_shift c) = Ok (cmask c).
Proof.
  intros H1 H2 H3. unfold shl64. replace ((0 <=? c_shift c) && (c_shift c <? 64)) with true by lia. f_equal. unfold w64. fold (cmask c).
  apply Z.mod_small. unfold cmask. rewrite Z.shiftl_mul_pow2 by lia. rewrite Z.ones_equiv.
  assert (A : 0 < 2 ^ c_size c) by (apply Z.pow_pos_nonneg; lia). assert (B : 0 < 2 ^ c_shift c) by (apply Z.pow_pos_nonneg; lia).
  assert (C : 2 ^ c_size c * 2 ^ c_shift c <= 2 ^ 32) by (rewrite <- Z.pow_add_r by lia; apply Z.pow_le_mono_r; lia).
  change (2 ^ 32) with 4294967296 in C. nia.
Qed.

Definition compb (d : Z) (present : bool) (c : comp) : bool :=
  if present then (1 <=? c_size c) && (c_size c <=? 16) && (c_shift c + c_size c <=? d) else (c_size c =? 0) && (c_shift c =? 0).
Definition alignedb (c : comp) : bool := (c_size c =? 0) || ((c_size c =? 8) && (c_shift c mod 8 =? 0)).
Definition onebyteb (c : comp) : bool := (c_size c =? 0) || (c_shift c / 8 =? (c_shift c + c_size c - 1) / 8).
Definition meets (x : Z) (c : comp) : bool := negb (Z.land x (cmask c) =? 0).

Lemma compb_spec f p c : byte_comp c -> compb (f_depth f) p c = true <-> component_ok f p c.
Proof. intros [A B]. unfold compb, component_ok, provided, absent. destruct p; rewrite ?andb_true_iff; lia. Qed.

Lemma check_comp_eq d idx i c s : byte_comp c -> 0 <= i -> d <= 32 ->
  check_comp d idx i c s =
  if compb d (Z.testbit idx i) c then
    if meets (l_comb s) c && (i =? 3) then Err BL_ERROR_INVALID_VALUE
    else Ok (LS (Z.lor (l_comb s) (cmask c)) (l_overlap s || meets (l_comb s) c) (l_unaligned s || negb (alignedb c)) (l_crosses s || negb (onebyteb c)))
  else Err BL_ERROR_INVALID_VALUE.
Proof.
  intros [Hs Ht] Hi Hd. unfold check_comp. rewrite test_flag_pow2 by lia. unfold compb, alignedb, onebyteb.
  destruct (Z.eqb_spec (c_size c) 0) as [E|E].
  - rewrite E. destruct (Z.testbit idx i); [reflexivity|]. cbn [andb].
    destruct (Z.eqb_spec (c_shift c) 0) as [F|F]; [|reflexivity]. cbn [negb orb].
    unfold meets, cmask. rewrite E, F. change (Z.shiftl (Z.ones 0) 0) with 0. rewrite Z.land_0_r, Z.lor_0_r. cbn. rewrite !orb_false_r. destruct s; reflexivity.
  - destruct (Z.testbit idx i); [|reflexivity]. cbn [negb]. replace (1 <=? c_size c) with true by lia.
    rewrite Z.leb_antisym. destruct (Z.ltb_spec 16 (c_size c)); [reflexivity|]. cbn [negb andb].
    assert (W : w32 (c_shift c + c_size c) = c_shift c + c_size c) by (apply Z.mod_small; lia).
    assert (W' : w32 (c_shift c + c_size c - 1) = c_shift c + c_size c - 1) by (apply Z.mod_small; lia).
    rewrite W, W'. rewrite Z.leb_antisym. destruct (Z.ltb_spec d (c_shift c + c_size c)); [reflexivity|]. cbn [negb].
    rewrite lsb_mask_ok by lia. cbn [bind]. rewrite shl64_ok by lia. cbn [bind]. fold (meets (l_comb s) c).
    change (Z.land (c_shift c) 7) with (Z.land (c_shift c) (Z.ones 3)). rewrite Z.land_ones by lia. change (2 ^ 3) with 8. cbn [orb].
    rewrite <- negb_andb.
    assert (U : forall b x : bool, (if negb b then true else x) = x || negb b) by (intros [] []; reflexivity). rewrite !U.
    destruct (meets (l_comb s) c); cbn [andb]; [destruct (i =? 3); [reflexivity|]|]; rewrite ?orb_true_r, ?orb_false_r; reflexivity.
Qed.

Definition mrg f := Z.lor (cmask (f_r f)) (cmask (f_g f)).
Definition mrgb f := Z.lor (mrg f) (cmask (f_b f)).
Definition mall f := Z.lor (mrgb f) (cmask (f_a f)).
Definition allb (p : comp -> bool) (f : finfo) : bool := p (f_r f) && p (f_g f) && p (f_b f) && p (f_a f).

Lemma meets_0 c : meets 0 c = false.
Proof. unfold meets. rewrite Z.land_0_l. reflexivity. Qed.

Lemma check_all_eq f idx : storable f -> f_depth f <= 32 ->
  check_all f idx =
  if compb (f_depth f) (Z.testbit idx 0) (f_r f) && compb (f_depth f) (Z.testbit idx 1) (f_g f) && compb (f_depth f) (Z.testbit idx 2) (f_b f) &&
     compb (f_depth f) (Z.testbit idx 3) (f_a f) && negb (meets (mrgb f) (f_a f))
  then Ok (LS (mall f) (meets (cmask (f_r f)) (f_g f) || meets (mrg f) (f_b f)) (negb (allb alignedb f)) (negb (allb onebyteb f)))
  else Err BL_ERROR_INVALID_VALUE.
Proof.
  intros (_ & _ & Hr & Hg & Hb & Ha) Hd. unfold check_all. rewrite check_comp_eq by (assumption || lia).
  destruct (compb _ _ (f_r f)); [|reflexivity]. cbn [l_comb l_overlap l_unaligned l_crosses]. rewrite meets_0. cbn [andb orb bind]. rewrite Z.lor_0_l.
  rewrite check_comp_eq by (assumption || lia). cbn [l_comb l_overlap l_unaligned l_crosses].
  destruct (compb _ _ (f_g f)); [|reflexivity]. change (1 =? 3) with false. rewrite andb_false_r. cbn [andb orb bind].
  rewrite check_comp_eq by (assumption || lia). cbn [l_comb l_overlap l_unaligned l_crosses]. fold (mrg f).
  destruct (compb _ _ (f_b f)); [|reflexivity]. change (2 =? 3) with false. rewrite andb_false_r. cbn [andb orb bind].
  rewrite check_comp_eq by (assumption || lia). cbn [l_comb l_overlap l_unaligned l_crosses]. fold (mrgb f). fold (mall f).
  destruct (compb _ _ (f_a f)); [|reflexivity]. change (3 =? 3) with true. rewrite andb_true_r. cbn [andb].
  destruct (meets (mrgb f) (f_a f)); [reflexivity|]. cbn [negb]. rewrite orb_false_r. unfold allb. rewrite !negb_andb. reflexivity.
Qed.

(* flags *)
Lemma public_bit f n : 0 <= n -> Z.testbit (Z.land (f_flags f) F_PUBLIC) n = Z.testbit (f_flags f) n && Z.testbit F_PUBLIC n.
Proof. intros. apply Z.land_spec. Qed.
Lemma public_comps f : Z.land (Z.land (f_flags f) F_PUBLIC) 15 = Z.b2z (rgb f) + 2 * Z.b2z (alpha f) + 4 * Z.b2z (lum f).
Proof.
  rewrite <- Z.land_assoc. change (Z.land F_PUBLIC 15) with (Z.ones 3). rewrite Z.land_ones by lia.
  unfold rgb, alpha, lum. rewrite !Z.testbit_spec' by lia. change (2 ^ 3) with 8. change (2 ^ 0) with 1. change (2 ^ 1) with 2. change (2 ^ 2) with 4.
  rewrite Z.div_1_r. generalize (f_flags f). clear. intros x. Z.div_mod_to_equations. lia.
Qed.
Definition kinds f : bool := negb (rgb f && lum f) && (rgb f || lum f || alpha f).
Lemma idx_eq f : let idx := component_indexes (Z.land (Z.land (f_flags f) F_PUBLIC) 15) in
  (idx =? 0) = negb (kinds f) /\
  (kinds f = true -> Z.testbit idx 0 = (rgb f || lum f) /\ Z.testbit idx 1 = (rgb f || lum f) /\ Z.testbit idx 2 = (rgb f || lum f) /\ Z.testbit idx 3 = alpha f).
Proof. rewrite public_comps. unfold kinds. destruct (rgb f), (lum f), (alpha f); cbn; split; auto; discriminate. Qed.

Lemma flag_pub f m k : m = 2 ^ k -> 0 <= k -> Z.testbit F_PUBLIC k = true -> test_flag (Z.land (f_flags f) F_PUBLIC) m = Z.testbit (f_flags f) k.
Proof. intros -> Hk H. rewrite test_flag_pow2, Z.land_spec, H by lia. apply andb_true_r. Qed.

Definition same_rgb f : bool := comp_eqb (f_r f) (f_g f) && comp_eqb (f_g f) (f_b f).
Definition directb f : bool :=
  kinds f && (compb (f_depth f) (rgb f || lum f) (f_r f) && compb (f_depth f) (rgb f || lum f) (f_g f) && compb (f_depth f) (rgb f || lum f) (f_b f) &&
  compb (f_depth f) (alpha f) (f_a f) && negb (meets (mrgb f) (f_a f))) &&
  Bool.eqb (lum f) (meets (cmask (f_r f)) (f_g f) || meets (mrg f) (f_b f)) && negb (lum f && negb (same_rgb f)).
Definition validb f : bool :=
  depth_valid (f_depth f) && if indexed f then negb ((8 <? f_depth f) || palette_null f) else directb f.
Definition undefb f : bool := negb (Z.lxor (Z.ones (f_depth f)) (mall f) =? 0).
Definition flags1 f : Z := if indexed f || alpha f then Z.land (f_flags f) F_PUBLIC else Z.ldiff (Z.land (f_flags f) F_PUBLIC) F_PREMULTIPLIED.

Lemma depth_cases d : depth_valid d = true <-> In d [1; 2; 4; 8; 16; 24; 32].
Proof. unfold depth_valid. rewrite !orb_true_iff, !Z.eqb_eq. cbn [In]. intuition lia. Qed.
Lemma depth_range d : depth_valid d = true -> 1 <= d <= 32.
Proof. intros H. apply depth_cases in H. cbn [In] in H. lia. Qed.

Lemma examine_eq f : storable f ->
  examine f = if validb f then
    Ok (flags1 f, negb (indexed f) && negb (allb alignedb f), negb (indexed f) && negb (allb onebyteb f), negb (indexed f) && undefb f)
  else Err BL_ERROR_INVALID_VALUE.
Proof.
  intros S. unfold examine, validb. destruct (depth_valid (f_depth f)) eqn:D; [|reflexivity]. cbn [negb andb].
  apply depth_range in D. rewrite (flag_pub f F_INDEXED 4) by (reflexivity || lia). fold (indexed f). unfold flags1.
  destruct (indexed f); [destruct ((8 <? f_depth f) || palette_null f); reflexivity|].
  destruct (idx_eq f) as [E1 E2]. rewrite E1. unfold directb. destruct (kinds f); [|reflexivity]. cbn [negb andb].
  destruct (E2 eq_refl) as (X0 & X1 & X2 & X3). rewrite check_all_eq by (assumption || lia). rewrite X0, X1, X2, X3.
  match goal with |- context [if ?c then Ok (LS _ _ _ _) else _] => destruct c end; [|reflexivity].
  cbn [bind andb]. rewrite lsb_mask_ok by lia. cbn [bind l_comb l_overlap l_unaligned l_crosses]. fold (undefb f).
  rewrite (flag_pub f F_ALPHA 1) by (reflexivity || lia). fold (alpha f).
  replace (test_flag (if negb (alpha f) then Z.ldiff (Z.land (f_flags f) F_PUBLIC) F_PREMULTIPLIED else Z.land (f_flags f) F_PUBLIC) F_LUM) with (lum f).
  2:{ change F_LUM with (2 ^ 2). rewrite test_flag_pow2 by lia. destruct (alpha f); cbn [negb]; rewrite ?Z.ldiff_spec, ?Z.land_spec; change (Z.testbit F_PUBLIC 2) with true; change (Z.testbit F_PREMULTIPLIED 2) with false; unfold lum; rewrite ?andb_true_r; reflexivity. }
  destruct (Bool.eqb _ _); [|reflexivity]. cbn [negb andb]. fold (same_rgb f).
  destruct (lum f && negb (same_rgb f)); [reflexivity|]. cbn [negb orb]. destruct (alpha f); reflexivity.
Qed.

(* disjoint masks *)
Lemma meets_spec x c : byte_comp c -> meets x c = false <-> (forall k, 0 <= k -> covers c k -> Z.testbit x k = false).
Proof.
  intros B. unfold meets. rewrite negb_false_iff, Z.eqb_eq. split.
  - intros E k Hk C. assert (X : Z.testbit (Z.land x (cmask c)) k = false) by (rewrite E; apply Z.bits_0).
    rewrite Z.land_spec, cmask_bit in X by (assumption || lia). apply coversb_spec in C. rewrite C, andb_true_r in X. exact X.
  - intros H. apply Z.bits_inj'. intros k Hk. rewrite Z.land_spec, cmask_bit, Z.bits_0 by (assumption || lia).
    destruct (coversb c k) eqn:C; [|apply andb_false_r]. apply coversb_spec in C. rewrite (H k Hk C). reflexivity.
Qed.
Lemma meets_comp c d : byte_comp c -> byte_comp d -> meets (cmask c) d = false <-> disjoint c d.
Proof.
  intros B1 B2. rewrite meets_spec by assumption. unfold disjoint. split.
  - intros H k [X Y]. assert (K : 0 <= k) by (destruct B1; unfold covers in X; lia). specialize (H k K Y). rewrite cmask_bit in H by assumption. apply coversb_spec in X. congruence.
  - intros H k K Y. rewrite cmask_bit by assumption. destruct (coversb c k) eqn:E; [|reflexivity]. apply coversb_spec in E. exfalso. apply (H k). auto.
Qed.
Lemma meets_lor x y c : byte_comp c -> meets (Z.lor x y) c = meets x c || meets y c.
Proof.
  intros B. destruct (meets x c || meets y c) eqn:E.
  - destruct (meets (Z.lor x y) c) eqn:F; [reflexivity|]. rewrite meets_spec in F by assumption. exfalso. rewrite orb_true_iff in E.
    assert (X : meets x c = false) by (apply meets_spec; [assumption|]; intros k K C; specialize (F k K C); rewrite Z.lor_spec in F; apply orb_false_iff in F; tauto).
    assert (Y : meets y c = false) by (apply meets_spec; [assumption|]; intros k K C; specialize (F k K C); rewrite Z.lor_spec in F; apply orb_false_iff in F; tauto).
    destruct E; congruence.
  - apply orb_false_iff in E. destruct E as [E1 E2]. apply meets_spec; [assumption|]. rewrite meets_spec in E1, E2 by assumption. intros k K C. rewrite Z.lor_spec, E1, E2 by assumption. reflexivity.
Qed.
Lemma meets_self c : byte_comp c -> 1 <= c_size c -> meets (cmask c) c = true.
Proof.
  intros B H. destruct (meets (cmask c) c) eqn:E; [reflexivity|]. apply meets_comp in E; try assumption. exfalso. apply (E (c_shift c)). unfold covers. lia.
Qed.
Lemma comp_eqb_spec a b : comp_eqb a b = true <-> a = b.
Proof. destruct a as [x y], b as [u v]. unfold comp_eqb. cbn. rewrite andb_true_iff, !Z.eqb_eq. split; [intros [-> ->]; reflexivity|intros E; inversion E; auto]. Qed.

Lemma directb_spec f : storable f -> directb f = true <-> valid_direct f.
Proof.
  intros (_ & _ & Hr & Hg & Hb & Ha). unfold directb, valid_direct, kinds. rewrite !andb_true_iff.
  rewrite !compb_spec by assumption. unfold mrgb, mrg. rewrite !meets_lor by assumption.
  rewrite !negb_true_iff, !orb_false_iff. rewrite !meets_comp by assumption.
  assert (L : component_ok f (rgb f || lum f) (f_r f) -> component_ok f (rgb f || lum f) (f_g f) -> component_ok f (rgb f || lum f) (f_b f) ->
    (Bool.eqb (lum f) (meets (cmask (f_r f)) (f_g f) || (meets (cmask (f_r f)) (f_b f) || meets (cmask (f_g f)) (f_b f))) = true /\ lum f && negb (same_rgb f) = false) <->
    (if lum f then f_r f = f_g f /\ f_g f = f_b f
     else disjoint (f_r f) (f_g f) /\ disjoint (f_r f) (f_b f) /\ disjoint (f_g f) (f_b f))).
  { intros C1 C2 C3. destruct (lum f) eqn:Lm.
    - rewrite orb_true_r in C1. cbn [andb]. rewrite negb_false_iff. unfold same_rgb. rewrite andb_true_iff, !comp_eqb_spec. split; [tauto|].
      intros [E1 E2]. split; [|auto]. rewrite <- E1. destruct C1 as [C1 _]. rewrite meets_self by (assumption || lia). reflexivity.
    - cbn [andb]. rewrite <- !meets_comp by assumption. rewrite <- !orb_false_iff. rewrite Bool.eqb_true_iff. split; [intros [E _]; auto|auto]. }
  intuition.
Qed.
Lemma validb_spec f : storable f -> validb f = true <-> valid f.
Proof.
  intros S. unfold validb, valid. rewrite andb_true_iff, depth_cases. destruct (indexed f); [|rewrite directb_spec by assumption; tauto].
  rewrite negb_true_iff, orb_false_iff. unfold palette_null.
  assert (P : forallb (fun c => (c_size c =? 0) && (c_shift c =? 0)) (comps f) = false <-> exists c, In c (comps f) /\ (c_size c <> 0 \/ c_shift c <> 0)).
  { split.
    - intros H. generalize (comps f) H. clear. induction l as [|c l IH]; cbn [forallb]; [discriminate|]. intros H. apply andb_false_iff in H. destruct H as [H|H].
      + exists c. split; [left; reflexivity|]. apply andb_false_iff in H. lia.
      + destruct (IH H) as (x & X & Y). exists x. split; [right; exact X|exact Y].
    - intros (c & I & H). apply not_true_is_false. intros F. rewrite forallb_forall in F. specialize (F c I). apply andb_true_iff in F. lia. }
  rewrite P. split; intros (A & B & C); repeat split; auto; lia.
Qed.

(* the undefined bits *)
Lemma mall_bit f k : storable f -> 0 <= k -> Z.testbit (mall f) k = existsb (fun c => coversb c k) (comps f).
Proof.
  intros (_ & _ & Hr & Hg & Hb & Ha) Hk. unfold mall, mrgb, mrg. rewrite !Z.lor_spec, !cmask_bit by assumption. cbn. rewrite orb_false_r, !orb_assoc. reflexivity.
Qed.
Lemma valid_depth f : valid f -> 1 <= f_depth f <= 32.
Proof. intros [V _]. cbn [In] in V. lia. Qed.
Lemma valid_inside f c k : valid f -> indexed f = false -> In c (comps f) -> covers c k -> k < f_depth f.
Proof.
  intros [_ V] I Hc C. rewrite I in V. destruct V as (_ & V1 & V2 & V3 & V4 & _). unfold covers in C. unfold component_ok, provided, absent in *.
  destruct Hc as [<- | [<- | [<- | [<- | []]]]]; [destruct (rgb f || lum f)|destruct (rgb f || lum f)|destruct (rgb f || lum f)|destruct (alpha f)]; lia.
Qed.
Lemma undefb_spec f : storable f -> valid f -> indexed f = false ->
  undefb f = true <-> exists k, 0 <= k < f_depth f /\ forall c, In c (comps f) -> ~ covers c k.
Proof.
  intros S V I. pose proof (valid_depth f V) as D. unfold undefb. rewrite negb_true_iff, Z.eqb_neq. rewrite Z.lxor_eq_0_iff. split.
  - intros N. destruct (forallb (fun k => existsb (fun c => coversb c k) (comps f)) (map Z.of_nat (seq 0 (Z.to_nat (f_depth f))))) eqn:F.
    + exfalso. apply N. apply Z.bits_inj'. intros k Hk. rewrite mall_bit by assumption. rewrite Z.testbit_ones_nonneg by lia.
      destruct (Z.ltb_spec k (f_depth f)).
      * symmetry. apply (forallb_range (fun k => existsb (fun c => coversb c k) (comps f)) (Z.to_nat (f_depth f)) F). lia.
      * symmetry. apply not_true_is_false. intros X. apply existsb_exists in X. destruct X as (c & Ic & C). apply coversb_spec in C. pose proof (valid_inside f c k V I Ic C). lia.
    + assert (Q : exists x, In x (map Z.of_nat (seq 0 (Z.to_nat (f_depth f)))) /\ existsb (fun c => coversb c x) (comps f) = false).
      { revert F. generalize (map Z.of_nat (seq 0 (Z.to_nat (f_depth f)))). clear. induction l as [|a l IH]; cbn [forallb]; [discriminate|]. intros H. apply andb_false_iff in H.
        destruct H as [H|H]; [exists a; split; [left; reflexivity|exact H]|]. destruct (IH H) as (x & X & Y). exists x. split; [right; exact X|exact Y]. }
      destruct Q as (x & Ix & Ex). apply in_map_iff in Ix. destruct Ix as (m & <- & Im). apply in_seq in Im. exists (Z.of_nat m). split; [lia|]. intros c Ic C.
      apply not_true_iff_false in Ex. apply Ex. apply existsb_exists. exists c. split; [exact Ic|apply coversb_spec; exact C].
  - intros (k & Hk & H) E. assert (X : Z.testbit (Z.ones (f_depth f)) k = Z.testbit (mall f) k) by (rewrite E; reflexivity).
    rewrite mall_bit, Z.testbit_ones_nonneg in X by (assumption || lia). replace (k <? f_depth f) with true in X by lia. symmetry in X. apply existsb_exists in X.
    destruct X as (c & Ic & C). apply (H c Ic). apply coversb_spec. exact C.
Qed.
