(* Proofs for the integer helpers. *)
From Verif Require Import Base Bits IntOps_Model IntOps_Spec.

Lemma pow2_pos k : 0 <= k -> 0 < 2 ^ k.
Proof. intros. apply Z.pow_pos_nonneg; lia. Qed.

Lemma pow2_half w : 0 < w -> 2 ^ w = 2 * 2 ^ (w - 1).
Proof. intros. rewrite <- Z.pow_succ_r by lia. f_equal. lia. Qed.

Lemma to_u_range w x : 0 <= w -> 0 <= to_u w x < 2 ^ w.
Proof. intros. apply Z.mod_pos_bound. now apply pow2_pos. Qed.

Lemma to_u_small w x : 0 <= x < 2 ^ w -> to_u w x = x.
Proof. intros. now apply Z.mod_small. Qed.

Lemma to_s_range w x : 0 < w -> - 2 ^ (w - 1) <= to_s w x < 2 ^ (w - 1).
Proof.
  intros. unfold to_s. pose proof (Z.mod_pos_bound x (2 ^ w) ltac:(apply pow2_pos; lia)).
  rewrite (pow2_half w) in * by lia. destruct (Z.ltb_spec (x mod (2 * 2 ^ (w - 1))) (2 ^ (w - 1))); lia.
Qed.

Lemma to_s_congr w x : 0 < w -> exists k, to_s w x = x + k * 2 ^ w.
Proof.
  intros. unfold to_s. pose proof (Z.div_mod x (2 ^ w) ltac:(pose proof (pow2_pos w); lia)).
  destruct (x mod 2 ^ w <? 2 ^ (w - 1)).
  - exists (- (x / 2 ^ w)). lia.
  - exists (- (x / 2 ^ w) - 1). lia.
Qed.

Lemma to_u_congr w x : 0 <= w -> exists k, to_u w x = x + k * 2 ^ w.
Proof.
  intros. unfold to_u. pose proof (Z.div_mod x (2 ^ w) ltac:(pose proof (pow2_pos w); lia)).
  exists (- (x / 2 ^ w)). lia.
Qed.

Lemma to_s_small w x : 0 < w -> - 2 ^ (w - 1) <= x < 2 ^ (w - 1) -> to_s w x = x.
Proof.
  intros Hw Hx. pose proof (to_s_range w x Hw). destruct (to_s_congr w x Hw) as [k Hk].
  rewrite (pow2_half w) in * by lia. assert (k = 0) by nia. subst. lia.
Qed.

Lemma to_t_range w sg x : 0 < w -> in_range w sg (to_t w sg x).
Proof.
  intros. unfold in_range, int_min, int_max, to_t. destruct sg.
  - pose proof (to_s_range w x). lia.
  - pose proof (to_u_range w x). lia.
Qed.

Lemma to_t_congr w sg x : 0 < w -> exists k, to_t w sg x = x + k * 2 ^ w.
Proof. intros. destruct sg; cbn; [apply to_s_congr|apply to_u_congr]; lia. Qed.

Lemma to_t_small w sg x : 0 < w -> in_range w sg x -> to_t w sg x = x.
Proof.
  intros Hw Hx. unfold in_range, int_min, int_max in Hx. destruct sg; cbn.
  - apply to_s_small; lia.
  - apply to_u_small; lia.
Qed.

(* relation between a value and its unsigned image *)
Lemma to_u_of_range w sg x : 0 < w -> in_range w sg x ->
  to_u w x = if x <? 0 then x + 2 ^ w else x.
Proof.
  intros Hw Hx. unfold in_range, int_min, int_max in Hx. rewrite (pow2_half w) in Hx by lia.
  unfold to_u. destruct (Z.ltb_spec x 0).
  - symmetry. apply Z.mod_unique with (-1); [left|]; rewrite ?(pow2_half w) by lia; destruct sg; lia.
  - apply Z.mod_small. rewrite (pow2_half w) by lia. destruct sg; lia.
Qed.

Lemma to_t_eq w sg a b k : 0 < w -> a = b + k * 2 ^ w -> to_t w sg a = to_t w sg b.
Proof.
  intros Hw ->. destruct sg; cbn; unfold to_s, to_u; rewrite Z.mod_add by (pose proof (pow2_pos w); lia); reflexivity.
Qed.

Lemma to_s_neg_land w a b : 0 < w ->
  (to_s w (Z.land a b) <? 0) = Z.testbit a (w - 1) && Z.testbit b (w - 1).
Proof.
  intros Hw. rewrite <- Z.land_spec. generalize (Z.land a b) as c. intros c.
  transitivity (Z.testbit (c mod 2 ^ w) (w - 1)).
  - unfold to_s. pose proof (Z.mod_pos_bound c (2 ^ w) ltac:(apply pow2_pos; lia)).
    rewrite testbit_top by lia. rewrite (pow2_half w) in * by lia.
    destruct (Z.ltb_spec (c mod (2 * 2 ^ (w - 1))) (2 ^ (w - 1)));
    destruct (Z.leb_spec (2 ^ (w - 1)) (c mod (2 * 2 ^ (w - 1)))); lia.
  - rewrite Z.mod_pow2_bits_low by lia. reflexivity.
Qed.

(* shared part: exactness and congruence *)
Lemma checked_value w sg e r k : 0 < w -> r = e + k * 2 ^ w ->
  (in_range w sg e -> to_t w sg r = e) /\ in_range w sg (to_t w sg r) /\ (2 ^ w | to_t w sg r - e).
Proof.
  intros Hw Hr. split; [|split].
  - intros He. rewrite (to_t_eq w sg r e k) by lia. now apply to_t_small.
  - now apply to_t_range.
  - destruct (to_t_congr w sg r Hw) as [k' E]. exists (k + k'). rewrite E, Hr. ring.
Qed.

Lemma orb_iff a b P : (b = true <-> P) -> (a || b = true <-> (a = true \/ P)).
Proof. intros <-. destruct a, b; cbn; intuition. Qed.

Lemma add_overflow_ok w sg x y of : 0 < w -> in_range w sg x -> in_range w sg y ->
  checked_ok w sg (x + y) of (add_overflow w sg x y of).
Proof.
  intros Hw Hx Hy. unfold checked_ok, add_overflow. cbn [fst snd].
  set (ux := to_u w x). set (uy := to_u w y). set (r := to_u w (ux + uy)).
  assert (Hr : exists k, r = x + y + k * 2 ^ w).
  { destruct (to_u_congr w x) as [k1 E1]; [lia|]. destruct (to_u_congr w y) as [k2 E2]; [lia|].
    destruct (to_u_congr w (ux + uy)) as [k3 E3]; [lia|]. exists (k1 + k2 + k3). unfold r. rewrite E3. unfold ux, uy. rewrite E1, E2. ring. }
  destruct Hr as [k Hr]. split; [|now apply checked_value with k].
  apply orb_iff.
  assert (Hr0 : r = if ux + uy <? 2 ^ w then ux + uy else ux + uy - 2 ^ w).
  { unfold r. pose proof (to_u_range w x). pose proof (to_u_range w y). fold ux uy in H, H0.
    unfold to_u at 1. destruct (Z.ltb_spec (ux + uy) (2 ^ w)); [apply Z.mod_small; lia|].
    symmetry. apply Z.mod_unique with 1; [left|]; lia. }
  pose proof (to_u_range w x ltac:(lia)) as Hu1. pose proof (to_u_range w y ltac:(lia)) as Hu2. fold ux in Hu1. fold uy in Hu2.
  assert (Hrr : 0 <= r < 2 ^ w) by (apply to_u_range; lia).
  pose proof (to_u_of_range w sg x Hw Hx) as Ex. pose proof (to_u_of_range w sg y Hw Hy) as Ey. fold ux in Ex. fold uy in Ey.
  unfold in_range, int_min, int_max in *. destruct sg.
  - rewrite to_s_neg_land by lia. rewrite !Z.lxor_spec, Z.lnot_spec by lia. rewrite !testbit_top by lia.
    rewrite (pow2_half w) in * by lia. set (h := 2 ^ (w - 1)) in *.
    destruct (Z.leb_spec h ux), (Z.leb_spec h uy), (Z.leb_spec h r); cbn;
    destruct (Z.ltb_spec x 0), (Z.ltb_spec y 0), (Z.ltb_spec (ux + uy) (2 * h)); intuition (try lia).
  - destruct (Z.ltb_spec x 0), (Z.ltb_spec y 0), (Z.ltb_spec (ux + uy) (2 ^ w)); try lia;
    destruct (Z.ltb_spec r ux); intuition (try lia).
Qed.

Lemma sub_overflow_ok w sg x y of : 0 < w -> in_range w sg x -> in_range w sg y ->
  checked_ok w sg (x - y) of (sub_overflow w sg x y of).
Proof.
  intros Hw Hx Hy. unfold checked_ok, sub_overflow. cbn [fst snd].
  set (ux := to_u w x). set (uy := to_u w y). set (r := to_u w (ux - uy)).
  assert (Hr : exists k, r = x - y + k * 2 ^ w).
  { destruct (to_u_congr w x) as [k1 E1]; [lia|]. destruct (to_u_congr w y) as [k2 E2]; [lia|].
    destruct (to_u_congr w (ux - uy)) as [k3 E3]; [lia|]. exists (k1 - k2 + k3). unfold r. rewrite E3. unfold ux, uy. rewrite E1, E2. ring. }
  destruct Hr as [k Hr]. split; [|now apply checked_value with k].
  apply orb_iff.
  pose proof (to_u_range w x ltac:(lia)) as Hu1. pose proof (to_u_range w y ltac:(lia)) as Hu2. fold ux in Hu1. fold uy in Hu2.
  assert (Hr0 : r = if ux - uy <? 0 then ux - uy + 2 ^ w else ux - uy).
  { unfold r, to_u at 1. destruct (Z.ltb_spec (ux - uy) 0); [|apply Z.mod_small; lia].
    symmetry. apply Z.mod_unique with (-1); [left|]; lia. }
  assert (Hrr : 0 <= r < 2 ^ w) by (apply to_u_range; lia).
  pose proof (to_u_of_range w sg x Hw Hx) as Ex. pose proof (to_u_of_range w sg y Hw Hy) as Ey. fold ux in Ex. fold uy in Ey.
  unfold in_range, int_min, int_max in *. destruct sg.
  - rewrite to_s_neg_land by lia. rewrite !Z.lxor_spec. rewrite !testbit_top by lia.
    rewrite (pow2_half w) in * by lia. set (h := 2 ^ (w - 1)) in *.
    destruct (Z.leb_spec h ux), (Z.leb_spec h uy), (Z.leb_spec h r); cbn;
    destruct (Z.ltb_spec x 0), (Z.ltb_spec y 0), (Z.ltb_spec (ux - uy) 0); intuition (try lia).
  - destruct (Z.ltb_spec x 0), (Z.ltb_spec y 0), (Z.ltb_spec (ux - uy) 0); try lia;
    destruct (Z.gtb_spec r ux); intuition (try lia).
Qed.

(* ---- multiplication ---- *)
Lemma to_s_to_u w x : 0 < w -> to_s w (to_u w x) = to_s w x.
Proof. intros. unfold to_s, to_u. rewrite Z.mod_mod by (pose proof (pow2_pos w); lia). reflexivity. Qed.

Lemma to_s_eq w a b k : 0 < w -> a = b + k * 2 ^ w -> to_s w a = to_s w b.
Proof. intros. exact (to_t_eq w true a b k H H0). Qed.

Lemma mul_congr w x y : 0 <= w -> exists k, to_u w x * to_u w y = x * y + k * 2 ^ w.
Proof.
  intros. destruct (to_u_congr w x H) as [k1 E1]. destruct (to_u_congr w y H) as [k2 E2].
  rewrite E1, E2. exists (x * k2 + k1 * y + k1 * k2 * 2 ^ w). ring.
Qed.

Lemma mul_range w x y : 0 < w -> in_range w true x -> in_range w true y ->
  - 2 ^ (2 * w - 1) <= x * y < 2 ^ (2 * w - 1).
Proof.
  unfold in_range, int_min, int_max. intros Hw Hx Hy.
  assert (E : 2 ^ (2 * w - 1) = 2 * (2 ^ (w - 1) * 2 ^ (w - 1))).
  { rewrite <- Z.pow_add_r, <- Z.pow_succ_r by lia. f_equal. lia. }
  pose proof (pow2_pos (w - 1) ltac:(lia)). rewrite E. set (h := 2 ^ (w - 1)) in *. nia.
Qed.

Definition mul_promo_ok w (sg : bool) x y : Prop := w = 8 -> sg = true -> ~ (x < 0 /\ y < 0).

Lemma umul_promoted_ok w sg x y : w = 8 \/ w = 16 \/ w = 32 -> in_range w sg x -> in_range w sg y ->
  mul_promo_ok w sg x y ->
  umul_promoted (2 * w) (to_u (2 * w) x) (to_u (2 * w) y) = Ok (to_u (2 * w) (x * y)).
Proof.
  intros Hw Hx Hy Hp. unfold umul_promoted.
  assert (E : to_u (2 * w) (to_u (2 * w) x * to_u (2 * w) y) = to_u (2 * w) (x * y)).
  { destruct (mul_congr (2 * w) x y ltac:(lia)) as [k ->]. unfold to_u. apply Z.mod_add.
    pose proof (pow2_pos (2 * w)). lia. }
  rewrite E. destruct Hw as [->|[->| ->]]; try reflexivity.
  change (2 * 8 <? 32) with true. cbv iota.
  replace (_ <=? 2147483647) with true; [reflexivity|symmetry; apply Z.leb_le].
  unfold mul_promo_ok in Hp. clear E. unfold to_u.
  change (2 ^ (2 * 8)) with 65536.
  assert (Ax : exists a, x mod 65536 = a /\ (0 <= a <= 255 \/ (x < 0 /\ 0 <= a < 65536 /\ sg = true))).
  { eexists; split; [reflexivity|]. unfold in_range, int_min, int_max in Hx. cbn in Hx. destruct sg; lia. }
  assert (Ay : exists b, y mod 65536 = b /\ (0 <= b <= 255 \/ (y < 0 /\ 0 <= b < 65536 /\ sg = true))).
  { eexists; split; [reflexivity|]. unfold in_range, int_min, int_max in Hy. cbn in Hy. destruct sg; lia. }
  destruct Ax as (a & -> & Ha). destruct Ay as (b & -> & Hb).
  destruct Ha as [Ha|(Ha & Ha' & ->)], Hb as [Hb|(Hb & Hb' & Es)]; try nia.
  all: exfalso; apply Hp; auto.
Qed.

Lemma mul_overflow_narrow_ok w sg x y of : w = 8 \/ w = 16 \/ w = 32 -> in_range w sg x -> in_range w sg y ->
  mul_promo_ok w sg x y ->
  exists res, mul_overflow_narrow w sg x y of = Ok res /\ checked_ok w sg (x * y) of res.
Proof.
  intros Hw Hx Hy Hp. pose proof (umul_promoted_ok w sg x y Hw Hx Hy Hp) as E.
  assert (Hw0 : 0 < w) by lia.
  set (prod := to_u (2 * w) (x * y)) in *.
  assert (E2 : 2 ^ (2 * w) = 2 ^ w * 2 ^ w) by (rewrite <- Z.pow_add_r by lia; f_equal; lia).
  assert (Hl : Z.land prod (2 ^ w - 1) = prod mod 2 ^ w) by (apply land_mask; lia).
  assert (Hc : exists k, prod mod 2 ^ w = x * y + k * 2 ^ w).
  { destruct (to_u_congr (2 * w) (x * y)) as [k Ek]; [lia|].
    destruct (to_u_congr w prod) as [k' Ek']; [lia|].
    exists (k * 2 ^ w + k'). unfold to_u in Ek' at 1. rewrite Ek'. unfold prod at 1. rewrite Ek, E2. ring. }
  destruct Hc as [k Hc]. unfold mul_overflow_narrow. destruct sg.
  - rewrite E. cbn [bind]. eexists; split; [reflexivity|]. unfold checked_ok; cbn [fst snd].
    split; [|rewrite Hl; now apply checked_value with k].
    apply orb_iff.
    assert (Es : to_s (2 * w) prod = x * y).
    { unfold prod. rewrite to_s_to_u by lia. apply to_s_small; [lia|]. now apply mul_range. }
    rewrite Es. unfold in_range, int_min, int_max. lia.
  - rewrite E. cbn [bind]. eexists; split; [reflexivity|]. unfold checked_ok; cbn [fst snd].
    split; [|rewrite Hl; now apply checked_value with k].
    apply orb_iff. unfold in_range, int_min, int_max in *.
    assert (Ep : prod = x * y).
    { apply to_u_small. rewrite E2. nia. }
    assert (Hr : 0 <= prod < 2 ^ (2 * w)) by (apply to_u_range; lia).
    assert (En : Z.land prod (to_u (2 * w) (Z.lnot (2 ^ w - 1))) = 2 ^ w * (prod / 2 ^ w)).
    { apply Z.bits_inj'. intros n Hn. rewrite Z.land_spec. unfold to_u. rewrite mod_pow2_testbit, Z.lnot_spec by lia.
      replace (2 ^ w - 1) with (Z.ones w) by (rewrite Z.ones_equiv; lia).
      rewrite (Z.mul_comm (2 ^ w)), Z.mul_pow2_bits by lia. rewrite <- Z.shiftr_div_pow2 by lia.
      rewrite Z.testbit_ones_nonneg by lia.
      destruct (Z.ltb_spec n w).
      - rewrite !(Z.testbit_neg_r _ (n - w)) by lia. cbn. rewrite !andb_false_r. reflexivity.
      - rewrite Z.shiftr_spec by lia. replace (n - w + w) with n by lia. cbn [negb].
        destruct (Z.ltb_spec n (2 * w)); cbn [andb].
        + rewrite ?andb_true_r; reflexivity.
        + rewrite (testbit_small prod (2 * w)) by lia. reflexivity. }
    rewrite En, Ep. pose proof (pow2_pos w ltac:(lia)).
    pose proof (Z.div_mod (x * y) (2 ^ w) ltac:(lia)). pose proof (Z.mod_pos_bound (x * y) (2 ^ w) ltac:(lia)).
    assert (Hnn : 0 <= x * y / 2 ^ w) by (apply Z.div_pos; nia).
    set (q := x * y / 2 ^ w) in *. set (P := x * y) in *. set (M := 2 ^ w) in *.
    destruct (Z.eqb_spec (M * q) 0) as [Eq|Ne]; cbn [negb]; split; intros HH; try discriminate; try reflexivity.
    + exfalso. lia.
    + intros Hin. apply Ne. assert (q = 0) by nia. nia.
Qed.

Lemma mul_overflow_u64_ok x y of : in_range 64 false x -> in_range 64 false y ->
  exists res, mul_overflow_u64 x y of = Ok res /\ checked_ok 64 false (x * y) of res.
Proof.
  intros Hx Hy. unfold mul_overflow_u64. eexists; split; [reflexivity|]. unfold checked_ok; cbn [fst snd].
  destruct (to_u_congr 64 (x * y)) as [k Ek]; [lia|].
  split.
  - apply orb_iff. unfold in_range, int_min, int_max in *. set (M := 2 ^ 64) in *.
    destruct (Z.eqb_spec y 0) as [->|Hy0]; cbn.
    + split; [discriminate|lia].
    + pose proof (Z.div_mod (M - 1) y Hy0). pose proof (Z.mod_pos_bound (M - 1) y ltac:(lia)).
      destruct (Z.ltb_spec ((M - 1) / y) x); split; intros; try discriminate; try reflexivity; try nia.
  - pose proof (checked_value 64 false (x * y) (to_u 64 (x * y)) k ltac:(lia) Ek) as H.
    unfold to_t in H. unfold to_u in H at 1 3 5. unfold to_u in *. rewrite !Z.mod_mod in H by lia. exact H.
Qed.

Lemma mul_overflow_i64_ok x y of : in_range 64 true x -> in_range 64 true y ->
  ~ (x = -1 /\ y = - 2 ^ 63) ->
  exists res, mul_overflow_i64 x y of = Ok res /\ checked_ok 64 true (x * y) of res.
Proof.
  intros Hx Hy Hn. unfold mul_overflow_i64.
  destruct (mul_congr 64 x y) as [k0 Ek0]; [lia|].
  assert (E : to_s 64 (to_u 64 x * to_u 64 y) = to_s 64 (x * y)).
  { apply to_s_eq with k0; lia. }
  rewrite E. destruct (to_s_congr 64 (x * y)) as [k Ek]; [lia|].
  assert (V : (in_range 64 true (x * y) -> to_s 64 (x * y) = x * y) /\
          in_range 64 true (to_s 64 (x * y)) /\ (2 ^ 64 | to_s 64 (x * y) - x * y)).
  { exact (checked_value 64 true (x * y) (x * y) 0 ltac:(lia) ltac:(lia)). }
  destruct (Z.eqb_spec x 0) as [->|Hx0].
  - cbn [bind]. eexists; split; [reflexivity|]. split; [|exact V]. cbn [snd]. apply orb_iff.
    split; [discriminate|]. intros H. exfalso. apply H. unfold in_range, int_min, int_max. lia.
  - unfold sdiv. rewrite (proj2 (Z.eqb_neq x 0) Hx0).
    set (r := to_s 64 (x * y)) in *.
    assert (Hg : (r =? - 2 ^ (64 - 1)) && (x =? -1) = false).
    { destruct (Z.eqb_spec x (-1)) as [->|]; [|apply andb_false_r].
      destruct (Z.eqb_spec r (- 2 ^ (64 - 1))) as [Er|]; [|reflexivity]. exfalso. apply Hn. split; [reflexivity|].
      unfold in_range, int_min, int_max in *. change (2 ^ (64 - 1)) with 9223372036854775808 in *.
      change (2 ^ 64) with 18446744073709551616 in *. change (2 ^ 63) with 9223372036854775808. lia. }
    rewrite Hg. cbn [bind]. eexists; split; [reflexivity|]. split; [|exact V]. cbn [snd]. apply orb_iff.
    pose proof (Z.quot_rem' r x). pose proof (Z.rem_bound_abs r x Hx0).
    destruct V as (V1 & V2 & _).
    destruct (Z.eqb_spec (Z.quot r x) y) as [Eq|Ne]; cbn.
    + split; [discriminate|]. intros Hnr. exfalso. apply Hnr.
      enough (k = 0) by (replace (x * y) with r by lia; exact V2).
      rewrite Eq in H. rewrite Ek in H. unfold in_range, int_min, int_max in Hx.
      change (2 ^ (64 - 1)) with 9223372036854775808 in *. change (2 ^ 64) with 18446744073709551616 in *. lia.
    + split; [intros _|reflexivity]. intros Hin. apply Ne. rewrite (V1 Hin). rewrite Z.mul_comm. now apply Z.quot_mul.
Qed.

Lemma mul_overflow_ok w sg x y of : std_width w -> in_range w sg x -> in_range w sg y ->
  ~ (w = 8 /\ sg = true /\ x < 0 /\ y < 0) ->
  ~ (w = 64 /\ sg = true /\ x = -1 /\ y = - 2 ^ 63) ->
  exists res, mul_overflow w sg x y of = Ok res /\ checked_ok w sg (x * y) of res.
Proof.
  intros Hw Hx Hy H8 H64. unfold mul_overflow. destruct (Z.eqb_spec w 64) as [->|].
  - destruct sg; [apply mul_overflow_i64_ok; auto; tauto|now apply mul_overflow_u64_ok].
  - apply mul_overflow_narrow_ok; auto; unfold std_width in Hw; [lia|]. unfold mul_promo_ok. intros. intros [? ?]. apply H8. auto.
Qed.

Lemma bool_as_mask_true w : 0 < w -> bool_as_mask w false true = 2 ^ w - 1.
Proof.
  intros Hw. unfold bool_as_mask, negate, to_t, to_u. pose proof (pow2_half w Hw). pose proof (pow2_pos (w - 1) ltac:(lia)).
  assert (1 < 2 ^ w \/ 2 ^ w = 1 \/ True) by lia.
  rewrite (Z.mod_small 1) by lia. replace (0 - 1) with (-1) by lia.
  assert (E : (-1) mod 2 ^ w = 2 ^ w - 1) by (symmetry; apply Z.mod_unique with (-1); [left|]; lia).
  rewrite E. apply Z.mod_small. lia.
Qed.

Lemma bool_as_mask_false w : 0 < w -> bool_as_mask w false false = 0.
Proof.
  intros Hw. assert (2 ^ w <> 0) by (pose proof (pow2_pos w); lia). unfold bool_as_mask, negate, to_t, to_u.
  rewrite (Z.mod_0_l (2 ^ w)) by assumption. replace (0 - 0) with 0 by lia. rewrite !(Z.mod_0_l (2 ^ w)) by assumption. reflexivity.
Qed.

Lemma lor_allones w x : 0 < w -> 0 <= x < 2 ^ w -> Z.lor x (2 ^ w - 1) = 2 ^ w - 1.
Proof.
  intros. apply (bits_ext_bounded _ _ w); try lia.
  - apply (lor_bound x (2 ^ w - 1) w); lia.
  - intros n Hn. rewrite Z.lor_spec. replace (2 ^ w - 1) with (Z.ones w) by (rewrite Z.ones_equiv; lia).
    rewrite Z.ones_spec_low by lia. apply orb_true_r.
Qed.

Lemma sat_or w e res : 0 < w -> 0 <= e -> checked_ok w false e false res ->
  Z.lor (fst res) (bool_as_mask w false (snd res)) = Z.min e (2 ^ w - 1).
Proof.
  intros Hw He (H1 & H2 & H3 & _). unfold in_range, int_min, int_max in *.
  destruct (snd res) eqn:Es.
  - destruct (proj1 H1 eq_refl) as [|Hn]; [discriminate|].
    rewrite bool_as_mask_true, lor_allones by lia. lia.
  - rewrite bool_as_mask_false, Z.lor_0_r by lia.
    assert (0 <= e <= 2 ^ w - 1).
    { destruct (Z.le_gt_cases e (2 ^ w - 1)); [lia|]. exfalso. assert (false = true) by (apply H1; right; lia). discriminate. }
    rewrite H2 by lia. lia.
Qed.

Lemma uadd_saturate_ok w x y : 0 < w -> in_range w false x -> in_range w false y ->
  uadd_saturate w x y = Z.min (x + y) (2 ^ w - 1).
Proof.
  intros Hw Hx Hy. pose proof (add_overflow_ok w false x y false Hw Hx Hy) as H.
  unfold uadd_saturate. destruct (add_overflow w false x y false) as [r o].
  unfold in_range, int_min in *. apply (sat_or w (x + y) (r, o)); [lia|lia|exact H].
Qed.

Lemma umul_saturate_ok w x y : std_width w -> in_range w false x -> in_range w false y ->
  umul_saturate w x y = Ok (Z.min (x * y) (2 ^ w - 1)).
Proof.
  intros Hw Hx Hy. destruct (mul_overflow_ok w false x y false Hw Hx Hy) as (res & E & H); [intuition discriminate..|].
  unfold umul_saturate. rewrite E. cbn [bind]. f_equal. apply sat_or; auto; unfold std_width, in_range, int_min in *; [lia|nia].
Qed.

Lemma usub_saturate_ok w x y : 0 < w -> in_range w false x -> in_range w false y ->
  usub_saturate w x y = Z.max (x - y) 0.
Proof.
  intros Hw Hx Hy. pose proof (sub_overflow_ok w false x y false Hw Hx Hy) as H.
  unfold usub_saturate. destruct (sub_overflow w false x y false) as [r o].
  destruct H as (H1 & H2 & H3 & _). cbn [fst snd] in *. unfold in_range, int_min, int_max in *.
  destruct o; cbn [negb].
  - destruct (proj1 H1 eq_refl) as [|Hn]; [discriminate|]. rewrite bool_as_mask_false, Z.land_0_r by lia. lia.
  - assert (0 <= x - y).
    { destruct (Z.le_gt_cases 0 (x - y)); [lia|]. exfalso. assert (false = true) by (apply H1; right; lia). discriminate. }
    rewrite bool_as_mask_true, land_mask, Z.mod_small by lia. rewrite H2 by lia. lia.
Qed.
