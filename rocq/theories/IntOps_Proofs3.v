(* Proofs for bit scans, population counts, clamp, pmod and rotations. *)
From Verif Require Import Base Bits IntOps_Model IntOps_Spec IntOps_Proofs IntOps_Proofs2.

(* one counter operation executed by the model *)
Definition hs_apply n s op := match op with
  | OpItem x => hs_add_item n s x | OpArray l => hs_add_array n s l | OpPop v => hs_add_population s v end.

(* ---- clz ---- *)
Lemma land_high_zero w x N : 0 < N <= w -> 0 <= x < 2 ^ w ->
  (Z.land x (to_u w (Z.shiftl (2 ^ w - 1) (w - N))) =? 0) = (x <? 2 ^ (w - N)).
Proof.
  intros HN Hx. apply eq_true_iff_eq. rewrite Z.eqb_eq, Z.ltb_lt.
  assert (Hbit : forall n, 0 <= n -> Z.testbit (to_u w (Z.shiftl (2 ^ w - 1) (w - N))) n = (w - N <=? n) && (n <? w)).
  { intros n Hn. unfold to_u. rewrite mod_pow2_testbit by lia.
    replace (2 ^ w - 1) with (Z.ones w) by (rewrite Z.ones_equiv; lia).
    rewrite Z.shiftl_spec by lia. destruct (Z.leb_spec (w - N) n).
    - rewrite Z.testbit_ones_nonneg by lia. destruct (Z.ltb_spec n w); [|reflexivity].
      destruct (Z.ltb_spec (n - (w - N)) w); [reflexivity|lia].
    - rewrite Z.testbit_neg_r by lia. apply andb_false_r. }
  split.
  - intros E. apply bits_small_iff; try lia. intros n Hn.
    destruct (Z.lt_ge_cases n w) as [Hl|Hl]; [|apply (testbit_small x w); lia].
    assert (Z.testbit (Z.land x (to_u w (Z.shiftl (2 ^ w - 1) (w - N)))) n = false) as E2 by (rewrite E; apply Z.bits_0).
    rewrite Z.land_spec, Hbit in E2 by lia. destruct (Z.leb_spec (w - N) n); [|lia]. destruct (Z.ltb_spec n w); [|lia].
    now rewrite andb_true_r in E2.
  - intros Hlt. apply Z.bits_inj'. intros n Hn. rewrite Z.bits_0, Z.land_spec, Hbit by lia.
    destruct (Z.leb_spec (w - N) n); [|apply andb_false_r]. rewrite (testbit_small x (w - N)) by lia. reflexivity.
Qed.

Lemma bitscan_clz_ok w : 0 < w -> forall k x n, 2 ^ Z.of_nat k <= w -> 2 ^ (w - 2 ^ Z.of_nat k) <= x < 2 ^ w ->
  1 <= n -> n + 2 ^ Z.of_nat k < 2 ^ 32 ->
  exists r, bitscan_clz w k x n = n - 1 + r /\ 0 <= r < 2 ^ Z.of_nat k /\ 2 ^ (w - 1 - r) <= x < 2 ^ (w - r).
Proof.
  intros Hw. induction k as [|k IH]; intros x n Hk Hx Hn Hb.
  - cbn [bitscan_clz]. change (2 ^ Z.of_nat 0) with 1 in *. exists 0.
    assert (E : Z.shiftr x (w - 1) = 1).
    { rewrite Z.shiftr_div_pow2 by lia. rewrite (pow2_half w) in Hx by lia. symmetry. apply Z.div_unique with (x - 2 ^ (w - 1)); lia. }
    rewrite E. rewrite to_u_small by lia. replace (w - 1 - 0) with (w - 1) by lia. replace (w - 0) with w by lia. lia.
  - cbn [bitscan_clz]. rewrite Nat2Z.inj_succ, Z.pow_succ_r in * by lia. set (N := 2 ^ Z.of_nat k) in *.
    assert (HN : 0 < N) by (apply pow2_pos; lia).
    pose proof (pow2_pos (w - 2 * N) ltac:(lia)).
    rewrite land_high_zero by lia. destruct (Z.ltb_spec x (2 ^ (w - N))) as [Hlt|Hge].
    + rewrite Z.shiftl_mul_pow2 by lia.
      assert (E1 : 2 ^ (w - N) * 2 ^ N = 2 ^ w) by (rewrite <- Z.pow_add_r by lia; f_equal; lia).
      assert (E2 : 2 ^ (w - 2 * N) * 2 ^ N = 2 ^ (w - N)) by (rewrite <- Z.pow_add_r by lia; f_equal; lia).
      pose proof (pow2_pos N ltac:(lia)).
      rewrite (to_u_small w) by nia. rewrite (to_u_small 32) by lia.
      destruct (IH (x * 2 ^ N) (n + N)) as (r & Er & Hr & Hxr); try lia; [nia|].
      exists (N + r). split; [lia|]. split; [lia|].
      assert (F1 : 2 ^ (w - 1 - r) = 2 ^ (w - 1 - (N + r)) * 2 ^ N).
      { destruct (Z.le_gt_cases 0 (w - 1 - (N + r))).
        - rewrite <- Z.pow_add_r by lia. f_equal. lia.
        - exfalso. assert (w <= N + r) by lia. lia. }
      assert (F2 : 2 ^ (w - r) = 2 ^ (w - (N + r)) * 2 ^ N) by (rewrite <- Z.pow_add_r by lia; f_equal; lia).
      nia.
    + rewrite Z.shiftl_0_r. rewrite (to_u_small w) by lia. rewrite Z.add_0_r, (to_u_small 32) by lia.
      destruct (IH x n) as (r & Er & Hr & Hxr); try lia. exists r. lia.
Qed.

Lemma clz_fallback_ok k x : (k = 5 \/ k = 6)%nat -> let w := 2 ^ Z.of_nat k in 0 < x < 2 ^ w ->
  let r := clz_fallback k x in 0 <= r < w /\ 2 ^ (w - 1 - r) <= x < 2 ^ (w - r).
Proof.
  intros Hk w Hx r. unfold r, clz_fallback. fold w.
  destruct (bitscan_clz_ok w ltac:(apply pow2_pos; lia) k x 1) as (r' & E & Hr & Hxr); try (fold w; try lia).
  - rewrite Z.sub_diag. change (2 ^ 0) with 1. lia.
  - unfold w. destruct Hk as [->| ->]; cbn; lia.
  - rewrite E. replace (1 - 1 + r') with r' by lia. auto.
Qed.

(* ---- ctz ---- *)
Lemma land_low_zero w x N : 0 < N <= w -> (Z.land x (Z.shiftr (2 ^ w - 1) (w - N)) =? 0) = (x mod 2 ^ N =? 0).
Proof.
  intros HN. replace (Z.shiftr (2 ^ w - 1) (w - N)) with (2 ^ N - 1).
  - rewrite land_mask by lia. reflexivity.
  - rewrite Z.shiftr_div_pow2 by lia. assert (E : 2 ^ w = 2 ^ N * 2 ^ (w - N)) by (rewrite <- Z.pow_add_r by lia; f_equal; lia).
    pose proof (pow2_pos (w - N) ltac:(lia)). apply Z.div_unique with (2 ^ (w - N) - 1); [lia|]. rewrite E. ring.
Qed.

Lemma bitscan_ctz_ok w : 0 < w -> forall k x n, 2 ^ Z.of_nat k <= w -> 0 <= x -> x mod 2 ^ (2 ^ Z.of_nat k) <> 0 ->
  1 <= n -> n + 2 ^ Z.of_nat k < 2 ^ 32 ->
  exists r, bitscan_ctz w k x n = n - 1 + r /\ 0 <= r < 2 ^ Z.of_nat k /\ x mod 2 ^ r = 0 /\ Z.testbit x r = true.
Proof.
  intros Hw. induction k as [|k IH]; intros x n Hk Hx0 Hx Hn Hb.
  - cbn [bitscan_ctz]. change (2 ^ Z.of_nat 0) with 1 in *. exists 0.
    assert (E : Z.land x 1 = 1). { change 1 with (2 ^ 1 - 1) at 1. rewrite land_mask by lia. change (2 ^ 1) with 2 in *. lia. }
    rewrite E. rewrite to_u_small by lia. split; [lia|]. split; [lia|]. split; [apply Z.mod_1_r|].
    rewrite Z.bit0_odd. change 1 with (2 ^ 1 - 1) in E at 1. rewrite land_mask in E by lia. change (2 ^ 1) with 2 in E.
    rewrite Zmod_odd in E. destruct (Z.odd x); [reflexivity|discriminate].
  - cbn [bitscan_ctz]. rewrite Nat2Z.inj_succ, Z.pow_succ_r in * by lia. set (N := 2 ^ Z.of_nat k) in *.
    assert (HN : 0 < N) by (apply pow2_pos; lia).
    assert (HP : 0 < 2 ^ N) by (apply pow2_pos; lia).
    rewrite land_low_zero by lia. destruct (Z.eqb_spec (x mod 2 ^ N) 0) as [Hz|Hnz].
    + rewrite Z.shiftr_div_pow2 by lia. rewrite (to_u_small 32) by lia.
      assert (Ex : x = x / 2 ^ N * 2 ^ N) by (pose proof (Z.div_mod x (2 ^ N)); lia).
      set (y := x / 2 ^ N) in *.
      destruct (IH y (n + N)) as (r & Er & Hr & Hm & Ht); try lia.
      * intros Hy. apply Hx. rewrite Ex. replace (2 * N) with (N + N) by lia. rewrite Z.pow_add_r by lia.
        rewrite Z.mul_mod_distr_r by lia. rewrite Hy. reflexivity.
      * exists (N + r). split; [lia|]. split; [lia|]. split.
        -- rewrite Ex, (Z.add_comm N r), Z.pow_add_r by lia. pose proof (pow2_pos r). rewrite Z.mul_mod_distr_r by lia. rewrite Hm. reflexivity.
        -- rewrite Ex, Z.mul_pow2_bits by lia. replace (N + r - N) with r by lia. exact Ht.
    + rewrite Z.shiftr_0_r. rewrite Z.add_0_r, (to_u_small 32) by lia.
      destruct (IH x n) as (r & Er & Hr & Hxr); try lia. exists r. split; [exact Er|]. split; [lia|exact Hxr].
Qed.

Lemma ctz_fallback_ok k x : (k = 5 \/ k = 6)%nat -> let w := 2 ^ Z.of_nat k in 0 < x < 2 ^ w ->
  let r := ctz_fallback k x in 0 <= r < w /\ (2 ^ r | x) /\ ~ (2 ^ (r + 1) | x).
Proof.
  intros Hk w Hx r. unfold r, ctz_fallback. fold w.
  destruct (bitscan_ctz_ok w ltac:(apply pow2_pos; lia) k x 1) as (r' & E & Hr & Hm & Ht); try (fold w; try lia).
  - rewrite Z.mod_small by lia. lia.
  - unfold w. destruct Hk as [->| ->]; cbn; lia.
  - rewrite E. replace (1 - 1 + r') with r' by lia. split; [exact Hr|]. pose proof (pow2_pos r' ltac:(lia)).
    split; [apply Z.mod_divide; lia|]. intros [q Hq]. rewrite Hq in Ht. rewrite Z.mul_pow2_bits in Ht by lia.
    rewrite Z.testbit_neg_r in Ht by lia. discriminate.
Qed.

(* ---- population count ---- *)
Lemma bit_count_nonneg n x : 0 <= bit_count n x <= Z.of_nat n.
Proof. induction n; cbn [bit_count]; [lia|]. destruct (Z.testbit x (Z.of_nat n)); lia. Qed.

Lemma bit_count_add n m x : bit_count (n + m) x = bit_count n x + bit_count m (Z.shiftr x (Z.of_nat n)).
Proof.
  induction m.
  - rewrite Nat.add_0_r. cbn. lia.
  - rewrite Nat.add_succ_r. cbn [bit_count]. rewrite IHm. rewrite Z.shiftr_spec by lia.
    replace (Z.of_nat m + Z.of_nat n) with (Z.of_nat (n + m)) by lia. lia.
Qed.

Lemma bit_count_ext n x y : (forall i, 0 <= i < Z.of_nat n -> Z.testbit x i = Z.testbit y i) -> bit_count n x = bit_count n y.
Proof.
  induction n; intros H; cbn [bit_count]; [reflexivity|]. rewrite IHn by (intros; apply H; lia). rewrite H by lia. reflexivity.
Qed.

(* byte-wise formulation of the three SWAR steps *)
Definition pstep (u m1 m2 m4 : Z) : Z :=
  let u := u - Z.land (Z.shiftr u 1) m1 in
  let u := Z.land (Z.shiftr u 2) m2 + Z.land u m2 in
  Z.land (Z.shiftr u 4 + u) m4.

Fixpoint rep (n : nat) (b : Z) : Z := match n with O => 0 | S n' => b + 256 * rep n' b end.

Definition s1 n u := u - Z.land (Z.shiftr u 1) (rep n 0x55).
Definition s2 n u := Z.land (Z.shiftr u 2) (rep n 0x33) + Z.land u (rep n 0x33).
Definition s3 n u := Z.land (Z.shiftr u 4 + u) (rep n 0x0F).

Definition sb1 b := b - Z.land (Z.shiftr b 1) 0x55.
Definition sb2 b := Z.land (Z.shiftr b 2) 0x33 + Z.land b 0x33.
Definition sb3 b := Z.land (Z.shiftr b 4 + b) 0x0F.

Lemma shiftr_bytes b u j : 0 <= b < 256 -> 0 <= j <= 8 -> 
  Z.shiftr (b + 256 * u) j = (Z.shiftr b j + 2 ^ (8 - j) * (u mod 2 ^ j)) + 2 ^ 8 * (Z.shiftr u j).
Proof.
  intros Hb Hj. rewrite !Z.shiftr_div_pow2 by lia.
  assert (E : 256 = 2 ^ (8 - j) * 2 ^ j) by (rewrite <- Z.pow_add_r by lia; replace (8 - j + j) with 8 by lia; reflexivity).
  pose proof (pow2_pos j ltac:(lia)).
  replace (b + 256 * u) with (b + 2 ^ (8 - j) * u * 2 ^ j) by (rewrite E; ring). rewrite Z.div_add by lia.
  pose proof (Z.div_mod u (2 ^ j) ltac:(lia)) as Hd. rewrite Hd at 1. change (2 ^ 8) with 256. rewrite E. ring.
Qed.

Lemma rep_nonneg n b : 0 <= b -> 0 <= rep n b.
Proof. intros. induction n; cbn [rep]; lia. Qed.

(* b with one extra top part h * 2^(8-j), masked by m, is independent of h *)
Lemma land_byte_indep j m b h : 0 <= j <= 8 -> 0 <= m < 2 ^ (8 - j) -> 0 <= b < 256 ->
  Z.land (Z.shiftr b j + 2 ^ (8 - j) * h) m = Z.land (Z.shiftr b j) m.
Proof.
  intros Hj Hm Hb. assert (E : 256 = 2 ^ (8 - j) * 2 ^ j) by (rewrite <- Z.pow_add_r by lia; replace (8 - j + j) with 8 by lia; reflexivity).
  assert (Hs : 0 <= Z.shiftr b j < 2 ^ (8 - j)).
  { rewrite Z.shiftr_div_pow2 by lia. pose proof (pow2_pos j). split; [apply Z.div_pos; lia|]. apply Z.div_lt_upper_bound; lia. }
  replace m with (m + 2 ^ (8 - j) * 0) at 1 by ring. rewrite land_split by lia. rewrite Z.land_0_r. ring.
Qed.

Lemma byte_shift_bound b u j : 0 <= b < 256 -> 0 <= j <= 8 ->
  0 <= Z.shiftr b j + 2 ^ (8 - j) * (u mod 2 ^ j) < 2 ^ 8.
Proof.
  intros Hb Hj. assert (E : 256 = 2 ^ (8 - j) * 2 ^ j) by (rewrite <- Z.pow_add_r by lia; replace (8 - j + j) with 8 by lia; reflexivity).
  rewrite Z.shiftr_div_pow2 by lia. pose proof (pow2_pos j ltac:(lia)). pose proof (pow2_pos (8 - j) ltac:(lia)).
  pose proof (Z.mod_pos_bound u (2 ^ j) ltac:(lia)).
  assert (0 <= b / 2 ^ j < 2 ^ (8 - j)) by (split; [apply Z.div_pos; lia|apply Z.div_lt_upper_bound; lia]).
  change (2 ^ 8) with 256. nia.
Qed.

Lemma s1_step n b u : 0 <= b < 256 -> s1 (S n) (b + 256 * u) = sb1 b + 256 * s1 n u.
Proof.
  intros Hb. unfold s1, sb1. cbn [rep]. rewrite shiftr_bytes by lia. change 256 with (2 ^ 8) at 2.
  rewrite land_split by (first [lia|apply byte_shift_bound; lia]). rewrite land_byte_indep by lia. change (2 ^ 8) with 256. ring.
Qed.

Lemma s2_step n b u : 0 <= b < 256 -> s2 (S n) (b + 256 * u) = sb2 b + 256 * s2 n u.
Proof.
  intros Hb. unfold s2, sb2. cbn [rep]. rewrite shiftr_bytes by lia. change (0x33 + 256 * rep n 0x33) with (0x33 + 2 ^ 8 * rep n 0x33).
  rewrite land_split by (first [lia|apply byte_shift_bound; lia]). rewrite land_byte_indep by lia.
  change (b + 256 * u) with (b + 2 ^ 8 * u). rewrite land_split by lia. change (2 ^ 8) with 256. ring.
Qed.

(* bytes of a value after two steps: both nibbles at most 4 *)
Inductive nib4 : nat -> Z -> Prop :=
| nib4_0 : nib4 0 0
| nib4_S n b u : 0 <= b < 256 -> b mod 16 <= 4 -> b / 16 <= 4 -> nib4 n u -> nib4 (S n) (b + 256 * u).

Lemma nib4_low n u : nib4 n u -> u mod 16 <= 4 /\ 0 <= u.
Proof. induction 1; lia. Qed.

Lemma s3_step n b u : 0 <= b < 256 -> b mod 16 <= 4 -> b / 16 <= 4 -> nib4 n u ->
  s3 (S n) (b + 256 * u) = sb3 b + 256 * s3 n u.
Proof.
  intros Hb H1 H2 Hu. apply nib4_low in Hu. unfold s3, sb3. cbn [rep]. rewrite shiftr_bytes by lia.
  change (8 - 4) with 4. change (2 ^ 4) with 16. 
  replace (Z.shiftr b 4 + 16 * (u mod 16) + 2 ^ 8 * Z.shiftr u 4 + (b + 256 * u))
    with ((Z.shiftr b 4 + b + 16 * (u mod 16)) + 2 ^ 8 * (Z.shiftr u 4 + u)) by (change (2 ^ 8) with 256; ring).
  change 256 with (2 ^ 8) at 1.
  assert (Hs : Z.shiftr b 4 = b / 16) by (apply Z.shiftr_div_pow2; lia).
  rewrite land_split; [|lia| |lia].
  2:{ rewrite Hs. change (2 ^ 8) with 256. lia. }
  f_equal. change 15 with (2 ^ 4 - 1). rewrite !land_mask by lia. change (2 ^ 4) with 16. 
  rewrite Z.mul_comm. apply Z.mod_add. lia.
Qed.

Definition sb b := sb3 (sb2 (sb1 b)).

Lemma byte_sweep b : 0 <= b < 256 ->
  0 <= sb1 b < 256 /\ 0 <= sb2 (sb1 b) < 256 /\ sb2 (sb1 b) mod 16 <= 4 /\ sb2 (sb1 b) / 16 <= 4 /\ sb b = bit_count 8 b.
Proof.
  intros Hb.
  assert (H : forallb (fun b => (0 <=? sb1 b) && (sb1 b <? 256) && (0 <=? sb2 (sb1 b)) && (sb2 (sb1 b) <? 256) &&
     (sb2 (sb1 b) mod 16 <=? 4) && (sb2 (sb1 b) / 16 <=? 4) && (sb b =? bit_count 8 b)) (map Z.of_nat (seq 0 256)) = true)
    by (vm_compute; reflexivity).
  pose proof (forallb_range _ _ H b ltac:(lia)) as Hq. cbv beta in Hq. lia.
Qed.

(* u as a base-256 number with n digits *)
Fixpoint undigits (l : list Z) : Z := match l with [] => 0 | b :: t => b + 256 * undigits t end.
Fixpoint digits (n : nat) (u : Z) : list Z := match n with O => [] | S n' => u mod 256 :: digits n' (u / 256) end.

Lemma undigits_digits n : forall u, 0 <= u < 256 ^ Z.of_nat n -> undigits (digits n u) = u.
Proof.
  induction n; intros u Hu.
  - cbn in *. lia.
  - rewrite Nat2Z.inj_succ, Z.pow_succ_r in Hu by lia. cbn [digits undigits]. rewrite IHn; [lia|].
    split; [apply Z.div_pos; lia|apply Z.div_lt_upper_bound; lia].
Qed.

Lemma digits_bytes n : forall u, bytes (digits n u).
Proof. induction n; intros u; cbn [digits]; constructor; [unfold is_byte; lia|apply IHn]. Qed.

Lemma digits_length n : forall u, length (digits n u) = n.
Proof. induction n; intros; cbn; auto. Qed.

Lemma undigits_bound l : bytes l -> 0 <= undigits l < 256 ^ Z.of_nat (length l).
Proof.
  induction 1 as [|b l Hb Hl IH]; cbn [undigits length]; [cbn; lia|].
  rewrite Nat2Z.inj_succ, Z.pow_succ_r by lia. unfold is_byte in Hb. lia.
Qed.

Lemma swar_digits l : bytes l ->
  s1 (length l) (undigits l) = undigits (map sb1 l) /\
  s2 (length l) (undigits (map sb1 l)) = undigits (map (fun b => sb2 (sb1 b)) l) /\
  nib4 (length l) (undigits (map (fun b => sb2 (sb1 b)) l)) /\
  s3 (length l) (undigits (map (fun b => sb2 (sb1 b)) l)) = undigits (map sb l).
Proof.
  induction 1 as [|b l Hb Hl IH]; cbn [undigits length map].
  - repeat split; constructor.
  - destruct IH as (I1 & I2 & I3 & I4). unfold is_byte in Hb. pose proof (byte_sweep b Hb) as (B1 & B2 & B3 & B4 & B5).
    rewrite s1_step, I1 by lia. rewrite s2_step, I2 by lia. rewrite s3_step, I4 by auto.
    repeat split; auto. now constructor.
Qed.

Lemma bit_count_digits n : forall u, 0 <= u -> bit_count (8 * n) u = fold_right Z.add 0 (map (bit_count 8) (digits n u)).
Proof.
  induction n; intros u Hu; [reflexivity|]. replace (8 * S n)%nat with (8 + 8 * n)%nat by lia.
  rewrite bit_count_add. cbn [digits map fold_right]. rewrite <- IHn by (apply Z.div_pos; lia).
  change (Z.of_nat 8) with 8. rewrite Z.shiftr_div_pow2 by lia. f_equal.
  apply bit_count_ext. intros i Hi. change 256 with (2 ^ 8). rewrite Z.mod_pow2_bits_low by lia. reflexivity.
Qed.

Lemma map_sb l : bytes l -> map sb l = map (bit_count 8) l.
Proof. induction 1 as [|b l Hb]; cbn; [reflexivity|]. rewrite IHForall. f_equal. apply byte_sweep. exact Hb. Qed.

Lemma s_bounds l : bytes l -> bytes (map sb1 l) /\ bytes (map (fun b => sb2 (sb1 b)) l).
Proof.
  induction 1 as [|b l Hb Hl IH]; cbn; split; constructor; try apply IH; apply byte_sweep in Hb; unfold is_byte; lia.
Qed.

(* s3 before masking does not exceed the word *)
Lemma nib4_s3_bound n u : nib4 n u -> 0 <= u /\ 255 * u <= 68 * (256 ^ Z.of_nat n - 1) /\ u < 256 ^ Z.of_nat n.
Proof.
  induction 1 as [|n b u Hb H1 H2 Hu IH]; [cbn; lia|].
  rewrite Nat2Z.inj_succ, Z.pow_succ_r by lia. assert (b <= 68) by lia. lia.
Qed.

Lemma pc_masks n : (n = 1 \/ n = 2 \/ n = 4 \/ n = 8)%nat ->
  pc_mask n 0x5555555555555555 = rep n 0x55 /\ pc_mask n 0x3333333333333333 = rep n 0x33 /\
  pc_mask n 0x0F0F0F0F0F0F0F0F = rep n 0x0F /\ pc_mask n 0x0101010101010101 = rep n 1.
Proof. intros [->|[->|[->| ->]]]; vm_compute; auto. Qed.

Lemma pow256 n : 256 ^ Z.of_nat n = 2 ^ (8 * Z.of_nat n).
Proof. rewrite Z.pow_mul_r by lia. reflexivity. Qed.

Definition pc_bytes n x := map (bit_count 8) (digits n x).

Lemma pop_count_swar n x : (n = 1 \/ n = 2 \/ n = 4 \/ n = 8)%nat -> 0 <= x < 2 ^ (8 * Z.of_nat n) ->
  let u := undigits (pc_bytes n x) in
  pop_count_static n x = if 1 <? Z.of_nat n then to_u 32 (Z.shiftr (to_u (8 * Z.of_nat n) (u * rep n 1)) (8 * Z.of_nat n - 8)) else to_u 32 (Z.land u 255).
Proof.
  intros Hn Hx u. unfold pop_count_static. destruct (pc_masks n Hn) as (-> & -> & -> & ->).
  set (W := 8 * Z.of_nat n) in *.
  rewrite (to_u_small W x) by lia.
  set (l := digits n x).
  assert (Hl : bytes l) by apply digits_bytes. assert (Hlen : length l = n) by apply digits_length.
  assert (Ex : x = undigits l) by (symmetry; apply undigits_digits; rewrite pow256; exact Hx).
  destruct (swar_digits l Hl) as (S1 & S2 & S3 & S4). rewrite Hlen in *.
  destruct (s_bounds l Hl) as (B1 & B2).
  apply undigits_bound in B1. apply undigits_bound in B2. rewrite map_length, Hlen, pow256 in B1, B2. fold W in B1, B2.
  change (x - Z.land (Z.shiftr x 1) (rep n 85)) with (s1 n x). rewrite Ex, S1. rewrite (to_u_small W (undigits (map sb1 l))) by lia.
  set (v := undigits (map sb1 l)) in *.
  change (Z.land (Z.shiftr v 2) (rep n 51) + Z.land v (rep n 51)) with (s2 n v). rewrite S2.
  set (y := undigits (map (fun b => sb2 (sb1 b)) l)) in *. rewrite (to_u_small W y) by lia.
  assert (Hy : 0 <= Z.shiftr y 4 + y < 2 ^ W).
  { pose proof (nib4_s3_bound n y S3) as (Y1 & Y2 & Y3). rewrite pow256 in Y2, Y3. fold W in Y2, Y3.
    rewrite Z.shiftr_div_pow2 by lia. change (2 ^ 4) with 16. set (P := 2 ^ W) in *.
    assert (0 <= y / 16 <= y) by (split; [apply Z.div_pos|apply Z.div_le_upper_bound]; lia).
    pose proof (nib4_low n y S3). assert (1 <= P) by lia. lia. }
  rewrite (to_u_small W (Z.shiftr y 4 + y)) by exact Hy.
  change (Z.land (Z.shiftr y 4 + y) (rep n 15)) with (s3 n y). rewrite S4, map_sb by exact Hl. reflexivity.
Qed.

Lemma bit_count8_bound x : 0 <= bit_count 8 x <= 8.
Proof. pose proof (bit_count_nonneg 8 x). lia. Qed.

Lemma pop_count_static_ok n x : (n = 1 \/ n = 2 \/ n = 4 \/ n = 8)%nat -> 0 <= x < 2 ^ (8 * Z.of_nat n) ->
  pop_count_static n x = bit_count (8 * n) x.
Proof.
  intros Hn Hx. rewrite pop_count_swar by assumption. rewrite bit_count_digits by lia. unfold pc_bytes.
  destruct Hn as [->|[->|[->| ->]]]; cbn [digits map undigits fold_right rep].
  - change (1 <? Z.of_nat 1) with false. cbv iota. pose proof (bit_count8_bound (x mod 256)).
    change 255 with (2 ^ 8 - 1). rewrite land_mask by lia. rewrite Z.mod_small by lia. rewrite to_u_small by lia. lia.
  - change (1 <? Z.of_nat 2) with true. cbv iota. change (8 * Z.of_nat 2) with 16 in *. change (16 - 8) with 8.
    pose proof (bit_count8_bound (x mod 256)) as A0. pose proof (bit_count8_bound (x / 256 mod 256)) as A1.
    generalize dependent (bit_count 8 (x mod 256)). generalize dependent (bit_count 8 (x / 256 mod 256)). intros b Hb a Ha.
    rewrite Z.shiftr_div_pow2 by lia. unfold to_u. change (2 ^ 16) with 65536. change (2 ^ 8) with 256. change (2 ^ 32) with 4294967296. lia.
  - change (1 <? Z.of_nat 4) with true. cbv iota. change (8 * Z.of_nat 4) with 32 in *. change (32 - 8) with 24.
    pose proof (bit_count8_bound (x mod 256)) as A0. pose proof (bit_count8_bound (x / 256 mod 256)) as A1.
    pose proof (bit_count8_bound (x / 256 / 256 mod 256)) as A2. pose proof (bit_count8_bound (x / 256 / 256 / 256 mod 256)) as A3.
    set (a := bit_count 8 (x mod 256)) in *. set (b := bit_count 8 (x / 256 mod 256)) in *.
    set (c := bit_count 8 (x / 256 / 256 mod 256)) in *. set (d := bit_count 8 (x / 256 / 256 / 256 mod 256)) in *.
    clearbody a b c d. rewrite Z.shiftr_div_pow2 by lia.
    assert (E : to_u 32 ((a + 256 * (b + 256 * (c + 256 * (d + 256 * 0)))) * (1 + 256 * (1 + 256 * (1 + 256 * (1 + 256 * 0))))) =
      (a + b + c + d) * 2 ^ 24 + (a + (a + b) * 256 + (a + b + c) * 65536)).
    { unfold to_u. symmetry. apply Z.mod_unique with ((b + c + d) + 256 * (c + d) + 65536 * d); [left|];
      change (2 ^ 32) with 4294967296; change (2 ^ 24) with 16777216; lia. }
    rewrite E. replace (_ / 2 ^ 24) with (a + b + c + d).
    + rewrite to_u_small; [lia|]. change (2 ^ 32) with 4294967296. lia.
    + apply Z.div_unique with (a + (a + b) * 256 + (a + b + c) * 65536); change (2 ^ 24) with 16777216; lia.
  - change (1 <? Z.of_nat 8) with true. cbv iota. change (8 * Z.of_nat 8) with 64 in *. change (64 - 8) with 56.
    set (x1 := x / 256). set (x2 := x1 / 256). set (x3 := x2 / 256). set (x4 := x3 / 256). set (x5 := x4 / 256). set (x6 := x5 / 256). set (x7 := x6 / 256).
    pose proof (bit_count8_bound (x mod 256)) as A0. pose proof (bit_count8_bound (x1 mod 256)) as A1.
    pose proof (bit_count8_bound (x2 mod 256)) as A2. pose proof (bit_count8_bound (x3 mod 256)) as A3.
    pose proof (bit_count8_bound (x4 mod 256)) as A4. pose proof (bit_count8_bound (x5 mod 256)) as A5.
    pose proof (bit_count8_bound (x6 mod 256)) as A6. pose proof (bit_count8_bound (x7 mod 256)) as A7.
    set (a := bit_count 8 (x mod 256)) in *. set (b := bit_count 8 (x1 mod 256)) in *.
    set (c := bit_count 8 (x2 mod 256)) in *. set (d := bit_count 8 (x3 mod 256)) in *.
    set (e := bit_count 8 (x4 mod 256)) in *. set (f := bit_count 8 (x5 mod 256)) in *.
    set (g := bit_count 8 (x6 mod 256)) in *. set (h := bit_count 8 (x7 mod 256)) in *.
    clearbody a b c d e f g h. clear x1 x2 x3 x4 x5 x6 x7. rewrite Z.shiftr_div_pow2 by lia.
    set (low := a + 256 * ((a + b) + 256 * ((a + b + c) + 256 * ((a + b + c + d) + 256 * ((a + b + c + d + e) + 256 * ((a + b + c + d + e + f) + 256 * (a + b + c + d + e + f + g))))))).
    match goal with |- to_u 32 (to_u 64 ?p / _) = _ => assert (E : to_u 64 p = (a + b + c + d + e + f + g + h) * 2 ^ 56 + low) end.
    { unfold to_u, low. symmetry. 
      apply Z.mod_unique with ((b + c + d + e + f + g + h) + 256 * ((c + d + e + f + g + h) + 256 * ((d + e + f + g + h) + 256 * ((e + f + g + h) + 256 * ((f + g + h) + 256 * ((g + h) + 256 * h)))))); [left|];
      change (2 ^ 64) with 18446744073709551616; change (2 ^ 56) with 72057594037927936; lia. }
    rewrite E. replace (_ / 2 ^ 56) with (a + b + c + d + e + f + g + h).
    + rewrite to_u_small; [lia|]. change (2 ^ 32) with 4294967296. lia.
    + apply Z.div_unique with low; unfold low; change (2 ^ 56) with 72057594037927936; lia.
Qed.

(* ---- Harley-Seal ---- *)
Lemma csa_count n a b c hi lo : csa a b c = (hi, lo) ->
  bit_count n a + bit_count n b + bit_count n c = 2 * bit_count n hi + bit_count n lo.
Proof.
  intros E. injection E as <- <-. induction n; [reflexivity|]. cbn [bit_count].
  rewrite !Z.lxor_spec, Z.lor_spec, !Z.land_spec, !Z.lxor_spec.
  destruct (Z.testbit a (Z.of_nat n)), (Z.testbit b (Z.of_nat n)), (Z.testbit c (Z.of_nat n)); cbn [xorb andb orb]; lia.
Qed.

Lemma csa_bound k a b c hi lo : 0 <= k -> csa a b c = (hi, lo) -> 0 <= a < 2 ^ k -> 0 <= b < 2 ^ k -> 0 <= c < 2 ^ k ->
  0 <= hi < 2 ^ k /\ 0 <= lo < 2 ^ k.
Proof.
  intros Hk E Ha Hb Hc. injection E as <- <-.
  pose proof (lxor_bound a b k Hk Ha Hb) as Hu. split.
  - apply (lor_bound (Z.land a b) (Z.land (Z.lxor a b) c) k Hk); [apply (land_bound a b k Hk Ha)|apply (land_bound _ c k Hk Hu)].
  - apply (lxor_bound _ c k Hk Hu Hc).
Qed.

Definition hs_ok (n : nat) (s : hs_state) : Prop :=
  let W := 8 * Z.of_nat n in
  0 <= hs_ones s < 2 ^ W /\ 0 <= hs_twos s < 2 ^ W /\ 0 <= hs_fours s < 2 ^ W.
Definition hs_total (n : nat) (s : hs_state) : Z :=
  hs_counter s + 4 * bit_count (8 * n) (hs_fours s) + 2 * bit_count (8 * n) (hs_twos s) + bit_count (8 * n) (hs_ones s).


Lemma to_u_add_l w a b : 0 <= w -> to_u w (to_u w a + b) = to_u w (a + b).
Proof. intros. unfold to_u. apply Zplus_mod_idemp_l. Qed.
Lemma to_u_idem w a : 0 <= w -> to_u w (to_u w a) = to_u w a.
Proof. intros. unfold to_u. apply Z.mod_mod. pose proof (pow2_pos w). lia. Qed.

Lemma pcs_add_array_ok n : (n = 1 \/ n = 2 \/ n = 4 \/ n = 8)%nat -> forall l c, words n l ->
  to_u 32 (pcs_add_array n c l) = to_u 32 (c + sum_bits (8 * n) l).
Proof.
  intros Hn. induction l as [|x l IH]; intros c Hl; cbn [pcs_add_array sum_bits fold_right].
  - rewrite Z.add_0_r. reflexivity.
  - inversion Hl; subst. rewrite IH by assumption. rewrite to_u_add_l by lia. rewrite pop_count_static_ok by assumption.
    unfold sum_bits. rewrite Z.add_assoc. reflexivity.
Qed.

Lemma hs_loop_ok n : (n = 1 \/ n = 2 \/ n = 4 \/ n = 8)%nat -> forall m l s e, (length l <= m)%nat -> words n l -> hs_ok n s ->
  let s' := hs_add_array_loop n s e l in
  hs_ok n s' /\ to_u 32 (hs_total n s') = to_u 32 (hs_total n s + 8 * e + sum_bits (8 * n) l).
Proof.
  intros Hn.
  assert (Hbase : forall s e l, words n l -> hs_ok n s ->
    let s' := HS (pcs_add_array n (to_u 32 (hs_counter s + to_u 32 (8 * e))) l) (hs_ones s) (hs_twos s) (hs_fours s) in
    hs_ok n s' /\ to_u 32 (hs_total n s') = to_u 32 (hs_total n s + 8 * e + sum_bits (8 * n) l)).
  { intros s e l Hl Hs s'. split; [exact Hs|]. unfold hs_total, s'; cbn [hs_counter hs_ones hs_twos hs_fours].
    set (F := bit_count (8 * n) (hs_fours s)). set (T := bit_count (8 * n) (hs_twos s)). set (O := bit_count (8 * n) (hs_ones s)).
    set (P := pcs_add_array n _ l).
    assert (E : to_u 32 P = to_u 32 (hs_counter s + 8 * e + sum_bits (8 * n) l)).
    { unfold P. rewrite pcs_add_array_ok by assumption. rewrite to_u_add_l by lia. 
      replace (hs_counter s + to_u 32 (8 * e) + sum_bits (8 * n) l) with (to_u 32 (8 * e) + (hs_counter s + sum_bits (8 * n) l)) by ring.
      rewrite to_u_add_l by lia. f_equal. ring. }
    replace (P + 4 * F + 2 * T + O) with (P + (4 * F + 2 * T + O)) by ring. rewrite <- to_u_add_l by lia. rewrite E.
    rewrite to_u_add_l by lia. f_equal. ring. }
  induction m; intros l s e Hm Hl Hs.
  - destruct l; [|cbn in Hm; lia]. exact (Hbase s e [] Hl Hs).
  - do 8 (destruct l as [|? l]; [exact (Hbase s e _ Hl Hs)|]).
    cbn [hs_add_array_loop].
    unfold words in Hl. repeat match goal with H : Forall _ (_ :: _) |- _ => apply Forall_cons_iff in H; destruct H as [? ?] end.
    fold (words n l) in *.
    assert (HW : 0 <= 8 * Z.of_nat n) by lia. destruct Hs as (O1 & O2 & O3).
    repeat match goal with |- context [let '(_, _) := csa ?a ?b ?c in _] =>
      let E := fresh "E" in let C := fresh "C" in let B := fresh "B" in destruct (csa a b c) as [? ?] eqn:E;
      pose proof (csa_count (8 * n) _ _ _ _ _ E) as C;
      destruct (csa_bound _ _ _ _ _ _ HW E ltac:(assumption) ltac:(assumption) ltac:(assumption)) as [? ?]; clear E end.
    match goal with |- context [hs_add_array_loop n ?s' ?e' l] => specialize (IHm l s' e') end.
    cbn [length] in Hm. destruct IHm as [I1 I2]; [lia|assumption|split; [|split]; cbn [hs_ones hs_twos hs_fours]; assumption|].
    split; [exact I1|]. rewrite I2. unfold hs_total; cbn [hs_counter hs_ones hs_twos hs_fours].
    rewrite pop_count_static_ok by assumption. cbn [sum_bits fold_right]. fold (sum_bits (8 * n) l).
    match goal with |- to_u 32 (?A + 8 * to_u 32 ?B + ?C) = _ =>
      replace (to_u 32 (A + 8 * to_u 32 B + C)) with (to_u 32 (A + 8 * B + C)) end.
    + f_equal. lia.
    + unfold to_u. match goal with |- (?A + 8 * ?B + ?C) mod ?M = _ =>
        replace (A + 8 * B + C) with (A + 8 * (B mod M) + C + 8 * (B / M) * M) by (pose proof (Z.div_mod B M ltac:(lia)); nia);
        rewrite Z.mod_add by lia; reflexivity end.
Qed.



Lemma hs_apply_ok n : (n = 1 \/ n = 2 \/ n = 4 \/ n = 8)%nat -> forall s op, hs_ok n s -> hs_op_ok n op ->
  hs_ok n (hs_apply n s op) /\ to_u 32 (hs_total n (hs_apply n s op)) = to_u 32 (hs_total n s + hs_op_bits n op).
Proof.
  intros Hn s op Hs Hop. destruct op as [x|l|v]; cbn in Hop.
  - split; [exact Hs|]. unfold hs_total; cbn [hs_apply hs_add_item hs_add_population hs_counter hs_ones hs_twos hs_fours hs_op_bits]. rewrite pop_count_static_ok by assumption.
    rewrite <- !Z.add_assoc. rewrite to_u_add_l by lia. f_equal. lia.
  - destruct (hs_loop_ok n Hn (length l) l s 0 ltac:(lia) Hop Hs) as [H1 H2]. split; [exact H1|].
    cbn [hs_apply hs_op_bits]. unfold hs_add_array. rewrite H2. f_equal. lia.
  - split; [exact Hs|]. unfold hs_total; cbn [hs_apply hs_add_item hs_add_population hs_counter hs_ones hs_twos hs_fours hs_op_bits]. rewrite <- !Z.add_assoc. rewrite to_u_add_l by lia. f_equal. lia.
Qed.

Lemma hs_get_ok n s : (n = 1 \/ n = 2 \/ n = 4 \/ n = 8)%nat -> hs_ok n s -> hs_get n s = to_u 32 (hs_total n s).
Proof. intros Hn (H1 & H2 & H3). unfold hs_get, hs_total. rewrite !pop_count_static_ok by assumption. reflexivity. Qed.

Lemma hs_history_ok n : (n = 1 \/ n = 2 \/ n = 4 \/ n = 8)%nat -> forall ops s, hs_ok n s -> Forall (hs_op_ok n) ops ->
  let s' := fold_left (hs_apply n) ops s in
  hs_ok n s' /\ to_u 32 (hs_total n s') = to_u 32 (hs_total n s + fold_right (fun op acc => hs_op_bits n op + acc) 0 ops).
Proof.
  intros Hn. induction ops as [|op ops IH]; intros s Hs Ho; cbn [fold_left fold_right].
  - split; [exact Hs|]. f_equal. lia.
  - inversion Ho; subst. destruct (hs_apply_ok n Hn s op Hs ltac:(assumption)) as [H1' H2'].
    destruct (IH _ H1' ltac:(assumption)) as [I1 I2]. split; [exact I1|]. rewrite I2.
    rewrite <- to_u_add_l by lia. rewrite H2'. rewrite to_u_add_l by lia. f_equal. lia.
Qed.
