(* Positions of the inner loops and the pixels they give. *)
From Verif Require Import Base Bits Algorithm_Model PixelOps_Model PixelOps_Spec PixelOps_Proofs Interp_Model Interp_Spec.
Ltac Zify.zify_post_hook ::= idtac.

Lemma quot_facts D n : 0 < n -> let q := Z.quot D n in
  (0 <= D -> 0 <= q /\ n * q <= D < n * q + n) /\ (D <= 0 -> q <= 0 /\ n * q - n < D <= n * q).
Proof.
  intros Hn q. pose proof (Z.quot_rem' D n) as E. fold q in E. pose proof (Z.rem_bound_abs D n ltac:(lia)) as B. split; intros HD.
  - pose proof (Z.rem_nonneg D n ltac:(lia) HD). split; [apply Z.quot_pos; lia|lia].
  - pose proof (Z.rem_nonpos D n ltac:(lia) HD). split; [|lia]. nia.
Qed.

Definition posn (K x y m n : Z) : Z := x * 2 ^ K + 2 ^ (K - 1) + m * Z.quot (y * 2 ^ K - x * 2 ^ K) n.

Lemma posn_facts K x y m n : 1 <= K -> 0 <= x -> 0 <= y -> 1 <= n <= 2 ^ (K - 1) -> 0 <= m <= n ->
  let P := posn K x y m n in
  Z.min x y * 2 ^ K + 2 ^ (K - 1) <= P <= Z.max x y * 2 ^ K + 2 ^ (K - 1) /\ near K x y m n (P / 2 ^ K) /\ (m = n -> P / 2 ^ K = y).
Proof.
  intros HK Hx Hy Hn Hm P. unfold P, posn. clear P.
  assert (E2 : 2 ^ K = 2 * 2 ^ (K - 1)) by (rewrite <- Z.pow_succ_r by lia; f_equal; lia).
  set (H := 2 ^ (K - 1)) in *. assert (HH : 0 < H) by (apply Z.pow_pos_nonneg; lia). unfold near. fold H. rewrite E2. clearbody H. clear E2 HK.
  destruct (quot_facts (y * (2 * H) - x * (2 * H)) n ltac:(lia)) as [Q1 Q2].
  set (q := Z.quot (y * (2 * H) - x * (2 * H)) n) in *. clearbody q.
  set (v := (x * (2 * H) + H + m * q) / (2 * H)).
  assert (V : (2 * H) * v <= x * (2 * H) + H + m * q < (2 * H) * v + 2 * H).
  { pose proof (Z.div_mod (x * (2 * H) + H + m * q) (2 * H) ltac:(lia)) as A. pose proof (Z.mod_pos_bound (x * (2 * H) + H + m * q) (2 * H) ltac:(lia)) as B. fold v in A. lia. }
  clearbody v.
  destruct (Z.le_ge_cases x y) as [L|L].
  - destruct (Q1 ltac:(nia)) as [A B]. clear Q1 Q2. rewrite Z.min_l, Z.max_r by lia.
    assert (M1 : 0 <= m * q) by nia. assert (M2 : m * q <= n * q) by nia.
    split; [lia|]. split; [split|].
    + split; [|]; nia.
    + assert (F : - (n * (H + m)) <= (n * v - (n * x + m * (y - x))) * (2 * H) <= n * (H + m)).
      { assert (G1 : m * (n * q) <= m * (y * (2 * H) - x * (2 * H)) <= m * (n * q) + m * n) by nia.
        replace ((n * v - (n * x + m * (y - x))) * (2 * H)) with (n * ((2 * H) * v) - n * (x * (2 * H)) - m * (y * (2 * H) - x * (2 * H))) by ring.
        assert (G2 : n * (2 * H * v) <= n * (x * (2 * H) + H + m * q) <= n * (2 * H * v) + n * (2 * H)) by nia.
        nia. }
      nia.
    + intros ->. assert (S1 : 2 * H * v < 2 * H * (y + 1)) by nia. assert (S2 : 2 * H * y < 2 * H * (v + 1)) by nia.
      apply Z.mul_lt_mono_pos_l in S1; [|lia]. apply Z.mul_lt_mono_pos_l in S2; lia.
  - destruct (Q2 ltac:(nia)) as [A B]. clear Q1 Q2. rewrite Z.min_r, Z.max_l by lia.
    assert (M1 : m * q <= 0) by nia. assert (M2 : n * q <= m * q) by nia.
    split; [lia|]. split; [split|].
    + split; [|]; nia.
    + assert (F : - (n * (H + m)) <= (n * v - (n * x + m * (y - x))) * (2 * H) <= n * (H + m)).
      { assert (G1 : m * (n * q) - m * n <= m * (y * (2 * H) - x * (2 * H)) <= m * (n * q)) by nia.
        replace ((n * v - (n * x + m * (y - x))) * (2 * H)) with (n * ((2 * H) * v) - n * (x * (2 * H)) - m * (y * (2 * H) - x * (2 * H))) by ring.
        assert (G2 : n * (2 * H * v) <= n * (x * (2 * H) + H + m * q) <= n * (2 * H * v) + n * (2 * H)) by nia.
        nia. }
      nia.
    + intros ->. assert (S1 : 2 * H * v < 2 * H * (y + 1)) by nia. assert (S2 : 2 * H * y < 2 * H * (v + 1)) by nia.
      apply Z.mul_lt_mono_pos_l in S1; [|lia]. apply Z.mul_lt_mono_pos_l in S2; lia.
Qed.

(* the 32-bit arithmetic computes the positions *)
Lemma step_eq X Y n : 0 <= X < 2147483648 -> 0 <= Y < 2147483648 -> 1 <= n < 2147483648 -> step Y X n = w32 (Z.quot (Y - X) n).
Proof.
  intros HX HY Hn. unfold step. f_equal. f_equal.
  - unfold s32, w32. destruct (Z.le_gt_cases 0 (Y - X)).
    + rewrite Z.mod_small by lia. destruct (Z.ltb_spec (Y - X) 2147483648); lia.
    + replace ((Y - X) mod 4294967296) with (Y - X + 4294967296).
      * destruct (Z.ltb_spec (Y - X + 4294967296) 2147483648); lia.
      * apply (Z.mod_unique (Y - X) 4294967296 (-1)); lia.
  - unfold s32. destruct (Z.ltb_spec n 2147483648); lia.
Qed.
Lemma advance K w x y m n : 1 <= K -> 0 <= w -> K + w = 31 -> 0 <= x < 2 ^ w -> 0 <= y < 2 ^ w -> 1 <= n <= 2 ^ (K - 1) -> 0 <= m <= n ->
  w32 (w32 (x * 2 ^ K + 2 ^ (K - 1)) + m * step (y * 2 ^ K) (x * 2 ^ K) n) = posn K x y m n /\ 0 <= posn K x y m n < 2147483648 /\ 0 <= posn K x y m n / 2 ^ K < 2 ^ w.
Proof.
  intros HK Hw E Hx Hy Hn Hm.
  assert (P31 : 2 ^ w * 2 ^ K = 2147483648) by (rewrite <- Z.pow_add_r by lia; replace (w + K) with 31 by lia; reflexivity).
  assert (E2 : 2 ^ K = 2 * 2 ^ (K - 1)) by (rewrite <- Z.pow_succ_r by lia; f_equal; lia).
  assert (PK : 0 < 2 ^ (K - 1)) by (apply Z.pow_pos_nonneg; lia). assert (Pw : 0 < 2 ^ w) by (apply Z.pow_pos_nonneg; lia).
  destruct (posn_facts K x y m n HK ltac:(lia) ltac:(lia) Hn Hm) as (B & N & _). cbv zeta in B, N.
  assert (PK' : 0 < 2 ^ K) by lia.
  assert (LE : forall z, 0 <= z < 2 ^ w -> 0 <= z * 2 ^ K <= 2147483648 - 2 ^ K).
  { intros z Hz. split; [apply Z.mul_nonneg_nonneg; lia|]. rewrite <- P31. replace (2 ^ w * 2 ^ K - 2 ^ K) with ((2 ^ w - 1) * 2 ^ K) by ring. apply Z.mul_le_mono_nonneg_r; lia. }
  pose proof (LE x Hx) as BX. pose proof (LE y Hy) as BY. pose proof (LE (Z.min x y) ltac:(lia)) as BM. pose proof (LE (Z.max x y) ltac:(lia)) as BM2.
  assert (R : 0 <= posn K x y m n < 2147483648) by lia.
  split; [|split; [exact R|]].
  - rewrite step_eq by lia. assert (Q : w32 (posn K x y m n) = posn K x y m n) by (apply Z.mod_small; lia). rewrite <- Q.
    unfold posn, w32. rewrite <- (Zplus_mod_idemp_r (m * _)). rewrite Zmult_mod_idemp_r. rewrite <- Zplus_mod. reflexivity.
  - destruct N as [N _]. split; [apply Z.div_pos; lia|]. apply Z.div_lt_upper_bound; lia.
Qed.

(* reading the fields *)
Lemma mask_hi P K w : 0 <= K -> 0 <= w -> 0 <= P < 2 ^ (K + w) -> Z.land P (Z.shiftl (Z.ones w) K) = P / 2 ^ K * 2 ^ K.
Proof.
  intros HK Hw HP. rewrite <- Z.shiftl_mul_pow2 by lia. apply Z.bits_inj'. intros n Hn. rewrite Z.land_spec, !Z.shiftl_spec by lia.
  destruct (Z.lt_ge_cases n K).
  - rewrite !(Z.testbit_neg_r _ (n - K)) by lia. apply andb_false_r.
  - rewrite Z.testbit_ones_nonneg by lia. rewrite Z.div_pow2_bits by lia. replace (n - K + K) with n by lia.
    destruct (Z.ltb_spec (n - K) w); [apply andb_true_r|]. rewrite (testbit_small P (K + w)) by lia. reflexivity.
Qed.
Lemma mask32_hi P : 0 <= P < 2147483648 -> Z.land P mask32 = P / 2 ^ 23 * 2 ^ 23.
Proof. intros H. change mask32 with (Z.shiftl (Z.ones 8) 23). apply (mask_hi P 23 8); lia. Qed.
Lemma mask64_hi P : 0 <= P < 2147483648 -> Z.land P mask64 = P / 2 ^ 15 * 2 ^ 15.
Proof. intros H. change mask64 with (Z.shiftl (Z.ones 16) 15). apply (mask_hi P 15 16); lia. Qed.

(* the field of a colour, moved to bit K by a shift that ends with s bits to the left *)
Lemma field w c i K x : 0 <= w -> 0 <= i -> 0 <= K -> (forall n, K <= n < K + w -> Z.testbit x n = Z.testbit c (w * i + (n - K))) ->
  Z.land x (Z.shiftl (Z.ones w) K) = chan w c i * 2 ^ K.
Proof.
  intros Hw Hi HK H. rewrite <- Z.shiftl_mul_pow2 by lia. apply Z.bits_inj'. intros n Hn. rewrite Z.land_spec, !Z.shiftl_spec by lia.
  destruct (Z.lt_ge_cases n K).
  - rewrite !(Z.testbit_neg_r _ (n - K)) by lia. apply andb_false_r.
  - rewrite Z.testbit_ones_nonneg by lia. unfold chan. rewrite mod_pow2_testbit by lia. rewrite Z.div_pow2_bits by nia.
    destruct (Z.ltb_spec (n - K) w); [rewrite andb_true_r; cbn [andb]|rewrite andb_false_r; reflexivity]. rewrite H by lia. f_equal. lia.
Qed.
Lemma w32_bit x n : 0 <= n < 32 -> Z.testbit (w32 x) n = Z.testbit x n.
Proof. intros. unfold w32. change 4294967296 with (2 ^ 32). rewrite mod_pow2_testbit by lia. replace (n <? 32) with true by lia. reflexivity. Qed.
Lemma w64_bit x n : 0 <= n < 64 -> Z.testbit (w64 x) n = Z.testbit x n.
Proof. intros. unfold w64. change 18446744073709551616 with (2 ^ 64). rewrite mod_pow2_testbit by lia. replace (n <? 64) with true by lia. reflexivity. Qed.
Lemma chan_range w c i : 0 <= w -> 0 <= chan w c i < 2 ^ w.
Proof. intros. apply Z.mod_pos_bound. apply Z.pow_pos_nonneg; lia. Qed.

Lemma fields32 c : 0 <= c < 2 ^ 32 ->
  Z.land (w32 (Z.shiftl c 7)) mask32 = chan 8 c 2 * 2 ^ 23 /\ Z.land (w32 (Z.shiftl c 15)) mask32 = chan 8 c 1 * 2 ^ 23 /\
  Z.land (w32 (Z.shiftl c 23)) mask32 = chan 8 c 0 * 2 ^ 23 /\ Z.land (Z.shiftr c 1) mask32 = chan 8 c 3 * 2 ^ 23.
Proof.
  intros H. change mask32 with (Z.shiftl (Z.ones 8) 23).
  split; [|split; [|split]]; apply field; try lia; intros n Hn; rewrite ?w32_bit, ?Z.shiftl_spec, ?Z.shiftr_spec by lia; f_equal; lia.
Qed.
Lemma w32_small' x : 0 <= x < 4294967296 -> w32 x = x.
Proof. intros. apply Z.mod_small. lia. Qed.
Lemma fields64 c : 0 <= c < 2 ^ 64 ->
  w32 (Z.land (Z.shiftr c 17) mask64) = chan 16 c 2 * 2 ^ 15 /\ w32 (Z.land (Z.shiftr c 1) mask64) = chan 16 c 1 * 2 ^ 15 /\
  w32 (Z.land (w64 (Z.shiftl c 15)) mask64) = chan 16 c 0 * 2 ^ 15 /\ w32 (Z.land (Z.shiftr c 33) mask64) = chan 16 c 3 * 2 ^ 15.
Proof.
  intros H. change mask64 with (Z.shiftl (Z.ones 16) 15).
  assert (W : forall i, w32 (chan 16 c i * 2 ^ 15) = chan 16 c i * 2 ^ 15).
  { intros i. apply w32_small'. pose proof (chan_range 16 c i ltac:(lia)) as R. change (2 ^ 16) with 65536 in R. change (2 ^ 15) with 32768. lia. }
  split; [|split; [|split]].
  1: rewrite (field 16 c 2 15); [apply W|lia|lia|lia|].
  2: rewrite (field 16 c 1 15); [apply W|lia|lia|lia|].
  3: rewrite (field 16 c 0 15); [apply W|lia|lia|lia|].
  4: rewrite (field 16 c 3 15); [apply W|lia|lia|lia|].
  all: intros n Hn; rewrite ?w64_bit, ?Z.shiftl_spec, ?Z.shiftr_spec by lia; f_equal; lia.
Qed.
