(* The spans: every value of the inner loops is a premultiplied colour between the two stops. *)
From Verif Require Import Base Bits Algorithm_Model PixelOps_Model PixelOps_Spec PixelOps_Proofs Interp_Model Interp_Spec Interp_Proofs.
Ltac Zify.zify_post_hook ::= idtac.

Lemma turn x i j : w32 (w32 (x + i) + j * i) = w32 (x + (j + 1) * i).
Proof. unfold w32. rewrite Zplus_mod_idemp_l. f_equal. ring. Qed.
Lemma turn0 x : 0 <= x < 2147483648 -> w32 x = x.
Proof. intros. apply Z.mod_small. lia. Qed.

Lemma opaque32_nth n : forall j r g b ri gi bi, (j < n)%nat ->
  nth j (opaque_loop32 n r g b ri gi bi) 0 = pack_opaque32 (w32 (r + (Z.of_nat j + 1) * ri)) (w32 (g + (Z.of_nat j + 1) * gi)) (w32 (b + (Z.of_nat j + 1) * bi)).
Proof.
  induction n as [|n IH]; intros [|j] r g b ri gi bi H; try lia; cbn [opaque_loop32 nth].
  - change (Z.of_nat 0 + 1) with 1. rewrite !Z.mul_1_l. reflexivity.
  - rewrite IH by lia. rewrite !turn. replace (Z.of_nat (S j) + 1) with (Z.of_nat j + 1 + 1) by lia. reflexivity.
Qed.
Lemma alpha32_nth n : forall j a r g b ai ri gi bi, (j < n)%nat ->
  nth j (alpha_loop32 n a r g b ai ri gi bi) 0 =
  premul_inline32 (w32 (a + (Z.of_nat j + 1) * ai)) (w32 (r + (Z.of_nat j + 1) * ri)) (w32 (g + (Z.of_nat j + 1) * gi)) (w32 (b + (Z.of_nat j + 1) * bi)).
Proof.
  induction n as [|n IH]; intros [|j] a r g b ai ri gi bi H; try lia; cbn [alpha_loop32 nth].
  - change (Z.of_nat 0 + 1) with 1. rewrite !Z.mul_1_l. reflexivity.
  - rewrite IH by lia. rewrite !turn. replace (Z.of_nat (S j) + 1) with (Z.of_nat j + 1 + 1) by lia. reflexivity.
Qed.
Lemma opaque64_nth n : forall j r g b ri gi bi, (j < n)%nat ->
  nth j (opaque_loop64 n r g b ri gi bi) 0 = pack_opaque64 (w32 (r + (Z.of_nat j + 1) * ri)) (w32 (g + (Z.of_nat j + 1) * gi)) (w32 (b + (Z.of_nat j + 1) * bi)).
Proof.
  induction n as [|n IH]; intros [|j] r g b ri gi bi H; try lia; cbn [opaque_loop64 nth].
  - change (Z.of_nat 0 + 1) with 1. rewrite !Z.mul_1_l. reflexivity.
  - rewrite IH by lia. rewrite !turn. replace (Z.of_nat (S j) + 1) with (Z.of_nat j + 1 + 1) by lia. reflexivity.
Qed.
Lemma alpha64_nth n : forall j a r g b ai ri gi bi, (j < n)%nat ->
  nth j (alpha_loop64 n a r g b ai ri gi bi) 0 =
  premul_inline64 (w32 (a + (Z.of_nat j + 1) * ai)) (w32 (r + (Z.of_nat j + 1) * ri)) (w32 (g + (Z.of_nat j + 1) * gi)) (w32 (b + (Z.of_nat j + 1) * bi)).
Proof.
  induction n as [|n IH]; intros [|j] a r g b ai ri gi bi H; try lia; cbn [alpha_loop64 nth].
  - change (Z.of_nat 0 + 1) with 1. rewrite !Z.mul_1_l. reflexivity.
  - rewrite IH by lia. rewrite !turn. replace (Z.of_nat (S j) + 1) with (Z.of_nat j + 1 + 1) by lia. reflexivity.
Qed.
Lemma opaque32_len n : forall r g b ri gi bi, length (opaque_loop32 n r g b ri gi bi) = n.
Proof. induction n; intros; cbn [opaque_loop32 length]; auto. Qed.
Lemma alpha32_len n : forall a r g b ai ri gi bi, length (alpha_loop32 n a r g b ai ri gi bi) = n.
Proof. induction n; intros; cbn [alpha_loop32 length]; auto. Qed.
Lemma opaque64_len n : forall r g b ri gi bi, length (opaque_loop64 n r g b ri gi bi) = n.
Proof. induction n; intros; cbn [opaque_loop64 length]; auto. Qed.
Lemma alpha64_len n : forall a r g b ai ri gi bi, length (alpha_loop64 n a r g b ai ri gi bi) = n.
Proof. induction n; intros; cbn [alpha_loop64 length]; auto. Qed.

(* pixels *)
Definition pos31 (P : Z) : Prop := 0 <= P < 2147483648.
Lemma pos_u8 P : pos31 P -> u8 (P / 2 ^ 23).
Proof. unfold pos31, u8. intros H. change (2 ^ 23) with 8388608. Z.div_mod_to_equations. lia. Qed.
Lemma pos_u16 P : pos31 P -> u16 (P / 2 ^ 15).
Proof. unfold pos31, u16. intros H. change (2 ^ 15) with 32768. Z.div_mod_to_equations. lia. Qed.
Lemma shr_mul x k j : 0 <= j <= k -> Z.shiftr (x * 2 ^ k) j = x * 2 ^ (k - j).
Proof.
  intros H. rewrite Z.shiftr_div_pow2 by lia. replace (x * 2 ^ k) with (x * 2 ^ (k - j) * 2 ^ j) by (rewrite <- Z.mul_assoc, <- Z.pow_add_r by lia; do 2 f_equal; lia).
  apply Z.div_mul. apply Z.pow_nonzero; lia.
Qed.
Lemma round_full c d : 0 < d -> round_div (c * d) d = c.
Proof. intros. unfold round_div. replace (2 * (c * d) + d) with (d + c * (2 * d)) by ring. rewrite Z.div_add by lia. rewrite Z.div_small by lia. lia. Qed.

Lemma opaque32_pixel r g b : pos31 r -> pos31 g -> pos31 b -> pack_opaque32 r g b = premultiplied 8 255 (r / 2 ^ 23) (g / 2 ^ 23) (b / 2 ^ 23).
Proof.
  intros Hr Hg Hb. unfold pack_opaque32. rewrite !mask32_hi by assumption. rewrite !shr_mul by lia.
  pose proof (pos_u8 r Hr). pose proof (pos_u8 g Hg). pose proof (pos_u8 b Hb).
  generalize dependent (r / 2 ^ 23). generalize dependent (g / 2 ^ 23). generalize dependent (b / 2 ^ 23). clear. intros b Hb g Hg r Hr.
  unfold premultiplied, pack. change (2 ^ 8 - 1) with 255. rewrite !round_full by lia. unfold u8 in *.
  change (2 ^ (23 - 7)) with 65536. change (2 ^ (23 - 15)) with 256. change (2 ^ (23 - 23)) with 1. change (2 ^ (8 * 3)) with 16777216. change (2 ^ (8 * 2)) with 65536. change (2 ^ 8) with 256.
  unfold w32. rewrite (Z.mod_small (4278190080 + r * 65536)) by lia. rewrite (Z.mod_small (4278190080 + r * 65536 + g * 256)) by lia. rewrite Z.mod_small by lia. ring.
Qed.
Lemma alt_shift x : 0 <= x < 2 ^ 32 -> Z.shiftr (Z.land x 0xFF00FF00) 8 = Z.land (Z.shiftr x 8) 0x00FF00FF.
Proof.
  intros H. apply Z.bits_inj'. intros n Hn. rewrite Z.shiftr_spec, !Z.land_spec, Z.shiftr_spec by lia. change 0xFF00FF00 with (Z.shiftl 0x00FF00FF 8). rewrite Z.shiftl_spec by lia. do 2 f_equal. lia.
Qed.
Lemma w32_range x : 0 <= w32 x < 2 ^ 32.
Proof. unfold w32. change (2 ^ 32) with 4294967296. apply Z.mod_pos_bound. lia. Qed.
Lemma alpha32_pixel a r g b : pos31 a -> pos31 r -> pos31 g -> pos31 b ->
  premul_inline32 a r g b = premultiplied 8 (a / 2 ^ 23) (r / 2 ^ 23) (g / 2 ^ 23) (b / 2 ^ 23).
Proof.
  intros Ha Hr Hg Hb. unfold premul_inline32. rewrite !mask32_hi by assumption. rewrite !shr_mul by lia.
  pose proof (pos_u8 a Ha). pose proof (pos_u8 r Hr). pose proof (pos_u8 g Hg). pose proof (pos_u8 b Hb).
  generalize dependent (a / 2 ^ 23). generalize dependent (r / 2 ^ 23). generalize dependent (g / 2 ^ 23). generalize dependent (b / 2 ^ 23). clear. intros b Hb g Hg r Hr a Ha.
  cbv zeta. change (2 ^ (23 - 23)) with 1. rewrite !Z.mul_1_r. change (2 ^ (23 - 7)) with (2 ^ 16).
  rewrite (alt_shift (w32 (w32 (w32 (b + r * 2 ^ 16) * a) + 0x00800080))) by apply w32_range. rewrite (alt_shift (w32 (w32 (g * a) + 0x00000080))) by apply w32_range.
  assert (E1 : w32 (b + r * 2 ^ 16) = b + 2 ^ 16 * r) by (unfold u8 in *; change (2 ^ 16) with 65536; unfold w32; rewrite Z.mod_small by lia; ring).
  rewrite E1. pose proof (two_lanes b r a Hb Hr Ha) as L. cbv zeta in L. rewrite L. clear L E1.
  (* green alone *)
  assert (G : Z.land (w32 (w32 (w32 (g * a) + 128) + Z.land (Z.shiftr (w32 (w32 (g * a) + 128)) 8) 16711935)) 4278255360 = lane255 (g * a) * 2 ^ 8).
  { assert (M : 0 <= g * a <= 65025) by (unfold u8 in *; nia). rewrite (w32_small' (g * a)) by lia. rewrite (w32_small' (g * a + 128)) by lia.
    unfold lane255. rewrite Z.shiftr_div_pow2 by lia. change (2 ^ 8) with 256. set (x := g * a + 128). assert (Hx : 0 <= x <= 65153) by (unfold x; lia). clearbody x.
    assert (D : 0 <= x / 256 <= 255) by (Z.div_mod_to_equations; lia).
    pose proof (land_lanes8 (x / 256) 0 ltac:(change (2 ^ 16) with 65536; lia) ltac:(lia)) as A. rewrite Z.mul_0_r, Z.add_0_r in A. rewrite A. rewrite Z.mod_0_l by lia. rewrite Z.mul_0_r, Z.add_0_r. rewrite Z.mod_small by lia.
    assert (S : x + x / 256 < 65536) by (Z.div_mod_to_equations; lia). rewrite w32_small' by lia.
    pose proof (land_lanes_hi (x + x / 256) 0 ltac:(change (2 ^ 16) with 65536; lia) ltac:(change (2 ^ 16) with 65536; lia)) as B. rewrite Z.mul_0_r, Z.add_0_r in B. rewrite B. rewrite Z.div_0_l by lia. lia. }
  rewrite G. clear G.
  assert (Lb : 0 <= lane255 (b * a) <= 255) by (apply lane255_range; unfold u8 in *; nia). assert (Lr : 0 <= lane255 (r * a) <= 255) by (apply lane255_range; unfold u8 in *; nia).
  assert (Lg : 0 <= lane255 (g * a) <= 255) by (apply lane255_range; unfold u8 in *; nia).
  unfold premultiplied, pack. change (2 ^ 8 - 1) with 255. rewrite <- !lane255_ok by (unfold u8 in *; nia).
  generalize dependent (lane255 (b * a)). generalize dependent (lane255 (r * a)). generalize dependent (lane255 (g * a)). unfold u8 in Ha. clear -Ha. intros g Hg r Hr b Hb.
  replace (b * 2 ^ 8 + 2 ^ 24 * r) with ((b + r * 2 ^ 16) * 2 ^ 8) by (change (2 ^ 24) with (2 ^ 16 * 2 ^ 8); ring). rewrite shr_mul by lia. change (2 ^ (8 - 8)) with 1. rewrite Z.mul_1_r.
  rewrite Z.shiftl_mul_pow2 by lia. change (2 ^ 16) with 65536. change (2 ^ 24) with 16777216. change (2 ^ 8) with 256. change (2 ^ (8 * 3)) with 16777216. change (2 ^ (8 * 2)) with 65536.
  rewrite (w32_small' (a * 16777216)) by lia. rewrite (w32_small' (g * 256 + a * 16777216)) by lia. rewrite w32_small' by lia. ring.
Qed.

Lemma lor_fields64 a r g b : u16 a -> u16 r -> u16 g -> u16 b -> pack_rgba64 r g b a = pack 16 a r g b.
Proof.
  unfold u16. intros Ha Hr Hg Hb. unfold pack_rgba64, pack. rewrite !Z.shiftl_mul_pow2 by lia. change (2 ^ (16 * 3)) with (2 ^ 48). change (2 ^ (16 * 2)) with (2 ^ 32).
  rewrite (w32_small' (a * 2 ^ 16)) by (change (2 ^ 16) with 65536; lia). rewrite (w32_small' (g * 2 ^ 16)) by (change (2 ^ 16) with 65536; lia).
  rewrite !lor_mul_add by (change (2 ^ 16) with 65536; lia).
  rewrite w64_small by (change (2 ^ 16) with 65536; change (2 ^ 32) with 4294967296; change (2 ^ 64) with 18446744073709551616; lia).
  rewrite lor_mul_add by (change (2 ^ 16) with 65536; change (2 ^ 32) with 4294967296; lia). change (2 ^ 48) with (2 ^ 16 * 2 ^ 32). ring.
Qed.
Lemma alpha64_pixel a r g b : pos31 a -> pos31 r -> pos31 g -> pos31 b ->
  premul_inline64 a r g b = premultiplied 16 (a / 2 ^ 15) (r / 2 ^ 15) (g / 2 ^ 15) (b / 2 ^ 15).
Proof.
  intros Ha Hr Hg Hb. unfold premul_inline64. rewrite !Z.shiftr_div_pow2 by lia.
  pose proof (pos_u16 a Ha). pose proof (pos_u16 r Hr). pose proof (pos_u16 g Hg). pose proof (pos_u16 b Hb).
  generalize dependent (a / 2 ^ 15). generalize dependent (r / 2 ^ 15). generalize dependent (g / 2 ^ 15). generalize dependent (b / 2 ^ 15). clear. intros b Hb g Hg r Hr a Ha.
  pose proof (mul_u16 r a Hr Ha). pose proof (mul_u16 g a Hg Ha). pose proof (mul_u16 b a Hb Ha). cbv zeta. rewrite !w32_small' by lia. rewrite !udiv65535_ok by lia.
  unfold premultiplied. change (2 ^ 16 - 1) with 65535. apply lor_fields64; auto using round_div_u16.
Qed.
Lemma opaque64_pixel r g b : pos31 r -> pos31 g -> pos31 b -> pack_opaque64 r g b = premultiplied 16 65535 (r / 2 ^ 15) (g / 2 ^ 15) (b / 2 ^ 15).
Proof.
  intros Hr Hg Hb. unfold pack_opaque64. rewrite !mask64_hi by assumption.
  pose proof (pos_u16 r Hr). pose proof (pos_u16 g Hg). pose proof (pos_u16 b Hb). rewrite shr_mul by lia. rewrite !Z.shiftl_mul_pow2 by lia.
  generalize dependent (r / 2 ^ 15). generalize dependent (g / 2 ^ 15). generalize dependent (b / 2 ^ 15). clear. intros b Hb g Hg r Hr. unfold u16 in *.
  change (2 ^ (15 - 15)) with 1. rewrite Z.mul_1_r.
  replace (r * 2 ^ 15 * 2 ^ 17) with (r * 2 ^ 32) by (change (2 ^ 32) with (2 ^ 15 * 2 ^ 17); ring). replace (g * 2 ^ 15 * 2 ^ 1) with (g * 2 ^ 16) by (change (2 ^ 16) with (2 ^ 15 * 2 ^ 1); ring).
  rewrite !w64_small by (change (2 ^ 16) with 65536; change (2 ^ 32) with 4294967296; change (2 ^ 64) with 18446744073709551616; lia).
  rewrite (lor_mul_add (g * 2 ^ 16) r 32) by (change (2 ^ 16) with 65536; change (2 ^ 32) with 4294967296; lia).
  replace (r * 2 ^ 32 + g * 2 ^ 16) with ((r * 2 ^ 16 + g) * 2 ^ 16) by (change (2 ^ 32) with (2 ^ 16 * 2 ^ 16); ring). rewrite lor_mul_add by (change (2 ^ 16) with 65536; lia).
  rewrite Z.lor_comm. change 18446462598732840960 with (65535 * 2 ^ 48). rewrite lor_mul_add by (change (2 ^ 16) with 65536; change (2 ^ 48) with 281474976710656; lia).
  unfold premultiplied, pack. change (2 ^ 16 - 1) with 65535. rewrite !round_full by lia. change (2 ^ (16 * 3)) with (2 ^ 48). change (2 ^ (16 * 2)) with (2 ^ 16 * 2 ^ 16). ring.
Qed.

(* both colours are opaque *)
Lemma land_top a b w : 0 <= w -> 0 <= a < 2 ^ w -> 0 <= b < 2 ^ w -> Z.land a b = 2 ^ w - 1 <-> a = 2 ^ w - 1 /\ b = 2 ^ w - 1.
Proof.
  intros Hw Ha Hb. replace (2 ^ w - 1) with (Z.ones w) by (rewrite Z.ones_equiv; lia). split.
  - intros E. assert (B : 0 <= Z.ones w < 2 ^ w) by (rewrite Z.ones_equiv; lia).
    split; apply (bits_ext_bounded _ _ w Hw); auto; intros n Hn.
    + assert (T : Z.testbit (Z.land a b) n = true) by (rewrite E, Z.testbit_ones_nonneg by lia; lia). rewrite Z.land_spec in T. apply andb_true_iff in T. destruct T as [T _]. rewrite T. rewrite Z.testbit_ones_nonneg by lia. lia.
    + assert (T : Z.testbit (Z.land a b) n = true) by (rewrite E, Z.testbit_ones_nonneg by lia; lia). rewrite Z.land_spec in T. apply andb_true_iff in T. destruct T as [_ T]. rewrite T. rewrite Z.testbit_ones_nonneg by lia. lia.
  - intros [-> ->]. apply Z.land_diag.
Qed.
Lemma top_chan w c : 0 < w -> 0 <= c < 2 ^ (w * 4) -> chan w c 3 = Z.shiftr c (w * 3).
Proof.
  intros Hw Hc. unfold chan. rewrite Z.shiftr_div_pow2 by lia. apply Z.mod_small. split; [apply Z.div_pos; [lia|apply Z.pow_pos_nonneg; lia]|].
  apply Z.div_lt_upper_bound; [apply Z.pow_pos_nonneg; lia|]. rewrite <- Z.pow_add_r by lia. replace (w * 3 + w) with (w * 4) by lia. lia.
Qed.
Lemma opaque32_test c0 c1 : 0 <= c0 < 2 ^ 32 -> 0 <= c1 < 2 ^ 32 -> (4278190080 <=? Z.land c0 c1) = true -> chan 8 c0 3 = 255 /\ chan 8 c1 3 = 255.
Proof.
  intros H0 H1 T. apply (land_top _ _ 8); [lia|apply chan_range; lia|apply chan_range; lia|]. rewrite !top_chan by lia. rewrite <- Z.shiftr_land.
  change (2 ^ 8 - 1) with 255. pose proof (land_bound c0 c1 32 ltac:(lia) H0) as B. rewrite Z.shiftr_div_pow2 by lia. change (2 ^ (8 * 3)) with 16777216. change (2 ^ 32) with 4294967296 in B.
  generalize dependent (Z.land c0 c1). clear. intros z T B. Z.div_mod_to_equations. lia.
Qed.
Lemma opaque64_test c0 c1 : 0 <= c0 < 2 ^ 64 -> 0 <= c1 < 2 ^ 64 -> (Z.land (Z.land c0 c1) 18446462598732840960 =? 18446462598732840960) = true -> chan 16 c0 3 = 65535 /\ chan 16 c1 3 = 65535.
Proof.
  intros H0 H1 T. apply Z.eqb_eq in T. apply (land_top _ _ 16); [lia|apply chan_range; lia|apply chan_range; lia|]. rewrite !top_chan by lia. rewrite <- Z.shiftr_land.
  change (2 ^ 16 - 1) with 65535. assert (E : Z.shiftr (Z.land (Z.land c0 c1) 18446462598732840960) 48 = 65535) by (rewrite T; reflexivity).
  rewrite Z.shiftr_land in E. change (Z.shiftr 18446462598732840960 48) with (Z.ones 16) in E. rewrite Z.land_ones in E by lia. change (16 * 3) with 48. rewrite <- E. symmetry. apply Z.mod_small.
  pose proof (land_bound c0 c1 64 ltac:(lia) H0) as B. rewrite Z.shiftr_div_pow2 by lia. split; [apply Z.div_pos; lia|apply Z.div_lt_upper_bound; [lia|]]. change (2 ^ 48 * 2 ^ 16) with (2 ^ 64). lia.
Qed.

Lemma near_same K x m n : 1 <= K -> 0 <= m -> 0 <= n -> near K x x m n x.
Proof. intros. unfold near. split; [lia|]. replace (n * x - (n * x + m * (x - x))) with 0 by ring. cbn [Z.abs]. rewrite Z.mul_0_l. assert (0 < 2 ^ (K - 1)) by (apply Z.pow_pos_nonneg; lia). nia. Qed.

Definition span_ok (w : Z) (c0 c1 n : Z) (l : list Z) : Prop :=
  length l = Z.to_nat n /\ (forall m, 1 <= m <= n -> between w c0 c1 m n (nth (Z.to_nat (m - 1)) l 0)) /\ nth (Z.to_nat (n - 1)) l 0 = stop_pixel w c1.

Lemma span32_ok c0 c1 n : 0 <= c0 < 2 ^ 32 -> 0 <= c1 < 2 ^ 32 -> 1 <= n <= 2 ^ 22 -> span_ok 8 c0 c1 n (span32 c0 c1 n).
Proof.
  intros H0 H1 Hn. unfold span32. destruct (fields32 c0 H0) as (-> & -> & -> & ->). destruct (fields32 c1 H1) as (-> & -> & -> & ->). cbv zeta.
  change 4194304 with (2 ^ (23 - 1)).
  assert (C0 : forall i, 0 <= chan 8 c0 i < 2 ^ 8) by (intros; apply chan_range; lia). assert (C1 : forall i, 0 <= chan 8 c1 i < 2 ^ 8) by (intros; apply chan_range; lia).
  assert (A : forall i m, 1 <= m <= n -> w32 (w32 (chan 8 c0 i * 2 ^ 23 + 2 ^ (23 - 1)) + (Z.of_nat (Z.to_nat (m - 1)) + 1) * step (chan 8 c1 i * 2 ^ 23) (chan 8 c0 i * 2 ^ 23) n) = posn 23 (chan 8 c0 i) (chan 8 c1 i) m n /\ pos31 (posn 23 (chan 8 c0 i) (chan 8 c1 i) m n)).
  { intros i m Hm. replace (Z.of_nat (Z.to_nat (m - 1)) + 1) with m by lia. destruct (advance 23 8 (chan 8 c0 i) (chan 8 c1 i) m n ltac:(lia) ltac:(lia) ltac:(lia) (C0 i) (C1 i) Hn ltac:(lia)) as (E & R & _). split; [exact E|exact R]. }
  assert (N : forall i m, 1 <= m <= n -> near 23 (chan 8 c0 i) (chan 8 c1 i) m n (posn 23 (chan 8 c0 i) (chan 8 c1 i) m n / 2 ^ 23) /\ (m = n -> posn 23 (chan 8 c0 i) (chan 8 c1 i) m n / 2 ^ 23 = chan 8 c1 i)).
  { intros i m Hm. destruct (posn_facts 23 (chan 8 c0 i) (chan 8 c1 i) m n ltac:(lia) (proj1 (C0 i)) (proj1 (C1 i)) Hn ltac:(lia)) as (_ & X & Y). split; assumption. }
  destruct (4278190080 <=? Z.land c0 c1) eqn:T.
  - destruct (opaque32_test c0 c1 H0 H1 T) as [T0 T1].
    assert (V : forall m, 1 <= m <= n -> nth (Z.to_nat (m - 1)) (opaque_loop32 (Z.to_nat n) (w32 (chan 8 c0 2 * 2 ^ 23 + 2 ^ (23 - 1))) (w32 (chan 8 c0 1 * 2 ^ 23 + 2 ^ (23 - 1))) (w32 (chan 8 c0 0 * 2 ^ 23 + 2 ^ (23 - 1)))
        (step (chan 8 c1 2 * 2 ^ 23) (chan 8 c0 2 * 2 ^ 23) n) (step (chan 8 c1 1 * 2 ^ 23) (chan 8 c0 1 * 2 ^ 23) n) (step (chan 8 c1 0 * 2 ^ 23) (chan 8 c0 0 * 2 ^ 23) n)) 0 =
        premultiplied 8 255 (posn 23 (chan 8 c0 2) (chan 8 c1 2) m n / 2 ^ 23) (posn 23 (chan 8 c0 1) (chan 8 c1 1) m n / 2 ^ 23) (posn 23 (chan 8 c0 0) (chan 8 c1 0) m n / 2 ^ 23)).
    { intros m Hm. rewrite opaque32_nth by lia. destruct (A 2 m Hm) as [-> P2], (A 1 m Hm) as [-> P1], (A 0 m Hm) as [-> P0]. apply opaque32_pixel; assumption. }
    split; [apply opaque32_len|]. split.
    + intros m Hm. rewrite V by assumption. exists 255. do 3 eexists. split; [reflexivity|]. rewrite T0, T1. split; [apply near_same; lia|]. split; [apply N; assumption|]. split; apply N; assumption.
    + rewrite V by lia. unfold stop_pixel. rewrite T1. f_equal; apply N; lia.
  - assert (V : forall m, 1 <= m <= n -> nth (Z.to_nat (m - 1)) (alpha_loop32 (Z.to_nat n) (w32 (chan 8 c0 3 * 2 ^ 23 + 2 ^ (23 - 1))) (w32 (chan 8 c0 2 * 2 ^ 23 + 2 ^ (23 - 1))) (w32 (chan 8 c0 1 * 2 ^ 23 + 2 ^ (23 - 1))) (w32 (chan 8 c0 0 * 2 ^ 23 + 2 ^ (23 - 1)))
        (step (chan 8 c1 3 * 2 ^ 23) (chan 8 c0 3 * 2 ^ 23) n) (step (chan 8 c1 2 * 2 ^ 23) (chan 8 c0 2 * 2 ^ 23) n) (step (chan 8 c1 1 * 2 ^ 23) (chan 8 c0 1 * 2 ^ 23) n) (step (chan 8 c1 0 * 2 ^ 23) (chan 8 c0 0 * 2 ^ 23) n)) 0 =
        premultiplied 8 (posn 23 (chan 8 c0 3) (chan 8 c1 3) m n / 2 ^ 23) (posn 23 (chan 8 c0 2) (chan 8 c1 2) m n / 2 ^ 23) (posn 23 (chan 8 c0 1) (chan 8 c1 1) m n / 2 ^ 23) (posn 23 (chan 8 c0 0) (chan 8 c1 0) m n / 2 ^ 23)).
    { intros m Hm. rewrite alpha32_nth by lia. destruct (A 3 m Hm) as [-> P3], (A 2 m Hm) as [-> P2], (A 1 m Hm) as [-> P1], (A 0 m Hm) as [-> P0]. apply alpha32_pixel; assumption. }
    split; [apply alpha32_len|]. split.
    + intros m Hm. rewrite V by assumption. do 4 eexists. split; [reflexivity|]. split; [apply N; assumption|]. split; [apply N; assumption|]. split; apply N; assumption.
    + rewrite V by lia. unfold stop_pixel. f_equal; apply N; lia.
Qed.

Lemma span64_ok c0 c1 n : 0 <= c0 < 2 ^ 64 -> 0 <= c1 < 2 ^ 64 -> 1 <= n <= 2 ^ 14 -> span_ok 16 c0 c1 n (span64 c0 c1 n).
Proof.
  intros H0 H1 Hn. unfold span64. destruct (fields64 c0 H0) as (-> & -> & -> & ->). destruct (fields64 c1 H1) as (-> & -> & -> & ->). cbv zeta.
  change 16384 with (2 ^ (15 - 1)).
  assert (C0 : forall i, 0 <= chan 16 c0 i < 2 ^ 16) by (intros; apply chan_range; lia). assert (C1 : forall i, 0 <= chan 16 c1 i < 2 ^ 16) by (intros; apply chan_range; lia).
  assert (A : forall i m, 1 <= m <= n -> w32 (w32 (chan 16 c0 i * 2 ^ 15 + 2 ^ (15 - 1)) + (Z.of_nat (Z.to_nat (m - 1)) + 1) * step (chan 16 c1 i * 2 ^ 15) (chan 16 c0 i * 2 ^ 15) n) = posn 15 (chan 16 c0 i) (chan 16 c1 i) m n /\ pos31 (posn 15 (chan 16 c0 i) (chan 16 c1 i) m n)).
  { intros i m Hm. replace (Z.of_nat (Z.to_nat (m - 1)) + 1) with m by lia. destruct (advance 15 16 (chan 16 c0 i) (chan 16 c1 i) m n ltac:(lia) ltac:(lia) ltac:(lia) (C0 i) (C1 i) Hn ltac:(lia)) as (E & R & _). split; [exact E|exact R]. }
  assert (N : forall i m, 1 <= m <= n -> near 15 (chan 16 c0 i) (chan 16 c1 i) m n (posn 15 (chan 16 c0 i) (chan 16 c1 i) m n / 2 ^ 15) /\ (m = n -> posn 15 (chan 16 c0 i) (chan 16 c1 i) m n / 2 ^ 15 = chan 16 c1 i)).
  { intros i m Hm. destruct (posn_facts 15 (chan 16 c0 i) (chan 16 c1 i) m n ltac:(lia) (proj1 (C0 i)) (proj1 (C1 i)) Hn ltac:(lia)) as (_ & X & Y). split; assumption. }
  destruct (Z.land (Z.land c0 c1) 18446462598732840960 =? 18446462598732840960) eqn:T.
  - destruct (opaque64_test c0 c1 H0 H1 T) as [T0 T1].
    assert (V : forall m, 1 <= m <= n -> nth (Z.to_nat (m - 1)) (opaque_loop64 (Z.to_nat n) (w32 (chan 16 c0 2 * 2 ^ 15 + 2 ^ (15 - 1))) (w32 (chan 16 c0 1 * 2 ^ 15 + 2 ^ (15 - 1))) (w32 (chan 16 c0 0 * 2 ^ 15 + 2 ^ (15 - 1)))
        (step (chan 16 c1 2 * 2 ^ 15) (chan 16 c0 2 * 2 ^ 15) n) (step (chan 16 c1 1 * 2 ^ 15) (chan 16 c0 1 * 2 ^ 15) n) (step (chan 16 c1 0 * 2 ^ 15) (chan 16 c0 0 * 2 ^ 15) n)) 0 =
        premultiplied 16 65535 (posn 15 (chan 16 c0 2) (chan 16 c1 2) m n / 2 ^ 15) (posn 15 (chan 16 c0 1) (chan 16 c1 1) m n / 2 ^ 15) (posn 15 (chan 16 c0 0) (chan 16 c1 0) m n / 2 ^ 15)).
    { intros m Hm. rewrite opaque64_nth by lia. destruct (A 2 m Hm) as [-> P2], (A 1 m Hm) as [-> P1], (A 0 m Hm) as [-> P0]. apply opaque64_pixel; assumption. }
    split; [apply opaque64_len|]. split.
    + intros m Hm. rewrite V by assumption. exists 65535. do 3 eexists. split; [reflexivity|]. rewrite T0, T1. split; [apply near_same; lia|]. split; [apply N; assumption|]. split; apply N; assumption.
    + rewrite V by lia. unfold stop_pixel. rewrite T1. f_equal; apply N; lia.
  - assert (V : forall m, 1 <= m <= n -> nth (Z.to_nat (m - 1)) (alpha_loop64 (Z.to_nat n) (w32 (chan 16 c0 3 * 2 ^ 15 + 2 ^ (15 - 1))) (w32 (chan 16 c0 2 * 2 ^ 15 + 2 ^ (15 - 1))) (w32 (chan 16 c0 1 * 2 ^ 15 + 2 ^ (15 - 1))) (w32 (chan 16 c0 0 * 2 ^ 15 + 2 ^ (15 - 1)))
        (step (chan 16 c1 3 * 2 ^ 15) (chan 16 c0 3 * 2 ^ 15) n) (step (chan 16 c1 2 * 2 ^ 15) (chan 16 c0 2 * 2 ^ 15) n) (step (chan 16 c1 1 * 2 ^ 15) (chan 16 c0 1 * 2 ^ 15) n) (step (chan 16 c1 0 * 2 ^ 15) (chan 16 c0 0 * 2 ^ 15) n)) 0 =
        premultiplied 16 (posn 15 (chan 16 c0 3) (chan 16 c1 3) m n / 2 ^ 15) (posn 15 (chan 16 c0 2) (chan 16 c1 2) m n / 2 ^ 15) (posn 15 (chan 16 c0 1) (chan 16 c1 1) m n / 2 ^ 15) (posn 15 (chan 16 c0 0) (chan 16 c1 0) m n / 2 ^ 15)).
    { intros m Hm. rewrite alpha64_nth by lia. destruct (A 3 m Hm) as [-> P3], (A 2 m Hm) as [-> P2], (A 1 m Hm) as [-> P1], (A 0 m Hm) as [-> P0]. apply alpha64_pixel; assumption. }
    split; [apply alpha64_len|]. split.
    + intros m Hm. rewrite V by assumption. do 4 eexists. split; [reflexivity|]. split; [apply N; assumption|]. split; [apply N; assumption|]. split; apply N; assumption.
    + rewrite V by lia. unfold stop_pixel. f_equal; apply N; lia.
Qed.
