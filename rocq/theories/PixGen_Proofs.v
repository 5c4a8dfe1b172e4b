(* Proofs about pixel arithmetic with several components in a word. *)
From Verif Require Import Base Bits PixelOps_Spec PixelOps_Proofs PixGen_Model PixGen_Spec.
Ltac Zify.zify_post_hook ::= idtac.

Lemma lor_split a b c d k : 0 <= k -> 0 <= a < 2 ^ k -> 0 <= c < 2 ^ k ->
  Z.lor (a + 2 ^ k * b) (c + 2 ^ k * d) = Z.lor a c + 2 ^ k * Z.lor b d.
Proof.
  apply (bitop_split Z.lor orb).
  - intros; apply Z.lor_spec.
  - reflexivity.
  - intros; apply Z.lor_nonneg; lia.
Qed.

Definition l4 (a b c d : Z) : Z := a + 2 ^ 16 * (b + 2 ^ 16 * (c + 2 ^ 16 * d)).
Definition l2 (a b : Z) : Z := a + 2 ^ 16 * b.
Definition b4 (a b c d : Z) : Z := a + 2 ^ 8 * (b + 2 ^ 8 * (c + 2 ^ 8 * d)).

Lemma b4_pack a r g b : b4 b g r a = pack32 a r g b.
Proof. unfold b4, pack32. change (2 ^ 8) with 256. change (2 ^ 16) with 65536. change (2 ^ 24) with 16777216. ring. Qed.

Lemma land_ff x : u8 x -> Z.land x 0xFF = x.
Proof. unfold u8. intros. change 0xFF with (2 ^ 8 - 1). rewrite land_mask by lia. apply Z.mod_small. exact H. Qed.

Lemma b4_land a b c d e f g h : u8 a -> u8 b -> u8 c -> u8 e -> u8 f -> u8 g ->
  Z.land (b4 a b c d) (b4 e f g h) = b4 (Z.land a e) (Z.land b f) (Z.land c g) (Z.land d h).
Proof. unfold u8, b4. intros. rewrite !land_split by (change (2 ^ 8) with 256; lia). reflexivity. Qed.

Lemma unpack64_ok a b c d : u8 a -> u8 b -> u8 c -> u8 d -> unpack64 (b4 a b c d) = l4 a c b d.
Proof.
  intros A B C D. unfold unpack64. change 0x00FF00FF with (b4 255 0 255 0). change 0xFF00FF00 with (b4 0 255 0 255).
  rewrite !b4_land by (assumption || (unfold u8; lia)). rewrite !Z.land_0_r, !land_ff by assumption. rewrite Z.shiftl_mul_pow2 by lia.
  unfold b4, l4, u8 in *.
  replace ((0 + 2 ^ 8 * (b + 2 ^ 8 * (0 + 2 ^ 8 * d))) * 2 ^ 24) with (0 + 2 ^ 32 * (b + 2 ^ 16 * d)) by ring.
  replace (a + 2 ^ 8 * (0 + 2 ^ 8 * (c + 2 ^ 8 * 0))) with (a + 2 ^ 16 * c + 2 ^ 32 * 0) by ring.
  rewrite lor_split by (change (2 ^ 16) with 65536; change (2 ^ 32) with 4294967296; lia).
  rewrite Z.lor_0_r, Z.lor_0_l. ring.
Qed.

Lemma pack64u_ok a b c d : u8 a -> u8 b -> u8 c -> u8 d -> pack64u (l4 a c b d) = b4 a b c d.
Proof.
  unfold u8. intros A B C D. unfold pack64u, l4.
  replace (Z.shiftr (a + 2 ^ 16 * (c + 2 ^ 16 * (b + 2 ^ 16 * d))) 24) with (0 + 2 ^ 8 * (b + 2 ^ 8 * (0 + 2 ^ 8 * d))).
  2: { rewrite Z.shiftr_div_pow2 by lia. change (2 ^ 8) with 256. change (2 ^ 16) with 65536. change (2 ^ 24) with 16777216.
       apply (Z.div_unique _ _ _ (a + 65536 * c)); lia. }
  replace (a + 2 ^ 16 * (c + 2 ^ 16 * (b + 2 ^ 16 * d))) with (a + 2 ^ 8 * (0 + 2 ^ 8 * (c + 2 ^ 8 * (2 ^ 8 * (b + 2 ^ 16 * d))))) by ring.
  rewrite !lor_split by (change (2 ^ 8) with 256; lia). rewrite Z.lor_0_r, !Z.lor_0_l.
  set (x := Z.lor d (2 ^ 8 * (b + 2 ^ 16 * d))).
  change 0xFFFFFFFF with (2 ^ 32 - 1). rewrite land_mask by lia. unfold b4.
  assert (X : x = d + 2 ^ 8 * (b + 2 ^ 16 * d)).
  { unfold x. replace d with (d + 2 ^ 8 * 0) at 1 by ring. replace (2 ^ 8 * (b + 2 ^ 16 * d)) with (0 + 2 ^ 8 * (b + 2 ^ 16 * d)) at 1 by ring.
    rewrite lor_split by (change (2 ^ 8) with 256; lia). rewrite Z.lor_0_r, Z.lor_0_l. reflexivity. }
  rewrite X. symmetry. apply (Z.mod_unique _ _ (b + 2 ^ 16 * d));
    change (2 ^ 8) with 256; change (2 ^ 16) with 65536; change (2 ^ 32) with 4294967296; lia.
Qed.

Lemma mul64_ok a b c d m : 0 <= m -> 0 <= a -> 0 <= b -> 0 <= c -> 0 <= d -> a * m < 2 ^ 16 -> b * m < 2 ^ 16 -> c * m < 2 ^ 16 -> d * m < 2 ^ 16 ->
  mul64 (l4 a b c d) m = l4 (a * m) (b * m) (c * m) (d * m).
Proof.
  intros M A B C D HA HB HC HD. unfold mul64, w64, l4. rewrite Z.mod_small; [ring|].
  change (2 ^ 16) with 65536 in *. nia.
Qed.
Lemma add64_ok a b c d e f g h : 0 <= a -> 0 <= b -> 0 <= c -> 0 <= d -> 0 <= e -> 0 <= f -> 0 <= g -> 0 <= h ->
  a + e < 2 ^ 16 -> b + f < 2 ^ 16 -> c + g < 2 ^ 16 -> d + h < 2 ^ 16 -> add64 (l4 a b c d) (l4 e f g h) = l4 (a + e) (b + f) (c + g) (d + h).
Proof. intros. unfold add64, w64, l4. rewrite Z.mod_small; [ring|]. change (2 ^ 16) with 65536 in *. lia. Qed.

(* the low lane of a shift by 8 *)
Lemma shr_lane a h k mh : 0 <= a < 2 ^ 16 -> 0 <= h -> 0 <= k < 256 ->
  Z.land (Z.shiftr (a + 2 ^ 16 * h) 8) (k + 2 ^ 16 * mh) = Z.land (a / 256) k + 2 ^ 16 * Z.land (Z.shiftr h 8) mh.
Proof.
  intros A H K. rewrite !Z.shiftr_div_pow2 by lia. change (2 ^ 8) with 256.
  replace ((a + 2 ^ 16 * h) / 256) with ((a / 256 + 2 ^ 8 * (h mod 256)) + 2 ^ 16 * (h / 256)).
  2: { change (2 ^ 16) with 65536 in *. change (2 ^ 8) with 256. clear K.
       apply (Z.div_unique _ _ _ (a mod 256)); [left; apply Z.mod_pos_bound; lia|].
       pose proof (Z.div_mod a 256 ltac:(lia)). pose proof (Z.div_mod h 256 ltac:(lia)). lia. }
  assert (Q : 0 <= a / 256 < 256).
  { change (2 ^ 16) with 65536 in A. split; [apply Z.div_pos; lia|apply Z.div_lt_upper_bound; lia]. }
  pose proof (Z.mod_pos_bound h 256 ltac:(lia)) as R.
  rewrite land_split by (change (2 ^ 16) with 65536; change (2 ^ 8) with 256; lia).
  f_equal. replace k with (k + 2 ^ 8 * 0) at 1 by ring. rewrite land_split by (change (2 ^ 8) with 256; lia). rewrite Z.land_0_r. ring.
Qed.
Lemma shr_top a k : 0 <= a < 2 ^ 16 -> Z.land (Z.shiftr a 8) k = Z.land (a / 256) k.
Proof. intros A. rewrite Z.shiftr_div_pow2 by lia. reflexivity. Qed.

Lemma shr4 a b c d k : 0 <= a < 2 ^ 16 -> 0 <= b < 2 ^ 16 -> 0 <= c < 2 ^ 16 -> 0 <= d < 2 ^ 16 -> 0 <= k < 256 ->
  Z.land (Z.shiftr (l4 a b c d) 8) (l4 k k k k) = l4 (Z.land (a / 256) k) (Z.land (b / 256) k) (Z.land (c / 256) k) (Z.land (d / 256) k).
Proof.
  intros A B C D K. unfold l4. change (2 ^ 16) with 65536 in A, B, C, D.
  rewrite !shr_lane by (change (2 ^ 16) with 65536; lia). rewrite shr_top by (change (2 ^ 16) with 65536; lia). reflexivity.
Qed.
Lemma shr2 a b k : 0 <= a < 2 ^ 16 -> 0 <= b < 2 ^ 16 -> 0 <= k < 256 ->
  Z.land (Z.shiftr (l2 a b) 8) (l2 k k) = l2 (Z.land (a / 256) k) (Z.land (b / 256) k).
Proof. intros A B K. unfold l2. change (2 ^ 16) with 65536 in A, B. rewrite shr_lane, shr_top by (change (2 ^ 16) with 65536; lia). reflexivity. Qed.

Lemma hi_ff x : 0 <= x < 65536 -> Z.land (x / 256) 255 = x / 256.
Proof. intros X. apply land_ff. unfold u8. split; [apply Z.div_pos; lia|apply Z.div_lt_upper_bound; lia]. Qed.
Lemma div_bound x : 0 <= x <= 65025 -> 0 <= x /\ 0 <= x + 128 < 65536 /\ 0 <= (x + 128) / 256 <= 254 /\ 0 <= x + 128 + (x + 128) / 256 < 65536.
Proof.
  intros X. assert (0 <= (x + 128) / 256 <= 254); [|lia].
  split; [apply Z.div_pos; lia|]. enough ((x + 128) / 256 < 255) by lia. apply Z.div_lt_upper_bound; lia.
Qed.

Lemma div255_64_ok a b c d : 0 <= a <= 65025 -> 0 <= b <= 65025 -> 0 <= c <= 65025 -> 0 <= d <= 65025 ->
  div255_64 (l4 a b c d) = l4 (lane255 a) (lane255 b) (lane255 c) (lane255 d).
Proof.
  intros A B C D. unfold div255_64. change (u16x4 0x80) with (l4 128 128 128 128). change (u16x4 0xFF) with (l4 255 255 255 255).
  apply div_bound in A, B, C, D.
  rewrite add64_ok by (change (2 ^ 16) with 65536; lia).
  rewrite shr4 by (change (2 ^ 16) with 65536; lia). rewrite !hi_ff by lia.
  rewrite add64_ok by (change (2 ^ 16) with 65536; lia).
  rewrite shr4 by (change (2 ^ 16) with 65536; lia). rewrite !hi_ff by lia. reflexivity.
Qed.

(* saturation of one lane *)
Lemma sat_lane v : 0 <= v <= 510 -> Z.land (Z.lor v (Z.land (v / 256) 1 * 255)) 255 = Z.min 255 v.
Proof.
  intros V. assert (E : forallb (fun v => Z.land (Z.lor v (Z.land (v / 256) 1 * 255)) 255 =? Z.min 255 v) (map Z.of_nat (seq 0 511)) = true) by (vm_compute; reflexivity).
  rewrite forallb_forall in E. specialize (E v). apply Z.eqb_eq, E. apply in_map_iff. exists (Z.to_nat v). split; [lia|]. apply in_seq. lia.
Qed.
Lemma sat_msk v : 0 <= v <= 510 -> 0 <= Z.land (v / 256) 1 <= 1.
Proof.
  intros V. pose proof (land_bound (v / 256) 1 1 ltac:(lia)) as L. destruct (Z.lt_ge_cases v 256).
  - rewrite Z.div_small by lia. rewrite Z.land_0_l. lia.
  - assert (v / 256 = 1) as -> by (symmetry; apply (Z.div_unique _ _ _ (v - 256)); lia). vm_compute. split; discriminate.
Qed.

Lemma l4_lor a b c d e f g h : 0 <= a < 65536 -> 0 <= b < 65536 -> 0 <= c < 65536 -> 0 <= e < 65536 -> 0 <= f < 65536 -> 0 <= g < 65536 ->
  Z.lor (l4 a b c d) (l4 e f g h) = l4 (Z.lor a e) (Z.lor b f) (Z.lor c g) (Z.lor d h).
Proof. intros. unfold l4. rewrite !lor_split by (change (2 ^ 16) with 65536; lia). reflexivity. Qed.
Lemma l4_land a b c d e f g h : 0 <= a < 65536 -> 0 <= b < 65536 -> 0 <= c < 65536 -> 0 <= e < 65536 -> 0 <= f < 65536 -> 0 <= g < 65536 ->
  Z.land (l4 a b c d) (l4 e f g h) = l4 (Z.land a e) (Z.land b f) (Z.land c g) (Z.land d h).
Proof. intros. unfold l4. rewrite !land_split by (change (2 ^ 16) with 65536; lia). reflexivity. Qed.

Lemma lor_lane v : 0 <= v <= 510 -> 0 <= Z.lor v (Z.land (v / 256) 1 * 255) < 65536.
Proof. intros V. pose proof (sat_msk v V). change 65536 with (2 ^ 16). apply lor_bound; change (2 ^ 16) with 65536; lia. Qed.

Lemma addus8_64_ok a b c d e f g h : u8 a -> u8 b -> u8 c -> u8 d -> u8 e -> u8 f -> u8 g -> u8 h ->
  addus8_64 (l4 a b c d) (l4 e f g h) = l4 (Z.min 255 (a + e)) (Z.min 255 (b + f)) (Z.min 255 (c + g)) (Z.min 255 (d + h)).
Proof.
  unfold u8. intros A B C D E F G H. unfold addus8_64. change (u16x4 0x1) with (l4 1 1 1 1). change (u16x4 0xFF) with (l4 255 255 255 255).
  rewrite add64_ok by (change (2 ^ 16) with 65536; lia). rewrite shr4 by (change (2 ^ 16) with 65536; lia).
  pose proof (sat_msk (a + e) ltac:(lia)). pose proof (sat_msk (b + f) ltac:(lia)). pose proof (sat_msk (c + g) ltac:(lia)). pose proof (sat_msk (d + h) ltac:(lia)).
  rewrite mul64_ok by (change (2 ^ 16) with 65536; lia). rewrite l4_lor by lia.
  pose proof (lor_lane (a + e) ltac:(lia)). pose proof (lor_lane (b + f) ltac:(lia)). pose proof (lor_lane (c + g) ltac:(lia)).
  rewrite l4_land by lia. rewrite !sat_lane by lia. reflexivity.
Qed.

(* 32-bit words *)
Lemma unpack32_ok a b c d : u8 a -> u8 b -> u8 c -> u8 d -> unpack32 (b4 a b c d) = (l2 a c, l2 b d).
Proof.
  intros A B C D. unfold unpack32. change 0x00FF00FF with (b4 255 0 255 0).
  assert (S : Z.shiftr (b4 a b c d) 8 = b4 b c d 0).
  { unfold u8 in *. rewrite Z.shiftr_div_pow2 by lia. unfold b4. symmetry. change (2 ^ 8) with 256. apply (Z.div_unique _ _ _ a); lia. }
  rewrite S, !b4_land by (assumption || (unfold u8; lia)). rewrite !Z.land_0_r, !land_ff by assumption. unfold b4, l2. f_equal; ring.
Qed.
Lemma pack32u_ok a b c d : u8 a -> u8 b -> u8 c -> u8 d -> pack32u (l2 a c, l2 b d) = b4 a b c d.
Proof.
  unfold u8. intros A B C D. unfold pack32u, l2. cbn [fst snd]. rewrite Z.shiftl_mul_pow2 by lia.
  unfold w32. rewrite Z.mod_small by (change (2 ^ 8) with 256; change (2 ^ 16) with 65536; lia).
  replace ((b + 2 ^ 16 * d) * 2 ^ 8) with (0 + 2 ^ 8 * (b + 2 ^ 8 * (0 + 2 ^ 8 * d))) by ring.
  replace (a + 2 ^ 16 * c) with (a + 2 ^ 8 * (0 + 2 ^ 8 * (c + 2 ^ 8 * 0))) by ring.
  rewrite !lor_split by (change (2 ^ 8) with 256; lia). rewrite !Z.lor_0_r, !Z.lor_0_l. reflexivity.
Qed.
Lemma mul_l2 a b m : 0 <= m -> 0 <= a -> 0 <= b -> a * m < 2 ^ 16 -> b * m < 2 ^ 16 -> w32 (l2 a b * m) = l2 (a * m) (b * m).
Proof. intros. unfold w32, l2. rewrite Z.mod_small; [ring|]. change (2 ^ 16) with 65536 in *. nia. Qed.
Lemma add_l2 a b e f : 0 <= a -> 0 <= b -> 0 <= e -> 0 <= f -> a + e < 2 ^ 16 -> b + f < 2 ^ 16 -> w32 (l2 a b + l2 e f) = l2 (a + e) (b + f).
Proof. intros. unfold w32, l2. rewrite Z.mod_small; [ring|]. change (2 ^ 16) with 65536 in *. lia. Qed.

Lemma div255_32_ok a b c d : 0 <= a <= 65025 -> 0 <= b <= 65025 -> 0 <= c <= 65025 -> 0 <= d <= 65025 ->
  div255_32 (l2 a c, l2 b d) = (l2 (lane255 a) (lane255 c), l2 (lane255 b) (lane255 d)).
Proof.
  intros A B C D. unfold div255_32, add32, and32, shr32, rep32. cbn [fst snd].
  change (u16x2 0x80) with (l2 128 128). change (u16x2 0xFF) with (l2 255 255).
  apply div_bound in A, B, C, D.
  rewrite !add_l2 by (change (2 ^ 16) with 65536; lia).
  rewrite !shr2 by (change (2 ^ 16) with 65536; lia). rewrite !hi_ff by lia.
  rewrite !add_l2 by (change (2 ^ 16) with 65536; lia).
  rewrite !shr2 by (change (2 ^ 16) with 65536; lia). rewrite !hi_ff by lia. reflexivity.
Qed.
Lemma addus8_32_ok a b c d e f g h : u8 a -> u8 b -> u8 c -> u8 d -> u8 e -> u8 f -> u8 g -> u8 h ->
  addus8_32 (l2 a c, l2 b d) (l2 e g, l2 f h) = (l2 (Z.min 255 (a + e)) (Z.min 255 (c + g)), l2 (Z.min 255 (b + f)) (Z.min 255 (d + h))).
Proof.
  unfold u8. intros A B C D E F G H. unfold addus8_32, add32, mul32, and32, or32, shr32, rep32. cbn [fst snd].
  change (u16x2 0x1) with (l2 1 1). change (u16x2 0xFF) with (l2 255 255).
  rewrite !add_l2 by (change (2 ^ 16) with 65536; lia). rewrite !shr2 by (change (2 ^ 16) with 65536; lia).
  pose proof (sat_msk (a + e) ltac:(lia)). pose proof (sat_msk (b + f) ltac:(lia)). pose proof (sat_msk (c + g) ltac:(lia)). pose proof (sat_msk (d + h) ltac:(lia)).
  rewrite !mul_l2 by (change (2 ^ 16) with 65536; lia). unfold l2. rewrite !lor_split by (change (2 ^ 16) with 65536; lia).
  pose proof (lor_lane (a + e) ltac:(lia)). pose proof (lor_lane (b + f) ltac:(lia)).
  rewrite !land_split by (change (2 ^ 16) with 65536; lia). rewrite !sat_lane by lia. reflexivity.
Qed.

(* 8-bit alpha *)
Lemma div255_8_ok a : 0 <= a <= 65025 -> div255_8 a = lane255 a.
Proof.
  intros A. unfold div255_8, add8, w16, w32. apply div_bound in A.
  rewrite !(Z.mod_small (a + 128)) by lia. rewrite !Z.shiftr_div_pow2 by lia. change (2 ^ 8) with 256. rewrite (hi_ff (a + 128)) by lia.
  rewrite (Z.mod_small (a + 128 + (a + 128) / 256) 4294967296) by lia. rewrite (Z.mod_small (a + 128 + (a + 128) / 256)) by lia. rewrite hi_ff by lia. reflexivity.
Qed.
Lemma addus8_8_ok a e : u8 a -> u8 e -> addus8_8 a e = Z.min 255 (a + e).
Proof.
  unfold u8. intros A E. unfold addus8_8, add8, mul8, w16, w32. rewrite !(Z.mod_small (a + e)) by lia.
  rewrite Z.shiftr_div_pow2 by lia. change (2 ^ 8) with 256. pose proof (sat_msk (a + e) ltac:(lia)).
  rewrite (Z.mod_small _ 4294967296) by lia. rewrite Z.mod_small by lia. apply sat_lane. lia.
Qed.
