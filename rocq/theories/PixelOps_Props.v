(* Properties C09 (exact rounding, premultiply), C10 (unpremultiply round trip), C11 (16-bit formats). *)
From Verif Require Import Base PixelOps_Model PixelOps_Spec PixelOps_Proofs PixelOps_Proofs2.

(* ---- C09 ---- *)
Theorem C09_udiv255_exact : forall x y, u8 x -> u8 y ->
  udiv255 (x * y) = round_div (x * y) 255 /\ udiv255_alt (x * y) = round_div (x * y) 255.
Proof. intros x y Hx Hy. unfold u8 in *. split; [apply udiv255_ok|apply udiv255_alt_ok]; nia. Qed.
Print Assumptions C09_udiv255_exact.

Theorem C09_udiv65535_exact : forall x y, u16 x -> u16 y -> udiv65535 (x * y) = round_div (x * y) 65535.
Proof. intros x y Hx Hy. unfold u16 in *. apply udiv65535_ok; nia. Qed.
Print Assumptions C09_udiv65535_exact.

Theorem C09_udiv65535_packed_exact : forall x y z w, u16 x -> u16 y -> u16 z -> u16 w ->
  udiv65535_packed (x * y + 2 ^ 32 * (z * w)) = round_div (x * y) 65535 + 2 ^ 32 * round_div (z * w) 65535.
Proof. intros x y z w Hx Hy Hz Hw. unfold u16 in *. apply packed65535_ok; nia. Qed.
Print Assumptions C09_udiv65535_packed_exact.

(* round_div is the nearest integer: |q*d - x| <= d/2, and a half goes up *)
Theorem C09_round_div_nearest : forall x d, 0 < d -> - d <= 2 * (round_div x d * d - x) <= d /\ 2 * (round_div x d * d - x) > - d.
Proof.
  intros x d Hd. unfold round_div. pose proof (Z.div_mod (2 * x + d) (2 * d) ltac:(lia)). pose proof (Z.mod_pos_bound (2 * x + d) (2 * d) ltac:(lia)). nia.
Qed.
Print Assumptions C09_round_div_nearest.

Theorem C09_premultiply32 : forall a r g b, u8 a -> u8 r -> u8 g -> u8 b ->
  cvt_prgb32_from_argb32 (pack32 a r g b) = pack32 a (round_div (r * a) 255) (round_div (g * a) 255) (round_div (b * a) 255).
Proof. exact premul32_ok. Qed.
Print Assumptions C09_premultiply32.

Theorem C09_premultiply64 : forall a r g b, u16 a -> u16 r -> u16 g -> u16 b ->
  cvt_prgb64_from_argb64 (pack64 a r g b) = pack64 a (round_div (r * a) 65535) (round_div (g * a) 65535) (round_div (b * a) 65535)
  /\ cvt_prgb64_from_argb64_a_32bit (pack64 a r g b) a = pack64 a (round_div (r * a) 65535) (round_div (g * a) 65535) (round_div (b * a) 65535).
Proof. intros a r g b Ha Hr Hg Hb. split; [now apply premul64_ok|now apply premul64_a_ok]. Qed.
Print Assumptions C09_premultiply64.

(* premultiplied components never exceed alpha, are monotone in both arguments, 255 is neutral *)
Theorem C09_premultiply_bounds : forall a a' c c', u8 a -> u8 a' -> u8 c -> u8 c' -> a <= a' -> c <= c' ->
  0 <= round_div (c * a) 255 <= a /\ round_div (c * a) 255 <= round_div (c' * a') 255 /\ round_div (c * 255) 255 = c.
Proof.
  unfold u8. intros a a' c c' Ha Ha' Hc Hc' L1 L2. split; [apply round_div_le; lia|]. split; [apply round_div_mono; nia|].
  unfold round_div. lia.
Qed.
Print Assumptions C09_premultiply_bounds.

Example C09_ex : cvt_prgb32_from_argb32 0x80FF4001 = 0x80802001 /\ udiv255 (127 * 3) = 1 /\ udiv255 (128 * 1) = 1 /\
  cvt_prgb64_from_argb64 0x8000FFFF00011234 = 0x800080000001091A.
Proof. vm_compute. auto. Qed.

(* ---- C10 ---- *)
Theorem C10_unpremultiply_roundtrip : forall a r g b, u8 a -> 0 <= r <= a -> 0 <= g <= a -> 0 <= b <= a ->
  exists q, cvt_argb32_from_prgb32 (pack32 a r g b) = Ok q /\ 0 <= q < 2 ^ 32 /\ cvt_prgb32_from_argb32 q = pack32 a r g b.
Proof.
  intros a r g b Ha Hr Hg Hb. destruct (unpremul32_ok a r g b Ha Hr Hg Hb) as (r' & g' & b' & Ur & Ug & Ub & _ & _ & _ & E & _ & E2).
  exists (pack32 a r' g' b'). split; [exact E|]. split; [|exact E2]. unfold pack32, u8 in *. lia.
Qed.
Print Assumptions C10_unpremultiply_roundtrip.

(* the unpremultiplied components are the correctly rounded quotients and alpha is kept *)
Theorem C10_unpremultiply_exact : forall a r g b, u8 a -> a <> 0 -> 0 <= r <= a -> 0 <= g <= a -> 0 <= b <= a ->
  cvt_argb32_from_prgb32 (pack32 a r g b) = Ok (pack32 a (round_div (r * 255) a) (round_div (g * 255) a) (round_div (b * 255) a)) /\
  cvt_abgr32_from_prgb32 (pack32 a r g b) = Ok (pack32 a (round_div (b * 255) a) (round_div (g * 255) a) (round_div (r * 255) a)).
Proof.
  intros a r g b Ha Hnz Hr Hg Hb. destruct (unpremul32_ok a r g b Ha Hr Hg Hb) as (r' & g' & b' & _ & _ & _ & Er & Eg & Eb & E & E2 & _).
  destruct (unpremul_ok a r Ha Hr) as (r2 & Er2 & _ & _ & _ & Qr). destruct (unpremul_ok a g Ha Hg) as (g2 & Eg2 & _ & _ & _ & Qg).
  destruct (unpremul_ok a b Ha Hb) as (b2 & Eb2 & _ & _ & _ & Qb).
  assert (r' = r2 /\ g' = g2 /\ b' = b2) as (-> & -> & ->) by (repeat split; congruence).
  rewrite <- Qr, <- Qg, <- Qb by assumption. auto.
Qed.
Print Assumptions C10_unpremultiply_exact.

Example C10_ex : cvt_argb32_from_prgb32 0x80802001 = Ok 0x80FF4002 /\ cvt_prgb32_from_argb32 0x80FF4002 = 0x80802001.
Proof. vm_compute. auto. Qed.

(* ---- C11 ---- *)
(* each component depends on its own field only and is the bit replication of it *)
Theorem C11_expand : forall x, u16 x ->
  cvt_xrgb32_from_xrgb16_0555 x = pack32 255 (replicate5 (x / 1024 mod 32)) (replicate5 (x / 32 mod 32)) (replicate5 (x mod 32)) /\
  cvt_xrgb32_from_xrgb16_0565 x = pack32 255 (replicate5 (x / 2048 mod 32)) (replicate6 (x / 32 mod 64)) (replicate5 (x mod 32)) /\
  cvt_argb32_from_argb16_4444 x = pack32 (replicate4 (x / 4096 mod 16)) (replicate4 (x / 256 mod 16)) (replicate4 (x / 16 mod 16)) (replicate4 (x mod 16)).
Proof.
  intros x Hx. split; [apply Z.eqb_eq, all_555; exact Hx|]. split; [apply Z.eqb_eq, all_565; exact Hx|apply Z.eqb_eq, all_4444; exact Hx].
Qed.
Print Assumptions C11_expand.

(* replication is strictly monotone, onto the end points, and the upper bits give the field back *)
Theorem C11_replicate : forall c d,
  (0 <= c < d -> d < 32 -> replicate5 c < replicate5 d) /\ (0 <= c < d -> d < 64 -> replicate6 c < replicate6 d) /\
  (0 <= c < d -> d < 16 -> replicate4 c < replicate4 d) /\
  (0 <= c < 32 -> replicate5 c / 8 = c /\ u8 (replicate5 c)) /\ (0 <= c < 64 -> replicate6 c / 4 = c /\ u8 (replicate6 c)) /\
  (0 <= c < 16 -> replicate4 c / 16 = c /\ u8 (replicate4 c)) /\
  replicate5 0 = 0 /\ replicate6 0 = 0 /\ replicate4 0 = 0 /\ replicate5 31 = 255 /\ replicate6 63 = 255 /\ replicate4 15 = 255.
Proof. intros c d. unfold replicate5, replicate6, replicate4, u8. repeat split; lia. Qed.
Print Assumptions C11_replicate.

Example C11_ex : cvt_xrgb32_from_xrgb16_0565 0xF81F = 0xFFFF00FF /\ cvt_xrgb32_from_xrgb16_0555 0x03E0 = 0xFF00FF00
  /\ cvt_argb32_from_argb16_4444 0x7A3F = 0x77AA33FF.
Proof. vm_compute. auto. Qed.
