From Verif Require Import Base Bits PixelOps_Model PixelOps_Spec.

Lemma w32_small x : 0 <= x < 2 ^ 32 -> w32 x = x.
Proof. intros. apply Z.mod_small. lia. Qed.
Lemma w64_small x : 0 <= x < 2 ^ 64 -> w64 x = x.
Proof. intros. apply Z.mod_small. lia. Qed.

Lemma udiv255_ok x : 0 <= x <= 65025 -> udiv255 x = round_div x 255.
Proof.
  intros Hx. unfold udiv255, round_div. rewrite (w32_small (x + 0x80)) by lia. rewrite w32_small by lia.
  rewrite Z.shiftr_div_pow2 by lia. change (2 ^ 16) with 65536. lia.
Qed.
Lemma udiv255_alt_ok x : 0 <= x <= 65025 -> udiv255_alt x = round_div x 255.
Proof.
  intros Hx. unfold udiv255_alt, round_div. rewrite (w32_small (x + 128)) by lia.
  rewrite !Z.shiftr_div_pow2 by lia. change (2 ^ 8) with 256. rewrite w32_small by lia. lia.
Qed.
Lemma udiv65535_ok x : 0 <= x <= 4294836225 -> udiv65535 x = round_div x 65535.
Proof.
  intros Hx. unfold udiv65535, round_div. rewrite (w32_small (x + 0x8000)) by lia.
  rewrite !Z.shiftr_div_pow2 by lia. change (2 ^ 16) with 65536. rewrite w32_small by lia. lia.
Qed.

(* ---- masks ---- *)
Lemma land_lanes8 x y : 0 <= x < 2 ^ 16 -> 0 <= y -> Z.land (x + 2 ^ 16 * y) 0x00FF00FF = x mod 256 + 2 ^ 16 * (y mod 256).
Proof.
  intros Hx Hy. change 0x00FF00FF with (255 + 2 ^ 16 * 255). rewrite land_split by lia.
  change 255 with (2 ^ 8 - 1). rewrite !land_mask by lia. reflexivity.
Qed.
Lemma land_hi8 x : 0 <= x < 2 ^ 16 -> Z.land x 0xFF00 = x / 256 * 256.
Proof.
  intros Hx. replace x with (x mod 2 ^ 8 + 2 ^ 8 * (x / 2 ^ 8)) at 1 by (change (2 ^ 8) with 256; lia).
  change 0xFF00 with (0 + 2 ^ 8 * 255). rewrite land_split by (change (2 ^ 8) with 256; lia). rewrite Z.land_0_r.
  change 255 with (2 ^ 8 - 1). rewrite land_mask by lia. change (2 ^ 8) with 256. rewrite Z.mod_small by lia. lia.
Qed.
Lemma land_lanes_hi x y : 0 <= x < 2 ^ 16 -> 0 <= y < 2 ^ 16 ->
  Z.land (x + 2 ^ 16 * y) 0xFF00FF00 = x / 256 * 256 + 2 ^ 16 * (y / 256 * 256).
Proof.
  intros Hx Hy. change 0xFF00FF00 with (0xFF00 + 2 ^ 16 * 0xFF00). rewrite land_split by lia. rewrite !land_hi8 by lia. reflexivity.
Qed.

(* one 16-bit lane of the packed division by 255 *)
Definition lane255 (p : Z) : Z := (p + 128 + (p + 128) / 256) / 256.
Lemma lane255_ok p : 0 <= p <= 65025 -> lane255 p = round_div p 255.
Proof. intros. unfold lane255, round_div. lia. Qed.
Lemma lane255_range p : 0 <= p <= 65025 -> 0 <= lane255 p <= 255.
Proof. intros. unfold lane255. lia. Qed.

Lemma two_lanes u v a : u8 u -> u8 v -> u8 a ->
  (let x := w32 (w32 ((u + 2 ^ 16 * v) * a) + 0x00800080) in
   Z.land (w32 (x + Z.land (Z.shiftr x 8) 0x00FF00FF)) 0xFF00FF00) = lane255 (u * a) * 2 ^ 8 + 2 ^ 24 * lane255 (v * a).
Proof.
  unfold u8. intros Hu Hv Ha. cbn zeta.
  assert (P1 : 0 <= u * a <= 65025) by nia. assert (P2 : 0 <= v * a <= 65025) by nia.
  set (p := u * a) in *. set (q := v * a) in *.
  replace ((u + 2 ^ 16 * v) * a) with (p + 2 ^ 16 * q) by (unfold p, q; ring).
  rewrite (w32_small (p + 2 ^ 16 * q)) by lia.
  replace (p + 2 ^ 16 * q + 0x800080) with ((p + 128) + 2 ^ 16 * (q + 128)) by lia.
  rewrite (w32_small ((p + 128) + 2 ^ 16 * (q + 128))) by lia.
  set (p1 := p + 128) in *. set (q1 := q + 128) in *. assert (Hp1 : 128 <= p1 <= 65153) by lia. assert (Hq1 : 128 <= q1 <= 65153) by lia.
  rewrite Z.shiftr_div_pow2 by lia.
  replace ((p1 + 2 ^ 16 * q1) / 2 ^ 8) with ((p1 / 256 + 256 * (q1 mod 256)) + 2 ^ 16 * (q1 / 256))
    by (change (2 ^ 8) with 256; change (2 ^ 16) with 65536; lia).
  rewrite land_lanes8 by (change (2 ^ 16) with 65536; lia).
  replace ((p1 / 256 + 256 * (q1 mod 256)) mod 256) with (p1 / 256) by lia.
  replace (q1 / 256 mod 256) with (q1 / 256) by lia.
  replace (p1 + 2 ^ 16 * q1 + (p1 / 256 + 2 ^ 16 * (q1 / 256))) with ((p1 + p1 / 256) + 2 ^ 16 * (q1 + q1 / 256)) by lia.
  rewrite w32_small by lia. rewrite land_lanes_hi by (change (2 ^ 16) with 65536; lia).
  unfold lane255. fold p1 q1. change (2 ^ 8) with 256. change (2 ^ 16) with 65536. change (2 ^ 24) with (65536 * 256). lia.
Qed.

Lemma round_div_alpha a : u8 a -> round_div (255 * a) 255 = a.
Proof. unfold u8, round_div. lia. Qed.

Lemma premul32_a_ok a0 a r g b : u8 a0 -> u8 a -> u8 r -> u8 g -> u8 b ->
  cvt_prgb32_from_argb32_a (pack32 a0 r g b) a =
  pack32 a (round_div (r * a) 255) (round_div (g * a) 255) (round_div (b * a) 255).
Proof.
  unfold u8. intros H0 Ha Hr Hg Hb. unfold cvt_prgb32_from_argb32_a.
  assert (E : Z.lor (pack32 a0 r g b) 0xFF000000 = pack32 255 r g b).
  { unfold pack32. change 0xFF000000 with (0 + 2 ^ 24 * 255).
    replace (a0 * 2 ^ 24 + r * 2 ^ 16 + g * 2 ^ 8 + b) with ((r * 2 ^ 16 + g * 2 ^ 8 + b) + 2 ^ 24 * a0) by ring.
    rewrite (bitop_split Z.lor orb) by (try reflexivity; try (intros; apply Z.lor_spec); try (intros; apply Z.lor_nonneg; lia); lia).
    rewrite Z.lor_0_r. replace (Z.lor a0 255) with 255; [lia|].
    apply Z.bits_inj'. intros n Hn. rewrite Z.lor_spec. change 255 with (Z.ones 8). rewrite Z.testbit_ones_nonneg by lia.
    destruct (Z.ltb_spec n 8); [now rewrite orb_true_r|]. rewrite (testbit_small a0 8) by lia. reflexivity. }
  rewrite E. clear E.
  replace (Z.land (pack32 255 r g b) 0x00FF00FF) with (b + 2 ^ 16 * r).
  2: { unfold pack32. replace (255 * 2 ^ 24 + r * 2 ^ 16 + g * 2 ^ 8 + b) with ((b + 256 * g) + 2 ^ 16 * (r + 256 * 255)) by ring.
       rewrite land_lanes8 by lia. change (2 ^ 16) with 65536. lia. }
  replace (Z.land (Z.shiftr (pack32 255 r g b) 8) 0x00FF00FF) with (g + 2 ^ 16 * 255).
  2: { rewrite Z.shiftr_div_pow2 by lia. unfold pack32.
       replace ((255 * 2 ^ 24 + r * 2 ^ 16 + g * 2 ^ 8 + b) / 2 ^ 8) with ((g + 256 * r) + 2 ^ 16 * 255)
         by (change (2 ^ 24) with 16777216; change (2 ^ 16) with 65536; change (2 ^ 8) with 256; lia).
       rewrite land_lanes8 by lia. change (2 ^ 16) with 65536. lia. }
  pose proof (two_lanes b r a Hb Hr Ha) as T1. cbn zeta in T1. rewrite T1.
  pose proof (two_lanes g 255 a Hg ltac:(unfold u8; lia) Ha) as T2. cbn zeta in T2. rewrite T2.
  assert (0 <= b * a <= 65025 /\ 0 <= r * a <= 65025 /\ 0 <= g * a <= 65025) as (P1 & P2 & P3) by nia.
  pose proof (lane255_range _ P1). pose proof (lane255_range _ P2). pose proof (lane255_range _ P3).
  rewrite !lane255_ok in * by lia. rewrite (round_div_alpha a) by (unfold u8; lia).
  rewrite Z.shiftr_div_pow2 by lia.
  set (B := round_div (b * a) 255) in *. set (R := round_div (r * a) 255) in *. set (G := round_div (g * a) 255) in *.
  replace ((B * 2 ^ 8 + 2 ^ 24 * R) / 2 ^ 8) with (B + 2 ^ 8 * (0 + 2 ^ 8 * R)) by (change (2 ^ 24) with 16777216; change (2 ^ 8) with 256; lia).
  replace (G * 2 ^ 8 + 2 ^ 24 * a) with (0 + 2 ^ 8 * (G + 2 ^ 8 * (2 ^ 8 * a))) by (change (2 ^ 24) with 16777216; change (2 ^ 8) with 256; lia).
  assert (LS : forall x y z w k, 0 <= k -> 0 <= x < 2 ^ k -> 0 <= z < 2 ^ k -> Z.lor (x + 2 ^ k * y) (z + 2 ^ k * w) = Z.lor x z + 2 ^ k * Z.lor y w).
  { intros. apply (bitop_split Z.lor orb); try reflexivity; try (intros; apply Z.lor_spec); try (intros; apply Z.lor_nonneg; lia); lia. }
  rewrite !LS by (change (2 ^ 8) with 256; lia).
  rewrite Z.lor_0_l, Z.lor_0_r.
  replace (Z.lor (2 ^ 8 * a) R) with (a * 2 ^ 8 + R) by (rewrite (Z.mul_comm (2 ^ 8)), lor_mul_add by (change (2 ^ 8) with 256; lia); reflexivity).
  unfold pack32. change (2 ^ 24) with 16777216. change (2 ^ 16) with 65536. change (2 ^ 8) with 256. lia.
Qed.

Lemma premul32_ok a r g b : u8 a -> u8 r -> u8 g -> u8 b ->
  cvt_prgb32_from_argb32 (pack32 a r g b) = pack32 a (round_div (r * a) 255) (round_div (g * a) 255) (round_div (b * a) 255).
Proof.
  intros Ha Hr Hg Hb. unfold cvt_prgb32_from_argb32. replace (Z.shiftr (pack32 a r g b) 24) with a; [now apply premul32_a_ok|].
  unfold pack32, u8 in *. rewrite Z.shiftr_div_pow2 by lia. change (2 ^ 24) with 16777216. change (2 ^ 16) with 65536. change (2 ^ 8) with 256. lia.
Qed.

Lemma round_div_le c a d : 0 < d -> 0 <= c <= d -> 0 <= a -> 0 <= round_div (c * a) d <= a.
Proof.
  intros Hd Hc Ha. unfold round_div. split; [apply Z.div_pos; nia|].
  apply Z.lt_succ_r. apply Z.div_lt_upper_bound; nia.
Qed.
Lemma round_div_mono x y d : 0 < d -> x <= y -> round_div x d <= round_div y d.
Proof. intros. unfold round_div. apply Z.div_le_mono; lia. Qed.

(* ---- 64-bit pixels ---- *)
Lemma lane65535 p : 0 <= p <= 4294836225 -> (p + 32768 + (p + 32768) / 65536) / 65536 = round_div p 65535.
Proof. intros. unfold round_div. lia. Qed.
Lemma packed65535_ok p q : 0 <= p <= 4294836225 -> 0 <= q <= 4294836225 ->
  udiv65535_packed (p + 2 ^ 32 * q) = round_div p 65535 + 2 ^ 32 * round_div q 65535.
Proof.
  intros Hp Hq. unfold udiv65535_packed.
  replace (p + 2 ^ 32 * q + 0x0000800000008000) with ((p + 32768) + 2 ^ 32 * (q + 32768)) by lia.
  rewrite (w64_small ((p + 32768) + 2 ^ 32 * (q + 32768))) by lia.
  set (p1 := p + 32768) in *. set (q1 := q + 32768) in *.
  assert (M : forall x y, 0 <= x < 2 ^ 32 -> 0 <= y -> Z.land (x + 2 ^ 32 * y) 0x0000FFFF0000FFFF = x mod 65536 + 2 ^ 32 * (y mod 65536)).
  { intros x y Hx Hy. change 0x0000FFFF0000FFFF with (65535 + 2 ^ 32 * 65535). rewrite land_split by lia.
    change 65535 with (2 ^ 16 - 1). rewrite !land_mask by lia. reflexivity. }
  cbn zeta. rewrite !Z.shiftr_div_pow2 by lia.
  replace ((p1 + 2 ^ 32 * q1) / 2 ^ 16) with ((p1 / 65536 + 65536 * (q1 mod 65536)) + 2 ^ 32 * (q1 / 65536))
    by (change (2 ^ 32) with 4294967296; change (2 ^ 16) with 65536; lia).
  rewrite M by (change (2 ^ 32) with 4294967296; lia).
  replace ((p1 / 65536 + 65536 * (q1 mod 65536)) mod 65536) with (p1 / 65536) by lia.
  replace (q1 / 65536 mod 65536) with (q1 / 65536) by lia.
  replace (p1 + 2 ^ 32 * q1 + (p1 / 65536 + 2 ^ 32 * (q1 / 65536))) with ((p1 + p1 / 65536) + 2 ^ 32 * (q1 + q1 / 65536)) by lia.
  rewrite w64_small by lia.
  set (p2 := p1 + p1 / 65536) in *. set (q2 := q1 + q1 / 65536) in *.
  assert (0 <= p2 < 2 ^ 32 /\ 0 <= q2 < 2 ^ 32) as [Hp2 Hq2] by (change (2 ^ 32) with 4294967296; lia).
  replace ((p2 + 2 ^ 32 * q2) / 2 ^ 16) with ((p2 / 65536 + 65536 * (q2 mod 65536)) + 2 ^ 32 * (q2 / 65536))
    by (change (2 ^ 32) with 4294967296 in *; change (2 ^ 16) with 65536; lia).
  rewrite M by (change (2 ^ 32) with 4294967296 in *; lia).
  replace ((p2 / 65536 + 65536 * (q2 mod 65536)) mod 65536) with (p2 / 65536) by (change (2 ^ 32) with 4294967296 in *; lia).
  replace (q2 / 65536 mod 65536) with (q2 / 65536) by (change (2 ^ 32) with 4294967296 in *; lia).
  unfold p2, q2, p1, q1. rewrite !lane65535 by lia. reflexivity.
Qed.

Lemma round_div_u16 p : 0 <= p <= 4294836225 -> u16 (round_div p 65535).
Proof. intros. unfold u16, round_div. lia. Qed.

Lemma lor_disj_add x y k : 0 <= k -> 0 <= y < 2 ^ k -> (2 ^ k | x) -> Z.lor x y = x + y.
Proof. intros Hk Hy [z ->]. apply lor_mul_add; assumption. Qed.

Lemma mul_u16 x y : u16 x -> u16 y -> 0 <= x * y <= 4294836225.
Proof. unfold u16. nia. Qed.

Lemma premul64_a_ok a0 a r g b : u16 a0 -> u16 a -> u16 r -> u16 g -> u16 b ->
  cvt_prgb64_from_argb64_a (pack64 a0 r g b) a = pack64 a (round_div (r * a) 65535) (round_div (g * a) 65535) (round_div (b * a) 65535) /\
  cvt_prgb64_from_argb64_a_32bit (pack64 a0 r g b) a = pack64 a (round_div (r * a) 65535) (round_div (g * a) 65535) (round_div (b * a) 65535).
Proof.
  intros H0 Ha Hr Hg Hb.
  pose proof (mul_u16 r a Hr Ha) as Pr. pose proof (mul_u16 g a Hg Ha) as Pg. pose proof (mul_u16 b a Hb Ha) as Pb.
  pose proof (round_div_u16 _ Pr) as Qr. pose proof (round_div_u16 _ Pg) as Qg. pose proof (round_div_u16 _ Pb) as Qb.
  unfold u16 in *.
  assert (M : forall x y, 0 <= x < 2 ^ 32 -> 0 <= y -> Z.land (x + 2 ^ 32 * y) 0x0000FFFF0000FFFF = x mod 65536 + 2 ^ 32 * (y mod 65536)).
  { intros x y Hx Hy. change 0x0000FFFF0000FFFF with (65535 + 2 ^ 32 * 65535). rewrite land_split by lia.
    change 65535 with (2 ^ 16 - 1). rewrite !land_mask by lia. reflexivity. }
  assert (ER : Z.land (Z.shiftr (pack64 a0 r g b) 32) 0xFFFF = r).
  { change 0xFFFF with (2 ^ 16 - 1). rewrite land_mask, Z.shiftr_div_pow2 by lia. unfold pack64.
    change (2 ^ 48) with 281474976710656. change (2 ^ 32) with 4294967296. change (2 ^ 16) with 65536. lia. }
  assert (EG : Z.land (Z.shiftr (pack64 a0 r g b) 16) 0xFFFF = g).
  { change 0xFFFF with (2 ^ 16 - 1). rewrite land_mask, Z.shiftr_div_pow2 by lia. unfold pack64.
    change (2 ^ 48) with 281474976710656. change (2 ^ 32) with 4294967296. change (2 ^ 16) with 65536. lia. }
  assert (EB : Z.land (pack64 a0 r g b) 0xFFFF = b).
  { change 0xFFFF with (2 ^ 16 - 1). rewrite land_mask by lia. unfold pack64.
    change (2 ^ 48) with 281474976710656. change (2 ^ 32) with 4294967296. change (2 ^ 16) with 65536. lia. }
  assert (ERB : Z.land (pack64 a0 r g b) 0x0000FFFF0000FFFF = b + 2 ^ 32 * r).
  { unfold pack64. replace (a0 * 2 ^ 48 + r * 2 ^ 32 + g * 2 ^ 16 + b) with ((b + 65536 * g) + 2 ^ 32 * (r + 65536 * a0)) by ring.
    rewrite M by lia. replace ((b + 65536 * g) mod 65536) with b by lia. replace ((r + 65536 * a0) mod 65536) with r by lia. reflexivity. }
  unfold cvt_prgb64_from_argb64_a, cvt_prgb64_from_argb64_a_32bit. rewrite ER, EG, EB, ERB.
  replace ((b + 2 ^ 32 * r) * a) with (b * a + 2 ^ 32 * (r * a)) by ring.
  set (pr := r * a) in *. set (pg := g * a) in *. set (pb := b * a) in *. clearbody pr pg pb.
  rewrite (w64_small (pb + 2 ^ 32 * pr)) by lia. rewrite (w32_small pr), (w32_small pg), (w32_small pb) by lia.
  rewrite packed65535_ok, !udiv65535_ok by lia.
  set (R := round_div pr 65535) in *. set (G := round_div pg 65535) in *. set (B := round_div pb 65535) in *. clearbody R G B.
  rewrite !Z.shiftl_mul_pow2 by lia. rewrite (w64_small (a * 2 ^ 48)) by lia. rewrite (w64_small (R * 2 ^ 32)) by lia.
  rewrite (w32_small (G * 2 ^ 16)) by lia.
  split.
  - rewrite (lor_disj_add (a * 2 ^ 48) _ 48); [|lia|lia|exists a; reflexivity].
    replace (a * 2 ^ 48 + (B + 2 ^ 32 * R)) with (B + 2 ^ 16 * (0 + 2 ^ 16 * (R + 2 ^ 16 * a))) by ring.
    replace (G * 2 ^ 16) with (0 + 2 ^ 16 * (G + 2 ^ 16 * 0)) by ring.
    assert (LS : forall x y z w k, 0 <= k -> 0 <= x < 2 ^ k -> 0 <= z < 2 ^ k -> Z.lor (x + 2 ^ k * y) (z + 2 ^ k * w) = Z.lor x z + 2 ^ k * Z.lor y w).
    { intros. apply (bitop_split Z.lor orb); try reflexivity; try (intros; apply Z.lor_spec); try (intros; apply Z.lor_nonneg; lia); lia. }
    rewrite !LS by lia. rewrite Z.lor_0_l, !Z.lor_0_r. unfold pack64. ring.
  - rewrite (lor_disj_add (a * 2 ^ 48) _ 48); [|lia|lia|exists a; reflexivity].
    rewrite (lor_disj_add (a * 2 ^ 48 + R * 2 ^ 32) _ 32); [|lia|lia|exists (a * 2 ^ 16 + R); ring].
    rewrite (lor_disj_add _ _ 16); [|lia|lia|exists (a * 2 ^ 32 + R * 2 ^ 16 + G); ring]. unfold pack64. ring.
Qed.

Lemma premul64_ok a r g b : u16 a -> u16 r -> u16 g -> u16 b ->
  cvt_prgb64_from_argb64 (pack64 a r g b) = pack64 a (round_div (r * a) 65535) (round_div (g * a) 65535) (round_div (b * a) 65535).
Proof.
  intros Ha Hr Hg Hb. unfold cvt_prgb64_from_argb64. replace (Z.shiftr (pack64 a r g b) 48) with a; [now apply premul64_a_ok|].
  unfold pack64, u16 in *. rewrite Z.shiftr_div_pow2 by lia. change (2 ^ 48) with 281474976710656. change (2 ^ 32) with 4294967296. change (2 ^ 16) with 65536. lia.
Qed.
