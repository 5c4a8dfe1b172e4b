(* Proofs: word-level pixel arithmetic of the QOI codec. *)
From Verif Require Import Base Bits Algorithm_Model Algorithm_Spec Algorithm_Proofs PixelOps_Model PixelOps_Spec PixelOps_Proofs PixelOps_Proofs2 Qoi_Model Qoi_Spec.

Definition lanes4 (a g r b : Z) : Z := b + 2 ^ 16 * (r + 2 ^ 16 * (g + 2 ^ 16 * a)).
Definition lanes (p : px) : Z := lanes4 (pa p) (pg p) (pr p) (pb p).

Lemma land_ff x : Z.land x 0xFF = x mod 256.
Proof. exact (land_mask x 8 ltac:(lia)). Qed.

Lemma land_lanes a g r b : 0 <= a < 65536 -> 0 <= g < 65536 -> 0 <= r < 65536 -> 0 <= b < 65536 ->
  Z.land (lanes4 a g r b) mask64 = lanes4 (a mod 256) (g mod 256) (r mod 256) (b mod 256).
Proof.
  intros Ha Hg Hr Hb. change mask64 with (255 + 2 ^ 16 * (255 + 2 ^ 16 * (255 + 2 ^ 16 * 255))). unfold lanes4.
  rewrite land_split by (change (2 ^ 16) with 65536; lia). rewrite land_split by (change (2 ^ 16) with 65536; lia).
  rewrite land_split by (change (2 ^ 16) with 65536; lia). rewrite !land_ff. reflexivity.
Qed.

Lemma up_hash_range u : 0 <= up_hash u < 64.
Proof. unfold up_hash, hashPixelAGxRBx64, w64. rewrite Z.shiftr_div_pow2 by lia. change (2 ^ 58) with 288230376151711744. lia. Qed.

Lemma hash64_num a g r b : 0 <= a < 256 -> 0 <= g < 256 -> 0 <= r < 256 -> 0 <= b < 256 ->
  hashPixelAGxRBx64 (lanes4 a g r b) = (r * 3 + g * 5 + b * 7 + a * 11) mod 64.
Proof.
  intros Ha Hg Hr Hb. unfold hashPixelAGxRBx64, w64, lanes4. rewrite Z.shiftr_div_pow2 by lia.
  set (T := r * 3 + g * 5 + b * 7 + a * 11).
  set (L := b * 11 * 2 ^ 10 + (b * 5 + r * 11) * 2 ^ 26 + (b * 3 + r * 5 + g * 11) * 2 ^ 42).
  set (K := r * 7 * 2 ^ 10 + g * 3 * 2 ^ 10 + g * 7 * 2 ^ 26 + a * 5 * 2 ^ 10 + a * 3 * 2 ^ 26 + a * 7 * 2 ^ 42).
  replace ((b + 2 ^ 16 * (r + 2 ^ 16 * (g + 2 ^ 16 * a))) * (11 * 2 ^ 10 + 5 * 2 ^ 26 + 3 * 2 ^ 42 + 7 * 2 ^ 58))
    with (L + T * 2 ^ 58 + K * 18446744073709551616).
  2:{ unfold L, K, T. ring. }
  assert (HL : 0 <= L < 2 ^ 58) by (unfold L; change (2 ^ 10) with 1024; change (2 ^ 26) with 67108864; change (2 ^ 42) with 4398046511104; change (2 ^ 58) with 288230376151711744; lia).
  clearbody L K T. rewrite Z.mod_add by lia. change (2 ^ 58) with 288230376151711744 in *.
  assert (E : (L + T * 288230376151711744) mod 18446744073709551616 = L + (T mod 64) * 288230376151711744) by lia.
  rewrite E. lia.
Qed.

Lemma up_hash_ok p : px_ok p -> up_hash (lanes p) = px_hash p.
Proof. intros (Hr & Hg & Hb & Ha). unfold up_hash, lanes, px_hash. apply hash64_num; assumption. Qed.

Lemma px_hash_range p : 0 <= px_hash p < 64.
Proof. unfold px_hash. lia. Qed.

Definition argb (p : px) : Z := pack32 (pa p) (pr p) (pg p) (pb p).

Lemma lor_num a g r b c d : 0 <= a < 65536 -> 0 <= g < 65536 -> 0 <= c < 65536 -> 0 <= d < 65536 -> r = 0 -> b = 0 ->
  Z.lor (lanes4 a g r b) (lanes4 0 0 c d) = lanes4 a g c d.
Proof.
  intros Ha Hg Hc Hd -> ->. replace (lanes4 a g 0 0) with ((g + 2 ^ 16 * a) * 2 ^ 32) by (unfold lanes4; ring).
  rewrite lor_mul_add; [unfold lanes4; ring|lia|]. unfold lanes4. change (2 ^ 16) with 65536. change (2 ^ 32) with 4294967296. lia.
Qed.

Lemma unpack_num a r g b : is_byte a -> is_byte r -> is_byte g -> is_byte b ->
  Z.land (Z.lor (w64 (Z.shiftl (pack32 a r g b) 24)) (pack32 a r g b)) mask64 = lanes4 a g r b.
Proof.
  unfold is_byte. intros Ha Hr Hg Hb.
  assert (Hp : 0 <= pack32 a r g b < 2 ^ 32) by (unfold pack32; change (2 ^ 24) with 16777216; change (2 ^ 16) with 65536; change (2 ^ 8) with 256; change (2 ^ 32) with 4294967296; lia).
  assert (L : forall x, 0 <= x < 2 ^ 32 -> w64 (Z.shiftl x 24) = x * 2 ^ 24).
  { intros x Hx. rewrite Z.shiftl_mul_pow2 by lia. apply w64_small. change (2 ^ 24) with 16777216. change (2 ^ 32) with 4294967296 in Hx. change (2 ^ 64) with 18446744073709551616. lia. }
  rewrite L by exact Hp. rewrite Z.land_lor_distr_l.
  replace (pack32 a r g b * 2 ^ 24) with (lanes4 a (r * 256 + g) (b * 256) 0) by (unfold pack32, lanes4; ring).
  replace (pack32 a r g b) with (lanes4 0 0 (a * 256 + r) (g * 256 + b)) by (unfold pack32, lanes4; ring).
  rewrite !land_lanes by lia.
  replace ((a * 256 + r) mod 256) with r by lia. replace ((g * 256 + b) mod 256) with b by lia.
  replace ((r * 256 + g) mod 256) with g by lia. replace (b * 256 mod 256) with 0 by lia. change (0 mod 256) with 0.
  replace (a mod 256) with a by lia. apply lor_num; lia.
Qed.


Lemma up_unpack_ok p : px_ok p -> up_unpack (argb p) = lanes p.
Proof. intros (Hr & Hg & Hb & Ha). unfold up_unpack, argb, lanes. now apply unpack_num. Qed.

Lemma hash32_ok p : px_ok p -> hashPixelRGBA32 (argb p) = px_hash p.
Proof.
  intros H. rewrite <- up_hash_ok by exact H. unfold hashPixelRGBA32, up_hash. f_equal. now apply up_unpack_ok.
Qed.

Lemma land_agrb a r g b : is_byte a -> is_byte r -> is_byte g -> is_byte b ->
  Z.land (pack32 a r g b) 0xFF00FF00 = a * 2 ^ 24 + g * 2 ^ 8 /\ Z.land (pack32 a r g b) 0x00FF00FF = r * 2 ^ 16 + b.
Proof.
  unfold is_byte. intros Ha Hr Hg Hb.
  replace (pack32 a r g b) with (b + 2 ^ 8 * (g + 2 ^ 8 * (r + 2 ^ 8 * a))) by (unfold pack32; ring).
  change 0xFF00FF00 with (0 + 2 ^ 8 * (255 + 2 ^ 8 * (0 + 2 ^ 8 * 255))). change 0x00FF00FF with (255 + 2 ^ 8 * (0 + 2 ^ 8 * (255 + 2 ^ 8 * 0))).
  rewrite !land_split by (change (2 ^ 8) with 256; lia). rewrite !land_ff, !Z.land_0_r.
  rewrite !Z.mod_small by lia. split; ring.
Qed.

(* the 32-bit arithmetic variant computes the same index *)
Lemma hash32_32bit_ok p : px_ok p -> hashPixelRGBA32_32bit (argb p) = px_hash p.
Proof.
  intros (Hr & Hg & Hb & Ha). unfold hashPixelRGBA32_32bit, argb, px_hash. destruct p as [r g b a]; cbn [pr pg pb pa] in *.
  destruct (land_agrb a r g b) as [-> ->]; auto. unfold is_byte in *. unfold hashPixelAGxRBx32, w32. rewrite Z.shiftr_div_pow2 by lia.
  change (2 ^ 24) with 16777216. change (2 ^ 8) with 256. change (2 ^ 16) with 65536. change (2 ^ 2) with 4. change (2 ^ 18) with 262144.
  change (2 ^ 10) with 1024. change (2 ^ 26) with 67108864.
  replace ((a * 16777216 + g * 256) * (11 * 4 + 5 * 262144)) with (g * 11 * 1024 + (a * 11 + g * 5) * 67108864 + a * 5 * 1024 * 4294967296) by ring.
  replace ((r * 65536 + b) * (3 * 1024 + 7 * 67108864)) with (b * 3 * 1024 + (r * 3 + b * 7) * 67108864 + r * 7 * 1024 * 4294967296) by ring.
  rewrite !Z.mod_add by lia. rewrite <- Z.add_mod by lia.
  set (T := r * 3 + g * 5 + b * 7 + a * 11).
  replace (g * 11 * 1024 + (a * 11 + g * 5) * 67108864 + (b * 3 * 1024 + (r * 3 + b * 7) * 67108864)) with ((g * 11 + b * 3) * 1024 + T * 67108864) by (unfold T; ring).
  clearbody T. lia.
Qed.

Lemma hashA8_ok a : is_byte a -> hashPixelA8 a = px_hash (Px 255 255 255 a).
Proof.
  unfold is_byte. intros Ha. unfold hashPixelA8, px_hash. cbn [pr pg pb pa]. rewrite w32_small by (change (2 ^ 32) with 4294967296; lia).
  change 0x3F with (2 ^ 6 - 1). rewrite land_mask by lia. change (2 ^ 6) with 64. f_equal; try ring.
Qed.

Lemma pack_lanes a g r b : is_byte a -> is_byte r -> is_byte g -> is_byte b ->
  Z.lor (w32 (Z.shiftr (lanes4 a g r b) 24)) (w32 (Z.land (lanes4 a g r b) 0xFFFFFFFF)) = pack32 a r g b.
Proof.
  unfold is_byte. intros Ha Hr Hg Hb.
  change 0xFFFFFFFF with (2 ^ 32 - 1). rewrite land_mask by lia. rewrite Z.shiftr_div_pow2 by lia.
  replace (lanes4 a g r b) with ((b + 2 ^ 16 * r) + (g + 2 ^ 16 * a) * 2 ^ 32) by (unfold lanes4; ring).
  rewrite Z.mod_add by (change (2 ^ 32) with 4294967296; lia).
  assert (HB : 0 <= b + 2 ^ 16 * r < 2 ^ 24) by (change (2 ^ 24) with 16777216; change (2 ^ 16) with 65536; lia).
  replace ((g + 2 ^ 16 * a) * 2 ^ 32) with (((g + 2 ^ 16 * a) * 2 ^ 8) * 2 ^ 24) by ring.
  rewrite Z.div_add by (change (2 ^ 24) with 16777216; lia). rewrite (Z.div_small (b + 2 ^ 16 * r)) by exact HB.
  rewrite (Z.mod_small (b + 2 ^ 16 * r)) by (change (2 ^ 32) with 4294967296; change (2 ^ 24) with 16777216 in HB; lia).
  rewrite !w32_small by (change (2 ^ 32) with 4294967296; change (2 ^ 24) with 16777216 in HB; change (2 ^ 16) with 65536; change (2 ^ 8) with 256; lia).
  unfold pack32. replace (0 + (g + 2 ^ 16 * a) * 2 ^ 8) with (0 + 2 ^ 8 * (g + 2 ^ 8 * (0 + 2 ^ 8 * a))) by ring.
  replace (b + 2 ^ 16 * r) with (b + 2 ^ 8 * (0 + 2 ^ 8 * (r + 2 ^ 8 * 0))) by ring.
  rewrite (bitop_split Z.lor orb Z.lor_spec eq_refl (fun x y Hx Hy => proj2 (Z.lor_nonneg x y) (conj Hx Hy))) by (change (2 ^ 8) with 256; lia).
  rewrite (bitop_split Z.lor orb Z.lor_spec eq_refl (fun x y Hx Hy => proj2 (Z.lor_nonneg x y) (conj Hx Hy))) by (change (2 ^ 8) with 256; lia).
  rewrite (bitop_split Z.lor orb Z.lor_spec eq_refl (fun x y Hx Hy => proj2 (Z.lor_nonneg x y) (conj Hx Hy))) by (change (2 ^ 8) with 256; lia).
  rewrite !Z.lor_0_l, !Z.lor_0_r. ring.
Qed.

Lemma lor_opaque a r g b : is_byte a -> is_byte r -> is_byte g -> is_byte b -> Z.lor (pack32 a r g b) 0xFF000000 = pack32 255 r g b.
Proof.
  unfold is_byte. intros Ha Hr Hg Hb. replace (pack32 a r g b) with ((b + 2 ^ 8 * g + 2 ^ 16 * r) + 2 ^ 24 * a) by (unfold pack32; ring).
  change 0xFF000000 with (0 + 2 ^ 24 * 255).
  rewrite (bitop_split Z.lor orb Z.lor_spec eq_refl (fun x y Hx Hy => proj2 (Z.lor_nonneg x y) (conj Hx Hy)))
    by (change (2 ^ 24) with 16777216; change (2 ^ 16) with 65536; change (2 ^ 8) with 256; lia).
  rewrite Z.lor_0_r. replace (Z.lor a 255) with 255; [unfold pack32; ring|].
  symmetry. apply (bits_ext_bounded _ _ 8); [lia|apply lor_bound; lia|lia|].
  intros n Hn. rewrite Z.lor_spec. change 255 with (Z.ones 8). rewrite (Z.ones_spec_low 8 n) by lia. apply orb_true_r.
Qed.

Lemma up_pack_ok al p : px_ok p -> up_pack al (lanes p) = pix32 al p.
Proof.
  intros (Hr & Hg & Hb & Ha). unfold up_pack, lanes, pix32. rewrite pack_lanes by assumption. destruct al.
  - now apply premul32_ok.
  - now apply lor_opaque.
Qed.

Lemma unpackRGBA_ok r g b a : is_byte r -> is_byte g -> is_byte b -> is_byte a -> up_unpackRGBA r g b a = lanes4 a g r b.
Proof.
  unfold is_byte, up_unpackRGBA. intros Hr Hg Hb Ha. rewrite !Z.shiftl_mul_pow2 by lia.
  rewrite !w64_small by (change (2 ^ 48) with 281474976710656; change (2 ^ 32) with 4294967296; change (2 ^ 16) with 65536; change (2 ^ 64) with 18446744073709551616; lia).
  replace (a * 2 ^ 48) with (lanes4 a 0 0 0) by (unfold lanes4; ring). replace (g * 2 ^ 32) with (lanes4 0 g 0 0) by (unfold lanes4; ring).
  replace (r * 2 ^ 16) with (lanes4 0 0 r 0) by (unfold lanes4; ring). change b with (lanes4 0 0 0 b) at 1 || idtac.
  assert (E1 : Z.lor (lanes4 a 0 0 0) (lanes4 0 g 0 0) = lanes4 a g 0 0).
  { replace (lanes4 a 0 0 0) with (a * 2 ^ 48) by (unfold lanes4; ring). rewrite lor_mul_add; [unfold lanes4; ring|lia|].
    unfold lanes4. change (2 ^ 16) with 65536. change (2 ^ 48) with 281474976710656. lia. }
  assert (E2 : Z.lor (lanes4 a g 0 0) (lanes4 0 0 r 0) = lanes4 a g r 0) by (apply lor_num; lia).
  rewrite E1, E2. replace (lanes4 a g r 0) with ((r + 2 ^ 16 * (g + 2 ^ 16 * a)) * 2 ^ 16) by (unfold lanes4; ring).
  rewrite lor_mul_add by (try (change (2 ^ 16) with 65536); lia). unfold lanes4. ring.
Qed.

Lemma lnot64 x : 0 <= x < 2 ^ 64 -> w64 (Z.lnot x) = 2 ^ 64 - 1 - x.
Proof. intros H. unfold w64, Z.lnot. change (2 ^ 64) with 18446744073709551616 in *. lia. Qed.

Lemma lor_lanes a g r b a' g' r' b' : 0 <= a < 65536 -> 0 <= g < 65536 -> 0 <= r < 65536 -> 0 <= b < 65536 ->
  0 <= a' < 65536 -> 0 <= g' < 65536 -> 0 <= r' < 65536 -> 0 <= b' < 65536 ->
  Z.lor (lanes4 a g r b) (lanes4 a' g' r' b') = lanes4 (Z.lor a a') (Z.lor g g') (Z.lor r r') (Z.lor b b').
Proof.
  intros. unfold lanes4.
  assert (S := bitop_split Z.lor orb Z.lor_spec eq_refl (fun x y Hx Hy => proj2 (Z.lor_nonneg x y) (conj Hx Hy))).
  rewrite !S by (change (2 ^ 16) with 65536; lia). reflexivity.
Qed.
Lemma land_lanes_gen a g r b a' g' r' b' : 0 <= a < 65536 -> 0 <= g < 65536 -> 0 <= r < 65536 -> 0 <= b < 65536 ->
  0 <= a' < 65536 -> 0 <= g' < 65536 -> 0 <= r' < 65536 -> 0 <= b' < 65536 ->
  Z.land (lanes4 a g r b) (lanes4 a' g' r' b') = lanes4 (Z.land a a') (Z.land g g') (Z.land r r') (Z.land b b').
Proof. intros. unfold lanes4. rewrite !land_split by (change (2 ^ 16) with 65536; lia). reflexivity. Qed.

Lemma opRGBX_rgb p r g b a : px_ok p -> is_byte r -> is_byte g -> is_byte b -> is_byte a ->
  up_opRGBX (lanes p) 0xFE (lanes4 a g r b) = lanes (Px r g b (pa p)).
Proof.
  intros (Hr & Hg & Hb & Ha) H1 H2 H3 H4. unfold is_byte in *. unfold up_opRGBX.
  replace (w64 (Z.shiftl (w32 (254 + 1)) 48)) with (lanes4 255 0 0 0) by reflexivity.
  replace (w64 (Z.lnot (lanes4 255 0 0 0))) with (lanes4 65280 65535 65535 65535) by reflexivity.
  unfold lanes. rewrite !land_lanes_gen by lia. cbn [pr pg pb pa]. rewrite !Z.land_0_r.
  change 65535 with (2 ^ 16 - 1). rewrite !land_mask by lia. rewrite !Z.mod_small by (change (2 ^ 16) with 65536; lia).
  rewrite land_ff, Z.mod_small by lia. replace (Z.land a 65280) with 0.
  2:{ change 65280 with 0xFF00. rewrite land_hi8 by (change (2 ^ 16) with 65536; lia). rewrite Z.div_small by lia. reflexivity. }
  rewrite lor_lanes by lia. rewrite !Z.lor_0_l, Z.lor_0_r. reflexivity.
Qed.
Lemma opRGBX_rgba p r g b a : px_ok p -> is_byte r -> is_byte g -> is_byte b -> is_byte a ->
  up_opRGBX (lanes p) 0xFF (lanes4 a g r b) = lanes (Px r g b a).
Proof.
  intros (Hr & Hg & Hb & Ha) H1 H2 H3 H4. unfold is_byte in *. unfold up_opRGBX.
  replace (w64 (Z.shiftl (w32 (255 + 1)) 48)) with (lanes4 256 0 0 0) by reflexivity.
  replace (w64 (Z.lnot (lanes4 256 0 0 0))) with (lanes4 65279 65535 65535 65535) by reflexivity.
  unfold lanes. rewrite !land_lanes_gen by lia. cbn [pr pg pb pa]. rewrite !Z.land_0_r.
  change 65535 with (2 ^ 16 - 1). rewrite !land_mask by lia. rewrite !Z.mod_small by (change (2 ^ 16) with 65536; lia).
  assert (E1 : forall x, 0 <= x < 256 -> Z.land x 256 = 0).
  { intros x Hx. apply Z.bits_inj'. intros n Hn. rewrite Z.land_spec, Z.bits_0. destruct (Z.lt_ge_cases n 8).
    - change 256 with (2 ^ 8). rewrite Z.pow2_bits_false by lia. apply andb_false_r.
    - rewrite (testbit_small x 8) by (change (2 ^ 8) with 256; lia). reflexivity. }
  assert (E2 : forall x, 0 <= x < 256 -> Z.land x 65279 = x).
  { intros x Hx. apply Z.bits_inj'. intros n Hn. rewrite Z.land_spec. destruct (Z.lt_ge_cases n 8).
    - replace (Z.testbit 65279 n) with true; [apply andb_true_r|].
      assert (n = 0 \/ n = 1 \/ n = 2 \/ n = 3 \/ n = 4 \/ n = 5 \/ n = 6 \/ n = 7) as Q by lia.
      destruct Q as [->|[->|[->|[->|[->|[->|[->| ->]]]]]]]; reflexivity.
    - rewrite (testbit_small x 8) by (change (2 ^ 8) with 256; lia). reflexivity. }
  rewrite E1, E2 by assumption. rewrite lor_lanes by lia. rewrite !Z.lor_0_l. reflexivity.
Qed.

(* DIFF and LUMA: table entry and the lanes added *)
Definition lut_ok (hb : Z) : bool :=
  let d := lut_value (hb - 64) in
  let '(dr, dg, db, m) := if hb <? 128 then (Z.land (Z.shiftr hb 4) 3 - 2, Z.land (Z.shiftr hb 2) 3 - 2, Z.land hb 3 - 2, 0)
                          else (hb - 168, hb - 160, hb - 168, 255) in
  (Z.land d 255 =? m) && (Z.shiftr d 8 =? pack32 0 (dr mod 256) (dg mod 256) (db mod 256)).
Lemma lut_all hb : 64 <= hb < 192 -> lut_ok hb = true.
Proof.
  intros H. replace hb with ((hb - 64) + 64) by lia.
  refine (forallb_range (fun i => lut_ok (i + 64)) 128 _ (hb - 64) _); [|lia]. vm_compute. reflexivity.
Qed.
Lemma rd_lut hb : 64 <= hb < 192 -> rd qoiIndexDiffLumaLUT (hb - 64) = Ok (lut_value (hb - 64)).
Proof.
  intros H. apply rd_elem. unfold elem_at. destruct (Z.ltb_spec (hb - 64) 0); [lia|].
  unfold qoiIndexDiffLumaLUT. erewrite map_nth_error with (d := Z.to_nat (hb - 64)).
  - now rewrite Z2Nat.id by lia.
  - rewrite nth_error_nth' with (d := 0%nat) by (rewrite seq_length; lia). rewrite seq_nth by lia. reflexivity.
Qed.

Definition rb_ok (b : Z) : bool := Z.land (Z.lor b (w32 (Z.shiftl b 12))) 0x000F000F =? lanes4 0 0 (b / 16) (b mod 16).
Lemma rb_all b : 0 <= b < 256 -> rb_ok b = true.
Proof. refine (forallb_range rb_ok 256 _ b). vm_compute. reflexivity. Qed.

Lemma add_lanes p a g r b x y : px_ok p -> is_byte a -> is_byte g -> is_byte r -> is_byte b -> 0 <= x < 16 -> 0 <= y < 16 ->
  up_mask (up_add (up_add (lanes p) (lanes4 0 0 x y)) (lanes4 a g r b)) =
  lanes (Px ((pr p + x + r) mod 256) ((pg p + g) mod 256) ((pb p + y + b) mod 256) ((pa p + a) mod 256)).
Proof.
  intros (Hr & Hg & Hb & Ha) H1 H2 H3 H4 Hx Hy. unfold is_byte in *. unfold up_mask, up_add, lanes. cbn [pr pg pb pa].
  assert (S : forall a g r b, 0 <= a < 65536 -> 0 <= g < 65536 -> 0 <= r < 65536 -> 0 <= b < 65536 -> w64 (lanes4 a g r b) = lanes4 a g r b).
  { intros. apply w64_small. unfold lanes4. change (2 ^ 16) with 65536. change (2 ^ 64) with 18446744073709551616. lia. }
  replace (lanes4 (pa p) (pg p) (pr p) (pb p) + lanes4 0 0 x y) with (lanes4 (pa p) (pg p) (pr p + x) (pb p + y)) by (unfold lanes4; ring).
  rewrite S by lia.
  replace (lanes4 (pa p) (pg p) (pr p + x) (pb p + y) + lanes4 a g r b) with (lanes4 (pa p + a) (pg p + g) (pr p + x + r) (pb p + y + b)) by (unfold lanes4; ring).
  rewrite S by lia. apply land_lanes; lia.
Qed.
