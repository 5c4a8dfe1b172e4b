(* Proofs: the BMP header. *)
From Verif Require Import Base Algorithm_Model Algorithm_Spec Algorithm_Proofs IntOps_Model IntOps_Spec IntOps_Proofs IntOps_Proofs2
  IntOps_Proofs3 Qoi_Model Bmp_Model Bmp_Spec Bmp_Proofs.
Ltac Zify.zify_post_hook ::= idtac.

Lemma u8_byte d i : bytes d -> 0 <= u8 d i < 256.
Proof.
  intros B. unfold u8. destruct (nth_in_or_default (Z.to_nat i) d 0) as [I| ->]; [|lia].
  unfold bytes in B. rewrite Forall_forall in B. apply B in I. exact I.
Qed.
Lemma u16_range d i : bytes d -> 0 <= u16 d i < 65536.
Proof. intros B. unfold u16. pose proof (u8_byte d i B). pose proof (u8_byte d (i + 1) B). lia. Qed.
Lemma u32_range d i : bytes d -> 0 <= u32 d i < 4294967296.
Proof. intros B. unfold u32. pose proof (u16_range d i B). pose proof (u16_range d (i + 2) B). lia. Qed.

Lemma r8_ok d i : 0 <= i < Z.of_nat (length d) -> r8 d i = Ok (u8 d i).
Proof. intros R. unfold r8, u8. now apply rd_nth. Qed.
Lemma r16_ok d i : 0 <= i -> i + 2 <= Z.of_nat (length d) -> r16 d i = Ok (u16 d i).
Proof. intros R L. unfold r16. rewrite !rd_nth by lia. reflexivity. Qed.
Lemma r32_ok d i : 0 <= i -> i + 4 <= Z.of_nat (length d) -> r32 d i = Ok (u32 d i).
Proof. intros R L. unfold r32. rewrite !r16_ok by lia. reflexivity. Qed.

Lemma to_s_signed bits v : 0 < bits -> 0 <= v < 2 ^ bits -> to_s bits v = signed bits v.
Proof. intros W R. unfold to_s, signed. rewrite Z.mod_small by exact R. reflexivity. Qed.

(* masks *)
Lemma contiguous_consecutive m : 0 <= m < 4294967296 -> (is_bit_mask_consecutive 32 m = true <-> contiguous m).
Proof.
  intros R. rewrite (is_bit_mask_consecutive_ok 32 32 m) by (change (2 ^ 32) with 4294967296; lia).
  unfold contiguous, bits_exactly. split.
  - intros (lo & hi & [E L] & H). exists lo, hi. auto.
  - intros (lo & hi & L & H & E). exists lo, hi. auto.
Qed.
Lemma contiguous_pos m : contiguous m -> 0 < m < 4294967296.
Proof.
  intros (lo & hi & L & H & ->). assert (2 ^ lo < 2 ^ hi) by (apply Z.pow_lt_mono_r; lia).
  assert (2 ^ hi <= 2 ^ 32) by (apply Z.pow_le_mono_r; lia). assert (0 < 2 ^ lo) by (apply Z.pow_pos_nonneg; lia).
  change (2 ^ 32) with 4294967296 in *. lia.
Qed.

Lemma lor_land_0 a b c : Z.land (Z.lor a b) c = 0 <-> Z.land a c = 0 /\ Z.land b c = 0.
Proof. rewrite Z.land_lor_distr_l. apply Z.lor_eq_0_iff. Qed.

Lemma check_bit_masks_ok r g b a :
  0 <= r < 4294967296 -> 0 <= g < 4294967296 -> 0 <= b < 4294967296 -> 0 <= a < 4294967296 ->
  check_bit_masks 0 0 [r; g; b; a] = true <-> masks_ok [r; g; b; a].
Proof.
  intros Hr Hg Hb Ha. cbn [check_bit_masks]. rewrite Z.land_0_l, Z.lor_0_l. change (0 =? 0) with true. cbn [negb].
  change (0 =? 3) with false. change (0 + 1 =? 3) with false. change (0 + 1 + 1 =? 3) with false.
  change (0 + 1 + 1 + 1 =? 3) with true. cbn [negb]. rewrite !andb_true_r, andb_false_r.
  pose proof (contiguous_consecutive r Hr) as Cr. pose proof (contiguous_consecutive g Hg) as Cg.
  pose proof (contiguous_consecutive b Hb) as Cb. pose proof (contiguous_consecutive a Ha) as Ca.
  split.
  - intros H.
    destruct (Z.eqb_spec r 0) as [|Nr]; [discriminate|]. cbn [andb negb] in H.
    destruct (is_bit_mask_consecutive 32 r); [|discriminate]. cbn [negb] in H.
    destruct (Z.eqb_spec g 0) as [|Ng]; [discriminate|]. cbn [andb negb] in H.
    destruct (is_bit_mask_consecutive 32 g); [|discriminate]. cbn [negb] in H.
    destruct (Z.eqb_spec (Z.land r g) 0) as [RG|]; [|discriminate]. cbn [negb] in H.
    destruct (Z.eqb_spec b 0) as [|Nb]; [discriminate|]. cbn [andb negb] in H.
    destruct (is_bit_mask_consecutive 32 b); [|discriminate]. cbn [negb] in H.
    destruct (Z.eqb_spec (Z.land (Z.lor r g) b) 0) as [RB|]; [|discriminate]. cbn [negb] in H. apply lor_land_0 in RB as [RB GB].
    exists r, g, b, a. split; [reflexivity|].
    destruct (Z.eqb_spec (Z.land (Z.lor (Z.lor r g) b) a) 0) as [RA|];
      [|destruct (negb (a =? 0) && negb (is_bit_mask_consecutive 32 a)); cbn [negb] in H; discriminate].
    apply lor_land_0 in RA as [RA BA]. apply lor_land_0 in RA as [RA GA].
    assert (CA : a = 0 \/ contiguous a).
    { destruct (Z.eqb_spec a 0) as [|Na]; [now left|right]. cbn [andb negb] in H.
      destruct (is_bit_mask_consecutive 32 a); [now apply Ca|discriminate]. }
    split; [apply Cr; reflexivity|]. split; [apply Cg; reflexivity|]. split; [apply Cb; reflexivity|]. auto 10.
  - intros (r' & g' & b' & a' & E & Kr & Kg & Kb & Ka & RG & RB & GB & RA & GA & BA). injection E as <- <- <- <-.
    apply contiguous_pos in Kr as Pr. apply contiguous_pos in Kg as Pg. apply contiguous_pos in Kb as Pb.
    apply Cr in Kr. apply Cg in Kg. apply Cb in Kb. rewrite Kr, Kg, Kb.
    destruct (Z.eqb_spec r 0); [lia|]. destruct (Z.eqb_spec g 0); [lia|]. destruct (Z.eqb_spec b 0); [lia|]. cbn [andb negb].
    rewrite RG. change (0 =? 0) with true. cbn [negb]. assert (E1 : Z.land (Z.lor r g) b = 0) by (apply lor_land_0; auto). rewrite E1.
    change (0 =? 0) with true. cbn [negb].
    assert (E2 : Z.land (Z.lor (Z.lor r g) b) a = 0) by (apply lor_land_0; split; [apply lor_land_0; auto|exact BA]).
    rewrite E2. change (0 =? 0) with true. cbn [negb].
    destruct Ka as [->|Ka]; [reflexivity|]. apply Ca in Ka. rewrite Ka. cbn [negb]. now rewrite andb_false_r.
Qed.

Lemma mask_channel m : m = 0 \/ contiguous m -> channel_of m (mask_size_shift m).
Proof.
  unfold mask_size_shift. intros [->|K].
  - left. auto.
  - pose proof (contiguous_pos m K) as P. destruct (Z.eqb_spec m 0) as [|_]; [lia|]. cbv zeta. right.
    destruct K as (lo & hi & L & H & E).
    pose proof (ctz_fallback_ok 5 m ltac:(auto)) as C. cbv zeta in C. change (2 ^ 2 ^ Z.of_nat 5) with 4294967296 in C.
    change (2 ^ Z.of_nat 5) with 32 in C. destruct (C P) as (R & D & N). clear C.
    assert (PL : 0 < 2 ^ lo) by (apply Z.pow_pos_nonneg; lia).
    assert (SPL : 2 ^ hi = 2 ^ (hi - lo) * 2 ^ lo) by (rewrite <- Z.pow_add_r by lia; f_equal; lia).
    assert (EM : m = (2 ^ (hi - lo) - 1) * 2 ^ lo) by lia.
    assert (PW : 2 ^ (hi - lo) = 2 * 2 ^ (hi - lo - 1)) by (rewrite <- Z.pow_succ_r by lia; f_equal; lia).
    assert (CZ : ctz_fallback 5 m = lo).
    { set (r := ctz_fallback 5 m) in *. destruct (Z.lt_trichotomy r lo) as [LT|[EQ|GT]]; [exfalso|exact EQ|exfalso].
      - apply N. exists ((2 ^ (hi - lo) - 1) * 2 ^ (lo - r - 1)). rewrite EM, <- Z.mul_assoc, <- Z.pow_add_r by lia.
        do 2 f_equal. lia.
      - assert (D2 : (2 ^ (lo + 1) | m)).
        { eapply Z.divide_trans; [|exact D]. exists (2 ^ (r - lo - 1)). rewrite <- Z.pow_add_r by lia. f_equal. lia. }
        destruct D2 as [q Q]. rewrite EM, Z.pow_add_r in Q by lia. change (2 ^ 1) with 2 in Q. rewrite PW in Q. clear - Q PL.
        assert (F : (2 * 2 ^ (hi - lo - 1) - 1 - 2 * q) * 2 ^ lo = 0) by lia. apply Z.mul_eq_0 in F. lia. }
    rewrite CZ. assert (SH : Z.shiftr m lo = 2 ^ (hi - lo) - 1) by (rewrite Z.shiftr_div_pow2, EM, Z.div_mul by lia; reflexivity).
    rewrite SH. cbn [fst snd].
    assert (SZ : (if 4294967295 <=? 2 ^ (hi - lo) - 1 then 32 else ctz_fallback 5 (4294967295 - (2 ^ (hi - lo) - 1))) = hi - lo).
    { destruct (Z.leb_spec 4294967295 (2 ^ (hi - lo) - 1)) as [B|B].
      - destruct (Z.eq_dec (hi - lo) 32) as [->|NE]; [reflexivity|exfalso].
        assert (2 ^ (hi - lo) <= 2 ^ 31) by (apply Z.pow_le_mono_r; lia). change (2 ^ 31) with 2147483648 in *. lia.
      - assert (W : hi - lo < 32).
        { destruct (Z.lt_ge_cases (hi - lo) 32); [assumption|].
          assert (2 ^ 32 <= 2 ^ (hi - lo)) by (apply Z.pow_le_mono_r; lia). change (2 ^ 32) with 4294967296 in *. lia. }
        set (n := hi - lo) in *. assert (1 <= n) by lia.
        assert (PN : 2 <= 2 ^ n) by lia.
        assert (PN2 : 2 ^ n <= 2 ^ 31) by (apply Z.pow_le_mono_r; lia). change (2 ^ 31) with 2147483648 in PN2.
        pose proof (ctz_fallback_ok 5 (4294967295 - (2 ^ n - 1)) ltac:(auto)) as C. cbv zeta in C.
        change (2 ^ 2 ^ Z.of_nat 5) with 4294967296 in C. change (2 ^ Z.of_nat 5) with 32 in C.
        destruct C as (R2 & D2 & N2); [lia|]. set (r := ctz_fallback 5 (4294967295 - (2 ^ n - 1))) in *.
        assert (E2 : 4294967295 - (2 ^ n - 1) = (2 ^ (32 - n) - 1) * 2 ^ n).
        { rewrite Z.mul_sub_distr_r, <- Z.pow_add_r by lia. replace (32 - n + n) with 32 by lia.
          change (2 ^ 32) with 4294967296. lia. }
        assert (PW2 : 2 ^ (32 - n) = 2 * 2 ^ (32 - n - 1)) by (rewrite <- Z.pow_succ_r by lia; f_equal; lia).
        destruct (Z.lt_trichotomy r n) as [LT|[EQ|GT]]; [exfalso|exact EQ|exfalso].
        + apply N2. exists ((2 ^ (32 - n) - 1) * 2 ^ (n - r - 1)). rewrite E2, <- Z.mul_assoc, <- Z.pow_add_r by lia.
          do 2 f_equal. lia.
        + assert (D3 : (2 ^ (n + 1) | 4294967295 - (2 ^ n - 1))).
          { eapply Z.divide_trans; [|exact D2]. exists (2 ^ (r - n - 1)). rewrite <- Z.pow_add_r by lia. f_equal. lia. }
          destruct D3 as [q Q]. rewrite E2, Z.pow_add_r in Q by lia. change (2 ^ 1) with 2 in Q. rewrite PW2 in Q. clear - Q PN.
          assert (F : (2 * 2 ^ (32 - n - 1) - 1 - 2 * q) * 2 ^ n = 0) by lia. apply Z.mul_eq_0 in F. lia. }
    rewrite SZ. repeat split; try lia. replace (lo + (hi - lo)) with hi by lia. exact E.
Qed.

Lemma stride_ok w depth : 0 <= w <= 65535 -> 0 <= depth <= 32 ->
  Z.land ((w * depth + 7) / 8 + 3) 0xFFFFFFFC = row_bytes w depth /\ 0 <= row_bytes w depth < 4294967295.
Proof.
  intros W D. assert (M : 0 <= w * depth <= 65535 * 32) by nia.
  set (v := w * depth) in *. unfold row_bytes. fold v.
  assert (A : 0 <= (v + 7) / 8 + 3 < 2 ^ 32).
  { assert (0 <= (v + 7) / 8) by (apply Z.div_pos; lia).
    assert ((v + 7) / 8 < 300000) by (apply Z.div_lt_upper_bound; lia). change (2 ^ 32) with 4294967296. lia. }
  assert (E : Z.land ((v + 7) / 8 + 3) 0xFFFFFFFC = Z.ldiff ((v + 7) / 8 + 3) (Z.ones 2)).
  { apply Z.bits_inj'. intros k K. rewrite Z.land_spec, Z.ldiff_spec, Z.testbit_ones_nonneg by lia.
    destruct (Z.lt_ge_cases k 32).
    - f_equal. assert (C : k = 0 \/ k = 1 \/ 2 <= k < 32) by lia. destruct C as [->|[->|C]]; [reflexivity..|].
      destruct (Z.ltb_spec k 2); [lia|]. cbn [negb]. replace 0xFFFFFFFC with (Z.shiftl (Z.ones 30) 2) by reflexivity.
      rewrite Z.shiftl_spec, Z.testbit_ones_nonneg by lia. apply Z.ltb_lt. lia.
    - rewrite (Z.bits_above_log2 ((v + 7) / 8 + 3)); [reflexivity|lia|].
      destruct (Z.eq_dec ((v + 7) / 8 + 3) 0) as [->|]; [cbn; lia|]. apply Z.log2_lt_pow2; [lia|].
      apply Z.lt_le_trans with (2 ^ 32); [apply A|apply Z.pow_le_mono_r; lia]. }
  rewrite E, Z.ldiff_ones_r by lia. rewrite Z.shiftl_mul_pow2, Z.shiftr_div_pow2 by lia. change (2 ^ 2) with 4.
  assert (Q : ((v + 7) / 8 + 3) / 4 = (v + 31) / 32).
  { replace ((v + 7) / 8 + 3) with ((v + 31) / 8) by (replace (v + 31) with (v + 7 + 3 * 8) by lia; rewrite Z.div_add by lia; reflexivity).
    rewrite Z.div_div by lia. reflexivity. }
  rewrite Q. split; [lia|]. assert (0 <= (v + 31) / 32) by (apply Z.div_pos; lia).
  assert ((v + 31) / 32 < 100000) by (apply Z.div_lt_upper_bound; lia). lia.
Qed.
