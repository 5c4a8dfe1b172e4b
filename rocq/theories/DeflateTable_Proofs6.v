(* Fields of table entries, and what a finished table says about a stream in terms of those fields. *)
From Verif Require Import Base Bits Algorithm_Model Deflate_Spec DeflateTable_Model DeflateTable_Proofs DeflateTable_Proofs2 DeflateTable_Proofs3 DeflateTable_Proofs4 DeflateTable_Proofs5.

(* an entry by its fields: full length, payload, flags (invalid, end of block, offset or length, both, literal), base length *)
Definition ent (lo pay fl base : Z) : Z := lo + 2 ^ 8 * pay + 2 ^ 23 * fl + 2 ^ 28 * base.
Definition ent_ok (lo pay fl base : Z) : Prop := 0 <= lo < 256 /\ 0 <= pay < 32768 /\ 0 <= fl < 32 /\ 0 <= base < 16.

Lemma flag_at x k : 0 <= k -> negb (Z.land x (2 ^ k) =? 0) = Z.testbit x k.
Proof.
  intros Hk. destruct (Z.testbit x k) eqn:E.
  - assert (Z.land x (2 ^ k) <> 0); [|destruct (Z.land x (2 ^ k) =? 0) eqn:F; [lia|reflexivity]].
    intros C. assert (Z.testbit (Z.land x (2 ^ k)) k = true) by (rewrite Z.land_spec, E, Z.pow2_bits_true by lia; reflexivity).
    rewrite C, Z.bits_0 in H. discriminate.
  - replace (Z.land x (2 ^ k)) with 0; [reflexivity|]. symmetry. apply Z.bits_inj. intros n. rewrite Z.land_spec, Z.bits_0.
    destruct (Z.eq_dec n k) as [->|N]; [rewrite E; reflexivity|]. rewrite Z.pow2_bits_false by lia. apply andb_false_r.
Qed.

Lemma land_mod x n m : 0 <= n -> m = 2 ^ n - 1 -> Z.land x m = x mod 2 ^ n.
Proof. intros Hn ->. replace (2 ^ n - 1) with (Z.ones n) by (rewrite Z.ones_equiv; lia). apply Z.land_ones. lia. Qed.

Section Fields.
  Context (lo pay fl base : Z) (H : ent_ok lo pay fl base).
  Notation e := (ent lo pay fl base).
  Ltac nums := unfold ent_ok, ent in *; change (2 ^ 8) with 256 in *; change (2 ^ 23) with 8388608 in *; change (2 ^ 28) with 268435456 in *.

  Lemma ent_range : 0 <= e < 2 ^ 32.
  Proof. nums. change (2 ^ 32) with 4294967296. lia. Qed.
  Lemma ent_full : full_length e = lo.
  Proof. unfold full_length. rewrite (land_mod _ 8) by (reflexivity || lia). nums. lia. Qed.
  Lemma ent_pay : payload_field e = pay.
  Proof. unfold payload_field. rewrite (land_mod _ 15) by (reflexivity || lia). rewrite Z.shiftr_div_pow2 by lia. nums. change (2 ^ 15) with 32768. lia. Qed.
  Lemma ent_raw : raw_payload e = pay + 32768 * (fl mod 2).
  Proof. unfold raw_payload. rewrite (land_mod _ 16) by (reflexivity || lia). rewrite Z.shiftr_div_pow2 by lia. nums. change (2 ^ 16) with 65536. lia. Qed.
  Lemma ent_base : base_length e = base.
  Proof. unfold base_length. rewrite (land_mod _ 4) by (reflexivity || lia). rewrite Z.shiftr_div_pow2 by lia. nums. change (2 ^ 4) with 16. lia. Qed.
  Lemma ent_value : precode_value e = pay mod 256.
  Proof. unfold precode_value. rewrite (land_mod _ 8) by (reflexivity || lia). rewrite Z.shiftr_div_pow2 by lia. nums. lia. Qed.
  Lemma ent_repeat : fl = 0 -> precode_repeat e = pay / 256.
  Proof. intros ->. unfold precode_repeat. rewrite (land_mod _ 8) by (reflexivity || lia). rewrite Z.shiftr_div_pow2 by lia. nums. change (2 ^ 16) with 65536. lia. Qed.
  Lemma ent_bit j : 0 <= j < 5 -> Z.testbit e (23 + j) = Z.testbit fl j.
  Proof.
    intros Hj. rewrite Z.add_comm, <- (Z.shiftr_spec e 23 j) by lia. rewrite Z.shiftr_div_pow2 by lia.
    replace (e / 2 ^ 23) with (fl + 2 ^ 5 * base) by (nums; change (2 ^ 5) with 32; lia).
    rewrite testbit_add_mul by (nums; lia). destruct (j <? 5) eqn:F; [reflexivity|lia].
  Qed.
  Lemma ent_literal : is_literal e = Z.testbit fl 4.
  Proof. unfold is_literal, kLiteralFlag. rewrite flag_at by lia. apply (ent_bit 4). lia. Qed.
  Lemma ent_off : is_off_or_len e = Z.testbit fl 2.
  Proof. unfold is_off_or_len, kOffOrLenFlag. rewrite flag_at by lia. apply (ent_bit 2). lia. Qed.
  Lemma ent_eob : is_end_of_block e = Z.testbit fl 1.
  Proof. unfold is_end_of_block, kEndOfBlockFlag. rewrite flag_at by lia. apply (ent_bit 1). lia. Qed.
  Lemma ent_invalid : is_end_of_block_invalid e = Z.testbit fl 0.
  Proof. unfold is_end_of_block_invalid, kEndOfBlockInvalidFlag. rewrite flag_at by lia. apply (ent_bit 0). lia. Qed.
  Lemma ent_extract w : lo mod 64 < 32 -> 0 <= w -> extract_entry w e = Ok (w mod 2 ^ (lo mod 64)).
  Proof.
    intros Hl Hw. unfold extract_entry. rewrite (land_mod _ 6) by (reflexivity || lia). change (2 ^ 6) with 64.
    replace (e mod 64) with (lo mod 64) by (nums; lia). destruct (32 <=? lo mod 64) eqn:F; [lia|]. f_equal.
    rewrite (land_mod _ (lo mod 64)) by (reflexivity || lia). unfold w32.
    assert (D : (2 ^ (lo mod 64) | 2 ^ 32)) by (exists (2 ^ (32 - lo mod 64)); rewrite <- Z.pow_add_r by lia; f_equal; lia).
    symmetry. apply Znumtheory.Zmod_div_mod; [apply pow2_pos; lia|reflexivity|exact D].
  Qed.
  Lemma ent_extra w : lo mod 64 < 32 -> 0 <= w -> extract_extra w e = Ok (w mod 2 ^ (lo mod 64) / 2 ^ base).
  Proof.
    intros Hl Hw. unfold extract_extra. rewrite ent_extract by assumption. cbn [bind]. rewrite ent_base, Z.shiftr_div_pow2; [reflexivity|].
    unfold ent_ok in H. lia.
  Qed.
End Fields.

(* a decode result by its fields: extra bits (+ 64 for literals), payload, flags *)
Lemma top_ent lo pay fl len : ent_ok lo pay fl 0 -> lo <= 64 -> 1 <= len <= 15 ->
  make_top_entry (ent lo pay fl 0) len = ent (lo + len) pay fl (if Z.testbit fl 1 then 0 else len).
Proof.
  intros H Hlo Hlen. unfold make_top_entry. rewrite ent_eob by exact H.
  assert (E : Z.lor len (if Z.testbit fl 1 then 0 else w32 (Z.shiftl len 28)) = len + 2 ^ 28 * (if Z.testbit fl 1 then 0 else len)).
  { destruct (Z.testbit fl 1); [rewrite Z.lor_0_r; lia|]. unfold w32. rewrite Z.shiftl_mul_pow2 by lia.
    rewrite Z.mod_small by (change (2 ^ 28) with 268435456; change (2 ^ 32) with 4294967296; lia).
    rewrite Z.lor_comm, lor_mul_add by (change (2 ^ 28) with 268435456; lia). lia. }
  rewrite E. set (b := if Z.testbit fl 1 then 0 else len). assert (Hb : 0 <= b < 16) by (subst b; destruct (Z.testbit fl 1); lia).
  unfold w32, ent, ent_ok in *. rewrite Z.mod_small; [|change (2 ^ 8) with 256; change (2 ^ 23) with 8388608; change (2 ^ 28) with 268435456; change (2 ^ 32) with 4294967296; lia]. lia.
Qed.

Lemma sub_ent lo pay fl len : ent_ok lo pay fl 0 -> lo <= 64 -> 1 <= len <= 15 ->
  make_sub_entry (ent lo pay fl 0) len = ent (lo mod 64 + len) pay fl len.
Proof.
  intros H Hlo Hlen. unfold make_sub_entry.
  assert (E : Z.land (ent lo pay fl 0) 4294967103 = ent (lo mod 64) pay fl 0).
  { unfold ent_ok in H. set (q := pay + 2 ^ 15 * fl).
    replace (ent lo pay fl 0) with (lo + 2 ^ 8 * q) by (unfold ent, q; change (2 ^ 8) with 256; change (2 ^ 15) with 32768; change (2 ^ 23) with 8388608; lia).
    replace (ent (lo mod 64) pay fl 0) with (lo mod 64 + 2 ^ 8 * q) by (unfold ent, q; change (2 ^ 8) with 256; change (2 ^ 15) with 32768; change (2 ^ 23) with 8388608; lia).
    change 4294967103 with (63 + 2 ^ 8 * 16777215).
    rewrite land_split by (change (2 ^ 8) with 256; lia).
    rewrite (land_mod q 24) by (reflexivity || lia). rewrite Z.mod_small by (unfold q; change (2 ^ 15) with 32768; change (2 ^ 24) with 16777216; lia).
    rewrite (land_mod lo 6) by (reflexivity || lia). change (2 ^ 6) with 64. lia. }
  rewrite E. unfold w32. rewrite Z.shiftl_mul_pow2 by lia.
  unfold ent, ent_ok in *. change (2 ^ 8) with 256 in *; change (2 ^ 23) with 8388608 in *; change (2 ^ 28) with 268435456 in *; change (2 ^ 32) with 4294967296.
  rewrite (Z.mod_small (len * _)) by lia. rewrite Z.mod_small by lia. lia.
Qed.

Lemma link_ent st T full : 0 <= st < 32768 -> 1 <= T <= 15 -> 0 <= full < 256 -> make_sub_link st T full = ent full st 0 T.
Proof.
  intros H1 H2 H3. unfold make_sub_link, w32. rewrite !Z.shiftl_mul_pow2 by lia.
  rewrite !Z.mod_small by (change (2 ^ 8) with 256; change (2 ^ 28) with 268435456; change (2 ^ 32) with 4294967296; lia).
  rewrite lor_mul_add by (change (2 ^ 28) with 268435456; lia).
  rewrite Z.lor_comm. replace (T * 2 ^ 28 + full) with (T * 2 ^ 28 + full) by lia.
  assert (E : Z.lor (st * 2 ^ 8) (T * 2 ^ 28 + full) = T * 2 ^ 28 + (st * 2 ^ 8 + full)).
  { rewrite <- (lor_mul_add full T 28) by (change (2 ^ 28) with 268435456; lia).
    rewrite (Z.lor_comm (T * 2 ^ 28)), Z.lor_assoc, (lor_mul_add full st 8) by (change (2 ^ 8) with 256; lia).
    rewrite Z.lor_comm, lor_mul_add; [lia|lia|]. change (2 ^ 8) with 256; change (2 ^ 28) with 268435456; lia. }
  rewrite E. unfold ent. lia.
Qed.

Lemma invalid_ent : make_top_entry invalid_result 1 = ent 1 0 3 0.
Proof. reflexivity. Qed.
