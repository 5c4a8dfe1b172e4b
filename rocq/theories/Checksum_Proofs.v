From Verif Require Import Base Checksum_Model Checksum_Spec.

(* ---------- Adler-32 ---------- *)

Lemma byte_sum_app x y : byte_sum (x ++ y) = byte_sum x + byte_sum y.
Proof. induction x as [|b x IH]; cbn [byte_sum app]; lia. Qed.

Lemma weighted_sum_app x y :
  weighted_sum (x ++ y) = weighted_sum x + Z.of_nat (length y) * byte_sum x + weighted_sum y.
Proof.
  induction x as [|b x IH]; cbn [weighted_sum app byte_sum]; [lia|].
  rewrite IH. cbn [length]. rewrite app_length. nia.
Qed.

Lemma byte_sum_bounds d : bytes d -> 0 <= byte_sum d <= 255 * Z.of_nat (length d).
Proof.
  unfold bytes, is_byte. induction d as [|b d IH]; cbn [byte_sum length]; intros H; [lia|].
  inversion H; subst. specialize (IH H3). lia.
Qed.

Lemma weighted_sum_bounds d : bytes d ->
  0 <= weighted_sum d /\ 2 * weighted_sum d <= 255 * (Z.of_nat (length d) * (Z.of_nat (length d) + 1)).
Proof.
  unfold bytes, is_byte. induction d as [|b d IH]; cbn [weighted_sum length]; intros H; [lia|].
  inversion H; subst. specialize (IH H3). nia.
Qed.

(* Unbounded version of the accumulators. *)
Definition exact_state (s : Z * Z) (d : list Z) : Z * Z :=
  (fst s + byte_sum d, snd s + Z.of_nat (length d) * fst s + weighted_sum d).

Lemma exact_state_app s x y : exact_state s (x ++ y) = exact_state (exact_state s x) y.
Proof.
  unfold exact_state; cbn [fst snd]. rewrite byte_sum_app, weighted_sum_app, app_length. f_equal; nia.
Qed.

Lemma adler_fold_exact d s : bytes d -> 0 <= fst s -> 0 <= snd s ->
  snd (exact_state s d) < 4294967296 -> fst (exact_state s d) < 4294967296 ->
  fold_left adler_step d s = exact_state s d.
Proof.
  revert s. induction d as [|b d IH]; intros s Hd H1 H2 Hlt Hlt1.
  - destruct s; unfold exact_state; cbn. f_equal; lia.
  - assert (Hb : is_byte b) by (inversion Hd; assumption).
    assert (Hd' : bytes d) by (inversion Hd; assumption).
    unfold is_byte in Hb.
    pose proof (byte_sum_bounds d Hd') as Hs. pose proof (weighted_sum_bounds d Hd') as [Hw _].
    unfold exact_state in Hlt, Hlt1. cbn [fst snd byte_sum weighted_sum length] in Hlt, Hlt1.
    cbn [fold_left]. unfold adler_step at 2; unfold w32.
    rewrite (Z.mod_small (fst s + b)) by lia.
    rewrite (Z.mod_small (snd s + (fst s + b))) by nia.
    rewrite IH; unfold exact_state; cbn [fst snd byte_sum weighted_sum length]; auto; try nia.
    f_equal; nia.
Qed.

Lemma adler_unrolled_fold n p s : (4 * n <= length p)%nat ->
  adler_unrolled n p s = Some (skipn (4 * n) p, fold_left adler_step (firstn (4 * n) p) s).
Proof.
  revert p s; induction n as [|n IH]; intros p s Hlen; [reflexivity|].
  destruct p as [|a [|b [|c [|d p]]]]; cbn [length] in Hlen; try lia.
  replace (4 * S n)%nat with (S (S (S (S (4 * n)))))%nat by lia.
  cbn [adler_unrolled firstn skipn fold_left]. rewrite IH by lia. reflexivity.
Qed.

Lemma adler_tail_fold k p s : (k <= length p)%nat ->
  adler_tail k p s = Some (skipn k p, fold_left adler_step (firstn k p) s).
Proof.
  revert p s; induction k as [|k IH]; intros p s Hlen; [reflexivity|].
  destruct p as [|a p]; cbn [length] in Hlen; [lia|].
  cbn [adler_tail firstn skipn fold_left]. rewrite IH by lia. reflexivity.
Qed.

Lemma firstn_skipn_add {A} (i j : nat) (l : list A) : firstn (i + j) l = firstn i l ++ firstn j (skipn i l).
Proof.
  revert l; induction i as [|i IH]; intros l; [reflexivity|].
  destruct l as [|a l]; cbn [Nat.add firstn skipn app].
  - rewrite firstn_nil. reflexivity.
  - rewrite IH. reflexivity.
Qed.

Lemma skipn_skipn_add {A} (i j : nat) (l : list A) : skipn j (skipn i l) = skipn (i + j) l.
Proof.
  revert l; induction i as [|i IH]; intros l; [reflexivity|].
  destruct l as [|a l]; cbn [Nat.add skipn]; [apply skipn_nil | apply IH].
Qed.

(* One chunk: n bytes consumed, accumulators exact, no wrap. *)
Lemma adler_chunk_exact n p s :
  (n <= length p)%nat -> (Z.of_nat n <= 5552) -> bytes p ->
  0 <= fst s < 65536 -> 0 <= snd s < 65536 ->
  exists p1 s1, adler_unrolled (n / 4) p s = Some (p1, s1) /\
    adler_tail (n - 4 * (n / 4)) p1 s1 = Some (skipn n p, exact_state s (firstn n p)).
Proof.
  intros Hn Hmax Hp Hs1 Hs2.
  assert (Hdiv : (4 * (n / 4) <= n)%nat) by (apply Nat.mul_div_le; lia).
  rewrite adler_unrolled_fold by lia. eexists; eexists; split; [reflexivity|].
  rewrite adler_tail_fold by (rewrite skipn_length; lia).
  rewrite skipn_skipn_add. replace (4 * (n / 4) + (n - 4 * (n / 4)))%nat with n by lia.
  rewrite <- fold_left_app, <- firstn_skipn_add.
  replace (4 * (n / 4) + (n - 4 * (n / 4)))%nat with n by lia.
  assert (Hf : bytes (firstn n p)).
  { unfold bytes in *. rewrite <- (firstn_skipn n p) in Hp. apply Forall_app in Hp. tauto. }
  pose proof (byte_sum_bounds _ Hf) as Hb. pose proof (weighted_sum_bounds _ Hf) as Hw.
  assert (Hl : length (firstn n p) = n) by (rewrite firstn_length; lia).
  rewrite Hl in Hb, Hw.
  rewrite adler_fold_exact; auto; try lia; unfold exact_state; cbn [fst snd]; rewrite ?Hl; nia.
Qed.

Definition congr (x y : Z) : Prop := x mod 65521 = y mod 65521.

Lemma mod_add_congr a b : (a mod 65521 + b) mod 65521 = (a + b) mod 65521.
Proof. rewrite Z.add_mod_idemp_l by lia. reflexivity. Qed.

Lemma mod_mul_congr z n x y : (z + n * (x mod 65521) + y) mod 65521 = (z + n * x + y) mod 65521.
Proof.
  replace (z + n * x + y) with (z + n * (x mod 65521) + y + (n * (x / 65521)) * 65521) by nia.
  rewrite Z.mod_add by lia. reflexivity.
Qed.

Lemma adler_chunks_exact fuel p s :
  (length p <= fuel)%nat -> bytes p -> 0 <= fst s < 65536 -> 0 <= snd s < 65536 ->
  (p = [] \/ True) ->
  exists r, adler_chunks fuel p s = Some r /\
    (p = [] -> r = s) /\
    (p <> [] -> r = (fst (exact_state s p) mod 65521, snd (exact_state s p) mod 65521)).
Proof.
  revert p s. induction fuel as [|fuel IH]; intros p s Hf Hp Hs1 Hs2 _.
  - destruct p; cbn [length] in Hf; [|lia]. exists s. cbn. split; [reflexivity|]. split; [auto|congruence].
  - destruct p as [|b p0] eqn:Ep.
    + exists s. cbn. split; [reflexivity|]. split; [auto|congruence].
    + rewrite <- Ep in *. cbn [adler_chunks].
      destruct p as [|b' p0'] eqn:Ep'; [congruence|]. rewrite <- Ep' in *.
      set (n := Z.to_nat (Z.min (Z.of_nat (length p)) kAdler32MaxBytesPerChunk)).
      assert (Hlenp : (0 < length p)%nat) by (rewrite Ep'; cbn; lia).
      assert (Hn1 : (n <= length p)%nat) by (unfold n; lia).
      assert (Hn2 : Z.of_nat n <= 5552) by (unfold n, kAdler32MaxBytesPerChunk; lia).
      assert (Hn3 : (0 < n)%nat) by (unfold n, kAdler32MaxBytesPerChunk; lia).
      destruct (adler_chunk_exact n p s Hn1 Hn2 Hp Hs1 Hs2) as (p1 & s1 & E1 & E2).
      rewrite E1, E2. cbn [fst snd].
      set (sx := exact_state s (firstn n p)).
      assert (Hsk : bytes (skipn n p)).
      { unfold bytes in *. rewrite <- (firstn_skipn n p) in Hp. apply Forall_app in Hp. tauto. }
      destruct (IH (skipn n p) (fst sx mod kAdler32Divisor, snd sx mod kAdler32Divisor)) as (r & Hr & Hr0 & Hr1);
        unfold kAdler32Divisor in *; cbn [fst snd]; auto; try lia.
      { rewrite skipn_length. lia. }
      exists r. split; [exact Hr|]. split; [congruence|]. intros _.
      replace (exact_state s p) with (exact_state sx (skipn n p))
        by (unfold sx; rewrite <- exact_state_app, firstn_skipn; reflexivity).
      destruct (skipn n p) as [|x xs] eqn:Esk.
      * rewrite Hr0 by reflexivity. unfold exact_state; cbn. f_equal; f_equal; lia.
      * rewrite <- Esk in *. rewrite Hr1 by (rewrite Esk; congruence).
        unfold exact_state; cbn [fst snd]. f_equal.
        -- apply mod_add_congr.
        -- rewrite <- Z.add_assoc. rewrite mod_add_congr. rewrite Z.add_assoc. apply mod_mul_congr.
Qed.

(* packing of the two halves *)
Lemma testbit_small a k n : 0 <= a < 2 ^ k -> 0 <= k <= n -> Z.testbit a n = false.
Proof.
  intros Ha Hk. destruct (Z.eq_dec a 0) as [->|Hne]; [apply Z.bits_0|].
  apply Z.bits_above_log2; [lia|]. apply Z.lt_le_trans with k; [|lia]. apply Z.log2_lt_pow2; lia.
Qed.

Lemma land_shift_low a b k : 0 <= k -> 0 <= a < 2 ^ k -> Z.land (Z.shiftl b k) a = 0.
Proof.
  intros Hk Ha. apply Z.bits_inj'. intros n Hn. rewrite Z.bits_0, Z.land_spec.
  destruct (Z.lt_ge_cases n k).
  - rewrite Z.shiftl_spec_low by lia. reflexivity.
  - rewrite (testbit_small a k n) by lia. apply andb_false_r.
Qed.

Lemma lor_shift_add a b k : 0 <= k -> 0 <= a < 2 ^ k -> Z.lor (Z.shiftl b k) a = b * 2 ^ k + a.
Proof.
  intros Hk Ha. pose proof (land_shift_low a b k Hk Ha) as E.
  rewrite <- Z.lxor_lor by exact E. rewrite <- Z.add_nocarry_lxor by exact E.
  rewrite Z.shiftl_mul_pow2 by lia. reflexivity.
Qed.

Lemma adler_pack a b : 0 <= a < 65536 -> 0 <= b < 65536 ->
  Z.lor (w32 (Z.shiftl b 16)) a = b * 65536 + a.
Proof.
  intros Ha Hb. unfold w32. rewrite Z.mod_small.
  - apply (lor_shift_add a b 16); [lia|exact Ha].
  - rewrite Z.shiftl_mul_pow2 by lia. change (2 ^ 16) with 65536. lia.
Qed.

Lemma adler_unpack a b : 0 <= a < 65536 -> 0 <= b < 65536 ->
  Z.land (b * 65536 + a) 65535 = a /\ Z.shiftr (b * 65536 + a) 16 = b.
Proof.
  intros Ha Hb. change 65535 with (Z.ones 16). rewrite Z.land_ones by lia.
  rewrite Z.shiftr_div_pow2 by lia. change (2 ^ 16) with 65536. lia.
Qed.

(* The state reached after processing [d] from the initial value. *)
Lemma adler_update_from d1 d2 : bytes d1 -> bytes d2 ->
  adler32_update_ref (adler32_spec d1) d2 = Some (adler32_spec (d1 ++ d2)).
Proof.
  intros H1 H2. unfold adler32_update_ref.
  set (a := (1 + byte_sum d1) mod 65521). set (b := (Z.of_nat (length d1) + weighted_sum d1) mod 65521).
  assert (Ha : 0 <= a < 65521) by (unfold a; lia). assert (Hb : 0 <= b < 65521) by (unfold b; lia).
  change (adler32_spec d1) with (b * 65536 + a).
  destruct (adler_unpack a b) as [-> ->]; try lia.
  destruct (adler_chunks_exact (length d2) d2 (a, b)) as (r & Hr & Hr0 & Hr1); auto; cbn [fst snd]; try lia.
  rewrite Hr. destruct d2 as [|x d2'] eqn:E.
  - rewrite Hr0 by reflexivity. rewrite app_nil_r. rewrite adler_pack by lia. reflexivity.
  - rewrite <- E in *. rewrite Hr1 by (rewrite E; congruence).
    unfold exact_state; cbn [fst snd]. rewrite adler_pack by lia. f_equal.
    unfold adler32_spec. rewrite byte_sum_app, weighted_sum_app, app_length. f_equal.
    + f_equal. unfold a, b.
      rewrite <- Z.add_assoc. rewrite mod_add_congr. rewrite Z.add_assoc. rewrite mod_mul_congr.
      f_equal. rewrite Nat2Z.inj_add. nia.
    + unfold a. rewrite mod_add_congr. f_equal. lia.
Qed.

Lemma adler32_correct d : bytes d -> adler32 d = Some (adler32_spec d).
Proof.
  intros H. unfold adler32. change kAdler32Initial with (adler32_spec []).
  rewrite adler_update_from by (auto; constructor). reflexivity.
Qed.


Lemma adler_incremental_gen parts d0 : bytes d0 -> Forall bytes parts ->
  update_all adler32_update_ref (adler32_spec d0) parts = Some (adler32_spec (d0 ++ concat parts)).
Proof.
  unfold update_all. revert d0. induction parts as [|d parts IH]; intros d0 H0 H; cbn [fold_left concat].
  - rewrite app_nil_r. reflexivity.
  - inversion H; subst. rewrite adler_update_from by auto. rewrite IH; auto.
    + rewrite app_assoc. reflexivity.
    + unfold bytes in *. apply Forall_app; auto.
Qed.

Lemma adler_incremental parts : Forall bytes parts ->
  update_all adler32_update_ref 1 parts = Some (adler32_spec (concat parts)).
Proof. intros H. change 1 with (adler32_spec []). rewrite adler_incremental_gen; auto. constructor. Qed.

(* ---------- CRC-32 ---------- *)

Lemma crc_bit_lin x y a b : crc_bit (Z.lxor x y) (xorb a b) = Z.lxor (crc_bit x a) (crc_bit y b).
Proof.
  unfold crc_bit.
  assert (E : Z.odd (Z.lxor x y) = xorb (Z.odd x) (Z.odd y)).
  { rewrite <- !Z.bit0_odd. apply Z.lxor_spec. }
  rewrite E. rewrite <- !Z.div2_div. rewrite !Z.div2_spec, Z.shiftr_lxor.
  set (X := Z.shiftr x 1). set (Y := Z.shiftr y 1). set (P := 3988292384).
  destruct (Z.odd x), (Z.odd y), a, b; cbn [xorb];
    apply Z.bits_inj'; intros n Hn; rewrite ?Z.lxor_spec;
    destruct (Z.testbit X n), (Z.testbit Y n), (Z.testbit P n); reflexivity.
Qed.

Definition crc_byte_bits (c b : Z) : Z := fold_left crc_bit (byte_bits b) c.

Definition zeros8 : list bool := [false;false;false;false;false;false;false;false].

Lemma crc_fold_lin l1 l2 x y : length l1 = length l2 ->
  fold_left crc_bit (map (fun p => xorb (fst p) (snd p)) (combine l1 l2)) (Z.lxor x y) =
  Z.lxor (fold_left crc_bit l1 x) (fold_left crc_bit l2 y).
Proof.
  revert l2 x y. induction l1 as [|a l1 IH]; intros [|b l2] x y H; cbn [length] in H; try lia; [reflexivity|].
  cbn [combine map fold_left fst snd]. rewrite crc_bit_lin. apply IH. lia.
Qed.

Lemma crc_bit_even x : crc_bit (Z.shiftl x 1) false = x.
Proof.
  unfold crc_bit. rewrite Z.shiftl_mul_pow2 by lia. change (2 ^ 1) with 2.
  replace (Z.odd (x * 2)) with false.
  - cbn [xorb]. apply Z.div_mul. lia.
  - rewrite Z.odd_mul. rewrite andb_false_r. reflexivity.
Qed.

Lemma crc_zeros_high x : fold_left crc_bit zeros8 (Z.shiftl x 8) = x.
Proof.
  cbn [zeros8 fold_left].
  replace 8 with (1+(1+(1+(1+(1+(1+(1+1))))))) by lia.
  rewrite <- !Z.shiftl_shiftl by lia. rewrite !crc_bit_even. reflexivity.
Qed.

Definition table_ok : bool :=
  forallb (fun i => match nth_error crc32_table (Z.to_nat i) with
                    | Some t => t =? fold_left crc_bit zeros8 i
                    | None => false end) (map Z.of_nat (seq 0 256)).
Lemma table_ok_true : table_ok = true. Proof. vm_compute. reflexivity. Qed.

Lemma table_entry i : 0 <= i < 256 -> nth_error crc32_table (Z.to_nat i) = Some (fold_left crc_bit zeros8 i).
Proof.
  intros H. pose proof table_ok_true as T. unfold table_ok in T. rewrite forallb_forall in T.
  specialize (T i). destruct (nth_error crc32_table (Z.to_nat i)).
  - f_equal. apply Z.eqb_eq. apply T. apply in_map_iff. exists (Z.to_nat i). split; [lia|]. apply in_seq. lia.
  - assert (false = true); [|discriminate]. apply T. apply in_map_iff. exists (Z.to_nat i). split; [lia|]. apply in_seq. lia.
Qed.

(* feeding bits of b equals feeding zeros after xoring b into the register *)
Definition byte_absorb_ok : bool :=
  forallb (fun b => fold_left crc_bit (byte_bits b) 0 =? fold_left crc_bit zeros8 b) (map Z.of_nat (seq 0 256)).
Lemma byte_absorb_ok_true : byte_absorb_ok = true. Proof. vm_compute. reflexivity. Qed.

Lemma byte_absorb0 b : is_byte b -> fold_left crc_bit (byte_bits b) 0 = fold_left crc_bit zeros8 b.
Proof.
  intros H. unfold is_byte in H. pose proof byte_absorb_ok_true as T. unfold byte_absorb_ok in T.
  rewrite forallb_forall in T. apply Z.eqb_eq. apply T.
  apply in_map_iff. exists (Z.to_nat b). split; [lia|]. apply in_seq. lia.
Qed.

Lemma byte_absorb c b : is_byte b -> crc_byte_bits c b = fold_left crc_bit zeros8 (Z.lxor c b).
Proof.
  intros H. unfold crc_byte_bits.
  pose proof (crc_fold_lin zeros8 (byte_bits b) c 0 eq_refl) as L.
  assert (E : map (fun p => xorb (fst p) (snd p)) (combine zeros8 (byte_bits b)) = byte_bits b).
  { cbn [zeros8 byte_bits combine map fst snd]. rewrite !xorb_false_l. reflexivity. }
  rewrite E, Z.lxor_0_r in L. rewrite L, byte_absorb0 by auto.
  pose proof (crc_fold_lin zeros8 zeros8 c b eq_refl) as L2. cbn [zeros8 combine map fst snd xorb] in L2.
  symmetry. exact L2.
Qed.

Lemma split_low8 x : x = Z.lxor (Z.shiftl (Z.shiftr x 8) 8) (Z.land x 255).
Proof.
  apply Z.bits_inj'. intros n Hn. rewrite Z.lxor_spec, Z.land_spec. change 255 with (Z.ones 8).
  destruct (Z.lt_ge_cases n 8).
  - rewrite Z.shiftl_spec_low by lia. rewrite Z.ones_spec_low by lia. rewrite andb_true_r. destruct (Z.testbit x n); reflexivity.
  - rewrite Z.shiftl_spec by lia. rewrite Z.shiftr_spec by lia. rewrite Z.ones_spec_high by lia.
    rewrite andb_false_r, xorb_false_r. f_equal. lia.
Qed.

Lemma crc_zeros_split x :
  fold_left crc_bit zeros8 x = Z.lxor (Z.shiftr x 8) (fold_left crc_bit zeros8 (Z.land x 255)).
Proof.
  rewrite (split_low8 x) at 1.
  pose proof (crc_fold_lin zeros8 zeros8 (Z.shiftl (Z.shiftr x 8) 8) (Z.land x 255) eq_refl) as L.
  change (map (fun p => xorb (fst p) (snd p)) (combine zeros8 zeros8)) with zeros8 in L.
  rewrite L, crc_zeros_high. reflexivity.
Qed.

Lemma land255 x : 0 <= Z.land x 255 < 256.
Proof. change 255 with (Z.ones 8). rewrite Z.land_ones by lia. change (2^8) with 256. lia. Qed.

Lemma crc32_update_byte_correct c b : is_byte b -> crc32_update_byte c b = Some (crc_byte_bits c b).
Proof.
  intros H. unfold crc32_update_byte. rewrite table_entry by apply land255.
  rewrite byte_absorb by auto. rewrite (crc_zeros_split (Z.lxor c b)).
  rewrite Z.shiftr_lxor. replace (Z.shiftr b 8) with 0; [rewrite Z.lxor_0_r; reflexivity|].
  rewrite Z.shiftr_div_pow2 by lia. change (2^8) with 256. unfold is_byte in H. lia.
Qed.

Lemma crc32_update_correct d c : bytes d -> crc32_update_ref c d = Some (fold_left crc_bit (message_bits d) c).
Proof.
  revert c. induction d as [|b d IH]; intros c H; [reflexivity|].
  inversion H; subst. cbn [crc32_update_ref]. rewrite crc32_update_byte_correct by auto.
  rewrite IH by auto. unfold message_bits. cbn [flat_map]. rewrite fold_left_app. reflexivity.
Qed.

Lemma lxor_bound32 a b : 0 <= a < 2^32 -> 0 <= b < 2^32 -> 0 <= Z.lxor a b < 2^32.
Proof.
  intros Ha Hb. split; [apply Z.lxor_nonneg; lia|].
  destruct (Z.eq_dec (Z.lxor a b) 0) as [->|Hne]; [lia|].
  assert (0 <= Z.lxor a b) by (apply Z.lxor_nonneg; lia).
  apply Z.log2_lt_pow2; [lia|].
  pose proof (Z.log2_lxor a b ltac:(lia) ltac:(lia)).
  assert (Z.log2 a < 32) by (destruct (Z.eq_dec a 0) as [->|]; [cbn; lia | apply Z.log2_lt_pow2; lia]).
  assert (Z.log2 b < 32) by (destruct (Z.eq_dec b 0) as [->|]; [cbn; lia | apply Z.log2_lt_pow2; lia]).
  lia.
Qed.

Lemma crc_bit_bound c b : 0 <= c < 2^32 -> 0 <= crc_bit c b < 2^32.
Proof.
  intros H. unfold crc_bit. change (2^32) with 4294967296 in *.
  destruct (xorb _ _); [|lia]. change 4294967296 with (2^32). apply lxor_bound32; change (2^32) with 4294967296; lia.
Qed.

Lemma crc_fold_bound l c : 0 <= c < 2^32 -> 0 <= fold_left crc_bit l c < 2^32.
Proof. revert c; induction l as [|b l IH]; intros c H; cbn [fold_left]; [exact H|]. apply IH, crc_bit_bound, H. Qed.

Lemma crc32_correct d : bytes d -> crc32 d = Some (crc32_spec d).
Proof.
  intros H. unfold crc32. rewrite crc32_update_correct by auto. f_equal.
  unfold crc32_finalize, crc32_spec, w32, kCrc32Initial.
  pose proof (crc_fold_bound (message_bits d) 4294967295 ltac:(cbn; lia)) as B. change (2^32) with 4294967296 in B.
  unfold Z.lnot. lia.
Qed.

Lemma crc_incremental parts : Forall bytes parts ->
  update_all crc32_update_ref kCrc32Initial parts = crc32_update_ref kCrc32Initial (concat parts).
Proof.
  unfold update_all. generalize kCrc32Initial as c.
  induction parts as [|d parts IH]; intros c H; cbn [fold_left concat]; [reflexivity|].
  inversion H; subst. rewrite crc32_update_correct by auto. rewrite IH by auto.
  assert (Hc : bytes (concat parts)).
  { unfold bytes in *. clear -H3. induction H3; cbn; [constructor|]. apply Forall_app; auto. }
  rewrite !crc32_update_correct by (auto; unfold bytes in *; apply Forall_app; auto).
  unfold message_bits. rewrite flat_map_app, fold_left_app. reflexivity.
Qed.

(* ---------- polynomial remainder ---------- *)

(* register read as polynomial coefficients, x^31 first = least significant bit first *)
Definition reg_bits (c : Z) : list bool := map (fun i => Z.testbit c (Z.of_nat i)) (seq 0 32).

Lemma reg_bits_step c b : 0 <= c < 2^32 ->
  reg_bits (crc_bit c b) =
  (if xorb (Z.testbit c 0) b
   then xor_prefix (tl (reg_bits c) ++ [false]) (tl crc_generator)
   else tl (reg_bits c) ++ [false]).
Proof.
  intros H.
  assert (H32 : Z.testbit c 32 = false).
  { destruct (Z.eq_dec c 0) as [->|]; [reflexivity|]. apply Z.bits_above_log2; [lia|]. apply Z.log2_lt_pow2; lia. }
  assert (Hdiv : c / 2 = Z.shiftr c 1) by (rewrite Z.shiftr_div_pow2 by lia; reflexivity).
  unfold crc_bit. rewrite <- Z.bit0_odd, Hdiv.
  assert (Hs : forall i, (i < 32)%nat -> Z.testbit (Z.shiftr c 1) (Z.of_nat i) = nth i (tl (reg_bits c) ++ [false]) false).
  { intros i Hi. rewrite Z.shiftr_spec by lia.
    destruct (Nat.eq_dec i 31) as [->|Hne].
    - change (Z.of_nat 31 + 1) with 32. rewrite H32. reflexivity.
    - replace (Z.of_nat i + 1) with (Z.of_nat (S i)) by lia.
      rewrite app_nth1 by (cbn; lia).
      unfold reg_bits. change (tl (map (fun i => Z.testbit c (Z.of_nat i)) (seq 0 32))) with (map (fun i => Z.testbit c (Z.of_nat i)) (seq 1 31)).
      rewrite (nth_indep _ _ (Z.testbit c (Z.of_nat 0))) by (rewrite map_length, seq_length; lia).
      rewrite (map_nth (fun i => Z.testbit c (Z.of_nat i))). rewrite seq_nth by lia. reflexivity. }
  destruct (xorb (Z.testbit c 0) b).
  - assert (E : reg_bits (Z.lxor (Z.shiftr c 1) 3988292384) =
        map (fun i => xorb (nth i (tl (reg_bits c) ++ [false]) false) (nth i (tl crc_generator) false)) (seq 0 32)).
    { unfold reg_bits at 1. apply map_ext_in. intros i Hi. apply in_seq in Hi.
      rewrite Z.lxor_spec. rewrite Hs by lia. f_equal.
      do 32 (destruct i as [|i]; [reflexivity|]). lia. }
    rewrite E. remember (tl (reg_bits c) ++ [false]) as L eqn:EL.
    assert (length L = 32%nat) by (rewrite EL; rewrite app_length; reflexivity).
    clear -H0. do 32 (destruct L as [|? L]; [discriminate H0|]). destruct L; [reflexivity|discriminate H0].
  - unfold reg_bits at 1. rewrite (map_ext_in _ (fun i => nth i (tl (reg_bits c) ++ [false]) false)).
    + remember (tl (reg_bits c) ++ [false]) as L eqn:EL.
      assert (length L = 32%nat) by (rewrite EL; rewrite app_length; reflexivity).
      clear -H0. do 32 (destruct L as [|? L]; [discriminate H0|]). destruct L; [reflexivity|discriminate H0].
    + intros i Hi. apply in_seq in Hi. apply Hs. lia.
Qed.

Lemma xor_prefix_shift p r : (length r < length p)%nat -> xor_prefix p (r ++ [false]) = xor_prefix p r.
Proof.
  revert p; induction r as [|b r IH]; intros p H; destruct p as [|a p]; cbn [length] in H; try lia.
  - cbn. rewrite xorb_false_r. destruct p; reflexivity.
  - cbn [app xor_prefix]. f_equal. apply IH. lia.
Qed.

Lemma xor_prefix_comm3 p r g : length r = length g ->
  xor_prefix (xor_prefix p r) g = xor_prefix p (xor_prefix r g).
Proof.
  revert p g; induction r as [|b r IH]; intros p g H; destruct g as [|c g]; cbn [length] in H; try lia; [destruct p; reflexivity|].
  destruct p as [|a p]; cbn [xor_prefix]; [reflexivity|]. rewrite IH by lia. f_equal. rewrite xorb_assoc. reflexivity.
Qed.

Lemma xor_prefix_swap p r g : xor_prefix (xor_prefix p r) g = xor_prefix (xor_prefix p g) r.
Proof.
  revert r g; induction p as [|a p IH]; intros r g; destruct r as [|b r], g as [|c g]; cbn [xor_prefix]; try reflexivity.
  rewrite IH. f_equal. destruct a, b, c; reflexivity.
Qed.

Lemma poly_rem_invariant m c : 0 <= c < 2^32 ->
  poly_rem (length m) (xor_prefix (m ++ repeat false 32) (reg_bits c)) = reg_bits (fold_left crc_bit m c).
Proof.
  revert c. induction m as [|b m IH]; intros c Hc.
  - cbn [length poly_rem app fold_left].
    change (repeat false 32) with (map (fun _ : nat => false) (seq 0 32)). unfold reg_bits.
    generalize (seq 0 32) as l. induction l as [|i l IHl]; [reflexivity|].
    cbn [map xor_prefix]. rewrite IHl. rewrite xorb_false_l. reflexivity.
  - cbn [length app fold_left]. rewrite <- IH by (apply crc_bit_bound; exact Hc).
    rewrite reg_bits_step by exact Hc.
    assert (E : reg_bits c = Z.testbit c 0 :: tl (reg_bits c)) by reflexivity.
    remember (tl (reg_bits c)) as r eqn:Er.
    assert (Hr : length r = 31%nat) by (rewrite Er; reflexivity).
    rewrite E. cbn [xor_prefix].
    assert (Hlen : (length r < length (m ++ repeat false 32))%nat)
      by (rewrite app_length, repeat_length; lia).
    replace (xorb b (Z.testbit c 0)) with (xorb (Z.testbit c 0) b) by apply xorb_comm.
    destruct (xorb (Z.testbit c 0) b); cbn [poly_rem].
    + change crc_generator with (true :: tl crc_generator) at 1. cbn [xor_prefix tl].
      f_equal. rewrite <- xor_prefix_comm3 by (rewrite app_length, Hr; reflexivity).
      rewrite xor_prefix_shift by exact Hlen. reflexivity.
    + rewrite xor_prefix_shift by exact Hlen. reflexivity.
Qed.

Lemma complement_xor p k : (k <= length p)%nat -> complement_first k p = xor_prefix p (repeat true k).
Proof.
  revert p; induction k as [|k IH]; intros p H; [destruct p; reflexivity|].
  destruct p as [|a p]; cbn [length] in H; [lia|].
  unfold complement_first in *. cbn [firstn skipn map app repeat xor_prefix]. rewrite IH by lia.
  reflexivity.
Qed.

Lemma crc32_remainder_bits d : crc32_remainder d = reg_bits (fold_left crc_bit (message_bits d) 4294967295).
Proof.
  unfold crc32_remainder. rewrite complement_xor by (rewrite app_length, repeat_length; lia).
  change (repeat true 32) with (reg_bits 4294967295). apply poly_rem_invariant. cbn; lia.
Qed.

Lemma crc32_is_remainder d : bytes d ->
  exists v, crc32 d = Some v /\ 0 <= v < 2^32 /\
    forall i, (i < 32)%nat -> Z.testbit v (Z.of_nat i) = negb (nth i (crc32_remainder d) false).
Proof.
  intros H. exists (crc32_spec d). split; [apply crc32_correct; exact H|].
  pose proof (crc_fold_bound (message_bits d) 4294967295 ltac:(cbn; lia)) as B.
  unfold crc32_spec. split; [change (2^32) with 4294967296 in *; lia|].
  intros i Hi. rewrite crc32_remainder_bits. set (c := fold_left crc_bit (message_bits d) 4294967295) in *.
  unfold reg_bits. rewrite (nth_indep _ _ (Z.testbit c (Z.of_nat 0))) by (rewrite map_length, seq_length; lia).
  rewrite (map_nth (fun i => Z.testbit c (Z.of_nat i))). rewrite seq_nth by lia. cbn [Nat.add].
  replace (4294967295 - c) with (Z.lxor c (Z.ones 32)).
  - rewrite Z.lxor_spec, Z.ones_spec_low by lia. destruct (Z.testbit c _); reflexivity.
  - assert (Z.land c (Z.lxor c (Z.ones 32)) = 0).
    { apply Z.bits_inj'. intros n Hn. rewrite Z.bits_0, Z.land_spec, Z.lxor_spec.
      destruct (Z.lt_ge_cases n 32).
      - rewrite Z.ones_spec_low by lia. destruct (Z.testbit c n); reflexivity.
      - replace (Z.testbit c n) with false; [reflexivity|]. symmetry.
        destruct (Z.eq_dec c 0) as [->|]; [apply Z.bits_0|]. apply Z.bits_above_log2; [lia|].
        apply Z.lt_le_trans with 32; [|lia]. apply Z.log2_lt_pow2; lia. }
    pose proof (Z.add_nocarry_lxor c (Z.lxor c (Z.ones 32)) H0) as E.
    rewrite <- Z.lxor_assoc, Z.lxor_nilpotent, Z.lxor_0_l in E. change (Z.ones 32) with 4294967295 in *. lia.
Qed.
