From Verif Require Import Base Bits JpegHuff_Model JpegHuff_Proofs2 JpegBits_Model JpegBits_Spec.
Ltac Zify.zify_post_hook ::= idtac.

Definition top (bits : Z) (n : nat) : list bool := map (fun i => Z.testbit bits (63 - Z.of_nat i)) (seq 0 n).
Lemma seq_plus m : forall n k, seq (n + k) m = map (Nat.add n) (seq k m).
Proof. induction m as [|m IH]; intros n k; cbn [seq map]; [reflexivity|]. f_equal. rewrite <- IH. f_equal. lia. Qed.
Lemma top_split bits a b : top bits (a + b) = top bits a ++ map (fun i => Z.testbit bits (63 - Z.of_nat a - Z.of_nat i)) (seq 0 b).
Proof.
  unfold top. rewrite seq_app, map_app. f_equal. cbn [Nat.add]. replace (seq a b) with (seq (a + 0) b) by (f_equal; lia). rewrite seq_plus, map_map. apply map_ext. intros i. f_equal. lia.
Qed.
Lemma top_length bits n : length (top bits n) = n.
Proof. unfold top. rewrite map_length, seq_length. reflexivity. Qed.
Definition low_zero (bits c : Z) : Prop := forall i, 0 <= i < 64 - c -> Z.testbit bits i = false.
Lemma w64_bit x i : 0 <= i < 64 -> Z.testbit (w64 x) i = Z.testbit x i.
Proof. intros H. unfold w64. change 18446744073709551616 with (2 ^ 64). apply Z.mod_pow2_bits_low. lia. Qed.
Lemma w64_range x : 0 <= w64 x < 2 ^ 64.
Proof. unfold w64. apply (Z.mod_pos_bound _ (2 ^ 64)). reflexivity. Qed.

Lemma byte_high b i : 0 <= b < 256 -> 8 <= i -> Z.testbit b i = false.
Proof.
  intros H Hi. destruct (Z.eq_dec b 0) as [->|]; [apply Z.bits_0|]. apply Z.bits_above_log2; [lia|]. apply Z.lt_le_trans with 8; [|lia]. apply Z.log2_lt_pow2; [lia|]. exact (proj2 H).
Qed.
Lemma push_bits bits c b i : 0 <= bits < 2 ^ 64 -> 0 <= c <= 56 -> low_zero bits c -> 0 <= b < 256 -> 0 <= i < 64 ->
  Z.testbit (w64 (bits + w64 (Z.shiftl b (56 - c)))) i = Z.testbit bits i || Z.testbit b (i - (56 - c)).
Proof.
  intros Hb Hc LZ HB Hi. rewrite w64_bit by lia.
  assert (W : w64 (Z.shiftl b (56 - c)) = Z.shiftl b (56 - c)).
  { unfold w64. apply Z.mod_small. rewrite Z.shiftl_mul_pow2 by lia. assert (P : 0 < 2 ^ (56 - c) <= 2 ^ 56) by (split; [apply Z.pow_pos_nonneg; lia|apply Z.pow_le_mono_r; lia]).
    split; [apply Z.mul_nonneg_nonneg; lia|]. apply Z.le_lt_trans with (255 * 2 ^ 56); [apply Z.mul_le_mono_nonneg; lia|reflexivity]. }
  rewrite W. assert (L : Z.land bits (Z.shiftl b (56 - c)) = 0).
  { apply Z.bits_inj'. intros k Hk. rewrite Z.land_spec, Z.bits_0, Z.shiftl_spec by lia. destruct (Z.lt_ge_cases k (64 - c)) as [C|C]; [rewrite (LZ k) by lia; reflexivity|]. rewrite (byte_high b (k - (56 - c))) by lia. apply andb_false_r. }
  rewrite Z.add_nocarry_lxor by exact L. rewrite Z.lxor_spec, Z.shiftl_spec by lia. pose proof (f_equal (fun z => Z.testbit z i) L) as Li. cbn beta in Li. rewrite Z.land_spec, Z.bits_0, Z.shiftl_spec in Li by lia.
  destruct (Z.testbit bits i), (Z.testbit b (i - (56 - c))); cbn in *; congruence.
Qed.

Definition holds (data : list Z) (r : reader) (rest : list bool) : Prop :=
  0 <= r_ptr r <= r_end r /\ r_end r <= Z.of_nat (length data) /\ 0 <= r_count r <= 64 /\ 0 <= r_bits r < 2 ^ 64 /\ low_zero (r_bits r) (r_count r) /\
  rest = top (r_bits r) (Z.to_nat (r_count r)) ++ stream_bits (skipn (Z.to_nat (r_ptr r)) (firstn (Z.to_nat (r_end r)) data)).
Lemma reset_holds data : holds data (reset data) (stream_bits data).
Proof.
  unfold holds, reset. cbn [r_ptr r_end r_bits r_count]. split; [lia|]. split; [lia|]. split; [lia|]. split; [lia|]. split; [intros i _; apply Z.bits_0|]. rewrite Nat2Z.id, firstn_all. reflexivity.
Qed.
Lemma skipn_cons (l : list Z) p b : 0 <= p -> nth_error l (Z.to_nat p) = Some b -> skipn (Z.to_nat p) l = b :: skipn (Z.to_nat (p + 1)) l.
Proof.
  intros H. rewrite Z2Nat.inj_add by lia. change (Z.to_nat 1) with 1%nat. generalize (Z.to_nat p) as k. clear. intros k. revert l. induction k as [|k IH]; intros [|x l] E; cbn [nth_error] in E; try discriminate.
  - inversion E; subst. reflexivity.
  - cbn [Nat.add skipn]. apply IH. exact E.
Qed.
Lemma push_holds data r p b t : 0 <= r_ptr r <= p -> p <= r_end r -> r_end r <= Z.of_nat (length data) -> 0 <= r_count r <= 56 -> 0 <= r_bits r < 2 ^ 64 -> low_zero (r_bits r) (r_count r) -> 0 <= b < 256 ->
  t = skipn (Z.to_nat p) (firstn (Z.to_nat (r_end r)) data) -> holds data (push r p b) (top (r_bits r) (Z.to_nat (r_count r)) ++ bits_of 8 b ++ stream_bits t).
Proof.
  intros H1 H2 H3 H4 H5 H6 H7 ->. unfold holds, push. cbn [r_ptr r_end r_bits r_count]. assert (W : w64 (r_count r + 8) = r_count r + 8) by (unfold w64; apply Z.mod_small; lia). rewrite W.
  split; [lia|]. split; [lia|]. split; [lia|]. split; [apply w64_range|]. split.
  - intros i Hi. rewrite push_bits by (assumption || lia). rewrite H6 by lia. rewrite Z.testbit_neg_r by lia. reflexivity.
  - rewrite app_assoc. f_equal. rewrite Z2Nat.inj_add by lia. rewrite top_split. f_equal.
    + unfold top. apply map_ext_in. intros i Hi. apply in_seq in Hi. rewrite push_bits by (assumption || lia). rewrite (byte_high b) by lia. rewrite orb_false_r. reflexivity.
    + unfold bits_of. apply map_ext_in. intros i Hi. apply in_seq in Hi. change (Z.to_nat 8) with 8%nat in Hi. rewrite push_bits by (assumption || lia). rewrite H6 by lia. cbn [orb]. f_equal. lia.
Qed.
Lemma refill_ok data : bytes data -> forall fuel r rest, holds data r rest -> 64 < r_count r + 8 * Z.of_nat fuel ->
  exists r', refill fuel data r = Ok r' /\ holds data r' rest /\ (56 < r_count r' \/ stream_bits (skipn (Z.to_nat (r_ptr r')) (firstn (Z.to_nat (r_end r')) data)) = []).
Proof.
  intros B. induction fuel as [|fuel IH]; intros r rest H F. { destruct H as (_ & _ & H & _). lia. }
  pose proof H as (H1 & H2 & H3 & H4 & H5 & H6). cbn [refill]. destruct (Z.leb_spec (r_count r) 56) as [C|C]; cbn [andb]. 2:{ exists r. split; [reflexivity|]. split; [exact H|left; lia]. }
  set (seg := firstn (Z.to_nat (r_end r)) data) in *. assert (SL : Z.of_nat (length seg) = r_end r) by (unfold seg; rewrite firstn_length; lia).
  destruct (Z.eqb_spec (r_ptr r) (r_end r)) as [E|E]; cbn [negb]. { exists r. split; [reflexivity|]. split; [exact H|right]. fold seg. rewrite skipn_all2 by lia. reflexivity. }
  assert (BS : bytes seg) by (apply bytes_firstn; exact B).
  destruct (nth_error seg (Z.to_nat (r_ptr r))) as [b|] eqn:N. 2:{ apply nth_error_None in N. lia. }
  rewrite (rd_ok seg (r_ptr r) b ltac:(lia) N). cbn [bind]. pose proof (proj1 (Forall_forall _ _) BS b (nth_error_In _ _ N)) as HB. unfold is_byte in HB. rewrite (skipn_cons seg (r_ptr r) b ltac:(lia) N) in H6.
  assert (CW : forall p, r_count (push r p b) = r_count r + 8) by (intros p; unfold push; cbn [r_count]; unfold w64; apply Z.mod_small; lia).
  destruct (Z.eqb_spec b 255) as [->|NB].
  - destruct (Z.eqb_spec (r_ptr r + 1) (r_end r)) as [E1|E1].
    + rewrite skipn_all2 in H6 by lia. eexists. split; [reflexivity|]. unfold holds. cbn [r_ptr r_end r_bits r_count]. fold seg. rewrite skipn_all2 by lia. split; [|right; reflexivity].
      split; [lia|]. split; [lia|]. split; [lia|]. split; [lia|]. split; [exact H5|]. exact H6.
    + destruct (nth_error seg (Z.to_nat (r_ptr r + 1))) as [m|] eqn:N1. 2:{ apply nth_error_None in N1. lia. }
      rewrite (rd_ok seg (r_ptr r + 1) m ltac:(lia) N1). cbn [bind]. rewrite (skipn_cons seg (r_ptr r + 1) m ltac:(lia) N1) in H6.
      destruct (Z.eqb_spec m 0) as [->|NM]; cbn [negb].
      * apply IH; [|rewrite CW; lia]. rewrite H6. unfold stream_bits. cbn [entropy Z.eqb Pos.eqb flat_map]. apply push_holds; try assumption; try lia. reflexivity.
      * assert (Z0 : stream_bits (255 :: m :: skipn (Z.to_nat (r_ptr r + 1 + 1)) seg) = []) by (unfold stream_bits; cbn [entropy Z.eqb Pos.eqb]; destruct m; [lia|reflexivity|reflexivity]). rewrite Z0 in H6.
        eexists. split; [reflexivity|]. unfold holds. cbn [r_ptr r_end r_bits r_count]. replace (r_ptr r + 1 + 1 - 2) with (r_ptr r) by lia.
        rewrite (skipn_all2 (firstn (Z.to_nat (r_ptr r)) data)) by (rewrite firstn_length; lia). split; [|right; reflexivity]. split; [lia|]. split; [lia|]. split; [lia|]. split; [lia|]. split; [exact H5|]. exact H6.
  - apply IH; [|rewrite CW; lia]. rewrite H6. unfold stream_bits at 1. cbn [entropy]. destruct (Z.eqb_spec b 255); [lia|]. cbn [flat_map]. apply push_holds; try assumption; try lia. reflexivity.
Qed.
Lemma read_ok data r rest n : holds data r rest -> 0 <= n <= 64 -> n <= r_count r ->
  exists r' rest', read r n = Ok (peek (r_bits r) n, r') /\ holds data r' rest' /\ rest = bits_of n (peek (r_bits r) n) ++ rest'.
Proof.
  intros (H1 & H2 & H3 & H4 & H5 & H6) Hn C. unfold read. destruct (Z.ltb_spec (r_count r) n); [lia|]. cbn [drop]. eexists. eexists. split; [reflexivity|].
  assert (W : w64 (r_count r - n) = r_count r - n) by (unfold w64; apply Z.mod_small; lia). unfold holds. cbn [r_ptr r_end r_bits r_count]. rewrite W. split.
  - split; [lia|]. split; [lia|]. split; [lia|]. split; [apply w64_range|]. split; [|reflexivity]. intros i Hi. rewrite w64_bit by lia. rewrite Z.shiftl_spec by lia. destruct (Z.lt_ge_cases i n); [apply Z.testbit_neg_r; lia|]. apply H5. lia.
  - rewrite H6, app_assoc. f_equal. replace (Z.to_nat (r_count r)) with (Z.to_nat n + Z.to_nat (r_count r - n))%nat by lia. rewrite top_split. f_equal.
    + unfold top, bits_of, peek. apply map_ext_in. intros i Hi. apply in_seq in Hi. rewrite Z.shiftr_spec by lia. f_equal. lia.
    + unfold top. apply map_ext_in. intros i Hi. apply in_seq in Hi. rewrite w64_bit by lia. rewrite Z.shiftl_spec by lia. f_equal. lia.
Qed.
Definition op_ok (o : op) : Prop := match o with Refill => True | Read n => 1 <= n <= 32 end.
Lemma exec_ok data : bytes data -> forall ops r rest, holds data r rest -> Forall op_ok ops ->
  (exists out r' rest', exec data r ops = Ok (out, r') /\ holds data r' rest' /\ rest = read_bits out ++ rest' /\ Forall (fun x => 0 <= snd x < 2 ^ fst x) out) \/ exec data r ops = Err BL_ERROR_DECOMPRESSION_FAILED.
Proof.
  intros B. induction ops as [|[|n] ops IH]; intros r rest H F; cbn [exec].
  - left. exists [], r, rest. split; [reflexivity|]. split; [exact H|]. split; [reflexivity|constructor].
  - inversion F as [|? ? _ F']; subst. pose proof H as (_ & _ & HC & _). destruct (refill_ok data B 9 r rest H ltac:(lia)) as (r' & E & H' & _). rewrite E. cbn [bind]. apply IH; assumption.
  - inversion F as [|? ? Fn F']; subst. cbn [op_ok] in Fn. destruct (Z.lt_ge_cases (r_count r) n) as [C|C]. { right. unfold read. destruct (Z.ltb_spec (r_count r) n); [reflexivity|lia]. }
    destruct (read_ok data r rest n H ltac:(lia) C) as (r' & rest' & E & H' & R). rewrite E. cbn [bind]. destruct (IH r' rest' H' F') as [(out & r2 & rest2 & E2 & H2 & R2 & V2)|E2]; rewrite E2; cbn [bind]; [left|right; reflexivity].
    do 3 eexists. split; [reflexivity|]. split; [exact H2|]. split; [rewrite R, R2; unfold read_bits; cbn [flat_map fst snd]; rewrite app_assoc; reflexivity|]. constructor; [|exact V2]. cbn [fst snd]. apply peek_range; [|lia]. destruct H as (_ & _ & _ & HB & _). exact HB.
Qed.
Lemma exec_app data a : forall r b, exec data r (a ++ b) = let* (o1, r1) := exec data r a in let* (o2, r2) := exec data r1 b in Ok (o1 ++ o2, r2).
Proof.
  induction a as [|[|n] a IH]; intros r b; cbn [app exec bind].
  - destruct (exec data r b) as [[o2 r2]| | |]; reflexivity.
  - destruct (refill 9 data r) as [r1| | |]; cbn [bind]; [apply IH|reflexivity..].
  - destruct (read r n) as [[v r1]| | |]; cbn [bind]; [|reflexivity..]. rewrite IH. destruct (exec data r1 a) as [[o1 r2]| | |]; cbn [bind]; [|reflexivity..]. destruct (exec data r2 b) as [[o2 r3]| | |]; reflexivity.
Qed.
