(* Huffman tables of the JPEG decoder. *)
From Verif Require Import Base JpegHuff_Model JpegHuff_Spec JpegHuff_Proofs JpegHuff_Proofs2.
Ltac Zify.zify_post_hook ::= idtac.

Lemma valid_well data : bytes data -> (valid_dht data <-> well_formed data).
Proof.
  intros B. pose proof (lengths_length (firstn 16 data) 1 (bytes_firstn 16 data B)) as L. unfold valid_dht, well_formed, dht_lengths, counts. cbv zeta. rewrite L. split; intros (A1 & A2 & A3 & A4); (split; [lia|split; [lia|split; [lia|exact A4]]]).
Qed.
Lemma covered ls : forall x, 0 <= x < weight ls -> exists j l, starts_with ls x j l.
Proof.
  induction ls as [|a ls IH]; intros x H; cbn [weight] in H; [lia|]. destruct (Z.lt_ge_cases x (2 ^ (16 - a))) as [C|C].
  - exists 0%nat, a. split; [reflexivity|]. cbn [firstn weight]. lia.
  - destruct (IH (x - 2 ^ (16 - a)) ltac:(lia)) as (j & l & N & R). exists (S j), l. split; [exact N|]. cbn [firstn weight]. lia.
Qed.
Lemma built_inv data t n : bytes data -> build_huffman_table data = Ok (t, n) -> well_formed data /\ built data t.
Proof.
  intros B E. destruct (build_ok data B) as [Y N].
  assert (D : well_formed data \/ ~ well_formed data). { unfold well_formed, fits. destruct (Z_le_dec 16 (Z.of_nat (length data))), (Z_le_dec (total (counts data)) 256), (Z_le_dec (total (counts data) + 16) (Z.of_nat (length data))), (Z_le_dec (weight (lengths 1 (counts data))) (2 ^ 16)); tauto. }
  destruct D as [W|W]; [|rewrite (N W) in E; discriminate]. destruct (Y W) as (t' & E' & T). rewrite E' in E. inversion E; subst. split; assumption.
Qed.

(* a table with codes of 2, 3, 4 and 9 bits *)
Definition ex_dht : list Z := [0; 1; 2; 3; 0; 0; 0; 0; 2; 0; 0; 0; 0; 0; 0; 0; 0x01; 0x12; 0x00; 0x03; 0x21; 0xF0; 0x55; 0x66].
Definition ex_table : table := match build_huffman_table ex_dht with Ok (t, _) => t | _ => Table [] [] [] [] [] [] end.

(* C96: the table is built exactly for data that describe a code which fits; anything else is refused *)
Theorem C96_build data : bytes data ->
  (valid_dht data -> exists t, build_huffman_table data = Ok (t, 16 + Z.of_nat (length (dht_lengths data)))) /\
  (~ valid_dht data -> build_huffman_table data = Err BL_ERROR_INVALID_DATA).
Proof.
  intros B. destruct (build_ok data B) as [Y N]. pose proof (valid_well data B) as V. split; intros H.
  - destruct (Y (proj1 V H)) as (t & E & _). exists t. rewrite E. unfold dht_lengths. rewrite (lengths_length _ 1 (bytes_firstn 16 data B)). reflexivity.
  - apply N. intros W. apply H, V, W.
Qed.
Print Assumptions C96_build.
Example C96_ex : exists t, build_huffman_table (ex_dht ++ [7; 7]) = Ok (t, 24).
Proof. eexists. vm_compute. reflexivity. Qed.
(* three codes of one bit; a missing symbol *)
Example C96_ex_over : build_huffman_table ([3; 0; 0; 0; 0; 0; 0; 0; 0; 0; 0; 0; 0; 0; 0; 0] ++ [1; 2; 3]) = Err BL_ERROR_INVALID_DATA.
Proof. vm_compute. reflexivity. Qed.
Example C96_ex_short : build_huffman_table (firstn 23 ex_dht) = Err BL_ERROR_INVALID_DATA.
Proof. vm_compute. reflexivity. Qed.

(* C97: the bits of the stream start with the code of at most one symbol; read_code returns this symbol and the length of
   its code if the reader holds that many bits, and fails otherwise *)
Theorem C97_prefix_free ls x j l j' l' : starts_with ls x j l -> starts_with ls x j' l' -> j = j' /\ l = l'.
Proof. apply starts_unique. Qed.
Print Assumptions C97_prefix_free.
Theorem C97_read_code data t n bits count : bytes data -> build_huffman_table data = Ok (t, n) -> 0 <= bits < 2 ^ 64 ->
  let first16 := bits / 2 ^ 48 in
  (forall j l, starts_with (dht_lengths data) first16 j l ->
     read_code t bits count = if count <? l then Err BL_ERROR_DECOMPRESSION_FAILED else Ok (nth (16 + j) data 0, l)) /\
  ((forall j l, ~ starts_with (dht_lengths data) first16 j l) -> read_code t bits count = Err BL_ERROR_DECOMPRESSION_FAILED).
Proof.
  intros B E Hb x. destruct (built_inv data t n B E) as [W T]. pose proof (read_code_ok data t bits count B W T Hb (last_long data B W)) as R. cbv zeta in R.
  assert (X : peek bits 16 = x) by (unfold peek; rewrite Z.shiftr_div_pow2 by lia; reflexivity). rewrite X in R. exact R.
Qed.
Print Assumptions C97_read_code.
(* every stream is decoded or refused, without access outside the tables; refused by a reader with 16 bits only if the
   bits lie after the last code *)
Theorem C97_total data t n bits count : bytes data -> build_huffman_table data = Ok (t, n) -> 0 <= bits < 2 ^ 64 ->
  (exists v l, read_code t bits count = Ok (v, l) /\ 1 <= l <= 16 /\ l <= count /\ In v (skipn 16 data)) \/
  (read_code t bits count = Err BL_ERROR_DECOMPRESSION_FAILED /\ (16 <= count -> weight (dht_lengths data) <= bits / 2 ^ 48)).
Proof.
  intros B E Hb. destruct (C97_read_code data t n bits count B E Hb) as [Y N]. set (x := bits / 2 ^ 48) in *. assert (X0 : 0 <= x) by (apply Z.div_pos; lia).
  destruct (built_inv data t n B E) as [W T]. destruct T as (_ & _ & _ & _ & _ & _ & A & _). fold (dht_lengths data) in A.
  destruct (Z.lt_ge_cases x (weight (dht_lengths data))) as [C|C].
  - destruct (covered _ x (conj X0 C)) as (j & l & S). pose proof S as [Nj _]. destruct (aligned_nth _ _ 0 j l A Nj) as (Hl & _). rewrite (Y j l S). destruct (Z.ltb_spec count l); [right; split; [reflexivity|lia]|left].
    exists (nth (16 + j) data 0), l. split; [reflexivity|]. split; [lia|]. split; [lia|]. rewrite <- nth_skip. apply nth_In. rewrite skipn_length.
    assert (J : (j < length (dht_lengths data))%nat) by (apply nth_error_Some; congruence). apply (valid_well data B) in W. destruct W as (_ & _ & W3 & _). lia.
  - right. split; [|lia]. apply N. intros j l [Nj R]. destruct (nth_error_split _ _ Nj) as (l1 & l2 & E1 & E2). pose proof R as R'. rewrite E1 in R', C. rewrite <- E2 in R'. rewrite firstn_app, Nat.sub_diag, firstn_all, app_nil_r in R'. rewrite weight_app in C. cbn [weight] in C. pose proof (weight_nonneg l2). lia.
Qed.
Print Assumptions C97_total.
(* 1001: the second code of four bits; 1011 0000 1: the code of nine bits of the last symbol *)
Example C97_ex_short : read_code ex_table (0x9123 * 2 ^ 48) 64 = Ok (0x21, 4) /\ starts_with (dht_lengths ex_dht) 0x9123 4 4.
Proof. split; [vm_compute; reflexivity|]. split; [reflexivity|]. vm_compute. split; [intros H; discriminate|reflexivity]. Qed.
Example C97_ex_long : exists x, read_code ex_table (x * 2 ^ 48) 64 = Ok (0x66, 9) /\ read_code ex_table (x * 2 ^ 48) 8 = Err BL_ERROR_DECOMPRESSION_FAILED.
Proof. exists 0xB0C5. split; vm_compute; reflexivity. Qed.
Example C97_ex_none : read_code ex_table (2 ^ 64 - 1) 64 = Err BL_ERROR_DECOMPRESSION_FAILED.
Proof. vm_compute. reflexivity. Qed.

(* C98: with eight bits in the reader the fast table of AC coefficients gives the run, the value and the number of bits of
   the two reads it replaces *)
Theorem C98_fast_ac data t n bits count : bytes data -> build_huffman_table data = Ok (t, n) -> 0 <= bits < 2 ^ 64 -> 8 <= count <= 64 ->
  next_coef t bits count = slow_coef t bits count.
Proof.
  intros B E Hb Hc. destruct (built_inv data t n B E) as [W T]. unfold next_coef. destruct (ac_total data t bits B W T Hb) as [ac A]. rewrite A. cbn [bind].
  destruct (Z.eqb_spec ac 0) as [|Z]; [reflexivity|]. cbn [negb]. symmetry. exact (fast_ok data t bits count ac B W T Hb Hc A Z).
Qed.
Print Assumptions C98_fast_ac.
Example C98_ex : exists b, next_coef ex_table b 64 = Ok (Coef 1 (-2) 5) /\ ac_entry ex_table (peek b 8) = Ok (-2 * 256 + 21).
Proof. exists (0x4A * 2 ^ 56). split; vm_compute; reflexivity. Qed.
(* With fewer bits the fast path does not look at the number of bits: a coefficient is made up of bits the stream does not
   have, the counter wraps around. The two reads refuse the same input. *)
Theorem C98_missing_bits_refuted : exists data t n bits count r v used,
  bytes data /\ build_huffman_table data = Ok (t, n) /\ 0 <= bits < 2 ^ 64 /\ 0 <= count < used /\
  next_coef t bits count = Ok (Coef r v used) /\ slow_coef t bits count = Err BL_ERROR_DECOMPRESSION_FAILED /\ 2 ^ 63 < snd (drop bits count used).
Proof.
  exists ex_dht, ex_table, 24, (0x40 * 2 ^ 56), 2. do 3 eexists. split; [repeat constructor; unfold is_byte; lia|]. split; [vm_compute; reflexivity|]. split; [lia|].
  split; [|split; [vm_compute; reflexivity|split; [vm_compute; reflexivity|vm_compute; reflexivity]]]. lia.
Qed.
Print Assumptions C98_missing_bits_refuted.
