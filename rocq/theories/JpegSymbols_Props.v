(* Huffman symbols of a JPEG segment. *)
From Verif Require Import Base JpegHuff_Model JpegHuff_Spec JpegHuff_Proofs JpegHuff_Proofs2 JpegHuff_Props JpegBits_Model JpegBits_Spec JpegBits_Proofs JpegSymbols_Model.
Ltac Zify.zify_post_hook ::= idtac.

(* the canonical code of symbol [j]: as many leading bits of the start of its interval as the code is long *)
Definition code_bits (ls : list Z) (j : nat) : list bool :=
  let l := nth j ls 0 in bits_of l (weight (firstn j ls) / 2 ^ (16 - l)).

Lemma bits_of_length n v : length (bits_of n v) = Z.to_nat n.
Proof. unfold bits_of. rewrite map_length, seq_length. reflexivity. Qed.
Lemma bits_of_inj n a b : 0 <= n -> 0 <= a < 2 ^ n -> 0 <= b < 2 ^ n -> bits_of n a = bits_of n b -> a = b.
Proof.
  intros Hn Ha Hb E. apply Z.bits_inj'. intros i Hi. destruct (Z.lt_ge_cases i n) as [L|L].
  - pose proof (f_equal (fun s => nth (Z.to_nat (n - 1 - i)) s false) E) as N. cbn beta in N. unfold bits_of in N.
    rewrite !(nth_indep _ false (Z.testbit a (n - 1 - Z.of_nat 0))) in N by (rewrite map_length, seq_length; lia). rewrite (map_nth (fun i => Z.testbit a (n - 1 - Z.of_nat i)) _ 0%nat) in N.
    rewrite (nth_indep _ (Z.testbit a (n - 1 - Z.of_nat 0)) (Z.testbit b (n - 1 - Z.of_nat 0))) in N by (rewrite map_length, seq_length; lia). rewrite (map_nth (fun i => Z.testbit b (n - 1 - Z.of_nat i)) _ 0%nat) in N.
    rewrite seq_nth in N by lia. replace (n - 1 - Z.of_nat (0 + Z.to_nat (n - 1 - i))) with i in N by lia. exact N.
  - rewrite <- (Z.mod_small a (2 ^ n)), <- (Z.mod_small b (2 ^ n)) by lia. rewrite !Z.mod_pow2_bits_high by lia. reflexivity.
Qed.
Lemma app_inv_len {A} (a b c d : list A) : length a = length c -> a ++ b = c ++ d -> a = c /\ b = d.
Proof. revert c. induction a as [|x a IH]; intros [|y c] L E; cbn [length app] in *; try lia; [auto|]. inversion E. destruct (IH c ltac:(lia) ltac:(assumption)) as [-> ->]. auto. Qed.

Lemma next_ok dht t n data r j rest : bytes dht -> build_huffman_table dht = Ok (t, n) -> bytes data -> (j < length (dht_lengths dht))%nat ->
  holds data r (code_bits (dht_lengths dht) j ++ rest) -> exists r', next_symbol data t r = Ok (nth (16 + j) dht 0, r') /\ holds data r' rest.
Proof.
  intros B E BD J H. set (ls := dht_lengths dht) in *. destruct (built_inv dht t n B E) as [W (_ & _ & _ & _ & _ & _ & A & _)]. fold (dht_lengths dht) in A. fold ls in A.
  pose proof (nth_error_nth' ls 0 J) as N. set (l := nth j ls 0) in *. destruct (aligned_nth ls _ 0 j l A N) as (Hl & c & Hc). rewrite Z.add_0_l in Hc.
  assert (P : 0 < 2 ^ (16 - l)) by (apply Z.pow_pos_nonneg; lia). assert (CD : weight (firstn j ls) / 2 ^ (16 - l) = c) by (rewrite <- Hc; apply Z.div_mul; lia).
  unfold code_bits in H. fold l in H. rewrite CD in H.
  assert (C0 : 0 <= c < 2 ^ l).
  { pose proof (weight_nonneg (firstn j ls)). destruct W as (_ & _ & _ & F). change (lengths 1 (counts dht)) with ls in F. unfold fits in F.
    destruct (nth_error_split _ _ N) as (l1 & l2 & E1 & E2). assert (F1 : firstn j ls = l1) by (rewrite E1, <- E2, firstn_app, Nat.sub_diag, firstn_all, app_nil_r; reflexivity). rewrite F1 in *. rewrite E1, weight_app in F. cbn [weight] in F. pose proof (weight_nonneg l2).
    assert (P16 : 2 ^ 16 = 2 ^ l * 2 ^ (16 - l)) by (rewrite <- Z.pow_add_r by lia; f_equal; lia). rewrite P16 in F. split; [nia|]. nia. }
  unfold next_symbol. pose proof H as (_ & _ & HC & _). destruct (refill_ok data BD 9 r _ H ltac:(lia)) as (r1 & E1 & H1 & Full). rewrite E1. cbn [bind].
  assert (LC : l <= r_count r1). { destruct Full as [Full|Full]; [lia|]. destruct H1 as (_ & _ & HC1 & _ & _ & R). rewrite Full, app_nil_r in R. apply (f_equal (@length bool)) in R. rewrite app_length, bits_of_length, top_length in R. lia. }
  destruct (read_ok data r1 _ l H1 ltac:(lia) LC) as (r2 & rest2 & E2 & H2 & R2). apply app_inv_len in R2; [|rewrite !bits_of_length; reflexivity]. destruct R2 as [RB <-]. pose proof H1 as (_ & _ & _ & HB & _).
  apply bits_of_inj in RB; [|lia|exact C0|apply peek_range; [exact HB|lia]].
  assert (SW : starts_with ls (r_bits r1 / 2 ^ 48) j l).
  { split; [exact N|]. rewrite peek_div in RB by lia. assert (X : peek (r_bits r1) 16 = r_bits r1 / 2 ^ 48) by (unfold peek; rewrite Z.shiftr_div_pow2 by lia; reflexivity). rewrite X in RB. rewrite <- Hc, RB. set (x := r_bits r1 / 2 ^ 48). pose proof (Z.div_mod x (2 ^ (16 - l)) ltac:(lia)). pose proof (Z.mod_pos_bound x (2 ^ (16 - l)) P). lia. }
  destruct (C97_read_code dht t n (r_bits r1) (r_count r1) B E HB) as [Y _]. rewrite (Y j l SW). destruct (Z.ltb_spec (r_count r1) l); [lia|]. cbn [bind].
  unfold read in E2. destruct (Z.ltb_spec (r_count r1) l); [lia|]. cbn [drop] in *. eexists. split; [reflexivity|]. inversion E2; subst r2. exact H2.
Qed.

(* C100: a segment that begins with the codes of any symbols is read as these symbols *)
Theorem C100_round_trip dht t n data js rest : bytes dht -> build_huffman_table dht = Ok (t, n) -> bytes data ->
  (forall j, In j js -> (j < length (dht_lengths dht))%nat) ->
  stream_bits data = flat_map (code_bits (dht_lengths dht)) js ++ rest ->
  exists r, symbols (length js) data t (reset data) = Ok (map (fun j => nth (16 + j) dht 0) js, r).
Proof.
  intros B E BD J S. pose proof (reset_holds data) as H. rewrite S in H. clear S. revert H. generalize (reset data) as r. induction js as [|j js IH]; intros r H; cbn [length symbols map]; [eexists; reflexivity|].
  cbn [flat_map] in H. rewrite <- app_assoc in H. destruct (next_ok dht t n data r j _ B E BD (J j (or_introl eq_refl)) H) as (r1 & E1 & H1). rewrite E1. cbn [bind].
  destruct (IH (fun k HI => J k (or_intror HI)) r1 H1) as (r2 & E2). rewrite E2. cbn [bind]. eexists. reflexivity.
Qed.
Print Assumptions C100_round_trip.
(* 011 1010 00 | 1011 0000 1 ... with a stuffed byte: symbols 2, 5, 0, 7, 0, 4 *)
Example C100_ex : exists data r, stream_bits data = flat_map (code_bits (dht_lengths ex_dht)) [2; 5; 0; 7; 0; 4]%nat ++ repeat true 8 /\
  symbols 6 data ex_table (reset data) = Ok ([0x00; 0xF0; 0x01; 0x66; 0x01; 0x21], r).
Proof. exists [0x74; 0x58; 0x49; 0xFF; 0x00]. eexists. vm_compute. split; reflexivity. Qed.
