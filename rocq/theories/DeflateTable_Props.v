(* C42: a table built from code lengths decodes every bit stream as RFC 1951 says, and exactly the codes the format allows are
   accepted.  C43: construction stays inside the fixed-size tables for every possible block header. *)
From Verif Require Import Base Bits Algorithm_Spec Algorithm_Model Algorithm_Proofs Deflate_Spec DeflateTable_Model DeflateTable_Proofs DeflateTable_Proofs2 DeflateTable_Proofs3 DeflateTable_Proofs4 DeflateTable_Proofs5 DeflateTable_Proofs6 DeflateTable_Proofs7 DeflateTable_Proofs8 DeflateTable_Proofs9.

(* what the entry e found for the stream V must say, per kind of symbol; e as the decoder reads it *)
Definition litlen_means (lens : list Z) (V e : Z) : Prop :=
  (forall s, decodes lens V s ->
    let l := len_of lens s in
    (s < 256 -> is_literal e = true /\ payload_field e = s /\ base_length e = l) /\
    (s = 256 -> is_literal e = false /\ is_end_of_block e = true /\ is_end_of_block_invalid e = false /\ full_length e = l) /\
    (257 <= s <= 285 -> is_literal e = false /\ is_end_of_block e = false /\ payload_field e = length_base s /\
       base_length e = l /\ full_length e = l + length_extra s) /\
    (286 <= s -> is_literal e = false /\ is_end_of_block e = true /\ is_end_of_block_invalid e = true)) /\
  ((forall s, ~ decodes lens V s) -> is_literal e = false /\ is_end_of_block e = true /\ is_end_of_block_invalid e = true).
Definition offset_means (lens : list Z) (V e : Z) : Prop :=
  (forall s, decodes lens V s ->
    let l := len_of lens s in
    (s <= 29 -> is_end_of_block e = false /\ payload_field e = offset_base s /\ base_length e = l /\ full_length e = l + offset_extra s) /\
    (30 <= s -> is_end_of_block e = true)) /\
  ((forall s, ~ decodes lens V s) -> is_end_of_block e = true).
Definition precode_means (lens : list Z) (V e : Z) : Prop :=
  exists s, decodes lens V s /\ precode_value e = s /\ base_length e = len_of lens s /\
    (s < 16 -> full_length e = len_of lens s) /\
    (s = 16 -> full_length e = len_of lens s + 2 /\ precode_repeat e = 3) /\
    (s = 17 -> full_length e = len_of lens s + 3 /\ precode_repeat e = 3) /\
    (s = 18 -> full_length e = len_of lens s + 7 /\ precode_repeat e = 11).

(* every vector of at most 288 lengths of at most 15 bits; t is whatever memory the table occupies *)
Theorem C42_litlen_table lens t :
  Forall (fun l => 0 <= l <= 15) lens -> (length lens <= 288)%nat -> length t = 2342%nat ->
  exists t' info, build_decode_table t lens kLitLenDecodeResults kDecoderLitLenTableBits kMaxCodeWordLen TLitLen = Ok (t', info) /\
    (ti_bits info = 0 <-> ~ litlen_good lens) /\
    (litlen_good lens -> forall V, 0 <= V -> exists e, lookup t' (ti_bits info) V = Ok e /\ litlen_means lens V e).
Proof.
  intros H1 H2 Ht. destruct (lit_build lens t (conj H1 H2) Ht) as [t' [info [E [L C]]]]. exists t', info. split; [exact E|].
  destruct C as [[C1 [C2 _]]|[C1 [C2 [C3 _]]]].
  - split; [tauto|]. tauto.
  - split; [split; [lia|tauto]|]. intros _ V HV.
    destruct (lookup_ok lens lit_lo lit_pay lit_fl (ti_bits info) t' C3 H1 ltac:(lia) ltac:(intros; apply lit_res_ok; lia) V HV) as [e [EL Q]].
    exists e. split; [exact EL|]. destruct Q as [[s [D [Rl [x [base [Ee [EO [Ex [Ef Eb]]]]]]]]]|[N ->]].
    + split; [|intros N; destruct (N s D)]. intros s' D'. assert (s' = s) as -> by exact (decodes_unique lens V s' s H1 D' D). subst e.
      assert (Rs : 0 <= s < 288) by (destruct D; lia). cbv zeta.
      rewrite (ent_literal _ _ _ _ EO), (ent_eob _ _ _ _ EO), (ent_invalid _ _ _ _ EO), (ent_pay _ _ _ _ EO), (ent_base _ _ _ _ EO), (ent_full _ _ _ _ EO).
      clear C3 EL. unfold lit_fl, lit_pay, lit_lo in *.
      destruct (s <? 256) eqn:F1; [repeat split; intros; try lia; try reflexivity; apply Eb; reflexivity|].
      destruct (s =? 256) eqn:F2; [cbn [orb] in *; repeat split; intros; try lia; try reflexivity; rewrite Ef; lia|].
      destruct (286 <=? s) eqn:F3; cbn [orb] in *; [repeat split; intros; try lia; reflexivity|].
      assert (length_extra s < 64) by (unfold length_extra; destruct ((s - 257 <? 8) || (s - 257 =? 28)); lia).
      repeat split; intros; try lia; try reflexivity; first [apply Eb; reflexivity|rewrite Ef by lia; lia].
    + split; [intros s D; destruct (N V s HV ltac:(lia) D)|]. intros _. repeat split.
Qed.
Print Assumptions C42_litlen_table.

Theorem C42_offset_table lens t :
  Forall (fun l => 0 <= l <= 15) lens -> (length lens <= 32)%nat -> length t = 594%nat ->
  exists t' info, build_decode_table t lens kOffsetDecodeResults kDecoderOffsetTableBits kMaxCodeWordLen TOffset = Ok (t', info) /\
    (ti_bits info = 0 <-> ~ offset_good lens) /\
    (offset_good lens -> forall V, 0 <= V -> exists e, lookup t' (ti_bits info) V = Ok e /\ offset_means lens V e).
Proof.
  intros H1 H2 Ht. destruct (off_build lens t H1 H2 Ht) as [t' [info [E [L C]]]]. exists t', info. split; [exact E|].
  destruct C as [[C1 [C2 _]]|[C1 [C2 C3]]].
  - split; [tauto|]. tauto.
  - split; [split; [lia|tauto]|]. intros _ V HV.
    destruct (lookup_ok lens off_lo off_pay off_fl (ti_bits info) t' C3 H1 ltac:(lia) ltac:(intros; apply off_res_ok; lia) V HV) as [e [EL Q]].
    exists e. split; [exact EL|]. destruct Q as [[s [D [Rl [x [base [Ee [EO [Ex [Ef Eb]]]]]]]]]|[N ->]].
    + split; [|intros N; destruct (N s D)]. intros s' D'. assert (s' = s) as -> by exact (decodes_unique lens V s' s H1 D' D). subst e.
      assert (Rs : 0 <= s < 32) by (destruct D; lia). cbv zeta.
      rewrite (ent_eob _ _ _ _ EO), (ent_pay _ _ _ _ EO), (ent_base _ _ _ _ EO), (ent_full _ _ _ _ EO).
      clear C3 EL. unfold off_fl, off_pay, off_lo in *.
      destruct (30 <=? s) eqn:F1; [repeat split; intros; try lia; reflexivity|].
      assert (offset_extra s < 64) by (unfold offset_extra; destruct (s <? 4); lia).
      repeat split; intros; try lia; try reflexivity; first [apply Eb; reflexivity|rewrite Ef by lia; lia].
    + split; [intros s D; destruct (N V s HV ltac:(lia) D)|]. reflexivity.
Qed.
Print Assumptions C42_offset_table.

(* the decoder reads the precode table without a second level *)
Theorem C42_precode_table lens t :
  Forall (fun l => 0 <= l <= 7) lens -> (length lens <= 19)%nat -> length t = 128%nat ->
  exists t' info, build_decode_table t lens kPrecodeDecodeResults kDecoderPrecodeTableBits kMaxPreCodeWordLen TPrecode = Ok (t', info) /\
    (ti_bits info = 0 <-> ~ precode_good lens) /\
    (precode_good lens -> forall V, 0 <= V -> exists e, rd t' (Z.land V (mask32 (ti_bits info))) = Ok e /\ precode_means lens V e).
Proof.
  intros H1 H2 Ht. destruct (pre_build lens t H1 H2 Ht) as [t' [info [E [L C]]]]. exists t', info. split; [exact E|].
  destruct C as [[C1 [C2 _]]|[C1 [C2 [C3 C4]]]].
  - split; [tauto|]. tauto.
  - split; [split; [lia|tauto]|]. intros _ V HV. unfold mask32. rewrite (land_mod V (ti_bits info)) by (reflexivity || lia).
    assert (HF : Forall len_ok lens) by (eapply Forall_impl; [|exact H1]; unfold len_ok; cbn; intros; lia).
    assert (Hok : lens_ok lens) by (split; [exact HF|lia]). destruct (complete_decodes lens Hok C1 V) as [s0 D0].
    destruct (C3 V HV) as [[s [D [L1 Q]]]|[N _]]; [|destruct (N V s0 HV ltac:(lia) D0)].
    assert (Ls : len_of lens s <= ti_bits info).
    { destruct C4 as [C4|C4]; [rewrite C4|]; unfold len_of; [rewrite Forall_forall in H1; specialize (H1 (nth (Z.to_nat s) lens 0))|rewrite Forall_forall in C4; specialize (C4 (nth (Z.to_nat s) lens 0))];
        destruct D as [D _]; [destruct H1|apply C4]; try (apply nth_In; lia); lia. }
    destruct Q as [[_ Q]|[Q _]]; [|lia]. cbn [Z.testbit] in Q.
    assert (Rs : 0 <= s < 19) by (destruct D; lia). destruct (pre_results s Rs) as [_ [EO0 _]].
    assert (R : 0 <= pre_lo s <= 7) by (unfold pre_lo; repeat (destruct (_ <? _) || destruct (_ =? _)); lia).
    assert (EO : ent_ok (pre_lo s + len_of lens s) (pre_pay s) 0 (len_of lens s)) by (unfold ent_ok in *; lia).
    eexists. split; [apply rd_elem, Q|]. exists s. split; [exact D|].
    rewrite (ent_value _ _ _ _ EO), (ent_base _ _ _ _ EO), (ent_full _ _ _ _ EO), (ent_repeat _ _ _ _ EO) by reflexivity.
    unfold pre_pay, pre_lo. split; [destruct (s <? 16) eqn:F1; [rewrite Z.add_mod by lia; lia|]; destruct (s =? 16) eqn:F2; [lia|]; destruct (s =? 17) eqn:F3; lia|].
    split; [reflexivity|]. split; [intros; replace (s <? 16) with true by lia; lia|].
    split; [|split]; intros ->; cbn [Z.ltb Z.eqb Z.compare Pos.compare Pos.compare_cont Pos.eqb]; lia.
Qed.
Print Assumptions C42_precode_table.

(* a complete code leaves no stream undecoded, and no stream starts with two codes *)
Theorem C42_complete_codes lens V :
  Forall (fun l => 0 <= l <= 15) lens -> (length lens <= 288)%nat -> complete_code lens ->
  exists s, decodes lens V s /\ forall s', decodes lens V s' -> s' = s.
Proof.
  intros H1 H2 HC. destruct (complete_decodes lens (conj H1 H2) HC V) as [s D]. exists s. split; [exact D|].
  intros s' D'. exact (decodes_unique lens V s' s H1 D' D).
Qed.
Print Assumptions C42_complete_codes.

(* the tables have 2342, 594 and 128 entries; no vector of lengths makes construction write or read outside them, and the result
   has the same size. The vectors are all that a block header can produce, good codes or not. *)
Theorem C43_tables_fit :
  (forall lens t, Forall (fun l => 0 <= l <= 15) lens -> (length lens <= 288)%nat -> Z.of_nat (length t) = kDecoderLitLenTableEntries ->
     exists t' info, build_decode_table t lens kLitLenDecodeResults kDecoderLitLenTableBits kMaxCodeWordLen TLitLen = Ok (t', info) /\ length t' = length t /\
       0 <= ti_bits info <= kDecoderLitLenTableBits) /\
  (forall lens t, Forall (fun l => 0 <= l <= 15) lens -> (length lens <= 32)%nat -> Z.of_nat (length t) = kDecoderOffsetTableEntries ->
     exists t' info, build_decode_table t lens kOffsetDecodeResults kDecoderOffsetTableBits kMaxCodeWordLen TOffset = Ok (t', info) /\ length t' = length t /\
       0 <= ti_bits info <= kDecoderOffsetTableBits) /\
  (forall lens t, Forall (fun l => 0 <= l <= 7) lens -> (length lens <= 19)%nat -> Z.of_nat (length t) = kDecoderPrecodeTableEntries ->
     exists t' info, build_decode_table t lens kPrecodeDecodeResults kDecoderPrecodeTableBits kMaxPreCodeWordLen TPrecode = Ok (t', info) /\ length t' = length t /\
       0 <= ti_bits info <= kDecoderPrecodeTableBits).
Proof.
  unfold kDecoderLitLenTableEntries, kDecoderOffsetTableEntries, kDecoderPrecodeTableEntries, kDecoderLitLenTableBits, kDecoderOffsetTableBits, kDecoderPrecodeTableBits.
  split; [|split]; intros lens t H1 H2 Ht.
  - destruct (lit_build lens t (conj H1 H2) ltac:(lia)) as [t' [info [E [L [C|C]]]]]; exists t', info; (split; [exact E|]); (split; [lia|]); lia.
  - destruct (off_build lens t H1 H2 ltac:(lia)) as [t' [info [E [L [C|C]]]]]; exists t', info; (split; [exact E|]); (split; [lia|]); lia.
  - destruct (pre_build lens t H1 H2 ltac:(lia)) as [t' [info [E [L [C|C]]]]]; exists t', info; (split; [exact E|]); (split; [lia|]); lia.
Qed.
Print Assumptions C43_tables_fit.

(* ------------------------------------------------------------------ examples *)

(* literal 97 has the code 0, end of block 10, length symbol 257 11 *)
Definition ex_lens : list Z := repeat 0 97 ++ [1] ++ repeat 0 158 ++ [2; 2].
Definition ex_table (lens : list Z) : outcome (list Z * table_info) :=
  build_decode_table (repeat 7 2342) lens kLitLenDecodeResults kDecoderLitLenTableBits kMaxCodeWordLen TLitLen.
Example C42_ex_litlen :
  match ex_table ex_lens with
  | Ok (t, info) => map (fun V => match lookup t (ti_bits info) V with Ok e => (is_literal e, is_end_of_block e, payload_field e, base_length e) | _ => (false, false, 0, 0) end) [0; 1; 3; 6]
      = [(true, false, 97, 1); (false, true, 0, 0); (false, false, 3, 2); (true, false, 97, 1)]
  | _ => False
  end.
Proof. vm_compute. reflexivity. Qed.
Example C42_ex_meets : Forall (fun l => 0 <= l <= 15) ex_lens /\ (length ex_lens <= 288)%nat /\ litlen_good ex_lens /\ decodes ex_lens 3 257.
Proof.
  split; [apply Forall_forall; intros l H; assert (B : forallb (fun l => (0 <=? l) && (l <=? 15)) ex_lens = true) by reflexivity; rewrite forallb_forall in B; specialize (B l H); lia|].
  split; [vm_compute; lia|]. split; [left; reflexivity|]. repeat split; vm_compute; congruence.
Qed.
(* too many codes, too few codes: rejected *)
Example C42_ex_overfull : match ex_table [1; 1; 1] with Ok (_, info) => ti_bits info = 0 | _ => False end.
Proof. vm_compute. reflexivity. Qed.
Example C42_ex_incomplete : match ex_table [2; 2; 2] with Ok (_, info) => ti_bits info = 0 | _ => False end.
Proof. vm_compute. reflexivity. Qed.
(* codes of 1..15 bits: two levels *)
Definition ex_deep : list Z := [1; 2; 3; 4; 5; 6; 7; 8; 9; 10; 11; 12; 13; 14; 15; 15].
Example C42_ex_deep : complete_code ex_deep /\ decodes ex_deep (2 ^ 15 - 1) 15 /\ decodes ex_deep 8191 13.
Proof. repeat split; vm_compute; congruence. Qed.
Example C42_ex_offset :
  match build_decode_table (repeat 7 594) ex_deep kOffsetDecodeResults kDecoderOffsetTableBits kMaxCodeWordLen TOffset with
  | Ok (t, info) => map (fun V => match lookup t (ti_bits info) V with Ok e => (is_end_of_block e, payload_field e, base_length e, full_length e) | _ => (false, 0, 0, 0) end) [0; 8191; 2 ^ 15 - 1]
      = [(false, 1, 1, 1); (false, 97, 14, 19); (false, 193, 15, 21)]
  | _ => False
  end.
Proof. vm_compute. reflexivity. Qed.
Example C42_ex_precode :
  match build_decode_table (repeat 7 128) (repeat 0 16 ++ [2; 2; 1]) kPrecodeDecodeResults kDecoderPrecodeTableBits kMaxPreCodeWordLen TPrecode with
  | Ok (t, info) => map (fun V => match rd t (Z.land V (mask32 (ti_bits info))) with Ok e => (precode_value e, precode_repeat e, full_length e) | _ => (0, 0, 0) end) [0; 1; 3]
      = [(18, 11, 8); (16, 3, 4); (17, 3, 5)]
  | _ => False
  end.
Proof. vm_compute. reflexivity. Qed.
Example C43_ex : match ex_table ex_deep with Ok (t, info) => length t = 2342%nat /\ ti_bits info = 11 | _ => False end.
Proof. vm_compute. split; reflexivity. Qed.
