(* Theorems about BLBitArray. Spec: BitArray_Spec.v (lists of booleans), BitArray_Client.v (programs). *)
From Verif Require Import Base Bits IntOps_Model Algorithm_Model Object_Model Object_Spec Object_Proofs BitArray_Model BitArray_Spec BitArray_Client
  BitArray_Proofs6 BitArray_Proofs7 BitArray_Proofs8 BitArray_Proofs9.

Ltac val := repeat (constructor; cbn [bop_valid call_valid fst snd]); unfold is_word; try lia; auto.
Ltac run_no H := vm_compute in H; repeat match type of H with
  | exists _, _ => let x := fresh in destruct H as [x H]
  | _ /\ _ => let K := fresh in destruct H as [K H]; try (vm_compute in K)
  end.

(* ------------------------------------------------------------------ C20 *)
(* 17 bits followed by append_word: combine_word_data reads word_data[1], which does not exist. *)
Theorem C20_bit_list_refuted : exists p, Forall (fun x => bop_valid (snd x)) p /\ run1 [] ba_init p = UB.
Proof.
  exists (repeat (true, BAppendBit true) 17 ++ [(true, BAppendWords [0xFFFFFFFF])]). split; [val|]. vm_compute. reflexivity.
Qed.
Print Assumptions C20_bit_list_refuted.

(* every call succeeds, yet bits 40 to 51 of a 52 bit array are not set by fill_words(8, {0, ~0}) *)
Theorem C20_fill_words_refuted : exists p codes h o, Forall (fun x => fst x = true /\ bop_valid (snd x)) p /\
  run1 [] ba_init p = Ok (codes, h, o) /\ ~ run1_ok [] p codes (ba_value h o).
Proof.
  exists [(true, BReplaceOp 52); (true, BFillWords 8 [0; 0xFFFFFFFF])]. eexists _, _, _. split; [val|]. split; [vm_compute; reflexivity|].
  intros H. cbn [run1_ok] in H. destruct H as (l1 & [H1|[D _]] & l2 & [H2|[D' _]] & H3); try discriminate.
  injection H1 as ->. injection H2 as ->. vm_compute in H3. discriminate.
Qed.
Print Assumptions C20_fill_words_refuted.

(* growing by resize to heap storage leaves the added words uninitialized: reading a new bit is undefined *)
Theorem C20_resize_refuted : exists p codes h o i, Forall (fun x => fst x = true /\ bop_valid (snd x)) p /\
  run1 [] ba_init p = Ok (codes, h, o) /\ ba_size h o = Ok 128 /\ 0 <= i < 128 /\ ba_has_bit h o i = UB.
Proof.
  exists [(true, BAppendBit true); (true, BResize 128)]. eexists _, _, _, 100. split; [val|]. split; [vm_compute; reflexivity|].
  split; [vm_compute; reflexivity|]. split; [lia|]. vm_compute. reflexivity.
Qed.
Print Assumptions C20_resize_refuted.

(* assign_words with more than three words reports success and leaves the array empty *)
Theorem C20_assign_words_refuted : exists wd, Forall is_word wd /\ wd <> [] /\
  exists h o, ba_assign_words true [] ba_init wd (len wd) = Ok (BL_SUCCESS, h, o) /\ ba_size h o = Ok 0.
Proof.
  exists [1; 2; 3; 4]. split; [val|]. split; [discriminate|]. eexists _, _. split; [vm_compute; reflexivity|]. vm_compute. reflexivity.
Qed.
Print Assumptions C20_assign_words_refuted.

(* The claim, for programs of any length over one array that avoid the faulty cases: words combined or appended at an
   offset where the tail condition is right ([combine_good], len mod 32 <= 16), resize within the words in use or the
   in-place capacity, no assign_words. Allocations may fail, then nothing changes. *)
Theorem C20_bit_list_partial : forall p, run1_safe [] p -> exists codes h o, run1 [] ba_init p = Ok (codes, h, o) /\
  run1_ok [] p codes (ba_value h o) /\ ba_size h o = Ok (len (ba_value h o)) /\
  (forall i, 0 <= i -> ba_has_bit h o i = Ok (bit_at (ba_value h o) i)) /\
  ba_cardinality h o = Ok (count_true (ba_value h o)).
Proof.
  intros p S0. assert (W0 : ba_wf [] [ba_init]) by (apply wf_tail_sso; [apply wf_nil|apply empty_ok]).
  destruct (run1_refines p [] ba_init W0 S0) as (codes & h & o & E & W & R). exists codes, h, o.
  assert (I : In o [o]) by (left; auto). split; auto. split; auto. split; [eapply size_q; eauto|]. split; [|eapply cardinality_q; eauto].
  intros i P. eapply has_bit_q; eauto.
Qed.
Print Assumptions C20_bit_list_partial.
(* appends across the in-place limit, range and word operations, truncation *)
Definition ex_prog : list (bool * bop) :=
  [(true, BAppendWords [0x80000001; 0xFFFF0000; 0]); (true, BAppendBit true); (true, BSet 40); (true, BFillRange 60 97);
   (true, BClearRange 62 70); (true, BFillWords 3 [0xF0F0F0F0]); (true, BAppendWords [5]); (true, BResize 100); (true, BReplace 0 false)].
Lemma safe_cons l b p : bop_one l b -> run1_safe (snd (spec_bop l b)) p -> run1_safe l ((true, b) :: p).
Proof. intros A B. split; auto. intros c l' [H|[D _]]; [|discriminate D]. now rewrite <- H in B. Qed.
Ltac small := cbn [bop_args bop_repr]; repeat match goal with
  | |- Forall is_word _ => repeat (constructor; [unfold is_word; lia|]); constructor
  | |- _ /\ _ => split
  | |- _ < len _ -> _ => intros _
  | |- combine_good _ _ _ => vm_compute; intuition (discriminate || reflexivity)
  end; vm_compute; try discriminate; try reflexivity; try exact I.
Ltac safe_step := apply safe_cons; [split; [small|first [exact I|left; discriminate|right; discriminate]]|
  match goal with |- run1_safe ?x _ => let y := eval vm_compute in x in replace x with y by (vm_compute; reflexivity) end].
Example C20_ex1 : run1_safe [] ex_prog.
Proof. unfold ex_prog. do 9 safe_step. exact I. Qed.
Example C20_ex2 : exists h o, run1 [] ba_init ex_prog = Ok ([0; 0; 0; 0; 0; 0; 0; 0; 0], h, o) /\ ba_size h o = Ok 100 /\ ba_cardinality h o = Ok 62.
Proof. eexists _, _. split; [vm_compute; reflexivity|]. vm_compute. split; reflexivity. Qed.

(* ------------------------------------------------------------------ C21 *)
(* A copy of a 64 bit array that still has heap storage loses its content when a bit of it is set. *)
Theorem C21_copy_keeps_bits_refuted : exists p codes h os, Forall (fun x => fst x = true /\ call_valid (snd x)) p /\
  run [] [] p = Ok (codes, h, os) /\ ~ run_ok [] p codes (map (ba_value h) os).
Proof.
  exists [(true, CInit); (true, COp 0 (BAppendWords [1; 3; 7; 15])); (true, COp 0 (BResize 64)); (true, CInitWeak 0); (true, COp 1 (BSet 0))].
  eexists _, _, _. split; [val|]. split; [vm_compute; reflexivity|]. intros H. cbn [run_ok call_ok] in H.
  destruct H as (v1 & (_ & ->) & v2 & (l2 & [H2|[D _]] & ->) & H); [|discriminate D]. vm_compute in H2. injection H2 as ->.
  destruct H as (v3 & (l3 & [H3|[D _]] & ->) & H); [|discriminate D]. vm_compute in H3. injection H3 as ->.
  destruct H as (v4 & (_ & ->) & v5 & (l5 & [H5|[D _]] & ->) & H); [|discriminate D]. vm_compute in H5. injection H5 as ->.
  vm_compute in H. discriminate H.
Qed.
Print Assumptions C21_copy_keeps_bits_refuted.
(* A copy with more than 96 bits gets fresh memory and reads it before anything is written to it. *)
Theorem C21_copy_uninitialized_refuted : exists p, Forall (fun x => fst x = true /\ call_valid (snd x)) p /\ run [] [] p = UB.
Proof.
  exists [(true, CInit); (true, COp 0 (BAppendWords [1; 3; 7; 15])); (true, CInitWeak 0); (true, COp 1 (BSet 0))].
  split; [val|]. vm_compute. reflexivity.
Qed.
Print Assumptions C21_copy_uninitialized_refuted.
(* reserve on a copy with less than its size overruns the new block *)
Theorem C21_copy_reserve_refuted : exists p, Forall (fun x => fst x = true /\ call_valid (snd x)) p /\ run [] [] p = UB.
Proof.
  exists [(true, CInit); (true, COp 0 (BAppendWords [1; 3; 7; 15; 31; 63; 127; 255])); (true, COp 0 (BAppendWords [1; 3; 7; 15; 31; 63; 127; 255]));
          (true, CInitWeak 0); (true, COp 1 (BReserve 32))].
  split; [val|]. vm_compute. reflexivity.
Qed.
Print Assumptions C21_copy_reserve_refuted.

(* The other half holds without any restriction: whatever a call does to its own array, no other handle sees it. *)
Theorem C21_others_unchanged : forall m h o os b code h' o', ba_wf h (o :: os) -> bop_valid b ->
  run_bop m h o b = Ok (code, h', o') -> forall x, In x os -> ba_value h' x = ba_value h x.
Proof.
  intros m h o os b code h' o' W A R. eapply others_frame; eauto. destruct b; cbn in A; auto; lia.
Qed.
Print Assumptions C21_others_unchanged.

(* Programs of any length with any number of arrays, copies, moves and destructions behave like programs over
   independent lists, as long as bits and words are modified through unshared handles (plus the C20 conditions). *)
Theorem C21_copies_partial : forall p, run_safe [] [] p -> exists codes h os, run [] [] p = Ok (codes, h, os) /\
  ba_wf h os /\ run_ok [] p codes (map (ba_value h) os).
Proof. intros p S0. exact (run_refines p [] [] wf_nil S0). Qed.
Print Assumptions C21_copies_partial.

Definition ex_calls : list (bool * call) :=
  [(true, CInit); (true, COp 0 (BAppendWords [1; 3; 7; 15])); (true, CInitWeak 0); (true, COp 1 (BAppendBit true));
   (true, COp 0 (BSet 0)); (true, CInit); (true, CAssignWeak 2 1); (true, COp 1 BClearAll); (false, COp 1 (BReserve 500));
   (true, CAssignMove 1 0); (true, CInitMove 2); (true, CDestroy 0); (true, CReset 1)].
Example C21_ex1 : run_safe [] [] ex_calls.
Proof.
  unfold ex_calls. repeat (split; [|let r := fresh in set (r := run_call _ _ _ _); vm_compute in r; subst r]); try exact I.
  all: first [exact I|cbn [call_safe length]; lia|eexists; split; [reflexivity|]; small; vm_compute; intuition discriminate].
Qed.
Example C21_ex2 : exists codes h os, run [] [] ex_calls = Ok (codes, h, os) /\ map (fun v => len v) (map (ba_value h) os) = [128; 0; 129] /\
  codes = [0; 0; 0; 0; 0; 0; 0; 0; BL_ERROR_OUT_OF_MEMORY; 0; 0; 0; 0].
Proof. eexists _, _, _. split; [vm_compute; reflexivity|]. vm_compute. split; reflexivity. Qed.

(* ------------------------------------------------------------------ C22 *)
(* a 96 bit array (in place, three words): has_bits_in_range(0, 96) reads a fourth word *)
Theorem C22_has_bits_in_range_refuted : exists p codes h o a b, Forall (fun x => fst x = true /\ bop_valid (snd x)) p /\
  run1 [] ba_init p = Ok (codes, h, o) /\ 0 <= a < b /\ b <= len (ba_value h o) /\ ba_has_bits_in_range h o a b = UB.
Proof.
  exists [(true, BReplaceOp 96)]. eexists _, _, _, 0, 96. split; [val|]. split; [vm_compute; reflexivity|]. split; [lia|].
  split; [vm_compute; discriminate|]. vm_compute. reflexivity.
Qed.
Print Assumptions C22_has_bits_in_range_refuted.
(* ranges inside one word other than the first: a 32-bit mask is shifted by 33 *)
Theorem C22_single_word_range_refuted : exists p codes h o a b, Forall (fun x => fst x = true /\ bop_valid (snd x)) p /\
  run1 [] ba_init p = Ok (codes, h, o) /\ 0 <= a < b /\ b <= len (ba_value h o) /\
  ba_has_bits_in_range h o a b = UB /\ ba_cardinality_in_range h o a b = UB.
Proof.
  exists [(true, BReplaceOp 96)]. eexists _, _, _, 33, 40. split; [val|]. split; [vm_compute; reflexivity|]. split; [lia|].
  split; [vm_compute; discriminate|]. vm_compute. split; reflexivity.
Qed.
Print Assumptions C22_single_word_range_refuted.

(* subsumes, intersects and get_range are safe and right for all arrays; the two range queries are unless the range
   ends at a multiple of 32 (has_bits_in_range only) or lies in one word other than the first. *)
Theorem C22_queries_partial : forall h os a b, ba_wf h os -> In a os -> In b os ->
  (exists r, ba_subsumes h a b = Ok r /\ (r = true <-> l_subsumes (ba_value h a) (ba_value h b))) /\
  (exists r, ba_intersects h a b = Ok r /\ (r = true <-> l_intersects (ba_value h a) (ba_value h b))) /\
  ba_get_range h a = Ok (match first_true (ba_value h a) 0, last_true (ba_value h a) 0 with Some s, Some e => (true, s, e) | _, _ => (false, 0, 0) end) /\
  (forall s e, 0 <= s -> has_range_safe (len (ba_value h a)) s e ->
     exists r, ba_has_bits_in_range h a s e = Ok r /\ (r = true <-> any_in (ba_value h a) s e)) /\
  (forall s e, 0 <= s -> card_range_safe (len (ba_value h a)) s e ->
     ba_cardinality_in_range h a s e = Ok (count_true (slice (ba_value h a) s e))).
Proof.
  intros h os a b W A B. split; [eapply subsumes_q; eauto|]. split; [eapply intersects_q; eauto|]. split; [eapply get_range_q; eauto|].
  split; intros s e S0 R; [eapply has_bits_q; eauto|eapply cardinality_in_range_q; eauto].
Qed.
Print Assumptions C22_queries_partial.
(* first_true / last_true are what they should be *)
Theorem C22_first_last : forall l,
  match first_true l 0 with Some s => bit_at l s = true /\ (forall i, 0 <= i < s -> bit_at l i = false) | None => forall i, bit_at l i = false end /\
  match last_true l 0 with Some e => bit_at l (e - 1) = true /\ (forall i, e <= i -> bit_at l i = false) | None => forall i, bit_at l i = false end.
Proof.
  intros l. pose proof (first_true_spec l 0) as F. pose proof (last_true_spec l 0) as L. split.
  - destruct (first_true l 0) as [s|]; auto. rewrite Z.sub_0_r in F. destruct F as (_ & B & N). split; auto. intros i I. apply N. lia.
  - destruct (last_true l 0) as [e|]; auto. rewrite Z.sub_0_r in L. destruct L as (_ & B & N). split; auto.
Qed.
Print Assumptions C22_first_last.

(* the hypotheses hold after every program of C21_copies_partial; here two arrays of 129 and 128 bits sharing nothing *)
Example C22_ex : exists h a b, ba_wf h [a; b] /\ ba_subsumes h a b = Ok true /\ ba_subsumes h b a = Ok false /\ ba_intersects h a b = Ok true /\
  ba_get_range h a = Ok (true, 31, 129) /\ ba_has_bits_in_range h a 33 100 = Ok true /\ ba_cardinality_in_range h a 40 127 = Ok 8.
Proof.
  assert (S0 : run_safe [] [] [(true, CInit); (true, COp 0 (BAppendWords [1; 3; 7; 15])); (true, CInitWeak 0); (true, COp 0 (BAppendBit true))]).
  { repeat (split; [|let r := fresh in set (r := run_call _ _ _ _); vm_compute in r; subst r]); try exact I.
    all: first [exact I|cbn [call_safe length]; lia|eexists; split; [reflexivity|]; small; vm_compute; intuition discriminate]. }
  destruct (C21_copies_partial _ S0) as (codes & h & os & E & W & _).
  vm_compute in E. injection E as <- <- <-. eexists _, _, _. split; [exact W|]. vm_compute. repeat split.
Qed.

(* ------------------------------------------------------------------ C23 *)
Theorem C23_compare_lex : forall h os a b, ba_wf h os -> In a os -> In b os ->
  ba_compare h a b = Ok (lex (ba_value h a) (ba_value h b)) /\
  exists r, ba_equals h a b = Ok r /\ (r = true <-> ba_value h a = ba_value h b).
Proof. intros h os a b W A B. split; [eapply compare_q; eauto|eapply equals_q; eauto]. Qed.
Print Assumptions C23_compare_lex.
Theorem C23_total_order : (forall a b, lex a b = 0 <-> a = b) /\ (forall a b, lex b a = - lex a b) /\
  (forall a b, lex a b = -1 \/ lex a b = 0 \/ lex a b = 1) /\
  (forall a b c, lex a b <= 0 -> lex b c <= 0 -> lex a c <= 0) /\ (forall a x s, lex a (a ++ x :: s) = -1).
Proof.
  split; [|split; [|split; [|split]]].
  - induction a as [|x a IH]; destruct b as [|y b]; cbn; try (split; [discriminate|]; discriminate); [split; reflexivity|].
    destruct x, y; cbn; rewrite ?IH; split; intros H; try congruence; discriminate.
  - induction a as [|x a IH]; destruct b as [|y b]; cbn; auto. destruct x, y; cbn; auto.
  - induction a as [|x a IH]; destruct b as [|y b]; cbn; auto. destruct x, y; cbn; auto.
  - induction a as [|x a IH]; destruct b as [|y b], c as [|z c]; cbn; try lia. destruct x, y, z; cbn; try lia; eauto.
  - induction a as [|x a IH]; intros y s; cbn; auto. rewrite Bool.eqb_reflx. apply IH.
Qed.
Print Assumptions C23_total_order.
(* equal content in different storage: in place, and in a heap block with spare capacity *)
Example C23_ex : exists h a b, ba_wf h [a; b] /\ a <> b /\ ba_compare h a b = Ok 0 /\ ba_equals h a b = Ok true /\ len (ba_value h a) = 64.
Proof.
  assert (S0 : run_safe [] [] [(true, CInit); (true, COp 0 (BAppendWords [1; 3; 7; 15])); (true, COp 0 (BResize 64)); (true, CInit); (true, COp 1 (BAppendWords [1; 3]))]).
  { repeat (split; [|let r := fresh in set (r := run_call _ _ _ _); vm_compute in r; subst r]); try exact I.
    all: first [exact I|cbn [call_safe length]; lia|eexists; split; [reflexivity|]; small; vm_compute; intuition discriminate]. }
  destruct (C21_copies_partial _ S0) as (codes & h & os & E & W & _).
  vm_compute in E. injection E as <- <- <-. eexists _, _, _. split; [exact W|]. split; [discriminate|]. vm_compute. repeat split.
Qed.
