(* C26: BLString. *)
From Verif Require Import Base Bits Algorithm_Model Object_Model Object_Spec Object_Proofs
  BitArray_Model BitArray_Spec Handle_Client Handle_Proofs Array_Model Array_Spec Array_Proofs Array_Proofs2 String_Model String_Spec String_Proofs String_Proofs4 String_Proofs5.

Notation OpAssignFit := (ModifyOp true false).
Notation OpAppendGrow := (ModifyOp false true).
Lemma str_okI_ex size cap c : (0 <=? size) && (size <=? cap) && (cap + 1 <=? len c) && (cap + 1 <=? max_bytes) = true ->
  forallb (fun x => match x with Some _ => true | None => false end) (firstn (Z.to_nat size) c) = true -> terminated size c -> str_okI size cap c.
Proof.
  intros A B T. apply andb_true_iff in A. destruct A as [A A1]. apply andb_true_iff in A. destruct A as [A A2].
  apply andb_true_iff in A. destruct A as [A3 A4]. split; [lia|]. split; [lia|]. split; [lia|]. split; auto. intros i I. unfold len in *.
  destruct (nth_error c (Z.to_nat i)) as [[v|]|] eqn:N; [eauto| |apply nth_error_None in N; lia].
  rewrite forallb_forall in B. discriminate (B None). apply nth_error_In with (Z.to_nat i).
  rewrite <- N. rewrite <- (firstn_skipn (Z.to_nat size) c) at 2. rewrite nth_error_app1; auto. rewrite firstn_length. lia.
Qed.
(* twenty characters, in storage with the given reference count *)
Definition s20 (rc : Z) : heap := [Some (Impl rc 1 20 22 (map Some (repeat 65 20 ++ [0]) ++ [None; None]))].
Definition s40 : heap := [Some (Impl 1 1 40 40 (map Some (repeat 65 40 ++ [0])))].
Definition s100 : heap := [Some (Impl 1 1 2 100 (map Some [65; 66; 0] ++ repeat None 98))].
Ltac one_impl := split; [repeat constructor|]; intros p; destruct p as [|p];
  [cbn [nth_error s20 s40 s100]; cbn [isize icap mem base rc]; split; [apply str_okI_ex; reflexivity|vm_compute; auto]|destruct p; reflexivity].

(* Assigning a short text to a string that shares its storage: the new string is built in a variable that is never initialized. *)
Theorem C26_short_assign_refuted : exists h o o2 s n, str_wf h [o; o2] /\ sop_valid h o (SApply OpAssignFit s n) /\
  str_apply_op_data true h o OpAssignFit s n = UB.
Proof.
  exists (s20 2), (Dyn 0), (Dyn 0), (SExt 1000 [66; 67]), 2. split; [one_impl|]. split; [|vm_compute; reflexivity].
  vm_compute. repeat split; try discriminate. right. discriminate.
Qed.
Print Assumptions C26_short_assign_refuted.

(* reserve(SIZE_MAX) wraps the size of the new storage: it is too small for the text. *)
Theorem C26_reserve_refuted : exists h o n, str_wf h [o] /\ sop_valid h o (SReserve n) /\ str_reserve true h o n = UB.
Proof.
  exists s40, (Dyn 0), (2 ^ 64 - 1). split; [one_impl|]. split; [cbn; lia|]. vm_compute. reflexivity.
Qed.
Print Assumptions C26_reserve_refuted.

(* Appending formatted text that does not fit when no memory is left: the error is reported, but the text is not terminated anymore. *)
Theorem C26_format_oom_refuted : exists h o f h' o', str_wf h [o] /\ sop_valid h o (SFormat OpAppendGrow f) /\
  str_apply_op_format false h o OpAppendGrow f = Ok (BL_ERROR_OUT_OF_MEMORY, h', o') /\ str_value h' o' = str_value h o /\
  exists c v, block h' o' (own_loc o') = Ok c /\ nth_error c (length (str_value h' o')) = Some (Some v) /\ v <> 0.
Proof.
  exists s100, (Dyn 0), (repeat 67 200). eexists _, _. split; [one_impl|]. split.
  { split; [vm_compute; reflexivity|]. intros I. apply repeat_spec in I. discriminate. }
  split; [vm_compute; reflexivity|]. split; [vm_compute; reflexivity|]. eexists _, 67. split; [vm_compute; reflexivity|]. split; [vm_compute; reflexivity|discriminate].
Qed.
Print Assumptions C26_format_oom_refuted.
(* Assigning formatted text in the same situation replaces the text although the error is reported. *)
Theorem C26_format_assign_oom_refuted : exists h o f h' o', str_wf h [o] /\ sop_valid h o (SFormat OpAssignFit f) /\
  str_apply_op_format false h o OpAssignFit f = Ok (BL_ERROR_OUT_OF_MEMORY, h', o') /\ str_value h' o' <> str_value h o.
Proof.
  exists s100, (Dyn 0), (repeat 67 200). eexists _, _. split; [one_impl|]. split.
  { split; [vm_compute; reflexivity|]. intros I. apply repeat_spec in I. discriminate. }
  split; [vm_compute; reflexivity|]. vm_compute. discriminate.
Qed.
Print Assumptions C26_format_assign_oom_refuted.

(* Programs of any length over any number of strings: copies, moves, assignments, destructions and calls, with texts inside and
   outside of the strings. The codes and the texts are those of independent byte lists, every text is readable and terminated, and no
   storage is left when no handle is left. What [str_run_safe] excludes: assigning a short text to a string that shares its
   storage, reserve near SIZE_MAX, and formatting without memory into a string with room left. *)
Theorem C26_string_programs_partial : forall p, str_run_safe [] [] p ->
  exists codes h os, str_run [] [] p = Ok (codes, h, os) /\ str_run_ok [] p codes (map (str_value h) os) /\
    (forall x, In x os -> get_size h x = Ok (len (str_value h x))) /\
    (forall x i, In x os -> (i <= length (str_value h x))%nat -> exists c, block h x (own_loc x) = Ok c /\ rdc c (Z.of_nat i) = Ok (nth i (str_value h x) 0)) /\
    (os = [] -> forall q im, nth_error h q <> Some (Some im)).
Proof.
  intros p S0. destruct (str_refines p [] [] (wf_empty_heap _ _) S0) as (codes & h & os & E & W & R). exists codes, h, os.
  split; auto. split; auto. split; [|split].
  - intros x I. destruct (view_in h os x W I) as (size & cap & mut & c & VW). rewrite (v_len _ _ _ _ _ _ _ VW). exact (v_size _ _ _ _ _ _ _ VW).
  - intros x i I N. destruct (view_in h os x W I) as (size & cap & mut & c & VW). exists c. split; [exact (v_block _ _ _ _ _ _ _ VW)|].
    apply (rep_read c (str_value h x ++ [0])); [exact (v_rep _ _ _ _ _ _ _ VW)|]. destruct (Nat.eq_dec i (length (str_value h x))) as [->|Q].
    + rewrite nth_error_app2, Nat.sub_diag by lia. rewrite nth_overflow by lia. reflexivity.
    + rewrite nth_error_app1 by lia. apply nth_error_nth'. lia.
  - intros -> q im Q. destruct W as [_ W]. specialize (W q). rewrite Q in W. rewrite refs_nil in W. lia.
Qed.
Print Assumptions C26_string_programs_partial.

Definition ex26 : list (bool * hcall (OP := sop) (OP2 := sop2)) :=
  [(true, HInit); (true, HOp 0 (SApply OpAppendGrow (SExt 1000 [72; 101; 108; 108; 111; 0]) (2 ^ 64 - 1))); (true, HInitWeak 0);
   (true, HOp 0 (SApply OpAppendGrow (SIn 1) 4)); (true, HOp 0 (SInsertData 2 (SIn 1) 3)); (true, HOp 0 (SApplyChar OpAppendGrow 33 3)); (true, HInitWeak 0);
   (false, HOp 2 (SInsertChar 0 46 2)); (true, HOp 2 (SInsertChar 0 46 2)); (true, HOp 0 (SRemoveRange 3 12)); (true, HOp 0 (SFormat OpAppendGrow [37; 49; 50]));
   (true, HOp2 0 1 (TInsert 1 1000)); (true, HOp2 2 2 (TApply OpAppendGrow 1000)); (true, HOp 2 (SResize 6 0)); (true, HOp 1 (SResize 8 120)); (true, HAssignWeak 1 0);
   (true, HOp 1 SShrink); (true, HOp 0 SMakeMutable); (true, HOp 0 SClear); (true, HOp 0 (SReserve 100)); (true, HOp 0 (SModify OpAssignFit [1; 2; 3]));
   (true, HOp 0 (SRemoveIndex 1))].
Ltac safe26 := vm_compute; repeat split; try discriminate; try (left; discriminate); try (right; discriminate); try (intros; intuition discriminate); auto.
Example C26_ex_safe : str_run_safe [] [] ex26.
Proof.
  unfold str_run_safe, ex26.
  repeat (cbn [hrun_safe]; split;
    [cbn [hcall_safe]; first [exact I | (eexists; split; [vm_compute; reflexivity|safe26]; fail)
       | (eexists _, _; split; [vm_compute; reflexivity|]; split; [vm_compute; reflexivity|safe26]; fail) | (vm_compute; repeat split; repeat constructor; fail)]
    |match goal with |- match ?c with _ => _ end => let v := eval vm_compute in c in change c with v end; cbv iota beta]).
  exact I.
Qed.
Example C26_ex : exists h os, str_run [] [] ex26 = Ok ([0; 0; 0; 0; 0; 0; 0; 0x10000; 0; 0; 0; 0; 0; 0; 0; 0; 0; 0; 0; 0; 0; 0], h, os) /\
  map (str_value h) os = [[1; 3]; [72; 72; 101; 108; 108; 111; 101; 101; 33; 33; 33; 37; 49; 50]; [46; 46; 72; 101; 101; 108]].
Proof. eexists _, _. split; vm_compute; reflexivity. Qed.

(* Comparing and searching never read outside of the texts and answer as on byte lists: equality, lexicographic order (of the byte values),
   the first and last position of a character. *)
Theorem C26_queries : forall h os a b buf n ch from, str_wf h os -> In a os -> In b os -> buf_valid buf n -> 0 <= from ->
  (exists r, str_equals h a b = Ok r /\ (r = true <-> str_value h a = str_value h b)) /\
  str_compare h a b = Ok (lex (str_value h a) (str_value h b)) /\
  (exists r, str_equals_data h a buf n = Ok r /\ (r = true <-> str_value h a = buf_text buf n)) /\
  str_compare_data h a buf n = Ok (lex (str_value h a) (buf_text buf n)) /\
  (exists r, str_index_of h a ch from = Ok r /\ first_at (str_value h a) ch from r) /\
  (exists r, str_last_index_of h a ch from = Ok r /\ last_at (str_value h a) ch from r).
Proof.
  intros h os a b buf n ch from W IA IB BV F0. split; [exact (equals_q h os a b W IA IB)|]. split; [exact (compare_q h os a b W IA IB)|].
  split; [exact (equals_data_q h os a buf n W IA BV)|]. split; [exact (compare_data_q h os a buf n W IA BV)|].
  split; [exact (index_of_q h os a ch from W IA F0)|exact (last_index_of_q h os a ch from W IA F0)].
Qed.
Print Assumptions C26_queries.
Example C26_queries_ex : str_wf s100 [Dyn 0] /\ buf_valid [65; 67; 0] (2 ^ 64 - 1) /\
  str_compare_data s100 (Dyn 0) [65; 67; 0] (2 ^ 64 - 1) = Ok (-1) /\ str_index_of s100 (Dyn 0) 66 0 = Ok 1 /\ str_last_index_of s100 (Dyn 0) 65 7 = Ok 0.
Proof.
  split; [one_impl|]. split; [vm_compute; intuition discriminate|]. vm_compute. auto.
Qed.

(* A string built from text holds this text; when there is no memory it is empty and the error is reported. *)
Theorem C26_construct : forall m h os off buf n, str_wf h os -> buf_valid buf n ->
  exists code h' o, str_init_with_data m h (SExt off buf) n = Ok (code, h', o) /\ str_wf h' (o :: os) /\
    (forall x, In x os -> str_value h' x = str_value h x) /\
    ((code = BL_SUCCESS /\ str_value h' o = buf_text buf n) \/
     ((m = false \/ 2 ^ 60 <= len (buf_text buf n)) /\ code = BL_ERROR_OUT_OF_MEMORY /\ str_value h' o = [])).
Proof. exact init_data_ok. Qed.
Print Assumptions C26_construct.
Example C26_construct_ex : exists h o, str_init_with_data true [] (SExt 0 (repeat 65 30 ++ [0; 1])) (2 ^ 64 - 1) = Ok (BL_SUCCESS, h, o) /\ str_value h o = repeat 65 30.
Proof. eexists _, _. split; vm_compute; reflexivity. Qed.

(* A successful reserve leaves the string with storage of its own that has room for [n] characters. *)
Lemma lor_mask_le n mut cap : 0 <= n -> cap < 2 ^ 63 -> Z.lor n (immutable_msk mut) <= cap -> mut = true /\ n <= cap.
Proof.
  intros N C. destruct mut.
  - change (immutable_msk true) with 0. rewrite Z.lor_0_r. auto.
  - change (immutable_msk false) with (2 ^ 64 - 1). intros L. pose proof (Z.lor_nonneg n (2 ^ 64 - 1)) as P.
    assert (A : Z.land (Z.lor n (2 ^ 64 - 1)) (2 ^ 64 - 1) = 2 ^ 64 - 1).
    { apply Z.bits_inj'. intros i _. rewrite Z.land_spec, Z.lor_spec. destruct (Z.testbit n i), (Z.testbit (2 ^ 64 - 1) i); reflexivity. }
    pose proof (land_bound (Z.lor n (2 ^ 64 - 1)) (2 ^ 64 - 1) 63 ltac:(lia) ltac:(split; [apply P|]; lia)) as Q. rewrite A in Q. lia.
Qed.
Theorem C26_reserve : forall m h os o n h' o', str_wf h os -> In o os -> 0 <= n -> 17 + n < 2 ^ 64 ->
  str_reserve m h o n = Ok (BL_SUCCESS, h', o') -> amutable h' o' /\ n <= s_cap h' o'.
Proof.
  intros m h os o n h' o' W I N0 N1 E. destruct (view_in h os o W I) as (size & cap & mut & c & VW).
  unfold str_reserve in E. rewrite (v_unpack _ _ _ _ _ _ _ VW), (v_mut _ _ _ _ _ _ _ VW) in E. cbn [bind] in E.
  pose proof (v_bytes _ _ _ _ _ _ _ VW) as Bc. pose proof (v_cap _ _ _ _ _ _ _ VW) as Bs. pose proof (v_len _ _ _ _ _ _ _ VW) as Bl. unfold max_bytes, len in *.
  destruct (Z.leb_spec (Z.lor n (immutable_msk mut)) cap) as [L|L].
  { injection E as <- <-. rewrite (v_scap _ _ _ _ _ _ _ VW), (v_amut _ _ _ _ _ _ _ VW). apply (lor_mask_le n mut cap); lia. }
  rewrite s_impl_ok in E by lia. unfold s_init_dynamic in E.
  destruct (m && _); [|discriminate].
  destruct (wrc _ size 0) as [d| | |] eqn:Ed; cbn [bind] in E; try discriminate.
  destruct (block _ o (own_loc o)) as [src| | |] eqn:Es; cbn [bind] in E; try discriminate.
  unfold fill_new, block in E. cbn [own_loc] in E. unfold get_impl in E. rewrite nth_snoc, Nat.eqb_refl in E. cbn [bind] in E.
  destruct (copy_cells _ _ _ _ _) as [d1| | |]; cbn [bind] in E; try discriminate.
  unfold s_store, store in E. unfold get_impl in E. rewrite nth_snoc, Nat.eqb_refl in E. cbn [bind] in E.
  unfold finish, replace_instance in E. set (h2 := put_impl _ _ _) in E.
  assert (G : nth_error h2 (length h) = Some (Some (Impl 1 1 size (s_capacity (17 + Z.max size n)) d1))).
  { unfold h2, put_impl. rewrite nth_upd_eq by (rewrite app_length; cbn; lia). reflexivity. }
  assert (Q : nth_error h' (length h) = nth_error h2 (length h) /\ o' = Dyn (length h)).
  { destruct o as [s0 c0|p]; cbn [release] in E.
    - cbn [bind] in E. injection E as <- <-. auto.
    - assert (P : p <> length h).
      { pose proof (v_kind _ _ _ _ _ _ _ VW) as (im & Im & _). intros ->. assert (nth_error h (length h) = None) by (apply nth_error_None; lia). congruence. }
      destruct (get_impl h2 p) as [im| | |]; cbn [bind] in E; try discriminate. destruct (_ =? _); cbn [bind] in E; injection E as <- <-; (split; [|reflexivity]).
      + apply nth_upd_neq. exact P.
      + unfold put_impl. apply nth_upd_neq. exact P. }
  destruct Q as [Q ->]. unfold amutable, s_cap. rewrite Q, G. cbn [rc icap]. split; [reflexivity|].
  unfold s_capacity, sizeof_BLStringImpl. rewrite Array_Proofs2.w64_small; lia.
Qed.
Print Assumptions C26_reserve.
Example C26_reserve_ex : str_wf (s20 2) [Dyn 0; Dyn 0] /\ exists h' o', str_reserve true (s20 2) (Dyn 0) 10 = Ok (BL_SUCCESS, h', o') /\ o' = Dyn 1 /\ s_cap h' o' = 20.
Proof. split; [one_impl|]. eexists _, _. vm_compute. auto. Qed.
