(* The decoder only appends: what holds of the output for every input, table and state, in all of its loops. *)
From Verif Require Import Base Bits Algorithm_Spec Algorithm_Model Algorithm_Proofs DeflateTable_Model DeflateDecoder_Model.
Ltac Zify.zify_post_hook ::= idtac.

Lemma firstn_upd_low {A} (l : list A) : forall n k x, (k <= n)%nat -> firstn k (upd l n x) = firstn k l.
Proof. induction l as [|y l IH]; intros n k x H; [destruct n, k; reflexivity|]. destruct n, k; try reflexivity; [lia|]. cbn. f_equal. apply IH. lia. Qed.

Lemma extra_nonneg w e x : extract_extra w e = Ok x -> 0 <= x.
Proof.
  unfold extract_extra, extract_entry. destruct (32 <=? _) eqn:F; [discriminate|]. cbn [bind]. intros E. injection E as <-. apply Z.shiftr_nonneg. apply Z.land_nonneg. left. apply Z.mod_pos_bound. reflexivity.
Qed.
Lemma payload_nonneg e : 0 <= payload_field e. Proof. unfold payload_field. apply Z.land_nonneg. right. lia. Qed.
Lemma raw_nonneg e : 0 <= raw_payload e. Proof. unfold raw_payload. apply Z.land_nonneg. right. lia. Qed.
Lemma count_nonneg e : 0 <= Z.shiftr (Z.land e 255) 6. Proof. apply Z.shiftr_nonneg, Z.land_nonneg. right. lia. Qed.

Ltac crack := repeat match goal with
  | H : UB = Ok _ |- _ => discriminate H
  | H : NoFuel = Ok _ |- _ => discriminate H
  | H : Err _ = Ok _ |- _ => discriminate H
  | H : Ok _ = Ok _ |- _ => injection H as H; subst
  | H : bind ?m _ = Ok _ |- _ => destruct m eqn:?; cbn [bind] in H
  | H : (if ?c then _ else _) = Ok _ |- _ => destruct c eqn:?
  | H : (let '(_, _) := ?c in _) = Ok _ |- _ => destruct c eqn:?
  | H : (match ?c with _ => _ end) = Ok _ |- _ => destruct c eqn:?
  | H : (_, _) = (_, _) |- _ => injection H as H; subst
  end.

Section Frame.
  Context (p : Z) (l : list Z) (n : nat).
  Definition mem_inv (m : list Z) : Prop := length m = n /\ firstn (Z.to_nat p) m = l.
  Definition inv (o : obuf) : Prop := p <= o_pos o /\ mem_inv (o_mem o).

  Lemma wr_inv m i x m' : mem_inv m -> p <= i -> wr m i x = Ok m' -> mem_inv m'.
  Proof.
    intros [H1 H2] Hi E. unfold wr in E. crack. split; [rewrite upd_length; exact H1|]. rewrite firstn_upd_low by lia. exact H2.
  Qed.
  Lemma put_inv o x o' : inv o -> put o x = Ok o' -> inv o'.
  Proof. intros [H1 H2] E. unfold put in E. crack. split; cbn [o_pos o_mem]; [lia|]. eapply wr_inv; eassumption. Qed.
  Lemma copy_bytes_inv : forall k o off o', inv o -> copy_bytes k o off = Ok o' -> inv o'.
  Proof. induction k as [|k IH]; intros o off o' H E; cbn [copy_bytes] in E; crack; [exact H|]. eapply IH; [|eassumption]. eapply put_inv; eassumption. Qed.
  Lemma copy_match_inv o len off o' : inv o -> copy_match o len off = Ok o' -> inv o'.
  Proof. intros H E. unfold copy_match in E. crack. eapply copy_bytes_inv; eassumption. Qed.

  Definition loop_o (r : loop_res) : obuf := match r with LCont _ _ o | LOut _ _ o | LIn _ _ o | LDone _ o | LBad _ o => o end.

  Lemma opt_match_inv t toff tb ob data len saved b o r : inv o -> opt_match t toff tb ob data len saved b o = Ok r -> inv (loop_o r).
  Proof. intros H E. unfold opt_match in E. crack; cbn [loop_o]; try exact H; eapply copy_match_inv; eassumption. Qed.
  Lemma opt_iter_inv t toff tb ob e b o r : inv o -> opt_iter t toff tb ob e b o = Ok r -> inv (loop_o r).
  Proof.
    intros H E. unfold opt_iter in E. crack; try (eapply opt_match_inv; [exact H|eassumption]); cbn [loop_o]; try exact H.
    - eapply put_inv; [|eassumption]. eapply put_inv; [|eassumption]. eapply put_inv; [|eassumption]. exact H.
    - eapply put_inv; [|eassumption]. eapply put_inv; [|eassumption]. exact H.
    - eapply put_inv; [|eassumption]. exact H.
    - eapply put_inv; [|eassumption]. exact H.
  Qed.
  Lemma opt_loop_inv t toff tb ob : forall fuel e b o r, inv o -> opt_loop fuel t toff tb ob e b o = Ok r -> inv (loop_o r).
  Proof.
    induction fuel as [|fuel IH]; intros e b o r H E; cbn [opt_loop] in E; [discriminate|]. destruct (_ && _); [|crack; exact H].
    destruct (opt_iter _ _ _ _ _ _ _) as [r1| | |] eqn:E1; try discriminate E. cbn [bind] in E. pose proof (opt_iter_inv _ _ _ _ _ _ _ _ H E1) as I1.
    destruct r1; cbn [loop_o] in I1; try (injection E as <-; exact I1). eapply IH; eassumption.
  Qed.
  Lemma safe_match_inv toff ob len fl c saved o r : inv o -> safe_match toff ob len fl c saved o = Ok r -> inv (loop_o r).
  Proof. intros H E. unfold safe_match in E. crack; cbn [loop_o]; try exact H; eapply copy_match_inv; eassumption. Qed.
  Lemma safe_iter_inv t toff tb ob c b o r : inv o -> safe_iter t toff tb ob c b o = Ok r -> inv (loop_o r).
  Proof.
    intros H E. unfold safe_iter in E. crack; cbn [loop_o]; try exact H; try (eapply safe_match_inv; eassumption); eapply put_inv; eassumption.
  Qed.
  Lemma safe_loop_inv t toff tb ob c : forall fuel b o r, inv o -> safe_loop fuel t toff tb ob c b o = Ok r -> inv (loop_o r).
  Proof.
    induction fuel as [|fuel IH]; intros b o r H E; cbn [safe_loop] in E; [discriminate|].
    destruct (safe_iter _ _ _ _ _ _ _) as [r1| | |] eqn:E1; try discriminate E. cbn [bind] in E. pose proof (safe_iter_inv _ _ _ _ _ _ _ _ H E1) as I1.
    destruct r1; cbn [loop_o] in I1; try (injection E as <-; exact I1). eapply IH; eassumption.
  Qed.

  (* the fast loop *)
  Lemma store_inv : forall k m i r m', mem_inv m -> p <= i -> store_le k m i r = Ok m' -> mem_inv m'.
  Proof. induction k as [|k IH]; intros m i r m' H Hi E; cbn [store_le] in E; crack; [exact H|]. eapply (IH _ (i + 1)); [|lia|eassumption]. eapply wr_inv; eassumption. Qed.
  Lemma far_inv : forall fuel m q c d m', mem_inv m -> p <= c -> far_copy fuel m q c d = Ok m' -> mem_inv m'.
  Proof.
    induction fuel as [|fuel IH]; intros m q c d m' H Hc E; cbn [far_copy] in E; [discriminate|]. crack; [|exact H].
    eapply (IH _ _ (c + 16)); [|lia|eassumption]. eapply (store_inv 8 _ (c + 8)); [|lia|eassumption]. eapply (store_inv 8 _ c); [|lia|eassumption]. exact H.
  Qed.
  Lemma near_inv : forall fuel m r c d rl rr m', mem_inv m -> p <= c -> near_copy fuel m r c d rl rr = Ok m' -> mem_inv m'.
  Proof.
    induction fuel as [|fuel IH]; intros m r c d rl rr m' H Hc E; cbn [near_copy] in E; [discriminate|]. crack; [|exact H].
    eapply (IH _ _ (c + 8)); [|lia|eassumption]. eapply (store_inv 8 _ c); [|lia|eassumption]. exact H.
  Qed.
  Local Opaque store_le far_copy near_copy load_reg.
  Lemma fast_copy_inv o len off o' : inv o -> 0 <= len -> fast_copy o len off = Ok o' -> inv o'.
  Proof.
    intros [H1 H2] HL E. unfold fast_copy in E. crack; (split; cbn [o_pos o_mem]; [lia|]).
    - eapply (far_inv _ _ _ (o_pos o + 16)); [|lia|eassumption]. eapply (store_inv 8 _ (o_pos o + 8)); [|lia|eassumption]. eapply (store_inv 8 _ (o_pos o)); [|lia|eassumption]. exact H2.
    - eapply (near_inv _ _ _ (o_pos o + 8)); [|lia|eassumption]. eapply (store_inv 8 _ (o_pos o)); [|lia|eassumption]. exact H2.
  Qed.
  Definition fast_o (r : fast_res) : obuf := match r with FCont _ _ o _ | FDone _ o | FBad _ o => o end.
  Lemma fast_match_inv t toff tb ob len it b o r : inv o -> 0 <= len -> fast_match t toff tb ob len it b o = Ok r -> inv (fast_o r).
  Proof. intros H HL E. unfold fast_match in E. crack; cbn [fast_o]; try exact H; eapply fast_copy_inv; eassumption. Qed.
  Lemma fast_tail_inv t toff tb ob e pay it b o r : inv o -> 0 <= pay -> fast_tail t toff tb ob e pay it b o = Ok r -> inv (fast_o r).
  Proof.
    intros H HP E. unfold fast_tail in E. crack; cbn [fast_o]; try exact H.
    - eapply put_inv; eassumption.
    - eapply fast_match_inv; [exact H| |eassumption]. match goal with Q : extract_extra _ _ = Ok ?y |- 0 <= _ + ?y => apply extra_nonneg in Q end. pose proof (raw_nonneg a0). lia.
    - eapply fast_match_inv; [exact H| |eassumption]. match goal with Q : extract_extra _ _ = Ok ?y |- 0 <= _ + ?y => apply extra_nonneg in Q end. lia.
  Qed.
  Lemma fast_iter_inv t toff tb ob e it b o r : inv o -> fast_iter t toff tb ob e it b o = Ok r -> inv (fast_o r).
  Proof.
    intros H E. pose proof H as [H1 H2]. unfold fast_iter in E. pose proof (count_nonneg e) as C1. crack; cbn [fast_o].
    - split; cbn [o_pos o_mem]; [match goal with |- _ <= _ + (_ + Z.shiftr (Z.land ?e' 255) 6) => pose proof (count_nonneg e') end; lia|]. eapply store_inv; [exact H2| |eassumption]. lia.
    - eapply fast_tail_inv; [| |eassumption]; [|apply raw_nonneg]. split; cbn [o_pos o_mem]; [lia|]. eapply store_inv; [exact H2| |eassumption]. lia.
    - eapply fast_tail_inv; [exact H| |eassumption]. apply raw_nonneg.
  Qed.
  Lemma fast_inner_inv t toff tb ob : forall fuel e it b o r, inv o -> fast_inner fuel t toff tb ob e it b o = Ok r -> inv (fast_o r).
  Proof.
    induction fuel as [|fuel IH]; intros e it b o r H E; cbn [fast_inner] in E; [discriminate|]. destruct (0 <? it); [|crack; exact H].
    destruct (fast_iter _ _ _ _ _ _ _ _) as [r1| | |] eqn:E1; try discriminate E. cbn [bind] in E. pose proof (fast_iter_inv _ _ _ _ _ _ _ _ _ H E1) as I1.
    destruct r1; cbn [fast_o] in I1; try (injection E as <-; exact I1). eapply IH; eassumption.
  Qed.
  Lemma fast_outer_inv t toff tb ob : forall fuel b o r, inv o -> fast_outer fuel t toff tb ob b o = Ok r -> inv (fast_o r).
  Proof.
    induction fuel as [|fuel IH]; intros b o r H E; cbn [fast_outer] in E; [discriminate|]. destruct (_ <=? 20); [crack; exact H|].
    destruct (load64 _) as [data| | |]; try discriminate E. cbn [bind] in E. destruct (rd t _) as [e| | |]; try discriminate E. cbn [bind] in E.
    destruct (fast_inner _ _ _ _ _ _ _ _ _) as [r1| | |] eqn:E1; try discriminate E. cbn [bind] in E. pose proof (fast_inner_inv _ _ _ _ _ _ _ _ _ _ H E1) as I1.
    destruct r1; cbn [fast_o] in I1; try (injection E as <-; exact I1). eapply IH; eassumption.
  Qed.

  (* the states *)
  Definition next_ok (nr : bool) (x : next) : Prop :=
    match x with NCont d _ o | NOut d _ o | NDone d _ o | NIn d _ o | NBad d _ o => inv o /\ d_norealloc d = nr | NRet c d _ o => inv o /\ d_norealloc d = nr /\ c = BL_ERROR_INVALID_DATA end.

  Lemma word_inv : forall k w o r, inv o -> copy_from_word k w o = Ok r -> inv (snd r).
  Proof. induction k as [|k IH]; intros w o r H E; cbn [copy_from_word] in E; crack; [exact H|]. eapply IH; [|eassumption]. eapply put_inv; eassumption. Qed.
  Lemma src_inv : forall s o r, inv o -> copy_from_src s o = Ok r -> inv r.
  Proof. induction s as [|x s IH]; intros o r H E; cbn [copy_from_src] in E; crack; [exact H|]. eapply IH; [|eassumption]. eapply put_inv; eassumption. Qed.
  Lemma copy_state_inv d b o x : inv o -> copy_state d b o = Ok x -> next_ok (d_norealloc d) x.
  Proof.
    intros H E. unfold copy_state in E. destruct (o_room o <? d_copy d); [crack; split; [exact H|reflexivity]|].
    match type of E with bind ?m _ = _ => destruct m as [r| | |] eqn:E1 end; try discriminate E. cbn [bind] in E. destruct r as [[[d1 b1] o1] done].
    assert (I1 : inv o1 /\ d_norealloc d1 = d_norealloc d).
    { destruct (b_len b =? 0); [injection E1 as <- _ <- _; auto|]. destruct (copy_from_word _ _ _) as [wo| | |] eqn:E2; try discriminate E1. cbn [bind] in E1. injection E1 as <- _ <- _. split; [eapply word_inv; eassumption|reflexivity]. }
    destruct I1 as [I1 D1]. clear E1. destruct done; [crack; split; assumption|]. destruct (_ =? 0); [crack; split; assumption|].
    destruct (copy_from_src _ _) as [o2| | |] eqn:E2; try discriminate E. cbn [bind] in E. pose proof (src_inv _ _ _ I1 E2) as I2. destruct (_ =? 0); crack; (split; [exact I2|exact D1]).
  Qed.
  Lemma build_tables_inv jlit d b o lens x : inv o -> build_tables jlit d b o lens = Ok x -> next_ok (d_norealloc d) x.
  Proof. intros H E. unfold build_tables in E. crack; (split; [exact H|reflexivity]). Qed.
  Lemma huffman_tail_inv d t b o x : inv o -> huffman_tail d t b o = Ok x -> next_ok (d_norealloc d) x.
  Proof.
    intros H E. unfold huffman_tail in E. match type of E with bind ?m _ = _ => destruct m as [r| | |] eqn:E1 end; try discriminate E. cbn [bind] in E.
    assert (I1 : inv (loop_o r)).
    { destruct (_ && _); [|injection E1 as <-; exact H]. destruct (load64 _) as [data| | |]; try discriminate E1. cbn [bind] in E1. destruct (rd t _) as [e| | |]; try discriminate E1. cbn [bind] in E1.
      destruct (opt_loop _ _ _ _ _ _ _ _) as [r1| | |] eqn:E2; try discriminate E1. cbn [bind] in E1. pose proof (opt_loop_inv _ _ _ _ _ _ _ _ _ H E2) as I. destruct r1; injection E1 as <-; exact I. }
    match type of E with bind ?m _ = _ => destruct m as [r2| | |] eqn:E2 end; try discriminate E. cbn [bind] in E.
    assert (I2 : inv (loop_o r2)). { destruct r; try (injection E2 as <-; exact I1). eapply safe_loop_inv; [exact I1|exact E2]. }
    destruct r2; try discriminate E; injection E as <-; (split; [exact I2|reflexivity]).
  Qed.
  Lemma huffman_inv d b o x : inv o -> huffman_block d b o = Ok x -> next_ok (d_norealloc d) x.
  Proof.
    intros H E. unfold huffman_block in E. destruct (d_union d) as [|?|t]; try discriminate E. destruct (_ && _).
    2:{ apply huffman_tail_inv in E; [|exact H]. exact E. }
    match type of E with bind ?m _ = _ => destruct m as [[d1 t1]| | |] eqn:E1 end; try discriminate E. cbn [bind] in E.
    assert (D1 : d_norealloc d1 = d_norealloc d). { crack; reflexivity. }
    destruct (fast_decode _ _ _ _ _ _) as [r| | |] eqn:E2; try discriminate E. cbn [bind] in E. pose proof (fast_outer_inv _ _ _ _ _ _ _ _ H E2) as I.
    destruct r; cbn [fast_o] in I; [apply huffman_tail_inv in E; [rewrite D1 in E; exact E|exact I]|crack; split; assumption..].
  Qed.
  Lemma switch_inv jpre jlit d b o x : inv o -> switch jpre jlit d b o = Ok x -> next_ok (d_norealloc d) x.
  Proof.
    intros H E. unfold switch in E. destruct (d_state d).
    - eapply huffman_inv; eassumption.
    - eapply copy_state_inv; eassumption.
    - crack. split; [exact H|reflexivity].
    - unfold zlib_header in E. crack; (split; [exact H|reflexivity]).
    - unfold block_header in E. destruct (b_len b <? 3); [crack; split; [exact H|reflexivity]|]. destruct (_ =? 3); [crack; split; [exact H|reflexivity]|].
      destruct (consumed b 3) as [b1| | |]; try discriminate E. cbn [bind] in E. match type of E with bind ?m _ = _ => destruct m as [b2| | |] end; try discriminate E. cbn [bind] in E. injection E as <-.
      split; [exact H|]. destruct (_ =? 0); reflexivity.
    - unfold uncompressed_header in E. destruct (b_len b <? 32); [crack; split; [exact H|reflexivity]|]. destruct (negb _); [crack; split; [exact H|reflexivity]|].
      destruct (consumed b 32) as [b1| | |]; try discriminate E. cbn [bind] in E. destruct (_ =? 0); [crack; split; [exact H|reflexivity]|]. apply copy_state_inv in E; [exact E|exact H].
    - unfold static_header in E. destruct (d_static d); [crack; split; [exact H|reflexivity]|]. apply build_tables_inv in E; [exact E|exact H].
    - unfold dynamic_header in E. crack; (split; [exact H|reflexivity]).
    - unfold precode_lens in E. destruct (d_union d); try discriminate E. destruct (_ && _); [crack; split; [exact H|reflexivity]|].
      match type of E with bind ?m _ = _ => destruct m as [[[[pl i] rem] b1]| | |] end; try discriminate E. cbn [bind] in E. crack; (split; [exact H|reflexivity]).
    - unfold litlen_offset_codes in E. destruct (d_union d); try discriminate E. destruct (lens_loop _ _ _ _ _ _ _) as [r| | |]; try discriminate E. cbn [bind] in E.
      destruct r; [crack; split; [exact H|reflexivity]..|]. destruct (negb _); [crack; split; [exact H|reflexivity]|]. apply build_tables_inv in E; [exact E|exact H].
    - crack. split; [exact H|reflexivity].
    - crack. split; [exact H|split; reflexivity].
  Qed.
End Frame.

(* the loop of decode: [n] changes when the output is reallocated *)
Lemma run_inv jpre jlit grow p l : forall fuel d b o n code s o', 0 <= p <= Z.of_nat n -> inv p l n o -> run fuel jpre jlit grow d b o = Ok (code, s, o') ->
  d_norealloc (dc s) = d_norealloc d /\ exists n', p <= Z.of_nat n' /\ inv p l n' o' /\ (d_norealloc d = true -> n' = n).
Proof.
  induction fuel as [|fuel IH]; intros d b o n code s o' HP H E; cbn [run] in E; [discriminate|].
  destruct (refill b) as [b1| | |]; try discriminate E. cbn [bind] in E. destruct (switch _ _ _ _ _) as [x| | |] eqn:E1; try discriminate E. cbn [bind] in E.
  apply (switch_inv p l n) in E1; [|exact H]. destruct x as [d1 b2 o1|d1 b2 o1|d1 b2 o1|d1 b2 o1|d1 b2 o1|c d1 b2 o1]; cbn [next_ok] in E1; destruct E1 as [I1 D1].
  - apply (IH _ _ _ n) in E; [|assumption..]. rewrite D1 in E. exact E.
  - destruct (d_norealloc d1) eqn:F; [injection E as _ <- <-; cbn [dc]; rewrite <- D1; split; [exact F|]; exists n; split; [apply HP|]; split; [exact I1|reflexivity]|].
    destruct (grow _ _) as [m|]; [|injection E as _ <- <-; cbn [dc]; rewrite <- D1; split; [exact F|]; exists n; split; [apply HP|]; split; [exact I1|reflexivity]].
    destruct I1 as [Q1 [Q2 Q3]]. apply (IH _ _ _ (length (firstn (Z.to_nat (o_pos o1)) (o_mem o1) ++ m))) in E.
    + rewrite F in E. rewrite <- D1. destruct E as [E2 [n' [E3 [E4 _]]]]. split; [exact E2|]. exists n'. split; [exact E3|]. split; [exact E4|discriminate].
    + rewrite app_length, firstn_length. lia.
    + split; cbn [o_pos o_mem]; [exact Q1|]. split; [reflexivity|]. rewrite firstn_app, firstn_firstn, firstn_length. replace (Nat.min (Z.to_nat p) (Z.to_nat (o_pos o1))) with (Z.to_nat p) by lia.
      replace (Z.to_nat p - Nat.min (Z.to_nat (o_pos o1)) (length (o_mem o1)))%nat with 0%nat by lia. cbn [firstn]. rewrite app_nil_r. exact Q3.
  - destruct (d_final d1); cbn [negb] in E.
    + injection E as _ <- <-. cbn [dc set_state d_norealloc]. split; [exact D1|]. exists n. split; [apply HP|]. split; [exact I1|reflexivity].
    + apply (IH _ _ _ n) in E; [|assumption..]. cbn [set_state d_norealloc] in E. rewrite D1 in E. exact E.
  - injection E as _ <- <-. cbn [dc]. split; [exact D1|]. exists n. split; [apply HP|]. split; [exact I1|reflexivity].
  - injection E as _ <- <-. cbn [dc set_state d_norealloc]. split; [exact D1|]. exists n. split; [apply HP|]. split; [exact I1|reflexivity].
  - injection E as _ <- <-. cbn [dc]. split; [apply D1|]. exists n. split; [apply HP|]. split; [exact I1|reflexivity].
Qed.

(* the state after the codes that end a stream *)
Lemma run_end jpre jlit grow : forall fuel d b o code s o', run fuel jpre jlit grow d b o = Ok (code, s, o') ->
  (code = BL_ERROR_DECOMPRESSION_FAILED -> d_state (dc s) = KInvalid) /\ (code = BL_SUCCESS -> d_state (dc s) = KDone).
Proof.
  induction fuel as [|fuel IH]; intros d b o code s o' E; cbn [run] in E; [discriminate|].
  destruct (refill b) as [b1| | |]; try discriminate E. cbn [bind] in E. destruct (switch _ _ _ _ _) as [x| | |] eqn:E1; try discriminate E. cbn [bind] in E.
  apply (switch_inv (o_pos o) (firstn (Z.to_nat (o_pos o)) (o_mem o)) (length (o_mem o))) in E1; [|split; [lia|split; reflexivity]].
  destruct x as [d1 b2 o1|d1 b2 o1|d1 b2 o1|d1 b2 o1|d1 b2 o1|c d1 b2 o1]; cbn [next_ok] in E1.
  - apply IH in E. exact E.
  - destruct (d_norealloc d1); [injection E as <- _ _; split; discriminate|]. destruct (grow _ _) as [m|]; [|injection E as <- _ _; split; discriminate]. apply IH in E. exact E.
  - destruct (d_final d1); cbn [negb] in E; [|apply IH in E; exact E]. injection E as <- <- _. split; [discriminate|reflexivity].
  - injection E as <- _ _. split; discriminate.
  - injection E as <- <- _. split; [reflexivity|discriminate].
  - injection E as <- _ _. destruct E1 as [_ [_ ->]]. split; discriminate.
Qed.
Lemma refill_total b : exists b', refill b = Ok b'.
Proof.
  unfold refill. destruct b as [word len src]. cbn [b_src b_word b_len]. revert word len. induction src as [|x src IH]; intros word len; cbn [refill_loop]; [eexists; reflexivity|].
  destruct (len <? 56) eqn:E; [|eexists; reflexivity]. unfold refill_byte. replace (64 <=? len) with false by lia. cbn [bind fst snd]. apply IH.
Qed.

Lemma decode_run jpre jlit grow s o c : exists fuel, decode jpre jlit grow s o c = run (S fuel) jpre jlit grow (dc s) (Bits (dc_word s) (dc_len s) c) o.
Proof. exists (15 + 8 * (Z.to_nat (dc_len s) + 8 * length c))%nat. reflexivity. Qed.
Local Opaque decode run.
Lemma feed_inv jpre jlit grow p l : forall chunks s o n code s' o', 0 <= p <= Z.of_nat n -> inv p l n o -> feed jpre jlit grow s o chunks = Ok (code, s', o') ->
  d_norealloc (dc s') = d_norealloc (dc s) /\ exists n', p <= Z.of_nat n' /\ inv p l n' o' /\ (d_norealloc (dc s) = true -> n' = n).
Proof.
  induction chunks as [|c chunks IH]; intros s o n code s' o' HP H E; cbn [feed] in E.
  - injection E as _ <- <-. split; [reflexivity|]. exists n. split; [apply HP|]. split; [exact H|reflexivity].
  - destruct (decode _ _ _ _ _ _) as [[[code1 s1] o1]| | |] eqn:E1; try discriminate E. cbn [bind] in E. destruct (decode_run jpre jlit grow s o c) as [fuel EF]. rewrite EF in E1. apply (run_inv _ _ _ p l _ _ _ _ n) in E1; [|assumption..]. destruct E1 as [D1 [n1 [P1 [I1 N1]]]].
    destruct (code1 =? BL_ERROR_DATA_TRUNCATED).
    + apply (IH _ _ n1) in E; [|lia|exact I1]. destruct E as [D2 [n2 [P2 [I2 N2]]]]. split; [congruence|]. exists n2. split; [exact P2|]. split; [exact I2|]. intros Q. rewrite N2, N1 by congruence. reflexivity.
    + injection E as _ <- <-. split; [exact D1|]. exists n1. split; [exact P1|]. split; [exact I1|exact N1].
Qed.

Lemma feed_end jpre jlit grow : forall chunks s o code s' o', feed jpre jlit grow s o chunks = Ok (code, s', o') ->
  (code = BL_ERROR_DECOMPRESSION_FAILED -> d_state (dc s') = KInvalid) /\ (code = BL_SUCCESS -> d_state (dc s') = KDone).
Proof.
  induction chunks as [|c chunks IH]; intros s o code s' o' E; cbn [feed] in E; [injection E as <- _ _; split; discriminate|].
  destruct (decode _ _ _ _ _ _) as [[[code1 s1] o1]| | |] eqn:E1; try discriminate E. cbn [bind] in E. destruct (code1 =? BL_ERROR_DATA_TRUNCATED); [apply IH in E; exact E|].
  destruct (decode_run jpre jlit grow s o c) as [fuel EF]. rewrite EF in E1. apply run_end in E1. injection E as <- <- _. exact E1.
Qed.
Local Transparent run.
Lemma run_invalid jpre jlit grow fuel d b o : d_state d = KInvalid -> exists s', run (S fuel) jpre jlit grow d b o = Ok (BL_ERROR_INVALID_DATA, s', o) /\ d_state (dc s') = KInvalid.
Proof.
  intros H. cbn [run]. destruct (refill_total b) as [b' ->]. cbn [bind]. unfold switch. rewrite H. cbn [bind]. eexists. split; [reflexivity|exact H].
Qed.
Lemma run_done_fixed jpre jlit grow fuel d b o : d_state d = KDone -> d_norealloc d = true -> exists s', run (S fuel) jpre jlit grow d b o = Ok (BL_ERROR_OUT_OF_MEMORY, s', o) /\ d_state (dc s') = KDone.
Proof.
  intros H N. cbn [run]. destruct (refill_total b) as [b' ->]. cbn [bind]. unfold switch. rewrite H. cbn [bind]. rewrite N. eexists. split; [reflexivity|exact H].
Qed.
Lemma run_done_loops jpre jlit grow : (forall size need, grow size need <> None) -> forall fuel d b o, d_state d = KDone -> d_norealloc d = false -> run fuel jpre jlit grow d b o = NoFuel.
Proof.
  intros HG. induction fuel as [|fuel IH]; intros d b o H N; [reflexivity|]. cbn [run]. destruct (refill_total b) as [b' ->]. cbn [bind]. unfold switch. rewrite H. cbn [bind]. rewrite N.
  destruct (grow _ _) as [m|] eqn:E; [|exfalso; eapply HG; exact E]. apply IH; assumption.
Qed.
