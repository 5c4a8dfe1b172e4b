(* No operation on one array, not even one that goes wrong for that array, changes what another handle sees. *)
From Verif Require Import Base Bits IntOps_Model IntOps_Spec IntOps_Proofs Algorithm_Model Algorithm_Proofs Object_Model Object_Spec Object_Proofs
  BitArray_Model BitArray_Spec BitArray_Client.

Section Frame.
  Context (h0 : heap) (self0 : obj).
  (* Impls that some other handle may see *)
  Definition protected (q : nat) (im : impl) : Prop := nth_error h0 q = Some (Some im) /\ (self0 = Dyn q -> rc im <> 1).
  Definition same (a b : impl) : Prop := isize a = isize b /\ mem a = mem b.
  Definition frame (h : heap) : Prop := forall q im, protected q im -> exists im', nth_error h q = Some (Some im') /\ same im im'.
  Definition exact (h : heap) : Prop := (length h0 <= length h)%nat /\ forall q, (q < length h0)%nat -> nth_error h q = nth_error h0 q.
  Definition writable (o : obj) : Prop := match o with Sso _ _ => True | Dyn q => forall im, ~ protected q im end.

  Lemma exact_refl : exact h0. Proof. split; auto. Qed.
  Lemma exact_frame h : exact h -> frame h.
  Proof. intros [L E] q im [P _]. exists im. split; [|split; reflexivity]. rewrite E; auto. apply nth_error_Some. congruence. Qed.
  Lemma fresh_writable q : (length h0 <= q)%nat -> writable (Dyn q).
  Proof. intros L im [P _]. assert (q < length h0)%nat by (apply nth_error_Some; congruence). lia. Qed.
  Lemma alloc_exact h s c n h' o : exact h -> alloc_impl h s c n = (h', o) -> exact h' /\ writable o.
  Proof.
    intros [L E] A. injection A as <- <-. split; [split|].
    - rewrite app_length. cbn. lia.
    - intros q Q. rewrite nth_error_app1 by lia. auto.
    - apply fresh_writable. lia.
  Qed.
  Lemma dyn_exact m h a s h' o : exact h -> init_dynamic m h a s = Some (h', o) -> exact h' /\ writable o.
  Proof. unfold init_dynamic. destruct m; [|discriminate]. intros X E. assert (E' : alloc_impl h (w32 s) (w32 (bit_count_from_word_count (word_capacity_from_impl_size a))) (Z.to_nat (word_capacity_from_impl_size a)) = (h', o)) by congruence. eapply alloc_exact; eauto. Qed.
  Lemma put_frame h q x : writable (Dyn q) -> frame h -> frame (upd h q x).
  Proof.
    intros N F q' im P. assert (q <> q') by (intros ->; exact (N im P)). destruct (F q' im P) as (im' & E & S0).
    exists im'. split; auto. now rewrite nth_upd_neq.
  Qed.
  Lemma put_exact h q x : (length h0 <= q)%nat -> exact h -> exact (upd h q x).
  Proof. intros N [L E]. split; [now rewrite upd_len|]. intros p P. rewrite nth_upd_neq by lia. auto. Qed.
  Lemma store_frame h o c h' o' : writable o -> frame h -> store h o c = Ok (h', o') -> frame h'.
  Proof.
    intros N F. destruct o as [s d|q]; cbn [store]; [intros [= <- <-]; auto|]. destruct (get_impl h q) as [im| | |]; try discriminate.
    cbn [bind]. intros [= <- <-]. now apply put_frame.
  Qed.
  (* writing to a new object before self is released *)
  Lemma store_exact h o c h' o' : (match o with Sso _ _ => True | Dyn q => (length h0 <= q)%nat end) -> exact h -> store h o c = Ok (h', o') -> exact h' /\ o' = match o with Sso s _ => Sso s c | Dyn q => Dyn q end.
  Proof.
    intros N F. destruct o as [s d|q]; cbn [store]; [intros [= <- <-]; auto|]. destruct (get_impl h q) as [im| | |]; try discriminate.
    cbn [bind]. intros [= <- <-]. split; auto. now apply put_exact.
  Qed.
  Context (BASE : forall q im, nth_error h0 q = Some (Some im) -> base im = 1).

  Lemma release_frame h h' : exact h -> release h self0 = Ok h' -> frame h'.
  Proof.
    intros X R. pose proof (exact_frame h X) as F. unfold release in R. destruct self0 as [s c|p] eqn:ES; [injection R as <-; auto|].
    unfold get_impl in R. destruct (nth_error h p) as [[im|]|] eqn:E; try discriminate. cbn [bind] in R.
    intros q im0 P. destruct (Nat.eq_dec p q) as [<-|N].
    - destruct (F p im0 P) as (im' & E' & S1 & S2). rewrite E in E'. injection E' as <-.
      assert (Q : nth_error h0 p = Some (Some im0)) by apply P. destruct P as [_ P]. specialize (P ES).
      destruct X as [XL XE]. rewrite (XE p) in E by (apply nth_error_Some; congruence). rewrite Q in E. injection E as <-.
      rewrite (BASE _ _ Q) in R. destruct (Z.eqb_spec (rc im0) 1); [congruence|]. injection R as <-.
      eexists. split; [unfold put_impl; erewrite nth_upd_eq; [reflexivity|]|split; reflexivity].
      assert (p < length h0)%nat by (apply nth_error_Some; congruence). lia.
    - destruct (F q im0 P) as (im' & E' & S1). exists im'. split; auto.
      destruct (rc im =? base im); injection R as <-; unfold put_impl; now rewrite nth_upd_neq.
  Qed.
  Lemma replace_frame h n h' o' : exact h -> replace_instance h self0 n = Ok (h', o') -> frame h' /\ o' = n.
  Proof.
    unfold replace_instance. intros X. destruct (release h self0) as [h1| | |] eqn:R; try discriminate. cbn [bind]. intros [= <- <-].
    split; auto. eapply release_frame; eauto.
  Qed.
  Lemma dyn_fresh m h a s h' o : exact h -> init_dynamic m h a s = Some (h', o) -> match o with Sso _ _ => True | Dyn q => (length h0 <= q)%nat end.
  Proof. unfold init_dynamic. destruct m; [|discriminate]. intros X [= <- <-]. apply X. Qed.
  Lemma self_writable p im : self0 = Dyn p -> nth_error h0 p = Some (Some im) -> rc im = 1 -> writable self0.
  Proof. intros -> E R im' [P Q]. rewrite P in E. injection E as <-. now apply Q. Qed.
End Frame.
Arguments writable : clear implicits.

(* split one monadic step of a hypothesis [H : ... = Ok _] *)
Ltac stp H := match type of H with
  | bind ?e _ = _ => let E := fresh "E" in destruct e as [?x| | |] eqn:E; try discriminate H; cbn [bind] in H
  end.
Ltac prs := repeat match goal with x : _ * _ |- _ => destruct x end.
Ltac okinj H := injection H as; subst.

Lemma modify_frame m h o from f code h' o' : (forall q im, nth_error h q = Some (Some im) -> base im = 1) ->
  modify m h o from f = Ok (code, h', o') -> frame h o h'.
Proof.
  intros B H. unfold modify in H. stp H. prs.
  assert (G : frame h o h0 /\ (z0 = BL_SUCCESS -> writable h o o0)).
  { unfold make_mutable_for_modify_op in E. destruct o as [s c|p].
    - destruct (s <=? from); okinj E; (split; [apply exact_frame, exact_refl|]); intros; cbn; auto.
    - stp E. unfold get_impl in E0. destruct (nth_error h p) as [[im|]|] eqn:EP; try discriminate. injection E0 as ->.
      destruct (isize x <=? from). { okinj E. split; [apply exact_frame, exact_refl|discriminate]. }
      destruct (is_impl_mutable x) eqn:MU.
      { okinj E. split; [apply exact_frame, exact_refl|]. intros _. unfold is_impl_mutable in MU. eapply self_writable; eauto. lia. }
      destruct (isize x <=? kSSOBitCapacity).
      { stp E. prs. okinj E. destruct (replace_frame h (Dyn p) B _ _ _ _ (exact_refl h) E0) as [F ->]. split; auto. intros; exact I. }
      destruct init_dynamic as [[h1 n1]|] eqn:EI. 2: { okinj E. split; [apply exact_frame, exact_refl|discriminate]. }
      stp E. prs. okinj E. destruct (dyn_exact h (Dyn p) _ _ _ _ _ _ (exact_refl h) EI) as [X1 X2].
      destruct (replace_frame h (Dyn p) B _ _ _ _ X1 E0) as [F ->]. split; auto. }
  destruct G as [F Wr]. destruct (Z.eqb_spec z0 BL_SUCCESS); cbn [negb] in H; [|okinj H; auto].
  stp H. prs. stp H. stp H. prs. okinj H. eapply store_frame; [apply Wr; auto|exact F|eauto].
Qed.

Lemma append_frame m h o n code h' o' a b : (forall q im, nth_error h q = Some (Some im) -> base im = 1) -> 0 < n ->
  make_mutable_for_append_op m h o n = Ok (code, h', o', a, b) -> frame h o h' /\ (code = BL_SUCCESS -> writable h o o').
Proof.
  intros B N E.
  assert (RE : forall c s, append_realloc m h o c s n = Ok (code, h', o', a, b) -> frame h o h' /\ (code = BL_SUCCESS -> writable h o o')).
  { clear E. intros c s E. unfold append_realloc in E. destruct add_overflow as [ns of]. destruct of. { okinj E. split; [apply exact_frame, exact_refl|discriminate]. }
    stp E. destruct init_dynamic as [[h1 n1]|] eqn:EI. 2: { okinj E. split; [apply exact_frame, exact_refl|discriminate]. }
    stp E. prs. stp E. stp E. stp E. prs. stp E. prs. okinj E.
    destruct (dyn_exact h o _ _ _ _ _ _ (exact_refl h) EI) as [X1 X2]. pose proof (dyn_fresh h _ _ _ _ _ _ (exact_refl h) EI) as X3.
    destruct (store_exact h _ _ _ _ _ X3 X1 E4) as [X4 X5].
    destruct (replace_frame h o B _ _ _ _ X4 E5) as [F ->]. split; auto. intros _. subst. destruct n1; auto. }
  unfold make_mutable_for_append_op in E. destruct o as [s c|p].
  - destruct (n <=? kSSOBitCapacity - s). { okinj E. split; [apply exact_frame, exact_refl|cbn; auto]. }
    destruct (UINT32_MAX - s <? n). { okinj E. split; [apply exact_frame, exact_refl|discriminate]. }
    eapply RE; eauto.
  - stp E. unfold get_impl in E0. destruct (nth_error h p) as [[im|]|] eqn:EP; try discriminate. injection E0 as ->.
    destruct (is_impl_mutable x) eqn:MU.
    + destruct (n <=? _); [|eapply RE; eauto]. stp E. okinj E.
      assert (Wr : writable h (Dyn p) (Dyn p)). { unfold is_impl_mutable in MU. eapply self_writable; eauto. lia. }
      split; [|auto]. apply put_frame; auto. apply exact_frame, exact_refl.
    + change (bool_as_mask 64 false false) with 0 in E. rewrite Z.land_0_r in E. destruct (Z.leb_spec n 0); [lia|]. eapply RE; eauto.
Qed.

Lemma mask_imm n im : 0 <= n -> icap im < 2 ^ 32 -> (Z.lor n (bool_as_mask 64 false (negb (is_impl_mutable im))) <=? icap im) = true -> rc im = 1.
Proof.
  intros N C H. unfold is_impl_mutable in H. destruct (Z.eqb_spec (rc im) 1); auto. cbn [negb] in H.
  change (bool_as_mask 64 false true) with (2 ^ 64 - 1) in H.
  assert (2 ^ 64 - 1 <= Z.lor n (2 ^ 64 - 1)).
  { assert (Q : Z.lor n (2 ^ 64 - 1) = Z.lor (Z.shiftl (n / 2 ^ 64) 64) (2 ^ 64 - 1)).
    { apply Z.bits_inj'. intros k K. rewrite !Z.lor_spec. change (2 ^ 64 - 1) with (Z.ones 64). destruct (Z.lt_ge_cases k 64).
      - rewrite Z.ones_spec_low by lia. now rewrite !orb_true_r.
      - rewrite Z.ones_spec_high by lia. rewrite !orb_false_r, Z.shiftl_spec, Z.div_pow2_bits by lia. f_equal. lia. }
    rewrite Q, lor_shift_add by lia. assert (0 <= n / 2 ^ 64) by (apply Z.div_pos; lia). lia. }
  lia.
Qed.

Lemma bop_frame m h o b code h' o' : (forall q im, nth_error h q = Some (Some im) -> base im = 1 /\ icap im < 2 ^ 32) ->
  match b with BResize n | BReserve n | BReplaceOp n => 0 <= n | _ => True end ->
  run_bop m h o b = Ok (code, h', o') -> frame h o h'.
Proof.
  intros B0 A H. assert (B : forall q im, nth_error h q = Some (Some im) -> base im = 1) by (intros; now apply (B0 q im)).
  pose proof (exact_frame h o h (exact_refl h)) as FR. pose proof (exact_refl h) as XR.
  assert (NEW : forall a s h1 n1, init_dynamic m h a s = Some (h1, n1) -> forall d h2 n2, store h1 n1 d = Ok (h2, n2) -> forall h3 o3, replace_instance h2 o n2 = Ok (h3, o3) -> frame h o h3).
  { intros a s h1 n1 EI d h2 n2 ES h3 o3 ER. destruct (dyn_exact h o _ _ _ _ _ _ XR EI) as [X1 X2]. pose proof (dyn_fresh h _ _ _ _ _ _ XR EI) as X3.
    destruct (store_exact h _ _ _ _ _ X3 X1 ES) as [X4 X5]. now apply (replace_frame h o B _ _ _ _ X4 ER). }
  destruct b; cbn [run_bop] in H.
  - eapply modify_frame; eauto.
  - eapply modify_frame; eauto.
  - unfold ba_replace_bit in H. destruct v; eapply modify_frame; eauto.
  - unfold ba_fill_range in H. destruct (_ <=? _); [okinj H; auto|]. eapply modify_frame; eauto.
  - unfold ba_clear_range in H. destruct (_ <=? _); [okinj H; auto|]. eapply modify_frame; eauto.
  - eapply modify_frame; eauto.
  - eapply modify_frame; eauto.
  - eapply modify_frame; eauto.
  - unfold ba_append_bit in H. stp H. prs. assert (LN : 0 < 1) by lia. destruct (append_frame _ _ _ _ _ _ _ _ _ B LN E) as [F Wr].
    destruct (Z.eqb_spec z1 BL_SUCCESS); cbn [negb] in H; [|okinj H; auto]. stp H. prs. stp H. stp H. prs. okinj H. eapply store_frame; eauto.
  - unfold ba_append_words in H. destruct (Z.eqb_spec (len wd) 0); [okinj H; auto|]. stp H. prs.
    assert (LN : 0 < len wd * 32) by (unfold len in *; lia). destruct (append_frame _ _ _ _ _ _ _ _ _ B LN E) as [F Wr].
    destruct (Z.eqb_spec z1 BL_SUCCESS); cbn [negb] in H; [|okinj H; auto]. stp H. prs. stp H. stp H. prs. okinj H. eapply store_frame; eauto.
  - unfold ba_clear in H. destruct o as [s c|p]; [okinj H; auto|]. stp H. unfold get_impl in E. destruct (nth_error h p) as [[im|]|] eqn:EP; try discriminate. injection E as ->.
    destruct (is_impl_mutable x) eqn:MU.
    + okinj H. apply put_frame; auto. unfold is_impl_mutable in MU. eapply self_writable; eauto. lia.
    + stp H. okinj H. eapply release_frame; eauto.
  - assert (RE : forall c s, resize_realloc m h o c s n = Ok (code, h', o') -> frame h o h').
    { clear H. intros c s H. unfold resize_realloc in H. destruct (n <=? kSSOBitCapacity).
      - cbv iota beta zeta in H. stp H. prs. stp H. stp H. stp H. prs. cbn [init_sso store] in E2. injection E2 as <- <-. stp H. prs. okinj H. now apply (replace_frame h o B _ _ _ _ XR E2).
      - destruct init_dynamic as [[h1 n1]|] eqn:EI; [|okinj H; auto]. stp H. prs. stp H. stp H. stp H. prs. stp H. prs. okinj H. eauto. }
    unfold ba_resize in H. destruct o as [s c|p].
    + destruct (n <=? kSSOBitCapacity); [|eauto]. destruct (n <? s); [|okinj H; auto]. stp H. prs. stp H. okinj H. auto.
    + stp H. unfold get_impl in E. destruct (nth_error h p) as [[im|]|] eqn:EP; try discriminate. injection E as ->.
      destruct (Z.lor _ _ <=? _) eqn:LE; [|eauto]. apply mask_imm in LE; [|auto|apply (B0 _ _ EP)].
      assert (Wr : writable h (Dyn p) (Dyn p)) by (eapply self_writable; eauto).
      destruct (n <? isize x); stp H; okinj H; apply put_frame; auto.
  - assert (RE : forall c s, reserve_realloc m h o c s n = Ok (code, h', o') -> frame h o h').
    { clear H. intros c s H. unfold reserve_realloc in H. destruct init_dynamic as [[h1 n1]|] eqn:EI; [|okinj H; auto].
      stp H. prs. stp H. stp H. prs. stp H. prs. okinj H. eauto. }
    unfold ba_reserve in H. destruct o as [s c|p].
    + destruct (n <=? kSSOBitCapacity); [okinj H; auto|eauto].
    + stp H. destruct (Z.lor _ _ <=? _); [okinj H; auto|eauto].
  - unfold ba_shrink in H. destruct o as [s c|p]; [okinj H; auto|]. stp H. destruct (isize x <=? kSSOBitCapacity).
    + cbv iota beta zeta delta [init_sso] in H. stp H. stp H. prs. okinj H. now apply (replace_frame h (Dyn p) B _ _ _ _ XR E1).
    + cbv zeta in H. destruct (_ <=? _); [|okinj H; auto]. destruct init_dynamic as [[h1 n1]|] eqn:EI; [|okinj H; auto].
      stp H. prs. stp H. stp H. prs. stp H. prs. okinj H. eauto.
  - assert (RE : match init_dynamic m h (impl_size_from_word_capacity (word_count_from_bit_count n)) n with
        | None => Ok (BL_ERROR_OUT_OF_MEMORY, h, o)
        | Some (h1, newO) =>
          let* h2 := release h1 o in let* (d, _) := unpack h2 newO in let* d := fill_cells (Z.to_nat (word_count_from_bit_count n)) d 0 0 in
          let* (h3, o') := store h2 newO d in Ok (BL_SUCCESS, h3, o') end = Ok (code, h', o') -> frame h o h').
    { clear H. intros H. destruct init_dynamic as [[h1 n1]|] eqn:EI; [|okinj H; auto]. stp H. stp H. prs. stp H. stp H. prs. okinj H.
      destruct (dyn_exact h o _ _ _ _ _ _ XR EI) as [X1 X2]. pose proof (release_frame h o B _ _ X1 E) as F. eapply store_frame; eauto. }
    unfold ba_replace_op in H. cbv zeta in H. destruct o as [s c|p].
    + destruct (n <=? kSSOBitCapacity); [okinj H; auto|eauto].
    + stp H. unfold get_impl in E. destruct (nth_error h p) as [[im|]|] eqn:EP; try discriminate. injection E as ->.
      destruct (Z.lor _ _ <=? _) eqn:LE.
      * apply mask_imm in LE; [|auto|apply (B0 _ _ EP)]. stp H. okinj H. apply put_frame; auto. eapply self_writable; eauto.
      * destruct (n <=? kSSOBitCapacity); [|eauto]. stp H. okinj H. eapply release_frame; eauto.
  - assert (RE : assign_words_new m h o wd (len wd) = Ok (code, h', o') -> frame h o h').
    { clear H. intros H. unfold assign_words_new in H. destruct init_dynamic as [[h1 n1]|] eqn:EI; [|okinj H; auto].
      stp H. prs. stp H. stp H. prs. stp H. prs. okinj H. eauto. }
    unfold ba_assign_words in H. destruct o as [s c|p].
    + destruct (len wd <=? kSSOWordCapacity); [|eauto]. stp H. stp H. okinj H. auto.
    + stp H. cbv zeta in H. destruct (_ <? _); [|eauto]. cbv iota beta zeta delta [init_sso] in H. stp H. stp H. prs. okinj H. now apply (replace_frame h (Dyn p) B _ _ _ _ XR E1).
Qed.

Lemma others_frame m h o os b code h' o' : ba_wf h (o :: os) ->
  match b with BResize n | BReserve n | BReplaceOp n => 0 <= n | _ => True end ->
  run_bop m h o b = Ok (code, h', o') -> forall x, In x os -> ba_value h' x = ba_value h x.
Proof.
  intros [WS W] A H x I. assert (F : frame h o h').
  { eapply bop_frame; eauto. intros q im E. specialize (W q). rewrite E in W. destruct W as ((_ & C & _) & [Bs|[_ []]] & _). auto. }
  destruct x as [s c|p]; [reflexivity|]. unfold ba_value, value. specialize (W p).
  assert (RP : 0 < refs p os). { unfold refs. assert (In (Dyn p) (filter (refers p) os)) by (apply filter_In; split; auto; cbn; apply Nat.eqb_refl). destruct (filter (refers p) os); [easy|cbn [length]; lia]. }
  assert (RP2 : refs p os <= refs p (o :: os)). { unfold refs. cbn [filter]. destruct (refers p o); cbn [length]; lia. }
  destruct (nth_error h p) as [[im|]|] eqn:E; try lia.
  destruct (F p im) as (im' & E' & S1 & S2).
  { split; auto. intros ->. destruct W as (_ & [Bs|[_ []]] & _ & R). unfold refs in R, RP, RP2. cbn [filter refers] in R. rewrite Nat.eqb_refl in R. cbn [length] in R. lia. }
  rewrite E'. now rewrite S1, S2.
Qed.
