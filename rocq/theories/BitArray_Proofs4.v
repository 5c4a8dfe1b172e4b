(* Operations that change the size or the storage. *)
From Verif Require Import Base Bits IntOps_Model IntOps_Spec IntOps_Proofs Algorithm_Model Object_Model Object_Spec Object_Proofs
  Object_Proofs2 BitArray_Model BitArray_Spec BitArray_Proofs BitArray_Proofs2 BitArray_Proofs3.

Lemma write_ok h os o f (g : Z -> bool -> bool) : ba_wf h (o :: os) -> exclusive h o ->
  (forall c n, words_ok c n -> len (ba_value h o) <= 32 * n -> 
     (forall j, 0 <= j < len (ba_value h o) -> cbit c j = bit_at (ba_value h o) j) ->
     exists c', f c = Ok c' /\ length c' = length c /\ words_ok c' n /\
       forall j, 0 <= j -> cbit c' j = if j <? len (ba_value h o) then g j (cbit c j) else cbit c j) ->
  step h os (let* (c, _) := unpack h o in let* c := f c in let* (h, self) := store h o c in Ok (BL_SUCCESS, h, self))
    (fun code l => code = BL_SUCCESS /\ l = mapi g (ba_value h o)).
Proof.
  intros W X HF. destruct o as [s c|p].
  - pose proof (wf_sso _ _ _ _ _ _ W) as (S1 & L & K & Zt).
    change (ba_value h (Sso s c)) with (view s c) in *. rewrite view_len in * by lia. cbn [unpack bind].
    destruct (HF c 3) as (c' & E & L' & K' & B); auto; try lia.
    { intros j J. now rewrite bit_at_view by lia. }
    rewrite E. cbn [bind store]. eapply step_sso; eauto.
    + split; auto. split; [congruence|]. split; auto. intros j J. rewrite B by lia.
      replace (j <? s) with false by lia. apply Zt. lia.
    + split; auto. apply view_mapi. intros j J. rewrite B by lia. now replace (j <? s) with true by lia.
  - destruct (wf_get _ _ _ _ _ W) as (im & E & G & OK & HB & HR). pose proof OK as (S1 & S2 & S3 & K & Zt).
    cbn in X. rewrite E in X.
    assert (HV : ba_value h (Dyn p) = view (isize im) (mem im)) by (unfold ba_value, value; now rewrite E).
    rewrite HV in *. rewrite view_len in * by lia.
    cbn [unpack]. rewrite G. cbn [bind].
    destruct (HF (mem im) ((isize im + 31) / 32)) as (c' & E' & L' & K' & B); auto; try lia.
    { intros j J. now rewrite bit_at_view by lia. }
    rewrite E'. cbn [bind store]. rewrite G. cbn [bind].
    pose proof (step_upd h os p im (isize im) c') as SU. unfold set_dyn in SU.
    replace (w32 (isize im)) with (isize im) in SU by (unfold w32; rewrite Z.mod_small; lia).
    apply SU; auto; try lia.
    + split; auto. split; auto. split; [unfold len in *; lia|]. split; auto.
      intros j J. rewrite B by lia. replace (j <? isize im) with false by lia. apply Zt. lia.
    + split; auto. apply view_mapi. intros j J. rewrite B by lia. now replace (j <? isize im) with true by lia.
Qed.

Lemma bit_at_mapi (g : Z -> bool -> bool) l i : bit_at (mapi g l) i = if (0 <=? i) && (i <? len l) then g i (bit_at l i) else false.
Proof.
  destruct ((0 <=? i) && (i <? len l)) eqn:Q.
  - unfold bit_at. replace (i <? 0) with false by lia. unfold mapi.
    set (F := fun p : nat * bool => g (Z.of_nat (fst p)) (snd p)).
    rewrite (nth_indep _ false (F (0%nat, false))) by (rewrite map_length, combine_length, seq_length; unfold len in Q; lia).
    rewrite map_nth. rewrite combine_nth by apply seq_length. subst F. cbn [fst snd].
    rewrite seq_nth by (unfold len in Q; lia). f_equal. lia.
  - apply bit_at_out. unfold len in *. rewrite mapi_length. lia.
Qed.
Lemma resize_len l n : 0 <= n -> len (l_resize l n) = n.
Proof. intros. unfold l_resize, len. rewrite app_length, firstn_length, repeat_length. lia. Qed.
Lemma bit_at_resize l n i : bit_at (l_resize l n) i = if (i <? n) && (i <? len l) then bit_at l i else false.
Proof.
  unfold l_resize. rewrite bit_at_app, bit_at_firstn, bit_at_repeat_false.
  unfold len. rewrite firstn_length.
  destruct (Z.lt_ge_cases i 0). { rewrite !bit_at_out by lia. repeat match goal with |- context [if ?b then _ else _] => destruct b end; reflexivity. }
  destruct (Z.ltb_spec i n), (Z.ltb_spec i (Z.of_nat (length l))); cbn [andb].
  - replace (i <? Z.of_nat (Nat.min (Z.to_nat n) (length l))) with true by lia. now replace (i <? Z.of_nat (Z.to_nat n)) with true by lia.
  - replace (i <? Z.of_nat (Nat.min (Z.to_nat n) (length l))) with false by lia. reflexivity.
  - replace (i <? Z.of_nat (Nat.min (Z.to_nat n) (length l))) with false by lia. reflexivity.
  - replace (i <? Z.of_nat (Nat.min (Z.to_nat n) (length l))) with false by lia. reflexivity.
Qed.

(* copy [wc] words of the old content into a new block of W words and clear up to the new size *)
Definition others (h h' : heap) (os : list obj) : Prop := forall x, In x os -> ba_value h' x = ba_value h x.

Lemma append_realloc_ok (m : bool) h os o c size N n : ba_wf h (o :: os) -> ba_value h o = view size c ->
  words_ok c N -> zero_tail c size N -> (size + 31) / 32 <= N -> 0 <= size -> 1 <= n -> size + n <= UINT32_MAX ->
  if m then exists h' o', append_realloc true h o c size n = Ok (BL_SUCCESS, h', o', size, size + n) /\
      ba_wf h' (o' :: os) /\ others h h' os /\ exclusive h' o' /\ ba_value h' o' = l_resize (ba_value h o) (size + n)
  else append_realloc false h o c size n = Ok (BL_ERROR_OUT_OF_MEMORY, h, o, 0, 0).
Proof.
  intros W HV K Zt LN S0 N1 MAX. unfold UINT32_MAX in MAX.
  assert (EA : add_overflow 64 false size n false = (size + n, false)).
  { unfold add_overflow, to_t, to_u. cbv zeta iota. rewrite (Z.mod_small size), (Z.mod_small n), (Z.mod_small (size + n)) by lia.
    cbn [orb]. replace (size + n <? size) with false by lia. rewrite ?Z.mod_small by lia. reflexivity. }
  unfold append_realloc. rewrite EA. cbv zeta iota. rewrite !wcount by lia.
  set (WC := (size + n + 31) / 32) in *.
  destruct (expand_ok (impl_size_from_word_capacity WC)) as (r & Er & Br & _).
  { unfold impl_size_from_word_capacity, sizeof_BLBitArrayImpl. subst WC. lia. }
  pose proof (expand_bound (impl_size_from_word_capacity WC) r ltac:(unfold impl_size_from_word_capacity, sizeof_BLBitArrayImpl; subst WC; lia) Er) as [_ Bu].
  set (RW := (r - 8) / 4). assert (RWB : WC <= RW < 2 ^ 40).
  { subst RW. unfold impl_size_from_word_capacity, sizeof_BLBitArrayImpl in *. subst WC. lia. }
  assert (ID : init_dynamic true h r (size + n) = Some (h ++ [Some (Impl 1 1 (size + n) (Z.min (RW * 32) UINT32_MAX) (repeat None (Z.to_nat RW)))], Dyn (length h))).
  { unfold init_dynamic, alloc_impl, word_capacity_from_impl_size, sizeof_BLBitArrayImpl, bit_count_from_word_count, w32, UINT32_MAX.
    fold RW. rewrite !Z.mod_small by lia. reflexivity. }
  destruct m.
  - rewrite Er. cbn [bind]. rewrite ID. rewrite unpack_new. cbn [bind].
    destruct (copy0_ok (repeat None (Z.to_nat RW)) c ((size + 31) / 32)) as (d1 & E1 & L1 & K1 & _ & B1).
    { rewrite repeat_len by lia. subst WC. lia. } { eapply words_ok_le; eauto. }
    rewrite E1. cbn [bind]. rewrite repeat_length in L1.
    destruct (fill0_ok d1 ((size + 31) / 32) (WC - (size + 31) / 32)) as (d2 & E2 & L2 & K2 & B2).
    { lia. } { subst WC. lia. } { unfold len. rewrite L1. subst WC. lia. }
    rewrite E2. cbn [bind]. rewrite store_new. cbn [bind].
    assert (B : forall j, 0 <= j < 32 * WC -> cbit d2 j = if j <? size then cbit c j else false).
    { intros j J. rewrite B2 by lia. destruct (Z.ltb_spec j size).
      - replace ((32 * ((size + 31) / 32) <=? j) && (j <? 32 * ((size + 31) / 32 + (WC - (size + 31) / 32)))) with false by lia.
        rewrite B1 by lia. now replace (j <? 32 * ((size + 31) / 32)) with true by lia.
      - destruct (Z.lt_ge_cases j (32 * ((size + 31) / 32))).
        + replace ((32 * ((size + 31) / 32) <=? j) && (j <? 32 * ((size + 31) / 32 + (WC - (size + 31) / 32)))) with false by lia.
          rewrite B1 by lia. replace (j <? 32 * ((size + 31) / 32)) with true by lia. apply Zt. lia.
        + replace ((32 * ((size + 31) / 32) <=? j) && (j <? 32 * ((size + 31) / 32 + (WC - (size + 31) / 32)))) with true by lia. reflexivity. }
    assert (OK : ba_okI (size + n) (Z.min (RW * 32) UINT32_MAX) d2).
    { unfold UINT32_MAX. split; [subst WC; lia|]. split; [lia|]. split; [unfold len; rewrite L2, L1; lia|]. fold WC. split.
      - specialize (K2 _ K1 ltac:(lia)). eapply words_ok_le; eauto. lia.
      - intros j J. rewrite B by lia. replace (j <? size) with false by lia. reflexivity. }
    destruct (replace_new_ok ba_okI ba_okS view [] h os o (size + n) (Z.min (RW * 32) UINT32_MAX) d2 W OK) as (h' & E & W' & O & NV & X).
    rewrite E. cbn [bind]. exists h', (Dyn (length h)). split; [reflexivity|]. split; [|split].
    + exact W'.
    + exact O.
    + cbn [exclusive]. rewrite X. split; [reflexivity|]. unfold ba_value at 1. rewrite NV, HV. apply view_resize; try lia.
      intros j J. apply B. subst WC. lia.
  - rewrite Er. reflexivity.
Qed.

Lemma append_prep m h os o n : ba_wf h (o :: os) -> 1 <= n -> len (ba_value h o) + n <= UINT32_MAX ->
  (exists h' o', make_mutable_for_append_op m h o n = Ok (BL_SUCCESS, h', o', len (ba_value h o), len (ba_value h o) + n) /\
      ba_wf h' (o' :: os) /\ others h h' os /\ exclusive h' o' /\
      ba_value h' o' = l_resize (ba_value h o) (len (ba_value h o) + n)) \/
  (m = false /\ make_mutable_for_append_op m h o n = Ok (BL_ERROR_OUT_OF_MEMORY, h, o, 0, 0)).
Proof.
  intros W N1 MAX.
  destruct (unpack_ok h os o W) as (c & size & N & U & HV & K & SB & S32 & Zt & LN).
  rewrite HV in *. rewrite view_len in * by lia. unfold UINT32_MAX in MAX.
  assert (RE : (exists h' o', append_realloc m h o c size n = Ok (BL_SUCCESS, h', o', size, size + n) /\
      ba_wf h' (o' :: os) /\ others h h' os /\ exclusive h' o' /\ ba_value h' o' = l_resize (view size c) (size + n)) \/
    (m = false /\ append_realloc m h o c size n = Ok (BL_ERROR_OUT_OF_MEMORY, h, o, 0, 0))).
  { pose proof (append_realloc_ok m h os o c size N n W HV K Zt LN ltac:(lia) N1 ltac:(unfold UINT32_MAX; lia)) as R.
    rewrite HV in R. destruct m; auto. }
  destruct o as [s c0|p]; cbn [make_mutable_for_append_op].
  - cbn in U. injection U as -> ->.
    pose proof (wf_sso _ _ _ _ _ _ W) as (S1 & L & K3 & Zt3). unfold kSSOBitCapacity, UINT32_MAX.
    destruct (Z.leb_spec n (96 - size)).
    + left. exists h, (Sso (size + n) c). split; [reflexivity|]. split; [|split; [|split]].
      * eapply sso_swap_ok; eauto. split; [lia|]. sp. intros j J. apply Zt3. lia.
      * intros x I. reflexivity.
      * exact I.
      * change (ba_value h (Sso (size + n) c)) with (view (size + n) c). apply view_resize; try lia.
        intros j J. destruct (Z.ltb_spec j size); auto. apply Zt3. lia.
    + replace (4294967295 - size <? n) with false by lia. exact RE.
  - destruct (wf_get _ _ _ _ _ W) as (im & E & G & OK & HB & HR). pose proof OK as (S1 & S2 & S3 & K3 & Zt3).
    cbn [unpack] in U. rewrite G in U. cbn [bind] in U. injection U as <- <-. rewrite G. cbn [bind].
    assert (GO : Z.land (icap im - isize im) (bool_as_mask 64 false (is_impl_mutable im)) = if is_impl_mutable im then icap im - isize im else 0).
    { destruct (is_impl_mutable im). - rewrite mask_true. apply land_mask64. lia. - rewrite mask_false. apply Z.land_0_r. }
    rewrite GO. destruct (Z.leb_spec n (if is_impl_mutable im then icap im - isize im else 0)) as [Q|Q]; [|exact RE].
    destruct (is_impl_mutable im) eqn:MU; [|lia]. unfold is_impl_mutable in MU. apply Z.eqb_eq in MU.
    left. unfold word_index_of.
    set (fw := (isize im + 31) / 32). set (lw := (isize im + n - 1) / 32).
    destruct (fill0_ok (mem im) fw (lw - fw + 1)) as (d & Ed & Ld & Kd & Bd).
    { subst fw. lia. } { subst fw lw. lia. } { subst fw lw. lia. }
    rewrite Ed. cbn [bind].
    assert (B : forall j, 0 <= j < 32 * ((isize im + n + 31) / 32) -> cbit d j = if j <? isize im then cbit (mem im) j else false).
    { intros j J. rewrite Bd by lia. destruct (Z.ltb_spec j (isize im)).
      - replace ((32 * fw <=? j) && (j <? 32 * (fw + (lw - fw + 1)))) with false by (subst fw lw; lia). reflexivity.
      - destruct (Z.lt_ge_cases j (32 * fw)).
        + replace ((32 * fw <=? j) && (j <? 32 * (fw + (lw - fw + 1)))) with false by (subst fw lw; lia). apply Zt3. subst fw. lia.
        + replace ((32 * fw <=? j) && (j <? 32 * (fw + (lw - fw + 1)))) with true by (subst fw lw; lia). reflexivity. }
    assert (OKd : ba_okI (isize im + n) (icap im) d).
    { split; [lia|]. split; [lia|]. split; [unfold len in *; lia|]. split.
      - specialize (Kd _ K3 ltac:(subst fw; lia)). eapply words_ok_le; eauto. subst fw lw. lia.
      - intros j J. rewrite B by lia. now replace (j <? isize im) with false by lia. }
    destruct (update_ok ba_okI ba_okS view [] h os p im (isize im + n) (icap im) d W E MU OKd) as (W' & O & NV).
    unfold set_dyn. replace (w32 (isize im + n)) with (isize im + n) by (unfold w32; rewrite Z.mod_small; lia).
    eexists _, _. split; [reflexivity|]. split; [exact W'|]. split; [exact O|]. split.
    + cbn [exclusive]. unfold put_impl. rewrite nth_upd_eq by (apply nth_error_Some; congruence). exact MU.
    + unfold ba_value. rewrite NV. apply view_resize; try lia. intros j J. apply B. lia.
Qed.

Lemma step_trans h h1 os r (P : Z -> list bool -> Prop) : others h h1 os -> step h1 os r P -> step h os r P.
Proof.
  intros O (code & h' & o' & E & W & O' & H). exists code, h', o'. sp. split; auto. intros x I. rewrite O' by auto. now apply O.
Qed.
Lemma step_weaken h os r (P Q : Z -> list bool -> Prop) : (forall c l, P c l -> Q c l) -> step h os r P -> step h os r Q.
Proof. intros I (code & h' & o' & E & W & O & H). exists code, h', o'. sp. auto. Qed.

Lemma append_bit_step m h os o v : ba_wf h (o :: os) -> len (ba_value h o) + 1 <= UINT32_MAX ->
  step h os (ba_append_bit m h o v) (fun code l =>
    (code = BL_SUCCESS /\ l = ba_value h o ++ [v]) \/ (m = false /\ code = BL_ERROR_OUT_OF_MEMORY /\ l = ba_value h o)).
Proof.
  intros W MAX. unfold ba_append_bit.
  assert (NN : 0 <= len (ba_value h o)) by (unfold len; lia).
  destruct (append_prep m h os o 1 W ltac:(lia) MAX) as [(h' & o' & E & W' & O & X & HV)|(M & E)]; rewrite E; cbn [bind].
  - change (negb (BL_SUCCESS =? BL_SUCCESS)) with false. cbn iota.
    eapply step_trans; [exact O|]. eapply step_weaken; [|eapply (write_ok h' os o' _ (fun j b => if j =? len (ba_value h o) then b || v else b)); auto].
    + cbv beta. intros c l (-> & ->). left. split; auto. rewrite HV. apply bool_list_ext.
      * rewrite mapi_length. unfold l_resize. rewrite !app_length, firstn_length, repeat_length. cbn. unfold len. lia.
      * intros i. rewrite bit_at_mapi, resize_len, bit_at_resize, bit_at_app by lia.
        destruct (Z.lt_ge_cases i 0).
        { replace (0 <=? i) with false by lia. cbn [andb]. replace (i <? len (ba_value h o)) with true by lia. now rewrite bit_at_out by lia. }
        replace (0 <=? i) with true by lia. cbn [andb].
        destruct (Z.ltb_spec i (len (ba_value h o))).
        -- replace (i <? len (ba_value h o) + 1) with true by lia. replace (i =? len (ba_value h o)) with false by lia. reflexivity.
        -- destruct (Z.eqb_spec i (len (ba_value h o))) as [->|].
           ++ replace (len (ba_value h o) <? len (ba_value h o) + 1) with true by lia. cbn [andb orb].
              replace (len (ba_value h o) - len (ba_value h o)) with 0 by lia. reflexivity.
           ++ replace (i <? len (ba_value h o) + 1) with false by lia. rewrite bit_at_out; auto. right. unfold len at 1. cbn. lia.
    + rewrite HV, resize_len by lia. intros c n K LE _.
      destruct (or_bit_ok c n (len (ba_value h o)) v K ltac:(lia)) as (c' & E' & L' & K' & B). exists c'. sp.
      intros j J. rewrite B by auto. destruct (Z.ltb_spec j (len (ba_value h o) + 1)); auto.
      now replace (j =? len (ba_value h o)) with false by lia.
  - change (negb (BL_ERROR_OUT_OF_MEMORY =? BL_SUCCESS)) with true. cbn iota. apply step_same; auto.
Qed.

Lemma append_words_step m h os o wd : ba_wf h (o :: os) -> words wd -> len (ba_value h o) + 32 * len wd <= UINT32_MAX ->
  len (ba_value h o) mod 32 <= 16 ->
  step h os (ba_append_words m h o wd (len wd)) (fun code l =>
    (code = BL_SUCCESS /\ l = ba_value h o ++ words_bits wd) \/ (m = false /\ code = BL_ERROR_OUT_OF_MEMORY /\ l = ba_value h o)).
Proof.
  intros W HW MAX AL. unfold ba_append_words.
  assert (NN : 0 <= len (ba_value h o)) by (unfold len; lia).
  destruct (Z.eqb_spec (len wd) 0) as [Z0|Z0].
  { apply step_same; auto. left. split; auto. destruct wd; [|unfold len in Z0; cbn in Z0; lia]. cbn. now rewrite app_nil_r. }
  assert (LW : 0 < len wd) by (unfold len in *; lia).
  destruct (append_prep m h os o (len wd * 32) W ltac:(lia) ltac:(lia)) as [(h' & o' & E & W' & O & X & HV)|(M & E)]; rewrite E; cbn [bind].
  - change (negb (BL_SUCCESS =? BL_SUCCESS)) with false. cbn iota.
    set (s := len (ba_value h o)) in *.
    eapply step_trans; [exact O|]. eapply step_weaken; [|eapply (write_ok h' os o' _ (fun j b => if s <=? j then b || bit_at (words_bits wd) (j - s) else b)); auto].
    + cbv beta. intros c l (-> & ->). left. split; auto. rewrite HV. apply bool_list_ext.
      * rewrite mapi_length. pose proof (words_bits_len wd) as WL. pose proof (resize_len (ba_value h o) (s + len wd * 32) ltac:(lia)) as RL.
        rewrite app_length. unfold len in *. subst s. unfold len in *. lia.
      * intros i. rewrite bit_at_mapi, resize_len, bit_at_resize, bit_at_app by lia. fold s.
        destruct (Z.lt_ge_cases i 0).
        { replace (0 <=? i) with false by lia. cbn [andb]. replace (i <? s) with true by lia. now rewrite bit_at_out by lia. }
        replace (0 <=? i) with true by lia. cbn [andb].
        destruct (Z.ltb_spec i s).
        -- replace (i <? s + len wd * 32) with true by lia. replace (s <=? i) with false by lia. reflexivity.
        -- replace (s <=? i) with true by lia. rewrite andb_false_r. cbn [orb].
           destruct (Z.ltb_spec i (s + len wd * 32)); auto. rewrite bit_at_out; auto. right. rewrite words_bits_len. lia.
    + rewrite HV, resize_len by lia. intros c n K LE HC.
      destruct (combine_ok BOr c n (s + len wd * 32) s wd K HW ltac:(lia) LE ltac:(unfold UINT32_MAX in *; lia)) as (c' & E' & L' & K' & B).
      { unfold combine_safe. cbv zeta. destruct (Z.eq_dec (s mod 32) 0); [now left|right].
        replace (Z.min (32 * len wd) (s + len wd * 32 - s)) with (32 * len wd) by lia.
        split; [lia|]. right. right. lia. }
      exists c'. sp. intros j J. rewrite B by auto.
      replace (Z.min (s + len wd * 32) (s + 32 * len wd)) with (s + len wd * 32) by lia.
      destruct (Z.ltb_spec j (s + len wd * 32)); [|now rewrite andb_false_r].
      rewrite andb_true_r. destruct (Z.leb_spec s j); auto. cbn [opb]. now rewrite bit_at_words by lia.
  - change (negb (BL_ERROR_OUT_OF_MEMORY =? BL_SUCCESS)) with true. cbn iota. apply step_same; auto.
Qed.
