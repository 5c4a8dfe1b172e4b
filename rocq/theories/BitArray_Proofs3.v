(* Object level: every operation keeps the heap consistent, leaves all other handles alone and acts on
   the list of bits. *)
From Verif Require Import Base Bits IntOps_Model IntOps_Spec IntOps_Proofs Algorithm_Model Object_Model Object_Spec Object_Proofs
  BitArray_Model BitArray_Spec BitArray_Proofs BitArray_Proofs2.

Lemma view_length size c : length (view size c) = Z.to_nat size.
Proof. unfold view. now rewrite map_length, seq_length. Qed.
Lemma view_len size c : 0 <= size -> len (view size c) = size.
Proof. intros. unfold len. rewrite view_length. lia. Qed.
Lemma view_ext size c c' : (forall j, 0 <= j < size -> cbit c j = cbit c' j) -> view size c = view size c'.
Proof. intros H. apply map_ext_in. intros i I. apply in_seq in I. apply H. lia. Qed.
Lemma nth_view size c i : (i < Z.to_nat size)%nat -> nth i (view size c) false = cbit c (Z.of_nat i).
Proof.
  intros I. unfold view. rewrite (nth_indep _ false (cbit c (Z.of_nat 0))) by (rewrite map_length, seq_length; lia).
  rewrite (map_nth (fun i => cbit c (Z.of_nat i))). rewrite seq_nth by lia. reflexivity.
Qed.
Lemma bit_at_view size c i : 0 <= i < size -> bit_at (view size c) i = cbit c i.
Proof. intros I. unfold bit_at. replace (i <? 0) with false by lia. rewrite nth_view by lia. f_equal. lia. Qed.
Lemma bit_at_out l i : i < 0 \/ len l <= i -> bit_at l i = false.
Proof. intros I. unfold bit_at. destruct (Z.ltb_spec i 0); auto. apply nth_overflow. unfold len in I. lia. Qed.

Lemma mapi_length {A B} (f : Z -> A -> B) l : length (mapi f l) = length l.
Proof. unfold mapi. rewrite map_length, combine_length, seq_length. lia. Qed.
Lemma combine_map_seq {A} (g : nat -> A) n s : combine (seq s n) (map g (seq s n)) = map (fun i => (i, g i)) (seq s n).
Proof. revert s; induction n as [|n IH]; intros s; cbn; auto. now rewrite IH. Qed.
Lemma mapi_view {B} (f : Z -> bool -> B) size c :
  mapi f (view size c) = map (fun i => f (Z.of_nat i) (cbit c (Z.of_nat i))) (seq 0 (Z.to_nat size)).
Proof.
  unfold mapi. rewrite view_length. unfold view. rewrite combine_map_seq, map_map. reflexivity.
Qed.
Lemma view_mapi f size c c' : (forall j, 0 <= j < size -> cbit c' j = f j (cbit c j)) -> view size c' = mapi f (view size c).
Proof.
  intros H. rewrite mapi_view. unfold view. apply map_ext_in. intros i I. apply in_seq in I. apply H. lia.
Qed.
Lemma bool_list_ext (a b : list bool) : length a = length b -> (forall i, bit_at a i = bit_at b i) -> a = b.
Proof.
  intros L H. apply (nth_ext a b false false L). intros n N. specialize (H (Z.of_nat n)). unfold bit_at in H.
  replace (Z.of_nat n <? 0) with false in H by lia. now rewrite Nat2Z.id in H.
Qed.
Lemma bit_at_app a b i : bit_at (a ++ b) i = if i <? len a then bit_at a i else bit_at b (i - len a).
Proof.
  unfold bit_at, len. destruct (Z.ltb_spec i 0).
  - destruct (Z.ltb_spec i (Z.of_nat (length a))); auto. lia.
  - destruct (Z.ltb_spec i (Z.of_nat (length a))).
    + apply app_nth1. lia.
    + replace (i - Z.of_nat (length a) <? 0) with false by lia. rewrite app_nth2 by lia. f_equal. lia.
Qed.
Lemma bit_at_firstn l n i : bit_at (firstn n l) i = if i <? Z.of_nat n then bit_at l i else false.
Proof.
  unfold bit_at. destruct (Z.ltb_spec i 0). { destruct (i <? Z.of_nat n); auto. }
  destruct (Z.ltb_spec i (Z.of_nat n)).
  - rewrite <- (firstn_skipn n l) at 2. destruct (Nat.lt_ge_cases (Z.to_nat i) (length (firstn n l))) as [Q|Q].
    + now rewrite app_nth1.
    + rewrite firstn_length in Q. rewrite nth_overflow by (rewrite firstn_length; lia).
      rewrite app_nth2 by (rewrite firstn_length; lia). symmetry. apply nth_overflow. rewrite firstn_length, skipn_length. lia.
  - apply nth_overflow. rewrite firstn_length. lia.
Qed.
Lemma bit_at_repeat_false n i : bit_at (repeat false n) i = false.
Proof.
  unfold bit_at. destruct (i <? 0); auto. generalize (Z.to_nat i). induction n as [|n IH]; intros [|k]; cbn; auto.
Qed.
Lemma view_resize c c' size n : 0 <= size -> 0 <= n ->
  (forall j, 0 <= j < n -> cbit c' j = if j <? size then cbit c j else false) -> view n c' = l_resize (view size c) n.
Proof.
  intros S N H. apply bool_list_ext.
  - unfold l_resize. rewrite app_length, firstn_length, repeat_length, !view_length. lia.
  - intros i. unfold l_resize. rewrite bit_at_app, bit_at_firstn, bit_at_repeat_false.
    assert (LF : len (firstn (Z.to_nat n) (view size c)) = Z.min n size)
      by (unfold len; rewrite firstn_length, view_length; lia).
    rewrite LF. rewrite Z2Nat.id by lia.
    destruct (Z.lt_ge_cases i 0). { rewrite !bit_at_out by lia. destruct (i <? Z.min n size), (i <? n); reflexivity. }
    destruct (Z.lt_ge_cases i n).
    + rewrite bit_at_view by lia. rewrite H by lia. destruct (Z.ltb_spec i size).
      * replace (i <? Z.min n size) with true by lia. replace (i <? n) with true by lia. now rewrite bit_at_view by lia.
      * now replace (i <? Z.min n size) with false by lia.
    + rewrite bit_at_out by (rewrite view_len; lia). now replace (i <? Z.min n size) with false by lia.
Qed.

Lemma wcount n : 0 <= n < 2 ^ 37 - 31 -> word_count_from_bit_count n = (n + 31) / 32.
Proof. intros N. unfold word_count_from_bit_count, w32. apply Z.mod_small. lia. Qed.

Lemma mask_true : bool_as_mask 64 false true = 2 ^ 64 - 1. Proof. reflexivity. Qed.
Lemma mask_false : bool_as_mask 64 false false = 0. Proof. reflexivity. Qed.
Lemma land_mask64 x : 0 <= x < 2 ^ 64 -> Z.land x (2 ^ 64 - 1) = x.
Proof. intros X. rewrite (land_mask x 64) by lia. apply Z.mod_small. lia. Qed.
Lemma lor_mask64 x : 0 <= x < 2 ^ 64 -> Z.lor x (2 ^ 64 - 1) = 2 ^ 64 - 1.
Proof. intros X. apply (lor_allones 64); lia. Qed.

(* ---- freshly allocated Impls ---- *)
Lemma get_new h im : get_impl (h ++ [Some im]) (length h) = Ok im.
Proof. unfold get_impl. rewrite nth_snoc, Nat.eqb_refl. reflexivity. Qed.
Lemma upd_snoc {A} (h : list A) x y : upd (h ++ [x]) (length h) y = h ++ [y].
Proof. induction h as [|a h IH]; cbn; auto. now rewrite IH. Qed.
Lemma store_new h size cap c d : store (h ++ [Some (Impl 1 1 size cap c)]) (Dyn (length h)) d
  = Ok (h ++ [Some (Impl 1 1 size cap d)], Dyn (length h)).
Proof. unfold store. rewrite get_new. cbn [bind rc base isize icap]. unfold put_impl. now rewrite upd_snoc. Qed.
Lemma unpack_new h size cap c : unpack (h ++ [Some (Impl 1 1 size cap c)]) (Dyn (length h)) = Ok (c, size).
Proof. unfold unpack. rewrite get_new. reflexivity. Qed.
Lemma init_dynamic_ok h W size : 0 <= W < 2 ^ 40 -> 0 <= size < 2 ^ 32 ->
  init_dynamic true h (impl_size_from_word_capacity W) size
  = Some (h ++ [Some (Impl 1 1 size (Z.min (W * 32) UINT32_MAX) (repeat None (Z.to_nat W)))], Dyn (length h)).
Proof.
  intros HW HS. unfold init_dynamic, alloc_impl, impl_size_from_word_capacity, word_capacity_from_impl_size, sizeof_BLBitArrayImpl.
  replace ((8 + W * 4 - 8) / 4) with W by lia. unfold bit_count_from_word_count, w32, UINT32_MAX.
  rewrite !Z.mod_small by lia. reflexivity.
Qed.
Lemma repeat_len {A} (x : A) n : 0 <= n -> len (repeat x (Z.to_nat n)) = n.
Proof. intros. unfold len. rewrite repeat_length. lia. Qed.

(* ---- one step ---- *)
Definition step (h : heap) (os : list obj) (r : result) (P : Z -> list bool -> Prop) : Prop :=
  exists code h' o', r = Ok (code, h', o') /\ ba_wf h' (o' :: os) /\
    (forall x, In x os -> ba_value h' x = ba_value h x) /\ P code (ba_value h' o').

Lemma step_same h os o code (P : Z -> list bool -> Prop) : ba_wf h (o :: os) -> P code (ba_value h o) ->
  step h os (Ok (code, h, o)) P.
Proof. intros W H. exists code, h, o. sp. auto. Qed.
Lemma step_sso h os s c s' c' code (P : Z -> list bool -> Prop) : ba_wf h (Sso s c :: os) -> ba_okS s' c' -> P code (view s' c') ->
  step h os (Ok (code, h, Sso s' c')) P.
Proof.
  intros W K H. exists code, h, (Sso s' c'). split; auto. split; [|split]; auto.
  eapply sso_swap_ok; eauto.
Qed.
Lemma step_upd h os p im size c (P : Z -> list bool -> Prop) : ba_wf h (Dyn p :: os) -> nth_error h p = Some (Some im) -> rc im = 1 ->
  0 <= size < 2 ^ 32 -> ba_okI size (icap im) c -> P BL_SUCCESS (view size c) ->
  step h os (Ok (BL_SUCCESS, set_dyn h p im size c, Dyn p)) P.
Proof.
  intros W E R S K H. unfold set_dyn. replace (w32 size) with size by (unfold w32; rewrite Z.mod_small; lia).
  destruct (update_ok ba_okI ba_okS view [] h os p im size (icap im) c W E R K) as (W' & O & N).
  eexists _, _, _. split; [reflexivity|]. split; [exact W'|]. split; [exact O|].
  unfold ba_value. rewrite N. exact H.
Qed.
Lemma step_new h os o size cap c (P : Z -> list bool -> Prop) : ba_wf h (o :: os) -> ba_okI size cap c -> P BL_SUCCESS (view size c) ->
  step h os (let* (h3, o') := replace_instance (h ++ [Some (Impl 1 1 size cap c)]) o (Dyn (length h)) in Ok (BL_SUCCESS, h3, o')) P.
Proof.
  intros W K H. destruct (replace_new_ok ba_okI ba_okS view [] h os o size cap c W K) as (h' & E & W' & O & N & _).
  rewrite E. cbn [bind]. eexists _, _, _. split; [reflexivity|]. split; [exact W'|]. split; [exact O|].
  unfold ba_value. rewrite N. exact H.
Qed.
Lemma step_to_sso h os o size c (P : Z -> list bool -> Prop) : ba_wf h (o :: os) -> ba_okS size c -> P BL_SUCCESS (view size c) ->
  step h os (let* (h3, o') := replace_instance h o (Sso size c) in Ok (BL_SUCCESS, h3, o')) P.
Proof.
  intros W K H. destruct (replace_sso_ok ba_okI ba_okS view [] h os o size c W K) as (h' & E & W' & O).
  rewrite E. cbn [bind]. eexists _, _, _. split; [reflexivity|]. split; [exact W'|]. split; [exact O|]. exact H.
Qed.

Lemma get_at h p im : nth_error h p = Some (Some im) -> get_impl h p = Ok im.
Proof. intros E. unfold get_impl. now rewrite E. Qed.

(* the unpacked content of a handle *)
Lemma unpack_ok h os o : ba_wf h (o :: os) -> exists c size n, unpack h o = Ok (c, size) /\ ba_value h o = view size c /\
  words_ok c n /\ 0 <= size <= 32 * n /\ size < 2 ^ 32 /\ zero_tail c size n /\ (size + 31) / 32 <= n.
Proof.
  intros W. destruct o as [s c|p].
  - pose proof (wf_sso _ _ _ _ _ _ W) as (S1 & L & K & Zt). exists c, s, 3. cbn. repeat (split; [auto; lia|]). lia.
  - destruct (wf_get _ _ _ _ _ W) as (im & E & G & (S1 & S2 & S3 & K & Zt) & _).
    exists (mem im), (isize im), ((isize im + 31) / 32). cbn [unpack]. rewrite G. cbn [bind]. split; auto.
    split. { unfold ba_value, value. now rewrite E. }
    split; auto. split; [lia|]. split; [lia|]. split; auto. lia.
Qed.

Definition exclusive (h : heap) (o : obj) : Prop :=
  match o with Sso _ _ => True | Dyn p => match nth_error h p with Some (Some im) => rc im = 1 | _ => False end end.

Lemma modify_ok m h os o from f (g : Z -> bool -> bool) : ba_wf h (o :: os) -> exclusive h o -> 0 <= from ->
  (forall c n size, words_ok c n -> from < size -> size <= 32 * n -> size < 2 ^ 32 -> size = len (ba_value h o) -> 
     exists c', f c size = Ok c' /\ length c' = length c /\ words_ok c' n /\
       forall j, 0 <= j -> cbit c' j = if j <? size then g j (cbit c j) else cbit c j) ->
  step h os (modify m h o from f) (fun code l =>
    if len (ba_value h o) <=? from then code = BL_ERROR_INVALID_VALUE /\ l = ba_value h o
    else code = BL_SUCCESS /\ l = mapi g (ba_value h o)).
Proof.
  intros W X F0 HF. unfold modify. destruct o as [s c|p].
  - pose proof (wf_sso _ _ _ _ _ _ W) as (S1 & L & K & Zt). cbn [make_mutable_for_modify_op].
    change (ba_value h (Sso s c)) with (view s c) in *. rewrite view_len in * by lia.
    destruct (Z.leb_spec s from).
    + cbn [bind]. change (negb (BL_ERROR_INVALID_VALUE =? BL_SUCCESS)) with true. cbn iota.
      apply step_same; auto.
    + cbn [bind]. change (negb (BL_SUCCESS =? BL_SUCCESS)) with false. cbn iota. cbn [unpack bind].
      destruct (HF c 3 s) as (c' & E & L' & K' & B); auto; try lia.
      rewrite E. cbn [bind store]. eapply step_sso; eauto.
      * split; auto. split; [congruence|]. split; auto. intros j J. rewrite B by lia.
        replace (j <? s) with false by lia. apply Zt. lia.
      * split; auto. apply view_mapi. intros j J. rewrite B by lia. now replace (j <? s) with true by lia.
  - destruct (wf_get _ _ _ _ _ W) as (im & E & G & OK & HB & HR). pose proof OK as (S1 & S2 & S3 & K & Zt).
    cbn in X. rewrite E in X.
    assert (HV : ba_value h (Dyn p) = view (isize im) (mem im)) by (unfold ba_value, value; now rewrite E).
    rewrite HV in *. rewrite view_len in * by lia.
    cbn [make_mutable_for_modify_op]. rewrite G. cbn [bind].
    destruct (Z.leb_spec (isize im) from).
    + cbn [bind]. change (negb (BL_ERROR_INVALID_VALUE =? BL_SUCCESS)) with true. cbn iota.
      apply step_same; auto.
    + unfold is_impl_mutable. rewrite X, Z.eqb_refl. cbn [bind]. change (negb (BL_SUCCESS =? BL_SUCCESS)) with false. cbn iota.
      cbn [unpack]. rewrite G. cbn [bind].
      destruct (HF (mem im) ((isize im + 31) / 32) (isize im)) as (c' & E' & L' & K' & B); auto; try lia.
      rewrite E'. cbn [bind store]. rewrite G. cbn [bind].
      pose proof (step_upd h os p im (isize im) c') as SU. unfold set_dyn in SU.
      replace (w32 (isize im)) with (isize im) in SU by (unfold w32; rewrite Z.mod_small; lia).
      apply SU; auto; try lia.
      * split; auto. split; auto. split; [unfold len in *; lia|]. split; auto.
        intros j J. rewrite B by lia. replace (j <? isize im) with false by lia. apply Zt. lia.
      * split; auto. apply view_mapi. intros j J. rewrite B by lia. now replace (j <? isize im) with true by lia.
Qed.

(* ---- set / clear / fill ---- *)
Lemma set_bit_step (m : bool) h os o i : ba_wf h (o :: os) -> exclusive h o -> 0 <= i ->
  step h os (ba_set_bit m h o i) (fun code l =>
    if len (ba_value h o) <=? i then code = BL_ERROR_INVALID_VALUE /\ l = ba_value h o
    else code = BL_SUCCESS /\ l = l_set (ba_value h o) i true).
Proof.
  intros W X I. apply modify_ok; auto. intros c n size K L1 L2 L3 _.
  destruct (set_bit_ok c n i K ltac:(lia)) as (c' & E & LL & K' & B). exists c'. sp.
  intros j J. rewrite B by auto. destruct (Z.ltb_spec j size); auto. now replace (j =? i) with false by lia.
Qed.
Lemma clear_bit_step (m : bool) h os o i : ba_wf h (o :: os) -> exclusive h o -> 0 <= i ->
  step h os (ba_clear_bit m h o i) (fun code l =>
    if len (ba_value h o) <=? i then code = BL_ERROR_INVALID_VALUE /\ l = ba_value h o
    else code = BL_SUCCESS /\ l = l_set (ba_value h o) i false).
Proof.
  intros W X I. apply modify_ok; auto. intros c n size K L1 L2 L3 _.
  destruct (clear_bit_ok c n i K ltac:(lia)) as (c' & E & LL & K' & B). exists c'. sp.
  intros j J. rewrite B by auto. destruct (Z.ltb_spec j size); auto. now replace (j =? i) with false by lia.
Qed.
Lemma range_step (set m : bool) h os o a b : ba_wf h (o :: os) -> exclusive h o -> 0 <= a ->
  step h os ((if set then ba_fill_range else ba_clear_range) m h o a b) (fun code l =>
    if (b <=? a) || (len (ba_value h o) <=? a) then code = BL_ERROR_INVALID_VALUE /\ l = ba_value h o
    else code = BL_SUCCESS /\ l = l_fill (ba_value h o) a b set).
Proof.
  intros W X I. 
  assert (D : (if set then ba_fill_range else ba_clear_range) m h o a b =
    if b <=? a then Ok (BL_ERROR_INVALID_VALUE, h, o) else
    modify m h o a (fun c size => bit_array_op set c a (Z.min b size - a))) by (destruct set; reflexivity).
  rewrite D. clear D. destruct (Z.leb_spec b a); cbn [orb].
  { apply step_same; auto. }
  apply modify_ok; auto. intros c n size K L1 L2 L3 _.
  destruct (bit_array_op_ok set c n a (Z.min b size - a) K I ltac:(lia) ltac:(lia)) as (c' & E & LL & K' & B).
  exists c'. sp. intros j J. rewrite B by auto. destruct (Z.ltb_spec j size).
  - now replace ((a <=? j) && (j <? a + (Z.min b size - a))) with ((a <=? j) && (j <? b)) by lia.
  - now replace ((a <=? j) && (j <? a + (Z.min b size - a))) with false by lia.
Qed.

Lemma word_bits_length w : length (word_bits w) = 32%nat. Proof. reflexivity. Qed.
Lemma words_bits_cons w wd : words_bits (w :: wd) = word_bits w ++ words_bits wd. Proof. reflexivity. Qed.
Lemma words_bits_len wd : len (words_bits wd) = 32 * len wd.
Proof.
  unfold len. induction wd as [|w wd IH]; auto. rewrite words_bits_cons, app_length, word_bits_length. cbn [length]. lia.
Qed.
Lemma bit_at_word_bits w i : 0 <= i < 32 -> bit_at (word_bits w) i = wbit w i.
Proof.
  intros I. unfold bit_at. replace (i <? 0) with false by lia. unfold word_bits.
  rewrite (nth_indep _ false (Z.testbit w (31 - Z.of_nat 0))) by (rewrite map_length, seq_length; lia).
  rewrite (map_nth (fun k => Z.testbit w (31 - Z.of_nat k))). rewrite seq_nth by lia. unfold wbit. f_equal. lia.
Qed.
Lemma bit_at_words wd : forall i, 0 <= i -> bit_at (words_bits wd) i = cbit (map Some wd) i.
Proof.
  induction wd as [|w wd IH]; intros i I.
  - unfold cbit. cbn. destruct (Z.to_nat (i / 32)); cbn; rewrite bit_at_out; auto; cbn; unfold len; cbn; lia.
  - rewrite words_bits_cons, bit_at_app. change (len (word_bits w)) with 32. destruct (Z.ltb_spec i 32).
    + rewrite bit_at_word_bits by lia. unfold cbit. replace (i / 32) with 0 by lia. cbn [Z.to_nat map nth_error].
      unfold wbit. f_equal. lia.
    + rewrite IH by lia. unfold cbit. replace (Z.to_nat (i / 32)) with (S (Z.to_nat ((i - 32) / 32))) by lia.
      cbn [map nth_error]. replace (i mod 32) with ((i - 32) mod 32) by lia. reflexivity.
Qed.

Definition words_op (o : bitop) := match o with BOr => ba_fill_words | BAndNot => ba_clear_words | BAssign => ba_replace_words end.
Lemma words_step (op : bitop) (m : bool) h os o i wd : ba_wf h (o :: os) -> exclusive h o -> 0 <= i -> words wd ->
  (i < len (ba_value h o) -> combine_safe (len (ba_value h o)) i (len wd)) ->
  step h os (words_op op m h o i wd (len wd)) (fun code l =>
    if len (ba_value h o) <=? i then code = BL_ERROR_INVALID_VALUE /\ l = ba_value h o
    else code = BL_SUCCESS /\ l = l_combine (opb op) (ba_value h o) i (words_bits wd)).
Proof.
  intros W X I HW SAFE.
  assert (D : words_op op m h o i wd (len wd) = modify m h o i (fun c size => combine_word_data op c size i wd (len wd)))
    by (destruct op; reflexivity).
  rewrite D. clear D. apply modify_ok; auto. intros c n size K L1 L2 L3 SZ. rewrite <- SZ in SAFE. specialize (SAFE L1).
  destruct (combine_ok op c n size i wd K HW ltac:(lia) L2 L3 SAFE) as (c' & E & LL & K' & B).
  exists c'. sp. intros j J. rewrite B by auto. rewrite words_bits_len. destruct (Z.ltb_spec j size).
  - replace ((i <=? j) && (j <? i + 32 * len wd)) with ((i <=? j) && (j <? Z.min size (i + 32 * len wd))) by lia.
    destruct ((i <=? j) && (j <? Z.min size (i + 32 * len wd))) eqn:Q; auto. rewrite bit_at_words by lia. reflexivity.
  - now replace ((i <=? j) && (j <? Z.min size (i + 32 * len wd))) with false by lia.
Qed.
