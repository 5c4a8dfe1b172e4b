(* Comparison, searching and construction from text. *)
From Verif Require Import Base Bits IntOps_Model Algorithm_Model Algorithm_Proofs Object_Model Object_Spec Object_Proofs Object_Proofs2
  BitArray_Model BitArray_Spec BitArray_Proofs3 Handle_Client Handle_Proofs Array_Model Array_Spec Array_Proofs Array_Proofs2 Array_Proofs3
  String_Model String_Spec String_Proofs String_Proofs2 String_Proofs3 String_Proofs4.

Lemma nth_ex {A} (l : list A) k : (k < length l)%nat -> exists v, nth_error l k = Some v.
Proof. intros Q. destruct (nth_error l k) eqn:E; eauto. apply nth_error_None in E. lia. Qed.
Lemma skip_cons {A} (l : list A) k v : nth_error l k = Some v -> skipn k l = v :: skipn (S k) l.
Proof. revert l. induction k as [|k IH]; intros [|z l] Q; cbn in *; try discriminate; [congruence|]. now apply IH. Qed.
Lemma rep_read c l k v : rep c l -> nth_error l k = Some v -> rdc c (Z.of_nat k) = Ok v.
Proof. intros R N. apply rdc_some; [lia|]. rewrite Nat2Z.id, R; [now rewrite N|]. apply nth_error_Some. congruence. Qed.

Lemma lex_range a : forall b, lex a b = -1 \/ lex a b = 0 \/ lex a b = 1.
Proof. induction a as [|x a IH]; intros [|y b]; cbn; auto. destruct (x <? y); auto. destruct (y <? x); auto. Qed.
Lemma lex_eq a : forall b, lex a b = 0 <-> a = b.
Proof.
  induction a as [|x a IH]; intros [|y b]; cbn; try (split; intros Q; (reflexivity || discriminate)).
  destruct (Z.ltb_spec x y). { split; [discriminate|]. intros Q. injection Q. lia. }
  destruct (Z.ltb_spec y x). { split; [discriminate|]. intros Q. injection Q. lia. }
  rewrite IH. split; [intros ->; f_equal; lia|]. intros Q. now injection Q.
Qed.
(* the order of the whole texts from that of their common length *)
Lemma lex_min a : forall b, lex a b = let k := Nat.min (length a) (length b) in let r := lex (firstn k a) (firstn k b) in
  if negb (r =? 0) then r else if Z.of_nat (length a) <? Z.of_nat (length b) then -1 else if Z.of_nat (length b) <? Z.of_nat (length a) then 1 else 0.
Proof.
  induction a as [|x a IH]; intros [|y b]; cbn [length Nat.min firstn lex]; try reflexivity.
  destruct (Z.ltb_spec x y); [reflexivity|]. destruct (Z.ltb_spec y x); [reflexivity|]. rewrite IH. cbv zeta.
  destruct (negb _); auto. replace (Z.of_nat (S (length a)) <? Z.of_nat (S (length b))) with (Z.of_nat (length a) <? Z.of_nat (length b)) by lia.
  replace (Z.of_nat (S (length b)) <? Z.of_nat (S (length a))) with (Z.of_nat (length b) <? Z.of_nat (length a)) by lia. reflexivity.
Qed.
Lemma cells_cmp_ok : forall n k a b la lb, rep a la -> rep b lb -> (k + n <= length la)%nat -> (k + n <= length lb)%nat ->
  cells_cmp n a b (Z.of_nat k) = Ok (lex (firstn n (skipn k la)) (firstn n (skipn k lb))).
Proof.
  induction n as [|n IH]; intros k a b la lb RA RB LA LB; cbn [cells_cmp]; [reflexivity|].
  destruct (nth_ex la k) as (x & X); [lia|]. destruct (nth_ex lb k) as (y & Y); [lia|].
  rewrite (rep_read _ _ _ _ RA X), (rep_read _ _ _ _ RB Y). cbn [bind]. rewrite (skip_cons _ _ _ X), (skip_cons _ _ _ Y). cbn [firstn lex].
  destruct (Z.eqb_spec x y) as [->|N].
  - rewrite Z.ltb_irrefl. replace (Z.of_nat k + 1) with (Z.of_nat (S k)) by lia. apply IH; auto; lia.
  - destruct (Z.ltb_spec x y); auto. replace (y <? x) with true by lia. reflexivity.
Qed.
Lemma cells_cmp_0 n a b la lb : rep a la -> rep b lb -> 0 <= n <= len la -> n <= len lb -> cells_cmp (Z.to_nat n) a b 0 = Ok (lex (take la n) (take lb n)).
Proof. intros RA RB LA LB. apply (cells_cmp_ok (Z.to_nat n) 0); auto; unfold len in *; lia. Qed.

Lemma equals_q h os a b : str_wf h os -> In a os -> In b os -> exists r, str_equals h a b = Ok r /\ (r = true <-> str_value h a = str_value h b).
Proof.
  intros W IA IB. destruct (view_in h os a W IA) as (sa & ca & ma & ka & VA). destruct (view_in h os b W IB) as (sb & cb & mb & kb & VB).
  pose proof (bounds h a _ sa ca ma ka VA) as (A1 & A2 & A3 & A4 & A5 & A6 & A7 & A8). pose proof (bounds h b _ sb cb mb kb VB) as (B1 & B2 & B3 & B4 & B5 & B6 & B7 & B8).
  unfold str_equals. rewrite (v_unpack _ _ _ _ _ _ _ VA), (v_unpack _ _ _ _ _ _ _ VB), (v_block _ _ _ _ _ _ _ VA), (v_block _ _ _ _ _ _ _ VB). cbn [bind].
  destruct (Z.eqb_spec sa sb) as [E|E]; cbn [negb].
  - rewrite (cells_cmp_0 sa ka kb _ _ A7 B7) by lia. cbn [bind]. eexists. split; [reflexivity|]. rewrite !take_all by lia. rewrite Z.eqb_eq. apply lex_eq.
  - exists false. split; auto. split; [discriminate|]. intros Q. rewrite Q in A5. congruence.
Qed.
Lemma lex_sized la lb sa sb : sa = len la -> sb = len lb ->
  (if negb (lex (take la (Z.min sa sb)) (take lb (Z.min sa sb)) =? 0) then Ok (lex (take la (Z.min sa sb)) (take lb (Z.min sa sb)))
   else Ok (if sa <? sb then -1 else if sb <? sa then 1 else 0)) = Ok (lex la lb).
Proof.
  intros -> ->. rewrite (lex_min la lb). cbv zeta. unfold take, len. replace (Z.to_nat (Z.min _ _)) with (Nat.min (length la) (length lb)) by lia. destruct (negb _); auto.
Qed.
Lemma compare_q h os a b : str_wf h os -> In a os -> In b os -> str_compare h a b = Ok (lex (str_value h a) (str_value h b)).
Proof.
  intros W IA IB. destruct (view_in h os a W IA) as (sa & ca & ma & ka & VA). destruct (view_in h os b W IB) as (sb & cb & mb & kb & VB).
  pose proof (bounds h a _ sa ca ma ka VA) as (A1 & A2 & A3 & A4 & A5 & A6 & A7 & A8). pose proof (bounds h b _ sb cb mb kb VB) as (B1 & B2 & B3 & B4 & B5 & B6 & B7 & B8).
  unfold str_compare. rewrite (v_unpack _ _ _ _ _ _ _ VA), (v_unpack _ _ _ _ _ _ _ VB), (v_block _ _ _ _ _ _ _ VA), (v_block _ _ _ _ _ _ _ VB). cbn [bind].
  rewrite (cells_cmp_0 (Z.min sa sb) ka kb _ _ A7 B7) by lia. cbn [bind]. apply lex_sized; auto.
Qed.

Lemma cstr_in b k v : In 0 (skipn k b) -> nth_error b k = Some v -> v <> 0 -> In 0 (skipn (S k) b).
Proof. intros I N V. rewrite (skip_cons _ _ _ N) in I. destruct I; [congruence|auto]. Qed.
Lemma in_nth b k : In 0 (skipn k b) -> exists v, nth_error b k = Some v.
Proof. intros I. apply nth_ex. destruct (Nat.ltb_spec k (length b)); auto. rewrite skipn_all2 in I by lia. destruct I. Qed.
Lemma equals_cstr_ok : forall n k a la b, rep a la -> (k + n = length la)%nat -> In 0 (skipn k b) ->
  exists r, equals_cstr n a (map Some b) (Z.of_nat k) = Ok r /\ (r = true <-> skipn k la = cstr (skipn k b)).
Proof.
  induction n as [|n IH]; intros k a la b RA LA I; cbn [equals_cstr]; destruct (in_nth _ _ I) as (y & Y); rewrite (rep_read _ b k y (rep_map b) Y), (skip_cons _ _ _ Y); cbn [bind cstr].
  - eexists. split; [reflexivity|]. rewrite skipn_all2 by lia. destruct (Z.eqb_spec y 0); split; auto; discriminate.
  - destruct (nth_ex la k) as (x & X); [lia|]. rewrite (rep_read _ _ _ _ RA X), (skip_cons _ _ _ X). cbn [bind]. destruct (Z.eqb_spec y 0) as [->|NY].
    + rewrite orb_true_r. exists false. split; auto. split; discriminate.
    + rewrite orb_false_r. destruct (Z.eqb_spec x y) as [->|N]; cbn [negb].
      * replace (Z.of_nat k + 1) with (Z.of_nat (S k)) by lia. destruct (IH (S k) a la b RA ltac:(lia) (cstr_in _ _ _ I Y NY)) as (r & -> & E). exists r. split; auto. rewrite E.
        split; [now intros ->|]. intros Q. now injection Q.
      * exists false. split; auto. split; [discriminate|]. intros Q. now injection Q.
Qed.
Lemma compare_cstr_ok : forall n k a la b, rep a la -> (k + n = length la)%nat -> In 0 (skipn k b) ->
  compare_cstr n a (map Some b) (Z.of_nat k) = Ok (lex (skipn k la) (cstr (skipn k b))).
Proof.
  induction n as [|n IH]; intros k a la b RA LA I; cbn [compare_cstr]; destruct (in_nth _ _ I) as (y & Y); rewrite (rep_read _ b k y (rep_map b) Y), (skip_cons _ _ _ Y); cbn [bind cstr].
  - rewrite skipn_all2 by lia. destruct (y =? 0); reflexivity.
  - destruct (nth_ex la k) as (x & X); [lia|]. rewrite (rep_read _ _ _ _ RA X), (skip_cons _ _ _ X). cbn [bind]. destruct (Z.eqb_spec y 0) as [->|NY].
    + reflexivity.
    + cbn [lex]. destruct (Z.eqb_spec (x - y) 0) as [E|E]; cbn [negb].
      * replace (x <? y) with false by lia. replace (y <? x) with false by lia. replace (Z.of_nat k + 1) with (Z.of_nat (S k)) by lia. apply IH; auto; [lia|]. exact (cstr_in _ _ _ I Y NY).
      * destruct (Z.ltb_spec x y); [now rewrite Z.sgn_neg by lia|]. replace (y <? x) with true by lia. now rewrite Z.sgn_pos by lia.
Qed.
Lemma equals_data_q h os a b n : str_wf h os -> In a os -> buf_valid b n -> exists r, str_equals_data h a b n = Ok r /\ (r = true <-> str_value h a = buf_text b n).
Proof.
  intros W IA (_ & BV). destruct (view_in h os a W IA) as (sa & ca & ma & ka & VA). pose proof (bounds h a _ sa ca ma ka VA) as (A1 & A2 & A3 & A4 & A5 & A6 & A7 & A8).
  unfold str_equals_data, buf_text. rewrite (v_unpack _ _ _ _ _ _ _ VA), (v_block _ _ _ _ _ _ _ VA). cbn [bind]. destruct (n =? 2 ^ 64 - 1).
  - apply (equals_cstr_ok (Z.to_nat sa) 0 ka (str_value h a) b); auto. unfold len in *. lia.
  - destruct (Z.eqb_spec sa n) as [<-|N]; cbn [negb].
    + rewrite (cells_cmp_0 sa ka (map Some b) _ b A7 (rep_map b)) by lia. cbn [bind]. eexists. split; [reflexivity|]. rewrite (take_all (str_value h a)) by lia. rewrite Z.eqb_eq. apply lex_eq.
    + exists false. split; auto. split; [discriminate|]. intros Q. rewrite Q, len_take in A5 by lia. congruence.
Qed.
Lemma compare_data_q h os a b n : str_wf h os -> In a os -> buf_valid b n -> str_compare_data h a b n = Ok (lex (str_value h a) (buf_text b n)).
Proof.
  intros W IA (_ & BV). destruct (view_in h os a W IA) as (sa & ca & ma & ka & VA). pose proof (bounds h a _ sa ca ma ka VA) as (A1 & A2 & A3 & A4 & A5 & A6 & A7 & A8).
  unfold str_compare_data, buf_text. rewrite (v_unpack _ _ _ _ _ _ _ VA), (v_block _ _ _ _ _ _ _ VA). cbn [bind]. destruct (n =? 2 ^ 64 - 1).
  - apply (compare_cstr_ok (Z.to_nat sa) 0 ka (str_value h a) b); auto. unfold len in *. lia.
  - assert (RB : rep (map Some b) (take b n)). { intros j J. rewrite take_length in J. rewrite nth_error_map. unfold take. rewrite <- (firstn_skipn (Z.to_nat n) b) at 1. rewrite nth_error_app1; auto. rewrite firstn_length. lia. }
    assert (LT : len (take b n) = n) by (apply len_take; lia).
    rewrite (cells_cmp_0 (Z.min sa n) ka (map Some b) _ _ A7 RB) by lia. cbn [bind]. apply lex_sized; auto.
Qed.

Lemma index_of_loop_ok : forall n k c l b, rep c l -> (k + n = length l)%nat -> exists r, index_of_loop n c b (Z.of_nat k) = Ok r /\ first_at l b (Z.of_nat k) r.
Proof.
  induction n as [|n IH]; intros k c l b R L; cbn [index_of_loop].
  - eexists. split; [reflexivity|]. left. split; auto. intros i I Q. assert (i < length l)%nat by (apply nth_error_Some; congruence). lia.
  - destruct (nth_ex l k) as (x & X); [lia|]. rewrite (rep_read _ _ _ _ R X). cbn [bind]. destruct (Z.eqb_spec x b) as [->|N].
    + eexists. split; [reflexivity|]. right. unfold len. split; [lia|]. rewrite Nat2Z.id. split; auto. intros i I. lia.
    + replace (Z.of_nat k + 1) with (Z.of_nat (S k)) by lia. destruct (IH (S k) c l b R ltac:(lia)) as (r & -> & F). exists r. split; auto.
      assert (ST : forall i, Z.of_nat k <= Z.of_nat i -> i = k \/ Z.of_nat (S k) <= Z.of_nat i) by lia.
      destruct F as [(-> & F)|(F1 & F2 & F3)].
      * left. split; auto. intros i I. destruct (ST i I) as [->|I']; [congruence|auto].
      * right. split; [lia|]. split; auto. intros i I. destruct (ST i ltac:(lia)) as [->|I']; [congruence|]. apply F3. lia.
Qed.
Lemma index_of_q h os a b from : str_wf h os -> In a os -> 0 <= from -> exists r, str_index_of h a b from = Ok r /\ first_at (str_value h a) b from r.
Proof.
  intros W IA F0. destruct (view_in h os a W IA) as (sa & ca & ma & ka & VA). pose proof (bounds h a _ sa ca ma ka VA) as (A1 & A2 & A3 & A4 & A5 & A6 & A7 & A8).
  unfold str_index_of. rewrite (v_unpack _ _ _ _ _ _ _ VA), (v_block _ _ _ _ _ _ _ VA). cbn [bind]. destruct (Z.leb_spec from sa) as [Q|Q].
  - destruct (index_of_loop_ok (Z.to_nat (sa - from)) (Z.to_nat from) ka (str_value h a) b A7 ltac:(unfold len in *; lia)) as (r & E & F). rewrite Z2Nat.id in E, F by lia. eauto.
  - replace (Z.to_nat (sa - from)) with 0%nat by lia. eexists. split; [reflexivity|]. left. split; auto. intros i I N.
    assert (i < length (str_value h a))%nat by (apply nth_error_Some; congruence). unfold len in *. lia.
Qed.
Lemma last_index_of_loop_ok c l b : rep c l -> forall n, (n <= length l)%nat -> exists r, last_index_of_loop n c b = Ok r /\ last_at l b (Z.of_nat n - 1) r.
Proof.
  intros R. induction n as [|n IH]; intros L; cbn [last_index_of_loop].
  - eexists. split; [reflexivity|]. left. split; auto. intros i I. lia.
  - destruct (nth_ex l n) as (x & X); [lia|]. rewrite (rep_read _ _ _ _ R X). cbn [bind]. destruct (Z.eqb_spec x b) as [->|N].
    + eexists. split; [reflexivity|]. right. unfold len. rewrite Nat2Z.id. split; [lia|]. split; [lia|]. split; auto. intros i I. lia.
    + destruct (IH ltac:(lia)) as (r & -> & F). exists r. split; auto.
      assert (ST : forall i, Z.of_nat i <= Z.of_nat (S n) - 1 -> i = n \/ Z.of_nat i <= Z.of_nat n - 1) by lia.
      destruct F as [(-> & F)|(F1 & F2 & F3 & F4)].
      * left. split; auto. intros i I. destruct (ST i I) as [->|I']; [congruence|auto].
      * right. split; [lia|]. split; auto. split; auto. intros i I. destruct (ST i ltac:(lia)) as [->|I']; [congruence|]. apply F4. lia.
Qed.
Lemma last_index_of_q h os a b from : str_wf h os -> In a os -> 0 <= from -> exists r, str_last_index_of h a b from = Ok r /\ last_at (str_value h a) b from r.
Proof.
  intros W IA F0. destruct (view_in h os a W IA) as (sa & ca & ma & ka & VA). pose proof (bounds h a _ sa ca ma ka VA) as (A1 & A2 & A3 & A4 & A5 & A6 & A7 & A8).
  unfold str_last_index_of. rewrite (v_unpack _ _ _ _ _ _ _ VA), (v_block _ _ _ _ _ _ _ VA). cbn [bind].
  assert (NB : forall i, nth_error (str_value h a) i = Some b -> Z.of_nat i < sa). { intros i N. assert (i < length (str_value h a))%nat by (apply nth_error_Some; congruence). unfold len in *. lia. }
  destruct (Z.eqb_spec sa 0) as [Q|Q].
  - eexists. split; [reflexivity|]. left. split; auto. intros i I N. specialize (NB i N). lia.
  - destruct (last_index_of_loop_ok ka (str_value h a) b A7 (Z.to_nat (Z.min (sa - 1) from + 1))) as (r & E & F); [unfold len in *; lia|]. exists r. split; auto.
    rewrite Z2Nat.id in F by lia. replace (Z.min (sa - 1) from + 1 - 1) with (Z.min (sa - 1) from) in F by lia. destruct F as [(-> & F)|(F1 & F2 & F3 & F4)].
    + left. split; auto. intros i I N. apply (F i); auto. specialize (NB i N). lia.
    + right. split; [lia|]. split; auto. split; auto. intros i I N. apply (F4 i); auto. specialize (NB i N). lia.
Qed.

(* construction from the caller's text *)
Lemma init_data_ok m h os off b n : str_wf h os -> buf_valid b n -> exists code h1 o1, str_init_with_data m h (SExt off b) n = Ok (code, h1, o1) /\
  str_wf h1 (o1 :: os) /\ (forall x, In x os -> str_value h1 x = str_value h x) /\
  ((code = BL_SUCCESS /\ str_value h1 o1 = buf_text b n) \/ ((m = false \/ 2 ^ 60 <= len (buf_text b n)) /\ code = BL_ERROR_OUT_OF_MEMORY /\ str_value h1 o1 = [])).
Proof.
  intros W (BL & BV). unfold str_init_with_data, buf_text.
  assert (AS : exists k, arg_size UB (SExt off b) n = Ok k /\ (if n =? 2 ^ 64 - 1 then cstr b else take b n) = take b k /\ 0 <= k <= len b).
  { unfold arg_size. destruct (Z.eqb_spec n (2 ^ 64 - 1)) as [->|N].
    - destruct (cstr_take b) as (CT & CL). exists (len (cstr b)). split; [|split; [exact CT|pose proof (len_nonneg (cstr b)); lia]].
      cbn [src_strlen]. rewrite (strlen_ok b) by (auto; try lia; intros j J; now rewrite nth_error_map). reflexivity.
    - destruct (Z.eqb_spec n (2 ^ 64 - 1)); [contradiction|]. exists n. auto. }
  destruct AS as (k & -> & -> & KB). cbn [bind]. assert (LT : len (take b k) = k) by (apply len_take; lia). rewrite LT. unfold max_bytes in *.
  assert (WE : forall hh oo s c, str_wf hh oo -> str_okS s c -> str_wf hh (Sso s c :: oo)). { intros hh oo s c0 (F & H) O. split; [constructor; auto|]. intros p. specialize (H p). now rewrite refs_cons. }
  destruct (init_string_ok m h k) as [(-> & I)|(h1 & n1 & d & -> & F)]; try lia; cbn [bind].
  { eexists _, _, _. split; [reflexivity|]. split; [|split; auto]. apply (WE h os 0 (sso_cells 0)); auto. split; [lia|]. split; [reflexivity|]. split; [reflexivity|]. split; [intros i Hi; lia|reflexivity]. }
  pose proof (fresh_size _ _ _ _ _ F) as (_ & DS).
  destruct (copy_text (take b k) d 0) as (d1 & E1 & L1 & N1); try lia.
  assert (E1' : copy_to k d 0 UB (SExt off b) = Ok d1).
  { unfold copy_to. rewrite <- E1. unfold len in LT. replace (length (take b k)) with (Z.to_nat k) by lia.
    destruct (copy_ok k d 0 (map Some b) b 0 (rep_map b)) as (e1 & Q1 & M1 & P1); try lia. destruct (copy_ok k d 0 (map Some (take b k)) (take b k) 0 (rep_map _)) as (e2 & Q2 & M2 & P2); try (unfold len in *; lia).
    rewrite Q1, Q2. f_equal. apply nth_eq. intros j. rewrite P1, P2. destruct (_ && _) eqn:Q; auto. f_equal. rep_t. }
  assert (KP : keeps k d d1). { split; auto. intros j J. rewrite N1, LT. replace (_ && _) with false by lia. reflexivity. }
  destruct (fresh_fill _ _ _ _ _ _ (fun d => copy_to k d 0 UB (SExt off b)) F E1' KP) as (h2 & n2 & -> & F2). cbn [bind]. eexists _, _, _. split; [reflexivity|].
  assert (R1 : rep d1 (take b k)). { intros j J. rewrite N1. unfold len in *. rewrite LT. replace (_ && _) with true by lia. f_equal. f_equal. lia. }
  destruct (fresh_finish h os (Sso 0 (sso_cells 0)) k h2 n2 d1 (take b k) (fun code v => code = BL_SUCCESS /\ v = take b k)) as (code & h3 & o3 & E & W3 & V3 & -> & VV); auto.
  { apply WE; auto. split; [lia|]. split; [reflexivity|]. split; [reflexivity|]. split; [intros i Hi; lia|reflexivity]. }
  unfold finish, replace_instance in E. cbn [release bind] in E. injection E as <- <-. split; auto.
Qed.
