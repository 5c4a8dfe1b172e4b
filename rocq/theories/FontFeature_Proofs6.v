(* What the items of an SSO representation are. *)
From Verif Require Import Base Bits Algorithm_Model TagData_Model TagData_Spec TagData_Proofs
  FontFeature_Model FontFeature_Spec FontFeature_Proofs FontFeature_Proofs2 FontFeature_Proofs3 FontFeature_Proofs4 FontFeature_Proofs5.
Ltac Zify.zify_post_hook ::= idtac.

Lemma wf_small a : wf a -> small (fats a).
Proof.
  intros [_ _ _ _ _ H]. eapply Forall_impl; [|exact H]. cbv beta. intros it [[F _] V]. unfold kFeatureIdCount in F. auto.
Qed.

Lemma init_state a : wf a ->
  St (4 - length (fats a)) (fats a)
     (if Z.land (d2 (encode a)) kSSOFatFeatureTagBitMask =? kSSOInvalidFatFeatureId then kDummyFatTagId else Z.land (d2 (encode a)) kSSOFatFeatureTagBitMask)
     (Z.lor (Z.shiftr (d2 (encode a)) kSSOFatFeatureTagBitCount) (w32 (Z.shiftl kSSOInvalidFatFeatureId ((kSSOFatFeatureCount - 1) * kSSOFatFeatureTagBitCount))))
     (info (encode a)).
Proof.
  intros W. pose proof (wf_small _ W) as SM. pose proof W as [H1 H2 H3 H4 H5 H6]. destruct (fst_digits _ H6) as [Dt Dv].
  change kSSOFatFeatureTagBitMask with (2 ^ 8 - 1). change kSSOFatFeatureTagBitCount with 8.
  change kSSOInvalidFatFeatureId with 255. change (w32 (Z.shiftl 255 ((kSSOFatFeatureCount - 1) * 8))) with (255 * 2 ^ 24).
  cbn [encode d2 info]. unfold tag_digits, val_digits, pad.
  constructor.
  - destruct (fats a) as [|(y, v) L] eqn:E.
    + cbn [map app length Nat.sub repeat]. destruct (pack_head 8 255 [255; 255; 255]) as [-> _]; try lia. reflexivity.
    + cbn [map app fst]. inversion SM as [|? ? [Hy _] _]; subst. cbn [fst] in Hy.
      destruct (pack_head 8 y (keys L ++ repeat 255 (4 - length (y :: keys L)))) as [-> _]; try lia.
      destruct (Z.eqb_spec y 255); [lia|reflexivity].
  - intros N. destruct (fats a) as [|(y, v) L] eqn:E; [contradiction|]. cbn [map app fst tl length]. inversion SM as [|? ? [Hy _] _]; subst. cbn [fst] in Hy.
    destruct (pack_head 8 y (keys L ++ repeat 255 (4 - S (length (keys L))))) as [_ ->]; try lia.
    inversion Dt as [|? ? _ DL]; subst.
    set (q := keys L ++ repeat 255 (4 - S (length (keys L)))).
    assert (Dq : digits 8 q) by (apply digits_app; split; [auto|apply digits_repeat; lia]).
    assert (Lq : Z.of_nat (length q) = 3).
    { unfold q. rewrite app_length, repeat_length, map_length. cbn [length] in H4. unfold item in *. lia. }
    pose proof (pack_bound 8 q ltac:(lia) Dq) as Bq. rewrite Lq in Bq.
    rewrite lor_add by (auto; lia).
    replace (keys L ++ repeat 255 (S (4 - S (length L)))) with (q ++ [255]).
    + rewrite pack_app by lia. rewrite Lq. cbn [pack]. change (8 * 3) with 24. lia.
    + unfold q. rewrite <- app_assoc. f_equal. rewrite map_length.
      change [255] with (repeat 255 1). rewrite <- repeat_app. f_equal. cbn [length] in H4. unfold item in *. lia.
  - rewrite pack_app by lia. rewrite pack_zeros. rewrite !map_length. exists (2 ^ (16 - 4 * Z.of_nat (length (fats a))) * (33856 + size_of a)).
    assert (2 ^ 16 = 2 ^ (4 * Z.of_nat (length (fats a))) * 2 ^ (16 - 4 * Z.of_nat (length (fats a)))) as ->.
    { rewrite <- Z.pow_add_r by (unfold item in *; lia). f_equal. lia. }
    unfold item in *. generalize (2 ^ (4 * Z.of_nat (length (fats a)))) (2 ^ (16 - 4 * Z.of_nat (length (fats a)))) (pack 4 (map snd (fats a))) (33856 + size_of a).
    clear. intros. lia.
  - exact SM.
Qed.

Lemma set_bits_range b : Forall (fun i => 0 <= i < 32) (set_bits b).
Proof. apply Forall_forall. intros i H. apply set_bits_in in H. tauto. Qed.

Lemma convert_ok a : wf a -> convert_sso_to_items (encode a) = Ok (content a).
Proof.
  intros W. unfold convert_sso_to_items.
  destruct (emit_bits_ok (4 - length (fats a)) (d1 (encode a)) (set_bits (d0 (encode a))) (fats a) _ _ _ []
              (set_bits_range _) (wf_len _ W) (init_state a W)) as (fid & ft & fv & L & O & R & S' & HL & M).
  cbv zeta. rewrite R. clear R. cbn [bind app]. cbn [encode d0 d1] in M.
  unfold content, ids. rewrite M. pose proof (st_id _ _ _ _ _ S') as E. destruct L as [|it L].
  - rewrite E, Z.eqb_refl. rewrite app_nil_r. reflexivity.
  - pose proof (st_small _ _ _ _ _ S') as SM. inversion SM as [|? ? [Hy _] _]; subst.
    destruct (Z.eqb_spec (fst it) kDummyFatTagId) as [Q|Q]; [unfold kDummyFatTagId in Q; lia|].
    apply (emit_rest_ok (4 - length (fats a))); [discriminate|unfold item in *; lia|exact S'].
Qed.

(* merging *)
Lemma mg_in b : forall f x, In x (mg b f) <-> In x b \/ In x f.
Proof.
  induction b as [|(i, v) b IH]; intros f x; cbn [mg In]; [tauto|].
  rewrite in_app_iff. cbn [In]. rewrite IH.
  assert (Q : In x f <-> In x (firstn (pos i f) f) \/ In x (skipn (pos i f) f)) by (rewrite <- in_app_iff, firstn_skipn; tauto). tauto.
Qed.
Lemma mg_len b : forall f, length (mg b f) = (length b + length f)%nat.
Proof.
  induction b as [|(i, v) b IH]; intros f; cbn [mg length]; auto.
  rewrite app_length. cbn [length]. rewrite IH. pose proof (f_equal (@length item) (firstn_skipn (pos i f) f)) as Q. rewrite app_length in Q. lia.
Qed.
Lemma inc_app a b : increasing (keys a) -> increasing (keys b) -> (forall x y, In x a -> In y b -> fst x < fst y) -> increasing (keys (a ++ b)).
Proof.
  induction a as [|(k, v) a IH]; intros I J H; auto.
  apply inc_cons in I as [A I]. cbn [app]. apply inc_cons. split.
  - apply Forall_app. split; auto. apply Forall_forall. intros y Hy. apply (H (k, v) y); [left; auto|auto].
  - apply IH; auto. intros x y Hx Hy. apply H; [right; auto|auto].
Qed.
Lemma inc_app_inv a b : increasing (keys (a ++ b)) -> increasing (keys a) /\ increasing (keys b).
Proof.
  induction a as [|(k, v) a IH]; intros I; [split; [exact Logic.I|auto]|].
  cbn [app] in I. apply inc_cons in I as [A I]. destruct (IH I) as [J K]. split; auto. apply inc_cons. split; auto.
  apply Forall_app in A. tauto.
Qed.
Lemma nth_first {A} k : forall (l : list A) n, (n < k)%nat -> nth_error (firstn k l) n = nth_error l n.
Proof. induction k; intros [|y l] [|n] H; auto; try lia. cbn. apply IHk. lia. Qed.
Lemma nth_skip {A} k : forall (l : list A) n, nth_error (skipn k l) n = nth_error l (k + n).
Proof. induction k; intros [|y l] n; auto; [destruct n; reflexivity|]. cbn. apply IHk. Qed.
Lemma mg_inc b : forall f, increasing (keys b) -> increasing (keys f) -> (forall x y, In x b -> In y f -> fst x <> fst y) -> increasing (keys (mg b f)).
Proof.
  induction b as [|(i, v) b IH]; intros f I J D; auto.
  apply inc_cons in I as [A I]. cbn [mg].
  assert (J2 : increasing (keys (firstn (pos i f) f)) /\ increasing (keys (skipn (pos i f) f))).
  { apply inc_app_inv. rewrite firstn_skipn. auto. }
  destruct J2 as [J1 J2].
  assert (LO : forall x, In x (firstn (pos i f) f) -> fst x < i).
  { intros x Hx. apply In_nth_error in Hx as (n & Hn). assert (n < length (firstn (pos i f) f))%nat by (apply nth_error_Some; rewrite Hn; discriminate).
    rewrite firstn_length in H. apply (nth_pos_lt i f n x); [lia|]. rewrite nth_first in Hn by lia. exact Hn. }
  assert (HI : forall x, In x (skipn (pos i f) f) -> i < fst x).
  { intros x Hx. assert (In x f) by (rewrite <- (firstn_skipn (pos i f) f), in_app_iff; auto).
    assert (fst x <> i) by (intros Q; apply (D (i, v) x); [left; auto|auto|cbn; lia]).
    apply In_nth_error in Hx as (n & Hn).
    assert (i <= fst x); [|lia]. apply (nth_pos_ge i f (pos i f + n)%nat x J); [lia|]. rewrite nth_skip in Hn. exact Hn. }
  apply inc_app; auto.
  - apply inc_cons. split.
    + apply Forall_forall. intros x Hx. apply mg_in in Hx as [Hx|Hx]; auto. unfold above in A. rewrite Forall_forall in A. auto.
    + apply IH; auto. intros x y Hx Hy. apply D; [right; auto|]. rewrite <- (firstn_skipn (pos i f) f), in_app_iff. auto.
  - intros x y Hx [<-|Hy]; cbn [fst]; auto. apply mg_in in Hy as [Hy|Hy].
    + unfold above in A. rewrite Forall_forall in A. specialize (A _ Hy). specialize (LO _ Hx). lia.
    + specialize (LO _ Hx). specialize (HI _ Hy). lia.
Qed.

Lemma bitems_in v l x : In x (bitems v l) <-> exists i, In i l /\ x = (B i, Z.b2z (Z.testbit v i)).
Proof. unfold bitems. rewrite in_map_iff. split; intros (i & H & K); exists i; auto. Qed.

Lemma bitems_inc v b : increasing (keys (bitems v (set_bits b))).
Proof.
  unfold set_bits. enough (H : forall n s, (s + n <= 32)%nat -> increasing (keys (bitems v (filter (Z.testbit b) (map Z.of_nat (seq s n)))))) by (apply H; lia).
  induction n as [|n IH]; intros s H; [exact I|]. cbn [seq map filter].
  specialize (IH (S s) ltac:(lia)). destruct (Z.testbit b (Z.of_nat s)); auto.
  cbn [bitems map]. fold (bitems v (filter (Z.testbit b) (map Z.of_nat (seq (S s) n)))). apply inc_cons. split; auto.
  apply Forall_forall. intros x Hx. apply bitems_in in Hx as (i & Hi & ->). apply filter_In in Hi as [Hi _].
  apply in_map_iff in Hi as (k & <- & Hk). apply in_seq in Hk. cbn [fst]. apply B_mono; lia.
Qed.

Lemma ids_in a x : In x (ids a) <-> (exists i, 0 <= i < 32 /\ Z.testbit (bset a) i = true /\ x = (B i, Z.b2z (Z.testbit (bval a) i))) \/ In x (fats a).
Proof.
  unfold ids. rewrite mg_in, bitems_in. split; intros [(i & H)|H]; auto; left; exists i.
  - destruct H as [H ->]. apply set_bits_in in H. tauto.
  - destruct H as (H & K & ->). split; auto. apply set_bits_in. auto.
Qed.
Lemma ids_inc a : wf a -> increasing (keys (ids a)).
Proof.
  intros W. apply mg_inc; [apply bitems_inc|apply wf_inc; auto|].
  intros x y Hx Hy E. apply bitems_in in Hx as (i & Hi & ->). apply set_bits_in in Hi as [Hi _]. cbn [fst] in E.
  pose proof (wf_fat _ W) as F. rewrite Forall_forall in F. destruct (F _ Hy) as [[_ NB] _]. rewrite <- E in NB.
  destruct (B_fact i Hi) as (_ & _ & Q). congruence.
Qed.
Lemma ids_small a : wf a -> small (ids a).
Proof.
  intros W. apply Forall_forall. intros x Hx. apply ids_in in Hx as [(i & Hi & _ & ->)|Hx].
  - cbn [fst snd]. destruct (B_fact i Hi) as (Q & _). split; auto. destruct (Z.testbit (bval a) i); cbn; lia.
  - pose proof (wf_small _ W) as F. unfold small in F. rewrite Forall_forall in F. auto.
Qed.

Lemma totag_inc l : small l -> increasing (keys l) -> increasing (keys (map totag l)).
Proof.
  induction l as [|(k, v) l IH]; intros S I; auto. apply inc_cons in I as [A I]. inversion S as [|? ? [Hk _] S']; subst. cbn [fst] in Hk.
  cbn [map]. change (totag (k, v)) with (T k, v). apply inc_cons. split; [|apply IH; auto].
  unfold above in *. rewrite Forall_forall in *. intros x Hx. apply in_map_iff in Hx as (y & <- & Hy). specialize (A _ Hy).
  specialize (S' _ Hy). unfold totag. cbn [fst]. apply T_mono; lia.
Qed.
Lemma content_inc a : wf a -> increasing (keys (content a)).
Proof. intros W. apply totag_inc; [apply ids_small; auto|apply ids_inc; auto]. Qed.
Lemma content_len a : Z.of_nat (length (content a)) = size_of a.
Proof. unfold content, ids. rewrite map_length, mg_len. unfold bitems. rewrite map_length. unfold size_of, nbits. lia. Qed.
Lemma content_in a t v : In (t, v) (content a) <-> exists id, t = T id /\ In (id, v) (ids a).
Proof.
  unfold content. rewrite in_map_iff. split.
  - intros ((id, w) & E & H). unfold totag in E. cbn in E. injection E as <- <-. exists id. auto.
  - intros (id & -> & H). exists (id, v). auto.
Qed.
Lemma content_items a : wf a -> Forall (fun it => 0 <= fst it < 2 ^ 32 /\ is_valid_tag (fst it) = true /\ 0 <= snd it < 16) (content a).
Proof.
  intros W. apply Forall_forall. intros (t, v) H. apply content_in in H as (id & -> & H). pose proof (ids_small _ W) as S. unfold small in S.
  rewrite Forall_forall in S. destruct (S _ H) as [Q V]. cbn [fst snd] in *. destruct (T_valid id Q). auto.
Qed.
Lemma assoc_T l id : small l -> increasing (keys l) -> 0 <= id < 241 -> assoc (T id) (map totag l) = assoc id l.
Proof.
  intros S I Hid. pose proof (totag_inc l S I) as TI.
  destruct (assoc id l) as [v|] eqn:E.
  - apply assoc_in in E; auto. apply assoc_in; auto. apply in_map_iff. exists (id, v). auto.
  - destruct (assoc (T id) (map totag l)) as [v|] eqn:E2; auto. apply assoc_in in E2; auto. apply in_map_iff in E2 as ((k, w) & Q & H).
    unfold totag in Q. cbn [fst snd] in Q. injection Q as Q ->. unfold small in S. rewrite Forall_forall in S. destruct (S _ H) as [Hk _]. cbn [fst] in Hk.
    apply T_inj in Q; auto. subst k. apply assoc_in in H; auto. congruence.
Qed.
Lemma look a id : wf a -> 0 <= id < 241 -> assoc (T id) (content a) = assoc id (ids a).
Proof. intros W H. apply assoc_T; auto; [apply ids_small; auto|apply ids_inc; auto]. Qed.
Lemma look_unknown a t : wf a -> (forall id, 0 <= id < 241 -> t <> T id) -> assoc t (content a) = None.
Proof.
  intros W N. destruct (assoc t (content a)) as [v|] eqn:E; auto. apply assoc_in in E; [|apply content_inc; auto].
  apply content_in in E as (id & -> & H). pose proof (ids_small _ W) as S. unfold small in S. rewrite Forall_forall in S. destruct (S _ H) as [Q _].
  exfalso. apply (N id Q). reflexivity.
Qed.
Lemma look_bit a i : wf a -> 0 <= i < 32 -> assoc (B i) (ids a) = if Z.testbit (bset a) i then Some (Z.b2z (Z.testbit (bval a) i)) else None.
Proof.
  intros W Hi. destruct (B_fact i Hi) as (_ & Q1 & Q2). destruct (Z.testbit (bset a) i) eqn:E.
  - apply assoc_in; [apply ids_inc; auto|]. apply ids_in. left. exists i. auto.
  - destruct (assoc (B i) (ids a)) as [v|] eqn:F; auto. apply assoc_in in F; [|apply ids_inc; auto].
    apply ids_in in F as [(j & Hj & T' & Q)|F].
    + injection Q as Q _. destruct (B_fact j Hj) as (_ & R1 & _). rewrite <- Q in R1. congruence.
    + pose proof (wf_fat _ W) as G. rewrite Forall_forall in G. destruct (G _ F) as [[_ NB] _]. cbn [fst] in NB. congruence.
Qed.
Lemma look_fat a id : wf a -> fat_id id -> assoc id (ids a) = assoc id (fats a).
Proof.
  intros W [_ NB]. destruct (assoc id (fats a)) as [v|] eqn:E.
  - apply assoc_in; [apply ids_inc; auto|]. apply ids_in. right. apply assoc_in; auto. apply wf_inc; auto.
  - destruct (assoc id (ids a)) as [v|] eqn:F; auto. apply assoc_in in F; [|apply ids_inc; auto].
    apply ids_in in F as [(j & Hj & T' & Q)|F].
    + injection Q as -> _. destruct (B_fact j Hj) as (_ & _ & Q2). congruence.
    + apply assoc_in in F; [congruence|apply wf_inc; auto].
Qed.

(* two representations with the same items are the same *)
Lemma abs_ext a b : wf a -> wf b -> content a = content b -> a = b.
Proof.
  intros Wa Wb E.
  assert (L : forall id, 0 <= id < 241 -> assoc id (ids a) = assoc id (ids b)) by (intros id H; rewrite <- !look by auto; congruence).
  assert (BB : forall i, 0 <= i < 32 -> Z.testbit (bset a) i = Z.testbit (bset b) i /\ (Z.testbit (bset a) i = true -> Z.testbit (bval a) i = Z.testbit (bval b) i)).
  { intros i Hi. destruct (B_fact i Hi) as (Q & _). specialize (L _ Q). rewrite !look_bit in L by auto.
    destruct (Z.testbit (bset a) i), (Z.testbit (bset b) i); try discriminate; split; auto; try discriminate.
    injection L as L. intros _. destruct (Z.testbit (bval a) i), (Z.testbit (bval b) i); auto; discriminate. }
  assert (HS : bset a = bset b).
  { apply Z.bits_inj'. intros i Hi. destruct (Z.lt_ge_cases i 32) as [H|H]; [apply BB; lia|].
    rewrite !testbit_high; auto; [apply (wf_set _ Wb)|apply (wf_set _ Wa)]. }
  assert (HV : bval a = bval b).
  { apply Z.bits_inj'. intros i Hi. destruct (Z.lt_ge_cases i 32) as [H|H].
    - destruct (BB i ltac:(lia)) as [E1 E2]. destruct (Z.testbit (bset a) i) eqn:Q; auto.
      destruct (Z.testbit (bval a) i) eqn:Q1; [apply (wf_sub _ Wa) in Q1; [congruence|auto]|].
      destruct (Z.testbit (bval b) i) eqn:Q2; [apply (wf_sub _ Wb) in Q2; [congruence|auto]|]. auto.
    - rewrite !testbit_high; auto; [apply (wf_val _ Wb)|apply (wf_val _ Wa)]. }
  assert (HF : fats a = fats b).
  { apply assoc_ext; [apply wf_inc; auto|apply wf_inc; auto|]. intros k.
    assert (G : forall c, wf c -> forall v, assoc k (fats c) = Some v -> fat_id k).
    { intros c Wc v H. apply assoc_in in H; [|apply wf_inc; auto]. pose proof (wf_fat _ Wc) as F. rewrite Forall_forall in F. apply (F _ H). }
    assert (D : fat_id k \/ ~ fat_id k).
    { unfold fat_id, kFeatureIdCount. destruct (Z.le_gt_cases 0 k); [|right; lia]. destruct (Z.lt_ge_cases k 241); [|right; lia].
      destruct (has_bit_id (feature_info_at k)); [right; intros [_ ?]; discriminate|left; auto]. }
    destruct D as [D|D].
    - rewrite <- !look_fat by auto. apply L. destruct D as [D _]. unfold kFeatureIdCount in D. auto.
    - destruct (assoc k (fats a)) eqn:Q1; [exfalso; apply D; eapply (G a); eauto|].
      destruct (assoc k (fats b)) eqn:Q2; [exfalso; apply D; eapply (G b); eauto|]. auto. }
  destruct a as [a1 a2 a3], b as [b1 b2 b3]. cbn [bset bval fats] in HS, HV, HF. clear -HS HV HF. subst. reflexivity.
Qed.
