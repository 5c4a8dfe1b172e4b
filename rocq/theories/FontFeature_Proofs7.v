(* The effect of the primitive operations on the items, and the conversion of items to the SSO representation. *)
From Verif Require Import Base Bits Algorithm_Model TagData_Model TagData_Spec TagData_Proofs
  FontFeature_Model FontFeature_Spec FontFeature_Proofs FontFeature_Proofs2 FontFeature_Proofs3 FontFeature_Proofs4 FontFeature_Proofs5 FontFeature_Proofs6.
Ltac Zify.zify_post_hook ::= idtac.

Lemma fat_range id : fat_id id -> 0 <= id < 241.
Proof. intros [H _]. exact H. Qed.

(* a tag is the tag of a boolean feature, of another feature, or unknown *)
Lemma tag_cases t : (exists i, 0 <= i < 32 /\ t = T (B i)) \/ (exists id, fat_id id /\ t = T id) \/ (forall id, 0 <= id < 241 -> t <> T id).
Proof.
  destruct (id_cases t) as [(id & H & -> & _)|[_ N]]; [|auto].
  destruct (has_bit_id (feature_info_at id)) eqn:E.
  - left. destruct (bit_fact id H E) as [Hi Q]. exists (fi_bit_id (feature_info_at id)). rewrite Q. auto.
  - right. left. exists id. split; auto. split; auto.
Qed.
Lemma TB_inj i j : 0 <= i < 32 -> 0 <= j < 32 -> T (B i) = T (B j) -> i = j.
Proof.
  intros Hi Hj E. destruct (B_fact i Hi) as (R1 & Q1 & _), (B_fact j Hj) as (R2 & Q2 & _). apply T_inj in E; auto. congruence.
Qed.
Lemma TB_fat i id : 0 <= i < 32 -> fat_id id -> T (B i) <> T id.
Proof.
  intros Hi F E. destruct (B_fact i Hi) as (R1 & _ & Q1). apply T_inj in E; auto; [|apply fat_range; auto]. destruct F as [_ F]. congruence.
Qed.

Lemma content_set_bit a i v : wf a -> 0 <= i < 32 -> 0 <= v <= 1 -> content (set_bit_tag a i v) = aset (T (B i)) v (content a).
Proof.
  intros W Hi Hv. pose proof (wf_set_bit a i v W Hi Hv) as W'.
  apply assoc_ext; [apply content_inc; auto|apply inc_aset, content_inc; auto|]. intros t.
  rewrite assoc_aset by (apply content_inc; auto).
  destruct (tag_cases t) as [(j & Hj & ->)|[(id & F & ->)|N]].
  - destruct (B_fact j Hj) as (Rj & _). rewrite !look, !look_bit by auto. destruct (set_bit_bits a i v j) as [E1 E2]; try lia. rewrite E1, E2.
    destruct (Z.eqb_spec j i) as [->|Q].
    + rewrite Z.eqb_refl. cbn [orb]. assert (v = 0 \/ v = 1) as [-> | ->] by lia; reflexivity.
    + destruct (Z.eqb_spec (T (B j)) (T (B i))) as [Q2|_]; [exfalso; apply Q, TB_inj; auto|]. reflexivity.
  - rewrite !look, !look_fat by (auto; apply fat_range; auto). destruct (Z.eqb_spec (T id) (T (B i))) as [Q|_]; [exfalso; apply (TB_fat i id); auto|]. reflexivity.
  - rewrite !look_unknown by auto. destruct (Z.eqb_spec t (T (B i))) as [Q|_]; auto. exfalso. apply (N (B i)); auto. apply B_fact; auto.
Qed.

Lemma content_del_bit a i : wf a -> 0 <= i < 32 -> content (del_bit_tag a i) = adel (T (B i)) (content a).
Proof.
  intros W Hi. pose proof (wf_del_bit a i W Hi) as W'.
  apply assoc_ext; [apply content_inc; auto|apply inc_adel, content_inc; auto|]. intros t.
  rewrite assoc_adel by (apply content_inc; auto).
  destruct (tag_cases t) as [(j & Hj & ->)|[(id & F & ->)|N]].
  - destruct (B_fact j Hj) as (Rj & _). rewrite !look, !look_bit by auto. destruct (del_bit_bits a i j) as [E1 E2]; try lia. rewrite E1, E2.
    destruct (Z.eqb_spec j i) as [->|Q].
    + rewrite Z.eqb_refl. reflexivity.
    + destruct (Z.eqb_spec (T (B j)) (T (B i))) as [Q2|_]; [exfalso; apply Q, TB_inj; auto|]. reflexivity.
  - rewrite !look, !look_fat by (auto; apply fat_range; auto). destruct (Z.eqb_spec (T id) (T (B i))) as [Q|_]; [exfalso; apply (TB_fat i id); auto|]. reflexivity.
  - rewrite !look_unknown by auto. destruct (Z.eqb_spec t (T (B i))) as [Q|_]; auto.
Qed.

Lemma assoc_fats a l t : wf a -> wf (with_fats a l) ->
  assoc t (content (with_fats a l)) = match feature_tag_to_id t with
    | Ok id => if (id =? kInvalidId) || has_bit_id (feature_info_at id) then assoc t (content a) else assoc id l
    | _ => None end.
Proof.
  intros W W'. destruct (id_cases t) as [(id & H & -> & E)|[E N]]; rewrite E.
  - rewrite id_valid by auto. cbn [orb]. destruct (has_bit_id (feature_info_at id)) eqn:Q.
    + destruct (bit_fact id H Q) as [Hi R]. rewrite !look by auto. rewrite <- R. rewrite !look_bit by auto. reflexivity.
    + rewrite look, look_fat by (auto; split; auto). reflexivity.
  - rewrite Z.eqb_refl. cbn [orb]. rewrite !look_unknown by auto. reflexivity.
Qed.

Lemma content_fats a l t id : wf a -> wf (with_fats a l) -> fat_id id -> t <> T id -> (forall k, k <> id -> assoc k l = assoc k (fats a)) ->
  assoc t (content (with_fats a l)) = assoc t (content a).
Proof.
  intros W W' F N H. rewrite assoc_fats by auto. destruct (id_cases t) as [(k & Hk & E & ->)|[-> _]].
  - rewrite id_valid by auto. cbn [orb]. destruct (has_bit_id (feature_info_at k)) eqn:Q; auto.
    rewrite H by (intros ->; auto). subst t. rewrite look, look_fat by (auto; split; auto). reflexivity.
  - rewrite Z.eqb_refl. reflexivity.
Qed.

Lemma content_set_fat a id v : wf a -> fat_id id -> wf (with_fats a (aset id v (fats a))) ->
  content (with_fats a (aset id v (fats a))) = aset (T id) v (content a).
Proof.
  intros W F W'. apply assoc_ext; [apply content_inc; auto|apply inc_aset, content_inc; auto|]. intros t.
  rewrite assoc_aset by (apply content_inc; auto). pose proof (fat_range _ F) as R. destruct (Z.eqb_spec t (T id)) as [->|N].
  - rewrite look, look_fat by auto. cbn [fats with_fats]. rewrite assoc_aset by (apply wf_inc; auto). rewrite Z.eqb_refl. reflexivity.
  - apply content_fats with id; auto. intros k Hk. rewrite assoc_aset by (apply wf_inc; auto). destruct (Z.eqb_spec k id); [lia|reflexivity].
Qed.

Lemma hit_content a id : wf a -> fat_id id -> hit id (fats a) = match assoc (T id) (content a) with Some _ => true | None => false end.
Proof.
  intros W F. rewrite look, look_fat by (auto; apply fat_range; auto). generalize (hit_assoc id (fats a) (wf_inc _ W)). unfold hit, item in *.
  destruct (@nth_error (Z * Z) (fats a) (pos id (fats a))) as [(y, w)|]; [destruct (y =? id)|]; intros ->; reflexivity.
Qed.

(* conversion of items *)
Lemma aset_last k v l : Forall (fun it => fst it < k) l -> aset k v l = l ++ [(k, v)].
Proof.
  induction l as [|(y, w) l IH]; intros F; auto. inversion F as [|? ? H F']; subst. cbn [fst] in H. cbn [aset app].
  destruct (Z.ltb_spec y k); [|lia]. rewrite IH by auto. reflexivity.
Qed.

Lemma lxor_add k a b : 0 <= k -> 0 <= a < 2 ^ k -> Z.lxor a (b * 2 ^ k) = a + b * 2 ^ k.
Proof.
  intros Hk Ha. symmetry. apply Z.add_nocarry_lxor. apply Z.bits_inj'. intros j Hj. rewrite Z.land_spec, Z.bits_0.
  destruct (Z.lt_ge_cases j k).
  - rewrite Z.mul_pow2_bits_low by lia. apply andb_false_r.
  - rewrite <- (Z.mod_small a (2 ^ k)) by auto. rewrite Z.mod_pow2_bits_high by lia. reflexivity.
Qed.

Lemma flip_digit A R id : digits 8 A -> digits 8 R -> 0 <= id < 256 -> (length A + length R = 3)%nat ->
  Z.lxor (pack 8 (A ++ 255 :: R)) (w32 (Z.shiftl (Z.lxor id 255) (Z.of_nat (length A) * 8))) = pack 8 (A ++ id :: R).
Proof.
  intros DA DR Hid L. pose proof (pack_bound 8 A ltac:(lia) DA) as BA.
  replace (Z.of_nat (length A) * 8) with (8 * Z.of_nat (length A)) by lia. set (k := 8 * Z.of_nat (length A)) in *.
  assert (Hk : 0 <= k <= 24) by (unfold k; lia).
  assert (BX : 0 <= Z.lxor id 255 < 256).
  { split; [apply Z.lxor_nonneg; lia|]. destruct (Z.eq_dec (Z.lxor id 255) 0) as [->|Nz]; [lia|].
    pose proof (Z.log2_lxor id 255 ltac:(lia) ltac:(lia)) as G. change (Z.log2 255) with 7 in G.
    assert (Z.log2 id <= 7) by (change 7 with (Z.log2 255); apply Z.log2_le_mono; lia).
    change 256 with (2 ^ 8). apply Z.log2_lt_pow2; [|lia]. assert (0 <= Z.lxor id 255) by (apply Z.lxor_nonneg; lia). lia. }
  rewrite !pack_app by lia. fold k. cbn [pack]. change (2 ^ 8) with 256.
  rewrite Z.shiftl_mul_pow2 by lia. rewrite w32_small.
  2:{ assert (2 ^ k <= 2 ^ 24) by (apply Z.pow_le_mono_r; lia). pose proof (pow_pos2 k). change (2 ^ 24) with 16777216 in *. nia. }
  rewrite (Z.mul_comm (2 ^ k)). rewrite <- lxor_add by (auto; lia). rewrite Z.lxor_assoc.
  rewrite <- !Z.shiftl_mul_pow2 by lia. rewrite <- Z.shiftl_lxor. 
  replace (Z.lxor (255 + 256 * pack 8 R) (Z.lxor id 255)) with (id + 256 * pack 8 R).
  - rewrite Z.shiftl_mul_pow2 by lia. rewrite lxor_add by (auto; lia). ring.
  - rewrite !(Z.mul_comm 256). change 256 with (2 ^ 8). rewrite <- !lxor_add by (change (2 ^ 8) with 256; lia).
    rewrite (Z.lxor_comm id 255). rewrite (Z.lxor_comm 255 (_ * _)). rewrite Z.lxor_assoc. rewrite <- (Z.lxor_assoc 255 255).
    rewrite Z.lxor_nilpotent, Z.lxor_0_l. apply Z.lxor_comm.
Qed.

Lemma or_digit A R v hi : digits 4 A -> digits 4 R -> 0 <= v < 16 -> (length A + length R = 3)%nat ->
  Z.lor (pack 4 (A ++ 0 :: R) + 2 ^ 16 * hi) (w32 (Z.shiftl v (Z.of_nat (length A) * 4))) = pack 4 (A ++ v :: R) + 2 ^ 16 * hi.
Proof.
  intros DA DR Hv L. replace (Z.of_nat (length A) * 4) with (4 * Z.of_nat (length A)) by lia.
  pose proof (replace_digit 4 A R 0 v hi 16 ltac:(lia) DA DR ltac:(lia) ltac:(lia) ltac:(lia) ltac:(lia)) as H1.
  pose proof (replace_digit 4 A R 0 0 hi 16 ltac:(lia) DA DR ltac:(lia) ltac:(lia) ltac:(lia) ltac:(lia)) as H2.
  cbv zeta in *. rewrite Z.shiftl_0_l in H2. change (w32 0) with 0 in H2. rewrite Z.lor_0_r in H2. rewrite H2 in H1. exact H1.
Qed.

Definition state (a : abs) (N : Z) (items : list item) : outcome (option sso) :=
  to_sso_loop items (bset a) (bval a) (Z.of_nat (length (fats a))) (pack 8 (tag_digits a)) (pack 4 (val_digits a) + 2 ^ 16 * (33856 + N)).

Lemma pad_at z l : (length l < 4)%nat -> pad z l = l ++ z :: repeat z (3 - length l).
Proof. intros H. unfold pad. f_equal. replace (4 - length l)%nat with (S (3 - length l)) by lia. reflexivity. Qed.
Lemma pad_snoc z l x : (length l < 4)%nat -> pad z (l ++ [x]) = l ++ x :: repeat z (3 - length l).
Proof. intros H. unfold pad. rewrite <- app_assoc. rewrite app_length. cbn [length app]. replace (4 - (length l + 1))%nat with (3 - length l)%nat by lia. reflexivity. Qed.

Lemma to_sso_ok : forall items a0 N, wf a0 -> increasing (keys items) -> (forall x y, In x (content a0) -> In y items -> fst x < fst y) ->
  Forall (fun it => 0 <= snd it) items -> N = size_of a0 + Z.of_nat (length items) ->
  (exists a, state a0 N items = Ok (Some (encode a)) /\ wf a /\ content a = content a0 ++ items) \/
  (state a0 N items = Ok None /\ forall a, wf a -> content a <> content a0 ++ items).
Proof.
  induction items as [|(t, v) r IH]; intros a0 N W I L F HN.
  - left. exists a0. rewrite app_nil_r. split; auto. unfold state. cbn [to_sso_loop]. cbn [length] in HN.
    unfold encode. replace N with (size_of a0) by lia. reflexivity.
  - apply inc_cons in I as [A I]. inversion F as [|? ? Hv F']; subst. cbn [snd length] in *.
    unfold state. cbn [to_sso_loop].
    assert (HIN : forall a, content a = content a0 ++ (t, v) :: r -> In (t, v) (content a)) by (intros a ->; apply in_or_app; right; left; auto).
    destruct (id_cases t) as [(id & Hid & -> & ->)|[-> Nt]]; cbn [bind].
    2:{ rewrite Z.eqb_refl. right. split; auto. intros a Wa E. apply HIN in E. apply assoc_in in E; [|apply content_inc; auto]. rewrite look_unknown in E by auto. discriminate. }
    rewrite id_valid by auto. rewrite info_rd by lia. cbn [bind].
    assert (LT : Forall (fun it => fst it < T id) (content a0)).
    { apply Forall_forall. intros x Hx. apply (L x (T id, v)); auto. left; auto. }
    assert (NI : assoc (T id) (content a0) = None).
    { destruct (assoc (T id) (content a0)) as [w|] eqn:E; auto. apply assoc_in in E; [|apply content_inc; auto]. rewrite Forall_forall in LT. specialize (LT _ E). cbn [fst] in LT. lia. }
    assert (STEP : forall a1, wf a1 -> content a1 = aset (T id) v (content a0) ->
       (exists a, state a1 (size_of a0 + Z.of_nat (S (length r))) r = Ok (Some (encode a)) /\ wf a /\ content a = content a0 ++ (T id, v) :: r) \/
       (state a1 (size_of a0 + Z.of_nat (S (length r))) r = Ok None /\ forall a, wf a -> content a <> content a0 ++ (T id, v) :: r)).
    { intros a1 W1 C1. rewrite aset_last in C1 by auto.
      replace (content a0 ++ (T id, v) :: r) with (content a1 ++ r) by (rewrite C1, <- app_assoc; reflexivity).
      apply IH; auto.
      - intros x y Hx Hy. rewrite C1 in Hx. apply in_app_or in Hx as [Hx|[<-|[]]].
        + apply L; auto. right; auto.
        + unfold above in A. rewrite Forall_forall in A. apply A; auto.
      - pose proof (content_len a0) as H0. pose proof (content_len a1) as H1. rewrite C1, app_length in H1. cbn [length] in H1. unfold item in *. lia. }
    destruct (has_bit_id (feature_info_at id)) eqn:Q.
    + destruct (bit_fact id Hid Q) as [Hi R]. set (i := fi_bit_id (feature_info_at id)) in *. rewrite <- R in *.
      destruct (Z.ltb_spec 1 v).
      * right. split; auto. intros a Wa E. apply HIN in E. apply assoc_in in E; [|apply content_inc; auto].
        rewrite look, look_bit in E by auto. destruct (Z.testbit (bset a) i); [|discriminate]. injection E as E. destruct (Z.testbit (bval a) i); cbn in E; lia.
      * assert (NB : Z.testbit (bset a0) i = false).
        { rewrite look, look_bit in NI by auto. destruct (Z.testbit (bset a0) i); auto. discriminate. }
        pose proof (add_bit_ok a0 i v W Hi ltac:(lia) NB) as E.
        pose proof (f_equal d0 E) as E0. pose proof (f_equal d1 E) as E1. cbn [add_sso_bit_tag encode d0 d1] in E0, E1. rewrite E0, E1.
        specialize (STEP (set_bit_tag a0 i v) (wf_set_bit a0 i v W Hi ltac:(lia)) (content_set_bit a0 i v W Hi ltac:(lia))).
        exact STEP.
    + assert (FI : fat_id id) by (split; auto).
      unfold kSSOFatFeatureValueBitMask, kSSOFatFeatureCount.
      destruct (Z.ltb_spec 15 v) as [V|V]; cbn [orb].
      { right. split; auto. intros a Wa E. apply HIN in E. apply assoc_in in E; [|apply content_inc; auto].
        rewrite look, look_fat in E by auto. apply assoc_in in E; [|apply wf_inc; auto]. pose proof (wf_fat _ Wa) as G. rewrite Forall_forall in G.
        destruct (G _ E) as [_ G2]. cbn [snd] in G2. lia. }
      destruct (Z.leb_spec 4 (Z.of_nat (length (fats a0)))) as [K|K].
      { right. split; auto. intros a Wa E.
        assert (INC : incl (id :: keys (fats a0)) (keys (fats a))).
        { intros k [<-|Hk].
          - apply HIN in E. apply assoc_in in E; [|apply content_inc; auto]. rewrite look, look_fat in E by auto.
            apply assoc_in in E; [|apply wf_inc; auto]. apply in_map_iff. exists (id, v). auto.
          - apply in_map_iff in Hk as ((k', w) & <- & Hk). cbn [fst]. pose proof (wf_fat _ W) as G. rewrite Forall_forall in G. destruct (G _ Hk) as [Fk _]. cbn [fst] in Fk.
            assert (In (T k', w) (content a)).
            { rewrite E. apply in_or_app. left. apply assoc_in; [apply content_inc; auto|]. rewrite look, look_fat by (auto; apply fat_range; auto).
              apply assoc_in; auto. apply wf_inc; auto. }
            apply assoc_in in H; [|apply content_inc; auto]. rewrite look, look_fat in H by (auto; apply fat_range; auto).
            apply assoc_in in H; [|apply wf_inc; auto]. apply in_map_iff. exists (k', w). auto. }
        assert (ND : NoDup (id :: keys (fats a0))).
        { constructor.
          - intros Hk. apply in_map_iff in Hk as ((k', w) & Ek & Hk). cbn [fst] in Ek. subst k'.
            rewrite look, look_fat in NI by auto. apply assoc_in in Hk; [congruence|apply wf_inc; auto].
          - pose proof (wf_inc _ W) as J. clear -J. induction (fats a0) as [|(k, w) l IH]; [constructor|].
            apply inc_cons in J as [A J]. cbn [map]. constructor; [|apply IH; auto]. intros H. apply in_map_iff in H as (x & E & H).
            unfold above in A. rewrite Forall_forall in A. specialize (A _ H). cbn [fst] in E. lia. }
        pose proof (NoDup_incl_length ND INC) as LL. cbn [length] in LL. rewrite !map_length in LL. pose proof (wf_len _ Wa). unfold item in *. lia. }
      assert (HL : (length (fats a0) < 4)%nat) by lia.
      assert (HIT : hit id (fats a0) = false) by (rewrite hit_content, NI by auto; reflexivity).
      assert (AL : aset id v (fats a0) = fats a0 ++ [(id, v)]).
      { apply aset_last. apply Forall_forall. intros (k, w) Hk. cbn [fst]. pose proof (wf_fat _ W) as G. rewrite Forall_forall in G. destruct (G _ Hk) as [Fk _]. cbn [fst] in Fk.
        assert (In (T k, w) (content a0)).
        { apply assoc_in; [apply content_inc; auto|]. rewrite look, look_fat by (auto; apply fat_range; auto). apply assoc_in; auto. apply wf_inc; auto. }
        rewrite Forall_forall in LT. specialize (LT _ H). cbn [fst] in LT. destruct (Z.lt_ge_cases k id); auto.
        destruct (Z.eq_dec k id) as [->|]; [lia|]. pose proof (T_mono id k). pose proof (fat_range _ Fk). lia. }
      assert (W1 : wf (with_fats a0 (aset id v (fats a0)))) by (apply wf_aset; auto; lia).
      specialize (STEP _ W1 (content_set_fat a0 id v W FI W1)).
      destruct (fst_digits _ (wf_fat _ W)) as [Dt Dv].
      match goal with |- context [to_sso_loop r ?x ?y ?z ?p ?q] => replace (to_sso_loop r x y z p q) with (state (with_fats a0 (aset id v (fats a0))) (size_of a0 + Z.of_nat (S (length r))) r); [exact STEP|] end.
      unfold state. cbn [bset bval fats with_fats]. unfold tag_digits, val_digits. cbn [fats with_fats]. rewrite AL. rewrite !map_app. cbn [map fst snd].
      rewrite app_length. cbn [length]. rewrite !pad_snoc by (rewrite map_length; auto). rewrite !pad_at by (rewrite map_length; auto).
      rewrite !map_length. f_equal.
      * lia.
      * change kSSOInvalidFatFeatureId with 255. change kSSOFatFeatureTagBitCount with 8.
        pose proof (flip_digit (keys (fats a0)) (repeat 255 (3 - length (fats a0))) id Dt) as X. rewrite map_length in X. symmetry. apply X.
        -- apply digits_repeat. lia.
        -- lia.
        -- rewrite repeat_length. unfold item in *. lia.
      * change kSSOFatFeatureValueBitCount with 4.
        pose proof (or_digit (map snd (fats a0)) (repeat 0 (3 - length (fats a0))) v (33856 + (size_of a0 + Z.of_nat (S (length r)))) Dv) as X.
        rewrite map_length in X. symmetry. apply X.
        -- apply digits_repeat. lia.
        -- lia.
        -- rewrite repeat_length. unfold item in *. lia.
Qed.

Definition abs0 : abs := {| bset := 0; bval := 0; fats := [] |}.
Lemma wf_abs0 : wf abs0.
Proof. constructor; cbn [bset bval fats abs0 map increasing length]; auto; lia. Qed.
Lemma content_abs0 : content abs0 = [].
Proof. reflexivity. Qed.
Lemma init_ok : init_sso = encode abs0.
Proof. reflexivity. Qed.

Lemma pack_a_ok n : 0 <= n < 64 -> Z.lor type_with_marker (pack_a n) = 2 ^ 16 * (33856 + n).
Proof.
  intros H. unfold pack_a. rewrite Z.shiftl_mul_pow2 by lia. rewrite w32_small by (change (2 ^ 16) with 65536; lia).
  change type_with_marker with (529 * 2 ^ 22). rewrite lor_add' by (change (2 ^ 16) with 65536; change (2 ^ 22) with 4194304; lia).
  change (2 ^ 16) with 65536; change (2 ^ 22) with 4194304; lia.
Qed.

Lemma convert_items_ok items : increasing (keys items) -> Forall (fun it => 0 <= snd it) items -> Z.of_nat (length items) < 64 ->
  (exists a, convert_items_to_sso items = Ok (Some (encode a)) /\ wf a /\ content a = items) \/
  (convert_items_to_sso items = Ok None /\ forall a, wf a -> content a <> items).
Proof.
  intros I F L. unfold convert_items_to_sso. rewrite pack_a_ok by (unfold item in *; lia).
  exact (to_sso_ok items abs0 (Z.of_nat (length items)) wf_abs0 I ltac:(intros x y []) F eq_refl).
Qed.
