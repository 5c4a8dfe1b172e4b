(* Every operation keeps the items in step with the map. *)
From Verif Require Import Base Bits IntOps_Model Object_Model Object_Proofs2 Algorithm_Model TagData_Model TagData_Spec TagData_Proofs
  FontFeature_Model FontFeature_Spec FontFeature_Proofs FontFeature_Proofs2 FontFeature_Proofs3 FontFeature_Proofs4 FontFeature_Proofs5 FontFeature_Proofs6 FontFeature_Proofs7.
Ltac Zify.zify_post_hook ::= idtac.

Definition dyn_ok (items : list item) : Prop :=
  increasing (keys items) /\ Forall (fun it => 0 <= fst it < 2 ^ 32 /\ is_valid_tag (fst it) = true /\ 0 <= snd it <= 65535) items.

Definition Inv (s : settings) (V : list item) : Prop :=
  match s with
  | SSO x => exists a, wf a /\ x = encode a /\ content a = V
  | DYN items cap _ => items = V /\ dyn_ok items /\ Z.of_nat (length items) <= cap
  end.

Lemma dyn_of_content a : wf a -> dyn_ok (content a).
Proof.
  intros W. split; [apply content_inc; auto|]. eapply Forall_impl; [|apply content_items; auto]. cbv beta. intros it (A & C & D). repeat split; auto; lia.
Qed.
Lemma inv_ok s V : Inv s V -> dyn_ok V.
Proof. destruct s; cbn [Inv]; [intros (a & W & _ & <-); apply dyn_of_content; auto|intros (<- & D & _); auto]. Qed.
Lemma dyn_len V : dyn_ok V -> Z.of_nat (length V) <= 4294967296.
Proof.
  intros [I F]. replace 4294967296 with (2 ^ 32 - 0) by reflexivity. apply inc_length_bound; auto; [|lia].
  eapply Forall_impl; [|exact F]. cbv beta. intros it H. tauto.
Qed.

Lemma hit_is k (l : list item) : increasing (keys l) -> hit k l = match assoc k l with Some _ => true | None => false end.
Proof.
  intros I. generalize (hit_assoc k l I). unfold hit, item in *.
  destruct (@nth_error (Z * Z) l (pos k l)) as [(y, w)|]; [destruct (y =? k)|]; intros ->; reflexivity.
Qed.
Lemma adel_none k (l : list item) : increasing (keys l) -> assoc k l = None -> adel k l = l.
Proof. intros I E. rewrite adel_pos, hit_is, E by auto. reflexivity. Qed.

Lemma lookup_dyn (l : list item) k : increasing (keys l) ->
  (if Z.of_nat (pos k l) <? Z.of_nat (length l) then let* it := rd l (Z.of_nat (pos k l)) in Ok (fst it =? k) else Ok false) = Ok (hit k l).
Proof.
  intros I. unfold hit. destruct (Z.ltb_spec (Z.of_nat (pos k l)) (Z.of_nat (length l))) as [H|H].
  - rewrite rd_nat. destruct (nth_error l (pos k l)) as [(y, w)|] eqn:E; [reflexivity|].
    apply nth_error_None in E. lia.
  - destruct (nth_error l (pos k l)) as [(y, w)|] eqn:E; [|reflexivity].
    assert (pos k l < length l)%nat by (apply nth_error_Some; rewrite E; discriminate). lia.
Qed.
Lemma hit_rd (l : list item) k : increasing (keys l) -> hit k l = true -> exists v, rd l (Z.of_nat (pos k l)) = Ok (k, v) /\ assoc k l = Some v /\ (Z.of_nat (pos k l) <? Z.of_nat (length l)) = true.
Proof.
  intros I H. destruct (hit_split _ _ H) as (v & _ & E). exists v. rewrite rd_nat, E. split; auto. split.
  - apply assoc_in; auto. apply nth_error_In in E. auto.
  - apply Z.ltb_lt. assert (pos k l < length l)%nat by (apply nth_error_Some; rewrite E; discriminate). lia.
Qed.

(* sizes *)
Lemma impl_size n : 0 <= n <= 8589934592 -> impl_size_from_capacity n = 24 + 8 * n.
Proof. intros H. unfold impl_size_from_capacity, w64. rewrite (Z.mod_small (n * 8)) by lia. rewrite Z.mod_small by lia. lia. Qed.
Lemma cap_of_size n r : 0 <= n -> 24 + 8 * n <= r < 2 ^ 64 -> n <= capacity_from_impl_size r.
Proof.
  intros H Hr. unfold capacity_from_impl_size, w64. rewrite Z.mod_small by (change (2 ^ 64) with 18446744073709551616 in Hr; lia).
  apply Z.div_le_lower_bound; lia.
Qed.
Lemma expanded n : 0 <= n <= 8589934592 -> exists r, expand_impl_size (impl_size_from_capacity n) = Ok r /\ (capacity_from_impl_size r <? n) = false.
Proof.
  intros H. rewrite impl_size by auto. destruct (expand_ok (24 + 8 * n)) as (r & E & Br & _); [change (2 ^ 64) with 18446744073709551616; lia|].
  exists r. split; auto. apply Z.ltb_ge. apply cap_of_size; lia.
Qed.
Lemma first_cap n : 0 <= n <= 36 -> n + 1 <= capacity_from_impl_size (align_up 64 (impl_size_from_capacity (Z.max (n + 1) 4)) 64).
Proof.
  intros H. pose proof (check_range 37 (fun n => n + 1 <=? capacity_from_impl_size (align_up 64 (impl_size_from_capacity (Z.max (n + 1) 4)) 64))
    ltac:(vm_compute; reflexivity) n ltac:(lia)) as C. apply Z.leb_le in C. auto.
Qed.

(* reading *)
Lemma get_sso_ok a t nf : wf a -> get_sso_tag_value (encode a) t nf = Ok (match assoc t (content a) with Some v => v | None => nf end).
Proof.
  intros W. unfold get_sso_tag_value. destruct (id_cases t) as [(id & Hid & -> & ->)|[-> N]]; cbn [bind].
  - rewrite id_valid, info_rd by lia. cbn [bind]. rewrite look by auto. destruct (has_bit_id (feature_info_at id)) eqn:Q.
    + destruct (bit_fact id Hid Q) as [Hi R]. rewrite has_bit_ok, get_bit_ok by lia. pose proof (look_bit a _ W Hi) as LB. rewrite R in LB. rewrite LB.
      destruct (Z.testbit (bset a) (fi_bit_id (feature_info_at id))); reflexivity.
    + assert (F : fat_id id) by (split; auto). rewrite find_ok by (auto; lia). rewrite look_fat by auto.
      destruct (hit id (fats a)) eqn:E.
      * rewrite <- get_fat_ok by auto. reflexivity.
      * rewrite hit_is in E by (apply wf_inc; auto). destruct (assoc id (fats a)); [discriminate|reflexivity].
  - rewrite Z.eqb_refl. rewrite look_unknown by auto. reflexivity.
Qed.
Lemma get_dyn_ok (items : list item) t nf : increasing (keys items) -> get_dynamic_tag_value items t nf = Ok (match assoc t items with Some v => v | None => nf end).
Proof.
  intros I. unfold get_dynamic_tag_value. rewrite lower_bound_pos by auto. cbn [bind]. pose proof (lookup_dyn items t I) as L.
  destruct (hit t items) eqn:E.
  - destruct (hit_rd _ _ I E) as (v & R & A & ->). rewrite R, A. cbn [bind fst snd]. rewrite Z.eqb_refl. reflexivity.
  - rewrite hit_is in E by auto. destruct (assoc t items); [discriminate|].
    destruct (Z.of_nat (pos t items) <? Z.of_nat (length items)); [|reflexivity].
    destruct (rd items (Z.of_nat (pos t items))) as [(y, w)| | |]; try discriminate. cbn [bind fst] in *. injection L as ->. reflexivity.
Qed.
Lemma get_value_ok s V t : Inv s V -> get_value s t = Ok (match assoc t V with Some v => v | None => NOT_SET end).
Proof.
  destruct s as [x|items cap mut]; cbn [Inv get_value].
  - intros (a & W & -> & <-). apply get_sso_ok; auto.
  - intros (<- & [I _] & _). apply get_dyn_ok; auto.
Qed.
Lemma plan_ok s V t : Inv s V -> is_feature_enabled_for_plan s t =
  Ok (0 <? match assoc t V with Some v => v | None => Z.b2z (existsb (Z.eqb t) (map T feature_enabled_ids)) end).
Proof.
  intros H. unfold is_feature_enabled_for_plan.
  assert (E : exists id fi, feature_tag_to_id t = Ok id /\ rd feature_info_table (Z.min id kFeatureIdCount) = Ok fi /\
                            fi_enabled fi = existsb (Z.eqb t) (map T feature_enabled_ids)).
  { destruct (id_cases t) as [(id & Hid & -> & E)|[E N]].
    - exists id, (feature_info_at id). split; auto. change kFeatureIdCount with 241. rewrite Z.min_l by lia. split; [apply info_rd; lia|].
      pose proof (check_range 241 (fun id => Bool.eqb (fi_enabled (feature_info_at id)) (existsb (Z.eqb (T id)) (map T feature_enabled_ids)))
        ltac:(vm_compute; reflexivity) id Hid) as C. apply Bool.eqb_prop in C. exact C.
    - exists kInvalidId, (feature_info_at 241). split; auto. split; [apply info_rd; lia|].
      change (fi_enabled (feature_info_at 241)) with false. symmetry. apply Bool.not_true_is_false. intros Q. apply existsb_exists in Q as (x & Hx & Q).
      apply Z.eqb_eq in Q. subst x. apply in_map_iff in Hx as (id & Hx & Hi). apply (N id); auto.
      clear -Hi. unfold feature_enabled_ids in Hi. cbn [In] in Hi. lia. }
  destruct E as (id & fi & -> & ER & EN). cbn [bind]. rewrite ER. cbn [bind]. rewrite EN. destruct s as [x|items cap mut]; cbn [Inv] in H.
  - destruct H as (a & W & -> & <-). rewrite get_sso_ok by auto. reflexivity.
  - destruct H as (<- & [I _] & _). rewrite get_dyn_ok by auto. reflexivity.
Qed.
Lemma size_is s V : Inv s V -> get_size s = Z.of_nat (length V).
Proof.
  destruct s as [x|items cap mut]; cbn [Inv get_size]; [|intros (<- & _); reflexivity].
  intros (a & W & -> & <-). rewrite size_ok by auto. symmetry. apply content_len.
Qed.
Lemma taken_all cap (l : list item) n : n = Z.of_nat (length l) -> n <= cap -> taken n cap l = Ok l.
Proof.
  intros -> H. unfold taken. destruct (Z.ltb_spec cap (Z.of_nat (length l))); [lia|]. rewrite Z.ltb_irrefl. cbn [orb].
  rewrite Nat2Z.id. rewrite firstn_all. reflexivity.
Qed.
Lemma view_is s V : Inv s V -> get_view s = Ok V.
Proof.
  destruct s as [x|items cap mut]; cbn [Inv get_view]; [|intros (<- & _); reflexivity].
  intros (a & W & -> & <-). rewrite size_ok by auto. pose proof (content_len a) as L. pose proof (size_bound a W).
  destruct (Z.eqb_spec (size_of a) 0) as [E|E].
  - destruct (content a); [reflexivity|cbn [length] in L; lia].
  - rewrite convert_ok by auto. cbn [bind]. apply taken_all; lia.
Qed.

(* removing from the dynamic form, setting in the dynamic form *)
Lemma dyn_aset V t v : dyn_ok V -> 0 <= t < 2 ^ 32 -> is_valid_tag t = true -> 0 <= v <= 65535 -> dyn_ok (aset t v V).
Proof.
  intros [I F] Ht Hv Hx. split; [apply inc_aset; auto|]. apply Forall_forall. intros (k, w) H. rewrite Forall_forall in F.
  apply assoc_in in H; [|apply inc_aset; auto]. rewrite assoc_aset in H by auto. destruct (Z.eqb_spec k t) as [->|].
  - injection H as <-. cbn [fst snd]. auto.
  - apply assoc_in in H; auto.
Qed.
Lemma dyn_adel V t : dyn_ok V -> dyn_ok (adel t V).
Proof.
  intros [I F]. split; [apply inc_adel; auto|]. apply Forall_forall. intros (k, w) H. rewrite Forall_forall in F.
  apply assoc_in in H; [|apply inc_adel; auto]. rewrite assoc_adel in H by auto. destruct (Z.eqb_spec k t) as [->|]; [discriminate|].
  apply assoc_in in H; auto.
Qed.

Lemma set_dynamic_ok V cap mut t v mem : dyn_ok V -> Z.of_nat (length V) <= cap -> 0 <= t < 2 ^ 32 -> is_valid_tag t = true -> 0 <= v <= 65535 ->
  exists code s' old, set_dynamic V cap mut t v mem = Ok (code, s', old) /\ (mut = false -> old = V) /\
  ((code = SUCCESS /\ Inv s' (aset t v V)) \/ (code = OUT_OF_MEMORY /\ mem = false /\ s' = DYN V cap mut)).
Proof.
  intros D HC Ht Hv Hx. pose proof D as [I F]. pose proof (dyn_len V D) as DL. pose proof (dyn_aset V t v D Ht Hv Hx) as D'.
  unfold set_dynamic. rewrite lower_bound_pos by auto. cbn [bind]. rewrite lookup_dyn by auto. cbn [bind]. rewrite Nat2Z.id.
  pose proof (aset_pos t v V) as AP. pose proof (length_aset t v V) as AL. destruct (hit t V) eqn:H.
  - destruct (hit_rd _ _ I H) as (w & R & A & _). rewrite R. cbn [bind snd]. destruct (Z.eqb_spec w v) as [->|N].
    + do 3 eexists. split; [reflexivity|]. split; auto. left. split; auto. cbn [Inv]. rewrite aset_same by auto. auto.
    + rewrite <- AP. destruct mut.
      * do 3 eexists. split; [reflexivity|]. split; [discriminate|]. left. split; auto. cbn [Inv]. split; auto. split; auto. unfold item in *. lia.
      * destruct mem; do 3 eexists; (split; [reflexivity|]); (split; [auto|]).
        -- left. split; auto. cbn [Inv]. split; auto. split; auto. rewrite AL. apply cap_of_size; [lia|].
           rewrite impl_size by lia. change (2 ^ 64) with 18446744073709551616. unfold item in *. lia.
        -- right. auto.
  - rewrite Hv. cbn [negb]. rewrite <- AP. destruct (mut && (Z.of_nat (length V) <? cap)) eqn:G.
    + apply andb_prop in G as [-> G]. apply Z.ltb_lt in G. do 3 eexists. split; [reflexivity|]. split; [discriminate|]. left. split; auto.
      cbn [Inv]. split; auto. split; auto. rewrite AL. unfold item in *. lia.
    + assert (w64 (Z.of_nat (length V) + 1) = Z.of_nat (length V) + 1) as -> by (unfold w64; apply Z.mod_small; lia).
      destruct (expanded (Z.of_nat (length V) + 1)) as (r & -> & C); [lia|]. cbn [bind].
      destruct mem; [rewrite C|]; do 3 eexists; (split; [reflexivity|]); (split; [auto|]).
      * left. split; auto. cbn [Inv]. split; auto. split; auto. rewrite AL. apply Z.ltb_ge in C. unfold item in *. lia.
      * right. auto.
Qed.

Definition known_multi (t : Z) : Prop := In t feature_id_to_tag_table /\ ~ In t boolean_tags.

Lemma in_table t : In t feature_id_to_tag_table <-> exists id, 0 <= id < 241 /\ t = T id.
Proof.
  split.
  - intros H. apply In_nth with (d := 0) in H as (n & Hn & <-). exists (Z.of_nat n). pose proof T_len. unfold T. rewrite Nat2Z.id. split; [lia|auto].
  - intros (id & H & ->). unfold T. apply nth_In. pose proof T_len. lia.
Qed.
Lemma fat_tag id : fat_id id -> known_multi (T id).
Proof.
  intros F. pose proof (fat_range _ F). split; [apply in_table; exists id; auto|]. rewrite boolean_fact by auto. destruct F as [_ F]. congruence.
Qed.
Lemma valid_dec t v : 0 <= t < 2 ^ 32 -> is_valid_tag t = true -> v <= 65535 -> ~ bad_value t v.
Proof. intros Ht H Hv [N|N]; [apply N, valid_tag_exact; auto|lia]. Qed.
Lemma invalid_bad t v : 0 <= t < 2 ^ 32 -> is_valid_tag t = false -> bad_value t v.
Proof. intros Ht H. left. intros Q. apply valid_tag_exact in Q; auto. congruence. Qed.

Definition set_post (s : settings) (V : list item) (t v : Z) (mem : bool) (code : Z) (s' : settings) : Prop :=
  (code = SUCCESS /\ ~ bad_value t v /\ Inv s' (aset t v V)) \/
  (code = INVALID_VALUE /\ s' = s /\ (bad_value t v \/ not_boolean t v)) \/
  (code = OUT_OF_MEMORY /\ s' = s /\ mem = false /\ ~ bad_value t v).

Lemma set_value_ok s V t v mem : Inv s V -> 0 <= t < 2 ^ 32 -> 0 <= v < 2 ^ 32 -> ~ (known_multi t /\ 16 <= v <= 255) ->
  exists code s' old, set_value s t v mem = Ok (code, s', old) /\ set_post s V t v mem code s' /\
  (forall items cap, s = DYN items cap false -> old = items).
Proof.
  intros HI Ht Hv Hs. unfold set_value. destruct (Z.ltb_spec 65535 v) as [Q|Q].
  { do 3 eexists. split; [reflexivity|]. split; [|intros items cap ->; reflexivity]. right. left. split; auto. split; auto. left. right. lia. }
  destruct (feature_exact t) as (rid & ER & _). 
  destruct s as [x|items cap mut].
  2:{ rewrite ER. cbn [bind]. destruct HI as (<- & D & HC). destruct (is_valid_tag t) eqn:VT; cbn [negb].
      - destruct (set_dynamic_ok items cap mut t v mem D HC Ht VT ltac:(lia)) as (code & s' & old & E & O & P). exists code, s', old. split; auto. split.
        + pose proof (valid_dec t v Ht VT Q). destruct P as [[-> P]|(-> & -> & ->)]; [left; auto|right; right; auto].
        + intros items' cap' E'. injection E' as -> -> ->. auto.
      - do 3 eexists. split; [reflexivity|]. split; [|intros items' cap' E'; injection E' as -> -> ->; reflexivity]. right. left. split; auto. split; auto. left. apply invalid_bad; auto. }
  destruct HI as (a & W & -> & <-).
  assert (NS : forall old items cap, SSO (encode a) = DYN items cap false -> old = items) by discriminate.
  assert (GROW : is_valid_tag t = true ->
    exists code s' old, (let impl_size := align_up 64 (impl_size_from_capacity (Z.max (get_sso_size (encode a) + 1) 4)) 64 in
        if mem then
          let cap := capacity_from_impl_size impl_size in
          let* out := convert_sso_to_items (encode a) in
          let* items := taken (get_sso_size (encode a)) cap out in
          let* (code, self', _) := set_dynamic items cap true t v mem in
          Ok (code, self', [])
        else Ok (BL_ERROR_OUT_OF_MEMORY, SSO (encode a), [])) = Ok (code, s', old) /\ set_post (SSO (encode a)) (content a) t v mem code s' /\
    (forall items cap, SSO (encode a) = DYN items cap false -> old = items)).
  { intros VT. pose proof (valid_dec t v Ht VT Q) as NB. cbv zeta. destruct mem.
    - rewrite convert_ok, size_ok by auto. cbn [bind]. pose proof (size_bound a W) as SB. pose proof (content_len a) as CL.
      pose proof (first_cap (size_of a) SB) as FC. set (cap := capacity_from_impl_size _) in *.
      rewrite taken_all by lia. cbn [bind].
      destruct (set_dynamic_ok (content a) cap true t v true (dyn_of_content a W) ltac:(lia) Ht VT ltac:(lia)) as (code & s' & old & E & _ & P).
      rewrite E. cbn [bind]. exists code, s', []. split; auto. split; [|apply NS]. destruct P as [[-> P]|(_ & P & _)]; [left; auto|discriminate].
    - do 3 eexists. split; [reflexivity|]. split; [|apply NS]. right. right. auto. }
  cbv zeta in *. destruct (id_cases t) as [(id & Hid & -> & E)|[E N]]; rewrite E; cbn [bind].
  - destruct (T_valid id Hid) as [_ VT]. specialize (GROW VT). pose proof (valid_dec _ v Ht VT Q) as NB.
    rewrite id_valid by auto. cbn [negb]. rewrite info_rd by lia. cbn [bind]. destruct (has_bit_id (feature_info_at id)) eqn:HB.
    + destruct (bit_fact id Hid HB) as [Hi R]. set (i := fi_bit_id (feature_info_at id)) in *. destruct (Z.ltb_spec 1 v) as [V|V].
      { do 3 eexists. split; [reflexivity|]. split; [|apply NS]. right. left. split; auto. split; auto. right. split; [apply boolean_fact; auto|lia]. }
      rewrite has_bit_ok by lia.
      assert (P : set_post (SSO (encode a)) (content a) (T id) v mem SUCCESS (SSO (encode (set_bit_tag a i v)))).
      { left. split; auto. split; auto. exists (set_bit_tag a i v). split; [apply wf_set_bit; auto; lia|]. split; auto. rewrite <- R. apply content_set_bit; auto. lia. }
      destruct (Z.testbit (bset a) i) eqn:TB.
      * rewrite update_bit_ok by (auto; lia). do 3 eexists. split; [reflexivity|]. split; [exact P|apply NS].
      * rewrite add_bit_ok by (auto; lia). do 3 eexists. split; [reflexivity|]. split; [exact P|apply NS].
    + assert (F : fat_id id) by (split; auto). unfold kSSOFatFeatureTagBitMask. destruct (Z.leb_spec v 255) as [V|V]; [|exact GROW].
      assert (V16 : v < 16) by (destruct (Z.lt_ge_cases v 16); auto; exfalso; apply Hs; split; [apply fat_tag; auto|lia]).
      rewrite find_ok by (auto; lia).
      assert (P : wf (with_fats a (aset id v (fats a))) -> set_post (SSO (encode a)) (content a) (T id) v mem SUCCESS (SSO (encode (with_fats a (aset id v (fats a)))))).
      { intros W'. left. split; auto. split; auto. exists (with_fats a (aset id v (fats a))). split; auto. split; auto. apply content_set_fat; auto. }
      destruct (hit id (fats a)) eqn:H.
      * rewrite update_fat_ok by (auto; lia). do 3 eexists. split; [reflexivity|]. split; [apply P, wf_aset; auto; lia|apply NS].
      * rewrite can_insert_ok by auto. destruct (Nat.ltb_spec (length (fats a)) 4) as [L|L]; [|exact GROW].
        rewrite add_fat_ok by (auto; lia). do 3 eexists. split; [reflexivity|]. split; [apply P, wf_aset; auto; lia|apply NS].
  - rewrite Z.eqb_refl. cbn [negb]. destruct (is_valid_tag t) eqn:VT; cbn [negb]; [exact (GROW eq_refl)|].
    do 3 eexists. split; [reflexivity|]. split; [|apply NS]. right. left. split; auto. split; auto. left. apply invalid_bad; auto.
Qed.

(* Removal from the SSO form is right unless another multi-valued feature with a smaller tag is set and one with a
   greater tag has a value other than 0. *)
Definition removable (m : fmap) (t : Z) : Prop :=
  known_multi t -> forall a b v, known_multi a -> known_multi b -> a < t < b -> m a <> None -> m b = Some v -> v = 0.

Lemma zero_head_same l : (forall y v r, l = (y, v) :: r -> v = 0) -> zero_head l = l.
Proof. destruct l as [|(y, v) r]; intros H; auto. cbn. rewrite (H y v r); auto. Qed.

Lemma T_lt i j : 0 <= i < 241 -> 0 <= j < 241 -> i < j -> T i < T j.
Proof. intros. apply T_mono; lia. Qed.

Lemma fat_del_same a id : wf a -> fat_id id -> hit id (fats a) = true -> removable (fun t => assoc t (content a)) (T id) ->
  fat_del id (fats a) = adel id (fats a).
Proof.
  intros W F H R. rewrite adel_pos, H. unfold fat_del. f_equal. destruct (Nat.eqb_spec (pos id (fats a)) 0) as [E|E]; auto.
  apply zero_head_same. intros y v r Q.
  assert (Hy : nth_error (fats a) (S (pos id (fats a))) = Some (y, v)).
  { rewrite <- (Nat.add_0_r (S _)). rewrite <- nth_skip. rewrite Q. reflexivity. }
  destruct (nth_error (fats a) 0) as [(x, w)|] eqn:Hx.
  2:{ destruct (fats a); [|discriminate]. cbn in E. lia. }
  pose proof (wf_fat _ W) as G. rewrite Forall_forall in G.
  destruct (G _ (nth_error_In _ _ Hy)) as [Fy _]. destruct (G _ (nth_error_In _ _ Hx)) as [Fx _]. cbn [fst] in Fx, Fy.
  assert (Lx : x < id) by (apply (nth_pos_lt id (fats a) 0 (x, w)); [lia|auto]).
  assert (Ly : id < y).
  { assert (id <= y) by (apply (nth_pos_ge id (fats a) (S (pos id (fats a))) (y, v)); [apply wf_inc; auto|lia|auto]).
    assert (id <> y); [|lia]. intros ->. destruct (hit_split _ _ H) as (u & _ & Eu). pose proof (wf_inc _ W) as J.
    pose proof (inc_nth (keys (fats a)) J (pos y (fats a)) (S (pos y (fats a)))) as M.
    rewrite (nth_error_nth (keys (fats a)) _ 0 (map_nth_error fst _ _ Eu)) in M.
    rewrite (nth_error_nth (keys (fats a)) _ 0 (map_nth_error fst _ _ Hy)) in M. cbn [fst] in M.
    assert (S (pos y (fats a)) < length (keys (fats a)))%nat; [|specialize (M ltac:(lia)); lia]. rewrite map_length. apply nth_error_Some. unfold item in *. rewrite Hy. discriminate. }
  pose proof (fat_range _ F). pose proof (fat_range _ Fx). pose proof (fat_range _ Fy).
  apply (R (fat_tag _ F) (T x) (T y) v (fat_tag _ Fx) (fat_tag _ Fy)).
  - split; apply T_lt; auto.
  - rewrite look, look_fat by auto. apply nth_error_In in Hx. apply assoc_in in Hx; [|apply wf_inc; auto]. rewrite Hx. discriminate.
  - rewrite look, look_fat by auto. apply nth_error_In in Hy. apply assoc_in in Hy; auto. apply wf_inc; auto.
Qed.

Lemma remove_value_ok s V t mem : Inv s V -> removable (fun t => assoc t V) t ->
  exists code s' old, remove_value s t mem = Ok (code, s', old) /\
  ((code = SUCCESS /\ Inv s' (adel t V)) \/ (code = OUT_OF_MEMORY /\ mem = false /\ s' = s)) /\
  (forall items cap, s = DYN items cap false -> old = items).
Proof.
  intros HI R. unfold remove_value. destruct s as [x|items cap mut].
  - destruct HI as (a & W & -> & <-).
    assert (NS : forall old items cap, SSO (encode a) = DYN items cap false -> old = items) by discriminate.
    assert (SAME : assoc t (content a) = None -> Inv (SSO (encode a)) (adel t (content a))).
    { intros N. exists a. rewrite adel_none; auto. apply content_inc; auto. }
    destruct (id_cases t) as [(id & Hid & -> & ->)|[-> N]]; cbn [bind].
    + rewrite id_valid, info_rd by lia. cbn [bind]. destruct (has_bit_id (feature_info_at id)) eqn:HB.
      * destruct (bit_fact id Hid HB) as [Hi Q]. set (i := fi_bit_id (feature_info_at id)) in *. rewrite has_bit_ok by lia.
        destruct (Z.testbit (bset a) i) eqn:TB; do 3 eexists; (split; [reflexivity|]); (split; [|apply NS]); left; (split; [auto|]).
        -- rewrite remove_bit_ok by auto. exists (del_bit_tag a i). split; [apply wf_del_bit; auto|]. split; auto. rewrite <- Q. apply content_del_bit; auto.
        -- apply SAME. rewrite look by auto. rewrite <- Q. rewrite look_bit, TB by auto. reflexivity.
      * assert (F : fat_id id) by (split; auto). rewrite find_ok by (auto; lia).
        destruct (hit id (fats a)) eqn:H; do 3 eexists; (split; [reflexivity|]); (split; [|apply NS]); left; (split; [auto|]).
        -- rewrite remove_fat_ok by auto. pose proof (wf_fat_del a id W H) as W'. exists (with_fats a (fat_del id (fats a))). split; auto. split; auto.
           rewrite fat_del_same in * by auto.
           apply assoc_ext; [apply content_inc; auto|apply inc_adel, content_inc; auto|]. intros u. rewrite assoc_adel by (apply content_inc; auto).
           destruct (Z.eqb_spec u (T id)) as [->|Nu].
           ++ rewrite look, look_fat by auto. cbn [fats with_fats]. rewrite assoc_adel by (apply wf_inc; auto). rewrite Z.eqb_refl. reflexivity.
           ++ apply content_fats with id; auto. intros k Hk. rewrite assoc_adel by (apply wf_inc; auto). destruct (Z.eqb_spec k id); [lia|reflexivity].
        -- apply SAME. rewrite hit_content in H by auto. destruct (assoc (T id) (content a)); [discriminate|reflexivity].
    + rewrite Z.eqb_refl. do 3 eexists. split; [reflexivity|]. split; [|apply NS]. left. split; auto. apply SAME, look_unknown; auto.
  - destruct HI as (<- & D & HC). pose proof D as [I F]. pose proof (dyn_len items D) as DL. pose proof (dyn_adel items t D) as D'.
    rewrite lower_bound_pos by auto. cbn [bind]. rewrite lookup_dyn by auto. cbn [bind]. rewrite Nat2Z.id.
    pose proof (adel_pos t items) as AP. pose proof (length_adel t items) as AL. destruct (hit t items) eqn:H; cbn [negb].
    + destruct (hit_split _ _ H) as (v & _ & En). assert (LP : (pos t items < length items)%nat) by (apply nth_error_Some; rewrite En; discriminate).
      rewrite <- AP. destruct mut.
      * do 3 eexists. split; [reflexivity|]. split; [|discriminate]. left. split; auto. cbn [Inv]. split; auto. split; auto. unfold item in *. lia.
      * destruct (expanded (Z.of_nat (length items) - 1)) as (r & -> & C); [lia|]. cbn [bind].
        destruct mem; [rewrite C|]; do 3 eexists; (split; [reflexivity|]); (split; [|intros items' cap' E'; injection E' as -> ->; reflexivity]).
        -- left. split; auto. cbn [Inv]. split; auto. split; auto. apply Z.ltb_ge in C. unfold item in *. lia.
        -- right. auto.
    + do 3 eexists. split; [reflexivity|]. split; [|intros items' cap' E'; injection E' as -> -> ->; reflexivity]. left. split; auto.
      rewrite AP. split; auto.
Qed.

Lemma nonneg_values V : dyn_ok V -> Forall (fun it : item => 0 <= snd it) V.
Proof. intros [_ F]. eapply Forall_impl; [|exact F]. cbv beta. intros it H. lia. Qed.

Lemma shrink_ok s V mem : Inv s V -> exists code s', shrink s mem = Ok (code, s') /\ Inv s' V /\ (code = SUCCESS \/ (code = OUT_OF_MEMORY /\ mem = false /\ s' = s)).
Proof.
  intros HI. destruct s as [x|items cap mut]; cbn [shrink]; [do 2 eexists; split; [reflexivity|]; auto|].
  destruct HI as (<- & D & HC). pose proof (dyn_len items D) as DL.
  assert (E : (exists a, (if Z.of_nat (length items) <=? kSSOCapacity then convert_items_to_sso items else Ok None) = Ok (Some (encode a)) /\ wf a /\ content a = items) \/
              (if Z.of_nat (length items) <=? kSSOCapacity then convert_items_to_sso items else Ok None) = Ok None).
  { unfold kSSOCapacity. destruct (Z.leb_spec (Z.of_nat (length items)) 36); auto.
    destruct (convert_items_ok items) as [H'|[H' _]]; auto; [apply D|apply nonneg_values; auto|unfold item in *; lia]. }
  destruct E as [(a & -> & W & C)| ->]; cbn [bind].
  - do 2 eexists. split; [reflexivity|]. split; auto. exists a. auto.
  - match goal with |- context [if ?b then _ else _] => destruct b end.
    + do 2 eexists. split; [reflexivity|]. split; auto. cbn [Inv]. auto.
    + destruct mem; do 2 eexists; (split; [reflexivity|]).
      * split; auto. cbn [Inv]. split; auto. split; auto. apply cap_of_size; [lia|]. rewrite impl_size by lia. change (2 ^ 64) with 18446744073709551616. lia.
      * split; [cbn [Inv]; auto|]. right. auto.
Qed.

Lemma clear_ok s V : Inv s V -> Inv (clear s) [].
Proof.
  assert (E : Inv (SSO init_sso) []) by (exists abs0; split; [apply wf_abs0|split; [apply init_ok|apply content_abs0]]).
  destruct s as [x|items cap mut]; intros H; cbn [clear]; auto. destruct mut; auto. destruct H as (_ & _ & HC). cbn [Inv]. split; auto. split; [split; [exact I|constructor]|].
  cbn [length]. lia.
Qed.

(* equality *)
Lemma items_eqb_ok a : forall b, items_eqb a b = true <-> a = b.
Proof.
  induction a as [|(t, v) a IH]; intros [|(u, w) b]; cbn; try (split; [discriminate|discriminate]); [tauto|].
  rewrite !andb_true_iff, !Z.eqb_eq, IH. split; [intros [[-> ->] ->]; auto|intros E; injection E as -> -> ->; auto].
Qed.
Lemma sso_eqb_ok x y : sso_eqb x y = true <-> x = y.
Proof.
  destruct x as [x0 x1 x2 x3], y as [y0 y1 y2 y3]. unfold sso_eqb. cbn [d0 d1 d2 info]. rewrite !andb_true_iff, !Z.eqb_eq.
  split; [intros [[[-> ->] ->] ->]; auto|intros E; injection E as -> -> -> ->; auto].
Qed.
Lemma encode_content a b : wf a -> wf b -> encode a = encode b <-> content a = content b.
Proof.
  intros Wa Wb. split.
  - intros E. pose proof (convert_ok a Wa) as Ca. rewrite E, convert_ok in Ca by auto. congruence.
  - intros E. rewrite (abs_ext a b); auto.
Qed.
Lemma mixed_ok a items : wf a -> dyn_ok items -> exists r,
  (if get_sso_size (encode a) =? Z.of_nat (length items) then let* c := convert_items_to_sso items in match c with Some t => Ok (sso_eqb (encode a) t) | None => Ok false end else Ok false) = Ok r /\
  (r = true <-> content a = items).
Proof.
  intros W D. rewrite size_ok by auto. rewrite <- content_len. pose proof (size_bound a W) as SB. rewrite <- content_len in SB.
  destruct (Z.eqb_spec (Z.of_nat (length (content a))) (Z.of_nat (length items))) as [E|E].
  - destruct (convert_items_ok items) as [(b & -> & Wb & Cb)|[-> N]]; [apply D|apply nonneg_values; auto|unfold item in *; lia| |]; cbn [bind].
    + eexists. split; [reflexivity|]. rewrite sso_eqb_ok, encode_content by auto. rewrite Cb. tauto.
    + eexists. split; [reflexivity|]. split; [discriminate|]. intros Q. exfalso. apply (N a); auto.
  - eexists. split; [reflexivity|]. split; [discriminate|]. intros <-. lia.
Qed.
Lemma equals_ok s V s' V' : Inv s V -> Inv s' V' -> exists r, equals s s' = Ok r /\ (r = true <-> V = V').
Proof.
  destruct s as [x|items cap mut], s' as [x'|items' cap' mut']; cbn [Inv equals].
  - intros (a & W & -> & <-) (b & Wb & -> & <-). eexists. split; [reflexivity|]. rewrite sso_eqb_ok. apply encode_content; auto.
  - intros (a & W & -> & <-) (<- & D & _). apply mixed_ok; auto.
  - intros (<- & D & _) (a & W & -> & <-). destruct (mixed_ok a items W D) as (r & E & Q). exists r. split; auto. rewrite Q. split; auto.
  - intros (<- & _) (<- & _). eexists. split; [reflexivity|]. apply items_eqb_ok.
Qed.

(* has_value *)
Lemma has_value_ok s V t : Inv s V -> (known_multi t -> match s with DYN _ _ _ => True | SSO _ => False end) ->
  has_value s t = Ok (match assoc t V with Some _ => true | None => false end).
Proof.
  intros HI K. destruct s as [x|items cap mut]; cbn [has_value].
  - destruct HI as (a & W & -> & <-). destruct (id_cases t) as [(id & Hid & -> & ->)|[-> N]]; cbn [bind].
    + rewrite id_valid, info_rd by lia. cbn [bind]. destruct (has_bit_id (feature_info_at id)) eqn:HB.
      * destruct (bit_fact id Hid HB) as [Hi R]. rewrite has_bit_ok by lia. rewrite look by auto. pose proof (look_bit a _ W Hi) as LB. rewrite R in LB. rewrite LB.
        destruct (Z.testbit (bset a) (fi_bit_id (feature_info_at id))); reflexivity.
      * exfalso. apply K, fat_tag. split; auto.
    + rewrite Z.eqb_refl, look_unknown by auto. reflexivity.
  - destruct HI as (<- & [I _] & _). rewrite lower_bound_pos by auto. cbn [bind]. rewrite lookup_dyn by auto. rewrite hit_is by auto. reflexivity.
Qed.
