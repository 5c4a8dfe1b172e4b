(* C70 - C74: BLFontFeatureSettings. *)
From Verif Require Import Base Object_Model TagData_Model TagData_Spec TagData_Proofs FontFeature_Model FontFeature_Spec FontFeature_Exec
  FontFeature_Proofs2 FontFeature_Proofs5 FontFeature_Proofs7 FontFeature_Proofs8 FontFeature_Proofs9.
Ltac Zify.zify_post_hook ::= idtac.

Definition t_aalt := tag4 97 97 108 116.
Definition t_salt := tag4 115 97 108 116.
Definition t_ss01 := tag4 115 115 48 49.
Definition t_swsh := tag4 115 119 115 104.
Definition t_kern := tag4 107 101 114 110.
Definition t_cv42 := tag4 99 118 52 50.
Definition t_zzzz := tag4 122 122 122 122.

(* C70.  The settings are a map from tags to values.  Full statement: the conclusion below for
   [reach (fun _ _ => True)], that is, after any calls.  That is refuted; what is missing are the calls that [safe]
   excludes: storing 16..255 in a multi-valued feature, and the removals of C71. *)
Theorem C70_feature_map_partial : forall s m, reach (safe feature_id_to_tag_table) s m ->
  (forall t, get_value s t = Ok (value_of m t)) /\
  (forall t, exists b, is_feature_enabled_for_plan s t = Ok b /\ (b = true <-> in_use m t)) /\
  (forall o, words o -> safe feature_id_to_tag_table m o ->
     exists code s', exec s o = Ok (code, s') /\ code_ok o code /\ reach (safe feature_id_to_tag_table) s' (next m o code)).
Proof.
  intros s m R. destruct (reach_agrees s m R) as (V & HI & HM). split; [|split].
  - intros t. rewrite (get_value_ok s V t HI). unfold value_of. rewrite HM. reflexivity.
  - intros t. rewrite (plan_ok s V t HI). eexists. split; [reflexivity|]. rewrite Z.ltb_lt. unfold in_use. rewrite HM.
    destruct (assoc t V); [tauto|]. change default_tags with (map T feature_enabled_ids).
    destruct (existsb (Z.eqb t) (map T feature_enabled_ids)) eqn:E.
    + cbn [Z.b2z]. apply existsb_exists in E as (x & Hx & E). apply Z.eqb_eq in E. subst x. split; [auto|lia].
    + cbn [Z.b2z]. split; [lia|]. intros Q. exfalso. assert (C : existsb (Z.eqb t) (map T feature_enabled_ids) = true); [|congruence].
      apply existsb_exists. exists t. split; auto. apply Z.eqb_refl.
  - intros o W G. destruct (step s m o (reach_agrees s m R) W G) as (code & s' & E & C & _). exists code, s'. split; auto. split; auto.
    eapply reach_step; eauto.
Qed.
Print Assumptions C70_feature_map_partial.

(* A shared object is not changed by a call on one of the sharers. *)
Theorem C70_sharers_partial : forall items cap m t v mem, reach (safe feature_id_to_tag_table) (DYN items cap false) m ->
  0 <= t < 2 ^ 32 -> 0 <= v < 2 ^ 32 -> safe feature_id_to_tag_table m (Set_value t v mem) -> safe feature_id_to_tag_table m (Remove_value t mem) ->
  (exists code s', set_value (DYN items cap false) t v mem = Ok (code, s', items)) /\
  (exists code s', remove_value (DYN items cap false) t mem = Ok (code, s', items)).
Proof.
  intros items cap m t v mem R Ht Hv S1 S2. destruct (reach_agrees _ m R) as (V & HI & HM). split.
  - destruct (set_value_ok _ V t v mem HI Ht Hv S1) as (code & s' & old & E & _ & O). exists code, s'. rewrite E, (O items cap eq_refl). reflexivity.
  - assert (RM : removable (fun t => assoc t V) t).
    { intros K a b w Ka Kb L N E. apply (S2 K a b w Ka Kb L); rewrite HM; auto. }
    destruct (remove_value_ok _ V t mem HI RM) as (code & s' & old & E & _ & O). exists code, s'. rewrite E, (O items cap eq_refl). reflexivity.
Qed.
Print Assumptions C70_sharers_partial.

(* A successful set_value of a documented value is not read back. *)
Theorem C70_set_value_refuted : exists t v s, valid_tag t /\ 0 <= v <= 65535 /\ ~ In t boolean_tags /\
  run (SSO init_sso) [Set_value t v true] = Ok ([SUCCESS], s) /\ get_value s t = Ok 0 /\ v <> 0.
Proof.
  exists t_salt, 16. eexists. split; [apply valid_tag_exact; [vm_compute; split; congruence|vm_compute; reflexivity]|]. split; [lia|].
  split; [vm_compute; intuition discriminate|]. split; [vm_compute; reflexivity|]. split; [vm_compute; reflexivity|lia].
Qed.
Print Assumptions C70_set_value_refuted.

(* It can change the value of another feature. *)
Theorem C70_other_value_refuted : exists t u s, t <> u /\
  run (SSO init_sso) [Set_value u 2 true; Set_value t 16 true] = Ok ([SUCCESS; SUCCESS], s) /\ get_value s u = Ok 3.
Proof. exists t_aalt, t_salt. eexists. split; [discriminate|]. split; vm_compute; reflexivity. Qed.
Print Assumptions C70_other_value_refuted.

(* It can change the size, and then get_view returns an item that was never written. *)
Theorem C70_size_refuted : exists os s, run (SSO init_sso) os = Ok (repeat SUCCESS 5, s) /\
  Forall words os /\ get_size s = 5 /\ get_view s = UB.
Proof.
  exists [Set_value t_aalt 1 true; Set_value t_salt 1 true; Set_value t_ss01 1 true; Set_value t_swsh 1 true; Set_value t_swsh 16 true].
  eexists. split; [vm_compute; reflexivity|]. split; [|split; vm_compute; reflexivity].
  repeat constructor; vm_compute; congruence.
Qed.
Print Assumptions C70_size_refuted.

(* C71.  remove_value removes the tag and nothing else: the full statement, for every state a user can reach and
   every tag, is refuted; the exception is what [safe] says about Remove_value. *)
Theorem C71_remove_partial : forall s m t mem, reach (safe feature_id_to_tag_table) s m -> 0 <= t < 2 ^ 32 ->
  safe feature_id_to_tag_table m (Remove_value t mem) ->
  exists code s', exec s (Remove_value t mem) = Ok (code, s') /\
  ((code = SUCCESS /\ forall u, get_value s' u = Ok (if u =? t then NOT_SET else value_of m u)) \/
   (code = OUT_OF_MEMORY /\ mem = false /\ forall u, get_value s' u = Ok (value_of m u))).
Proof.
  intros s m t mem R Ht G. destruct (step s m (Remove_value t mem) (reach_agrees s m R) Ht G) as (code & s' & E & C & (V & HI & HM)).
  exists code, s'. split; auto. cbn [code_ok] in C. destruct C as [->|[-> ->]].
  - left. split; auto. intros u. rewrite (get_value_ok s' V u HI). rewrite <- HM. change (next m (Remove_value t mem) SUCCESS u) with (del m t u).
    unfold del, value_of. destruct (u =? t); reflexivity.
  - right. split; auto. split; auto. intros u. rewrite (get_value_ok s' V u HI). rewrite <- HM. reflexivity.
Qed.
Print Assumptions C71_remove_partial.

Theorem C71_remove_refuted : exists s s' t u, t <> u /\
  run (SSO init_sso) [Set_value t_aalt 1 true; Set_value t 2 true; Set_value u 3 true] = Ok ([SUCCESS; SUCCESS; SUCCESS], s) /\
  get_value s u = Ok 3 /\ exec s (Remove_value t true) = Ok (SUCCESS, s') /\ get_value s' u = Ok 0.
Proof. do 2 eexists. exists t_salt, t_ss01. split; [discriminate|]. split; [vm_compute; reflexivity|]. split; [vm_compute; reflexivity|]. split; vm_compute; reflexivity. Qed.
Print Assumptions C71_remove_refuted.

(* C72.  has_value(t) iff t is set.  Full statement: without the hypothesis on t; refuted below. *)
Definition is_dynamic (s : settings) : Prop := match s with DYN _ _ _ => True | SSO _ => False end.
Theorem C72_has_value_partial : forall s m t, reach (safe feature_id_to_tag_table) s m ->
  (~ multi feature_id_to_tag_table t \/ is_dynamic s) ->
  exists b, has_value s t = Ok b /\ (b = true <-> m t <> None).
Proof.
  intros s m t R H. destruct (reach_agrees s m R) as (V & HI & HM). rewrite (has_value_ok s V t HI).
  - eexists. split; [reflexivity|]. rewrite HM. destruct (assoc t V); split; congruence.
  - intros K. destruct H as [H|H]; [contradiction|]. destruct s; auto.
Qed.
Print Assumptions C72_has_value_partial.

Theorem C72_has_value_refuted : exists t u s,
  run (SSO init_sso) [Set_value t 1 true] = Ok ([SUCCESS], s) /\ get_value s t = Ok 1 /\ has_value s t = Ok false /\
  exists s2, run (SSO init_sso) [Set_value t_cv42 1 true] = Ok ([SUCCESS], s2) /\ get_value s2 u = Ok NOT_SET /\ has_value s2 u = Ok true.
Proof.
  exists t_salt, t_aalt. eexists. split; [vm_compute; reflexivity|]. split; [vm_compute; reflexivity|]. split; [vm_compute; reflexivity|].
  eexists. split; [vm_compute; reflexivity|]. split; vm_compute; reflexivity.
Qed.
Print Assumptions C72_has_value_refuted.

(* C73.  The view lists exactly the settings, sorted by tag; size is their number; equality compares the settings,
   whichever way they are stored; shrink changes neither.  (Full statement: after any calls, false by C70.) *)
Theorem C73_view_partial : forall s m, reach (safe feature_id_to_tag_table) s m ->
  exists V, get_view s = Ok V /\ lists m V /\ get_size s = Z.of_nat (length V).
Proof.
  intros s m R. destruct (reach_agrees s m R) as (V & HI & HM). exists V. split; [apply view_is; auto|]. split; [apply inv_lists with s; auto|apply size_is; auto].
Qed.
Print Assumptions C73_view_partial.

Theorem C73_equals_partial : forall s m s' m', reach (safe feature_id_to_tag_table) s m -> reach (safe feature_id_to_tag_table) s' m' ->
  exists b, equals s s' = Ok b /\ (b = true <-> forall t, m t = m' t).
Proof.
  intros s m s' m' R R'. destruct (reach_agrees s m R) as (V & HI & HM). destruct (reach_agrees s' m' R') as (V' & HI' & HM').
  destruct (equals_ok s V s' V' HI HI') as (b & E & Q). exists b. split; auto. rewrite Q. split.
  - intros -> t. rewrite HM, HM'. reflexivity.
  - intros H. destruct (inv_ok _ _ HI) as [I _]. destruct (inv_ok _ _ HI') as [I' _]. apply assoc_ext; auto. intros k. rewrite <- HM, <- HM'. auto.
Qed.
Print Assumptions C73_equals_partial.

Theorem C73_shrink_partial : forall s m mem, reach (safe feature_id_to_tag_table) s m ->
  exists code s', shrink s mem = Ok (code, s') /\ (mem = true -> code = SUCCESS) /\ equals s s' = Ok true /\ equals s' s = Ok true /\
  (forall t, get_value s' t = Ok (value_of m t)).
Proof.
  intros s m mem R. destruct (reach_agrees s m R) as (V & HI & HM). destruct (shrink_ok s V mem HI) as (code & s' & E & HI' & C). exists code, s'. split; auto.
  split; [destruct C as [->|(_ & -> & _)]; auto; discriminate|].
  destruct (equals_ok s V s' V HI HI') as (b & E1 & Q1). destruct (equals_ok s' V s V HI' HI) as (c & E2 & Q2).
  assert (b = true) as -> by (apply Q1; auto). assert (c = true) as -> by (apply Q2; auto). split; auto. split; auto.
  intros t. rewrite (get_value_ok s' V t HI'). unfold value_of. rewrite HM. reflexivity.
Qed.
Print Assumptions C73_shrink_partial.

(* C74.  A value above 1 for a boolean tag is refused.  Full statement: for every reachable object; refuted for an
   object in dynamic form. *)
Theorem C74_boolean_partial : forall x m t v mem, reach (safe feature_id_to_tag_table) (SSO x) m ->
  In t boolean_tags -> 1 < v < 2 ^ 32 -> exec (SSO x) (Set_value t v mem) = Ok (INVALID_VALUE, SSO x).
Proof.
  intros x m t v mem R B Hv. destruct (boolean_known t B) as (id & Hid & ->). pose proof (proj1 (boolean_fact id Hid) B) as HB.
  cbn [exec]. unfold set_value. destruct (Z.ltb_spec 65535 v); [reflexivity|].
  rewrite T_to_id by auto. cbn [bind]. rewrite id_valid by auto. cbn [negb]. rewrite info_rd by lia. cbn [bind]. rewrite HB.
  destruct (Z.ltb_spec 1 v); [reflexivity|lia].
Qed.
Print Assumptions C74_boolean_partial.

Theorem C74_boolean_refuted : exists s s', In t_kern boolean_tags /\
  run (SSO init_sso) [Set_value t_zzzz 1 true] = Ok ([SUCCESS], s) /\ exec s (Set_value t_kern 2 true) = Ok (SUCCESS, s') /\ get_value s' t_kern = Ok 2.
Proof.
  do 2 eexists. split; [vm_compute; tauto|]. split; [vm_compute; reflexivity|]. split; vm_compute; reflexivity.
Qed.
Print Assumptions C74_boolean_refuted.

(* Examples: states and calls that meet the hypotheses. *)
Definition ops_ex : list op := [Set_value t_kern 1 true; Set_value t_salt 3 true; Set_value t_aalt 2 true; Remove_value t_kern true; Set_value t_zzzz 700 true].

Lemma run_reach ok : forall os s m cs s', reach ok s m -> run s os = Ok (cs, s') -> Forall words os -> (forall m o, In o os -> ok m o) -> exists m', reach ok s' m'.
Proof.
  induction os as [|o os IH]; intros s m cs s' R E W G; cbn [run] in E.
  - injection E as <- <-. eauto.
  - destruct (exec s o) as [(c, s1)| | |] eqn:E1; try discriminate. cbn [bind] in E. destruct (run s1 os) as [(cs1, s2)| | |] eqn:E2; try discriminate. cbn [bind] in E.
    injection E as <- <-. inversion W; subst. apply (IH s1 (next m o c) cs1 s2); auto; [|intros m0 o0 H; apply G; right; auto].
    eapply reach_step; eauto. apply G. left. auto.
Qed.

Example C70_ex_run : exists s, run (SSO init_sso) ops_ex = Ok (repeat SUCCESS 5, s) /\
  get_value s t_salt = Ok 3 /\ get_value s t_kern = Ok NOT_SET /\ get_value s t_zzzz = Ok 700 /\ get_size s = 3 /\ (exists m, reach (safe feature_id_to_tag_table) s m).
Proof.
  destruct (run (SSO init_sso) ops_ex) as [(cs, s)| | |] eqn:E; try (vm_compute in E; discriminate). exists s.
  assert (X : run (SSO init_sso) ops_ex = Ok (cs, s)) by exact E.
  vm_compute in E. injection E as <- <-. split; [reflexivity|]. split; [vm_compute; reflexivity|]. split; [vm_compute; reflexivity|]. split; [vm_compute; reflexivity|]. split; [reflexivity|].
  eapply run_reach; [apply reach_init|exact X|repeat constructor; vm_compute; congruence|].
  intros m o H. unfold ops_ex in H. cbn [In] in H. destruct H as [<-|[<-|[<-|[<-|[<-|[]]]]]]; cbn [safe]; try lia.
  intros [_ N]. exfalso. apply N. vm_compute. tauto.
Qed.
Example C71_ex_remove : safe feature_id_to_tag_table (put (put empty t_salt 3) t_aalt 2) (Remove_value t_salt true).
Proof.
  cbn [safe]. intros _ a b v _ _ [A B] _ E. unfold put, empty in E. destruct (Z.eqb_spec b t_aalt) as [->|]; [vm_compute in B; discriminate|].
  destruct (Z.eqb_spec b t_salt) as [->|]; [lia|discriminate].
Qed.
Example C72_ex_kern : exists s, run (SSO init_sso) [Set_value t_kern 0 true] = Ok ([SUCCESS], s) /\ has_value s t_kern = Ok true /\ has_value s t_zzzz = Ok false.
Proof. eexists. split; [vm_compute; reflexivity|]. split; vm_compute; reflexivity. Qed.
Example C73_ex_mixed : exists s s', run (SSO init_sso) [Set_value t_zzzz 1 true; Set_value t_kern 1 true; Set_value t_salt 7 true; Remove_value t_zzzz true] = Ok (repeat SUCCESS 4, s) /\
  is_dynamic s /\ shrink s true = Ok (SUCCESS, s') /\ ~ is_dynamic s' /\ equals s s' = Ok true /\ get_view s' = Ok [(t_kern, 1); (t_salt, 7)].
Proof.
  do 2 eexists. split; [vm_compute; reflexivity|]. split; [exact I|]. split; [vm_compute; reflexivity|]. split; [intros []|]. split; vm_compute; reflexivity.
Qed.
Example C74_ex_kern : exec (SSO init_sso) (Set_value t_kern 2 true) = Ok (INVALID_VALUE, SSO init_sso).
Proof. vm_compute. reflexivity. Qed.
