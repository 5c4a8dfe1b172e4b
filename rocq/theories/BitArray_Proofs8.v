(* Programs over any number of arrays refine programs over lists of booleans. *)
From Verif Require Import Base Bits IntOps_Model IntOps_Spec IntOps_Proofs Algorithm_Model Object_Model Object_Spec Object_Proofs
  BitArray_Model BitArray_Spec BitArray_Proofs BitArray_Proofs2 BitArray_Proofs3 BitArray_Proofs4 BitArray_Proofs5 BitArray_Client.
Require Import Permutation.

Lemma bop_step (m : bool) h os o b : ba_wf h (o :: os) -> bop_args (ba_value h o) b -> bop_repr h o (ba_value h o) b ->
  step h os (run_bop m h o b) (bop_ok m (ba_value h o) b).
Proof.
  intros W A R. unfold bop_ok.
  assert (AT : forall i r (P : Z -> list bool -> Prop) res,
    step h os res (fun code l => if len (ba_value h o) <=? i then code = BL_ERROR_INVALID_VALUE /\ l = ba_value h o else code = BL_SUCCESS /\ l = r) ->
    step h os res (fun code l => (code, l) = (if len (ba_value h o) <=? i then (BL_ERROR_INVALID_VALUE, ba_value h o) else (BL_SUCCESS, r)) \/
      (m = false /\ code = BL_ERROR_OUT_OF_MEMORY /\ l = ba_value h o))).
  { intros i r _ res. apply step_weaken. intros c l H. left. destruct (len (ba_value h o) <=? i); destruct H as [-> ->]; reflexivity. }
  assert (ST : forall res r, 
    step h os res (fun code l => (code = BL_SUCCESS /\ l = r) \/ (m = false /\ code = BL_ERROR_OUT_OF_MEMORY /\ l = ba_value h o)) ->
    step h os res (fun code l => (code, l) = (BL_SUCCESS, r) \/ (m = false /\ code = BL_ERROR_OUT_OF_MEMORY /\ l = ba_value h o))).
  { intros res r. apply step_weaken. intros c l [[-> ->]|H]; auto. }
  destruct b; cbn [run_bop spec_bop bop_args bop_repr] in *.
  - apply AT; [exact (fun _ _ => True)|]. apply set_bit_step; auto.
  - apply AT; [exact (fun _ _ => True)|]. apply clear_bit_step; auto.
  - apply AT; [exact (fun _ _ => True)|]. unfold ba_replace_bit. destruct v; [apply set_bit_step|apply clear_bit_step]; auto.
  - eapply step_weaken; [|apply (range_step true); auto]. cbv beta. intros c l H. left. destruct (_ || _); destruct H as [-> ->]; reflexivity.
  - eapply step_weaken; [|apply (range_step false); auto]. cbv beta. intros c l H. left. destruct (_ || _); destruct H as [-> ->]; reflexivity.
  - destruct A as (I & HW & G). apply AT; [exact (fun _ _ => True)|]. apply (words_step BOr); auto. intros L. specialize (G L). unfold combine_good, combine_safe in *. intuition.
  - destruct A as (I & HW & G). apply AT; [exact (fun _ _ => True)|]. apply (words_step BAndNot); auto. intros L. specialize (G L). unfold combine_good, combine_safe in *. intuition.
  - destruct A as (I & HW & G). apply AT; [exact (fun _ _ => True)|]. apply (words_step BAssign); auto. intros L. specialize (G L). unfold combine_good, combine_safe in *. intuition.
  - apply ST, append_bit_step; auto. unfold UINT32_MAX. lia.
  - destruct A as (HW & MX & AL). apply ST, append_words_step; auto.
  - eapply step_weaken; [|apply clear_step; auto]. intros c l (-> & ->). now left.
  - apply ST, resize_step; auto. unfold resize_safe. destruct R as [R|[R|[U C]]]; auto.
    destruct o as [s c|p]. { cbn in C. auto. } right. right. split; [exact U|]. cbn in U, C. destruct (nth_error h p) as [[im|]|]; tauto.
  - eapply step_weaken; [|apply reserve_step; auto]. intros c l ([-> | (M & ->)] & ->); auto.
  - eapply step_weaken; [|apply shrink_step; auto]. intros c l ([-> | (M & ->)] & ->); auto.
  - apply ST, replace_op_step; auto.
  - destruct A as (HW & L3). eapply step_weaken; [|apply assign_words_step; auto]. { intros c l (-> & ->). now left. }
    split; auto. destruct o as [s c|p]; auto. cbn [unshared capacity exclusive] in *.
    destruct (wf_get _ _ _ _ _ W) as (im & E & _). rewrite E in *. exact R.
Qed.

(* ---- handles by index ---- *)
Lemma upd_mid {A} (l1 l2 : list A) o x : upd (l1 ++ o :: l2) (length l1) x = l1 ++ x :: l2.
Proof. induction l1; cbn; auto. now rewrite IHl1. Qed.
Lemma del_mid {A} (l1 l2 : list A) o : del (l1 ++ o :: l2) (length l1) = l1 ++ l2.
Proof.
  unfold del. f_equal. - rewrite firstn_app, Nat.sub_diag, firstn_all. apply app_nil_r.
  - change (S (length l1)) with (1 + length l1)%nat. replace (1 + length l1)%nat with (length l1 + 1)%nat by lia.
    replace (l1 ++ o :: l2) with ((l1 ++ [o]) ++ l2) by (rewrite <- app_assoc; reflexivity).
    replace (length l1 + 1)%nat with (length (l1 ++ [o]) + 0)%nat by (rewrite app_length; cbn; lia).
    rewrite skipn_app. rewrite skipn_all2 by lia. replace (length (l1 ++ [o]) + 0 - length (l1 ++ [o]))%nat with 0%nat by lia. reflexivity.
Qed.
Lemma nth_mid {A} (l1 l2 : list A) o d : nth (length l1) (l1 ++ o :: l2) d = o.
Proof. rewrite app_nth2, Nat.sub_diag by lia. reflexivity. Qed.
Lemma wf_mid h l1 o l2 : ba_wf h (l1 ++ o :: l2) <-> ba_wf h (o :: l1 ++ l2).
Proof.
  split; intros H.
  - eapply wf_perm; [|exact H]. apply Permutation_sym, Permutation_middle.
  - eapply wf_perm; [|exact H]. apply Permutation_middle.
Qed.
Lemma wf_end h o os : ba_wf h (o :: os) -> ba_wf h (os ++ [o]).
Proof. intros H. eapply wf_perm; [|exact H]. apply Permutation_cons_append. Qed.
Lemma map_same {A B} (f g : A -> B) l : (forall x, In x l -> f x = g x) -> map f l = map g l.
Proof. apply map_ext_in. Qed.

Lemma empty_ok : ba_okS 0 (repeat (Some 0) 3). Proof. apply zeros3_ok. lia. Qed.
Lemma empty_value h : ba_value h (init_sso 0) = []. Proof. reflexivity. Qed.

Lemma call_step (m : bool) h os c : ba_wf h os -> call_safe h os c ->
  exists code h' os', run_call m h os c = Ok (code, h', os') /\ ba_wf h' os' /\
    call_ok m (map (ba_value h) os) c code (map (ba_value h') os').
Proof.
  intros W S0. destruct c as [|j|j|i|i|i j|i j|i b]; cbn [run_call call_ok call_safe] in *.
  - exists BL_SUCCESS, h, (os ++ [ba_init]). split; auto. split. { apply wf_end, wf_tail_sso; auto using empty_ok. } split; auto. now rewrite map_app.
  - destruct (nth_error os j) as [o|] eqn:E; [|apply nth_error_None in E; lia]. unfold handle. rewrite E. cbn [bind].
    destruct (retain_ok ba_okI ba_okS view [] h os o W (nth_error_In _ _ E)) as (h' & R & W' & V). unfold ba_init_weak. rewrite R. cbn [bind].
    exists BL_SUCCESS, h', (os ++ [o]). split; auto. split. { now apply wf_end. } split; auto. rewrite map_app. cbn [map]. f_equal.
    + apply map_same. intros x _. apply V.
    + f_equal. rewrite (nth_indep _ [] (ba_value h o)) by (rewrite map_length; lia). rewrite map_nth. erewrite nth_error_nth by eauto. apply V.
  - destruct (nth_error os j) as [o|] eqn:E; [|apply nth_error_None in E; lia]. unfold handle. rewrite E. cbn [bind].
    destruct (nth_error_split _ _ E) as (l1 & l2 & -> & <-). unfold ba_init_move.
    exists BL_SUCCESS, h, (l1 ++ init_sso 0 :: l2 ++ [o]). rewrite upd_mid. split. { now rewrite <- app_assoc. } split.
    + apply wf_mid. apply wf_tail_sso; auto using empty_ok. rewrite app_assoc. apply wf_end. now apply wf_mid.
    + split; auto. rewrite !map_app. cbn [map]. rewrite map_app. cbn [map]. rewrite <- (map_length (ba_value h) l1), upd_mid, nth_mid, <- app_assoc. reflexivity.
  - destruct (nth_error os i) as [o|] eqn:E; [|apply nth_error_None in E; lia]. unfold handle. rewrite E. cbn [bind].
    destruct (nth_error_split _ _ E) as (l1 & l2 & -> & <-). apply wf_mid in W.
    destruct (release_ok ba_okI ba_okS view [] h _ o W) as (h' & R & W' & V). unfold ba_destroy. rewrite R. cbn [bind].
    eexists _, _, _. split; [reflexivity|]. rewrite del_mid. split; auto. split; auto. 
    rewrite !map_app. cbn [map]. rewrite <- (map_length (ba_value h) l1), del_mid, <- !map_app. apply map_same. exact V.
  - destruct (nth_error os i) as [o|] eqn:E; [|apply nth_error_None in E; lia]. unfold handle. rewrite E. cbn [bind].
    destruct (nth_error_split _ _ E) as (l1 & l2 & -> & <-). apply wf_mid in W.
    destruct (release_ok ba_okI ba_okS view [] h _ o W) as (h' & R & W' & V). unfold ba_reset. rewrite R. cbn [bind].
    eexists _, _, _. split; [reflexivity|]. rewrite upd_mid. split. { apply wf_mid, wf_tail_sso; auto using empty_ok. } split; auto.
    rewrite !map_app. cbn [map]. rewrite <- (map_length (ba_value h) l1), upd_mid. rewrite empty_value.
    f_equal; [|f_equal]; apply map_same; intros x I; apply V, in_or_app; auto.
  - destruct S0 as [Si Sj]. destruct (nth_error os j) as [o|] eqn:E; [|apply nth_error_None in E; lia]. unfold handle. rewrite E. cbn [bind].
    destruct (nth_error_split _ _ E) as (l1 & l2 & -> & <-). rewrite upd_mid.
    rewrite map_app. cbn [map]. rewrite <- (map_length (ba_value h) l1), upd_mid, nth_mid.
    set (os1 := l1 ++ init_sso 0 :: l2). rewrite <- (empty_value h). change (ba_value h (init_sso 0) :: map (ba_value h) l2) with (map (ba_value h) (init_sso 0 :: l2)).
    rewrite <- map_app. fold os1.
    assert (L1 : (i < length os1)%nat) by (subst os1; rewrite app_length in *; cbn [length] in *; lia).
    assert (W1 : ba_wf h (o :: os1)).
    { subst os1. apply wf_mid in W. change (o :: l1 ++ init_sso 0 :: l2) with ((o :: l1) ++ init_sso 0 :: l2). apply wf_mid.
      apply wf_tail_sso; auto using empty_ok. }
    clearbody os1. destruct (nth_error os1 i) as [s|] eqn:Es; [|apply nth_error_None in Es; lia]. cbn [bind].
    destruct (nth_error_split _ _ Es) as (k1 & k2 & -> & <-).
    assert (W2 : ba_wf h (s :: o :: k1 ++ k2)). { apply (wf_mid _ (o :: k1) s k2) in W1. exact W1. }
    destruct (release_ok ba_okI ba_okS view [] h _ s W2) as (h' & R & W' & V).
    unfold ba_assign_move, replace_instance. rewrite R. cbn [bind]. eexists _, _, _. split; [reflexivity|]. rewrite upd_mid. split. { now apply wf_mid. }
    split; auto. rewrite !map_app. cbn [map]. rewrite <- (map_length (ba_value h) k1), upd_mid.
    f_equal; [|f_equal]; [apply map_same; intros x I; apply V; right; apply in_or_app; auto|apply V; left; auto|apply map_same; intros x I; apply V; right; apply in_or_app; auto].
  - destruct S0 as [Si Sj]. destruct (nth_error os j) as [o|] eqn:E; [|apply nth_error_None in E; lia]. unfold handle. rewrite E.
    destruct (nth_error os i) as [s|] eqn:Es; [|apply nth_error_None in Es; lia]. cbn [bind].
    destruct (retain_ok ba_okI ba_okS view [] h os o W (nth_error_In _ _ E)) as (h1 & R & W1 & V1). unfold ba_assign_weak, replace_instance. rewrite R. cbn [bind].
    assert (NV : nth j (map (ba_value h) os) [] = ba_value h o).
    { rewrite (nth_indep _ [] (ba_value h o)) by (rewrite map_length; lia). rewrite map_nth. now erewrite nth_error_nth by eauto. }
    rewrite NV. clear NV E Sj Si. destruct (nth_error_split _ _ Es) as (k1 & k2 & -> & <-).
    assert (W2 : ba_wf h1 (s :: o :: k1 ++ k2)). { apply (wf_mid _ (o :: k1) s k2) in W1. exact W1. }
    destruct (release_ok ba_okI ba_okS view [] h1 _ s W2) as (h' & R' & W' & V). rewrite R'. cbn [bind].
    eexists _, _, _. split; [reflexivity|]. rewrite upd_mid. split. { now apply wf_mid. }
    split; auto. rewrite !map_app. cbn [map]. rewrite <- (map_length (ba_value h) k1), upd_mid.
    assert (VV : forall x, In x (o :: k1 ++ k2) -> ba_value h' x = ba_value h x). { intros x I. unfold ba_value. rewrite V by auto. apply V1. }
    f_equal; [|f_equal]; [apply map_same; intros x I; apply VV; right; apply in_or_app; auto|apply VV; left; auto|apply map_same; intros x I; apply VV; right; apply in_or_app; auto].
  - destruct S0 as (o & E & A & R). unfold handle. rewrite E. cbn [bind].
    destruct (nth_error_split _ _ E) as (l1 & l2 & -> & <-). apply wf_mid in W.
    destruct (bop_step m h _ o b W A R) as (code & h' & o' & Eo & W' & O & P). rewrite Eo. cbn [bind].
    eexists _, _, _. split; [reflexivity|]. rewrite upd_mid. split. { now apply wf_mid. }
    exists (ba_value h' o'). rewrite !map_app. cbn [map]. rewrite <- (map_length (ba_value h) l1), nth_mid, upd_mid. split; [exact P|].
    f_equal; [|f_equal]; apply map_same; intros x I; apply O, in_or_app; auto.
Qed.

Lemma run_refines p : forall h os, ba_wf h os -> run_safe h os p ->
  exists codes h' os', run h os p = Ok (codes, h', os') /\ ba_wf h' os' /\ run_ok (map (ba_value h) os) p codes (map (ba_value h') os').
Proof.
  induction p as [|[m c] p IH]; intros h os W S0.
  - exists [], h, os. cbn. auto.
  - cbn [run run_safe] in *. destruct S0 as [S1 S2]. destruct (call_step m h os c W S1) as (code & h1 & os1 & E & W1 & P).
    rewrite E in *. cbn [bind]. destruct (IH h1 os1 W1 S2) as (codes & h2 & os2 & E2 & W2 & P2). rewrite E2. cbn [bind].
    eexists _, _, _. split; [reflexivity|]. split; auto. cbn [run_ok]. eauto.
Qed.

Lemma wf_nil : ba_wf [] []. Proof. split; [constructor|]. intros p. destruct p; reflexivity. Qed.

Lemma one_unshared h o : ba_wf h [o] -> unshared h o.
Proof.
  destruct o as [s c|p]; cbn [unshared]; auto. intros W. destruct (wf_get _ _ _ _ _ W) as (im & E & _ & _ & HB & HR). rewrite E.
  unfold refs in HR. cbn in HR. destruct HB as [HB|[_ []]]. lia.
Qed.
Lemma run1_refines p : forall h o, ba_wf h [o] -> run1_safe (ba_value h o) p ->
  exists codes h' o', run1 h o p = Ok (codes, h', o') /\ ba_wf h' [o'] /\ run1_ok (ba_value h o) p codes (ba_value h' o').
Proof.
  induction p as [|[m b] p IH]; intros h o W S0.
  - exists [], h, o. cbn. auto.
  - cbn [run1 run1_safe] in *. destruct S0 as [[A R] S2]. pose proof (one_unshared h o W) as U.
    destruct (bop_step m h [] o b W A) as (code & h1 & o1 & E & W1 & _ & P).
    { destruct b; cbn [bop_repr]; auto; try tauto. }
    rewrite E. cbn [bind]. destruct (IH h1 o1 W1 (S2 _ _ P)) as (codes & h2 & o2 & E2 & W2 & P2). rewrite E2. cbn [bind].
    eexists _, _, _. split; [reflexivity|]. split; auto. cbn [run1_ok]. eauto.
Qed.
