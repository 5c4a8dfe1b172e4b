(* If every single call keeps the heap consistent, leaves all other handles alone and does its job, so does every program. *)
From Verif Require Import Base Algorithm_Model Object_Model Object_Spec Object_Proofs Handle_Client.
Require Import Permutation.

Lemma upd_at {A} (l1 l2 : list A) o x : upd (l1 ++ o :: l2) (length l1) x = l1 ++ x :: l2.
Proof. induction l1; cbn; auto. now rewrite IHl1. Qed.
Lemma del_at {A} (l1 l2 : list A) o : hdel (l1 ++ o :: l2) (length l1) = l1 ++ l2.
Proof. unfold hdel. induction l1 as [|a l1 IH]; auto. cbn [length app firstn skipn] in *. cbn. f_equal. exact IH. Qed.
Lemma nth_at {A} (l1 l2 : list A) o d : nth (length l1) (l1 ++ o :: l2) d = o.
Proof. rewrite app_nth2, Nat.sub_diag by lia. reflexivity. Qed.

Section Steps.
  Context {T : Type} {ext : Prop} (okI : Z -> Z -> list cell -> Prop) (okS : Z -> list cell -> Prop)
          (V : Z -> list cell -> T) (dflt : T).
  Notation wf := (wf (ext := ext) okI okS).
  Notation value := (value V dflt).

  (* one call on the handle at the head of the list *)
  Definition hstep (h : heap) (os : list obj) (r : outcome (Z * heap * obj)) (P : Z -> T -> Prop) : Prop :=
    exists code h' o', r = Ok (code, h', o') /\ wf h' (o' :: os) /\
      (forall x, In x os -> value h' x = value h x) /\ P code (value h' o').

  Lemma hstep_weaken h os r (P Q : Z -> T -> Prop) : (forall c v, P c v -> Q c v) -> hstep h os r P -> hstep h os r Q.
  Proof. intros H (c & h' & o' & E & W & O & K). exists c, h', o'. auto. Qed.
  Lemma hstep_same h os o code (P : Z -> T -> Prop) : wf h (o :: os) -> P code (value h o) -> hstep h os (Ok (code, h, o)) P.
  Proof. intros W H. exists code, h, o. auto. Qed.
  Lemma hstep_sso h os s c s' c' code (P : Z -> T -> Prop) : wf h (Sso s c :: os) -> okS s' c' -> P code (V s' c') ->
    hstep h os (Ok (code, h, Sso s' c')) P.
  Proof. intros W K H. exists code, h, (Sso s' c'). split; auto. split; [eapply sso_swap_ok; eauto|]. split; auto. Qed.
  Lemma hstep_upd h os p im size c code (P : Z -> T -> Prop) : wf h (Dyn p :: os) -> nth_error h p = Some (Some im) -> rc im = 1 ->
    okI size (icap im) c -> P code (V size c) ->
    hstep h os (Ok (code, put_impl h p (Impl (rc im) (base im) size (icap im) c), Dyn p)) P.
  Proof.
    intros W E R K H. destruct (update_ok okI okS V dflt h os p im size (icap im) c W E R K) as (W' & O & N).
    eexists _, _, _. split; [reflexivity|]. split; [exact W'|]. split; [exact O|]. rewrite N. exact H.
  Qed.
  Lemma hstep_new h os o size cap c code (P : Z -> T -> Prop) : wf h (o :: os) -> okI size cap c -> P code (V size c) ->
    hstep h os (let* (h3, o') := replace_instance (h ++ [Some (Impl 1 1 size cap c)]) o (Dyn (length h)) in Ok (code, h3, o')) P.
  Proof.
    intros W K H. destruct (replace_new_ok okI okS V dflt h os o size cap c W K) as (h' & E & W' & O & N & _).
    rewrite E. cbn [bind]. eexists _, _, _. split; [reflexivity|]. split; [exact W'|]. split; [exact O|]. rewrite N. exact H.
  Qed.
  Lemma hstep_to_sso h os o size c code (P : Z -> T -> Prop) : wf h (o :: os) -> okS size c -> P code (V size c) ->
    hstep h os (let* (h3, o') := replace_instance h o (Sso size c) in Ok (code, h3, o')) P.
  Proof.
    intros W K H. destruct (replace_sso_ok okI okS V dflt h os o size c W K) as (h' & E & W' & O).
    rewrite E. cbn [bind]. eexists _, _, _. split; [reflexivity|]. split; [exact W'|]. split; [exact O|]. exact H.
  Qed.
  (* external data: a fresh Impl with base count 1 or 3 *)
  Lemma alloc_ext_ok h os b size cap c : wf h os -> okI size cap c -> b = 1 \/ b = 3 /\ ext ->
    let h' := h ++ [Some (Impl b b size cap c)] in
    wf h' (Dyn (length h) :: os) /\ (forall x, In x os -> value h' x = value h x) /\ value h' (Dyn (length h)) = V size c.
  Proof.
    intros W K HB h'. pose proof (refs_out okI okS _ _ (length h) W (le_n _)) as RO. destruct W as [F H].
    split; [|split].
    - split. { constructor; cbn; auto. }
      intros p. subst h'. rewrite nth_snoc, refs_cons. cbn [refers].
      destruct (Nat.eqb_spec p (length h)) as [->|N].
      + cbn [isize icap mem base rc]. rewrite RO. intuition lia.
      + specialize (H p). destruct (nth_error h p) as [[im|]|]; intuition lia.
    - intros x I. destruct x as [s d|p]; auto. subst h'. unfold Object_Spec.value. rewrite nth_snoc.
      destruct (Nat.eqb_spec p (length h)) as [->|N]; auto. pose proof (refs_in _ _ I). lia.
    - subst h'. unfold Object_Spec.value. rewrite nth_snoc, Nat.eqb_refl. reflexivity.
  Qed.
  Lemma hstep_ext h os o b size cap c code (P : Z -> T -> Prop) : wf h (o :: os) -> okI size cap c -> b = 1 \/ b = 3 /\ ext ->
    P code (V size c) ->
    hstep h os (let* (h3, o') := replace_instance (h ++ [Some (Impl b b size cap c)]) o (Dyn (length h)) in Ok (code, h3, o')) P.
  Proof.
    intros W K HB H. destruct (alloc_ext_ok _ _ _ _ _ _ W K HB) as (W1 & V1 & N1). apply wf_swap in W1.
    destruct (release_ok okI okS V dflt _ _ _ W1) as (h' & R & W2 & V2).
    unfold replace_instance. rewrite R. cbn [bind]. eexists _, _, _. split; [reflexivity|]. split; [exact W2|]. split.
    - intros x I. rewrite V2 by now right. apply V1. now right.
    - rewrite V2 by now left. rewrite N1. exact H.
  Qed.

  Lemma wf_at h l1 o l2 : wf h (l1 ++ o :: l2) <-> wf h (o :: l1 ++ l2).
  Proof.
    split; intros H; eapply wf_perm; try exact H.
    - apply Permutation_sym, Permutation_middle.
    - apply Permutation_middle.
  Qed.
  Lemma wf_last h o os : wf h (o :: os) -> wf h (os ++ [o]).
  Proof. intros H. eapply wf_perm; [|exact H]. apply Permutation_cons_append. Qed.
  Lemma wf_empty_heap : wf [] []. Proof. split; [constructor|]. intros p. destruct p; reflexivity. Qed.
End Steps.

Section Programs.
  Context {T OP OP2 : Type} {ext : Prop} (okI : Z -> Z -> list cell -> Prop) (okS : Z -> list cell -> Prop)
          (V : Z -> list cell -> T) (dflt : T).
  Notation wf := (wf (ext := ext) okI okS).
  Notation value := (value V dflt).
  Context (es : Z) (ec : list cell) (vempty : T)
    (run_op : bool -> heap -> obj -> OP -> outcome (Z * heap * obj)) (op_ok : bool -> T -> OP -> Z -> T -> Prop)
    (run_op2 : bool -> heap -> obj -> obj -> bool -> OP2 -> outcome (Z * heap * obj)) (op2_ok : bool -> T -> T -> OP2 -> Z -> T -> Prop)
    (op_safe : bool -> heap -> obj -> OP -> Prop) (op2_safe : bool -> heap -> obj -> obj -> OP2 -> Prop).
  Notation empty := (Sso es ec).
  Context (E1 : okS es ec) (E2 : V es ec = vempty)
    (HOP : forall (m : bool) h os o b, wf h (o :: os) -> op_safe m h o b -> hstep (ext := ext) okI okS V dflt h os (run_op m h o b) (op_ok m (value h o) b))
    (HOP2 : forall (m : bool) h os o x same b, wf h (o :: os) -> In x (o :: os) -> (same = true -> x = o) -> op2_safe m h o x b ->
       hstep (ext := ext) okI okS V dflt h os (run_op2 m h o x same b) (op2_ok m (value h o) (value h x) b)).

  Lemma value_at h os i o : nth_error os i = Some o -> nth i (map (value h) os) vempty = value h o.
  Proof.
    intros E. assert (L : (i < length os)%nat) by (apply nth_error_Some; congruence).
    rewrite (nth_indep _ vempty (value h o)) by (rewrite map_length; lia). rewrite map_nth. now erewrite nth_error_nth by eauto.
  Qed.

  Lemma hcall_step (m : bool) h os c : wf h os -> hcall_safe op_safe op2_safe m h os c ->
    exists code h' os', hrun_call empty run_op run_op2 m h os c = Ok (code, h', os') /\ wf h' os' /\
      hcall_ok vempty op_ok op2_ok m (map (value h) os) c code (map (value h') os').
  Proof.
    intros W S0.
    assert (EV : forall h, value h empty = vempty) by (intros; exact E2).
    destruct c as [|j|j|i|i|i j|i j|i b|i j b]; cbn [hrun_call hcall_ok hcall_safe] in *.
    - exists BL_SUCCESS, h, (os ++ [empty]). split; auto. split. { apply wf_last, wf_tail_sso; auto. } split; auto. rewrite map_app. cbn [map]. now rewrite EV.
    - destruct (nth_error os j) as [o|] eqn:E; [|apply nth_error_None in E; lia]. unfold hhandle. rewrite E. cbn [bind].
      destruct (retain_ok okI okS V dflt h os o W (nth_error_In _ _ E)) as (h' & R & W' & VV). rewrite R. cbn [bind].
      exists BL_SUCCESS, h', (os ++ [o]). split; auto. split. { now apply wf_last. } split; auto. rewrite map_app. cbn [map]. f_equal.
      + apply map_ext_in. intros x _. apply VV.
      + f_equal. erewrite value_at by eauto. apply VV.
    - destruct (nth_error os j) as [o|] eqn:E; [|apply nth_error_None in E; lia]. unfold hhandle. rewrite E. cbn [bind].
      erewrite value_at by eauto.
      destruct (nth_error_split _ _ E) as (l1 & l2 & -> & <-).
      exists BL_SUCCESS, h, (l1 ++ empty :: l2 ++ [o]). rewrite upd_at. split. { now rewrite <- app_assoc. } split.
      + apply wf_at. apply wf_tail_sso; auto. rewrite app_assoc. apply wf_last. now apply wf_at.
      + split; auto. rewrite !map_app. cbn [map]. rewrite map_app. cbn [map]. rewrite <- (map_length (value h) l1), upd_at, <- app_assoc, EV. reflexivity.
    - destruct (nth_error os i) as [o|] eqn:E; [|apply nth_error_None in E; lia]. unfold hhandle. rewrite E. cbn [bind].
      destruct (nth_error_split _ _ E) as (l1 & l2 & -> & <-). apply wf_at in W.
      destruct (release_ok okI okS V dflt h _ o W) as (h' & R & W' & VV). rewrite R. cbn [bind].
      eexists _, _, _. split; [reflexivity|]. rewrite del_at. split; auto. split; auto.
      rewrite !map_app. cbn [map]. rewrite <- (map_length (value h) l1), del_at, <- !map_app. apply map_ext_in. exact VV.
    - destruct (nth_error os i) as [o|] eqn:E; [|apply nth_error_None in E; lia]. unfold hhandle. rewrite E. cbn [bind].
      destruct (nth_error_split _ _ E) as (l1 & l2 & -> & <-). apply wf_at in W.
      destruct (release_ok okI okS V dflt h _ o W) as (h' & R & W' & VV). unfold replace_instance. rewrite R. cbn [bind].
      eexists _, _, _. split; [reflexivity|]. rewrite upd_at. split. { apply wf_at, wf_tail_sso; auto. } split; auto.
      rewrite !map_app. cbn [map]. rewrite <- (map_length (value h) l1), upd_at, EV.
      f_equal; [|f_equal]; apply map_ext_in; intros x I; apply VV, in_or_app; auto.
    - destruct S0 as [Si Sj]. destruct (nth_error os j) as [o|] eqn:E; [|apply nth_error_None in E; lia]. unfold hhandle. rewrite E. cbn [bind].
      erewrite value_at by eauto.
      destruct (nth_error_split _ _ E) as (l1 & l2 & -> & <-). rewrite upd_at.
      rewrite map_app. cbn [map]. rewrite <- (map_length (value h) l1), upd_at.
      set (os1 := l1 ++ empty :: l2). rewrite <- (EV h). change (value h empty :: map (value h) l2) with (map (value h) (empty :: l2)).
      rewrite <- map_app. fold os1.
      assert (L1 : (i < length os1)%nat) by (subst os1; rewrite app_length in *; cbn [length] in *; lia).
      assert (W1 : wf h (o :: os1)).
      { subst os1. apply wf_at in W. change (o :: l1 ++ empty :: l2) with ((o :: l1) ++ empty :: l2). apply wf_at.
        apply wf_tail_sso; auto. }
      clearbody os1. destruct (nth_error os1 i) as [s|] eqn:Es; [|apply nth_error_None in Es; lia]. cbn [bind].
      destruct (nth_error_split _ _ Es) as (k1 & k2 & -> & <-).
      assert (W2 : wf h (s :: o :: k1 ++ k2)). { apply (wf_at _ _ _ (o :: k1) s k2) in W1. exact W1. }
      destruct (release_ok okI okS V dflt h _ s W2) as (h' & R & W' & VV).
      unfold replace_instance. rewrite R. cbn [bind]. eexists _, _, _. split; [reflexivity|]. rewrite upd_at. split. { now apply wf_at. }
      split; auto. rewrite !map_app. cbn [map]. rewrite <- (map_length (value h) k1), upd_at.
      f_equal; [|f_equal]; [apply map_ext_in; intros x I; apply VV; right; apply in_or_app; auto|apply VV; left; auto|apply map_ext_in; intros x I; apply VV; right; apply in_or_app; auto].
    - destruct S0 as [Si Sj]. destruct (nth_error os j) as [o|] eqn:E; [|apply nth_error_None in E; lia]. unfold hhandle. rewrite E.
      destruct (nth_error os i) as [s|] eqn:Es; [|apply nth_error_None in Es; lia]. cbn [bind].
      destruct (retain_ok okI okS V dflt h os o W (nth_error_In _ _ E)) as (h1 & R & W1 & V1). unfold replace_instance. rewrite R. cbn [bind].
      erewrite value_at by eauto.
      clear E Sj Si. destruct (nth_error_split _ _ Es) as (k1 & k2 & -> & <-).
      assert (W2 : wf h1 (s :: o :: k1 ++ k2)). { apply (wf_at _ _ _ (o :: k1) s k2) in W1. exact W1. }
      destruct (release_ok okI okS V dflt h1 _ s W2) as (h' & R' & W' & VV). rewrite R'. cbn [bind].
      eexists _, _, _. split; [reflexivity|]. rewrite upd_at. split. { now apply wf_at. }
      split; auto. rewrite !map_app. cbn [map]. rewrite <- (map_length (value h) k1), upd_at.
      assert (V3 : forall x, In x (o :: k1 ++ k2) -> value h' x = value h x). { intros x I. rewrite VV by auto. apply V1. }
      f_equal; [|f_equal]; [apply map_ext_in; intros x I; apply V3; right; apply in_or_app; auto|apply V3; left; auto|apply map_ext_in; intros x I; apply V3; right; apply in_or_app; auto].
    - destruct S0 as (o & E & A). unfold hhandle. rewrite E. cbn [bind]. erewrite value_at by eauto.
      destruct (nth_error_split _ _ E) as (l1 & l2 & -> & <-). apply wf_at in W.
      destruct (HOP m h _ o b W A) as (code & h' & o' & Eo & W' & O & P). rewrite Eo. cbn [bind].
      eexists _, _, _. split; [reflexivity|]. rewrite upd_at. split. { now apply wf_at. }
      exists (value h' o'). rewrite !map_app. cbn [map]. rewrite <- (map_length (value h) l1), upd_at. split; [exact P|].
      f_equal; [|f_equal]; apply map_ext_in; intros x I; apply O, in_or_app; auto.
    - destruct S0 as (o & x & E & Ex & A). unfold hhandle. rewrite E, Ex. cbn [bind]. erewrite !value_at by eauto.
      assert (SM : Nat.eqb i j = true -> x = o). { intros Q. apply Nat.eqb_eq in Q. congruence. }
      pose proof (nth_error_In _ _ Ex) as Ix.
      destruct (nth_error_split _ _ E) as (l1 & l2 & -> & <-). apply wf_at in W.
      destruct (HOP2 m h _ o x (Nat.eqb (length l1) j) b W) as (code & h' & o' & Eo & W' & O & P); auto.
      { apply in_app_or in Ix. cbn in *. destruct Ix as [|[|]]; auto using in_or_app. }
      rewrite Eo. cbn [bind].
      eexists _, _, _. split; [reflexivity|]. rewrite upd_at. split. { now apply wf_at. }
      exists (value h' o'). split; [exact P|]. rewrite !map_app. cbn [map]. rewrite <- (map_length (value h) l1), upd_at.
      f_equal; [|f_equal]; apply map_ext_in; intros y I; apply O, in_or_app; auto.
  Qed.

  Lemma hrun_refines p : forall h os, wf h os -> hrun_safe empty run_op run_op2 op_safe op2_safe h os p ->
    exists codes h' os', hrun empty run_op run_op2 h os p = Ok (codes, h', os') /\ wf h' os' /\
      hrun_ok vempty op_ok op2_ok (map (value h) os) p codes (map (value h') os').
  Proof.
    induction p as [|[m c] p IH]; intros h os W S0.
    - exists [], h, os. cbn. auto.
    - cbn [hrun hrun_safe] in *. destruct S0 as [S1 S2]. destruct (hcall_step m h os c W S1) as (code & h1 & os1 & E & W1 & P).
      rewrite E in *. cbn [bind]. destruct (IH h1 os1 W1 S2) as (codes & h2 & os2 & Er & W2 & P2). rewrite Er. cbn [bind].
      eexists _, _, _. split; [reflexivity|]. split; auto. cbn [hrun_ok]. eauto.
  Qed.
End Programs.
