From Verif Require Import Base IntOps_Model Algorithm_Model Algorithm_Proofs Object_Model Object_Spec.
From Coq Require Import Permutation.

Lemma nth_upd_eq {A} (l : list A) n x : (n < length l)%nat -> nth_error (upd l n x) n = Some x.
Proof. revert n; induction l as [|a l IH]; intros [|n] H; cbn in *; try lia; auto. apply IH; lia. Qed.
Lemma nth_upd_neq {A} (l : list A) n m x : n <> m -> nth_error (upd l n x) m = nth_error l m.
Proof. revert n m; induction l as [|a l IH]; intros [|n] [|m] H; cbn in *; try reflexivity; try lia. apply IH; lia. Qed.
Lemma upd_len {A} (l : list A) n x : length (upd l n x) = length l.
Proof. revert n; induction l as [|a l IH]; intros [|n]; cbn; auto. Qed.

  Lemma nth_snoc {A} (l : list A) x p : nth_error (l ++ [x]) p =
    if Nat.eqb p (length l) then Some x else nth_error l p.
  Proof.
    destruct (Nat.eqb_spec p (length l)) as [->|N].
    - rewrite nth_error_app2 by lia. rewrite Nat.sub_diag. reflexivity.
    - destruct (Nat.lt_ge_cases p (length l)).
      + now rewrite nth_error_app1 by lia.
      + rewrite nth_error_app2 by lia. replace (nth_error l p) with (@None A) by (symmetry; apply nth_error_None; lia).
        apply nth_error_None. cbn. lia.
  Qed.

Lemma refs_nil p : refs p [] = 0. Proof. reflexivity. Qed.
Lemma refs_nonneg p os : 0 <= refs p os. Proof. unfold refs; lia. Qed.
Lemma refs_cons p o os : refs p (o :: os) = (if refers p o then 1 else 0) + refs p os.
Proof. unfold refs; cbn. destruct (refers p o); cbn [length]; lia. Qed.
Lemma refs_app p a b : refs p (a ++ b) = refs p a + refs p b.
Proof. unfold refs. rewrite filter_app, app_length. lia. Qed.
Lemma refs_perm p a b : Permutation a b -> refs p a = refs p b.
Proof.
  induction 1; auto.
  - rewrite !refs_cons. lia.
  - rewrite !refs_cons. lia.
  - lia.
Qed.
Lemma refers_dyn p q : refers p (Dyn q) = true <-> p = q.
Proof. cbn. apply Nat.eqb_eq. Qed.
Lemma refs_in p os : In (Dyn p) os -> 0 < refs p os.
Proof.
  intros H. apply in_split in H. destruct H as (a & b & ->). rewrite refs_app, refs_cons.
  cbn [refers]. rewrite Nat.eqb_refl. pose proof (refs_nonneg p a). pose proof (refs_nonneg p b). lia.
Qed.
Lemma refs_zero p os : refs p os = 0 -> ~ In (Dyn p) os.
Proof. intros H C. apply refs_in in C. lia. Qed.

Section Heap.
  Context {T : Type} {ext : Prop} (okI : Z -> Z -> list cell -> Prop) (okS : Z -> list cell -> Prop)
          (V : Z -> list cell -> T) (dflt : T).
  Notation wf := (wf (ext := ext) okI okS).
  Notation value := (value V dflt).

  Lemma wf_perm h a b : Permutation a b -> wf h a -> wf h b.
  Proof.
    intros P [F H]. split. { eapply Permutation_Forall; eauto. }
    intros p. specialize (H p). rewrite <- (refs_perm p _ _ P). exact H.
  Qed.
  Lemma wf_swap h o o' os : wf h (o :: o' :: os) -> wf h (o' :: o :: os).
  Proof. apply wf_perm. constructor. Qed.

  Lemma wf_get h p os : wf h (Dyn p :: os) -> exists im, nth_error h p = Some (Some im) /\ get_impl h p = Ok im /\
    okI (isize im) (icap im) (mem im) /\ (base im = 1 \/ base im = 3 /\ ext) /\ rc im = base im + refs p os.
  Proof.
    intros [F H]. specialize (H p). rewrite refs_cons in H. cbn [refers] in H. rewrite Nat.eqb_refl in H.
    pose proof (refs_nonneg p os). unfold get_impl.
    destruct (nth_error h p) as [[im|]|]; try lia.
    exists im. intuition lia.
  Qed.

  Lemma value_sso h s c : value h (Sso s c) = V s c. Proof. reflexivity. Qed.

  Lemma retain_ok h os o : wf h os -> In o os ->
    exists h', retain h o = Ok h' /\ wf h' (o :: os) /\ forall x, value h' x = value h x.
  Proof.
    intros [F H] I. destruct o as [s c|p].
    - exists h. split; [reflexivity|]. split; [|reflexivity]. split.
      + constructor; auto. rewrite Forall_forall in F. exact (F _ I).
      + intros q. specialize (H q). rewrite refs_cons. cbn [refers].
        destruct (nth_error h q) as [[im|]|]; intuition lia.
    - pose proof (H p) as Hp. pose proof (refs_in _ _ I) as Rp. unfold retain, get_impl.
      destruct (nth_error h p) as [[im|]|] eqn:E; try lia. cbn [bind].
      assert (L : (p < length h)%nat) by (apply nth_error_Some; congruence).
      eexists; split; [reflexivity|]. unfold put_impl. split.
      + split. { constructor; cbn; auto. }
        intros q. rewrite refs_cons. destruct (Nat.eq_dec p q) as [<-|N].
        * rewrite nth_upd_eq by auto. cbn [refers isize icap mem base rc]. rewrite Nat.eqb_refl. intuition lia.
        * rewrite nth_upd_neq by auto. specialize (H q). cbn [refers].
          replace (q =? p)%nat with false by (symmetry; apply Nat.eqb_neq; auto).
          destruct (nth_error h q) as [[im'|]|]; intuition lia.
      + intros [s c|q]; [reflexivity|]. cbn. destruct (Nat.eq_dec p q) as [<-|N].
        * rewrite nth_upd_eq by auto. cbn. now rewrite E.
        * now rewrite nth_upd_neq by auto.
  Qed.

  Lemma release_ok h os o : wf h (o :: os) ->
    exists h', release h o = Ok h' /\ wf h' os /\ forall x, In x os -> value h' x = value h x.
  Proof.
    intros W. destruct o as [s c|p].
    - destruct W as [F H]. exists h. split; [reflexivity|]. split; [|reflexivity]. split.
      + now inversion F.
      + intros q. specialize (H q). rewrite refs_cons in H. cbn [refers] in H.
        destruct (nth_error h q) as [[im|]|]; intuition lia.
    - destruct (wf_get _ _ _ W) as (im & E & G & HI & HB & HR). destruct W as [F H].
      assert (L : (p < length h)%nat) by (apply nth_error_Some; congruence).
      unfold release. rewrite G. cbn [bind]. pose proof (refs_nonneg p os) as RN.
      destruct (Z.eqb_spec (rc im) (base im)) as [Q|Q].
      + eexists; split; [reflexivity|]. split.
        * split. { now inversion F. }
          intros q. destruct (Nat.eq_dec p q) as [<-|N].
          -- rewrite nth_upd_eq by auto. lia.
          -- rewrite nth_upd_neq by auto. specialize (H q). rewrite refs_cons in H. cbn [refers] in H.
             replace (q =? p)%nat with false in H by (symmetry; apply Nat.eqb_neq; auto).
             destruct (nth_error h q) as [[im'|]|]; intuition lia.
        * intros [s c|q] I; [reflexivity|]. cbn. destruct (Nat.eq_dec p q) as [<-|N].
          -- apply refs_in in I. lia.
          -- now rewrite nth_upd_neq by auto.
      + eexists; split; [reflexivity|]. unfold put_impl. split.
        * split. { now inversion F. }
          intros q. destruct (Nat.eq_dec p q) as [<-|N].
          -- rewrite nth_upd_eq by auto. cbn [isize icap mem base rc]. intuition lia.
          -- rewrite nth_upd_neq by auto. specialize (H q). rewrite refs_cons in H. cbn [refers] in H.
             replace (q =? p)%nat with false in H by (symmetry; apply Nat.eqb_neq; auto).
             destruct (nth_error h q) as [[im'|]|]; intuition lia.
        * intros [s c|q] I; [reflexivity|]. cbn. destruct (Nat.eq_dec p q) as [<-|N].
          -- rewrite nth_upd_eq by auto. cbn. now rewrite E.
          -- now rewrite nth_upd_neq by auto.
  Qed.

  Lemma refs_out h os p : wf h os -> (length h <= p)%nat -> refs p os = 0.
  Proof.
    intros [F H] L. specialize (H p). replace (nth_error h p) with (@None (option impl)) in H; auto.
    symmetry. apply nth_error_None. lia.
  Qed.

  Lemma alloc_ok h os size cap c : wf h os -> okI size cap c ->
    let h' := h ++ [Some (Impl 1 1 size cap c)] in
    wf h' (Dyn (length h) :: os) /\ (forall x, In x os -> value h' x = value h x) /\
    value h' (Dyn (length h)) = V size c.
  Proof.
    intros W K h'. pose proof (refs_out _ _ (length h) W (le_n _)) as RO. destruct W as [F H].
    split; [|split].
    - split. { constructor; cbn; auto. }
      intros p. subst h'. rewrite nth_snoc, refs_cons. cbn [refers].
      destruct (Nat.eqb_spec p (length h)) as [->|N].
      + cbn [isize icap mem base rc]. intuition lia.
      + specialize (H p). destruct (nth_error h p) as [[im|]|]; intuition lia.
    - intros [s d|p] I; [reflexivity|]. subst h'. cbn. rewrite nth_snoc.
      destruct (Nat.eqb_spec p (length h)) as [->|N]; auto. apply refs_in in I. lia.
    - subst h'. cbn. rewrite nth_snoc, Nat.eqb_refl. reflexivity.
  Qed.

  Lemma update_ok h os p im size cap c : wf h (Dyn p :: os) -> nth_error h p = Some (Some im) -> rc im = 1 ->
    okI size cap c ->
    let h' := put_impl h p (Impl (rc im) (base im) size cap c) in
    wf h' (Dyn p :: os) /\ (forall x, In x os -> value h' x = value h x) /\ value h' (Dyn p) = V size c.
  Proof.
    intros W E R K h'. destruct (wf_get _ _ _ W) as (im' & E' & G & HI & HB & HR).
    rewrite E in E'. injection E' as <-. pose proof (refs_nonneg p os) as RN.
    assert (R0 : refs p os = 0) by lia. assert (B1 : base im = 1) by lia.
    assert (L : (p < length h)%nat) by (apply nth_error_Some; congruence).
    destruct W as [F H]. unfold put_impl in h'. split; [|split].
    - split; auto. intros q. subst h'. rewrite refs_cons. destruct (Nat.eq_dec p q) as [<-|N].
      + rewrite nth_upd_eq by auto. cbn [refers isize icap mem base rc]. rewrite Nat.eqb_refl. intuition lia.
      + rewrite nth_upd_neq by auto. specialize (H q). now rewrite refs_cons in H.
    - intros [s d|q] I; [reflexivity|]. subst h'. cbn. destruct (Nat.eq_dec p q) as [<-|N].
      + apply refs_in in I. lia.
      + now rewrite nth_upd_neq by auto.
    - subst h'. cbn. now rewrite nth_upd_eq by auto.
  Qed.

  Lemma wf_tail_sso h os s c : wf h os -> okS s c -> wf h (Sso s c :: os).
  Proof.
    intros [F H] K. split; [constructor; auto|]. intros p. specialize (H p). rewrite refs_cons. exact H.
  Qed.

  Lemma release_other h o h' q : release h o = Ok h' -> o <> Dyn q -> nth_error h' q = nth_error h q.
  Proof.
    destruct o as [s c|p]; cbn [release].
    - intros E _. now injection E as <-.
    - intros E N. destruct (get_impl h p) as [im| | |]; cbn [bind] in E; try discriminate E.
      assert (P : p <> q) by congruence.
      destruct (rc im =? base im); injection E as <-; unfold put_impl; now apply nth_upd_neq.
  Qed.

  (* replace_instance with a freshly allocated Impl / an in-place value *)
  Lemma replace_new_ok h os o size cap c : wf h (o :: os) -> okI size cap c ->
    exists h', replace_instance (h ++ [Some (Impl 1 1 size cap c)]) o (Dyn (length h)) = Ok (h', Dyn (length h)) /\
      wf h' (Dyn (length h) :: os) /\ (forall x, In x os -> value h' x = value h x) /\
      value h' (Dyn (length h)) = V size c /\ nth_error h' (length h) = Some (Some (Impl 1 1 size cap c)).
  Proof.
    intros W K. destruct (alloc_ok _ _ _ _ _ W K) as (W1 & V1 & N1). apply wf_swap in W1.
    destruct (release_ok _ _ _ W1) as (h' & R & W2 & V2).
    exists h'. unfold replace_instance. rewrite R. cbn [bind]. split; [reflexivity|]. split; [exact W2|]. split; [|split].
    - intros x I. rewrite V2 by now right. apply V1. now right.
    - rewrite V2 by now left. exact N1.
    - rewrite (release_other _ _ _ (length h) R).
      + now rewrite nth_snoc, Nat.eqb_refl.
      + intros ->. pose proof (refs_out _ _ (length h) W (le_n _)) as Q. rewrite refs_cons in Q. cbn [refers] in Q.
        rewrite Nat.eqb_refl in Q. pose proof (refs_nonneg (length h) os). lia.
  Qed.
  Lemma replace_sso_ok h os o s c : wf h (o :: os) -> okS s c ->
    exists h', replace_instance h o (Sso s c) = Ok (h', Sso s c) /\
      wf h' (Sso s c :: os) /\ (forall x, In x os -> value h' x = value h x).
  Proof.
    intros W K. destruct (release_ok _ _ _ W) as (h' & R & W2 & V2).
    exists h'. unfold replace_instance. rewrite R. cbn [bind]. split; [reflexivity|]. split; auto.
    now apply wf_tail_sso.
  Qed.
  Lemma sso_swap_ok h os s s' c c' : wf h (Sso s c :: os) -> okS s' c' -> wf h (Sso s' c' :: os).
  Proof.
    intros [F H] K. split.
    - inversion F; subst. constructor; auto.
    - intros p. specialize (H p). rewrite refs_cons in *. exact H.
  Qed.
  Lemma wf_sso h os s c : wf h (Sso s c :: os) -> okS s c.
  Proof. intros [F _]. now inversion F. Qed.
End Heap.

(* ---- blocks of cells ---- *)

Lemma rdc_some c i w : 0 <= i -> nth_error c (Z.to_nat i) = Some (Some w) -> rdc c i = Ok w.
Proof. intros I E. unfold rdc. replace (i <? 0) with false by lia. now rewrite E. Qed.
Lemma wrc_some c i w : 0 <= i < Z.of_nat (length c) -> wrc c i w = Ok (upd c (Z.to_nat i) (Some w)).
Proof. intros I. unfold wrc. replace ((i <? 0) || (Z.of_nat (length c) <=? i)) with false by lia. reflexivity. Qed.

Lemma fill_cells_ok w : forall n c di, 0 <= di -> di + Z.of_nat n <= Z.of_nat (length c) ->
  exists c', fill_cells n c di w = Ok c' /\ length c' = length c /\
    forall j, 0 <= j -> nth_error c' (Z.to_nat j) =
      if (di <=? j) && (j <? di + Z.of_nat n) then Some (Some w) else nth_error c (Z.to_nat j).
Proof.
  induction n as [|n IH]; intros c di D L; cbn [fill_cells].
  - exists c. split; auto. split; auto. intros j J. replace ((di <=? j) && (j <? di + Z.of_nat 0)) with false by lia. reflexivity.
  - rewrite wrc_some by lia. cbn [bind].
    destruct (IH (upd c (Z.to_nat di) (Some w)) (di + 1)) as (c' & E & LL & N); [lia|rewrite upd_len; lia|].
    exists c'. split; auto. split; [now rewrite upd_len in LL|].
    intros j J. rewrite N by auto. destruct (Z.eq_dec j di) as [->|Q].
    + replace ((di + 1 <=? di) && (di <? di + 1 + Z.of_nat n)) with false by lia.
      replace ((di <=? di) && (di <? di + Z.of_nat (S n))) with true by lia. apply nth_upd_eq. lia.
    + rewrite nth_upd_neq by lia.
      replace ((di <=? j) && (j <? di + Z.of_nat (S n))) with ((di + 1 <=? j) && (j <? di + 1 + Z.of_nat n)) by lia. reflexivity.
Qed.

Lemma copy_cells_ok : forall n c di src si, 0 <= di -> 0 <= si -> di + Z.of_nat n <= Z.of_nat (length c) ->
  (forall i, si <= i < si + Z.of_nat n -> exists w, nth_error src (Z.to_nat i) = Some (Some w)) ->
  exists c', copy_cells n c di src si = Ok c' /\ length c' = length c /\
    forall j, 0 <= j -> nth_error c' (Z.to_nat j) =
      if (di <=? j) && (j <? di + Z.of_nat n) then nth_error src (Z.to_nat (j - di + si)) else nth_error c (Z.to_nat j).
Proof.
  induction n as [|n IH]; intros c di src si D S0 L H; cbn [copy_cells].
  - exists c. split; auto. split; auto. intros j J. replace ((di <=? j) && (j <? di + Z.of_nat 0)) with false by lia. reflexivity.
  - destruct (H si ltac:(lia)) as (w & Ew). rewrite (rdc_some _ _ _ S0 Ew). cbn [bind].
    rewrite wrc_some by lia. cbn [bind].
    destruct (IH (upd c (Z.to_nat di) (Some w)) (di + 1) src (si + 1)) as (c' & E & LL & N); [lia|lia|rewrite upd_len; lia| |].
    { intros i I. apply H. lia. }
    exists c'. split; auto. split; [now rewrite upd_len in LL|].
    intros j J. rewrite N by auto. destruct (Z.eq_dec j di) as [->|Q].
    + replace ((di + 1 <=? di) && (di <? di + 1 + Z.of_nat n)) with false by lia.
      replace ((di <=? di) && (di <? di + Z.of_nat (S n))) with true by lia. rewrite nth_upd_eq by lia.
      replace (di - di + si) with si by lia. now symmetry.
    + rewrite nth_upd_neq by lia.
      replace ((di <=? j) && (j <? di + Z.of_nat (S n))) with ((di + 1 <=? j) && (j <? di + 1 + Z.of_nat n)) by lia.
      replace (j - (di + 1) + (si + 1)) with (j - di + si) by lia. reflexivity.
Qed.
