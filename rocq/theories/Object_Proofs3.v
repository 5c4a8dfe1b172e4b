From Verif Require Import Base IntOps_Model Algorithm_Model Object_Model Object_Spec Object_Proofs Object_Proofs2 Object_Client BitArray_Proofs8.
Require Import Permutation.

Definition lwf := wf (ext := True) (fun _ _ _ => True) (fun _ _ => True).

Lemma lwf_mid h l1 o l2 : lwf h (l1 ++ o :: l2) <-> lwf h (o :: l1 ++ l2).
Proof. split; intros H; (eapply wf_perm; [|exact H]); [apply Permutation_sym|]; apply Permutation_middle. Qed.
Lemma lwf_end h o os : lwf h (o :: os) -> lwf h (os ++ [o]).
Proof. intros H. eapply wf_perm; [|exact H]. apply Permutation_cons_append. Qed.
Lemma lwf_dflt h os : lwf h os -> lwf h (dflt_obj :: os).
Proof. intros W. now apply wf_tail_sso. Qed.
Lemma lwf_new h os imm s cp c : lwf h os -> lwf (h ++ [Some (new_impl imm s cp c)]) (Dyn (length h) :: os).
Proof.
  intros W. pose proof (refs_out (ext := True) (fun _ _ _ => True) (fun _ _ => True) _ _ (length h) W (le_n _)) as RO. destruct W as [F H]. split.
  - constructor; auto. exact I.
  - intros p. rewrite nth_snoc, refs_cons. cbn [refers]. specialize (H p). destruct (Nat.eqb_spec p (length h)) as [->|N].
    + rewrite RO. split; auto. unfold new_impl. destruct imm; cbn; lia.
    + exact H.
Qed.
Lemma remove_mid {A} (l1 l2 : list A) o : remove_at (l1 ++ o :: l2) (length l1) = l1 ++ l2.
Proof. apply del_mid. Qed.
Lemma lrelease h o os : lwf h (o :: os) -> exists h', release h o = Ok h' /\ lwf h' os.
Proof. intros W. destruct (release_ok (ext := True) (fun _ _ _ => True) (fun _ _ => True) (fun _ _ => tt) tt h os o W) as (h' & R & W' & _). eauto. Qed.
Lemma lretain h o os : lwf h os -> In o os -> exists h', retain h o = Ok h' /\ lwf h' (o :: os).
Proof. intros W I. destruct (retain_ok (ext := True) (fun _ _ _ => True) (fun _ _ => True) (fun _ _ => tt) tt h os o W I) as (h' & R & W' & _). eauto. Qed.

Lemma lget os i : (i < length os)%nat -> exists o l1 l2, lhandle os i = Ok o /\ os = l1 ++ o :: l2 /\ length l1 = i.
Proof.
  intros L. unfold lhandle. destruct (nth_error os i) as [o|] eqn:E; [|apply nth_error_None in E; lia].
  destruct (nth_error_split _ _ E) as (l1 & l2 & -> & <-). eauto 6.
Qed.

Lemma lrun_ok p : forall h os, lwf h os -> lvalid (length os) p -> exists h' os', lrun h os p = Ok (h', os') /\ lwf h' os'.
Proof.
  induction p as [|l p IH]; intros h os W Vd; [exists h, os; auto|]. cbn [lrun].
  assert (STEP : forall h1 os1, lrun_call h os l = Ok (h1, os1) -> lwf h1 os1 -> lvalid (length os1) p ->
    exists h' os', (let* (h', os') := lrun_call h os l in lrun h' os' p) = Ok (h', os') /\ lwf h' os').
  { intros h1 os1 E W1 V1. rewrite E. cbn [bind]. auto. }
  destruct l as [imm s cp c| |j|j|i|i|i j|i j]; cbn [lvalid] in Vd.
  - eapply STEP; [reflexivity|apply lwf_end, lwf_new; auto|]. rewrite app_length. cbn. now rewrite Nat.add_1_r.
  - eapply STEP; [reflexivity|apply lwf_end, lwf_dflt; auto|]. rewrite app_length. cbn. now rewrite Nat.add_1_r.
  - destruct Vd as [L V1]. destruct (lget os j L) as (o & l1 & l2 & E & EO & _).
    destruct (lretain h o os W) as (h' & R & W'). { subst. apply in_or_app. right. now left. }
    eapply STEP; [cbn [lrun_call]; rewrite E; cbn [bind]; rewrite R; reflexivity|now apply lwf_end|]. rewrite app_length. cbn. now rewrite Nat.add_1_r.
  - destruct Vd as [L V1]. destruct (lget os j L) as (o & l1 & l2 & E & -> & <-).
    eapply STEP; [cbn [lrun_call]; rewrite E; cbn [bind]; rewrite upd_mid; reflexivity| |].
    + rewrite <- app_assoc. cbn [app]. apply lwf_mid, lwf_dflt. rewrite app_assoc. apply lwf_end. now apply lwf_mid.
    + rewrite app_length in V1. rewrite !app_length. cbn [length] in *. now replace (length l1 + S (length l2) + 1)%nat with (S (length l1 + S (length l2)))%nat by lia.
  - destruct Vd as [L V1]. destruct (lget os i L) as (o & l1 & l2 & E & -> & <-). apply lwf_mid in W. destruct (lrelease h o _ W) as (h' & R & W').
    eapply STEP; [cbn [lrun_call]; rewrite E; cbn [bind]; rewrite R; cbn [bind]; rewrite remove_mid; reflexivity|auto|].
    rewrite app_length in *. cbn [length] in *. now replace (pred (length l1 + S (length l2))) with (length l1 + length l2)%nat in V1 by lia.
  - destruct Vd as [L V1]. destruct (lget os i L) as (o & l1 & l2 & E & -> & <-). apply lwf_mid in W. destruct (lrelease h o _ W) as (h' & R & W').
    eapply STEP; [cbn [lrun_call]; rewrite E; cbn [bind]; rewrite R; cbn [bind]; rewrite upd_mid; reflexivity|apply lwf_mid, lwf_dflt; auto|].
    now rewrite app_length in *.
  - destruct Vd as (Li & L & V1). destruct (lget os j L) as (o & l1 & l2 & E & -> & <-).
    assert (W1 : lwf h (o :: l1 ++ dflt_obj :: l2)). { apply (lwf_mid h (o :: l1) dflt_obj l2). apply lwf_dflt. now apply lwf_mid in W. }
    assert (LE : length (l1 ++ dflt_obj :: l2) = length (l1 ++ o :: l2)) by (rewrite !app_length; reflexivity). 
    rewrite <- LE in V1, Li. cbn [lrun_call] in *. rewrite E in *. cbn [bind] in *. rewrite upd_mid in *. clear E LE W L.
    set (os1 := l1 ++ dflt_obj :: l2) in *. clearbody os1. clear l1 l2.
    destruct (lget os1 i Li) as (s & k1 & k2 & Es & -> & <-). rewrite Es in *. cbn [bind] in *.
    apply (lwf_mid h (o :: k1) s k2) in W1. destruct (lrelease h s _ W1) as (h' & R & W').
    eapply STEP; [rewrite R; cbn [bind]; rewrite upd_mid; reflexivity|now apply lwf_mid|]. now rewrite app_length in *.
  - destruct Vd as (Li & Lj & V1). destruct (lget os j Lj) as (o & m1 & m2 & E & EO & _).
    destruct (lretain h o os W) as (h1 & R & W1). { subst. apply in_or_app. right. now left. }
    destruct (lget os i Li) as (s & k1 & k2 & Es & -> & <-). apply (lwf_mid h1 (o :: k1) s k2) in W1. destruct (lrelease h1 s _ W1) as (h' & R' & W').
    eapply STEP; [cbn [lrun_call]; rewrite Es; cbn [bind]; rewrite E; cbn [bind]; rewrite R; cbn [bind]; rewrite R'; cbn [bind]; rewrite upd_mid; reflexivity|now apply lwf_mid|].
    now rewrite app_length in *.
Qed.

(* ---- growth ---- *)
Definition stable (r : Z) : Prop := (exists k, 0 <= k /\ r = 2 ^ k) \/ 2 ^ 23 <= r.
Lemma expand_grow y r r' : 0 < r < y -> y < 2 ^ 62 -> stable r -> expand_impl_size y = Ok r' -> stable r' /\ 4 * r <= 3 * r'.
Proof.
  intros R Y ST E. destruct (expand_ok y ltac:(lia)) as (r1 & E1 & B & L1 & L2). rewrite E in E1. injection E1 as <-. unfold BL_ALLOC_GROW_LIMIT in *.
  destruct (Z.lt_ge_cases y (2 ^ 23)) as [Q|Q].
  - destruct (L1 Q) as (k & K & -> & P). split. { left. exists k. split; [lia|auto]. }
    destruct ST as [(j & J & ->)|ST]; [|lia]. assert (j < k) by (apply (Z.pow_lt_mono_r_iff 2); lia).
    assert (2 ^ (j + 1) <= 2 ^ k) by (apply Z.pow_le_mono_r; lia). rewrite Z.pow_add_r in * by lia. change (2 ^ 1) with 2 in *. lia.
  - assert (EQ : r' = y + y / 4 + y / 8) by (apply L2; auto; lia). split; [right; lia|]. 
    assert (y / 4 * 4 > y - 4) by lia. assert (y / 8 * 8 > y - 8) by lia. lia.
Qed.
Lemma append_many_ok n : forall w size cap cost, 0 < w -> 0 < size <= cap -> size + Z.of_nat n * w < 2 ^ 62 -> 0 <= cost ->
  (cost = 0 \/ (cost <= 3 * cap /\ stable cap /\ cap <= 2 * size + 2)) ->
  exists cap' cost', append_many n w size cap cost = Ok (size + Z.of_nat n * w, cap', cost') /\ size + Z.of_nat n * w <= cap' /\ cost <= cost' <= 6 * (size + Z.of_nat n * w) + 6.
Proof.
  induction n as [|n IH]; intros w size cap cost Hw Hs HN HC INV.
  - exists cap, cost. cbn [append_many]. rewrite Z.add_0_r. split; auto. split; [lia|]. destruct INV as [->|(I & _ & J)]; lia.
  - cbn [append_many]. cbv zeta. replace (size + Z.of_nat (S n) * w) with (size + w + Z.of_nat n * w) in * by lia. destruct (Z.leb_spec (size + w) cap).
    + destruct (IH w (size + w) cap cost) as (c1 & c2 & E & B1 & B2); try lia. { destruct INV as [->|(I & S1 & J)]; auto. right. repeat split; auto; lia. }
      exists c1, c2. auto.
    + assert (0 <= Z.of_nat n * w) by nia.
      destruct (expand_ok (size + w) ltac:(lia)) as (r & E & B & _). rewrite E. cbn [bind].
      destruct (expand_bound (size + w) r ltac:(lia) E) as [B1 B2].
      destruct (IH w (size + w) r (cost + size)) as (c1 & c2 & E' & B1' & B2'); try lia.
      { right. destruct INV as [->|(I & S1 & J)].
        - split; [lia|]. split; [|lia]. destruct (expand_ok (size + w) ltac:(lia)) as (r1 & E1 & B3 & L1 & L2). rewrite E in E1. injection E1 as <-.
          unfold BL_ALLOC_GROW_LIMIT in *. destruct (Z.lt_ge_cases (size + w) (2 ^ 23)) as [Q|Q]; [|right; lia].
          destruct (L1 Q) as (k & K & -> & P). left. exists k. split; [lia|auto].
        - destruct (expand_grow (size + w) cap r ltac:(lia) ltac:(lia) S1 E) as [S2 G]. split; [lia|]. split; auto; lia. }
      exists c1, c2. split; auto. split; [lia|]. lia.
Qed.

(* ---- nothing but the count of an Impl changes, and a freed one stays freed ---- *)
Definition keep1 (a b : option impl) : Prop :=
  match a, b with
  | Some x, Some y => base y = base x /\ isize y = isize x /\ icap y = icap x /\ mem y = mem x
  | _, None => True
  | None, Some _ => False
  end.
Definition keeps (h h' : heap) : Prop := forall r a, nth_error h r = Some a -> exists b, nth_error h' r = Some b /\ keep1 a b.
Lemma keep1_refl a : keep1 a a. Proof. destruct a; cbn; auto. Qed.
Lemma keeps_refl h : keeps h h. Proof. intros r a E. exists a. split; auto using keep1_refl. Qed.
Lemma keeps_trans a b c : keeps a b -> keeps b c -> keeps a c.
Proof.
  intros K1 K2 r x E. destruct (K1 r x E) as (y & E1 & H1). destruct (K2 r y E1) as (z & E2 & H2). exists z. split; auto.
  destruct x as [x|], y as [y|], z as [z|]; cbn in *; intuition congruence.
Qed.
Lemma keeps_upd h p im x : nth_error h p = Some (Some im) -> keep1 (Some im) x -> keeps h (upd h p x).
Proof.
  intros E K r a Er. destruct (Nat.eq_dec p r) as [<-|N].
  - exists x. rewrite E in Er. injection Er as <-. split; auto. apply nth_upd_eq. apply nth_error_Some. congruence.
  - exists a. rewrite nth_upd_neq by auto. auto using keep1_refl.
Qed.
Lemma keeps_release h o h' : release h o = Ok h' -> keeps h h'.
Proof.
  destruct o as [s c|p]; cbn [release]; [intros [= <-]; apply keeps_refl|]. unfold get_impl. destruct (nth_error h p) as [[im|]|] eqn:E; try discriminate.
  cbn [bind]. destruct (rc im =? base im); intros [= <-]; eapply keeps_upd; eauto; cbn; auto.
Qed.
Lemma keeps_retain h o h' : retain h o = Ok h' -> keeps h h'.
Proof.
  destruct o as [s c|p]; cbn [retain]; [intros [= <-]; apply keeps_refl|]. unfold get_impl. destruct (nth_error h p) as [[im|]|] eqn:E; try discriminate.
  cbn [bind]. intros [= <-]. eapply keeps_upd; eauto. cbn; auto.
Qed.
Lemma keeps_call h os l h' os' : lrun_call h os l = Ok (h', os') -> keeps h h'.
Proof.
  destruct l as [imm s cp c| |j|j|i|i|i j|i j]; cbn [lrun_call]; intros H.
  - injection H as <- _. intros r a E. exists a. split; auto using keep1_refl. rewrite nth_error_app1; auto. apply nth_error_Some. congruence.
  - injection H as <- _. apply keeps_refl.
  - destruct (lhandle os j); try discriminate. cbn [bind] in H. destruct (retain h a) eqn:R; try discriminate. cbn [bind] in H. injection H as <- _. eauto using keeps_retain.
  - destruct (lhandle os j); try discriminate. injection H as <- _. apply keeps_refl.
  - destruct (lhandle os i); try discriminate. cbn [bind] in H. destruct (release h a) eqn:R; try discriminate. cbn [bind] in H. injection H as <- _. eauto using keeps_release.
  - destruct (lhandle os i); try discriminate. cbn [bind] in H. destruct (release h a) eqn:R; try discriminate. cbn [bind] in H. injection H as <- _. eauto using keeps_release.
  - destruct (lhandle os j); try discriminate. cbn [bind] in H. destruct (lhandle _ i); try discriminate. cbn [bind] in H.
    destruct (release h a0) eqn:R; try discriminate. cbn [bind] in H. injection H as <- _. eauto using keeps_release.
  - destruct (lhandle os i); try discriminate. cbn [bind] in H. destruct (lhandle _ j); try discriminate. cbn [bind] in H.
    destruct (retain h a0) eqn:R0; try discriminate. cbn [bind] in H.
    destruct (release a1 a) eqn:R; try discriminate. cbn [bind] in H. injection H as <- _. eauto using keeps_release, keeps_trans, keeps_retain.
Qed.
Lemma keeps_run p : forall h os h' os', lrun h os p = Ok (h', os') -> keeps h h'.
Proof.
  induction p as [|l p IH]; intros h os h' os' H; cbn [lrun] in H; [injection H as <- _; apply keeps_refl|].
  destruct (lrun_call h os l) as [[h1 os1]| | |] eqn:E; try discriminate. cbn [bind] in H. eapply keeps_trans; eauto using keeps_call.
Qed.
