(* Consequences used by the property theorems. *)
From Verif Require Import Base Object_Model Algorithm_Model Gradient_Model Gradient_Spec Gradient_Exec Gradient_Proofs Gradient_Proofs2 Gradient_Proofs3 Gradient_Proofs4 Gradient_Proofs5.
Ltac Zify.zify_post_hook ::= idtac.

Lemma app_len_inv {A} (a b c d : list A) : a ++ b = c ++ d -> length a = length c -> a = c /\ b = d.
Proof. revert c. induction a as [|x a IH]; intros [|y c] E L; try discriminate; auto. cbn [app] in E. injection E as -> E. injection L as L. destruct (IH c E L) as [-> ->]. auto. Qed.
Lemma split_unique (lo hi lo' hi' : list stop) x : lo ++ hi = lo' ++ hi' -> Forall (fun s : stop => nv s <= x) lo -> Forall (fun s : stop => x < nv s) hi -> Forall (fun s : stop => nv s <= x) lo' -> Forall (fun s : stop => x < nv s) hi' -> lo = lo' /\ hi = hi'.
Proof.
  revert lo'. induction lo as [|s lo IH]; intros lo' E L H L' H'.
  - destruct lo' as [|s' lo']; auto. cbn [app] in E. subst hi. inversion H; inversion L'; subst. lia.
  - destruct lo' as [|s' lo']; cbn [app] in E.
    + subst hi'. inversion H'; inversion L; subst. lia.
    + injection E as <- E. inversion L; inversion L'; subst. destruct (IH lo' E) as [-> ->]; auto.
Qed.
Lemma pair_before (lo hi : list stop) (s1 s2 : stop) x : wf (lo ++ s1 :: s2 :: hi) -> nv s1 = x -> nv s2 = x -> at_offset x lo = [].
Proof.
  intros (_ & _ & C) E1 E2. specialize (C x). change (s1 :: s2 :: hi) with ([s1] ++ [s2] ++ hi) in C. rewrite !at_app, !at_one, !app_length in C.
  destruct (Z.eqb_spec (nv s1) x); [|lia]. destruct (Z.eqb_spec (nv s2) x); [|lia]. cbn [length] in C. destruct (at_offset x lo); auto. cbn [length] in C. lia.
Qed.
Lemma at_nil_in x (l : list stop) s : at_offset x l = [] -> In s l -> nv s <> x.
Proof. intros E H Q. assert (I : In s (at_offset x l)). { unfold at_offset. apply filter_In. split; auto. cbn beta. apply Z.eqb_eq. auto. } rewrite E in I. destruct I. Qed.
Lemma added_det l o c r r' : wf l -> added l o c r -> added l o c r' -> r = r'.
Proof.
  intros W. assert (K : forall lo s1 s2 hi, l = lo ++ s1 :: s2 :: hi -> nval (fst s1) = nval o -> nval (fst s2) = nval o -> (length (at_offset (nval o) l) < 2)%nat -> False).
  { intros lo s1 s2 hi -> E1 E2 C. change (s1 :: s2 :: hi) with ([s1] ++ [s2] ++ hi) in C. rewrite !at_app, !at_one, !app_length in C. destruct (Z.eqb_spec (nv s1) (nval o)); [|lia]. destruct (Z.eqb_spec (nv s2) (nval o)); [|lia]. cbn [length] in C. lia. }
  intros [(C & lo & hi & E & L & H & ->)|(lo & s1 & s2 & hi & E & E1 & E2 & ->)] [(C' & lo' & hi' & E' & L' & H' & ->)|(lo' & s1' & s2' & hi' & E' & E1' & E2' & ->)].
  - rewrite E in E'. destruct (split_unique _ _ _ _ _ E' L H L' H') as [-> ->]. reflexivity.
  - exfalso. eapply K; eauto.
  - exfalso. eapply K; eauto.
  - assert (W1 := W). assert (W2 := W). rewrite E in W1. rewrite E' in W2. pose proof (pair_before _ _ _ _ _ W1 E1 E2) as B1. pose proof (pair_before _ _ _ _ _ W2 E1' E2') as B2.
    assert (EE : lo ++ s1 :: s2 :: hi = lo' ++ s1' :: s2' :: hi') by congruence. clear - EE B1 B2 E1 E1'.
    assert (LL : length lo = length lo').
    { destruct (Nat.lt_trichotomy (length lo) (length lo')) as [Q|[Q|Q]]; auto; exfalso.
      - apply (at_nil_in _ _ s1 B2); [|auto]. apply nth_error_In with (n := length lo). rewrite <- (nth_error_app1 lo' (s1' :: s2' :: hi')) by auto. rewrite <- EE, nth_error_app2, Nat.sub_diag by lia. reflexivity.
      - apply (at_nil_in _ _ s1' B1); [|auto]. apply nth_error_In with (n := length lo'). rewrite <- (nth_error_app1 lo (s1 :: s2 :: hi)) by auto. rewrite EE, nth_error_app2, Nat.sub_diag by lia. reflexivity. }
    destruct (app_len_inv _ _ _ _ EE LL) as [-> Q]. injection Q as -> -> ->. reflexivity.
Qed.

(* a stop replaced at its own offset, when it is not the first one of a pair *)
Lemma added_back (x z : list stop) s o c : wf (x ++ s :: z) -> fst s = o -> (forall t z', z = t :: z' -> nv t <> nval o) -> added (x ++ z) o c (x ++ (o, c) :: z).
Proof.
  intros (F & S & C) Es Nx. left. apply ss_app in S as (S1 & S2 & S3). inversion S2 as [|? ? S4 S5]; subst. split.
  - specialize (C (nval (fst s))). change (s :: z) with ([s] ++ z) in C. rewrite !at_app, at_one, !app_length in *. rewrite Z.eqb_refl in C. cbn [length] in C. lia.
  - exists x, z. split; auto. split; [revert S3; apply Forall_impl; intros t Ht; inversion Ht; auto|]. split; auto.
    destruct z as [|t z]; auto. specialize (Nx t z eq_refl). inversion S5; subst. apply ss_head in S4. assert (nval (fst s) < nv t) by lia. constructor; auto. revert S4. apply Forall_impl. intros u Hu. lia.
Qed.

Lemma filter_all {A} (p : A -> bool) l : Forall (fun x => p x = true) l -> filter p l = l.
Proof. induction 1 as [|x l H _ IH]; auto. cbn [filter]. rewrite H, IH. auto. Qed.
Lemma filter_none {A} (p : A -> bool) l : Forall (fun x => p x = false) l -> filter p l = [].
Proof. induction 1 as [|x l H _ IH]; auto. cbn [filter]. rewrite H. auto. Qed.

(* the interval as a filter *)
Lemma interval_filter lo mid hi a b : wf (lo ++ mid ++ hi) -> valid a -> valid b -> Forall (fun s : stop => dlt (fst s) a = true) lo ->
  match mid ++ hi with [] => True | s :: _ => dlt (fst s) a = false end -> Forall (fun s : stop => dle (fst s) b = true) mid -> match hi with [] => True | s :: _ => dle (fst s) b = false end -> nval a <= nval b ->
  lo ++ hi = filter (fun s : stop => negb ((nval a <=? nv s) && (nv s <=? nval b))) (lo ++ mid ++ hi).
Proof.
  intros W Va Vb L M1 M2 H Hab. pose proof (wf_valid _ W) as V. apply Forall_app in V as [V1 V2]. apply Forall_app in V2 as [V2 V3]. destruct W as (_ & S & _). apply ss_app in S as (_ & S & _).
  assert (G1 : Forall (fun s : stop => nval a <= nv s) (mid ++ hi)).
  { destruct (mid ++ hi) as [|s r] eqn:E; auto. assert (Vs : valid (fst s)). { assert (HIn : In s (mid ++ hi)) by (rewrite E; left; auto). apply in_app_or in HIn. rewrite Forall_forall in *. destruct HIn; auto. }
    rewrite dlt_n in M1 by auto. apply ss_head in S. constructor; [lia|]. revert S. apply Forall_impl. intros. lia. }
  apply ss_app in S as (_ & S & _). apply Forall_app in G1 as [G1 G2].
  assert (G3 : Forall (fun s : stop => nval b < nv s) hi).
  { destruct hi as [|s r]; auto. inversion V3; subst. rewrite dle_n in H by auto. apply ss_head in S. constructor; [lia|]. revert S. apply Forall_impl. intros. lia. }
  rewrite !filter_app. rewrite (filter_all _ lo), (filter_none _ mid), (filter_all _ hi); auto.
  - revert G3. apply Forall_impl. intros s Q. rewrite negb_true_iff, andb_false_iff. right. apply Z.leb_gt. auto.
  - rewrite Forall_forall in *. intros s Hs. specialize (G1 s Hs). specialize (M2 s Hs). rewrite dle_n in M2 by auto. rewrite negb_false_iff, andb_true_iff. split; lia.
  - rewrite Forall_forall in *. intros s Hs. specialize (L s Hs). cbn beta in L. rewrite dlt_n in L by auto. rewrite negb_true_iff, andb_false_iff. left. apply Z.leb_gt. lia.
Qed.
Lemma offset_filter (lo mid hi : list stop) x : Forall (fun s : stop => nv s < x) lo -> Forall (fun s : stop => nv s = x) mid -> Forall (fun s : stop => x < nv s) hi ->
  lo ++ hi = filter (fun s : stop => negb (nv s =? x)) (lo ++ mid ++ hi).
Proof.
  intros L M H. rewrite !filter_app. rewrite (filter_all _ lo), (filter_none _ mid), (filter_all _ hi); auto.
  - revert H. apply Forall_impl. intros s Q. rewrite negb_true_iff. apply Z.eqb_neq. lia.
  - revert M. apply Forall_impl. intros s Q. rewrite negb_false_iff. apply Z.eqb_eq. lia.
  - revert L. apply Forall_impl. intros s Q. rewrite negb_true_iff. apply Z.eqb_neq. lia.
Qed.
