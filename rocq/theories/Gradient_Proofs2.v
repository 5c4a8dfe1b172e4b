(* analyze_stop_array and copy_unsafe_stops. *)
From Verif Require Import Base Object_Model Algorithm_Model Algorithm_Spec Algorithm_Proofs Algorithm_Proofs2 Gradient_Model Gradient_Spec Gradient_Proofs.
Ltac Zify.zify_post_hook ::= idtac.

Notation nv s := (nval (fst s)).
Definition up (l : list stop) (x : Z) : Prop := Forall (fun s : stop => nv s <= x) l.

Lemma at_app x (a b : list stop) : at_offset x (a ++ b) = at_offset x a ++ at_offset x b.
Proof. unfold at_offset. apply filter_app. Qed.
Lemma at_none x (l : list stop) : Forall (fun s : stop => nv s <> x) l -> at_offset x l = [].
Proof. unfold at_offset. induction 1 as [|s l H _ IH]; [reflexivity|]. cbn [filter]. destruct (Z.eqb_spec (nval (fst s)) x); [contradiction|auto]. Qed.
Lemma at_one x (s : stop) : at_offset x [s] = if nv s =? x then [s] else [].
Proof. reflexivity. Qed.
Lemma at_lt x y (l : list stop) : up l y -> y < x -> at_offset x l = [].
Proof. intros H L. apply at_none. revert H. apply Forall_impl. intros. lia. Qed.

Lemma ss_app {A} (R : A -> A -> Prop) a b : StronglySorted R (a ++ b) <-> StronglySorted R a /\ StronglySorted R b /\ Forall (fun x => Forall (R x) b) a.
Proof.
  induction a as [|x a IH]; cbn [app].
  - split; [intros; repeat split; auto; constructor|tauto].
  - split.
    + intros H. inversion H as [|? ? H1 H2]; subst. apply Forall_app in H2 as [F G]. apply IH in H1 as (P & Q & S). repeat split; auto; constructor; auto.
    + intros (P & Q & S). inversion P as [|? ? P1 P2]; subst. inversion S as [|? ? S1 S2]; subst. constructor; [apply IH; auto|]. apply Forall_app. auto.
Qed.

Lemma wf_snoc (l : list stop) (s : stop) : wf l -> in01 (fst s) -> up l (nv s) -> (length (at_offset (nv s) l) < 2)%nat -> wf (l ++ [s]).
Proof.
  intros (F & S & C) I U L. split; [|split].
  - apply Forall_app. auto.
  - apply ss_app. split; auto. split; [constructor; [constructor|constructor]|]. revert U. apply Forall_impl. intros a H. constructor; auto.
  - intros x. rewrite at_app, app_length, at_one. specialize (C x). destruct (Z.eqb_spec (nval (fst s)) x) as [<-|]; cbn [length]; lia.
Qed.
Lemma wf_prefix (a b : list stop) : wf (a ++ b) -> wf a.
Proof.
  intros (F & S & C). apply Forall_app in F as [F _]. apply ss_app in S as (S & _). split; auto. split; auto.
  intros x. specialize (C x). rewrite at_app, app_length in C. lia.
Qed.
Lemma wf_nil : wf []. Proof. split; [constructor|split; [constructor|]]. intros x. cbn. lia. Qed.

(* analysis *)
Lemma analyze_invalid l : forall r w p, analyze_loop l r w p <> 2 -> Forall (fun s : stop => in01 (fst s)) l.
Proof.
  induction l as [|(o, c) l IH]; intros r w p H; constructor; cbn [analyze_loop] in H.
  - destruct (dle D0 o && dle o D1) eqn:E; [|cbn [negb] in H; congruence]. apply range_check in E. exact E.
  - destruct (dle D0 o && dle o D1) eqn:E; [|cbn [negb] in H; congruence]. cbn [negb] in H. eapply IH. exact H.
Qed.
Lemma analyze_true l : forall w p, analyze_loop l true w p <> 0.
Proof. induction l as [|(o, c) l IH]; intros w p; cbn [analyze_loop]; [congruence|]. destruct (negb _); [congruence|]. cbn [orb]. apply IH. Qed.
Lemma analyze_range l : forall r w p, 0 <= analyze_loop l r w p <= 2.
Proof. induction l as [|(o, c) l IH]; intros r w p; cbn [analyze_loop]; [destruct r; lia|]. destruct (negb _); [lia|]. apply IH. Qed.

Lemma analyze_wf l : forall pre w p, valid p -> wf pre -> up pre (nval p) -> (w = false -> (length (at_offset (nval p) pre) < 2)%nat) ->
  analyze_loop l false w p = 0 -> wf (pre ++ l).
Proof.
  induction l as [|(o, c) l IH]; intros pre w p V W U N H; [rewrite app_nil_r; auto|]. cbn [analyze_loop] in H.
  destruct (dle D0 o && dle o D1) eqn:E; [|cbn [negb] in H; congruence]. cbn [negb orb] in H. apply range_check in E.
  pose proof (in01_valid o E) as Vo. rewrite (dlt_n o p Vo V), (deq_n o p Vo V) in H.
  destruct (Z.ltb_spec (nval o) (nval p)); [exfalso; revert H; apply analyze_true|]. cbn [orb] in H.
  replace (pre ++ (o, c) :: l) with ((pre ++ [(o, c)]) ++ l) by (rewrite <- app_assoc; reflexivity).
  assert (U2 : up pre (nval o)) by (revert U; apply Forall_impl; intros; lia).
  destruct (Z.eqb_spec (nval o) (nval p)) as [Q|Q].
  - destruct w; [exfalso; revert H; apply analyze_true|]. cbn [andb] in H. apply (IH _ true o); auto.
    + apply wf_snoc; auto. cbn [fst]. rewrite Q. auto.
    + apply Forall_app. split; auto. constructor; [cbn [fst]; lia|constructor].
    + discriminate.
  - cbn [andb] in H. pose proof (at_lt (nval o) (nval p) pre U ltac:(lia)) as Z0. apply (IH _ false o); auto.
    + apply wf_snoc; auto. cbn [fst]. rewrite Z0. cbn. lia.
    + apply Forall_app. split; auto. constructor; [cbn [fst]; lia|constructor].
    + intros _. rewrite at_app, Z0, at_one. cbn [fst app]. rewrite Z.eqb_refl. cbn. lia.
Qed.

Lemma wf_analyze l : forall pre w p, valid p -> wf (pre ++ l) -> up pre (nval p) ->
  ((pre = [] /\ nval p < 0 /\ w = false) \/ (1 <= length (at_offset (nval p) pre) /\ (w = true -> 2 <= length (at_offset (nval p) pre)))%nat) ->
  analyze_loop l false w p = 0.
Proof.
  induction l as [|(o, c) l IH]; intros pre w p V W U N; [reflexivity|]. cbn [analyze_loop].
  assert (E : in01 o). { destruct W as (F & _). apply Forall_app in F as [_ F]. inversion F; auto. }
  pose proof (in01_valid o E) as Vo. rewrite (proj2 (range_check o) E). cbn [negb orb]. rewrite (dlt_n o p Vo V), (deq_n o p Vo V).
  assert (L : nval p <= nval o).
  { destruct N as [(-> & N & _)|[N _]]; [destruct E; lia|]. destruct W as (_ & S & _). apply ss_app in S as (_ & _ & S).
    destruct (at_offset (nval p) pre) as [|s g] eqn:Eg; [cbn in N; lia|]. assert (I : In s (at_offset (nval p) pre)) by (rewrite Eg; left; auto).
    apply filter_In in I as [I J]. rewrite Forall_forall in S. specialize (S s I). inversion S as [|? ? S1 _]; subst. cbn [fst] in S1. lia. }
  destruct (Z.ltb_spec (nval o) (nval p)); [lia|]. cbn [orb].
  assert (W2 : wf ((pre ++ [(o, c)]) ++ l)) by (rewrite <- app_assoc; exact W).
  assert (U2 : up (pre ++ [(o, c)]) (nval o)).
  { apply Forall_app. split; [revert U; apply Forall_impl; intros; lia|]. constructor; [cbn [fst]; lia|constructor]. }
  assert (C : (length (at_offset (nval o) (pre ++ [(o, c)])) = length (at_offset (nval o) pre) + 1)%nat).
  { rewrite at_app, app_length, at_one. cbn [fst]. rewrite Z.eqb_refl. reflexivity. }
  pose proof (wf_prefix _ _ W2) as (_ & _ & C2). specialize (C2 (nval o)).
  destruct (Z.eqb_spec (nval o) (nval p)) as [Q|Q].
  - rewrite Q in *. destruct N as [(_ & N & _)|[N N2]]; [destruct E; lia|]. destruct w; [specialize (N2 eq_refl); lia|]. cbn [andb].
    apply (IH (pre ++ [(o, c)])); auto; [rewrite Q; auto|]. right. rewrite Q. split; [lia|]. intros _. lia.
  - cbn [andb]. apply (IH (pre ++ [(o, c)])); auto. right. split; [lia|discriminate].
Qed.

Lemma analyze_0 l : wf l <-> analyze_stop_array l = 0.
Proof.
  unfold analyze_stop_array. split.
  - intros W. apply (wf_analyze l []); auto; [apply valid_Dm1|constructor|]. left. split; auto. split; auto. apply nval_Dm1.
  - intros H. apply (analyze_wf l [] false Dm1); [apply valid_Dm1|apply wf_nil|constructor|intros _; cbn; lia|exact H].
Qed.

(* the order of alternative stops *)
Lemma alt_cmp_preorder : total_preorder alt_cmp.
Proof.
  split; intros [a i] [b j]; [|intros [c k]]; unfold alt_cmp; cbn [fst snd];
    repeat match goal with |- context [?a <? ?b] => destruct (Z.ltb_spec a b) end; cbn [Z.eqb]; lia.
Qed.
Lemma alt_cmp_antisym a b : alt_cmp a b <= 0 -> alt_cmp b a <= 0 -> a = b.
Proof.
  destruct a as [a i], b as [b j]. unfold alt_cmp. cbn [fst snd].
  destruct (Z.ltb_spec a b), (Z.ltb_spec b a); cbn [Z.eqb]; intros; try lia. f_equal; lia.
Qed.
Lemma ss_filter {A} (R : A -> A -> Prop) p l : StronglySorted R l -> StronglySorted R (filter p l).
Proof.
  induction 1 as [|x l S IH F]; cbn [filter]; [constructor|]. destruct (p x); auto. constructor; auto.
  rewrite Forall_forall in *. intros y Hy. apply filter_In in Hy. apply F. tauto.
Qed.
Lemma perm_filter {A} (p : A -> bool) l l' : Permutation l l' -> Permutation (filter p l) (filter p l').
Proof.
  induction 1 as [|x l l' P IH|x y l|l l' l'' P IH P' IH']; cbn [filter]; auto.
  - destruct (p x); auto.
  - destruct (p x), (p y); auto. apply perm_swap.
  - eapply perm_trans; eauto.
Qed.
Lemma sorted_unique (l : list alt) : forall l', StronglySorted (fun a b => alt_cmp a b <= 0) l -> StronglySorted (fun a b => alt_cmp a b <= 0) l' -> Permutation l l' -> l = l'.
Proof.
  induction l as [|x l IH]; intros l' S S' P; [apply Permutation_nil in P; auto|].
  destruct l' as [|y l']; [apply Permutation_sym, Permutation_nil in P; discriminate|].
  inversion S as [|? ? S1 F1]; subst. inversion S' as [|? ? S2 F2]; subst. rewrite Forall_forall in F1, F2.
  assert (E : x = y).
  { assert (I : In x (y :: l')) by (eapply Permutation_in; [exact P|left; auto]). assert (J : In y (x :: l)) by (eapply Permutation_in; [apply Permutation_sym; exact P|left; auto]).
    destruct I as [->|I]; auto. destruct J as [->|J]; auto. apply alt_cmp_antisym; auto. }
  subst y. f_equal. apply IH; auto. eapply Permutation_cons_inv. exact P.
Qed.
Lemma index_bound l : forall i a, In a (index_stops l i) -> i <= snd a.
Proof. induction l as [|(o, c) l IH]; intros i a H; cbn [index_stops] in H; [destruct H|]. destruct H as [<-|H]; [cbn; lia|]. apply IH in H. lia. Qed.
Lemma index_sorted l k : forall i, StronglySorted (fun a b => alt_cmp a b <= 0) (filter (fun a : alt => fst a =? k) (index_stops l i)).
Proof.
  induction l as [|(o, c) l IH]; intros i; cbn [index_stops filter]; [constructor|]. cbn [fst]. destruct (Z.eqb_spec (dval o) k) as [E|]; auto.
  constructor; auto. rewrite Forall_forall. intros [b j] H. apply filter_In in H as [H K]. cbn [fst] in K. apply index_bound in H. cbn [snd] in H.
  unfold alt_cmp. cbn [fst snd]. apply Z.eqb_eq in K. rewrite E, K, Z.ltb_irrefl. cbn [Z.eqb]. lia.
Qed.
Lemma index_length l : forall i, length (index_stops l i) = length l.
Proof. induction l as [|(o, c) l IH]; intros i; cbn [index_stops length]; auto. Qed.

(* the stop an index stands for *)
Definition get (src : list stop) (a : alt) : stop := nth (Z.to_nat (snd a)) src (0, 0).
Lemma index_get r : forall pre a, In a (index_stops r (Z.of_nat (length pre))) ->
  rd (pre ++ r) (snd a) = Ok (get (pre ++ r) a) /\ fst a = dval (fst (get (pre ++ r) a)) /\ In (get (pre ++ r) a) r.
Proof.
  induction r as [|(o, c) r IH]; intros pre a H; cbn [index_stops] in H; [destruct H|]. destruct H as [<-|H].
  - unfold get. cbn [snd fst]. rewrite Nat2Z.id, app_nth2, Nat.sub_diag by lia. cbn [nth fst]. split; [|split; [reflexivity|left; reflexivity]].
    unfold rd. destruct (Z.ltb_spec (Z.of_nat (length pre)) 0); [lia|]. rewrite Nat2Z.id, nth_error_app2, Nat.sub_diag by lia. reflexivity.
  - specialize (IH (pre ++ [(o, c)]) a). rewrite app_length, Nat2Z.inj_add, <- app_assoc in IH. cbn [length app] in IH. destruct (IH H) as (P & Q & R). split; auto. split; auto. right. auto.
Qed.
Lemma index_filter r k : forall pre, Forall (fun s : stop => valid (fst s)) r -> valid k ->
  map (get (pre ++ r)) (filter (fun a : alt => fst a =? dval k) (index_stops r (Z.of_nat (length pre)))) = at_offset (nval k) r.
Proof.
  induction r as [|(o, c) r IH]; intros pre V Vk; [reflexivity|]. inversion V as [|? ? Vo V']; subst. cbn [fst] in Vo.
  cbn [index_stops filter fst]. unfold at_offset. cbn [filter fst]. pose proof (dval_eq o k Vo Vk) as D.
  specialize (IH (pre ++ [(o, c)]) V' Vk). rewrite app_length, Nat2Z.inj_add, <- app_assoc in IH. cbn [length app] in IH.
  destruct (Z.eqb_spec (dval o) (dval k)), (Z.eqb_spec (nval o) (nval k)); try (exfalso; tauto).
  - cbn [map]. f_equal; [|exact IH]. unfold get. cbn [snd]. rewrite Nat2Z.id, app_nth2, Nat.sub_diag by lia. reflexivity.
  - exact IH.
Qed.

(* the removal of duplicates *)
Lemma ends_snoc {A} (g : list A) s : ends (g ++ [s]) = match g with [] => [s] | x :: _ => [x; s] end.
Proof. destruct g as [|x [|y t]]; [reflexivity|reflexivity|]. cbn [app ends]. f_equal. f_equal. apply last_last. Qed.
Lemma up_at (l : list stop) x : wf l -> up l x -> at_offset x l <> [] -> exists l0 y, l = l0 ++ [y] /\ nv y = x /\ at_offset x l = at_offset x l0 ++ [y].
Proof.
  intros W U N. destruct l as [|a l] using rev_ind; [contradiction|]. clear IHl. exists l, a.
  assert (E : nv a = x).
  { apply Forall_app in U as [U1 U2]. inversion U2 as [|? ? U3 _]; subst. destruct (Z.eq_dec (nval (fst a)) x); auto. exfalso. apply N. apply at_none.
    destruct W as (_ & S & _). apply ss_app in S as (_ & _ & S). apply Forall_app. split; [|constructor; auto].
    revert S. apply Forall_impl. intros b S. inversion S; subst. lia. }
  split; auto. split; auto. rewrite at_app, at_one, E, Z.eqb_refl. reflexivity.
Qed.

Lemma dedupe_ok src : forall alts p out o1 o2, valid o1 -> valid o2 ->
  Forall (fun a => rd src (snd a) = Ok (get src a) /\ fst a = dval (fst (get src a)) /\ in01 (fst (get src a))) alts ->
  StronglySorted (fun s t : stop => nv s <= nv t) (p ++ map (get src) alts) ->
  assigned p out -> up p (nval o2) -> up out (nval o2) ->
  ((nval o2 < 0 /\ p = []) \/ (1 <= length (at_offset (nval o2) p))%nat) ->
  (nval o1 = nval o2 -> nval o2 < 0 \/ (2 <= length (at_offset (nval o2) p))%nat) ->
  (nval o1 <> nval o2 -> (length (at_offset (nval o2) p) <= 1)%nat) ->
  exists r, dedupe alts src out (dval o1) (dval o2) = Ok r /\ assigned (p ++ map (get src) alts) r.
Proof.
  induction alts as [|a alts IH]; intros p out o1 o2 V1 V2 F S A U UO E0 E1 E2; cbn [dedupe map].
  - rewrite app_nil_r in *. eauto.
  - inversion F as [|? ? (R & K & I) F']; subst. destruct a as [k i]. cbn [fst snd] in *. set (s := get src (k, i)) in *. rewrite R. cbn [bind].
    pose proof (in01_valid _ I) as Vs. cbn [map] in S. fold s in S. fold s. rewrite K.
    replace (p ++ s :: map (get src) alts) with ((p ++ [s]) ++ map (get src) alts) in * by (rewrite <- app_assoc; reflexivity).
    assert (L : nval o2 <= nv s).
    { destruct E0 as [[N _]|N]; [destruct I; lia|]. apply ss_app in S as (S & _). apply ss_app in S as (_ & _ & S).
      destruct (at_offset (nval o2) p) as [|b g] eqn:Eg; [cbn in N; lia|]. assert (J : In b (at_offset (nval o2) p)) by (rewrite Eg; left; auto).
      apply filter_In in J as [J J2]. rewrite Forall_forall in S. specialize (S b J). inversion S. lia. }
    destruct A as (W & AG).
    assert (UP : up (p ++ [s]) (nv s)). { apply Forall_app. split; [revert U; apply Forall_impl; intros; lia|constructor; [lia|constructor]]. }
    assert (GP : at_offset (nv s) (p ++ [s]) = at_offset (nv s) p ++ [s]). { rewrite at_app, at_one, Z.eqb_refl. reflexivity. }
    assert (GO : forall x, x <> nv s -> at_offset x (p ++ [s]) = at_offset x p).
    { intros x Hx. rewrite at_app, at_one. destruct (Z.eqb_spec (nval (fst s)) x); [congruence|]. apply app_nil_r. }
    assert (UO2 : up out (nv s)) by (revert UO; apply Forall_impl; intros; lia).
    pose proof (dval_eq o1 o2 V1 V2) as D1. pose proof (dval_eq o2 (fst s) V2 Vs) as D2.
    assert (Next : forall out', assigned (p ++ [s]) out' -> up out' (nv s) -> exists r, dedupe alts src out' (dval o2) (dval (fst s)) = Ok r /\ assigned ((p ++ [s]) ++ map (get src) alts) r).
    { intros out' A' U'. apply (IH (p ++ [s]) out' o2 (fst s)); auto.
      - right. rewrite GP, app_length. cbn [length]. lia.
      - intros Q. right. destruct E0 as [[N _]|N]; [destruct I; lia|]. rewrite GP, app_length, <- Q. cbn [length]. lia.
      - intros Q. rewrite GP, (at_lt _ (nval o2) p U) by lia. cbn. lia. }
    destruct ((dval o1 =? dval o2) && (dval o2 =? dval (fst s))) eqn:Dup.
    + apply andb_true_iff in Dup as [Da Db]. apply Z.eqb_eq in Da, Db. apply D1 in Da. apply D2 in Db. specialize (E1 Da). destruct E1 as [E1|E1]; [destruct I; lia|].
      rewrite Db in E1. pose proof (AG (nv s)) as AGs. destruct (at_offset (nv s) p) as [|x g] eqn:Eg; [cbn in E1; lia|]. destruct g as [|y g]; [cbn in E1; lia|]. cbn [ends] in AGs.
      destruct (up_at out (nv s) W UO2) as (l0 & z & -> & Ez & Hz); [rewrite AGs; discriminate|].
      rewrite app_length. cbn [length Z.b2z]. destruct (Z.ltb_spec (Z.of_nat (length l0 + 1) - 1) 0); [lia|].
      replace (Z.to_nat (Z.of_nat (length l0 + 1) - 1)) with (length l0) by lia. rewrite firstn_app, Nat.sub_diag, firstn_all, firstn_O, app_nil_r.
      assert (H0 : at_offset (nv s) l0 = [x]).
      { rewrite AGs in Hz. change [x; last g y] with ([x] ++ [last g y]) in Hz. apply app_inj_tail in Hz as [Hz _]. auto. }
      apply Next.
      * split.
        -- apply wf_snoc; auto; [apply wf_prefix in W; auto|apply Forall_app in UO2; tauto|]. rewrite H0. cbn. lia.
        -- intros t. destruct (Z.eq_dec t (nv s)) as [->|Ht].
           ++ rewrite GP, ends_snoc, at_app, H0, at_one, Z.eqb_refl. reflexivity.
           ++ rewrite (GO t Ht), <- AG, !at_app, !at_one. destruct (Z.eqb_spec (nval (fst s)) t); [congruence|]. destruct (Z.eqb_spec (nval (fst z)) t); [congruence|]. reflexivity.
      * apply Forall_app in UO2 as [UO2 _]. apply Forall_app. split; auto. constructor; [lia|constructor].
    + cbn [Z.b2z]. rewrite Z.sub_0_r. destruct (Z.ltb_spec (Z.of_nat (length out)) 0); [lia|]. rewrite Nat2Z.id, firstn_all.
      assert (G1 : (length (at_offset (nv s) p) <= 1)%nat).
      { destruct (Z.eq_dec (nval o2) (nv s)) as [Q|Q]; [|rewrite (at_lt _ (nval o2) p U) by lia; cbn; lia]. rewrite <- Q. apply E2. intros Q1. apply D1 in Q1. apply D2 in Q. rewrite Q1, Q, !Z.eqb_refl in Dup. discriminate. }
      assert (G2 : at_offset (nv s) out = at_offset (nv s) p). { rewrite AG. destruct (at_offset (nv s) p) as [|x [|y g]]; auto. cbn in G1. lia. }
      apply Next.
      * split; [apply wf_snoc; auto; rewrite G2; lia|]. intros t. destruct (Z.eq_dec t (nv s)) as [->|Ht].
        -- rewrite GP, ends_snoc, at_app, G2, at_one, Z.eqb_refl. destruct (at_offset (nv s) p) as [|x [|y g]]; auto. cbn in G1. lia.
        -- rewrite (GO t Ht), <- AG, at_app, at_one. destruct (Z.eqb_spec (nval (fst s)) t); [congruence|]. apply app_nil_r.
      * apply Forall_app. split; auto. constructor; [lia|constructor].
Qed.

(* the last of the stops with the largest offset is missing *)
Definition without_last (l l' : list stop) : Prop :=
  exists l1 z l2, l = l1 ++ z :: l2 /\ l' = l1 ++ l2 /\ Forall (fun s : stop => nv s <= nv z) l1 /\ Forall (fun s : stop => nv s < nv z) l2.

Lemma last_occ (l : list stop) x : at_offset x l <> [] -> exists l1 z l2, l = l1 ++ z :: l2 /\ nv z = x /\ at_offset x l2 = [].
Proof.
  induction l as [|s l IH]; intros H; [contradiction|]. destruct (at_offset x l) eqn:E.
  - exists [], s, l. split; auto. split; auto. unfold at_offset in H. cbn [filter] in H. fold (at_offset x l) in H. rewrite E in H. destruct (Z.eqb_spec (nval (fst s)) x); auto. contradiction.
  - destruct IH as (l1 & z & l2 & -> & A & B); [discriminate|]. exists (s :: l1), z, l2. auto.
Qed.

Lemma copy_unsafe_ok cap l : Z.of_nat (length l) <= cap -> Z.of_nat (length l) < 2 ^ 64 -> analyze_stop_array l < 2 ->
  exists r, copy_unsafe_stops cap l (analyze_stop_array l) = Ok r /\ wf r /\ (length r <= length l)%nat /\
  ((wf l /\ r = l) \/ (~ wf l /\ exists l', without_last l l' /\ assigned l' r)).
Proof.
  intros C N A. unfold copy_unsafe_stops. destruct (Z.ltb_spec cap (Z.of_nat (length l))); [lia|]. pose proof (analyze_0 l) as A0.
  pose proof (analyze_range l false false Dm1) as AR. fold (analyze_stop_array l) in AR.
  destruct (Z.eqb_spec (analyze_stop_array l) 0) as [E|E]; cbn [orb].
  - exists l. apply A0 in E. split; auto.
  - assert (HI : Forall (fun s : stop => in01 (fst s)) l) by (apply (analyze_invalid l false false Dm1); fold (analyze_stop_array l); lia).
    destruct (Z.eqb_spec (Z.of_nat (length l)) 0) as [E0|E0].
    { destruct l; [|cbn [length] in E0; lia]. exfalso. apply E. reflexivity. }
    destruct (quick_sort_ok alt_cmp alt_cmp_preorder (index_stops l 0)) as (t & Et & P & S); [rewrite index_length; auto|]. rewrite Et. cbn [bind].
    assert (G : Forall (fun a => rd l (snd a) = Ok (get l a) /\ fst a = dval (fst (get l a)) /\ in01 (fst (get l a))) t).
    { rewrite Forall_forall. intros a Ha. apply (Permutation_in _ (Permutation_sym P)) in Ha. destruct (index_get l [] a Ha) as (Q & R & T). split; auto. split; auto. rewrite Forall_forall in HI. auto. }
    assert (SS : StronglySorted (fun s u : stop => nv s <= nv u) (map (get l) t)).
    { clear P Et. induction S as [|a t S IH F]; cbn [map]; [constructor|]. inversion G as [|? ? Ga Gt]; subst. constructor; auto. rewrite Forall_forall in *. intros u Hu. apply in_map_iff in Hu as (b & <- & Hb).
      specialize (F b Hb). destruct Ga as (_ & Ka & Ia). destruct (Gt b Hb) as (_ & Kb & Ib). pose proof (dval_lt _ _ (in01_valid _ Ib) (in01_valid _ Ia)) as D. rewrite <- Ka, <- Kb in D.
      unfold alt_cmp in F. destruct (Z.ltb_spec (fst a) (fst b)); [lia|]. destruct (Z.ltb_spec (fst b) (fst a)); [cbn in F; lia|]. lia. }
    assert (GR : forall x, at_offset x (map (get l) t) = at_offset x l).
    { intros x. assert (Sel : forall k, valid k -> at_offset (nval k) (map (get l) t) = at_offset (nval k) l).
      { intros k Vk. rewrite <- (index_filter l k []) by (auto; revert HI; apply Forall_impl; intros; apply in01_valid; auto). cbn [app length].
        change (Z.of_nat 0) with 0. rewrite (sorted_unique _ _ (index_sorted l (dval k) 0) (ss_filter _ (fun a : alt => fst a =? dval k) t S) (perm_filter _ _ _ P)).
        clear - G Vk. induction G as [|a t (R & K & I) G IH]; [reflexivity|]. cbn [map]. unfold at_offset. cbn [filter]. fold (at_offset (nval k) (map (get l) t)). rewrite IH.
        pose proof (dval_eq _ k (in01_valid _ I) Vk) as D. rewrite K. destruct (Z.eqb_spec (dval (fst (get l a))) (dval k)), (Z.eqb_spec (nval (fst (get l a))) (nval k)); try (exfalso; tauto); reflexivity. }
      destruct (at_offset x l) as [|s g] eqn:E1.
      - destruct (at_offset x (map (get l) t)) as [|s g] eqn:E2; auto. assert (J : In s (at_offset x (map (get l) t))) by (rewrite E2; left; auto). apply filter_In in J as [J J2].
        apply in_map_iff in J as (a & <- & Ha). rewrite Forall_forall in G. destruct (G a Ha) as (_ & _ & Ia). apply Z.eqb_eq in J2. specialize (Sel _ (in01_valid _ Ia)). rewrite J2 in Sel. congruence.
      - assert (J : In s (at_offset x l)) by (rewrite E1; left; auto). apply filter_In in J as [J J2]. rewrite Forall_forall in HI. apply Z.eqb_eq in J2. specialize (Sel _ (in01_valid _ (HI s J))). rewrite J2 in Sel. congruence. }
    assert (Lt : length t = length l) by (rewrite <- (Permutation_length P), index_length; auto).
    destruct t as [|z t _] using rev_ind; [cbn in Lt; lia|].
    rewrite app_length in Lt. cbn [length] in Lt. replace (length l - 1)%nat with (length t) by lia. rewrite firstn_app, Nat.sub_diag, firstn_all, firstn_O, app_nil_r.
    rewrite map_app in SS, GR. cbn [map] in SS, GR. apply Forall_app in G as [G Gz]. inversion Gz as [|? ? (_ & _ & Iz) _]; subst.
    pose proof SS as SS0. apply ss_app in SS as (SS & _ & SZ).
    destruct (dedupe_ok l t [] [] Dm1 Dm1 valid_Dm1 valid_Dm1 G) as (r & Er & Ar); auto; try (constructor; fail).
    { split; [apply wf_nil|]. reflexivity. }
    { left. split; auto. apply nval_Dm1. }
    { intros _. left. apply nval_Dm1. }
    cbn [app] in Ar. exists r. split; auto. split; [apply Ar|].
    set (zz := get l z) in *.
    destruct (last_occ l (nv zz)) as (l1 & w & l2 & El & Ew & E2).
    { rewrite <- GR, at_app, at_one, Z.eqb_refl. destruct (at_offset (nv zz) (map (get l) t)); discriminate. }
    assert (Max : Forall (fun s : stop => nv s <= nv zz) l).
    { rewrite Forall_forall. intros s Hs. assert (J : In s (at_offset (nv s) l)) by (apply filter_In; split; auto; apply Z.eqb_refl). rewrite <- GR in J. apply filter_In in J as [J _].
      apply in_app_iff in J as [J|[<-|[]]]; [|lia]. rewrite Forall_forall in SZ. specialize (SZ s J). inversion SZ; subst. auto. }
    assert (GG : forall x, at_offset x (l1 ++ l2) = at_offset x (map (get l) t)).
    { intros x. specialize (GR x). replace (at_offset x l) with (at_offset x (l1 ++ [w] ++ l2)) in GR by (rewrite El; reflexivity).
      rewrite !at_app, !at_one, Ew in GR. rewrite at_app. destruct (Z.eqb_spec (nval (fst zz)) x) as [Q|Q].
      - subst x. rewrite E2, app_nil_r in *. apply app_inj_tail in GR as [GR _]. auto.
      - rewrite app_nil_r in GR. cbn [app] in GR. auto. }
    split.
    + assert (LL : forall alts src out a b r, dedupe alts src out a b = Ok r -> (length r <= length out + length alts)%nat).
      { clear. induction alts as [|[k i] alts IH]; intros src out a b r H; cbn [dedupe] in H; [injection H as <-; lia|].
        destruct (rd src i); try discriminate. cbn [bind] in H. destruct (_ <? 0); [discriminate|]. apply IH in H. rewrite app_length, firstn_length in H. cbn [length] in *. lia. }
      apply LL in Er. cbn [length] in Er. lia.
    + right. split; [intros W; apply A0 in W; auto|]. exists (l1 ++ l2). split.
      * exists l1, w, l2. split; auto. split; auto. rewrite Ew. rewrite El in Max. apply Forall_app in Max as [M1 M2]. split; auto. inversion M2 as [|? ? _ M3]; subst.
        rewrite Forall_forall in *. intros s Hs. specialize (M3 s Hs). destruct (Z.eq_dec (nv s) (nv zz)) as [Q|]; [|lia]. exfalso.
        assert (J : In s (at_offset (nv zz) l2)) by (apply filter_In; split; auto; apply Z.eqb_eq; auto). rewrite E2 in J. destruct J.
      * destruct Ar as (W & HA). split; auto. intros x. rewrite HA, GG. reflexivity.
Qed.
