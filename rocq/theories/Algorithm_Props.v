(* Properties C06 (sorting) and C07 (searching). *)
From Verif Require Import Base Algorithm_Model Algorithm_Spec Algorithm_Proofs Algorithm_Proofs2.

(* ---- C06 ---- *)
(* Ok excludes out-of-array accesses, stack overflow (UB) and non-termination (NoFuel). *)
Theorem C06_quick_sort : forall (A : Type) (cmp : A -> A -> Z) (a : list A),
  total_preorder cmp -> Z.of_nat (length a) < 2 ^ 64 ->
  exists a', quick_sort cmp a = Ok a' /\ Permutation a a' /\ sorted_by cmp a'.
Proof. intros A cmp a TP HN. exact (quick_sort_ok cmp TP a HN). Qed.
Print Assumptions C06_quick_sort.

Theorem C06_insertion_sort : forall (A : Type) (cmp : A -> A -> Z) (a : list A), total_preorder cmp ->
  exists a', insertion_sort cmp a 0 (Z.of_nat (length a)) = Ok a' /\ Permutation a a' /\ sorted_by cmp a'.
Proof. intros A cmp a TP. exact (insertion_sort_full cmp TP a). Qed.
Print Assumptions C06_insertion_sort.

Lemma compare_op_preorder asc : total_preorder (compare_op asc).
Proof.
  split; unfold compare_op; intros; destruct asc;
    repeat match goal with |- context [?a <? ?b] => destruct (Z.ltb_spec a b) | |- context [?a >? ?b] => destruct (Z.gtb_spec a b)
      | H : context [?a <? ?b] |- _ => destruct (Z.ltb_spec a b) | H : context [?a >? ?b] |- _ => destruct (Z.gtb_spec a b) end; lia.
Qed.

(* default comparator, both orders *)
Theorem C06_sort_integers : forall a, Z.of_nat (length a) < 2 ^ 64 ->
  (exists l, quick_sort (compare_op true) a = Ok l /\ Permutation a l /\ StronglySorted Z.le l) /\
  (exists l, quick_sort (compare_op false) a = Ok l /\ Permutation a l /\ StronglySorted Z.ge l).
Proof.
  intros a HN.
  assert (H : forall (R S : Z -> Z -> Prop) l, (forall x y, R x y -> S x y) -> StronglySorted R l -> StronglySorted S l).
  { intros R S l HRS. induction 1; constructor; auto. eapply Forall_impl; [|eassumption]. auto. }
  split.
  - destruct (quick_sort_ok _ (compare_op_preorder true) a HN) as (l & E & P & S). exists l. split; [exact E|]. split; [exact P|].
    revert S. apply H. intros x y. unfold compare_op. destruct (Z.ltb_spec x y), (Z.gtb_spec x y); lia.
  - destruct (quick_sort_ok _ (compare_op_preorder false) a HN) as (l & E & P & S). exists l. split; [exact E|]. split; [exact P|].
    revert S. apply H. intros x y. unfold compare_op. destruct (Z.ltb_spec x y), (Z.gtb_spec x y); lia.
Qed.
Print Assumptions C06_sort_integers.

Example C06_ex : quick_sort (compare_op true) [9;3;7;1;8;2;6;0;5;4;3;3] = Ok [0;1;2;3;3;3;4;5;6;7;8;9]
  /\ quick_sort (compare_op false) [9;3;7;1;8;2;6;0;5;4;3;3] = Ok [9;8;7;6;5;4;3;3;3;2;1;0].
Proof. vm_compute. auto. Qed.

(* ---- C07 ---- *)
Theorem C07_lower_bound : forall (A K : Type) (pred : A -> K -> bool) (data : list A) (v : K),
  downward (fun x => pred x v) data ->
  exists r, lower_bound pred data v = Ok r /\ splits_at (fun x => pred x v) data r.
Proof. intros A K. exact lower_bound_ok. Qed.
Print Assumptions C07_lower_bound.

Theorem C07_closest_first : forall (A K : Type) (lt : A -> K -> bool) (data : list A) (v : K),
  downward (fun x => lt x v) data ->
  exists r, binary_search_closest_first lt data v = Ok r /\ splits_at (fun x => lt x v) data r.
Proof. intros A K. exact closest_first_ok. Qed.
Print Assumptions C07_closest_first.

Theorem C07_closest_last : forall (A K : Type) (le : A -> K -> bool) (data : list A) (v : K),
  downward (fun x => le x v) data ->
  exists r s, binary_search_closest_last le data v = Ok r /\ splits_at (fun x => le x v) data s /\ r = Z.max 0 (s - 1).
Proof. intros A K. exact closest_last_ok. Qed.
Print Assumptions C07_closest_last.

Lemma sorted_elem l : StronglySorted Z.le l -> forall i j x y, elem_at l i = Some x -> elem_at l j = Some y -> i <= j -> x <= y.
Proof.
  intros HS i j x y Ex Ey Hij. destruct (Z.eq_dec i j) as [->|Hne]; [assert (x = y) by congruence; lia|].
  pose proof (elem_at_range _ _ _ Ex). pose proof (elem_at_range _ _ _ Ey).
  revert i j x y Ex Ey Hij Hne H H0. induction HS as [|h l HS IH HF]; intros i j x y Ex Ey Hij Hne Hi Hj; cbn [length] in *; [lia|].
  rewrite elem_at_cons in Ey by lia. destruct (Z.eq_dec i 0) as [->|].
  - cbn in Ex. injection Ex as <-. rewrite Forall_forall in HF. apply HF.
    unfold elem_at in Ey. destruct (j - 1 <? 0); [discriminate|]. eapply nth_error_In; eassumption.
  - rewrite elem_at_cons in Ex by lia. apply (IH (i - 1) (j - 1)); auto; lia.
Qed.

(* On a sorted integer array binary_search finds the last occurrence of a present key and reports SIZE_MAX iff absent. *)
Theorem C07_binary_search : forall (data : list Z) (v : Z), StronglySorted Z.le data -> Z.of_nat (length data) < 2 ^ 64 ->
  exists r, binary_search Z.leb Z.eqb data v = Ok r /\
    ((elem_at data r = Some v /\ forall j, elem_at data j = Some v -> j <= r) \/ (r = 2 ^ 64 - 1 /\ ~ In v data)).
Proof.
  intros data v HS HN.
  destruct (binary_search_ok Z.leb Z.eqb data v) as (r & E & H); auto.
  - intros i j x y Ex Ey Hij. pose proof (sorted_elem _ HS _ _ _ _ Ex Ey Hij). lia.
  - intros x. lia.
  - intros i j x y Ex Ey Hij. pose proof (sorted_elem _ HS _ _ _ _ Ex Ey Hij). lia.
  - exists r. split; [exact E|]. destruct H as [(x & Ex & Hx & Hlast)|[-> Hno]].
    + left. assert (x = v) by lia. subst. split; [exact Ex|]. intros j Ej. apply (Hlast j v Ej). lia.
    + right. split; [reflexivity|]. intros HI. apply In_nth_error in HI. destruct HI as [n Hn].
      specialize (Hno (Z.of_nat n) v). unfold elem_at in Hno. destruct (Z.ltb_spec (Z.of_nat n) 0); [lia|].
      rewrite Nat2Z.id in Hno. specialize (Hno Hn). lia.
Qed.
Print Assumptions C07_binary_search.

(* Sorted integer arrays: number of smaller (resp. not larger) elements. *)
Theorem C07_bounds_sorted : forall (data : list Z) (v : Z), StronglySorted Z.le data ->
  exists r s, lower_bound Z.ltb data v = Ok r /\ binary_search_closest_first Z.ltb data v = Ok r /\
    binary_search_closest_last Z.leb data v = Ok (Z.max 0 (s - 1)) /\
    splits_at (fun x => x <? v) data r /\ splits_at (fun x => x <=? v) data s.
Proof.
  intros data v HS.
  assert (D1 : downward (fun x => x <? v) data).
  { intros i j x y Ex Ey Hij. pose proof (sorted_elem _ HS _ _ _ _ Ex Ey Hij). lia. }
  assert (D2 : downward (fun x => x <=? v) data).
  { intros i j x y Ex Ey Hij. pose proof (sorted_elem _ HS _ _ _ _ Ex Ey Hij). lia. }
  destruct (lower_bound_ok Z.ltb data v D1) as (r & E1 & S1). destruct (closest_first_ok Z.ltb data v D1) as (r' & E2 & S2).
  destruct (closest_last_ok Z.leb data v D2) as (t & s & E3 & S3 & ->).
  assert (r' = r).
  { destruct S1 as [R1 H1], S2 as [R2 H2]. destruct (Z.lt_trichotomy r r') as [C|[C|C]]; [|auto|].
    - destruct (elem_at_some data r ltac:(lia)) as [x Ex]. specialize (H1 _ _ Ex). specialize (H2 _ _ Ex). lia.
    - destruct (elem_at_some data r' ltac:(lia)) as [x Ex]. specialize (H1 _ _ Ex). specialize (H2 _ _ Ex). lia. }
  subst. exists r, s. auto.
Qed.
Print Assumptions C07_bounds_sorted.

Example C07_ex : lower_bound Z.ltb [1;3;3;5;8] 3 = Ok 1 /\ binary_search Z.leb Z.eqb [1;3;3;5;8] 3 = Ok 2
  /\ binary_search Z.leb Z.eqb [1;3;3;5;8] 4 = Ok (2 ^ 64 - 1) /\ binary_search_closest_last Z.leb [1;3;3;5;8] 4 = Ok 2
  /\ binary_search_closest_first Z.ltb [1;3;3;5;8] 9 = Ok 5.
Proof. vm_compute. auto 10. Qed.
