(* Blocks of items: copying, and fresh / updated storage of an array. *)
From Verif Require Import Base Bits IntOps_Model IntOps_Spec IntOps_Proofs Algorithm_Model Object_Model Object_Spec Object_Proofs Object_Proofs2
  BitArray_Model BitArray_Spec Handle_Client Handle_Proofs Array_Model Array_Spec.

(* ---- lists ---- *)
Lemma nth_app {A} (a b : list A) j : nth_error (a ++ b) j = if (j <? length a)%nat then nth_error a j else nth_error b (j - length a).
Proof. destruct (Nat.ltb_spec j (length a)); [now apply nth_error_app1|now apply nth_error_app2]. Qed.
Lemma nth_firstn {A} (l : list A) n j : nth_error (firstn n l) j = if (j <? n)%nat then nth_error l j else None.
Proof.
  revert n j. induction l as [|x l IH]; intros [|n] [|j]; cbn; auto.
  - match goal with |- context [if ?b then _ else _] => now destruct b end.
  - rewrite IH. reflexivity.
Qed.
Lemma nth_skipn {A} (l : list A) n j : nth_error (skipn n l) j = nth_error l (n + j).
Proof. revert l. induction n as [|n IH]; intros [|x l]; cbn; auto. destruct j; reflexivity. Qed.
Lemma nth_repeat {A} (x : A) n j : nth_error (repeat x n) j = if (j <? n)%nat then Some x else None.
Proof. revert j. induction n as [|n IH]; intros [|j]; cbn; auto. rewrite IH. reflexivity. Qed.
Lemma nth_out {A} (l : list A) j : (length l <= j)%nat -> nth_error l j = None.
Proof. apply nth_error_None. Qed.

Lemma nth_some {A} (l : list A) j : (j < length l)%nat -> exists v, nth_error l j = Some v.
Proof. intros J. destruct (nth_error l j) eqn:E; eauto. apply nth_error_None in E. lia. Qed.

(* cells [c] start with the items [l] *)
Definition rep (c : list cell) (l : list Z) : Prop := forall j, (j < length l)%nat -> nth_error c j = option_map Some (nth_error l j).

Lemma rep_init c l : rep c l -> inits (len l) c.
Proof.
  intros R i I. unfold len in I. rewrite R by lia. destruct (nth_some l (Z.to_nat i)) as (v & ->); [lia|]. now exists v.
Qed.
Lemma rep_items c l : rep c l -> items (len l) c = l.
Proof.
  intros R. unfold items, vals, len. rewrite Nat2Z.id. revert c R. induction l as [|x l IH]; intros c R; auto.
  pose proof (R 0%nat ltac:(cbn; lia)) as H0. destruct c as [|y c]; [discriminate H0|]. cbn in H0. injection H0 as ->.
  cbn. f_equal. apply IH. intros j J. apply (R (S j)). cbn. lia.
Qed.
Lemma init_rep n c : 0 <= n -> inits n c -> rep c (items n c) /\ len (items n c) = n.
Proof.
  intros N I. assert (L : (Z.to_nat n <= length c)%nat).
  { destruct (Nat.le_gt_cases (Z.to_nat n) (length c)); auto. destruct (I (Z.of_nat (length c)) ltac:(lia)) as (v & E).
    rewrite Nat2Z.id, nth_out in E by lia. discriminate. }
  assert (Q : length (items n c) = Z.to_nat n). { unfold items, vals. rewrite map_length, firstn_length. lia. }
  split; [|unfold len; lia]. intros j J. rewrite Q in J. destruct (I (Z.of_nat j) ltac:(lia)) as (v & E). rewrite Nat2Z.id in E.
  rewrite E. unfold items, vals. rewrite nth_error_map, nth_firstn. replace (j <? Z.to_nat n)%nat with true by (symmetry; apply Nat.ltb_lt; lia).
  rewrite E. reflexivity.
Qed.
Lemma rep_len c l : rep c l -> (length l <= length c)%nat.
Proof.
  intros R. destruct (Nat.le_gt_cases (length l) (length c)); auto. pose proof (R (length c) ltac:(lia)) as Q.
  rewrite nth_out in Q by lia. destruct (nth_error l (length c)) eqn:E; [discriminate|]. apply nth_error_None in E. lia.
Qed.
Lemma rep_map l : rep (map Some l) l.
Proof. intros j J. now rewrite nth_error_map. Qed.
Lemma rep_take c l n : rep c l -> rep c (take l n).
Proof.
  intros R j J. unfold take in *. rewrite firstn_length in J. rewrite nth_firstn. 
  replace (j <? Z.to_nat n)%nat with true by (symmetry; apply Nat.ltb_lt; lia). apply R. lia.
Qed.
Lemma rep_nil c : rep c []. Proof. intros j J. cbn in J. lia. Qed.

Lemma ltb_z (a b : nat) : (a <? b)%nat = (Z.of_nat a <? Z.of_nat b).
Proof. destruct (Nat.ltb_spec a b), (Z.ltb_spec (Z.of_nat a) (Z.of_nat b)); auto; lia. Qed.

(* ---- copying ---- *)
Lemma copy_ok n d di s l si : rep s l -> 0 <= n -> 0 <= di -> 0 <= si -> si + n <= len l -> di + n <= len d ->
  exists d', copy_cells (Z.to_nat n) d di s si = Ok d' /\ length d' = length d /\
    forall j, nth_error d' j = if (di <=? Z.of_nat j) && (Z.of_nat j <? di + n) then option_map Some (nth_error l (j - Z.to_nat di + Z.to_nat si)) else nth_error d j.
Proof.
  intros R N D S1 B1 B2. unfold len in *.
  destruct (copy_cells_ok (Z.to_nat n) d di s si) as (d' & E & L & H); auto; try lia.
  { intros i I. rewrite R by lia. destruct (nth_some l (Z.to_nat i)) as (v & ->); [lia|]. now exists v. }
  exists d'. split; auto. split; auto. intros j. specialize (H (Z.of_nat j) ltac:(lia)). rewrite Nat2Z.id, Z2Nat.id in H by lia.
  rewrite H. destruct ((di <=? Z.of_nat j) && (Z.of_nat j <? di + n)) eqn:Q; auto.
  replace (Z.to_nat (Z.of_nat j - di + si)) with (j - Z.to_nat di + Z.to_nat si)%nat by lia. apply R. lia.
Qed.
Lemma fill_ok n d di v : 0 <= n -> 0 <= di -> di + n <= len d ->
  exists d', fill_cells (Z.to_nat n) d di v = Ok d' /\ length d' = length d /\
    forall j, nth_error d' j = if (di <=? Z.of_nat j) && (Z.of_nat j <? di + n) then Some (Some v) else nth_error d j.
Proof.
  intros N D B. unfold len in *. destruct (fill_cells_ok v (Z.to_nat n) d di) as (d' & E & L & H); try lia.
  exists d'. split; auto. split; auto. intros j. specialize (H (Z.of_nat j) ltac:(lia)). rewrite Nat2Z.id, Z2Nat.id in H by lia. exact H.
Qed.

Lemma take_length l n : length (take l n) = Nat.min (Z.to_nat n) (length l). Proof. apply firstn_length. Qed.
Lemma drop_length l n : length (drop l n) = (length l - Z.to_nat n)%nat. Proof. apply skipn_length. Qed.
Lemma nth_take l n j : nth_error (take l n) j = if (j <? Z.to_nat n)%nat then nth_error l j else None. Proof. apply nth_firstn. Qed.
Lemma nth_drop l n j : nth_error (drop l n) j = nth_error l (Z.to_nat n + j). Proof. apply nth_skipn. Qed.
Lemma len_app {A} (a b : list A) : len (a ++ b) = len a + len b. Proof. unfold len. rewrite app_length. lia. Qed.
Lemma len_take l n : 0 <= n <= len l -> len (take l n) = n. Proof. unfold len. rewrite take_length. lia. Qed.
Lemma len_drop l n : 0 <= n <= len l -> len (drop l n) = len l - n. Proof. unfold len. rewrite drop_length. lia. Qed.
Lemma len_nonneg {A} (l : list A) : 0 <= len l. Proof. unfold len. lia. Qed.
Lemma take_all l n : len l <= n -> take l n = l.
Proof. intros H. unfold take. apply firstn_all2. unfold len in H. lia. Qed.

(* the items a valid source refers to *)
Lemma src_len w h o l s n : src_valid w h o l s n -> len (src_items l s n) = n.
Proof.
  intros (N & V). unfold src_items. destruct s as [off e|i].
  - apply len_take. lia.
  - rewrite len_take; [lia|]. rewrite len_drop; lia.
Qed.

Ltac nth_step :=
  rewrite ?nth_app, ?nth_take, ?nth_drop, ?nth_repeat, ?take_length, ?drop_length, ?repeat_length, ?app_length in *; cbn [length] in *.
(* list equalities by position *)
Lemma nth_eq {A} (a b : list A) : (forall j, nth_error a j = nth_error b j) -> a = b.
Proof.
  revert b. induction a as [|x a IH]; intros [|y b] H; auto.
  - specialize (H 0%nat). discriminate.
  - specialize (H 0%nat). discriminate.
  - pose proof (H 0%nat) as H0. cbn in H0. injection H0 as ->. f_equal. apply IH. intros j. exact (H (S j)).
Qed.
