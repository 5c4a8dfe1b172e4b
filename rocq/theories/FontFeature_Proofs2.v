(* Association lists sorted by key. *)
From Verif Require Import Base Bits Algorithm_Model Algorithm_Spec Algorithm_Proofs TagData_Model TagData_Spec TagData_Proofs
  FontFeature_Model FontFeature_Spec.
Ltac Zify.zify_post_hook ::= idtac.

Notation keys l := (map (@fst Z Z) l).

Fixpoint assoc (k : Z) (l : list item) : option Z :=
  match l with [] => None | (y, v) :: r => if y =? k then Some v else assoc k r end.
Fixpoint pos (k : Z) (l : list item) : nat :=
  match l with [] => O | (y, _) :: r => if y <? k then S (pos k r) else O end.
Definition hit (k : Z) (l : list item) : bool :=
  match nth_error l (pos k l) with Some (y, _) => y =? k | None => false end.
Fixpoint aset (k v : Z) (l : list item) : list item :=
  match l with
  | [] => [(k, v)]
  | (y, w) :: r => if y <? k then (y, w) :: aset k v r else if y =? k then (k, v) :: r else (k, v) :: (y, w) :: r
  end.
Fixpoint adel (k : Z) (l : list item) : list item :=
  match l with
  | [] => []
  | (y, w) :: r => if y <? k then (y, w) :: adel k r else if y =? k then r else (y, w) :: r
  end.

Definition above (k : Z) (l : list item) : Prop := Forall (fun it => k < fst it) l.

Lemma inc_cons k v l : increasing (keys ((k, v) :: l)) <-> above k l /\ increasing (keys l).
Proof.
  cbn [map fst]. split.
  - revert k v. induction l as [|(y, w) r IH]; intros k v H.
    + split; [constructor|exact I].
    + cbn [map fst] in *. destruct H as [A B]. split; [|exact B]. constructor; [exact A|].
      destruct (IH y w B) as [C _]. eapply Forall_impl; [|exact C]. cbn. intros; lia.
  - intros [A B]. split; [|exact B]. destruct l as [|(y, w) r]; [exact I|]. inversion A; subst. auto.
Qed.

Lemma assoc_above k l j : above k l -> j <= k -> assoc j l = None.
Proof.
  induction l as [|(y, w) r IH]; intros A H; auto. inversion A; subst. cbn in *.
  destruct (Z.eqb_spec y j); [lia|]. apply IH; auto.
Qed.

Lemma assoc_in k v l : increasing (keys l) -> In (k, v) l <-> assoc k l = Some v.
Proof.
  induction l as [|(y, w) r IH]; intros I.
  - cbn. split; [intros []|discriminate].
  - apply inc_cons in I as [A I]. specialize (IH I). cbn [In assoc]. destruct (Z.eqb_spec y k) as [->|N].
    + split.
      * intros [E|E]; [injection E as ->; auto|]. apply IH in E. rewrite (assoc_above k r k A) in E by lia. discriminate.
      * intros E. injection E as ->. auto.
    + rewrite <- IH. split; [intros [E|E]; auto; injection E; intros; subst; contradiction|auto].
Qed.

Lemma assoc_ext a : forall b, increasing (keys a) -> increasing (keys b) -> (forall k, assoc k a = assoc k b) -> a = b.
Proof.
  induction a as [|(k, v) a IH]; intros [|(j, w) b] Ia Ib E; auto.
  - specialize (E j). cbn in E. rewrite Z.eqb_refl in E. discriminate.
  - specialize (E k). cbn in E. rewrite Z.eqb_refl in E. discriminate.
  - apply inc_cons in Ia as [Aa Ia]. apply inc_cons in Ib as [Ab Ib].
    assert (k = j).
    { destruct (Z.lt_trichotomy k j) as [H|[H|H]]; auto.
      - specialize (E k). cbn in E. rewrite Z.eqb_refl in E. destruct (Z.eqb_spec j k); [lia|]. rewrite (assoc_above j b k Ab) in E by lia. discriminate.
      - specialize (E j). cbn in E. rewrite Z.eqb_refl in E. destruct (Z.eqb_spec k j); [lia|]. rewrite (assoc_above k a j Aa) in E by lia. discriminate. }
    subst j. pose proof (E k) as Ek. cbn in Ek. rewrite Z.eqb_refl in Ek. injection Ek as ->. f_equal.
    apply IH; auto. intros q. specialize (E q). cbn in E. destruct (Z.eqb_spec k q) as [->|]; auto.
    rewrite (assoc_above q a q Aa), (assoc_above q b q Ab) by lia. auto.
Qed.

Lemma above_aset j k v l : above j l -> j < k -> above j (aset k v l).
Proof.
  induction l as [|(y, w) r IH]; intros A H; cbn.
  - constructor; auto.
  - inversion A; subst. destruct (y <? k); [constructor; auto; apply IH; auto|]. destruct (y =? k); constructor; auto.
Qed.
Lemma inc_aset k v l : increasing (keys l) -> increasing (keys (aset k v l)).
Proof.
  induction l as [|(y, w) r IH]; intros I.
  - cbn. auto.
  - apply inc_cons in I as [A I]. cbn [aset]. destruct (Z.ltb_spec y k).
    + apply inc_cons. split; [apply above_aset; auto|apply IH; auto].
    + destruct (Z.eqb_spec y k) as [->|N].
      * apply inc_cons. auto.
      * apply inc_cons. split; [|apply inc_cons; auto]. constructor; [cbn; lia|]. eapply Forall_impl; [|exact A]. cbn; intros; lia.
Qed.
Lemma assoc_aset k v l j : increasing (keys l) -> assoc j (aset k v l) = if j =? k then Some v else assoc j l.
Proof.
  induction l as [|(y, w) r IH]; intros I.
  - cbn. rewrite (Z.eqb_sym k j). reflexivity.
  - apply inc_cons in I as [A I]. cbn [aset]. destruct (Z.ltb_spec y k).
    + cbn [assoc]. rewrite IH by auto. destruct (Z.eqb_spec y j), (Z.eqb_spec j k); auto; lia.
    + destruct (Z.eqb_spec y k) as [->|N]; cbn [assoc].
      * rewrite (Z.eqb_sym k j). destruct (j =? k); auto.
      * rewrite (Z.eqb_sym k j). destruct (j =? k); auto.
Qed.

Lemma above_adel j k l : above j l -> above j (adel k l).
Proof.
  induction l as [|(y, w) r IH]; intros A; cbn; auto. inversion A; subst.
  destruct (y <? k); [constructor; auto; apply IH; auto|]. destruct (y =? k); auto.
Qed.
Lemma inc_adel k l : increasing (keys l) -> increasing (keys (adel k l)).
Proof.
  induction l as [|(y, w) r IH]; intros I; auto.
  apply inc_cons in I as [A I]. cbn [adel]. destruct (Z.ltb_spec y k).
  - apply inc_cons. split; [apply above_adel; auto|apply IH; auto].
  - destruct (y =? k); auto. apply inc_cons. auto.
Qed.
Lemma assoc_adel k l j : increasing (keys l) -> assoc j (adel k l) = if j =? k then None else assoc j l.
Proof.
  induction l as [|(y, w) r IH]; intros I.
  - cbn. destruct (j =? k); auto.
  - apply inc_cons in I as [A I]. cbn [adel]. destruct (Z.ltb_spec y k).
    + cbn [assoc]. rewrite IH by auto. destruct (Z.eqb_spec y j), (Z.eqb_spec j k); auto; lia.
    + destruct (Z.eqb_spec y k) as [->|N].
      * cbn [assoc]. rewrite (Z.eqb_sym k j). destruct (Z.eqb_spec j k); auto. apply (assoc_above k r j A). lia.
      * destruct (Z.eqb_spec j k); auto. cbn [assoc]. destruct (Z.eqb_spec y j); [lia|].
        apply (assoc_above y r j A). lia.
Qed.

(* positions *)
Lemma pos_le k l : (pos k l <= length l)%nat.
Proof. induction l as [|(y, w) r IH]; cbn; [lia|]. destruct (y <? k); lia. Qed.

Lemma hit_assoc k l : increasing (keys l) -> match nth_error l (pos k l) with
    | Some (y, v) => if y =? k then assoc k l = Some v else assoc k l = None
    | None => assoc k l = None end.
Proof.
  induction l as [|(y, w) r IH]; intros I; [reflexivity|].
  apply inc_cons in I as [A I]. cbn [pos assoc]. destruct (Z.ltb_spec y k).
  - cbn [nth_error]. destruct (Z.eqb_spec y k); [lia|]. apply IH; auto.
  - cbn [nth_error]. destruct (Z.eqb_spec y k); auto. apply (assoc_above y r k A). lia.
Qed.

Lemma aset_pos k v l : aset k v l = firstn (pos k l) l ++ (k, v) :: skipn (if hit k l then S (pos k l) else pos k l) l.
Proof.
  induction l as [|(y, w) r IH]; [reflexivity|]. unfold hit in *. cbn [aset pos]. destruct (Z.ltb_spec y k).
  - cbn [nth_error firstn app]. rewrite IH. f_equal. f_equal. f_equal.
    destruct (nth_error r (pos k r)) as [(z, u)|]; [|reflexivity]. destruct (z =? k); reflexivity.
  - cbn [nth_error firstn app]. destruct (y =? k); reflexivity.
Qed.
Lemma adel_pos k l : adel k l = if hit k l then firstn (pos k l) l ++ skipn (S (pos k l)) l else l.
Proof.
  induction l as [|(y, w) r IH]; [reflexivity|]. unfold hit in *. cbn [adel pos]. destruct (Z.ltb_spec y k).
  - cbn [nth_error]. rewrite IH. destruct (nth_error r (pos k r)) as [(z, u)|]; [|reflexivity]. destruct (z =? k); reflexivity.
  - cbn [nth_error]. destruct (y =? k); reflexivity.
Qed.

Lemma length_aset k v l : length (aset k v l) = if hit k l then length l else S (length l).
Proof.
  rewrite aset_pos. unfold hit. pose proof (pos_le k l).
  destruct (nth_error l (pos k l)) as [(y, w)|] eqn:E.
  - assert (pos k l < length l)%nat by (apply nth_error_Some; congruence).
    destruct (y =? k); rewrite app_length; cbn [length]; rewrite firstn_length, skipn_length; lia.
  - rewrite app_length; cbn [length]; rewrite firstn_length, skipn_length; lia.
Qed.
Lemma length_adel k l : length (adel k l) = if hit k l then pred (length l) else length l.
Proof.
  rewrite adel_pos. unfold hit. destruct (nth_error l (pos k l)) as [(y, w)|] eqn:E; auto.
  assert (pos k l < length l)%nat by (apply nth_error_Some; congruence).
  destruct (y =? k); auto. rewrite app_length, firstn_length, skipn_length; lia.
Qed.

Lemma aset_same k v l : increasing (keys l) -> assoc k l = Some v -> aset k v l = l.
Proof.
  intros I H. apply assoc_ext; auto; [apply inc_aset; auto|]. intros j. rewrite assoc_aset by auto.
  destruct (Z.eqb_spec j k) as [->|]; auto.
Qed.

(* lower_bound finds the position *)
Lemma nth_pos_lt k l i it : (i < pos k l)%nat -> nth_error l i = Some it -> fst it < k.
Proof.
  revert i. induction l as [|(y, w) r IH]; intros i H E; [destruct i; discriminate|].
  cbn in H. destruct (Z.ltb_spec y k); [|lia]. destruct i; cbn in E; [injection E as <-; auto|].
  apply (IH i); auto. lia.
Qed.
Lemma nth_pos_ge k l i it : increasing (keys l) -> (pos k l <= i)%nat -> nth_error l i = Some it -> k <= fst it.
Proof.
  revert i. induction l as [|(y, w) r IH]; intros i I H E; [destruct i; discriminate|].
  apply inc_cons in I as [A I]. cbn in H. destruct (Z.ltb_spec y k).
  - destruct i; [lia|]. apply (IH i); auto. lia.
  - destruct i; cbn in E; [injection E as <-; auto|]. apply nth_error_In in E. unfold above in A. rewrite Forall_forall in A.
    specialize (A _ E). lia.
Qed.

Lemma lower_bound_pos l k : increasing (keys l) -> lower_bound tag_less l k = Ok (Z.of_nat (pos k l)).
Proof.
  intros I.
  assert (S : forall i it, nth_error l i = Some it -> tag_less it k = (i <? pos k l)%nat).
  { intros i it E. unfold tag_less. destruct (Nat.ltb_spec i (pos k l)).
    - apply Z.ltb_lt. eapply nth_pos_lt; eauto.
    - apply Z.ltb_ge. eapply nth_pos_ge; eauto. }
  destruct (lower_bound_ok tag_less l k) as (r & E & Hr & Hs).
  { intros i j x y Ei Ej Hij Hy. unfold elem_at in *. destruct (Z.ltb_spec i 0); [discriminate|]. destruct (Z.ltb_spec j 0); [discriminate|].
    rewrite (S _ _ Ei). rewrite (S _ _ Ej) in Hy. apply Nat.ltb_lt in Hy. apply Nat.ltb_lt. lia. }
  rewrite E. f_equal.
  pose proof (pos_le k l) as Hp. unfold item in *.
  destruct (Z.lt_trichotomy r (Z.of_nat (pos k l))) as [H|[H|H]]; auto; exfalso.
  - destruct (nth_error l (Z.to_nat r)) as [it|] eqn:En; [|apply nth_error_None in En; lia].
    assert (Q : elem_at l r = Some it) by (unfold elem_at; destruct (Z.ltb_spec r 0); [lia|auto]).
    specialize (Hs _ _ Q). cbv beta in Hs. rewrite (S _ _ En) in Hs. rewrite Z.ltb_irrefl in Hs. apply Nat.ltb_ge in Hs. lia.
  - destruct (nth_error l (pos k l)) as [it|] eqn:En; [|apply nth_error_None in En; lia].
    assert (Q : elem_at l (Z.of_nat (pos k l)) = Some it) by (unfold elem_at; destruct (Z.ltb_spec (Z.of_nat (pos k l)) 0); [lia|rewrite Nat2Z.id; auto]).
    specialize (Hs _ _ Q). cbv beta in Hs. rewrite (S _ _ En) in Hs. rewrite Nat.ltb_irrefl in Hs. symmetry in Hs. apply Z.ltb_ge in Hs. lia.
Qed.

Lemma rd_nat {A} (l : list A) n : rd l (Z.of_nat n) = match nth_error l n with Some x => Ok x | None => UB end.
Proof. unfold rd. destruct (Z.ltb_spec (Z.of_nat n) 0); [lia|]. rewrite Nat2Z.id. reflexivity. Qed.

(* sizes *)
Lemma inc_length_bound (l : list item) lo hi : increasing (keys l) -> Forall (fun it => lo <= fst it < hi) l ->
  lo <= hi -> Z.of_nat (length l) <= hi - lo.
Proof.
  revert lo. induction l as [|(k, v) r IH]; intros lo I B H; [cbn; lia|].
  apply inc_cons in I as [A I]. inversion B; subst. cbn [fst] in *.
  assert (Z.of_nat (length r) <= hi - (k + 1)).
  { apply IH; auto; [|lia]. unfold above in A; rewrite Forall_forall in *. intros it Hit. specialize (A _ Hit). specialize (H3 _ Hit). lia. }
  cbn [length]. lia.
Qed.
