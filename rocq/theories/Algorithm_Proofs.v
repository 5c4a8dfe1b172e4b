(* Proofs: array lemmas, searches, insertion sort. *)
From Verif Require Import Base Algorithm_Model Algorithm_Spec.

Section ArrayLemmas.
  Context {A : Type}.
  Implicit Types l : list A.

  Lemma elem_at_range l i x : elem_at l i = Some x -> 0 <= i < Z.of_nat (length l).
  Proof.
    unfold elem_at. destruct (Z.ltb_spec i 0); [discriminate|]. intros E.
    assert (Z.to_nat i < length l)%nat by (apply nth_error_Some; congruence). lia.
  Qed.

  Lemma elem_at_some l i : 0 <= i < Z.of_nat (length l) -> exists x, elem_at l i = Some x.
  Proof.
    intros H. unfold elem_at. destruct (Z.ltb_spec i 0); [lia|].
    destruct (nth_error l (Z.to_nat i)) eqn:E; [eauto|]. apply nth_error_None in E. lia.
  Qed.

  Lemma rd_elem l i x : elem_at l i = Some x -> rd l i = Ok x.
  Proof. unfold elem_at, rd. destruct (i <? 0); [discriminate|]. now intros ->. Qed.

  Lemma rd_ok l i : 0 <= i < Z.of_nat (length l) -> exists x, elem_at l i = Some x /\ rd l i = Ok x.
  Proof. intros H. destruct (elem_at_some l i H) as [x E]. exists x. split; [exact E|now apply rd_elem]. Qed.

  Lemma upd_length l n x : length (upd l n x) = length l.
  Proof. revert n; induction l; intros [|n]; cbn; auto. Qed.

  Lemma nth_upd l n m x : nth_error (upd l n x) m = if Nat.eqb n m then (match nth_error l m with Some _ => Some x | None => None end) else nth_error l m.
  Proof.
    revert n m; induction l as [|h t IH]; intros [|n] [|m]; cbn; auto.
    destruct (Nat.eqb n m); reflexivity.
  Qed.

  Definition zupd l i x := upd l (Z.to_nat i) x.

  Lemma elem_zupd l i j x : 0 <= i < Z.of_nat (length l) ->
    elem_at (zupd l i x) j = if j =? i then Some x else elem_at l j.
  Proof.
    intros Hi. unfold elem_at, zupd. rewrite nth_upd. destruct (Z.ltb_spec j 0).
    - destruct (Z.eqb_spec j i); [lia|reflexivity].
    - destruct (Z.eqb_spec j i) as [->|].
      + rewrite Nat.eqb_refl. destruct (nth_error l (Z.to_nat i)) eqn:E; [reflexivity|]. apply nth_error_None in E. lia.
      + destruct (Nat.eqb_spec (Z.to_nat i) (Z.to_nat j)); [lia|reflexivity].
  Qed.

  Lemma wr_ok l i x : 0 <= i < Z.of_nat (length l) -> wr l i x = Ok (zupd l i x).
  Proof. intros. unfold wr. destruct (Z.ltb_spec i 0), (Z.leb_spec (Z.of_nat (length l)) i); cbn; try lia. reflexivity. Qed.

  Lemma zupd_length l i x : length (zupd l i x) = length l.
  Proof. apply upd_length. Qed.

  Definition zswap l i j x y := zupd (zupd l i y) j x.

  Lemma swap_ok l i j x y : elem_at l i = Some x -> elem_at l j = Some y -> swap l i j = Ok (zswap l i j x y).
  Proof.
    intros Hi Hj. unfold swap. rewrite (rd_elem _ _ _ Hi), (rd_elem _ _ _ Hj). cbn [bind].
    apply elem_at_range in Hi. apply elem_at_range in Hj.
    rewrite wr_ok by lia. cbn [bind]. rewrite wr_ok; [reflexivity|]. rewrite zupd_length. lia.
  Qed.

  Lemma zswap_length l i j x y : length (zswap l i j x y) = length l.
  Proof. unfold zswap. now rewrite !zupd_length. Qed.

  Lemma elem_zswap l i j x y k : elem_at l i = Some x -> elem_at l j = Some y ->
    elem_at (zswap l i j x y) k = if k =? j then Some x else if k =? i then Some y else elem_at l k.
  Proof.
    intros Hi Hj. apply elem_at_range in Hi. apply elem_at_range in Hj.
    unfold zswap. rewrite elem_zupd by (rewrite zupd_length; lia). rewrite elem_zupd by lia. reflexivity.
  Qed.

  Lemma upd_perm l n x y : nth_error l n = Some y -> Permutation (y :: upd l n x) (x :: l).
  Proof.
    revert n; induction l as [|h t IH]; intros [|n] E; cbn in *; try discriminate.
    - injection E as ->. apply perm_swap.
    - rewrite perm_swap. rewrite (IH n E). apply perm_swap.
  Qed.

  Lemma zupd_perm l i x y : elem_at l i = Some y -> Permutation (y :: zupd l i x) (x :: l).
  Proof. unfold elem_at. destruct (i <? 0); [discriminate|]. apply upd_perm. Qed.

  Lemma zupd_same l i x : elem_at l i = Some x -> zupd l i x = l.
  Proof.
    unfold elem_at, zupd. destruct (i <? 0); [discriminate|]. generalize (Z.to_nat i) as n. induction l as [|h t IH]; intros [|n]; cbn; intros E; try discriminate.
    - congruence.
    - f_equal. auto.
  Qed.

  Lemma zswap_perm l i j x y : elem_at l i = Some x -> elem_at l j = Some y -> Permutation l (zswap l i j x y).
  Proof.
    intros Hi Hj. unfold zswap. pose proof (elem_at_range _ _ _ Hi). pose proof (elem_at_range _ _ _ Hj).
    apply (Permutation_cons_inv (a := y)). symmetry.
    assert (E : elem_at (zupd l i y) j = Some y).
    { rewrite elem_zupd by lia. destruct (j =? i); [reflexivity|exact Hj]. }
    rewrite (zupd_perm _ _ x _ E). apply zupd_perm. exact Hi.
  Qed.

  (* Reachability by swaps inside [b, e). *)
  Inductive seg_perm (b e : Z) : list A -> list A -> Prop :=
  | seg_refl l : seg_perm b e l l
  | seg_step l i j x y l' : b <= i < e -> b <= j < e -> elem_at l i = Some x -> elem_at l j = Some y ->
      seg_perm b e (zswap l i j x y) l' -> seg_perm b e l l'.

  Lemma seg_perm_trans b e l1 l2 l3 : seg_perm b e l1 l2 -> seg_perm b e l2 l3 -> seg_perm b e l1 l3.
  Proof. induction 1 as [|l i j x y l' Hi Hj Ei Ej Hs IH]; intros; [assumption|]. apply (seg_step b e l i j x y l3); auto. Qed.

  Lemma seg_perm_one b e l i j x y : b <= i < e -> b <= j < e -> elem_at l i = Some x -> elem_at l j = Some y ->
    seg_perm b e l (zswap l i j x y).
  Proof. intros. apply (seg_step b e l i j x y); auto. constructor. Qed.

  Lemma seg_perm_length b e l l' : seg_perm b e l l' -> length l' = length l.
  Proof. induction 1; [reflexivity|]. now rewrite zswap_length in IHseg_perm. Qed.

  Lemma seg_perm_perm b e l l' : seg_perm b e l l' -> Permutation l l'.
  Proof. induction 1 as [|l i j x y l' Hi Hj Ei Ej Hs IH]; [reflexivity|]. rewrite <- IH. now apply zswap_perm. Qed.

  Lemma seg_perm_out b e l l' k : seg_perm b e l l' -> ~ (b <= k < e) -> elem_at l' k = elem_at l k.
  Proof.
    induction 1; intros Hk; [reflexivity|]. rewrite IHseg_perm by assumption.
    rewrite (elem_zswap _ _ _ _ _ _ H1 H2). destruct (Z.eqb_spec k j); [lia|]. destruct (Z.eqb_spec k i); [lia|]. reflexivity.
  Qed.

  Lemma seg_perm_mono b e b' e' l l' : b' <= b -> e <= e' -> seg_perm b e l l' -> seg_perm b' e' l l'.
  Proof. intros ? ?. induction 1 as [|l i j x y l' Hi Hj Ei Ej Hs IH]; [constructor|]. apply (seg_step b' e' l i j x y l'); auto; lia. Qed.

  (* any predicate on the elements of the segment is preserved *)
  Lemma seg_perm_forall b e l l' (P : A -> Prop) : seg_perm b e l l' ->
    (forall k x, b <= k < e -> elem_at l k = Some x -> P x) ->
    (forall k x, b <= k < e -> elem_at l' k = Some x -> P x).
  Proof.
    induction 1; intros HP; [exact HP|]. apply IHseg_perm. intros k z Hk.
    rewrite (elem_zswap _ _ _ _ _ _ H1 H2).
    destruct (Z.eqb_spec k j); [intros [= <-]; eapply (HP i); eauto|].
    destruct (Z.eqb_spec k i); [intros [= <-]; eapply (HP j); eauto|]. apply HP. lia.
  Qed.
End ArrayLemmas.

(* ---- searches ---- *)
Section Search.
  Context {A K : Type}.

  Lemma lower_bound_loop_ok (pred : A -> K -> bool) (data : list A) v :
    downward (fun x => pred x v) data ->
    forall fuel index size, 0 <= index -> 0 <= size -> index + size <= Z.of_nat (length data) -> size <= Z.of_nat fuel ->
    (forall i x, i < index -> elem_at data i = Some x -> pred x v = true) ->
    (forall i x, index + size <= i -> elem_at data i = Some x -> pred x v = false) ->
    exists r, lower_bound_loop fuel pred data index size v = Ok r /\ splits_at (fun x => pred x v) data r.
  Proof.
    intros Hd. induction fuel as [|fuel IH]; intros index size Hi Hs Hn Hf Hlo Hhi.
    - assert (size = 0) by lia. subst size. exists index. split; [reflexivity|]. split; [lia|].
      intros i x E. destruct (Z.ltb_spec i index); [apply (Hlo i); auto|apply (Hhi i); auto; lia].
    - cbn [lower_bound_loop]. destruct (Z.eqb_spec size 0) as [->|Hs0].
      + exists index. split; [reflexivity|]. split; [lia|].
        intros i x E. destruct (Z.ltb_spec i index); [apply (Hlo i); auto|apply (Hhi i); auto; lia].
      + set (half := size / 2). assert (0 <= half < size) by (unfold half; lia).
        destruct (rd_ok data (index + half) ltac:(lia)) as (x & Ex & ->). cbn [bind].
        destruct (pred x v) eqn:Eb.
        * apply IH; try lia.
          -- intros i y Hiy Ey. apply (Hd i (index + half) y x); auto. lia.
          -- intros i y Hiy Ey. apply (Hhi i y); auto. lia.
        * apply IH; try lia; auto.
          intros i y Hiy Ey. destruct (pred y v) eqn:Ey2; [|reflexivity]. exfalso.
          assert (pred x v = true) by (apply (Hd (index + half) i x y); auto; lia). congruence.
  Qed.

  Lemma lower_bound_ok (pred : A -> K -> bool) (data : list A) v : downward (fun x => pred x v) data ->
    exists r, lower_bound pred data v = Ok r /\ splits_at (fun x => pred x v) data r.
  Proof.
    intros Hd. unfold lower_bound. apply lower_bound_loop_ok; auto; try lia.
    - intros i x Hi E. apply elem_at_range in E. lia.
    - intros i x Hi E. apply elem_at_range in E. lia.
  Qed.

  Lemma bs_loop_ok (goes : A -> K -> bool) (data : list A) v :
    downward (fun x => goes x v) data ->
    forall fuel base size, 0 <= base -> 1 <= size -> base + size <= Z.of_nat (length data) -> size <= Z.of_nat fuel ->
    (base = 0 \/ exists x, elem_at data base = Some x /\ goes x v = true) ->
    (forall i x, base + size <= i -> elem_at data i = Some x -> goes x v = false) ->
    exists r, bs_loop fuel goes data base size v = Ok r /\ 0 <= r < Z.of_nat (length data) /\
      (r = 0 \/ exists x, elem_at data r = Some x /\ goes x v = true) /\
      (forall i x, r < i -> elem_at data i = Some x -> goes x v = false).
  Proof.
    intros Hd. induction fuel as [|fuel IH]; intros base size Hb Hs Hn Hf Hlo Hhi; [lia|].
    cbn [bs_loop]. set (half := size / 2). destruct (Z.eqb_spec half 0) as [E0|H0].
    - assert (size = 1) by (unfold half in E0; lia). subst size. exists base. split; [reflexivity|]. split; [lia|]. split; [exact Hlo|].
      intros i x Hi. apply Hhi. lia.
    - assert (0 < half < size) by (unfold half in *; lia).
      destruct (rd_ok data (base + half) ltac:(lia)) as (x & Ex & ->). cbn [bind].
      destruct (goes x v) eqn:Eb.
      + apply IH; try lia; [right; eauto|]. intros i y Hi. apply Hhi. lia.
      + apply IH; try lia; [exact Hlo|]. intros i y Hi Ey. destruct (goes y v) eqn:Eg; [|reflexivity]. exfalso.
        assert (goes x v = true) by (apply (Hd (base + half) i x y); auto; unfold half in *; lia). congruence.
  Qed.

  Lemma closest_first_ok (lt : A -> K -> bool) (data : list A) v : downward (fun x => lt x v) data ->
    exists r, binary_search_closest_first lt data v = Ok r /\ splits_at (fun x => lt x v) data r.
  Proof.
    intros Hd. unfold binary_search_closest_first. destruct (Z.eqb_spec (Z.of_nat (length data)) 0) as [E|].
    - exists 0. split; [reflexivity|]. split; [lia|]. intros i x Ex. apply elem_at_range in Ex. lia.
    - destruct (bs_loop_ok lt data v Hd (length data) 0 (Z.of_nat (length data))) as (r & -> & Hr & Hlo & Hhi); try lia.
      { intros i x Hi E. apply elem_at_range in E. lia. }
      cbn [bind]. destruct (rd_ok data r Hr) as (x & Ex & ->). cbn [bind].
      destruct (lt x v) eqn:El.
      + exists (r + 1). split; [reflexivity|]. split; [lia|]. intros i y Ey. destruct (Z.ltb_spec i (r + 1)).
        * apply (Hd i r y x); auto. lia.
        * apply (Hhi i); auto. lia.
      + exists r. split; [reflexivity|]. split; [lia|]. intros i y Ey. destruct (Z.ltb_spec i r).
        * destruct Hlo as [->|(x' & E' & Hg)]; [apply elem_at_range in Ey; lia|]. congruence.
        * destruct (Z.eq_dec i r) as [->|]; [congruence|]. apply (Hhi i); auto. lia.
  Qed.

  (* last element satisfying le, or 0 *)
  Lemma closest_last_ok (le : A -> K -> bool) (data : list A) v : downward (fun x => le x v) data ->
    exists r s, binary_search_closest_last le data v = Ok r /\ splits_at (fun x => le x v) data s /\ r = Z.max 0 (s - 1).
  Proof.
    intros Hd. unfold binary_search_closest_last. destruct (Z.eqb_spec (Z.of_nat (length data)) 0) as [E|].
    - exists 0, 0. split; [reflexivity|]. split; [|lia]. split; [lia|]. intros i x Ex. apply elem_at_range in Ex. lia.
    - destruct (bs_loop_ok le data v Hd (length data) 0 (Z.of_nat (length data))) as (r & -> & Hr & Hlo & Hhi); try lia.
      { intros i x Hi E. apply elem_at_range in E. lia. }
      destruct (rd_ok data r Hr) as (x & Ex & _).
      destruct (le x v) eqn:El.
      + exists r, (r + 1). split; [reflexivity|]. split; [|lia]. split; [lia|]. intros i y Ey. destruct (Z.ltb_spec i (r + 1)).
        * apply (Hd i r y x); auto. lia.
        * apply (Hhi i); auto. lia.
      + destruct Hlo as [->|(x' & E' & Hg)]; [|congruence].
        exists 0, 0. split; [reflexivity|]. split; [|lia]. split; [lia|]. intros i y Ey.
        assert (E0 : (i <? 0) = false) by (apply elem_at_range in Ey; lia). rewrite E0.
        destruct (Z.eq_dec i 0) as [->|]; [congruence|]. apply (Hhi i); auto. apply elem_at_range in Ey; lia.
  Qed.

  (* exact search; [le] and [eq] compare an element with the key *)
  Lemma binary_search_ok (le eq : A -> K -> bool) (data : list A) v :
    downward (fun x => le x v) data -> Z.of_nat (length data) < 2 ^ 64 ->
    (forall x, eq x v = true -> le x v = true) ->
    (forall i j x y, elem_at data i = Some x -> elem_at data j = Some y -> i <= j -> eq x v = true -> le y v = true -> eq y v = true) ->
    exists r, binary_search le eq data v = Ok r /\
      ((exists x, elem_at data r = Some x /\ eq x v = true /\ forall j y, elem_at data j = Some y -> eq y v = true -> j <= r)
       \/ (r = 2 ^ 64 - 1 /\ forall j y, elem_at data j = Some y -> eq y v = false)).
  Proof.
    intros Hd Hlen Heq Hmid. unfold binary_search. destruct (Z.eqb_spec (Z.of_nat (length data)) 0) as [E|].
    - exists SIZE_MAX. split; [reflexivity|]. right. split; [reflexivity|]. intros j y Ey. apply elem_at_range in Ey. lia.
    - destruct (bs_loop_ok le data v Hd (length data) 0 (Z.of_nat (length data))) as (r & -> & Hr & Hlo & Hhi); try lia.
      { intros i x Hi E. apply elem_at_range in E. lia. }
      cbn [bind]. destruct (rd_ok data r Hr) as (x & Ex & ->). cbn [bind].
      destruct (eq x v) eqn:El.
      + exists r. split; [reflexivity|]. left. exists x. split; [exact Ex|]. split; [exact El|].
        intros j y Ey Hy. destruct (Z.le_gt_cases j r); [assumption|exfalso]. apply Heq in Hy.
        rewrite (Hhi j y) in Hy by (auto; lia). discriminate.
      + exists SIZE_MAX. split; [reflexivity|]. right. split; [reflexivity|]. intros j y Ey.
        destruct (eq y v) eqn:Ey2; [exfalso|reflexivity].
        assert (Hle : le y v = true) by auto.
        destruct (Z.lt_ge_cases r j).
        * rewrite (Hhi j y) in Hle by (auto; lia). discriminate.
        * destruct Hlo as [->|(x' & E' & Hg)].
          -- assert (j = 0) by (apply elem_at_range in Ey; lia). congruence.
          -- assert (x' = x) by congruence. subst x'. rewrite (Hmid j r y x) in El by (auto; lia). discriminate.
  Qed.
End Search.
