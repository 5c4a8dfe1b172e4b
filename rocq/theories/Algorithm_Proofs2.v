(* Proofs: insertion sort and quick sort. *)
From Verif Require Import Base Algorithm_Model Algorithm_Spec Algorithm_Proofs.

Section Sorting.
  Context {A : Type} (cmp : A -> A -> Z) (TP : total_preorder cmp).

  Definition le (x y : A) : Prop := cmp x y <= 0.
  Lemma le_refl x : le x x.
  Proof. unfold le. destruct (Z.le_gt_cases (cmp x x) 0); [assumption|]. pose proof (proj1 (tp_sign _ TP x x)). lia. Qed.
  Lemma le_trans x y z : le x y -> le y z -> le x z.
  Proof. apply TP. Qed.
  Lemma gt_le x y : cmp x y > 0 -> le y x.
  Proof. intros H. apply TP in H. unfold le. lia. Qed.
  Lemma lt_le x y : cmp x y < 0 -> le x y.
  Proof. unfold le. lia. Qed.
  Lemma nlt_le x y : ~ cmp x y < 0 -> le y x.
  Proof. intros H. unfold le. destruct (Z.le_gt_cases (cmp y x) 0); [assumption|]. exfalso. apply H. apply TP. lia. Qed.
  Lemma ngt_le x y : ~ cmp x y > 0 -> le x y.
  Proof. unfold le. lia. Qed.

  (* a[i] <= a[j] *)
  Definition le_at (a : list A) (i j : Z) : Prop :=
    forall x y, elem_at a i = Some x -> elem_at a j = Some y -> le x y.
  (* all pairs in [b, e) are ordered *)
  Definition seg_sorted (a : list A) (b e : Z) : Prop := forall i j, b <= i -> i < j -> j < e -> le_at a i j.

  (* ---- insertion sort ---- *)
  Lemma isort_inner_ok : forall k a base, 0 <= base -> base + Z.of_nat k < Z.of_nat (length a) ->
    (forall i j, base <= i -> i < j -> j <= base + Z.of_nat k -> j <> base + Z.of_nat k -> le_at a i j) ->
    exists a', isort_inner cmp a base k = Ok a' /\ seg_perm base (base + Z.of_nat k + 1) a a' /\
      seg_sorted a' base (base + Z.of_nat k + 1).
  Proof.
    (* generalised: elements after position base+k up to [e) are already in place *)
    enough (G : forall k a base e, 0 <= base -> base + Z.of_nat k < e -> e <= Z.of_nat (length a) ->
      (forall i j, base <= i -> i < j -> j < e -> j <> base + Z.of_nat k -> le_at a i j) ->
      exists a', isort_inner cmp a base k = Ok a' /\ seg_perm base e a a' /\ seg_sorted a' base e).
    { intros k a base Hb Hk Hs. apply G; try lia. intros i j H1 H2 H3 H4. apply Hs; lia. }
    induction k as [|k IH]; intros a base e Hb Hk He Hs.
    - exists a. split; [reflexivity|]. split; [constructor|]. intros i j H1 H2 H3. apply Hs; lia.
    - cbn [isort_inner]. set (pl := base + Z.of_nat (S k)) in *.
      destruct (rd_ok a (pl - 1) ltac:(lia)) as (x & Ex & ->). cbn [bind].
      destruct (rd_ok a pl ltac:(lia)) as (y & Ey & ->). cbn [bind].
      destruct (Z.gtb_spec (cmp x y) 0) as [Hgt|Hle].
      + rewrite (swap_ok _ _ _ _ _ Ex Ey). cbn [bind].
        set (a1 := zswap a (pl - 1) pl x y).
        assert (Hel : forall k0, elem_at a1 k0 = if k0 =? pl then Some x else if k0 =? pl - 1 then Some y else elem_at a k0)
          by (intros; apply elem_zswap; assumption).
        destruct (IH a1 base e) as (a' & E & Hp & Hs'); try lia.
        * unfold a1. rewrite zswap_length. lia.
        * intros i j H1 H2 H3 H4. replace (base + Z.of_nat k) with (pl - 1) in H4 by lia.
          intros u v. rewrite !Hel. 
          destruct (Z.eqb_spec i pl) as [->|Hi].
          -- (* i = pl, j > pl *) destruct (Z.eqb_spec j pl); [lia|]. destruct (Z.eqb_spec j (pl - 1)); [lia|].
             intros [= <-] Ev. apply (Hs (pl - 1) j ltac:(lia) ltac:(lia) H3 ltac:(lia) x v Ex Ev).
          -- destruct (Z.eqb_spec i (pl - 1)) as [->|Hi1].
             ++ destruct (Z.eqb_spec j pl) as [->|].
                ** intros [= <-] [= <-]. apply gt_le. lia.
                ** destruct (Z.eqb_spec j (pl - 1)); [lia|]. intros [= <-] Ev.
                   apply (Hs pl j ltac:(lia) ltac:(lia) H3 ltac:(lia) y v Ey Ev).
             ++ destruct (Z.eqb_spec j pl) as [->|].
                ** intros Eu [= <-]. apply (Hs i (pl - 1) ltac:(lia) ltac:(lia) ltac:(lia) ltac:(lia) u x Eu Ex).
                ** destruct (Z.eqb_spec j (pl - 1)); [lia|]. intros Eu Ev. apply (Hs i j ltac:(lia) ltac:(lia) H3 ltac:(lia) u v Eu Ev).
        * exists a'. split; [exact E|]. split; [|exact Hs'].
          eapply seg_perm_trans; [|exact Hp]. apply seg_perm_one; auto; lia.
      + exists a. split; [reflexivity|]. split; [constructor|]. intros i j H1 H2 H3.
        destruct (Z.eq_dec j pl) as [->|]; [|apply Hs; lia].
        intros u v Eu Ev. assert (v = y) by congruence. subst v.
        destruct (Z.eq_dec i (pl - 1)) as [->|].
        * assert (u = x) by congruence. subst u. unfold le. lia.
        * apply le_trans with x; [|unfold le; lia].
          apply (Hs i (pl - 1) ltac:(lia) ltac:(lia) ltac:(lia) ltac:(lia) u x Eu Ex).
  Qed.

  Lemma isort_outer_ok : forall n k a base, 0 <= base -> base + Z.of_nat k + Z.of_nat n <= Z.of_nat (length a) ->
    seg_sorted a base (base + Z.of_nat k) ->
    exists a', isort_outer cmp a base k n = Ok a' /\ seg_perm base (base + Z.of_nat k + Z.of_nat n) a a' /\
      seg_sorted a' base (base + Z.of_nat k + Z.of_nat n).
  Proof.
    induction n as [|n IH]; intros k a base Hb Hn Hs; cbn [isort_outer].
    - exists a. split; [reflexivity|]. split; [constructor|]. replace (base + Z.of_nat k + Z.of_nat 0) with (base + Z.of_nat k) by lia. exact Hs.
    - destruct (isort_inner_ok k a base) as (a1 & E & Hp & Hs1); try lia.
      { intros i j H1 H2 H3 H4. apply Hs; lia. }
      rewrite E. cbn [bind].
      destruct (IH (S k) a1 base) as (a2 & E2 & Hp2 & Hs2); try lia.
      + rewrite (seg_perm_length _ _ _ _ Hp). lia.
      + intros i j H1 H2 H3. apply Hs1; lia.
      + exists a2. split; [exact E2|]. split.
        * eapply seg_perm_trans; [eapply seg_perm_mono; [| |exact Hp]; lia|]. eapply seg_perm_mono; [| |exact Hp2]; lia.
        * intros i j H1 H2 H3. apply Hs2; lia.
  Qed.

  Lemma insertion_sort_ok a base size : 0 <= base -> 0 <= size -> base + size <= Z.of_nat (length a) ->
    exists a', insertion_sort cmp a base size = Ok a' /\ seg_perm base (base + size) a a' /\ seg_sorted a' base (base + size).
  Proof.
    intros Hb Hs Hl. unfold insertion_sort. destruct (Z.le_gt_cases size 1).
    - replace (Z.to_nat (size - 1)) with O by lia. exists a. split; [reflexivity|]. split; [constructor|]. intros i j; lia.
    - destruct (isort_outer_ok (Z.to_nat (size - 1)) 1 a base) as (a' & E & Hp & Hs'); try lia.
      { intros i j; lia. }
      exists a'. replace (base + Z.of_nat 1 + Z.of_nat (Z.to_nat (size - 1))) with (base + size) in * by lia. auto.
  Qed.

  (* ---- partition ---- *)
  Lemma scan_right_ok a base p e : elem_at a base = Some p -> e <= Z.of_nat (length a) -> 0 <= base ->
    forall fuel pi pj, base < pi <= pj -> pj < e -> pj - pi <= Z.of_nat fuel ->
    (forall x, elem_at a pj = Some x -> le p x) ->
    exists pi', scan_right cmp fuel a base pi pj = Ok pi' /\ pi <= pi' <= pj /\ (pi < pj -> pi < pi') /\
      (forall k x, pi < k < pi' -> elem_at a k = Some x -> le x p) /\
      (forall x, elem_at a pi' = Some x -> le p x).
  Proof.
    intros Ep He Hb0. induction fuel as [|f IH]; intros pi pj Hb Hj Hf HR; cbn [scan_right].
    - assert (pi = pj) by lia. subst. destruct (Z.ltb_spec pj pj); [lia|]. cbn [negb]. exists pj.
      split; [reflexivity|]. split; [lia|]. split; [lia|]. split; [lia|]. exact HR.
    - destruct (Z.ltb_spec pi pj); cbn [negb].
      + destruct (rd_ok a (pi + 1) ltac:(lia)) as (x & Ex & ->). cbn [bind]. rewrite (rd_elem _ _ _ Ep). cbn [bind].
        destruct (Z.ltb_spec (cmp x p) 0).
        * destruct (IH (pi + 1) pj) as (pi' & E & H1 & _ & H3 & H4); try lia; auto.
          exists pi'. split; [exact E|]. split; [lia|]. split; [lia|]. split; [|exact H4].
          intros k y Hk Ey. destruct (Z.eq_dec k (pi + 1)) as [->|]; [|apply (H3 k y); [lia|exact Ey]].
          assert (y = x) by congruence. subst. now apply lt_le.
        * exists (pi + 1). split; [reflexivity|]. split; [lia|]. split; [lia|]. split; [lia|].
          intros y Ey. assert (y = x) by congruence. subst. apply nlt_le. lia.
      + exists pi. assert (pi = pj) by lia. subst. split; [reflexivity|]. split; [lia|]. split; [lia|]. split; [lia|]. exact HR.
  Qed.

  Lemma scan_left_ok a base p : elem_at a base = Some p -> 0 <= base ->
    forall fuel pj, base < pj -> pj <= Z.of_nat (length a) -> pj - base <= Z.of_nat fuel ->
    exists pj', scan_left cmp fuel a base pj = Ok pj' /\ base <= pj' < pj /\
      (forall k x, pj' < k < pj -> elem_at a k = Some x -> le p x) /\
      (forall x, elem_at a pj' = Some x -> le x p).
  Proof.
    intros Ep Hb0. induction fuel as [|f IH]; intros pj Hj Hl Hf; [lia|]. cbn [scan_left].
    destruct (Z.gtb_spec pj base); [|lia]. cbn [negb].
    destruct (rd_ok a (pj - 1) ltac:(lia)) as (x & Ex & ->). cbn [bind]. rewrite (rd_elem _ _ _ Ep). cbn [bind].
    destruct (Z.gtb_spec (cmp x p) 0) as [Hg|Hg].
    - destruct (Z.eq_dec (pj - 1) base) as [E|].
      { exfalso. rewrite E in Ex. assert (x = p) by congruence. subst. pose proof (le_refl p). unfold le in *. lia. }
      destruct (IH (pj - 1)) as (pj' & E & H1 & H2 & H3); try lia.
      exists pj'. split; [exact E|]. split; [lia|]. split; [|exact H3].
      intros k y Hk Ey. destruct (Z.eq_dec k (pj - 1)) as [->|]; [|apply (H2 k y); [lia|exact Ey]].
      assert (y = x) by congruence. subst. apply gt_le. lia.
    - exists (pj - 1). split; [reflexivity|]. split; [lia|]. split; [lia|].
      intros y Ey. assert (y = x) by congruence. subst. unfold le. lia.
  Qed.

  Lemma partition_loop_ok base e p : 0 <= base ->
    forall fuel a pi pj, elem_at a base = Some p -> e <= Z.of_nat (length a) ->
    base < pi <= pj -> pj < e -> pj - base <= Z.of_nat fuel ->
    (forall k x, base < k <= pi -> elem_at a k = Some x -> le x p) ->
    (forall k x, pj <= k < e -> elem_at a k = Some x -> le p x) ->
    exists a' pi' pj', partition_loop cmp fuel a base pi pj = Ok (a', pi', pj') /\
      seg_perm (base + 1) e a a' /\ base <= pj' < pi' /\ pi' < e /\
      (forall k x, base < k < pi' -> elem_at a' k = Some x -> le x p) /\
      (forall k x, pj' < k < e -> elem_at a' k = Some x -> le p x).
  Proof.
    intros Hb. induction fuel as [|f IH]; intros a pi pj Ep He Hpi Hpj Hf HL HR; [lia|]. cbn [partition_loop].
    destruct (scan_right_ok a base p e Ep He Hb (length a) pi pj) as (pi' & -> & R1 & R2 & R3 & R4); try lia.
    { intros x Ex. apply (HR pj x); [lia|exact Ex]. }
    cbn [bind].
    destruct (scan_left_ok a base p Ep Hb (length a) pj) as (pj' & -> & L1 & L2 & L3); try lia.
    cbn [bind]. destruct (Z.gtb_spec pi' pj') as [Hgt|Hle].
    - exists a, pi', pj'. split; [reflexivity|]. split; [constructor|]. split; [lia|]. split; [lia|]. split.
      + intros k x Hk Ex. destruct (Z.le_gt_cases k pi); [apply (HL k x)|apply (R3 k x)]; auto; lia.
      + intros k x Hk Ex. destruct (Z.lt_ge_cases k pj); [apply (L2 k x)|apply (HR k x)]; auto; lia.
    - destruct (elem_at_some a pi' ltac:(lia)) as [u Eu]. destruct (elem_at_some a pj' ltac:(lia)) as [v Ev].
      rewrite (swap_ok _ _ _ _ _ Eu Ev). cbn [bind]. set (a1 := zswap a pi' pj' u v).
      assert (Hel : forall k0, elem_at a1 k0 = if k0 =? pj' then Some u else if k0 =? pi' then Some v else elem_at a k0)
        by (intros; apply elem_zswap; assumption).
      destruct (IH a1 pi' pj') as (a' & pi2 & pj2 & E & Hp & H1 & H2 & H3 & H4); try lia.
      + rewrite Hel. destruct (Z.eqb_spec base pj'); [lia|]. destruct (Z.eqb_spec base pi'); [lia|]. exact Ep.
      + unfold a1. rewrite zswap_length. lia.
      + intros k x Hk. rewrite Hel. destruct (Z.eqb_spec k pj') as [->|].
        * assert (pi' = pj') by lia. intros [= <-]. assert (u = v) by congruence. subst u. apply L3. exact Ev.
        * destruct (Z.eqb_spec k pi') as [->|].
          -- intros [= <-]. apply L3. exact Ev.
          -- intros Ex. destruct (Z.le_gt_cases k pi); [apply (HL k x)|apply (R3 k x)]; auto; lia.
      + intros k x Hk. rewrite Hel. destruct (Z.eqb_spec k pj') as [->|].
        * intros [= <-]. apply R4. exact Eu.
        * destruct (Z.eqb_spec k pi'); [lia|]. intros Ex. destruct (Z.lt_ge_cases k pj); [apply (L2 k x)|apply (HR k x)]; auto; lia.
      + exists a', pi2, pj2. split; [exact E|]. split; [|auto].
        eapply seg_perm_trans; [|exact Hp]. apply seg_perm_one; auto; lia.
  Qed.

  Lemma cswap_ok a i j b e : 0 <= b -> e <= Z.of_nat (length a) -> b <= i < e -> b <= j < e -> i <> j ->
    exists a' x y, cswap cmp a i j = Ok a' /\ seg_perm b e a a' /\ elem_at a' i = Some x /\ elem_at a' j = Some y /\ le x y /\
      (forall k, k <> i -> k <> j -> elem_at a' k = elem_at a k) /\
      ((elem_at a i = Some x /\ elem_at a j = Some y) \/ (elem_at a i = Some y /\ elem_at a j = Some x)).
  Proof.
    intros Hb He Hi Hj Hne. unfold cswap.
    destruct (rd_ok a i ltac:(lia)) as (x & Ex & ->). cbn [bind]. destruct (rd_ok a j ltac:(lia)) as (y & Ey & ->). cbn [bind].
    destruct (Z.gtb_spec (cmp x y) 0).
    - rewrite (swap_ok _ _ _ _ _ Ex Ey). exists (zswap a i j x y), y, x. split; [reflexivity|].
      split; [apply seg_perm_one; auto|].
      rewrite !(elem_zswap _ _ _ _ _ _ Ex Ey).
      destruct (Z.eqb_spec i j); [lia|]. rewrite !Z.eqb_refl. split; [reflexivity|]. split; [reflexivity|].
      split; [apply gt_le; lia|]. split; [|right; auto].
      intros k Hki Hkj. rewrite (elem_zswap _ _ _ _ _ _ Ex Ey).
      destruct (Z.eqb_spec k j); [lia|]. destruct (Z.eqb_spec k i); [lia|]. reflexivity.
    - exists a, x, y. split; [reflexivity|]. split; [constructor|]. split; [exact Ex|]. split; [exact Ey|]. split; [unfold le; lia|]. split; [reflexivity|left; auto].
  Qed.

  Lemma partition_ok a base e : 0 <= base -> base + 7 < e -> e <= Z.of_nat (length a) ->
    exists a' pi pj p, partition cmp a base e = Ok (a', pi, pj) /\ seg_perm base e a a' /\
      base <= pj < pi /\ pi < e /\ elem_at a' pj = Some p /\
      (forall k x, base <= k < pi -> elem_at a' k = Some x -> le x p) /\
      (forall k x, pj <= k < e -> elem_at a' k = Some x -> le p x).
  Proof.
    intros Hb Hn He. unfold partition.
    assert (Hm : base <= base + (e - base) / 2 < e) by lia.
    destruct (elem_at_some a (base + (e - base) / 2) ltac:(lia)) as [u Eu]. destruct (elem_at_some a base ltac:(lia)) as [v Ev].
    rewrite (swap_ok _ _ _ _ _ Eu Ev). cbn [bind]. set (a0 := zswap a _ base u v).
    assert (P0 : seg_perm base e a a0) by (apply seg_perm_one; auto; lia).
    assert (L0 : length a0 = length a) by apply zswap_length.
    destruct (cswap_ok a0 (base + 1) (e - 1) base e) as (a1 & x1 & y1 & -> & P1 & X1 & Y1 & Le1 & O1 & _); try lia. cbn [bind].
    assert (L1 : length a1 = length a) by (rewrite (seg_perm_length _ _ _ _ P1); exact L0).
    destruct (cswap_ok a1 base (e - 1) base e) as (a2 & x2 & y2 & -> & P2 & X2 & Y2 & Le2 & O2 & C2); try lia. cbn [bind].
    assert (L2 : length a2 = length a) by (rewrite (seg_perm_length _ _ _ _ P2); exact L1).
    (* a2[base+1] = x1 <= y2 *)
    assert (X12 : elem_at a2 (base + 1) = Some x1) by (rewrite O2 by lia; exact X1).
    assert (Hx1y2 : le x1 y2).
    { destruct C2 as [[_ C]|[_ C]]; rewrite Y1 in C; injection C as C.
      - subst y2. exact Le1.
      - subst x2. apply le_trans with y1; assumption. }
    destruct (cswap_ok a2 (base + 1) base base e) as (a3 & x3 & y3 & -> & P3 & X3 & Y3 & Le3 & O3 & C3); try lia. cbn [bind].
    assert (L3 : length a3 = length a) by (rewrite (seg_perm_length _ _ _ _ P3); exact L2).
    assert (Y23 : elem_at a3 (e - 1) = Some y2) by (rewrite O3 by lia; exact Y2).
    assert (Hy3 : le y3 y2).
    { destruct C3 as [[_ C]|[C _]].
      - rewrite X2 in C. injection C as <-. exact Le2.
      - rewrite X12 in C. injection C as <-. exact Hx1y2. }
    destruct (partition_loop_ok base e y3 Hb (length a3) a3 (base + 1) (e - 1)) as (a4 & pi & pj & E & P4 & H1 & H2 & H3 & H4); try lia; auto.
    { intros k x Hk Ex. assert (k = base + 1) by lia. subst k. assert (x = x3) by congruence. subst. exact Le3. }
    { intros k x Hk Ex. assert (k = e - 1) by lia. subst k. assert (x = y2) by congruence. subst. exact Hy3. }
    rewrite E. cbn [bind].
    assert (Ep : elem_at a4 base = Some y3) by (rewrite (seg_perm_out _ _ _ _ base P4) by lia; exact Y3).
    assert (L4 : length a4 = length a) by (rewrite (seg_perm_length _ _ _ _ P4); exact L3).
    destruct (elem_at_some a4 pj ltac:(lia)) as [q Eq].
    rewrite (swap_ok _ _ _ _ _ Ep Eq). cbn [bind]. set (a5 := zswap a4 base pj y3 q).
    assert (Hel : forall k0, elem_at a5 k0 = if k0 =? pj then Some y3 else if k0 =? base then Some q else elem_at a4 k0)
      by (intros; apply elem_zswap; assumption).
    exists a5, pi, pj, y3. split; [reflexivity|]. split.
    { eapply seg_perm_trans; [exact P0|]. eapply seg_perm_trans; [exact P1|]. eapply seg_perm_trans; [exact P2|].
      eapply seg_perm_trans; [exact P3|]. eapply seg_perm_trans; [eapply seg_perm_mono; [| |exact P4]; lia|].
      apply seg_perm_one; auto; lia. }
    split; [lia|]. split; [lia|]. split; [rewrite Hel, Z.eqb_refl; reflexivity|]. split.
    - intros k x Hk. rewrite Hel. destruct (Z.eqb_spec k pj) as [->|].
      + intros [= <-]. apply le_refl.
      + destruct (Z.eqb_spec k base) as [->|].
        * intros [= <-]. apply (H3 pj q); auto. lia.
        * apply H3. lia.
    - intros k x Hk. rewrite Hel. destruct (Z.eqb_spec k pj) as [->|].
      + intros [= <-]. apply le_refl.
      + destruct (Z.eqb_spec k base) as [->|]; [lia|]. apply H4. lia.
  Qed.

  (* ---- the outer loop ---- *)
  Definition in_rg (i : Z) (r : Z * Z) : Prop := fst r <= i < snd r.
  (* every pair of positions is either in one pending range or already ordered *)
  Definition almost (a : list A) (pend : list (Z * Z)) : Prop :=
    forall i j, 0 <= i -> i < j -> j < Z.of_nat (length a) ->
      (exists r, In r pend /\ in_rg i r /\ in_rg j r) \/ le_at a i j.
  (* pending ranges are inside the array and pairwise disjoint *)
  Definition rg_ok (n : Z) (r : Z * Z) : Prop := 0 <= fst r /\ fst r <= snd r /\ snd r <= n.
  Definition disj (r s : Z * Z) : Prop := forall i, in_rg i r -> in_rg i s -> False.
  Inductive pend_ok (n : Z) : list (Z * Z) -> Prop :=
  | po_nil : pend_ok n []
  | po_cons r l : rg_ok n r -> Forall (disj r) l -> pend_ok n l -> pend_ok n (r :: l).
  (* order between a position outside a pending range and the whole range *)
  Lemma almost_perm a a' b e rest : pend_ok (Z.of_nat (length a)) ((b, e) :: rest) ->
    almost a ((b, e) :: rest) -> seg_perm b e a a' -> almost a' ((b, e) :: rest).
  Proof.
    intros Hpo Hal Hp i j Hi Hij Hj. rewrite (seg_perm_length _ _ _ _ Hp) in Hj.
    inversion Hpo as [|? ? Hr Hd Hpo']; subst.
    destruct (Z_lt_dec i b) as [Hib|Hib]; [|destruct (Z_lt_dec i e) as [Hie|Hie]].
    - (* i left of the range *)
      destruct (Hal i j Hi Hij Hj) as [(r & Hin & H1 & H2)|Hle].
      { left. exists r. auto. }
      destruct (Z_lt_dec j b) as [Hjb|Hjb]; [|destruct (Z_lt_dec j e) as [Hje|Hje]].
      + right. intros x y. rewrite !(seg_perm_out _ _ _ _ _ Hp) by lia. apply Hle.
      + right. intros x y Ex Ey. rewrite (seg_perm_out _ _ _ _ i Hp) in Ex by lia.
        refine (seg_perm_forall b e a a' (fun y => le x y) Hp _ j y (conj _ Hje) Ey); [|lia].
        intros k z Hk Ez. destruct (Hal i k Hi ltac:(lia)) as [(r & Hin & H1 & H2)|Hle2].
        { apply elem_at_range in Ez. lia. }
        { exfalso. destruct Hin as [<-|Hin]; [unfold in_rg in H1; cbn in H1; lia|].
          rewrite Forall_forall in Hd. apply (Hd r Hin k); [unfold in_rg; cbn; lia|exact H2]. }
        apply Hle2; auto.
      + right. intros x y. rewrite !(seg_perm_out _ _ _ _ _ Hp) by lia. apply Hle.
    - destruct (Z_lt_dec j e) as [Hje|Hje].
      { left. exists (b, e). split; [now left|]. unfold in_rg; cbn; lia. }
      right. intros x y Ex Ey. rewrite (seg_perm_out _ _ _ _ j Hp) in Ey by lia.
      refine (seg_perm_forall b e a a' (fun x => le x y) Hp _ i x (conj _ Hie) Ex); [|lia].
      intros k z Hk Ez. destruct (Hal k j ltac:(destruct Hr; cbn in *; lia) ltac:(lia) Hj) as [(r & Hin & H1 & H2)|Hle2].
      { exfalso. destruct Hin as [<-|Hin]; [unfold in_rg in H2; cbn in H2; lia|].
        rewrite Forall_forall in Hd. apply (Hd r Hin k); [unfold in_rg; cbn; lia|exact H1]. }
      apply Hle2; auto.
    - destruct (Hal i j Hi Hij Hj) as [(r & Hin & H1 & H2)|Hle].
      { left. exists r. auto. }
      right. intros x y. rewrite !(seg_perm_out _ _ _ _ _ Hp) by lia. apply Hle.
  Qed.

  (* replacing a range by two parts whose elements are separated by p *)
  Lemma almost_split a b e rest pi pj p : almost a ((b, e) :: rest) -> b <= pj < pi -> pi < e ->
    (forall k x, b <= k < pi -> elem_at a k = Some x -> le x p) ->
    (forall k x, pj <= k < e -> elem_at a k = Some x -> le p x) ->
    almost a ((b, pj) :: (pi, e) :: rest).
  Proof.
    intros Hal Hj Hi HL HR i j Hi0 Hij Hjn.
    destruct (Hal i j Hi0 Hij Hjn) as [(r & Hin & H1 & H2)|Hle]; [|right; exact Hle].
    destruct Hin as [<-|Hin]; [|left; exists r; split; [right; right; exact Hin|auto]].
    unfold in_rg in H1, H2; cbn in H1, H2.
    destruct (Z_lt_dec j pj).
    { left. exists (b, pj). split; [now left|]. unfold in_rg; cbn; lia. }
    destruct (Z_lt_dec i pi).
    - right. intros x y Ex Ey. apply le_trans with p; [apply (HL i x)|apply (HR j y)]; auto; lia.
    - left. exists (pi, e). split; [right; now left|]. unfold in_rg; cbn; lia.
  Qed.

  Lemma almost_sorted_drop a b e rest : almost a ((b, e) :: rest) -> seg_sorted a b e -> almost a rest.
  Proof.
    intros Hal Hs i j Hi Hij Hj. destruct (Hal i j Hi Hij Hj) as [(r & Hin & H1 & H2)|Hle]; [|right; exact Hle].
    destruct Hin as [<-|Hin]; [|left; exists r; auto]. right. unfold in_rg in *; cbn in *. apply Hs; lia.
  Qed.

  Lemma almost_swap a r s rest : almost a (r :: s :: rest) -> almost a (s :: r :: rest).
  Proof.
    intros Hal i j Hi Hij Hj. destruct (Hal i j Hi Hij Hj) as [(q & Hin & H)|Hle]; [|right; exact Hle].
    left. exists q. split; [|exact H]. destruct Hin as [|[|]]; [right; left|left|right; right]; assumption.
  Qed.

  Lemma disj_sym r s : disj r s -> disj s r.
  Proof. intros H i H1 H2. apply (H i H2 H1). Qed.

  Lemma pend_split n b e rest pi pj : pend_ok n ((b, e) :: rest) -> b <= pj < pi -> pi < e ->
    pend_ok n ((b, pj) :: (pi, e) :: rest) /\ pend_ok n ((pi, e) :: (b, pj) :: rest).
  Proof.
    intros H Hj Hi. inversion H as [|? ? Hr Hd Hpo]; subst. destruct Hr as (R1 & R2 & R3); cbn in *.
    assert (D1 : Forall (disj (b, pj)) rest).
    { eapply Forall_impl; [|exact Hd]. intros s Hs i H1 H2. apply (Hs i); [unfold in_rg in *; cbn in *; lia|exact H2]. }
    assert (D2 : Forall (disj (pi, e)) rest).
    { eapply Forall_impl; [|exact Hd]. intros s Hs i H1 H2. apply (Hs i); [unfold in_rg in *; cbn in *; lia|exact H2]. }
    assert (D3 : disj (b, pj) (pi, e)) by (intros i H1 H2; unfold in_rg in *; cbn in *; lia).
    split; repeat constructor; cbn; auto; try lia. now apply disj_sym.
  Qed.

  Definition rg_meas (r : Z * Z) : Z := 2 * (snd r - fst r) + 1.
  Fixpoint meas (l : list (Z * Z)) : Z := match l with [] => 0 | r :: l => rg_meas r + meas l end.
  Lemma meas_nonneg n l : pend_ok n l -> 0 <= meas l.
  Proof. induction 1 as [|r l Hr _ _ IH]; cbn [meas]; unfold rg_ok, rg_meas in *; lia. Qed.

  (* ranges on the stack (top first): the one at depth d from the bottom has size * 2^d <= n *)
  Inductive depth_ok (n : Z) : list (Z * Z) -> Prop :=
  | do_nil : depth_ok n []
  | do_cons r l : (snd r - fst r) * 2 ^ Z.of_nat (length l) <= n -> depth_ok n l -> depth_ok n (r :: l).

  Lemma qsort_loop_ok N : N < 2 ^ 64 -> forall fuel a b e stack,
    Z.of_nat (length a) = N -> pend_ok N ((b, e) :: stack) -> almost a ((b, e) :: stack) ->
    depth_ok N stack -> (e - b) * 2 ^ Z.of_nat (length stack) <= N ->
    meas ((b, e) :: stack) < Z.of_nat fuel ->
    exists a', qsort_loop cmp fuel a b e stack = Ok a' /\ Permutation a a' /\ length a' = length a /\ almost a' [].
  Proof.
    intros HN. induction fuel as [|f IH]; intros a b e stack HL Hpo Hal Hdep Hcur Hm.
    { exfalso. inversion Hpo as [|? ? Hr _ Hpo']; subst. apply meas_nonneg in Hpo'.
      cbn [meas] in Hm. unfold rg_ok, rg_meas in *; cbn [fst snd] in *. lia. }
    assert (Hpo0 := Hpo). inversion Hpo as [|? ? Hr Hd Hpo']; subst. destruct Hr as (R1 & R2 & R3); cbn in R1, R2, R3.
    cbn [qsort_loop]. unfold kISortThreshold. destruct (Z.gtb_spec (e - b) 7) as [Hbig|Hsmall].
    - destruct (partition_ok a b e) as (a1 & pi & pj & p & -> & Hp & H1 & H2 & Ep & HLe & HRe); try lia.
      cbn [bind]. pose proof (seg_perm_length _ _ _ _ Hp) as Hlen.
      assert (Hal1 : almost a1 ((b, e) :: stack)) by (apply almost_perm with a; assumption).
      assert (Hal2 : almost a1 ((b, pj) :: (pi, e) :: stack)) by (apply almost_split with p; assumption).
      destruct (pend_split _ _ _ _ pi pj Hpo0 H1 H2) as [Hpo1 Hpo2].
      set (D := Z.of_nat (length stack)) in *.
      assert (HD : 2 ^ D <= 2 ^ 61).
      { assert (8 * 2 ^ D <= 2 ^ 64). { apply Z.le_trans with ((e - b) * 2 ^ D); [|lia]. pose proof (Z.pow_pos_nonneg 2 D). nia. }
        change (2 ^ 64) with (8 * 2 ^ 61) in *. lia. }
      assert (HD2 : D <= 61).
      { destruct (Z.le_gt_cases D 61); [assumption|exfalso]. assert (2 ^ 61 < 2 ^ D) by (apply Z.pow_lt_mono_r; lia). lia. }
      assert (Hpush : forall r, push stack r = Ok (r :: stack)).
      { intros r. unfold push, kStackSize. fold D. destruct (Z.leb_spec (2 * D + 2) (64 * 2)); [reflexivity|lia]. }
      assert (HP : 0 < 2 ^ D) by (apply Z.pow_pos_nonneg; lia).
      assert (HS : forall r : Z * Z, 2 ^ Z.of_nat (length (r :: stack)) = 2 * 2 ^ D).
      { intros r. cbn [length]. rewrite Nat2Z.inj_succ, Z.pow_succ_r by lia. reflexivity. }
      destruct (Z.gtb_spec (pj - b) (e - pi)) as [Hl|Hl]; rewrite Hpush; cbn [bind].
      + destruct (IH a1 pi e ((b, pj) :: stack)) as (a' & E & P' & L' & S').
        * congruence.
        * exact Hpo2.
        * apply almost_swap. exact Hal2.
        * constructor; [|exact Hdep]. cbn. fold D. nia.
        * rewrite HS. nia.
        * cbn [meas] in *. unfold rg_meas in *; cbn [fst snd] in *. lia.
        * exists a'. split; [exact E|]. split; [rewrite (seg_perm_perm _ _ _ _ Hp); exact P'|]. split; [congruence|exact S'].
      + destruct (IH a1 b pj ((pi, e) :: stack)) as (a' & E & P' & L' & S').
        * congruence.
        * exact Hpo1.
        * exact Hal2.
        * constructor; [|exact Hdep]. cbn. fold D. nia.
        * rewrite HS. nia.
        * cbn [meas] in *. unfold rg_meas in *; cbn [fst snd] in *. lia.
        * exists a'. split; [exact E|]. split; [rewrite (seg_perm_perm _ _ _ _ Hp); exact P'|]. split; [congruence|exact S'].
    - destruct (insertion_sort_ok a b (e - b)) as (a1 & -> & Hp & Hs); try lia. cbn [bind].
      replace (b + (e - b)) with e in * by lia. pose proof (seg_perm_length _ _ _ _ Hp) as Hlen.
      assert (Hal1 : almost a1 ((b, e) :: stack)) by (apply almost_perm with a; assumption).
      apply almost_sorted_drop in Hal1; [|exact Hs].
      destruct stack as [|[b' e'] stack].
      + exists a1. split; [reflexivity|]. split; [apply (seg_perm_perm _ _ _ _ Hp)|]. split; [exact Hlen|exact Hal1].
      + inversion Hdep; subst. destruct (IH a1 b' e' stack) as (a' & E & P' & L' & S').
        * congruence.
        * exact Hpo'.
        * exact Hal1.
        * assumption.
        * assumption.
        * cbn [meas] in *. unfold rg_meas in *; cbn [fst snd] in *. lia.
        * exists a'. split; [exact E|]. split; [rewrite (seg_perm_perm _ _ _ _ Hp); exact P'|]. split; [congruence|exact S'].
  Qed.

  Lemma elem_at_cons (x : A) l i : 0 < i -> elem_at (x :: l) i = elem_at l (i - 1).
  Proof.
    intros. unfold elem_at. destruct (Z.ltb_spec i 0), (Z.ltb_spec (i - 1) 0); try lia.
    replace (Z.to_nat i) with (S (Z.to_nat (i - 1))) by lia. reflexivity.
  Qed.

  Lemma seg_sorted_sorted l : seg_sorted l 0 (Z.of_nat (length l)) -> sorted_by cmp l.
  Proof.
    induction l as [|x l IH]; intros Hs; constructor.
    - apply IH. intros i j H1 H2 H3 u v Eu Ev. cbn [length] in Hs.
      apply (Hs (i + 1) (j + 1)); try lia; rewrite elem_at_cons by lia.
      + now replace (i + 1 - 1) with i by lia.
      + now replace (j + 1 - 1) with j by lia.
    - apply Forall_forall. intros y Hy. apply In_nth_error in Hy. destruct Hy as [n Hn].
      assert (n < length l)%nat by (apply nth_error_Some; congruence).
      apply (Hs 0 (Z.of_nat n + 1)); cbn [length]; try lia; [reflexivity|].
      rewrite elem_at_cons by lia. unfold elem_at. destruct (Z.ltb_spec (Z.of_nat n + 1 - 1) 0); [lia|].
      replace (Z.to_nat (Z.of_nat n + 1 - 1)) with n by lia. exact Hn.
  Qed.

  Lemma almost_nil_sorted a : almost a [] -> sorted_by cmp a.
  Proof.
    intros H. apply seg_sorted_sorted. intros i j H1 H2 H3. destruct (H i j H1 H2 H3) as [(r & [] & _)|]; assumption.
  Qed.

  Lemma quick_sort_ok a : Z.of_nat (length a) < 2 ^ 64 ->
    exists a', quick_sort cmp a = Ok a' /\ Permutation a a' /\ sorted_by cmp a'.
  Proof.
    intros HN. unfold quick_sort.
    destruct (qsort_loop_ok (Z.of_nat (length a)) HN (2 * length a + 2) a 0 (Z.of_nat (length a)) []) as (a' & E & P & _ & S).
    - reflexivity.
    - repeat constructor; cbn; lia.
    - intros i j Hi Hij Hj. left. exists (0, Z.of_nat (length a)). split; [now left|]. unfold in_rg; cbn; lia.
    - constructor.
    - cbn. lia.
    - cbn [meas]. unfold rg_meas; cbn [fst snd]. lia.
    - exists a'. split; [exact E|]. split; [exact P|]. now apply almost_nil_sorted.
  Qed.

  Lemma insertion_sort_full a : exists a', insertion_sort cmp a 0 (Z.of_nat (length a)) = Ok a' /\ Permutation a a' /\ sorted_by cmp a'.
  Proof.
    destruct (insertion_sort_ok a 0 (Z.of_nat (length a))) as (a' & E & P & S); try lia.
    exists a'. split; [exact E|]. split; [apply (seg_perm_perm _ _ _ _ P)|]. apply seg_sorted_sorted.
    rewrite (seg_perm_length _ _ _ _ P). exact S.
  Qed.
End Sorting.
