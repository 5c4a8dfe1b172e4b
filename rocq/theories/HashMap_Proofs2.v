From Coq Require Import Permutation.
From Verif Require Import Base Bits Algorithm_Model HashMap_Model HashMap_Spec HashMap_Proofs.
Ltac Zify.zify_post_hook ::= idtac.

Section Ops.
  Context (b64 : bool).

  (* [m] has the row [k] of the primes and stores the nodes [s] *)
  Definition at_row (m : hmap) (k : Z) : Prop :=
    0 <= k < 129 /\ m_prime m = k /\ exists p r s, rd primes k = Ok (p, r, s) /\ m_count m = p /\ m_grow m = grow_of p /\ m_rcp m = r /\ m_shift m = prime_shift b64 s.
  Definition holds (m : hmap) (s : list node) : Prop :=
    at_row m (m_prime m) /\ buckets_ok (m_count m) (m_data m) /\ Permutation (concat (m_data m)) s /\
    m_size m = Z.of_nat (length s) /\ Forall (fun n => u32 (n_hash n)) s /\ NoDup (map n_ptr s) /\ Z.of_nat (length s) < 2 ^ 64.

  Lemma rd_row k row : rd primes k = Ok row -> rowb row = true.
  Proof. unfold rd. destruct (k <? 0); [discriminate|]. destruct (nth_error primes (Z.to_nat k)) eqn:E; [|discriminate]. intros X. inversion X; subst. eapply row_ok; exact E. Qed.
  Lemma rd_some k : 0 <= k < 129 -> exists p r s, rd primes k = Ok (p, r, s).
  Proof.
    intros H. unfold rd. destruct (Z.ltb_spec k 0); [lia|]. destruct (nth_error primes (Z.to_nat k)) as [[[p r] s]|] eqn:E; [eauto|].
    apply nth_error_None in E. change (length primes) with 129%nat in E. lia.
  Qed.
  Lemma empty_holds : holds (empty b64) [].
  Proof.
    unfold holds. split; [|split; [|split; [|split; [|split; [|split]]]]]; [| |constructor|reflexivity|constructor|constructor|reflexivity].
    - split; [cbn [empty m_prime]; lia|]. split; [reflexivity|]. exists 2, 2147483648, 32. repeat split.
    - split; [reflexivity|]. intros [|[|i]] b E; cbn in E; inversion E; subst; try constructor. destruct i; discriminate.
  Qed.
  (* the bucket of a hash code *)
  Lemma find_bucket m s h : holds m s -> u32 h -> 2 <= m_count m /\ calc_mod b64 m h = h mod m_count m /\
    exists b, nth_error (m_data m) (Z.to_nat (h mod m_count m)) = Some b /\ rd (m_data m) (h mod m_count m) = Ok b /\ Forall (fun n => n_hash n mod m_count m = h mod m_count m) b.
  Proof.
    intros ((Hk & _ & p & r & sh & E & Ec & Eg & Er & Es) & BO & _) Hh. pose proof (rd_row _ _ E) as R. rewrite Ec in *. pose proof (p_ge p r sh R) as P.
    split; [exact P|]. split; [apply (calc_mod_ok b64 m p r sh h R Ec Er Es Hh)|]. apply bucket_at; assumption.
  Qed.
  (* all nodes of a hash code are in its bucket *)
  Lemma in_bucket m s h b n : holds m s -> nth_error (m_data m) (Z.to_nat (h mod m_count m)) = Some b -> 2 <= m_count m -> n_hash n = h -> (In n s <-> In n b).
  Proof.
    intros (_ & BO & P & _) E Hp Hn. split.
    - intros HI. apply (Permutation_in n (Permutation_sym P)) in HI. apply in_concat in HI. destruct HI as (c & HC & HN). apply In_nth_error in HC. destruct HC as (i & HC).
      destruct BO as [L F]. pose proof (proj1 (Forall_forall _ _) (F _ _ HC) n HN) as X. cbv beta in X. rewrite Hn in X.
      replace (Z.to_nat (h mod m_count m)) with i in E by lia. congruence.
    - intros HI. apply (Permutation_in n P). apply in_concat. exists b. split; [eapply nth_error_In; exact E|exact HI].
  Qed.

  Lemma rehash_ok alloc m s k : at_row m (m_prime m) -> buckets_ok (m_count m) (m_data m) -> Permutation (concat (m_data m)) s -> m_size m = Z.of_nat (length s) -> Forall (fun n => u32 (n_hash n)) s -> NoDup (map n_ptr s) -> Z.of_nat (length s) < 2 ^ 64 -> 0 <= k < 129 ->
    exists m', rehash b64 alloc m k = Ok m' /\ holds m' s /\ m_prime m' = (if alloc then k else m_prime m).
  Proof.
    intros AR BO P Sz U ND LN Hk. unfold rehash. destruct (rd_some k Hk) as (p & r & sh & E). rewrite E. cbn [bind]. destruct alloc; cbn [negb].
    2:{ exists m. split; [reflexivity|]. split; [unfold holds; repeat (split; [assumption|]); assumption|reflexivity]. }
    pose proof (rd_row _ _ E) as R. pose proof (p_ge p r sh R) as Pg. assert (W8 : w8 k = k) by (unfold w8; apply Z.mod_small; lia). rewrite W8.
    match goal with |- context [move_all b64 ?m' _ _] => set (m1 := m') end. destruct (buckets_empty p ltac:(lia)) as [B0 C0].
    destruct (move_all_ok b64 m1 p r sh R eq_refl eq_refl eq_refl (m_data m) (m_data m1) B0 ltac:(eapply Permutation_Forall; [apply Permutation_sym; exact P|exact U])) as (d & Ed & BOd & Pd).
    rewrite Ed. cbn [bind]. eexists. split; [reflexivity|]. split; [|reflexivity]. cbn [m1 m_data] in Pd. rewrite C0, app_nil_r in Pd.
    split; [|split; [exact BOd|split; [etransitivity; [exact Pd|exact P]|split; [exact Sz|split; [exact U|split; [exact ND|exact LN]]]]]].
    split; [exact Hk|]. split; [reflexivity|]. exists p, r, sh. cbn [m_count m_grow m_rcp m_shift m_prime]. auto.
  Qed.
  Lemma insert_ok alloc m s n : holds m s -> u32 (n_hash n) -> ~ In (n_ptr n) (map n_ptr s) -> Z.of_nat (length s) + 1 < 2 ^ 64 ->
    exists m', insert b64 alloc m n = Ok m' /\ holds m' (n :: s) /\
    m_prime m' = if (m_grow m <? Z.of_nat (length s) + 1) && alloc then Z.min (m_prime m + 2) 128 else m_prime m.
  Proof.
    intros H Hn HI Hl. pose proof H as ((Hk & _ & p & r & sh & E & Ec & Eg & Er & Es) & BO & P & Sz & U & ND & LN). destruct (find_bucket m s (n_hash n) H Hn) as (Hp & CM & b & N & Eb & F).
    unfold insert. rewrite CM, Eb. cbn [bind]. destruct (store_at _ _ (n_hash n) b (n :: b) Hp BO N ltac:(constructor; [reflexivity|exact F])) as (d & Ed & BOd & Pd). rewrite Ed. cbn [bind].
    assert (Q : Permutation (concat d) (n :: s)).
    { apply (Permutation_app_inv_l b). rewrite Pd. cbn [app]. rewrite Permutation_middle. apply Permutation_app_head. constructor. exact P. }
    assert (W : w64 (m_size m + 1) = Z.of_nat (length (n :: s))) by (cbn [length]; rewrite Sz; change (2 ^ 64) with 18446744073709551616 in Hl; unfold w64; rewrite Z.mod_small; lia). rewrite W.
    set (m1 := Map d (Z.of_nat (length (n :: s))) (m_count m) (m_grow m) (m_rcp m) (m_shift m) (m_prime m)).
    assert (AR : at_row m1 (m_prime m1)) by (split; [exact Hk|]; split; [reflexivity|]; exists p, r, sh; auto).
    assert (U1 : Forall (fun n => u32 (n_hash n)) (n :: s)) by (constructor; assumption). assert (ND1 : NoDup (map n_ptr (n :: s))) by (cbn [map]; constructor; assumption).
    assert (H1 : holds m1 (n :: s)) by (unfold holds; repeat (split; [assumption || reflexivity|]); cbn [length]; lia).
    change (m_grow m1) with (m_grow m). change (m_size m1) with (Z.of_nat (length (n :: s))). change (m_prime m1) with (m_prime m) in *.
    replace (Z.of_nat (length (n :: s))) with (Z.of_nat (length s) + 1) by (cbn [length]; lia).
    destruct (Z.ltb_spec (m_grow m) (Z.of_nat (length s) + 1)) as [G|G]; cbn [andb]; [|eauto]. unfold prime_count. change (129 - 1) with 128.
    destruct (Z.ltb_spec (m_prime m) (Z.min (m_prime m + 2) 128)) as [K|K].
    - destruct (rehash_ok alloc m1 (n :: s) (Z.min (m_prime m + 2) 128) AR BOd Q eq_refl U1 ND1 ltac:(cbn [length]; lia) ltac:(lia)) as (m' & E' & H' & K'). exists m'. split; [exact E'|]. split; [exact H'|]. rewrite K'. reflexivity.
    - exists m1. split; [reflexivity|]. split; [exact H1|]. change (m_prime m1) with (m_prime m). destruct alloc; [lia|reflexivity].
  Qed.

  Lemma unlink_some b : forall ptr b', unlink b ptr = Some b' -> exists n, n_ptr n = ptr /\ Permutation b (n :: b').
  Proof.
    induction b as [|x b IH]; intros ptr b' E; cbn [unlink] in E; [discriminate|]. destruct (Z.eqb_spec (n_ptr x) ptr) as [X|X].
    - inversion E; subst. exists x. auto.
    - destruct (unlink b ptr) as [r|] eqn:Er; [|discriminate]. inversion E; subst. destruct (IH _ _ Er) as (n & Hn & P). exists n. split; [exact Hn|]. rewrite P. constructor.
  Qed.
  Lemma unlink_none b : forall ptr, unlink b ptr = None -> forall n, In n b -> n_ptr n <> ptr.
  Proof.
    induction b as [|x b IH]; intros ptr E n HI; cbn [unlink] in E; [contradiction|]. destruct (Z.eqb_spec (n_ptr x) ptr) as [X|X]; [discriminate|].
    destruct (unlink b ptr) as [r|] eqn:Er; [discriminate|]. destruct HI as [<- | HI]; [exact X|]. exact (IH _ Er _ HI).
  Qed.
  Lemma filter_none (l : list node) ptr : ~ In ptr (map n_ptr l) -> filter (fun n' => negb (n_ptr n' =? ptr)) l = l.
  Proof.
    induction l as [|x l IH]; cbn [map In filter]; intros H; [reflexivity|]. destruct (Z.eqb_spec (n_ptr x) ptr) as [X|X]; [exfalso; auto|]. cbn [negb]. f_equal. auto.
  Qed.
  Lemma filter_perm (f : node -> bool) l l' : Permutation l l' -> Permutation (filter f l) (filter f l').
  Proof.
    induction 1; cbn [filter]; auto.
    - destruct (f x); auto.
    - destruct (f x), (f y); auto. constructor.
    - etransitivity; eauto.
  Qed.
  Lemma remove_ok m s n : holds m s -> u32 (n_hash n) -> (forall n', In n' s -> n_ptr n' = n_ptr n -> n' = n) ->
    exists ok m', remove b64 m n = Ok (ok, m') /\ (ok = true <-> In n s) /\ holds m' (filter (fun n' => negb (n_ptr n' =? n_ptr n)) s) /\ m_prime m' = m_prime m.
  Proof.
    intros H Hn HI. pose proof H as ((Hk & _ & p & r & sh & E & Ec & Eg & Er & Es) & BO & P & Sz & U & ND & LN). destruct (find_bucket m s (n_hash n) H Hn) as (Hp & CM & b & N & Eb & F).
    unfold remove. rewrite CM, Eb. cbn [bind]. destruct (unlink b (n_ptr n)) as [b'|] eqn:EU.
    - destruct (unlink_some _ _ _ EU) as (x & Hx & Px). assert (IB : In x b) by (apply (Permutation_in x (Permutation_sym Px)); left; reflexivity).
      assert (IS : In x s) by (apply (Permutation_in x P); apply in_concat; exists b; split; [eapply nth_error_In; exact N|exact IB]).
      pose proof (HI x IS Hx) as ->. clear Hx.
      assert (F' : Forall (fun n0 => n_hash n0 mod m_count m = n_hash n mod m_count m) b') by (apply (Permutation_Forall Px) in F; inversion F; assumption).
      destruct (store_at _ _ (n_hash n) b b' Hp BO N F') as (d & Ed & BOd & Pd). rewrite Ed. cbn [bind].
      assert (Q : Permutation (n :: concat d) s).
      { apply (Permutation_app_inv_l b'). rewrite <- P, <- Pd. rewrite Px. symmetry. apply Permutation_middle. }
      assert (NI : ~ In (n_ptr n) (map n_ptr (concat d))) by (apply (Permutation_NoDup (Permutation_map n_ptr (Permutation_sym Q))) in ND; cbn [map] in ND; inversion ND; assumption).
      assert (Q' : Permutation (concat d) (filter (fun n' => negb (n_ptr n' =? n_ptr n)) s)).
      { rewrite <- (filter_perm _ _ _ Q). cbn [filter]. rewrite Z.eqb_refl. cbn [negb]. rewrite filter_none by exact NI. reflexivity. }
      assert (L : Z.of_nat (length s) = 1 + Z.of_nat (length (concat d))) by (rewrite <- (Permutation_length Q); cbn [length]; lia).
      eexists true, _. split; [reflexivity|]. split; [tauto|]. split; [|reflexivity].
      split; [split; [exact Hk|]; split; [reflexivity|]; exists p, r, sh; auto|]. split; [exact BOd|]. split; [exact Q'|]. split; [|split; [|split]].
      + cbn [m_size]. rewrite <- (Permutation_length Q'). rewrite Sz. change (2 ^ 64) with 18446744073709551616 in LN.
        unfold w64. rewrite Z.mod_small; lia.
      + apply (Permutation_Forall Q'). apply (Permutation_Forall (Permutation_sym Q)) in U. inversion U; assumption.
      + apply (Permutation_NoDup (Permutation_map n_ptr Q')). apply (Permutation_NoDup (Permutation_map n_ptr (Permutation_sym Q))) in ND. cbn [map] in ND. inversion ND; assumption.
      + rewrite <- (Permutation_length Q'). lia.
    - exists false, m. split; [reflexivity|]. pose proof (unlink_none _ _ EU) as NO. 
      assert (NS : ~ In n s) by (rewrite (in_bucket m s (n_hash n) b n H N Hp eq_refl); intros X; exact (NO n X eq_refl)).
      split; [split; [discriminate|contradiction]|]. split; [|reflexivity]. rewrite filter_none; [exact H|].
      intros X. apply in_map_iff in X. destruct X as (x & Hx & IX). pose proof (HI x IX Hx). subst x. contradiction.
  Qed.
  Lemma get_ok m s h f : holds m s -> u32 h -> (forall n, In n s -> f n = true -> n_hash n = h) ->
    exists o, get b64 m h f = Ok o /\ match o with Some n => In n s /\ f n = true | None => forall n, In n s -> f n = false end.
  Proof.
    intros H Hh HF. destruct (find_bucket m s h H Hh) as (Hp & CM & b & N & Eb & F). unfold get, nodes_by_hash_code. rewrite CM, Eb. cbn [bind]. exists (find f b). split; [reflexivity|].
    destruct (find f b) as [n|] eqn:E.
    - apply find_some in E. destruct E as [IB Ef]. split; [|exact Ef]. destruct H as (_ & _ & P & _). apply (Permutation_in n P). apply in_concat. exists b. split; [eapply nth_error_In; exact N|exact IB].
    - intros n HI. destruct (f n) eqn:Ef; [|reflexivity]. pose proof (HF n HI Ef) as Hn. apply (in_bucket m s h b n H N Hp Hn) in HI. pose proof (find_none _ _ E n HI). congruence.
  Qed.

  Lemma perform_ok m s c : holds m s -> permitted s c -> Z.of_nat (length s) + 1 < 2 ^ 64 ->
    exists m' a, perform b64 m c = Ok (m', a) /\ right_answer s c a /\ holds m' (after s c).
  Proof.
    intros H HP HL. destruct c as [alloc n|n|h f|]; cbn [perform permitted after] in *.
    - destruct HP as [P1 P2]. destruct (insert_ok alloc m s n H P1 P2 HL) as (m' & E & H' & _). rewrite E. cbn [bind]. exists m', ANone. cbn [right_answer]. auto.
    - destruct HP as [P1 P2]. destruct (remove_ok m s n H P1 P2) as (ok & m' & E & A & H' & _). rewrite E. cbn [bind]. exists m', (ABool ok). cbn [right_answer]. auto.
    - destruct HP as [P1 P2]. destruct (get_ok m s h f H P1 P2) as (o & E & A). rewrite E. cbn [bind]. exists m, (ANode o). split; [reflexivity|]. split; [destruct o; exact A|exact H].
    - exists (reset b64 m), ANone. split; [reflexivity|]. split; [exact I|apply empty_holds].
  Qed.
  Lemma after_length s c : (length (after s c) <= S (length s))%nat.
  Proof. destruct c; cbn [after length]; try lia. induction s as [|x s IH]; cbn [filter length]; [lia|]. destruct (negb _); cbn [length]; lia. Qed.
  Lemma perform_all_ok l : forall m s, holds m s -> all_permitted s l -> Z.of_nat (length s) + Z.of_nat (length l) < 2 ^ 64 ->
    exists m' a, perform_all b64 m l = Ok (m', a) /\ right_answers s l a /\ holds m' (fold_left after l s).
  Proof.
    induction l as [|c l IH]; intros m s H HP HL; cbn [perform_all all_permitted right_answers fold_left] in *; [exists m, []; auto|]. destruct HP as [P1 P2]. cbn [length] in HL.
    destruct (perform_ok m s c H P1 ltac:(lia)) as (m1 & a & E & A & H1). rewrite E. cbn [bind]. pose proof (after_length s c).
    destruct (IH m1 (after s c) H1 P2 ltac:(lia)) as (m2 & a2 & E2 & A2 & H2). rewrite E2. cbn [bind]. exists m2, (a :: a2). split; [reflexivity|]. split; [split; assumption|exact H2].
  Qed.
End Ops.
