(* The calls that do not insert stops. *)
From Verif Require Import Base Object_Model Object_Proofs2 Algorithm_Model Algorithm_Spec Algorithm_Proofs Gradient_Model Gradient_Spec Gradient_Exec Gradient_Proofs Gradient_Proofs2.
Ltac Zify.zify_post_hook ::= idtac.

Definition cache_ok (c : option (list stop)) (l : list stop) : Prop := c = None \/ c = Some l.
Record iinv (im : gimpl) : Prop := {
  i_wf : wf (g_stops im); i_len : size_of im <= g_cap im; i_cap : 0 <= g_cap im /\ 144 + g_cap im * 16 < 2 ^ 63; i_vals : length (g_values im) = 6%nat;
  i_c1 : cache_ok (g_lut32 im) (g_stops im); i_c2 : cache_ok (g_lut64 im) (g_stops im); i_c3 : cache_ok (g_info im) (g_stops im) }.
Definition inv (g : grad) : Prop := iinv (g_impl g).

(* everything but the stops *)
Definition rest (g : grad) := (g_type g, g_extend g, g_ttype g, g_transform (g_impl g)).
Definition unshared (g : grad) (old : gimpl) : Prop := g_mut (g_impl g) = false -> old = g_impl g.

Lemma impl_size_eq n : 0 <= n < 2 ^ 60 - 9 -> g_impl_size n = 144 + n * 16.
Proof. intros H. unfold g_impl_size, w64. rewrite (Z.mod_small (n * 16)) by lia. rewrite Z.mod_small by lia. reflexivity. Qed.
Lemma cap_of x : 144 <= x < 2 ^ 64 -> g_capacity x = (x - 144) / 16.
Proof. intros H. unfold g_capacity, w64. rewrite Z.mod_small by lia. reflexivity. Qed.
Lemma cap_exact n : 0 <= n < 2 ^ 60 - 9 -> g_capacity (g_impl_size n) = n.
Proof. intros H. rewrite impl_size_eq, cap_of by lia. replace (144 + n * 16 - 144) with (n * 16) by lia. apply Z.div_mul. lia. Qed.
Lemma cap_max n : 0 <= n < 2 ^ 60 - 9 -> g_capacity (Z.max (g_impl_size n) kInitialImplSize) = Z.max n 2.
Proof.
  intros H. unfold kInitialImplSize. destruct (Z.le_gt_cases n 2).
  - rewrite impl_size_eq by lia. replace (Z.max (144 + n * 16) 176) with 176 by lia. replace (Z.max n 2) with 2 by lia. reflexivity.
  - rewrite Z.max_l by (rewrite impl_size_eq; lia). rewrite cap_exact by lia. lia.
Qed.
Lemma cap_range x : 144 <= x < 2 ^ 63 -> 0 <= g_capacity x /\ 144 + g_capacity x * 16 < 2 ^ 63.
Proof. intros H. rewrite cap_of by lia. pose proof (Z.div_mod (x - 144) 16 ltac:(lia)). pose proof (Z.mod_pos_bound (x - 144) 16 ltac:(lia)). pose proof (Z.div_pos (x - 144) 16 ltac:(lia) ltac:(lia)). lia. Qed.
Lemma granted_iff mem x : granted mem x = true <-> mem = true /\ x < 2 ^ 63.
Proof. unfold granted. rewrite andb_true_iff, Z.ltb_lt. tauto. Qed.
Lemma copied_ok cap l : Z.of_nat (length l) <= cap -> copied cap l = Ok l.
Proof. intros H. unfold copied. destruct (Z.ltb_spec cap (Z.of_nat (length l))); [lia|reflexivity]. Qed.
Lemma init_len v n : (n <= 6)%nat -> length v = 6%nat -> length (init_values v n) = 6%nat.
Proof. intros H L. unfold init_values. rewrite firstn_length, app_length. change (length no_values) with 6%nat. lia. Qed.
Lemma init_six v : length v = 6%nat -> init_values v 6 = v.
Proof. intros H. unfold init_values. rewrite (firstn_all2 v) by lia. rewrite firstn_app, H. cbn [Nat.sub]. rewrite firstn_O, app_nil_r. apply firstn_all2. lia. Qed.
Lemma count_le t : (value_count t <= 6)%nat.
Proof. unfold value_count. destruct (t =? 0); [lia|]. destruct (t =? 1); [lia|]. destruct (t =? 2); lia. Qed.
Lemma init_firstn v n : (n <= 6)%nat -> length v = 6%nat -> firstn n (init_values v n) = firstn n v.
Proof. intros H L. unfold init_values. rewrite firstn_firstn, Nat.min_l by lia. rewrite firstn_app, firstn_length, L, Nat.min_l, Nat.sub_diag, firstn_O, app_nil_r by lia. rewrite firstn_firstn, Nat.min_id. reflexivity. Qed.

Lemma wf_in01 l (s : stop) : wf l -> In s l -> in01 (fst s).
Proof. intros (F & _) H. rewrite Forall_forall in F. apply F. auto. Qed.
Lemma wf_remove (a b c : list stop) : wf (a ++ b ++ c) -> wf (a ++ c).
Proof.
  intros (F & S & C). apply Forall_app in F as [F1 F2]. apply Forall_app in F2 as [_ F2]. apply ss_app in S as (S1 & S2 & S3). apply ss_app in S2 as (_ & S2 & _).
  split; [apply Forall_app; auto|]. split.
  - apply ss_app. split; auto. split; auto. revert S3. apply Forall_impl. intros x H. apply Forall_app in H. tauto.
  - intros x. specialize (C x). rewrite !at_app, !app_length in *. lia.
Qed.
Lemma wf_cut (l : list stop) a b : (a <= b <= length l)%nat -> wf l -> wf (firstn a l ++ skipn b l).
Proof.
  intros H W. apply (wf_remove _ (firstn (b - a) (skipn a l))). replace (firstn a l ++ firstn (b - a) (skipn a l) ++ skipn b l) with l; auto.
  rewrite <- (firstn_skipn a l) at 1. f_equal. rewrite <- (firstn_skipn (b - a) (skipn a l)) at 1. f_equal.
  clear W. revert b l H. induction a as [|a IH]; intros b l H; [rewrite Nat.sub_0_r; reflexivity|]. destruct l as [|x l]; [cbn in H; lia|]. destruct b as [|b]; [lia|]. cbn [skipn Nat.sub]. cbn [length] in H. apply IH. lia.
Qed.

Lemma inv_default : inv default_gradient.
Proof. split; cbn; try (left; reflexivity); try lia. apply wf_nil. Qed.
Lemma inv_shared g m : inv g -> inv (shared g m).
Proof. intros [A B C D E F H]. split; auto. Qed.

(* a new impl with the given stops and no caches *)
Lemma iinv_new s v n tr l : 144 <= s < 2 ^ 63 -> length v = 6%nat -> (n <= 6)%nat -> wf l -> Z.of_nat (length l) <= g_capacity s -> iinv (with_stops (alloc_gimpl s v n tr) l).
Proof. intros HS V N W L. split; cbn [with_stops alloc_gimpl g_stops g_cap g_values g_lut32 g_lut64 g_info]; try (left; reflexivity); auto; [apply cap_range; auto|apply init_len; auto]. Qed.
Lemma iinv_invalidated im l : iinv im -> wf l -> Z.of_nat (length l) <= g_cap im -> iinv (invalidated im l).
Proof. intros [A B C D E F H] W L. split; cbn [invalidated g_stops g_cap g_values g_lut32 g_lut64 g_info]; try (left; reflexivity); auto. Qed.
Lemma iinv_caches s v n tr l a b c : 144 <= s < 2 ^ 63 -> length v = 6%nat -> (n <= 6)%nat -> wf l -> Z.of_nat (length l) <= g_capacity s -> cache_ok a l -> cache_ok b l -> cache_ok c l ->
  iinv (with_caches (with_stops (alloc_gimpl s v n tr) l) a b c).
Proof. intros HS V N W L A B C. split; cbn [with_caches with_stops alloc_gimpl g_stops g_cap g_values g_lut32 g_lut64 g_info]; auto; [apply cap_range; auto|apply init_len; auto]. Qed.
Lemma none_ok l : cache_ok None l. Proof. left; auto. Qed.
#[global] Hint Resolve none_ok : core.

(* outcome of a call that leaves stops and everything else alone *)
Definition kept (g g' : grad) : Prop := g_stops (g_impl g') = g_stops (g_impl g) /\ rest g' = rest g /\ g_values (g_impl g') = g_values (g_impl g).
Lemma kept_refl g : kept g g. Proof. repeat split. Qed.
Lemma unshared_same g : unshared g (g_impl g). Proof. intros _. reflexivity. Qed.
#[global] Hint Resolve kept_refl unshared_same : core.

Lemma impl_size_lo n : 0 <= n -> 144 + n * 16 < 2 ^ 63 -> g_impl_size n = 144 + n * 16 /\ g_capacity (g_impl_size n) = n.
Proof. intros H L. rewrite cap_exact by lia. rewrite impl_size_eq by lia. auto. Qed.

Lemma shrink_ok g mem : inv g -> exists code g' old, shrink g mem = Ok (code, g', old) /\ inv g' /\ unshared g old /\ kept g g' /\
  (code = BL_SUCCESS \/ (code = BL_ERROR_OUT_OF_MEMORY /\ mem = false /\ g' = g)).
Proof.
  intros I. pose proof I as [A B C D E F H]. unfold shrink. destruct (_ <? 16).
  - exists BL_SUCCESS, g, (g_impl g). split; [reflexivity|]. auto.
  - assert (S0 : 0 <= size_of (g_impl g)) by (unfold size_of; lia). destruct (impl_size_lo (size_of (g_impl g)) S0 ltac:(lia)) as (E1 & E2).
    destruct (granted mem (g_impl_size (size_of (g_impl g)))) eqn:Gr; cbn [negb].
    + cbn [alloc_gimpl g_cap]. rewrite copied_ok by (rewrite E2; unfold size_of; lia). cbn [bind]. do 3 eexists. split; [reflexivity|]. split.
      * apply iinv_caches; auto; try lia. unfold size_of in *. lia.
      * split; auto. split; [|left; auto]. split; [reflexivity|]. split; [reflexivity|]. cbn [with_impl g_impl with_caches with_stops alloc_gimpl g_values]. apply init_six; auto.
    + exists BL_ERROR_OUT_OF_MEMORY, g, (g_impl g). split; [reflexivity|]. split; auto. split; auto. split; auto. right. split; auto. split; auto.
      destruct mem; auto. unfold granted in Gr. cbn [andb] in Gr. apply Z.ltb_ge in Gr. lia.
Qed.

Lemma reserve_ok g n mem : inv g -> 0 <= n < 2 ^ 64 -> (reserve g n mem = UB /\ ~ (n < 2 ^ 60 - 9 /\ size_of (g_impl g) <= Z.max n 2)) \/
  exists code g' old, reserve g n mem = Ok (code, g', old) /\ inv g' /\ unshared g old /\ kept g g' /\
  (code = BL_SUCCESS /\ (n < 2 ^ 60 - 9 -> n <= g_cap (g_impl g')) \/ (code = BL_ERROR_OUT_OF_MEMORY /\ (mem = false \/ 2 ^ 58 <= n) /\ g' = g)).
Proof.
  intros I N. pose proof I as [A B C D E F H]. unfold reserve. destruct (g_mut (g_impl g) && (n <=? g_cap (g_impl g))) eqn:Q.
  - right. exists BL_SUCCESS, g, (g_impl g). split; [reflexivity|]. split; auto. split; auto. split; auto. left. split; auto. intros _. apply andb_true_iff in Q as [_ Q]. lia.
  - destruct (granted mem (Z.max (g_impl_size n) kInitialImplSize)) eqn:Gr; cbn [negb].
    + apply granted_iff in Gr as [-> Gr]. cbn [alloc_gimpl g_cap]. destruct (Z.ltb_spec (g_capacity (Z.max (g_impl_size n) kInitialImplSize)) (Z.of_nat (length (g_stops (g_impl g))))) as [L|L].
      * left. unfold copied. destruct (Z.ltb_spec (g_capacity (Z.max (g_impl_size n) kInitialImplSize)) (Z.of_nat (length (g_stops (g_impl g))))); [|lia]. split; [reflexivity|].
        intros [N1 N2]. rewrite cap_max in L by lia. unfold size_of in N2. lia.
      * right. rewrite copied_ok by lia. cbn [bind]. do 3 eexists. split; [reflexivity|]. split; [apply iinv_caches; auto; unfold kInitialImplSize in *; lia|]. split; auto.
        split; [split; [reflexivity|split; [reflexivity|]]; cbn [with_impl g_impl with_caches with_stops alloc_gimpl g_values]; apply init_six; auto|].
        left. split; auto. intros N1. cbn [with_impl g_impl with_caches with_stops alloc_gimpl g_cap]. rewrite cap_max by lia. lia.
    + right. exists BL_ERROR_OUT_OF_MEMORY, g, (g_impl g). split; [reflexivity|]. split; auto. split; auto. split; auto. right. split; auto. split; auto.
      destruct mem; auto. right. unfold granted in Gr. cbn [andb] in Gr. apply Z.ltb_ge in Gr. destruct (Z.lt_ge_cases n (2 ^ 58)); auto. exfalso. rewrite impl_size_eq in Gr by lia. unfold kInitialImplSize in Gr. lia.
Qed.

Lemma deep_copy_ok g cc mem : inv g -> exists code g' old, deep_copy g cc mem = Ok (code, g', old) /\ inv g' /\ old = g_impl g /\
  ((code = BL_SUCCESS /\ g_stops (g_impl g') = g_stops (g_impl g) /\ rest g' = rest g /\ firstn (value_count (g_type g)) (g_values (g_impl g')) = firstn (value_count (g_type g)) (g_values (g_impl g)) /\
    g_mut (g_impl g') = true /\ g_cap (g_impl g') = g_cap (g_impl g) /\ (cc = false -> g_lut32 (g_impl g') = None /\ g_lut64 (g_impl g') = None /\ g_info (g_impl g') = None)) \/
   (code = BL_ERROR_OUT_OF_MEMORY /\ mem = false /\ g' = g)).
Proof.
  intros I. pose proof I as [A B C D E F H]. unfold deep_copy. destruct (impl_size_lo (g_cap (g_impl g)) ltac:(lia) ltac:(lia)) as (E1 & E2).
  destruct (granted mem (g_impl_size (g_cap (g_impl g)))) eqn:Gr; cbn [negb].
  - cbn [alloc_gimpl g_cap]. rewrite copied_ok by (rewrite E2; unfold size_of in *; lia). cbn [bind]. do 3 eexists. split; [reflexivity|].
    pose proof (count_le (g_type g)) as CL. assert (CC : 144 <= g_impl_size (g_cap (g_impl g)) < 2 ^ 63) by lia.
    assert (LL : Z.of_nat (length (g_stops (g_impl g))) <= g_capacity (g_impl_size (g_cap (g_impl g)))) by (unfold size_of in *; lia).
    split; [destruct cc; [apply iinv_caches|apply iinv_new]; auto|]. split; auto. left. split; auto.
    destruct cc; cbn [with_impl g_impl with_caches with_stops alloc_gimpl g_stops g_values g_mut g_cap g_lut32 g_lut64 g_info g_type]; rewrite init_firstn by auto; (split; [reflexivity|split; [reflexivity|split; [reflexivity|split; [reflexivity|split; [exact E2|]]]]]); [discriminate|auto].
  - exists BL_ERROR_OUT_OF_MEMORY, g, (g_impl g). split; [reflexivity|]. split; auto. split; auto. right. split; auto. split; auto.
    destruct mem; auto. unfold granted in Gr. cbn [andb] in Gr. apply Z.ltb_ge in Gr. lia.
Qed.

Lemma make_mutable_ok g cc mem : inv g -> exists code g' old, make_mutable g cc mem = Ok (code, g', old) /\ inv g' /\ unshared g old /\
  ((code = BL_SUCCESS /\ g_stops (g_impl g') = g_stops (g_impl g) /\ rest g' = rest g /\ firstn (value_count (g_type g)) (g_values (g_impl g')) = firstn (value_count (g_type g)) (g_values (g_impl g)) /\
    g_mut (g_impl g') = true /\ g_cap (g_impl g') = g_cap (g_impl g) /\ (cc = false -> g_lut32 (g_impl g') = None /\ g_lut64 (g_impl g') = None /\ g_info (g_impl g') = None)) \/
   (code = BL_ERROR_OUT_OF_MEMORY /\ mem = false /\ g' = g)).
Proof.
  intros I. unfold make_mutable. destruct (g_mut (g_impl g)) eqn:M; cbn [negb].
  - destruct cc; cbn [negb].
    + exists BL_SUCCESS, g, (g_impl g). split; [reflexivity|]. split; auto. split; auto. left. split; auto. split; auto. split; auto. split; auto. split; auto. split; auto. discriminate.
    + do 3 eexists. split; [reflexivity|]. split; [apply iinv_invalidated; auto; apply I|]. split; [intros Q; congruence|]. left. repeat (split; auto).
  - destruct (deep_copy_ok g cc mem I) as (code & g' & old & E & I' & O & R). exists code, g', old. split; auto. split; auto. split; auto. intros _. exact O.
Qed.

Lemma set_value_ok g i v mem : inv g -> 0 <= i -> exists code g' old, set_value g i v mem = Ok (code, g', old) /\ inv g' /\ unshared g old /\
  ((code = BL_SUCCESS /\ i <= 5 /\ g_stops (g_impl g') = g_stops (g_impl g) /\ rest g' = rest g /\ rd (g_values (g_impl g')) i = Ok v /\
     forall j, 0 <= j < Z.of_nat (value_count (g_type g)) -> j <> i -> rd (g_values (g_impl g')) j = rd (g_values (g_impl g)) j) \/
   (code <> BL_SUCCESS /\ g' = g)).
Proof.
  intros I Hi. unfold set_value. destruct (Z.ltb_spec 5 i).
  - exists BL_ERROR_INVALID_VALUE, g, (g_impl g). split; [reflexivity|]. split; auto. split; auto. right. split; auto. discriminate.
  - destruct (make_mutable_ok g true mem I) as (code & g1 & old & E & I1 & O & [(-> & R1 & R2 & R3 & R4 & R5 & R6)|(-> & _ & ->)]); rewrite E; cbn [bind].
    + cbn [Z.eqb negb BL_SUCCESS]. unfold wr. pose proof I1 as [A B C D F1 F2 F3]. rewrite D. destruct (Z.ltb_spec i 0); [lia|]. destruct (Z.leb_spec (Z.of_nat 6) i); [lia|]. cbn [orb bind].
      do 3 eexists. split; [reflexivity|].
      assert (UL : forall (l : list Z) k x, length (upd l k x) = length l). { clear. induction l as [|y l IH]; intros [|k] x; cbn [upd length]; auto. }
      assert (UN : forall (l : list Z) k x j, (k < length l)%nat -> nth_error (upd l k x) j = if Nat.eqb j k then Some x else nth_error l j).
      { clear. induction l as [|y l IH]; intros k x j Hk; cbn [length] in Hk; [lia|]. destruct k, j; cbn [upd nth_error Nat.eqb]; auto. apply IH. lia. }
      split; [split; cbn [with_impl g_impl with_values g_stops g_cap g_values g_lut32 g_lut64 g_info]; auto; rewrite UL; auto|].
      split; [intros M; rewrite M; auto|]. left. split; auto. split; auto. split; [exact R1|]. split; [exact R2|]. cbn [with_impl g_impl with_values g_values]. split.
      * unfold rd. destruct (Z.ltb_spec i 0); [lia|]. rewrite UN by lia. rewrite Nat.eqb_refl. reflexivity.
      * intros j Hj Nj. unfold rd. destruct (Z.ltb_spec j 0); [lia|]. rewrite UN by lia. destruct (Nat.eqb_spec (Z.to_nat j) (Z.to_nat i)); [lia|].
        assert (NF : forall (a : list Z) n k, (k < n)%nat -> nth_error a k = nth_error (firstn n a) k). { clear. induction a as [|y a IH]; intros n k H; destruct n, k; cbn [firstn nth_error]; auto; try lia. apply IH. lia. }
        rewrite (NF (g_values (g_impl g1)) (value_count (g_type g))), (NF (g_values (g_impl g)) (value_count (g_type g))) by lia. rewrite R3. reflexivity.
    + cbn [Z.eqb negb BL_ERROR_OUT_OF_MEMORY BL_SUCCESS]. exists BL_ERROR_OUT_OF_MEMORY, g, old. split; [reflexivity|]. split; auto. split; auto. right. split; auto. discriminate.
Qed.

Lemma reset_stops_ok g mem : inv g -> exists code g' old, reset_stops g mem = Ok (code, g', old) /\ inv g' /\ unshared g old /\
  ((code = BL_SUCCESS /\ g_stops (g_impl g') = [] /\ rest g' = rest g /\ g_values (g_impl g') = g_values (g_impl g)) \/ (code = BL_ERROR_OUT_OF_MEMORY /\ mem = false /\ g' = g)).
Proof.
  intros I. pose proof I as [A B C D E F H]. unfold reset_stops, size_of. destruct (Z.eqb_spec (Z.of_nat (length (g_stops (g_impl g)))) 0) as [Q|Q].
  - exists BL_SUCCESS, g, (g_impl g). split; [reflexivity|]. split; auto. split; auto. left. split; auto. split; auto. destruct (g_stops (g_impl g)); [auto|cbn [length] in Q; lia].
  - destruct (g_mut (g_impl g)) eqn:M; cbn [negb].
    + do 3 eexists. split; [reflexivity|]. split; [apply iinv_invalidated; auto; [apply wf_nil|cbn [length]; lia]|]. split; [intros Q2; congruence|]. left. repeat (split; auto).
    + destruct mem; cbn [granted andb].
      * change (kInitialImplSize <? 2 ^ 63) with true. cbn [negb]. do 3 eexists. split; [reflexivity|].
        split; [apply (iinv_new kInitialImplSize (g_values (g_impl g)) 6 (g_transform (g_impl g)) []); auto; [unfold kInitialImplSize; lia|apply wf_nil|vm_compute; discriminate]|].
        split; auto. left. split; auto. split; auto. split; auto. apply init_six. auto.
      * cbn [negb]. exists BL_ERROR_OUT_OF_MEMORY, g, (g_impl g). split; [reflexivity|]. split; auto.
Qed.

(* what assigning an array leaves *)
Definition assigned_as (l r : list stop) : Prop := (wf l /\ r = l) \/ (~ wf l /\ exists l', without_last l l' /\ assigned l' r).

Lemma assign_stops_ok g l mem : inv g -> fits l -> exists code g' old, assign_stops g l mem = Ok (code, g', old) /\ inv g' /\ unshared g old /\
  ((code = BL_SUCCESS /\ Forall (fun s : stop => in01 (fst s)) l /\ assigned_as l (g_stops (g_impl g')) /\ rest g' = rest g /\ g_values (g_impl g') = g_values (g_impl g)) \/
   (code = BL_ERROR_OUT_OF_MEMORY /\ mem = false /\ g' = g) \/
   (code = BL_ERROR_INVALID_VALUE /\ ~ Forall (fun s : stop => in01 (fst s)) l /\ g' = g)).
Proof.
  intros I N. unfold fits in N. pose proof I as [A B C D E F H]. unfold assign_stops. destruct (Z.eqb_spec (Z.of_nat (length l)) 0) as [Q|Q].
  - destruct l; [|cbn [length] in Q; lia]. destruct (reset_stops_ok g mem I) as (code & g' & old & R & I' & O & [(-> & P1 & P2 & P3)|P]); exists code || exists BL_SUCCESS; exists g', old; rewrite R; (split; [reflexivity|split; [auto|split; [auto|]]]).
    + left. split; auto. split; auto. split; [|auto]. left. split; [apply wf_nil|auto].
    + right. left. auto.
  - pose proof (analyze_range l false false Dm1) as AR. fold (analyze_stop_array l) in AR.
    destruct (Z.leb_spec 2 (analyze_stop_array l)) as [L|L].
    + exists BL_ERROR_INVALID_VALUE, g, (g_impl g). split; [reflexivity|]. split; auto. split; auto. right. right. split; auto. split; auto. intros FA.
      assert (K : forall l r w p, Forall (fun s : stop => in01 (fst s)) l -> analyze_loop l r w p <> 2).
      { clear. induction l as [|(o, c) l IH]; intros r w p F; cbn [analyze_loop]; [destruct r; discriminate|]. inversion F as [|? ? F1 F2]; subst. cbn [fst] in F1. rewrite (proj2 (range_check o) F1). cbn [negb]. apply IH. auto. }
      apply (K l false false Dm1 FA). fold (analyze_stop_array l). lia.
    + assert (FA : Forall (fun s : stop => in01 (fst s)) l) by (apply (analyze_invalid l false false Dm1); fold (analyze_stop_array l); lia).
      destruct (negb (g_mut (g_impl g)) || (g_cap (g_impl g) <? Z.of_nat (length l))) eqn:Br.
      * pose proof (cap_max (Z.of_nat (length l)) ltac:(lia)) as CM. assert (SZ : 144 <= Z.max (g_impl_size (Z.of_nat (length l))) kInitialImplSize < 2 ^ 63) by (rewrite impl_size_eq by lia; unfold kInitialImplSize; lia).
        destruct mem; cbn [granted andb].
        -- destruct (Z.ltb_spec (Z.max (g_impl_size (Z.of_nat (length l))) kInitialImplSize) (2 ^ 63)); [|lia]. cbn [negb alloc_gimpl g_cap].
           destruct (copy_unsafe_ok (g_capacity (Z.max (g_impl_size (Z.of_nat (length l))) kInitialImplSize)) l) as (r & Er & Wr & Lr & As); [rewrite CM; lia|lia|lia|].
           rewrite Er. cbn [bind]. do 3 eexists. split; [reflexivity|]. split; [apply iinv_new; auto; rewrite CM; lia|]. split; auto. left. split; auto. split; auto. split; [exact As|]. split; auto. apply init_six. auto.
        -- cbn [negb]. exists BL_ERROR_OUT_OF_MEMORY, g, (g_impl g). split; [reflexivity|]. split; auto. split; auto.
      * apply orb_false_iff in Br as [M Lc]. apply negb_false_iff in M. apply Z.ltb_ge in Lc.
        destruct (copy_unsafe_ok (g_cap (g_impl g)) l) as (r & Er & Wr & Lr & As); [lia|lia|lia|]. rewrite Er. cbn [bind]. do 3 eexists. split; [reflexivity|].
        split; [apply iinv_invalidated; auto; lia|]. split; [intros Q2; congruence|]. left. split; auto. 
Qed.

Lemma create_ok g t v e l m mem : inv g -> 0 <= t -> 0 <= e -> fits l -> (forall w, v = Some w -> length w = 6%nat) ->
  exists code g' old, create g t v e l m mem = Ok (code, g', old) /\ inv g' /\ unshared g old /\
  ((code = BL_SUCCESS /\ assigned_as l (g_stops (g_impl g')) /\ rest g' = (t, e, snd (match m with Some x => x | None => (no_matrix, 0) end), fst (match m with Some x => x | None => (no_matrix, 0) end)) /\
     firstn (value_count t) (g_values (g_impl g')) = firstn (value_count t) (match v with Some w => w | None => no_values end)) \/
   (code <> BL_SUCCESS /\ g' = g)).
Proof.
  intros I Ht He N Hv. unfold fits in N. pose proof I as [A B C D E F H]. unfold create. destruct ((2 <? t) || (2 <? e)) eqn:Bad.
  { exists BL_ERROR_INVALID_VALUE, g, (g_impl g). split; [reflexivity|]. split; auto. split; auto. right. split; [discriminate|auto]. }
  set (vals := match v with Some w => w | None => no_values end). assert (VL : length vals = 6%nat) by (unfold vals; destruct v; auto).
  destruct (match m with Some x => x | None => (no_matrix, 0) end) as (tr, ttype). cbn [fst snd]. pose proof (count_le t) as CT.
  assert (AE : (if Z.of_nat (length l) =? 0 then 0 else analyze_stop_array l) = analyze_stop_array l). { destruct l as [|s l]; [reflexivity|]. destruct (Z.eqb_spec (Z.of_nat (length (s :: l))) 0); [cbn [length] in *; lia|auto]. }
  rewrite AE. destruct (Z.leb_spec 2 (analyze_stop_array l)) as [L|L].
  { exists BL_ERROR_INVALID_VALUE, g, (g_impl g). split; [reflexivity|]. split; auto. split; auto. right. split; [discriminate|auto]. }
  destruct (negb (g_mut (g_impl g)) || (g_cap (g_impl g) <? Z.of_nat (length l))) eqn:Br.
  - pose proof (cap_max (Z.of_nat (length l)) ltac:(lia)) as CM. assert (SZ : 144 <= Z.max (g_impl_size (Z.of_nat (length l))) kInitialImplSize < 2 ^ 63) by (rewrite impl_size_eq by lia; unfold kInitialImplSize; lia).
    destruct (granted mem _); cbn [negb].
    + cbn [alloc_gimpl g_cap]. destruct (copy_unsafe_ok (g_capacity (Z.max (g_impl_size (Z.of_nat (length l))) kInitialImplSize)) l) as (r & Er & Wr & Lr & As); [rewrite CM; lia|lia|lia|].
      rewrite Er. cbn [bind]. do 3 eexists. split; [reflexivity|]. split; [apply iinv_new; auto; rewrite CM; lia|]. split; auto. left. split; auto. split; [exact As|]. split; auto. apply init_firstn; auto.
    + exists BL_ERROR_OUT_OF_MEMORY, g, (g_impl g). split; [reflexivity|]. split; auto. split; auto. right. split; [discriminate|auto].
  - apply orb_false_iff in Br as [M Lc]. apply negb_false_iff in M. apply Z.ltb_ge in Lc.
    destruct (copy_unsafe_ok (g_cap (g_impl g)) l) as (r & Er & Wr & Lr & As); [lia|lia|lia|]. rewrite Er. cbn [bind]. do 3 eexists. split; [reflexivity|].
    split; [split; cbn [g_impl g_stops g_cap g_values g_lut32 g_lut64 g_info]; auto; [unfold size_of; cbn [g_stops]; lia|apply init_len; auto]|]. split; [intros Q2; congruence|]. left. split; auto. split; [exact As|]. split; auto. apply init_firstn; auto.
Qed.

Definition cut (l : list stop) (a b : Z) : list stop := firstn (Z.to_nat a) l ++ skipn (Z.to_nat b) l.
Lemma remove_ok g a b mem : inv g -> 0 <= a -> 0 <= b -> exists code g' old, remove_stops_by_index g a b mem = Ok (code, g', old) /\ inv g' /\ unshared g old /\
  let n := size_of (g_impl g) in
  ((code = BL_ERROR_INVALID_VALUE /\ (n < a \/ Z.min b n < a) /\ g' = g) \/
   (code = BL_ERROR_OUT_OF_MEMORY /\ mem = false /\ g_mut (g_impl g) = false /\ g' = g) \/
   (code = BL_SUCCESS /\ a = Z.min b n /\ g' = g) \/
   (code = BL_SUCCESS /\ a < Z.min b n /\ rest g' = rest g /\ g_values (g_impl g') = g_values (g_impl g) /\ g_mut (g_impl g') = true /\ (g_mut (g_impl g) = true -> g_cap (g_impl g') = g_cap (g_impl g)) /\
     g_stops (g_impl g') = if g_mut (g_impl g) then cut (g_stops (g_impl g)) a (Z.min b n) else [])).
Proof.
  intros I Ha Hb. pose proof I as [A B C D E F H]. cbv zeta. unfold remove_stops_by_index. set (n := size_of (g_impl g)) in *.
  destruct ((n <? a) || (Z.min b n <? a)) eqn:Bad.
  { exists BL_ERROR_INVALID_VALUE, g, (g_impl g). split; [reflexivity|]. split; auto. split; auto. left. split; auto. split; auto. lia. }
  apply orb_false_iff in Bad as [B1 B2]. destruct (Z.eqb_spec a (Z.min b n)) as [Q|Q].
  { exists BL_SUCCESS, g, (g_impl g). split; [reflexivity|]. split; auto. split; auto. right. right. left. auto. }
  fold (cut (g_stops (g_impl g)) a (Z.min b n)).
  assert (LC : Z.of_nat (length (cut (g_stops (g_impl g)) a (Z.min b n))) = n - (Z.min b n - a)). { unfold cut. rewrite app_length, firstn_length, skipn_length. unfold n, size_of in *. lia. }
  assert (WC : wf (cut (g_stops (g_impl g)) a (Z.min b n))). { apply wf_cut; auto. unfold n, size_of in *. lia. }
  destruct (g_mut (g_impl g)) eqn:M; cbn [negb].
  - do 3 eexists. split; [reflexivity|]. split; [apply iinv_invalidated; auto; lia|]. split; [intros; congruence|]. right. right. right. split; auto. split; [lia|]. split; auto.
  - destruct (impl_size_lo (n - (Z.min b n - a)) ltac:(lia) ltac:(lia)) as (E1 & E2).
    destruct (granted mem (g_impl_size (n - (Z.min b n - a)))) eqn:Gr; cbn [negb].
    + cbn [alloc_gimpl g_cap]. rewrite copied_ok by (rewrite E2; lia). cbn [bind]. do 3 eexists. split; [reflexivity|].
      split; [apply (iinv_new (g_impl_size (n - (Z.min b n - a))) (g_values (g_impl g)) 6 (g_transform (g_impl g)) []); auto; try lia; [apply wf_nil|cbn [length]; lia]|].
      split; auto. right. right. right. split; auto. split; [lia|]. split; auto. split; [apply init_six; auto|]. split; auto. split; auto. discriminate.
    + exists BL_ERROR_OUT_OF_MEMORY, g, (g_impl g). split; [reflexivity|]. split; auto. split; auto. right. left. split; auto. split; auto.
      destruct mem; auto. unfold granted in Gr. cbn [andb] in Gr. apply Z.ltb_ge in Gr. lia.
Qed.
