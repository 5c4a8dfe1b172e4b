(* The calls that insert, replace and find stops. *)
From Verif Require Import Base Object_Model Object_Proofs2 Algorithm_Model Algorithm_Spec Algorithm_Proofs Gradient_Model Gradient_Spec Gradient_Exec Gradient_Proofs Gradient_Proofs2 Gradient_Proofs3.
Ltac Zify.zify_post_hook ::= idtac.

Lemma wf_insert (lo hi : list stop) (s : stop) : wf (lo ++ hi) -> in01 (fst s) -> Forall (fun t : stop => nv t <= nv s) lo -> Forall (fun t : stop => nv s < nv t) hi ->
  (length (at_offset (nv s) (lo ++ hi)) < 2)%nat -> wf (lo ++ s :: hi).
Proof.
  intros (F & S & C) I L H N. apply Forall_app in F as [F1 F2]. apply ss_app in S as (S1 & S2 & S3). split; [apply Forall_app; split; auto|]. split.
  - apply ss_app. split; auto. split.
    + constructor; auto. revert H. apply Forall_impl. intros. lia.
    + rewrite Forall_forall in *. intros t Ht. constructor; auto.
  - intros x. change (s :: hi) with ([s] ++ hi). rewrite !at_app, at_one, !app_length. specialize (C x). rewrite at_app, app_length in C. destruct (Z.eqb_spec (nv s) x) as [<-|]; cbn [length]; [|lia].
    rewrite at_app, app_length in N. lia.
Qed.
Lemma wf_recolor (a b : list stop) (s : stop) c : wf (a ++ s :: b) -> wf (a ++ (fst s, c) :: b).
Proof.
  intros (F & S & C). apply Forall_app in F as [F1 F2]. inversion F2 as [|? ? F3 F4]; subst. apply ss_app in S as (S1 & S2 & S3). inversion S2 as [|? ? S4 S5]; subst. split; [apply Forall_app; auto|]. split.
  - apply ss_app. split; auto. split; [constructor; auto|]. revert S3. apply Forall_impl. intros t Ht. inversion Ht; subst. constructor; auto.
  - intros x. specialize (C x). change (s :: b) with ([s] ++ b) in C. change ((fst s, c) :: b) with ([(fst s, c)] ++ b). rewrite !at_app, !at_one, !app_length in *. cbn [fst] in *. destruct (nv s =? x); cbn [length] in *; lia.
Qed.

Lemma split_by (p : stop -> bool) (l : list stop) : exists lo hi, l = lo ++ hi /\ Forall (fun s => p s = true) lo /\ match hi with [] => True | s :: _ => p s = false end.
Proof.
  induction l as [|s l (lo & hi & -> & H1 & H2)]; [exists [], []; cbn; auto|]. destruct (p s) eqn:E.
  - exists (s :: lo), hi. cbn [app]. split; auto.
  - exists [], (s :: lo ++ hi). cbn [app]. auto.
Qed.
Lemma ss_head (s : stop) l : StronglySorted (fun s t : stop => nv s <= nv t) (s :: l) -> Forall (fun t : stop => nv s <= nv t) l.
Proof. intros H. inversion H; auto. Qed.
Lemma split_le (l : list stop) x : wf l -> exists lo hi, l = lo ++ hi /\ Forall (fun s : stop => nv s <= x) lo /\ Forall (fun s : stop => x < nv s) hi.
Proof.
  intros (F & S & C). destruct (split_by (fun s => nv s <=? x) l) as (lo & hi & -> & H1 & H2). exists lo, hi. split; auto. split; [revert H1; apply Forall_impl; intros; lia|].
  apply ss_app in S as (_ & S & _). destruct hi as [|s hi]; auto. apply ss_head in S. constructor; [lia|]. revert S. apply Forall_impl. intros. lia.
Qed.
Lemma split_lt (l : list stop) x : wf l -> exists lo hi, l = lo ++ hi /\ Forall (fun s : stop => nv s < x) lo /\ Forall (fun s : stop => x <= nv s) hi.
Proof.
  intros (F & S & C). destruct (split_by (fun s => nv s <? x) l) as (lo & hi & -> & H1 & H2). exists lo, hi. split; auto. split; [revert H1; apply Forall_impl; intros; lia|].
  apply ss_app in S as (_ & S & _). destruct hi as [|s hi]; auto. apply ss_head in S. constructor; [lia|]. revert S. apply Forall_impl. intros. lia.
Qed.

Lemma elem_app1 (a b : list stop) i : i < Z.of_nat (length a) -> elem_at (a ++ b) i = elem_at a i.
Proof. intros H. unfold elem_at. destruct (Z.ltb_spec i 0); auto. apply nth_error_app1. lia. Qed.
Lemma elem_mid (a b : list stop) s : elem_at (a ++ s :: b) (Z.of_nat (length a)) = Some s.
Proof. unfold elem_at. destruct (Z.ltb_spec (Z.of_nat (length a)) 0); [lia|]. rewrite Nat2Z.id, nth_error_app2, Nat.sub_diag by lia. reflexivity. Qed.
Lemma rd_mid (a b : list stop) s : rd (a ++ s :: b) (Z.of_nat (length a)) = Ok s.
Proof. pose proof (elem_mid a b s) as H. unfold elem_at in H. unfold rd. destruct (_ <? 0); [discriminate|]. rewrite H. reflexivity. Qed.
Lemma wr_mid (a b : list stop) s t : wr (a ++ s :: b) (Z.of_nat (length a)) t = Ok (a ++ t :: b).
Proof.
  unfold wr. rewrite app_length. cbn [length]. destruct (Z.ltb_spec (Z.of_nat (length a)) 0); [lia|]. destruct (Z.leb_spec (Z.of_nat (length a + S (length b))) (Z.of_nat (length a))); [lia|]. cbn [orb]. rewrite Nat2Z.id. f_equal.
  clear. induction a as [|x a IH]; cbn [length app upd]; [reflexivity|]. f_equal. exact IH.
Qed.
Lemma firstn_len {A} (a b : list A) : firstn (length a) (a ++ b) = a.
Proof. rewrite firstn_app, Nat.sub_diag, firstn_O, app_nil_r. apply firstn_all2. lia. Qed.
Lemma skipn_len {A} (a b : list A) : skipn (length a) (a ++ b) = b.
Proof. rewrite skipn_app, Nat.sub_diag. rewrite skipn_all2 by lia. reflexivity. Qed.
Lemma take (l : list stop) i : 0 <= i < Z.of_nat (length l) -> exists a s b, l = a ++ s :: b /\ Z.of_nat (length a) = i.
Proof.
  intros H. exists (firstn (Z.to_nat i) l). destruct (skipn (Z.to_nat i) l) as [|s b] eqn:E.
  - apply (f_equal (@length _)) in E. rewrite skipn_length in E. cbn [length] in E. lia.
  - exists s, b. rewrite <- E, firstn_skipn. split; auto. rewrite firstn_length. lia.
Qed.

Lemma sorted_down (l : list stop) o : wf l -> valid o -> downward (fun s => stop_le s o) l.
Proof.
  intros (F & S & _) V. intros i j x y Ex Ey Hij P. unfold elem_at in *. destruct (Z.ltb_spec i 0); [discriminate|]. destruct (Z.ltb_spec j 0); [discriminate|].
  assert (Vx : valid (fst x)). { apply in01_valid. rewrite Forall_forall in F. apply F. eapply nth_error_In. eauto. }
  assert (Vy : valid (fst y)). { apply in01_valid. rewrite Forall_forall in F. apply F. eapply nth_error_In. eauto. }
  unfold stop_le in *. rewrite dle_n in * by auto. assert (nv x <= nv y); [|lia]. clear P. assert (K : (Z.to_nat i <= Z.to_nat j)%nat) by lia. revert Ex Ey K S. clear.
  generalize (Z.to_nat i) (Z.to_nat j). clear i j. intros i j. revert i j. induction l as [|s l IH]; intros i j Ex Ey K S; [destruct i; discriminate|]. destruct i as [|i].
  - injection Ex as <-. destruct j as [|j]; cbn [nth_error] in Ey; [injection Ey as <-; lia|]. apply ss_head in S. rewrite Forall_forall in S. apply S. eapply nth_error_In. eauto.
  - destruct j as [|j]; [lia|]. cbn [nth_error] in *. inversion S; subst. apply (IH i j); auto. lia.
Qed.
Lemma closest (lo hi : list stop) o : wf (lo ++ hi) -> valid o -> Forall (fun s : stop => nv s <= nval o) lo -> Forall (fun s : stop => nval o < nv s) hi ->
  binary_search_closest_last stop_le (lo ++ hi) o = Ok (Z.max 0 (Z.of_nat (length lo) - 1)).
Proof.
  intros W V L H. destruct (closest_last_ok stop_le (lo ++ hi) o (sorted_down _ _ W V)) as (r & s & E & (Sp & Sq) & ->). rewrite E. f_equal. f_equal. f_equal.
  destruct W as (F & _). apply Forall_app in F as [F1 F2]. destruct (Z.lt_trichotomy s (Z.of_nat (length lo))) as [Lt|[Eq|Gt]]; auto; exfalso.
  - destruct (take lo s ltac:(lia)) as (a & t & b & -> & La). specialize (Sq s t). rewrite <- app_assoc in Sq. cbn [app] in Sq. rewrite <- La in Sq. rewrite elem_mid in Sq. specialize (Sq eq_refl). rewrite Z.ltb_irrefl in Sq.
    apply Forall_app in L as [_ L]. inversion L as [|? ? L1 _]; subst. apply Forall_app in F1 as [_ F1]. inversion F1 as [|? ? G1 _]; subst. unfold stop_le in Sq. rewrite dle_n in Sq by (auto; apply in01_valid; auto). lia.
  - destruct hi as [|t hi]; [rewrite app_nil_r in Sp; lia|]. specialize (Sq (Z.of_nat (length lo)) t (elem_mid _ _ _)). inversion H as [|? ? H1 _]; subst. inversion F2 as [|? ? G1 _]; subst. unfold stop_le in Sq. rewrite dle_n in Sq by (auto; apply in01_valid; auto). lia.
Qed.

(* an impl may be refused when memory is short or the stops need more than half of the address space *)
Definition refused (g : grad) (mem : bool) : Prop := (g_mut (g_impl g) = false \/ g_cap (g_impl g) <= size_of (g_impl g)) /\ (mem = false \/ 2 ^ 58 <= size_of (g_impl g)).

Lemma insert_ok g lo hi s mem : inv g -> g_stops (g_impl g) = lo ++ hi -> wf (lo ++ s :: hi) ->
  exists code g' old, insert_stop g (Z.of_nat (length lo)) s mem = Ok (code, g', old) /\ inv g' /\ unshared g old /\
  ((code = BL_SUCCESS /\ g_stops (g_impl g') = lo ++ s :: hi /\ rest g' = rest g /\ g_values (g_impl g') = g_values (g_impl g)) \/
   (code = BL_ERROR_OUT_OF_MEMORY /\ refused g mem /\ g' = g)).
Proof.
  intros I Es W. pose proof I as [A B C D E F H]. unfold insert_stop. rewrite Es, Nat2Z.id, firstn_len, skipn_len.
  assert (Ln : Z.of_nat (length (lo ++ s :: hi)) = size_of (g_impl g) + 1). { unfold size_of. rewrite Es, !app_length. cbn [length]. lia. }
  assert (S0 : 0 <= size_of (g_impl g)) by (unfold size_of; lia).
  destruct (negb (g_mut (g_impl g)) || (g_cap (g_impl g) <=? size_of (g_impl g))) eqn:Br.
  - unfold w64 at 1. rewrite Z.mod_small by lia. rewrite impl_size_eq by lia. set (sz := 144 + (size_of (g_impl g) + 1) * 16).
    destruct (expand_ok sz ltac:(lia)) as (r & Er & Rr & Rs & Rb). rewrite Er. cbn [bind]. destruct (granted mem r) eqn:Gr; cbn [negb].
    + apply granted_iff in Gr as [-> Gr]. cbn [alloc_gimpl g_cap]. assert (CR : size_of (g_impl g) + 1 <= g_capacity r). { rewrite cap_of by lia. apply Z.div_le_lower_bound; lia. }
      rewrite copied_ok by lia. cbn [bind]. do 3 eexists. split; [reflexivity|]. split; [apply iinv_new; auto; lia|]. split; auto. left. split; auto. split; auto. split; auto. apply init_six. auto.
    + exists BL_ERROR_OUT_OF_MEMORY, g, (g_impl g). split; [reflexivity|]. split; auto. split; auto. right. split; auto. split; auto. split.
      * apply orb_true_iff in Br as [Br|Br]; [left; destruct (g_mut _); auto; discriminate|right; lia].
      * destruct mem; auto. right. unfold granted in Gr. cbn [andb] in Gr. apply Z.ltb_ge in Gr. destruct (Z.lt_ge_cases (size_of (g_impl g)) (2 ^ 58)); auto. exfalso. unfold BL_ALLOC_GROW_LIMIT in *. destruct (Z.lt_ge_cases sz (2 ^ 23)) as [Q|Q].
        -- destruct (Rs Q) as (k & Hk & -> & _). assert (2 ^ k <= 2 ^ 24) by (apply Z.pow_le_mono_r; lia). lia.
        -- assert (sz / 4 <= 2 ^ 60 + 100) by (apply Z.div_le_upper_bound; lia). assert (sz / 8 <= 2 ^ 59 + 100) by (apply Z.div_le_upper_bound; lia). rewrite (Rb Q) in Gr by lia. lia.
  - apply orb_false_iff in Br as [M Lc]. apply negb_false_iff in M. apply Z.leb_gt in Lc. rewrite copied_ok by lia. cbn [bind]. do 3 eexists. split; [reflexivity|]. split; [apply iinv_invalidated; auto; lia|].
    split; [intros; congruence|]. left. auto.
Qed.

Lemma in01_dec o : {in01 o} + {~ in01 o}.
Proof. destruct (dle D0 o && dle o D1) eqn:E; [left; apply range_check; auto|right; intros H; apply range_check in H; congruence]. Defined.

(* the write of a color into a mutable or copied impl *)
Lemma recolor_ok g g1 old a s b c : inv g1 -> g_stops (g_impl g1) = a ++ s :: b -> unshared g old -> rest g1 = rest g ->
  g_lut32 (g_impl g1) = None /\ g_lut64 (g_impl g1) = None /\ g_info (g_impl g1) = None ->
  let im := with_stops (g_impl g1) (a ++ (fst s, c) :: b) in
  inv (with_impl g1 im) /\ unshared g (if g_mut (g_impl g) then im else old) /\ g_stops (g_impl (with_impl g1 im)) = a ++ (fst s, c) :: b /\ rest (with_impl g1 im) = rest g.
Proof.
  intros I1 R1 O R2 (N1 & N2 & N3) im. pose proof I1 as [A1 B1 C1 D1' E1 F1 H1]. split.
  - split; cbn [with_impl g_impl with_stops im g_stops g_cap g_values g_lut32 g_lut64 g_info]; auto; try (left; assumption).
    + rewrite R1 in A1. apply wf_recolor. auto.
    + unfold size_of in *. cbn [with_impl g_impl with_stops im g_stops]. rewrite R1 in B1. rewrite app_length in *. cbn [length] in *. lia.
  - split; [|split; auto]. intros M. rewrite M. apply O. auto.
Qed.

Lemma added_pair l o c lo s1 s2 hi : l = lo ++ s1 :: s2 :: hi -> nv s1 = nval o -> nv s2 = nval o -> added l o c (lo ++ s1 :: (fst s2, c) :: hi).
Proof. intros. right. exists lo, s1, s2, hi. auto. Qed.

Lemma add_ok f g o c mem : inv g -> exists code g' old, add_stop (S f) g o c mem = Ok (code, g', old) /\ inv g' /\ unshared g old /\
  ((code = BL_SUCCESS /\ in01 o /\ added (g_stops (g_impl g)) o c (g_stops (g_impl g')) /\ rest g' = rest g /\
     firstn (value_count (g_type g)) (g_values (g_impl g')) = firstn (value_count (g_type g)) (g_values (g_impl g))) \/
   (code = BL_ERROR_INVALID_VALUE /\ ~ in01 o /\ g' = g) \/ (code = BL_ERROR_OUT_OF_MEMORY /\ refused g mem /\ g' = g)).
Proof.
  intros I. pose proof I as [A B C D E F H]. cbn [add_stop]. destruct (dle D0 o && dle o D1) eqn:R; cbn [negb].
  2: { exists BL_ERROR_INVALID_VALUE, g, (g_impl g). split; [reflexivity|]. split; auto. split; auto. right. left. split; auto. split; auto. intros Q. apply range_check in Q. congruence. }
  apply range_check in R. pose proof (in01_valid _ R) as V. destruct (split_le _ (nval o) A) as (lo & hi & El & L & G). set (l := g_stops (g_impl g)) in *.
  assert (INS : (length (at_offset (nval o) l) < 2)%nat -> exists code g' old, insert_stop g (Z.of_nat (length lo)) (o, c) mem = Ok (code, g', old) /\ inv g' /\ unshared g old /\
    ((code = BL_SUCCESS /\ in01 o /\ added l o c (g_stops (g_impl g')) /\ rest g' = rest g /\ firstn (value_count (g_type g)) (g_values (g_impl g')) = firstn (value_count (g_type g)) (g_values (g_impl g))) \/
     (code = BL_ERROR_INVALID_VALUE /\ ~ in01 o /\ g' = g) \/ (code = BL_ERROR_OUT_OF_MEMORY /\ refused g mem /\ g' = g))).
  { intros Cnt. destruct (insert_ok g lo hi (o, c) mem I El) as (code & g' & old & Ei & I' & U & [(-> & P1 & P2 & P3)|P]).
    - rewrite El in *. apply wf_insert; auto.
    - exists BL_SUCCESS, g', old. split; auto. split; auto. split; auto. left. split; auto. split; auto. split; [|rewrite P3; auto]. left. split; auto. exists lo, hi. auto.
    - exists code, g', old. split; auto. }
  assert (FA : Forall (fun s : stop => valid (fst s)) l). { destruct A as (A & _). revert A. apply Forall_impl. intros s. apply in01_valid. }
  destruct l as [|s0 l0] eqn:El0.
  { cbn [bind]. assert (length lo = 0)%nat as L0. { destruct lo; auto. discriminate. } rewrite L0 in INS. apply INS. cbn. lia. }
  rewrite <- El0 in *. destruct s0 as (o0, c0). cbn [bind]. assert (V0 : valid o0). { rewrite El0 in FA. inversion FA; subst. auto. } rewrite dle_n by auto. destruct (Z.leb_spec (nval o0) (nval o)) as [Q|Q].
  2: { assert (lo = []) as L0. { destruct lo as [|t lo]; auto. rewrite El0 in El. injection El as <- _. inversion L as [|? ? L1 _]; subst. cbn [fst] in L1. lia. }
       subst lo. apply INS. rewrite El. cbn [app]. rewrite at_none; [cbn; lia|]. revert G. apply Forall_impl. intros. lia. }
  assert (lo <> []) as Ne. { intros ->. cbn [app] in El. rewrite El0 in El. rewrite <- El in G. inversion G as [|? ? G1 _]; subst. cbn [fst] in G1. lia. }
  rewrite El in A. rewrite El, (closest lo hi o A V L G). cbn [bind]. destruct (exists_last Ne) as (lo1 & s2 & ->). rewrite app_length in *. cbn [length] in *.
  replace (Z.max 0 (Z.of_nat (length lo1 + 1) - 1)) with (Z.of_nat (length lo1)) by lia. replace (Z.of_nat (length lo1 + 1)) with (Z.of_nat (length lo1) + 1) in INS by lia.
  destruct A as (_ & Sr & _). apply ss_app in Sr as (Sr & _). apply Forall_app in L as [L1 L2]. inversion L2 as [|? ? L3 _]; subst x l.
  assert (V2 : valid (fst s2)). { rewrite El in FA. rewrite <- app_assoc in FA. apply Forall_app in FA as [_ FA]. inversion FA; subst. auto. }
  destruct lo1 as [|t1 lo2] eqn:Elo.
  { change (0 <? Z.of_nat (@length stop [])) with false. cbn [bind]. rewrite <- El. apply INS. rewrite El. cbn [app]. change (s2 :: hi) with ([s2] ++ hi). rewrite at_app, app_length, (at_none _ hi); [|revert G; apply Forall_impl; intros; lia]. rewrite at_one. destruct (_ =? _); cbn [length]; lia. }
  rewrite <- Elo in *. assert (lo1 <> []) as Ne1 by (rewrite Elo; discriminate). destruct (exists_last Ne1) as (lo3 & s1 & E1). clear Elo t1 lo2. subst lo1. rewrite app_length in *. cbn [length] in *.
  destruct (Z.ltb_spec 0 (Z.of_nat (length lo3 + 1))); [|lia]. replace (Z.of_nat (length lo3 + 1) - 1) with (Z.of_nat (length lo3)) by lia.
  assert (El' : g_stops (g_impl g) = lo3 ++ s1 :: s2 :: hi) by (rewrite El, <- !app_assoc; reflexivity).
  replace (((lo3 ++ [s1]) ++ [s2]) ++ hi) with (lo3 ++ s1 :: s2 :: hi) by (rewrite <- !app_assoc; reflexivity). rewrite rd_mid. cbn [bind].
  assert (V1 : valid (fst s1)). { rewrite El' in FA. apply Forall_app in FA as [_ FA]. inversion FA; subst. auto. } rewrite deq_n by auto.
  apply ss_app in Sr as (Sr & _ & S12). apply Forall_app in S12 as [_ S12]. inversion S12 as [|? ? S12' _]; subst. inversion S12' as [|? ? Le12 _]; subst.
  destruct (Z.eqb_spec (nval (fst s1)) (nval o)) as [Q1|Q1].
  - assert (Q2 : nval (fst s2) = nval o) by lia. unfold size_of. rewrite El', app_length. cbn [length]. destruct (Z.leb_spec (Z.of_nat (length lo3 + S (S (length hi)))) (Z.of_nat (length lo3 + 1))); [lia|].
    destruct (make_mutable_ok g false mem I) as (code & g1 & old & Em & I1 & O & [(-> & R1 & R2 & R3 & R4 & R5 & R6)|(-> & Mem & ->)]); rewrite Em; cbn [bind].
    + change (negb (BL_SUCCESS =? BL_SUCCESS)) with false. cbv iota. rewrite El' in R1. assert (R1' : g_stops (g_impl g1) = (lo3 ++ [s1]) ++ s2 :: hi) by (rewrite R1, <- app_assoc; reflexivity).
      rewrite R1'. replace (Z.of_nat (length lo3 + 1)) with (Z.of_nat (length (lo3 ++ [s1]))) by (rewrite app_length; cbn [length]; lia). rewrite rd_mid. cbn [bind]. rewrite deq_n by auto.
      destruct (Z.eqb_spec (nval (fst s2)) (nval o)); [|lia]. rewrite wr_mid. cbn [bind].
      destruct (recolor_ok g g1 old _ s2 hi c I1 R1' O R2 (R6 eq_refl)) as (J1 & J2 & J3 & J4). do 3 eexists. split; [reflexivity|]. split; auto. split; auto. left. split; auto. split; auto. split; [|split; [exact J4|exact R3]].
      rewrite J3. rewrite <- app_assoc. cbn [app]. apply added_pair; auto.
    + change (negb (BL_ERROR_OUT_OF_MEMORY =? BL_SUCCESS)) with true. cbv iota. exists BL_ERROR_OUT_OF_MEMORY, g, old. split; auto. split; auto. split; auto. right. right. split; auto. split; auto. split; [|auto]. 
      unfold make_mutable in Em. destruct (g_mut (g_impl g)); auto. discriminate.
  - rewrite <- El'. replace (Z.of_nat (length lo3 + 1) + 1) with (Z.of_nat (length lo3 + 1) + 1) by lia. apply INS. rewrite El. rewrite !at_app, !app_length. rewrite (at_none _ hi); [|revert G; apply Forall_impl; intros; lia].
    rewrite (at_none _ lo3), !at_one. { destruct (Z.eqb_spec (nv s1) (nval o)); [contradiction|]. destruct (_ =? _); cbn [length]; lia. }
    apply ss_app in Sr as (_ & _ & S3). apply Forall_app in L1 as [_ L1]. inversion L1 as [|? ? L1' _]; subst. revert S3. apply Forall_impl. intros t Ht. inversion Ht; subst. lia.
Qed.
