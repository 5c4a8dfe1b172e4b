(* The remaining calls and all sequences of calls. *)
From Verif Require Import Base Object_Model Algorithm_Model Algorithm_Spec Algorithm_Proofs Gradient_Model Gradient_Spec Gradient_Exec Gradient_Proofs Gradient_Proofs2 Gradient_Proofs3 Gradient_Proofs4.
Ltac Zify.zify_post_hook ::= idtac.

Lemma remove3 g x y z mem : inv g -> g_stops (g_impl g) = x ++ y ++ z -> y <> [] ->
  exists code g' old, remove_stops_by_index g (Z.of_nat (length x)) (Z.of_nat (length x) + Z.of_nat (length y)) mem = Ok (code, g', old) /\ inv g' /\ unshared g old /\
  ((code = BL_ERROR_OUT_OF_MEMORY /\ mem = false /\ g_mut (g_impl g) = false /\ g' = g) \/
   (code = BL_SUCCESS /\ rest g' = rest g /\ g_values (g_impl g') = g_values (g_impl g) /\ g_mut (g_impl g') = true /\ (g_mut (g_impl g) = true -> g_cap (g_impl g') = g_cap (g_impl g)) /\
     g_stops (g_impl g') = if g_mut (g_impl g) then x ++ z else [])).
Proof.
  intros I Es Ne. assert (Sz : size_of (g_impl g) = Z.of_nat (length x) + Z.of_nat (length y) + Z.of_nat (length z)) by (unfold size_of; rewrite Es, !app_length; lia).
  assert (Ly : (0 < length y)%nat) by (destruct y; [congruence|cbn [length]; lia]).
  destruct (remove_ok g (Z.of_nat (length x)) (Z.of_nat (length x) + Z.of_nat (length y)) mem I ltac:(lia) ltac:(lia)) as (code & g' & old & E & I' & O & R). exists code, g', old. split; auto. split; auto. split; auto.
  cbv zeta in R. rewrite Sz in R. replace (Z.min (Z.of_nat (length x) + Z.of_nat (length y)) (Z.of_nat (length x) + Z.of_nat (length y) + Z.of_nat (length z))) with (Z.of_nat (length x) + Z.of_nat (length y)) in R by lia.
  destruct R as [(_ & Q & _)|[R|[(_ & Q & _)|(-> & _ & R1 & R2 & R3 & R4 & R5)]]]; try lia; [left; auto|]. right. split; auto. split; auto. split; auto. split; auto. split; auto. rewrite R5. destruct (g_mut (g_impl g)); auto.
  unfold cut. rewrite Es. rewrite Nat2Z.id, firstn_len. f_equal. replace (Z.to_nat (Z.of_nat (length x) + Z.of_nat (length y))) with (length (x ++ y)) by (rewrite app_length; lia). rewrite app_assoc. apply skipn_len.
Qed.

(* remove_stop and remove_stops_by_index *)
Lemma remove_stop_ok g i mem : inv g -> word i -> exists code g' old, remove_stop g i mem = Ok (code, g', old) /\ inv g' /\ unshared g old /\
  ((code = BL_ERROR_INVALID_VALUE /\ size_of (g_impl g) <= i /\ g' = g) \/
   (code = BL_ERROR_OUT_OF_MEMORY /\ mem = false /\ g_mut (g_impl g) = false /\ g' = g) \/ (code = BL_SUCCESS /\ i = size_of (g_impl g) /\ g' = g) \/
   (code = BL_SUCCESS /\ rest g' = rest g /\ g_values (g_impl g') = g_values (g_impl g) /\ g_mut (g_impl g') = true /\ (g_mut (g_impl g) = true -> g_cap (g_impl g') = g_cap (g_impl g)) /\
     exists x s z, g_stops (g_impl g) = x ++ s :: z /\ Z.of_nat (length x) = i /\ g_stops (g_impl g') = if g_mut (g_impl g) then x ++ z else [])).
Proof.
  intros I W. unfold word in W. unfold remove_stop. pose proof (i_cap _ I) as C. pose proof (i_len _ I) as L. destruct (Z.lt_ge_cases i (size_of (g_impl g))) as [Q|Q].
  - unfold w64. rewrite Z.mod_small by lia. destruct (take (g_stops (g_impl g)) i) as (x & s & z & Es & Lx); [unfold size_of in Q; lia|]. rewrite <- Lx.
    destruct (remove3 g x [s] z mem I Es ltac:(discriminate)) as (code & g' & old & E & I' & O & R). change (Z.of_nat (length [s])) with 1 in E. exists code, g', old. split; auto. split; auto. split; auto.
    destruct R as [R|(-> & R1 & R2 & R3 & R4 & R5)]; [auto|]. right. right. right. repeat (split; auto). exists x, s, z. auto.
  - unfold w64. pose proof (Z.mod_pos_bound (i + 1) 18446744073709551616 ltac:(lia)) as MB.
    destruct (remove_ok g i ((i + 1) mod 18446744073709551616) mem I ltac:(lia) ltac:(lia)) as (code & g' & old & E & I' & O & R). exists code, g', old. split; auto. split; auto. split; auto. cbv zeta in R.
    destruct R as [(-> & R & ->)|[R|[(-> & R1 & ->)|(_ & Q1 & _)]]]; [left; split; auto|auto|right; right; left; split; auto; split; auto; lia|lia].
Qed.

Lemma replace_ok g i o c mem : inv g -> word i -> exists code g' old, replace_stop_rgba64 g i o c mem = Ok (code, g', old) /\ inv g' /\ unshared g old /\
  ((code = BL_ERROR_INVALID_VALUE /\ size_of (g_impl g) <= i /\ g' = g) \/
   (code = BL_ERROR_OUT_OF_MEMORY /\ mem = false /\ g_mut (g_impl g) = false /\ g' = g) \/
   (exists x s z, g_stops (g_impl g) = x ++ s :: z /\ Z.of_nat (length x) = i /\ rest g' = rest g /\
      firstn (value_count (g_type g)) (g_values (g_impl g')) = firstn (value_count (g_type g)) (g_values (g_impl g)) /\
     ((code = BL_SUCCESS /\ in01 o /\ nv s = nval o /\ g_stops (g_impl g') = x ++ (fst s, c) :: z) \/
      (code = BL_SUCCESS /\ in01 o /\ nv s <> nval o /\ added (x ++ z) o c (g_stops (g_impl g'))) \/
      (code = BL_ERROR_INVALID_VALUE /\ ~ in01 o /\ g_stops (g_impl g') = x ++ z)))).
Proof.
  intros I W. unfold word in W. pose proof (i_cap _ I) as C. pose proof (i_len _ I) as L. unfold replace_stop_rgba64. destruct (Z.leb_spec (size_of (g_impl g)) i) as [Q|Q].
  { exists BL_ERROR_INVALID_VALUE, g, (g_impl g). split; [reflexivity|]. split; auto. }
  destruct (make_mutable_ok g false mem I) as (code & g1 & old & Em & I1 & O & [(-> & R1 & R2 & R3 & R4 & R5 & R6)|(-> & Mem & ->)]); rewrite Em; cbn [bind].
  2: { change (negb (BL_ERROR_OUT_OF_MEMORY =? BL_SUCCESS)) with true. cbv iota. exists BL_ERROR_OUT_OF_MEMORY, g, old. split; auto. split; auto. split; auto. right. left. split; auto. split; auto. split; auto.
       unfold make_mutable in Em. destruct (g_mut (g_impl g)); auto. discriminate. }
  change (negb (BL_SUCCESS =? BL_SUCCESS)) with false. cbv iota. destruct (take (g_stops (g_impl g)) i) as (x & s & z & Es & Lx); [unfold size_of in Q; lia|].
  assert (Es1 : g_stops (g_impl g1) = x ++ s :: z) by congruence. rewrite Es1, <- Lx, rd_mid. cbn [bind].
  assert (Is : in01 (fst s)). { pose proof (i_wf _ I) as (F & _). rewrite Es in F. apply Forall_app in F as [_ F]. inversion F; auto. }
  destruct (deq (fst s) o) eqn:Dq.
  - assert (Vo : valid o). { unfold deq in Dq. unfold valid. rewrite num_key. destruct (dkey (fst s)), (dkey o); discriminate. } rewrite deq_n in Dq by (auto; apply in01_valid; auto). apply Z.eqb_eq in Dq.
    rewrite wr_mid. cbn [bind]. destruct (recolor_ok g g1 old x s z c I1 Es1 O R2 (R6 eq_refl)) as (J1 & J2 & J3 & J4). do 3 eexists. split; [reflexivity|]. split; auto. split; auto. right. right. exists x, s, z. split; auto. split; auto. split; [exact J4|]. split; [exact R3|].
    left. split; auto. split; [|split; auto]. split; [exact Vo|]. rewrite <- Dq. apply Is.
  - assert (Wl : word (Z.of_nat (length x))) by (unfold word; lia). destruct (remove_stop_ok g1 (Z.of_nat (length x)) mem I1 Wl) as (code & g2 & o2 & Er & I2 & O2 & P).
    assert (Z1 : size_of (g_impl g1) = size_of (g_impl g)) by (unfold size_of; congruence). rewrite Z1, R4 in P.
    destruct P as [(_ & P & _)|[(_ & _ & P & _)|[(_ & P & _)|(-> & P1 & P2 & P3 & P4 & x' & s' & z' & Es2 & Lx' & P5)]]]; try lia; try discriminate. rewrite Er. cbn [bind]. change (negb (BL_SUCCESS =? BL_SUCCESS)) with false. cbv iota.
    assert (x' = x /\ z' = z) as [-> ->]. { rewrite Es1 in Es2. assert (LL : length x' = length x) by lia. clear -Es2 LL. pose proof (f_equal (firstn (length x)) Es2) as A. rewrite firstn_len, <- LL, firstn_len in A. subst x'. apply app_inv_head in Es2. injection Es2 as _ ->. auto. }
    specialize (P4 eq_refl). destruct (add_ok 1 g2 o c mem I2) as (code & g3 & o3 & Ea & I3 & O3 & P). unfold add_stop_rgba64. rewrite Ea. cbn [bind]. do 3 eexists. split; [reflexivity|]. split; auto. split; [intros M; rewrite M; auto|]. right. right. exists x, s, z. split; auto. split; auto.
    assert (Tp : g_type g2 = g_type g) by (unfold rest in *; congruence).
    assert (Sz2 : size_of (g_impl g2) + 1 = size_of (g_impl g)). { unfold size_of. rewrite P5, Es, !app_length. cbn [length]. lia. }
    destruct P as [(-> & In & Ad & S1 & S2)|[(-> & In & ->)|(_ & (Rf & _) & _)]].
    + split; [congruence|]. rewrite Tp, P2 in S2. split; [rewrite S2; exact R3|]. right. left. split; auto. split; auto. rewrite P5 in Ad. split; auto. intros Eq. rewrite deq_n in Dq by (apply in01_valid; auto). lia.
    + split; [congruence|]. split; [rewrite P2; exact R3|]. right. right. auto.
    + exfalso. destruct Rf as [Rf|Rf]; [congruence|]. lia.
Qed.

(* the three parts of the stops around an offset *)
Lemma three (l : list stop) x : wf l -> exists lo mid hi, l = lo ++ mid ++ hi /\ Forall (fun s : stop => nv s < x) lo /\ Forall (fun s : stop => nv s = x) mid /\ Forall (fun s : stop => x < nv s) hi.
Proof.
  intros W. destruct (split_lt l x W) as (lo & r & -> & L1 & L2). assert (W2 : wf r). { apply (wf_remove [] lo r). exact W. } destruct (split_le r x W2) as (mid & hi & -> & M1 & M2). exists lo, mid, hi. split; auto. split; auto. split; auto.
  apply Forall_app in L2 as [L2 _]. rewrite Forall_forall in *. intros s Hs. specialize (L2 s Hs). specialize (M1 s Hs). cbn beta in *. lia.
Qed.
Lemma end_run_ok mid hi o : forall b, Forall (fun s : stop => valid (fst s)) (mid ++ hi) -> valid o -> Forall (fun s : stop => nv s = nval o) mid -> Forall (fun s : stop => nval o < nv s) hi ->
  end_of_run (mid ++ hi) b o = b + Z.of_nat (length mid).
Proof.
  induction mid as [|(p, c) mid IH]; intros b V Vo M H.
  - cbn [app length]. destruct hi as [|(p, c) hi]; cbn [end_of_run]; [lia|]. inversion V; inversion H; subst. cbn [fst] in *. rewrite deq_n by auto. destruct (Z.eqb_spec (nval p) (nval o)); lia.
  - cbn [app end_of_run length]. inversion V; inversion M; subst. cbn [fst] in *. rewrite deq_n by auto. destruct (Z.eqb_spec (nval p) (nval o)); [|lia]. rewrite IH; auto. lia.
Qed.
Lemma find_run_ok lo mid hi o all : forall a, Forall (fun s : stop => valid (fst s)) (lo ++ mid ++ hi) -> valid o -> Forall (fun s : stop => nv s < nval o) lo -> Forall (fun s : stop => nv s = nval o) mid -> Forall (fun s : stop => nval o < nv s) hi ->
  find_run (lo ++ mid ++ hi) a o all = match mid with [] => None | _ => Some (a + Z.of_nat (length lo), a + Z.of_nat (length lo) + if all then Z.of_nat (length mid) else 1) end.
Proof.
  induction lo as [|(p, c) lo IH]; intros a V Vo L M H.
  - cbn [app length]. cbn [app] in V. destruct mid as [|(p, c) mid].
    + cbn [app]. destruct hi as [|(p, c) hi]; cbn [find_run]; auto. inversion V; inversion H; subst. cbn [fst] in *. rewrite dlt_n by auto. destruct (Z.ltb_spec (nval o) (nval p)); auto. lia.
    + cbn [app find_run]. cbn [app] in V. inversion V; inversion M; subst. cbn [fst] in *. rewrite dlt_n, deq_n by auto. destruct (Z.ltb_spec (nval o) (nval p)); [lia|]. destruct (Z.eqb_spec (nval p) (nval o)); [|lia].
      rewrite end_run_ok by auto. cbn [length]. f_equal. f_equal; [lia|]. destruct all; lia.
  - cbn [app find_run length]. cbn [app] in V. inversion V; inversion L; subst. cbn [fst] in *. rewrite dlt_n, deq_n by auto. destruct (Z.ltb_spec (nval o) (nval p)); [lia|]. destruct (Z.eqb_spec (nval p) (nval o)); [lia|].
    rewrite IH by auto. destruct mid; auto. f_equal. f_equal; lia.
Qed.

Lemma wf_valid l : wf l -> Forall (fun s : stop => valid (fst s)) l.
Proof. intros (F & _). revert F. apply Forall_impl. intros s. apply in01_valid. Qed.

Lemma remove_by_offset_ok g o all mem : inv g -> exists code g' old, remove_stop_by_offset g o all mem = Ok (code, g', old) /\ inv g' /\ unshared g old /\
  ((code = BL_ERROR_INVALID_VALUE /\ ~ in01 o /\ g' = g) \/ (code = BL_ERROR_OUT_OF_MEMORY /\ mem = false /\ g_mut (g_impl g) = false /\ g' = g) \/
   (code = BL_SUCCESS /\ in01 o /\ rest g' = rest g /\ g_values (g_impl g') = g_values (g_impl g) /\
     exists lo mid hi, g_stops (g_impl g) = lo ++ mid ++ hi /\ Forall (fun s : stop => nv s < nval o) lo /\ Forall (fun s : stop => nv s = nval o) mid /\ Forall (fun s : stop => nval o < nv s) hi /\
     ((mid = [] /\ g' = g) \/ (mid <> [] /\ g_stops (g_impl g') = if g_mut (g_impl g) then lo ++ (if all then [] else tl mid) ++ hi else [])))).
Proof.
  intros I. pose proof I as [A B C D E F H]. unfold remove_stop_by_offset. destruct (dle D0 o && dle o D1) eqn:R; cbn [negb].
  2: { exists BL_ERROR_INVALID_VALUE, g, (g_impl g). split; [reflexivity|]. split; auto. split; auto. left. split; auto. split; auto. intros Q. apply range_check in Q. congruence. }
  apply range_check in R. pose proof (in01_valid _ R) as V. destruct (three _ (nval o) A) as (lo & mid & hi & El & L & M & G). pose proof (wf_valid _ A) as FA. rewrite El in FA.
  rewrite El, (find_run_ok lo mid hi o all 0 FA V L M G). cbn [Z.add]. destruct mid as [|m0 mid].
  - exists BL_SUCCESS, g, (g_impl g). split; [reflexivity|]. split; auto. split; auto. right. right. split; auto. split; auto. split; auto. split; auto. exists lo, [], hi. rewrite El. repeat (split; auto).
  - set (y := if all then m0 :: mid else [m0]). set (z := if all then hi else mid ++ hi).
    assert (Ey : lo ++ (m0 :: mid) ++ hi = lo ++ y ++ z) by (unfold y, z; destruct all; reflexivity).
    replace (if all then Z.of_nat (length (m0 :: mid)) else 1) with (Z.of_nat (length y)) by (unfold y; destruct all; reflexivity).
    destruct (remove3 g lo y z mem I) as (code & g' & old & Er & I' & O & P); [congruence|unfold y; destruct all; discriminate|]. replace (0 + Z.of_nat (length lo)) with (Z.of_nat (length lo)) by lia. exists code, g', old. split; [exact Er|]. split; auto. split; auto. right.
    destruct P as [P|(-> & R1 & R2 & R3 & R4 & R5)]; [left; auto|]. right. split; auto. split; auto. split; auto. split; auto. exists lo, (m0 :: mid), hi. split; auto. split; auto. split; auto. split; auto. right. split; [discriminate|]. rewrite R5. unfold z. cbn [tl]. destruct all; reflexivity.
Qed.

Lemma skip_ok (p : Z -> bool) lo hi : Forall (fun s : stop => p (fst s) = true) lo -> match hi with [] => True | s :: _ => p (fst s) = false end -> skip_while p (lo ++ hi) = length lo.
Proof.
  induction lo as [|(o, c) lo IH]; intros L H.
  - cbn [app length]. destruct hi as [|(o, c) hi]; cbn [skip_while]; auto. cbn [fst] in H. rewrite H. reflexivity.
  - cbn [app length skip_while]. inversion L; subst. cbn [fst] in *. rewrite H2, IH; auto.
Qed.
Lemma skip_exists (p : Z -> bool) l : exists lo hi, l = lo ++ hi /\ Forall (fun s : stop => p (fst s) = true) lo /\ match hi with [] => True | s :: _ => p (fst s) = false end /\ skip_while p l = length lo.
Proof. destruct (split_by (fun s => p (fst s)) l) as (lo & hi & -> & L & H). exists lo, hi. split; auto. split; auto. split; auto. apply skip_ok; auto. Qed.

Lemma remove_interval_ok g a b mem : inv g -> exists code g' old, remove_stops_by_offset g a b mem = Ok (code, g', old) /\ inv g' /\ unshared g old /\
  ((code = BL_ERROR_INVALID_VALUE /\ dlt b a = true /\ g' = g) \/ (code = BL_ERROR_OUT_OF_MEMORY /\ mem = false /\ g_mut (g_impl g) = false /\ g' = g) \/
   (code = BL_SUCCESS /\ dlt b a = false /\ rest g' = rest g /\ g_values (g_impl g') = g_values (g_impl g) /\
     exists lo mid hi, g_stops (g_impl g) = lo ++ mid ++ hi /\ Forall (fun s : stop => dlt (fst s) a = true) lo /\
      match mid ++ hi with [] => True | s :: _ => dlt (fst s) a = false end /\ Forall (fun s : stop => dle (fst s) b = true) mid /\ match hi with [] => True | s :: _ => dle (fst s) b = false end /\
     ((mid = [] /\ g' = g) \/ (mid <> [] /\ g_stops (g_impl g') = if g_mut (g_impl g) then lo ++ hi else [])))).
Proof.
  intros I. unfold remove_stops_by_offset. destruct (dlt b a) eqn:R.
  { exists BL_ERROR_INVALID_VALUE, g, (g_impl g). split; [reflexivity|]. split; auto. }
  destruct (skip_exists (fun o => dlt o a) (g_stops (g_impl g))) as (lo & r & El & L & H & Ea). cbv beta in *. rewrite Ea. replace (skipn (length lo) (g_stops (g_impl g))) with r by (rewrite El, skipn_len; reflexivity).
  destruct (skip_exists (fun o => dle o b) r) as (mid & hi & Er & M & H2 & Eb). cbv beta in *. rewrite Eb. subst r.
  assert (Nop : mid = [] -> exists code g' old, same BL_SUCCESS g = Ok (code, g', old) /\ inv g' /\ unshared g old /\
   ((code = BL_ERROR_INVALID_VALUE /\ false = true /\ g' = g) \/ (code = BL_ERROR_OUT_OF_MEMORY /\ mem = false /\ g_mut (g_impl g) = false /\ g' = g) \/
   (code = BL_SUCCESS /\ false = false /\ rest g' = rest g /\ g_values (g_impl g') = g_values (g_impl g) /\
     exists lo mid hi, g_stops (g_impl g) = lo ++ mid ++ hi /\ Forall (fun s : stop => dlt (fst s) a = true) lo /\
      match mid ++ hi with [] => True | s :: _ => dlt (fst s) a = false end /\ Forall (fun s : stop => dle (fst s) b = true) mid /\ match hi with [] => True | s :: _ => dle (fst s) b = false end /\
     ((mid = [] /\ g' = g) \/ (mid <> [] /\ g_stops (g_impl g') = if g_mut (g_impl g) then lo ++ hi else []))))).
  { intros ->. exists BL_SUCCESS, g, (g_impl g). split; [reflexivity|]. split; auto. split; auto. right. right. split; auto. split; auto. split; auto. split; auto. exists lo, [], hi. split; auto. split; auto. split; auto. }
  destruct (Z.eqb_spec (size_of (g_impl g)) 0) as [Z0|Z0].
  { apply Nop. unfold size_of in Z0. rewrite El, !app_length in Z0. destruct mid; auto. cbn [length] in Z0. lia. }
  destruct (Nat.leb_spec (length lo + length mid) (length lo)) as [Le|Le].
  { apply Nop. destruct mid; auto. cbn [length] in Le. lia. }
  assert (Ne : mid <> []) by (intros ->; cbn [length] in Le; lia). rewrite Nat2Z.inj_add. destruct (remove3 g lo mid hi mem I El Ne) as (code & g' & old & E & I' & O & P). exists code, g', old. split; auto. split; auto. split; auto. right.
  destruct P as [P|(-> & R1 & R2 & R3 & R4 & R5)]; [left; auto|]. right. split; auto. split; auto. split; auto. split; auto. exists lo, mid, hi. split; auto. split; auto. split; auto.
Qed.

Lemma find_ok g o : inv g -> valid o -> exists i, index_of_stop g o = Ok i /\
  ((i = 2 ^ 64 - 1 /\ Forall (fun s : stop => nv s <> nval o) (g_stops (g_impl g))) \/
   (exists x s z, g_stops (g_impl g) = x ++ s :: z /\ Z.of_nat (length x) = i /\ nv s = nval o /\ Forall (fun s : stop => nv s <> nval o) x)).
Proof.
  intros I V. pose proof I as [A B C D E F H]. pose proof (wf_valid _ A) as FA. unfold index_of_stop. destruct (three _ (nval o) A) as (lo & mid & hi & El & L & M & G).
  destruct (Z.eqb_spec (size_of (g_impl g)) 0) as [Z0|Z0].
  { exists SIZE_MAX. split; auto. left. split; [reflexivity|]. unfold size_of in Z0. destruct (g_stops (g_impl g)); auto. cbn [length] in Z0. lia. }
  set (l := g_stops (g_impl g)) in *.
  assert (VV : forall i x, elem_at l i = Some x -> valid (fst x)). { intros i x Ex. unfold elem_at in Ex. destruct (_ <? 0); [discriminate|]. rewrite Forall_forall in FA. apply FA. eapply nth_error_In. eauto. }
  destruct (binary_search_ok stop_le stop_eq l o (sorted_down l o A V)) as (r & Er & P).
  - unfold size_of in B. fold l in B. lia.
  - intros s. unfold stop_eq, stop_le, deq, dle. destruct (dkey (fst s)), (dkey o); try discriminate. lia.
  - intros i j x y Ex Ey Hij Qx Qy. pose proof (VV _ _ Ex). pose proof (VV _ _ Ey). unfold stop_eq, stop_le in *. rewrite deq_n in * by auto. rewrite dle_n in Qy by auto.
    pose proof (sorted_down l (fst y) A ltac:(auto) i j x y Ex Ey Hij) as K. unfold stop_le in K. rewrite !dle_n in K by auto. specialize (K (Z.leb_refl _)). lia.
  - rewrite Er. cbn [bind]. destruct P as [(s & Es & Qs & Mx)|(-> & Nn)].
    + pose proof (VV _ _ Es) as Vs. unfold stop_eq in Qs. rewrite deq_n in Qs by auto.
      assert (Hr : 0 <= r < Z.of_nat (length l)). { unfold elem_at in Es. destruct (Z.ltb_spec r 0); [discriminate|]. assert (nth_error l (Z.to_nat r) <> None) by congruence. apply nth_error_Some in H1. lia. }
      destruct (Z.eqb_spec r SIZE_MAX) as [Q|Q]. { exfalso. unfold SIZE_MAX in Q. unfold size_of in B. fold l in B. lia. }
      (* the found stop is the last one of the middle part *)
      destruct (take l r Hr) as (x & s' & z & Ex & Lx). assert (s' = s). { rewrite Ex, <- Lx, elem_mid in Es. congruence. } subst s'.
      assert (Sd : StronglySorted (fun s t : stop => nv s <= nv t) l) by apply A. rewrite Ex in Sd. apply ss_app in Sd as (Sx & _ & Sx2).
      assert (Ux : up x (nval o)). { unfold up. revert Sx2. apply Forall_impl. intros t Ht. inversion Ht; subst. lia. }
      destruct (Z.ltb_spec 0 r) as [R0|R0].
      * destruct (exists_last (l := x)) as (x1 & t & Exl); [intros ->; cbn [length] in Lx; lia|]. subst x. rewrite app_length in Lx. cbn [length] in Lx.
        assert (Rt : rd l (r - 1) = Ok t). { replace (r - 1) with (Z.of_nat (length x1)) by lia. rewrite Ex, <- app_assoc. cbn [app]. apply rd_mid. } rewrite Rt. cbn [bind].
        assert (Vt : valid (fst t)). { rewrite Ex in FA. apply Forall_app in FA as [FA _]. apply Forall_app in FA as [_ FA]. inversion FA; auto. } rewrite deq_n by auto.
        apply ss_app in Sx as (_ & _ & Sx). apply Forall_app in Ux as [Ux1 Ux2]. inversion Ux2 as [|? ? Ut _]; subst.
        destruct (Z.eqb_spec (nval (fst t)) (nval o)) as [Qt|Qt]; eexists; (split; [reflexivity|right]).
        -- exists x1, t, (s :: z). rewrite Ex, <- app_assoc. split; auto. split; [lia|]. split; auto. destruct A as (_ & _ & Cn). specialize (Cn (nval o)). rewrite Ex, !at_app in Cn.
           change (s :: z) with ([s] ++ z) in Cn. rewrite at_app, !at_one in Cn. destruct (Z.eqb_spec (nv t) (nval o)); [|lia]. destruct (Z.eqb_spec (nv s) (nval o)); [|lia].
           rewrite !app_length in Cn. cbn [length] in Cn. assert (K : at_offset (nval o) x1 = []) by (destruct (at_offset (nval o) x1); auto; cbn [length] in Cn; lia).
           apply Forall_forall. intros u Hu Eu. assert (HI : In u (at_offset (nval o) x1)). { unfold at_offset. apply filter_In. split; auto. cbn beta. apply Z.eqb_eq. auto. } rewrite K in HI. destruct HI.
        -- exists (x1 ++ [t]), s, z. split; auto. split; [rewrite app_length; cbn [length]; lia|]. split; [lia|]. apply Forall_app. split; [|constructor; auto].
           rewrite Forall_forall in *. intros u Hu. specialize (Sx u Hu). inversion Sx; subst. lia.
      * cbn [bind]. exists r. split; auto. right. exists x, s, z. split; auto. split; auto. split; [lia|]. destruct x; [auto|cbn [length] in Lx; lia].
    + change (2 ^ 64 - 1 =? SIZE_MAX) with true. cbv iota. exists SIZE_MAX. split; auto. left. split; auto. rewrite Forall_forall. intros s Hs Es. apply In_nth_error in Hs as (k & Hk).
      assert (El2 : elem_at l (Z.of_nat k) = Some s). { unfold elem_at. destruct (Z.ltb_spec (Z.of_nat k) 0); [lia|]. rewrite Nat2Z.id. auto. }
      specialize (Nn _ _ El2). pose proof (VV _ _ El2). unfold stop_eq in Nn. rewrite deq_n in Nn by auto. lia.
Qed.

Definition is_ensure (o : gop) : Prop := match o with Ensure_info | Ensure_lut32 | Ensure_lut64 => True | _ => False end.
Lemma ensure_ok g o mem : inv g -> is_ensure o -> exists g', exec g o mem = Ok (BL_SUCCESS, g', g_impl g') /\ inv g' /\ kept g g' /\ g_cap (g_impl g') = g_cap (g_impl g) /\ g_mut (g_impl g') = g_mut (g_impl g).
Proof.
  intros I Q. pose proof I as [A B C D E F H]. assert (K : forall c, cache_ok c (g_stops (g_impl g)) -> cache_ok (Some (cached c (g_stops (g_impl g)))) (g_stops (g_impl g))) by (intros c [-> | ->]; right; reflexivity).
  destruct o; try contradiction; cbn [exec]; unfold ensure_info, ensure_lut32, ensure_lut64.
  - destruct (size_of (g_impl g) =? 0); eexists (with_impl g _); (split; [reflexivity|]); (split; [split; cbn [with_impl g_impl with_caches g_stops g_cap g_values g_lut32 g_lut64 g_info]; auto|repeat split]).
  - eexists (with_impl g _); (split; [reflexivity|]); (split; [split; cbn [with_impl g_impl with_caches g_stops g_cap g_values g_lut32 g_lut64 g_info]; auto|repeat split]).
  - eexists (with_impl g _); (split; [reflexivity|]); (split; [split; cbn [with_impl g_impl with_caches g_stops g_cap g_values g_lut32 g_lut64 g_info]; auto|repeat split]).
Qed.

(* the reservations that are safe *)
Definition safe (g : grad) (o : gop) : Prop := match o with Reserve n => n < 2 ^ 60 - 9 /\ size_of (g_impl g) <= Z.max n 2 | _ => True end.

Lemma exec_ok g o mem : inv g -> args o ->
  (exec g o mem = UB /\ ~ safe g o) \/
  (exists code g' old, exec g o mem = Ok (code, g', old) /\ inv g' /\ (~ is_ensure o -> unshared g old)).
Proof.
  intros I A. destruct o; cbn [exec args safe is_ensure] in *.
  - right. destruct A as (A1 & A2 & A3 & A4). destruct (create_ok g type vals extend stops transform mem I A1 A2 A3 A4) as (code & g' & old & E & I' & O & _). exists code, g', old. auto.
  - right. destruct (shrink_ok g mem I) as (code & g' & old & E & I' & O & _). exists code, g', old. auto.
  - destruct (reserve_ok g n mem I A) as [U|(code & g' & old & E & I' & O & _)]; [left; auto|right]. exists code, g', old. auto.
  - right. unfold set_type. destruct (2 <? t); do 3 eexists; (split; [reflexivity|split; [exact I|intros _; apply unshared_same]]).
  - right. unfold set_extend_mode. destruct (2 <? e); do 3 eexists; (split; [reflexivity|split; [exact I|intros _; apply unshared_same]]).
  - right. destruct (set_value_ok g i v mem I) as (code & g' & old & E & I' & O & _); [unfold word in A; lia|]. exists code, g', old. auto.
  - right. destruct (reset_stops_ok g mem I) as (code & g' & old & E & I' & O & _). exists code, g', old. auto.
  - right. destruct (assign_stops_ok g l mem I A) as (code & g' & old & E & I' & O & _). exists code, g', old. auto.
  - right. destruct (add_ok 1 g o c mem I) as (code & g' & old & E & I' & O & _). exists code, g', old. auto.
  - right. destruct (remove_stop_ok g i mem I A) as (code & g' & old & E & I' & O & _). exists code, g', old. auto.
  - right. destruct (remove_by_offset_ok g o all mem I) as (code & g' & old & E & I' & O & _). exists code, g', old. auto.
  - right. destruct A as (A1 & A2). unfold word in *. destruct (remove_ok g a b mem I ltac:(lia) ltac:(lia)) as (code & g' & old & E & I' & O & _). exists code, g', old. auto.
  - right. destruct (remove_interval_ok g a b mem I) as (code & g' & old & E & I' & O & _). exists code, g', old. auto.
  - right. destruct (replace_ok g i o c mem I A) as (code & g' & old & E & I' & O & _). exists code, g', old. auto.
  - right. destruct (ensure_ok g Ensure_info mem I Logic.I) as (g' & E & I' & _). cbn [exec] in E. exists BL_SUCCESS, g', (g_impl g'). split; auto. split; auto. tauto.
  - right. destruct (ensure_ok g Ensure_lut32 mem I Logic.I) as (g' & E & I' & _). cbn [exec] in E. exists BL_SUCCESS, g', (g_impl g'). split; auto. split; auto. tauto.
  - right. destruct (ensure_ok g Ensure_lut64 mem I Logic.I) as (g' & E & I' & _). cbn [exec] in E. exists BL_SUCCESS, g', (g_impl g'). split; auto. split; auto. tauto.
Qed.

Lemma reach_inv g : reach g -> inv g.
Proof.
  induction 1 as [|g m R IH|g o mem code g' old R IH A E]; [apply inv_default|apply inv_shared; auto|].
  destruct (exec_ok g o mem IH A) as [(U & _)|(c & g2 & o2 & E2 & I2 & _)]; rewrite E in *; [discriminate|]. congruence.
Qed.
