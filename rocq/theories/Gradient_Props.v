(* Properties of BLGradient. *)
From Verif Require Import Base Object_Model Algorithm_Model Gradient_Model Gradient_Spec Gradient_Exec Gradient_Proofs Gradient_Proofs2 Gradient_Proofs3 Gradient_Proofs4 Gradient_Proofs5 Gradient_Proofs6 Gradient_Proofs7.
Ltac Zify.zify_post_hook ::= idtac.

(* gradients used below: half is 0.5 *)
Definition half : Z := 4602678819172646912.
Definition red : Z := 18446462598732840960. (* 0xFFFF0000... *)
Definition blue : Z := 18446462598732906495.
Fixpoint runs (g : grad) (os : list gop) : option grad :=
  match os with [] => Some g | o :: r => match exec g o true with Ok (_, g', _) => runs g' r | _ => None end end.
Lemma runs_reach os : forall g g', reach g -> Forall args os -> runs g os = Some g' -> reach g'.
Proof.
  induction os as [|o os IH]; intros g g' R A E; cbn [runs] in E; [congruence|]. destruct (exec g o true) as [[[c g1] old]| | |] eqn:X; try discriminate. inversion A; subst. apply (IH g1 g'); auto. eapply reach_step; eauto.
Qed.
Definition three_ops : list gop := [Add_stop D1 blue; Add_stop D0 red; Add_stop half red].
Definition three_stops : grad := match runs default_gradient three_ops with Some g => g | None => default_gradient end.
Lemma three_reach : reach three_stops.
Proof. apply (runs_reach three_ops default_gradient); [constructor|repeat constructor|vm_compute; reflexivity]. Qed.
Definition pair_ops : list gop := [Add_stop D0 red; Add_stop half red; Add_stop half blue; Add_stop D1 blue].
Definition pair_stops : grad := match runs default_gradient pair_ops with Some g => g | None => default_gradient end.
Lemma pair_reach : reach pair_stops.
Proof. apply (runs_reach pair_ops default_gradient); [constructor|repeat constructor|vm_compute; reflexivity]. Qed.

(* C75: the stops are always sorted numbers in 0..1, at most two at an offset, and fit into the capacity. *)
Theorem C75_stops_sorted g : reach g -> wf (g_stops (g_impl g)) /\ Z.of_nat (length (g_stops (g_impl g))) <= g_cap (g_impl g).
Proof. intros R. apply reach_inv in R. destruct R as [A B C D E F H]. split; auto. Qed.
Print Assumptions C75_stops_sorted.
Example C75_ex_three : reach three_stops /\ g_stops (g_impl three_stops) = [(D0, red); (half, red); (D1, blue)].
Proof. split; [apply three_reach|vm_compute; reflexivity]. Qed.

(* C76: adding and finding a stop. *)
Theorem C76_add_stop g o c mem : reach g -> exists code g' old, add_stop_rgba64 g o c mem = Ok (code, g', old) /\
  ((code = BL_SUCCESS /\ in01 o /\ added (g_stops (g_impl g)) o c (g_stops (g_impl g'))) \/
   (code = BL_ERROR_INVALID_VALUE /\ ~ in01 o /\ g' = g) \/
   (code = BL_ERROR_OUT_OF_MEMORY /\ (mem = false \/ 2 ^ 58 <= Z.of_nat (length (g_stops (g_impl g)))) /\ g' = g)).
Proof.
  intros R. apply reach_inv in R. destruct (add_ok 1 g o c mem R) as (code & g' & old & E & _ & _ & P). exists code, g', old. split; [exact E|].
  destruct P as [(A & B & C & _)|[P|(A & (_ & B) & C)]]; auto.
Qed.
Print Assumptions C76_add_stop.
Theorem C76_added_unique l o c r r' : wf l -> added l o c r -> added l o c r' -> r = r'.
Proof. apply added_det. Qed.
Print Assumptions C76_added_unique.
Theorem C76_index_of_stop g o : reach g -> num o <> None -> exists i, index_of_stop g o = Ok i /\
  ((i = 2 ^ 64 - 1 /\ forall s, In s (g_stops (g_impl g)) -> nval (fst s) <> nval o) \/
   (exists x s z, g_stops (g_impl g) = x ++ s :: z /\ Z.of_nat (length x) = i /\ nval (fst s) = nval o /\ forall t, In t x -> nval (fst t) <> nval o)).
Proof.
  intros R V. apply reach_inv in R. destruct (find_ok g o R V) as (i & E & P). exists i. split; auto. destruct P as [(A & B)|(x & s & z & A & B & C & D)]; [left|right].
  - split; auto. rewrite Forall_forall in B. auto.
  - exists x, s, z. rewrite Forall_forall in D. auto.
Qed.
Print Assumptions C76_index_of_stop.
Example C76_ex_add : exists g' old, add_stop_rgba64 pair_stops half red true = Ok (BL_SUCCESS, g', old) /\ g_stops (g_impl g') = [(D0, red); (half, red); (half, red); (D1, blue)] /\ index_of_stop g' half = Ok 1.
Proof. do 2 eexists. split; [vm_compute; reflexivity|]. split; vm_compute; reflexivity. Qed.
Example C76_ex_invalid : add_stop_rgba64 pair_stops Dm1 red true = Ok (BL_ERROR_INVALID_VALUE, pair_stops, g_impl pair_stops).
Proof. vm_compute. reflexivity. Qed.

(* C77: assigning an array keeps the first and the last of the stops with the same offset, sorted. *)
Theorem C77_assign_conforming g l mem : reach g -> fits l -> wf l -> exists code g' old, assign_stops g l mem = Ok (code, g', old) /\
  ((code = BL_SUCCESS /\ g_stops (g_impl g') = l) \/ (code = BL_ERROR_OUT_OF_MEMORY /\ mem = false /\ g' = g)).
Proof.
  intros R Ft W. apply reach_inv in R. destruct (assign_stops_ok g l mem R Ft) as (code & g' & old & E & _ & _ & P). exists code, g', old. split; auto.
  destruct P as [(-> & _ & [(_ & A)|(A & _)] & _)|[P|(_ & A & _)]]; auto; [contradiction|destruct W as (W & _); contradiction].
Qed.
Print Assumptions C77_assign_conforming.
(* what is kept of an array that is not sorted or has three stops at an offset: the greatest and last stop is missing *)
Theorem C77_assign_partial g l mem : reach g -> fits l -> ~ wf l -> exists code g' old, assign_stops g l mem = Ok (code, g', old) /\
  ((code = BL_SUCCESS /\ exists l1 z l2, l = l1 ++ z :: l2 /\ Forall (fun s : stop => nval (fst s) <= nval (fst z)) l1 /\ Forall (fun s : stop => nval (fst s) < nval (fst z)) l2 /\
      assigned (l1 ++ l2) (g_stops (g_impl g'))) \/
   (code = BL_ERROR_OUT_OF_MEMORY /\ mem = false /\ g' = g) \/
   (code = BL_ERROR_INVALID_VALUE /\ (exists s, In s l /\ ~ in01 (fst s)) /\ g' = g)).
Proof.
  intros R Ft W. apply reach_inv in R. destruct (assign_stops_ok g l mem R Ft) as (code & g' & old & E & _ & _ & P). exists code, g', old. split; auto.
  destruct P as [(-> & _ & [(A & _)|(_ & l' & (l1 & z & l2 & E1 & -> & F1 & F2) & A)] & _)|[P|(-> & A & ->)]]; auto; [contradiction| |].
  - left. split; auto. exists l1, z, l2. auto.
  - right. right. split; auto. split; auto. apply Exists_exists. clear -A. induction l as [|s l IH]; [destruct A; constructor|]. destruct (in01_dec (fst s)) as [Q|Q]; [right; apply IH; intros K; apply A; constructor; auto|left; auto].
Qed.
Print Assumptions C77_assign_partial.
Theorem C77_assign_refuted : exists l g' old, Forall (fun s : stop => in01 (fst s)) l /\ assign_stops default_gradient l true = Ok (BL_SUCCESS, g', old) /\ ~ assigned l (g_stops (g_impl g')).
Proof.
  exists [(D1, blue); (D0, red)]. do 2 eexists. split; [repeat constructor; vm_compute; congruence|]. split; [vm_compute; reflexivity|].
  intros (_ & A). specialize (A (nval D1)). cbn [g_stops g_impl with_stops with_impl] in A. apply (f_equal (@length _)) in A. revert A. vm_compute. discriminate.
Qed.
Print Assumptions C77_assign_refuted.
Example C77_ex_assign : exists g' old, assign_stops default_gradient [(D0, red); (half, red); (half, blue); (D1, blue)] true = Ok (BL_SUCCESS, g', old) /\ g_stops (g_impl g') = [(D0, red); (half, red); (half, blue); (D1, blue)].
Proof. do 2 eexists. split; vm_compute; reflexivity. Qed.
Example C77_ex_unsorted : exists g' old, assign_stops default_gradient [(half, blue); (D1, blue); (D0, red)] true = Ok (BL_SUCCESS, g', old) /\ g_stops (g_impl g') = [(D0, red); (half, blue)].
Proof. do 2 eexists. split; vm_compute; reflexivity. Qed.

(* C78: the removals remove exactly the stops asked for; for objects that are not shared. *)
Theorem C78_remove_index_partial g a b mem : reach g -> g_mut (g_impl g) = true -> word a -> word b ->
  let l := g_stops (g_impl g) in let e := Z.min b (Z.of_nat (length l)) in
  exists code g' old, remove_stops_by_index g a b mem = Ok (code, g', old) /\
  ((code = BL_SUCCESS /\ a <= e /\ g_stops (g_impl g') = firstn (Z.to_nat a) l ++ skipn (Z.to_nat e) l) \/
   (code = BL_ERROR_INVALID_VALUE /\ e < a /\ g' = g)).
Proof.
  intros R M [A1 _] [B1 _]. cbv zeta. apply reach_inv in R. destruct (remove_ok g a b mem R A1 B1) as (code & g' & old & E & _ & _ & P). exists code, g', old. split; auto. cbv zeta in P. unfold size_of in P. rewrite M in P.
  destruct P as [(-> & A & ->)|[(_ & _ & Q & _)|[(-> & A & ->)|(-> & A & _ & _ & _ & _ & B)]]]; [right; split; auto; split; auto; lia|discriminate| |left; split; auto; split; auto; lia].
  left. split; auto. split; [lia|]. rewrite <- A. symmetry. apply firstn_skipn.
Qed.
Print Assumptions C78_remove_index_partial.
Theorem C78_remove_offset_partial g o mem : reach g -> g_mut (g_impl g) = true -> in01 o ->
  exists g' old, remove_stop_by_offset g o true mem = Ok (BL_SUCCESS, g', old) /\ g_stops (g_impl g') = filter (fun s : stop => negb (nval (fst s) =? nval o)) (g_stops (g_impl g)).
Proof.
  intros R M I. apply reach_inv in R. destruct (remove_by_offset_ok g o true mem R) as (code & g' & old & E & _ & _ & P).
  destruct P as [(_ & A & _)|[(_ & _ & A & _)|(-> & _ & _ & _ & lo & mid & hi & El & L & Md & H & P)]]; [contradiction|congruence|]. exists g', old. split; auto. rewrite M in P. rewrite El.
  rewrite <- (offset_filter lo mid hi (nval o)) by auto. destruct P as [(-> & ->)|(_ & P)]; [rewrite El; reflexivity|exact P].
Qed.
Print Assumptions C78_remove_offset_partial.
Theorem C78_remove_first_partial g o mem : reach g -> g_mut (g_impl g) = true -> in01 o ->
  exists g' old, remove_stop_by_offset g o false mem = Ok (BL_SUCCESS, g', old) /\
  ((g_stops (g_impl g') = g_stops (g_impl g) /\ forall s, In s (g_stops (g_impl g)) -> nval (fst s) <> nval o) \/
   exists x s z, g_stops (g_impl g) = x ++ s :: z /\ nval (fst s) = nval o /\ (forall t, In t x -> nval (fst t) <> nval o) /\ g_stops (g_impl g') = x ++ z).
Proof.
  intros R M I. apply reach_inv in R. destruct (remove_by_offset_ok g o false mem R) as (code & g' & old & E & _ & _ & P).
  destruct P as [(_ & A & _)|[(_ & _ & A & _)|(-> & _ & _ & _ & lo & mid & hi & El & L & Md & H & P)]]; [contradiction|congruence|]. exists g', old. split; auto. rewrite M in P. rewrite Forall_forall in L, Md, H.
  destruct P as [(-> & ->)|(Ne & P)].
  - left. split; auto. rewrite El. intros s Hs. apply in_app_or in Hs. destruct Hs as [Hs|Hs]; [specialize (L s Hs); lia|specialize (H s Hs); cbn beta in H; lia].
  - right. destruct mid as [|s mid]; [congruence|]. exists lo, s, (mid ++ hi). split; auto. split; [apply (Md s); left; auto|]. split; auto. intros t Ht. specialize (L t Ht). lia.
Qed.
Print Assumptions C78_remove_first_partial.
Theorem C78_remove_interval_partial g a b mem : reach g -> g_mut (g_impl g) = true -> num a <> None -> num b <> None -> nval a <= nval b ->
  exists g' old, remove_stops_by_offset g a b mem = Ok (BL_SUCCESS, g', old) /\ g_stops (g_impl g') = filter (fun s : stop => negb ((nval a <=? nval (fst s)) && (nval (fst s) <=? nval b))) (g_stops (g_impl g)).
Proof.
  intros R M Va Vb Hab. apply reach_inv in R. destruct (remove_interval_ok g a b mem R) as (code & g' & old & E & _ & _ & P). pose proof (i_wf _ R) as W.
  destruct P as [(_ & A & _)|[(_ & _ & A & _)|(-> & _ & _ & _ & lo & mid & hi & El & L & M1 & M2 & H & P)]]; [rewrite dlt_n in A by auto; lia|congruence|]. exists g', old. split; auto. rewrite M in P. rewrite El in W.
  rewrite El. rewrite <- (interval_filter lo mid hi a b) by auto. destruct P as [(-> & ->)|(_ & P)]; [rewrite El; reflexivity|exact P].
Qed.
Print Assumptions C78_remove_interval_partial.
(* a copy of the object exists: all stops are lost *)
Theorem C78_remove_refuted : exists g g' old, reach g /\ length (g_stops (g_impl g)) = 3%nat /\ remove_stop g 0 true = Ok (BL_SUCCESS, g', old) /\ g_stops (g_impl g') = [].
Proof. exists (shared three_stops false). do 2 eexists. split; [constructor; apply three_reach|]. split; [vm_compute; reflexivity|]. split; vm_compute; reflexivity. Qed.
Print Assumptions C78_remove_refuted.
Example C78_ex_remove : g_mut (g_impl pair_stops) = true /\ (exists g' old, remove_stop_by_offset pair_stops half true true = Ok (BL_SUCCESS, g', old) /\ g_stops (g_impl g') = [(D0, red); (D1, blue)]) /\
  exists g' old, remove_stops_by_offset pair_stops D0 half true = Ok (BL_SUCCESS, g', old) /\ g_stops (g_impl g') = [(D1, blue)].
Proof. split; [vm_compute; reflexivity|]. split; do 2 eexists; split; vm_compute; reflexivity. Qed.

(* C79: replacing a stop is the same as removing it and adding the new one. *)
Theorem C79_replace_partial g i o c mem x s z : reach g -> g_mut (g_impl g) = true -> in01 o ->
  g_stops (g_impl g) = x ++ s :: z -> Z.of_nat (length x) = i ->
  (* the stop is not at the offset, or it has the same bits and is not the first one of a pair *)
  (nval (fst s) = nval o -> fst s = o /\ forall t z', z = t :: z' -> nval (fst t) <> nval o) ->
  exists g1 g2 g3 o1 o2 o3, remove_stop g i mem = Ok (BL_SUCCESS, g1, o1) /\ add_stop_rgba64 g1 o c mem = Ok (BL_SUCCESS, g2, o2) /\
    replace_stop_rgba64 g i o c mem = Ok (BL_SUCCESS, g3, o3) /\ g_stops (g_impl g3) = g_stops (g_impl g2).
Proof.
  intros R M Io Es Lx Cond. apply reach_inv in R. pose proof R as [A B C D E F H].
  assert (Wi : word i). { unfold word, size_of in *. rewrite Es, app_length in B. cbn [length] in B. lia. }
  destruct (remove_stop_ok g i mem R Wi) as (code & g1 & o1 & E1 & I1 & _ & P). rewrite M in P.
  assert (Sz : size_of (g_impl g) = i + 1 + Z.of_nat (length z)) by (unfold size_of; rewrite Es, app_length; cbn [length]; lia).
  destruct P as [(_ & P & _)|[(_ & _ & P & _)|[(_ & P & _)|(-> & P1 & P2 & P3 & P4 & x' & s' & z' & Es' & Lx' & P5)]]]; try lia; try discriminate.
  rewrite Es in Es'. destruct (app_len_inv _ _ _ _ Es' ltac:(lia)) as [<- Q]. injection Q as <- <-. specialize (P4 eq_refl).
  destruct (add_ok 1 g1 o c mem I1) as (code & g2 & o2 & E2 & I2 & _ & [(-> & _ & Ad & _)|[(_ & Q & _)|(_ & (Q & _) & _)]]); [|contradiction|].
  2: { exfalso. destruct Q as [Q|Q]; [congruence|]. unfold size_of in *. rewrite P5 in Q. rewrite Es in B. rewrite app_length in *. cbn [length] in *. lia. }
  assert (W1 : wf (x ++ z)) by (rewrite <- P5; apply I1). rewrite P5 in Ad.
  destruct (replace_ok g i o c mem R Wi) as (code & g3 & o3 & E3 & I3 & _ & [(_ & Q & _)|[(_ & _ & Q & _)|(x' & s' & z' & Es2 & Lx2 & _ & _ & Q)]]); [lia|congruence|].
  rewrite Es in Es2. destruct (app_len_inv _ _ _ _ Es2 ltac:(lia)) as [<- Q2]. injection Q2 as <- <-.
  destruct Q as [(-> & _ & Q1 & Q2)|[(-> & _ & Q1 & Q2)|(_ & Q1 & _)]]; [| |contradiction].
  - destruct (Cond Q1) as (Cs & Cz). exists g1, g2, g3, o1, o2, o3. split; auto. split; auto. split; auto. rewrite Q2, Cs. rewrite Es in A. eapply added_det; [exact W1| |exact Ad]. apply added_back with s; auto.
  - exists g1, g2, g3, o1, o2, o3. split; auto. split; auto. split; auto. eapply added_det; eauto.
Qed.

Print Assumptions C79_replace_partial.
(* the first stop of a pair keeps its place, while a stop that is added comes second *)
Theorem C79_replace_refuted : exists g g1 g2 g3 o1 o2 o3, reach g /\ g_mut (g_impl g) = true /\ remove_stop g 1 true = Ok (BL_SUCCESS, g1, o1) /\ add_stop_rgba64 g1 half 0 true = Ok (BL_SUCCESS, g2, o2) /\
  replace_stop_rgba64 g 1 half 0 true = Ok (BL_SUCCESS, g3, o3) /\ g_stops (g_impl g3) <> g_stops (g_impl g2).
Proof.
  exists pair_stops. do 6 eexists. split; [apply pair_reach|]. split; [vm_compute; reflexivity|]. split; [vm_compute; reflexivity|]. split; [vm_compute; reflexivity|]. split; [vm_compute; reflexivity|]. vm_compute. discriminate.
Qed.
Print Assumptions C79_replace_refuted.
(* a call that fails removes the stop *)
Theorem C79_failed_refuted : exists g g' old, reach g /\ replace_stop_rgba64 g 1 Dm1 0 true = Ok (BL_ERROR_INVALID_VALUE, g', old) /\ g_stops (g_impl g') <> g_stops (g_impl g).
Proof. exists three_stops. do 2 eexists. split; [apply three_reach|]. split; [vm_compute; reflexivity|]. vm_compute. discriminate. Qed.
Print Assumptions C79_failed_refuted.
Example C79_ex_replace : exists g' old, g_stops (g_impl three_stops) = [(D0, red)] ++ (half, red) :: [(D1, blue)] /\ replace_stop_rgba64 three_stops 1 D1 7 true = Ok (BL_SUCCESS, g', old) /\ g_stops (g_impl g') = [(D0, red); (D1, blue); (D1, 7)].
Proof. do 2 eexists. split; [vm_compute; reflexivity|]. split; vm_compute; reflexivity. Qed.

(* C80: equality of the contents. *)
Lemma stops_eqb_ok a : forall b, stops_eqb a b = true <-> a = b.
Proof.
  induction a as [|(o, c) a IH]; intros [|(p, d) b]; cbn [stops_eqb]; try (split; [discriminate|discriminate]); [split; auto|].
  rewrite !andb_true_iff, !Z.eqb_eq, IH. split; [intros ((-> & ->) & ->); auto|intros E; injection E as -> -> ->; auto].
Qed.
(* g_ref: whether the object has an impl of its own; the values are not compared *)
Theorem C80_equals_partial a b : equals a b = true <->
  g_type a = g_type b /\ g_extend a = g_extend b /\ g_ttype a = g_ttype b /\ g_transform (g_impl a) = g_transform (g_impl b) /\ g_stops (g_impl a) = g_stops (g_impl b) /\ g_ref (g_impl a) = g_ref (g_impl b).
Proof.
  unfold equals. destruct (negb _) eqn:N.
  - split; [discriminate|]. intros (E1 & E2 & E3 & _ & _ & E6). exfalso. rewrite E1, E2, E3, E6, !Z.eqb_refl, Bool.eqb_reflx in N. discriminate.
  - apply negb_false_iff in N. rewrite !andb_true_iff, !Z.eqb_eq, Bool.eqb_true_iff in N. rewrite andb_true_iff, Z.eqb_eq, stops_eqb_ok. tauto.
Qed.
Print Assumptions C80_equals_partial.
(* gradients with different points are equal *)
Theorem C80_values_refuted : exists a b i u v, reach a /\ reach b /\ equals a b = true /\ get_value a i = Ok (Some u) /\ get_value b i = Ok (Some v) /\ u <> v /\ (Z.to_nat i < value_count (g_type a))%nat.
Proof.
  pose (A := match runs default_gradient [Set_value 0 D0] with Some g => g | None => default_gradient end). pose (B := match runs default_gradient [Set_value 0 D1] with Some g => g | None => default_gradient end).
  exists A, B, 0, D0, D1. split; [apply (runs_reach [Set_value 0 D0] default_gradient); [constructor|repeat constructor; vm_compute; congruence|vm_compute; reflexivity]|].
  split; [apply (runs_reach [Set_value 0 D1] default_gradient); [constructor|repeat constructor; vm_compute; congruence|vm_compute; reflexivity]|].
  split; [vm_compute; reflexivity|]. split; [vm_compute; reflexivity|]. split; [vm_compute; reflexivity|]. split; [vm_compute; discriminate|vm_compute; lia].
Qed.
Print Assumptions C80_values_refuted.
(* a default gradient and a gradient without stops that was used before have the same content, but are not equal *)
Theorem C80_default_refuted : exists a, reach a /\ equals a default_gradient = false /\ g_stops (g_impl a) = g_stops (g_impl default_gradient) /\ g_values (g_impl a) = g_values (g_impl default_gradient) /\ rest a = rest default_gradient.
Proof.
  pose (A := match runs default_gradient [Add_stop D0 red; Reset_stops] with Some g => g | None => default_gradient end).
  exists A. split; [apply (runs_reach [Add_stop D0 red; Reset_stops] default_gradient); [constructor|repeat constructor|vm_compute; reflexivity]|]. repeat split; vm_compute; reflexivity.
Qed.
Print Assumptions C80_default_refuted.
Example C80_ex_equal : equals three_stops three_stops = true /\ equals three_stops pair_stops = false.
Proof. split; vm_compute; reflexivity. Qed.

(* C81: solid and opaque. *)
Theorem C81_solid_opaque l : l <> [] -> Forall (fun s : stop => 0 <= snd s < 2 ^ 64) l -> exists solid opaque, gradient_info l = Some (solid, opaque) /\
  (solid = true <-> (forall s t, In s l -> In t l -> color8 (snd s) = color8 (snd t)) \/ (forall s, In s l -> alpha8 (snd s) = 0)) /\
  (opaque = true <-> forall s, In s l -> alpha8 (snd s) = 255).
Proof. apply info_ok. Qed.
Print Assumptions C81_solid_opaque.
Example C81_ex_info : gradient_info [(D0, red); (D1, blue)] = Some (false, true) /\ gradient_info [(D0, 65535); (D1, 255)] = Some (true, false) /\ gradient_info [(D0, red); (half, red)] = Some (true, true).
Proof. vm_compute. auto. Qed.

(* C82: cached tables belong to the current stops; objects that share an impl are not changed. *)
Theorem C82_caches g c : reach g -> In c [g_lut32 (g_impl g); g_lut64 (g_impl g); g_info (g_impl g)] -> c = None \/ c = Some (g_stops (g_impl g)).
Proof. intros R H. apply reach_inv in R. destruct R as [A B C D E F G]. cbn [In] in H. destruct H as [<-|[<-|[<-|[]]]]; auto. Qed.
Print Assumptions C82_caches.
Theorem C82_sharers g o mem code g' old : reach g -> args o -> g_mut (g_impl g) = false -> exec g o mem = Ok (code, g', old) ->
  g_stops old = g_stops (g_impl g) /\ g_values old = g_values (g_impl g) /\ g_transform old = g_transform (g_impl g) /\ g_cap old = g_cap (g_impl g) /\
  forall c, In c [g_lut32 old; g_lut64 old; g_info old] -> c = None \/ c = Some (g_stops (g_impl g)).
Proof.
  intros R A M E. apply reach_inv in R. assert (K : is_ensure o \/ ~ is_ensure o) by (destruct o; cbn; tauto). destruct K as [K|K].
  - destruct (ensure_ok g o mem R K) as (g2 & E2 & I2 & (K1 & K2 & K3) & K4 & _). rewrite E in E2. injection E2 as -> -> ->. unfold rest in K2. split; auto. split; auto. split; [congruence|]. split; auto.
    intros c H. destruct I2 as [_ _ _ _ F1 F2 F3]. rewrite K1 in F1, F2, F3. cbn [In] in H. destruct H as [<-|[<-|[<-|[]]]]; auto.
  - destruct (exec_ok g o mem R A) as [(U & _)|(c2 & g2 & o2 & E2 & _ & O)]; rewrite E in *; [discriminate|]. injection E2 as <- <- <-. specialize (O K M). subst old. repeat (split; auto).
    intros c H. destruct R as [_ _ _ _ F1 F2 F3]. cbn [In] in H. destruct H as [<-|[<-|[<-|[]]]]; auto.
Qed.
Print Assumptions C82_sharers.
Example C82_ex_cache : exists g' old, exec three_stops Ensure_lut32 true = Ok (BL_SUCCESS, g', old) /\ g_lut32 (g_impl g') = Some (g_stops (g_impl three_stops)) /\
  exists g2 old2, exec (shared g' false) (Add_stop half 0) true = Ok (BL_SUCCESS, g2, old2) /\ g_lut32 (g_impl g2) = None /\ g_lut32 old2 = Some (g_stops (g_impl three_stops)).
Proof. do 2 eexists. split; [vm_compute; reflexivity|]. split; [vm_compute; reflexivity|]. do 2 eexists. split; [vm_compute; reflexivity|]. split; vm_compute; reflexivity. Qed.

(* C83: no call reads or writes outside of the arrays. *)
Theorem C83_safe_partial g o mem : reach g -> args o ->
  (forall n, o = Reserve n -> n < 2 ^ 60 - 9 /\ Z.of_nat (length (g_stops (g_impl g))) <= Z.max n 2) ->
  exists code g' old, exec g o mem = Ok (code, g', old).
Proof.
  intros R A S. apply reach_inv in R. destruct (exec_ok g o mem R A) as [(_ & U)|(c & g2 & o2 & E2 & _)]; [|eauto]. exfalso. apply U. destruct o; cbn [safe]; auto.
Qed.
Print Assumptions C83_safe_partial.
Theorem C83_reserve_partial g n mem : reach g -> 0 <= n < 2 ^ 60 - 9 -> Z.of_nat (length (g_stops (g_impl g))) <= Z.max n 2 -> exists code g' old, reserve g n mem = Ok (code, g', old) /\
  g_stops (g_impl g') = g_stops (g_impl g) /\ ((code = BL_SUCCESS /\ n <= g_cap (g_impl g')) \/ (code = BL_ERROR_OUT_OF_MEMORY /\ (mem = false \/ 2 ^ 58 <= n) /\ g' = g)).
Proof.
  intros R N S. apply reach_inv in R. destruct (reserve_ok g n mem R ltac:(lia)) as [(_ & U)|(code & g' & old & E & _ & _ & (K & _) & P)]; [exfalso; apply U; split; [lia|exact S]|].
  exists code, g', old. split; auto. split; auto. destruct P as [(A & B)|P]; auto. left. split; auto. apply B. lia.
Qed.
Print Assumptions C83_reserve_partial.
Theorem C83_reserve_refuted : exists g n, reach g /\ word n /\ reserve g n true = UB.
Proof. exists (shared three_stops false), 1. split; [constructor; apply three_reach|]. split; [unfold word; lia|vm_compute; reflexivity]. Qed.
Print Assumptions C83_reserve_refuted.
Theorem C83_capacity_refuted : exists g n g' old, reach g /\ word n /\ reserve g n true = Ok (BL_SUCCESS, g', old) /\ g_cap (g_impl g') < n.
Proof.
  pose (im := alloc_gimpl 176 no_values 6 no_matrix). exists default_gradient, (2 ^ 60), (with_impl default_gradient im), (g_impl default_gradient). split; [apply reach_init|]. split; [unfold word; lia|]. split; vm_compute; reflexivity.
Qed.
Print Assumptions C83_capacity_refuted.
Example C83_ex_reserve : exists g' old, reserve (shared three_stops false) 10 true = Ok (BL_SUCCESS, g', old) /\ g_cap (g_impl g') = 10.
Proof. do 2 eexists. split; vm_compute; reflexivity. Qed.

(* C84: calls on the stops leave everything else alone. *)
Definition on_stops (o : gop) : Prop := match o with Create _ _ _ _ _ | Set_type _ | Set_extend _ | Set_value _ _ => False | _ => True end.
Theorem C84_rest_partial g o mem code g' old : reach g -> args o -> on_stops o -> exec g o mem = Ok (code, g', old) ->
  g_type g' = g_type g /\ g_extend g' = g_extend g /\ g_ttype g' = g_ttype g /\ g_transform (g_impl g') = g_transform (g_impl g) /\
  firstn (value_count (g_type g)) (g_values (g_impl g')) = firstn (value_count (g_type g)) (g_values (g_impl g)).
Proof.
  intros R A O E. apply reach_inv in R. assert (K : rest g' = rest g /\ firstn (value_count (g_type g)) (g_values (g_impl g')) = firstn (value_count (g_type g)) (g_values (g_impl g))).
  { destruct o; cbn [on_stops args exec] in *; try contradiction.
    - destruct (shrink_ok g mem R) as (c1 & g1 & o1 & E1 & _ & _ & (_ & K1 & K2) & _). rewrite E in E1. injection E1 as <- <- <-. rewrite K2. auto.
    - destruct (reserve_ok g n mem R A) as [(U & _)|(c1 & g1 & o1 & E1 & _ & _ & (_ & K1 & K2) & _)]; rewrite E in *; [discriminate|]. injection E1 as <- <- <-. rewrite K2. auto.
    - destruct (reset_stops_ok g mem R) as (c1 & g1 & o1 & E1 & _ & _ & [(_ & _ & K1 & K2)|(_ & _ & K)]); rewrite E in E1; injection E1 as <- <- <-; [rewrite K2|rewrite K]; auto.
    - destruct (assign_stops_ok g l mem R A) as (c1 & g1 & o1 & E1 & _ & _ & [(_ & _ & _ & K1 & K2)|[(_ & _ & K)|(_ & _ & K)]]); rewrite E in E1; injection E1 as <- <- <-; [rewrite K2|rewrite K|rewrite K]; auto.
    - destruct (add_ok 1 g o c mem R) as (c1 & g1 & o1 & E1 & _ & _ & [(_ & _ & _ & K)|[(_ & _ & K)|(_ & _ & K)]]); unfold add_stop_rgba64 in E; rewrite E in E1; injection E1 as <- <- <-; [auto|rewrite K; auto|rewrite K; auto].
    - destruct (remove_stop_ok g i mem R A) as (c1 & g1 & o1 & E1 & _ & _ & [(_ & _ & K)|[(_ & _ & _ & K)|[(_ & _ & K)|(_ & K1 & K2 & _)]]]); rewrite E in E1; injection E1 as <- <- <-; [rewrite K|rewrite K|rewrite K|rewrite K2]; auto.
    - destruct (remove_by_offset_ok g o all mem R) as (c1 & g1 & o1 & E1 & _ & _ & [(_ & _ & K)|[(_ & _ & _ & K)|(_ & _ & K1 & K2 & _)]]); rewrite E in E1; injection E1 as <- <- <-; [rewrite K|rewrite K|rewrite K2]; auto.
    - destruct A as ((A1 & _) & (A2 & _)). destruct (remove_ok g a b mem R A1 A2) as (c1 & g1 & o1 & E1 & _ & _ & [(_ & _ & K)|[(_ & _ & _ & K)|[(_ & _ & K)|(_ & _ & K1 & K2 & _)]]]); rewrite E in E1; injection E1 as <- <- <-; [rewrite K|rewrite K|rewrite K|rewrite K2]; auto.
    - destruct (remove_interval_ok g a b mem R) as (c1 & g1 & o1 & E1 & _ & _ & [(_ & _ & K)|[(_ & _ & _ & K)|(_ & _ & K1 & K2 & _)]]); rewrite E in E1; injection E1 as <- <- <-; [rewrite K|rewrite K|rewrite K2]; auto.
    - destruct (replace_ok g i o c mem R A) as (c1 & g1 & o1 & E1 & _ & _ & [(_ & _ & K)|[(_ & _ & _ & K)|(x & s & z & _ & _ & K1 & K2 & _)]]); rewrite E in E1; injection E1 as <- <- <-; [rewrite K|rewrite K|]; auto.
    - destruct (ensure_ok g Ensure_info mem R Logic.I) as (g2 & E2 & _ & (_ & K2 & K3) & _). cbn [exec] in E2. rewrite E in E2. injection E2 as -> <- ->. rewrite K3. auto.
    - destruct (ensure_ok g Ensure_lut32 mem R Logic.I) as (g2 & E2 & _ & (_ & K2 & K3) & _). cbn [exec] in E2. rewrite E in E2. injection E2 as -> <- ->. rewrite K3. auto.
    - destruct (ensure_ok g Ensure_lut64 mem R Logic.I) as (g2 & E2 & _ & (_ & K2 & K3) & _). cbn [exec] in E2. rewrite E in E2. injection E2 as -> <- ->. rewrite K3. auto. }
  destruct K as (K1 & K2). unfold rest in K1. injection K1 as -> -> -> ->. auto.
Qed.
Print Assumptions C84_rest_partial.
(* the values above those of the current type are cleared when a shared object is copied: replacing a color loses the radius of a gradient whose type was changed for a while *)
Definition radius_ops : list gop := [Create 1 (Some [D0; D0; D1; D1; half; half]) 0 [(D0, red); (D1, blue)] None; Set_type 0].
Definition radius : grad := match runs default_gradient radius_ops with Some g => g | None => default_gradient end.
Theorem C84_values_refuted : exists g g' old, reach g /\ exec g (Replace_stop 0 D0 blue) true = Ok (BL_SUCCESS, g', old) /\ get_value g 4 = Ok (Some half) /\ get_value g' 4 = Ok (Some 0).
Proof.
  exists (shared radius false). do 2 eexists. split; [|split; [vm_compute; reflexivity|split; vm_compute; reflexivity]]. constructor. apply (runs_reach radius_ops default_gradient); [constructor| |vm_compute; reflexivity].
  constructor; [|repeat constructor; vm_compute; congruence]. cbn [args]. split; [lia|]. split; [lia|]. split; [vm_compute; reflexivity|]. intros w E. injection E as <-. reflexivity.
Qed.
Print Assumptions C84_values_refuted.
Example C84_ex_values : exists g' old, exec radius (Replace_stop 0 D0 blue) true = Ok (BL_SUCCESS, g', old) /\ g_values (g_impl g') = [D0; D0; D1; D1; half; half].
Proof. do 2 eexists. split; vm_compute; reflexivity. Qed.
