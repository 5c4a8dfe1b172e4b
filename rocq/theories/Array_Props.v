(* C24, C25: BLArray. *)
From Verif Require Import Base Bits Algorithm_Model Object_Model Object_Spec Object_Proofs
  BitArray_Model BitArray_Spec Handle_Client Handle_Proofs Array_Model Array_Spec Array_Proofs Array_Proofs2 Array_Proofs7.

Lemma okI_ex w size cap c : (0 <=? size) && (size <=? cap) && (cap <=? len c) && (cap * w <=? max_bytes) = true ->
  forallb (fun x => match x with Some _ => true | None => false end) (firstn (Z.to_nat size) c) = true -> arr_okI w size cap c.
Proof.
  intros A B. apply andb_true_iff in A. destruct A as [A A1]. apply andb_true_iff in A. destruct A as [A A2].
  apply andb_true_iff in A. destruct A as [A3 A4]. split; [lia|]. split; [lia|]. split; [lia|]. intros i I. unfold len in *.
  destruct (nth_error c (Z.to_nat i)) as [[v|]|] eqn:N; [eauto| |apply nth_error_None in N; lia].
  rewrite forallb_forall in B. discriminate (B None). apply nth_error_In with (Z.to_nat i).
  rewrite <- N. rewrite <- (firstn_skipn (Z.to_nat size) c) at 2. rewrite nth_error_app1; auto. rewrite firstn_length. lia.
Qed.

(* ---- C24 ---- *)

(* resize(2^61, NULL) on an array of 8 byte items reports success: the size computation wraps and the array now claims 2^61 items
   while no item has storage. *)
Theorem C24_resize_overflow_refuted : exists n h o c, aop_valid 8 [] (arr_init 8) (AResize n None) /\
  arr_resize 8 true [] (arr_init 8) n None = Ok (BL_SUCCESS, h, o) /\ get_size h o = Ok n /\ block h o (own_loc o) = Ok c /\ len c < n.
Proof.
  exists (2 ^ 61). eexists _, _, _. split; [cbn; lia|]. split; [vm_compute; reflexivity|]. split; [vm_compute; reflexivity|].
  split; [vm_compute; reflexivity|]. vm_compute. reflexivity.
Qed.
Print Assumptions C24_resize_overflow_refuted.

(* resize with a fill value inside of the array reads the value after its storage has been freed *)
Theorem C24_resize_alias_refuted : exists h o n i, arr_wf 4 h [o] /\ aop_valid 4 h o (AResize n (Some (SIn i))) /\
  arr_resize 4 true h o n (Some (SIn i)) = UB.
Proof.
  exists [Some (Impl 1 1 4 4 [Some 1; Some 2; Some 3; Some 4])], (Dyn 0), 8, 0. split.
  { split; [repeat constructor|]. intros p. destruct p as [|p]; cbn [nth_error].
    - cbn [isize icap mem base rc]. split; [|vm_compute; auto]. apply okI_ex; reflexivity.
    - destruct p; reflexivity. }
  split. { split; [lia|]. split; [lia|]. vm_compute. split; discriminate. }
  vm_compute. reflexivity.
Qed.
Print Assumptions C24_resize_alias_refuted.

(* Programs of any length over any number of arrays with items of any size: copies, moves, assignments, destructions and calls.
   The codes and the contents are those of independent lists, sizes are right, two arrays are reported equal exactly when their
   contents are equal, and no storage is left when no handle is left. What [arr_run_safe] excludes: resize beyond 2^64 bytes
   and from a fill value inside of the array unless it stays in place, and the faulty calls of C25. *)
Theorem C24_array_programs_partial : forall w p, 1 <= w <= 32 -> arr_run_safe w [] [] p ->
  exists codes h os, arr_run w [] [] p = Ok (codes, h, os) /\ arr_run_ok w [] p codes (map (arr_value h) os) /\
    (forall x, In x os -> get_size h x = Ok (len (arr_value h x))) /\
    (forall x i v, In x os -> nth_error (arr_value h x) i = Some v -> exists c, block h x (own_loc x) = Ok c /\ rdc c (Z.of_nat i) = Ok v) /\
    (forall x y, In x os -> In y os -> exists r, arr_equals h x y = Ok r /\ (r = true <-> arr_value h x = arr_value h y)) /\
    (os = [] -> forall q im, nth_error h q <> Some (Some im)).
Proof.
  intros w p Hw S0. destruct (arr_refines w Hw p [] [] (wf_empty_heap _ _) S0) as (codes & h & os & E & W & R). exists codes, h, os.
  split; auto. split; auto. split; [|split; [|split]].
  - intros x I. destruct (view_in w Hw h os x W I) as (size & cap & mut & c & VW). rewrite (v_len _ _ _ _ _ _ _ _ VW). exact (v_size _ _ _ _ _ _ _ _ VW).
  - intros x i v I N. destruct (view_in w Hw h os x W I) as (size & cap & mut & c & VW). exists c. split; [exact (v_block _ _ _ _ _ _ _ _ VW)|].
    apply rdc_some; [lia|]. rewrite Nat2Z.id, (v_rep _ _ _ _ _ _ _ _ VW); [now rewrite N|]. apply nth_error_Some. congruence.
  - intros x y Ix Iy. exact (equals_ok w Hw h os x y W Ix Iy).
  - intros -> q im Q. destruct W as [_ W]. specialize (W q). rewrite Q in W. rewrite refs_nil in W. lia.
Qed.
Print Assumptions C24_array_programs_partial.

Definition ex24 : list (bool * hcall (OP := aop) (OP2 := aop2)) :=
  [(true, HInit); (true, HOp 0 (AAppendData (SExt 1000 [1; 2; 3]) 3)); (true, HInitWeak 0); (true, HOp 0 (AAppendItem (SIn 1)));
   (true, HInitWeak 0); (true, HOp 2 (AInsertData 1 (SIn 0) 4)); (true, HOp 2 (AInsertData 3 (SIn 2) 3)); (true, HOp 0 (ARemoveIndex 0));
   (false, HOp 1 (AInsertValue 0 7)); (true, HOp 1 (AReplaceValue 2 9 1000)); (true, HOp 0 (AResize 6 None));
   (true, HAssignWeak 1 0); (true, HOp 1 (AShrink false)); (true, HOp 0 AMakeMutable); (true, HOp 0 AClear); (true, HDestroy 0)].
Ltac safe24 := cbn [nth_error aop_safe src_valid aop2_safe]; vm_compute; repeat split; try discriminate; try (left; discriminate); try (right; discriminate); auto.
Example C24_ex_safe : arr_run_safe 4 [] [] ex24.
Proof.
  unfold arr_run_safe, ex24.
  repeat (cbn [hrun_safe]; split;
    [cbn [hcall_safe]; first [exact I | (vm_compute; repeat split; repeat constructor; fail) | (eexists; split; [vm_compute; reflexivity|safe24])]
    |match goal with |- match ?c with _ => _ end => let v := eval vm_compute in c in change c with v end; cbv iota beta]).
  exact I.
Qed.
Example C24_ex : exists h os, arr_run 4 [] [] ex24 = Ok ([0; 0; 0; 0; 0; 0; 0; 0; 0x10000; 0; 0; 0; 0; 0; 0; 0], h, os) /\
  map (arr_value h) os = [[2; 3; 2; 0; 0; 0]; [1; 1; 2; 2; 3; 2; 3; 2; 2; 3; 2]].
Proof. eexists _, _. split; vm_compute; reflexivity. Qed.

(* ---- C25 ---- *)

(* assigning 100 items to an empty array writes behind the new storage: its size is computed from the old size *)
Theorem C25_assign_data_refuted : exists s n, aop_valid 4 [] (arr_init 4) (AAssignData s n) /\ arr_assign_data 4 true [] (arr_init 4) s n = UB.
Proof.
  exists (SExt 1000 (repeat 7 100)), 100. split; [|vm_compute; reflexivity].
  split; [lia|]. vm_compute. repeat split; try discriminate. right. discriminate.
Qed.
Print Assumptions C25_assign_data_refuted.

Definition d6 : heap := [Some (Impl 1 1 5 8 [Some 1; Some 2; Some 3; Some 4; Some 5; None; None; None])].
Lemma d6_wf : arr_wf 4 d6 [Dyn 0].
Proof.
  split; [repeat constructor|]. intros p. destruct p as [|p]; cbn [nth_error d6].
  - cbn [isize icap mem base rc]. split; [|vm_compute; auto]. apply okI_ex; reflexivity.
  - destruct p; reflexivity.
Qed.
(* replacing two of five items by one: the items behind the range do not move, one of them is lost and a replaced one stays *)
Theorem C25_replace_data_refuted : exists h o a b s n h' o', arr_wf 4 h [o] /\ aop_valid 4 h o (AReplaceData a b s n) /\
  arr_replace_data 4 true h o a b s n = Ok (BL_SUCCESS, h', o') /\ ~ aop_ok 4 true (arr_value h o) (AReplaceData a b s n) BL_SUCCESS (arr_value h' o').
Proof.
  exists d6, (Dyn 0), 0, 2, (SExt 1000 [9]), 1. eexists _, _. split; [apply d6_wf|]. split.
  { split; [lia|]. split; [lia|]. vm_compute. repeat split; try discriminate. right. discriminate. }
  split; [vm_compute; reflexivity|]. intros [Q|(Q & E & _)]; vm_compute in Q.
  - discriminate.
  - discriminate E.
Qed.
Print Assumptions C25_replace_data_refuted.
(* replacing the last item by many writes behind the storage: the capacity is not checked *)
Theorem C25_replace_capacity_refuted : exists h o a b s n, arr_wf 4 h [o] /\ aop_valid 4 h o (AReplaceData a b s n) /\
  arr_replace_data 4 true h o a b s n = UB.
Proof.
  exists d6, (Dyn 0), 4, 5, (SExt 1000 (repeat 9 100)), 100. split; [apply d6_wf|]. split; [|vm_compute; reflexivity].
  split; [lia|]. split; [lia|]. vm_compute. repeat split; try discriminate. right. discriminate.
Qed.
Print Assumptions C25_replace_capacity_refuted.
(* a source inside of the array is taken for a disjoint one (bytes and items are mixed up): memcpy of overlapping items *)
Theorem C25_replace_overlap_refuted : exists h o a b i n, arr_wf 4 h [o] /\ aop_valid 4 h o (AReplaceData a b (SIn i) n) /\
  arr_replace_data 4 true h o a b (SIn i) n = UB.
Proof.
  exists d6, (Dyn 0), 2, 4, 3, 2. split; [apply d6_wf|]. split; [|vm_compute; reflexivity].
  split; [lia|]. split; [lia|]. vm_compute. repeat split; discriminate.
Qed.
Print Assumptions C25_replace_overlap_refuted.

(* In place, and when no more items are assigned than the array already has, assign_data is right - also from a part of the array
   itself; replace_data is right for an empty range, for a shared array, when the source pointer sends it to the copying path,
   and when no item behind the range has to move and the result fits. No other handle is affected. *)
Theorem C25_bulk_partial : forall w m h o os b, 1 <= w <= 32 -> arr_wf w h (o :: os) -> aop_safe w h o b ->
  match b with AAssignData _ _ | AReplaceData _ _ _ _ => True | _ => False end ->
  exists code h' o', run_aop w m h o b = Ok (code, h', o') /\ arr_wf w h' (o' :: os) /\
    (forall x, In x os -> arr_value h' x = arr_value h x) /\ aop_ok w m (arr_value h o) b code (arr_value h' o').
Proof. intros w m h o os b Hw W S0 _. exact (Array_Proofs6.aop_step w Hw m h os o b W S0). Qed.
Print Assumptions C25_bulk_partial.
Example C25_ex : aop_safe 4 d6 (Dyn 0) (AAssignData (SIn 1) 3) /\ aop_safe 4 d6 (Dyn 0) (AReplaceData 3 9 (SExt 1000 [7; 8; 9; 10; 11]) 5) /\
  (exists h', run_aop 4 true d6 (Dyn 0) (AAssignData (SIn 1) 3) = Ok (0, h', Dyn 0) /\ arr_value h' (Dyn 0) = [2; 3; 4]) /\
  (exists h', run_aop 4 true d6 (Dyn 0) (AReplaceData 3 9 (SExt 1000 [7; 8; 9; 10; 11]) 5) = Ok (0, h', Dyn 0) /\ arr_value h' (Dyn 0) = [1; 2; 3; 7; 8; 9; 10; 11]).
Proof.
  split; [|split; [|split]].
  - vm_compute. repeat split; try discriminate. left. split; auto. discriminate.
  - vm_compute. repeat split; try discriminate. { right. discriminate. } right. right. right. split; auto. right. split; auto. discriminate.
  - eexists. split; vm_compute; reflexivity.
  - eexists. split; vm_compute; reflexivity.
Qed.

(* A successful reserve leaves the array with storage of its own that has room for [n] items. *)
Lemma lor_mask_le n mut cap : 0 <= n -> cap < 2 ^ 63 -> Z.lor n (immutable_msk mut) <= cap -> mut = true /\ n <= cap.
Proof.
  intros N C. destruct mut.
  - change (immutable_msk true) with 0. rewrite Z.lor_0_r. auto.
  - change (immutable_msk false) with (2 ^ 64 - 1). intros L. pose proof (Z.lor_nonneg n (2 ^ 64 - 1)) as P.
    assert (A : Z.land (Z.lor n (2 ^ 64 - 1)) (2 ^ 64 - 1) = 2 ^ 64 - 1).
    { apply Z.bits_inj'. intros i _. rewrite Z.land_spec, Z.lor_spec. destruct (Z.testbit n i), (Z.testbit (2 ^ 64 - 1) i); reflexivity. }
    pose proof (land_bound (Z.lor n (2 ^ 64 - 1)) (2 ^ 64 - 1) 63 ltac:(lia) ltac:(split; [apply P|]; lia)) as Q. rewrite A in Q. lia.
Qed.
Theorem C24_reserve : forall w m h os o n h' o', 1 <= w <= 32 -> arr_wf w h os -> In o os -> 0 <= n < 2 ^ 64 ->
  arr_reserve w m h o n = Ok (BL_SUCCESS, h', o') -> amutable h' o' /\ n <= acapacity w h' o'.
Proof.
  intros w m h os o n h' o' Hw W I N E. destruct (view_in w Hw h os o W I) as (size & cap & mut & c & VW).
  unfold arr_reserve in E. rewrite (v_unpack _ _ _ _ _ _ _ _ VW), (v_mut _ _ _ _ _ _ _ _ VW) in E. cbn [bind] in E.
  pose proof (v_bytes _ _ _ _ _ _ _ _ VW) as Bc. pose proof (v_cap _ _ _ _ _ _ _ _ VW) as Bs. pose proof (v_len _ _ _ _ _ _ _ _ VW) as Bl. unfold max_bytes, len in *.
  assert (Cb : cap < 2 ^ 63) by nia.
  destruct (Z.leb_spec (Z.lor n (immutable_msk mut)) cap) as [L|L].
  { injection E as <- <-. rewrite (v_acap _ _ _ _ _ _ _ _ VW), (v_amut _ _ _ _ _ _ _ _ VW). apply (lor_mask_le n mut cap); lia. }
  destruct (Z.ltb_spec (maximum_capacity w) n) as [MC|MC]; [discriminate|].
  destruct (Z.leb_spec (Z.max n size) (sso_capacity w)) as [K|K].
  { destruct (block h o (own_loc o)) as [src| | |]; cbn [bind] in E; try discriminate.
    destruct (copy_cells _ _ _ _ _) as [d1| | |]; cbn [bind] in E; try discriminate. unfold replace_instance in E.
    destruct (release h o) as [h1| | |]; cbn [bind] in E; try discriminate. injection E as <- <-. cbn [amutable acapacity].
    split; [exact Logic.I|]. unfold sso_capacity, kStaticDataSize in K. lia. }
  assert (NB : n * w <= 2 ^ 63 - 4121).
  { unfold maximum_capacity, BL_OBJECT_IMPL_MAX_SIZE, sizeof_BLArrayImpl in MC. change ((2 ^ 64 - 1) / 2 - 4096 - 24) with (2 ^ 63 - 4121) in MC.
    pose proof (Z.mul_div_le (2 ^ 63 - 4121) w ltac:(lia)). nia. }
  assert (SB : Z.max n size * w <= 2 ^ 63). { destruct (Z.max_spec n size) as [(_ & ->)|(_ & ->)]; nia. }
  rewrite impl_size_ok in E by lia. unfold realloc_to_dynamic in E.
  rewrite (v_size _ _ _ _ _ _ _ _ VW) in E. cbn [bind] in E. unfold init_dynamic, alloc_impl in E. destruct (m && _); [|discriminate].
  set (cp := capacity_from_impl_size w (24 + Z.max n size * w)) in E.
  assert (CP : n <= cp).
  { unfold cp, capacity_from_impl_size, sizeof_BLArrayImpl. rewrite (Array_Proofs2.w64_small) by lia. replace (24 + Z.max n size * w - 24) with (Z.max n size * w) by lia.
    rewrite Z.div_mul by lia. lia. }
  unfold block at 1 in E. cbn [own_loc] in E. unfold get_impl at 1 in E. rewrite nth_snoc, Nat.eqb_refl in E. cbn [bind] in E.
  destruct (block _ o (own_loc o)) as [src| | |]; cbn [bind] in E; try discriminate.
  destruct (copy_cells _ _ _ _ _) as [d1| | |]; cbn [bind] in E; try discriminate.
  unfold store in E. unfold get_impl at 1 in E. rewrite nth_snoc, Nat.eqb_refl in E. cbn [bind] in E.
  set (h2 := put_impl _ _ _) in E.
  assert (G : nth_error h2 (length h) = Some (Some (Impl 1 1 size cp d1))).
  { unfold h2, put_impl. rewrite nth_upd_eq by (rewrite app_length; cbn; lia). reflexivity. }
  assert (P : forall p, o = Dyn p -> p <> length h).
  { intros p Eo. pose proof (v_kind _ _ _ _ _ _ _ _ VW) as K2. rewrite Eo in K2. destruct K2 as (im & Im & _). intros ->.
    assert (nth_error h (length h) = None) by (apply nth_error_None; lia). congruence. }
  assert (Q : nth_error h' (length h) = nth_error h2 (length h) /\ o' = Dyn (length h)).
  { destruct o as [s0 c0|p].
    - cbn [is_instance_dynamic_and_mutable bind] in E. unfold replace_instance in E. cbn [release bind] in E. injection E as <- <-. auto.
    - specialize (P p eq_refl). cbn [is_instance_dynamic_and_mutable] in E. destruct (get_impl h2 p) as [im| | |] eqn:G2; cbn [bind] in E; try discriminate.
      unfold replace_instance in E. destruct (is_impl_mutable im).
      + cbn [set_size] in E. rewrite G2 in E. cbn [bind release] in E. destruct (get_impl (put_impl _ _ _) p) as [im2| | |]; cbn [bind] in E; try discriminate.
        destruct (_ =? _); cbn [bind] in E; injection E as <- <-; unfold put_impl; rewrite !nth_upd_neq by exact P; auto.
      + cbn [bind release] in E. rewrite G2 in E. cbn [bind] in E.
        destruct (_ =? _); cbn [bind] in E; injection E as <- <-; unfold put_impl; rewrite !nth_upd_neq by exact P; auto. }
  destruct Q as [Q ->]. unfold amutable, acapacity. rewrite Q, G. cbn [rc icap]. split; [reflexivity|exact CP].
Qed.
Print Assumptions C24_reserve.
Example C24_reserve_ex : arr_wf 4 d6 [Dyn 0] /\ exists h' o', arr_reserve 4 true d6 (Dyn 0) 50 = Ok (BL_SUCCESS, h', o') /\ o' = Dyn 1 /\ acapacity 4 h' o' = 50.
Proof. split; [apply d6_wf|]. eexists _, _. vm_compute. auto. Qed.
