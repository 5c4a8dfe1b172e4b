(* clear, resize, reserve, shrink, replace_op, assign_words. *)
From Verif Require Import Base Bits IntOps_Model IntOps_Spec IntOps_Proofs Algorithm_Model Object_Model Object_Spec Object_Proofs
  Object_Proofs2 BitArray_Model BitArray_Spec BitArray_Proofs BitArray_Proofs2 BitArray_Proofs3 BitArray_Proofs4.

Lemma zeros3_ok size : 0 <= size <= 96 -> ba_okS size (repeat (Some 0) 3).
Proof.
  intros S1. split; auto. split; auto. split.
  - intros i I. exists 0. assert (i = 0 \/ i = 1 \/ i = 2) as [->|[->| ->]] by lia; cbn; split; auto; lia.
  - intros i I. unfold cbit. assert (0 <= i / 32 < 3) as J by lia.
    assert (i / 32 = 0 \/ i / 32 = 1 \/ i / 32 = 2) as [->|[->| ->]] by lia; cbn [Z.to_nat repeat nth_error Pos.to_nat Pos.iter_op Init.Nat.add]; apply Z.testbit_0_l.
Qed.
Lemma zeros3_bit j : cbit (repeat (Some 0) 3) j = false.
Proof.
  unfold cbit. destruct (Z.to_nat (j / 32)) as [|[|[|k]]]; cbn [repeat nth_error]; try apply Z.testbit_0_l. now destruct k.
Qed.
Lemma zeros3_view n : view n (repeat (Some 0) 3) = repeat false (Z.to_nat n).
Proof.
  apply bool_list_ext. - now rewrite view_length, repeat_length.
  - intros i. rewrite bit_at_repeat_false. destruct (Z.lt_ge_cases i 0). { apply bit_at_out; auto. }
    destruct (Z.lt_ge_cases i n). + rewrite bit_at_view by lia. apply zeros3_bit.
    + apply bit_at_out. right. unfold len. rewrite view_length. lia.
Qed.

Lemma step_release_sso h os p size c (P : Z -> list bool -> Prop) : ba_wf h (Dyn p :: os) -> ba_okS size c -> P BL_SUCCESS (view size c) ->
  step h os (let* h' := release h (Dyn p) in Ok (BL_SUCCESS, h', Sso size c)) P.
Proof.
  intros W K HP. pose proof (step_to_sso h os (Dyn p) size c P W K HP) as ST. unfold replace_instance in ST.
  destruct (release h (Dyn p)); exact ST.
Qed.

Lemma clear_step h os o : ba_wf h (o :: os) -> step h os (ba_clear h o) (fun code l => code = BL_SUCCESS /\ l = []).
Proof.
  intros W. destruct o as [s c|p]; cbn [ba_clear].
  - unfold init_sso. eapply step_sso; eauto. apply zeros3_ok. lia.
  - destruct (wf_get _ _ _ _ _ W) as (im & E & G & OK & HB & HR). pose proof OK as (S1 & S2 & S3 & K & Zt). rewrite G. cbn [bind].
    destruct (is_impl_mutable im) eqn:MU.
    + apply step_upd; auto. { unfold is_impl_mutable in MU. lia. } { lia. }
      split; [lia|]. split; [lia|]. split; [lia|]. split; intros j J; lia.
    + apply step_release_sso; auto. apply zeros3_ok. lia.
Qed.

(* ---- resize ---- *)
Definition resize_safe (h : heap) (o : obj) (n : Z) : Prop :=
  n <= 96 \/ n <= 32 * ((len (ba_value h o) + 31) / 32) \/
  match o with Sso _ _ => False
  | Dyn p => exclusive h o /\ match nth_error h p with Some (Some im) => n <= icap im | _ => False end end.

Lemma mask_word c N i n : words_ok c N -> 0 <= i < N -> 1 <= n <= 32 ->
  exists w k c', rdc c i = Ok w /\ non_zero_start_mask n = Ok k /\ wrc c i (Z.land w k) = Ok c' /\
    length c' = length c /\ words_ok c' N /\
    forall j, 0 <= j -> cbit c' j = if (32 * i + n <=? j) && (j <? 32 * (i + 1)) then false else cbit c j.
Proof.
  intros K I N1. destruct (msb_mask_ok n N1) as (k & Ek & Wk & Bk).
  destruct (rmw_ok c N i (fun a => Z.land a k) (fun x q => x && (q <? n)) K I) as (w & c' & E & Ww & E' & L & K' & B).
  { intros a Wa. now apply word_land. }
  { intros a q Wa Q. rewrite wbit_land, Bk by auto. reflexivity. }
  exists w, k, c'. unfold non_zero_start_mask. sp. intros j J. rewrite B by auto.
  destruct (Z.eqb_spec (j / 32) i) as [Q|Q].
  - replace (j <? 32 * (i + 1)) with true by lia. rewrite andb_true_r.
    replace (32 * i + n <=? j) with (negb (j mod 32 <? n)) by lia. destruct (j mod 32 <? n); cbn [negb]; auto using andb_true_r, andb_false_r.
  - replace ((32 * i + n <=? j) && (j <? 32 * (i + 1))) with false by lia. reflexivity.
Qed.

Lemma resize_copy d0 c size n N : words_ok c N -> (size + 31) / 32 <= N -> 0 <= size -> 0 <= n -> (n + 31) / 32 <= len d0 ->
  exists d, (let* d := copy_cells (Z.to_nat ((Z.min n size + 31) / 32)) d0 0 c 0 in
             if Z.min n size mod 32 =? 0 then Ok d
             else let* w := rdc d ((Z.min n size + 31) / 32 - 1) in
                  let* k := non_zero_start_mask (Z.min n size mod 32) in
                  wrc d ((Z.min n size + 31) / 32 - 1) (Z.land w k)) = Ok d /\
    length d = length d0 /\ words_ok d ((Z.min n size + 31) / 32) /\ (forall k, words_ok d0 k -> words_ok d k) /\
    forall j, 0 <= j -> cbit d j = if j <? 32 * ((Z.min n size + 31) / 32) then (j <? Z.min n size) && cbit c j else cbit d0 j.
Proof.
  intros K LN S0 N0 LD. set (b := Z.min n size). assert (HB : 0 <= b /\ b <= size /\ b <= n) by (subst b; lia). clearbody b.
  destruct (copy0_ok d0 c ((b + 31) / 32)) as (d1 & E1 & L1 & K1 & M1 & B1). { lia. } { eapply words_ok_le; eauto. lia. }
  rewrite E1. cbn [bind].
  destruct (Z.eqb_spec (b mod 32) 0) as [Q|Q].
  - exists d1. sp. intros j J. rewrite B1 by auto. destruct (Z.ltb_spec j (32 * ((b + 31) / 32))); auto.
    now replace (j <? b) with true by lia.
  - destruct (mask_word d1 ((b + 31) / 32) ((b + 31) / 32 - 1) (b mod 32) K1) as (w & k & d2 & Ew & Ek & E2 & L2 & K2 & B2); [lia|lia|].
    rewrite Ew. cbn [bind]. rewrite Ek. cbn [bind]. rewrite E2. exists d2. split; [reflexivity|]. split; [congruence|]. split; [auto|]. split.
    + intros q Kq. destruct (Z.le_gt_cases q ((b + 31) / 32)). { eapply words_ok_le; eauto. }
      destruct (mask_word d1 q ((b + 31) / 32 - 1) (b mod 32) (M1 _ Kq)) as (w' & k' & d2' & Ew' & Ek' & E2' & L2' & K2' & B2'); [lia|lia|].
      assert (d2' = d2) as <- by congruence. exact K2'.
    + intros j J. rewrite B2, B1 by auto. destruct (Z.ltb_spec j (32 * ((b + 31) / 32))).
      * destruct (Z.ltb_spec j b).
        -- replace ((32 * ((b + 31) / 32 - 1) + b mod 32 <=? j) && (j <? 32 * ((b + 31) / 32 - 1 + 1))) with false by lia. reflexivity.
        -- replace ((32 * ((b + 31) / 32 - 1) + b mod 32 <=? j) && (j <? 32 * ((b + 31) / 32 - 1 + 1))) with true by lia. reflexivity.
      * replace ((32 * ((b + 31) / 32 - 1) + b mod 32 <=? j) && (j <? 32 * ((b + 31) / 32 - 1 + 1))) with false by lia. reflexivity.
Qed.

Lemma resize_realloc_step (m : bool) h os o c size N n : ba_wf h (o :: os) -> ba_value h o = view size c ->
  words_ok c N -> zero_tail c size N -> (size + 31) / 32 <= N -> 0 <= size < 2 ^ 32 -> 0 <= n <= UINT32_MAX -> 
  n <= 96 \/ n <= 32 * ((size + 31) / 32) ->
  step h os (resize_realloc m h o c size n) (fun code l => (code = BL_SUCCESS /\ l = l_resize (ba_value h o) n) \/
    (m = false /\ code = BL_ERROR_OUT_OF_MEMORY /\ l = ba_value h o)).
Proof.
  intros W HV K Zt LN S0 N0 SAFE. unfold UINT32_MAX in N0. unfold resize_realloc, kSSOBitCapacity.
  destruct (Z.leb_spec n 96) as [Q|Q].
  - unfold init_sso. cbn [unpack bind]. rewrite wcount by lia.
    destruct (resize_copy (repeat (Some 0) 3) c size n N K LN ltac:(lia) ltac:(lia)) as (d & E & L & K1 & M1 & B).
    { change (len (repeat (Some 0) 3)) with 3. lia. }
    destruct (copy_cells _ _ 0 c 0) as [d1| | |]; cbn [bind] in E |- *; try discriminate. rewrite E. cbn [bind store].
    assert (BZ : forall j, 0 <= j -> cbit d j = (j <? Z.min n size) && cbit c j).
    { intros j J. rewrite B by auto. destruct (Z.ltb_spec j (32 * ((Z.min n size + 31) / 32))); auto.
      rewrite zeros3_bit. now replace (j <? Z.min n size) with false by lia. }
    apply step_to_sso; auto.
    + destruct (zeros3_ok n ltac:(lia)) as (_ & L3 & K3 & _). split; [lia|]. split; [congruence|]. split; [auto|].
      intros j J. rewrite BZ by lia. now replace (j <? Z.min n size) with false by lia.
    + left. split; auto. rewrite HV. apply view_resize; try lia. intros j J. rewrite BZ by lia.
      destruct (Z.ltb_spec j size). * now replace (j <? Z.min n size) with true by lia. * now replace (j <? Z.min n size) with false by lia.
  - rewrite (wcount n), (wcount (Z.min n size)) by lia. destruct m; [|apply step_same; auto].
    rewrite init_dynamic_ok by lia. rewrite unpack_new. cbn [bind].
    destruct (resize_copy (repeat None (Z.to_nat ((n + 31) / 32))) c size n N K LN ltac:(lia) ltac:(lia)) as (d & E & L & K1 & M1 & B).
    { rewrite repeat_len by lia. lia. }
    destruct (copy_cells _ _ 0 c 0) as [d1| | |]; cbn [bind] in E |- *; try discriminate. rewrite E. cbn [bind].
    rewrite store_new. cbn [bind]. rewrite repeat_length in L.
    assert (BZ : forall j, 0 <= j < 32 * ((n + 31) / 32) -> cbit d j = (j <? Z.min n size) && cbit c j).
    { intros j J. rewrite B by lia. now replace (j <? 32 * ((Z.min n size + 31) / 32)) with true by lia. }
    unfold UINT32_MAX. apply step_new; auto.
    + split; [lia|]. split; [lia|]. split; [unfold len; lia|]. split. { eapply words_ok_le; eauto. lia. }
      intros j J. rewrite BZ by lia. destruct (Z.ltb_spec j (Z.min n size)); auto. lia.
    + left. split; auto. rewrite HV. apply view_resize; try lia. intros j J. rewrite BZ by lia.
      destruct (Z.ltb_spec j size). * now replace (j <? Z.min n size) with true by lia. * now replace (j <? Z.min n size) with false by lia.
Qed.

Lemma resize_step (m : bool) h os o n : ba_wf h (o :: os) -> 0 <= n <= UINT32_MAX -> resize_safe h o n ->
  step h os (ba_resize m h o n) (fun code l => (code = BL_SUCCESS /\ l = l_resize (ba_value h o) n) \/
    (m = false /\ code = BL_ERROR_OUT_OF_MEMORY /\ l = ba_value h o)).
Proof.
  intros W N0 SAFE. pose proof N0 as NM. unfold UINT32_MAX in N0. destruct o as [s c|p]; cbn [ba_resize].
  - pose proof (wf_sso _ _ _ _ _ _ W) as (S1 & L & K & Zt). unfold kSSOBitCapacity, kSSOWordCapacity.
    assert (HV : ba_value h (Sso s c) = view s c) by reflexivity. 
    destruct (Z.leb_spec n 96) as [Q|Q].
    + destruct (Z.ltb_spec n s) as [Q1|Q1].
      * unfold word_index_of.
        assert (PRE : exists c1 i1, (if n mod 32 =? 0 then Ok (c, n / 32) else let* w := rdc c (n / 32) in
            let* k := non_zero_start_mask (n mod 32) in let* c := wrc c (n / 32) (Z.land w k) in Ok (c, n / 32 + 1)) = Ok (c1, i1) /\
            i1 = (n + 31) / 32 /\ length c1 = 3%nat /\ words_ok c1 3 /\ 
            forall j, 0 <= j < 32 * i1 -> cbit c1 j = (j <? n) && cbit c j).
        { destruct (Z.eqb_spec (n mod 32) 0) as [R|R].
          - exists c, (n / 32). split; [auto|]. split; [lia|]. sp. intros j J. now replace (j <? n) with true by lia.
          - destruct (mask_word c 3 (n / 32) (n mod 32) K) as (w & k & d2 & Ew & Ek & E2 & L2 & K2 & B2); [lia|lia|].
            rewrite Ew. cbn [bind]. rewrite Ek. cbn [bind]. rewrite E2. cbn [bind]. exists d2, (n / 32 + 1). split; auto. split; [lia|].
            split; [congruence|]. split; auto. intros j J. rewrite B2 by lia. destruct (Z.ltb_spec j n).
            + replace ((32 * (n / 32) + n mod 32 <=? j) && (j <? 32 * (n / 32 + 1))) with false by lia. reflexivity.
            + replace ((32 * (n / 32) + n mod 32 <=? j) && (j <? 32 * (n / 32 + 1))) with true by lia. reflexivity. }
        destruct PRE as (c1 & i1 & E & -> & L1 & K1 & B1). rewrite E. cbn [bind].
        destruct (fill0_ok c1 ((n + 31) / 32) (3 - (n + 31) / 32)) as (c2 & E2 & L2 & K2 & B2); try lia.
        { unfold len. rewrite L1. lia. }
        rewrite E2. cbn [bind].
        assert (BZ : forall j, 0 <= j < 96 -> cbit c2 j = (j <? n) && cbit c j).
        { intros j J. rewrite B2 by lia. destruct (Z.lt_ge_cases j (32 * ((n + 31) / 32))).
          - replace ((32 * ((n + 31) / 32) <=? j) && (j <? 32 * ((n + 31) / 32 + (3 - (n + 31) / 32)))) with false by lia. apply B1. lia.
          - replace ((32 * ((n + 31) / 32) <=? j) && (j <? 32 * ((n + 31) / 32 + (3 - (n + 31) / 32)))) with true by lia.
            now replace (j <? n) with false by lia. }
        eapply step_sso; eauto.
        -- split; [lia|]. split; [congruence|]. split. { specialize (K2 3 K1 ltac:(lia)). eapply words_ok_le; eauto. lia. }
           intros j J. rewrite BZ by lia. now replace (j <? n) with false by lia.
        -- left. split; auto. rewrite HV. apply view_resize; try lia. intros j J. rewrite BZ by lia.
           replace (j <? n) with true by lia. now replace (j <? s) with true by lia.
      * eapply step_sso; eauto.
        -- split; [lia|]. sp. intros j J. apply Zt. lia.
        -- left. split; auto. rewrite HV. apply view_resize; try lia. intros j J. destruct (Z.ltb_spec j s); auto. apply Zt. lia.
    + apply (resize_realloc_step m h os _ c s 3); auto; try lia.
      destruct SAFE as [?|[U|[]]]; [lia|]. right. rewrite HV, view_len in U by lia. auto.
  - destruct (wf_get _ _ _ _ _ W) as (im & E & G & OK & HB & HR). pose proof OK as (S1 & S2 & S3 & K & Zt). rewrite G. cbn [bind].
    assert (HV : ba_value h (Dyn p) = view (isize im) (mem im)) by (unfold ba_value, value; now rewrite E).
    destruct (is_impl_mutable im) eqn:MU; cbn [negb].
    + rewrite mask_false, Z.lor_0_r. unfold is_impl_mutable in MU. apply Z.eqb_eq in MU.
      destruct (Z.leb_spec n (icap im)) as [Q|Q].
      * destruct (Z.ltb_spec n (isize im)) as [Q1|Q1]; unfold word_index_of.
        -- assert (PRE : exists c1, (if n mod 32 =? 0 then Ok (mem im) else let* w := rdc (mem im) (n / 32) in
            let* k := non_zero_start_mask (n mod 32) in wrc (mem im) (n / 32) (Z.land w k)) = Ok c1 /\
            length c1 = length (mem im) /\ words_ok c1 ((isize im + 31) / 32) /\ 
            forall j, 0 <= j < 32 * ((n + 31) / 32) -> cbit c1 j = (j <? n) && cbit (mem im) j).
          { destruct (Z.eqb_spec (n mod 32) 0) as [R|R].
            - exists (mem im). sp. intros j J. now replace (j <? n) with true by lia.
            - destruct (mask_word (mem im) ((isize im + 31) / 32) (n / 32) (n mod 32) K) as (w & k & d2 & Ew & Ek & E2 & L2 & K2 & B2); [lia|lia|].
              rewrite Ew. cbn [bind]. rewrite Ek. cbn [bind]. rewrite E2. exists d2. sp. intros j J. rewrite B2 by lia. destruct (Z.ltb_spec j n).
              + replace ((32 * (n / 32) + n mod 32 <=? j) && (j <? 32 * (n / 32 + 1))) with false by lia. reflexivity.
              + replace ((32 * (n / 32) + n mod 32 <=? j) && (j <? 32 * (n / 32 + 1))) with true by lia. reflexivity. }
          destruct PRE as (c1 & E1 & L1 & K1 & B1). rewrite E1. cbn [bind]. apply step_upd; auto; try lia.
          ++ split; [lia|]. split; auto. split; [unfold len in *; lia|]. split. { eapply words_ok_le; eauto. lia. }
             intros j J. rewrite B1 by lia. now replace (j <? n) with false by lia.
          ++ left. split; auto. rewrite HV. apply view_resize; try lia. intros j J. rewrite B1 by lia.
             replace (j <? n) with true by lia. now replace (j <? isize im) with true by lia.
        -- rewrite wcount by lia.
           destruct (fill0_ok (mem im) ((isize im + 31) / 32) ((n + 31) / 32 - (isize im + 31) / 32)) as (c2 & E2 & L2 & K2 & B2); try lia.
           rewrite E2. cbn [bind].
           assert (BZ : forall j, 0 <= j < 32 * ((n + 31) / 32) -> cbit c2 j = (j <? isize im) && cbit (mem im) j).
           { intros j J. rewrite B2 by lia. destruct (Z.lt_ge_cases j (32 * ((isize im + 31) / 32))).
             - replace ((32 * ((isize im + 31) / 32) <=? j) && (j <? 32 * ((isize im + 31) / 32 + ((n + 31) / 32 - (isize im + 31) / 32)))) with false by lia.
               destruct (Z.ltb_spec j (isize im)); auto.
             - replace ((32 * ((isize im + 31) / 32) <=? j) && (j <? 32 * ((isize im + 31) / 32 + ((n + 31) / 32 - (isize im + 31) / 32)))) with true by lia.
               now replace (j <? isize im) with false by lia. }
           apply step_upd; auto; try lia.
           ++ split; [lia|]. split; auto. split; [unfold len in *; lia|]. split.
              { specialize (K2 _ K ltac:(lia)). eapply words_ok_le; eauto. lia. }
              intros j J. rewrite BZ by lia. now replace (j <? isize im) with false by lia.
           ++ left. split; auto. rewrite HV. apply view_resize; try lia. intros j J. rewrite BZ by lia. now destruct (j <? isize im).
      * apply (resize_realloc_step m h os _ _ _ ((isize im + 31) / 32)); auto; try lia.
        destruct SAFE as [?|[U|[_ U]]]; [lia| |]. { right. rewrite HV, view_len in U by lia. auto. } { rewrite E in U. lia. }
    + rewrite mask_true, lor_mask64 by lia. replace (2 ^ 64 - 1 <=? icap im) with false by lia.
      apply (resize_realloc_step m h os _ _ _ ((isize im + 31) / 32)); auto; try lia.
      destruct SAFE as [?|[U|[U _]]]; [lia| |]. { right. rewrite HV, view_len in U by lia. auto. }
      { exfalso. cbn in U. rewrite E in U. unfold is_impl_mutable in MU. lia. }
Qed.

(* ---- reserve, shrink ---- *)
Lemma copy_exact h os o c size N W cap (P : Z -> list bool -> Prop) : ba_wf h (o :: os) -> ba_value h o = view size c ->
  words_ok c N -> zero_tail c size N -> (size + 31) / 32 <= N -> 0 <= size -> (size + 31) / 32 <= W -> size <= cap -> cap < 2 ^ 32 -> cap <= 32 * W ->
  P BL_SUCCESS (ba_value h o) ->
  step h os (let* (d, _) := unpack (h ++ [Some (Impl 1 1 size cap (repeat None (Z.to_nat W)))]) (Dyn (length h)) in
             let* d := copy_cells (Z.to_nat ((size + 31) / 32)) d 0 c 0 in
             let* (h2, newO) := store (h ++ [Some (Impl 1 1 size cap (repeat None (Z.to_nat W)))]) (Dyn (length h)) d in
             let* (h3, o') := replace_instance h2 o newO in Ok (BL_SUCCESS, h3, o')) P.
Proof.
  intros WF HV K Zt LN S0 SW SC C32 CW HP. rewrite unpack_new. cbn [bind].
  destruct (copy0_ok (repeat None (Z.to_nat W)) c ((size + 31) / 32)) as (d & E & L & K1 & _ & B).
  { rewrite repeat_len by lia. lia. } { eapply words_ok_le; eauto. }
  rewrite E. cbn [bind]. rewrite store_new. cbn [bind]. rewrite repeat_length in L. apply step_new; auto.
  - split; [lia|]. split; auto. split; [unfold len; lia|]. split; auto.
    intros j J. rewrite B by lia. replace (j <? 32 * ((size + 31) / 32)) with true by lia. apply Zt. lia.
  - replace (view size d) with (ba_value h o); auto. rewrite HV. apply view_ext. intros j J. rewrite B by lia.
    now replace (j <? 32 * ((size + 31) / 32)) with true by lia.
Qed.

Definition reserve_safe (h : heap) (o : obj) (n : Z) : Prop := exclusive h o \/ len (ba_value h o) <= 32 * ((n + 31) / 32).

Lemma reserve_step (m : bool) h os o n : ba_wf h (o :: os) -> 0 <= n <= UINT32_MAX -> reserve_safe h o n ->
  step h os (ba_reserve m h o n) (fun code l => (code = BL_SUCCESS \/ m = false /\ code = BL_ERROR_OUT_OF_MEMORY) /\ l = ba_value h o).
Proof.
  intros W N0 SAFE. unfold UINT32_MAX in N0.
  assert (RR : forall c size N, ba_value h o = view size c -> words_ok c N -> zero_tail c size N -> (size + 31) / 32 <= N ->
    0 <= size < 2 ^ 32 -> size <= 32 * ((n + 31) / 32) ->
    step h os (reserve_realloc m h o c size n) (fun code l => (code = BL_SUCCESS \/ m = false /\ code = BL_ERROR_OUT_OF_MEMORY) /\ l = ba_value h o)).
  { intros c size N HV K Zt LN S0 SN. unfold reserve_realloc. rewrite !wcount by lia. destruct m; [|apply step_same; auto].
    rewrite init_dynamic_ok by lia. unfold UINT32_MAX. apply (copy_exact h os o c size N); auto; try lia. }
  destruct o as [s c|p]; cbn [ba_reserve].
  - pose proof (wf_sso _ _ _ _ _ _ W) as (S1 & L & K & Zt). unfold kSSOBitCapacity.
    destruct (Z.leb_spec n 96); [apply step_same; auto|]. apply (RR c s 3); auto; lia.
  - destruct (wf_get _ _ _ _ _ W) as (im & E & G & OK & HB & HR). pose proof OK as (S1 & S2 & S3 & K & Zt). rewrite G. cbn [bind].
    assert (HV : ba_value h (Dyn p) = view (isize im) (mem im)) by (unfold ba_value, value; now rewrite E).
    destruct (is_impl_mutable im) eqn:MU; cbn [negb].
    + rewrite mask_false, Z.lor_0_r. destruct (Z.leb_spec n (icap im)); [apply step_same; auto|].
      apply (RR _ _ ((isize im + 31) / 32)); auto; lia.
    + rewrite mask_true, lor_mask64 by lia. replace (2 ^ 64 - 1 <=? icap im) with false by lia.
      apply (RR _ _ ((isize im + 31) / 32)); auto; try lia. destruct SAFE as [U|U].
      * exfalso. cbn in U. rewrite E in U. unfold is_impl_mutable in MU. lia.
      * rewrite HV, view_len in U by lia. exact U.
Qed.

Lemma shrink_step (m : bool) h os o : ba_wf h (o :: os) ->
  step h os (ba_shrink m h o) (fun code l => (code = BL_SUCCESS \/ m = false /\ code = BL_ERROR_OUT_OF_MEMORY) /\ l = ba_value h o).
Proof.
  intros W. destruct o as [s c|p]; cbn [ba_shrink]. { apply step_same; auto. }
  destruct (wf_get _ _ _ _ _ W) as (im & E & G & OK & HB & HR). pose proof OK as (S1 & S2 & S3 & K & Zt). rewrite G. cbn [bind].
  assert (HV : ba_value h (Dyn p) = view (isize im) (mem im)) by (unfold ba_value, value; now rewrite E).
  unfold kSSOBitCapacity. rewrite !wcount by lia. destruct (Z.leb_spec (isize im) 96).
  - unfold init_sso. destruct (copy0_ok (repeat (Some 0) 3) (mem im) ((isize im + 31) / 32)) as (d & Ed & L & K1 & M1 & B); auto.
    { change (len (repeat (Some 0) 3)) with 3. lia. }
    rewrite Ed. cbn [bind].
    assert (BZ : forall j, 0 <= j -> cbit d j = if j <? 32 * ((isize im + 31) / 32) then cbit (mem im) j else false).
    { intros j J. rewrite B by auto. now rewrite zeros3_bit. }
    apply step_to_sso; auto.
    + destruct (zeros3_ok 0 ltac:(lia)) as (_ & _ & K3 & _). split; [lia|]. split; [auto|]. split; [auto|].
      intros j J. rewrite BZ by lia. destruct (Z.ltb_spec j (32 * ((isize im + 31) / 32))); auto. apply Zt. lia.
    + split; auto. rewrite HV. apply view_ext. intros j J. rewrite BZ by lia. now replace (j <? 32 * ((isize im + 31) / 32)) with true by lia.
  - destruct (_ <=? _); [|apply step_same; auto]. destruct m; [|apply step_same; auto].
    rewrite init_dynamic_ok by lia. unfold UINT32_MAX. apply (copy_exact h os (Dyn p) (mem im) (isize im) ((isize im + 31) / 32)); auto; lia.
Qed.

(* ---- replace_op ---- *)
Lemma upd_app1 {A} (h : list A) p x t : (p < length h)%nat -> upd (h ++ t) p x = upd h p x ++ t.
Proof. revert p. induction h as [|a h IH]; intros [|p] L; cbn in *; try lia; auto. now rewrite IH by lia. Qed.
Lemma release_app h os o : ba_wf h (o :: os) -> exists h', release h o = Ok h' /\ length h' = length h /\
  forall x, release (h ++ [x]) o = Ok (h' ++ [x]).
Proof.
  intros W. destruct o as [s c|p]; cbn [release]. { exists h. auto. }
  destruct (wf_get _ _ _ _ _ W) as (im & E & G & _). rewrite G. cbn [bind].
  assert (LT : (p < length h)%nat) by (apply nth_error_Some; congruence).
  assert (GA : forall x, get_impl (h ++ [x]) p = Ok im) by (intros x; unfold get_impl; rewrite nth_error_app1, E by auto; reflexivity).
  unfold put_impl. destruct (rc im =? base im) eqn:Q; eexists; (split; [reflexivity|]); rewrite upd_len; (split; [reflexivity|]); intros x;
    rewrite GA; cbn [bind]; rewrite Q, upd_app1 by auto; reflexivity.
Qed.

Lemma replace_op_step (m : bool) h os o n : ba_wf h (o :: os) -> 0 <= n <= UINT32_MAX ->
  step h os (ba_replace_op m h o n) (fun code l => (code = BL_SUCCESS /\ l = repeat false (Z.to_nat n)) \/
    (m = false /\ code = BL_ERROR_OUT_OF_MEMORY /\ l = ba_value h o)).
Proof.
  intros W N0. unfold UINT32_MAX in N0. unfold ba_replace_op. rewrite wcount by lia. unfold kSSOBitCapacity.
  assert (ZV : forall c, (forall j, 0 <= j < n -> cbit c j = false) -> view n c = repeat false (Z.to_nat n)).
  { intros c H. rewrite <- zeros3_view. apply view_ext. intros j J. rewrite zeros3_bit. auto. }
  assert (FZ : forall c, (n + 31) / 32 <= len c -> exists d, fill_cells (Z.to_nat ((n + 31) / 32)) c 0 0 = Ok d /\ length d = length c /\
     words_ok d ((n + 31) / 32) /\ forall j, 0 <= j < 32 * ((n + 31) / 32) -> cbit d j = false).
  { intros c LC. destruct (fill0_ok c 0 ((n + 31) / 32)) as (d & E & L & K & B); try lia. exists d. sp. split.
    - specialize (K 0 ltac:(intros i I; lia) ltac:(lia)). eapply words_ok_le; eauto. lia.
    - intros j J. rewrite B by lia. now replace ((32 * 0 <=? j) && (j <? 32 * (0 + (n + 31) / 32))) with true by lia. }
  assert (NEW : 96 < n -> step h os (match init_dynamic m h (impl_size_from_word_capacity ((n + 31) / 32)) n with
    | None => Ok (BL_ERROR_OUT_OF_MEMORY, h, o)
    | Some (h1, newO) =>
      let* h2 := release h1 o in
      let* (d, _) := unpack h2 newO in
      let* d := fill_cells (Z.to_nat ((n + 31) / 32)) d 0 0 in
      let* (h3, o') := store h2 newO d in
      Ok (BL_SUCCESS, h3, o')
    end) (fun code l => (code = BL_SUCCESS /\ l = repeat false (Z.to_nat n)) \/
    (m = false /\ code = BL_ERROR_OUT_OF_MEMORY /\ l = ba_value h o))).
  { intros N1. destruct m; [|apply step_same; auto]. rewrite init_dynamic_ok by lia.
    set (cap := Z.min ((n + 31) / 32 * 32) UINT32_MAX). set (blk := repeat None (Z.to_nat ((n + 31) / 32))).
    destruct (FZ blk) as (d & Ed & Ld & Kd & Bd). { subst blk. rewrite repeat_len by lia. lia. }
    assert (LB : len d = (n + 31) / 32). { unfold len. rewrite Ld. fold (len blk). subst blk. now rewrite repeat_len by lia. }
    destruct (release_app h os o W) as (h2 & R0 & RL & R1). rewrite R1. cbn [bind]. rewrite <- RL. rewrite unpack_new. cbn [bind].
    rewrite Ed. cbn [bind]. rewrite store_new. cbn [bind].
    assert (OK : ba_okI n cap d).
    { subst cap. unfold UINT32_MAX. split; [lia|]. split; [lia|]. split; [lia|]. split; auto. intros j J. apply Bd. lia. }
    pose proof (step_new h os o n cap d (fun code l => (code = BL_SUCCESS /\ l = repeat false (Z.to_nat n)) \/
      (true = false /\ code = BL_ERROR_OUT_OF_MEMORY /\ l = ba_value h o)) W OK) as ST.
    unfold replace_instance in ST. rewrite R1, <- RL in ST. cbn [bind] in ST. apply ST. left. split; auto. apply ZV. intros j J. apply Bd. lia. }
  destruct o as [s c|p].
  - destruct (Z.leb_spec n 96).
    + unfold init_sso. eapply step_sso; eauto. { apply zeros3_ok. lia. } left. split; auto. apply zeros3_view.
    + apply NEW. lia.
  - destruct (wf_get _ _ _ _ _ W) as (im & E & G & OK & HB & HR). pose proof OK as (S1 & S2 & S3 & K & Zt). rewrite G. cbn [bind].
    destruct (Z.leb_spec (Z.lor n (bool_as_mask 64 false (negb (is_impl_mutable im)))) (icap im)) as [Q|Q].
    + destruct (is_impl_mutable im) eqn:MU; cbn [negb] in Q.
      2:{ rewrite mask_true, lor_mask64 in Q by lia. lia. }
      rewrite mask_false, Z.lor_0_r in Q. unfold is_impl_mutable in MU. apply Z.eqb_eq in MU.
      destruct (FZ (mem im)) as (d & Ed & Ld & Kd & Bd). { lia. }
      rewrite Ed. cbn [bind]. apply step_upd; auto; try lia.
      * split; [lia|]. split; auto. split; [unfold len in *; lia|]. split; auto. intros j J. apply Bd. lia.
      * left. split; auto. apply ZV. intros j J. apply Bd. lia.
    + destruct (Z.leb_spec n 96).
      * apply step_release_sso; auto. { apply zeros3_ok. lia. } left. split; auto. apply zeros3_view.
      * apply NEW. lia.
Qed.

(* ---- assign_words ---- *)
Definition assign_words_safe (h : heap) (o : obj) (n : Z) : Prop :=
  n <= 3 /\ match o with
  | Sso _ _ => True
  | Dyn p => match nth_error h p with Some (Some im) => exclusive h o -> (icap im + 31) / 32 < n | _ => False end
  end.
Lemma assign_words_step (m : bool) h os o wd : ba_wf h (o :: os) -> words wd -> assign_words_safe h o (len wd) ->
  step h os (ba_assign_words m h o wd (len wd)) (fun code l => code = BL_SUCCESS /\ l = words_bits wd).
Proof.
  intros W HW [N3 SAFE]. assert (N0 : 0 <= len wd) by (unfold len; lia). pose proof (words_map wd HW) as KW.
  assert (CV : forall c, (forall j, 0 <= j < 32 * len wd -> cbit c j = cbit (map Some wd) j) -> view (len wd * 32) c = words_bits wd).
  { intros c H. apply bool_list_ext. - rewrite view_length. pose proof (words_bits_len wd). unfold len in *. lia.
    - intros j. destruct (Z.lt_ge_cases j 0). { rewrite !bit_at_out by auto. reflexivity. }
      destruct (Z.lt_ge_cases j (32 * len wd)). + rewrite bit_at_view, bit_at_words by lia. apply H. lia.
      + rewrite !bit_at_out; auto; right; [rewrite words_bits_len|unfold len at 1; rewrite view_length]; lia. }
  destruct o as [s c|p]; cbn [ba_assign_words].
  - pose proof (wf_sso _ _ _ _ _ _ W) as (S1 & L & K & Zt). unfold kSSOWordCapacity. replace (len wd <=? 3) with true by lia.
    assert (LC : len c = 3) by (unfold len; rewrite L; reflexivity).
    unfold copy_words. destruct (copy0_ok c (map Some wd) (len wd)) as (d & Ed & Ld & K1 & M1 & B); auto. { lia. }
    rewrite Ed. cbn [bind]. destruct (fill0_ok d (len wd) (3 - len wd)) as (c2 & E2 & L2 & K2 & B2); try lia. { unfold len in LC |- *. lia. }
    rewrite E2. cbn [bind]. eapply step_sso; eauto.
    + split; [lia|]. split; [congruence|]. split. { specialize (K2 _ K1 ltac:(lia)). eapply words_ok_le; eauto. lia. }
      intros j J. rewrite B2 by lia. now replace ((32 * len wd <=? j) && (j <? 32 * (len wd + (3 - len wd)))) with true by lia.
    + split; auto. apply CV. intros j J. rewrite B2 by lia.
      replace ((32 * len wd <=? j) && (j <? 32 * (len wd + (3 - len wd)))) with false by lia. rewrite B by lia.
      now replace (j <? 32 * len wd) with true by lia.
  - destruct (wf_get _ _ _ _ _ W) as (im & E & G & OK & HB & HR). pose proof OK as (S1 & S2 & S3 & K & Zt). rewrite G. cbn [bind].
    rewrite E in SAFE. rewrite wcount by lia.
    assert (LT : (icap im + 31) / 32 <? Z.lor (len wd) (bool_as_mask 64 false (negb (is_impl_mutable im))) = true).
    { destruct (is_impl_mutable im) eqn:MU; cbn [negb].
      - rewrite mask_false, Z.lor_0_r. apply Z.ltb_lt, SAFE. cbn. rewrite E. unfold is_impl_mutable in MU. lia.
      - rewrite mask_true, lor_mask64 by lia. lia. }
    rewrite LT. unfold init_sso, copy_words. destruct (copy0_ok (repeat (Some 0) 3) (map Some wd) (len wd)) as (d & Ed & Ld & K1 & M1 & B); auto.
    rewrite Ed. cbn [bind]. apply step_to_sso; auto.
    + destruct (zeros3_ok 0 ltac:(lia)) as (_ & _ & K3 & _). split; [lia|]. split; [auto|]. split; [auto|].
      intros j J. rewrite B by lia. replace (j <? 32 * len wd) with false by lia. apply zeros3_bit.
    + split; auto. apply CV. intros j J. rewrite B by lia. now replace (j <? 32 * len wd) with true by lia.
Qed.
