(* The storage of an array before, during and after a call. *)
From Verif Require Import Base Bits IntOps_Model IntOps_Spec IntOps_Proofs Algorithm_Model Object_Model Object_Spec Object_Proofs Object_Proofs2
  BitArray_Model BitArray_Spec BitArray_Proofs3 Handle_Client Handle_Proofs Array_Model Array_Spec Array_Proofs.

Lemma upd_upd {A} (l : list A) p x y : upd (upd l p x) p y = upd l p y.
Proof. revert p. induction l as [|a l IH]; intros [|p]; cbn; auto. now rewrite IH. Qed.
Lemma upd_app1 {A} (l r : list A) p x : (p < length l)%nat -> upd (l ++ r) p x = upd l p x ++ r.
Proof. revert p. induction l as [|a l IH]; intros [|p] L; cbn in *; try lia; auto. rewrite IH by lia. reflexivity. Qed.

Section Store.
  Context (w : Z) (Hw : 1 <= w <= 32).
  Notation K := (sso_capacity w).
  Notation wfa := (arr_wf w).
  Notation step := (hstep (ext := True) (arr_okI w) (arr_okS w) items []).

  Lemma K_eq : K = 12 / w. Proof. reflexivity. Qed.
  Lemma K_range : 0 <= K /\ K * w <= 12.
  Proof. rewrite K_eq. split; [apply Z.div_pos; lia|]. rewrite Z.mul_comm. apply Z.mul_div_le. lia. Qed.

  (* what the functions see of [self] *)
  Record view (h : heap) (o : obj) (l : list Z) (size cap : Z) (mut : bool) (c : list cell) : Prop := View {
    v_unpack : unpack w h o = Ok (own_loc o, size, cap);
    v_size : get_size h o = Ok size;
    v_block : block h o (own_loc o) = Ok c;
    v_mut : is_instance_mutable h o = Ok mut;
    v_val : arr_value h o = l;
    v_rep : rep c l;
    v_len : len l = size;
    v_cap : size <= cap;
    v_capc : cap <= len c;
    v_bytes : cap * w <= max_bytes;
    v_kind : match o with Sso s c' => s = size /\ c' = c /\ cap = K /\ len c = K /\ mut = true
             | Dyn p => exists im, nth_error h p = Some (Some im) /\ isize im = size /\ icap im = cap /\ mem im = c /\
                                   mut = (rc im =? 1) end;
    v_acap : acapacity w h o = cap;
    v_amut : amutable h o <-> mut = true }.

  Lemma view_of h os o : wfa h (o :: os) -> exists size cap mut c, view h o (arr_value h o) size cap mut c.
  Proof.
    intros W. destruct o as [s c|p].
    - pose proof (wf_sso _ _ _ _ _ _ W) as (S1 & L & I). destruct (init_rep s c ltac:(lia) I) as (R & Ln).
      exists s, K, true, c. pose proof K_range as (K0 & K1). rewrite <- K_eq in *. constructor; auto; cbn; auto; try lia; try tauto.
    - destruct (wf_get _ _ _ _ _ W) as (im & E & G & (S1 & S2 & S3 & I) & _). destruct (init_rep (isize im) (mem im) ltac:(lia) I) as (R & Ln).
      assert (HV : arr_value h (Dyn p) = items (isize im) (mem im)) by (unfold arr_value, value; now rewrite E).
      exists (isize im), (icap im), (rc im =? 1), (mem im). rewrite HV.
      constructor; auto; cbn [unpack get_size block own_loc is_instance_mutable acapacity amutable]; rewrite ?G, ?E; cbn [bind]; auto; try lia.
      exists im. auto.
  Qed.

  (* [self] with new size and cells, in place *)
  Definition putv (h : heap) (o : obj) (size : Z) (c : list cell) : heap * obj :=
    match o with
    | Sso _ _ => (h, Sso size c)
    | Dyn p => match nth_error h p with
               | Some (Some im) => (put_impl h p (Impl (rc im) (base im) size (icap im) c), o)
               | _ => (h, o)
               end
    end.

  Section Self.
    Context (h : heap) (os : list obj) (o : obj) (l : list Z) (size cap : Z) (mut : bool) (c : list cell)
            (W : wfa h (o :: os)) (VW : view h o l size cap mut c).

    Lemma size_nonneg : 0 <= size. Proof. rewrite <- (v_len _ _ _ _ _ _ _ VW). apply len_nonneg. Qed.
    Lemma cap_nonneg : 0 <= cap. Proof. pose proof size_nonneg. pose proof (v_cap _ _ _ _ _ _ _ VW). lia. Qed.

    Lemma put_self : putv h o size c = (h, o).
    Proof.
      pose proof (v_kind _ _ _ _ _ _ _ VW) as KD. destruct o as [s c'|p]; cbn [putv].
      - destruct KD as (-> & -> & _). reflexivity.
      - destruct KD as (im & E & <- & <- & <- & _). rewrite E. f_equal. unfold put_impl. destruct im as [r0 b0 s0 k0 m0]; cbn [rc base isize icap mem].
        clear - E. revert p E. induction h as [|x h' IH]; intros [|p] E; cbn in *; auto; [congruence|]. f_equal. now apply IH.
    Qed.
    Lemma put_store s1 c1 c2 : let '(h1, o1) := putv h o s1 c1 in store h1 o1 c2 = Ok (putv h o s1 c2).
    Proof.
      pose proof (v_kind _ _ _ _ _ _ _ VW) as KD. destruct o as [s c'|p]; cbn [putv]; auto.
      destruct KD as (im & E & _). rewrite E. cbn [store]. unfold get_impl, put_impl.
      assert (L : (p < length h)%nat) by (apply nth_error_Some; congruence).
      rewrite nth_upd_eq by auto. cbn [bind rc base isize icap]. now rewrite upd_upd.
    Qed.
    Lemma put_set_size s1 c1 s2 : let '(h1, o1) := putv h o s1 c1 in set_size h1 o1 s2 = Ok (putv h o s2 c1).
    Proof.
      pose proof (v_kind _ _ _ _ _ _ _ VW) as KD. destruct o as [s c'|p]; cbn [putv]; auto.
      destruct KD as (im & E & _). rewrite E. cbn [set_size]. unfold get_impl, put_impl.
      assert (L : (p < length h)%nat) by (apply nth_error_Some; congruence).
      rewrite nth_upd_eq by auto. cbn [bind rc base isize icap mem]. now rewrite upd_upd.
    Qed.
    Lemma put_block s1 c1 : let '(h1, o1) := putv h o s1 c1 in block h1 o1 (own_loc o) = Ok c1 /\ own_loc o1 = own_loc o.
    Proof.
      pose proof (v_kind _ _ _ _ _ _ _ VW) as KD. destruct o as [s c'|p]; cbn [putv]; auto.
      destruct KD as (im & E & _). rewrite E. cbn [block own_loc]. unfold get_impl, put_impl.
      assert (L : (p < length h)%nat) by (apply nth_error_Some; congruence).
      rewrite nth_upd_eq by auto. auto.
    Qed.
    (* a mutable array may be changed in place *)
    Lemma put_wf s1 c1 l1 : mut = true -> rep c1 l1 -> len l1 = s1 -> s1 <= cap -> length c1 = length c ->
      let '(h1, o1) := putv h o s1 c1 in
      wfa h1 (o1 :: os) /\ (forall x, In x os -> arr_value h1 x = arr_value h x) /\ arr_value h1 o1 = l1 /\ length h1 = length h.
    Proof.
      intros M R L1 C1 LC. pose proof (v_kind _ _ _ _ _ _ _ VW) as KD. pose proof (v_capc _ _ _ _ _ _ _ VW) as CC.
      pose proof (v_bytes _ _ _ _ _ _ _ VW) as BB. pose proof (len_nonneg l1). pose proof (rep_init _ _ R) as RI. pose proof (rep_items _ _ R) as RV.
      rewrite L1 in *. destruct o as [s c'|p]; cbn [putv].
      - destruct KD as (-> & -> & KC & LK & _). split; [|split; [|split]]; auto.
        eapply sso_swap_ok; [exact W|]. split; [rewrite <- K_eq; lia|]. split; auto. rewrite <- K_eq. unfold len in *. lia.
      - destruct KD as (im & E & Es & Ec & Em & MM). rewrite E.
        destruct (update_ok (arr_okI w) (arr_okS w) items [] h os p im s1 (icap im) c1 W E) as (W' & O' & N').
        { apply Z.eqb_eq. congruence. }
        { split; [lia|]. split; [unfold len in *; lia|]. split; [lia|]. exact RI. }
        split; auto. split; auto. split. { unfold arr_value. rewrite N'. exact RV. } unfold put_impl. apply upd_len.
    Qed.
    Lemma put_step s1 c1 l1 code (P : Z -> list Z -> Prop) : mut = true -> rep c1 l1 -> len l1 = s1 -> s1 <= cap -> length c1 = length c ->
      P code l1 -> step h os (let '(h1, o1) := putv h o s1 c1 in Ok (code, h1, o1)) P.
    Proof.
      intros M R L1 C1 LC HP. pose proof (put_wf s1 c1 l1 M R L1 C1 LC) as Q. destruct (putv h o s1 c1) as [h1 o1].
      destruct Q as (W1 & O1 & V1 & _). exists code, h1, o1. split; auto. split; auto. split; auto. fold arr_value. now rewrite V1.
    Qed.
  End Self.

  (* ---- fresh storage ---- *)
  Definition fresh (h : heap) (size : Z) (h1 : heap) (n : obj) (d : list cell) : Prop :=
    (n = Dyn (length h) /\ exists cap, h1 = h ++ [Some (Impl 1 1 size cap d)] /\ size <= cap /\ cap <= len d /\ cap * w <= max_bytes) \/
    (h1 = h /\ n = Sso size d /\ len d = K /\ size <= K).

  Lemma fresh_size h size h1 n d : fresh h size h1 n d -> size <= len d.
  Proof. intros [(_ & cap & _ & A & B & _)|(_ & _ & A & B)]; lia. Qed.
  Lemma fresh_block h size h1 n d : fresh h size h1 n d -> block h1 n (own_loc n) = Ok d.
  Proof.
    intros [(-> & cap & -> & _)|(-> & -> & _)]; cbn [block own_loc]; auto. unfold get_impl. rewrite nth_snoc, Nat.eqb_refl. reflexivity.
  Qed.
  Lemma fresh_store h size h1 n d d' : fresh h size h1 n d -> length d' = length d ->
    exists h2 n2, store h1 n d' = Ok (h2, n2) /\ fresh h size h2 n2 d'.
  Proof.
    intros [(-> & cap & -> & A & B & C)|(-> & -> & A & B)] L; unfold len in *.
    - rewrite store_new. eexists _, _. split; [reflexivity|]. left. split; auto. exists cap. unfold len. repeat split; auto. lia.
    - cbn [store]. eexists _, _. split; [reflexivity|]. right. unfold len. repeat split; auto. lia.
  Qed.
  (* old storage is still there *)
  Lemma fresh_nth h size h1 n d p im : fresh h size h1 n d -> nth_error h p = Some (Some im) -> nth_error h1 p = Some (Some im).
  Proof.
    intros [(-> & cap & -> & _)|(-> & _)] E; auto. rewrite nth_snoc. destruct (Nat.eqb_spec p (length h)) as [->|N]; auto.
    assert (length h < length h)%nat by (apply nth_error_Some; congruence). lia.
  Qed.
  Lemma fresh_self h o l sz cap mut c size h1 n d : view h o l sz cap mut c -> fresh h size h1 n d ->
    block h1 o (own_loc o) = Ok c /\ is_instance_dynamic_and_mutable h1 o = is_instance_dynamic_and_mutable h o.
  Proof.
    intros VW F. pose proof (v_kind _ _ _ _ _ _ _ VW) as KD. destruct o as [s c'|p].
    - destruct KD as (_ & -> & _). auto.
    - destruct KD as (im & E & _ & _ & <- & _). cbn [block own_loc is_instance_dynamic_and_mutable]. unfold get_impl.
      rewrite (fresh_nth _ _ _ _ _ _ _ F E), E. auto.
  Qed.
  (* the old content is moved out: its size is set to zero *)
  Lemma fresh_retire h os o l sz cap mut c size h1 n d : wfa h (o :: os) -> view h o l sz cap mut c -> mut = true -> fresh h size h1 n d ->
    exists h1' o' h0, set_size h1 o 0 = Ok (h1', o') /\ wfa h0 (o' :: os) /\ (forall x, In x os -> arr_value h0 x = arr_value h x) /\
      fresh h0 size h1' n d /\ block h1' o' (own_loc o) = Ok c.
  Proof.
    intros W VW M F. pose proof (put_wf h os o l sz cap mut c W VW 0 c [] M (rep_nil c) eq_refl (cap_nonneg _ _ _ _ _ _ _ VW) eq_refl) as Q.
    pose proof (put_block h os o l sz cap mut c W VW 0 c) as PB.
    pose proof (v_kind _ _ _ _ _ _ _ VW) as KD. destruct o as [s c'|p]; cbn [putv set_size] in *.
    - destruct KD as (_ & -> & _). destruct Q as (W1 & O1 & _). exists h1, (Sso 0 c), h. repeat split; auto; apply W1.
    - destruct KD as (im & E & _ & _ & <- & _). rewrite E in *. unfold get_impl. rewrite (fresh_nth _ _ _ _ _ _ _ F E). cbn [bind].
      destruct Q as (W1 & O1 & _ & LH). destruct PB as [PB _].
      assert (L : (p < length h)%nat) by (apply nth_error_Some; congruence).
      eexists _, _, _. split; [reflexivity|]. split; [exact W1|]. split; [exact O1|]. split.
      + destruct F as [(-> & cap' & -> & A)|(-> & -> & A)].
        * left. rewrite LH. split; auto. exists cap'. split; auto. unfold put_impl. now apply upd_app1.
        * right. auto.
      + cbn [block own_loc]. unfold get_impl, put_impl. rewrite nth_upd_eq; auto.
        destruct F as [(-> & cap' & -> & A)|(-> & -> & A)]; auto. rewrite app_length. lia.
  Qed.
  Lemma fresh_done h os o size h2 n d l1 code (P : Z -> list Z -> Prop) : wfa h (o :: os) -> fresh h size h2 n d -> rep d l1 -> len l1 = size -> P code l1 ->
    step h os (let* (h3, self) := replace_instance h2 o n in Ok (code, h3, self)) P.
  Proof.
    intros W F R L HP. pose proof (rep_init _ _ R) as RI. pose proof (rep_items _ _ R) as RV. pose proof (len_nonneg l1). rewrite L in *.
    destruct F as [(-> & cap & -> & A & B & C)|(-> & -> & A & B)].
    - apply (hstep_new (arr_okI w) (arr_okS w)); auto. { split; [lia|]. auto. } now rewrite RV.
    - apply (hstep_to_sso (arr_okI w) (arr_okS w)); auto. { split; [rewrite <- K_eq; lia|]. rewrite <- K_eq. auto. } now rewrite RV.
  Qed.
  Lemma step_from h h0 os r (P : Z -> list Z -> Prop) : (forall x, In x os -> arr_value h0 x = arr_value h x) -> step h0 os r P -> step h os r P.
  Proof.
    intros V0 (code & h' & o' & E & W & O & HP). exists code, h', o'. split; auto. split; auto. split; auto.
    intros x I. rewrite O by auto. now apply V0.
  Qed.

  (* ---- allocation ---- *)
  Lemma w64_small x : 0 <= x < 2 ^ 64 -> w64 x = x. Proof. intros X. unfold w64. apply Z.mod_small. lia. Qed.
  Lemma impl_size_ok n : 0 <= n -> 24 + n * w < 2 ^ 64 -> impl_size_from_capacity w n = 24 + n * w.
  Proof. intros N B. unfold impl_size_from_capacity, sizeof_BLArrayImpl. rewrite (w64_small (n * w)) by nia. rewrite w64_small; nia. Qed.

  (* enough room, or a failure that has a reason *)
  Lemma init_dynamic_ok (m : bool) h size s need : 0 <= need -> size <= need -> 24 + need * w <= s -> s < 2 ^ 64 ->
    (s <= 2 ^ 62 \/ 2 ^ 60 <= need * w) ->
    match init_dynamic w m h size s with
    | Some (h1, n) => exists d, fresh h size h1 n d /\ need <= len d
    | None => m = false \/ 2 ^ 60 <= need * w
    end.
  Proof.
    intros N0 N1 N2 S1 RB. unfold init_dynamic, BL_OBJECT_IMPL_MAX_SIZE. change ((2 ^ 64 - 1) / 2 - 4096) with (2 ^ 63 - 4097).
    destruct m; cbn [andb]; [|now left]. destruct (Z.leb_spec s (2 ^ 63 - 4097)) as [Q|Q]; [|right; lia].
    unfold alloc_impl. set (k := (s - sizeof_BLArrayImpl) / w).
    assert (KW : need <= k /\ k * w <= s - 24).
    { subst k. unfold sizeof_BLArrayImpl. split; [apply Z.div_le_lower_bound; lia|]. rewrite Z.mul_comm. apply Z.mul_div_le. lia. }
    assert (CP : capacity_from_impl_size w s = k).
    { unfold capacity_from_impl_size, sizeof_BLArrayImpl. rewrite w64_small; auto. nia. }
    rewrite CP. exists (repeat None (Z.to_nat k)). unfold len. rewrite repeat_length, Z2Nat.id by lia. split; [|lia].
    left. split; auto. exists k. split; auto. split; [lia|]. unfold len. rewrite repeat_length. split; [lia|]. unfold max_bytes. lia.
  Qed.
  Lemma zeros_len : len (repeat (Some 0) (Z.to_nat K)) = K.
  Proof. unfold len. rewrite repeat_length. pose proof K_range. lia. Qed.
  Lemma init_static_fresh h size : size <= K -> fresh h size h (init_static w size) (repeat (Some 0) (Z.to_nat K)).
  Proof. intros S1. right. split; auto. split; auto. split; auto using zeros_len. Qed.
  Lemma init_array_ok (m : bool) h size n : 0 <= n -> size <= n -> 24 + n * w < 2 ^ 64 ->
    match init_array w m h size n with
    | Some (h1, nn) => exists d, fresh h size h1 nn d /\ n <= len d
    | None => m = false \/ 2 ^ 60 <= n * w
    end.
  Proof.
    intros N0 N1 N2. unfold init_array. destruct (Z.leb_spec n K).
    - exists (repeat (Some 0) (Z.to_nat K)). split; [apply init_static_fresh; lia|]. rewrite zeros_len. lia.
    - rewrite impl_size_ok by auto. apply init_dynamic_ok; auto; lia.
  Qed.
  (* growing *)
  Lemma expand_dynamic_ok (m : bool) h size need : 0 <= need -> size <= need -> 24 + need * w < 2 ^ 64 ->
    exists s, expand_impl_size (impl_size_from_capacity w need) = Ok s /\
    match init_dynamic w m h size s with
    | Some (h1, n) => exists d, fresh h size h1 n d /\ need <= len d
    | None => m = false \/ 2 ^ 60 <= need * w
    end.
  Proof.
    intros N0 N1 N2. rewrite impl_size_ok by auto. destruct (expand_ok (24 + need * w) ltac:(nia)) as (s & E & B & _).
    exists s. split; auto. apply init_dynamic_ok; auto; try lia.
    destruct (Z.lt_ge_cases (need * w) (2 ^ 60)); [|now right]. left.
    pose proof (expand_bound (24 + need * w) s ltac:(nia) E). lia.
  Qed.

  Lemma lor_msk n (mut : bool) cap : 0 <= n < 2 ^ 64 -> cap < 2 ^ 64 - 1 ->
    (Z.lor n (immutable_msk mut) <=? cap) = mut && (n <=? cap).
  Proof.
    intros N C. unfold immutable_msk. destruct mut; cbn [negb andb].
    - change (bool_as_mask 64 false false) with 0. now rewrite Z.lor_0_r.
    - change (bool_as_mask 64 false true) with (2 ^ 64 - 1). rewrite lor_mask64 by lia. lia.
  Qed.
  Lemma lor_msk_lt n (mut : bool) cap : 0 <= n < 2 ^ 64 -> cap < 2 ^ 64 - 1 ->
    (cap <? Z.lor n (immutable_msk mut)) = negb (mut && (n <=? cap)).
  Proof. intros N C. rewrite <- lor_msk by auto. lia. Qed.
End Store.
