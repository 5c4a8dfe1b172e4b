(* Finishing a call of an array: fresh storage replaces the old one; clear, shrink, reserve, make_mutable. *)
From Verif Require Import Base Bits IntOps_Model IntOps_Spec IntOps_Proofs Algorithm_Model Object_Model Object_Spec Object_Proofs Object_Proofs2
  BitArray_Model BitArray_Spec BitArray_Proofs3 Handle_Client Handle_Proofs Array_Model Array_Spec Array_Proofs Array_Proofs2.

(* positions of items *)
Ltac rep_t :=
  nth_step;
  repeat match goal with |- context [if ?b then _ else _] => let E := fresh "E" in destruct b eqn:E end;
  try lia; try reflexivity; try (f_equal; f_equal; lia); try (f_equal; lia).

Lemma release_app h o x h' : release h o = Ok h' -> release (h ++ [x]) o = Ok (h' ++ [x]) /\ length h' = length h.
Proof.
  destruct o as [s c|p]; cbn [release]; intros R. { now injection R as <-. }
  unfold get_impl in *. destruct (nth_error h p) as [[im|]|] eqn:E; try discriminate R. cbn [bind] in R.
  assert (L : (p < length h)%nat) by (apply nth_error_Some; congruence).
  rewrite nth_error_app1, E by auto. cbn [bind]. unfold put_impl in *.
  destruct (rc im =? base im); injection R as <-; rewrite upd_app1, upd_len by auto; auto.
Qed.

Section Finish.
  Context (w : Z) (Hw : 1 <= w <= 32).
  Notation K := (sso_capacity w).
  Notation wfa := (arr_wf w).
  Notation step := (hstep (ext := True) (arr_okI w) (arr_okS w) items []).

  (* the handle is in place, its items are still to be written *)
  Definition opened (h : heap) (os : list obj) (h1 : heap) (o1 : obj) (sz : Z) (c1 : list cell) : Prop :=
    block h1 o1 (own_loc o1) = Ok c1 /\ sz <= len c1 /\
    forall c2 l2, length c2 = length c1 -> rep c2 l2 -> len l2 = sz ->
      exists h2 o2, store h1 o1 c2 = Ok (h2, o2) /\ wfa h2 (o2 :: os) /\ (forall x, In x os -> arr_value h2 x = arr_value h x) /\
                    arr_value h2 o2 = l2.

  Lemma opened_from h0 h os h1 o1 sz c1 : (forall x, In x os -> arr_value h0 x = arr_value h x) -> opened h0 os h1 o1 sz c1 -> opened h os h1 o1 sz c1.
  Proof.
    intros E (B & S1 & F). split; auto. split; auto. intros c2 l2 L R Z0. destruct (F c2 l2 L R Z0) as (h2 & o2 & X & W & O & V).
    exists h2, o2. split; auto. split; auto. split; auto. intros x I. rewrite O by auto. auto.
  Qed.
  Lemma opened_step h os h1 o1 sz c1 c2 l2 code (P : Z -> list Z -> Prop) : opened h os h1 o1 sz c1 -> length c2 = length c1 -> rep c2 l2 -> len l2 = sz ->
    P code l2 -> step h os (let* (h2, self) := store h1 o1 c2 in Ok (code, h2, self)) P.
  Proof.
    intros (B & S1 & F) L R Z0 HP. destruct (F c2 l2 L R Z0) as (h2 & o2 & X & W & O & V). rewrite X. cbn [bind].
    exists code, h2, o2. split; auto. split; auto. split; auto. fold arr_value. now rewrite V.
  Qed.
  Lemma fresh_opened h os o size h2 n d : wfa h (o :: os) -> fresh w h size h2 n d ->
    exists h3, release h2 o = Ok h3 /\ opened h os h3 n size d.
  Proof.
    intros W F. destruct (release_ok (arr_okI w) (arr_okS w) items [] _ _ _ W) as (h' & R & W1 & V1). fold (arr_wf w) in W1.
    destruct F as [(-> & cap & -> & A & B & C)|(-> & -> & A & B)].
    - destruct (release_app _ _ (Some (Impl 1 1 size cap d)) _ R) as (R1 & LH). exists (h' ++ [Some (Impl 1 1 size cap d)]). split; auto.
      split; [|split]; [|lia|].
      + cbn [block own_loc]. unfold get_impl. rewrite nth_snoc, LH, Nat.eqb_refl. reflexivity.
      + intros c2 l2 L R2 Z0. rewrite <- LH. rewrite store_new. eexists _, _. split; [reflexivity|].
        destruct (alloc_ok (arr_okI w) (arr_okS w) items [] h' os size cap c2 W1) as (W2 & V2 & N2).
        { pose proof (rep_init _ _ R2) as RI. pose proof (len_nonneg l2). rewrite Z0 in *. split; [lia|]. split; [unfold len in *; lia|]. auto. }
        split; [exact W2|]. split.
        * intros x I. unfold arr_value. rewrite V2 by auto. now apply V1.
        * unfold arr_value. rewrite N2. rewrite <- Z0. now apply rep_items.
    - exists h'. split; auto. split; [reflexivity|]. split; [lia|]. intros c2 l2 L R2 Z0. cbn [store]. eexists _, _. split; [reflexivity|].
      split; [|split].
      + apply wf_tail_sso; auto. pose proof (rep_init _ _ R2) as RI. pose proof (len_nonneg l2). rewrite Z0 in *. unfold arr_okS. rewrite <- K_eq. split; [lia|].
        split; [unfold len in *; lia|]. auto.
      + intros x I. now apply V1.
      + unfold arr_value, value. rewrite <- Z0. now apply rep_items.
  Qed.

  Lemma opened_now h os h1 o1 sz c1 : opened h os h1 o1 sz c1 -> forall l2, rep c1 l2 -> len l2 = sz ->
    wfa h1 (o1 :: os) /\ (forall x, In x os -> arr_value h1 x = arr_value h x) /\ arr_value h1 o1 = l2.
  Proof.
    intros (B & S1 & F) l2 R Z0. destruct (F c1 l2 eq_refl R Z0) as (h2 & o2 & X & W & O & V).
    assert (E : store h1 o1 c1 = Ok (h1, o1)).
    { destruct o1 as [s c|p]; cbn [store block own_loc] in *; [congruence|]. unfold get_impl in *. destruct (nth_error h1 p) as [[im|]|] eqn:Q; try discriminate B.
      cbn [bind] in *. injection B as <-. f_equal. f_equal. unfold put_impl. destruct im as [r0 b0 s0 k0 m0]; cbn [rc base isize icap mem].
      clear - Q. revert p Q. induction h1 as [|x h' IH]; intros [|p] E; cbn in *; auto; [congruence|]. f_equal. now apply IH. }
    rewrite E in X. injection X as <- <-. auto.
  Qed.

  (* store and replace *)
  Lemma fresh_finish h os o size h1 n d d' l1 code (P : Z -> list Z -> Prop) : wfa h (o :: os) -> fresh w h size h1 n d -> length d' = length d ->
    rep d' l1 -> len l1 = size -> P code l1 ->
    step h os (let* (h2, newO) := store h1 n d' in let* (h3, self) := replace_instance h2 o newO in Ok (code, h3, self)) P.
  Proof.
    intros W F L R Z0 HP. destruct (fresh_store w _ _ _ _ _ _ F L) as (h2 & n2 & -> & F2). cbn [bind]. eapply fresh_done; eauto.
  Qed.
  Lemma fresh_finish' h os o size h1 n d d' l1 code (P : Z -> list Z -> Prop) : wfa h (o :: os) -> fresh w h size h1 n d -> length d' = length d ->
    rep d' l1 -> len l1 = size -> P code l1 ->
    step h os (let* (h2, newO) := store h1 n d' in let* h3 := release h2 o in Ok (code, h3, newO)) P.
  Proof.
    intros W F L R Z0 HP. pose proof (fresh_finish h os o size h1 n d d' l1 code P W F L R Z0 HP) as Q.
    destruct (store h1 n d') as [[h2 n2]| | |]; auto. cbn [bind] in *. unfold replace_instance in Q.
    destruct (release h2 o); auto.
  Qed.
  Lemma fresh_maybe (b : bool) h os o l sz cap mut c size h1 n d : wfa h (o :: os) -> view w h o l sz cap mut c -> (b = true -> mut = true) -> fresh w h size h1 n d ->
    exists h1' o' h0, (if b then set_size h1 o 0 else Ok (h1, o)) = Ok (h1', o') /\ wfa h0 (o' :: os) /\
      (forall x, In x os -> arr_value h0 x = arr_value h x) /\ fresh w h0 size h1' n d /\ block h1' o' (own_loc o) = Ok c.
  Proof.
    intros W VW M F. destruct b.
    - apply (fresh_retire w h os o l sz cap mut c); auto.
    - exists h1, o, h. split; auto. split; auto. split; auto. split; auto. eapply fresh_self; eauto.
  Qed.
  Lemma dm_mut h o l sz cap mut c size h1 n d : view w h o l sz cap mut c -> fresh w h size h1 n d ->
    exists b, is_instance_dynamic_and_mutable h1 o = Ok b /\ (b = true -> mut = true).
  Proof.
    intros VW F. pose proof (v_kind _ _ _ _ _ _ _ _ VW) as KD. destruct o as [s c'|p]; cbn [is_instance_dynamic_and_mutable].
    - exists false. split; auto. discriminate.
    - destruct KD as (im & E & _ & _ & _ & ->). unfold get_impl. rewrite (fresh_nth _ _ _ _ _ _ _ _ F E). cbn [bind]. eexists. split; [reflexivity|]. auto.
  Qed.
  Lemma fresh_finish_dm h os o l sz cap mut c size h1 n d d' l1 code (P : Z -> list Z -> Prop) : wfa h (o :: os) -> view w h o l sz cap mut c ->
    fresh w h size h1 n d -> length d' = length d -> rep d' l1 -> len l1 = size -> P code l1 ->
    step h os (let* (h2, newO) := store h1 n d' in
               let* dm := is_instance_dynamic_and_mutable h2 o in
               let* (h3, self) := if dm then set_size h2 o 0 else Ok (h2, o) in
               let* (h4, self) := replace_instance h3 self newO in Ok (code, h4, self)) P.
  Proof.
    intros W VW F L R Z0 HP. destruct (fresh_store w _ _ _ _ _ _ F L) as (h2 & n2 & -> & F2). cbn [bind].
    destruct (dm_mut _ _ _ _ _ _ _ _ _ _ _ VW F2) as (b & -> & BM). cbn [bind].
    destruct (fresh_maybe b _ _ _ _ _ _ _ _ _ _ _ _ W VW BM F2) as (h3 & o' & h0 & -> & W0 & V0 & F0 & _). cbn [bind].
    apply (step_from w h h0); auto. eapply fresh_done; eauto.
  Qed.

  (* ---- the calls ---- *)
  Section Calls.
    Context (m : bool) (h : heap) (os : list obj) (o : obj) (l : list Z) (size cap : Z) (mut : bool) (c : list cell)
            (W : wfa h (o :: os)) (VW : view w h o l size cap mut c).

    Lemma same_step code (P : Z -> list Z -> Prop) : P code l -> step h os (Ok (code, h, o)) P.
    Proof. intros HP. apply hstep_same; auto. fold arr_value. now rewrite (v_val _ _ _ _ _ _ _ _ VW). Qed.
    Lemma oom_step b : m = false \/ 2 ^ 60 <= demand l b * w -> step h os (Ok (BL_ERROR_OUT_OF_MEMORY, h, o)) (aop_ok w m l b).
    Proof. intros H. apply same_step. right. auto. Qed.
    Lemma bounds : 0 <= size <= cap /\ cap * w <= max_bytes /\ 24 + size * w < 2 ^ 64 /\ size <= len c /\ cap < 2 ^ 64 - 1 /\ size = len l.
    Proof.
      pose proof (size_nonneg _ _ _ _ _ _ _ _ VW). pose proof (v_cap _ _ _ _ _ _ _ _ VW). pose proof (v_bytes _ _ _ _ _ _ _ _ VW).
      pose proof (v_capc _ _ _ _ _ _ _ _ VW). pose proof (v_len _ _ _ _ _ _ _ _ VW). unfold max_bytes in *. assert (size * w <= cap * w) by nia. repeat split; try lia; nia.
    Qed.
    Lemma put_here : set_size h o size = Ok (h, o).
    Proof. pose proof (put_set_size w h os o l size cap mut c W VW size c size) as Q. now rewrite (put_self w h os o l size cap mut c W VW) in Q. Qed.
    Lemma set_size_here n : set_size h o n = Ok (putv h o n c).
    Proof. pose proof (put_set_size w h os o l size cap mut c W VW size c n) as Q. now rewrite (put_self w h os o l size cap mut c W VW) in Q. Qed.
    Lemma store_here c' : store h o c' = Ok (putv h o size c').
    Proof. pose proof (put_store w h os o l size cap mut c W VW size c c') as Q. now rewrite (put_self w h os o l size cap mut c W VW) in Q. Qed.

    Lemma clear_step : step h os (arr_clear w h o) (aop_ok w m l AClear).
    Proof.
      pose proof bounds as (B1 & B2 & B3 & B4 & B5 & B6). pose proof (v_kind _ _ _ _ _ _ _ _ VW) as KD.
      assert (Z0 : size = 0 -> l = []). { intros E. destruct l; auto. unfold len in B6. cbn [length] in B6. lia. }
      destruct o as [s c'|p] eqn:EO; cbn [arr_clear].
      - destruct KD as (-> & -> & HC & LC & _). destruct (Z.eqb_spec size 0) as [E|E].
        + rewrite <- EO in *. apply same_step. left. now rewrite Z0.
        + eapply hstep_sso; [exact W| |].
          * pose proof (K_range w Hw). split; [rewrite <- K_eq; lia|]. split; [unfold len in *; rewrite repeat_length, <- K_eq; lia|]. intros i I; lia.
          * left. reflexivity.
      - destruct KD as (im & E & Es & Ec & Em & MM). unfold get_impl. rewrite E. cbn [bind]. unfold is_impl_mutable. destruct (Z.eqb_spec (rc im) 1) as [R1|R1]; cbn [negb].
        + rewrite Es. destruct (Z.eqb_spec size 0) as [E0|E0].
          * rewrite <- EO in *. apply same_step. left. now rewrite Z0.
          * rewrite <- EO in *. rewrite set_size_here. cbn [bind].
            pose proof (put_step w h os o l size cap mut c W VW 0 c [] BL_SUCCESS (aop_ok w m l AClear) MM (rep_nil c) eq_refl ltac:(lia) eq_refl ltac:(now left)) as Q.
            destruct (putv h o 0 c). exact Q.
        + pose proof (hstep_to_sso (ext := True) (arr_okI w) (arr_okS w) items [] h os (Dyn p) 0 (repeat (Some 0) (Z.to_nat K)) BL_SUCCESS (aop_ok w m l AClear) W) as Q.
          unfold replace_instance in Q. destruct (release h (Dyn p)) as [h1| | |]; cbn [bind] in *; apply Q.
          all: try (left; reflexivity).
          all: pose proof (K_range w Hw); split; [rewrite <- K_eq; lia|]; split; [apply zeros_len; auto|]; intros i I; lia.
    Qed.

    Lemma realloc_step b need s : size <= need -> 24 + need * w <= s -> s < 2 ^ 64 -> (s <= 2 ^ 62 \/ 2 ^ 60 <= need * w) -> need <= demand l b ->
      spec_aop w l b = (BL_SUCCESS, l) -> step h os (realloc_to_dynamic w m h o s) (aop_ok w m l b).
    Proof.
      intros N1 N2 N3 N4 D SP. pose proof bounds as (B1 & B2 & B3 & B4 & B5 & B6). unfold realloc_to_dynamic.
      rewrite (v_size _ _ _ _ _ _ _ _ VW). cbn [bind]. pose proof (init_dynamic_ok w Hw m h size s need ltac:(lia) N1 N2 N3 N4) as I.
      destruct (init_dynamic w m h size s) as [[h1 n]|].
      - destruct I as (d & F & LD). rewrite (fresh_block _ _ _ _ _ _ F). cbn [bind].
        rewrite (proj1 (fresh_self _ _ _ _ _ _ _ _ _ _ _ _ VW F)). cbn [bind].
        destruct (copy_ok size d 0 c l 0 (v_rep _ _ _ _ _ _ _ _ VW)) as (d' & -> & LL & N); try lia. cbn [bind].
        eapply fresh_finish_dm; eauto; [|left; now rewrite SP]. intros j J. rewrite N. unfold len in *. rep_t.
      - apply oom_step. destruct I; [now left|right]. nia.
    Qed.

    Lemma shrink_step ext : step h os (arr_shrink w m ext h o) (aop_ok w m l (AShrink ext)).
    Proof.
      pose proof bounds as (B1 & B2 & B3 & B4 & B5 & B6). pose proof (K_range w Hw) as (K0 & K1).
      assert (OKS : aop_ok w m l (AShrink ext) BL_SUCCESS l) by (now left).
      unfold arr_shrink. rewrite (v_unpack _ _ _ _ _ _ _ _ VW). cbn [bind]. destruct (Z.leb_spec size K).
      - destruct o as [s c'|p] eqn:EO; rewrite <- EO in *; [now apply same_step|]. rewrite (v_block _ _ _ _ _ _ _ _ VW). cbn [bind].
        destruct (copy_ok size (repeat (Some 0) (Z.to_nat K)) 0 c l 0 (v_rep _ _ _ _ _ _ _ _ VW)) as (d' & -> & LL & N); try lia. { rewrite zeros_len; lia. } cbn [bind].
        apply (fresh_done w h os o size h (Sso size d') d' l); auto.
        + right. split; auto. split; auto. split; [|lia]. unfold len. rewrite LL. apply zeros_len; auto.
        + intros j J. rewrite N. unfold len in *. rep_t.
      - destruct ext; [now apply same_step|]. destruct (_ <=? _); [|now apply same_step].
        rewrite impl_size_ok by (auto; lia). apply (realloc_step _ size); auto; try lia. cbn [demand]. lia.
    Qed.

    Lemma reserve_step n : 0 <= n < 2 ^ 64 -> step h os (arr_reserve w m h o n) (aop_ok w m l (AReserve n)).
    Proof.
      intros N0. pose proof bounds as (B1 & B2 & B3 & B4 & B5 & B6). pose proof (K_range w Hw) as (K0 & K1).
      assert (OKS : aop_ok w m l (AReserve n) BL_SUCCESS l) by (now left).
      unfold arr_reserve. rewrite (v_unpack _ _ _ _ _ _ _ _ VW), (v_mut _ _ _ _ _ _ _ _ VW). cbn [bind].
      destruct (_ <=? cap); [now apply same_step|]. destruct (Z.ltb_spec (maximum_capacity w) n) as [MC|MC].
      { apply oom_step. right. cbn [demand]. unfold maximum_capacity, BL_OBJECT_IMPL_MAX_SIZE, sizeof_BLArrayImpl in MC.
        change ((2 ^ 64 - 1) / 2 - 4096 - 24) with (2 ^ 63 - 4121) in MC. 
        assert ((2 ^ 63 - 4121) < n * w). { apply Z.lt_nge. intros Q. assert (n <= (2 ^ 63 - 4121) / w) by (apply Z.div_le_lower_bound; lia). lia. }
        assert (n * w <= Z.max n (len l) * w) by nia. lia. }
      assert (NB : n * w <= 2 ^ 63 - 4121).
      { unfold maximum_capacity, BL_OBJECT_IMPL_MAX_SIZE, sizeof_BLArrayImpl in MC. change ((2 ^ 64 - 1) / 2 - 4096 - 24) with (2 ^ 63 - 4121) in MC.
        pose proof (Z.mul_div_le (2 ^ 63 - 4121) w ltac:(lia)). nia. }
      assert (SB : Z.max n size * w <= 2 ^ 63). { unfold max_bytes in *. destruct (Z.max_spec n size) as [(_ & ->)|(_ & ->)]; nia. }
      destruct (Z.leb_spec (Z.max n size) K).
      - rewrite (v_block _ _ _ _ _ _ _ _ VW). cbn [bind].
        destruct (copy_ok size (repeat (Some 0) (Z.to_nat K)) 0 c l 0 (v_rep _ _ _ _ _ _ _ _ VW)) as (d' & -> & LL & N); try lia. { rewrite zeros_len; lia. } cbn [bind].
        apply (fresh_done w h os o size h (Sso size d') d' l); auto.
        + right. split; auto. split; auto. split; [|lia]. unfold len. rewrite LL. apply zeros_len; auto.
        + intros j J. rewrite N. unfold len in *. rep_t.
      - rewrite impl_size_ok by (auto; lia). apply (realloc_step _ (Z.max n size)); auto; try lia. cbn [demand]. lia.
    Qed.

    Lemma make_mutable_step : step h os (arr_make_mutable w m h o) (aop_ok w m l AMakeMutable).
    Proof.
      pose proof bounds as (B1 & B2 & B3 & B4 & B5 & B6). pose proof (v_kind _ _ _ _ _ _ _ _ VW) as KD.
      assert (OKS : aop_ok w m l AMakeMutable BL_SUCCESS l) by (now left).
      unfold arr_make_mutable. destruct o as [s c'|p] eqn:EO; rewrite <- EO in *; [now apply same_step|].
      destruct KD as (im & E & Es & Ec & Em & MM). unfold get_impl at 1. rewrite E. cbn [bind]. unfold is_impl_mutable.
      destruct (rc im =? 1); [now apply same_step|]. rewrite Es.
      pose proof (init_array_ok w Hw m h size size ltac:(lia) ltac:(lia) ltac:(lia)) as I.
      destruct (init_array w m h size size) as [[h1 n]|].
      - destruct I as (d & F & LD). rewrite (fresh_block _ _ _ _ _ _ F). cbn [bind]. unfold get_impl. rewrite (fresh_nth _ _ _ _ _ _ _ _ F E). cbn [bind].
        rewrite Es, Em.
        destruct (copy_ok size d 0 c l 0 (v_rep _ _ _ _ _ _ _ _ VW)) as (d' & -> & LL & N); try lia. cbn [bind].
        eapply fresh_finish'; eauto. intros j J. rewrite N. unfold len in *. rep_t.
      - apply oom_step. cbn [demand]. rewrite <- B6. exact I.
    Qed.
  End Calls.
End Finish.
