(* replace, remove, assign; every call. *)
From Verif Require Import Base Bits IntOps_Model IntOps_Spec IntOps_Proofs Algorithm_Model Object_Model Object_Spec Object_Proofs Object_Proofs2
  BitArray_Model BitArray_Spec BitArray_Proofs3 Handle_Client Handle_Proofs Array_Model Array_Spec Array_Proofs Array_Proofs2 Array_Proofs3 Array_Proofs4 Array_Proofs5.

Section Ops.
  Context (w : Z) (Hw : 1 <= w <= 32).
  Notation K := (sso_capacity w).
  Notation wfa := (arr_wf w).
  Notation step := (hstep (ext := True) (arr_okI w) (arr_okS w) items []).

  Lemma l_replace_same l i : l_replace l i i [] = l.
  Proof. unfold l_replace, take, drop. cbn [app]. apply firstn_skipn. Qed.

  Section Calls.
    Context (m : bool) (h : heap) (os : list obj) (o : obj) (l : list Z) (size cap : Z) (mut : bool) (c : list cell)
            (W : wfa h (o :: os)) (VW : view w h o l size cap mut c).
    Let Bnd : 0 <= size <= cap /\ cap * w <= max_bytes /\ 24 + size * w < 2 ^ 64 /\ size <= len c /\ cap < 2 ^ 64 - 1 /\ size = len l.
    Proof. exact (bounds w Hw h o l size cap mut c VW). Qed.
    Let R : rep c l. Proof. exact (v_rep _ _ _ _ _ _ _ _ VW). Qed.

    Lemma replace_item_gen i s b : 0 <= i -> src_valid w h o l s 1 ->
      spec_aop w l b = (if len l <=? i then (BL_ERROR_INVALID_VALUE, l) else (BL_SUCCESS, l_replace l i (i + 1) (src_items l s 1))) -> demand l b = len l ->
      step h os (arr_replace_item w m h o i s) (aop_ok w m l b).
    Proof.
      intros I0 SV SP DM. destruct Bnd as (B1 & B2 & B3 & B4 & B5 & B6). pose proof (src_len _ _ _ _ _ _ SV) as SL.
      unfold arr_replace_item. rewrite (v_unpack _ _ _ _ _ _ _ _ VW). cbn [bind]. rewrite B6 in *. destruct (Z.leb_spec (len l) i) as [OUT|IN].
      { apply (same_step w h os o l (len l) cap mut c W VW). left. now rewrite SP. }
      rewrite (v_mut _ _ _ _ _ _ _ _ VW). cbn [bind].
      assert (OKS : aop_ok w m l b BL_SUCCESS (take l i ++ src_items l s 1 ++ drop l (i + 1))) by (left; now rewrite SP).
      assert (LA : len (take l i ++ src_items l s 1 ++ drop l (i + 1)) = len l) by (rewrite !len_app, len_take, len_drop by lia; lia).
      destruct (Sumbool.sumbool_of_bool mut) as [M|M]; rewrite M; cbn [negb].
      - rewrite (v_block _ _ _ _ _ _ _ _ VW). cbn [bind].
        destruct (move_own_ok w h o l c 1 i s R SV) as (c' & -> & LL & N); try lia. cbn [bind].
        eapply (in_store w Hw h os o l (len l) cap mut c); eauto.
        intros j J. rewrite N. rewrite !app_length, take_length, drop_length in J. unfold len in *.
        destruct (_ && _) eqn:Q; [rep_t|]. rewrite R by lia. rep_t.
      - rewrite impl_size_ok by (auto; lia). pose proof (init_dynamic_ok w Hw m h (len l) (24 + len l * w) (len l) ltac:(lia) ltac:(lia) ltac:(lia) ltac:(lia) ltac:(lia)) as I.
        destruct (init_dynamic w m h (len l) (24 + len l * w)) as [[h1 n1]|].
        2:{ apply (oom_step w m h os o l (len l) cap mut c W VW). now rewrite DM. }
        destruct I as (d & F & LD). rewrite (fresh_block _ _ _ _ _ _ F). cbn [bind].
        rewrite (proj1 (fresh_self _ _ _ _ _ _ _ _ _ _ _ _ VW F)). cbn [bind].
        destruct (copy_ok i d 0 c l 0 R) as (d1 & -> & LL1 & N1); try lia. cbn [bind].
        destruct (copy_to_ok w h o l c 1 d1 i s R SV) as (d2 & -> & LL2 & N2); try (unfold len in *; lia). cbn [bind].
        destruct (copy_ok (len l - i - 1) d2 (i + 1) c l (i + 1) R) as (d3 & -> & LL3 & N3); try (unfold len in *; lia). cbn [bind].
        eapply fresh_finish; eauto; [lia|].
        intros j J. rewrite N3, N2, N1. rewrite !app_length, take_length, drop_length in J. unfold len in *. rep_t.
    Qed.
    Lemma replace_item_step i s : 0 <= i -> src_valid w h o l s 1 -> step h os (arr_replace_item w m h o i s) (aop_ok w m l (AReplaceItem i s)).
    Proof. intros I0 SV. now apply replace_item_gen. Qed.
    Lemma replace_value_step i v off : 0 <= i -> src_valid w h o l (SExt off [v]) 1 ->
      step h os (arr_replace_value w m h o i v off) (aop_ok w m l (AReplaceValue i v off)).
    Proof.
      intros I0 SV. destruct Bnd as (B1 & B2 & B3 & B4 & B5 & B6).
      unfold arr_replace_value. rewrite (v_unpack _ _ _ _ _ _ _ _ VW). cbn [bind]. destruct (Z.leb_spec size i) as [OUT|IN].
      { apply (same_step w h os o l size cap mut c W VW). left. cbn [spec_aop]. replace (len l <=? i) with true by lia. reflexivity. }
      rewrite (v_mut _ _ _ _ _ _ _ _ VW). cbn [bind]. destruct (Sumbool.sumbool_of_bool mut) as [M|M]; rewrite M; cbn [negb].
      2:{ apply replace_item_gen; auto. }
      rewrite (v_block _ _ _ _ _ _ _ _ VW). cbn [bind]. rewrite wrc_some by (unfold len in *; lia). cbn [bind].
      assert (LA : len (take l i ++ [v] ++ drop l (i + 1)) = size) by (rewrite !len_app, len_take, len_drop by lia; unfold len at 1; cbn [length]; lia).
      eapply (in_store w Hw h os o l size cap mut c W VW _ (take l i ++ [v] ++ drop l (i + 1))); auto.
      - intros j J. rewrite upd_spec by lia. rewrite !app_length, take_length, drop_length in J. cbn [length] in J. unfold len in *.
        rewrite !nth_app, take_length, nth_take, nth_drop. cbn [length].
        destruct (Z.eqb_spec i (Z.of_nat j)) as [E|E].
        + replace (j <? _)%nat with false by lia. replace (j - _)%nat with 0%nat by lia. reflexivity.
        + destruct (j <? Nat.min (Z.to_nat i) (length l))%nat eqn:Q1.
          * replace (j <? Z.to_nat i)%nat with true by lia. apply R. lia.
          * replace (_ <? 1)%nat with false by lia. rewrite R by lia. f_equal. f_equal. lia.
      - apply upd_len.
      - left. cbn [spec_aop]. replace (len l <=? i) with false by lia. reflexivity.
    Qed.

    (* ---- remove ---- *)
    Lemma remove_range_gen a e0 b : 0 <= a -> 0 <= e0 -> (let e := Z.min e0 (len l) in spec_aop w l b = (BL_SUCCESS, l_replace l (Z.min a e) e [])) -> demand l b = len l ->
      step h os (arr_remove_range w m h o a e0) (aop_ok w m l b).
    Proof.
      cbn beta zeta. intros A0 E0 SP DM. destruct Bnd as (B1 & B2 & B3 & B4 & B5 & B6). unfold arr_remove_range. rewrite (v_unpack _ _ _ _ _ _ _ _ VW). cbn [bind].
      rewrite <- B6 in SP. set (e := Z.min e0 size) in *. set (i := Z.min a e) in *. assert (IE : 0 <= i <= e /\ e <= size) by lia.
      assert (OKS : aop_ok w m l b BL_SUCCESS (take l i ++ drop l e)) by (left; now rewrite SP).
      destruct (Z.eqb_spec (e - i) 0) as [Q|Q].
      { apply (same_step w h os o l size cap mut c W VW). left. rewrite SP. replace i with e by lia. now rewrite l_replace_same. }
      assert (LA : len (take l i ++ drop l e) = size - (e - i)) by (rewrite len_app, len_take, len_drop by lia; lia).
      pose proof (v_kind _ _ _ _ _ _ _ _ VW) as KD. pose proof (v_capc _ _ _ _ _ _ _ _ VW) as CC. replace (i + (e - i)) with e by lia.
      assert (MV : exists c', copy_cells (Z.to_nat (size - e)) c i c e = Ok c' /\ length c' = length c /\ rep c' (take l i ++ drop l e)).
      { destruct (copy_ok (size - e) c i c l e R) as (c' & E & LL & N); try lia. exists c'. split; auto. split; auto.
        intros j J. rewrite N. rewrite !app_length, take_length, drop_length in J. unfold len in *.
        destruct (_ && _) eqn:Q1; [rep_t|]. rewrite R by lia. rep_t. }
      destruct MV as (c' & EM & LL & RM).
      destruct o as [s0 c0|p] eqn:EO; rewrite <- EO in *.
      - destruct KD as (-> & -> & HC & LC & M). cbn [move_own]. rewrite EM. cbn [bind].
        destruct (fill_ok (cap - (size - (e - i))) c' (size - (e - i)) 0) as (c2 & -> & LL2 & N2); try (unfold len in *; lia). cbn [bind].
        pose proof (put_step w h os o l size cap mut c W VW (size - (e - i)) c2 (take l i ++ drop l e) BL_SUCCESS (aop_ok w m l b) M) as PS.
        rewrite EO in PS. cbn [putv] in PS. apply PS; auto; try lia. intros j J. rewrite N2. unfold len in *. replace (_ && _) with false by lia. now apply RM.
      - destruct KD as (im & E & Es & Ec & Em & MM). unfold get_impl. rewrite E. cbn [bind]. unfold is_impl_mutable. rewrite <- MM.
        destruct (Sumbool.sumbool_of_bool mut) as [M|M]; rewrite M; cbn [negb].
        + cbn [move_own]. rewrite Em, EM. cbn [bind].
          pose proof (put_step w h os o l size cap mut c W VW (size - (e - i)) c' (take l i ++ drop l e) BL_SUCCESS _ M RM LA ltac:(lia) LL OKS) as PS.
          rewrite EO in PS |- *. cbn [putv] in PS. rewrite E in PS. exact PS.
        + pose proof (init_array_ok w Hw m h (size - (e - i)) (size - (e - i)) ltac:(lia) ltac:(lia) ltac:(nia)) as I.
          destruct (init_array w m h (size - (e - i)) (size - (e - i))) as [[h1 n1]|].
          2:{ apply (oom_step w m h os o l size cap mut c W VW). rewrite DM. destruct I; [now left|right]. nia. }
          destruct I as (d & F & LD). rewrite (fresh_block _ _ _ _ _ _ F). cbn [bind].
          rewrite (proj1 (fresh_self _ _ _ _ _ _ _ _ _ _ _ _ VW F)). cbn [bind].
          destruct (copy_ok i d 0 c l 0 R) as (d1 & -> & LL1 & N1); try lia. cbn [bind].
          destruct (copy_ok (size - e) d1 i c l e R) as (d2 & -> & LL2 & N2); try (unfold len in *; lia). cbn [bind].
          eapply fresh_finish; eauto; [lia|].
          intros j J. rewrite N2, N1. rewrite !app_length, take_length, drop_length in J. unfold len in *. rep_t.
    Qed.
    Lemma remove_range_step a b : 0 <= a -> 0 <= b -> step h os (arr_remove_range w m h o a b) (aop_ok w m l (ARemoveRange a b)).
    Proof. intros A0 E0. now apply remove_range_gen. Qed.
    Lemma remove_index_step i : 0 <= i < 2 ^ 64 - 1 -> step h os (arr_remove_index w m h o i) (aop_ok w m l (ARemoveIndex i)).
    Proof.
      intros I0. unfold arr_remove_index. rewrite w64_small by lia. apply remove_range_gen; auto; try lia. cbn [spec_aop]. pose proof (len_nonneg l).
      destruct (Z.ltb_spec i (len l)).
      - replace (Z.min (i + 1) (len l)) with (i + 1) by lia. now replace (Z.min i (i + 1)) with i by lia.
      - replace (Z.min (i + 1) (len l)) with (len l) by lia. replace (Z.min i (len l)) with (len l) by lia. now rewrite l_replace_same.
    Qed.

    (* ---- assign_data ---- *)
    Lemma assign_data_gen s n b : src_valid w h o l s n -> ((mut = true /\ n <= cap) \/ n <= size) ->
      spec_aop w l b = (BL_SUCCESS, src_items l s n) -> demand l b = Z.max n (len l) ->
      step h os (arr_assign_data w m h o s n) (aop_ok w m l b).
    Proof.
      intros SV FT SP DM. destruct Bnd as (B1 & B2 & B3 & B4 & B5 & B6). pose proof (src_len _ _ _ _ _ _ SV) as SL.
      assert (N0 : 0 <= n) by (destruct SV; auto). pose proof (v_capc _ _ _ _ _ _ _ _ VW) as CC.
      assert (OKS : aop_ok w m l b BL_SUCCESS (src_items l s n)) by (left; now rewrite SP).
      unfold arr_assign_data. rewrite (v_unpack _ _ _ _ _ _ _ _ VW), (v_mut _ _ _ _ _ _ _ _ VW). cbn [bind].
      rewrite lor_msk_lt by lia. destruct (mut && (n <=? cap)) eqn:FIT; cbn [negb].
      - apply andb_true_iff in FIT as (M & FIT). apply Z.leb_le in FIT. destruct (Z.eqb_spec n 0) as [->|NZ].
        + eapply hstep_weaken; [|apply (clear_step w Hw m h os o l size cap mut c W VW)].
          intros code v [Q|(Q1 & Q2)]; [left|right].
          * cbn [spec_aop] in Q. rewrite Q, SP. destruct s; reflexivity.
          * split; auto. rewrite DM. cbn [demand] in Q1. destruct Q1; [now left|right]. nia.
        + destruct (move_own_ok w h o l c n 0 s R SV) as (c' & E & LL & N); try lia.
          apply (in_size_store w h os o l size cap mut c W VW (fun c1 => move_own n c1 0 s) n c' (src_items l s n)); auto.
          intros j J. rewrite N. unfold len in *. replace (_ && _) with true by lia. f_equal. f_equal. lia.
      - destruct FT as [(M & Q)|Q]. { exfalso. rewrite M in FIT. cbn in FIT. lia. }
        destruct (Z.ltb_spec (maximum_capacity w) n) as [X|X].
        { apply (oom_step w m h os o l size cap mut c W VW). right. rewrite DM. pose proof (proj1 (max_cap w Hw n N0) X). nia. }
        rewrite impl_size_ok by (auto; lia). pose proof (init_dynamic_ok w Hw m h n (24 + size * w) size ltac:(lia) ltac:(lia) ltac:(lia) ltac:(lia) ltac:(lia)) as I.
        destruct (init_dynamic w m h n (24 + size * w)) as [[h1 n1]|].
        2:{ apply (oom_step w m h os o l size cap mut c W VW). rewrite DM. destruct I; [now left|right]. nia. }
        destruct I as (d & F & LD). rewrite (fresh_block _ _ _ _ _ _ F). cbn [bind].
        rewrite (proj1 (fresh_self _ _ _ _ _ _ _ _ _ _ _ _ VW F)).
        destruct (copy_to_ok w h o l c n d 0 s R SV) as (d2 & -> & LL2 & N2); try (unfold len in *; lia). cbn [bind].
        eapply fresh_finish; eauto. intros j J. rewrite N2. unfold len in *. replace (_ && _) with true by lia. f_equal. f_equal. lia.
    Qed.

    (* ---- replace_data ---- *)
    Lemma replace_data_step a e0 s n : aop_safe w h o (AReplaceData a e0 s n) ->
      step h os (arr_replace_data w m h o a e0 s n) (aop_ok w m l (AReplaceData a e0 s n)).
    Proof.
      cbn [aop_safe]. rewrite (v_val _ _ _ _ _ _ _ _ VW), (v_acap _ _ _ _ _ _ _ _ VW). intros (A0 & E0 & SV & HS).
      destruct Bnd as (B1 & B2 & B3 & B4 & B5 & B6). pose proof (src_len _ _ _ _ _ _ SV) as SL. pose proof (src_bound w Hw h o l size cap mut c VW _ _ SV) as (N0 & NB).
      pose proof (v_capc _ _ _ _ _ _ _ _ VW) as CC.
      unfold arr_replace_data. rewrite (v_unpack _ _ _ _ _ _ _ _ VW). cbn [bind].
      assert (SP : spec_aop w l (AReplaceData a e0 s n) = (BL_SUCCESS, l_replace l (Z.min a (Z.min e0 (len l))) (Z.min e0 (len l)) (src_items l s n))) by reflexivity.
      rewrite <- B6 in SP, HS. set (e := Z.min e0 size) in *. set (i := Z.min a e) in *. assert (IE : 0 <= i <= e /\ e <= size) by lia.
      destruct (Z.eqb_spec (e - i) 0) as [Q|Q].
      { apply (insert_data_gen w Hw m h os o l size cap mut c W VW); auto; [lia|]. rewrite SP. unfold l_replace, l_insert. now replace e with i by lia. }
      assert (OKS : aop_ok w m l (AReplaceData a e0 s n) BL_SUCCESS (take l i ++ src_items l s n ++ drop l e)) by (left; now rewrite SP).
      unfold max_bytes in *. assert (size * w <= cap * w) by nia.
      set (sa := size - (e - i) + n). assert (SA : w64 sa = sa) by (apply w64_small; nia). rewrite SA.
      assert (LA : len (take l i ++ src_items l s n ++ drop l e) = sa) by (rewrite !len_app, len_take, len_drop by lia; lia).
      rewrite (v_mut _ _ _ _ _ _ _ _ VW). cbn [bind].
      destruct (mut && ((size * n <=? src_off w s) || (src_off w s + n * w <=? 0))) eqn:FAST.
      - apply andb_true_iff in FAST as (M & FAST). pose proof (proj2 (v_amut _ _ _ _ _ _ _ _ VW) M) as AM.
        assert (HF : (n = e - i \/ e = size /\ i + n <= cap) /\ match s with SExt _ _ => True | SIn k => k + n <= i \/ i + n <= k end).
        { destruct HS as [HS|[HS|[HS|HS]]]; auto; try lia; try tauto. exfalso. destruct s as [off e1|k]; cbn [src_off] in FAST.
          - assert (0 <= n * w) by nia. lia.
          - destruct SV as (_ & K0 & K1). assert (size * n <= k * w \/ (k * w + n * w <= 0)) as [X|X] by lia; [lia|]. assert (k = 0 /\ n = 0) as (-> & ->) by nia. lia. }
        destruct HF as (HF & HD).
        assert (DJ : match s with SExt _ _ => True | SIn k => k + n <= i \/ i + n <= k \/ n = 0 end) by (destruct s; auto; lia).
        rewrite (v_block _ _ _ _ _ _ _ _ VW). destruct (Z.eqb_spec (e - i) n) as [EN|EN].
        + cbn [bind]. destruct (copy_own_ok w h o l c n i s R SV) as (c' & -> & LL & N); auto; try lia. cbn [bind].
          apply (in_store w Hw h os o l size cap mut c W VW c' (take l i ++ src_items l s n ++ drop l e)); auto; [|unfold sa in *; lia].
          intros j J. rewrite N. rewrite !app_length, take_length, drop_length in J. unfold len in *.
          destruct (_ && _) eqn:Q1; [rep_t|]. rewrite R by lia. rep_t.
        + cbn [bind]. assert (EE : e = size) by lia. assert (FC : i + n <= cap) by lia. rewrite EE, Z.sub_diag. cbn [move_own Z.to_nat copy_cells bind].
          destruct (copy_own_ok w h o l c n i s R SV) as (c' & -> & LL & N); auto; try lia. cbn [bind].
          apply (in_store_size w h os o l size cap mut c W VW sa c' (take l i ++ src_items l s n ++ drop l e)); auto; [|unfold sa in *; lia].
          intros j J. rewrite N. rewrite !app_length, take_length, drop_length in J. unfold len in *.
          destruct (_ && _) eqn:Q1; [rep_t|]. rewrite R by lia. rep_t.
      - pose proof (init_array_ok w Hw m h sa sa ltac:(lia) ltac:(lia) ltac:(nia)) as I.
        destruct (init_array w m h sa sa) as [[h1 n1]|].
        2:{ apply (oom_step w m h os o l size cap mut c W VW). cbn [demand]. destruct I; [now left|right]. nia. }
        destruct I as (d & F & LD). rewrite (fresh_block _ _ _ _ _ _ F). cbn [bind].
        rewrite (proj1 (fresh_self _ _ _ _ _ _ _ _ _ _ _ _ VW F)). cbn [bind].
        destruct (copy_ok i d 0 c l 0 R) as (d1 & -> & LL1 & N1); try lia. cbn [bind].
        destruct (copy_to_ok w h o l c n d1 i s R SV) as (d2 & -> & LL2 & N2); try (unfold len in *; lia). cbn [bind].
        replace (i + (e - i)) with e by lia.
        destruct (copy_ok (size - e) d2 (i + n) c l e R) as (d3 & -> & LL3 & N3); try (unfold len in *; lia). cbn [bind].
        eapply fresh_finish; eauto; [lia|].
        intros j J. rewrite N3, N2, N1. rewrite !app_length, take_length, drop_length in J. unfold len in *. rep_t.
    Qed.
  End Calls.

  (* ---- every call ---- *)
  Lemma aop_step (m : bool) h os o b : wfa h (o :: os) -> aop_safe w h o b -> step h os (run_aop w m h o b) (aop_ok w m (arr_value h o) b).
  Proof.
    intros W SF. destruct (view_of w Hw h os o W) as (size & cap & mut & c & VW). pose proof (v_len _ _ _ _ _ _ _ _ VW) as VL.
    pose proof SF as SF'. destruct b; cbn [run_aop]; cbn [aop_safe] in SF; cbn zeta in SF; rewrite ?VL in SF.
    - eapply clear_step; eauto.
    - eapply shrink_step; eauto.
    - eapply resize_step; eauto.
    - eapply reserve_step; eauto.
    - eapply make_mutable_step; eauto.
    - eapply modify_write_step; eauto.
    - destruct SF. eapply insert_op_step; eauto.
    - eapply insert_value_step; eauto.
    - eapply external_step; eauto.
    - eapply append_data_step; eauto.
    - eapply append_item_step; eauto.
    - eapply append_value_step; eauto.
    - destruct SF. eapply insert_data_step; eauto.
    - destruct SF. eapply replace_item_step; eauto.
    - destruct SF. eapply replace_value_step; eauto.
    - destruct SF. eapply remove_range_step; eauto.
    - eapply remove_index_step; eauto.
    - destruct SF as (SV & FT). eapply assign_data_gen; eauto. rewrite (v_acap _ _ _ _ _ _ _ _ VW), (v_amut _ _ _ _ _ _ _ _ VW) in FT. exact FT.
    - eapply replace_data_step; eauto.
  Qed.
End Ops.
