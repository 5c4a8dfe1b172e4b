(* append, insert_data. *)
From Verif Require Import Base Bits IntOps_Model IntOps_Spec IntOps_Proofs Algorithm_Model Object_Model Object_Spec Object_Proofs Object_Proofs2
  BitArray_Model BitArray_Spec BitArray_Proofs3 Handle_Client Handle_Proofs Array_Model Array_Spec Array_Proofs Array_Proofs2 Array_Proofs3 Array_Proofs4.

Section Ops.
  Context (w : Z) (Hw : 1 <= w <= 32).
  Notation K := (sso_capacity w).
  Notation wfa := (arr_wf w).
  Notation step := (hstep (ext := True) (arr_okI w) (arr_okS w) items []).

  Lemma copy_to_ok h o l c n d di s : rep c l -> src_valid w h o l s n -> 0 <= di -> di + n <= len d ->
    exists d', copy_to n d di (Ok c) s = Ok d' /\ length d' = length d /\
      forall j, nth_error d' j = if (di <=? Z.of_nat j) && (Z.of_nat j <? di + n) then option_map Some (nth_error (src_items l s n) (j - Z.to_nat di)) else nth_error d j.
  Proof.
    intros R (N0 & SV) D0 D1. destruct s as [off e|i]; cbn [copy_to src_items bind].
    - destruct (copy_ok n d di (map Some e) e 0 (rep_map e)) as (d' & E & LL & N); try lia. exists d'. split; auto. split; auto.
      intros j. rewrite N. destruct (_ && _) eqn:Q; auto. rep_t.
    - destruct (copy_ok n d di c l i R) as (d' & E & LL & N); try lia. exists d'. split; auto. split; auto.
      intros j. rewrite N. destruct (_ && _) eqn:Q; auto. rep_t.
  Qed.
  (* a source inside of the array is read before it is overwritten: only for disjoint ranges *)
  Lemma copy_own_ok h o l c n di s : rep c l -> src_valid w h o l s n -> 0 <= di -> di + n <= len c ->
    match s with SExt _ _ => True | SIn k => k + n <= di \/ di + n <= k \/ n = 0 end ->
    exists d', copy_own n c di s = Ok d' /\ length d' = length c /\
      forall j, nth_error d' j = if (di <=? Z.of_nat j) && (Z.of_nat j <? di + n) then option_map Some (nth_error (src_items l s n) (j - Z.to_nat di)) else nth_error c j.
  Proof.
    intros R SV D0 D1 DJ. destruct (copy_to_ok h o l c n c di s R SV D0 D1) as (d' & E & Q). exists d'. split; auto.
    destruct s as [off e|i]; auto. cbn [copy_own copy_to bind] in *. replace ((0 <? n) && (i <? di + n) && (di <? i + n)) with false by lia. exact E.
  Qed.
  Lemma move_own_ok h o l c n di s : rep c l -> src_valid w h o l s n -> 0 <= di -> di + n <= len c ->
    exists d', move_own n c di s = Ok d' /\ length d' = length c /\
      forall j, nth_error d' j = if (di <=? Z.of_nat j) && (Z.of_nat j <? di + n) then option_map Some (nth_error (src_items l s n) (j - Z.to_nat di)) else nth_error c j.
  Proof. intros R SV D0 D1. exact (copy_to_ok h o l c n c di s R SV D0 D1). Qed.

  Section Calls.
    Context (m : bool) (h : heap) (os : list obj) (o : obj) (l : list Z) (size cap : Z) (mut : bool) (c : list cell)
            (W : wfa h (o :: os)) (VW : view w h o l size cap mut c).
    Let Bnd : 0 <= size <= cap /\ cap * w <= max_bytes /\ 24 + size * w < 2 ^ 64 /\ size <= len c /\ cap < 2 ^ 64 - 1 /\ size = len l.
    Proof. exact (bounds w Hw h o l size cap mut c VW). Qed.
    Let R : rep c l. Proof. exact (v_rep _ _ _ _ _ _ _ _ VW). Qed.

    Lemma src_bound s n : src_valid w h o l s n -> 0 <= n /\ n * w <= max_bytes.
    Proof. destruct Bnd as (B1 & B2 & B3 & B4 & B5 & B6). intros (N0 & SV). destruct s; split; auto; nia. Qed.

    (* one item more *)
    Lemma append_gen s n (b : aop) : src_valid w h o l s n -> spec_aop w l b = (BL_SUCCESS, l ++ src_items l s n) -> demand l b = len l + n ->
      (mut = true -> size + n <= cap ->
       step h os (let* c1 := block h o (own_loc o) in let* c1 := copy_own n c1 size s in let* (h1, self) := store h o c1 in
                  let* (h2, self) := set_size h1 self (size + n) in Ok (BL_SUCCESS, h2, self)) (aop_ok w m l b)) /\
      (24 + (size + n) * w < 2 ^ 64 ->
       step h os (let* impl_size := expand_impl_size (impl_size_from_capacity w (size + n)) in
        match init_dynamic w m h (size + n) impl_size with
        | None => Ok (BL_ERROR_OUT_OF_MEMORY, h, o)
        | Some (h1, newO) =>
          let* (h1, self) := if mut then set_size h1 o 0 else Ok (h1, o) in
          let* dst := block h1 newO (own_loc newO) in
          let* src := block h1 self (own_loc o) in
          let* dst := copy_cells (Z.to_nat size) dst 0 src 0 in
          let* dst := copy_to n dst size (block h1 self (own_loc o)) s in
          let* (h2, newO) := store h1 newO dst in
          let* (h3, self) := replace_instance h2 self newO in
          Ok (BL_SUCCESS, h3, self)
        end) (aop_ok w m l b)).
    Proof.
      intros SV SP DM. destruct Bnd as (B1 & B2 & B3 & B4 & B5 & B6). pose proof (src_bound _ _ SV) as (N0 & NB). pose proof (src_len _ _ _ _ _ _ SV) as SL.
      pose proof (v_capc _ _ _ _ _ _ _ _ VW) as CC.
      assert (OKS : aop_ok w m l b BL_SUCCESS (l ++ src_items l s n)) by (left; now rewrite SP).
      assert (LA : len (l ++ src_items l s n) = size + n) by (rewrite len_app; lia).
      split.
      - intros M FIT. rewrite (v_block _ _ _ _ _ _ _ _ VW). cbn [bind].
        destruct (copy_own_ok h o l c n size s R SV) as (c' & -> & LL & N); try lia. { destruct s; auto. destruct SV as (_ & SV). lia. } cbn [bind].
        eapply (in_store_size w h os o l size cap mut c); eauto.
        intros j J. rewrite N. unfold len in *. rewrite app_length in J. destruct (_ && _) eqn:Q; [rep_t|]. rewrite R by lia. rep_t.
      - intros SB. destruct (expand_dynamic_ok w Hw m h (size + n) (size + n)) as (sz & -> & I); try lia. cbn [bind].
        destruct (init_dynamic w m h (size + n) sz) as [[h1 n1]|].
        2:{ apply (oom_step w m h os o l size cap mut c W VW). rewrite DM. rewrite <- B6. exact I. }
        destruct I as (d & F & LD).
        destruct (fresh_maybe _ mut _ _ _ _ _ _ _ _ _ _ _ _ W VW (fun x => x) F) as (h3 & o' & h0 & -> & W0 & V0 & F0 & BB). cbn [bind].
        rewrite (fresh_block _ _ _ _ _ _ F0). cbn [bind]. rewrite BB. cbn [bind].
        destruct (copy_ok size d 0 c l 0 R) as (d1 & -> & LL1 & N1); try lia. cbn [bind].
        destruct (copy_to_ok h o l c n d1 size s R SV) as (d2 & -> & LL2 & N2); try (unfold len in *; lia). cbn [bind].
        apply (step_from w h h0); auto. eapply fresh_finish; eauto; [lia|].
        intros j J. rewrite N2, N1. rewrite app_length in J. unfold len in *. rep_t.
    Qed.

    Lemma append_data_step s n : src_valid w h o l s n -> step h os (arr_append_data w m h o s n) (aop_ok w m l (AAppendData s n)).
    Proof.
      intros SV. destruct Bnd as (B1 & B2 & B3 & B4 & B5 & B6). pose proof (src_bound _ _ SV) as (N0 & NB).
      destruct (append_gen s n (AAppendData s n) SV eq_refl eq_refl) as (P1 & P2).
      unfold arr_append_data. rewrite (v_unpack _ _ _ _ _ _ _ _ VW), (v_mut _ _ _ _ _ _ _ _ VW). cbn [bind].
      unfold max_bytes in *. assert (size * w <= cap * w) by nia. assert (SB : 24 + (size + n) * w < 2 ^ 64) by nia.
      assert (L64 : size + n < 2 ^ 64) by nia. rewrite sat_ok by nia. rewrite Z.min_l by lia.
      rewrite lor_msk_lt by lia. destruct (mut && (size + n <=? cap)) eqn:FIT; cbn [negb].
      - apply andb_true_iff in FIT as (M & FIT). apply P1; auto. apply Z.leb_le in FIT. lia.
      - destruct (Z.ltb_spec (maximum_capacity w) (size + n)) as [X|X]; [|now apply P2].
        apply (oom_step w m h os o l size cap mut c W VW). right. cbn [demand]. rewrite <- B6. now apply max_cap; [auto|lia|].
    Qed.
    Lemma append_item_gen s b : src_valid w h o l s 1 -> spec_aop w l b = (BL_SUCCESS, l ++ src_items l s 1) -> demand l b = len l + 1 ->
      step h os (arr_append_item w m h o s) (aop_ok w m l b).
    Proof.
      intros SV SP DM. destruct Bnd as (B1 & B2 & B3 & B4 & B5 & B6).
      destruct (append_gen s 1 b SV SP DM) as (P1 & P2).
      unfold arr_append_item. rewrite (v_unpack _ _ _ _ _ _ _ _ VW), (v_mut _ _ _ _ _ _ _ _ VW). cbn [bind].
      unfold max_bytes in *. assert (size * w <= cap * w) by nia. assert (SB : 24 + (size + 1) * w < 2 ^ 64) by nia.
      rewrite w64_small by nia.
      assert (E : (cap <=? Z.lor size (immutable_msk mut)) = negb (mut && (size + 1 <=? cap))).
      { unfold immutable_msk. destruct mut; cbn [negb andb].
        - change (bool_as_mask 64 false false) with 0. rewrite Z.lor_0_r. lia.
        - change (bool_as_mask 64 false true) with (2 ^ 64 - 1). rewrite lor_mask64 by lia. lia. }
      rewrite E. destruct (mut && (size + 1 <=? cap)) eqn:FIT; cbn [negb].
      - apply andb_true_iff in FIT as (M & FIT). apply P1; auto. apply Z.leb_le in FIT. lia.
      - destruct (Z.leb_spec (maximum_capacity w) size) as [X|X]; [|now apply P2].
        apply (oom_step w m h os o l size cap mut c W VW). right. rewrite DM, <- B6. apply max_cap; auto; lia.
    Qed.
    Lemma append_item_step s : src_valid w h o l s 1 -> step h os (arr_append_item w m h o s) (aop_ok w m l (AAppendItem s)).
    Proof. intros SV. now apply append_item_gen. Qed.
    Lemma upd_spec (d : list cell) i v j : 0 <= i < len d -> nth_error (upd d (Z.to_nat i) (Some v)) j = if (i =? Z.of_nat j) then Some (Some v) else nth_error d j.
    Proof.
      intros I. unfold len in I. destruct (Z.eqb_spec i (Z.of_nat j)) as [->|N].
      - rewrite Nat2Z.id. apply nth_upd_eq. lia.
      - apply nth_upd_neq. lia.
    Qed.
    Lemma append_value_step v off : src_valid w h o l (SExt off [v]) 1 -> step h os (arr_append_value w m h o v off) (aop_ok w m l (AAppendValue v off)).
    Proof.
      intros SV. destruct Bnd as (B1 & B2 & B3 & B4 & B5 & B6). pose proof (v_capc _ _ _ _ _ _ _ _ VW) as CC.
      unfold arr_append_value. rewrite (v_unpack _ _ _ _ _ _ _ _ VW), (v_mut _ _ _ _ _ _ _ _ VW). cbn [bind].
      destruct (match o with Sso _ _ => size =? cap | Dyn _ => cap <=? Z.lor size (immutable_msk mut) end) eqn:FULL.
      - apply append_item_gen; auto.
      - assert (FIT : mut = true /\ size < cap).
        { pose proof (v_kind _ _ _ _ _ _ _ _ VW) as KD. destruct o as [s0 c0|p].
          - split; [tauto|lia].
          - unfold immutable_msk in FULL. destruct mut; cbn [negb] in FULL.
            + change (bool_as_mask 64 false false) with 0 in FULL. rewrite Z.lor_0_r in FULL. lia.
            + change (bool_as_mask 64 false true) with (2 ^ 64 - 1) in FULL. rewrite lor_mask64 in FULL by lia. lia. }
        destruct FIT as (M & FIT).
        apply (in_size_store w h os o l size cap mut c W VW (fun c1 => wrc c1 size v) (size + 1) (upd c (Z.to_nat size) (Some v)) (l ++ [v])); auto.
        + apply wrc_some. unfold len in *. lia.
        + intros j J. rewrite upd_spec by lia. rewrite app_length in J. cbn [length] in J. unfold len in *. rewrite nth_app.
          destruct (Z.eqb_spec size (Z.of_nat j)) as [E|E].
          * replace (j <? length l)%nat with false by lia. replace (j - length l)%nat with 0%nat by lia. reflexivity.
          * replace (j <? length l)%nat with true by lia. apply R. lia.
        + rewrite len_app. unfold len at 2. cbn [length]. lia.
        + lia.
        + apply upd_len.
        + now left.
    Qed.

    (* ---- insert_data ---- *)
    Lemma insert_data_gen i s n b : 0 <= i <= size -> src_valid w h o l s n -> spec_aop w l b = (BL_SUCCESS, l_insert l i (src_items l s n)) -> demand l b = len l + n ->
      step h os (arr_insert_data w m h o i s n) (aop_ok w m l b).
    Proof.
      intros I0 SV SP DM. destruct Bnd as (B1 & B2 & B3 & B4 & B5 & B6). pose proof (src_bound _ _ SV) as (N0 & NB). pose proof (src_len _ _ _ _ _ _ SV) as SL.
      pose proof (v_capc _ _ _ _ _ _ _ _ VW) as CC. pose proof (v_acap _ _ _ _ _ _ _ _ VW) as AC.
      unfold arr_insert_data. rewrite (v_unpack _ _ _ _ _ _ _ _ VW), (v_mut _ _ _ _ _ _ _ _ VW). cbn [bind].
      unfold max_bytes in *. assert (size * w <= cap * w) by nia. assert (SB : 24 + (size + n) * w < 2 ^ 64) by nia.
      assert (L64 : size + n < 2 ^ 64) by nia. rewrite sat_ok by nia. rewrite Z.min_l by lia. rewrite (w64_small (i + n)) by lia.
      assert (OKS : aop_ok w m l b BL_SUCCESS (take l i ++ src_items l s n ++ drop l i)) by (left; now rewrite SP).
      assert (LA : len (take l i ++ src_items l s n ++ drop l i) = size + n) by (rewrite !len_app, len_take, len_drop by lia; lia).
      rewrite lor_msk_lt by lia. destruct (mut && (size + n <=? cap)) eqn:FIT; cbn [negb].
      - apply andb_true_iff in FIT as (M & FIT). apply Z.leb_le in FIT. rewrite (v_block _ _ _ _ _ _ _ _ VW). cbn [bind]. unfold move_own at 1.
        destruct (copy_ok (size - i) c (i + n) c l i R) as (c1 & -> & LL1 & N1); try lia. cbn [bind].
        set (x := src_items l s n) in *.
        (* the source is copied in two parts *)
        assert (FINAL : forall c2, length c2 = length c -> (forall j, nth_error c2 j = if (i <=? Z.of_nat j) && (Z.of_nat j <? i + n) then option_map Some (nth_error x (j - Z.to_nat i)) else nth_error c1 j) ->
          step h os (let* (h1, self) := store h o c2 in let* (h2, self) := set_size h1 self (size + n) in Ok (BL_SUCCESS, h2, self)) (aop_ok w m l b)).
        { intros c2 LL2 N2. eapply (in_store_size w h os o l size cap mut c); eauto.
          intros j J. rewrite N2, N1. rewrite !app_length, take_length, drop_length in J. unfold len in *.
          destruct ((i <=? Z.of_nat j) && (Z.of_nat j <? i + n)) eqn:Q1; [rep_t|].
          destruct ((i + n <=? Z.of_nat j) && (Z.of_nat j <? i + n + (size - i))) eqn:Q2; [rep_t|]. rewrite R by lia. rep_t. }
        destruct s as [off e|k].
        + destruct SV as (_ & EL & EB & OV). rewrite AC in OV. cbn [src_off].
          assert (XE : x = take e n) by reflexivity.
          destruct (Z.ltb_spec off (i * w)) as [LO|LO].
          * assert (OFN : off + len e * w <= 0). { destruct OV; auto. exfalso. assert (cap * w <= off < i * w) by lia. nia. }
            replace (Z.min (i * w - off) (n * w) / w) with n. 2:{ rewrite Z.min_r by nia. symmetry. apply Z.div_mul. lia. }
            cbn [copy_own]. destruct (copy_ok n c1 i (map Some e) e 0 (rep_map e)) as (c2 & -> & LL2 & N2); try lia. { unfold len in *. lia. } cbn [bind].
            rewrite Z.sub_diag. cbn [Z.to_nat src_add]. set (s2 := if src_off w _ <? _ then _ else _).
            assert (E0 : forall s', copy_own 0 c2 (i + n) s' = Ok c2) by (intros [? ?|?]; reflexivity). rewrite E0. cbn [bind]. apply FINAL; [lia|].
            intros j. rewrite N2, XE. destruct (_ && _) eqn:Q1; auto. rep_t.
          * change (Z.to_nat 0) with 0%nat. cbn [copy_own copy_cells bind src_add src_off]. rewrite Z.add_0_r, Z.sub_0_r.
            change (Z.to_nat 0) with 0%nat. cbn [copy_cells skipn bind]. rewrite Z.mul_0_l, Z.add_0_r.
            assert (CASE : n = 0 \/ (size + n) * w <= off). { destruct OV as [OV|OV]; [left|right]. - assert (0 <= off) by nia. pose proof (len_nonneg e). assert (len e * w <= 0) by lia. nia. - nia. }
            destruct CASE as [->|C1].
            { set (s2 := if _ <? _ then _ else _). assert (E0 : forall s', copy_own 0 c1 i s' = Ok c1) by (intros [? ?|?]; reflexivity). rewrite E0. cbn [bind]. apply FINAL; [lia|].
              intros j. replace (_ && _) with false by lia. reflexivity. }
            replace (off <? (size + n) * w) with false by lia. cbn [copy_own].
            destruct (copy_ok n c1 i (map Some e) e 0 (rep_map e)) as (c2 & -> & LL2 & N2); try lia. { unfold len in *. lia. } cbn [bind]. apply FINAL; [lia|].
            intros j. rewrite N2, XE. destruct (_ && _) eqn:Q1; auto. rep_t.
        + destruct SV as (_ & K0 & K1). cbn [src_off]. assert (XE : x = take (drop l k) n) by reflexivity.
          set (lead := if k * w <? i * w then Z.min (i * w - k * w) (n * w) / w else 0).
          assert (LEAD : lead = Z.min (Z.max (i - k) 0) n).
          { unfold lead. destruct (Z.ltb_spec (k * w) (i * w)) as [Q|Q].
            - replace (i * w - k * w) with ((i - k) * w) by ring. rewrite Z.mul_min_distr_nonneg_r by lia. rewrite Z.div_mul by lia. nia.
            - nia. }
          clearbody lead. cbn [copy_own src_add src_off].
          assert (RL : rep c1 (take l i)). { intros j J. rewrite take_length in J. rewrite N1. unfold len in *. replace (_ && _) with false by lia. rewrite R by lia. rep_t. }
          replace ((0 <? lead) && (k <? i + lead) && (i <? k + lead)) with false by lia.
          assert (HC : exists c2, copy_cells (Z.to_nat lead) c1 i c1 k = Ok c2 /\ length c2 = length c1 /\
             forall j, nth_error c2 j = if (i <=? Z.of_nat j) && (Z.of_nat j <? i + lead) then option_map Some (nth_error l (j - Z.to_nat i + Z.to_nat k)) else nth_error c1 j).
          { destruct (Z.eq_dec lead 0) as [->|NZ].
            - exists c1. split; [reflexivity|]. split; auto. intros j. replace (_ && _) with false by lia. reflexivity.
            - destruct (copy_ok lead c1 i c1 (take l i) k RL) as (c2 & E & LL2 & N2); try lia. { rewrite len_take; lia. } { unfold len in *; lia. }
              exists c2. split; auto. split; auto. intros j. rewrite N2. destruct (_ && _) eqn:Q1; auto. rep_t. }
          destruct HC as (c2 & -> & LL2 & N2). cbn [bind].
          destruct (Z.eq_dec n lead) as [EL|EL].
          { rewrite EL, Z.sub_diag. set (s2 := if _ <? _ then _ else _). assert (E0 : forall s', copy_own 0 c2 (i + lead) s' = Ok c2) by (intros [? ?|?]; reflexivity).
            change (match s2 with SExt _ l0 => copy_cells (Z.to_nat 0) c2 (i + lead) (map Some l0) 0 | SIn i0 => if (0 <? 0) && (i0 <? i + lead + 0) && (i + lead <? i0 + 0) then UB else copy_cells (Z.to_nat 0) c2 (i + lead) c2 i0 end) with (copy_own 0 c2 (i + lead) s2).
            rewrite E0. cbn [bind]. rewrite <- EL. apply FINAL; [lia|]. intros j. rewrite N2, XE, <- EL. destruct (_ && _) eqn:Q1; auto. rep_t. }
          replace ((k + lead) * w <? (size + n) * w) with true by nia.
          (* the part behind the insertion point has moved by n *)
          assert (HD : exists c3, copy_cells (Z.to_nat (n - lead)) c2 (i + lead) c2 (k + lead + n) = Ok c3 /\ length c3 = length c2 /\
             forall j, nth_error c3 j = if (i + lead <=? Z.of_nat j) && (Z.of_nat j <? i + n) then option_map Some (nth_error l (j - Z.to_nat i + Z.to_nat k)) else nth_error c2 j).
          { destruct (copy_cells_ok (Z.to_nat (n - lead)) c2 (i + lead) c2 (k + lead + n)) as (c3 & E & LL3 & N3); try (unfold len in *; lia).
            { intros j J. rewrite N2. unfold len in *. replace (_ && _) with false by lia. rewrite N1. replace (_ && _) with true by lia.
              destruct (nth_some l (Z.to_nat j - Z.to_nat (i + n) + Z.to_nat i)) as (v & ->); [lia|]. now exists v. }
            exists c3. split; auto. split; auto. intros j. specialize (N3 (Z.of_nat j) ltac:(lia)). rewrite Nat2Z.id in N3. rewrite N3.
            replace ((i + lead <=? Z.of_nat j) && (Z.of_nat j <? i + lead + Z.of_nat (Z.to_nat (n - lead)))) with ((i + lead <=? Z.of_nat j) && (Z.of_nat j <? i + n)) by lia. clear N3.
            destruct ((i + lead <=? Z.of_nat j) && (Z.of_nat j <? i + n)) eqn:Q1; auto. rewrite N2. unfold len in *. replace (_ && _) with false by lia. rewrite N1. replace (_ && _) with true by lia. f_equal. f_equal. lia. }
          cbn [copy_own].
          replace ((0 <? n - lead) && (k + lead + n <? i + lead + (n - lead)) && (i + lead <? k + lead + n + (n - lead))) with false by lia.
          destruct HD as (c3 & -> & LL3 & N3). cbn [bind]. apply FINAL; [lia|]. intros j. rewrite N3, N2, XE.
          destruct ((i <=? Z.of_nat j) && (Z.of_nat j <? i + n)) eqn:Q0; rep_t.
      - destruct (Z.ltb_spec (maximum_capacity w) (size + n)) as [X|X].
        { apply (oom_step w m h os o l size cap mut c W VW). right. rewrite DM, <- B6. apply max_cap; auto. lia. }
        destruct (expand_dynamic_ok w Hw m h (size + n) (size + n)) as (sz & -> & I); try lia. cbn [bind].
        destruct (init_dynamic w m h (size + n) sz) as [[h1 n1]|].
        2:{ apply (oom_step w m h os o l size cap mut c W VW). rewrite DM, <- B6. exact I. }
        destruct I as (d & F & LD).
        destruct (fresh_maybe _ mut _ _ _ _ _ _ _ _ _ _ _ _ W VW (fun x => x) F) as (h3 & o' & h0 & -> & W0 & V0 & F0 & BB). cbn [bind].
        rewrite (fresh_block _ _ _ _ _ _ F0). cbn [bind]. rewrite BB. cbn [bind].
        destruct (copy_ok i d 0 c l 0 R) as (d1 & -> & LL1 & N1); try lia. cbn [bind].
        destruct (copy_ok (size - i) d1 (i + n) c l i R) as (d2 & -> & LL2 & N2); try (unfold len in *; lia). cbn [bind].
        destruct (copy_to_ok h o l c n d2 i s R SV) as (d3 & -> & LL3 & N3); try (unfold len in *; lia). cbn [bind].
        apply (step_from w h h0); auto. eapply fresh_finish; eauto; [lia|].
        intros j J. rewrite N3, N2, N1. rewrite !app_length, take_length, drop_length in J. unfold len in *. rep_t.
    Qed.
    Lemma insert_data_step i s n : 0 <= i <= size -> src_valid w h o l s n -> step h os (arr_insert_data w m h o i s n) (aop_ok w m l (AInsertData i s n)).
    Proof. intros I0 SV. now apply insert_data_gen. Qed.
  End Calls.
End Ops.
