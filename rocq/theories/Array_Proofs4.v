(* modify_op, resize, insert_op, assign_external_data. *)
From Verif Require Import Base Bits IntOps_Model IntOps_Spec IntOps_Proofs Algorithm_Model Object_Model Object_Spec Object_Proofs Object_Proofs2
  BitArray_Model BitArray_Spec BitArray_Proofs3 Handle_Client Handle_Proofs Array_Model Array_Spec Array_Proofs Array_Proofs2 Array_Proofs3.

Section Ops.
  Context (w : Z) (Hw : 1 <= w <= 32).
  Notation K := (sso_capacity w).
  Notation wfa := (arr_wf w).
  Notation step := (hstep (ext := True) (arr_okI w) (arr_okS w) items []).
  Notation opened := (opened w).

  Lemma max_cap n : 0 <= n -> (maximum_capacity w < n -> 2 ^ 60 <= n * w) /\ (n <= maximum_capacity w -> 24 + n * w <= 2 ^ 63 - 4097).
  Proof.
    intros N. unfold maximum_capacity, BL_OBJECT_IMPL_MAX_SIZE, sizeof_BLArrayImpl. change ((2 ^ 64 - 1) / 2 - 4096 - 24) with (2 ^ 63 - 4121).
    pose proof (Z.mul_div_le (2 ^ 63 - 4121) w ltac:(lia)). pose proof (Z.mul_succ_div_gt (2 ^ 63 - 4121) w ltac:(lia)). split; intros Q; nia.
  Qed.
  Lemma sat_ok a b : 0 <= a < 2 ^ 64 -> 0 <= b < 2 ^ 64 -> uadd_saturate 64 a b = Z.min (a + b) (2 ^ 64 - 1).
  Proof. intros A B. apply uadd_saturate_ok; unfold in_range, int_min, int_max; lia. Qed.

  Section Calls.
    Context (m : bool) (h : heap) (os : list obj) (o : obj) (l : list Z) (size cap : Z) (mut : bool) (c : list cell)
            (W : wfa h (o :: os)) (VW : view w h o l size cap mut c).
    Let Bnd : 0 <= size <= cap /\ cap * w <= max_bytes /\ 24 + size * w < 2 ^ 64 /\ size <= len c /\ cap < 2 ^ 64 - 1 /\ size = len l.
    Proof. exact (bounds w Hw h o l size cap mut c VW). Qed.
    Let R : rep c l. Proof. exact (v_rep _ _ _ _ _ _ _ _ VW). Qed.

    Lemma in_store_size n c' l1 code (P : Z -> list Z -> Prop) : mut = true -> rep c' l1 -> len l1 = n -> n <= cap -> length c' = length c -> P code l1 ->
      step h os (let* (h1, self) := store h o c' in let* (h2, self) := set_size h1 self n in Ok (code, h2, self)) P.
    Proof.
      intros M R1 L1 N1 LC HP. rewrite (store_here w h os o l size cap mut c W VW). cbn [bind].
      pose proof (put_set_size w h os o l size cap mut c W VW size c' n) as Q. destruct (putv h o size c') as [h1 o1]. rewrite Q. cbn [bind].
      eapply put_step; eauto.
    Qed.
    Lemma in_store c' l1 code (P : Z -> list Z -> Prop) : mut = true -> rep c' l1 -> len l1 = size -> length c' = length c -> P code l1 ->
      step h os (let* (h1, self) := store h o c' in Ok (code, h1, self)) P.
    Proof.
      intros M R1 L1 LC HP. rewrite (store_here w h os o l size cap mut c W VW). cbn [bind]. eapply put_step; eauto. lia.
    Qed.
    Lemma in_size n l1 code (P : Z -> list Z -> Prop) : mut = true -> rep c l1 -> len l1 = n -> n <= cap -> P code l1 ->
      step h os (let* (h1, self) := set_size h o n in Ok (code, h1, self)) P.
    Proof.
      intros M R1 L1 N1 HP. rewrite (set_size_here w h os o l size cap mut c W VW). cbn [bind]. eapply put_step; eauto.
    Qed.
    Lemma in_size_store (F : list cell -> outcome (list cell)) n c' l1 code (P : Z -> list Z -> Prop) : mut = true -> F c = Ok c' -> rep c' l1 -> len l1 = n -> n <= cap -> length c' = length c -> P code l1 ->
      step h os (let* (h1, self) := set_size h o n in let* c1 := block h1 self (own_loc o) in let* c1 := F c1 in
                 let* (h2, self) := store h1 self c1 in Ok (code, h2, self)) P.
    Proof.
      intros M FC R1 L1 N1 LC HP. rewrite (set_size_here w h os o l size cap mut c W VW). cbn [bind].
      pose proof (put_block w h os o l size cap mut c W VW n c) as PB. pose proof (put_store w h os o l size cap mut c W VW n c c') as Q.
      destruct (putv h o n c) as [h1 o1]. destruct PB as [-> _]. cbn [bind]. rewrite FC. cbn [bind]. rewrite Q. cbn [bind].
      eapply put_step; eauto.
    Qed.
    Lemma opened_here n c' : mut = true -> n <= cap -> length c' = length c ->
      let '(h1, o1) := putv h o n c' in opened h os h1 o1 n c' /\ block h1 o1 (own_loc o) = Ok c'.
    Proof.
      intros M N1 LC. destruct Bnd as (B1 & B2 & B3 & B4 & B5 & B6). pose proof (v_capc _ _ _ _ _ _ _ _ VW) as CC.
      pose proof (put_block w h os o l size cap mut c W VW n c') as PB.
      assert (PS : forall c2, let '(h1, o1) := putv h o n c' in store h1 o1 c2 = Ok (putv h o n c2)) by (intros; apply (put_store w h os o l size cap mut c W VW)).
      destruct (putv h o n c') as [h1 o1]. destruct PB as [PB E]. split; auto. split; [now rewrite E|]. split; [unfold len in *; lia|].
      intros c2 l2 L2 R2 Z2. rewrite PS. pose proof (put_wf w h os o l size cap mut c W VW n c2 l2 M R2 Z2 N1 ltac:(lia)) as Q.
      destruct (putv h o n c2) as [h2 o2]. exists h2, o2. intuition.
    Qed.

    (* ---- modify_op ---- *)
    Lemma modify_ok op n : 0 <= n -> let sa := if is_assign op then n else size + n in let index := if is_assign op then 0 else size in
      24 + sa * w < 2 ^ 64 ->
      (arr_modify_op w m h o op n = Ok (BL_ERROR_OUT_OF_MEMORY, h, o, 0) /\ (m = false \/ 2 ^ 60 <= sa * w)) \/
      exists h1 o1 c1, arr_modify_op w m h o op n = Ok (BL_SUCCESS, h1, o1, index) /\ opened h os h1 o1 sa c1 /\ rep c1 (take l index) /\
        (mut = true -> sa <= cap -> is_assign op = false -> block h1 o1 (own_loc o) = Ok c /\ c1 = c).
    Proof.
      intros N0 sa index SB. destruct Bnd as (B1 & B2 & B3 & B4 & B5 & B6). pose proof (K_range w Hw) as (K0 & K1).
      assert (SA : 0 <= sa < 2 ^ 64). { subst sa. destruct (is_assign op); nia. }
      unfold arr_modify_op. rewrite (v_unpack _ _ _ _ _ _ _ _ VW), (v_mut _ _ _ _ _ _ _ _ VW). cbn [bind].
      assert (E : (if is_assign op then (0, n, false) else let (s, of) := add_overflow 64 false size n false in (size, s, of)) = (index, sa, false)).
      { subst sa index. destruct (is_assign op); auto. assert (2 ^ 64 > 24 + (size + n) * w) by lia. assert (size + n < 2 ^ 64) by nia.
        pose proof (add_overflow_ok 64 false size n false ltac:(lia)) as Q. destruct (add_overflow 64 false size n false) as [r of].
        unfold checked_ok, in_range, int_min, int_max in Q. cbn [fst snd] in Q. destruct Q as (Q1 & Q2 & _); try lia. rewrite Q2 by lia.
        destruct of; auto. destruct Q1 as (Q1 & _). destruct (Q1 eq_refl) as [Q3|Q3]; [discriminate|lia]. }
      rewrite E. clear E. rewrite (lor_msk _ mut cap) by lia. destruct (mut && (sa <=? cap)) eqn:FIT.
      - right. apply andb_true_iff in FIT as (M & FIT). apply Z.leb_le in FIT. rewrite (set_size_here w h os o l size cap mut c W VW). cbn [bind].
        destruct (is_assign op) eqn:OP.
        + destruct o as [s c'|p] eqn:EO; rewrite <- EO in *.
          * pose proof (v_kind _ _ _ _ _ _ _ _ VW) as KD. rewrite EO in KD. destruct KD as (-> & -> & HC & LC & _).
            pose proof (opened_here sa (repeat (Some 0) (length c)) M FIT (repeat_length _ _)) as Q. rewrite EO in Q |- *. cbn [putv] in *. destruct Q as [Q _].
            eexists _, _, _. split; [reflexivity|]. split; [exact Q|]. split; [|congruence]. unfold index, take. apply rep_nil.
          * pose proof (opened_here sa c M FIT eq_refl) as Q. destruct (putv h o sa c) as [h1 o1] eqn:EP. destruct Q as [Q _].
            assert (o1 = Dyn p). { rewrite EO in EP. cbn [putv] in EP. destruct (nth_error h p) as [[im|]|]; congruence. } subst o1.
            eexists _, _, _. split; [reflexivity|]. split; [exact Q|]. split; [|congruence]. unfold index, take. apply rep_nil.
        + pose proof (opened_here sa c M FIT eq_refl) as Q. destruct (putv h o sa c) as [h1 o1]. destruct Q as [Q Q2].
          exists h1, o1, c. split. { destruct o1; reflexivity. } split; auto. split; auto. now apply rep_take.
      - destruct (Z.leb_spec sa K) as [SK|SK].
        + right. rewrite (v_block _ _ _ _ _ _ _ _ VW). cbn [bind].
          destruct (copy_ok index (repeat (Some 0) (Z.to_nat K)) 0 c l 0 R) as (d' & -> & LL & N); try (subst index; destruct (is_assign op); lia).
          { rewrite zeros_len by lia. subst index sa. destruct (is_assign op); lia. } cbn [bind].
          destruct (fresh_opened w h os o sa h (Sso sa d') d' W) as (h3 & RE & OP).
          { right. split; auto. split; auto. split; [|lia]. unfold len. rewrite LL. apply zeros_len; auto. }
          unfold replace_instance. rewrite RE. cbn [bind]. eexists _, _, _. split; [reflexivity|]. split; [exact OP|]. split.
          * intros j J. rewrite N. rewrite take_length in J. unfold len in *. rep_t.
          * intros M Q. rewrite M in FIT. cbn in FIT. lia.
        + assert (EX : exists s, expand_impl_size_with_modify_op (impl_size_from_capacity w sa) (does_grow op) = Ok s /\
            match init_dynamic w m h sa s with
            | Some (h1, n) => exists d, fresh w h sa h1 n d /\ sa <= len d
            | None => m = false \/ 2 ^ 60 <= sa * w end).
          { unfold expand_impl_size_with_modify_op. destruct (does_grow op).
            - destruct (expand_dynamic_ok w Hw m h sa sa) as (s & E & I); try lia. exists s. auto.
            - rewrite impl_size_ok by (auto; lia). eexists. split; [reflexivity|]. apply init_dynamic_ok; auto; try lia. }
          destruct EX as (s & -> & I). cbn [bind]. destruct (init_dynamic w m h sa s) as [[h1 n1]|]; [|left; auto]. right.
          destruct I as (d & F & LD). rewrite (fresh_block _ _ _ _ _ _ F). cbn [bind].
          rewrite (proj1 (fresh_self _ _ _ _ _ _ _ _ _ _ _ _ VW F)). cbn [bind].
          destruct (copy_ok index d 0 c l 0 R) as (d' & -> & LL & N); try (subst sa index; destruct (is_assign op); lia). cbn [bind].
          destruct (fresh_store w _ _ _ _ _ _ F LL) as (h2 & n2 & -> & F2). cbn [bind].
          destruct (dm_mut _ _ _ _ _ _ _ _ _ _ _ _ VW F2) as (b & -> & BM). cbn [bind].
          destruct (fresh_maybe _ b _ _ _ _ _ _ _ _ _ _ _ _ W VW BM F2) as (h3 & o' & h0 & -> & W0 & V0 & F0 & _). cbn [bind].
          destruct (fresh_opened w h0 os o' sa h3 n2 d' W0 F0) as (h4 & RE & OP). unfold replace_instance. rewrite RE. cbn [bind].
          eexists _, _, _. split; [reflexivity|]. split; [apply (opened_from w h0 h); auto; exact OP|]. split.
          * intros j J. rewrite N. rewrite take_length in J. unfold len in *. rep_t.
          * intros M Q. rewrite M in FIT. cbn in FIT. lia.
    Qed.

    (* the items are written through the returned pointer *)
    Lemma write_step h1 o1 sa c1 index x rest code (P : Z -> list Z -> Prop) : opened h os h1 o1 sa c1 -> 0 <= index -> rep c1 (take l index) -> index <= size ->
      (forall j, (Z.to_nat (index + len x) <= j < Z.to_nat sa)%nat -> nth_error c1 j = option_map Some (nth_error rest (j - Z.to_nat (index + len x)))) ->
      len rest = sa - index - len x -> index + len x <= sa -> BL_SUCCESS = code ->
      P code (take l index ++ x ++ rest) -> step h os (write_at h1 o1 index x) P.
    Proof.
      intros OP I0 RP I1 RT LR SA <- HP. destruct Bnd as (B1 & B2 & B3 & B4 & B5 & B6). unfold write_at. destruct OP as (B & S1 & F).
      rewrite B. cbn [bind]. pose proof (len_nonneg x).
      destruct (copy_ok (len x) c1 index (map Some x) x 0 (rep_map x)) as (c2 & E & LL & N); try lia.
      unfold len in E at 1. rewrite Nat2Z.id in E. rewrite E. cbn [bind].
      eapply (opened_step w h os h1 o1 sa c1); [exact (conj B (conj S1 F))|exact LL| | |exact HP].
      - intros j J. rewrite N. rewrite !app_length, take_length in J. unfold len in *.
        destruct ((index <=? Z.of_nat j) && (Z.of_nat j <? index + Z.of_nat (length x))) eqn:Q1.
        + rep_t.
        + destruct (Z.ltb_spec (Z.of_nat j) index).
          * rewrite RP by (rewrite take_length; lia). rep_t.
          * rewrite RT by lia. rep_t.
      - rewrite !len_app, len_take by lia. lia.
    Qed.

    Lemma modify_write_step op x : 24 + demand l (AModify op x) * w < 2 ^ 64 ->
      step h os (arr_modify_op_write w m h o op x) (aop_ok w m l (AModify op x)).
    Proof.
      intros SB. destruct Bnd as (B1 & B2 & B3 & B4 & B5 & B6). cbn [demand] in SB. unfold arr_modify_op_write.
      pose proof (len_nonneg x). fold (len x).
      destruct (modify_ok op (len x)) as [(E & Q)|(h1 & o1 & c1 & E & OP & RP & _)]; try lia. { rewrite B6. destruct (is_assign op); lia. }
      - rewrite E. cbn [bind]. rewrite Z.eqb_refl || idtac. change (negb (BL_ERROR_OUT_OF_MEMORY =? BL_SUCCESS)) with true. cbn [bind].
        apply (oom_step w m h os o l size cap mut c W VW). cbn [demand]. rewrite B6 in Q. exact Q.
      - rewrite E. cbn [bind]. change (negb (BL_SUCCESS =? BL_SUCCESS)) with false. cbn [bind].
        apply (write_step _ _ _ _ _ _ [] BL_SUCCESS _ OP); auto; try (destruct (is_assign op); cbn; lia).
        left. cbn [spec_aop]. rewrite app_nil_r. destruct (is_assign op); auto. rewrite take_all by lia. reflexivity.
    Qed.

    (* ---- resize ---- *)
    Lemma resize_step n fill : aop_safe w h o (AResize n fill) -> step h os (arr_resize w m h o n fill) (aop_ok w m l (AResize n fill)).
    Proof.
      cbn [aop_safe]. rewrite (v_val _ _ _ _ _ _ _ _ VW). intros (N0 & SB & HF). destruct Bnd as (B1 & B2 & B3 & B4 & B5 & B6).
      unfold arr_resize. rewrite (v_unpack _ _ _ _ _ _ _ _ VW). cbn [bind]. destruct (Z.leb_spec n size) as [Q|Q].
      - rewrite (v_mut _ _ _ _ _ _ _ _ VW). cbn [bind].
        assert (SP : aop_ok w m l (AResize n fill) BL_SUCCESS (take l n)).
        { left. cbn [spec_aop]. replace (Z.to_nat (n - len l)) with 0%nat by lia. cbn [repeat]. now rewrite app_nil_r. }
        destruct (Sumbool.sumbool_of_bool mut) as [M|M]; rewrite M; cbn [negb].
        + eapply (in_size n (take l n)); auto; try lia. { now apply rep_take. } apply len_take. lia.
        + destruct (Z.eqb_spec n size) as [->|NE].
          { apply (same_step w h os o l size cap _ c W VW). rewrite take_all in SP by lia. exact SP. }
          pose proof (init_array_ok w Hw m h n n ltac:(lia) ltac:(lia) ltac:(lia)) as I.
          destruct (init_array w m h n n) as [[h1 n1]|].
          * destruct I as (d & F & LD). rewrite (fresh_block _ _ _ _ _ _ F). cbn [bind].
            rewrite (proj1 (fresh_self _ _ _ _ _ _ _ _ _ _ _ _ VW F)). cbn [bind].
            destruct (copy_ok n d 0 c l 0 R) as (d' & -> & LL & N); try lia. cbn [bind].
            eapply fresh_finish; eauto; [|apply len_take; lia]. intros j J. rewrite N. rewrite take_length in J. unfold len in *. rep_t.
          * apply (oom_step w m h os o l size cap mut c W VW). cbn [demand]. destruct I; [now left|right]. nia.
      - assert (SA : size + (n - size) = n) by lia.
        destruct (modify_ok (ModifyOp false false) (n - size)) as [(E & QQ)|(h1 & o1 & c1 & E & OP & RP & HL)]; try lia; cbn [is_assign] in *; rewrite ?SA in *; try lia.
        { rewrite E. cbn [bind]. change (negb (BL_ERROR_OUT_OF_MEMORY =? BL_SUCCESS)) with true. cbn [bind].
          apply (oom_step w m h os o l size cap mut c W VW). cbn [demand]. destruct QQ; [now left|right]. nia. }
        rewrite E. cbn [bind]. change (negb (BL_SUCCESS =? BL_SUCCESS)) with false. cbn [bind].
        pose proof OP as (BL & S1 & FF). rewrite BL. cbn [bind].
        assert (FILL : forall v, (match fill with None => v = 0 | Some s => v = hd 0 (src_items l s 1) end) ->
          step h os (let* c2 := fill_cells (Z.to_nat (n - size)) c1 size v in let* (h2, self) := store h1 o1 c2 in Ok (BL_SUCCESS, h2, self))
            (aop_ok w m l (AResize n fill))).
        { intros v HV. destruct (fill_ok (n - size) c1 size v) as (c2 & -> & LL & N); try lia. cbn [bind].
          eapply (opened_step w h os h1 o1 n c1 c2 (l ++ repeat v (Z.to_nat (n - size)))); eauto.
          - intros j J. rewrite N. rewrite app_length, repeat_length in J. destruct (_ && _) eqn:Q1.
            + unfold len in *. rep_t.
            + rewrite RP by (rewrite take_length; unfold len in *; lia). unfold len in *. rep_t.
          - rewrite len_app. unfold len in *. rewrite repeat_length. lia.
          - left. cbn [spec_aop]. rewrite take_all by lia. rewrite B6. destruct fill; now rewrite HV. }
        destruct fill as [[off e|i]|].
        + destruct HF as (_ & L1 & _). destruct e as [|v e]. { cbn in L1. lia. } cbn [map]. change (rdc (Some v :: map Some e) 0) with (Ok v). cbn [bind].
          apply FILL. reflexivity.
        + destruct HF as [HF|((_ & I0 & I1) & AM & AC)]; [lia|]. rewrite (v_acap _ _ _ _ _ _ _ _ VW) in AC. apply (v_amut _ _ _ _ _ _ _ _ VW) in AM.
          destruct HL as (HB & ->); auto. rewrite HB. cbn [bind]. destruct (nth_some l (Z.to_nat i)) as (v & EV). { unfold len in *. lia. }
          rewrite (rdc_some _ _ v I0) by (rewrite R by (unfold len in *; lia); now rewrite EV). cbn [bind]. apply FILL.
          cbn [src_items]. unfold take, drop. change (Z.to_nat 1) with 1%nat. pose proof (nth_skipn l (Z.to_nat i) 0) as NS. rewrite Nat.add_0_r, EV in NS.
          destruct (skipn (Z.to_nat i) l); cbn in *; congruence.
        + assert (EW : w64 ((n - size) * w) / w = n - size). { rewrite w64_small by nia. apply Z.div_mul. lia. }
          rewrite EW. apply FILL. reflexivity.
    Qed.

    (* ---- insert_op ---- *)
    Lemma insert_op_step i x : 0 <= i <= size -> len x * w <= max_bytes ->
      step h os (arr_insert_op_write w m h o i x) (aop_ok w m l (AInsertOp i x)).
    Proof.
      intros I0 XB. destruct Bnd as (B1 & B2 & B3 & B4 & B5 & B6). pose proof (K_range w Hw) as (K0 & K1). pose proof (len_nonneg x) as XN.
      unfold max_bytes in *. assert (size * w <= 2 ^ 63 - 4096) by nia.
      unfold arr_insert_op_write, arr_insert_op. rewrite (v_unpack _ _ _ _ _ _ _ _ VW), (v_mut _ _ _ _ _ _ _ _ VW). cbn [bind]. fold (len x).
      assert (L64 : size + len x < 2 ^ 64) by nia. rewrite sat_ok by nia. rewrite Z.min_l by lia. set (sa := size + len x) in *.
      rewrite lor_msk_lt by lia.
      assert (OKW : aop_ok w m l (AInsertOp i x) BL_SUCCESS (take l i ++ x ++ drop l i)) by (now left).
      assert (TL : len (drop l i) = sa - i - len x) by (rewrite len_drop; lia).
      destruct (mut && (sa <=? cap)) eqn:FIT; cbn [negb].
      - apply andb_true_iff in FIT as (M & FIT). apply Z.leb_le in FIT. rewrite (set_size_here w h os o l size cap mut c W VW). cbn [bind].
        destruct (copy_ok (size - i) c (i + len x) c l i R) as (c' & E & LL & N); try lia. { pose proof (v_capc _ _ _ _ _ _ _ _ VW). lia. }
        pose proof (put_block w h os o l size cap mut c W VW sa c) as PB. pose proof (put_store w h os o l size cap mut c W VW sa c c') as Q.
        pose proof (opened_here sa c' M FIT LL) as OP.
        destruct (putv h o sa c) as [h1 o1]. destruct PB as [-> _]. cbn [bind]. unfold move_own. rewrite E. cbn [bind]. rewrite Q. cbn [bind].
        destruct (putv h o sa c') as [h2 o2]. destruct OP as [OP _]. change (negb (BL_SUCCESS =? BL_SUCCESS)) with false. cbn [bind].
        eapply (write_step _ _ _ _ _ _ (drop l i) BL_SUCCESS _ OP); auto; try lia.
        + intros j J. rewrite take_length in J. rewrite N. unfold len in *. replace (_ && _) with false by lia. rewrite R by lia. rep_t.
        + intros j J. rewrite N. unfold len in *. replace (_ && _) with true by lia. rewrite nth_drop. f_equal. f_equal. lia.
      - assert (EX : (maximum_capacity w < sa /\ 2 ^ 60 <= sa * w) \/ sa <= maximum_capacity w /\ 24 + sa * w <= 2 ^ 63 - 4097).
        { destruct (max_cap sa ltac:(lia)) as (X1 & X2). destruct (Z.lt_ge_cases (maximum_capacity w) sa); [left|right]; split; auto. }
        destruct EX as [(X1 & X2)|(X1 & X2)].
        { replace (maximum_capacity w <? sa) with true by lia. cbn [bind]. change (negb (BL_ERROR_OUT_OF_MEMORY =? BL_SUCCESS)) with true. cbn [bind].
          apply (oom_step w m h os o l size cap mut c W VW). cbn [demand]. right. rewrite <- B6. exact X2. }
        replace (maximum_capacity w <? sa) with false by lia.
        assert (EX : exists s, (if sa <=? K then Ok 0 else expand_impl_size (impl_size_from_capacity w sa)) = Ok s /\
            match (if sa <=? K then Some (h, init_static w sa) else init_dynamic w m h sa s) with
            | Some (h1, n) => exists d, fresh w h sa h1 n d /\ sa <= len d
            | None => m = false \/ 2 ^ 60 <= sa * w end).
        { destruct (Z.leb_spec sa K).
          - exists 0. split; auto. eexists. split; [now apply init_static_fresh|]. rewrite zeros_len; lia.
          - destruct (expand_dynamic_ok w Hw m h sa sa) as (s & E & I); try lia. exists s. auto. }
        destruct EX as (s & -> & I). cbn [bind]. destruct (if sa <=? K then _ else _) as [[h1 n1]|].
        2:{ cbn [bind]. change (negb (BL_ERROR_OUT_OF_MEMORY =? BL_SUCCESS)) with true. cbn [bind].
            apply (oom_step w m h os o l size cap mut c W VW). cbn [demand]. rewrite <- B6. exact I. }
        destruct I as (d & F & LD). rewrite (fresh_block _ _ _ _ _ _ F). cbn [bind].
        rewrite (proj1 (fresh_self _ _ _ _ _ _ _ _ _ _ _ _ VW F)). cbn [bind].
        destruct (copy_ok i d 0 c l 0 R) as (d1 & -> & LL1 & N1); try lia. cbn [bind].
        destruct (copy_ok (size - i) d1 (i + len x) c l i R) as (d2 & -> & LL2 & N2); try lia. { unfold len in *. lia. } cbn [bind].
        destruct (fresh_store w _ _ _ _ _ d2 F ltac:(lia)) as (h2 & n2 & -> & F2). cbn [bind].
        destruct (fresh_maybe _ mut _ _ _ _ _ _ _ _ _ _ _ _ W VW (fun x => x) F2) as (h3 & o' & h0 & -> & W0 & V0 & F0 & _). cbn [bind].
        destruct (fresh_opened w h0 os o' sa h3 n2 d2 W0 F0) as (h4 & -> & OP). cbn [bind]. change (negb (BL_SUCCESS =? BL_SUCCESS)) with false. cbn [bind].
        apply (opened_from w h0 h) in OP; auto.
        eapply (write_step _ _ _ _ _ _ (drop l i) BL_SUCCESS _ OP); auto; try lia.
        + intros j J. rewrite take_length in J. rewrite N2, N1. unfold len in *. rep_t.
        + intros j J. rewrite N2. unfold len in *. replace (_ && _) with true by (unfold sa in *; lia). rewrite nth_drop. f_equal. f_equal. lia.
    Qed.
    Lemma insert_value_step i v : 0 <= i <= size -> step h os (arr_insert_value w m h o i v) (aop_ok w m l (AInsertValue i v)).
    Proof. intros I0. apply (insert_op_step i [v]); auto. unfold max_bytes, len. cbn [length]. lia. Qed.

    (* ---- external data ---- *)
    Lemma external_step valid wr buf sz cp : aop_safe w h o (AAssignExternal valid wr buf sz cp) ->
      step h os (arr_assign_external_data w m valid wr h o buf sz cp) (aop_ok w m l (AAssignExternal valid wr buf sz cp)).
    Proof.
      cbn [aop_safe]. intros (S0 & C0 & CB & CM & IB). unfold arr_assign_external_data. unfold mul_overflow. cbn [Z.eqb Pos.eqb].
      destruct (mul_overflow_u64_ok cp w false) as ((r & of) & -> & CO); [unfold in_range, int_min, int_max; lia|unfold in_range, int_min, int_max; lia|]. cbn [bind].
      unfold checked_ok, in_range, int_min, int_max in CO. cbn [fst snd] in CO. unfold max_bytes in *.
      assert (of = false). { destruct of; auto. destruct CO as ((CO & _) & _). destruct (CO eq_refl) as [Q3|Q3]; [discriminate|nia]. } subst of. rewrite orb_false_r.
      destruct ((cp =? 0) || (cp <? sz) || negb valid) eqn:Q.
      - apply (same_step w h os o l size cap mut c W VW). left. cbn [spec_aop]. rewrite Q. reflexivity.
      - destruct m; [|now apply (oom_step w false h os o l size cap mut c W VW); left].
        eapply (hstep_ext (ext := True)); auto.
        + split; [lia|]. split; auto.
        + destruct wr; auto.
        + left. cbn [spec_aop]. rewrite Q. cbn [orb]. replace (2 ^ 64 <=? cp * w) with false by lia. reflexivity.
    Qed.
  End Calls.
End Ops.
