(* Formatting, calls with other strings, queries, programs over strings. *)
From Verif Require Import Base Bits IntOps_Model IntOps_Spec IntOps_Proofs Algorithm_Model Algorithm_Proofs Object_Model Object_Spec Object_Proofs Object_Proofs2
  BitArray_Model BitArray_Spec BitArray_Proofs3 Handle_Client Handle_Proofs Array_Model Array_Spec Array_Proofs Array_Proofs2 Array_Proofs3 Array_Proofs4 Array_Proofs5
  String_Model String_Spec String_Proofs String_Proofs2 String_Proofs3.

Lemma src_ext off e t n : 0 <= n -> len e = n -> src_items t (SExt off (e ++ [0])) n = e.
Proof. intros. cbn [src_items]. unfold take. rewrite firstn_app. unfold len in *. replace (_ - _)%nat with 0%nat by lia. cbn [firstn]. rewrite app_nil_r. apply firstn_all2. lia. Qed.

Section Calls.
  Context (m : bool) (h : heap) (os : list obj) (o : obj) (l : list Z) (size cap : Z) (mut : bool) (c : list cell)
          (W : str_wf h (o :: os)) (VW : view h o l size cap mut c).
  Notation L := (l ++ [0]).
  Let Bnd : 0 <= size <= cap /\ cap + 1 <= max_bytes /\ size + 1 <= len c /\ cap + 1 <= len c /\ size = len l /\ rep c L /\ rep c l /\ len L = size + 1.
  Proof. exact (bounds h o l size cap mut c VW). Qed.

  (* formatting into new storage, from a heap in which the old storage still has the first part of the text *)
  Lemma format_new_gen hx cx op f (P : Z -> list Z -> Prop) : let index := if is_assign op then 0 else size in
    len f < 2 ^ 31 ->
    (forall sa h1 n1 d, fresh hx sa h1 n1 d -> block h1 o (own_loc o) = Ok cx) -> rep cx (take l index) ->
    (forall sa h1 n1 d, fresh hx sa h1 n1 d -> exists h1', fresh h sa h1' n1 d /\ finish h1 o n1 = finish h1' o n1) ->
    P BL_SUCCESS (put op l f) ->
    (m = false \/ 2 ^ 60 <= size + len f -> sstep h os (Ok (BL_ERROR_OUT_OF_MEMORY, hx, o)) P) ->
    sstep h os (str_format_new m hx o op (own_loc o) index f) P.
  Proof.
    intros index FL BX RX FX HS HO. destruct Bnd as (B1 & B2 & B3 & B4 & B5 & R & R' & LL). unfold max_bytes in *. pose proof (len_nonneg f) as F0.
    assert (I0 : 0 <= index <= size) by (subst index; destruct (is_assign op); lia).
    unfold str_format_new. fold (len f). rewrite sat_ok by lia. rewrite Z.min_l by lia. set (sa := index + len f).
    destruct (Z.ltb_spec s_maximum_size sa) as [MX|MX]; apply max_size in MX. { apply HO. right. lia. }
    destruct (expand_dynamic_ok m (does_grow op) hx sa sa) as (sz & -> & I); try lia. cbn [bind].
    destruct I as [(-> & I)|(h1 & n1 & d & -> & F)]; cbn [bind]. { apply HO. destruct I; [now left|right; lia]. }
    rewrite (BX _ _ _ _ F). cbn [bind]. pose proof (fresh_size _ _ _ _ _ F) as (_ & DS).
    assert (LF : length (f ++ [0]) = (length f + 1)%nat) by (rewrite app_length; reflexivity).
    destruct (copy_text (f ++ [0]) d index) as (d1 & E1 & L1 & N1); try lia. { unfold len in *. rewrite LF. lia. } rewrite LF in E1.
    assert (LT : len (take l index) = index) by (apply len_take; lia).
    destruct (copy_ok index d1 0 cx (take l index) 0 RX) as (d2 & E2 & L2 & N2); try (unfold len in *; lia).
    assert (KP : keeps sa d d2).
    { split; [lia|]. intros j J. rewrite N2. replace (_ && _) with false by lia. rewrite N1. destruct (_ && _) eqn:Q; auto.
      assert (EJ : j = Z.to_nat sa). { unfold len in Q. rewrite LF in Q. unfold len in *. lia. } destruct F as (_ & T & _). unfold terminated in T. rewrite EJ, T.
      rewrite nth_app. unfold len in *. replace (_ <? _)%nat with false by lia. replace (_ - _ - _)%nat with 0%nat by lia. reflexivity. }
    destruct (fresh_fill _ _ _ _ _ _ (fun d => let* d := copy_cells (length f + 1) d index (map Some (f ++ [0])) 0 in copy_cells (Z.to_nat index) d 0 cx 0) F ltac:(cbv beta; rewrite E1; exact E2) KP) as (h2 & n2 & -> & F2).
    cbn [bind]. destruct (FX _ _ _ _ F2) as (h2' & F2' & ->). apply (fresh_finish h os o sa h2' n2 d2 (put op l f)); auto.
    - assert (EP : put op l f = take l index ++ f). { unfold put. subst index. destruct (is_assign op); [reflexivity|]. now rewrite take_all by lia. }
      rewrite EP. intros j J. rewrite N2, N1, (nth_app (take l index)). rewrite app_length in J. unfold len in *. rewrite LF. destruct (Nat.ltb_spec j (length (take l index))) as [Q|Q].
      + replace (_ && _) with true by lia. f_equal. f_equal. lia.
      + replace (_ && _) with false by lia. replace (_ && _) with true by lia. f_equal. rewrite nth_app. replace (_ <? _)%nat with true by lia. f_equal. lia.
    - unfold put. subst sa index. destruct (is_assign op); rewrite ?len_app; lia.
  Qed.
  Lemma format_step op f : sop_safe m h o (SFormat op f) -> sstep h os (str_apply_op_format m h o op f) (sop_ok m l (SFormat op f)).
  Proof.
    intros ((FL & _) & SH & SP). destruct Bnd as (B1 & B2 & B3 & B4 & B5 & R & R' & LL). unfold format_spills in SP. unfold short_copy in SH. rewrite (v_val _ _ _ _ _ _ _ VW), (v_scap _ _ _ _ _ _ _ VW) in *.
    rewrite (v_amut _ _ _ _ _ _ _ VW) in *.
    assert (HS : sop_ok m l (SFormat op f) BL_SUCCESS (put op l f)) by (left; auto). pose proof (len_nonneg f) as F0.
    assert (HO : m = false \/ 2 ^ 60 <= size + len f -> sop_ok m l (SFormat op f) BL_ERROR_OUT_OF_MEMORY l). { intros Q. right. split; auto. unfold s_demand. destruct Q; [now left|right; lia]. }
    unfold str_apply_op_format. rewrite (v_unpack _ _ _ _ _ _ _ VW), (v_mut _ _ _ _ _ _ _ VW). cbn [bind]. fold (len f).
    set (index := if is_assign op then 0 else size). assert (I0 : 0 <= index <= size) by (subst index; destruct (is_assign op); lia).
    assert (IP : len (put op l []) = index). { unfold put. subst index. destruct (is_assign op); rewrite ?len_app; unfold len in *; cbn; lia. } rewrite IP in SP.
    assert (PL : len (put op l f) = index + len f) by (unfold put; subst index; destruct (is_assign op); rewrite ?len_app; lia). rewrite PL in SH.
    unfold max_bytes in *. destruct (mut && (64 <=? cap - index)) eqn:Q.
    - apply andb_true_iff in Q as (M & Q). apply Z.leb_le in Q. rewrite (v_block _ _ _ _ _ _ _ VW). cbn [bind].
      assert (ND : exists p, o = Dyn p). { destruct o as [s0 c0|p]; [|eauto]. pose proof (v_kind _ _ _ _ _ _ _ VW) as (_ & _ & C14 & _). lia. }
      destruct ND as (p & EO). assert (SO : is_sso o = false) by (now rewrite EO).
      set (f1 := firstn (Z.to_nat (cap - index)) f). fold (take f (cap - index)) in f1.
      assert (LF : len (f1 ++ [0]) = Z.min (cap - index) (len f) + 1). { rewrite len_app. change (len [0]) with 1. f_equal. unfold f1, len in *. rewrite take_length. lia. }
      destruct (copy_text (f1 ++ [0]) c index) as (c1 & -> & L1 & N1); try lia. cbn [bind].
      rewrite (store_here h os o l size cap mut c W VW). cbn [bind]. destruct (putv h o size c1) as [h1 o1] eqn:EP.
      destruct (Z.leb_spec (len f) (cap - index)) as [FIT|FIT].
      + rewrite (put_size h os o l size cap mut c W VW _ _ _ _ _ EP). unfold set_cells. rewrite SO. cbn [bind].
        apply (put_step h os o l size cap mut c W VW (index + len f) c1 (put op l f)); auto; try lia; [|intros Q'; congruence].
        assert (F1 : f1 = f) by (unfold f1; apply take_all; lia). rewrite F1 in *.
        intros j J. rewrite N1. rewrite app_length in J. cbn [length] in J. unfold len in *. rewrite app_length. cbn [length].
        assert (EPU : put op l f = take l index ++ f). { unfold put. subst index. destruct (is_assign op); [reflexivity|]. now rewrite take_all by (unfold len; lia). }
        rewrite EPU, <- app_assoc, (nth_app (take l index)), take_length. destruct (Nat.ltb_spec j (Nat.min (Z.to_nat index) (length l))) as [QJ|QJ].
        * replace (_ && _) with false by lia. rewrite R' by lia. rep_t.
        * replace (_ && _) with true by lia. f_equal. f_equal. lia.
      + specialize (SP (conj M (conj Q FIT))). destruct SP as (MT & SP).
        assert (E1 : o1 = o /\ exists im, nth_error h p = Some (Some im) /\ rc im = 1 /\ base im = 1 /\ h1 = put_impl h p (Impl (rc im) (base im) size (icap im) c1) /\ (p < length h)%nat).
        { pose proof (v_kind _ _ _ _ _ _ _ VW) as KD. rewrite EO in *. destruct KD as (im & E & _ & _ & _ & MU). rewrite M in MU. destruct (wf_get _ _ _ _ _ W) as (im' & E' & _ & _ & BA & _).
          cbn [putv] in EP. rewrite E in *. injection EP as <- <-. split; auto. exists im. injection E' as <-. split; auto. split; [lia|]. split; [intuition|]. split; auto. apply nth_error_Some. congruence. }
        destruct E1 as (-> & im & E & RC & BA & -> & PL'). rewrite RC, BA. set (hx := put_impl h p _).
        assert (LX : length hx = length h) by (unfold hx, put_impl; apply upd_length).
        apply (format_new_gen hx c1); auto.
        * intros sa h1 n1 d F. rewrite EO. cbn [block own_loc]. unfold get_impl. rewrite (fresh_nth _ _ _ _ _ p (Impl 1 1 size (icap im) c1) F); [reflexivity|]. unfold hx, put_impl. apply nth_upd_eq. auto.
        * intros j J. rewrite take_length in J. rewrite N1. unfold len in *. replace (_ && _) with false by lia. rewrite R' by lia. fold index. rep_t.
        * intros sa h1 n1 d (S0 & T & F). assert (RL : forall t, release (hx ++ t) o = release (h ++ t) o).
          { intros t. rewrite EO. cbn [release]. unfold get_impl, put_impl. rewrite !nth_error_app1 by lia. unfold hx, put_impl. rewrite nth_upd_eq by auto. rewrite E. cbn [bind rc base]. rewrite RC, BA.
            change (1 =? 1) with true. cbn iota. rewrite !upd_app1 by (rewrite ?upd_length; lia). now rewrite upd_upd. }
          destruct F as [(-> & cp & -> & F)|(-> & -> & F)].
          -- exists (h ++ [Some (Impl 1 1 sa cp d)]). split. { split; auto. split; auto. left. split; [congruence|]. exists cp. auto. } unfold finish, replace_instance. rewrite RL. congruence.
          -- exists h. split. { split; auto. } unfold finish, replace_instance. specialize (RL []). rewrite !app_nil_r in RL. now rewrite RL.
        * intros [Q2|Q2]; [congruence|lia].
    - destruct (Z.ltb_spec (len f) 1024) as [Q2|Q2].
      + apply (modify_gen m h os o l size cap mut c W VW); auto.
        * split; [lia|]. rewrite len_app. change (len [0]) with 1. lia.
        * unfold max_bytes. lia.
        * fold index. intros G14 I14. destruct mut; [|exfalso; apply SH; split; auto; split; [lia|]; intros (Q3 & _); discriminate]. split; auto.
          destruct (Z.leb_spec (index + len f) cap); auto. exfalso. apply SH. split; auto. split; [lia|]. intros (_ & Q4). lia.
        * rewrite src_ext by lia. auto.
      + apply (format_new_gen h c); auto.
        * intros sa h1 n1 d F. exact (fresh_self _ _ _ _ _ _ _ _ _ _ _ VW F).
        * fold index. intros j J. rewrite take_length in J. unfold len in *. rewrite R' by lia. rep_t.
        * intros sa h1 n1 d F. eauto.
        * intros Q3. apply (oom_step h os o l size cap mut c W VW). auto.
  Qed.
End Calls.

Lemma sop_step m h os o b : str_wf h (o :: os) -> sop_safe m h o b -> sstep h os (run_sop m h o b) (sop_ok m (str_value h o) b).
Proof.
  intros W S0. destruct (view_of h os o W) as (size & cap & mut & c & VW). pose proof (bounds h o _ size cap mut c VW) as (B1 & B2 & B3 & B4 & B5 & R & R' & LL).
  assert (HO : forall n, s_demand (str_value h o) b = size + n -> m = false \/ 2 ^ 60 <= size + n -> sop_ok m (str_value h o) b BL_ERROR_OUT_OF_MEMORY (str_value h o)).
  { intros n E Q. right. split; auto. now rewrite E. }
  destruct b as [| |n|n b| |op x|i x|op s n|op b n|op f|i s n|i b n|a e|i]; cbn [run_sop]; destruct S0 as (V & S0); cbn [sop_valid] in V.
  - now apply (clear_step m h os o _ size cap mut c).
  - now apply (shrink_step m h os o _ size cap mut c).
  - apply (reserve_step m h os o _ size cap mut c); auto. lia.
  - now apply (resize_step m h os o _ size cap mut c).
  - now apply (make_mutable_step m h os o _ size cap mut c).
  - now apply (modify_write_step m h os o _ size cap mut c).
  - destruct V as (V1 & V2). unfold str_insert_op_write, s_write_at. fold (len x). pose proof (len_nonneg x).
    apply (insert_text_step m h os o _ size cap mut c W VW i (len x) x (fun index c => copy_cells (length x) c index (map Some x) 0)); auto; [lia|unfold max_bytes in *; lia| | |].
    + intros. now apply copy_text.
    + left. auto.
    + apply HO. unfold s_demand. lia.
  - unfold str_apply_op_data. rewrite (v_block _ _ _ _ _ _ _ VW). destruct (arg_ok h o _ size cap mut c s n VW V) as (k & -> & EQ & RD & KM & LK). cbn [bind].
    apply (modify_gen m h os o _ size cap mut c W VW); auto.
    + intros G14 I14. unfold short_copy in S0. rewrite (v_scap _ _ _ _ _ _ _ VW), (v_amut _ _ _ _ _ _ _ VW) in S0.
      assert (PL : len (put op (str_value h o) (src_text (str_value h o) s n)) = (if is_assign op then 0 else size) + k) by (unfold put; destruct (is_assign op); rewrite ?len_app; lia). rewrite PL in S0.
      destruct mut; [|exfalso; apply S0; split; auto; split; [lia|]; intros (Q3 & _); discriminate]. split; auto.
      destruct (Z.leb_spec ((if is_assign op then 0 else size) + k) cap); auto. exfalso. apply S0. split; auto. split; [lia|]. intros (_ & Q4). lia.
    + left. split; auto. cbn [spec_sop]. now rewrite EQ.
    + apply HO. unfold s_demand. lia.
  - apply (apply_char_gen m h os o _ size cap mut c W VW); [lia|left; auto|]. apply HO. unfold s_demand. lia.
  - apply (format_step m h os o _ size cap mut c); auto. split; auto.
  - unfold str_insert_data. rewrite (v_block _ _ _ _ _ _ _ VW). destruct V as (V1 & V). destruct (arg_ok h o _ size cap mut c s n VW V) as (k & -> & EQ & RD & KM & LK). cbn [bind].
    apply (insert_gen m h os o _ size cap mut c W VW); auto; [lia| | |].
    + destruct s as [off e|j]; auto. destruct V as (_ & V & _). rewrite (v_scap _ _ _ _ _ _ _ VW) in V. destruct RD as (_ & RD). right. lia.
    + left. split; auto. cbn [spec_sop]. now rewrite EQ.
    + apply HO. unfold s_demand. lia.
  - unfold str_insert_char, s_memset_at. destruct V as (V1 & V2).
    apply (insert_text_step m h os o _ size cap mut c W VW i n (repeat b (Z.to_nat n)) (fun index c => fill_cells (Z.to_nat n) c index b)); auto; [lia| | | |].
    + apply repeat_len. lia.
    + intros. apply fill_text; auto. lia.
    + left. auto.
    + apply HO. unfold s_demand. lia.
  - apply (remove_step m h os o _ size cap mut c W VW); auto; try lia. unfold s_demand. lia.
  - unfold str_remove_index. rewrite w64_small by lia. apply (remove_step m h os o _ size cap mut c W VW); auto; try lia.
    + cbn [spec_sop]. cbv zeta. rewrite <- B5. destruct (Z.ltb_spec i size).
      * now rewrite Z.min_l, Z.min_l by lia.
      * replace (Z.min i _) with size by lia. replace (Z.min _ size) with size by lia. unfold l_replace. cbn [app]. symmetry. apply firstn_skipn.
    + unfold s_demand. lia.
Qed.

Lemma firstn_rep c l : rep c l -> map (fun x => match x with Some v => v | None => 0 end) (firstn (Z.to_nat (len l)) c) = l.
Proof. intros R. exact (rep_items c l R). Qed.

Lemma sop2_step m h os o x same b : str_wf h (o :: os) -> In x (o :: os) -> (same = true -> x = o) -> sop2_safe m h o x b ->
  sstep h os (run_sop2 m h o x same b) (sop2_ok m (str_value h o) (str_value h x) b).
Proof.
  intros W I SM S0. destruct (view_in h _ x W I) as (sx & cx & mx & kx & VX). destruct (view_of h os o W) as (so & co & mo & ko & VO).
  pose proof (bounds h x _ sx cx mx kx VX) as (X1 & X2 & X3 & X4 & X5 & X6 & X7 & X8). pose proof (bounds h o _ so co mo ko VO) as (O1 & O2 & O3 & O4 & O5 & O6 & O7 & O8).
  assert (SRC : forall sm off, (sm = true -> x = o) -> exists s, other_src h o x sm off = Ok (s, sx) /\ readable (str_value h o ++ [0]) s sx /\ src_items (str_value h o ++ [0]) s sx = str_value h x /\
    match s with SExt off' _ => off' = off | SIn _ => True end).
  { intros sm off SM'. unfold other_src. rewrite (v_size _ _ _ _ _ _ _ VX), (v_block _ _ _ _ _ _ _ VX). cbn [bind]. set (own := match o, x with Dyn p, Dyn q => Nat.eqb p q | _, _ => sm end).
    assert (OWN : own = true -> str_value h o = str_value h x).
    { intros Q. subst own. destruct o as [s1 c1|p], x as [s2 c2|q]; try (now rewrite (SM' Q)). apply Nat.eqb_eq in Q. now subst. }
    eexists. split; [reflexivity|]. destruct own.
    - rewrite OWN by auto. cbn [readable src_items]. split; [split; [lia|]; lia|]. split; auto. unfold drop, take. cbn [Z.to_nat skipn]. rewrite firstn_app. unfold len in *.
      replace (_ - _)%nat with 0%nat by lia. cbn [firstn]. rewrite app_nil_r. apply firstn_all2. lia.
    - rewrite X5, (firstn_rep _ _ X7), <- X5. cbn [readable src_items]. split; [split; lia|]. split; auto. apply take_all. lia. }
  destruct b as [op off|i off]; cbn [run_sop2].
  - destruct S0 as (_ & S0). unfold str_apply_op_string. destruct (SRC same off SM) as (s & -> & RD & EQ & _). cbn [bind]. apply (modify_gen m h os o _ so co mo ko W VO); auto; [lia| | |].
    + intros G14 I14. unfold short_copy in S0. rewrite (v_scap _ _ _ _ _ _ _ VO), (v_amut _ _ _ _ _ _ _ VO) in S0.
      assert (PL : len (put op (str_value h o) (str_value h x)) = (if is_assign op then 0 else so) + sx) by (unfold put; destruct (is_assign op); rewrite ?len_app; lia). rewrite PL in S0.
      destruct mo; [|exfalso; apply S0; split; auto; split; [lia|]; intros (Q3 & _); discriminate]. split; auto.
      destruct (Z.leb_spec ((if is_assign op then 0 else so) + sx) co); auto. exfalso. apply S0. split; auto. split; [lia|]. intros (_ & Q4). lia.
    + left. split; auto. now rewrite EQ.
    + intros Q. right. split; auto. now rewrite <- O5, <- X5.
  - destruct S0 as (I0 & OF). unfold str_insert_string. destruct (SRC (same && negb (is_sso o)) off) as (s & -> & RD & EQ & SO). { intros Q. apply SM. apply andb_true_iff in Q. tauto. }
    cbn [bind]. apply (insert_gen m h os o _ so co mo ko W VO); auto; try lia.
    + destruct s as [off' e|j]; auto. subst off'. unfold off_ok in OF. rewrite (v_scap _ _ _ _ _ _ _ VO) in OF. lia.
    + left. split; auto. now rewrite EQ.
    + intros Q. right. split; auto. now rewrite <- O5, <- X5.
Qed.

Lemma str_refines p h os : str_wf h os -> str_run_safe h os p ->
  exists codes h' os', str_run h os p = Ok (codes, h', os') /\ str_wf h' os' /\ str_run_ok (map (str_value h) os) p codes (map (str_value h') os').
Proof.
  intros W S0. unfold str_run, str_run_safe, str_run_ok, str_wf, str_value in *. change (init_sso 0) with (Sso 0 (sso_cells 0)) in *.
  apply (hrun_refines (ext := False) str_okI str_okS items []) with (op_safe := sop_safe) (op2_safe := sop2_safe); auto.
  - split; [lia|]. split; [reflexivity|]. split; [reflexivity|]. split; [intros i I; lia|reflexivity].
  - intros m h0 os0 o b W0 S1. now apply sop_step.
  - intros m h0 os0 o x same b W0 I SM S1. now apply sop2_step.
Qed.
