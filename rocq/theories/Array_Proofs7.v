(* assign_deep, equals, programs over arrays. *)
From Verif Require Import Base Bits Algorithm_Model Object_Model Object_Spec Object_Proofs
  BitArray_Model BitArray_Spec Handle_Client Handle_Proofs Array_Model Array_Spec Array_Proofs Array_Proofs2 Array_Proofs3 Array_Proofs6.
Require Import Permutation.

Section Progs.
  Context (w : Z) (Hw : 1 <= w <= 32).
  Notation wfa := (arr_wf w).
  Notation step := (hstep (ext := True) (arr_okI w) (arr_okS w) items []).

  Lemma view_in h os x : wfa h os -> In x os -> exists size cap mut c, view w h x (arr_value h x) size cap mut c.
  Proof.
    intros W I. destruct (in_split _ _ I) as (l1 & l2 & ->). apply (view_of w Hw h (l1 ++ l2)). apply wf_at. exact W.
  Qed.
  Lemma firstn_rep c l : rep c l -> vals (firstn (Z.to_nat (len l)) c) = l.
  Proof. intros R. exact (rep_items c l R). Qed.

  Lemma deep_step (m : bool) h os o x same b : wfa h (o :: os) -> In x (o :: os) -> (same = true -> x = o) -> aop2_safe w h o x b ->
    step h os (run_aop2 w m h o x same b) (aop2_ok w m (arr_value h o) (arr_value h x) b).
  Proof.
    destruct b as [off]. intros W I SM (FT & OV). cbn [run_aop2]. unfold arr_assign_deep.
    destruct (view_in h _ x W I) as (sx & cx & mx & kx & VX). destruct (view_of w Hw h os o W) as (so & co & mo & ko & VO).
    rewrite (v_size _ _ _ _ _ _ _ _ VX), (v_block _ _ _ _ _ _ _ _ VX). cbn [bind].
    set (own := match o, x with Dyn p, Dyn q => Nat.eqb p q | _, _ => same end).
    pose proof (bounds w Hw _ _ _ _ _ _ _ VX) as (X1 & X2 & X3 & X4 & X5 & X6).
    rewrite (v_amut _ _ _ _ _ _ _ _ VO), (v_acap _ _ _ _ _ _ _ _ VO), <- X6, (v_len _ _ _ _ _ _ _ _ VO) in FT. rewrite (v_acap _ _ _ _ _ _ _ _ VO), <- X6 in OV.
    assert (OWN : own = true -> arr_value h o = arr_value h x).
    { intros Q. subst own. destruct o as [s1 c1|p], x as [s2 c2|q]; try (now rewrite (SM Q)). apply Nat.eqb_eq in Q. now subst. }
    set (s := if own then SIn 0 else _).
    assert (XI : src_items (arr_value h o) s sx = arr_value h x).
    { subst s. destruct own.
      - cbn [src_items]. rewrite OWN by auto. unfold drop. cbn [Z.to_nat skipn]. apply take_all. lia.
      - cbn [src_items]. fold (vals (firstn (Z.to_nat sx) kx)). rewrite X6, (firstn_rep _ _ (v_rep _ _ _ _ _ _ _ _ VX)). apply take_all. lia. }
    assert (SV : src_valid w h o (arr_value h o) s sx).
    { split; [lia|]. subst s. destruct own.
      - split; [lia|]. rewrite OWN by auto. lia.
      - fold (vals (firstn (Z.to_nat sx) kx)). rewrite X6, (firstn_rep _ _ (v_rep _ _ _ _ _ _ _ _ VX)), (v_acap _ _ _ _ _ _ _ _ VO), <- X6. split; [lia|]. split; [nia|]. exact OV. }
    eapply hstep_weaken; [|apply (assign_data_gen w Hw m h os o _ so co mo ko W VO s sx (AAssignData s sx) SV FT); auto].
    - intros code v [Q|(Q1 & Q2)].
      + left. cbn [spec_aop] in Q. rewrite XI in Q. now injection Q as -> ->.
      + right. split; auto. cbn [demand] in Q1. rewrite X6 in Q1. exact Q1.
  Qed.

  (* ---- equality ---- *)
  Lemma cells_eq_ok : forall n a b i la lb, rep a la -> rep b lb -> 0 <= i -> i + Z.of_nat n = len la -> len la = len lb ->
    cells_eq n a b i = Ok (if list_eq_dec Z.eq_dec (drop la i) (drop lb i) then true else false).
  Proof.
    induction n as [|n IH]; intros a b i la lb RA RB I L E; cbn [cells_eq]; unfold len in *.
    - assert (drop la i = [] /\ drop lb i = []) as [-> ->]. { unfold drop. split; apply skipn_all2; lia. } reflexivity.
    - destruct (nth_some la (Z.to_nat i)) as (x & X); [lia|]. destruct (nth_some lb (Z.to_nat i)) as (y & Y); [lia|].
      rewrite (rdc_some a i x I) by (rewrite RA by lia; now rewrite X). rewrite (rdc_some b i y I) by (rewrite RB by lia; now rewrite Y). cbn [bind].
      assert (D : forall l v, nth_error l (Z.to_nat i) = Some v -> drop l i = v :: drop l (i + 1)).
      { intros l v Q. unfold drop. replace (Z.to_nat (i + 1)) with (S (Z.to_nat i)) by lia. clear - Q. revert l Q. generalize (Z.to_nat i) as k.
        induction k as [|k IHk]; intros [|z l] Q; cbn in *; try discriminate; [congruence|]. now apply IHk. }
      rewrite (D _ _ X), (D _ _ Y). destruct (Z.eqb_spec x y) as [->|N].
      + rewrite (IH a b (i + 1) la lb) by (auto; unfold len; lia).
        destruct (list_eq_dec _ (drop la (i + 1)) (drop lb (i + 1))) as [Q|Q], (list_eq_dec _ (y :: drop la (i + 1)) (y :: drop lb (i + 1))) as [Q'|Q']; congruence.
      + destruct (list_eq_dec _ (x :: _) (y :: _)) as [Q|Q]; congruence.
  Qed.
  Lemma equals_ok h os a b : wfa h os -> In a os -> In b os -> exists r, arr_equals h a b = Ok r /\ (r = true <-> arr_value h a = arr_value h b).
  Proof.
    intros W IA IB. destruct (view_in h os a W IA) as (sa & ca & ma & ka & VA). destruct (view_in h os b W IB) as (sb & cb & mb & kb & VB).
    assert (G : exists r, (if negb (sa =? sb) then Ok false else cells_eq (Z.to_nat sa) ka kb 0) = Ok r /\ (r = true <-> arr_value h a = arr_value h b)).
    { pose proof (v_len _ _ _ _ _ _ _ _ VA) as LA. pose proof (v_len _ _ _ _ _ _ _ _ VB) as LB. destruct (Z.eqb_spec sa sb) as [E|E]; cbn [negb].
      - rewrite (cells_eq_ok _ _ _ _ _ _ (v_rep _ _ _ _ _ _ _ _ VA) (v_rep _ _ _ _ _ _ _ _ VB)) by (unfold len in *; lia).
        unfold drop. cbn [Z.to_nat skipn]. destruct (list_eq_dec _ _ _); eexists; split; try reflexivity; intuition congruence.
      - exists false. split; auto. split; [discriminate|]. intros Q. rewrite Q in LA. congruence. }
    pose proof (v_size _ _ _ _ _ _ _ _ VA) as SA. pose proof (v_size _ _ _ _ _ _ _ _ VB) as SB.
    pose proof (v_block _ _ _ _ _ _ _ _ VA) as BA. pose proof (v_block _ _ _ _ _ _ _ _ VB) as BB.
    unfold arr_equals. destruct a as [s1 c1|p], b as [s2 c2|q].
    - rewrite SA, SB, BA, BB. exact G.
    - rewrite SA, SB, BA, BB. exact G.
    - rewrite SA, SB, BA, BB. exact G.
    - destruct (Nat.eqb_spec p q) as [->|N]. { exists true. split; auto. tauto. }
      cbn [get_size block own_loc] in *. destruct (get_impl h p); try discriminate. destruct (get_impl h q); try discriminate. cbn [bind] in *.
      injection SA as ->. injection SB as ->. injection BA as ->. injection BB as ->. exact G.
  Qed.

  (* ---- programs ---- *)
  Lemma arr_refines p h os : wfa h os -> arr_run_safe w h os p ->
    exists codes h' os', arr_run w h os p = Ok (codes, h', os') /\ wfa h' os' /\
      arr_run_ok w (map (arr_value h) os) p codes (map (arr_value h') os').
  Proof.
    intros W S0. apply (hrun_refines (ext := True) (arr_okI w) (arr_okS w) items []) with (op_safe := fun _ => aop_safe w) (op2_safe := fun _ => aop2_safe w); auto.
    - pose proof (K_range w Hw). split; [rewrite <- (K_eq w); lia|]. split; [apply zeros_len; auto|]. intros i I; lia.
    - intros m h0 os0 o b W0 S1. now apply aop_step.
    - intros m h0 os0 o x same b W0 I SM S1. now apply deep_step.
  Qed.
End Progs.
