(* Executions. *)
From Verif Require Import Base TagData_Model TagData_Spec TagData_Proofs FontFeature_Model FontFeature_Spec FontFeature_Exec
  FontFeature_Proofs2 FontFeature_Proofs5 FontFeature_Proofs7 FontFeature_Proofs8.
Ltac Zify.zify_post_hook ::= idtac.

Notation good := (safe feature_id_to_tag_table).

Definition agrees (s : settings) (m : fmap) : Prop := exists V, Inv s V /\ forall t, m t = assoc t V.

Lemma agrees_put V t v m : increasing (keys V) -> (forall u, m u = assoc u V) -> forall u, put m t v u = assoc u (aset t v V).
Proof. intros I H u. rewrite assoc_aset by auto. unfold put. rewrite H. reflexivity. Qed.
Lemma agrees_del V t m : increasing (keys V) -> (forall u, m u = assoc u V) -> forall u, del m t u = assoc u (adel t V).
Proof. intros I H u. rewrite assoc_adel by auto. unfold del. rewrite H. reflexivity. Qed.

Lemma codes_differ : SUCCESS <> OUT_OF_MEMORY /\ SUCCESS <> INVALID_VALUE. Proof. split; discriminate. Qed.

Lemma bad_dec t v : 0 <= t < 2 ^ 32 -> bad_value t v \/ ~ bad_value t v.
Proof.
  intros H. unfold bad_value. destruct (Z.lt_ge_cases 65535 v); [auto|]. destruct (is_valid_tag t) eqn:E.
  - right. intros [N|N]; [apply N, valid_tag_exact; auto|lia].
  - left. left. intros N. apply valid_tag_exact in N; auto. congruence.
Qed.

Lemma step s m o : agrees s m -> words o -> good m o ->
  exists code s', exec s o = Ok (code, s') /\ code_ok o code /\ agrees s' (next m o code).
Proof.
  intros (V & HI & HM) HW HS. destruct (inv_ok _ _ HI) as [I _]. unfold next. destruct o as [t v mem|t mem| | |mem|ex]; cbn [exec].
  - destruct HW as [Ht Hv]. destruct (set_value_ok s V t v mem HI Ht Hv HS) as (code & s' & old & -> & P & _). cbn [bind]. exists code, s'. split; auto.
    destruct P as [(-> & NB & P)|[(-> & -> & P)|(-> & -> & -> & NB)]].
    + split; [cbn [code_ok]; split; [intros Q; contradiction|split; auto]|]. cbn [effect]. rewrite Z.eqb_refl. exists (aset t v V). split; auto. apply agrees_put; auto.
    + split; [|exists V; auto]. cbn [code_ok]. split; auto. split; [|auto]. intros N1 N2. destruct P; contradiction.
    + split; [|exists V; auto]. cbn [code_ok]. split; [intros Q; contradiction|split; auto].
  - assert (R : removable (fun t => assoc t V) t).
    { intros K a b v Ka Kb L N E. apply (HS K a b v Ka Kb L); rewrite HM; auto. }
    destruct (remove_value_ok s V t mem HI R) as (code & s' & old & -> & P & _). cbn [bind]. exists code, s'. split; auto.
    destruct P as [(-> & P)|(-> & -> & ->)].
    + split; [left; auto|]. rewrite Z.eqb_refl. exists (adel t V). split; auto. apply agrees_del; auto.
    + split; [right; auto|]. exists V. auto.
  - exists SUCCESS, (clear s). split; auto. split; [reflexivity|]. exists []. split; [eapply clear_ok; eauto|reflexivity].
  - exists SUCCESS, (reset s). split; auto. split; [reflexivity|]. exists []. split; [|reflexivity].
    exists abs0. split; [apply wf_abs0|split; [apply init_ok|apply content_abs0]].
  - destruct (shrink_ok s V mem HI) as (code & s' & -> & HI' & P). exists code, s'. split; auto. split; [destruct P as [->|(-> & -> & _)]; [left|right]; auto|].
    exists V. split; auto. destruct (code =? SUCCESS); auto.
  - exists SUCCESS. eexists. split; [reflexivity|]. split; [reflexivity|]. exists V. split; [|auto]. destruct s; auto.
Qed.

Lemma reach_agrees s m : reach good s m -> agrees s m.
Proof.
  induction 1 as [|s m o code s' R IH W G E].
  - exists []. split; [|reflexivity]. exists abs0. split; [apply wf_abs0|split; [apply init_ok|apply content_abs0]].
  - destruct (step s m o IH W G) as (c & s1 & E1 & _ & A). rewrite E in E1. injection E1 as <- <-. exact A.
Qed.

Lemma inv_lists s m V : Inv s V -> (forall t, m t = assoc t V) -> lists m V.
Proof.
  intros HI HM. destruct (inv_ok _ _ HI) as [I _]. split; auto. intros t v. rewrite HM. apply assoc_in. auto.
Qed.
Lemma lists_unique m V W : lists m V -> lists m W -> V = W.
Proof.
  intros [I H] [J K]. apply assoc_ext; auto. intros k. destruct (assoc k V) as [v|] eqn:E.
  - apply assoc_in in E; auto. apply H, K in E. apply assoc_in in E; auto.
  - destruct (assoc k W) as [v|] eqn:F; auto. apply assoc_in in F; auto. apply K, H in F. apply assoc_in in F; auto. congruence.
Qed.
