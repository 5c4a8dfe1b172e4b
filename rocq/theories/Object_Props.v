(* Theorems about object lifetime and container growth. *)
From Verif Require Import Base IntOps_Model Algorithm_Model Object_Model Object_Spec Object_Proofs Object_Proofs2 Object_Client Object_Proofs3.

(* ------------------------------------------------------------------ C27 *)
(* Histories of any length over any number of handles never touch a freed Impl and never free one twice (both would be
   UB), and at every moment (every history is a prefix of longer ones):
   an Impl is allocated exactly while some handle refers to it; its count is the number of handles plus base - 1; it is
   considered mutable exactly when it is not immutable and has one handle. *)
Theorem C27_lifetime : forall p, lvalid 0 p -> exists h os, lrun [] [] p = Ok (h, os) /\
  forall q, match nth_error h q with
            | Some (Some im) => In (Dyn q) os /\ rc im = base im - 1 + refs q os /\ (base im = 1 \/ base im = 3) /\
                                (is_impl_mutable im = true <-> base im = 1 /\ refs q os = 1)
            | _ => ~ In (Dyn q) os
            end.
Proof.
  intros p Vd. assert (W0 : lwf [] []) by (split; [constructor|intros [|q]; reflexivity]).
  destruct (lrun_ok p [] [] W0 Vd) as (h & os & E & W). exists h, os. split; auto. intros q. destruct W as [_ H]. specialize (H q).
  destruct (nth_error h q) as [[im|]|]; [|now apply refs_zero|now apply refs_zero].
  destruct H as (_ & B & P & R). assert (B' : base im = 1 \/ base im = 3) by tauto. split; [|split; [auto|split; [auto|]]].
  - unfold refs in P. destruct (filter (refers q) os) as [|o l] eqn:F; [cbn in P; lia|].
    assert (I : In o (filter (refers q) os)) by (rewrite F; left; auto). apply filter_In in I. destruct I as [I Q]. destruct o as [s c|r]; [discriminate|].
    apply refers_dyn in Q. now subst.
  - unfold is_impl_mutable. split; [intros M|intros [B1 B2]]; lia.
Qed.
Print Assumptions C27_lifetime.
(* Between two moments of a history nothing of an Impl but its count changes (an immutable one stays immutable), and what
   has been freed stays freed. *)
Theorem C27_impl_fixed : forall p h os h' os' r, lrun h os p = Ok (h', os') ->
  match nth_error h r with
  | Some (Some im) => nth_error h' r = Some None \/ exists im', nth_error h' r = Some (Some im') /\
                        base im' = base im /\ isize im' = isize im /\ icap im' = icap im /\ mem im' = mem im
  | Some None => nth_error h' r = Some None
  | None => True
  end.
Proof.
  intros p h os h' os' r H. pose proof (keeps_run p _ _ _ _ H r) as K. destruct (nth_error h r) as [a|]; auto. destruct (K a eq_refl) as (b & E & K1).
  destruct a as [im|], b as [im'|]; cbn in K1; try tauto. right. exists im'. auto.
Qed.
Print Assumptions C27_impl_fixed.
Example C27_ex1 : lvalid 0 [LNew false 5 8 []; LWeak 0; LNew true 1 1 []; LAssignWeak 1 2; LDestroy 2; LDestroy 0; LReset 0]. Proof. cbn. lia. Qed.
Example C27_ex2 : lrun [] [] [LNew false 5 8 []; LWeak 0; LNew true 1 1 []; LAssignWeak 1 2; LDestroy 2; LDestroy 0] =
  Ok ([None; Some (Impl 3 3 1 1 [])], [Dyn 1]). Proof. reflexivity. Qed.
Example C27_ex3 : lrun [] [] [LNew false 5 8 []; LWeak 0; LNew true 1 1 []; LAssignWeak 1 2; LDestroy 2; LDestroy 0; LReset 0] =
  Ok ([None; None], [dflt_obj]). Proof. reflexivity. Qed.

(* ------------------------------------------------------------------ C28 *)
Theorem C28_never_less : forall s, 0 <= s < 2 ^ 64 -> exists r, expand_impl_size s = Ok r /\ s <= r < 2 ^ 64 /\
  (BL_ALLOC_GROW_LIMIT <= s -> s + s / 4 + s / 8 < 2 ^ 64 -> r = s + s / 4 + s / 8).
Proof. intros s B. destruct (expand_ok s B) as (r & E & R & _ & L). eauto. Qed.
Print Assumptions C28_never_less.
(* 126 bytes requested below the limit: 128 are provided *)
Theorem C28_doubles_refuted : exists s r, 0 < s < BL_ALLOC_GROW_LIMIT /\ expand_impl_size s = Ok r /\ r < 2 * s.
Proof. exists 126, 128. vm_compute. auto. Qed.
Print Assumptions C28_doubles_refuted.
(* what holds instead: the result is the least power of two above s + 1, and appending never moves more than a constant
   number of bytes per byte stored, whatever the item size and the initial storage *)
Theorem C28_power_of_two_partial : forall s, 0 <= s < BL_ALLOC_GROW_LIMIT -> exists k, 0 <= k <= 24 /\ expand_impl_size s = Ok (2 ^ k) /\
  s + 1 < 2 ^ k /\ (0 < k -> 2 ^ (k - 1) <= s + 1).
Proof.
  intros s B. unfold BL_ALLOC_GROW_LIMIT in *. destruct (expand_ok s ltac:(lia)) as (r & E & R & L & _). destruct (L ltac:(unfold BL_ALLOC_GROW_LIMIT; lia)) as (k & K & -> & P).
  exists k. repeat split; auto; try lia.
Qed.
Print Assumptions C28_power_of_two_partial.
Theorem C28_amortized : forall n w size cap, 0 < w -> 0 < size <= cap -> size + Z.of_nat n * w < 2 ^ 62 ->
  exists cap' cost, append_many n w size cap 0 = Ok (size + Z.of_nat n * w, cap', cost) /\ size + Z.of_nat n * w <= cap' /\
    0 <= cost <= 6 * (size + Z.of_nat n * w) + 6.
Proof. intros n w size cap W S0 N. apply append_many_ok; auto; lia. Qed.
Print Assumptions C28_amortized.
Example C28_ex : append_many 1000 4 12 16 0 = Ok (4012, 4096, 4080). Proof. vm_compute. reflexivity. Qed.
