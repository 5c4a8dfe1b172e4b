(* Property of the unique id generator: C59. *)
From Verif Require Import Base UniqueId_Model UniqueId_Proofs UniqueId_Proofs2.
Ltac Zify.zify_post_hook ::= idtac.

(* C59 with 64-bit atomics: in every interleaving of any number of threads no two calls for the same domain return the same id, and
   no id is 0. The bound on the length is that of the counter: 2^56 blocks of 256 ids. *)
Theorem C59_unique64 tls schedule :
  Z.of_nat (length schedule) < 2 ^ 56 ->
  NoDup (ids (Config true tls) schedule) /\ forall d i, In (d, i) (ids (Config true tls) schedule) -> 1 <= i < 2 ^ 64.
Proof.
  intros L. set (c := Config true tls).
  assert (N : 1 <= cached c <= 256) by (unfold cached, kLocalCacheCount; destruct (use_tls c); lia).
  assert (B : cached c * (0 + Z.of_nat (length schedule)) < limit c) by (unfold limit; cbn [atomic64 c]; nia).
  pose proof (run_inv c schedule 0 initial [] (inv_initial c) B) as I.
  cbn [app] in I. split; [exact (i_dup _ _ _ _ I)|]. intros d i Hi. pose proof (i_out _ _ _ _ I d i Hi) as O.
  destruct (i_top _ _ _ _ I d) as [T _]. unfold limit in B. cbn [atomic64 c] in B. lia.
Qed.
Print Assumptions C59_unique64.

(* C59 with 32-bit atomics only: the same holds while the low counter has not reached its threshold. Missing: longer executions, for
   which the statement is false (next theorem). *)
Theorem C59_unique32_partial tls schedule :
  Z.of_nat (length schedule) < 2 ^ 23 ->
  NoDup (ids (Config false tls) schedule) /\ forall d i, In (d, i) (ids (Config false tls) schedule) -> 1 <= i <= 2 ^ 31.
Proof.
  intros L. set (c := Config false tls).
  assert (N : 1 <= cached c <= 256) by (unfold cached, kLocalCacheCount; destruct (use_tls c); lia).
  assert (B : cached c * (0 + Z.of_nat (length schedule)) < limit c) by (unfold limit; cbn [atomic64 c]; nia).
  pose proof (run_inv c schedule 0 initial [] (inv_initial c) B) as I.
  cbn [app] in I. split; [exact (i_dup _ _ _ _ I)|]. intros d i Hi. pose proof (i_out _ _ _ _ I d i Hi) as O.
  destruct (i_top _ _ _ _ I d) as [T _]. unfold limit in B. cbn [atomic64 c] in B. lia.
Qed.
Print Assumptions C59_unique32_partial.

(* C59 fails with 32-bit atomics, although the comment of GlobalState says that a value is never returned twice: thread 0 loads the
   high part 0; thread 1 takes 2^23 blocks, increments the high part and clears the threshold; thread 0 then combines its old high
   part with a low part that thread 1 has used before. The counter had room for 2^63 ids, 2^31 were used. *)
Theorem C59_unique32_refuted : exists schedule, ~ NoDup (ids (Config false true) schedule).
Proof.
  exists bad_schedule. destruct bad_ids as (l & -> & I). intros N. apply NoDup_remove in N. rewrite app_nil_r in N. destruct N as [_ N]. exact (N I).
Qed.
Print Assumptions C59_unique32_refuted.

Definition sched (l : list nat) : list (nat * domain) := map (fun t => (t, Nat.eqb t 2)) l.
(* three threads in two domains; thread 1 takes its block between the steps of thread 0 *)
Example C59_ex64 : ids (Config true true) (sched [0; 1; 1; 0; 0; 2; 2; 1; 0; 2; 0; 1; 1]%nat) = [(false, 257); (false, 1); (true, 1); (false, 258); (false, 2)].
Proof. reflexivity. Qed.
Example C59_ex32 : ids (Config false true) (sched [0; 1; 1; 0; 1; 0; 1; 0; 0; 1; 0; 1]%nat) = [(false, 1); (false, 257); (false, 258); (false, 2)].
Proof. reflexivity. Qed.
Example C59_ex_no_tls : ids (Config true false) (sched [0; 1; 1; 0; 0; 2; 2; 1; 0; 2; 0; 1; 1; 1; 0; 0]%nat) = [(false, 2); (false, 1); (true, 1); (false, 4); (false, 3)].
Proof. reflexivity. Qed.
