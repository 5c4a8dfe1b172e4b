(* Properties of the hash map. *)
From Coq Require Import Permutation.
From Verif Require Import Base Algorithm_Model HashMap_Model HashMap_Spec HashMap_Proofs HashMap_Proofs2 HashMap_Proofs3.
Ltac Zify.zify_post_hook ::= idtac.

(* C92: the multiplication by a reciprocal computes the exact remainder, for every table size and every hash code, on
   64-bit and 32-bit targets: the bucket index is always in range. *)
Theorem C92_exact_remainder b64 index prime rcp shift data size grow k h :
  rd primes index = Ok (prime, rcp, shift) -> u32 h ->
  calc_mod b64 (Map data size prime grow rcp (prime_shift b64 shift) k) h = h mod prime /\ 0 <= h mod prime < prime.
Proof.
  intros E Hh. pose proof (rd_row _ _ E) as R. pose proof (p_ge _ _ _ R). split; [|apply Z.mod_pos_bound; lia].
  apply (calc_mod_ok b64 (Map data size prime grow rcp (prime_shift b64 shift) k) prime rcp shift h R eq_refl eq_refl eq_refl Hh).
Qed.
Print Assumptions C92_exact_remainder.
(* A row whose reciprocal is exact by a narrow margin. *)
Example C92_ex : rd primes 72 = Ok (42543269, 0xC9E9196C, 57) /\
  calc_mod true (Map [] 0 42543269 0 0xC9E9196C 57 72) 4294967295 = 40640395 /\ 4294967295 mod 42543269 = 40640395 /\
  (* one more than 32 bits and it would be wrong *)
  Z.shiftr (4296870168 * 0xC9E9196C) 57 = 101 /\ 4296870168 / 42543269 = 100.
Proof. vm_compute. repeat split. Qed.
Example C92_ex32 : calc_mod false (Map [] 0 29 0 0x8D3DCB09 4 2) 4000000000 = 4000000000 mod 29.
Proof. vm_compute. reflexivity. Qed.

(* C93: every sequence of permitted calls, with memory available or not, behaves as on a plain list of nodes. *)
Theorem C93_map b64 calls : all_permitted [] calls -> Z.of_nat (length calls) < 2 ^ 64 ->
  exists m answers, perform_all b64 (empty b64) calls = Ok (m, answers) /\ right_answers [] calls answers /\
  Permutation (for_each m) (fold_left after calls []) /\ m_size m = Z.of_nat (length (fold_left after calls [])).
Proof.
  intros P L. destruct (perform_all_ok b64 calls (empty b64) [] (empty_holds b64) P L) as (m & a & E & A & H). exists m, a. split; [exact E|]. split; [exact A|]. split; apply H.
Qed.
Print Assumptions C93_map.
Definition key (h : Z) (n : node) : bool := n_hash n =? h.
Definition some_calls : list call :=
  [Insert true (Node 1 100); Insert true (Node 2 129); Insert false (Node 3 200); Get 129 (key 129); Remove (Node 1 100); Remove (Node 1 100); Get 100 (key 100); Get 158 (key 158)].
Example C93_ex : all_permitted [] some_calls /\
  (let* (m, a) := perform_all true (empty true) some_calls in Ok (m_count m, a)) =
  Ok (29, [ANone; ANone; ANone; ANode (Some (Node 2 129)); ABool true; ABool false; ANode None; ANode None]).
Proof.
  split; [|vm_compute; reflexivity]. unfold some_calls, u32, key. cbn [all_permitted permitted after filter n_ptr n_hash map In Z.eqb Pos.eqb negb].
  repeat split; try lia; intros; repeat match goal with H : _ \/ _ |- _ => destruct H as [H|H] end; subst; cbn [n_ptr n_hash] in *; try contradiction; try (apply Z.eqb_eq; assumption); try lia; try (symmetry; apply Z.eqb_eq; assumption); try reflexivity; try (exfalso; lia).
Qed.

(* C94: what a lookup returns does not depend on nodes that do not match. It holds for keys that match one node, but
   not if several nodes match: growing reverses the order of the chains. *)
Definition others (n : nat) : list call := map (fun i => Insert true (Node (Z.of_nat i) (Z.of_nat i))) (seq 10 n).
Theorem C94_stable_refuted : exists b64 calls n h (matches : node -> bool),
  all_permitted [] (calls ++ [Get h matches; Insert true n; Get h matches]) /\ matches n = false /\
  exists m answers first second, perform_all b64 (empty b64) (calls ++ [Get h matches; Insert true n; Get h matches]) =
    Ok (m, answers ++ [ANode (Some first); ANone; ANode (Some second)]) /\ first <> second.
Proof.
  exists true, ([Insert true (Node 1 5); Insert true (Node 2 5)] ++ others 24), (Node 100 77), 5, (key 5).
  split; [|split; [reflexivity|]].
  - vm_compute. repeat split; try discriminate; intros; repeat match goal with H : _ \/ _ |- _ => destruct H as [H|H] end; subst; try discriminate; try contradiction; try reflexivity.
  - eexists _, (repeat ANone 26), (Node 1 5), (Node 2 5). split; [vm_compute; reflexivity|discriminate].
Qed.
Print Assumptions C94_stable_refuted.
Theorem C94_stable_partial b64 calls h matches n : all_permitted [] (calls ++ [Get h matches]) -> Z.of_nat (length calls) + 1 < 2 ^ 64 ->
  In n (fold_left after calls []) -> (forall n', In n' (fold_left after calls []) -> matches n' = true <-> n' = n) ->
  exists m answers, perform_all b64 (empty b64) (calls ++ [Get h matches]) = Ok (m, answers ++ [ANode (Some n)]).
Proof.
  intros P L HI U. assert (PS : forall l s, all_permitted s (l ++ [Get h matches]) -> all_permitted s l /\ permitted (fold_left after l s) (Get h matches)).
  { clear. induction l as [|c l IH]; intros s; cbn [app all_permitted fold_left]; [tauto|]. intros [A B]. destruct (IH _ B). tauto. }
  destruct (PS _ _ P) as [P1 [P2 P3]]. destruct (perform_all_ok b64 calls (empty b64) [] (empty_holds b64) P1 ltac:(cbn [length]; lia)) as (m & a & E & _ & H).
  destruct (get_ok b64 m _ h matches H P2 P3) as (o & Eo & A). exists m, a.
  assert (o = Some n) as ->. { destruct o as [x|]; [destruct A as [A1 A2]; apply (U x A1) in A2; congruence|]. specialize (A n HI). pose proof (proj2 (U n HI) eq_refl). congruence. }
  assert (EA : forall l m0 m1 a1, perform_all b64 m0 l = Ok (m1, a1) -> get b64 m1 h matches = Ok (Some n) -> perform_all b64 m0 (l ++ [Get h matches]) = Ok (m1, a1 ++ [ANode (Some n)])).
  { clear. induction l as [|d l IH]; intros m0 m1 a1 E1 E2; cbn [perform_all app] in *.
    - inversion E1; subst. cbn [perform]. rewrite E2. reflexivity.
    - destruct (perform b64 m0 d) as [[md ad]| | |]; cbn [bind] in *; try discriminate. destruct (perform_all b64 md l) as [[mx ax]| | |] eqn:EX; cbn [bind] in *; try discriminate. inversion E1; subst. rewrite (IH _ _ _ EX E2). reflexivity. }
  apply EA; assumption.
Qed.
Print Assumptions C94_stable_partial.
Example C94_ex : let calls := firstn 3 some_calls in
  In (Node 2 129) (fold_left after calls []) /\ (forall n', In n' (fold_left after calls []) -> key 129 n' = true <-> n' = Node 2 129) /\
  (let* (m, a) := perform_all false (empty false) (calls ++ [Get 129 (key 129)]) in Ok a) = Ok [ANone; ANone; ANone; ANode (Some (Node 2 129))].
Proof.
  split; [vm_compute; auto|]. split; [|vm_compute; reflexivity]. cbn [firstn some_calls fold_left after In]. intros n' HI.
  repeat match goal with H : _ \/ _ |- _ => destruct H as [H|H] end; try contradiction; subst; vm_compute; split; intros X; congruence.
Qed.

(* C95: the table grows if 13/14 of its buckets are used, so chains stay short on average, and not before. The
   threshold of large tables overflows: they grow although more than a quarter of the buckets is unused. *)
Theorem C95_growth_refuted : exists b64 calls n,
  all_permitted [] (calls ++ [Insert true n]) /\
  exists m m' answers, perform_all b64 (empty b64) calls = Ok (m, answers) /\ insert b64 true m n = Ok m' /\
  14 * (m_size m + 1) <= 13 * m_count m /\ m_count m' <> m_count m.
Proof.
  exists true, (inserts (S (Z.to_nat limit))), (plain (S (Z.to_nat limit))). remember (Z.to_nat limit) as N eqn:EN. assert (HN : Z.of_nat N = limit) by (subst N; apply Z2Nat.id; discriminate). clear EN.
  destruct (too_early true N HN) as (m & a & m' & E1 & E2 & C1 & C2 & S1 & NI). split.
  - destruct (plain_permitted (S (S N)) 0 [] (Forall_nil _) ltac:(unfold limit in HN; lia)) as (A & _ & _). rewrite seq_S, map_app in A. exact A.
  - exists m, m', a. split; [exact E1|]. split; [exact E2|]. rewrite C1, C2, S1. unfold limit. lia.
Qed.
Print Assumptions C95_growth_refuted.
(* Up to 294 million calls the occupancy never exceeds 13/14 when memory is available. *)
Theorem C95_occupancy_partial b64 calls m answers : all_permitted [] calls -> (forall n, ~ In (Insert false n) calls) -> Z.of_nat (length calls) <= 294591687 ->
  perform_all b64 (empty b64) calls = Ok (m, answers) -> 14 * Z.of_nat (length (for_each m)) <= 13 * Z.of_nat (length (m_data m)).
Proof.
  intros P NA L E. destruct (roomy_all b64 calls (empty b64) [] m answers (empty_holds b64) (roomy_empty b64) P NA L E) as [H (j & _ & _ & R)].
  pose proof (row_grow b64 _ _ H) as [_ G]. destruct H as (_ & [BL _] & PM & _). unfold for_each. rewrite (Permutation_length PM), BL. lia.
Qed.
Print Assumptions C95_occupancy_partial.
Example C95_ex : all_permitted [] (inserts 30) /\ (let* (m, _) := perform_all true (empty true) (inserts 26) in Ok (m_count m)) = Ok 29 /\
  (let* (m, _) := perform_all true (empty true) (inserts 27) in Ok (m_count m)) = Ok 59.
Proof. split; [apply (plain_permitted 30 0 [] (Forall_nil _)); lia|vm_compute; auto]. Qed.
