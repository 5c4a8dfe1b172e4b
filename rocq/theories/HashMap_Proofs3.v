(* Growth. *)
From Coq Require Import Permutation.
From Verif Require Import Base Bits Algorithm_Model HashMap_Model HashMap_Spec HashMap_Proofs HashMap_Proofs2.
Ltac Zify.zify_post_hook ::= idtac.

Definition grow_at (k : Z) : Z := match rd primes k with Ok (p, _, _) => grow_of p | _ => 0 end.
Definition limit : Z := 294591687.
Lemma grow_table : forallb (fun j => let k := 2 * Z.of_nat j in (grow_at k + 1 <=? grow_at (k + 2)) && (grow_at k <? limit)) (seq 0 57) = true.
Proof. vm_compute. reflexivity. Qed.
Lemma grow_next j : 0 <= j < 57 -> grow_at (2 * j) + 1 <= grow_at (2 * j + 2) /\ grow_at (2 * j) < limit.
Proof.
  intros H. pose proof (proj1 (forallb_forall _ _) grow_table (Z.to_nat j) ltac:(apply in_seq; lia)) as X. cbv beta zeta in X. rewrite Z2Nat.id in X by lia. rewrite andb_true_iff, Z.leb_le, Z.ltb_lt in X. exact X.
Qed.
Lemma grow_114 : grow_at 114 = limit.
Proof. vm_compute. reflexivity. Qed.
Lemma grow_le p : 0 <= p -> 14 * grow_of p <= 13 * p.
Proof.
  intros H. unfold grow_of. assert (w32 (p * 13) <= p * 13) by (unfold w32; apply Z.mod_le; lia). pose proof (Z.mul_div_le (w32 (p * 13)) 14 ltac:(lia)). lia.
Qed.

Section Growth.
  Context (b64 : bool).
  Lemma row_grow m s : holds b64 m s -> m_grow m = grow_at (m_prime m) /\ 14 * m_grow m <= 13 * m_count m.
  Proof.
    intros ((Hk & _ & p & r & sh & E & Ec & Eg & _) & _). unfold grow_at. rewrite E. split; [exact Eg|]. rewrite Eg, Ec. apply grow_le. pose proof (p_ge p r sh (rd_row _ _ E)). lia.
  Qed.
  (* sizes within the threshold, at an even row *)
  Definition roomy (m : hmap) (s : list node) : Prop :=
    exists j, 0 <= j <= 57 /\ m_prime m = 2 * j /\ Z.of_nat (length s) <= m_grow m.
  Lemma roomy_insert m s n m' : holds b64 m s -> roomy m s -> u32 (n_hash n) -> ~ In (n_ptr n) (map n_ptr s) -> Z.of_nat (length s) + 1 <= limit ->
    insert b64 true m n = Ok m' -> roomy m' (n :: s).
  Proof.
    intros H (j & Hj & Ej & L) Hn HI HL E. unfold limit in HL. destruct (insert_ok b64 true m s n H Hn HI ltac:(lia)) as (m1 & E1 & H1 & K). rewrite E in E1. inversion E1; subst m1.
    rewrite andb_true_r in K. pose proof (proj1 (row_grow _ _ H)) as G. pose proof (proj1 (row_grow _ _ H1)) as G1. unfold roomy. rewrite G1, K. cbn [length]. rewrite Ej in *.
    destruct (Z.ltb_spec (m_grow m) (Z.of_nat (length s) + 1)) as [X|X].
    - assert (j <> 57) by (intros ->; change (2 * 57) with 114 in G; rewrite grow_114 in G; unfold limit in *; lia).
      pose proof (grow_next j ltac:(lia)) as [N _]. exists (j + 1). rewrite Z.min_l by lia. split; [lia|]. split; [lia|]. lia.
    - exists j. split; [lia|]. split; [reflexivity|]. lia.
  Qed.
  Lemma roomy_empty : roomy (empty b64) [].
  Proof. exists 0. split; [lia|]. split; [reflexivity|]. cbn [length empty m_grow]. lia. Qed.
  Lemma roomy_call m s c m' a : holds b64 m s -> roomy m s -> permitted s c -> (forall n, c <> Insert false n) -> Z.of_nat (length s) + 1 <= limit ->
    perform b64 m c = Ok (m', a) -> roomy m' (after s c).
  Proof.
    intros H R P NA HL E. destruct c as [alloc n|n|h f|]; cbn [perform permitted after] in *.
    - destruct alloc; [|exfalso; apply (NA n); reflexivity]. destruct (insert b64 true m n) as [m1| | |] eqn:E1; cbn [bind] in E; inversion E; subst. destruct P as [P1 P2]. apply (roomy_insert m s n m' H R P1 P2 HL E1).
    - destruct P as [P1 P2]. destruct (remove_ok b64 m s n H P1 P2) as (ok & m1 & E1 & _ & H1 & K). rewrite E1 in E. cbn [bind] in E. inversion E; subst m1 a.
      destruct R as (j & Hj & Ej & L). exists j. split; [exact Hj|]. split; [congruence|]. pose proof (proj1 (row_grow _ _ H)) as G. pose proof (proj1 (row_grow _ _ H1)) as G1. rewrite G1, K, <- G.
      eapply Z.le_trans; [|exact L]. apply Nat2Z.inj_le. clear. induction s as [|x s IH]; cbn [filter length]; [lia|]. destruct (negb _); cbn [length]; lia.
    - destruct (get b64 m h f) as [o| | |]; cbn [bind] in E; inversion E; subst. exact R.
    - inversion E; subst. apply roomy_empty.
  Qed.
  Lemma roomy_all l : forall m s m' a, holds b64 m s -> roomy m s -> all_permitted s l -> (forall n, ~ In (Insert false n) l) -> Z.of_nat (length s) + Z.of_nat (length l) <= limit ->
    perform_all b64 m l = Ok (m', a) -> holds b64 m' (fold_left after l s) /\ roomy m' (fold_left after l s).
  Proof.
    induction l as [|c l IH]; intros m s m' a H R P NA HL E; cbn [perform_all all_permitted fold_left] in *; [inversion E; subst; auto|]. destruct P as [P1 P2]. cbn [length] in HL. unfold limit in *.
    destruct (perform_ok b64 m s c H P1 ltac:(lia)) as (m1 & a1 & E1 & _ & H1). rewrite E1 in E. cbn [bind] in E. destruct (perform_all b64 m1 l) as [[m2 a2]| | |] eqn:E2; cbn [bind] in E; inversion E; subst.
    pose proof (after_length s c). apply (IH m1 (after s c) m' a2 H1); try assumption; try lia.
    - apply (roomy_call m s c m1 a1 H R P1); [|unfold limit; lia|exact E1]. intros n X. apply (NA n). left. exact X.
    - intros n X. apply (NA n). right. exact X.
  Qed.

  (* nodes 0, 1, ... *)
  Definition plain (i : nat) : node := Node (Z.of_nat i) (Z.of_nat i).
  Definition inserts (n : nat) : list call := map (fun i => Insert true (plain i)) (seq 0 n).
  Lemma plain_permitted n : forall a s, Forall (fun x => n_ptr x < Z.of_nat a) s -> Z.of_nat a + Z.of_nat n <= 2 ^ 32 ->
    all_permitted s (map (fun i => Insert true (plain i)) (seq a n)) /\
    Forall (fun x => n_ptr x < Z.of_nat a + Z.of_nat n) (fold_left after (map (fun i => Insert true (plain i)) (seq a n)) s) /\
    length (fold_left after (map (fun i => Insert true (plain i)) (seq a n)) s) = (n + length s)%nat.
  Proof.
    induction n as [|n IH]; intros a s F HL; cbn [seq map all_permitted fold_left]; [split; [exact I|]; split; [replace (Z.of_nat a + Z.of_nat 0) with (Z.of_nat a) by lia; exact F|reflexivity]|].
    assert (F' : Forall (fun x => n_ptr x < Z.of_nat (S a)) (plain a :: s)) by (constructor; [cbn [plain n_ptr]; lia|]; eapply Forall_impl; [|exact F]; intros x Hx; cbv beta in *; lia).
    destruct (IH (S a) (plain a :: s) F' ltac:(lia)) as (A & B & C). cbn [after permitted]. split; [split; [|exact A]|split].
    - split; [unfold u32; cbn [plain n_hash]; lia|]. intros X. apply in_map_iff in X. destruct X as (x & Ex & IX). pose proof (proj1 (Forall_forall _ _) F x IX) as Y. cbv beta in Y. rewrite Ex in Y. cbn [plain n_ptr] in Y. lia.
    - eapply Forall_impl; [|exact B]. intros x Hx. cbv beta in *. lia.
    - rewrite C. cbn [length]. lia.
  Qed.
  Lemma count_rows : rd primes 116 = Ok (441742621, 0x9B908414, 60) /\ rd primes 118 = Ok (615082441, 0xDF72B16E, 61).
  Proof. vm_compute. auto. Qed.
  Lemma too_early (N : nat) : Z.of_nat N = limit -> exists m a m', perform_all b64 (empty b64) (inserts (S N)) = Ok (m, a) /\ insert b64 true m (plain (S N)) = Ok m' /\
    m_count m = 441742621 /\ m_count m' = 615082441 /\ m_size m = limit + 1 /\ ~ In (n_ptr (plain (S N))) (map n_ptr (fold_left after (inserts (S N)) [])).
  Proof.
    intros HN. unfold limit in *. destruct (plain_permitted N 0 [] (Forall_nil _) ltac:(lia)) as (A & B & C). destruct (plain_permitted (S N) 0 [] (Forall_nil _) ltac:(lia)) as (A1 & B1 & C1). fold (inserts N) in *. fold (inserts (S N)) in *.
    assert (LI : length (inserts N) = N) by (unfold inserts; rewrite map_length, seq_length; reflexivity).
    destruct (perform_all_ok b64 (inserts N) (empty b64) [] (empty_holds b64) A ltac:(cbn [length]; lia)) as (m0 & a0 & E0 & _ & _).
    destruct (roomy_all (inserts N) (empty b64) [] m0 a0 (empty_holds b64) roomy_empty A ltac:(intros n X; unfold inserts in X; apply in_map_iff in X; destruct X as (i & Ei & _); discriminate) ltac:(cbn [length]; unfold limit; lia) E0) as [H0 (j & Hj & Ej & L)].
    rewrite C in L. cbn [length] in L. pose proof (proj1 (row_grow _ _ H0)) as G0. rewrite Ej in G0.
    assert (J : j = 57). { destruct (Z.eq_dec j 57); [assumption|]. pose proof (grow_next j ltac:(lia)) as [_ Y]. unfold limit in Y. lia. } subst j.
    assert (NI : forall k, Z.of_nat N <= Z.of_nat k -> ~ In (n_ptr (plain k)) (map n_ptr (fold_left after (inserts N) []))).
    { intros k Hk X. apply in_map_iff in X. destruct X as (x & Ex & IX). pose proof (proj1 (Forall_forall _ _) B x IX) as Y. cbv beta in Y. rewrite Ex in Y. cbn [plain n_ptr] in Y. lia. }
    destruct (insert_ok b64 true m0 _ (plain N) H0 ltac:(unfold u32; cbn [plain n_hash]; lia) (NI N ltac:(lia)) ltac:(rewrite C; cbn [length]; lia)) as (m1 & E1 & H1 & K1).
    rewrite C in K1. cbn [length] in K1. rewrite G0, Ej in K1. change (2 * 57) with 114 in K1. rewrite grow_114 in K1. unfold limit in K1. destruct (Z.ltb_spec 294591687 (Z.of_nat (N + 0) + 1)) as [_|X]; [|lia]. cbn [andb] in K1. change (Z.min (114 + 2) 128) with 116 in K1.
    assert (IS : inserts (S N) = inserts N ++ [Insert true (plain N)]) by (unfold inserts; rewrite seq_S, map_app; reflexivity).
    assert (EA : forall l m c m1 a m2 b, perform_all b64 m l = Ok (m1, a) -> perform b64 m1 c = Ok (m2, b) -> perform_all b64 m (l ++ [c]) = Ok (m2, a ++ [b])).
    { clear. induction l as [|d l IH]; intros m c m1 a m2 b E1 E2; cbn [perform_all app] in *.
      - inversion E1; subst. rewrite E2. reflexivity.
      - destruct (perform b64 m d) as [[md ad]| | |]; cbn [bind] in *; try discriminate. destruct (perform_all b64 md l) as [[mx ax]| | |] eqn:EX; cbn [bind] in *; try discriminate. inversion E1; subst. rewrite (IH _ _ _ _ _ _ EX E2). reflexivity. }
    assert (E2 : perform_all b64 (empty b64) (inserts (S N)) = Ok (m1, a0 ++ [ANone])) by (rewrite IS; eapply EA; [exact E0|]; cbn [perform]; rewrite E1; reflexivity).
    assert (FS : fold_left after (inserts (S N)) [] = plain N :: fold_left after (inserts N) []) by (rewrite IS, fold_left_app; reflexivity).
    assert (NI1 : ~ In (n_ptr (plain (S N))) (map n_ptr (plain N :: fold_left after (inserts N) []))).
    { cbn [map In]. intros [X|X]; [cbn [plain n_ptr] in X; lia|]. exact (NI (S N) ltac:(lia) X). }
    destruct (insert_ok b64 true m1 _ (plain (S N)) H1 ltac:(unfold u32; cbn [plain n_hash]; lia) NI1 ltac:(cbn [length]; rewrite C; cbn [length]; lia)) as (m2 & E3 & H2 & K2).
    pose proof (proj1 (row_grow _ _ H1)) as G1. rewrite K1 in G1, K2. assert (G116 : grow_at 116 = 103406198) by (vm_compute; reflexivity). rewrite G1, G116 in K2.
    destruct (Z.ltb_spec 103406198 (Z.of_nat (length (plain N :: fold_left after (inserts N) [])) + 1)) as [_|X]; [|cbn [length] in X; rewrite C in X; cbn [length] in X; lia]. cbn [andb] in K2. change (Z.min (116 + 2) 128) with 118 in K2.
    exists m1, (a0 ++ [ANone]), m2. split; [exact E2|]. split; [exact E3|]. destruct count_rows as [R1 R2].
    split; [|split; [|split]].
    - destruct H1 as ((_ & _ & p & r & sh & X & Y & _) & _). rewrite K1, R1 in X. congruence.
    - destruct H2 as ((_ & _ & p & r & sh & X & Y & _) & _). rewrite K2, R2 in X. congruence.
    - destruct H1 as (_ & _ & _ & X & _). rewrite X. cbn [length]. rewrite C. cbn [length]. lia.
    - rewrite FS. exact NI1.
  Qed.
End Growth.
