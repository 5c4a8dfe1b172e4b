(* An execution of the 32-bit implementation that returns an id twice: thread 0 reads the high part and sleeps while thread 1
   uses up all low parts. *)
From Verif Require Import Base UniqueId_Model UniqueId_Proofs.
Ltac Zify.zify_post_hook ::= idtac.

Notation C := (Config false true).
Lemma run_app c : forall a b s, run c s (a ++ b) = let (i1, s1) := run c s a in let (i2, s2) := run c s1 b in (i1 ++ i2, s2).
Proof.
  induction a as [|[t d] a IH]; intros b s; cbn [run app].
  - destruct (run c s b); reflexivity.
  - destruct (step c s t d) as [s1 o]. rewrite IH. destruct (run c s1 a) as [i1 s2]. destruct (run c s2 b) as [i2 s3]. destruct o; reflexivity.
Qed.

(* k blocks were taken; thread 1 is between calls with cache v; thread 0 holds the high part 0 *)
Record P (s : system) (k v : Z) : Prop := MkP {
  p_lo : lo (global s false) = 256 * k;
  p_hi : hi (global s false) = 0;
  p_pc : at_pc (threads s 1%nat) = Idle;
  p_cache : cache (threads s 1%nat) false = v;
  p_other : at_pc (threads s 0%nat) = AddLo false 0 }.

Definition me : nat * domain := (1%nat, false).
Ltac look H := rewrite ?set_nat_eq, ?set_bool_eq, ?(set_nat_neq _ 1%nat 0%nat) by discriminate; cbn [at_pc cache global threads hi lo index use_tls atomic64].

Lemma call_cached s k v : P s k v -> v mod 256 <> 0 -> 0 <= v < 2 ^ 40 ->
  exists s', run C s [me; me] = ([(false, v + 1)], s') /\ P s' k (v + 1).
Proof.
  intros [L H Pc Ca O] M R. unfold me. cbn [run]. unfold step at 1. rewrite Pc. cbn [use_tls]. rewrite land255, Ca.
  destruct (Z.eqb_spec (v mod 256) 0); [contradiction|]. unfold step at 1. cbn [threads]. rewrite set_nat_eq. cbn [at_pc cache use_tls].
  eexists. split.
  - f_equal. unfold w64. rewrite Z.mod_small by lia. reflexivity.
  - constructor; cbn [global threads]; [exact L|exact H| | |].
    + rewrite set_nat_eq. reflexivity.
    + rewrite set_nat_eq. cbn [cache]. rewrite set_bool_eq. unfold w64. apply Z.mod_small. lia.
    + rewrite (set_nat_neq _ 1%nat 0%nat) by discriminate. rewrite (set_nat_neq _ 1%nat 0%nat) by discriminate. exact O.
Qed.

Lemma call_fetch s k v : P s k v -> v mod 256 = 0 -> 0 <= k < 2 ^ 23 ->
  exists s', run C s [me; me; me; me] = ([(false, 256 * k + 1)], s') /\ P s' (k + 1) (256 * k + 1).
Proof.
  intros [L H Pc Ca O] M R. unfold me. cbn [run]. unfold step at 1. rewrite Pc. cbn [use_tls]. rewrite land255, Ca, M. cbn [Z.eqb].
  unfold step at 1. cbn [threads]. rewrite set_nat_eq. cbn [at_pc cache atomic64 global]. rewrite H.
  unfold step at 1. cbn [threads]. rewrite set_nat_eq. cbn [at_pc cache global]. rewrite L.
  assert (TH : Z.land (256 * k) kThresholdLo32 = 0).
  { change kThresholdLo32 with (Z.shiftl 1 31). apply Z.bits_inj'. intros i Hi. rewrite Z.land_spec, Z.bits_0.
    destruct (Z.eq_dec i 31) as [->|Ni].
    - rewrite <- (Z.mod_small (256 * k) (2 ^ 31)) by lia. rewrite Z.mod_pow2_bits_high by lia. reflexivity.
    - rewrite Z.shiftl_spec by lia. change 1 with (2 ^ 0). rewrite Z.pow2_bits_false by lia. apply andb_false_r. }
  rewrite TH. cbn [Z.eqb]. change (Z.shiftl 0 32) with 0. rewrite Z.lor_0_l.
  unfold step at 1. cbn [threads]. rewrite set_nat_eq. cbn [at_pc cache global use_tls].
  eexists. split.
  - f_equal. unfold w64. rewrite Z.mod_small by lia. reflexivity.
  - constructor; cbn [global threads].
    + rewrite set_bool_eq. cbn [lo]. unfold w32, cached, kLocalCacheCount. cbn [use_tls]. rewrite Z.mod_small; lia.
    + rewrite set_bool_eq. cbn [hi]. exact H.
    + rewrite set_nat_eq. reflexivity.
    + rewrite set_nat_eq. cbn [cache]. rewrite set_bool_eq. unfold w64. apply Z.mod_small. lia.
    + rewrite !(set_nat_neq _ 1%nat 0%nat) by discriminate. exact O.
Qed.

Fixpoint times (j : nat) (l : list (nat * domain)) : list (nat * domain) := match j with O => [] | S j' => l ++ times j' l end.
Lemma calls : forall j s k v, P s k v -> 0 < v mod 256 -> v mod 256 + Z.of_nat j <= 256 -> 0 <= v < 2 ^ 40 - Z.of_nat j ->
  exists ids s', run C s (times j [me; me]) = (ids, s') /\ P s' k (v + Z.of_nat j).
Proof.
  induction j; intros s k v HP M L R; cbn [times].
  - exists [], s. rewrite Z.add_0_r. split; [reflexivity|exact HP].
  - destruct (call_cached s k v HP ltac:(lia) ltac:(lia)) as (s1 & E1 & P1). rewrite run_app, E1.
    destruct j as [|j].
    + cbn [times run]. eexists _, s1. split; [reflexivity|]. exact P1.
    + assert (M1 : (v + 1) mod 256 = v mod 256 + 1).
      { pose proof (Z.div_mod v 256 ltac:(lia)). rewrite Z.add_mod by lia. rewrite (Z.mod_small 1) by lia. apply Z.mod_small. lia. }
      destruct (IHj s1 k (v + 1) P1 ltac:(lia) ltac:(lia) ltac:(lia)) as (i2 & s2 & E2 & P2). rewrite E2.
      eexists _, s2. split; [reflexivity|]. replace (v + Z.of_nat (S (S j))) with (v + 1 + Z.of_nat (S j)) by lia. exact P2.
Qed.

Definition block : list (nat * domain) := [me; me; me; me] ++ times 255 [me; me].
Lemma block_ok s k v : P s k v -> v mod 256 = 0 -> 0 <= k < 2 ^ 23 ->
  exists ids s', run C s block = (ids, s') /\ In (false, 256 * k + 1) ids /\ P s' (k + 1) (256 * k + 256).
Proof.
  intros HP M R. destruct (call_fetch s k v HP M R) as (s1 & E1 & P1). unfold block. rewrite run_app, E1.
  assert (M1 : (256 * k + 1) mod 256 = 1). { rewrite Z.add_comm, Z.mul_comm, Z.mod_add by lia. reflexivity. }
  destruct (calls 255 s1 (k + 1) (256 * k + 1) P1 ltac:(lia) ltac:(rewrite M1; lia) ltac:(lia)) as (i2 & s2 & E2 & P2). rewrite E2.
  eexists _, s2. split; [reflexivity|]. split; [left; reflexivity|]. replace (256 * k + 256) with (256 * k + 1 + Z.of_nat 255) by lia. exact P2.
Qed.
Lemma block_length : block <> []. Proof. discriminate. Qed.
Local Opaque block.
Lemma blocks : forall j s k v, P s k v -> v mod 256 = 0 -> 0 <= k -> k + Z.of_nat j <= 2 ^ 23 ->
  exists ids s' v', run C s (times j block) = (ids, s') /\ P s' (k + Z.of_nat j) v' /\ v' mod 256 = 0 /\
    forall i, k <= i < k + Z.of_nat j -> In (false, 256 * i + 1) ids.
Proof.
  induction j; intros s k v HP M K L; cbn [times].
  - exists [], s, v. split; [reflexivity|]. rewrite Z.add_0_r. split; [exact HP|]. split; [exact M|]. intros; lia.
  - destruct (block_ok s k v HP M ltac:(lia)) as (i1 & s1 & E1 & I1 & P1). rewrite run_app, E1.
    assert (M1 : (256 * k + 256) mod 256 = 0). { replace (256 * k + 256) with (0 + (k + 1) * 256) by lia. rewrite Z.mod_add by lia. reflexivity. }
    destruct (IHj s1 (k + 1) _ P1 M1 ltac:(lia) ltac:(lia)) as (i2 & s2 & v2 & E2 & P2 & M2 & I2). rewrite E2.
    eexists _, s2, v2. split; [reflexivity|]. split; [replace (k + Z.of_nat (S j)) with (k + 1 + Z.of_nat j) by lia; exact P2|]. split; [exact M2|].
    intros i Hi. apply in_or_app. destruct (Z.eq_dec i k) as [->|]; [left; exact I1|right; apply I2; lia].
Qed.

Definition it : nat * domain := (0%nat, false).
(* thread 0 up to the load of the high part; thread 1 takes 2^23 blocks and comes across the threshold; thread 0 continues *)
Definition bad_schedule : list (nat * domain) := [it; it] ++ times (Z.to_nat (2 ^ 23)) block ++ [me; me; me; me; me; it; it].

Lemma tail_run s v : P s (2 ^ 23) v -> v mod 256 = 0 -> fst (run C s [me; me; me; me; me; it; it]) = [(false, 257)].
Proof.
  intros [L H Pc Ca O] M. unfold me, it. cbn [run]. unfold step at 1. rewrite Pc. cbn [use_tls]. rewrite land255, Ca, M. cbn [Z.eqb].
  unfold step at 1. cbn [threads]. rewrite set_nat_eq. cbn [at_pc cache atomic64 global]. rewrite H.
  unfold step at 1. cbn [threads]. rewrite set_nat_eq. cbn [at_pc cache global]. rewrite L.
  change (Z.land (256 * 2 ^ 23) kThresholdLo32 =? 0) with false. cbv iota.
  unfold step at 1. cbn [threads]. rewrite set_nat_eq. cbn [at_pc cache global]. rewrite set_bool_eq. cbn [hi lo index].
  unfold step at 1. cbn [threads]. rewrite set_nat_eq. cbn [at_pc cache global]. rewrite set_bool_eq. cbn [hi lo index].
  unfold step at 1. cbn [threads]. rewrite !(set_nat_neq _ 1%nat 0%nat) by discriminate. rewrite O. cbn [at_pc cache global]. rewrite set_bool_eq. cbn [hi lo index].
  change (Z.land (w32 (256 * 2 ^ 23 + cached C)) 2147483647) with 256. change (Z.land 256 kThresholdLo32 =? 0) with true. cbv iota.
  change (Z.lor (Z.shiftl 0 32) 256) with 256.
  unfold step at 1. cbn [threads]. rewrite set_nat_eq. cbn [at_pc cache global fst]. reflexivity.
Qed.

Lemma bad_ids : exists l, ids C bad_schedule = l ++ [(false, 257)] /\ In (false, 257) l.
Proof.
  unfold ids, bad_schedule. rewrite run_app.
  assert (S0 : exists s0, run C initial [it; it] = ([], s0) /\ P s0 0 0).
  { eexists. split; [reflexivity|]. constructor; reflexivity. }
  destruct S0 as (s0 & E0 & P0). rewrite E0. rewrite run_app.
  destruct (blocks (Z.to_nat (2 ^ 23)) s0 0 0 P0 eq_refl ltac:(lia) ltac:(lia)) as (i1 & s1 & v1 & E1 & P1 & M1 & I1). rewrite E1.
  replace (0 + Z.of_nat (Z.to_nat (2 ^ 23))) with (2 ^ 23) in P1 by lia.
  pose proof (tail_run s1 v1 P1 M1) as T. destruct (run C s1 _) as [i2 s2]. cbn [fst] in T |- *. subst i2.
  exists i1. split; [reflexivity|]. apply (I1 1). lia.
Qed.
