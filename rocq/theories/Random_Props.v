(* Properties C08 (BLRandom state and ranges) and C30 (period). *)
From Coq Require Import Reals.
From Flocq Require Import IEEE754.Binary.
From Verif Require Import Base Random_Model Random_Proofs Random_Proofs2 Random_Proofs3.
Open Scope Z_scope.

(* ---- C08 ---- *)
Theorem C08_reset_nonzero : forall seed, rstate_ok (reset_seed seed) /\ fst (reset_seed seed) <> 0 /\ snd (reset_seed seed) <> 0.
Proof. exact reset_seed_ok. Qed.
Print Assumptions C08_reset_nonzero.

Theorem C08_next_nonzero : forall s, rstate_ok s -> s <> (0, 0) ->
  rstate_ok (fst (next_uint64 s)) /\ fst (next_uint64 s) <> (0, 0) /\ 0 <= snd (next_uint64 s) < 2 ^ 64.
Proof. intros s H1 H2. split; [now apply next_state_ok|]. split; [now apply next_nonzero|]. apply next_value_ok. Qed.
Print Assumptions C08_next_nonzero.

Theorem C08_next_bijective :
  (forall s t, rstate_ok s -> rstate_ok t -> fst (next_uint64 s) = fst (next_uint64 t) -> s = t) /\
  (forall t, rstate_ok t -> exists s, rstate_ok s /\ fst (next_uint64 s) = t).
Proof. split; [exact next_inj|exact next_surj]. Qed.
Print Assumptions C08_next_bijective.

Theorem C08_next_uint32 : forall s,
  fst (next_uint32 s) = fst (next_uint64 s) /\ snd (next_uint32 s) = snd (next_uint64 s) / 2 ^ 32 /\ 0 <= snd (next_uint32 s) < 2 ^ 32.
Proof. intros s. destruct (next_uint32_ok s) as (A & B & C). auto. Qed.
Print Assumptions C08_next_uint32.

(* the double is finite, exactly the upper 52 bits of the integer draw over 2^52, hence in [0,1) *)
Theorem C08_next_double : forall s, let d := snd (next_double s) in
  fst (next_double s) = fst (next_uint64 s) /\ is_finite 53 1024 d = true /\
  B2R 53 1024 d = (IZR (snd (next_uint64 s) / 2 ^ 12) / IZR (2 ^ 52))%R /\ (0 <= B2R 53 1024 d < 1)%R.
Proof. exact next_double_ok. Qed.
Print Assumptions C08_next_double.

Example C08_ex : reset_seed 0 = (16294208416658607535, 7960286522194355700) /\ snd (next_uint64 (reset_seed 0)) = 45491722474698542
  /\ snd (next_uint32 (reset_seed 0)) = 10591867.
Proof. vm_compute. auto. Qed.
(* bits of the first double drawn with seed 0: 0x3F6433CF60CA6600, about 0.002466 *)
Example C08_ex_double : Bits.bits_of_b64 (snd (next_double (reset_seed 0))) = 4567832887835649536.
Proof. vm_compute. reflexivity. Qed.

(* ---- C30 ---- *)
(* random.h 35-36 documents the full period 2^128 - 1; the state returns to itself after fewer than 2^51 draws,
   whatever the state (the code shifts data[1] before storing it into data[0], unlike XORSHIFT+). *)
Theorem C30_period_refuted : forall s, rstate_ok s ->
  exists n, (0 < n < 2 ^ 51)%N /\ advance n s = s.
Proof. intros s Hs. exists (Npos kOrder). split; [unfold kOrder; lia|]. exact (advance_order s Hs). Qed.
Print Assumptions C30_period_refuted.

(* hence no seed gives the documented period *)
Theorem C30_full_period_refuted : forall seed, ~ (forall n, (0 < n < 2 ^ 128 - 1)%N -> advance n (reset_seed seed) <> reset_seed seed).
Proof.
  intros seed H. destruct (reset_seed_ok seed) as [Hs _]. apply (H (Npos kOrder)); [unfold kOrder; lia|]. exact (advance_order _ Hs).
Qed.
Print Assumptions C30_full_period_refuted.

(* and there are non-zero states that repeat after 3 draws *)
Theorem C30_period_three_refuted : exists s, rstate_ok s /\ s <> (0, 0) /\ advance 3 s = s.
Proof.
  exists (0x8829fc0ab8404d75, 0x27cbce7b1c491352). split; [split; cbn; lia|]. split; [discriminate|]. vm_compute. reflexivity.
Qed.
Print Assumptions C30_period_three_refuted.

(* what remains: every state is on a cycle *)
Theorem C30_returns_partial : forall s, rstate_ok s -> exists n, (0 < n)%N /\ advance n s = s.
Proof. intros s Hs. exists (Npos kOrder). split; [unfold kOrder; lia|]. exact (advance_order s Hs). Qed.
Print Assumptions C30_returns_partial.

Example C30_ex : advance 6 (0x8829fc0ab8404d75, 0x27cbce7b1c491352) = (0x8829fc0ab8404d75, 0x27cbce7b1c491352)
  /\ advance 1 (0x8829fc0ab8404d75, 0x27cbce7b1c491352) <> (0x8829fc0ab8404d75, 0x27cbce7b1c491352).
Proof. split; [vm_compute; reflexivity|]. intros E. vm_compute in E. discriminate E. Qed.
