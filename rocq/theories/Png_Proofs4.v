(* One row of deinterlace_bits. *)
From Verif Require Import Base Bits IntOps_Model Algorithm_Model Algorithm_Proofs Png_Model Png_Spec Png_Proofs Png_Proofs2 Png_Proofs3.
From Coq Require Import ZifyBool.

Lemma bit_at m B q : 0 <= q -> bit m (8 * B + q) = tb (get m (B + q / 8)) (q mod 8).
Proof.
  intros Hq. unfold bit, tb. replace ((8 * B + q) / 8) with (B + q / 8) by lia. now replace ((8 * B + q) mod 8) with (q mod 8) by lia.
Qed.

(* Required bits of a row; B0 .. B5 are the first data bytes of the rows of the passes. *)
Definition src0 (N : Z) (m : list Z) (B0 B1 B3 B5 i : Z) : bool :=
  let x := i / N in let j := i mod N in
  if x mod 8 =? 0 then bit m (8 * B0 + (N * (x / 8) + j))
  else if x mod 8 =? 4 then bit m (8 * B1 + (N * (x / 8) + j))
  else if x mod 4 =? 2 then bit m (8 * B3 + (N * (x / 4) + j))
  else bit m (8 * B5 + (N * (x / 2) + j)).
Definition src2 (N : Z) (m : list Z) (B2 B3 B5 i : Z) : bool :=
  let x := i / N in let j := i mod N in
  if x mod 4 =? 0 then bit m (8 * B2 + (N * (x / 4) + j))
  else if x mod 4 =? 2 then bit m (8 * B3 + (N * (x / 4) + j))
  else bit m (8 * B5 + (N * (x / 2) + j)).
Definition src13 (N : Z) (m : list Z) (B4 B5 i : Z) : bool :=
  let x := i / N in let j := i mod N in
  if x mod 2 =? 0 then bit m (8 * B4 + (N * (x / 2) + j)) else bit m (8 * B5 + (N * (x / 2) + j)).

Ltac fn := first [reflexivity | (f_equal; [f_equal|]; lia) | (f_equal; lia)].

Lemma blk0_src N m B0 B1 B3 B5 k i : N = 1 \/ N = 2 \/ N = 4 -> 0 <= k -> 0 <= i < 32 ->
  blk0 N (k mod 2) (get m (B0 + k / 2)) (get m (B1 + k / 2)) (get m (B3 + k)) (get m (B5 + 2 * k)) (get m (B5 + 2 * k + 1)) i =
  src0 N m B0 B1 B3 B5 (32 * k + i).
Proof.
  intros HN Hk Hi. unfold blk0, src0.
  assert (X : (32 * k + i) / N = 32 / N * k + i / N) by (destruct HN as [->|[->| ->]]; [change (32 / 1) with 32|change (32 / 2) with 16|change (32 / 4) with 8]; lia).
  assert (J : (32 * k + i) mod N = i mod N) by (destruct HN as [->|[->| ->]]; lia).
  rewrite X, J. clear X J.
  assert (Hj : 0 <= i mod N < N) by lia.
  assert (Hx : 0 <= i / N < 32 / N) by (destruct HN as [->|[->| ->]]; [change (32 / 1) with 32|change (32 / 2) with 16|change (32 / 4) with 8]; lia).
  set (x := i / N) in *. set (j := i mod N) in *. clearbody x j. clear Hi.
  assert (M8 : (32 / N * k + x) mod 8 = x mod 8) by (destruct HN as [->|[->| ->]]; [change (32 / 1) with 32|change (32 / 2) with 16|change (32 / 4) with 8]; lia).
  assert (M4 : (32 / N * k + x) mod 4 = x mod 4) by (destruct HN as [->|[->| ->]]; [change (32 / 1) with 32|change (32 / 2) with 16|change (32 / 4) with 8]; lia).
  rewrite M8, M4. clear M8 M4.
  assert (Q8 : N * ((32 / N * k + x) / 8) = 4 * k + N * (x / 8)) by (destruct HN as [->|[->| ->]]; [change (32 / 1) with 32|change (32 / 2) with 16|change (32 / 4) with 8]; lia).
  assert (Q4 : N * ((32 / N * k + x) / 4) = 8 * k + N * (x / 4)) by (destruct HN as [->|[->| ->]]; [change (32 / 1) with 32|change (32 / 2) with 16|change (32 / 4) with 8]; lia).
  rewrite Q8, Q4. clear Q8 Q4.
  assert (S8 : 0 <= N * (x / 8) + j < 4) by (destruct HN as [->|[->| ->]]; [change (32 / 1) with 32 in *|change (32 / 2) with 16 in *|change (32 / 4) with 8 in *]; lia).
  assert (S4 : 0 <= N * (x / 4) + j < 8) by (destruct HN as [->|[->| ->]]; [change (32 / 1) with 32 in *|change (32 / 2) with 16 in *|change (32 / 4) with 8 in *]; lia).
  assert (S2 : 0 <= N * (x / 2) + j < 16) by (destruct HN as [->|[->| ->]]; [change (32 / 1) with 32 in *|change (32 / 2) with 16 in *|change (32 / 4) with 8 in *]; lia).
  assert (Q2 : N * ((32 / N * k + x) / 2) = 16 * k + N * (x / 2)) by (destruct HN as [->|[->| ->]]; [change (32 / 1) with 32|change (32 / 2) with 16|change (32 / 4) with 8]; lia).
  rewrite Q2. clear Q2.
  destruct (x mod 8 =? 0); [rewrite bit_at by lia; fn|].
  destruct (x mod 8 =? 4); [rewrite bit_at by lia; fn|].
  destruct (x mod 4 =? 2); [rewrite bit_at by lia; fn|].
  cbv zeta. rewrite bit_at by lia. destruct (Z.ltb_spec (N * (x / 2) + j) 8); fn.
Qed.

Lemma blk2_src N m B2 B3 B5 k i : N = 1 \/ N = 2 \/ N = 4 -> 0 <= k -> 0 <= i < 32 ->
  blk2 N (get m (B2 + k)) (get m (B3 + k)) (get m (B5 + 2 * k)) (get m (B5 + 2 * k + 1)) i = src2 N m B2 B3 B5 (32 * k + i).
Proof.
  intros HN Hk Hi. unfold blk2, src2.
  assert (X : (32 * k + i) / N = 32 / N * k + i / N) by (destruct HN as [->|[->| ->]]; [change (32 / 1) with 32|change (32 / 2) with 16|change (32 / 4) with 8]; lia).
  assert (J : (32 * k + i) mod N = i mod N) by (destruct HN as [->|[->| ->]]; lia).
  rewrite X, J. clear X J.
  assert (Hj : 0 <= i mod N < N) by lia.
  assert (Hx : 0 <= i / N < 32 / N) by (destruct HN as [->|[->| ->]]; [change (32 / 1) with 32|change (32 / 2) with 16|change (32 / 4) with 8]; lia).
  set (x := i / N) in *. set (j := i mod N) in *. clearbody x j. clear Hi.
  assert (M4 : (32 / N * k + x) mod 4 = x mod 4) by (destruct HN as [->|[->| ->]]; [change (32 / 1) with 32|change (32 / 2) with 16|change (32 / 4) with 8]; lia).
  rewrite M4. clear M4.
  assert (Q4 : N * ((32 / N * k + x) / 4) = 8 * k + N * (x / 4)) by (destruct HN as [->|[->| ->]]; [change (32 / 1) with 32|change (32 / 2) with 16|change (32 / 4) with 8]; lia).
  rewrite Q4. clear Q4.
  assert (S4 : 0 <= N * (x / 4) + j < 8) by (destruct HN as [->|[->| ->]]; [change (32 / 1) with 32 in *|change (32 / 2) with 16 in *|change (32 / 4) with 8 in *]; lia).
  assert (S2 : 0 <= N * (x / 2) + j < 16) by (destruct HN as [->|[->| ->]]; [change (32 / 1) with 32 in *|change (32 / 2) with 16 in *|change (32 / 4) with 8 in *]; lia).
  assert (Q2 : N * ((32 / N * k + x) / 2) = 16 * k + N * (x / 2)) by (destruct HN as [->|[->| ->]]; [change (32 / 1) with 32|change (32 / 2) with 16|change (32 / 4) with 8]; lia).
  rewrite Q2. clear Q2.
  destruct (x mod 4 =? 0); [rewrite bit_at by lia; fn|].
  destruct (x mod 4 =? 2); [rewrite bit_at by lia; fn|].
  cbv zeta. rewrite bit_at by lia. destruct (Z.ltb_spec (N * (x / 2) + j) 8); fn.
Qed.

Lemma blk13_src N m B4 B5 k i : N = 1 \/ N = 2 \/ N = 4 -> 0 <= k -> 0 <= i < 16 ->
  blk13 N (get m (B4 + k)) (get m (B5 + k)) i = src13 N m B4 B5 (16 * k + i).
Proof.
  intros HN Hk Hi. unfold blk13, src13.
  assert (X : (16 * k + i) / N = 16 / N * k + i / N) by (destruct HN as [->|[->| ->]]; [change (16 / 1) with 16|change (16 / 2) with 8|change (16 / 4) with 4]; lia).
  assert (J : (16 * k + i) mod N = i mod N) by (destruct HN as [->|[->| ->]]; lia).
  rewrite X, J. clear X J.
  assert (Hj : 0 <= i mod N < N) by lia.
  assert (Hx : 0 <= i / N < 16 / N) by (destruct HN as [->|[->| ->]]; [change (16 / 1) with 16|change (16 / 2) with 8|change (16 / 4) with 4]; lia).
  set (x := i / N) in *. set (j := i mod N) in *. clearbody x j. clear Hi.
  assert (M2 : (16 / N * k + x) mod 2 = x mod 2) by (destruct HN as [->|[->| ->]]; [change (16 / 1) with 16|change (16 / 2) with 8|change (16 / 4) with 4]; lia).
  rewrite M2. clear M2.
  assert (S2 : 0 <= N * (x / 2) + j < 8) by (destruct HN as [->|[->| ->]]; [change (16 / 1) with 16 in *|change (16 / 2) with 8 in *|change (16 / 4) with 4 in *]; lia).
  assert (Q2 : N * ((16 / N * k + x) / 2) = 8 * k + N * (x / 2)) by (destruct HN as [->|[->| ->]]; [change (16 / 1) with 16|change (16 / 2) with 8|change (16 / 4) with 4]; lia).
  rewrite Q2. clear Q2.
  destruct (x mod 2 =? 0); rewrite bit_at by lia; fn.
Qed.

(* Bytes that hold no pixel of the rest of the row do not matter. *)
Lemma blk0_part N par v0 v1 v3 v5 v5' w1 w3 w5 w5' x i : N = 1 \/ N = 2 \/ N = 4 -> 0 <= i < x * N ->
  (5 <= x -> v1 = w1) -> (3 <= x -> v3 = w3) -> (2 <= x -> v5 = w5) -> ((if N =? 1 then 18 else if N =? 2 then 10 else 6) <= x -> v5' = w5') ->
  blk0 N par v0 v1 v3 v5 v5' i = blk0 N par v0 w1 w3 w5 w5' i.
Proof.
  intros HN Hi H1 H3 H5 H5'. unfold blk0. cbv zeta.
  assert (Hx : 0 <= i / N < x) by (destruct HN as [->|[->| ->]]; lia).
  destruct (Z.eqb_spec (i / N mod 8) 0); [reflexivity|].
  destruct (Z.eqb_spec (i / N mod 8) 4); [rewrite H1 by lia; reflexivity|].
  destruct (Z.eqb_spec (i / N mod 4) 2); [rewrite H3 by lia; reflexivity|].
  destruct (Z.ltb_spec (N * (i / N / 2) + i mod N) 8); [rewrite H5 by lia; reflexivity|].
  rewrite H5'; [reflexivity|]. destruct HN as [->|[->| ->]]; cbn [Z.eqb Pos.eqb]; lia.
Qed.
Lemma blk2_part N v2 v3 v5 v5' w3 w5 w5' x i : N = 1 \/ N = 2 \/ N = 4 -> 0 <= i < x * N ->
  (3 <= x -> v3 = w3) -> (2 <= x -> v5 = w5) -> ((if N =? 1 then 18 else if N =? 2 then 10 else 6) <= x -> v5' = w5') ->
  blk2 N v2 v3 v5 v5' i = blk2 N v2 w3 w5 w5' i.
Proof.
  intros HN Hi H3 H5 H5'. unfold blk2. cbv zeta.
  assert (Hx : 0 <= i / N < x) by (destruct HN as [->|[->| ->]]; lia).
  destruct (Z.eqb_spec (i / N mod 4) 0); [reflexivity|].
  destruct (Z.eqb_spec (i / N mod 4) 2); [rewrite H3 by lia; reflexivity|].
  destruct (Z.ltb_spec (N * (i / N / 2) + i mod N) 8); [rewrite H5 by lia; reflexivity|].
  rewrite H5'; [reflexivity|]. destruct HN as [->|[->| ->]]; cbn [Z.eqb Pos.eqb]; lia.
Qed.
Lemma blk13_part N v4 v5 w5 x i : N = 1 \/ N = 2 \/ N = 4 -> 0 <= i < x * N -> (2 <= x -> v5 = w5) -> blk13 N v4 v5 i = blk13 N v4 w5 i.
Proof.
  intros HN Hi H5. unfold blk13. cbv zeta.
  assert (Hx : 0 <= i / N < x) by (destruct HN as [->|[->| ->]]; lia).
  destruct (Z.eqb_spec (i / N mod 2) 0); [reflexivity|]. rewrite H5 by lia. reflexivity.
Qed.

(* ------------------------------------------------------------------ writing a block *)

(* [m] is m0 except for the first n bytes of the row at t, whose bits below [lim] are right. *)
Definition done (m0 : list Z) (src : Z -> bool) (t n lim : Z) (m : list Z) : Prop :=
  len m = len m0 /\ bytes m /\ (forall j, 0 <= j -> j < t \/ t + n <= j -> get m j = get m0 j) /\
  (forall i, 0 <= i < lim -> bit m (8 * t + i) = src i).

Lemma done_init m0 src t : bytes m0 -> done m0 src t 0 0 m0.
Proof. intros B. split; [reflexivity|]. split; [assumption|]. split; [reflexivity|]. intros; lia. Qed.

Lemma done_block m0 src t n l lim m : done m0 src t n (8 * n) m -> bytes l -> 0 <= t -> 0 <= n -> t + n + len l <= len m0 ->
  8 * n <= lim <= 8 * (n + len l) ->
  (forall i, 0 <= i < lim - 8 * n -> tb (nth8 l i) (i mod 8) = src (8 * n + i)) ->
  exists m', wr_list m (t + n) l = Ok m' /\ done m0 src t (n + len l) lim m'.
Proof.
  intros (L & B & O & R) Bl Ht Hn Hend Hlim Hl.
  destruct (wr_list_ok l m (t + n) B Bl ltac:(lia) ltac:(lia)) as (m' & E & L' & B' & O' & R').
  assert (0 <= len l) by (unfold len; lia).
  exists m'. split; [assumption|]. split; [lia|]. split; [assumption|]. split.
  - intros j Hj Hj'. rewrite O' by lia. apply O; lia.
  - intros i Hi. destruct (Z.lt_ge_cases i (8 * n)).
    + rewrite <- R by lia. rewrite !bit_at by lia. f_equal. apply O'; lia.
    + replace i with (8 * n + (i - 8 * n)) at 2 by lia. rewrite <- Hl by lia.
      rewrite bit_at by lia. rewrite R' by lia. unfold nth8, get. f_equal; [f_equal|]; lia.
Qed.

Lemma len_firstn n (l : list Z) : 0 <= n <= len l -> len (firstn (Z.to_nat n) l) = n.
Proof. intros H. unfold len in *. rewrite firstn_length. lia. Qed.
Lemma bytes_firstn n l : bytes l -> bytes (firstn n l).
Proof. intros H. apply Forall_forall. intros x Hx. unfold bytes in H. rewrite Forall_forall in H. apply H. rewrite <- (firstn_skipn n l). apply in_or_app. now left. Qed.
Lemma nth8_firstn n l i : 0 <= i < 8 * n -> nth8 (firstn (Z.to_nat n) l) i = nth8 l i.
Proof. intros H. unfold nth8. rewrite <- (firstn_skipn (Z.to_nat n) l) at 2. destruct (Nat.lt_ge_cases (Z.to_nat (i / 8)) (length (firstn (Z.to_nat n) l))) as [Hl|Hl].
  - now rewrite app_nth1.
  - rewrite firstn_length in Hl. rewrite !nth_overflow; [reflexivity| |]; rewrite ?firstn_skipn, ?firstn_length; lia.
Qed.

(* A partial block of x pixels. *)
Lemma done_tail N m0 src t n l x m : N = 1 \/ N = 2 \/ N = 4 -> done m0 src t n (8 * n) m -> bytes l -> 0 <= t -> 0 <= n ->
  t + n + (x * N + 7) / 8 <= len m0 -> 0 < x -> x * N <= 8 * len l ->
  (forall i, 0 <= i < x * N -> tb (nth8 l i) (i mod 8) = src (8 * n + i)) ->
  exists m', wr_tail m (t + n) l x (8 / N) (8 / N) = Ok m' /\ done m0 src t (n + (x * N + 7) / 8) (8 * n + x * N) m'.
Proof.
  intros HN D Bl Ht Hn Hend Hx Hlen Hl.
  assert (G : 8 / N * N = 8 /\ 0 < 8 / N) by (destruct HN as [->|[->| ->]]; split; reflexivity). destruct G as [G Gp]. set (g := 8 / N) in *. clearbody g.
  assert (C : (x - g + 2 * g - 1) / g = (x * N + 7) / 8).
  { destruct HN as [->|[->| ->]]; [replace g with 8 by lia|replace g with 4 by lia|replace g with 2 by lia]; lia. }
  rewrite wr_tail_list; [|lia|lia|lia| |].
  2:{ assert (x <= g * len l) by (destruct HN as [->|[->| ->]]; [replace g with 8 by lia|replace g with 4 by lia|replace g with 2 by lia]; lia). lia. }
  2:{ intros ->. unfold len in Hlen; cbn [length] in Hlen. assert (0 < x * N) by (destruct HN as [->|[->| ->]]; lia). lia. }
  rewrite C. assert (Q : 0 <= (x * N + 7) / 8 <= len l) by (assert (0 < x * N) by (destruct HN as [->|[->| ->]]; lia); lia).
  pose proof (len_firstn ((x * N + 7) / 8) l Q) as LF.
  destruct (done_block m0 src t n (firstn (Z.to_nat ((x * N + 7) / 8)) l) (8 * n + x * N) m) as (m' & E & D'); rewrite ?LF in *; try assumption; try lia.
  - now apply bytes_firstn.
  - intros i Hi. rewrite nth8_firstn by lia. apply Hl. lia.
  - now exists m'.
Qed.
