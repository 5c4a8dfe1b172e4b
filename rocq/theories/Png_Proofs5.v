(* The rows of deinterlace_bits: loops over blocks and the rest of the row. *)
From Verif Require Import Base Bits IntOps_Model Algorithm_Model Algorithm_Proofs Png_Model Png_Spec Png_Proofs Png_Proofs2 Png_Proofs3 Png_Proofs4.
From Coq Require Import ZifyBool.

Lemma land31 a : (Z.land a 0x80000000 =? 0) = negb (Z.testbit a 31).
Proof.
  change 0x80000000 with (2 ^ 31). destruct (Z.testbit a 31) eqn:E; cbn [negb].
  - apply Z.eqb_neq. intros H. assert (X : Z.testbit (Z.land a (2 ^ 31)) 31 = true) by (rewrite Z.land_spec, E; reflexivity).
    rewrite H, Z.bits_0 in X. discriminate.
  - apply Z.eqb_eq. apply Z.bits_inj'. intros n Hn. rewrite Z.land_spec, Z.bits_0. destruct (Z.eq_dec n 31) as [->|N]; [now rewrite E|].
    rewrite Z.pow2_bits_false by lia. apply andb_false_r.
Qed.

Definition nbytes (N p w : Z) : Z := (N * pw p w + 7) / 8.

Ltac cN HN := destruct HN as [->|[->| ->]];
  [change (32 / 1) with 32 in *; change (16 / 1) with 16 in *; change (8 / 1) with 8 in *
  |change (32 / 2) with 16 in *; change (16 / 2) with 8 in *; change (8 / 2) with 4 in *
  |change (32 / 4) with 8 in *; change (16 / 4) with 4 in *; change (8 / 4) with 2 in *]; cbn [Z.eqb Pos.eqb] in *.
Ltac dle := repeat match goal with |- context [?a <=? ?b] => destruct (Z.leb_spec a b) end.
Ltac pwu := unfold nbytes, pw in *; cbn [Z.eqb Pos.eqb] in *.

Lemma fetch_if_ok c m p : (c = true -> 0 <= p < len m) -> fetch_if c m p = Ok (if c then get m p else 0, p + b2z c).
Proof. intros H. unfold fetch_if, b2z. destruct c; [now rewrite rd_get by auto|]. now rewrite Z.add_0_r. Qed.

Lemma is_byte_0 : is_byte 0.
Proof. split; lia. Qed.
Lemma is_byte_if (c : bool) v : is_byte v -> is_byte (if c then v else 0).
Proof. destruct c; [auto|intros; apply is_byte_0]. Qed.

Section Row0.
  Context (mr : list Z) (N w t B0 B1 B3 B5 : Z).
  Context (Bm : bytes mr) (HN : N = 1 \/ N = 2 \/ N = 4) (Hw : 1 <= w).
  Context (H0 : 0 <= B0) (H1 : 0 <= B1) (H3 : 0 <= B3) (H5 : 0 <= B5).
  Context (E0 : B0 + nbytes N 0 w <= t) (E1 : B1 + nbytes N 1 w <= t) (E3 : B3 + nbytes N 3 w <= t) (E5 : B5 + nbytes N 5 w <= t).
  Context (Et : t + (w * N + 7) / 8 <= len mr).

  Definition a_inv (k a : Z) : Prop :=
    if k mod 2 =? 0 then Z.testbit a 31 = false
    else Z.testbit a 31 = true /\ Z.testbit a 27 = false /\ holds2 4 a (get mr (B0 + k / 2)) (get mr (B1 + k / 2)).

  Lemma t_nonneg : 0 <= t.
  Proof. assert (0 <= nbytes N 0 w) by (pwu; cN HN; lia). lia. Qed.

  (* The a of block k. *)
  Lemma fetch_a_ok k a m : done mr (src0 N mr B0 B1 B3 B5) t (4 * k) (32 * k) m -> 0 <= k -> (k + 1) * (32 / N) <= w -> a_inv k a ->
    exists a', fetch_a m a (B0 + (k + 1) / 2) (B1 + (k + 1) / 2) = Ok (a', B0 + (k + 2) / 2, B1 + (k + 2) / 2) /\
      holds2 (4 * (k mod 2)) a' (get mr (B0 + k / 2)) (get mr (B1 + k / 2)) /\ a_inv (k + 1) (a' << 4).
  Proof.
    intros (L & B & O & R) Hk Hend A. pose proof t_nonneg as T0. unfold fetch_a. rewrite land31. unfold a_inv in A.
    destruct (Z.eqb_spec (k mod 2) 0) as [Ev|Od].
    - rewrite A. cbn [negb].
      assert (P0 : B0 + (k + 1) / 2 < B0 + nbytes N 0 w) by (pwu; cN HN; lia).
      assert (P1 : B1 + (k + 1) / 2 < B1 + nbytes N 1 w) by (pwu; cN HN; lia).
      assert (LT : 0 <= (w * N + 7) / 8) by (cN HN; lia).
      rewrite !rd_get by lia. cbn [bind]. rewrite !O by lia.
      replace ((k + 1) / 2) with (k / 2) by lia.
      pose proof (get_byte mr (B0 + k / 2) Bm) as V0. pose proof (get_byte mr (B1 + k / 2) Bm) as V1.
      set (v0 := get mr (B0 + k / 2)) in *. set (v1 := get mr (B1 + k / 2)) in *.
      eexists. split; [f_equal; f_equal; [f_equal|]; lia|].
      rewrite Ev. pose proof (pack2 v0 v1 0x08000000 V0 V1 ltac:(lia) ltac:(reflexivity)) as HA. split; [exact HA|].
      unfold a_inv. replace ((k + 1) mod 2) with 1 by lia. cbn [Z.eqb].
      replace ((k + 1) / 2) with (k / 2) by lia. fold v0 v1. clearbody v0 v1.
      set (A0 := w32 (v0 + (v1 << 8) + 0x08000000)) in *.
      assert (AV : A0 = (v0 + 256 * v1) + 2 ^ 27 * 1).
      { unfold A0, w32. rewrite Z.shiftl_mul_pow2 by lia. change (2 ^ 8) with 256. change (2 ^ 27) with 134217728. unfold is_byte in *. rewrite (Z.mod_small (v1 * 256)) by lia.
        rewrite Z.mod_small; lia. }
      assert (V : 0 <= v0 + 256 * v1 < 2 ^ 16) by (change (2 ^ 16) with 65536; unfold is_byte in *; lia).
      split; [|split].
      + rewrite shl_bit by lia. rewrite AV, testbit_add_mul; [reflexivity|lia| |lia]. change (2 ^ 27) with 134217728. change (2 ^ 16) with 65536 in V. lia.
      + rewrite shl_bit by lia. rewrite AV, testbit_add_mul; [|lia| |lia]. 2:{ change (2 ^ 27) with 134217728. change (2 ^ 16) with 65536 in V. lia. }
        change (27 - 4 <? 27) with true. cbv iota. apply (testbit_small _ 16); [exact V|lia].
      + intros j Hj. rewrite shl_bit by lia. rewrite <- HA by lia. f_equal. lia.
    - destruct A as (A31 & A27 & HA). rewrite A31. cbn [negb]. exists a.
      split; [f_equal; f_equal; [f_equal|]; lia|]. replace (k mod 2) with 1 by lia. split; [exact HA|].
      unfold a_inv. replace ((k + 1) mod 2) with 0 by lia. cbn [Z.eqb]. rewrite shl_bit by lia. exact A27.
  Qed.

  Lemma loop0_ok : forall fuel k a m, 0 <= k -> k * (32 / N) <= w -> w - k * (32 / N) < 32 / N * Z.of_nat fuel ->
    done mr (src0 N mr B0 B1 B3 B5) t (4 * k) (32 * k) m -> a_inv k a ->
    exists k' a' m', loop0 fuel N (w - k * (32 / N)) (t + 4 * k) a (B0 + (k + 1) / 2) (B1 + (k + 1) / 2) (B3 + k) (B5 + 2 * k) m =
      Ok (w - k' * (32 / N), t + 4 * k', a', B0 + (k' + 1) / 2, B1 + (k' + 1) / 2, B3 + k', B5 + 2 * k', m') /\
      0 <= k' /\ 0 <= w - k' * (32 / N) < 32 / N /\ done mr (src0 N mr B0 B1 B3 B5) t (4 * k') (32 * k') m' /\ a_inv k' a'.
  Proof.
    induction fuel as [|fuel IH]; intros k a m Hk Hkw Hf D A; [lia|]. cbn [loop0].
    destruct (Z.ltb_spec (w - k * (32 / N)) (32 / N)) as [Hlt|Hge].
    { exists k, a, m. repeat (split; [first [reflexivity|lia|assumption]|]). assumption. }
    assert (Hk1 : (k + 1) * (32 / N) <= w) by lia.
    destruct (fetch_a_ok k a m D Hk Hk1 A) as (a' & -> & HA & A'). cbn [bind].
    pose proof D as (L & B & O & R). pose proof t_nonneg as T0.
    assert (P3 : B3 + k < B3 + nbytes N 3 w) by (pwu; cN HN; lia).
    assert (P5 : B5 + 2 * k + 1 < B5 + nbytes N 5 w) by (pwu; cN HN; lia).
    assert (LT : 0 <= (w * N + 7) / 8) by (cN HN; lia).
    rewrite !rd_get by lia. cbn [bind]. rewrite !O by lia.
    set (b := w32 (get mr (B3 + k) + (get mr (B5 + 2 * k) << 8) + (get mr (B5 + 2 * k + 1) << 16))).
    assert (HB : holds3 b (get mr (B3 + k)) (get mr (B5 + 2 * k)) (get mr (B5 + 2 * k + 1))) by (apply pack3; now apply get_byte).
    destruct (done_block mr (src0 N mr B0 B1 B3 B5) t (4 * k) (emit0 N a' b) (32 * (k + 1)) m) as (m' & E & D').
    - replace (8 * (4 * k)) with (32 * k) by lia. assumption.
    - apply emit0_bytes.
    - assumption.
    - lia.
    - unfold len at 1. rewrite emit0_length. assert (4 * (k + 1) <= (w * N + 7) / 8) by (cN HN; lia). lia.
    - unfold len. rewrite emit0_length. lia.
    - intros i Hi. rewrite (emit0_ok N (k mod 2) a' b _ _ _ _ _ i HN ltac:(lia) HA HB ltac:(lia)).
      replace (8 * (4 * k) + i) with (32 * k + i) by lia. apply blk0_src; lia.
    - rewrite E. cbn [bind]. unfold len in D'. rewrite emit0_length in D'. change (Z.of_nat 4) with 4 in D'.
      replace (4 * k + 4) with (4 * (k + 1)) in D' by lia.
      specialize (IH (k + 1) (a' << 4) m' ltac:(lia) Hk1 ltac:(lia) D' A').
      replace (w - k * (32 / N) - 32 / N) with (w - (k + 1) * (32 / N)) by lia.
      replace (t + 4 * k + 4) with (t + 4 * (k + 1)) by lia.
      replace (B3 + k + 1) with (B3 + (k + 1)) by lia. replace (B5 + 2 * k + 2) with (B5 + 2 * (k + 1)) by lia.
      replace ((k + 2) / 2) with ((k + 1 + 1) / 2) by (f_equal; lia). exact IH.
  Qed.

  Lemma tail0_ok k a m : 0 <= k -> 0 < w - k * (32 / N) < 32 / N -> done mr (src0 N mr B0 B1 B3 B5) t (4 * k) (32 * k) m -> a_inv k a ->
    exists m', tail0 N (w - k * (32 / N)) (t + 4 * k) a (B0 + (k + 1) / 2) (B1 + (k + 1) / 2) (B3 + k) (B5 + 2 * k) m =
      Ok (B0 + nbytes N 0 w, B1 + nbytes N 1 w, B3 + nbytes N 3 w, B5 + nbytes N 5 w, m') /\
      done mr (src0 N mr B0 B1 B3 B5) t ((w * N + 7) / 8) (w * N) m'.
  Proof.
    intros Hk Hx D A. pose proof D as (L & B & O & R). pose proof t_nonneg as T0.
    set (x := w - k * (32 / N)) in *.
    assert (LT : 0 <= (w * N + 7) / 8) by (cN HN; lia).
    assert (FA : exists a' v1, (if Z.land a 0x80000000 =? 0
       then let* v0 := rd m (B0 + (k + 1) / 2) in let* (v1, p1) := fetch_if (5 <=? x) m (B1 + (k + 1) / 2) in
            Ok (w32 (v0 + (v1 << 8)), B0 + (k + 1) / 2 + 1, p1)
       else Ok (a, B0 + (k + 1) / 2, B1 + (k + 1) / 2)) = Ok (a', B0 + nbytes N 0 w, B1 + nbytes N 1 w) /\
       holds2 (4 * (k mod 2)) a' (get mr (B0 + k / 2)) v1 /\ (5 <= x -> v1 = get mr (B1 + k / 2))).
    { rewrite land31. unfold a_inv in A. destruct (Z.eqb_spec (k mod 2) 0) as [Ev|Od].
      - rewrite A. cbn [negb].
        assert (P0 : B0 + (k + 1) / 2 < B0 + nbytes N 0 w) by (unfold x in *; pwu; cN HN; lia).
        assert (P1 : 5 <= x -> B1 + (k + 1) / 2 < B1 + nbytes N 1 w) by (unfold x in *; pwu; cN HN; lia).
        rewrite rd_get by lia. cbn [bind]. rewrite fetch_if_ok by lia. cbn [bind].
        rewrite O by lia. replace (get m (B1 + (k + 1) / 2)) with (if 5 <=? x then get mr (B1 + k / 2) else get m (B1 + (k + 1) / 2)).
        2:{ destruct (Z.leb_spec 5 x); [|reflexivity]. rewrite O by lia. f_equal. lia. }
        replace (if 5 <=? x then if 5 <=? x then get mr (B1 + k / 2) else get m (B1 + (k + 1) / 2) else 0) with (if 5 <=? x then get mr (B1 + k / 2) else 0)
          by (destruct (5 <=? x); reflexivity).
        replace (B0 + (k + 1) / 2) with (B0 + k / 2) by lia.
        eexists _, (if 5 <=? x then get mr (B1 + k / 2) else 0). split; [f_equal; f_equal; [f_equal|]|split].
        + unfold x in *; pwu; cN HN; lia.
        + unfold b2z, x in *; pwu; cN HN; dle; lia.
        + rewrite Ev. apply pack2_0; [now apply get_byte|]. apply is_byte_if. now apply get_byte.
        + intros H. now replace (5 <=? x) with true by lia.
      - destruct A as (A31 & A27 & HA). rewrite A31. cbn [negb]. exists a, (get mr (B1 + k / 2)). split; [f_equal; f_equal; [f_equal|]|split].
        + unfold x in *; pwu; cN HN; lia.
        + unfold x in *; pwu; cN HN; lia.
        + replace (k mod 2) with 1 by lia. exact HA.
        + reflexivity. }
    destruct FA as (a' & v1 & EA & HA & HV1). unfold tail0. rewrite EA. cbn [bind]. clear EA.
    assert (P3 : 3 <= x -> B3 + k < B3 + nbytes N 3 w) by (unfold x in *; pwu; cN HN; lia).
    rewrite fetch_if_ok by lia. cbn [bind].
    assert (P5 : 2 <= x -> B5 + 2 * k < B5 + nbytes N 5 w) by (unfold x in *; pwu; cN HN; lia).
    rewrite fetch_if_ok by lia. cbn [bind].
    set (thr := if N =? 1 then 18 else if N =? 2 then 10 else 6) in *.
    assert (P5' : thr <= x -> B5 + 2 * k + b2z (2 <=? x) = B5 + 2 * k + 1 /\ B5 + 2 * k + 1 < B5 + nbytes N 5 w).
    { intros HT. assert (2 <=? x = true) as -> by (unfold thr in HT; destruct (N =? 1); [|destruct (N =? 2)]; lia).
      split; [reflexivity|]. unfold thr, x in *; pwu; cN HN; lia. }
    rewrite fetch_if_ok.
    2:{ intros HT. destruct (P5' ltac:(lia)). lia. }
    cbn [bind].
    set (v3 := if 3 <=? x then get m (B3 + k) else 0). set (v5 := if 2 <=? x then get m (B5 + 2 * k) else 0).
    set (v5' := if thr <=? x then get m (B5 + 2 * k + b2z (2 <=? x)) else 0).
    assert (HB : holds3 (w32 (v3 + (v5 << 8) + (v5' << 16))) v3 v5 v5') by (apply pack3; apply is_byte_if; now apply get_byte).
    destruct (done_tail N mr (src0 N mr B0 B1 B3 B5) t (4 * k) (emit0 N a' (w32 (v3 + (v5 << 8) + (v5' << 16)))) x m) as (m' & E & D'); try lia.
    - replace (8 * (4 * k)) with (32 * k) by lia. assumption.
    - apply emit0_bytes.
    - unfold x. cN HN; lia.
    - unfold len. rewrite emit0_length. unfold x in *. cN HN; lia.
    - intros i Hi. assert (Hi32 : 0 <= i < 32) by (unfold x in *; cN HN; lia).
      rewrite (emit0_ok N (k mod 2) _ _ _ _ _ _ _ i HN ltac:(lia) HA HB Hi32).
      rewrite (blk0_part N (k mod 2) _ v1 v3 v5 v5' (get mr (B1 + k / 2)) (get mr (B3 + k)) (get mr (B5 + 2 * k)) (get mr (B5 + 2 * k + 1)) x i HN Hi).
      + replace (8 * (4 * k) + i) with (32 * k + i) by lia. apply blk0_src; lia.
      + exact HV1.
      + intros H. unfold v3. replace (3 <=? x) with true by lia. apply O; lia.
      + intros H. unfold v5. replace (2 <=? x) with true by lia. apply O; lia.
      + intros H. unfold v5'. fold thr in H. replace (thr <=? x) with true by lia. destruct (P5' H) as [-> ?]. apply O; lia.
    - rewrite E. cbn [bind]. exists m'. split.
      + assert (X3 : k + b2z (3 <=? x) = nbytes N 3 w) by (clear - Hx HN Hk; unfold b2z, x in *; pwu; cN HN; dle; lia).
        assert (X5 : 2 * k + b2z (2 <=? x) + b2z (thr <=? x) = nbytes N 5 w) by (clear - Hx HN Hk; unfold b2z, thr, x in *; pwu; cN HN; dle; lia).
        rewrite <- X3, <- X5. now rewrite !Z.add_assoc.
      + replace (4 * k + (x * N + 7) / 8) with ((w * N + 7) / 8) in D' by (unfold x; cN HN; lia).
        replace (8 * (4 * k) + x * N) with (w * N) in D' by (unfold x; cN HN; lia). exact D'.
  Qed.
End Row0.

Lemma row0_ok mr N w t d : bytes mr -> N = 1 \/ N = 2 \/ N = 4 -> 1 <= w ->
  0 <= d0 d -> 0 <= d1 d -> 0 <= d3 d -> 0 <= d5 d ->
  let B0 := d0 d + 1 in let B1 := d1 d + b2z (5 <=? w) in let B3 := d3 d + b2z (3 <=? w) in let B5 := d5 d + b2z (2 <=? w) in
  B0 + nbytes N 0 w <= t -> B1 + nbytes N 1 w <= t -> B3 + nbytes N 3 w <= t -> B5 + nbytes N 5 w <= t ->
  t + (w * N + 7) / 8 <= len mr ->
  exists m', row0 N w t d mr =
    Ok ({| d0 := B0 + nbytes N 0 w; d1 := B1 + nbytes N 1 w; d2 := d2 d; d3 := B3 + nbytes N 3 w; d4 := d4 d; d5 := B5 + nbytes N 5 w |}, m') /\
    done mr (src0 N mr B0 B1 B3 B5) t ((w * N + 7) / 8) (w * N) m'.
Proof.
  intros Bm HN Hw P0 P1 P3 P5 B0 B1 B3 B5 E0 E1 E3 E5 Et. unfold row0. fold B0 B1 B3 B5.
  assert (Q1 : 0 <= B1) by (unfold B1, b2z; destruct (5 <=? w); lia). assert (Q3 : 0 <= B3) by (unfold B3, b2z; destruct (3 <=? w); lia).
  assert (Q5 : 0 <= B5) by (unfold B5, b2z; destruct (2 <=? w); lia). assert (Q0 : 0 <= B0) by (unfold B0; lia).
  assert (T0 : 0 <= t) by (assert (0 <= nbytes N 0 w) by (pwu; cN HN; lia); lia).
  destruct (loop0_ok mr N w t B0 B1 B3 B5 Bm HN Hw Q0 Q1 Q3 Q5 E0 E1 E3 E5 Et (S (length mr)) 0 0 mr) as (k & a & m & EL & Hk & Hx & D & A).
  - lia.
  - lia.
  - unfold len in Et. assert (w * N <= 8 * Z.of_nat (length mr)) by lia. cN HN; lia.
  - apply done_init; assumption.
  - unfold a_inv. cbn. reflexivity.
  - rewrite Z.mul_0_l, Z.sub_0_r in EL. change ((0 + 1) / 2) with 0 in EL. rewrite !Z.mul_0_r, !Z.add_0_r in EL. rewrite EL. cbn [bind]. clear EL.
    destruct (Z.eqb_spec (w - k * (32 / N)) 0) as [X0|X0].
    + exists m. cbn [bind]. split.
      * f_equal; f_equal; f_equal; (clear - X0 HN Hk; pwu; cN HN; lia).
      * replace ((w * N + 7) / 8) with (4 * k) by (cN HN; lia). replace (w * N) with (32 * k) by (cN HN; lia). exact D.
    + destruct (tail0_ok mr N w t B0 B1 B3 B5 Bm HN Hw Q0 Q1 Q3 Q5 E0 E1 E3 E5 Et k a m Hk ltac:(lia) D A) as (m' & -> & D').
      cbn [bind]. exists m'. split; [reflexivity|exact D'].
Qed.
