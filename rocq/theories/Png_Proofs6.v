(* Rows 1, 2 and 3 of deinterlace_bits. *)
From Verif Require Import Base Bits IntOps_Model Algorithm_Model Algorithm_Proofs Png_Model Png_Spec Png_Proofs Png_Proofs2 Png_Proofs3 Png_Proofs4 Png_Proofs5.
From Coq Require Import ZifyBool.

Section Row2.
  Context (mr : list Z) (N w t B2 B3 B5 : Z).
  Context (Bm : bytes mr) (HN : N = 1 \/ N = 2 \/ N = 4) (Hw : 1 <= w).
  Context (H2 : 0 <= B2) (H3 : 0 <= B3) (H5 : 0 <= B5).
  Context (E2 : B2 + nbytes N 2 w <= t) (E3 : B3 + nbytes N 3 w <= t) (E5 : B5 + nbytes N 5 w <= t).
  Context (Et : t + (w * N + 7) / 8 <= len mr).

  Lemma t_nonneg2 : 0 <= t.
  Proof. assert (0 <= nbytes N 2 w) by (pwu; cN HN; lia). lia. Qed.

  Lemma loop2_ok : forall fuel k m, 0 <= k -> k * (32 / N) <= w -> w - k * (32 / N) < 32 / N * Z.of_nat fuel ->
    done mr (src2 N mr B2 B3 B5) t (4 * k) (32 * k) m ->
    exists k' m', loop2 fuel N (w - k * (32 / N)) (t + 4 * k) (B2 + k) (B3 + k) (B5 + 2 * k) m =
      Ok (w - k' * (32 / N), t + 4 * k', B2 + k', B3 + k', B5 + 2 * k', m') /\
      0 <= k' /\ 0 <= w - k' * (32 / N) < 32 / N /\ done mr (src2 N mr B2 B3 B5) t (4 * k') (32 * k') m'.
  Proof.
    induction fuel as [|fuel IH]; intros k m Hk Hkw Hf D; [lia|]. cbn [loop2].
    destruct (Z.ltb_spec (w - k * (32 / N)) (32 / N)) as [Hlt|Hge].
    { exists k, m. repeat (split; [first [reflexivity|lia|assumption]|]). assumption. }
    assert (Hk1 : (k + 1) * (32 / N) <= w) by lia.
    pose proof D as (L & B & O & R). pose proof t_nonneg2 as T0.
    assert (P2 : B2 + k < B2 + nbytes N 2 w) by (clear - HN Hk Hk1; pwu; cN HN; lia).
    assert (P3 : B3 + k < B3 + nbytes N 3 w) by (clear - HN Hk Hk1; pwu; cN HN; lia).
    assert (P5 : B5 + 2 * k + 1 < B5 + nbytes N 5 w) by (clear - HN Hk Hk1; pwu; cN HN; lia).
    assert (LT : 0 <= (w * N + 7) / 8) by (clear - HN Hw; cN HN; lia).
    rewrite !rd_get by lia. cbn [bind]. rewrite !O by lia.
    set (a := w32 (get mr (B2 + k) + (get mr (B3 + k) << 8))).
    assert (HA : holds2 0 a (get mr (B2 + k)) (get mr (B3 + k))) by (apply pack2_0; now apply get_byte).
    destruct (done_block mr (src2 N mr B2 B3 B5) t (4 * k) (emit2 N a (get mr (B5 + 2 * k)) (get mr (B5 + 2 * k + 1))) (32 * (k + 1)) m) as (m' & E & D').
    - replace (8 * (4 * k)) with (32 * k) by lia. assumption.
    - apply emit2_bytes.
    - assumption.
    - lia.
    - unfold len at 1. rewrite emit2_length. assert (4 * (k + 1) <= (w * N + 7) / 8) by (clear - HN Hk Hk1; cN HN; lia). lia.
    - unfold len. rewrite emit2_length. lia.
    - intros i Hi. rewrite (emit2_ok N a _ _ _ _ i HN HA) by (try lia; now apply get_byte).
      replace (8 * (4 * k) + i) with (32 * k + i) by lia. apply blk2_src; lia.
    - rewrite E. cbn [bind]. unfold len in D'. rewrite emit2_length in D'. change (Z.of_nat 4) with 4 in D'.
      replace (4 * k + 4) with (4 * (k + 1)) in D' by lia.
      specialize (IH (k + 1) m' ltac:(lia) Hk1 ltac:(lia) D').
      replace (w - k * (32 / N) - 32 / N) with (w - (k + 1) * (32 / N)) by lia.
      replace (t + 4 * k + 4) with (t + 4 * (k + 1)) by lia. replace (B2 + k + 1) with (B2 + (k + 1)) by lia.
      replace (B3 + k + 1) with (B3 + (k + 1)) by lia. replace (B5 + 2 * k + 2) with (B5 + 2 * (k + 1)) by lia. exact IH.
  Qed.

  (* N = 2: right as long as no pixel of pass 3 is left *)
  Lemma tail2_ok k m : N = 1 \/ (N = 2 /\ w - k * (32 / N) < 3) -> 0 <= k -> 0 < w - k * (32 / N) < 32 / N ->
    done mr (src2 N mr B2 B3 B5) t (4 * k) (32 * k) m ->
    exists m', tail2 N (w - k * (32 / N)) (t + 4 * k) (B2 + k) (B3 + k) (B5 + 2 * k) m =
      Ok (B2 + nbytes N 2 w, B3 + nbytes N 3 w, B5 + nbytes N 5 w, m') /\
      done mr (src2 N mr B2 B3 B5) t ((w * N + 7) / 8) (w * N) m'.
  Proof.
    intros N1 Hk Hx D. pose proof D as (L & B & O & R). pose proof t_nonneg2 as T0.
    set (x := w - k * (32 / N)) in *.
    assert (LT : 0 <= (w * N + 7) / 8) by (clear - HN Hw; cN HN; lia).
    unfold tail2. replace ((N =? 2) && (3 <=? x)) with false by (clear - N1; destruct N1 as [->|[-> ?]]; [reflexivity|lia]).
    assert (P2 : B2 + k < B2 + nbytes N 2 w) by (clear - HN Hk Hx; unfold x in *; pwu; cN HN; lia).
    rewrite rd_get by lia. cbn [bind]. rewrite O by lia.
    assert (P3 : 3 <= x -> B3 + k < B3 + nbytes N 3 w) by (clear - HN Hk Hx; unfold x in *; pwu; cN HN; lia).
    rewrite fetch_if_ok by lia. cbn [bind].
    assert (P5 : 2 <= x -> B5 + 2 * k < B5 + nbytes N 5 w) by (clear - HN Hk Hx; unfold x in *; pwu; cN HN; lia).
    rewrite fetch_if_ok by lia. cbn [bind].
    set (thr := if N =? 1 then 18 else 10) in *.
    assert (P5' : thr <= x -> B5 + 2 * k + b2z (2 <=? x) = B5 + 2 * k + 1 /\ B5 + 2 * k + 1 < B5 + nbytes N 5 w).
    { intros HT. replace (2 <=? x) with true by (unfold thr in HT; destruct (N =? 1); lia). split; [reflexivity|].
      clear - N1 Hk Hx HT. unfold x, thr in *. destruct N1 as [->|[-> ?]]; [change (32 / 1) with 32 in *|change (32 / 2) with 16 in *]; cbn [Z.eqb Pos.eqb] in *; pwu; lia. }
    rewrite fetch_if_ok.
    2:{ intros HT. destruct (P5' ltac:(lia)). lia. }
    cbn [bind].
    set (v3 := if 3 <=? x then get m (B3 + k) else 0). set (v5 := if 2 <=? x then get m (B5 + 2 * k) else 0).
    set (v5' := if thr <=? x then get m (B5 + 2 * k + b2z (2 <=? x)) else 0).
    assert (HA : holds2 0 (w32 (get mr (B2 + k) + (v3 << 8))) (get mr (B2 + k)) v3) by (apply pack2_0; [|apply is_byte_if]; now apply get_byte).
    assert (HB : holds2 0 (w32 (v5 + (v5' << 8))) v5 v5') by (apply pack2_0; apply is_byte_if; now apply get_byte).
    destruct (done_tail N mr (src2 N mr B2 B3 B5) t (4 * k) (emit2_tail N (w32 (get mr (B2 + k) + (v3 << 8))) (w32 (v5 + (v5' << 8)))) x m) as (m' & E & D'); try lia.
    - replace (8 * (4 * k)) with (32 * k) by lia. assumption.
    - apply emit2_tail_bytes.
    - replace (t + 4 * k + (x * N + 7) / 8) with (t + (w * N + 7) / 8); [exact Et|]. clear - HN. unfold x. cN HN; lia.
    - unfold len. rewrite emit2_tail_length. clear - HN Hx. unfold x in *. cN HN; lia.
    - intros i Hi. assert (Hi32 : 0 <= i < 32) by (clear - HN Hx Hi; unfold x in *; cN HN; lia).
      rewrite (emit2_tail_ok N _ _ _ _ _ _ i ltac:(lia) HA HB Hi32).
      rewrite (blk2_part N _ v3 v5 v5' (get mr (B3 + k)) (get mr (B5 + 2 * k)) (get mr (B5 + 2 * k + 1)) x i HN Hi).
      + replace (8 * (4 * k) + i) with (32 * k + i) by lia. apply blk2_src; lia.
      + intros H. unfold v3. replace (3 <=? x) with true by lia. apply O; lia.
      + intros H. unfold v5. replace (2 <=? x) with true by lia. apply O; lia.
      + intros H. assert (H' : thr <= x) by (clear - H N1; unfold thr; destruct N1 as [->|[-> ?]]; cbn [Z.eqb Pos.eqb] in *; lia).
        unfold v5'. replace (thr <=? x) with true by lia. destruct (P5' H') as [-> ?]. apply O; lia.
    - rewrite E. cbn [bind]. exists m'. split.
      + assert (X2 : k + 1 = nbytes N 2 w) by (clear - Hx HN Hk; unfold x in *; pwu; cN HN; lia).
        assert (X3 : k + b2z (3 <=? x) = nbytes N 3 w) by (clear - Hx HN Hk; unfold b2z, x in *; pwu; cN HN; dle; lia).
        assert (X5 : 2 * k + b2z (2 <=? x) + b2z (thr <=? x) = nbytes N 5 w).
        { clear - Hx N1 Hk; unfold b2z, thr, x in *. destruct N1 as [->|[-> ?]]; [change (32 / 1) with 32 in *|change (32 / 2) with 16 in *]; cbn [Z.eqb Pos.eqb] in *; pwu; dle; lia. }
        rewrite <- X2, <- X3, <- X5. now rewrite !Z.add_assoc.
      + replace (4 * k + (x * N + 7) / 8) with ((w * N + 7) / 8) in D' by (clear - HN; unfold x; cN HN; lia).
        replace (8 * (4 * k) + x * N) with (w * N) in D' by (clear - HN; unfold x; cN HN; lia). exact D'.
  Qed.

  (* N = 4: the fetch of the second byte of pass 5 is wrong for a rest of 5 pixels only. *)
  Lemma tail2_4_ok k m : N = 4 -> 0 <= k -> 0 < w - k * (32 / N) < 32 / N -> w - k * (32 / N) <> 5 ->
    done mr (src2 N mr B2 B3 B5) t (4 * k) (32 * k) m ->
    exists m', tail2_4 (w - k * (32 / N)) (t + 4 * k) (B2 + k) (B3 + k) (B5 + 2 * k) m =
      Ok (B2 + nbytes N 2 w, B3 + nbytes N 3 w, B5 + nbytes N 5 w, m') /\
      done mr (src2 N mr B2 B3 B5) t ((w * N + 7) / 8) (w * N) m'.
  Proof.
    intros N4 Hk Hx Hx5 D. pose proof D as (L & B & O & R). pose proof t_nonneg2 as T0.
    rewrite N4 in Hx, Hx5. change (32 / 4) with 8 in Hx, Hx5.
    replace (32 / N) with 8 by (rewrite N4; reflexivity).
    set (x := w - k * 8) in *.
    assert (LT : 0 <= (w * N + 7) / 8) by (clear - HN Hw; cN HN; lia).
    assert (P2 : B2 + k < B2 + nbytes N 2 w) by (clear - N4 Hk Hx; unfold x in *; rewrite N4; pwu; lia).
    assert (P3 : 3 <= x -> B3 + k < B3 + nbytes N 3 w) by (clear - N4 Hk Hx; unfold x in *; rewrite N4; pwu; lia).
    assert (P5 : 2 <= x -> B5 + 2 * k < B5 + nbytes N 5 w) by (clear - N4 Hk Hx; unfold x in *; rewrite N4; pwu; lia).
    assert (P5' : 6 <= x -> B5 + 2 * k + 1 < B5 + nbytes N 5 w) by (clear - N4 Hk Hx; unfold x in *; rewrite N4; pwu; lia).
    assert (LE : (w * N + 7) / 8 = 4 * k + (x + 1) / 2) by (clear - N4; unfold x; rewrite N4; lia).
    set (v2 := get mr (B2 + k)). set (v3 := if 3 <=? x then get mr (B3 + k) else 0). set (v5 := if 2 <=? x then get mr (B5 + 2 * k) else 0).
    set (v5' := if 6 <=? x then get mr (B5 + 2 * k + 1) else 0).
    set (a := w32 (v2 + (v3 << 8))).
    (* the memory after the writes is that of a list of bytes *)
    assert (T : forall m', wr_tail m (t + 4 * k) (emit2 4 a v5 v5') x (8 / N) (8 / N) = Ok m' ->
       tail2_4 x (t + 4 * k) (B2 + k) (B3 + k) (B5 + 2 * k) m = Ok (B2 + nbytes N 2 w, B3 + nbytes N 3 w, B5 + nbytes N 5 w, m')).
    { intros m' E. unfold tail2_4. rewrite rd_get by lia. cbn [bind]. rewrite O by lia.
      rewrite fetch_if_ok by lia. cbn [bind].
      replace (if 3 <=? x then get m (B3 + k) else 0) with v3 by (unfold v3; destruct (Z.leb_spec 3 x); [symmetry; apply O; lia|reflexivity]).
      fold v2. fold a. rewrite fetch_if_ok by lia. cbn [bind].
      replace (if 2 <=? x then get m (B5 + 2 * k) else 0) with v5 by (unfold v5; destruct (Z.leb_spec 2 x); [symmetry; apply O; lia|reflexivity]).
      rewrite N4 in E. change (8 / 4) with 2 in E. unfold emit2 in E. cbn [Z.eqb Pos.eqb] in E. cbn [wr_tail] in E.
      assert (X2 : k + 1 = nbytes N 2 w) by (clear - Hx N4 Hk; unfold x in *; rewrite N4; pwu; lia).
      assert (X3 : k + b2z (3 <=? x) = nbytes N 3 w) by (clear - Hx N4 Hk; unfold b2z, x in *; rewrite N4; pwu; dle; lia).
      assert (X5 : 2 * k + b2z (2 <=? x) + b2z (6 <=? x) = nbytes N 5 w) by (clear - Hx N4 Hk; unfold b2z, x in *; rewrite N4; pwu; dle; lia).
      rewrite <- X2, <- X3, <- X5. rewrite !Z.add_assoc.
      rewrite wr_set in E |- * by lia. cbn [bind] in E |- *.
      destruct (Z.leb_spec x 2) as [C2|C2].
      { injection E as <-. replace (6 <=? x) with false by lia. cbn [b2z]. now rewrite !Z.add_0_r. }
      rewrite wr_set in E |- * by (rewrite ?set_len; lia). cbn [bind] in E |- *.
      change (2 + 2) with 4 in E. destruct (Z.leb_spec x 4) as [C4|C4].
      { injection E as <-. replace (6 <=? x) with false by lia. cbn [b2z]. now rewrite !Z.add_0_r. }
      assert (C6 : 6 <= x) by lia. replace (2 <=? x) with true by lia. replace (6 <=? x) with true by lia. cbn [b2z].
      specialize (P5' C6). rewrite rd_get by (rewrite !set_len; lia). cbn [bind].
      assert (G : get (set (set m (t + 4 * k) (combineByte4bpp a (v5 >> 4))) (t + 4 * k + 1) (combineByte4bpp (a >> 8) v5)) (B5 + 2 * k + 1) = v5').
      { rewrite !get_set by (rewrite ?set_len; lia). replace (B5 + 2 * k + 1 =? t + 4 * k + 1) with false by lia.
        replace (B5 + 2 * k + 1 =? t + 4 * k) with false by lia. unfold v5'. replace (6 <=? x) with true by lia. apply O; lia. }
      rewrite G. replace (t + 4 * k + 2) with (t + 4 * k + 1 + 1) by lia.
      destruct (wr _ (t + 4 * k + 1 + 1) _) as [m3| | |]; cbn [bind] in E |- *; try discriminate.
      change (4 + 2) with 6 in E. destruct (Z.leb_spec x 6) as [C7|C7]; [injection E as <-; reflexivity|].
      replace (t + 4 * k + 3) with (t + 4 * k + 1 + 1 + 1) by lia.
      destruct (wr _ (t + 4 * k + 1 + 1 + 1) _) as [m4| | |]; cbn [bind] in E |- *; try discriminate.
      change (6 + 2) with 8 in E. replace (x <=? 8) with true in E by lia. injection E as <-. reflexivity. }
    assert (HA : holds2 0 a v2 v3) by (apply pack2_0; [|apply is_byte_if]; now apply get_byte).
    destruct (done_tail N mr (src2 N mr B2 B3 B5) t (4 * k) (emit2 4 a v5 v5') x m) as (m' & E & D'); try lia.
    - replace (8 * (4 * k)) with (32 * k) by lia. assumption.
    - apply emit2_bytes.
    - unfold len. rewrite emit2_length. lia.
    - intros i Hi. assert (Hi32 : 0 <= i < 32) by (clear - N4 Hx Hi; rewrite N4 in Hi; lia).
      rewrite (emit2_ok 4 a v2 v3 v5 v5' i ltac:(lia) HA) by (try lia; apply is_byte_if; now apply get_byte).
      replace (blk2 4) with (blk2 N) by (rewrite N4; reflexivity).
      rewrite (blk2_part N v2 v3 v5 v5' (get mr (B3 + k)) (get mr (B5 + 2 * k)) (get mr (B5 + 2 * k + 1)) x i HN Hi).
      + replace (8 * (4 * k) + i) with (32 * k + i) by lia. apply blk2_src; lia.
      + intros H. unfold v3. now replace (3 <=? x) with true by lia.
      + intros H. unfold v5. now replace (2 <=? x) with true by lia.
      + rewrite N4. cbn [Z.eqb Pos.eqb]. intros H. unfold v5'. now replace (6 <=? x) with true by lia.
    - exists m'. split; [now apply T|].
      replace (4 * k + (x * N + 7) / 8) with ((w * N + 7) / 8) in D' by lia.
      replace (8 * (4 * k) + x * N) with (w * N) in D' by (clear - N4; unfold x; rewrite N4; lia). exact D'.
  Qed.
End Row2.

(* The rows for which the row n = 2 is right. *)
Definition good2 (N w : Z) : Prop := N = 1 \/ (N = 4 /\ w mod 8 <> 5) \/ (N = 2 /\ w mod 16 < 3).

Lemma row2_ok mr N w t d : bytes mr -> N = 1 \/ N = 2 \/ N = 4 -> good2 N w -> 1 <= w ->
  0 <= d2 d -> 0 <= d3 d -> 0 <= d5 d ->
  let B2 := d2 d + 1 in let B3 := d3 d + b2z (3 <=? w) in let B5 := d5 d + b2z (2 <=? w) in
  B2 + nbytes N 2 w <= t -> B3 + nbytes N 3 w <= t -> B5 + nbytes N 5 w <= t ->
  t + (w * N + 7) / 8 <= len mr ->
  exists m', row2 N w t d mr =
    Ok ({| d0 := d0 d; d1 := d1 d; d2 := B2 + nbytes N 2 w; d3 := B3 + nbytes N 3 w; d4 := d4 d; d5 := B5 + nbytes N 5 w |}, m') /\
    done mr (src2 N mr B2 B3 B5) t ((w * N + 7) / 8) (w * N) m'.
Proof.
  intros Bm HN HG Hw P2 P3 P5 B2 B3 B5 E2 E3 E5 Et. unfold row2. fold B2 B3 B5.
  assert (Q3 : 0 <= B3) by (unfold B3, b2z; destruct (3 <=? w); lia).
  assert (Q5 : 0 <= B5) by (unfold B5, b2z; destruct (2 <=? w); lia). assert (Q2 : 0 <= B2) by (unfold B2; lia).
  destruct (loop2_ok mr N w t B2 B3 B5 Bm HN Hw Q2 Q3 Q5 E2 E3 E5 Et (S (length mr)) 0 mr) as (k & m & EL & Hk & Hx & D).
  - lia.
  - lia.
  - assert (T0 : 0 <= t) by (assert (0 <= nbytes N 2 w) by (clear - HN Hw; pwu; cN HN; lia); lia).
    unfold len in Et. assert (w * N <= 8 * Z.of_nat (length mr)) by lia. clear - H HN Hw. cN HN; lia.
  - apply done_init; assumption.
  - rewrite Z.mul_0_l, Z.sub_0_r in EL. rewrite !Z.mul_0_r, !Z.add_0_r in EL. rewrite EL. cbn [bind]. clear EL.
    destruct (Z.eqb_spec (w - k * (32 / N)) 0) as [X0|X0].
    + exists m. cbn [bind]. split.
      * assert (X2 : k = nbytes N 2 w) by (clear - X0 HN Hk; pwu; cN HN; lia). assert (X3 : k = nbytes N 3 w) by (clear - X0 HN Hk; pwu; cN HN; lia).
        assert (X5 : 2 * k = nbytes N 5 w) by (clear - X0 HN Hk; pwu; cN HN; lia). now rewrite <- X2, <- X3, <- X5.
      * replace ((w * N + 7) / 8) with (4 * k) by (clear - X0 HN Hk; cN HN; lia). replace (w * N) with (32 * k) by (clear - X0 HN Hk; cN HN; lia). exact D.
    + assert (HG' : (N = 1 \/ (N = 2 /\ w - k * (32 / N) < 3)) \/ N = 4).
      { clear - HG Hx. destruct HG as [->|[[-> ?]|[-> ?]]]; [left; now left|now right|left; right]. change (32 / 2) with 16 in *. lia. }
      destruct HG' as [N1|N4].
      * replace (N =? 4) with false by lia.
        destruct (tail2_ok mr N w t B2 B3 B5 Bm HN Hw Q2 Q3 Q5 E2 E3 E5 Et k m N1 Hk ltac:(lia) D) as (m' & -> & D').
        cbn [bind]. exists m'. split; [reflexivity|exact D'].
      * replace (N =? 4) with true by lia.
        destruct (tail2_4_ok mr N w t B2 B3 B5 Bm HN Hw Q2 Q3 Q5 E2 E3 E5 Et k m N4 Hk ltac:(lia)) as (m' & -> & D'); [|exact D|].
        { clear - N4 HG. rewrite N4. change (32 / 4) with 8. unfold good2 in HG. lia. }
        cbn [bind]. exists m'. split; [reflexivity|exact D'].
Qed.

Section Row13.
  Context (mr : list Z) (N w t B4 B5 : Z).
  Context (Bm : bytes mr) (HN : N = 1 \/ N = 2 \/ N = 4) (Hw : 1 <= w).
  Context (H4 : 0 <= B4) (H5 : 0 <= B5).
  Context (E4 : B4 + nbytes N 4 w <= t) (E5 : B5 + nbytes N 5 w <= t).
  Context (Et : t + (w * N + 7) / 8 <= len mr).

  Lemma t_nonneg13 : 0 <= t.
  Proof. assert (0 <= nbytes N 4 w) by (pwu; cN HN; lia). lia. Qed.

  Lemma loop13_ok : forall fuel k m, 0 <= k -> k * (16 / N) <= w -> w - k * (16 / N) < 16 / N * Z.of_nat fuel ->
    done mr (src13 N mr B4 B5) t (2 * k) (16 * k) m ->
    exists k' m', loop13 fuel N (w - k * (16 / N)) (t + 2 * k) (B4 + k) (B5 + k) m =
      Ok (w - k' * (16 / N), t + 2 * k', B4 + k', B5 + k', m') /\
      0 <= k' /\ 0 <= w - k' * (16 / N) < 16 / N /\ done mr (src13 N mr B4 B5) t (2 * k') (16 * k') m'.
  Proof.
    induction fuel as [|fuel IH]; intros k m Hk Hkw Hf D; [lia|]. cbn [loop13].
    destruct (Z.ltb_spec (w - k * (16 / N)) (16 / N)) as [Hlt|Hge].
    { exists k, m. repeat (split; [first [reflexivity|lia|assumption]|]). assumption. }
    assert (Hk1 : (k + 1) * (16 / N) <= w) by lia.
    pose proof D as (L & B & O & R). pose proof t_nonneg13 as T0.
    assert (P4 : B4 + k < B4 + nbytes N 4 w) by (clear - HN Hk Hk1; pwu; cN HN; lia).
    assert (P5 : B5 + k < B5 + nbytes N 5 w) by (clear - HN Hk Hk1; pwu; cN HN; lia).
    assert (LT : 0 <= (w * N + 7) / 8) by (clear - HN Hw; cN HN; lia).
    rewrite !rd_get by lia. cbn [bind]. rewrite !O by lia.
    destruct (done_block mr (src13 N mr B4 B5) t (2 * k) (emit13 N (get mr (B4 + k)) (get mr (B5 + k))) (16 * (k + 1)) m) as (m' & E & D').
    - replace (8 * (2 * k)) with (16 * k) by lia. assumption.
    - apply emit13_bytes.
    - assumption.
    - lia.
    - unfold len at 1. rewrite emit13_length. assert (2 * (k + 1) <= (w * N + 7) / 8) by (clear - HN Hk Hk1; cN HN; lia). lia.
    - unfold len. rewrite emit13_length. lia.
    - intros i Hi. rewrite emit13_ok by (try assumption; lia).
      replace (8 * (2 * k) + i) with (16 * k + i) by lia. apply blk13_src; lia.
    - rewrite E. cbn [bind]. unfold len in D'. rewrite emit13_length in D'. change (Z.of_nat 2) with 2 in D'.
      replace (2 * k + 2) with (2 * (k + 1)) in D' by lia.
      specialize (IH (k + 1) m' ltac:(lia) Hk1 ltac:(lia) D').
      replace (w - k * (16 / N) - 16 / N) with (w - (k + 1) * (16 / N)) by lia.
      replace (t + 2 * k + 2) with (t + 2 * (k + 1)) by lia. replace (B4 + k + 1) with (B4 + (k + 1)) by lia.
      replace (B5 + k + 1) with (B5 + (k + 1)) by lia. exact IH.
  Qed.

  (* N = 2: right if at most one pixel is left *)
  Lemma tail13_ok k m : N <> 2 \/ w - k * (16 / N) < 2 -> 0 <= k -> 0 < w - k * (16 / N) < 16 / N ->
    done mr (src13 N mr B4 B5) t (2 * k) (16 * k) m ->
    exists m', tail13 N (w - k * (16 / N)) (t + 2 * k) (B4 + k) (B5 + k) m =
      Ok (B4 + nbytes N 4 w, B5 + nbytes N 5 w, m') /\
      done mr (src13 N mr B4 B5) t ((w * N + 7) / 8) (w * N) m'.
  Proof.
    intros N1 Hk Hx D. pose proof D as (L & B & O & R). pose proof t_nonneg13 as T0.
    set (x := w - k * (16 / N)) in *.
    assert (LT : 0 <= (w * N + 7) / 8) by (clear - HN Hw; cN HN; lia).
    unfold tail13.
    assert (P4 : B4 + k < B4 + nbytes N 4 w) by (clear - HN Hk Hx; unfold x in *; pwu; cN HN; lia).
    rewrite rd_get by lia. cbn [bind]. rewrite O by lia.
    assert (P5 : 2 <= x -> B5 + k < B5 + nbytes N 5 w) by (clear - HN Hk Hx; unfold x in *; pwu; cN HN; lia).
    rewrite fetch_if_ok by lia. cbn [bind].
    set (v5 := if 2 <=? x then get m (B5 + k) else 0).
    destruct (done_tail N mr (src13 N mr B4 B5) t (2 * k) (emit13_tail N (get mr (B4 + k)) v5) x m) as (m' & E & D'); try lia.
    - replace (8 * (2 * k)) with (16 * k) by lia. assumption.
    - apply emit13_tail_bytes.
    - replace (t + 2 * k + (x * N + 7) / 8) with (t + (w * N + 7) / 8); [exact Et|]. clear - HN. unfold x. cN HN; lia.
    - unfold len. rewrite emit13_tail_length. clear - HN Hx. unfold x in *. cN HN; lia.
    - intros i Hi. assert (Hi32 : 0 <= i < 16) by (clear - HN Hx Hi; unfold x in *; cN HN; lia).
      replace (8 * (2 * k) + i) with (16 * k + i) by lia. rewrite <- blk13_src by (try assumption; lia).
      rewrite <- (blk13_part N _ v5 _ x i HN Hi).
      2:{ intros H. unfold v5. replace (2 <=? x) with true by lia. apply O; lia. }
      destruct N1 as [N2|X1].
      + unfold emit13_tail. replace (N =? 2) with false by lia. apply emit13_ok; assumption.
      + destruct (Z.eq_dec N 2) as [N2|N2].
        2:{ unfold emit13_tail. replace (N =? 2) with false by lia. apply emit13_ok; assumption. }
        rewrite <- emit13_ok by assumption. assert (I : i = 0 \/ i = 1) by lia.
        unfold emit13_tail, emit13, nth8, tb. rewrite N2. cbn [Z.eqb Pos.eqb].
        destruct I as [-> | ->]; nums; cbn [nth]; rewrite !combine2_bit by lia; nums; reflexivity.
    - rewrite E. cbn [bind]. exists m'. split.
      + assert (X4 : k + 1 = nbytes N 4 w) by (clear - Hx HN Hk; unfold x in *; pwu; cN HN; lia).
        assert (X5 : k + b2z (2 <=? x) = nbytes N 5 w) by (clear - Hx HN Hk; unfold b2z, x in *; pwu; cN HN; dle; lia).
        rewrite <- X4, <- X5. now rewrite !Z.add_assoc.
      + replace (2 * k + (x * N + 7) / 8) with ((w * N + 7) / 8) in D' by (clear - HN; unfold x; cN HN; lia).
        replace (8 * (2 * k) + x * N) with (w * N) in D' by (clear - HN; unfold x; cN HN; lia). exact D'.
  Qed.
End Row13.

Definition good13 (N w : Z) : Prop := N <> 2 \/ w mod 8 < 2.

Lemma row13_ok mr N w t d : bytes mr -> N = 1 \/ N = 2 \/ N = 4 -> good13 N w -> 1 <= w ->
  0 <= d4 d -> 0 <= d5 d ->
  let B4 := d4 d + 1 in let B5 := d5 d + b2z (2 <=? w) in
  B4 + nbytes N 4 w <= t -> B5 + nbytes N 5 w <= t ->
  t + (w * N + 7) / 8 <= len mr ->
  exists m', row13 N w t d mr =
    Ok ({| d0 := d0 d; d1 := d1 d; d2 := d2 d; d3 := d3 d; d4 := B4 + nbytes N 4 w; d5 := B5 + nbytes N 5 w |}, m') /\
    done mr (src13 N mr B4 B5) t ((w * N + 7) / 8) (w * N) m'.
Proof.
  intros Bm HN HG Hw P4 P5 B4 B5 E4 E5 Et. unfold row13. fold B4 B5.
  assert (Q5 : 0 <= B5) by (unfold B5, b2z; destruct (2 <=? w); lia). assert (Q4 : 0 <= B4) by (unfold B4; lia).
  destruct (loop13_ok mr N w t B4 B5 HN Hw Q4 Q5 E4 E5 Et (S (length mr)) 0 mr) as (k & m & EL & Hk & Hx & D).
  - lia.
  - lia.
  - assert (T0 : 0 <= t) by (assert (0 <= nbytes N 4 w) by (clear - HN Hw; pwu; cN HN; lia); lia).
    unfold len in Et. assert (w * N <= 8 * Z.of_nat (length mr)) by lia. clear - H HN Hw. cN HN; lia.
  - apply done_init; assumption.
  - rewrite Z.mul_0_l, Z.sub_0_r in EL. rewrite !Z.mul_0_r, !Z.add_0_r in EL. rewrite EL. cbn [bind]. clear EL.
    destruct (Z.eqb_spec (w - k * (16 / N)) 0) as [X0|X0].
    + exists m. cbn [bind]. split.
      * assert (X4 : k = nbytes N 4 w) by (clear - X0 HN Hk; pwu; cN HN; lia). assert (X5 : k = nbytes N 5 w) by (clear - X0 HN Hk; pwu; cN HN; lia).
        now rewrite <- X4, <- X5.
      * replace ((w * N + 7) / 8) with (2 * k) by (clear - X0 HN Hk; cN HN; lia). replace (w * N) with (16 * k) by (clear - X0 HN Hk; cN HN; lia). exact D.
    + assert (HG' : N <> 2 \/ w - k * (16 / N) < 2).
      { destruct HG as [?|HG]; [now left|]. destruct (Z.eq_dec N 2) as [->|?]; [right|now left]. change (16 / 2) with 8 in *. lia. }
      destruct (tail13_ok mr N w t B4 B5 HN Hw Q4 Q5 E4 E5 Et k m HG' Hk ltac:(lia) D) as (m' & -> & D').
      cbn [bind]. exists m'. split; [reflexivity|exact D'].
Qed.
