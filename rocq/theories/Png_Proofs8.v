(* One row of deinterlace_bytes. *)
From Verif Require Import Base Bits IntOps_Model Algorithm_Model Algorithm_Proofs Png_Model Png_Spec Png_Proofs Png_Proofs2 Png_Proofs3 Png_Proofs4 Png_Proofs5 Png_Proofs6 Png_Proofs7.
From Coq Require Import ZifyBool.

Lemma copy_loop_0 mr N w t start inc D m : 1 <= N <= 8 -> 1 <= w <= 65535 -> t + w * N <= len mr ->
  0 <= start < inc -> inc <= 8 -> 0 <= D -> D + (w - start + inc - 1) / inc * N <= t -> 0 <= t -> frame mr N w t m ->
  exists m', copy_loop (S (length mr)) N (start * N) (w * N) inc t D m = Ok (D + (w - start + inc - 1) / inc * N, m') /\ frame mr N w t m' /\
    forall X j, 0 <= X < w -> 0 <= j < N ->
      get m' (t + X * N + j) = if (start <=? X) && ((X - start) mod inc =? 0)
                               then get mr (D + (X - start) / inc * N + j) else get m (t + X * N + j).
Proof.
  intros HN Hw Et Hs Hi HD HDt Ht F.
  assert (C0 : 0 <= (w - start + inc - 1) / inc) by (apply Z.div_pos; lia).
  destruct (copy_loop_ok mr N w t HN Hw Et start inc D Hs Hi HD HDt (S (length mr)) 0 m) as (m' & E & F' & R).
  - lia.
  - assert ((w - start + inc - 1) / inc <= w).
    { apply Z.div_le_upper_bound; [lia|]. clear - Hs Hw. nia. }
    assert (w <= w * N) by (clear - HN Hw; nia). unfold len in Et. lia.
  - assumption.
  - exists m'. rewrite Z.mul_0_r, Z.add_0_r, Z.mul_0_l, Z.add_0_r in E. split; [exact E|]. split; [assumption|].
    intros X j HX Hj. rewrite R by assumption. now rewrite Z.mul_0_r, Z.add_0_r.
Qed.

Ltac rx := match goal with Hx : 0 <= ?x < _ |- _ => repeat match goal with H : context [x mod _] |- _ => revert H end; clear - Hx; lia end.

Lemma row_bytes_ok N w n t d mr : 1 <= N <= 8 -> n = 0 \/ n = 1 \/ n = 2 \/ n = 3 -> row_pre (8 * N) w n t d mr -> 0 <= t ->
  exists d' m', row_bytes N w n t d mr = Ok (d', m') /\ row_post (8 * N) w n t d mr d' m'.
Proof.
  intros HN Hn (B & Hw & P & Et) Ht. unfold row_bytes.
  replace ((w * (8 * N) + 7) / 8) with (w * N) in Et by lia.
  assert (WN : 0 <= w * N <= 524280) by (clear - HN Hw; nia).
  replace (w32 (w * N)) with (w * N) by (unfold w32; rewrite Z.mod_small; lia). cbv zeta.
  assert (F : frame mr N w t mr) by (split; [reflexivity|]; split; [assumption|reflexivity]).
  assert (NX : forall p, next_of (8 * N) w p d = base_of w p d + pw p w * N).
  { intros p. unfold next_of. replace (8 * N * pw p w + 7) with (7 + (pw p w * N) * 8) by lia. rewrite Z.div_add by lia. change (7 / 8) with 0. lia. }
  assert (PX : forall m' x p, adam7 x (2 * n) = p -> 0 <= x < w ->
    (forall j, 0 <= j < N -> get m' (t + x * N + j) = get mr (base_of w p d + pw p x * N + j)) ->
    pixel (8 * N) m' t x = pixel (8 * N) mr (base_of w (adam7 x (2 * n)) d) (pw (adam7 x (2 * n)) x)).
  { intros m' x p -> Hx S. apply pixel_ext. intros j Hj. pose proof (pw_nonneg p x ltac:(lia)) as Q.
    assert (X1 : 0 <= x * N) by (clear - HN Hx; nia). assert (X2 : 0 <= pw p x * N) by (clear - HN Q; nia).
    replace (8 * t + x * (8 * N) + j) with (8 * t + (8 * (x * N) + j)) by lia.
    replace (8 * base_of w p d + pw p x * (8 * N) + j) with (8 * base_of w p d + (8 * (pw p x * N) + j)) by lia.
    rewrite !bit_at by lia. replace ((8 * (x * N) + j) / 8) with (x * N + j / 8) by lia. replace ((8 * (x * N) + j) mod 8) with (j mod 8) by lia.
    replace ((8 * (pw p x * N) + j) / 8) with (pw p x * N + j / 8) by lia. replace ((8 * (pw p x * N) + j) mod 8) with (j mod 8) by lia.
    rewrite !Z.add_assoc. rewrite S by lia. reflexivity. }
  assert (FR : forall m', frame mr N w t m' -> len m' = len mr /\ bytes m' /\ (forall j, 0 <= j -> j < t \/ t + (w * (8 * N) + 7) / 8 <= j -> get m' j = get mr j)).
  { intros m' (L & B' & O). split; [assumption|]. split; [assumption|]. replace ((w * (8 * N) + 7) / 8) with (w * N) by lia. assumption. }
  assert (BN : forall p, 0 <= p < 6 -> in_row n p = true -> 0 <= base_of w p d /\ base_of w p d + pw p w * N <= t).
  { intros p Hp R. destruct (P p Hp R) as (Q & L). rewrite NX in L. split; [|assumption]. unfold base_of, b2z. destruct (0 <? pw p w); lia. }
  clear P.
  destruct (Z.eqb_spec n 0) as [->|N0].
  - destruct (BN 0 ltac:(lia) eq_refl) as (Q0 & L0). destruct (BN 1 ltac:(lia) eq_refl) as (Q1 & L1).
    destruct (BN 3 ltac:(lia) eq_refl) as (Q3 & L3). destruct (BN 5 ltac:(lia) eq_refl) as (Q5 & L5).
    rewrite <- (base0 w d), <- (base1 w d), <- (base3 w d), <- (base5 w d) by lia.
    destruct (copy_loop_0 mr N w t 0 8 (base_of w 0 d) mr) as (m1 & E1 & F1 & R1); try assumption; try lia.
    { replace ((w - 0 + 8 - 1) / 8) with (pw 0 w) by (unfold pw; cbn [Z.eqb]; f_equal; lia). assumption. }
    rewrite E1. cbn [bind].
    destruct (copy_loop_0 mr N w t 4 8 (base_of w 1 d) m1) as (m2 & E2 & F2 & R2); try assumption; try lia.
    { replace ((w - 4 + 8 - 1) / 8) with (pw 1 w) by (unfold pw; cbn [Z.eqb Pos.eqb]; f_equal; lia). assumption. }
    rewrite E2. cbn [bind].
    destruct (copy_loop_0 mr N w t 2 4 (base_of w 3 d) m2) as (m3 & E3 & F3 & R3); try assumption; try lia.
    { replace ((w - 2 + 4 - 1) / 4) with (pw 3 w) by (unfold pw; cbn [Z.eqb Pos.eqb]; f_equal; lia). assumption. }
    rewrite E3. cbn [bind].
    destruct (copy_loop_0 mr N w t 1 2 (base_of w 5 d) m3) as (m4 & E4 & F4 & R4); try assumption; try lia.
    { replace ((w - 1 + 2 - 1) / 2) with (pw 5 w) by (unfold pw; cbn [Z.eqb Pos.eqb]; f_equal; lia). assumption. }
    rewrite E4. cbn [bind].
    eexists _, m4. split; [reflexivity|]. destruct (FR m4 F4) as (A1 & A2 & A3). split; [assumption|]. split; [assumption|]. split; [assumption|]. split.
    + intros p Hp. assert (C : p = 0 \/ p = 1 \/ p = 2 \/ p = 3 \/ p = 4 \/ p = 5) by lia. rewrite NX.
      destruct C as [->|[->|[->|[->|[->| ->]]]]]; unfold dsel at 1, in_row; cbn [Z.eqb Pos.eqb orb d0 d1 d2 d3 d4 d5]; try reflexivity;
      unfold pw; cbn [Z.eqb Pos.eqb]; do 3 f_equal; lia.
    + intros x Hx. pose proof (adam7_row x 0 ltac:(lia) ltac:(lia)) as A. cbn [Z.eqb] in A. cbv iota in A.
      eapply PX; [exact A|exact Hx|]. intros j Hj. rewrite R4, R3, R2, R1 by assumption.
      destruct (Z.eqb_spec (x mod 8) 0) as [M80|M80].
      { replace ((x - 1) mod 2 =? 0) with false by rx. replace ((x - 2) mod 4 =? 0) with false by rx. replace ((x - 4) mod 8 =? 0) with false by rx.
        replace ((0 <=? x) && ((x - 0) mod 8 =? 0)) with true by rx. rewrite !andb_false_r. do 4 f_equal. unfold pw. cbn [Z.eqb Pos.eqb]. rx. }
      destruct (Z.eqb_spec (x mod 8) 4) as [M84|M84].
      { replace ((x - 1) mod 2 =? 0) with false by rx. replace ((x - 2) mod 4 =? 0) with false by rx. replace ((4 <=? x) && ((x - 4) mod 8 =? 0)) with true by rx.
        rewrite !andb_false_r. do 4 f_equal. unfold pw. cbn [Z.eqb Pos.eqb]. rx. }
      destruct (Z.eqb_spec (x mod 4) 2) as [M42|M42].
      { replace ((x - 1) mod 2 =? 0) with false by rx. replace ((2 <=? x) && ((x - 2) mod 4 =? 0)) with true by rx.
        rewrite !andb_false_r. do 4 f_equal. unfold pw. cbn [Z.eqb Pos.eqb]. rx. }
      replace ((1 <=? x) && ((x - 1) mod 2 =? 0)) with true by rx. do 4 f_equal. unfold pw. cbn [Z.eqb Pos.eqb]. rx.
  - destruct (Z.eqb_spec n 2) as [->|N2].
    + destruct (BN 2 ltac:(lia) eq_refl) as (Q2 & L2). destruct (BN 3 ltac:(lia) eq_refl) as (Q3 & L3). destruct (BN 5 ltac:(lia) eq_refl) as (Q5 & L5).
      rewrite <- (base2 w d), <- (base3 w d), <- (base5 w d) by lia.
      destruct (copy_loop_0 mr N w t 0 4 (base_of w 2 d) mr) as (m2 & E2 & F2 & R2); try assumption; try lia.
      { replace ((w - 0 + 4 - 1) / 4) with (pw 2 w) by (unfold pw; cbn [Z.eqb Pos.eqb]; f_equal; lia). assumption. }
      rewrite E2. cbn [bind].
      destruct (copy_loop_0 mr N w t 2 4 (base_of w 3 d) m2) as (m3 & E3 & F3 & R3); try assumption; try lia.
      { replace ((w - 2 + 4 - 1) / 4) with (pw 3 w) by (unfold pw; cbn [Z.eqb Pos.eqb]; f_equal; lia). assumption. }
      rewrite E3. cbn [bind].
      destruct (copy_loop_0 mr N w t 1 2 (base_of w 5 d) m3) as (m4 & E4 & F4 & R4); try assumption; try lia.
      { replace ((w - 1 + 2 - 1) / 2) with (pw 5 w) by (unfold pw; cbn [Z.eqb Pos.eqb]; f_equal; lia). assumption. }
      rewrite E4. cbn [bind].
      eexists _, m4. split; [reflexivity|]. destruct (FR m4 F4) as (A1 & A2 & A3). split; [assumption|]. split; [assumption|]. split; [assumption|]. split.
      * intros p Hp. assert (C : p = 0 \/ p = 1 \/ p = 2 \/ p = 3 \/ p = 4 \/ p = 5) by lia. rewrite NX.
        destruct C as [->|[->|[->|[->|[->| ->]]]]]; unfold dsel at 1, in_row; cbn [Z.eqb Pos.eqb orb d0 d1 d2 d3 d4 d5]; try reflexivity;
        unfold pw; cbn [Z.eqb Pos.eqb]; do 3 f_equal; lia.
      * intros x Hx. pose proof (adam7_row x 2 ltac:(lia) ltac:(lia)) as A. cbn [Z.eqb Pos.eqb] in A. cbv iota in A.
        eapply PX; [exact A|exact Hx|]. intros j Hj. rewrite R4, R3, R2 by assumption.
        destruct (Z.eqb_spec (x mod 4) 0) as [M40|M40].
        { replace ((x - 1) mod 2 =? 0) with false by rx. replace ((x - 2) mod 4 =? 0) with false by rx. replace ((0 <=? x) && ((x - 0) mod 4 =? 0)) with true by rx.
          rewrite !andb_false_r. do 4 f_equal. unfold pw. cbn [Z.eqb Pos.eqb]. rx. }
        destruct (Z.eqb_spec (x mod 4) 2) as [M42|M42].
        { replace ((x - 1) mod 2 =? 0) with false by rx. replace ((2 <=? x) && ((x - 2) mod 4 =? 0)) with true by rx.
          rewrite !andb_false_r. do 4 f_equal. unfold pw. cbn [Z.eqb Pos.eqb]. rx. }
        replace ((1 <=? x) && ((x - 1) mod 2 =? 0)) with true by rx. do 4 f_equal. unfold pw. cbn [Z.eqb Pos.eqb]. rx.
    + assert (IR4 : in_row n 4 = true) by (unfold in_row; replace (n =? 0) with false by lia; now replace (n =? 2) with false by lia).
      assert (IR5 : in_row n 5 = true) by (unfold in_row; replace (n =? 0) with false by lia; now replace (n =? 2) with false by lia).
      destruct (BN 4 ltac:(lia) IR4) as (Q4 & L4). destruct (BN 5 ltac:(lia) IR5) as (Q5 & L5).
      rewrite <- (base4 w d), <- (base5 w d) by lia.
      destruct (copy_loop_0 mr N w t 0 2 (base_of w 4 d) mr) as (m3 & E3 & F3 & R3); try assumption; try lia.
      { replace ((w - 0 + 2 - 1) / 2) with (pw 4 w) by (unfold pw; cbn [Z.eqb Pos.eqb]; f_equal; lia). assumption. }
      rewrite E3. cbn [bind].
      destruct (copy_loop_0 mr N w t 1 2 (base_of w 5 d) m3) as (m4 & E4 & F4 & R4); try assumption; try lia.
      { replace ((w - 1 + 2 - 1) / 2) with (pw 5 w) by (unfold pw; cbn [Z.eqb Pos.eqb]; f_equal; lia). assumption. }
      rewrite E4. cbn [bind].
      eexists _, m4. split; [reflexivity|]. destruct (FR m4 F4) as (A1 & A2 & A3). split; [assumption|]. split; [assumption|]. split; [assumption|]. split.
      * intros p Hp. assert (C : p = 0 \/ p = 1 \/ p = 2 \/ p = 3 \/ p = 4 \/ p = 5) by lia. rewrite NX.
        unfold in_row. replace (n =? 0) with false by lia. replace (n =? 2) with false by lia.
        destruct C as [->|[->|[->|[->|[->| ->]]]]]; unfold dsel at 1; cbn [Z.eqb Pos.eqb orb d0 d1 d2 d3 d4 d5]; try reflexivity;
        unfold pw; cbn [Z.eqb Pos.eqb]; do 3 f_equal; lia.
      * intros x Hx. pose proof (adam7_row x n ltac:(lia) ltac:(lia)) as A. replace (n =? 0) with false in A by lia. replace (n =? 2) with false in A by lia.
        eapply PX; [exact A|exact Hx|]. intros j Hj. rewrite R4, R3 by assumption.
        destruct (Z.eqb_spec (x mod 2) 0) as [M20|M20].
        { replace ((x - 1) mod 2 =? 0) with false by rx. replace ((0 <=? x) && ((x - 0) mod 2 =? 0)) with true by rx.
          rewrite !andb_false_r. do 4 f_equal. unfold pw. cbn [Z.eqb Pos.eqb]. rx. }
        replace ((1 <=? x) && ((x - 1) mod 2 =? 0)) with true by rx. do 4 f_equal. unfold pw. cbn [Z.eqb Pos.eqb]. rx.
Qed.
