(* One row of deinterlacing, for every depth: deinterlace_bytes, and the common form of both. *)
From Verif Require Import Base Bits IntOps_Model Algorithm_Model Algorithm_Proofs Png_Model Png_Spec Png_Proofs Png_Proofs2 Png_Proofs3 Png_Proofs4 Png_Proofs5 Png_Proofs6.
From Coq Require Import ZifyBool.

(* ------------------------------------------------------------------ copying pixels *)

Lemma copy_bytes_ok : forall n dst src m, bytes m -> 0 <= src -> src + Z.of_nat n <= dst -> dst + Z.of_nat n <= len m ->
  exists m', copy_bytes n dst src m = Ok m' /\ len m' = len m /\ bytes m' /\
    (forall j, 0 <= j -> j < dst \/ dst + Z.of_nat n <= j -> get m' j = get m j) /\
    (forall j, 0 <= j < Z.of_nat n -> get m' (dst + j) = get m (src + j)).
Proof.
  induction n as [|n IH]; intros dst src m B Hs Hd Hl; cbn [copy_bytes].
  - exists m. repeat split; try assumption. lia.
  - rewrite rd_get by lia. cbn [bind]. rewrite wr_set by lia. cbn [bind].
    destruct (IH (dst + 1) (src + 1) (set m dst (get m src))) as (m' & E & L & B' & O & R); try lia.
    + apply bytes_set; [assumption|now apply get_byte].
    + rewrite set_len. lia.
    + rewrite set_len in L. exists m'. repeat split; try assumption.
      * intros j Hj Hj'. rewrite O by lia. rewrite get_set by lia. now replace (j =? dst) with false by lia.
      * intros j Hj. destruct (Z.eq_dec j 0) as [->|N].
        -- rewrite O by lia. rewrite get_set by lia. replace (dst + 0 =? dst) with true by lia. f_equal. lia.
        -- replace (dst + j) with (dst + 1 + (j - 1)) by lia. rewrite R by lia. rewrite get_set by lia.
           replace (src + 1 + (j - 1) =? dst) with false by lia. f_equal. lia.
Qed.

Section Copy.
  Context (mr : list Z) (N w t : Z).
  Context (HN : 1 <= N <= 8) (Hw : 1 <= w <= 65535) (Et : t + w * N <= len mr).

  Definition frame (m : list Z) : Prop :=
    len m = len mr /\ bytes m /\ forall j, 0 <= j -> j < t \/ t + w * N <= j -> get m j = get mr j.

  Lemma copy_loop_ok start inc D : 0 <= start < inc -> inc <= 8 -> 0 <= D -> D + (w - start + inc - 1) / inc * N <= t ->
    forall fuel i m, 0 <= i <= (w - start + inc - 1) / inc -> (w - start + inc - 1) / inc - i < Z.of_nat fuel -> frame m ->
    exists m', copy_loop fuel N ((start + inc * i) * N) (w * N) inc t (D + i * N) m = Ok (D + (w - start + inc - 1) / inc * N, m') /\ frame m' /\
      forall X j, 0 <= X < w -> 0 <= j < N ->
        get m' (t + X * N + j) = if (start + inc * i <=? X) && ((X - start) mod inc =? 0)
                                 then get mr (D + (X - start) / inc * N + j) else get m (t + X * N + j).
  Proof.
    intros Hs Hi8 HD HDt. set (cnt := (w - start + inc - 1) / inc) in *.
    assert (C : forall i, 0 <= i -> (start + inc * i < w <-> i < cnt)).
    { intros i Hi. unfold cnt. pose proof (Z.div_mod (w - start + inc - 1) inc ltac:(lia)) as DM.
      pose proof (Z.mod_pos_bound (w - start + inc - 1) inc ltac:(lia)) as MB.
      set (q := (w - start + inc - 1) / inc) in *. set (r := (w - start + inc - 1) mod inc) in *. clearbody q r. clear - DM MB Hs Hi. split; intros; nia. }
    assert (C0 : 0 <= cnt) by (unfold cnt; apply Z.div_pos; lia).
    clearbody cnt.
    assert (MN : forall a b, a <= b -> a * N <= b * N) by (intros; apply Z.mul_le_mono_nonneg_r; lia).
    induction fuel as [|fuel IH]; intros i m Hi Hf F; [lia|]. cbn [copy_loop].
    set (X0 := start + inc * i) in *.
    assert (LT : (X0 * N <? w * N) = (X0 <? w)).
    { destruct (Z.ltb_spec X0 w); [apply Z.ltb_lt; pose proof (MN (X0 + 1) w ltac:(lia)); lia|apply Z.ltb_ge; apply MN; lia]. }
    rewrite LT. destruct (Z.ltb_spec X0 w) as [Hlt|Hge]; cbn [negb].
    - assert (Hic : i < cnt) by (apply C; [lia|assumption]). pose proof F as (L & B & O).
      pose proof (MN 0 i ltac:(lia)) as D1. pose proof (MN (i + 1) cnt ltac:(lia)) as D2.
      assert (X00 : 0 <= X0) by (unfold X0; clear - Hs Hi; nia).
      pose proof (MN 0 X0 ltac:(lia)) as X1. pose proof (MN (X0 + 1) w ltac:(lia)) as X2.
      assert (WN : w * N <= 524280) by (clear - HN Hw; nia).
      destruct (copy_bytes_ok (Z.to_nat N) (t + X0 * N) (D + i * N) m B) as (m1 & E1 & L1 & B1 & O1 & R1); try lia.
      rewrite Z2Nat.id in * by lia. rewrite E1. cbn [bind].
      assert (F1 : frame m1).
      { split; [lia|]. split; [assumption|]. intros j Hj Hj'. rewrite O1 by lia. apply O; lia. }
      destruct (IH (i + 1) m1 ltac:(lia) ltac:(lia) F1) as (m' & E' & F' & R').
      assert (XN : start + inc * (i + 1) = X0 + inc) by (unfold X0; lia).
      exists m'. split; [|split; [assumption|]].
      + rewrite <- E'. f_equal; [|lia]. rewrite XN. unfold w32. rewrite Z.mod_small; [lia|].
        assert (0 <= inc * N <= 64) by (clear - HN Hs Hi8; nia). lia.
      + intros X j HX Hj. rewrite R' by assumption. rewrite XN.
        destruct (Z.eqb_spec ((X - start) mod inc) 0) as [M|M]; rewrite ?andb_false_r, ?andb_true_r.
        * destruct (Z.leb_spec (X0 + inc) X) as [K1|K1]; destruct (Z.leb_spec X0 X) as [K2|K2]; try lia.
          -- (* X = X0 *)
             assert (X = X0).
             { pose proof (Z.div_mod (X - start) inc ltac:(lia)) as DM. rewrite M in DM. set (q := (X - start) / inc) in *. clearbody q.
               unfold X0 in *. clear - DM K1 K2 Hs. assert (q = i) by nia. nia. }
             subst X. clear M K1 K2. rewrite R1 by lia. rewrite O by lia. f_equal. unfold X0. replace (start + inc * i - start) with (i * inc) by lia.
             rewrite Z.div_mul by lia. lia.
          -- clear M. apply O1; [pose proof (MN 0 X ltac:(lia)); lia|]. left. pose proof (MN (X + 1) X0 ltac:(lia)). lia.
        * assert (X <> X0). { intros ->. apply M. unfold X0. replace (start + inc * i - start) with (i * inc) by lia. apply Z.mod_mul. clear - Hs. lia. }
          clear M. apply O1; [pose proof (MN 0 X ltac:(lia)); lia|].
          destruct (Z.lt_ge_cases X X0); [left; pose proof (MN (X + 1) X0 ltac:(lia)); lia|right; pose proof (MN (X0 + 1) X ltac:(lia)); lia].
    - assert (i = cnt) by (destruct (Z.lt_ge_cases i cnt) as [K|K]; [apply C in K; [fold X0 in K|]; lia|lia]). subst i.
      exists m. split; [reflexivity|]. split; [assumption|]. intros X j HX Hj. replace (X0 <=? X) with false by lia. reflexivity.
  Qed.
End Copy.

(* ------------------------------------------------------------------ one row, any depth *)

Definition dsel (p : Z) (d : ptrs) : Z :=
  if p =? 0 then d0 d else if p =? 1 then d1 d else if p =? 2 then d2 d else if p =? 3 then d3 d else if p =? 4 then d4 d else d5 d.
(* First data byte of the row of pass p, and what the row takes. *)
Definition base_of (w p : Z) (d : ptrs) : Z := dsel p d + b2z (0 <? pw p w).
Definition next_of (depth w p : Z) (d : ptrs) : Z := base_of w p d + (depth * pw p w + 7) / 8.
Definition in_row (n p : Z) : bool :=
  if n =? 0 then (p =? 0) || (p =? 1) || (p =? 3) || (p =? 5) else if n =? 2 then (p =? 2) || (p =? 3) || (p =? 5) else (p =? 4) || (p =? 5).

Definition row_pre (depth w n t : Z) (d : ptrs) (mr : list Z) : Prop :=
  bytes mr /\ 1 <= w <= 65535 /\ (forall p, 0 <= p < 6 -> in_row n p = true -> 0 <= dsel p d /\ next_of depth w p d <= t) /\
  t + (w * depth + 7) / 8 <= len mr.
Definition row_post (depth w n t : Z) (d : ptrs) (mr : list Z) (d' : ptrs) (m' : list Z) : Prop :=
  len m' = len mr /\ bytes m' /\ (forall j, 0 <= j -> j < t \/ t + (w * depth + 7) / 8 <= j -> get m' j = get mr j) /\
  (forall p, 0 <= p < 6 -> dsel p d' = if in_row n p then next_of depth w p d else dsel p d) /\
  (forall x, 0 <= x < w -> pixel depth m' t x = pixel depth mr (base_of w (adam7 x (2 * n)) d) (pw (adam7 x (2 * n)) x)).

Definition good_row (depth w n : Z) : Prop :=
  8 <= depth \/ n = 0 \/ (n = 2 /\ good2 depth w) \/ ((n = 1 \/ n = 3) /\ good13 depth w).

Lemma b2z_le a b : b2z (a <=? b) = b2z (negb (b <? a)).
Proof. f_equal. lia. Qed.
Lemma base1 w d : 1 <= w -> base_of w 1 d = d1 d + b2z (5 <=? w).
Proof. intros. unfold base_of, dsel, pw. cbn [Z.eqb Pos.eqb]. do 2 f_equal. lia. Qed.
Lemma base0 w d : 1 <= w -> base_of w 0 d = d0 d + 1.
Proof. intros. unfold base_of, dsel, pw. cbn [Z.eqb Pos.eqb]. replace (0 <? (w + 7) / 8) with true by lia. reflexivity. Qed.
Lemma base2 w d : 1 <= w -> base_of w 2 d = d2 d + 1.
Proof. intros. unfold base_of, dsel, pw. cbn [Z.eqb Pos.eqb]. replace (0 <? (w + 3) / 4) with true by lia. reflexivity. Qed.
Lemma base3 w d : 1 <= w -> base_of w 3 d = d3 d + b2z (3 <=? w).
Proof. intros. unfold base_of, dsel, pw. cbn [Z.eqb Pos.eqb]. do 2 f_equal. lia. Qed.
Lemma base4 w d : 1 <= w -> base_of w 4 d = d4 d + 1.
Proof. intros. unfold base_of, dsel, pw. cbn [Z.eqb Pos.eqb]. replace (0 <? (w + 1) / 2) with true by lia. reflexivity. Qed.
Lemma base5 w d : 1 <= w -> base_of w 5 d = d5 d + b2z (2 <=? w).
Proof. intros. unfold base_of, dsel, pw. cbn [Z.eqb Pos.eqb]. do 2 f_equal. lia. Qed.

Lemma adam7_row x n : 0 <= x -> n = 0 \/ n = 1 \/ n = 2 \/ n = 3 ->
  adam7 x (2 * n) =
  if n =? 0 then (if x mod 8 =? 0 then 0 else if x mod 8 =? 4 then 1 else if x mod 4 =? 2 then 3 else 5)
  else if n =? 2 then (if x mod 4 =? 0 then 2 else if x mod 4 =? 2 then 3 else 5)
  else if x mod 2 =? 0 then 4 else 5.
Proof.
  intros Hx Hn.
  replace (x mod 4) with ((x mod 8) mod 4) by lia. replace (x mod 2) with ((x mod 8) mod 2) by lia. unfold adam7.
  destruct Hn as [->|[->|[->| ->]]]; destruct (mod8_cases x) as [E|[E|[E|[E|[E|[E|[E|E]]]]]]]; rewrite E; reflexivity.
Qed.

Lemma pixel_ext depth m m' B B' x x' : (forall j, 0 <= j < depth -> bit m (8 * B + x * depth + j) = bit m' (8 * B' + x' * depth + j)) ->
  pixel depth m B x = pixel depth m' B' x'.
Proof.
  intros H. unfold pixel. apply map_ext_in. intros j Hj. apply H. unfold zrange in Hj. apply in_map_iff in Hj. destruct Hj as (k & <- & Hk). apply in_seq in Hk. lia.
Qed.

Lemma div_mul_add x N j : 0 <= j < N -> (x * N + j) / N = x.
Proof. intros. symmetry. apply (Z.div_unique _ _ _ j); lia. Qed.
Lemma mod_mul_add x N j : 0 <= j < N -> (x * N + j) mod N = j.
Proof. intros. symmetry. apply (Z.mod_unique _ _ x); lia. Qed.

Lemma row_bits_ok N w n t d mr : N = 1 \/ N = 2 \/ N = 4 -> n = 0 \/ n = 1 \/ n = 2 \/ n = 3 -> good_row N w n -> row_pre N w n t d mr ->
  exists d' m', row_bits N w n t d mr = Ok (d', m') /\ row_post N w n t d mr d' m'.
Proof.
  intros HN Hn G (B & Hw & P & Et). unfold row_bits.
  assert (PX : forall m' x (s : Z -> bool) p, adam7 x (2 * n) = p -> 0 <= x < w -> (forall i, 0 <= i < w * N -> bit m' (8 * t + i) = s i) ->
    (forall j, 0 <= j < N -> s (x * N + j) = bit mr (8 * base_of w p d + pw p x * N + j)) ->
    pixel N m' t x = pixel N mr (base_of w (adam7 x (2 * n)) d) (pw (adam7 x (2 * n)) x)).
  { intros m' x s p -> Hx S1 S2. apply pixel_ext. intros j Hj. rewrite <- S2 by assumption. rewrite <- S1; [f_equal; lia|].
    clear - HN Hx Hj. destruct HN as [->|[->| ->]]; lia. }
  destruct (Z.eqb_spec n 0) as [->|N0].
  - destruct (P 0 ltac:(lia) eq_refl) as (Q0 & L0). destruct (P 1 ltac:(lia) eq_refl) as (Q1 & L1).
    destruct (P 3 ltac:(lia) eq_refl) as (Q3 & L3). destruct (P 5 ltac:(lia) eq_refl) as (Q5 & L5).
    unfold next_of in *. rewrite base0 in L0 by lia. rewrite base1 in L1 by lia. rewrite base3 in L3 by lia. rewrite base5 in L5 by lia.
    destruct (row0_ok mr N w t d B HN ltac:(lia) Q0 Q1 Q3 Q5 L0 L1 L3 L5 Et) as (m' & -> & (L & B' & O & R)).
    eexists _, m'. split; [reflexivity|]. split; [assumption|]. split; [assumption|]. split; [exact O|]. split.
    + intros p Hp. assert (C : p = 0 \/ p = 1 \/ p = 2 \/ p = 3 \/ p = 4 \/ p = 5) by lia.
      destruct C as [->|[->|[->|[->|[->| ->]]]]]; unfold dsel, in_row, next_of; cbn [Z.eqb Pos.eqb orb d0 d1 d2 d3 d4 d5];
      rewrite ?base0, ?base1, ?base3, ?base5 by lia; reflexivity.
    + intros x Hx. pose proof (adam7_row x 0 ltac:(lia) ltac:(lia)) as A. cbn [Z.eqb] in A. cbv iota in A.
      eapply PX; [exact A|exact Hx|exact R|]. intros j Hj. unfold src0. rewrite div_mul_add, mod_mul_add by lia.
      destruct (Z.eqb_spec (x mod 8) 0). { rewrite base0 by lia. unfold pw. cbn [Z.eqb Pos.eqb]. f_equal. replace ((x + 7) / 8) with (x / 8) by lia. lia. }
      destruct (Z.eqb_spec (x mod 8) 4). { rewrite base1 by lia. unfold pw. cbn [Z.eqb Pos.eqb]. f_equal. replace ((x + 3) / 8) with (x / 8) by lia. lia. }
      destruct (Z.eqb_spec (x mod 4) 2). { rewrite base3 by lia. unfold pw. cbn [Z.eqb Pos.eqb]. f_equal. replace ((x + 1) / 4) with (x / 4) by lia. lia. }
      rewrite base5 by lia. unfold pw. cbn [Z.eqb Pos.eqb]. f_equal. lia.
  - destruct (Z.eqb_spec n 2) as [->|N2].
    + destruct (P 2 ltac:(lia) eq_refl) as (Q2 & L2). destruct (P 3 ltac:(lia) eq_refl) as (Q3 & L3). destruct (P 5 ltac:(lia) eq_refl) as (Q5 & L5).
      unfold next_of in *. rewrite base2 in L2 by lia. rewrite base3 in L3 by lia. rewrite base5 in L5 by lia.
      assert (HG : good2 N w) by (unfold good_row in G; destruct G as [?|[?|[[_ ?]|[? _]]]]; [lia|lia|assumption|lia]).
      destruct (row2_ok mr N w t d B HN HG ltac:(lia) Q2 Q3 Q5 L2 L3 L5 Et) as (m' & -> & (L & B' & O & R)).
      eexists _, m'. split; [reflexivity|]. split; [assumption|]. split; [assumption|]. split; [exact O|]. split.
      * intros p Hp. assert (C : p = 0 \/ p = 1 \/ p = 2 \/ p = 3 \/ p = 4 \/ p = 5) by lia.
        destruct C as [->|[->|[->|[->|[->| ->]]]]]; unfold dsel, in_row, next_of; cbn [Z.eqb Pos.eqb orb d0 d1 d2 d3 d4 d5];
        rewrite ?base2, ?base3, ?base5 by lia; reflexivity.
      * intros x Hx. pose proof (adam7_row x 2 ltac:(lia) ltac:(lia)) as A. cbn [Z.eqb Pos.eqb] in A. cbv iota in A.
        eapply PX; [exact A|exact Hx|exact R|]. intros j Hj. unfold src2. rewrite div_mul_add, mod_mul_add by lia.
        destruct (Z.eqb_spec (x mod 4) 0). { rewrite base2 by lia. unfold pw. cbn [Z.eqb Pos.eqb]. f_equal. replace ((x + 3) / 4) with (x / 4) by lia. lia. }
        destruct (Z.eqb_spec (x mod 4) 2). { rewrite base3 by lia. unfold pw. cbn [Z.eqb Pos.eqb]. f_equal. replace ((x + 1) / 4) with (x / 4) by lia. lia. }
        rewrite base5 by lia. unfold pw. cbn [Z.eqb Pos.eqb]. f_equal. lia.
    + assert (R4 : in_row n 4 = true) by (unfold in_row; replace (n =? 0) with false by lia; now replace (n =? 2) with false by lia).
      assert (R5 : in_row n 5 = true) by (unfold in_row; replace (n =? 0) with false by lia; now replace (n =? 2) with false by lia).
      destruct (P 4 ltac:(lia) R4) as (Q4 & L4). destruct (P 5 ltac:(lia) R5) as (Q5 & L5).
      unfold next_of in *. rewrite base4 in L4 by lia. rewrite base5 in L5 by lia.
      assert (HG : good13 N w) by (unfold good_row in G; destruct G as [?|[?|[[? _]|[_ ?]]]]; [lia|lia|lia|assumption]).
      destruct (row13_ok mr N w t d B HN HG ltac:(lia) Q4 Q5 L4 L5 Et) as (m' & -> & (L & B' & O & R)).
      eexists _, m'. split; [reflexivity|]. split; [assumption|]. split; [assumption|]. split; [exact O|]. split.
      * intros p Hp. unfold in_row. replace (n =? 0) with false by lia. replace (n =? 2) with false by lia.
        assert (C : p = 0 \/ p = 1 \/ p = 2 \/ p = 3 \/ p = 4 \/ p = 5) by lia.
        destruct C as [->|[->|[->|[->|[->| ->]]]]]; unfold dsel, next_of; cbn [Z.eqb Pos.eqb orb d0 d1 d2 d3 d4 d5];
        rewrite ?base4, ?base5 by lia; reflexivity.
      * intros x Hx. pose proof (adam7_row x n ltac:(lia) ltac:(lia)) as A. replace (n =? 0) with false in A by lia. replace (n =? 2) with false in A by lia.
        eapply PX; [exact A|exact Hx|exact R|]. intros j Hj. unfold src13. rewrite div_mul_add, mod_mul_add by lia.
        destruct (Z.eqb_spec (x mod 2) 0). { rewrite base4 by lia. unfold pw. cbn [Z.eqb Pos.eqb]. f_equal. replace ((x + 1) / 2) with (x / 2) by lia. lia. }
        rewrite base5 by lia. unfold pw. cbn [Z.eqb Pos.eqb]. f_equal. lia.
Qed.
