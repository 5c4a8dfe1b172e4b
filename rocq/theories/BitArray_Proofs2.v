(* combine_word_data, copying and clearing of words. *)
From Verif Require Import Base Bits IntOps_Model IntOps_Spec IntOps_Proofs Algorithm_Model Object_Model Object_Spec Object_Proofs
  BitArray_Model BitArray_Spec BitArray_Proofs.

Lemma fill0_ok c di n : 0 <= di -> 0 <= n -> di + n <= len c ->
  exists c', fill_cells (Z.to_nat n) c di 0 = Ok c' /\ length c' = length c /\
    (forall k, words_ok c k -> di <= k -> words_ok c' (Z.max k (di + n))) /\
    forall j, 0 <= j -> cbit c' j = if (32 * di <=? j) && (j <? 32 * (di + n)) then false else cbit c j.
Proof.
  intros D N L. unfold len in L. destruct (fill_cells_ok 0 (Z.to_nat n) c di D) as (c' & E & LL & H); [lia|].
  rewrite Z2Nat.id in H by auto. exists c'. sp. split.
  - intros k K DK i I. rewrite H by lia. destruct ((di <=? i) && (i <? di + n)) eqn:Q.
    + exists 0. split; auto; lia.
    + apply K. lia.
  - intros j J. unfold cbit. rewrite H by lia.
    replace ((di <=? j / 32) && (j / 32 <? di + n)) with ((32 * di <=? j) && (j <? 32 * (di + n))) by lia.
    destruct ((32 * di <=? j) && (j <? 32 * (di + n))); auto. apply Z.bits_0.
Qed.

Lemma copy0_ok c src n : 0 <= n <= len c -> words_ok src n ->
  exists c', copy_cells (Z.to_nat n) c 0 src 0 = Ok c' /\ length c' = length c /\
    words_ok c' n /\ (forall k, words_ok c k -> words_ok c' k) /\
    forall j, 0 <= j -> cbit c' j = if j <? 32 * n then cbit src j else cbit c j.
Proof.
  intros N H. unfold len in N. destruct (copy_cells_ok (Z.to_nat n) c 0 src 0) as (c' & E & LL & K); try lia.
  { intros i I. destruct (H i) as (w & Ew & _); [lia|]. eauto. }
  rewrite Z2Nat.id in K by lia.
  assert (W : words_ok c' n).
  { intros i I. rewrite K by lia. replace ((0 <=? i) && (i <? 0 + n)) with true by lia.
    replace (i - 0 + 0) with i by lia. now apply H. }
  exists c'. sp. split.
  - intros k Hk i I. destruct (Z.lt_ge_cases i n). { now apply W. }
    rewrite K by lia. replace ((0 <=? i) && (i <? 0 + n)) with false by lia. now apply Hk.
  - intros j J. unfold cbit. rewrite K by lia.
    replace ((0 <=? j / 32) && (j / 32 <? 0 + n)) with (j <? 32 * n) by lia.
    replace (j / 32 - 0 + 0) with (j / 32) by lia. now destruct (j <? 32 * n).
Qed.

(* the caller's words *)
Definition words (wd : list Z) : Prop := Forall word wd.
Lemma words_map wd : words wd -> words_ok (map Some wd) (len wd).
Proof.
  intros H i I. unfold words, len in *. rewrite Forall_forall in H.
  destruct (nth_error wd (Z.to_nat i)) as [w|] eqn:E.
  - exists w. split. { now apply map_nth_error. } apply H. eapply nth_error_In; eauto.
  - apply nth_error_None in E. lia.
Qed.
Lemma rd_word wd i : words wd -> 0 <= i < len wd -> exists w, rd wd i = Ok w /\ word w /\
  forall k, 0 <= k < 32 -> wbit w k = cbit (map Some wd) (32 * i + k).
Proof.
  intros H I. destruct (rdc_ok _ _ i (words_map wd H) I) as (w & E & W & N & B). exists w. split; [|auto].
  unfold rd. replace (i <? 0) with false by lia. rewrite nth_error_map in N.
  destruct (nth_error wd (Z.to_nat i)); cbn in N; congruence.
Qed.

Definition opb (o : bitop) (a b : bool) : bool :=
  match o with BAssign => b | BAndNot => a && negb b | BOr => a || b end.
Lemma op_word o a b : word a -> word b -> word (op o a b).
Proof. destruct o; cbn; intros; auto; [now apply word_land|now apply word_lor]. Qed.
Lemma op_bit o a b k : 0 <= k < 32 -> wbit (op o a b) k = opb o (wbit a k) (wbit b k).
Proof. intros K. destruct o; cbn; auto; [rewrite wbit_land, wbit_not by auto|rewrite wbit_lor]; reflexivity. Qed.
Lemma opm_word o a b m : word a -> word b -> word m -> word (op_masked o a b m).
Proof.
  destruct o; cbn; intros.
  - apply word_lor; [now apply word_land|now apply word_land].
  - now apply word_land.
  - apply word_lor; auto. now apply word_land.
Qed.
Lemma opm_bit o a b m k : 0 <= k < 32 ->
  wbit (op_masked o a b m) k = if wbit m k then opb o (wbit a k) (wbit b k) else wbit a k.
Proof.
  intros K. destruct o; cbn.
  - rewrite wbit_lor, !wbit_land, wbit_not by auto. destruct (wbit m k), (wbit a k), (wbit b k); reflexivity.
  - rewrite wbit_land, wbit_not, wbit_land by auto. destruct (wbit m k), (wbit a k), (wbit b k); reflexivity.
  - rewrite wbit_lor, wbit_land. destruct (wbit m k), (wbit a k), (wbit b k); reflexivity.
Qed.

(* read-modify-write with a combine operator *)
Lemma comb_full o c n i b (g : Z -> bool) : words_ok c n -> 0 <= i < n -> word b ->
  (forall k, 0 <= k < 32 -> wbit b k = g (32 * i + k)) ->
  exists a c', rdc c i = Ok a /\ wrc c i (op o a b) = Ok c' /\ length c' = length c /\ words_ok c' n /\
    forall j, 0 <= j -> cbit c' j = if (32 * i <=? j) && (j <? 32 * (i + 1)) then opb o (cbit c j) (g j) else cbit c j.
Proof.
  intros H I B G.
  destruct (rmw_ok c n i (fun a => op o a b) (fun x k => opb o x (wbit b k)) H I) as (a & c' & E & W & E' & L & K & C).
  { intros; now apply op_word. } { intros. now apply op_bit. }
  exists a, c'. sp. intros j J. rewrite C by auto.
  replace ((32 * i <=? j) && (j <? 32 * (i + 1))) with (j / 32 =? i) by lia.
  destruct (Z.eqb_spec (j / 32) i); auto. rewrite G by lia. f_equal. f_equal. lia.
Qed.
Lemma comb_mask o c n i b m (g : Z -> bool) lo hi : words_ok c n -> 0 <= i < n -> word b -> word m ->
  32 * i <= lo -> hi <= 32 * (i + 1) ->
  (forall k, 0 <= k < 32 -> wbit m k = (lo <=? 32 * i + k) && (32 * i + k <? hi)) ->
  (forall k, 0 <= k < 32 -> lo <= 32 * i + k < hi -> wbit b k = g (32 * i + k)) ->
  exists a c', rdc c i = Ok a /\ wrc c i (op_masked o a b m) = Ok c' /\ length c' = length c /\ words_ok c' n /\
    forall j, 0 <= j -> cbit c' j = if (lo <=? j) && (j <? hi) then opb o (cbit c j) (g j) else cbit c j.
Proof.
  intros H I B M LO HI GM G.
  destruct (rmw_ok c n i (fun a => op_masked o a b m) (fun x k => if wbit m k then opb o x (wbit b k) else x) H I)
    as (a & c' & E & W & E' & L & K & C).
  { intros; now apply opm_word. } { intros. now apply opm_bit. }
  exists a, c'. sp. intros j J. rewrite C by auto.
  destruct (Z.eqb_spec (j / 32) i) as [Q|Q].
  - rewrite GM by lia. replace (32 * i + j mod 32) with j by lia.
    destruct ((lo <=? j) && (j <? hi)) eqn:D; auto. rewrite G by lia. f_equal. f_equal. lia.
  - replace ((lo <=? j) && (j <? hi)) with false by lia. reflexivity.
Qed.

Lemma combine_words_ok o wd : words wd -> forall n c N di si, words_ok c N -> 0 <= di -> 0 <= si ->
  di + Z.of_nat n <= N -> si + Z.of_nat n <= len wd ->
  exists c', combine_words o n c di wd si = Ok c' /\ length c' = length c /\ words_ok c' N /\
    forall j, 0 <= j -> cbit c' j =
      if (32 * di <=? j) && (j <? 32 * (di + Z.of_nat n)) then opb o (cbit c j) (cbit (map Some wd) (j - 32 * di + 32 * si)) else cbit c j.
Proof.
  intros HW. induction n as [|n IH]; intros c N di si H D S0 L LW; cbn [combine_words].
  - exists c. sp. intros j J. replace ((32 * di <=? j) && (j <? 32 * (di + Z.of_nat 0))) with false by lia. reflexivity.
  - destruct (rd_word wd si HW ltac:(lia)) as (b & Eb & Wb & Bb).
    destruct (comb_full o c N di b (fun j => cbit (map Some wd) (j - 32 * di + 32 * si)) H ltac:(lia) Wb)
      as (a & c1 & Ea & E1 & L1 & K1 & C1).
    { intros k K. rewrite Bb by auto. f_equal. lia. }
    rewrite Ea. cbn [bind]. rewrite Eb. cbn [bind]. rewrite E1. cbn [bind].
    destruct (IH c1 N (di + 1) (si + 1)) as (c' & E & LL & K & C); auto; try lia.
    exists c'. sp. intros j J. rewrite C, C1 by auto.
    destruct ((32 * (di + 1) <=? j) && (j <? 32 * (di + 1 + Z.of_nat n))) eqn:Q1.
    + replace ((32 * di <=? j) && (j <? 32 * (di + 1))) with false by lia.
      replace ((32 * di <=? j) && (j <? 32 * (di + Z.of_nat (S n)))) with true by lia. f_equal. f_equal. lia.
    + destruct ((32 * di <=? j) && (j <? 32 * (di + 1))) eqn:Q2.
      * replace ((32 * di <=? j) && (j <? 32 * (di + Z.of_nat (S n)))) with true by lia. reflexivity.
      * replace ((32 * di <=? j) && (j <? 32 * (di + Z.of_nat (S n)))) with false by lia. reflexivity.
Qed.

(* prev = w << inv, nxt = v >> shift, combined = bits of (w, v) at offset inv *)
Lemma funnel w v shift : word w -> word v -> 0 < shift < 32 ->
  exists p q, shift_to_start w (32 - shift) = Ok p /\ shift_to_end v shift = Ok q /\ word p /\ word q /\
    (forall k, 0 <= k < 32 -> wbit (Z.lor p q) k = if k <? shift then wbit w (k + 32 - shift) else wbit v (k - shift)) /\
    (forall k, 0 <= k < 32 -> wbit p k = (k <? shift) && wbit w (k + 32 - shift)).
Proof.
  intros W V S. destruct (shl32_ok w (32 - shift) W ltac:(lia)) as (p & Ep & Wp & Bp).
  destruct (shr32_ok v shift V ltac:(lia)) as (q & Eq & Wq & Bq).
  exists p, q. unfold shift_to_start, shift_to_end. sp.
  assert (P : forall k, 0 <= k < 32 -> wbit p k = (k <? shift) && wbit w (k + 32 - shift)).
  { intros k K. rewrite Bp by auto. replace (k + (32 - shift) <? 32) with (k <? shift) by lia. f_equal. f_equal. lia. }
  split; auto. intros k K. rewrite wbit_lor, P, Bq by auto.
  destruct (Z.ltb_spec k shift).
  - replace (shift <=? k) with false by lia. cbn [andb]. apply orb_false_r.
  - replace (shift <=? k) with true by lia. reflexivity.
Qed.

Lemma combine_loop_ok o wd shift : words wd -> 0 < shift < 32 -> forall n c N dst i w, words_ok c N -> 0 <= dst -> 1 <= i ->
  dst + i + Z.of_nat n <= N -> i + Z.of_nat n <= len wd -> rd wd (i - 1) = Ok w -> 
  exists c' w', combine_loop o n c dst wd i w shift (32 - shift) = Ok (c', i + Z.of_nat n, w') /\
    length c' = length c /\ words_ok c' N /\ rd wd (i + Z.of_nat n - 1) = Ok w' /\
    forall j, 0 <= j -> cbit c' j =
      if (32 * (dst + i) <=? j) && (j <? 32 * (dst + i + Z.of_nat n))
      then opb o (cbit c j) (cbit (map Some wd) (j - 32 * dst - shift)) else cbit c j.
Proof.
  intros HW SS. induction n as [|n IH]; intros c N dst i w H D I L LW RW; cbn [combine_loop].
  - exists c, w. replace (i + Z.of_nat 0) with i by lia. sp.
    intros j J. replace ((32 * (dst + i) <=? j) && (j <? 32 * (dst + i + Z.of_nat 0))) with false by lia. reflexivity.
  - destruct (rd_word wd (i - 1) HW ltac:(lia)) as (w' & Ew' & Ww & Bw). rewrite RW in Ew'. injection Ew' as <-.
    destruct (rd_word wd i HW ltac:(lia)) as (v & Ev & Wv & Bv).
    destruct (funnel w v shift Ww Wv SS) as (p & q & Ep & Eq & Wp & Wq & Bpq & _).
    rewrite Ep. cbn [bind]. rewrite Ev. cbn [bind]. rewrite Eq. cbn [bind].
    destruct (comb_full o c N (dst + i) (Z.lor p q) (fun j => cbit (map Some wd) (j - 32 * dst - shift)) H ltac:(lia))
      as (a & c1 & Ea & E1 & L1 & K1 & C1).
    { now apply word_lor. }
    { intros k K. rewrite Bpq by auto. destruct (Z.ltb_spec k shift).
      - rewrite Bw by lia. f_equal. lia.
      - rewrite Bv by lia. f_equal. lia. }
    rewrite Ea. cbn [bind]. rewrite E1. cbn [bind].
    destruct (IH c1 N dst (i + 1) v) as (c' & w2 & E & LL & K & R & C); auto; try lia.
    { replace (i + 1 - 1) with i by lia. auto. }
    exists c', w2. rewrite E. split; [f_equal; f_equal; f_equal; lia|]. sp.
    split. { rewrite <- R. f_equal. lia. }
    intros j J. rewrite C, C1 by auto.
    destruct ((32 * (dst + (i + 1)) <=? j) && (j <? 32 * (dst + (i + 1) + Z.of_nat n))) eqn:Q1.
    + replace ((32 * (dst + i) <=? j) && (j <? 32 * (dst + i + 1))) with false by lia.
      replace ((32 * (dst + i) <=? j) && (j <? 32 * (dst + i + Z.of_nat (S n)))) with true by lia. reflexivity.
    + destruct ((32 * (dst + i) <=? j) && (j <? 32 * (dst + i + 1))) eqn:Q2.
      * replace ((32 * (dst + i) <=? j) && (j <? 32 * (dst + i + Z.of_nat (S n)))) with true by lia. reflexivity.
      * replace ((32 * (dst + i) <=? j) && (j <? 32 * (dst + i + Z.of_nat (S n)))) with false by lia. reflexivity.
Qed.

(* When the tail condition of combine_word_data selects the right words (see C22): the number of bits
   left for the last word after the first, partially filled word. *)
Definition combine_safe (size bit_index word_count : Z) : Prop :=
  let shift := bit_index mod 32 in
  let bits := Z.min (32 * word_count) (size - bit_index) in
  let rest := (bits - (32 - shift)) mod 32 in
  shift = 0 \/ (0 < bits /\ (bits <= 32 - shift \/ rest = 0 \/ (32 - shift < rest <-> shift < rest))).

Lemma combine_ok o c N size bit_index wd : words_ok c N -> words wd -> 0 <= bit_index < size -> size <= 32 * N -> size < 2 ^ 32 ->
  combine_safe size bit_index (len wd) ->
  exists c', combine_word_data o c size bit_index wd (len wd) = Ok c' /\ length c' = length c /\ words_ok c' N /\
    forall j, 0 <= j -> cbit c' j =
      if (bit_index <=? j) && (j <? Z.min size (bit_index + 32 * len wd))
      then opb o (cbit c j) (cbit (map Some wd) (j - bit_index)) else cbit c j.
Proof.
  intros H HW I SN S32 SAFE. unfold combine_word_data, bit_index_of, word_index_of.
  assert (LW : 0 <= len wd) by (unfold len; lia).
  set (cnt := Z.min (len wd * 32) (size - bit_index)).
  replace (bit_index + cnt - bit_index) with cnt by lia.
  assert (EQ : Z.min size (bit_index + 32 * len wd) = bit_index + cnt) by (subst cnt; lia). rewrite EQ.
  assert (CB : 0 <= cnt <= 32 * len wd /\ cnt <= size - bit_index) by (subst cnt; lia).
  assert (SAFE' : bit_index mod 32 = 0 \/ (0 < cnt /\ (cnt <= 32 - bit_index mod 32 \/ (cnt - (32 - bit_index mod 32)) mod 32 = 0 \/
     (32 - bit_index mod 32 < (cnt - (32 - bit_index mod 32)) mod 32 <-> bit_index mod 32 < (cnt - (32 - bit_index mod 32)) mod 32)))).
  { unfold combine_safe in SAFE. cbv zeta in SAFE.
    replace (Z.min (32 * len wd) (size - bit_index)) with cnt in SAFE by (subst cnt; f_equal; lia). exact SAFE. }
  clear SAFE EQ.
  assert (CE : cnt = 32 * len wd \/ cnt = size - bit_index) by (subst cnt; lia). clearbody cnt.
  destruct (Z.eqb_spec (bit_index mod 32) 0) as [SH|SH].
  - (* aligned *)
    assert (WC : word_count_from_bit_count cnt = (cnt + 31) / 32).
    { unfold word_count_from_bit_count, w32. apply Z.mod_small. lia. }
    rewrite WC. replace (Z.min ((cnt + 31) / 32) (len wd)) with ((cnt + 31) / 32) by lia.
    replace ((bit_index + cnt) mod 32) with (cnt mod 32) by lia.
    replace ((cnt + 31) / 32 - (if cnt mod 32 =? 0 then 0 else 1)) with (cnt / 32) by (destruct (Z.eqb_spec (cnt mod 32) 0); lia).
    destruct (combine_words_ok o wd HW (Z.to_nat (cnt / 32)) c N (bit_index / 32) 0) as (c1 & E1 & L1 & K1 & C1); auto; try lia.
    rewrite E1. cbn [bind]. rewrite Z2Nat.id in C1 by lia.
    destruct (Z.eqb_spec (cnt mod 32) 0) as [EB|EB].
    + exists c1. sp. intros j J. rewrite C1 by auto.
      replace ((32 * (bit_index / 32) <=? j) && (j <? 32 * (bit_index / 32 + cnt / 32))) with ((bit_index <=? j) && (j <? bit_index + cnt)) by lia.
      destruct ((bit_index <=? j) && (j <? bit_index + cnt)); auto. f_equal. f_equal. lia.
    + destruct (rd_word wd (cnt / 32) HW ltac:(lia)) as (b & Eb & Wb & Bb).
      destruct (msb_mask_ok (cnt mod 32) ltac:(lia)) as (m & Em & Wm & Bm).
      destruct (comb_mask o c1 N (bit_index / 32 + cnt / 32) b m (fun j => cbit (map Some wd) (j - bit_index))
                  (32 * (bit_index / 32 + cnt / 32)) (bit_index + cnt) K1 ltac:(lia) Wb Wm ltac:(lia) ltac:(lia))
        as (a & c2 & Ea & E2 & L2 & K2 & C2).
      { intros k K. rewrite Bm by auto. lia. }
      { intros k K R. rewrite Bb by auto. f_equal. lia. }
      rewrite Ea. cbn [bind]. rewrite Eb. cbn [bind]. unfold non_zero_start_mask. rewrite Em. cbn [bind].
      exists c2. sp. intros j J. rewrite C2, C1 by auto.
      destruct ((32 * (bit_index / 32 + cnt / 32) <=? j) && (j <? bit_index + cnt)) eqn:Q1.
      * replace ((32 * (bit_index / 32) <=? j) && (j <? 32 * (bit_index / 32 + cnt / 32))) with false by lia.
        replace ((bit_index <=? j) && (j <? bit_index + cnt)) with true by lia. reflexivity.
      * replace ((32 * (bit_index / 32) <=? j) && (j <? 32 * (bit_index / 32 + cnt / 32)))
          with ((bit_index <=? j) && (j <? bit_index + cnt)) by lia.
        destruct ((bit_index <=? j) && (j <? bit_index + cnt)); auto. f_equal. f_equal. lia.
  - (* shifted *)
    destruct SAFE' as [?|[CP SAFE]]; [contradiction|].
    set (shift := bit_index mod 32) in *. assert (SHB : 0 < shift < 32) by (subst shift; lia).
    assert (BI : bit_index = 32 * (bit_index / 32) + shift) by (subst shift; lia).
    set (dst := bit_index / 32) in *. assert (DB : 0 <= dst) by (subst dst; lia). clearbody shift dst.
    destruct (rd_word wd 0 HW ltac:(lia)) as (w & Ew & Ww & Bw). rewrite Ew. cbn [bind].
    destruct (shr32_ok w shift Ww ltac:(lia)) as (x & Ex & Wx & Bx).
    destruct (Z.leb_spec cnt (32 - shift)) as [LE|GT].
    + destruct (start_mask_at_ok cnt shift ltac:(lia) ltac:(lia)) as (m & Em & Wm & Bm).
      rewrite Em. cbn [bind]. unfold shift_to_end. rewrite Ex. cbn [bind].
      destruct (comb_mask o c N dst x m (fun j => cbit (map Some wd) (j - bit_index)) bit_index (bit_index + cnt) H ltac:(lia) Wx Wm ltac:(lia) ltac:(lia))
        as (a & c2 & Ea & E2 & L2 & K2 & C2).
      { intros k K. rewrite Bm by auto. lia. }
      { intros k K R. rewrite Bx by auto. replace (shift <=? k) with true by lia. cbn [andb]. rewrite Bw by lia. f_equal. lia. }
      rewrite Ea. cbn [bind]. exists c2. sp. auto.
    + destruct (lsb_mask_ok (32 - shift) ltac:(lia)) as (m & Em & Wm & Bm).
      unfold non_zero_end_mask. rewrite Em. cbn [bind]. unfold shift_to_end at 1. rewrite Ex. cbn [bind].
      destruct (comb_mask o c N dst x m (fun j => cbit (map Some wd) (j - bit_index)) bit_index (32 * (dst + 1)) H ltac:(lia) Wx Wm ltac:(lia) ltac:(lia))
        as (a & c1 & Ea & E1 & L1 & K1 & C1).
      { intros k K. rewrite Bm by auto. lia. }
      { intros k K R. rewrite Bx by auto. replace (shift <=? k) with true by lia. cbn [andb]. rewrite Bw by lia. f_equal. lia. }
      rewrite Ea. cbn [bind]. rewrite E1. cbn [bind].
      set (rest := cnt - (32 - shift)) in *.
      destruct (combine_loop_ok o wd shift HW SHB (Z.to_nat (rest / 32)) c1 N dst 1 w) as (c2 & w2 & E2 & L2 & K2 & R2 & C2);
        auto; try (subst rest; lia).
      rewrite E2. cbn [bind]. rewrite Z2Nat.id in * by (subst rest; lia).
      assert (C2' : forall j, 0 <= j -> cbit c2 j = if (bit_index <=? j) && (j <? 32 * (dst + 1 + rest / 32))
         then opb o (cbit c j) (cbit (map Some wd) (j - bit_index)) else cbit c j).
      { intros j J. rewrite C2, C1 by auto.
        destruct ((32 * (dst + 1) <=? j) && (j <? 32 * (dst + 1 + rest / 32))) eqn:Q1.
        - replace ((bit_index <=? j) && (j <? 32 * (dst + 1))) with false by lia.
          replace ((bit_index <=? j) && (j <? 32 * (dst + 1 + rest / 32))) with true by lia. f_equal. f_equal. lia.
        - replace ((bit_index <=? j) && (j <? 32 * (dst + 1 + rest / 32))) with ((bit_index <=? j) && (j <? 32 * (dst + 1))) by (subst rest; lia).
          reflexivity. }
      destruct (Z.eqb_spec (rest mod 32) 0) as [R0|R0].
      { exists c2. sp. intros j J. rewrite C2' by auto.
        replace (32 * (dst + 1 + rest / 32)) with (bit_index + cnt) by (subst rest; lia). reflexivity. }
      assert (TAIL : 32 - shift < rest mod 32 <-> shift < rest mod 32) by (destruct SAFE as [?|[?|?]]; [lia|lia|auto]).
      destruct (rd_word wd (1 + rest / 32 - 1) HW ltac:(subst rest; lia)) as (w' & Ew' & Ww2 & Bw2).
      rewrite R2 in Ew'. injection Ew' as <-.
      assert (LAST : exists last, (let* last := shift_to_start w2 (32 - shift) in
         if 32 - shift <? rest mod 32 then (let* b := rd wd (1 + rest / 32) in let* y := shift_to_end b shift in Ok (Z.lor last y))
         else Ok last) = Ok last /\ word last /\
         forall k, 0 <= k < rest mod 32 -> wbit last k = cbit (map Some wd) (32 * (dst + (1 + rest / 32)) + k - bit_index)).
      { destruct (Z.ltb_spec (32 - shift) (rest mod 32)) as [T|T].
        - assert (T2 : shift < rest mod 32) by now apply TAIL.
          destruct (rd_word wd (1 + rest / 32) HW ltac:(subst rest; lia)) as (v & Ev & Wv & Bv).
          destruct (funnel w2 v shift Ww2 Wv SHB) as (p & q & Ep & Eq & Wp & Wq & Bpq & _).
          exists (Z.lor p q). rewrite Ep. cbn [bind]. rewrite Ev. cbn [bind]. rewrite Eq. cbn [bind].
          split; auto. split; [now apply word_lor|]. intros k K. rewrite Bpq by lia.
          destruct (Z.ltb_spec k shift).
          + rewrite Bw2 by lia. f_equal. lia.
          + rewrite Bv by lia. f_equal. lia.
        - destruct (funnel w2 w2 shift Ww2 Ww2 SHB) as (p & q & Ep & Eq & Wp & Wq & _ & Bp).
          exists p. rewrite Ep. cbn [bind]. split; auto. split; auto. intros k K. rewrite Bp by lia.
          replace (k <? shift) with true by lia. cbn [andb]. rewrite Bw2 by lia. f_equal. lia. }
      destruct LAST as (last & El & Wl & Bl).
      destruct (shift_to_start w2 (32 - shift)) as [p0| | |] eqn:Ep0; cbn [bind] in El; try discriminate El.
      cbn [bind]. rewrite El. cbn [bind].
      destruct (msb_mask_ok (rest mod 32) ltac:(lia)) as (m3 & Em3 & Wm3 & Bm3).
      unfold non_zero_start_mask. rewrite Em3. cbn [bind].
      destruct (comb_mask o c2 N (dst + (1 + rest / 32)) last m3 (fun j => cbit (map Some wd) (j - bit_index))
                  (32 * (dst + (1 + rest / 32))) (bit_index + cnt) K2 ltac:(subst rest; lia) Wl Wm3 ltac:(lia) ltac:(subst rest; lia))
        as (a3 & c3 & Ea3 & E3 & L3 & K3 & C3).
      { intros k K. rewrite Bm3 by auto. subst rest. lia. }
      { intros k K R. apply Bl. subst rest. lia. }
      rewrite Ea3. cbn [bind]. exists c3. sp. intros j J. rewrite C3, C2' by auto.
      destruct ((32 * (dst + (1 + rest / 32)) <=? j) && (j <? bit_index + cnt)) eqn:Q1.
      * replace ((bit_index <=? j) && (j <? 32 * (dst + 1 + rest / 32))) with false by lia.
        replace ((bit_index <=? j) && (j <? bit_index + cnt)) with true by (subst rest; lia). reflexivity.
      * replace ((bit_index <=? j) && (j <? 32 * (dst + 1 + rest / 32))) with ((bit_index <=? j) && (j <? bit_index + cnt)) by (subst rest; lia).
        reflexivity.
Qed.
