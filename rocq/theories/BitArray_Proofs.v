From Verif Require Import Base Bits IntOps_Model IntOps_Spec IntOps_Proofs Algorithm_Model Object_Model Object_Spec Object_Proofs
  BitArray_Model BitArray_Spec.

Ltac sp := repeat (split; [solve [auto | congruence]|]).

(* ---- words ---- *)
Definition wbit (w k : Z) : bool := Z.testbit w (31 - k).
Definition word (w : Z) : Prop := 0 <= w < 2 ^ 32.

Lemma word_ext a b : word a -> word b -> (forall k, 0 <= k < 32 -> wbit a k = wbit b k) -> a = b.
Proof.
  intros A B H. apply (bits_ext_bounded a b 32); try lia; auto.
  intros n N. specialize (H (31 - n)). unfold wbit in H. replace (31 - (31 - n)) with n in H by lia. apply H. lia.
Qed.
Lemma word_zero a : word a -> (a = 0 <-> forall k, 0 <= k < 32 -> wbit a k = false).
Proof.
  intros A. split.
  - intros -> k K. unfold wbit. apply Z.bits_0.
  - intros H. apply word_ext; auto. { unfold word; lia. } intros k K. rewrite H by auto. unfold wbit. now rewrite Z.bits_0.
Qed.
Lemma word_lor a b : word a -> word b -> word (Z.lor a b). Proof. apply lor_bound; lia. Qed.
Lemma word_land a b : word a -> word (Z.land a b). Proof. apply land_bound; lia. Qed.
Lemma word_land_r a b : word b -> word (Z.land a b). Proof. rewrite Z.land_comm. apply land_bound; lia. Qed.
Lemma word_not a : word a -> word (not32 a).
Proof. intros H. unfold not32. apply lxor_bound; unfold ones32; auto; lia. Qed.
Lemma wbit_lor a b k : wbit (Z.lor a b) k = wbit a k || wbit b k. Proof. apply Z.lor_spec. Qed.
Lemma wbit_land a b k : wbit (Z.land a b) k = wbit a k && wbit b k. Proof. apply Z.land_spec. Qed.
Lemma wbit_ones k : 0 <= k < 32 -> wbit ones32 k = true.
Proof.
  intros K. unfold wbit, ones32. change 4294967295 with (Z.ones 32). apply Z.ones_spec_low. lia.
Qed.
Lemma wbit_not a k : 0 <= k < 32 -> wbit (not32 a) k = negb (wbit a k).
Proof.
  intros K. unfold wbit, not32. rewrite Z.lxor_spec. change (Z.testbit ones32 (31 - k)) with (wbit ones32 k).
  rewrite wbit_ones by auto. apply xorb_true_r.
Qed.
Lemma word_ones : word ones32. Proof. unfold word, ones32; lia. Qed.

Lemma shr32_ok x y : word x -> 0 <= y < 32 -> exists r, shr32 x y = Ok r /\ word r /\
  forall k, 0 <= k < 32 -> wbit r k = (y <=? k) && wbit x (k - y).
Proof.
  intros X Y. unfold shr32. replace ((0 <=? y) && (y <? 32)) with true by lia.
  eexists; split; [reflexivity|]. split.
  - unfold word. rewrite Z.shiftr_div_pow2 by lia. destruct X. split. { apply Z.div_pos; lia. }
    apply Z.le_lt_trans with x; auto. rewrite <- (Z.div_1_r x) at 2. apply Z.div_le_compat_l; lia.
  - intros k K. unfold wbit. rewrite Z.shiftr_spec by lia. destruct (Z.leb_spec y k); cbn [andb].
    + f_equal. lia.
    + apply (testbit_small x 32); unfold word in X; lia.
Qed.
Lemma shl32_ok x y : word x -> 0 <= y < 32 -> exists r, shl32 x y = Ok r /\ word r /\
  forall k, 0 <= k < 32 -> wbit r k = (k + y <? 32) && wbit x (k + y).
Proof.
  intros X Y. unfold shl32. replace ((0 <=? y) && (y <? 32)) with true by lia.
  eexists; split; [reflexivity|]. unfold w32. split.
  - unfold word. change (2 ^ 32) with 4294967296. apply Z.mod_pos_bound. lia.
  - intros k K. unfold wbit. change 4294967296 with (2 ^ 32). rewrite mod_pow2_testbit by lia.
    replace (31 - k <? 32) with true by lia. cbn [andb]. rewrite Z.shiftl_spec by lia.
    destruct (Z.ltb_spec (k + y) 32); cbn [andb].
    + f_equal. lia.
    + apply Z.testbit_neg_r. lia.
Qed.

Lemma msb_mask_ok n : 1 <= n <= 32 -> exists m, non_zero_msb_mask n = Ok m /\ word m /\
  forall k, 0 <= k < 32 -> wbit m k = (k <? n).
Proof.
  intros N. unfold non_zero_msb_mask. change (shl32 1 31) with (Ok 2147483648). cbn [bind]. unfold sar32.
  replace (w64 (n - 1)) with (n - 1) by (unfold w64; rewrite Z.mod_small; lia).
  replace ((0 <=? n - 1) && (n - 1 <? 32)) with true by lia.
  change (to_s 32 2147483648) with (-2147483648).
  eexists; split; [reflexivity|]. unfold w32. split.
  - unfold word. change (2 ^ 32) with 4294967296. apply Z.mod_pos_bound. lia.
  - intros k K. unfold wbit. change 4294967296 with (2 ^ 32). rewrite mod_pow2_testbit by lia.
    replace (31 - k <? 32) with true by lia. cbn [andb]. rewrite Z.shiftr_spec by lia.
    change (-2147483648) with (- (2 ^ 31)).
    rewrite <- (Z.lnot_involutive (- 2 ^ 31)), Z.lnot_spec by lia.
    replace (Z.lnot (- 2 ^ 31)) with (Z.ones 31) by reflexivity.
    destruct (Z.ltb_spec k n).
    + rewrite Z.ones_spec_high by lia. reflexivity.
    + rewrite Z.ones_spec_low by lia. reflexivity.
Qed.
Lemma lsb_mask_ok n : 1 <= n <= 32 -> exists m, non_zero_lsb_mask n = Ok m /\ word m /\
  forall k, 0 <= k < 32 -> wbit m k = (32 - n <=? k).
Proof.
  intros N. unfold non_zero_lsb_mask.
  replace (w64 (32 - n)) with (32 - n) by (unfold w64; rewrite Z.mod_small; lia).
  destruct (shr32_ok ones32 (32 - n) word_ones) as (m & E & W & B); [lia|].
  exists m. split; auto. split; auto. intros k K. rewrite B by auto.
  destruct (Z.leb_spec (32 - n) k); cbn [andb]; auto. apply wbit_ones. lia.
Qed.
Lemma start_mask_at_ok n i : 1 <= n <= 32 -> 0 <= i < 32 -> exists m, non_zero_start_mask_at n i = Ok m /\ word m /\
  forall k, 0 <= k < 32 -> wbit m k = (i <=? k) && (k <? i + n).
Proof.
  intros N I. unfold non_zero_start_mask_at, non_zero_start_mask, shift_to_end.
  destruct (msb_mask_ok n N) as (m & E & W & B). rewrite E. cbn [bind].
  destruct (shr32_ok m i W I) as (r & E2 & W2 & B2). exists r. split; auto. split; auto.
  intros k K. rewrite B2 by auto. destruct (Z.leb_spec i k); cbn [andb]; auto.
  rewrite B by lia. destruct (Z.ltb_spec (k - i) n), (Z.ltb_spec k (i + n)); auto; lia.
Qed.
Lemma index_mask_ok i : 0 <= i < 32 -> exists m, index_as_mask i = Ok m /\ word m /\
  forall k, 0 <= k < 32 -> wbit m k = (k =? i).
Proof.
  intros I. unfold index_as_mask. destruct (msb_mask_ok 1 ltac:(lia)) as (m & E & W & B). rewrite E. cbn [bind].
  destruct (shr32_ok m i W I) as (r & E2 & W2 & B2). exists r. split; auto. split; auto.
  intros k K. rewrite B2 by auto. destruct (Z.leb_spec i k); cbn [andb].
  - rewrite B by lia. lia.
  - lia.
Qed.
Lemma index_mask_value_ok i v : 0 <= i < 32 -> exists m, index_as_mask_value i v = Ok m /\ word m /\
  forall k, 0 <= k < 32 -> wbit m k = (k =? i) && v.
Proof.
  intros I. unfold index_as_mask_value.
  destruct (shl32_ok (if v then 1 else 0) 31) as (m & E & W & B); [destruct v; unfold word; lia|lia|].
  rewrite E. cbn [bind].
  destruct (shr32_ok m i W I) as (r & E2 & W2 & B2). exists r. split; auto. split; auto.
  intros k K. rewrite B2 by auto. destruct (Z.leb_spec i k); cbn [andb].
  - rewrite B by lia. destruct (Z.eqb_spec k i).
    + subst. replace (i - i) with 0 by lia. cbn. destruct v; reflexivity.
    + replace (k - i + 31 <? 32) with false by lia. reflexivity.
  - replace (k =? i) with false by lia. reflexivity.
Qed.

(* ---- blocks of words ---- *)
Lemma cbit_word c i w : 0 <= i -> nth_error c (Z.to_nat (i / 32)) = Some (Some w) -> cbit c i = wbit w (i mod 32).
Proof. intros I E. unfold cbit. rewrite E. reflexivity. Qed.

Lemma rdc_ok c n i : words_ok c n -> 0 <= i < n -> exists w, rdc c i = Ok w /\ word w /\
  nth_error c (Z.to_nat i) = Some (Some w) /\ forall k, 0 <= k < 32 -> wbit w k = cbit c (32 * i + k).
Proof.
  intros H I. destruct (H i I) as (w & E & W). exists w. unfold rdc. replace (i <? 0) with false by lia. rewrite E.
  split; auto. split; auto. split; auto. intros k K. unfold cbit.
  replace ((32 * i + k) / 32) with i by lia. rewrite E. unfold wbit. f_equal. lia.
Qed.
Lemma words_ok_len c n : words_ok c n -> n <= len c.
Proof.
  intros H. destruct (Z.le_gt_cases n 0). { unfold len; lia. }
  destruct (H (n - 1) ltac:(lia)) as (w & E & _).
  assert ((Z.to_nat (n - 1) < length c)%nat) by (apply nth_error_Some; congruence). unfold len. lia.
Qed.
Lemma words_ok_le c n m : words_ok c n -> m <= n -> words_ok c m.
Proof. intros H L i I. apply H. lia. Qed.

Lemma wrc_ok c i w : 0 <= i < len c -> word w -> exists c', wrc c i w = Ok c' /\ length c' = length c /\
  nth_error c' (Z.to_nat i) = Some (Some w) /\
  (forall j, 0 <= j -> j <> i -> nth_error c' (Z.to_nat j) = nth_error c (Z.to_nat j)) /\
  (forall j, 0 <= j -> cbit c' j = if j / 32 =? i then wbit w (j mod 32) else cbit c j) /\
  (forall n, words_ok c n -> words_ok c' n) /\ (forall n, words_ok c n -> n = i -> words_ok c' (n + 1)).
Proof.
  intros I W. unfold wrc. unfold len in I. replace ((i <? 0) || (Z.of_nat (length c) <=? i)) with false by lia.
  eexists; split; [reflexivity|]. rewrite upd_len.
  assert (A : nth_error (upd c (Z.to_nat i) (Some w)) (Z.to_nat i) = Some (Some w)) by (apply nth_upd_eq; lia).
  assert (B : forall j, 0 <= j -> j <> i -> nth_error (upd c (Z.to_nat i) (Some w)) (Z.to_nat j) = nth_error c (Z.to_nat j)).
  { intros j J N. apply nth_upd_neq. lia. }
  split; auto. split; auto. split; auto. split; [|split].
  - intros j J. unfold cbit. destruct (Z.eqb_spec (j / 32) i) as [<-|N].
    + rewrite A. reflexivity.
    + rewrite B by (try apply Z.div_pos; lia). reflexivity.
  - intros n H j J. destruct (Z.eq_dec j i) as [->|N].
    + exists w. split; auto.
    + rewrite B by lia. apply H. lia.
  - intros n H <- j J. destruct (Z.eq_dec j n) as [->|N].
    + exists w. split; auto.
    + rewrite B by lia. apply H. lia.
Qed.

(* read-modify-write of one word *)
Lemma rmw_ok c n i (f : Z -> Z) (g : bool -> Z -> bool) : words_ok c n -> 0 <= i < n ->
  (forall w, word w -> word (f w)) -> (forall w k, word w -> 0 <= k < 32 -> wbit (f w) k = g (wbit w k) k) ->
  exists w c', rdc c i = Ok w /\ word w /\ wrc c i (f w) = Ok c' /\ length c' = length c /\ words_ok c' n /\
    forall j, 0 <= j -> cbit c' j = if j / 32 =? i then g (cbit c j) (j mod 32) else cbit c j.
Proof.
  intros H I F G. destruct (rdc_ok c n i H I) as (w & E & W & N & B). pose proof (words_ok_len _ _ H).
  destruct (wrc_ok c i (f w)) as (c' & E' & L & _ & _ & C & K & _); [lia|auto|].
  exists w, c'. sp. intros j J. rewrite C by auto. destruct (Z.eqb_spec (j / 32) i) as [Q|Q]; auto.
  rewrite G by (auto; apply Z.mod_pos_bound; lia). rewrite B by (apply Z.mod_pos_bound; lia).
  f_equal. f_equal. lia.
Qed.

Lemma test_bit_ok c n i : words_ok c n -> 0 <= i < 32 * n -> bit_array_test_bit c i = Ok (cbit c i).
Proof.
  intros H I. unfold bit_array_test_bit.
  destruct (rdc_ok c n (i / 32) H) as (w & E & W & N & B); [lia|]. rewrite E. cbn [bind].
  destruct (index_mask_ok (i mod 32)) as (m & Em & Wm & Bm); [lia|]. rewrite Em. cbn [bind]. f_equal.
  assert (Q : cbit c i = wbit w (i mod 32)). { rewrite B by lia. f_equal. lia. }
  rewrite Q. pose proof (word_zero (Z.land w m) (word_land w m W)) as [Z1 Z2].
  destruct (Z.eqb_spec (Z.land w m) 0) as [E0|E0]; cbn [negb].
  - specialize (Z1 E0 (i mod 32) ltac:(lia)). rewrite wbit_land, Bm, Z.eqb_refl, andb_true_r in Z1 by lia. now symmetry.
  - destruct (wbit w (i mod 32)) eqn:D; auto. exfalso. apply E0. apply Z2. intros k K.
    rewrite wbit_land, Bm by auto. destruct (Z.eqb_spec k (i mod 32)) as [->|]; [rewrite D; reflexivity|apply andb_false_r].
Qed.

Lemma div_eq_mod j i : j / 32 = i / 32 -> j mod 32 = i mod 32 -> j = i.
Proof. lia. Qed.

Lemma set_bit_ok c n i : words_ok c n -> 0 <= i < 32 * n -> exists c', bit_array_set_bit c i = Ok c' /\
  length c' = length c /\ words_ok c' n /\ forall j, 0 <= j -> cbit c' j = if j =? i then true else cbit c j.
Proof.
  intros H I. unfold bit_array_set_bit.
  destruct (index_mask_ok (i mod 32)) as (m & Em & Wm & Bm); [lia|].
  destruct (rmw_ok c n (i / 32) (fun w => Z.lor w m) (fun b k => b || (k =? i mod 32)) H ltac:(lia))
    as (w & c' & E & W & E' & L & K & C).
  { intros w W. now apply word_lor. } { intros w k W K. rewrite wbit_lor, Bm by auto. reflexivity. }
  rewrite E. cbn [bind]. rewrite Em. cbn [bind]. exists c'. sp.
  intros j J. rewrite C by auto. destruct (Z.eqb_spec j i) as [->|N].
  - rewrite !Z.eqb_refl. apply orb_true_r.
  - destruct (Z.eqb_spec (j / 32) (i / 32)); auto. destruct (Z.eqb_spec (j mod 32) (i mod 32)).
    + exfalso. apply N. now apply div_eq_mod.
    + apply orb_false_r.
Qed.
Lemma or_bit_ok c n i v : words_ok c n -> 0 <= i < 32 * n -> exists c', bit_array_or_bit c i v = Ok c' /\
  length c' = length c /\ words_ok c' n /\ forall j, 0 <= j -> cbit c' j = if j =? i then cbit c j || v else cbit c j.
Proof.
  intros H I. unfold bit_array_or_bit.
  destruct (index_mask_value_ok (i mod 32) v) as (m & Em & Wm & Bm); [lia|].
  destruct (rmw_ok c n (i / 32) (fun w => Z.lor w m) (fun b k => b || ((k =? i mod 32) && v)) H ltac:(lia))
    as (w & c' & E & W & E' & L & K & C).
  { intros w W. now apply word_lor. } { intros w k W K. rewrite wbit_lor, Bm by auto. reflexivity. }
  rewrite E. cbn [bind]. rewrite Em. cbn [bind]. exists c'. sp.
  intros j J. rewrite C by auto. destruct (Z.eqb_spec j i) as [->|N].
  - rewrite !Z.eqb_refl. reflexivity.
  - destruct (Z.eqb_spec (j / 32) (i / 32)); auto. destruct (Z.eqb_spec (j mod 32) (i mod 32)).
    + exfalso. apply N. now apply div_eq_mod.
    + apply orb_false_r.
Qed.
Lemma clear_bit_ok c n i : words_ok c n -> 0 <= i < 32 * n -> exists c', bit_array_clear_bit c i = Ok c' /\
  length c' = length c /\ words_ok c' n /\ forall j, 0 <= j -> cbit c' j = if j =? i then false else cbit c j.
Proof.
  intros H I. unfold bit_array_clear_bit.
  destruct (index_mask_ok (i mod 32)) as (m & Em & Wm & Bm); [lia|].
  destruct (rmw_ok c n (i / 32) (fun w => Z.land w (not32 m)) (fun b k => b && negb (k =? i mod 32)) H ltac:(lia))
    as (w & c' & E & W & E' & L & K & C).
  { intros w W. now apply word_land. } { intros w k W K. rewrite wbit_land, wbit_not, Bm by auto. reflexivity. }
  rewrite E. cbn [bind]. rewrite Em. cbn [bind]. exists c'. sp.
  intros j J. rewrite C by auto. destruct (Z.eqb_spec j i) as [->|N].
  - rewrite !Z.eqb_refl. apply andb_false_r.
  - destruct (Z.eqb_spec (j / 32) (i / 32)); auto. destruct (Z.eqb_spec (j mod 32) (i mod 32)).
    + exfalso. apply N. now apply div_eq_mod.
    + apply andb_true_r.
Qed.

(* ---- bit_array_fill / bit_array_clear ---- *)
Lemma fill_op_word set a m : word a -> word m -> word (fill_op set a m).
Proof. destruct set; intros; [now apply word_lor|now apply word_land]. Qed.
Lemma fill_op_bit set a m k : 0 <= k < 32 -> wbit (fill_op set a m) k = if wbit m k then set else wbit a k.
Proof.
  intros K. destruct set; cbn [fill_op].
  - rewrite wbit_lor. destruct (wbit m k); [apply orb_true_r|apply orb_false_r].
  - rewrite wbit_land, wbit_not by auto. destruct (wbit m k); [apply andb_false_r|apply andb_true_r].
Qed.
Lemma full_op_bit set k : 0 <= k < 32 -> wbit (full_op set) k = set.
Proof. intros K. destruct set; cbn [full_op]; [|rewrite wbit_not by auto]; rewrite wbit_ones; auto. Qed.
Lemma full_op_word set : word (full_op set).
Proof. destruct set; cbn [full_op]; [|apply word_not]; apply word_ones. Qed.

Lemma op_loop_ok set : forall fuel c n wi count, words_ok c n -> 0 <= wi -> 0 <= count ->
  32 * wi + count <= 32 * n -> (Z.to_nat (count / 32) < fuel)%nat ->
  exists c', bit_array_op_loop fuel set c wi count = Ok (c', wi + count / 32, count mod 32) /\
    length c' = length c /\ words_ok c' n /\
    forall j, 0 <= j -> cbit c' j = if (32 * wi <=? j) && (j <? 32 * (wi + count / 32)) then set else cbit c j.
Proof.
  induction fuel as [|fuel IH]; intros c n wi count H I C L F; [lia|]. cbn [bit_array_op_loop].
  destruct (Z.leb_spec 32 count).
  - destruct (wrc_ok c wi (full_op set)) as (c1 & E1 & L1 & _ & _ & B1 & K1 & _).
    { pose proof (words_ok_len _ _ H). lia. } { apply full_op_word. }
    rewrite E1. cbn [bind].
    destruct (IH c1 n (wi + 1) (count - 32)) as (c' & E & L' & K & B); auto; try lia.
    exists c'. rewrite E. split; [f_equal; f_equal; [f_equal|]; lia|]. split; [congruence|]. split; auto.
    intros j J. rewrite B by auto. rewrite B1 by auto.
    destruct (Z.eqb_spec (j / 32) wi).
    + rewrite full_op_bit by lia.
      replace ((32 * wi <=? j) && (j <? 32 * (wi + count / 32))) with true by lia.
      destruct ((32 * (wi + 1) <=? j) && (j <? 32 * (wi + 1 + (count - 32) / 32))); reflexivity.
    + replace ((32 * wi <=? j) && (j <? 32 * (wi + count / 32)))
        with ((32 * (wi + 1) <=? j) && (j <? 32 * (wi + 1 + (count - 32) / 32))) by lia. reflexivity.
  - exists c. replace (wi + count / 32) with wi by lia. replace (count mod 32) with count by lia.
    sp. intros j J. replace ((32 * wi <=? j) && (j <? 32 * wi)) with false by lia. reflexivity.
Qed.

Lemma bit_array_op_ok set c n index count : words_ok c n -> 0 <= index -> 0 <= count -> index + count <= 32 * n ->
  exists c', bit_array_op set c index count = Ok c' /\ length c' = length c /\ words_ok c' n /\
    forall j, 0 <= j -> cbit c' j = if (index <=? j) && (j <? index + count) then set else cbit c j.
Proof.
  intros H I C L. unfold bit_array_op.
  destruct (Z.eqb_spec count 0) as [->|NZ].
  { exists c. sp. intros j J. replace ((index <=? j) && (j <? index + 0)) with false by lia. reflexivity. }
  set (fn := Z.min (32 - index mod 32) count).
  assert (F1 : 1 <= fn <= 32 /\ fn <= count) by (subst fn; lia).
  assert (F2 : fn = 32 - index mod 32 \/ fn = count) by (subst fn; lia).
  assert (F3 : fn <= 32 - index mod 32) by (subst fn; lia).
  clearbody fn.
  destruct (start_mask_at_ok fn (index mod 32) ltac:(lia) ltac:(lia)) as (m & Em & Wm & Bm).
  unfold non_zero_start_mask_at in Em.
  destruct (msb_mask_ok fn ltac:(lia)) as (m0 & Em0 & _). unfold non_zero_start_mask in *. rewrite Em0 in *. cbn [bind] in *.
  rewrite Em. cbn [bind].
  destruct (rmw_ok c n (index / 32) (fun w => fill_op set w m)
             (fun b k => if (index mod 32 <=? k) && (k <? index mod 32 + fn) then set else b) H ltac:(lia))
    as (w & c1 & E & W & E1 & L1 & K1 & C1).
  { intros w W. now apply fill_op_word. } { intros w k W K. rewrite fill_op_bit, Bm by auto. reflexivity. }
  rewrite E. cbn [bind]. rewrite E1. cbn [bind].
  assert (C1' : forall j, 0 <= j -> cbit c1 j = if (index <=? j) && (j <? index + fn) then set else cbit c j).
  { intros j J. rewrite C1 by auto. destruct (Z.eqb_spec (j / 32) (index / 32)).
    - replace ((index mod 32 <=? j mod 32) && (j mod 32 <? index mod 32 + fn)) with ((index <=? j) && (j <? index + fn)) by lia.
      reflexivity.
    - replace ((index <=? j) && (j <? index + fn)) with false by lia. reflexivity. }
  destruct (Z.eqb_spec (count - fn) 0) as [Z0|Z0].
  { exists c1. sp. intros j J. rewrite C1' by auto. replace fn with count by lia. reflexivity. }
  assert (Hfn : fn = 32 - index mod 32) by lia.
  destruct (op_loop_ok set (S (Z.to_nat ((count - fn) / 32))) c1 n (index / 32 + 1) (count - fn)) as (c2 & E2 & L2 & K2 & C2);
    auto; try lia.
  rewrite E2. cbn [bind].
  assert (C2' : forall j, 0 <= j -> cbit c2 j = if (index <=? j) && (j <? 32 * (index / 32 + 1 + (count - fn) / 32)) then set else cbit c j).
  { intros j J. rewrite C2, C1' by auto.
    destruct ((32 * (index / 32 + 1) <=? j) && (j <? 32 * (index / 32 + 1 + (count - fn) / 32))) eqn:D1.
    - replace ((index <=? j) && (j <? 32 * (index / 32 + 1 + (count - fn) / 32))) with true by lia. reflexivity.
    - destruct ((index <=? j) && (j <? index + fn)) eqn:D2.
      + replace ((index <=? j) && (j <? 32 * (index / 32 + 1 + (count - fn) / 32))) with true by lia. reflexivity.
      + replace ((index <=? j) && (j <? 32 * (index / 32 + 1 + (count - fn) / 32))) with false by lia. reflexivity. }
  destruct (Z.eqb_spec ((count - fn) mod 32) 0) as [Z1|Z1].
  { exists c2. sp. intros j J. rewrite C2' by auto.
    replace (32 * (index / 32 + 1 + (count - fn) / 32)) with (index + count) by lia. reflexivity. }
  destruct (msb_mask_ok ((count - fn) mod 32) ltac:(lia)) as (m3 & Em3 & Wm3 & Bm3). rewrite Em3. cbn [bind].
  destruct (rmw_ok c2 n (index / 32 + 1 + (count - fn) / 32) (fun w => fill_op set w m3)
             (fun b k => if k <? (count - fn) mod 32 then set else b) K2 ltac:(lia))
    as (w3 & c3 & E3 & W3 & E3' & L3 & K3 & C3).
  { intros w0 W0. now apply fill_op_word. } { intros w0 k W0 K. rewrite fill_op_bit, Bm3 by auto. reflexivity. }
  rewrite E3. cbn [bind]. exists c3. sp.
  intros j J. rewrite C3, C2' by auto.
  destruct (Z.eqb_spec (j / 32) (index / 32 + 1 + (count - fn) / 32)).
  - replace ((index <=? j) && (j <? 32 * (index / 32 + 1 + (count - fn) / 32))) with false by lia.
    replace ((index <=? j) && (j <? index + count)) with (j mod 32 <? (count - fn) mod 32) by lia. reflexivity.
  - replace ((index <=? j) && (j <? index + count)) with
      ((index <=? j) && (j <? 32 * (index / 32 + 1 + (count - fn) / 32))) by lia. reflexivity.
Qed.
