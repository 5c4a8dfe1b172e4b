From Verif Require Import Base Bits Algorithm_Model Interp_Proofs3 JpegHuff_Model JpegHuff_Spec JpegHuff_Proofs.
Ltac Zify.zify_post_hook ::= idtac.

Definition counts (data : list Z) : list Z := firstn 16 data.
Lemma fold_total l : forall a, fold_left Z.add l a = a + total l.
Proof. unfold total. induction l as [|x l IH]; intros a; cbn [fold_left fold_right]; [lia|]. rewrite IH. lia. Qed.
Lemma total_bound l : bytes l -> 0 <= total l <= 255 * Z.of_nat (length l).
Proof. unfold total. induction 1 as [|x l H F IH]; cbn [fold_right length]; [lia|]. unfold is_byte in H. lia. Qed.
Lemma lengths_length l : forall i, bytes l -> Z.of_nat (length (lengths i l)) = total l.
Proof.
  unfold total. induction l as [|c l IH]; intros i B; cbn [lengths fold_right]; [reflexivity|]. inversion B as [|? ? B1 B2]; subst. unfold is_byte in B1. rewrite app_length, repeat_length, Nat2Z.inj_add, IH by assumption. rewrite Z2Nat.id by lia. reflexivity.
Qed.
Lemma bytes_firstn n l : bytes l -> bytes (firstn n l).
Proof. intros B. apply Forall_forall. intros x HI. apply (proj1 (Forall_forall _ _) B). rewrite <- (firstn_skipn n l). apply in_or_app. left. exact HI. Qed.
Lemma rd_ok {A} (l : list A) i x : 0 <= i -> nth_error l (Z.to_nat i) = Some x -> rd l i = Ok x.
Proof. intros H E. unfold rd. destruct (Z.ltb_spec i 0); [lia|]. rewrite E. reflexivity. Qed.
Lemma rd_get (l : list Z) i : 0 <= i < Z.of_nat (length l) -> rd l i = Ok (get l i).
Proof. intros H. apply rd_ok; [lia|]. unfold get. apply nth_error_nth'. lia. Qed.

Lemma nth_firstn_lt (l : list Z) : forall n j, (j < n)%nat -> nth j (firstn n l) 0 = nth j l 0.
Proof. induction l as [|x l IH]; intros [|n] [|j] H; cbn [firstn nth]; try lia; try reflexivity. apply IH. lia. Qed.
Lemma nth_skip (l : list Z) k : forall j, nth j (skipn k l) 0 = nth (k + j) l 0.
Proof. revert l. induction k as [|k IH]; intros l j; cbn [skipn Nat.add]; [reflexivity|]. destruct l as [|x l]; [destruct j; reflexivity|]. cbn [nth]. apply IH. Qed.

Lemma nth_indep255 k : (k < 256)%nat -> nth k (repeat 255 256) 0 = 255.
Proof. intros H. rewrite (nth_indep _ 0 255) by (rewrite repeat_length; exact H). apply nth_repeat. Qed.

(* data of a table *)
Definition well_formed (data : list Z) : Prop :=
  16 <= Z.of_nat (length data) /\ total (counts data) <= 256 /\ total (counts data) + 16 <= Z.of_nat (length data) /\ fits (lengths 1 (counts data)).
Definition built (data : list Z) (t : table) : Prop :=
  let ls := lengths 1 (counts data) in
  t_max t = ends 1 0 (counts data) /\ t_delta t = dels 1 0 0 (counts data) /\ t_size t = ls /\
  (forall j l, nth_error ls j = Some l -> rd (t_values t) (Z.of_nat j) = Ok (nth (16 + j) data 0)) /\ length (t_values t) = 256%nat /\
  length (t_accel t) = 256%nat /\ aligned 0 ls (cds 1 0 (counts data)) /\
  forall x, 0 <= x < 256 -> (exists j l, short 0 ls x j l /\ get (t_accel t) x = w8 (Z.of_nat j)) \/ ((forall j l, ~ short 0 ls x j l) /\ get (t_accel t) x = 255).
Lemma build_ok data : bytes data -> (well_formed data -> exists t, build_huffman_table data = Ok (t, 16 + total (counts data)) /\ built data t) /\
  (~ well_formed data -> build_huffman_table data = Err BL_ERROR_INVALID_DATA).
Proof.
  intros B. unfold build_huffman_table. fold (counts data). pose proof (bytes_firstn 16 data B) as BC. fold (counts data) in BC. rewrite fold_total, Z.add_0_l.
  destruct (Z.ltb_spec (Z.of_nat (length data)) 16) as [L|L]. { split; [intros [W _]; lia|reflexivity]. }
  assert (LC : length (counts data) = 16%nat) by (unfold counts; rewrite firstn_length; lia). pose proof (total_bound _ BC) as TB. rewrite LC in TB.
  assert (w32 (total (counts data)) = total (counts data)) as -> by (unfold w32; apply Z.mod_small; lia).
  destruct (Z.ltb_spec 256 (total (counts data))) as [X|X]. { cbn [orb]. split; [intros (_ & W & _); lia|reflexivity]. }
  destruct (Z.ltb_spec (Z.of_nat (length data)) (total (counts data) + 16)) as [Y|Y]; cbn [orb]. { split; [intros (_ & _ & W & _); lia|reflexivity]. }
  rewrite sizes_lengths. change (level_loop 16) with (level_loop (Z.to_nat 16)). replace (Z.to_nat 16) with (length (counts data)) by (rewrite LC; reflexivity).
  rewrite (level_loop_ok (counts data) 1 0 0 0 BC ltac:(lia) ltac:(lia) ltac:(lia) ltac:(lia) ltac:(lia) ltac:(lia) ltac:(lia)). rewrite Z.add_0_l.
  destruct (Z.leb_spec (weight (lengths 1 (counts data))) 65536) as [F|F]; cbn [bind]. 2:{ split; [intros (_ & _ & _ & W); unfold fits in W; change (2 ^ 16) with 65536 in W; lia|reflexivity]. }
  split; [intros _|intros W; exfalso; apply W; unfold well_formed, fits; change (2 ^ 16) with 65536; auto].
  pose proof (cds_aligned (counts data) 1 0 0 BC ltac:(lia) ltac:(lia) ltac:(lia) ltac:(lia) ltac:(lia)) as A.
  destruct (accel_loop_ok (lengths 1 (counts data)) (repeat 255 256) 0 0 (cds 1 0 (counts data)) (repeat_length _ _) ltac:(lia) ltac:(lia) A) as (a & Ea & La & Ga).
  rewrite Ea. cbn [bind]. eexists. split; [reflexivity|]. unfold built. cbv zeta. cbn [t_max t_delta t_size t_values t_accel].
  split; [reflexivity|]. split; [reflexivity|]. split; [reflexivity|]. split; [|split; [|split; [exact La|split; [exact A|]]]].
  - intros j l E. assert (J : (j < length (lengths 1 (counts data)))%nat) by (apply nth_error_Some; congruence). pose proof (lengths_length (counts data) 1 BC) as LL.
    apply rd_ok; [lia|]. rewrite Nat2Z.id. assert (LS : (j < length (firstn (Z.to_nat (total (counts data))) (skipn 16 data)))%nat) by (rewrite firstn_length, skipn_length; lia).
    rewrite nth_error_app1 by exact LS. rewrite (nth_error_nth' _ 0 LS). f_equal. rewrite nth_firstn_lt by (rewrite firstn_length in LS; lia). apply nth_skip.
  - rewrite app_length, repeat_length, firstn_length, skipn_length. lia.
  - intros x Hx. destruct (Ga x Hx) as [(j & l & S & G)|[N G]]; [left; exists j, l; split; [exact S|rewrite G; f_equal; lia]|right]. split; [exact N|]. rewrite G. unfold get.
    apply nth_indep255. lia.
Qed.

Lemma peek_div bits n : 0 <= n <= 16 -> peek bits n = peek bits 16 / 2 ^ (16 - n).
Proof.
  intros H. unfold peek. rewrite !Z.shiftr_div_pow2 by lia. rewrite Z.div_div by (try apply Z.pow_pos_nonneg; try apply Z.pow_nonzero; lia). rewrite <- Z.pow_add_r by lia. do 2 f_equal. lia.
Qed.
Lemma peek_range bits n : 0 <= bits < 2 ^ 64 -> 0 <= n <= 64 -> 0 <= peek bits n < 2 ^ n.
Proof.
  intros H Hn. unfold peek. rewrite Z.shiftr_div_pow2 by lia. assert (0 < 2 ^ (64 - n)) by (apply Z.pow_pos_nonneg; lia). split; [apply Z.div_pos; lia|]. apply Z.div_lt_upper_bound; [lia|]. rewrite <- Z.pow_add_r by lia. replace (64 - n + n) with 64 by lia. lia.
Qed.
(* short codes are decided by eight bits *)
Lemma short_starts ls cs x j l : aligned 0 ls cs -> l <= 8 -> 0 <= x -> (starts_with ls x j l <-> short 0 ls (x / 256) j l).
Proof.
  intros A L8 Hx. unfold starts_with, short.
  assert (E : nth_error ls j = Some l -> (weight (firstn j ls) <= x < weight (firstn j ls) + 2 ^ (16 - l) <-> 0 + weight (firstn j ls) <= 256 * (x / 256) < 0 + weight (firstn j ls) + 2 ^ (16 - l))).
  { intros N. destruct (aligned_nth ls cs 0 j l A N) as (Hl & c & Hc). assert (PW : 2 ^ (16 - l) = 2 ^ (8 - l) * 256) by (replace (16 - l) with (8 - l + 8) by lia; rewrite Z.pow_add_r by lia; reflexivity).
    rewrite PW in *. replace (weight (firstn j ls)) with (c * 2 ^ (8 - l) * 256) by lia. generalize (c * 2 ^ (8 - l)). generalize (2 ^ (8 - l)). clear. intros w v. Z.div_mod_to_equations. lia. }
  split; intros H; (split; [apply H|]); [split; [exact L8|]; apply E; apply H|]. apply E; apply H.
Qed.

Lemma read_code_ok data t bits count : bytes data -> well_formed data -> built data t -> 0 <= bits < 2 ^ 64 ->
  (forall l, nth_error (lengths 1 (counts data)) 255 = Some l -> 8 < l) ->
  let ls := lengths 1 (counts data) in
  (forall j l, starts_with ls (peek bits 16) j l -> read_code t bits count = if count <? l then Err BL_ERROR_DECOMPRESSION_FAILED else Ok (nth (16 + j) data 0, l)) /\
  ((forall j l, ~ starts_with ls (peek bits 16) j l) -> read_code t bits count = Err BL_ERROR_DECOMPRESSION_FAILED).
Proof.
  intros B W (Tm & Td & Ts & Tv & TvL & TaL & A & Ta) Hb H255 ls. fold ls in Tm, Td, Ts, Tv, A, Ta, H255. set (x := peek bits 16). pose proof (peek_range bits 16 Hb ltac:(lia)) as Hx. fold x in Hx. change (2 ^ 16) with 65536 in Hx.
  assert (P8 : peek bits 8 = x / 256) by (rewrite peek_div by lia; reflexivity). unfold read_code. fold x. rewrite P8.
  assert (X8 : 0 <= x / 256 < 256) by (split; [apply Z.div_pos; lia|apply Z.div_lt_upper_bound; lia]). rewrite rd_get by (rewrite TaL; lia). cbn [bind].
  pose proof (bytes_firstn 16 data B) as BC. fold (counts data) in BC. assert (LC : length (counts data) = 16%nat) by (unfold counts; rewrite firstn_length; destruct W; lia).
  assert (JB : forall j l, nth_error ls j = Some l -> Z.of_nat j < 256). { intros j l E. assert (J : (j < length ls)%nat) by (apply nth_error_Some; congruence). pose proof (lengths_length (counts data) 1 BC) as LL. fold ls in LL. destruct W as (_ & W2 & _). lia. }
  destruct (Ta (x / 256) X8) as [(j & l & Sh & G)|[NO G]].
  - pose proof Sh as (N & L8 & _). pose proof (JB j l N) as J256. assert (j <> 255)%nat by (intros ->; specialize (H255 l N); lia).
    assert (w8 (Z.of_nat j) = Z.of_nat j) as W8 by (unfold w8; apply Z.mod_small; lia). rewrite G, W8. destruct (Z.ltb_spec (Z.of_nat j) 255); [|lia].
    rewrite (rd_ok (t_size t) (Z.of_nat j) l) by (try lia; rewrite Nat2Z.id, Ts; exact N). cbn [bind].
    apply (short_starts ls _ x j l A L8 ltac:(lia)) in Sh. split.
    + intros j' l' S'. destruct (starts_unique ls x _ _ _ _ S' Sh) as [-> ->]. destruct (count <? l); [reflexivity|]. rewrite (Tv j l N). reflexivity.
    + intros NS. exfalso. exact (NS j l Sh).
  - rewrite G. change (255 <? 255) with false. cbv iota.
    pose proof (search_ok (counts data) 1 0 0 0 x BC ltac:(lia) ltac:(lia) ltac:(lia) ltac:(lia) ltac:(lia)) as SO. cbv zeta in SO. fold ls in SO. set (L := search (ends 1 0 (counts data)) x 1) in *.
    assert (EL : length (ends 1 0 (counts data)) = 16%nat). { rewrite <- LC. generalize (counts data) as l. generalize 0 as c. generalize 1 as i. clear. intros i c l. revert i c. induction l as [|y l IH]; intros i c; cbn [ends length]; [reflexivity|]. rewrite IH. reflexivity. }
    assert (GE : 9 <= L). { destruct SO as [[E _]|(R & j & d & N & I & _)]; [lia|]. destruct (Z.le_gt_cases 9 L); [assumption|]. exfalso. apply (NO j L). apply (short_starts ls _ x j L A ltac:(lia) ltac:(lia)). split; [exact N|lia]. }
    assert (SK : search (skipn 8 (t_max t)) x 9 = L) by (rewrite Tm; change 9 with (1 + Z.of_nat 8); apply search_skip; [rewrite EL; lia|fold L; lia]). rewrite SK.
    destruct SO as [[E HW]|(R & j & d & N & I & D & S)].
    + rewrite E. cbn [Z.eqb Pos.eqb orb]. split; [|reflexivity]. intros j l [N I]. exfalso.
      assert (M : weight (firstn j ls) + 2 ^ (16 - l) <= weight ls). { rewrite <- (firstn_skipn j ls) at 2. rewrite weight_app. destruct (skipn j ls) as [|y r] eqn:SJ. { apply (f_equal (@length Z)) in SJ. rewrite skipn_length in SJ. assert (J : (j < length ls)%nat) by (apply nth_error_Some; congruence). cbn [length] in SJ. lia. }
        assert (y = l). { rewrite <- (firstn_skipn j ls), SJ in N. assert (J : (j < length ls)%nat) by (apply nth_error_Some; rewrite <- (firstn_skipn j ls), SJ; congruence). rewrite nth_error_app2 in N by (rewrite firstn_length; lia). rewrite firstn_length in N. replace (j - Nat.min j (length ls))%nat with O in N by lia. cbn [nth_error] in N. congruence. } subst y. cbn [weight]. pose proof (weight_nonneg r). lia. }
      lia.
    + assert (SW : starts_with ls x j L) by (split; [exact N|lia]). destruct (Z.eqb_spec L 17); [lia|]. cbn [orb]. split; [|intros NS; exfalso; exact (NS j L SW)].
      intros j' l' S'. destruct (starts_unique ls x _ _ _ _ S' SW) as [-> ->]. destruct (count <? L); [reflexivity|].
      rewrite (rd_ok (t_delta t) (L - 1) d) by (try lia; rewrite Td; exact D). cbn [bind]. rewrite peek_div by lia. fold x.
      assert (V : w32 (x / 2 ^ (16 - L) + w32 d) = Z.of_nat j) by (unfold w32; rewrite Z.add_mod_idemp_r by lia; rewrite S, Z.add_0_l; apply Z.mod_small; pose proof (JB j L N); lia). rewrite V, (Tv j L N). reflexivity.
Qed.

(* the fast path of AC coefficients *)
Lemma shl_mod_div a l N m : 0 <= l -> 0 <= m -> l + m <= N -> (a * 2 ^ l mod 2 ^ N) / 2 ^ (N - m) = (a / 2 ^ (N - m - l)) mod 2 ^ m.
Proof.
  intros Hl Hm H. rewrite <- Z.shiftl_mul_pow2 by lia. rewrite <- !Z.shiftr_div_pow2 by lia. apply Z.bits_inj'. intros n Hn. rewrite Z.shiftr_spec by lia.
  destruct (Z.lt_ge_cases n m) as [L|L].
  - rewrite !Z.mod_pow2_bits_low by lia. rewrite Z.shiftl_spec, Z.shiftr_spec by lia. f_equal. lia.
  - rewrite !Z.mod_pow2_bits_high by lia. reflexivity.
Qed.
Lemma read_signed_eq bits n : 0 <= bits < 2 ^ 64 -> 1 <= n <= 16 -> read_signed bits n = if peek bits n <? 2 ^ (n - 1) then peek bits n + (- 2 ^ n + 1) else peek bits n.
Proof.
  intros Hb Hn. unfold read_signed. pose proof (peek_range bits n Hb ltac:(lia)) as R. assert (P1 : peek bits 1 = peek bits n / 2 ^ (n - 1)).
  { rewrite (peek_div bits 1), (peek_div bits n) by lia. rewrite Z.div_div by (try apply Z.pow_pos_nonneg; try apply Z.pow_nonzero; lia). rewrite <- Z.pow_add_r by lia. do 2 f_equal. lia. }
  assert (PP : 0 < 2 ^ (n - 1)) by (apply Z.pow_pos_nonneg; lia). assert (P2 : 2 ^ n = 2 * 2 ^ (n - 1)) by (rewrite <- Z.pow_succ_r by lia; f_equal; lia).
  rewrite P1. destruct (Z.ltb_spec (peek bits n) (2 ^ (n - 1))).
  - rewrite Z.div_small by lia. change (Z.lnot (- 0)) with (-1). rewrite Z.land_m1_r. reflexivity.
  - assert (peek bits n / 2 ^ (n - 1) = 1) as -> by (symmetry; apply (Z.div_unique _ _ 1 (peek bits n - 2 ^ (n - 1))); lia). change (Z.lnot (- (1))) with 0. rewrite Z.land_0_r. lia.
Qed.
Lemma fast_ok data t bits count ac : bytes data -> well_formed data -> built data t -> 0 <= bits < 2 ^ 64 -> 8 <= count <= 64 -> ac_entry t (peek bits 8) = Ok ac -> ac <> 0 -> slow_coef t bits count = Ok (fast_coef ac).
Proof.
  intros B W (Tm & Td & Ts & Tv & TvL & TaL & A & Ta) Hb Hc E NZ. set (ls := lengths 1 (counts data)) in *. unfold ac_entry in E. pose proof (peek_range bits 8 Hb ltac:(lia)) as X8. change (2 ^ 8) with 256 in X8.
  unfold slow_coef, read_code. set (x := peek bits 8) in *. rewrite (rd_get (t_accel t)) in * by (rewrite TaL; lia). cbn [bind] in *.
  pose proof (bytes_firstn 16 data B) as BC. fold (counts data) in BC. assert (LC : length (counts data) = 16%nat) by (unfold counts; rewrite firstn_length; destruct W; lia).
  destruct (Z.ltb_spec (get (t_accel t) x) 255) as [L|L]; [|congruence]. destruct (Ta x X8) as [(j & l & (N & L8 & _) & G)|[_ G]]; [|lia].
  assert (J256 : Z.of_nat j < 256). { assert (J : (j < length ls)%nat) by (apply nth_error_Some; congruence). pose proof (lengths_length (counts data) 1 BC) as LL. fold ls in LL. destruct W as (_ & W2 & _). lia. }
  assert (w8 (Z.of_nat j) = Z.of_nat j) as W8 by (unfold w8; apply Z.mod_small; lia). rewrite G, W8 in *. rewrite (Tv j l N) in *. cbn [bind] in *.
  rewrite (rd_ok (t_size t) (Z.of_nat j) l) in * by (try lia; rewrite Nat2Z.id, Ts; exact N). cbn [bind] in *. destruct (aligned_nth ls _ 0 j l A N) as (Hl & _).
  destruct (Z.ltb_spec count l); [lia|]. cbn [bind]. set (val := nth (16 + j) data 0) in *.
  assert (VB : 0 <= val < 256). { assert (J : (16 + j < length data)%nat). { assert (J : (j < length ls)%nat) by (apply nth_error_Some; congruence). pose proof (lengths_length (counts data) 1 BC) as LL. fold ls in LL. destruct W as (_ & _ & W3 & _). lia. } apply (proj1 (Forall_forall _ _) B). apply nth_In. exact J. }
  assert (MG : 0 <= Z.land val 15 < 16) by (change 15 with (Z.ones 4); rewrite Z.land_ones by lia; apply Z.mod_pos_bound; reflexivity). set (mag := Z.land val 15) in *.
  assert (RN : 0 <= Z.shiftr val 4 < 16) by (rewrite Z.shiftr_div_pow2 by lia; change (2 ^ 4) with 16; split; [apply Z.div_pos; lia|apply Z.div_lt_upper_bound; lia]). set (run := Z.shiftr val 4) in *.
  destruct (Z.eqb_spec mag 0) as [|M0]; cbn [negb andb] in E; [congruence|]. destruct (Z.leb_spec (l + mag) 8) as [LM|LM]; [|congruence].
  unfold drop. set (bits' := w64 (Z.shiftl bits l)). assert (Hb' : 0 <= bits' < 2 ^ 64) by (unfold bits', w64; apply (Z.mod_pos_bound _ (2 ^ 64)); reflexivity).
  assert (CW : w64 (count - l) = count - l) by (unfold w64; apply Z.mod_small; lia). rewrite CW. destruct (Z.ltb_spec (count - l) mag); [lia|].
  assert (K : Z.shiftr (Z.land (w32 (Z.shiftl x l)) 255) (8 - mag) = peek bits' mag).
  { unfold peek at 1. rewrite !Z.shiftr_div_pow2 by lia. unfold bits', w64. rewrite (Z.shiftl_mul_pow2 bits) by lia. change 18446744073709551616 with (2 ^ 64). rewrite (shl_mod_div bits l 64 mag) by lia.
    assert (XS : w32 (Z.shiftl x l) = x * 2 ^ l) by (rewrite Z.shiftl_mul_pow2 by lia; unfold w32; apply Z.mod_small; assert (1 <= 2 ^ l <= 256) by (split; [change 1 with (2 ^ 0)|change 256 with (2 ^ 8)]; apply Z.pow_le_mono_r; lia); split; [apply Z.mul_nonneg_nonneg; lia|apply Z.le_lt_trans with (255 * 256); [apply Z.mul_le_mono_nonneg; lia|lia]]).
    rewrite XS. change 255 with (Z.ones 8). rewrite Z.land_ones by lia. rewrite (shl_mod_div x l 8 mag) by lia. unfold x, peek. rewrite Z.shiftr_div_pow2 by lia. rewrite Z.div_div by (try apply Z.pow_pos_nonneg; try apply Z.pow_nonzero; lia). rewrite <- Z.pow_add_r by lia. do 3 f_equal. lia. }
  rewrite K, Z.shiftl_1_l in E. rewrite (read_signed_eq bits' mag Hb') by lia. pose proof (peek_range bits' mag Hb' ltac:(lia)) as PR.
  set (v := if peek bits' mag <? 2 ^ (mag - 1) then peek bits' mag + (- 2 ^ mag + 1) else peek bits' mag) in *.
  assert (M128 : 2 ^ mag <= 128) by (change 128 with (2 ^ 7); apply Z.pow_le_mono_r; lia).
  assert (VR : -128 <= v <= 127) by (unfold v; destruct (peek bits' mag <? 2 ^ (mag - 1)); lia).
  destruct (Z.leb_spec (-128) v); [|lia]. destruct (Z.leb_spec v 127); [|lia]. cbn [andb] in E. inversion E as [E']. unfold fast_coef.
  change 15 with (Z.ones 4). rewrite !Z.land_ones by lia. rewrite !Z.shiftr_div_pow2 by lia. change (2 ^ 4) with 16. change (2 ^ 8) with 256.
  assert (A1 : (v * 256 + (run * 16 + l + mag)) mod 16 = l + mag) by (symmetry; apply (Z.mod_unique _ 16 (v * 16 + run)); lia).
  assert (A2 : (v * 256 + (run * 16 + l + mag)) / 16 = v * 16 + run) by (symmetry; apply (Z.div_unique _ 16 (v * 16 + run) (l + mag)); lia).
  assert (A3 : (v * 16 + run) mod 16 = run) by (symmetry; apply (Z.mod_unique _ 16 v); lia).
  assert (A4 : (v * 256 + (run * 16 + l + mag)) / 256 = v) by (symmetry; apply (Z.div_unique _ 256 v (run * 16 + l + mag)); lia).
  rewrite A1, A2, A3, A4. reflexivity.
Qed.

(* the last of 256 symbols has more than eight bits *)
Lemma lengths_app a : forall i b, lengths i (a ++ b) = lengths i a ++ lengths (i + Z.of_nat (length a)) b.
Proof. induction a as [|c a IH]; intros i b; cbn [app lengths length]; [f_equal; lia|]. rewrite IH, app_assoc. do 2 f_equal. lia. Qed.
Lemma lengths_ge b : forall i, Forall (fun l => i <= l) (lengths i b).
Proof.
  induction b as [|c b IH]; intros i; cbn [lengths]; [constructor|]. apply Forall_app. split; [apply Forall_forall; intros x HI; apply repeat_spec in HI; lia|]. eapply Forall_impl; [|apply IH]. cbn beta. intros; lia.
Qed.
Lemma last_long data : bytes data -> well_formed data -> forall l, nth_error (lengths 1 (counts data)) 255 = Some l -> 8 < l.
Proof.
  intros B (W1 & _ & _ & F) l N. unfold fits in F. pose proof (bytes_firstn 16 data B) as BC. fold (counts data) in BC. assert (LC : length (counts data) = 16%nat) by (unfold counts; rewrite firstn_length; lia).
  destruct (counts data) as [|c1 [|c2 [|c3 [|c4 [|c5 [|c6 [|c7 [|c8 r]]]]]]]]; try (cbn [length] in LC; lia).
  change (c1 :: c2 :: c3 :: c4 :: c5 :: c6 :: c7 :: c8 :: r) with ([c1; c2; c3; c4; c5; c6; c7; c8] ++ r) in *. rewrite lengths_app in N, F. cbn [length] in N, F. change (1 + Z.of_nat 8) with 9 in N, F. apply Forall_app in BC. destruct BC as [BC _].
  destruct (Nat.lt_ge_cases 255 (length (lengths 1 [c1; c2; c3; c4; c5; c6; c7; c8]))) as [L|L].
  - exfalso. rewrite weight_app in F. pose proof (weight_nonneg (lengths 9 r)) as NN. pose proof (lengths_length _ 1 BC) as LL. unfold total in LL. cbn [fold_right] in LL. cbn [lengths] in F. rewrite !weight_app in F. cbn [weight] in F.
    repeat match goal with H : bytes _ |- _ => let x := fresh in let y := fresh in inversion H as [|? ? x y]; subst; clear H; unfold is_byte in x end.
    repeat match goal with H : Forall _ (_ :: _) |- _ => let x := fresh in let y := fresh in inversion H as [|? ? x y]; subst; clear H; unfold is_byte in x end.
    rewrite !weight_repeat in F. rewrite !Z2Nat.id in F by lia.
    change (2 ^ (16 - 1)) with 32768 in F. change (2 ^ (16 - (1 + 1))) with 16384 in F. change (2 ^ (16 - (1 + 1 + 1))) with 8192 in F. change (2 ^ (16 - (1 + 1 + 1 + 1))) with 4096 in F.
    change (2 ^ (16 - (1 + 1 + 1 + 1 + 1))) with 2048 in F. change (2 ^ (16 - (1 + 1 + 1 + 1 + 1 + 1))) with 1024 in F. change (2 ^ (16 - (1 + 1 + 1 + 1 + 1 + 1 + 1))) with 512 in F. change (2 ^ (16 - (1 + 1 + 1 + 1 + 1 + 1 + 1 + 1))) with 256 in F.
    change (2 ^ 16) with 65536 in F. lia.
  - rewrite nth_error_app2 in N by lia. apply nth_error_In in N. pose proof (proj1 (Forall_forall _ _) (lengths_ge r 9) l N) as G. cbn beta in G. lia.
Qed.
Lemma ac_total data t bits : bytes data -> well_formed data -> built data t -> 0 <= bits < 2 ^ 64 -> exists ac, ac_entry t (peek bits 8) = Ok ac.
Proof.
  intros B W (Tm & Td & Ts & Tv & TvL & TaL & A & Ta) Hb. set (ls := lengths 1 (counts data)) in *. pose proof (peek_range bits 8 Hb ltac:(lia)) as X8. change (2 ^ 8) with 256 in X8. unfold ac_entry. set (x := peek bits 8) in *.
  rewrite (rd_get (t_accel t)) by (rewrite TaL; lia). cbn [bind]. destruct (Z.ltb_spec (get (t_accel t) x) 255) as [L|L]; [|eexists; reflexivity]. destruct (Ta x X8) as [(j & l & (N & L8 & _) & G)|[_ G]]; [|lia].
  pose proof (bytes_firstn 16 data B) as BC. fold (counts data) in BC.
  assert (J256 : Z.of_nat j < 256). { assert (J : (j < length ls)%nat) by (apply nth_error_Some; congruence). pose proof (lengths_length (counts data) 1 BC) as LL. fold ls in LL. destruct W as (_ & W2 & _). lia. }
  assert (w8 (Z.of_nat j) = Z.of_nat j) as W8 by (unfold w8; apply Z.mod_small; lia). rewrite G, W8. rewrite (Tv j l N). cbn [bind].
  rewrite (rd_ok (t_size t) (Z.of_nat j) l) by (try lia; rewrite Nat2Z.id, Ts; exact N). cbn [bind].
  destruct (negb _ && _); [|eexists; reflexivity]. destruct (_ && _); eexists; reflexivity.
Qed.
