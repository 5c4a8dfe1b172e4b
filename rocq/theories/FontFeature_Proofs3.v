(* The SSO representation: a set of boolean features, their values, and a list of at most four other features. *)
From Verif Require Import Base Bits Algorithm_Model TagData_Model TagData_Spec TagData_Proofs
  FontFeature_Model FontFeature_Spec FontFeature_Proofs FontFeature_Proofs2.
Ltac Zify.zify_post_hook ::= idtac.

Record abs := Abs { bset : Z; bval : Z; fats : list item }.

Definition fat_id (id : Z) : Prop := 0 <= id < kFeatureIdCount /\ has_bit_id (feature_info_at id) = false.

Record wf (a : abs) : Prop := {
  wf_set : 0 <= bset a < 2 ^ 32;
  wf_val : 0 <= bval a < 2 ^ 32;
  wf_sub : forall i, 0 <= i -> Z.testbit (bval a) i = true -> Z.testbit (bset a) i = true;
  wf_len : (length (fats a) <= 4)%nat;
  wf_inc : increasing (keys (fats a));
  wf_fat : Forall (fun it => fat_id (fst it) /\ 0 <= snd it < 16) (fats a) }.

Definition pad (z : Z) (l : list Z) : list Z := l ++ repeat z (4 - length l).
Definition nbits (b : Z) : Z := Z.of_nat (length (set_bits b)).
Definition size_of (a : abs) : Z := nbits (bset a) + Z.of_nat (length (fats a)).
Definition tag_digits (a : abs) : list Z := pad 255 (map fst (fats a)).
Definition val_digits (a : abs) : list Z := pad 0 (map snd (fats a)).
Definition encode (a : abs) : sso :=
  {| d0 := bset a; d1 := bval a; d2 := pack 8 (tag_digits a);
     info := pack 4 (val_digits a) + 2 ^ 16 * (33856 + size_of a) |}.

Lemma pad_length z l : (length l <= 4)%nat -> length (pad z l) = 4%nat.
Proof. intros H. unfold pad. rewrite app_length, repeat_length. lia. Qed.
Lemma pad_digits w z l : digits w l -> 0 <= z < 2 ^ w -> digits w (pad z l).
Proof. intros H Hz. apply Forall_app. split; auto. apply Forall_forall. intros x Hx. apply repeat_spec in Hx. subst. auto. Qed.

Lemma set_bits_in b i : In i (set_bits b) <-> 0 <= i < 32 /\ Z.testbit b i = true.
Proof.
  unfold set_bits. rewrite filter_In, in_map_iff. split.
  - intros [(n & <- & Hn) T]. apply in_seq in Hn. split; [lia|auto].
  - intros [H T]. split; auto. exists (Z.to_nat i). rewrite in_seq. split; lia.
Qed.
Lemma nbits_bound b : 0 <= nbits b <= 32.
Proof.
  unfold nbits, set_bits. split; [lia|].
  assert (forall (f : Z -> bool) l, (length (filter f l) <= length l)%nat).
  { intros f l. induction l as [|x r IH]; cbn; auto. destruct (f x); cbn; lia. }
  specialize (H (Z.testbit b) (map Z.of_nat (seq 0 32))). rewrite map_length, seq_length in H. lia.
Qed.

(* counting the bits of a word that differs in one bit *)
Lemma count_change (f g : Z -> bool) l i : NoDup l -> In i l -> (forall j, j <> i -> f j = g j) -> f i = false -> g i = true ->
  length (filter g l) = S (length (filter f l)).
Proof.
  induction l as [|x r IH]; intros N I E Fi Gi; [destruct I|].
  inversion N; subst. cbn. destruct (Z.eq_dec x i) as [->|Hx].
  - rewrite Fi, Gi. cbn [length]. f_equal. f_equal.
    assert (forall l', ~ In i l' -> filter g l' = filter f l').
    { induction l' as [|y l' IH']; intros Hn; auto. cbn. rewrite E by (intros ->; apply Hn; left; auto).
      rewrite IH' by (intros Q; apply Hn; right; auto). reflexivity. }
    apply H. auto.
  - rewrite (E x Hx). destruct I as [->|I]; [contradiction|]. destruct (g x); cbn; rewrite IH; auto.
Qed.
Lemma nodup_idx : NoDup (map Z.of_nat (seq 0 32)).
Proof. apply FinFun.Injective_map_NoDup; [intros x y; lia|apply seq_NoDup]. Qed.

Lemma nbits_change b c i : 0 <= i < 32 -> (forall j, 0 <= j -> j <> i -> Z.testbit b j = Z.testbit c j) ->
  Z.testbit b i = false -> Z.testbit c i = true -> nbits c = nbits b + 1.
Proof.
  intros Hi E Bi Ci. unfold nbits, set_bits.
  assert (forall j, j <> i -> Z.testbit b j = Z.testbit c j).
  { intros j Hj. destruct (Z.lt_ge_cases j 0); [rewrite !Z.testbit_neg_r by lia; auto|]. apply E; auto. }
  rewrite (count_change (Z.testbit b) (Z.testbit c) _ i); auto; try lia; [apply nodup_idx|].
  apply in_map_iff. exists (Z.to_nat i). rewrite in_seq. lia.
Qed.

(* bits of words *)
Lemma bit_word i : 0 <= i < 32 -> w32 (Z.shiftl 1 i) = 2 ^ i.
Proof.
  intros. rewrite Z.shiftl_mul_pow2 by lia. rewrite w32_small; [lia|].
  assert (2 ^ i < 2 ^ 32) by (apply Z.pow_lt_mono_r; lia). pose proof (pow_pos2 i). change (2 ^ 32) with 4294967296 in *. lia.
Qed.
Lemma bit_word_v v i : 0 <= v <= 1 -> 0 <= i < 32 -> w32 (Z.shiftl v i) = Z.shiftl v i /\
  forall j, 0 <= j -> Z.testbit (Z.shiftl v i) j = (j =? i) && (v =? 1).
Proof.
  intros Hv Hi. assert (v = 0 \/ v = 1) as [-> | ->] by lia.
  - rewrite Z.shiftl_0_l. split; auto. intros j Hj. rewrite Z.bits_0. symmetry. apply andb_false_r.
  - split.
    + rewrite bit_word by auto. rewrite Z.shiftl_mul_pow2 by lia. lia.
    + intros j Hj. rewrite Z.shiftl_mul_pow2, Z.mul_1_l by lia. rewrite Z.pow2_bits_eqb by lia. rewrite andb_true_r. apply Z.eqb_sym.
Qed.
Lemma testbit_bound x : (forall j, 32 <= j -> Z.testbit x j = false) -> 0 <= x -> x < 2 ^ 32.
Proof.
  intros H H0. destruct (Z.lt_ge_cases x (2 ^ 32)); auto. exfalso.
  assert (0 < x) by (change (2 ^ 32) with 4294967296 in *; lia).
  pose proof (Z.bit_log2 x H2) as B. rewrite H in B; [discriminate|]. apply Z.log2_le_pow2; auto.
Qed.
Lemma testbit_high x j : 0 <= x < 2 ^ 32 -> 32 <= j -> Z.testbit x j = false.
Proof. intros Hx Hj. rewrite <- (Z.mod_small x (2 ^ 32)) by auto. apply Z.mod_pow2_bits_high. lia. Qed.
Lemma land_shift_1 x i : 0 <= i -> Z.land (Z.shiftr x i) 1 = Z.b2z (Z.testbit x i).
Proof. intros Hi. change 1 with (Z.ones 1). rewrite Z.land_ones by lia. change (2 ^ 1) with 2. rewrite <- Z.bit0_mod, Z.shiftr_spec by lia. reflexivity. Qed.

Lemma has_bit_ok a i : 0 <= i -> has_sso_bit_tag (encode a) i = Z.testbit (bset a) i.
Proof. intros. unfold has_sso_bit_tag, encode. cbn [d0]. rewrite land_shift_1 by lia. destruct (Z.testbit (bset a) i); reflexivity. Qed.
Lemma get_bit_ok a i : 0 <= i -> get_sso_bit_value (encode a) i = Z.b2z (Z.testbit (bval a) i).
Proof. intros. unfold get_sso_bit_value, encode. cbn [d1]. apply land_shift_1. lia. Qed.

Definition set_bit_tag (a : abs) (i v : Z) : abs :=
  {| bset := Z.lor (bset a) (2 ^ i); bval := Z.lor (Z.ldiff (bval a) (2 ^ i)) (Z.shiftl v i); fats := fats a |}.
Definition del_bit_tag (a : abs) (i : Z) : abs :=
  {| bset := Z.ldiff (bset a) (2 ^ i); bval := Z.ldiff (bval a) (2 ^ i); fats := fats a |}.

Lemma set_bit_bits a i v j : 0 <= i -> 0 <= j -> 0 <= v <= 1 -> i < 32 ->
  Z.testbit (bset (set_bit_tag a i v)) j = (j =? i) || Z.testbit (bset a) j /\
  Z.testbit (bval (set_bit_tag a i v)) j = if j =? i then v =? 1 else Z.testbit (bval a) j.
Proof.
  intros Hi Hj Hv Hi'. cbn [bset bval set_bit_tag]. rewrite !Z.lor_spec, Z.ldiff_spec, Z.pow2_bits_eqb by lia.
  destruct (bit_word_v v i Hv ltac:(lia)) as [_ B]. rewrite B by auto. rewrite (Z.eqb_sym i j).
  destruct (j =? i); cbn; split; rewrite ?orb_true_r, ?orb_false_r, ?andb_true_r, ?andb_false_r; auto.
Qed.
Lemma del_bit_bits a i j : 0 <= i -> 0 <= j ->
  Z.testbit (bset (del_bit_tag a i)) j = negb (j =? i) && Z.testbit (bset a) j /\
  Z.testbit (bval (del_bit_tag a i)) j = negb (j =? i) && Z.testbit (bval a) j.
Proof.
  intros Hi Hj. cbn [bset bval del_bit_tag]. rewrite !Z.ldiff_spec, Z.pow2_bits_eqb by lia. rewrite (Z.eqb_sym i j).
  rewrite !(andb_comm (negb (j =? i))). auto.
Qed.

Lemma wf_set_bit a i v : wf a -> 0 <= i < 32 -> 0 <= v <= 1 -> wf (set_bit_tag a i v).
Proof.
  intros [H1 H2 H3 H4 H5 H6] Hi Hv. destruct (bit_word_v v i Hv Hi) as [_ B].
  pose proof (pow_pos2 i ltac:(lia)). assert (0 <= Z.shiftl v i) by (apply Z.shiftl_nonneg; lia).
  constructor; auto.
  - split; [cbn; apply Z.lor_nonneg; lia|]. apply testbit_bound; [|cbn; apply Z.lor_nonneg; lia].
    intros j Hj. destruct (set_bit_bits a i v j) as [-> _]; try lia. destruct (Z.eqb_spec j i); [lia|]. apply testbit_high; auto.
  - assert (N : 0 <= bval (set_bit_tag a i v)) by (cbn; apply Z.lor_nonneg; split; auto; apply Z.ldiff_nonneg; lia).
    split; auto. apply testbit_bound; auto.
    intros j Hj. destruct (set_bit_bits a i v j) as [_ ->]; try lia. destruct (Z.eqb_spec j i); [lia|]. apply testbit_high; auto.
  - intros j Hj. destruct (set_bit_bits a i v j) as [-> ->]; try lia. destruct (j =? i); auto. cbn. apply H3; auto.
Qed.
Lemma wf_del_bit a i : wf a -> 0 <= i < 32 -> wf (del_bit_tag a i).
Proof.
  intros [H1 H2 H3 H4 H5 H6] Hi. constructor; auto.
  - assert (N : 0 <= bset (del_bit_tag a i)) by (cbn; apply Z.ldiff_nonneg; lia). split; auto. apply testbit_bound; auto.
    intros j Hj. destruct (del_bit_bits a i j) as [-> _]; try lia. rewrite testbit_high by auto. apply andb_false_r.
  - assert (N : 0 <= bval (del_bit_tag a i)) by (cbn; apply Z.ldiff_nonneg; lia). split; auto. apply testbit_bound; auto.
    intros j Hj. destruct (del_bit_bits a i j) as [_ ->]; try lia. rewrite testbit_high by auto. apply andb_false_r.
  - intros j Hj. destruct (del_bit_bits a i j) as [-> ->]; try lia. destruct (j =? i); cbn; auto; discriminate.
Qed.

Lemma size_bound a : wf a -> 0 <= size_of a <= 36.
Proof. intros [H1 H2 H3 H4 H5 H6]. unfold size_of. pose proof (nbits_bound (bset a)). lia. Qed.

Lemma fst_digits l : Forall (fun it => fat_id (fst it) /\ 0 <= snd it < 16) l -> digits 8 (map fst l) /\ digits 4 (map snd l).
Proof.
  intros H. induction H as [|it r [F V] Hr [IH1 IH2]]; [split; constructor|].
  destruct F as [F _]. split; constructor; auto. unfold kFeatureIdCount in F. change (2 ^ 8) with 256. lia.
Qed.
Lemma val_bound a : wf a -> 0 <= pack 4 (val_digits a) < 65536.
Proof.
  intros W. destruct W as [H1 H2 H3 H4 H5 H6]. destruct (fst_digits _ H6) as [_ D].
  pose proof (pack_bound 4 (val_digits a) ltac:(lia) (pad_digits 4 0 _ D ltac:(lia))) as B.
  unfold val_digits in B at 3. rewrite pad_length in B by (rewrite map_length; auto). change (2 ^ (4 * Z.of_nat 4)) with 65536 in B. auto.
Qed.

Lemma size_ok a : wf a -> get_sso_size (encode a) = size_of a.
Proof.
  intros W. pose proof (size_bound a W) as S. pose proof (val_bound a W) as V.
  unfold get_sso_size, encode. cbn [info]. change 63 with (2 ^ 6 - 1). rewrite land_mask by lia. rewrite Z.shiftr_div_pow2 by lia.
  change (2 ^ 16) with 65536. change (2 ^ 6) with 64.
  replace ((pack 4 (val_digits a) + 65536 * (33856 + size_of a)) / 65536) with (33856 + size_of a) by (apply Z.div_unique with (pack 4 (val_digits a)); lia).
  symmetry. apply Z.mod_unique with 529; lia.
Qed.

Lemma info_step a b : wf a -> wf b -> fats a = fats b -> forall k, size_of b = size_of a + k ->
  w32 (info (encode a) + k * 65536) = info (encode b).
Proof.
  intros Wa Wb F k S. pose proof (size_bound _ Wb). pose proof (val_bound _ Wb) as V.
  assert (E : val_digits a = val_digits b) by (unfold val_digits; rewrite F; auto).
  cbn [info encode]. rewrite E, S. change (2 ^ 16) with 65536.
  replace (pack 4 (val_digits b) + 65536 * (33856 + size_of a) + k * 65536) with (pack 4 (val_digits b) + 65536 * (33856 + (size_of a + k))) by lia.
  apply w32_small. lia.
Qed.

Lemma sso_ext x y : d0 x = d0 y -> d1 x = d1 y -> d2 x = d2 y -> info x = info y -> x = y.
Proof. destruct x, y; cbn; intros; subst; reflexivity. Qed.

Lemma add_bit_ok a i v : wf a -> 0 <= i < 32 -> 0 <= v <= 1 -> Z.testbit (bset a) i = false ->
  add_sso_bit_tag (encode a) i v = encode (set_bit_tag a i v).
Proof.
  intros W Hi Hv T. pose proof (wf_set_bit a i v W Hi Hv) as W'. destruct (bit_word_v v i Hv Hi) as [B1 B2].
  apply sso_ext; unfold add_sso_bit_tag; cbn [d0 d1 d2].
  - rewrite bit_word by auto. reflexivity.
  - rewrite B1. cbn [encode d1 set_bit_tag bval]. f_equal. symmetry. apply Z.bits_inj'. intros j Hj.
    rewrite Z.ldiff_spec, Z.pow2_bits_eqb by lia. destruct (Z.eqb_spec i j) as [->|]; cbn; [|apply andb_true_r].
    rewrite andb_false_r. destruct (Z.testbit (bval a) j) eqn:E; auto. apply (wf_sub a W) in E; [|lia]. congruence.
  - reflexivity.
  - change (Z.shiftl 1 16) with (1 * 65536). cbn [add_sso_bit_tag info]. apply (info_step a); auto.
    unfold size_of. cbn [bset set_bit_tag fats].
    rewrite (nbits_change (bset a) (Z.lor (bset a) (2 ^ i)) i); try lia; auto.
    + intros j Hj N. destruct (set_bit_bits a i v j) as [E _]; try lia. cbn [bset set_bit_tag] in E. rewrite E.
      destruct (Z.eqb_spec j i); [lia|reflexivity].
    + destruct (set_bit_bits a i v i) as [E _]; try lia. cbn [bset set_bit_tag] in E. rewrite E, Z.eqb_refl. reflexivity.
Qed.

Lemma update_bit_ok a i v : wf a -> 0 <= i < 32 -> 0 <= v <= 1 -> Z.testbit (bset a) i = true ->
  update_sso_bit_value (encode a) i v = encode (set_bit_tag a i v).
Proof.
  intros W Hi Hv T. pose proof (wf_set_bit a i v W Hi Hv) as W'. destruct (bit_word_v v i Hv Hi) as [B1 B2].
  assert (E0 : bset (set_bit_tag a i v) = bset a).
  { apply Z.bits_inj'. intros j Hj. destruct (set_bit_bits a i v j) as [-> _]; try lia.
    destruct (Z.eqb_spec j i) as [->|]; auto. }
  apply sso_ext; unfold update_sso_bit_value; cbn [d0 d1 d2 info].
  - cbn [encode d0]. auto.
  - rewrite B1, bit_word by auto. reflexivity.
  - reflexivity.
  - cbn [encode info]. unfold size_of, val_digits. rewrite E0. reflexivity.
Qed.

Lemma remove_bit_ok a i : wf a -> 0 <= i < 32 -> Z.testbit (bset a) i = true ->
  remove_sso_bit_tag (encode a) i = encode (del_bit_tag a i).
Proof.
  intros W Hi T. pose proof (wf_del_bit a i W Hi) as W'.
  apply sso_ext; unfold remove_sso_bit_tag; cbn [d0 d1 d2].
  - rewrite bit_word by auto. reflexivity.
  - rewrite bit_word by auto. reflexivity.
  - reflexivity.
  - cbn [remove_sso_bit_tag info]. change (Z.shiftl 1 16) with 65536.
    replace (info (encode a) - 65536) with (info (encode a) + (-1) * 65536) by lia. apply info_step; auto.
    unfold size_of. cbn [bset del_bit_tag fats].
    rewrite (nbits_change (Z.ldiff (bset a) (2 ^ i)) (bset a) i); try lia; auto.
    + intros j Hj N. destruct (del_bit_bits a i j) as [E _]; try lia. cbn [bset del_bit_tag] in E. rewrite E.
      destruct (Z.eqb_spec j i); [lia|reflexivity].
    + destruct (del_bit_bits a i i) as [E _]; try lia. cbn [bset del_bit_tag] in E. rewrite E, Z.eqb_refl. reflexivity.
Qed.
