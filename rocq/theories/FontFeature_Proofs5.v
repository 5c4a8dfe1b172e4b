(* The feature tables, and the items an SSO representation is converted to. *)
From Verif Require Import Base Bits Algorithm_Model TagData_Model TagData_Spec TagData_Proofs
  FontFeature_Model FontFeature_Spec FontFeature_Proofs FontFeature_Proofs2 FontFeature_Proofs3 FontFeature_Proofs4.
Ltac Zify.zify_post_hook ::= idtac.

(* tables *)
Definition T (id : Z) : Z := nth (Z.to_nat id) feature_id_to_tag_table 0.
Definition B (i : Z) : Z := nth (Z.to_nat i) feature_bit_id_to_feature_id_table 0.

Lemma inc_nth l : increasing l -> forall i j, (i < j < length l)%nat -> nth i l 0 < nth j l 0.
Proof.
  induction l as [|x r IH]; intros I i j H; [cbn in H; lia|].
  destruct I as [Hx I]. destruct j as [|j]; [lia|]. cbn [nth length] in *. destruct i as [|i].
  - destruct r as [|y r]; [cbn in H; lia|]. destruct j as [|j]; [exact Hx|].
    pose proof (IH I 0%nat (S j) ltac:(lia)) as L. cbn [nth] in *. lia.
  - apply IH; auto. lia.
Qed.

Lemma check_range (n : nat) (f : Z -> bool) : forallb f (map Z.of_nat (seq 0 n)) = true -> forall i, 0 <= i < Z.of_nat n -> f i = true.
Proof.
  intros H i Hi. rewrite forallb_forall in H. apply H. apply in_map_iff. exists (Z.to_nat i). rewrite in_seq. lia.
Qed.

Lemma rd_nth {A} (l : list A) d i : 0 <= i < Z.of_nat (length l) -> rd l i = Ok (nth (Z.to_nat i) l d).
Proof.
  intros H. destruct (rd_in l i H) as (x & -> & E). f_equal. symmetry. apply nth_error_nth. auto.
Qed.

Lemma T_len : Z.of_nat (length feature_id_to_tag_table) = 241. Proof. reflexivity. Qed.
Lemma B_len : Z.of_nat (length feature_bit_id_to_feature_id_table) = 32. Proof. reflexivity. Qed.
Lemma T_rd id : 0 <= id < 241 -> rd feature_id_to_tag_table id = Ok (T id).
Proof. intros H. apply rd_nth. rewrite T_len. auto. Qed.
Lemma B_rd i : 0 <= i < 32 -> rd feature_bit_id_to_feature_id_table i = Ok (B i).
Proof. intros H. apply rd_nth. rewrite B_len. auto. Qed.
Lemma T_mono i j : 0 <= i -> i < j -> j < 241 -> T i < T j.
Proof.
  intros. apply inc_nth; [|pose proof T_len; lia]. apply increasingb_ok. vm_compute. reflexivity.
Qed.
Lemma B_mono i j : 0 <= i -> i < j -> j < 32 -> B i < B j.
Proof.
  intros. apply inc_nth; [|pose proof B_len; lia]. apply increasingb_ok. vm_compute. reflexivity.
Qed.
Lemma T_inj i j : 0 <= i < 241 -> 0 <= j < 241 -> T i = T j -> i = j.
Proof.
  intros Hi Hj E. destruct (Z.lt_trichotomy i j) as [L|[L|L]]; auto.
  - pose proof (T_mono i j). lia.
  - pose proof (T_mono j i). lia.
Qed.
Lemma T_valid id : 0 <= id < 241 -> 0 <= T id < 2 ^ 32 /\ is_valid_tag (T id) = true.
Proof.
  intros H. pose proof (check_range 241 (fun i => (0 <=? T i) && (T i <? 2 ^ 32) && is_valid_tag (T i)) ltac:(vm_compute; reflexivity) id H) as C.
  apply andb_prop in C as [C C3]. apply andb_prop in C as [C1 C2]. apply Z.leb_le in C1. apply Z.ltb_lt in C2. auto.
Qed.
Lemma info_rd id : 0 <= id <= 241 -> rd feature_info_table id = Ok (feature_info_at id).
Proof.
  intros H. unfold feature_info_table.
  assert (L : forall n, (n <= 241)%nat -> nth_error (map (fun i => feature_info_at (Z.of_nat i)) (seq 0 242)) n = Some (feature_info_at (Z.of_nat n))).
  { intros n Hn. rewrite nth_error_map. rewrite (nth_error_nth' _ 0%nat) by (rewrite seq_length; lia). rewrite seq_nth by lia. reflexivity. }
  change (S (Z.to_nat kFeatureIdCount)) with 242%nat.
  rewrite <- (Z2Nat.id id) at 1 by lia. rewrite rd_nat, L by lia. rewrite Z2Nat.id by lia. reflexivity.
Qed.
Lemma B_fact i : 0 <= i < 32 -> 0 <= B i < 241 /\ fi_bit_id (feature_info_at (B i)) = i /\ has_bit_id (feature_info_at (B i)) = true.
Proof.
  intros H. pose proof (check_range 32 (fun i => (0 <=? B i) && (B i <? 241) && (fi_bit_id (feature_info_at (B i)) =? i) && has_bit_id (feature_info_at (B i)))
    ltac:(vm_compute; reflexivity) i H) as C.
  apply andb_prop in C as [C C4]. apply andb_prop in C as [C C3]. apply andb_prop in C as [C1 C2].
  apply Z.leb_le in C1. apply Z.ltb_lt in C2. apply Z.eqb_eq in C3. auto.
Qed.
Lemma bit_fact id : 0 <= id < 241 -> has_bit_id (feature_info_at id) = true ->
  0 <= fi_bit_id (feature_info_at id) < 32 /\ B (fi_bit_id (feature_info_at id)) = id.
Proof.
  intros H Hb. pose proof (check_range 241 (fun id => negb (has_bit_id (feature_info_at id)) ||
      (0 <=? fi_bit_id (feature_info_at id)) && (fi_bit_id (feature_info_at id) <? 32) && (B (fi_bit_id (feature_info_at id)) =? id))
    ltac:(vm_compute; reflexivity) id H) as C. cbv beta in C.
  rewrite Hb in C. cbn [negb orb] in C.
  apply andb_prop in C as [C C3]. apply andb_prop in C as [C1 C2].
  apply Z.leb_le in C1. apply Z.ltb_lt in C2. apply Z.eqb_eq in C3. auto.
Qed.
Lemma boolean_fact id : 0 <= id < 241 -> In (T id) boolean_tags <-> has_bit_id (feature_info_at id) = true.
Proof.
  intros H. pose proof (check_range 241 (fun id => Bool.eqb (existsb (Z.eqb (T id)) boolean_tags) (has_bit_id (feature_info_at id)))
    ltac:(vm_compute; reflexivity) id H) as C. cbv beta in C. apply Bool.eqb_prop in C. rewrite <- C. rewrite existsb_exists. split.
  - intros I. exists (T id). split; auto. apply Z.eqb_refl.
  - intros (x & I & E). apply Z.eqb_eq in E. rewrite E. auto.
Qed.
Lemma boolean_known t : In t boolean_tags -> exists id, 0 <= id < 241 /\ t = T id.
Proof.
  intros I. assert (C : forallb (fun t => existsb (fun id => t =? T id) (map Z.of_nat (seq 0 241))) boolean_tags = true) by (vm_compute; reflexivity).
  rewrite forallb_forall in C. specialize (C _ I). apply existsb_exists in C as (id & J & E). apply Z.eqb_eq in E.
  apply in_map_iff in J as (n & <- & Hn). apply in_seq in Hn. exists (Z.of_nat n). split; [lia|auto].
Qed.

Lemma id_cases t : (exists id, 0 <= id < 241 /\ t = T id /\ feature_tag_to_id t = Ok id) \/
  (feature_tag_to_id t = Ok kInvalidId /\ forall id, 0 <= id < 241 -> t <> T id).
Proof.
  destruct (feature_exact t) as (r & E & [[R N]|[R N]]).
  - left. exists r. assert (Z.to_nat r < length feature_id_to_tag_table)%nat by (apply nth_error_Some; rewrite N; discriminate).
    pose proof T_len. repeat split; auto; try lia. unfold T. symmetry. apply nth_error_nth. auto.
  - right. subst r. split; auto. intros id Hid ->. apply N. unfold T. apply nth_In. pose proof T_len. lia.
Qed.
Lemma T_to_id id : 0 <= id < 241 -> feature_tag_to_id (T id) = Ok id.
Proof.
  intros H. destruct (id_cases (T id)) as [(j & Hj & E & F)|[_ N]]; [|exfalso; apply (N id H); auto].
  apply T_inj in E; auto. subst. auto.
Qed.
Lemma id_valid id : 0 <= id < 241 -> (id =? kInvalidId) = false.
Proof. intros. apply Z.eqb_neq. unfold kInvalidId. lia. Qed.

(* the items *)
Definition totag (it : item) : item := (T (fst it), snd it).
Definition bitems (vals : Z) (bits : list Z) : list item := map (fun i => (B i, Z.b2z (Z.testbit vals i))) bits.
Fixpoint mg (b f : list item) : list item :=
  match b with
  | [] => f
  | (i, v) :: b' => firstn (pos i f) f ++ (i, v) :: mg b' (skipn (pos i f) f)
  end.
Definition ids (a : abs) : list item := mg (bitems (bval a) (set_bits (bset a))) (fats a).
Definition content (a : abs) : list item := map totag (ids a).

Definition small (l : list item) : Prop := Forall (fun it => 0 <= fst it < 241 /\ 0 <= snd it < 16) l.

Record St (m : nat) (L : list item) (fid ft fv : Z) : Prop := {
  st_id : fid = match L with [] => kDummyFatTagId | it :: _ => fst it end;
  st_tags : L <> [] -> ft = pack 8 (keys (tl L) ++ repeat 255 (S m));
  st_vals : exists r, fv = pack 4 (map snd L) + 2 ^ (4 * Z.of_nat (length L)) * r;
  st_small : small L }.

Lemma st_next m it L fid ft fv : St m (it :: L) fid ft fv ->
  fid = fst it /\ 0 <= fid < 241 /\ rd feature_id_to_tag_table fid = Ok (fst (totag it)) /\ Z.land fv kSSOFatFeatureValueBitMask = snd it /\
  (L = [] -> Z.land ft kSSOFatFeatureTagBitMask = kSSOInvalidFatFeatureId) /\
  (L <> [] -> Z.land ft kSSOFatFeatureTagBitMask <> kSSOInvalidFatFeatureId) /\
  St m L (if Z.land ft kSSOFatFeatureTagBitMask =? kSSOInvalidFatFeatureId then kDummyFatTagId else Z.land ft kSSOFatFeatureTagBitMask)
     (Z.shiftr ft kSSOFatFeatureTagBitCount) (Z.shiftr fv kSSOFatFeatureValueBitCount).
Proof.
  intros [H1 H2 (r & H3) H4]. destruct it as (y, v). cbn [fst snd] in *. subst fid. destruct (Forall_inv H4) as [Hy Hv]. pose proof (Forall_inv_tail H4) as HL. cbn [fst snd] in *.
  assert (E0 : fv = v + 16 * (pack 4 (map snd L) + 2 ^ (4 * Z.of_nat (length L)) * r)).
  { rewrite H3. cbn [map snd pack length]. rewrite pow_S by lia. change (2 ^ 4) with 16. unfold item in *. ring. }
  rewrite E0. change kSSOFatFeatureValueBitMask with (2 ^ 4 - 1). rewrite land_mask by lia.
  change kSSOFatFeatureTagBitMask with (2 ^ 8 - 1). change kSSOFatFeatureTagBitCount with 8. change kSSOFatFeatureValueBitCount with 4.
  change kSSOInvalidFatFeatureId with 255. specialize (H2 ltac:(discriminate)). cbn [tl] in H2.
  assert (V : Z.shiftr (v + 16 * (pack 4 (map snd L) + 2 ^ (4 * Z.of_nat (length L)) * r)) 4 = pack 4 (map snd L) + 2 ^ (4 * Z.of_nat (length L)) * r).
  { rewrite Z.shiftr_div_pow2 by lia. symmetry. apply Z.div_unique with v; change (2 ^ 4) with 16; lia. }
  split; [reflexivity|split; [exact Hy|split; [|split; [|split; [|split; [|constructor; auto]]]]]].
  - unfold totag. cbn [fst]. apply T_rd. auto.
  - symmetry. apply Z.mod_unique with (pack 4 (map snd L) + 2 ^ (4 * Z.of_nat (length L)) * r); change (2 ^ 4) with 16; lia.
  - intros ->. rewrite H2. cbn [map app repeat]. apply pack_head; lia.
  - intros N. rewrite H2. destruct L as [|(y2, v2) L]; [contradiction|]. cbn [map app fst]. inversion HL as [|? ? [Hy2 _] _]; subst. cbn [fst] in Hy2.
    destruct (pack_head 8 y2 (keys L ++ repeat 255 (S m))) as [-> _]; lia.
  - rewrite H2. destruct L as [|(y2, v2) L].
    + cbn [map app repeat]. destruct (pack_head 8 255 (repeat 255 m)) as [-> _]; try lia. reflexivity.
    + cbn [map app fst]. inversion HL as [|? ? [Hy2 _] _]; subst. cbn [fst] in Hy2.
      destruct (pack_head 8 y2 (keys L ++ repeat 255 (S m))) as [-> _]; try lia. destruct (Z.eqb_spec y2 255); [lia|reflexivity].
  - intros N. rewrite H2. destruct L as [|(y2, v2) L]; [contradiction|]. cbn [map app fst tl]. inversion HL as [|? ? [Hy2 _] _]; subst. cbn [fst] in Hy2.
    apply pack_head; lia.
  - exists r. exact V.
Qed.

Lemma emit_fat_ok m bid : 0 <= bid < 241 -> forall L fuel fid ft fv out, (length L < fuel)%nat -> St m L fid ft fv ->
  exists fid' ft' fv', emit_fat fuel bid fid ft fv out = Ok (fid', ft', fv', out ++ map totag (firstn (pos bid L) L)) /\
  St m (skipn (pos bid L) L) fid' ft' fv'.
Proof.
  intros Hb L. induction L as [|it L IH]; intros fuel fid ft fv out Hf S0; destruct fuel as [|fuel]; cbn [length] in Hf; try lia.
  - cbn [emit_fat pos firstn skipn map]. rewrite app_nil_r. pose proof (st_id _ _ _ _ _ S0) as E. cbn in E. unfold kDummyFatTagId in E.
    destruct (Z.ltb_spec fid bid); [lia|]. exists fid, ft, fv. auto.
  - destruct (st_next _ _ _ _ _ _ S0) as (E1 & E2 & E3 & E4 & E5 & E6 & E7).
    cbn [emit_fat]. rewrite E3. cbn [bind]. rewrite E4.
    destruct it as (y, v). cbn [fst snd] in *. cbn [pos]. subst fid. destruct (Z.ltb_spec y bid).
    + destruct (IH fuel _ _ _ (out ++ [(T y, v)]) ltac:(lia) E7) as (fid' & ft' & fv' & R & S').
      exists fid', ft', fv'. cbn [firstn skipn map]. change (fst (totag (y, v))) with (T y). change (totag (y, v)) with (T y, v).
      rewrite R. rewrite <- app_assoc. split; auto.
    + exists y, ft, fv. cbn [firstn skipn map]. rewrite app_nil_r. auto.
Qed.

Lemma emit_bits_ok m vals : forall bits L fid ft fv out, Forall (fun i => 0 <= i < 32) bits -> (length L <= 4)%nat -> St m L fid ft fv ->
  exists fid' ft' fv' L' O, emit_bits bits vals fid ft fv out = Ok (fid', ft', fv', out ++ O) /\ St m L' fid' ft' fv' /\ (length L' <= 4)%nat /\
  map totag (mg (bitems vals bits) L) = O ++ map totag L'.
Proof.
  induction bits as [|i bits IH]; intros L fid ft fv out F HL S0.
  - exists fid, ft, fv, L, []. cbn. rewrite app_nil_r. auto.
  - inversion F as [|? ? Hi F']; subst. destruct (B_fact i Hi) as (Bi & _ & _).
    cbn [emit_bits]. rewrite B_rd by auto. cbn [bind].
    destruct (emit_fat_ok m (B i) Bi L 6 fid ft fv out ltac:(lia) S0) as (fid1 & ft1 & fv1 & -> & S1). cbn [bind].
    rewrite T_rd by auto. cbn [bind].
    assert (HL1 : (length (skipn (pos (B i) L) L) <= 4)%nat) by (rewrite skipn_length; lia).
    destruct (IH _ _ _ _ ((out ++ map totag (firstn (pos (B i) L) L)) ++ [(T (B i), Z.land (Z.shiftr vals i) 1)]) F' HL1 S1)
      as (fid' & ft' & fv' & L' & O & R & S' & H' & M).
    exists fid', ft', fv', L', (map totag (firstn (pos (B i) L) L) ++ (T (B i), Z.land (Z.shiftr vals i) 1) :: O).
    rewrite R. rewrite <- !app_assoc. split; auto. split; auto. split; auto.
    cbn [bitems map mg]. rewrite map_app. cbn [map]. rewrite land_shift_1 by lia. unfold bitems in M. rewrite M. reflexivity.
Qed.

Lemma emit_rest_ok m : forall L fuel fid ft fv out, L <> [] -> (length L <= fuel)%nat -> St m L fid ft fv ->
  emit_rest fuel fid ft fv out = Ok (out ++ map totag L).
Proof.
  induction L as [|it L IH]; intros fuel fid ft fv out N Hf S0; [contradiction|].
  destruct fuel as [|fuel]; cbn [length] in Hf; try lia.
  destruct (st_next _ _ _ _ _ _ S0) as (E1 & E2 & E3 & E4 & E5 & E6 & E7).
  cbn [emit_rest]. rewrite E3. cbn [bind]. rewrite E4. unfold totag. cbn [map fst]. fold totag.
  assert (L = [] \/ L <> []) as [-> | NL] by (destruct L; [left; auto|right; discriminate]).
  - rewrite E5 by auto. rewrite Z.eqb_refl. reflexivity.
  - destruct (Z.eqb_spec (Z.land ft kSSOFatFeatureTagBitMask) kSSOInvalidFatFeatureId) as [Q|Q]; [exfalso; apply (E6 NL Q)|].
    rewrite (IH fuel) by (auto; lia). rewrite <- app_assoc. reflexivity.
Qed.
