(* The non-boolean features of the SSO representation. *)
From Verif Require Import Base Bits Algorithm_Model TagData_Model TagData_Spec TagData_Proofs
  FontFeature_Model FontFeature_Spec FontFeature_Proofs FontFeature_Proofs2 FontFeature_Proofs3.
Ltac Zify.zify_post_hook ::= idtac.

Lemma pack_head w y r : 0 <= w -> 0 <= y < 2 ^ w -> Z.land (pack w (y :: r)) (2 ^ w - 1) = y /\ Z.shiftr (pack w (y :: r)) w = pack w r.
Proof.
  intros Hw Hy. rewrite land_mask, Z.shiftr_div_pow2 by lia. cbn [pack]. split; symmetry.
  - apply Z.mod_unique with (pack w r); lia.
  - apply Z.div_unique with y; lia.
Qed.

Lemma find_loop L : forall m n idx id, n = (length L + m)%nat -> idx + Z.of_nat n = 4 ->
  Forall (fun it => fat_id (fst it) /\ 0 <= snd it < 16) L -> 0 <= id < 255 ->
  find_fat_loop n (pack 8 (keys L ++ repeat 255 m)) idx id = (hit id L, idx + Z.of_nat (pos id L)).
Proof.
  induction L as [|(y, v) r IH]; intros m n idx id Hn H4 F Hid.
  - cbn [length Nat.add] in Hn. subst n. destruct m as [|m].
    + cbn. unfold kSSOFatFeatureCount. f_equal. lia.
    + cbn [map app repeat find_fat_loop]. change kSSOFatFeatureTagBitMask with (2 ^ 8 - 1).
      destruct (pack_head 8 255 (repeat 255 m)) as [-> _]; [lia|lia|].
      change (255 =? kSSOInvalidFatFeatureId) with true. cbn [orb].
      destruct (Z.eqb_spec 255 id); [lia|]. cbn [hit pos nth_error]. f_equal. lia.
  - cbn [length Nat.add] in Hn. subst n. inversion F as [|? ? [Fy _] Fr]; subst. cbn [fst snd] in *.
    destruct Fy as [By _]. unfold kFeatureIdCount in By.
    cbn [map app fst find_fat_loop]. change kSSOFatFeatureTagBitMask with (2 ^ 8 - 1). change kSSOFatFeatureTagBitCount with 8.
    destruct (pack_head 8 y (keys r ++ repeat 255 m)) as [-> ->]; [lia|lia|].
    unfold kSSOInvalidFatFeatureId. destruct (Z.eqb_spec y 255); [lia|]. cbn [orb].
    unfold hit. cbn [pos]. destruct (Z.leb_spec id y); destruct (Z.ltb_spec y id); try lia.
    + cbn [nth_error]. f_equal. lia.
    + rewrite (IH m) by (auto; lia). unfold hit. cbn [nth_error]. f_equal. lia.
Qed.

Lemma find_ok a id : wf a -> 0 <= id < 255 -> find_sso_fat_tag (encode a) id = (hit id (fats a), Z.of_nat (pos id (fats a))).
Proof.
  intros W Hid. destruct W as [H1 H2 H3 H4 H5 H6]. unfold find_sso_fat_tag, encode. cbn [d2]. unfold tag_digits, pad.
  rewrite map_length. rewrite (find_loop (fats a) (4 - length (fats a))); auto; unfold item in *; lia.
Qed.

Lemma pad_split z l : (length l < 4)%nat -> pad z l = (l ++ repeat z (3 - length l)) ++ [z].
Proof.
  intros H. unfold pad. rewrite <- app_assoc. f_equal. replace (4 - length l)%nat with ((3 - length l) + 1)%nat by lia.
  rewrite repeat_app. reflexivity.
Qed.

Lemma can_insert_ok a : wf a -> can_insert_sso_fat_tag (encode a) = (length (fats a) <? 4)%nat.
Proof.
  intros W. destruct W as [H1 H2 H3 H4 H5 H6]. destruct (fst_digits _ H6) as [D _].
  unfold can_insert_sso_fat_tag, encode, tag_digits. cbn [d2]. unfold kSSOFatFeatureCount, kSSOFatFeatureTagBitCount, kSSOInvalidFatFeatureId.
  assert (X : forall l z, digits 8 l -> length l = 3%nat -> Z.shiftr (pack 8 (l ++ [z])) ((4 - 1) * 8) = z).
  { intros l z Dl Ll. rewrite Z.shiftr_div_pow2 by lia. replace ((4 - 1) * 8) with (8 * Z.of_nat (length l)) by (rewrite Ll; reflexivity).
    rewrite pack_div by (auto; lia). cbn. lia. }
  destruct (Nat.ltb_spec (length (fats a)) 4) as [L|L].
  - rewrite pad_split by (rewrite map_length; auto). rewrite X.
    + reflexivity.
    + apply Forall_app. split; auto. apply Forall_forall. intros x Hx. apply repeat_spec in Hx. subst. change (2 ^ 8) with 256. lia.
    + rewrite app_length, repeat_length, map_length. unfold item in *. lia.
  - assert (L4 : length (fats a) = 4%nat) by (unfold item in *; lia).
    destruct (fats a) as [|x0 [|x1 [|x2 [|x3 [|? ?]]]]]; try discriminate. clear L L4 H4.
    unfold pad. cbn [map length Nat.sub repeat app].
    change (fst x0 :: fst x1 :: fst x2 :: fst x3 :: nil) with ([fst x0; fst x1; fst x2] ++ [fst x3]). rewrite X; [| |reflexivity].
    + inversion H6 as [|? ? _ F1]; subst. inversion F1 as [|? ? _ F2]; subst. inversion F2 as [|? ? _ F3]; subst. inversion F3 as [|? ? [[F _] _] _]; subst.
      unfold kFeatureIdCount in F. apply Z.eqb_neq. lia.
    + cbn [map] in D. inversion D as [|? ? D0 E0]; subst. inversion E0 as [|? ? D1 E1]; subst. inversion E1 as [|? ? D2 E2]; subst.
      repeat constructor; auto; lia.
Qed.

Lemma skip_one {A} n : forall l : list A, skipn 1 (skipn n l) = skipn (S n) l.
Proof. induction n; intros [|x l]; auto. apply IHn. Qed.

(* updating, inserting *)
Definition with_fats (a : abs) (l : list item) : abs := {| bset := bset a; bval := bval a; fats := l |}.

Lemma split_at_pos k l : l = firstn (pos k l) l ++ skipn (pos k l) l.
Proof. symmetry. apply firstn_skipn. Qed.

Lemma wf_aset a id v : wf a -> fat_id id -> 0 <= v < 16 -> (hit id (fats a) = true \/ (length (fats a) < 4)%nat) ->
  wf (with_fats a (aset id v (fats a))).
Proof.
  intros [H1 H2 H3 H4 H5 H6] Hid Hv HL. constructor; cbn [bset bval fats with_fats]; auto.
  - rewrite length_aset. destruct (hit id (fats a)); [auto|]. destruct HL as [HL|HL]; [discriminate|lia].
  - apply inc_aset; auto.
  - rewrite aset_pos. rewrite (split_at_pos id (fats a)) in H6. apply Forall_app in H6 as [F1 F2]. apply Forall_app. split; auto.
    constructor; auto. rewrite (split_at_pos id (fats a)) in F1.
    destruct (hit id (fats a)); auto. rewrite <- (firstn_skipn 1) in F2. apply Forall_app in F2 as [_ F2].
    rewrite skip_one in F2. exact F2.
Qed.

Lemma hit_split id l : hit id l = true -> exists v, l = firstn (pos id l) l ++ (id, v) :: skipn (S (pos id l)) l /\ nth_error l (pos id l) = Some (id, v).
Proof.
  unfold hit. destruct (nth_error l (pos id l)) as [(y, v)|] eqn:E; [|discriminate]. intros H. apply Z.eqb_eq in H. subst y.
  exists v. split; auto. rewrite <- (firstn_skipn (pos id l) l) at 1. f_equal.
  clear -E. revert E. generalize (pos id l). intros n. revert l. induction n; intros [|x l] E; cbn in *; try discriminate; [injection E as ->; auto|auto].
Qed.

Lemma digits_app w a b : digits w (a ++ b) <-> digits w a /\ digits w b.
Proof. apply Forall_app. Qed.
Lemma digits_repeat w z n : 0 <= z < 2 ^ w -> digits w (repeat z n).
Proof. intros. apply Forall_forall. intros x Hx. apply repeat_spec in Hx. subst. auto. Qed.

Lemma update_fat_ok a id v : wf a -> fat_id id -> 0 <= v < 16 -> hit id (fats a) = true ->
  update_sso_fat_value (encode a) (Z.of_nat (pos id (fats a))) v = encode (with_fats a (aset id v (fats a))).
Proof.
  intros W Hid Hv HL. pose proof W as [H1 H2 H3 H4 H5 H6]. destruct (fst_digits _ H6) as [Dt Dv].
  destruct (hit_split _ _ HL) as (v0 & E & _).
  set (l := fats a) in *. set (p := pos id l) in *. set (A := firstn p l) in *. set (R := skipn (S p) l) in *.
  assert (Ea : aset id v l = A ++ (id, v) :: R) by (rewrite aset_pos, HL; reflexivity).
  assert (LA : length A = p) by (unfold A, p; rewrite firstn_length; pose proof (pos_le id l); unfold item in *; lia).
  assert (LAk : length (keys A) = p) by (rewrite map_length; exact LA).
  assert (LAs : length (map snd A) = p) by (rewrite map_length; exact LA).
  assert (LL : (length A + S (length R) = length l)%nat) by (rewrite E; rewrite app_length; reflexivity).
  apply sso_ext; unfold update_sso_fat_value; cbn [d0 d1 d2 info encode with_fats bset bval fats tag_digits].
  - reflexivity.
  - reflexivity.
  - unfold tag_digits. cbn [fats with_fats]. fold l. rewrite Ea. rewrite E at 1. rewrite !map_app. cbn [map fst]. reflexivity.
  - unfold size_of, val_digits. cbn [fats with_fats bset]. fold l. rewrite length_aset, HL.
    rewrite Ea. rewrite E at 1. unfold pad. rewrite !map_length, !app_length, !map_app. cbn [map snd length].
    rewrite <- !app_assoc. cbn [app].
    set (R' := map snd R ++ repeat 0 (4 - (length A + S (length R)))).
    assert (DA : digits 4 (map snd A) /\ 0 <= v0 < 2 ^ 4 /\ digits 4 (map snd R)).
    { rewrite E in Dv. rewrite map_app in Dv. apply digits_app in Dv as [D1 D2]. cbn [map snd] in D2. inversion D2; subst. auto. }
    destruct DA as (DA & Dv0 & DR).
    replace (Z.of_nat p * kSSOFatFeatureValueBitCount) with (4 * Z.of_nat (length (map snd A))) by (rewrite LAs; unfold kSSOFatFeatureValueBitCount; lia).
    change kSSOFatFeatureValueBitMask with (2 ^ 4 - 1).
    apply (replace_digit 4 (map snd A) R' v0 v (33856 + (nbits (bset a) + Z.of_nat (length l))) 16); auto; try lia.
    + unfold R'. apply digits_app. split; auto. apply digits_repeat. lia.
    + unfold R'. rewrite app_length, repeat_length, !map_length. unfold item in *. lia.
Qed.

Lemma add_fat_ok a id v : wf a -> fat_id id -> 0 <= v < 16 -> hit id (fats a) = false -> (length (fats a) < 4)%nat ->
  add_sso_fat_tag (encode a) (Z.of_nat (pos id (fats a))) id v = encode (with_fats a (aset id v (fats a))).
Proof.
  intros W Hid Hv HL HN. pose proof W as [H1 H2 H3 H4 H5 H6]. destruct (fst_digits _ H6) as [Dt Dv].
  assert (W' : wf (with_fats a (aset id v (fats a)))) by (apply wf_aset; auto).
  pose proof (val_bound _ W) as VB. pose proof (val_bound _ W') as VB'. pose proof (size_bound _ W') as SB'.
  set (l := fats a) in *. set (p := pos id l) in *. set (A := firstn p l) in *. set (R := skipn p l) in *.
  assert (E : l = A ++ R) by (unfold A, R; rewrite firstn_skipn; reflexivity).
  assert (Ea : aset id v l = A ++ (id, v) :: R) by (rewrite aset_pos, HL; reflexivity).
  assert (LA : length A = p) by (unfold A, p; rewrite firstn_length; pose proof (pos_le id l); unfold item in *; lia).
  assert (LAk : length (keys A) = p) by (rewrite map_length; exact LA).
  assert (LAs : length (map snd A) = p) by (rewrite map_length; exact LA).
  assert (LL : (length A + length R = length l)%nat) by (rewrite E; rewrite app_length; reflexivity).
  assert (Hid' : 0 <= id < 2 ^ 8) by (destruct Hid as [Hid _]; unfold kFeatureIdCount in Hid; change (2 ^ 8) with 256; lia).
  assert (DD : digits 8 (keys A) /\ digits 8 (keys R) /\ digits 4 (map snd A) /\ digits 4 (map snd R)).
  { rewrite E in Dt, Dv. rewrite map_app in Dt, Dv. apply digits_app in Dt as [? ?]. apply digits_app in Dv as [? ?]. auto. }
  destruct DD as (DA & DR & VA & VR).
  assert (PT : pack 8 (tag_digits a) = pack 8 (keys A ++ (keys R ++ repeat 255 (3 - length l)) ++ [255])).
  { unfold tag_digits. fold l. rewrite pad_split by (rewrite map_length; auto). rewrite map_length. rewrite E at 1. rewrite map_app, <- !app_assoc. reflexivity. }
  assert (PV : pack 4 (val_digits a) = pack 4 (map snd A ++ (map snd R ++ repeat 0 (3 - length l)) ++ [0])).
  { unfold val_digits. fold l. rewrite pad_split by (rewrite map_length; auto). rewrite map_length. rewrite E at 1. rewrite map_app, <- !app_assoc. reflexivity. }
  assert (PT' : pack 8 (keys A ++ id :: keys R ++ repeat 255 (3 - length l)) = pack 8 (tag_digits (with_fats a (aset id v l)))).
  { unfold tag_digits. cbn [fats with_fats]. rewrite Ea. unfold pad. rewrite map_length, map_app, app_length. cbn [map length fst].
    rewrite <- app_assoc. cbn [app]. replace (4 - (length A + S (length R)))%nat with (3 - length l)%nat by (unfold item in *; lia). reflexivity. }
  assert (PV' : pack 4 (map snd A ++ v :: map snd R ++ repeat 0 (3 - length l)) = pack 4 (val_digits (with_fats a (aset id v l)))).
  { unfold val_digits. cbn [fats with_fats]. rewrite Ea. unfold pad. rewrite map_length, map_app, app_length. cbn [map length snd].
    rewrite <- app_assoc. cbn [app]. replace (4 - (length A + S (length R)))%nat with (3 - length l)%nat by (unfold item in *; lia). reflexivity. }
  assert (LI : Z.land (info (encode a)) kValueDataMask = pack 4 (val_digits a)).
  { change kValueDataMask with (2 ^ 16 - 1). rewrite land_mask by lia. cbn [info encode]. change (2 ^ 16) with 65536.
    symmetry. apply Z.mod_unique with (33856 + size_of a); lia. }
  assert (LD : Z.ldiff (info (encode a)) kValueDataMask = (33856 + size_of a) * 65536).
  { change kValueDataMask with (2 ^ 16 - 1). rewrite ldiff_mask by lia. cbn [info encode]. change (2 ^ 16) with 65536. f_equal.
    symmetry. apply Z.div_unique with (pack 4 (val_digits a)); lia. }
  assert (SS : size_of (with_fats a (aset id v l)) = size_of a + 1).
  { unfold size_of. cbn [fats with_fats bset]. rewrite length_aset, HL. fold l. lia. }
  assert (LRk : Z.of_nat (length (keys A)) + Z.of_nat (length (keys R ++ repeat 255 (3 - length l))) = 3).
  { rewrite app_length, repeat_length, !map_length. unfold item in *. lia. }
  assert (LRs : Z.of_nat (length (map snd A)) + Z.of_nat (length (map snd R ++ repeat 0 (3 - length l))) = 3).
  { rewrite app_length, repeat_length, !map_length. unfold item in *. lia. }
  assert (DRk : digits 8 (keys R ++ repeat 255 (3 - length l))).
  { apply digits_app. split; auto. apply digits_repeat. lia. }
  assert (DRs : digits 4 (map snd R ++ repeat 0 (3 - length l))).
  { apply digits_app. split; auto. apply digits_repeat. lia. }
  apply sso_ext; cbv beta zeta delta [add_sso_fat_tag].
  - cbn [d0 encode with_fats bset]. reflexivity.
  - cbn [d1 encode with_fats bval]. reflexivity.
  - cbn [d2]. cbn [encode d2]. rewrite PT.
    change kSSOFatFeatureTagBitCount with 8.
    replace (Z.of_nat p * 8) with (8 * Z.of_nat (length (keys A))) by (rewrite LAk; lia).
    rewrite insert_digit; auto; lia.
  - cbn [info]. rewrite LI, LD, PV. change kSSOFatFeatureValueBitCount with 4.
    replace (Z.of_nat p * 4) with (4 * Z.of_nat (length (map snd A))) by (rewrite LAs; lia).
    rewrite insert_digit by (auto; lia).
    rewrite PV'. change kValueDataMask with (2 ^ 16 - 1). rewrite land_mask by lia. rewrite Z.mod_small by (change (2 ^ 16) with 65536; auto).
    change (Z.shiftl 1 16) with (1 * 2 ^ 16). change 65536 with (2 ^ 16) at 1. rewrite <- Z.mul_add_distr_r. rewrite w32_small by (change (2 ^ 16) with 65536; lia).
    rewrite lor_add' by (change (2 ^ 16) with 65536; lia). cbn [info encode]. rewrite SS. change (2 ^ 16) with 65536. lia.
Qed.

(* removing *)
Definition zero_head (l : list item) : list item := match l with [] => [] | (y, _) :: r => (y, 0) :: r end.
Definition fat_del (id : Z) (l : list item) : list item :=
  let p := pos id l in
  firstn p l ++ (if (p =? 0)%nat then skipn (S p) l else zero_head (skipn (S p) l)).

Lemma zero_head_keys l : keys (zero_head l) = keys l.
Proof. destruct l as [|(y, v) r]; reflexivity. Qed.
Lemma fat_del_keys id l : hit id l = true -> keys (fat_del id l) = keys (adel id l).
Proof.
  intros H. rewrite adel_pos, H. unfold fat_del. rewrite !map_app. f_equal.
  destruct (pos id l =? 0)%nat; auto. apply zero_head_keys.
Qed.
Lemma fat_del_length id l : hit id l = true -> S (length (fat_del id l)) = length l.
Proof.
  intros H. pose proof (f_equal (@length Z) (fat_del_keys id l H)) as K. rewrite !map_length in K.
  pose proof (length_adel id l) as L. rewrite H in L. destruct (hit_split _ _ H) as (v & _ & E).
  assert (pos id l < length l)%nat by (apply nth_error_Some; rewrite E; discriminate). unfold item in *. lia.
Qed.
Lemma zero_head_wf l : Forall (fun it => fat_id (fst it) /\ 0 <= snd it < 16) l -> Forall (fun it => fat_id (fst it) /\ 0 <= snd it < 16) (zero_head l).
Proof. intros H. destruct H as [|(y, v) r [F V] Hr]; constructor; auto. cbn in *. split; auto. lia. Qed.

Lemma wf_fat_del a id : wf a -> hit id (fats a) = true -> wf (with_fats a (fat_del id (fats a))).
Proof.
  intros [H1 H2 H3 H4 H5 H6] Hh. pose proof (fat_del_keys _ _ Hh) as K.
  pose proof (fat_del_length _ _ Hh) as LK.
  constructor; cbn [bset bval fats with_fats]; auto.
  - unfold item in *. lia.
  - rewrite K. apply inc_adel; auto.
  - unfold fat_del. rewrite <- (firstn_skipn (pos id (fats a)) (fats a)) in H6. apply Forall_app in H6 as [F1 F2].
    rewrite <- (firstn_skipn 1) in F2. apply Forall_app in F2 as [_ F2]. rewrite skip_one in F2.
    apply Forall_app. split; auto. destruct (pos id (fats a) =? 0)%nat; auto. apply zero_head_wf; auto.
Qed.

Lemma del_values p (l : list item) : (length l <= 4)%nat -> (p < length l)%nat -> Forall (fun it => fat_id (fst it) /\ 0 <= snd it < 16) l ->
  Z.lor (Z.land (pack 4 (pad 0 (map snd l))) (w32 (Z.shiftl 1 (Z.of_nat p * 4)) - 1))
        (Z.ldiff (Z.shiftr (pack 4 (pad 0 (map snd l))) 4) (w32 (Z.shiftl 1 (Z.of_nat p * 8)) - 1)) =
  pack 4 (pad 0 (map snd (firstn p l ++ (if (p =? 0)%nat then skipn (S p) l else zero_head (skipn (S p) l))))).
Proof.
  intros L P F. destruct (fst_digits _ F) as [_ D]. pose proof (pad_digits 4 0 _ D ltac:(lia)) as DP. clear F D.
  destruct l as [|(y0, v0) [|(y1, v1) [|(y2, v2) [|(y3, v3) [|? ?]]]]]; cbn [length] in *; try lia;
    unfold pad in *; cbn [map snd length Nat.sub repeat app] in *;
    (destruct p as [|[|[|[|?]]]]; [| | | |lia]); try lia;
    (rewrite remove_value_digits; [|assumption|lia]); reflexivity.
Qed.

Lemma remove_fat_ok a id : wf a -> fat_id id -> hit id (fats a) = true ->
  remove_sso_fat_tag (encode a) (Z.of_nat (pos id (fats a))) = encode (with_fats a (fat_del id (fats a))).
Proof.
  intros W Hid HL. pose proof W as [H1 H2 H3 H4 H5 H6]. destruct (fst_digits _ H6) as [Dt Dv].
  assert (W' : wf (with_fats a (fat_del id (fats a)))) by (apply wf_fat_del; auto).
  pose proof (val_bound _ W) as VB. pose proof (val_bound _ W') as VB'. pose proof (size_bound _ W') as SB'.
  pose proof (fat_del_keys _ _ HL) as FK.
  destruct (hit_split _ _ HL) as (v0 & E & EN).
  set (l := fats a) in *. set (p := pos id l) in *. set (A := firstn p l) in *. set (R := skipn (S p) l) in *.
  assert (Pl : (p < length l)%nat) by (apply nth_error_Some; rewrite EN; discriminate).
  assert (LA : length A = p) by (unfold A, p; rewrite firstn_length; pose proof (pos_le id l); unfold item in *; lia).
  assert (LAk : length (keys A) = p) by (rewrite map_length; exact LA).
  assert (LAs : length (map snd A) = p) by (rewrite map_length; exact LA).
  assert (LL : (length A + S (length R) = length l)%nat) by (rewrite E; rewrite app_length; reflexivity).
  assert (DD : digits 8 (keys A) /\ 0 <= id < 2 ^ 8 /\ digits 8 (keys R)).
  { rewrite E in Dt. rewrite map_app in Dt. apply digits_app in Dt as [? D2]. cbn [map fst] in D2. inversion D2; subst. auto. }
  destruct DD as (DA & Bid & DR).
  assert (LI : Z.land (info (encode a)) kValueDataMask = pack 4 (val_digits a)).
  { change kValueDataMask with (2 ^ 16 - 1). rewrite land_mask by lia. cbn [info encode]. change (2 ^ 16) with 65536.
    symmetry. apply Z.mod_unique with (33856 + size_of a); lia. }
  assert (LD : Z.ldiff (info (encode a)) kValueDataMask = (33856 + size_of a) * 65536).
  { change kValueDataMask with (2 ^ 16 - 1). rewrite ldiff_mask by lia. cbn [info encode]. change (2 ^ 16) with 65536. f_equal.
    symmetry. apply Z.div_unique with (pack 4 (val_digits a)); lia. }
  assert (LF : (S (length (fat_del id l)) = length l)%nat).
  { apply fat_del_length; auto. }
  assert (SS : size_of (with_fats a (fat_del id l)) = size_of a - 1).
  { unfold size_of. cbn [fats with_fats bset]. fold l. unfold item in *. lia. }
  apply sso_ext; cbv beta zeta delta [remove_sso_fat_tag].
  - cbn [d0 encode with_fats bset]. reflexivity.
  - cbn [d1 encode with_fats bval]. reflexivity.
  - cbn [d2]. cbn [encode d2]. change kSSOFatFeatureTagBitCount with 8.
    replace (Z.of_nat p * 8) with (8 * Z.of_nat (length (keys A))) by (rewrite LAk; lia).
    change ((kSSOFatFeatureCount - 1) * 8) with (32 - 8). change kSSOInvalidFatFeatureId with 255.
    assert (PT : tag_digits a = keys A ++ id :: keys R ++ repeat 255 (4 - length l)).
    { unfold tag_digits, pad. fold l. rewrite map_length. rewrite E at 1. rewrite map_app, <- app_assoc. reflexivity. }
    assert (LRk : Z.of_nat (length (keys A)) + Z.of_nat (length (keys R ++ repeat 255 (4 - length l))) = 3).
    { rewrite app_length, repeat_length, !map_length. unfold item in *. lia. }
    assert (DRk : digits 8 (keys R ++ repeat 255 (4 - length l))).
    { apply digits_app. split; auto. apply digits_repeat. lia. }
    rewrite PT. rewrite remove_digit by (auto; lia).
    unfold tag_digits, pad. cbn [fats with_fats]. rewrite map_length.
    replace (4 - @length (Z * Z) (fat_del id l))%nat with ((4 - length l) + 1)%nat by (unfold item in *; lia).
    rewrite FK, adel_pos, HL. fold p A R. rewrite map_app, repeat_app, <- !app_assoc. reflexivity.
  - cbn [info]. rewrite LI, LD. change kSSOFatFeatureValueBitCount with 4. change kSSOFatFeatureTagBitCount with 8.
    unfold val_digits at 1 2. fold l. rewrite del_values; auto.
    change (pad 0 (map snd (firstn p l ++ (if (p =? 0)%nat then skipn (S p) l else zero_head (skipn (S p) l))))) with (val_digits (with_fats a (fat_del id l))).
    change kValueDataMask with (2 ^ 16 - 1). rewrite land_mask by lia. rewrite Z.mod_small by (change (2 ^ 16) with 65536; auto).
    change (Z.shiftl 1 16) with (1 * 2 ^ 16). change 65536 with (2 ^ 16) at 1. rewrite <- Z.mul_sub_distr_r. rewrite w32_small by (change (2 ^ 16) with 65536; lia).
    rewrite lor_add' by (change (2 ^ 16) with 65536; lia). cbn [info encode]. rewrite SS. change (2 ^ 16) with 65536. lia.
Qed.

(* reading a value *)
Lemma get_fat_ok a id : wf a -> hit id (fats a) = true ->
  Some (get_sso_fat_value (encode a) (Z.of_nat (pos id (fats a)))) = assoc id (fats a).
Proof.
  intros W HL. pose proof W as [H1 H2 H3 H4 H5 H6]. destruct (fst_digits _ H6) as [Dt Dv].
  destruct (hit_split _ _ HL) as (v0 & E & EN). assert (HA : assoc id (fats a) = Some v0) by (apply assoc_in; [exact H5|exact (nth_error_In _ _ EN)]). rewrite HA. f_equal.
  set (l := fats a) in *. set (p := pos id l) in *. set (A := firstn p l) in *. set (R := skipn (S p) l) in *.
  assert (LA : length A = p) by (unfold A, p; rewrite firstn_length; pose proof (pos_le id l); unfold item in *; lia).
  assert (LAk : length (keys A) = p) by (rewrite map_length; exact LA).
  assert (LAs : length (map snd A) = p) by (rewrite map_length; exact LA).
  assert (LL : (length A + S (length R) = length l)%nat) by (rewrite E; rewrite app_length; reflexivity).
  assert (DA : digits 4 (map snd A) /\ 0 <= v0 < 2 ^ 4).
  { rewrite E in Dv. rewrite map_app in Dv. apply digits_app in Dv as [D1 D2]. cbn [map snd] in D2. inversion D2; subst. auto. }
  destruct DA as [DA Bv].
  unfold get_sso_fat_value, encode. cbn [info]. change kSSOFatFeatureValueBitMask with (2 ^ 4 - 1).
  replace (Z.of_nat p * kSSOFatFeatureValueBitCount) with (4 * Z.of_nat (length (map snd A))) by (rewrite LAs; unfold kSSOFatFeatureValueBitCount; lia).
  assert (PV : val_digits a = map snd A ++ v0 :: (map snd R ++ repeat 0 (4 - length l))).
  { unfold val_digits, pad. fold l. rewrite map_length. rewrite E at 1. rewrite map_app, <- app_assoc. reflexivity. }
  rewrite PV. apply read_digit; auto; try lia.
  rewrite app_length, repeat_length, !map_length. unfold item in *. lia.
Qed.
