From Verif Require Import Base Bits Algorithm_Model Algorithm_Spec Algorithm_Proofs Unicode_Model Unicode_Spec Unicode_Proofs Unicode_Proofs2 Unicode_Proofs3 Unicode_Proofs4.

Lemma utf32_validate_ok src : bytes src ->
  exists us rest c st, src = encs EncUTF32 us ++ rest /\ Forall (accepted EncUTF32) us /\ bl_validate_unicode EncUTF32 src = Ok (c, st) /\
   v_utf32 st = len (encs EncUTF32 us) / 4 /\ v_utf8 st = len (encs EncUTF32 us) / 4 + snd (sum_inc utf32_inc us) + fst (sum_inc utf32_inc us) /\
   v_utf16 st = len (encs EncUTF32 us) / 4 + snd (sum_inc utf32_inc us) /\ ((c = BL_SUCCESS /\ rest = []) \/ bad EncUTF32 c rest).
Proof.
  intros Hb. cbn [bl_validate_unicode]. rewrite size_len.
  destruct (align_down_ok (len src) 4 ltac:(lia) (len_nonneg _)) as (Hs1 & Hs2 & Hs3 & _). set (sn := align_down (len src) 4) in *.
  destruct (firstn_skipn_len src sn Hs1) as [Es Ls]. set (smid := firstn (Z.to_nat sn) src) in *. set (spost := skipn (Z.to_nat sn) src) in *.
  destruct (validate_ok EncUTF32 (fun s => utf32_next s true) 4 utf32_inc utf32_next_ok eq_refl (length src) [] smid spost 0 0)
    as (us & rest & c & E & Hus & Hv & Hc).
  { apply bytes_firstn, Hb. } { rewrite Ls. exact Hs2. } { subst smid. rewrite firstn_length. lia. }
  cbn [app] in Hv. rewrite len_nil, !Z.add_0_l, <- Es, Ls in Hv. rewrite Hv. cbn [bind].
  assert (Hps : len spost = len src - sn) by (pose proof (f_equal len Es) as Q; rewrite len_app in Q; lia).
  exists us, (rest ++ spost). eexists _, _. split; [rewrite Es at 1; rewrite E, app_assoc; reflexivity|]. split; [exact Hus|]. split; [reflexivity|].
  cbn [v_utf8 v_utf16 v_utf32]. split; [reflexivity|]. split; [reflexivity|]. split; [reflexivity|].
  destruct Hc as [[-> ->]|(Hne & Hc)].
  - change (BL_SUCCESS =? BL_SUCCESS) with true. cbn [andb app]. destruct (Z.eqb_spec (len src mod 4) 0); cbn [negb].
    + left. split; [reflexivity|]. destruct spost; [reflexivity|]. rewrite len_cons in Hps. pose proof (len_nonneg spost). lia.
    + right. assert (Hn : spost <> []) by (intros ->; rewrite len_nil in Hps; lia). split; [exact Hn|]. right. split; [reflexivity|].
      apply stuck_short; [exact Hn|]. cbn. lia.
  - assert (Hz : c =? BL_SUCCESS = false) by (destruct Hc as [[-> _]|[-> _]]; reflexivity). rewrite Hz. cbn [andb]. right. split; [destruct rest; [congruence|discriminate]|].
    destruct Hc as [[Hc Hst]|[Hc Hst]].
    + left. split; [exact Hc|]. intros x. rewrite <- app_assoc. apply Hst.
    + right. split; [exact Hc|]. intros u r' Hu Eu. pose proof (encs_len_csize EncUTF32 us) as Hq2. cbn [char_size] in *.
      assert (Hq : len (enc EncUTF32 u) = 4) by reflexivity.
      destruct (Z.le_gt_cases (len (enc EncUTF32 u)) (len rest)) as [Hle|Hgt].
      * apply (Hst u (skipn (length (enc EncUTF32 u)) rest) Hu).
        assert (E2 : firstn (length (enc EncUTF32 u)) (rest ++ spost) = enc EncUTF32 u) by (rewrite Eu; apply firstn_len).
        rewrite firstn_app_le in E2 by (unfold len in Hle; lia). rewrite <- E2 at 1. symmetry. apply firstn_skipn.
      * pose proof (f_equal len Eu) as Q. pose proof (f_equal len E) as Q2. rewrite !len_app in Q. rewrite len_app, Ls in Q2. pose proof (len_nonneg r').
        assert (len rest = 0) by (pose proof (len_nonneg rest); clear - Hq Hq2 Hgt Q2 Hs2 H0; lia). destruct rest; [congruence|]. rewrite len_cons in *. pose proof (len_nonneg rest). lia.
Qed.

(* ------------------------------------------------------------------ the reported lengths *)
Lemma enc16_len u : len (utf16_enc u) = if u <? 0x10000 then 2 else 4.
Proof. unfold utf16_enc. destruct (u <? 0x10000); reflexivity. Qed.
Lemma enc8_len u : len (utf8_enc u) = if u <? 0x80 then 1 else if u <? 0x800 then 2 else if u <? 0x10000 then 3 else 4.
Proof. unfold utf8_enc. repeat destruct (_ <? _); reflexivity. Qed.

(* the three lengths of a text *)
Definition lengths (st : vstate) (us : list Z) : Prop :=
  v_utf8 st = len (encs EncUTF8 us) /\ v_utf16 st * 2 = len (encs EncUTF16 us) /\ v_utf32 st * 4 = len (encs EncUTF32 us).

Lemma sum_utf8 us : len (encs EncUTF8 us) - fst (sum_inc utf8_inc us) = len us /\
  (len us + snd (sum_inc utf8_inc us)) * 2 = len (encs EncUTF16 us) /\ len us * 4 = len (encs EncUTF32 us).
Proof.
  induction us as [|u us (I1 & I2 & I3)]; [repeat split|]. cbn [encs flat_map sum_inc fst snd]. fold (encs EncUTF8 us) (encs EncUTF16 us) (encs EncUTF32 us).
  rewrite !len_app, len_cons. cbn [enc]. rewrite enc8_len, enc16_len. change (len (utf32_enc u)) with 4. set (S := sum_inc utf8_inc us) in *. clearbody S. unfold utf8_inc.
  destruct (Z.ltb_spec u 0x80), (Z.ltb_spec u 0x800), (Z.ltb_spec u 0x10000); cbn [fst snd]; lia.
Qed.
Lemma sum_utf16 us : len us + fst (sum_inc utf16_inc us) + snd (sum_inc utf16_inc us) = len (encs EncUTF8 us) /\
  (len us + snd (sum_inc utf16_inc us)) * 2 = len (encs EncUTF16 us) /\ len us * 4 = len (encs EncUTF32 us).
Proof.
  induction us as [|u us (I1 & I2 & I3)]; [repeat split|]. cbn [encs flat_map sum_inc fst snd]. fold (encs EncUTF8 us) (encs EncUTF16 us) (encs EncUTF32 us).
  rewrite !len_app, len_cons. cbn [enc]. rewrite enc8_len, enc16_len. change (len (utf32_enc u)) with 4. set (S := sum_inc utf16_inc us) in *. clearbody S. unfold utf16_inc.
  destruct (Z.ltb_spec u 0x80), (Z.ltb_spec u 0x800), (Z.ltb_spec u 0x10000); cbn [fst snd]; lia.
Qed.

Lemma latin1_extra src : bytes src -> forall a, fold_left (fun acc b => acc + Z.shiftr b 7) src a = a + (len (encs EncUTF8 src) - len src) /\ len (encs EncUTF16 src) = 2 * len src.
Proof.
  induction src as [|b src IH]; intros Hb a; [cbn; split; lia|]. inversion Hb; subst. cbn [fold_left]. destruct (IH H2 (a + Z.shiftr b 7)) as [-> E16].
  cbn [encs flat_map]. fold (encs EncUTF8 src) (encs EncUTF16 src). rewrite !len_app, len_cons. cbn [enc]. rewrite enc8_len, enc16_len. unfold is_byte in H1.
  rewrite Z.shiftr_div_pow2 by lia. change (2 ^ 7) with 128. destruct (Z.ltb_spec b 0x80), (Z.ltb_spec b 0x800), (Z.ltb_spec b 0x10000); lia.
Qed.
Lemma enc32_len us : len (encs EncUTF32 us) = 4 * len us.
Proof. induction us as [|u us IH]; [reflexivity|]. cbn [encs flat_map]. fold (encs EncUTF32 us). rewrite len_app, len_cons. change (len (enc EncUTF32 u)) with 4. lia. Qed.

Lemma bad_not_success e c rest : bad e c rest -> c <> BL_SUCCESS.
Proof. intros (_ & [[-> _]|[-> _]]); discriminate. Qed.

Theorem validate_all e src : bytes src -> 2 * len src < 2 ^ 64 ->
  exists us rest c st, src = encs e us ++ rest /\ Forall (accepted e) us /\ bl_validate_unicode e src = Ok (c, st) /\ lengths st us /\
    ((c = BL_SUCCESS /\ rest = []) \/ bad e c rest).
Proof.
  intros Hb Hsz. destruct e.
  - destruct (utf8_validate_ok src Hb) as (us & rest & c & st & E & Hus & Hv & V8 & V16 & V32 & Hc). exists us, rest, c, st. repeat split; auto.
    + rewrite V16. destruct (sum_utf8 us) as (-> & <- & _). reflexivity.
    + rewrite V32. destruct (sum_utf8 us) as (-> & _ & <-). reflexivity.
  - destruct (utf16_validate_ok src Hb) as (us & rest & c & st & E & Hus & Hv & V16 & V8 & V32 & Hc). exists us, rest, c, st.
    destruct (sum_utf16 us) as (S1 & S2 & S3). pose proof (encs_len_csize EncUTF16 us) as Hz. cbn [char_size] in Hz.
    assert (E2 : len (encs EncUTF16 us) / 2 = len us + snd (sum_inc utf16_inc us)) by lia. rewrite E2 in *. repeat split; auto; lia.
  - destruct (utf32_validate_ok src Hb) as (us & rest & c & st & E & Hus & Hv & V32 & V8 & V16 & Hc). exists us, rest, c, st.
    destruct (sum_utf16 us) as (S1 & S2 & S3). change utf32_inc with utf16_inc in *.
    assert (E2 : len (encs EncUTF32 us) / 4 = len us) by lia. rewrite E2 in *. repeat split; auto; lia.
  - cbn [bl_validate_unicode]. rewrite size_len. destruct (latin1_extra src Hb 0) as [-> E16]. pose proof (encs_utf8_latin1_len src Hb).
    destruct (Z.leb_spec (2 ^ 64) (len src + (0 + (len (encs EncUTF8 src) - len src)))); [lia|].
    exists src, []. eexists _, _. rewrite encs_latin1, app_nil_r. split; [reflexivity|]. split; [apply accepted_latin1, Hb|]. split; [reflexivity|].
    split; [|left; split; reflexivity]. unfold lengths. cbn [v_utf8 v_utf16 v_utf32]. rewrite enc32_len. lia.
Qed.

(* success exactly for encodings of accepted texts *)
Lemma validate_iff e src : bytes src -> 2 * len src < 2 ^ 64 ->
  exists c st, bl_validate_unicode e src = Ok (c, st) /\ (c = BL_SUCCESS <-> exists us, Forall (accepted e) us /\ src = encs e us).
Proof.
  intros Hb Hsz. destruct (validate_all e src Hb Hsz) as (us & rest & c & st & E & Hus & Hv & _ & Hc). exists c, st. split; [exact Hv|]. split.
  - intros Hs. destruct Hc as [[_ ->]|Hbad]; [|now apply bad_not_success in Hbad]. exists us. rewrite app_nil_r in E. auto.
  - intros (vs & Hvs & E2). destruct Hc as [[-> _]|(Hne & Hst)]; [reflexivity|]. exfalso. rewrite E2 in E.
    destruct (encs_prefix e vs us rest Hvs Hus E) as (ws & -> & ->). destruct ws as [|w ws]; [now apply Hne|]. apply Forall_app in Hvs. destruct Hvs as [_ Hws]. inversion Hws; subst.
    destruct Hst as [[_ Hst]|[_ Hst]].
    + apply (Hst [] w (encs e ws) H1). rewrite app_nil_r. reflexivity.
    + apply (Hst w (encs e ws) H1). reflexivity.
Qed.

(* ------------------------------------------------------------------ conversions of well-formed text *)
Lemma in_charset_accepted e u : in_charset e u -> accepted e u.
Proof. destruct e; cbn; auto. unfold scalar; tauto. Qed.
Lemma encs_len_mono e us vs : len (encs e us) <= len (encs e (us ++ vs)).
Proof. rewrite encs_app, len_app. pose proof (len_nonneg (encs e vs)). lia. Qed.

Lemma le16_is_bytes v : 0 <= v < 65536 -> bytes (le16 v).
Proof. intros. unfold le16. repeat constructor; unfold is_byte; lia. Qed.
Lemma enc_bytes e u : accepted e u -> bytes (enc e u).
Proof.
  intros Hu. destruct e; cbn [enc accepted] in *.
  - pose proof (utf8_enc_form u Hu) as F. inversion F; repeat constructor; unfold is_byte; lia.
  - unfold utf16_enc, scalar, code_point in *. destruct (Z.ltb_spec u 0x10000); [apply le16_is_bytes; lia|].
    assert (0 <= (u - 0x10000) / 1024 < 1024) by (clear - Hu H; lia). assert (0 <= (u - 0x10000) mod 1024 < 1024) by (clear; lia).
    apply bytes_app. split; apply le16_is_bytes; lia.
  - unfold utf32_enc, scalar, code_point in *. repeat (constructor; [unfold is_byte; clear - Hu; lia|]). constructor.
  - repeat constructor; unfold is_byte; lia.
Qed.
Lemma encs_bytes e us : Forall (accepted e) us -> bytes (encs e us).
Proof. induction 1; [constructor|]. cbn [encs flat_map]. apply bytes_app. split; [now apply enc_bytes|exact IHForall]. Qed.

Theorem convert_text de se us dst : supported de se -> Forall (in_charset se) us -> len (encs de us) <= len dst ->
  exists r, convert_unicode de se dst (encs se us) = Ok r /\ c_result r = BL_SUCCESS /\ c_dst r = encs de us ++ skipn (length (encs de us)) dst.
Proof.
  intros Hs Hu Hl. assert (Hu' : Forall (accepted se) us) by (eapply Forall_impl; [|exact Hu]; apply in_charset_accepted).
  destruct (convert_progress de se dst (encs se us) Hs (encs_bytes se us Hu')) as (vs & rest & r & E & (Es & Hvs & Hfit & Hd & Hc) & _).
  exists r. split; [exact E|]. destruct (encs_prefix se us vs rest Hu' Hvs Es) as (ws & -> & ->).
  apply Forall_app in Hu'. destruct Hu' as [_ Hws].
  destruct ws as [|w ws].
  - rewrite app_nil_r. split; [|exact Hd]. destruct Hc as [[-> _]|[(Hne & _)|(_ & Hne & _)]]; [reflexivity| |]; exfalso; now apply Hne.
  - exfalso. inversion Hws; subst. destruct Hc as [[_ Hc]|[(_ & Hst)|(_ & _ & Hst & _)]].
    + cbn [encs flat_map] in Hc. rewrite len_app in Hc. pose proof (enc_len_csize se w). pose proof (enc_len_pos se w). fold (encs se ws) in Hc. pose proof (len_nonneg (encs se ws)).
      destruct se; cbn [char_size] in *; lia.
    + destruct Hst as [[_ Hst]|[_ Hst]].
      * apply (Hst [] w (encs se ws) H1). rewrite app_nil_r. reflexivity.
      * apply (Hst w (encs se ws) H1). reflexivity.
    + specialize (Hst w (encs se ws) H1 eq_refl). rewrite encs_app, len_app in Hl. cbn [encs flat_map] in Hl. rewrite len_app in Hl. fold (encs de ws) in Hl.
      pose proof (len_nonneg (encs de ws)). lia.
Qed.
