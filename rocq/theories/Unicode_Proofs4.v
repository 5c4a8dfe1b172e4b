From Verif Require Import Base Bits Algorithm_Model Algorithm_Spec Algorithm_Proofs Unicode_Model Unicode_Spec Unicode_Proofs Unicode_Proofs2 Unicode_Proofs3.

Lemma size_len l : size_of l = len l. Proof. reflexivity. Qed.

(* Everything a conversion guarantees, whatever the capacity and the outcome. *)
Definition progress (de se : encoding) (dst src : list Z) (r : cres) (us rest : list Z) : Prop :=
  src = encs se us ++ rest /\ Forall (accepted se) us /\ len (encs de us) <= len dst /\
  c_dst r = encs de us ++ skipn (length (encs de us)) dst /\
  ((c_result r = BL_SUCCESS /\ len rest < char_size se) \/
   bad se (c_result r) rest \/
   (c_result r = BL_ERROR_NO_SPACE_LEFT /\ rest <> [] /\
    (forall u rest', accepted se u -> rest = enc se u ++ rest' -> len dst < len (encs de us) + len (enc de u)) /\
    (len dst < len src \/ (exists u rest', accepted se u /\ rest = enc se u ++ rest') \/ (de = se /\ len src mod char_size se <> 0)))).
Definition indexes (de se : encoding) (r : cres) (us : list Z) : Prop :=
  c_src_index r = len (encs se us) /\ c_dst_index r = len (encs de us).

Lemma firstn_skipn_len (l : list Z) n : 0 <= n <= len l -> l = firstn (Z.to_nat n) l ++ skipn (Z.to_nat n) l /\ len (firstn (Z.to_nat n) l) = n.
Proof. intros H. split; [symmetry; apply firstn_skipn|]. unfold len in *. rewrite firstn_length. lia. Qed.

Lemma align_down_ok x k : 0 < k -> 0 <= x -> 0 <= align_down x k <= x /\ align_down x k mod k = 0 /\ x - align_down x k < k /\ align_down (align_down x k) k = align_down x k.
Proof.
  intros Hk Hx. unfold align_down. pose proof (Z.div_mod x k ltac:(lia)). pose proof (Z.mod_pos_bound x k Hk). assert (0 <= x / k) by (apply Z.div_pos; lia).
  split; [nia|]. split; [apply Z_mod_mult|]. split; [nia|]. rewrite Z_div_mult by lia. reflexivity.
Qed.

Lemma firstn_app_le (a b : list Z) n : (n <= length a)%nat -> firstn n (a ++ b) = firstn n a.
Proof. intros. rewrite firstn_app. replace (n - length a)%nat with 0%nat by lia. cbn. apply app_nil_r. Qed.

Lemma bytes_firstn n l : bytes l -> bytes (firstn n l).
Proof. unfold bytes. intros H. rewrite <- (firstn_skipn n l), Forall_app in H. tauto. Qed.

Lemma bytes_skipn n l : bytes l -> bytes (skipn n l).
Proof. unfold bytes. intros H. rewrite <- (firstn_skipn n l), Forall_app in H. tauto. Qed.

Lemma skipn_app_le (a b : list Z) n : (n <= length a)%nat -> skipn n (a ++ b) = skipn n a ++ b.
Proof. intros. rewrite skipn_app. replace (n - length a)%nat with 0%nat by lia. reflexivity. Qed.

Lemma stuck_short e rest : rest <> [] -> len rest < char_size e -> stuck e rest.
Proof.
  intros Hn Hl u r Hu E. pose proof (enc_len_csize e u) as H1. pose proof (enc_len_pos e u) as H2. subst rest. rewrite len_app in Hl. pose proof (len_nonneg r).
  destruct e; cbn [char_size] in *; lia.
Qed.

Lemma convert_impl_ok se next inc de write dst src :
  reader_ok se next (char_size se) inc -> writer_ok de write (char_size de) -> bytes src ->
  exists us rest r, convert_impl write (char_size de) (next src) (char_size se) dst src = Ok r /\ progress de se dst src r us rest /\ indexes de se r us.
Proof.
  intros Hr Hw Hb. unfold convert_impl. change size_of with len.
  assert (Hcp : 0 < char_size se) by (destruct se; reflexivity). assert (Hwp : 0 < char_size de) by (destruct de; reflexivity).
  destruct (align_down_ok (len src) (char_size se) Hcp (len_nonneg _)) as (Hs1 & Hs2 & Hs3 & ->).
  destruct (align_down_ok (len dst) (char_size de) Hwp (len_nonneg _)) as (Hd1 & Hd2 & Hd3 & _).
  set (sn := align_down (len src) (char_size se)) in *. set (dn := align_down (len dst) (char_size de)) in *.
  destruct (firstn_skipn_len src sn Hs1) as [Es Ls]. destruct (firstn_skipn_len dst dn Hd1) as [Ed Ld].
  set (smid := firstn (Z.to_nat sn) src) in *. set (spost := skipn (Z.to_nat sn) src) in *.
  set (dmid := firstn (Z.to_nat dn) dst) in *. set (dpost := skipn (Z.to_nat dn) dst) in *.
  destruct (convert_loop_ok se next (char_size se) inc de write (char_size de) Hr eq_refl Hw eq_refl (length src) [] smid spost [] dmid dpost)
    as (us & rest & r & Em & Hus & Hcv & Hsi & Hdi & Hfit & Hd & Hc).
  { apply bytes_firstn, Hb. } { rewrite Ls; exact Hs2. } { rewrite len_nil. apply Zmod_0_l. } { rewrite Ld. exact Hd2. }
  { subst smid. rewrite firstn_length. lia. }
  cbn [app] in *. rewrite len_nil, !Z.add_0_l, <- Es, <- Ed, Ls, Ld in *.
  exists us, (rest ++ spost), r. split; [exact Hcv|]. split; [|split; lia].
  assert (Hps : len spost = len src - sn) by (pose proof (f_equal len Es) as Q; rewrite len_app in Q; lia).
  split; [rewrite Es at 1; rewrite Em, app_assoc; reflexivity|]. split; [exact Hus|]. split; [lia|].
  split. { rewrite Hd. f_equal. rewrite <- skipn_app_le by (unfold len in Hfit, Ld; lia). now rewrite <- Ed. }
  destruct Hc as [[Hc ->]|[(Hne & Hc)|(Hc & u & rest' & Hu & Er & Hlt)]].
  - left. split; [exact Hc|]. cbn [app]. lia.
  - right; left. split; [destruct rest; [congruence|discriminate]|]. destruct Hc as [[Hc Hst]|[Hc Hst]].
    + left. split; [exact Hc|]. intros x. rewrite <- app_assoc. apply Hst.
    + right. split; [exact Hc|]. intros u r' Hu E.
      (* the trailing partial unit cannot complete a character: the encodings are whole units *)
      pose proof (enc_len_csize se u) as Hz.
      assert (Hlm : len rest mod char_size se = 0).
      { pose proof (encs_len_csize se us) as Hq. pose proof (f_equal len Em) as Q. rewrite len_app, Ls in Q.
        replace (len rest) with (sn - len (encs se us)) by lia. rewrite Zminus_mod, Hs2, Hq. apply Zmod_0_l. }
      destruct (Z.le_gt_cases (len (enc se u)) (len rest)) as [Hle|Hgt].
      * apply (Hst u (skipn (length (enc se u)) rest) Hu).
        assert (E2 : firstn (length (enc se u)) (rest ++ spost) = enc se u) by (rewrite E; apply firstn_len).
        rewrite firstn_app_le in E2 by (unfold len in Hle; lia). rewrite <- E2 at 1. symmetry. apply firstn_skipn.
      * pose proof (f_equal len E) as Q. rewrite !len_app in Q. pose proof (len_nonneg r'). clear - Hz Hlm Hgt Q Hps Hs3 Hcp H.
        destruct se; cbn [char_size] in *; lia.
  - right; right. split; [exact Hc|]. split. { rewrite Er. pose proof (enc_nonempty se u). destruct (enc se u); [congruence|discriminate]. }
    split; [|right; left; exists u, (rest' ++ spost); rewrite Er, <- app_assoc; auto].
    intros v rv Hv Ev. rewrite Er, <- app_assoc in Ev. pose proof (enc_prefix_free se u v _ _ Hu Hv Ev) as <-.
    pose proof (enc_len_csize de u) as Hz. pose proof (encs_len_csize de us) as Hq. clear - Hz Hq Hlt Hd1 Hd2 Hd3 Hwp.
    destruct de; cbn [char_size] in *; lia.
Qed.

(* ------------------------------------------------------------------ Latin-1 sources *)
Lemma encs_latin1 us : encs EncLatin1 us = us.
Proof. induction us; cbn; [reflexivity|]. f_equal. exact IHus. Qed.
Lemma accepted_latin1 src : bytes src -> Forall (accepted EncLatin1) src.
Proof. unfold bytes. apply Forall_impl. intros a. unfold is_byte. cbn. lia. Qed.

Lemma memcpy_ok dst src n : 0 <= n <= len src -> n <= len dst ->
  memcpy dst src n = Ok (firstn (Z.to_nat n) src ++ skipn (Z.to_nat n) dst).
Proof.
  intros Hn Hd. unfold memcpy. rewrite size_len. destruct (Z.ltb_spec n 0), (Z.ltb_spec (len src) n); try lia. cbn [orb].
  pose proof (store_bytes_app (firstn (Z.to_nat n) src) [] dst) as H1. cbn [app] in H1. change (len []) with 0 in H1.
  destruct (firstn_skipn_len src n Hn) as [_ L]. unfold len in *. rewrite H1 by lia. f_equal. f_equal. f_equal. lia.
Qed.

Lemma widen_ok unit_bytes k e : (forall b, is_byte b -> unit_bytes b = enc e b /\ len (enc e b) = k) -> 0 < k ->
  forall src pre mid i, bytes src -> len pre = i * k -> len src * k <= len mid ->
  widen unit_bytes k (pre ++ mid) i src = Ok (pre ++ encs e src ++ skipn (length (encs e src)) mid) /\ len (encs e src) = len src * k.
Proof.
  intros Hu Hk. induction src as [|b src IH]; intros pre mid i Hb Hp Hl.
  - split; [reflexivity|]. reflexivity.
  - inversion Hb; subst. destruct (Hu b H1) as [E L]. cbn [widen]. rewrite <- Hp, E. rewrite len_cons in Hl. pose proof (len_nonneg src).
    rewrite store_bytes_app by (unfold len in L, Hl, H |- *; nia). cbn [bind]. rewrite app_assoc.
    destruct (IH (pre ++ enc e b) (skipn (length (enc e b)) mid) (i + 1) H2) as [-> Hlen].
    { rewrite len_app. nia. } { unfold len in *. rewrite skipn_length. nia. }
    cbn [encs flat_map]. fold (encs e src). rewrite app_length, <- skipn_add, <- !app_assoc. split; [reflexivity|]. rewrite len_app, len_cons. nia.
Qed.

Lemma utf8_latin1 b : is_byte b -> (b <=? 0x7F = true -> [w8 b] = utf8_enc b) /\ (b <=? 0x7F = false -> utf8_bytes2 b = utf8_enc b).
Proof.
  intros Hb. unfold is_byte in Hb. split; intros H.
  - rewrite utf8_enc1 by lia. unfold w8. rewrite Z.mod_small by lia. reflexivity.
  - apply bytes2_eq. lia.
Qed.
Lemma utf8_latin1_len b : is_byte b -> len (utf8_enc b) <= 2.
Proof. unfold is_byte. intros. unfold utf8_enc. bk; cbn; lia. Qed.
Lemma encs_utf8_latin1_len us : bytes us -> len us <= len (encs EncUTF8 us) <= 2 * len us.
Proof.
  induction us as [|u us IH]; intros Hb; [cbn; lia|]. inversion Hb; subst. cbn [encs flat_map]. fold (encs EncUTF8 us). rewrite len_app, len_cons.
  pose proof (utf8_latin1_len u H1). pose proof (enc_len_pos EncUTF8 u). cbn [enc] in *. specialize (IH H2). lia.
Qed.

Lemma latin1_fast_ok : forall src pre mid, bytes src -> len (encs EncUTF8 src) <= len mid ->
  latin1_fast (pre ++ mid) (len pre) src = Ok (pre ++ encs EncUTF8 src ++ skipn (length (encs EncUTF8 src)) mid, len pre + len (encs EncUTF8 src)).
Proof.
  induction src as [|b src IH]; intros pre mid Hb Hl.
  - cbn. rewrite Z.add_0_r. reflexivity.
  - inversion Hb; subst. cbn [encs flat_map] in *. fold (encs EncUTF8 src) in *. rewrite len_app in Hl. pose proof (len_nonneg (encs EncUTF8 src)).
    cbn [latin1_fast]. destruct (utf8_latin1 b H1) as [Q1 Q2].
    assert (IH' : forall n, n = len (utf8_enc b) -> latin1_fast ((pre ++ utf8_enc b) ++ skipn (length (utf8_enc b)) mid) (len pre + n) src =
       Ok (pre ++ (utf8_enc b ++ encs EncUTF8 src) ++ skipn (length (utf8_enc b ++ encs EncUTF8 src)) mid, len pre + len (utf8_enc b ++ encs EncUTF8 src))).
    { intros n ->. rewrite <- len_app. rewrite IH; [|assumption|cbn [enc] in *; unfold len in *; rewrite skipn_length; lia].
      rewrite app_length, <- skipn_add, <- !app_assoc, !len_app, Z.add_assoc. reflexivity. }
    destruct (b <=? 0x7F) eqn:E.
    + rewrite Q1 by reflexivity. rewrite store_bytes_app by (cbn [enc] in *; unfold len in *; lia). cbn [bind]. rewrite app_assoc. apply IH'. rewrite <- Q1 by reflexivity. reflexivity.
    + rewrite Q2 by reflexivity. rewrite store_bytes_app by (cbn [enc] in *; unfold len in *; lia). cbn [bind]. rewrite app_assoc. apply IH'. rewrite <- Q2 by reflexivity. reflexivity.
Qed.

Lemma latin1_slow_ok : forall src pre mid i, bytes src ->
  exists us rest r, latin1_slow (pre ++ mid) (len pre) (len pre + len mid) i src = Ok r /\ src = us ++ rest /\
   len (encs EncUTF8 us) <= len mid /\ c_dst r = pre ++ encs EncUTF8 us ++ skipn (length (encs EncUTF8 us)) mid /\
   ((c_result r = BL_SUCCESS /\ rest = [] /\ c_dst_index r = 0 /\ c_src_index r = 0) \/
    (c_result r = BL_ERROR_NO_SPACE_LEFT /\ c_src_index r = i + len us /\ c_dst_index r = len pre + len (encs EncUTF8 us) /\
     exists u rest', rest = u :: rest' /\ len mid < len (encs EncUTF8 us) + len (utf8_enc u))).
Proof.
  induction src as [|b src IH]; intros pre mid i Hb.
  - exists [], []. eexists. split; [reflexivity|]. cbn. pose proof (len_nonneg mid). repeat split; auto; lia.
  - inversion Hb; subst. cbn [latin1_slow]. pose proof (utf8_write_ok pre mid [] b) as W. rewrite !app_nil_r in W. cbn [enc] in W.
    rewrite W by (unfold is_byte, code_point in *; try apply Z.mod_1_r; lia). clear W.
    destruct (Z.leb_spec (len (utf8_enc b)) (len mid)) as [Hle|Hle]; cbn [bind].
    + change (negb (BL_SUCCESS =? BL_SUCCESS)) with false. cbv iota. rewrite app_assoc.
      assert (Hdl : len (skipn (length (utf8_enc b)) mid) = len mid - len (utf8_enc b)) by (unfold len in *; rewrite skipn_length; lia).
      destruct (IH (pre ++ utf8_enc b) (skipn (length (utf8_enc b)) mid) (i + 1) H2) as (us & rest & r & E & Er & Hf & Hd & Hc).
      rewrite len_app, Hdl in E. replace (len pre + len (utf8_enc b) + (len mid - len (utf8_enc b))) with (len pre + len mid) in E by lia.
      exists (b :: us), rest, r. split; [exact E|]. split; [cbn; now f_equal|]. cbn [encs flat_map]. fold (encs EncUTF8 us). cbn [enc]. rewrite !len_app, len_cons.
      split; [lia|]. split. { rewrite Hd, app_length, <- skipn_add, <- !app_assoc. reflexivity. }
      destruct Hc as [Hc|(Hc & Hs & Hdi & u & rest' & Eu & Hl)]; [left; exact Hc|]. right. rewrite len_app in Hdi.
      split; [exact Hc|]. split; [lia|]. split; [lia|]. exists u, rest'. split; [exact Eu|]. lia.
    + change (negb (BL_ERROR_NO_SPACE_LEFT =? BL_SUCCESS)) with true. cbv iota.
      exists [], (b :: src). eexists. split; [reflexivity|]. cbn [encs flat_map app length skipn c_result c_dst c_dst_index c_src_index]. rewrite len_nil.
      pose proof (len_nonneg mid). repeat split; auto; try lia. right. repeat split; auto; try lia. exists b, src. split; [reflexivity|lia].
Qed.

(* ------------------------------------------------------------------ all pairs *)
Definition supported (de se : encoding) : Prop := de = EncLatin1 -> se = EncLatin1.

Lemma utf8_validate_ok src : bytes src ->
  exists us rest c st, src = encs EncUTF8 us ++ rest /\ Forall (accepted EncUTF8) us /\ bl_validate_unicode EncUTF8 src = Ok (c, st) /\
   v_utf8 st = len (encs EncUTF8 us) /\ v_utf16 st = len (encs EncUTF8 us) - fst (sum_inc utf8_inc us) + snd (sum_inc utf8_inc us) /\
   v_utf32 st = len (encs EncUTF8 us) - fst (sum_inc utf8_inc us) /\ ((c = BL_SUCCESS /\ rest = []) \/ bad EncUTF8 c rest).
Proof.
  intros Hb. destruct (validate_ok EncUTF8 utf8_next 1 utf8_inc utf8_next_ok eq_refl (length src) [] src [] 0 0 Hb (Z.mod_1_r _) (le_n _))
    as (us & rest & c & E & Hus & Hv & Hc).
  cbn [app] in Hv. rewrite app_nil_r, len_nil, !Z.add_0_l in Hv. cbn [bl_validate_unicode]. rewrite size_len, Hv. cbn [bind].
  exists us, rest, c. eexists. repeat split; eauto.
Qed.

Lemma utf16_validate_ok src : bytes src ->
  exists us rest c st, src = encs EncUTF16 us ++ rest /\ Forall (accepted EncUTF16) us /\ bl_validate_unicode EncUTF16 src = Ok (c, st) /\
   v_utf16 st = len (encs EncUTF16 us) / 2 /\ v_utf8 st = len (encs EncUTF16 us) / 2 + fst (sum_inc utf16_inc us) /\
   v_utf32 st = len (encs EncUTF16 us) / 2 - snd (sum_inc utf16_inc us) /\ ((c = BL_SUCCESS /\ rest = []) \/ bad EncUTF16 c rest).
Proof.
  intros Hb. cbn [bl_validate_unicode]. rewrite size_len.
  destruct (align_down_ok (len src) 2 ltac:(lia) (len_nonneg _)) as (Hs1 & Hs2 & Hs3 & _). set (sn := align_down (len src) 2) in *.
  destruct (firstn_skipn_len src sn Hs1) as [Es Ls]. set (smid := firstn (Z.to_nat sn) src) in *. set (spost := skipn (Z.to_nat sn) src) in *.
  destruct (validate_ok EncUTF16 (fun s => utf16_next s true) 2 utf16_inc utf16_next_ok eq_refl (length src) [] smid spost 0 0)
    as (us & rest & c & E & Hus & Hv & Hc).
  { apply bytes_firstn, Hb. } { rewrite Ls. exact Hs2. } { subst smid. rewrite firstn_length. lia. }
  cbn [app] in Hv. rewrite len_nil, !Z.add_0_l, <- Es, Ls in Hv. rewrite Hv. cbn [bind].
  assert (Hps : len spost = len src - sn) by (pose proof (f_equal len Es) as Q; rewrite len_app in Q; lia).
  exists us, (rest ++ spost). eexists _, _. split; [rewrite Es at 1; rewrite E, app_assoc; reflexivity|]. split; [exact Hus|]. split; [reflexivity|].
  cbn [v_utf8 v_utf16 v_utf32]. split; [reflexivity|]. split; [reflexivity|]. split; [reflexivity|].
  destruct Hc as [[-> ->]|(Hne & Hc)].
  - cbn [Z.eqb andb app]. change (BL_SUCCESS =? BL_SUCCESS) with true. cbn [andb]. destruct (Z.eqb_spec (len src mod 2) 0); cbn [negb].
    + left. split; [reflexivity|]. destruct spost; [reflexivity|]. rewrite len_cons in Hps. pose proof (len_nonneg spost). lia.
    + right. assert (Hn : spost <> []) by (intros ->; rewrite len_nil in Hps; lia). split; [exact Hn|]. right. split; [reflexivity|].
      apply stuck_short; [exact Hn|]. cbn. lia.
  - assert (Hz : c =? BL_SUCCESS = false) by (destruct Hc as [[-> _]|[-> _]]; reflexivity). rewrite Hz. cbn [andb]. right. split; [destruct rest; [congruence|discriminate]|].
    destruct Hc as [[Hc Hst]|[Hc Hst]].
    + left. split; [exact Hc|]. intros x. rewrite <- app_assoc. apply Hst.
    + right. split; [exact Hc|]. intros u r' Hu Eu. pose proof (enc_len_csize EncUTF16 u) as Hq. pose proof (encs_len_csize EncUTF16 us) as Hq2. cbn [char_size] in *.
      destruct (Z.le_gt_cases (len (enc EncUTF16 u)) (len rest)) as [Hle|Hgt].
      * apply (Hst u (skipn (length (enc EncUTF16 u)) rest) Hu).
        assert (E2 : firstn (length (enc EncUTF16 u)) (rest ++ spost) = enc EncUTF16 u) by (rewrite Eu; apply firstn_len).
        rewrite firstn_app_le in E2 by (unfold len in Hle; lia). rewrite <- E2 at 1. symmetry. apply firstn_skipn.
      * pose proof (f_equal len Eu) as Q. pose proof (f_equal len E) as Q2. rewrite !len_app in Q. rewrite len_app, Ls in Q2. pose proof (len_nonneg r').
        clear - Hq Hq2 Hgt Q Q2 Hps Hs2 Hs3 H. lia.
Qed.

(* same-encoding copies: validate a prefix of the source, copy what was validated *)
Lemma same_progress e dst src copy us rest1 c d :
  char_size e = 1 \/ char_size e = 2 -> copy = align_down (Z.min (len dst) (len src)) (char_size e) ->
  firstn (Z.to_nat copy) src = encs e us ++ rest1 -> Forall (accepted e) us -> ((c = BL_SUCCESS /\ rest1 = []) \/ bad e c rest1) ->
  d = firstn (length (encs e us)) src ++ skipn (length (encs e us)) dst ->
  forall r, c_dst r = d ->
   c_result r = (if (copy <? len src) && ((c =? BL_SUCCESS) || (c =? BL_ERROR_DATA_TRUNCATED)) then BL_ERROR_NO_SPACE_LEFT else c) ->
   progress e e dst src r us (rest1 ++ skipn (Z.to_nat copy) src) /\ len (encs e us) <= copy.
Proof.
  intros He Hcopy E Hus Hc Hd r Hr1 Hr2. pose proof (len_nonneg dst) as Ln1. pose proof (len_nonneg src) as Ln2.
  assert (Hcp : 0 < char_size e) by lia.
  destruct (align_down_ok (Z.min (len dst) (len src)) (char_size e) Hcp ltac:(lia)) as (Ha1 & Ha2 & Ha3 & _). rewrite <- Hcopy in *.
  destruct (firstn_skipn_len src copy ltac:(lia)) as [Es Ls]. rewrite E in Es.
  assert (Hl : len (encs e us) + len rest1 = copy) by (rewrite <- Ls, E, len_app; reflexivity). pose proof (len_nonneg rest1).
  split; [|lia]. set (post := skipn (Z.to_nat copy) src) in *. rewrite <- app_assoc in Es.
  assert (Hpl : len post = len src - copy) by (rewrite Es, !len_app; lia).
  assert (Hsp : copy < len src -> len dst < len src \/ (exists u rest', accepted e u /\ rest1 ++ post = enc e u ++ rest') \/ (e = e /\ len src mod char_size e <> 0)).
  { intros Hlt. destruct (Z.lt_ge_cases (len dst) (len src)) as [|Hge]; [now left|]. right; right. split; [reflexivity|]. clear - He Hcopy Hlt Hge Ha1 Ha2 Ha3. 
    destruct He as [He|He]; rewrite He in *; lia. }
  split; [exact Es|]. split; [exact Hus|]. split; [lia|]. split.
  { rewrite Hr1, Hd. f_equal. rewrite Es at 1. apply firstn_len. }
  destruct Hc as [[-> ->]|(Hne & Hc)].
  - change (BL_SUCCESS =? BL_SUCCESS) with true in Hr2. cbn [orb] in Hr2. rewrite Bool.andb_true_r in Hr2. cbn [app]. rewrite len_nil in Hl.
    destruct (Z.ltb_spec copy (len src)).
    + right; right. split; [exact Hr2|]. split; [intros Hp; rewrite Hp, len_nil in Hpl; lia|]. split; [|exact (Hsp H0)]. intros u rest' Hu Eu.
      pose proof (enc_len_pos e u). pose proof (enc_len_csize e u) as Hz. pose proof (f_equal len Eu) as Q. rewrite len_app in Q. pose proof (len_nonneg rest').
      clear - Ha1 Ha2 Ha3 Hcopy Hl Hpl Q Hz He H1 H2. destruct He as [He|He]; rewrite He in *; lia.
    + left. split; [exact Hr2|]. lia.
  - assert (Hne' : rest1 ++ post <> []) by (destruct rest1; [congruence|discriminate]).
    destruct Hc as [[-> Hst]|[-> Hst]].
    + change ((BL_ERROR_INVALID_STRING =? BL_SUCCESS) || (BL_ERROR_INVALID_STRING =? BL_ERROR_DATA_TRUNCATED)) with false in Hr2. rewrite Bool.andb_false_r in Hr2.
      right; left. split; [exact Hne'|]. left. split; [exact Hr2|]. intros x. rewrite <- app_assoc. apply Hst.
    + change ((BL_ERROR_DATA_TRUNCATED =? BL_SUCCESS) || (BL_ERROR_DATA_TRUNCATED =? BL_ERROR_DATA_TRUNCATED)) with true in Hr2. rewrite Bool.andb_true_r in Hr2.
      assert (Hgen : forall u r', accepted e u -> rest1 ++ post = enc e u ++ r' -> len rest1 < len (enc e u)).
      { intros u r' Hu Eu. destruct (Z.le_gt_cases (len (enc e u)) (len rest1)) as [Hle|Hgt]; [|lia]. exfalso.
        apply (Hst u (skipn (length (enc e u)) rest1) Hu).
        assert (E2 : firstn (length (enc e u)) (rest1 ++ post) = enc e u) by (rewrite Eu; apply firstn_len).
        rewrite firstn_app_le in E2 by (unfold len in Hle; lia). rewrite <- E2 at 1. symmetry. apply firstn_skipn. }
      destruct (Z.ltb_spec copy (len src)).
      * right; right. split; [exact Hr2|]. split; [exact Hne'|]. split; [|exact (Hsp H0)]. intros u r' Hu Eu. pose proof (Hgen u r' Hu Eu) as Hg.
        pose proof (enc_len_csize e u) as Hz. pose proof (encs_len_csize e us) as Hq. pose proof (f_equal len Eu) as Q. rewrite !len_app in Q. pose proof (len_nonneg r').
        clear - Ha1 Ha2 Ha3 Hl Hpl Q Hz Hq He Hg H1. destruct He as [He|He]; rewrite He in *; lia.
      * right; left. split; [exact Hne'|]. right. split; [exact Hr2|]. assert (Hp : post = []) by (destruct post; [reflexivity|]; rewrite len_cons in Hpl; pose proof (len_nonneg post); lia).
        rewrite Hp, app_nil_r. exact Hst.
Qed.

Theorem convert_progress de se dst src : supported de se -> bytes src ->
  exists us rest r, convert_unicode de se dst src = Ok r /\ progress de se dst src r us rest /\
   (indexes de se r us \/ (de = EncUTF8 /\ se = EncLatin1 /\ len dst < 2 * len src /\ c_result r = BL_SUCCESS /\ c_src_index r = 0 /\ c_dst_index r = 0)).
Proof.
  intros Hsup Hb. pose proof (len_nonneg dst) as Ln1. pose proof (len_nonneg src) as Ln2.
  assert (Hlat : forall w k e, (e = EncUTF16 /\ k = 2 /\ w = u16_bytes) \/ (e = EncUTF32 /\ k = 4 /\ w = u32_bytes) ->
    exists us rest r, (let count := Z.min (len dst / k) (len src) in
      let* d := widen w k dst 0 (firstn (Z.to_nat count) src) in
      Ok {| c_result := if count <? len src then BL_ERROR_NO_SPACE_LEFT else BL_SUCCESS; c_dst := d; c_dst_index := count * k; c_src_index := count |}) = Ok r /\
      progress e EncLatin1 dst src r us rest /\ indexes e EncLatin1 r us).
  { intros w k e Hcase. cbv zeta. assert (Hk : k = 2 \/ k = 4) by (destruct Hcase as [(_ & -> & _)|(_ & -> & _)]; auto).
    set (count := Z.min (len dst / k) (len src)). assert (Hq : 0 <= count <= len src /\ count * k <= len dst /\ (count < len src -> len dst < (count + 1) * k))
      by (subst count; destruct Hk as [-> | ->]; lia).
    destruct (firstn_skipn_len src count ltac:(lia)) as [Es Ls]. set (us := firstn (Z.to_nat count) src) in *. assert (Hub : bytes us) by (apply bytes_firstn, Hb).
    assert (Hu : forall b, is_byte b -> w b = enc e b /\ len (enc e b) = k).
    { intros b Hbb. unfold is_byte in Hbb. destruct Hcase as [(-> & -> & ->)|(-> & -> & ->)]; cbn [enc].
      - unfold utf16_enc. destruct (Z.ltb_spec b 0x10000); [|lia]. split; [apply u16_bytes_eq; lia|reflexivity].
      - split; [apply u32_bytes_eq; unfold code_point; lia|reflexivity]. }
    destruct (widen_ok w k e Hu ltac:(lia) us [] dst 0 Hub ltac:(rewrite len_nil; lia) ltac:(rewrite Ls; lia)) as [W L]. cbn [app] in W. rewrite W. cbn [bind].
    exists us, (skipn (Z.to_nat count) src). eexists. split; [reflexivity|]. unfold progress, indexes. cbn [c_result c_dst c_dst_index c_src_index]. rewrite encs_latin1, L, Ls.
    split; [|split; [reflexivity|lia]]. split; [exact Es|]. split; [apply accepted_latin1, Hub|]. split; [lia|]. split; [reflexivity|].
    assert (Hpl : len (skipn (Z.to_nat count) src) = len src - count) by (pose proof (f_equal len Es) as Q; rewrite len_app in Q; lia).
    destruct (Z.ltb_spec count (len src)).
    - right; right. split; [reflexivity|]. split; [intros Hp; rewrite Hp, len_nil in Hpl; lia|]. split; [|right; left; destruct (skipn (Z.to_nat count) src) as [|u rest'] eqn:Ek;
        [rewrite len_nil in Hpl; lia|exists u, rest'; split; [|reflexivity]; pose proof (bytes_skipn (Z.to_nat count) src Hb) as Hb2; rewrite Ek in Hb2; apply Forall_inv in Hb2; unfold is_byte in Hb2; cbn; lia]].
      intros u rest' Hua Eu. cbn [accepted] in Hua.
      destruct (Hu u ltac:(unfold is_byte; lia)) as [_ ->]. lia.
    - left. split; [reflexivity|]. cbn [char_size]. lia. }
  destruct de, se; try (exfalso; discriminate (Hsup eq_refl)); cbn [convert_unicode]; change size_of with len.
  - (* UTF8 <- UTF8 *)
    set (copy := Z.min (len dst) (len src)). destruct (utf8_validate_ok (firstn (Z.to_nat copy) src) (bytes_firstn _ _ Hb)) as (us & rest1 & c & st & E & Hus & -> & V8 & _ & _ & Hc).
    cbn [bind]. rewrite V8.
    assert (Hfit : len (encs EncUTF8 us) <= copy). { destruct (firstn_skipn_len src copy ltac:(subst copy; lia)) as [_ Ls]. rewrite <- Ls, E, len_app. pose proof (len_nonneg rest1). lia. }
    assert (Hmc : (if len (encs EncUTF8 us) =? 0 then Ok dst else memcpy dst src (len (encs EncUTF8 us))) =
       Ok (firstn (length (encs EncUTF8 us)) src ++ skipn (length (encs EncUTF8 us)) dst)).
    { destruct (Z.eqb_spec (len (encs EncUTF8 us)) 0) as [E0|E0].
      - unfold len in E0. replace (length (encs EncUTF8 us)) with 0%nat by lia. reflexivity.
      - rewrite memcpy_ok by (pose proof (len_nonneg (encs EncUTF8 us)); lia). unfold len. rewrite Nat2Z.id. reflexivity. }
    rewrite Hmc. cbn [bind]. eexists us, _, _. split; [reflexivity|]. split.
    + eapply (same_progress EncUTF8 dst src copy us rest1 c); try reflexivity; auto. unfold align_down. cbn [char_size]. rewrite Z.div_1_r, Z.mul_1_r. reflexivity.
    + left. split; reflexivity.
  - edestruct (convert_impl_ok EncUTF16 (fun s => utf16_next s true) utf16_inc EncUTF8 utf8_write dst src utf16_next_ok utf8_write_ok Hb) as (us & rest & r & E & P & I).
    exists us, rest, r. auto.
  - edestruct (convert_impl_ok EncUTF32 (fun s => utf32_next s true) utf32_inc EncUTF8 utf8_write dst src utf32_next_ok utf8_write_ok Hb) as (us & rest & r & E & P & I).
    exists us, rest, r. auto.
  - (* UTF8 <- Latin1 *)
    destruct (Z.leb_spec (len src) (len dst / 2)).
    + pose proof (encs_utf8_latin1_len src Hb) as Hl. pose proof (latin1_fast_ok src [] dst Hb ltac:(lia)) as F. cbn [app] in F. change (len []) with 0 in F. rewrite F. cbn [bind].
      exists src, []. eexists. split; [reflexivity|]. split; [|left; split; [rewrite encs_latin1; reflexivity|reflexivity]].
      unfold progress. cbn [c_result c_dst]. rewrite encs_latin1, app_nil_r. split; [reflexivity|]. split; [apply accepted_latin1, Hb|]. split; [lia|]. split; [reflexivity|].
      left. split; reflexivity.
    + destruct (latin1_slow_ok src [] dst 0 Hb) as (us & rest & r & E & Er & Hf & Hd & Hc). cbn [app] in *. change (len []) with 0 in *. rewrite !Z.add_0_l in E.
      rewrite E. exists us, rest, r. split; [reflexivity|]. assert (Hub : bytes us /\ bytes rest) by (rewrite Er in Hb; now apply bytes_app). split.
      * split; [rewrite encs_latin1; exact Er|]. split; [apply accepted_latin1; tauto|]. split; [exact Hf|]. split; [exact Hd|].
        destruct Hc as [(Hc & -> & _)|(Hc & _ & _ & u & rest' & Eu & Hl)].
        -- left. split; [exact Hc|reflexivity].
        -- right; right. split; [exact Hc|]. rewrite Eu. split; [discriminate|]. split; [|right; left; exists u, rest'; split; [rewrite Eu in Hub; destruct Hub as [_ Hb2]; inversion Hb2; subst; unfold is_byte in *; cbn; lia|reflexivity]]. intros v rv Hv Ev. cbn in Ev. injection Ev as <- _. exact Hl.
      * destruct Hc as [(Hc & -> & I1 & I2)|(Hc & I1 & I2 & _)].
        -- right. repeat split; auto. lia.
        -- left. split; [rewrite encs_latin1; lia|lia].
  - edestruct (convert_impl_ok EncUTF8 utf8_next utf8_inc EncUTF16 utf16_write dst src utf8_next_ok utf16_write_ok Hb) as (us & rest & r & E & P & I).
    exists us, rest, r. auto.
  - (* UTF16 <- UTF16 *)
    set (copy := align_down (Z.min (len dst) (len src)) 2). destruct (align_down_ok (Z.min (len dst) (len src)) 2 ltac:(lia) ltac:(lia)) as (Ha1 & Ha2 & Ha3 & _).
    fold copy in Ha1, Ha2, Ha3. destruct (utf16_validate_ok (firstn (Z.to_nat copy) src) (bytes_firstn _ _ Hb)) as (us & rest1 & c & st & E & Hus & -> & V16 & _ & _ & Hc).
    cbn [bind]. rewrite V16. pose proof (encs_len_csize EncUTF16 us) as Hz. cbn [char_size] in Hz.
    replace (len (encs EncUTF16 us) / 2 * 2) with (len (encs EncUTF16 us)) by lia.
    assert (Hfit : len (encs EncUTF16 us) <= copy). { destruct (firstn_skipn_len src copy ltac:(lia)) as [_ Ls]. rewrite <- Ls, E, len_app. pose proof (len_nonneg rest1). lia. }
    rewrite memcpy_ok by (pose proof (len_nonneg (encs EncUTF16 us)); lia). cbn [bind].
    exists us, (rest1 ++ skipn (Z.to_nat copy) src). eexists. split; [reflexivity|]. split; [|left; split; reflexivity].
    eapply (same_progress EncUTF16 dst src copy us rest1 c); try reflexivity; auto.
    + cbn [c_dst]. unfold len. rewrite Nat2Z.id. reflexivity.
    + cbn [c_result]. destruct (Z.ltb_spec copy (len src)); cbn [andb].
      * destruct ((c =? BL_SUCCESS) || (c =? BL_ERROR_DATA_TRUNCATED)) eqn:Eq; [reflexivity|]. destruct (c =? BL_SUCCESS); [discriminate|]. reflexivity.
      * replace (len src mod 2) with 0 by lia. rewrite Bool.andb_false_r. reflexivity.
  - edestruct (convert_impl_ok EncUTF32 (fun s => utf32_next s true) utf32_inc EncUTF16 utf16_write dst src utf32_next_ok utf16_write_ok Hb) as (us & rest & r & E & P & I).
    exists us, rest, r. auto.
  - destruct (Hlat u16_bytes 2 EncUTF16 ltac:(auto)) as (us & rest & r & E & P & I). exists us, rest, r. auto.
  - edestruct (convert_impl_ok EncUTF8 utf8_next utf8_inc EncUTF32 utf32_write dst src utf8_next_ok utf32_write_ok Hb) as (us & rest & r & E & P & I).
    exists us, rest, r. auto.
  - edestruct (convert_impl_ok EncUTF16 (fun s => utf16_next s true) utf16_inc EncUTF32 utf32_write dst src utf16_next_ok utf32_write_ok Hb) as (us & rest & r & E & P & I).
    exists us, rest, r. auto.
  - edestruct (convert_impl_ok EncUTF32 (fun s => utf32_next s true) utf32_inc EncUTF32 utf32_write dst src utf32_next_ok utf32_write_ok Hb) as (us & rest & r & E & P & I).
    exists us, rest, r. auto.
  - destruct (Hlat u32_bytes 4 EncUTF32 ltac:(auto)) as (us & rest & r & E & P & I). exists us, rest, r. auto.
  - (* Latin1 <- Latin1 *)
    set (copy := Z.min (len dst) (len src)). destruct (firstn_skipn_len src copy ltac:(subst copy; lia)) as [Es Ls].
    rewrite memcpy_ok by (subst copy; lia). cbn [bind]. exists (firstn (Z.to_nat copy) src), (skipn (Z.to_nat copy) src). eexists. split; [reflexivity|].
    unfold progress, indexes. cbn [c_result c_dst c_dst_index c_src_index]. rewrite !encs_latin1, Ls. split; [|left; split; reflexivity].
    split; [exact Es|]. split; [apply accepted_latin1, bytes_firstn, Hb|]. split; [subst copy; lia|]. split. { f_equal. f_equal. unfold len in Ls. lia. }
    assert (Hpl : len (skipn (Z.to_nat copy) src) = len src - copy) by (pose proof (f_equal len Es) as Q; rewrite len_app in Q; lia).
    destruct (Z.ltb_spec (len dst) (len src)).
    + right; right. split; [reflexivity|]. split; [intros Hp; rewrite Hp, len_nil in Hpl; subst copy; lia|]. split; [|left; lia]. intros u rest' _ _. cbn [enc]. rewrite len_cons, len_nil. subst copy; lia.
    + left. split; [reflexivity|]. cbn [char_size]. subst copy; lia.
Qed.
