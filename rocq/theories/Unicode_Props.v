(* Theorems about Unicode validation and transcoding. Spec: Unicode_Spec.v *)
From Verif Require Import Base Unicode_Model Unicode_Spec Unicode_Proofs Unicode_Proofs2 Unicode_Proofs3 Unicode_Proofs4 Unicode_Proofs5.

Definition validates (e : encoding) (src : list Z) : Prop := exists st, bl_validate_unicode e src = Ok (BL_SUCCESS, st).

(* ------------------------------------------------------------------ C16 *)
(* ED A0 80 (a surrogate) is accepted although it is not well-formed UTF-8. *)
Theorem C16_utf8_wellformed_refuted :
  exists src, bytes src /\ validates EncUTF8 src /\ ~ exists us, Forall scalar us /\ src = encs EncUTF8 us.
Proof.
  exists [0xED; 0xA0; 0x80]. split; [repeat constructor; unfold is_byte; lia|]. split; [eexists; vm_compute; reflexivity|].
  intros (us & Hus & E). change [0xED; 0xA0; 0x80] with (encs EncUTF8 [0xD800] ++ []) in E. symmetry in E.
  assert (Ha : Forall (accepted EncUTF8) us) by (eapply Forall_impl; [|exact Hus]; intros a; unfold scalar; cbn; tauto).
  destruct (encs_prefix EncUTF8 us [0xD800] [] Ha ltac:(repeat constructor; unfold code_point; lia) E) as (ws & -> & _).
  inversion Hus as [|? ? Hs _]. unfold scalar, surrogate in Hs. lia.
Qed.
Print Assumptions C16_utf8_wellformed_refuted.

(* Everything else of the claim: success exactly for concatenations of code point encodings (surrogates included), in
   particular for every well-formed text; on failure the index is the end of the longest prefix that decodes, and the
   rest does not begin with the encoding of any code point. *)
Theorem C16_utf8_partial : forall src, bytes src -> 2 * len src < 2 ^ 64 ->
  exists us rest c st, bl_validate_unicode EncUTF8 src = Ok (c, st) /\ src = encs EncUTF8 us ++ rest /\ Forall code_point us /\
    v_utf8 st = len (encs EncUTF8 us) /\
    (c = BL_SUCCESS <-> exists vs, Forall code_point vs /\ src = encs EncUTF8 vs) /\
    (c = BL_SUCCESS -> rest = []) /\
    (c <> BL_SUCCESS -> rest <> [] /\ forall u r, code_point u -> rest <> utf8_enc u ++ r).
Proof.
  intros src Hb Hs. destruct (validate_all EncUTF8 src Hb Hs) as (us & rest & c & st & E & Hus & Hv & (L & _) & Hc).
  destruct (validate_iff EncUTF8 src Hb Hs) as (c' & st' & Hv' & Hiff). rewrite Hv in Hv'. injection Hv' as <- <-.
  exists us, rest, c, st. split; [exact Hv|]. split; [exact E|]. split; [exact Hus|]. split; [exact L|]. split; [exact Hiff|]. split.
  - intros ->. destruct Hc as [[_ ->]|Hbad]; [reflexivity|]. now apply bad_not_success in Hbad.
  - intros Hn. destruct Hc as [[-> _]|(Hne & [[_ Hst]|[_ Hst]])]; [congruence| |]; (split; [exact Hne|]).
    + intros u r Hu Er. apply (Hst [] u r Hu). rewrite app_nil_r. exact Er.
    + intros u r Hu Er. exact (Hst u r Hu Er).
Qed.
Print Assumptions C16_utf8_partial.
Example C16_ex1 : bl_validate_unicode EncUTF8 [0x41; 0xC3; 0xA9; 0xE2; 0x82; 0xAC; 0xF0; 0x9F; 0x98; 0x80] =
  Ok (BL_SUCCESS, {| v_utf8 := 10; v_utf16 := 5; v_utf32 := 4 |}). Proof. vm_compute. reflexivity. Qed.
Example C16_ex2 : exists c st, bl_validate_unicode EncUTF8 [0x41; 0xC0; 0x80] = Ok (c, st) /\ c = BL_ERROR_INVALID_STRING /\ v_utf8 st = 1.
Proof. eexists _, _. vm_compute. repeat split. Qed.

(* ------------------------------------------------------------------ C33: UTF-16 and UTF-32 validation is exact, all lengths are right *)
Theorem C33_validate_exact : forall e src, e <> EncUTF8 -> bytes src -> 2 * len src < 2 ^ 64 ->
  (validates e src <-> exists us, Forall (in_charset e) us /\ src = encs e us).
Proof.
  intros e src He Hb Hs. destruct (validate_iff e src Hb Hs) as (c & st & Hv & Hiff).
  assert (Q : forall u, accepted e u <-> in_charset e u) by (intros u; destruct e; cbn; tauto).
  assert (Q2 : (exists us, Forall (accepted e) us /\ src = encs e us) <-> (exists us, Forall (in_charset e) us /\ src = encs e us)).
  { split; intros (us & H1 & H2); exists us; (split; [|exact H2]); (eapply Forall_impl; [|exact H1]; intros a; apply Q). }
  rewrite <- Q2, <- Hiff. unfold validates. rewrite Hv. split; [intros (st' & E); now injection E|intros ->; eauto].
Qed.
Print Assumptions C33_validate_exact.

Theorem C33_validate_lengths : forall e src c st, bytes src -> 2 * len src < 2 ^ 64 -> bl_validate_unicode e src = Ok (c, st) ->
  exists us rest, src = encs e us ++ rest /\ (c = BL_SUCCESS -> rest = []) /\
    v_utf8 st = len (encs EncUTF8 us) /\ v_utf16 st * 2 = len (encs EncUTF16 us) /\ v_utf32 st = len us.
Proof.
  intros e src c st Hb Hs Hv. destruct (validate_all e src Hb Hs) as (us & rest & c' & st' & E & Hus & Hv' & (L1 & L2 & L3) & Hc).
  rewrite Hv in Hv'. injection Hv' as <- <-. exists us, rest. rewrite enc32_len in L3. split; [exact E|]. split; [|split; [exact L1|split; [exact L2|lia]]].
  intros ->. destruct Hc as [[_ ->]|Hbad]; [reflexivity|]. now apply bad_not_success in Hbad.
Qed.
Print Assumptions C33_validate_lengths.
Example C33_ex1 : bl_validate_unicode EncUTF16 [0x3D; 0xD8; 0x00; 0xDE; 0xAC; 0x20] = Ok (BL_SUCCESS, {| v_utf8 := 7; v_utf16 := 3; v_utf32 := 2 |}).
Proof. vm_compute. reflexivity. Qed.
Example C33_ex2 : exists st, bl_validate_unicode EncUTF16 [0x41; 0x00; 0x3D; 0xD8] = Ok (BL_ERROR_DATA_TRUNCATED, st) /\ v_utf16 st = 1.
Proof. eexists. vm_compute. split; reflexivity. Qed.
Example C33_ex3 : bl_validate_unicode EncLatin1 [0x41; 0xE9] = Ok (BL_SUCCESS, {| v_utf8 := 3; v_utf16 := 2; v_utf32 := 2 |}).
Proof. vm_compute. reflexivity. Qed.

(* ------------------------------------------------------------------ C17 *)
(* Every text, every supported pair, every large enough destination: success, and the destination holds the same text. *)
Theorem C17_transcode : forall de se us dst, supported de se -> Forall (in_charset se) us -> len (encs de us) <= len dst ->
  exists r, convert_unicode de se dst (encs se us) = Ok r /\ c_result r = BL_SUCCESS /\
    firstn (length (encs de us)) (c_dst r) = encs de us.
Proof.
  intros de se us dst Hs Hu Hl. destruct (convert_text de se us dst Hs Hu Hl) as (r & E & Hr & Hd). exists r. split; [exact E|]. split; [exact Hr|].
  rewrite Hd. apply firstn_len.
Qed.
Print Assumptions C17_transcode.

(* There and back is the identity. *)
Theorem C17_there_and_back : forall de se us dst dst2, supported de se -> supported se de -> Forall (in_charset se) us -> Forall (in_charset de) us ->
  len (encs de us) <= len dst -> len (encs se us) <= len dst2 ->
  exists r r2, convert_unicode de se dst (encs se us) = Ok r /\
    convert_unicode se de dst2 (firstn (length (encs de us)) (c_dst r)) = Ok r2 /\ c_result r2 = BL_SUCCESS /\
    firstn (length (encs se us)) (c_dst r2) = encs se us.
Proof.
  intros de se us dst dst2 Hs Hs2 Hu Hu2 Hl Hl2. destruct (C17_transcode de se us dst Hs Hu Hl) as (r & E & _ & Hd).
  destruct (C17_transcode se de us dst2 Hs2 Hu2 Hl2) as (r2 & E2 & Hr2 & Hd2). exists r, r2. rewrite Hd. auto.
Qed.
Print Assumptions C17_there_and_back.

(* Two different texts never have the same encoding. *)
Theorem C17_encodings_injective : forall e us vs, Forall (in_charset e) us -> Forall (in_charset e) vs -> encs e us = encs e vs -> us = vs.
Proof.
  intros e us vs Hu Hv E. assert (Hu' : Forall (accepted e) us) by (eapply Forall_impl; [|exact Hu]; apply in_charset_accepted).
  assert (Hv' : Forall (accepted e) vs) by (eapply Forall_impl; [|exact Hv]; apply in_charset_accepted).
  rewrite <- (app_nil_r (encs e vs)) in E. destruct (encs_prefix e us vs [] Hu' Hv' E) as (ws & -> & Ew). symmetry in Ew. apply encs_nil in Ew. subst. apply app_nil_r.
Qed.
Print Assumptions C17_encodings_injective.
Example C17_ex : exists r, convert_unicode EncUTF16 EncUTF8 (repeat 0 8) (encs EncUTF8 [0x41; 0x1F600; 0x20AC]) = Ok r /\
  c_dst r = [0x41; 0x00; 0x3D; 0xD8; 0x00; 0xDE; 0xAC; 0x20] /\ Forall (in_charset EncUTF8) [0x41; 0x1F600; 0x20AC].
Proof. eexists. split; [vm_compute; reflexivity|]. split; [reflexivity|]. repeat constructor; unfold scalar, code_point, surrogate; lia. Qed.

(* ------------------------------------------------------------------ C18 *)
(* Latin-1 to UTF-8 with fewer than 2n bytes of space succeeds but reports no progress at all. *)
Theorem C18_progress_refuted : exists de se dst src r, supported de se /\ bytes src /\ convert_unicode de se dst src = Ok r /\
  c_result r = BL_SUCCESS /\ c_dst r = encs de src /\ c_src_index r = 0 /\ c_dst_index r = 0 /\ src <> [].
Proof.
  exists EncUTF8, EncLatin1, [0; 0; 0], [0x41; 0x42; 0x43]. eexists. split; [discriminate|]. split; [repeat constructor; unfold is_byte; lia|].
  split; [vm_compute; reflexivity|]. repeat split. discriminate.
Qed.
Print Assumptions C18_progress_refuted.

(* UTF-16 to UTF-8 of an odd number of bytes succeeds without consuming the last byte. *)
Theorem C18_consumed_refuted : exists de se dst src r, supported de se /\ bytes src /\ convert_unicode de se dst src = Ok r /\
  c_result r = BL_SUCCESS /\ c_src_index r < len src.
Proof.
  exists EncUTF8, EncUTF16, [0; 0; 0], [0x41; 0x00; 0x42]. eexists. split; [discriminate|]. split; [repeat constructor; unfold is_byte; lia|].
  split; [vm_compute; reflexivity|]. split; reflexivity.
Qed.
Print Assumptions C18_consumed_refuted.

(* Apart from these two cases: the indexes are exact, the destination prefix is the transcoding of the source prefix, the
   rest of the destination is untouched, success means the whole source (up to an incomplete last unit) was consumed, and
   any other result means that the next character could not be converted. *)
Theorem C18_progress_partial : forall de se dst src, supported de se -> bytes src ->
  (de = EncUTF8 -> se = EncLatin1 -> 2 * len src <= len dst) ->
  exists us rest r, convert_unicode de se dst src = Ok r /\ src = encs se us ++ rest /\ Forall (accepted se) us /\
    c_src_index r = len (encs se us) /\ c_dst_index r = len (encs de us) /\
    c_dst r = encs de us ++ skipn (length (encs de us)) dst /\ len (encs de us) <= len dst /\
    (c_result r = BL_SUCCESS -> len rest < char_size se) /\
    (c_result r <> BL_SUCCESS -> rest <> [] /\ forall u rest', accepted se u -> rest = enc se u ++ rest' ->
        c_result r = BL_ERROR_NO_SPACE_LEFT /\ len dst < len (encs de us) + len (enc de u)).
Proof.
  intros de se dst src Hs Hb Hfast. destruct (convert_progress de se dst src Hs Hb) as (us & rest & r & E & (E1 & Hus & Hfit & Hd & Hc) & Hi).
  exists us, rest, r. destruct Hi as [[I1 I2]|(Q1 & Q2 & Q3 & _)]; [|specialize (Hfast Q1 Q2); lia].
  split; [exact E|]. split; [exact E1|]. split; [exact Hus|]. split; [exact I1|]. split; [exact I2|]. split; [exact Hd|]. split; [exact Hfit|]. split.
  - intros Hr. destruct Hc as [[_ Hc]|[Hc|(Hc & _)]]; [exact Hc|now apply bad_not_success in Hc|rewrite Hr in Hc; discriminate].
  - intros Hn. destruct Hc as [[Hc _]|[(Hne & [[Hc Hst]|[Hc Hst]])|(Hc & Hne & Hst & _)]]; [congruence| | |]; (split; [exact Hne|]); intros u rest' Hu Eu.
    + exfalso. apply (Hst [] u rest' Hu). rewrite app_nil_r. exact Eu.
    + exfalso. exact (Hst u rest' Hu Eu).
    + split; [exact Hc|]. exact (Hst u rest' Hu Eu).
Qed.
Print Assumptions C18_progress_partial.
Example C18_ex : exists r, convert_unicode EncUTF16 EncUTF8 [9; 9; 9; 9; 9] (encs EncUTF8 [0x41; 0x1F600]) = Ok r /\
  c_result r = BL_ERROR_NO_SPACE_LEFT /\ c_dst r = [0x41; 0; 9; 9; 9] /\ c_src_index r = 1 /\ c_dst_index r = 2.
Proof. eexists. split; [vm_compute; reflexivity|]. repeat split. Qed.

(* ------------------------------------------------------------------ C19 *)
(* Every access is inside the buffers (an access outside is UB in the model), for every pair (supported or not), every
   source and every capacity; at most dst_size bytes change. *)
Theorem C19_bounds : forall de se dst src, bytes src ->
  exists r, convert_unicode de se dst src = Ok r /\ length (c_dst r) = length dst /\ 0 <= c_dst_index r <= len dst /\ 0 <= c_src_index r <= len src.
Proof.
  intros de se dst src Hb. pose proof (len_nonneg dst). pose proof (len_nonneg src).
  assert (D : supported de se \/ ~ supported de se) by (unfold supported; destruct de, se; first [left; intros; congruence | right; intros X; specialize (X eq_refl); discriminate]).
  destruct D as [Hs|Hs].
  - destruct (convert_progress de se dst src Hs Hb) as (us & rest & r & E & (E1 & Hus & Hfit & Hd & Hc) & Hi). exists r. split; [exact E|].
    pose proof (len_nonneg (encs de us)). pose proof (len_nonneg (encs se us)). pose proof (len_nonneg rest). pose proof (f_equal len E1) as Q. rewrite len_app in Q.
    split. { rewrite Hd, app_length, skipn_length. unfold len in Hfit. lia. }
    destruct Hi as [[I1 I2]|(_ & _ & _ & _ & I1 & I2)]; lia.
  - exists {| c_result := BL_ERROR_INVALID_VALUE; c_dst := dst; c_dst_index := 0; c_src_index := 0 |}.
    split; [|cbn; repeat split; lia]. unfold supported in Hs. destruct de, se; try (exfalso; apply Hs; congruence); reflexivity.
Qed.
Print Assumptions C19_bounds.
Example C19_ex : exists r, convert_unicode EncUTF8 EncUTF32 [7; 7; 7; 7; 7] (encs EncUTF32 [0x20AC; 0x20AC]) = Ok r /\
  c_dst r = [0xE2; 0x82; 0xAC; 7; 7] /\ c_result r = BL_ERROR_NO_SPACE_LEFT.
Proof. eexists. split; [vm_compute; reflexivity|]. split; reflexivity. Qed.

(* ------------------------------------------------------------------ C34: the output of a successful conversion is well formed *)
(* UTF-8 ED A0 80 is converted to UTF-32 with success, and the result is rejected by the UTF-32 validator. *)
Theorem C34_output_wellformed_refuted : exists dst src r c st, bytes src /\ convert_unicode EncUTF32 EncUTF8 dst src = Ok r /\ c_result r = BL_SUCCESS /\
  bl_validate_unicode EncUTF32 (firstn (Z.to_nat (c_dst_index r)) (c_dst r)) = Ok (c, st) /\ c = BL_ERROR_INVALID_STRING.
Proof.
  exists [0; 0; 0; 0], [0xED; 0xA0; 0x80]. eexists _, _, _. split; [repeat constructor; unfold is_byte; lia|]. split; [vm_compute; reflexivity|].
  split; [reflexivity|]. split; [vm_compute; reflexivity|reflexivity].
Qed.
Print Assumptions C34_output_wellformed_refuted.
(* A pair of such sequences becomes one supplementary character: converting to UTF-16 and back changes the string. *)
Theorem C34_round_trip_refuted : exists src r r2, bytes src /\ convert_unicode EncUTF16 EncUTF8 (repeat 0 4) src = Ok r /\ c_result r = BL_SUCCESS /\
  c_dst_index r = 4 /\ convert_unicode EncUTF8 EncUTF16 (repeat 0 6) (c_dst r) = Ok r2 /\ c_result r2 = BL_SUCCESS /\
  firstn (Z.to_nat (c_dst_index r2)) (c_dst r2) <> src.
Proof.
  exists [0xED; 0xA0; 0x80; 0xED; 0xB0; 0x80]. eexists _, _. split; [repeat constructor; unfold is_byte; lia|]. split; [vm_compute; reflexivity|].
  split; [reflexivity|]. split; [reflexivity|]. split; [vm_compute; reflexivity|]. split; [reflexivity|]. discriminate.
Qed.
Print Assumptions C34_round_trip_refuted.
(* For every other source encoding the output is the encoding of a text, so it is well formed. *)
Theorem C34_output_wellformed_partial : forall de se dst src r, supported de se -> se <> EncUTF8 -> bytes src ->
  (de = EncUTF8 -> se = EncLatin1 -> 2 * len src <= len dst) -> convert_unicode de se dst src = Ok r ->
  exists us, Forall (in_charset de) us /\ firstn (Z.to_nat (c_dst_index r)) (c_dst r) = encs de us.
Proof.
  intros de se dst src r Hs Hse Hb Hf E. destruct (C18_progress_partial de se dst src Hs Hb Hf) as (us & rest & r' & E' & _ & Hus & _ & I & Hd & _).
  rewrite E in E'. injection E' as <-. exists us. split.
  - eapply Forall_impl; [|exact Hus]. intros a Ha. unfold supported in Hs. destruct de, se; cbn in *; unfold scalar, code_point, surrogate in *; try congruence; try lia; try (specialize (Hs eq_refl); congruence).
  - rewrite I, Hd. unfold len. rewrite Nat2Z.id. apply firstn_len.
Qed.
Print Assumptions C34_output_wellformed_partial.
Example C34_ex : exists r, convert_unicode EncUTF8 EncUTF16 (repeat 0 10) [0x3D; 0xD8; 0x00; 0xDE; 0xAC] = Ok r /\
  firstn (Z.to_nat (c_dst_index r)) (c_dst r) = encs EncUTF8 [0x1F600].
Proof. eexists. split; [vm_compute; reflexivity|]. vm_compute. reflexivity. Qed.

(* ------------------------------------------------------------------ C35: result codes tell the truth *)
(* NO_SPACE_LEFT although there is plenty of space: UTF-16 copied from an odd number of bytes. *)
Theorem C35_no_space_refuted : exists src r, bytes src /\ convert_unicode EncUTF16 EncUTF16 (repeat 0 100) src = Ok r /\ len src = 3 /\
  c_result r = BL_ERROR_NO_SPACE_LEFT.
Proof. exists [0x41; 0; 0x42]. eexists. split; [repeat constructor; unfold is_byte; lia|]. split; [vm_compute; reflexivity|]. split; reflexivity. Qed.
Print Assumptions C35_no_space_refuted.
(* DATA_TRUNCATED although no continuation makes the string valid: E2 41. *)
Theorem C35_truncated_refuted : exists src st, bytes src /\ bl_validate_unicode EncUTF8 src = Ok (BL_ERROR_DATA_TRUNCATED, st) /\
  forall more, ~ exists us, Forall code_point us /\ src ++ more = encs EncUTF8 us.
Proof.
  exists [0xE2; 0x41]. eexists. split; [repeat constructor; unfold is_byte; lia|]. split; [vm_compute; reflexivity|].
  intros more (us & Hus & E). destruct us as [|u us]; [discriminate|]. inversion Hus; subst. cbn [encs flat_map enc app] in E.
  pose proof (utf8_enc_form u H1) as F. inversion F as [? E1|? ? ? ? ? ? E1|? ? ? ? ? ? ? ? E1|? ? ? ? ? ? ? ? ? ? E1]; rewrite <- E1 in E; cbn [app] in E; inversion E; lia.
Qed.
Print Assumptions C35_truncated_refuted.

Lemma enc_len_le4 e u : len (enc e u) <= 4.
Proof. destruct e; cbn [enc]; [rewrite enc8_len|rewrite enc16_len|change (len (utf32_enc u)) with 4|change (len [u]) with 1]; repeat destruct (_ <? _); lia. Qed.
Lemma encs_len_bounds e us : len us <= len (encs e us) <= 4 * len us.
Proof.
  induction us as [|u us IH]; [cbn; lia|]. cbn [encs flat_map]. fold (encs e us). rewrite len_app, len_cons. pose proof (enc_len_le4 e u). pose proof (enc_len_pos e u). lia.
Qed.

(* Sources of whole units: with four bytes per source byte NO_SPACE_LEFT is never reported; DATA_TRUNCATED and
   INVALID_STRING are reported only if the source is not the encoding of a text. *)
Theorem C35_codes_partial : forall de se dst src r, supported de se -> bytes src -> convert_unicode de se dst src = Ok r ->
  len src mod char_size se = 0 ->
  (4 * len src <= len dst -> c_result r <> BL_ERROR_NO_SPACE_LEFT) /\
  (c_result r = BL_ERROR_DATA_TRUNCATED \/ c_result r = BL_ERROR_INVALID_STRING -> ~ exists us, Forall (accepted se) us /\ src = encs se us) /\
  (c_result r = BL_SUCCESS \/ c_result r = BL_ERROR_DATA_TRUNCATED \/ c_result r = BL_ERROR_INVALID_STRING \/ c_result r = BL_ERROR_NO_SPACE_LEFT).
Proof.
  intros de se dst src r Hs Hb E Hm. destruct (convert_progress de se dst src Hs Hb) as (us & rest & r' & E' & (E1 & Hus & Hfit & Hd & Hc) & _).
  rewrite E in E'. injection E' as <-. split; [|split].
  - intros Hl Hr. destruct Hc as [[Hc _]|[(_ & [[Hc _]|[Hc _]])|(_ & Hne & Hst & [Hlt|[(u & rest' & Hu & Eu)|(_ & Hodd)]])]]; try (rewrite Hr in Hc; discriminate).
    + pose proof (len_nonneg src). lia.
    + specialize (Hst u rest' Hu Eu). pose proof (encs_len_bounds de (us ++ [u])) as B1. pose proof (encs_len_bounds se (us ++ [u])) as B2.
      rewrite encs_snoc, !len_app in B1, B2. rewrite E1, Eu, !len_app in Hl. pose proof (len_nonneg rest'). lia.
    + congruence.
  - intros Hr (vs & Hvs & Ev). rewrite Ev in E1. destruct (encs_prefix se vs us rest Hvs Hus E1) as (ws & -> & ->).
    destruct Hc as [[Hc _]|[(Hne & Hst)|(Hc & _)]]; [destruct Hr as [Hr|Hr]; rewrite Hr in Hc; discriminate| |destruct Hr as [Hr|Hr]; rewrite Hr in Hc; discriminate].
    destruct ws as [|w ws]; [now apply Hne|]. apply Forall_app in Hvs. destruct Hvs as [_ Hws]. inversion Hws; subst.
    destruct Hst as [[_ Hst]|[_ Hst]].
    + apply (Hst [] w (encs se ws) H1). rewrite app_nil_r. reflexivity.
    + apply (Hst w (encs se ws) H1). reflexivity.
  - destruct Hc as [[Hc _]|[(_ & [[Hc _]|[Hc _]])|(Hc & _)]]; auto.
Qed.
Print Assumptions C35_codes_partial.
Example C35_ex : exists r, convert_unicode EncUTF32 EncUTF8 (repeat 0 12) [0x41; 0x80; 0x41] = Ok r /\ c_result r = BL_ERROR_INVALID_STRING /\ c_src_index r = 1.
Proof. eexists. split; [vm_compute; reflexivity|]. split; reflexivity. Qed.
