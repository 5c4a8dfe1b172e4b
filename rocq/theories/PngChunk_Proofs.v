(* Proofs about chunk parsing: reading integers, the header. *)
From Verif Require Import Base Bits IntOps_Model Algorithm_Model Algorithm_Proofs Png_Model Png_Spec Png_Proofs PngChunk_Model PngChunk_Spec.
From Coq Require Import ZifyBool.

Ltac znorm := repeat match goal with |- context [Z.add (Zpos ?a) (Zpos ?b)] => let v := eval vm_compute in (Z.pos a + Z.pos b) in change (Z.pos a + Z.pos b) with v end.
Ltac znorm_in H := repeat match type of H with context [Z.add (Zpos ?a) (Zpos ?b)] => let v := eval vm_compute in (Z.pos a + Z.pos b) in change (Z.pos a + Z.pos b) with v in H end.

Lemma byte_range f i : bytes f -> 0 <= get f i < 256.
Proof. intros B. pose proof (get_byte f i B) as H. unfold is_byte in H. lia. Qed.

Lemma be16_range f i : bytes f -> 0 <= be16 f i < 65536.
Proof. intros B. unfold be16. pose proof (byte_range f i B). pose proof (byte_range f (i + 1) B). lia. Qed.
Lemma be32_range f i : bytes f -> 0 <= be32 f i < 4294967296.
Proof. intros B. unfold be32. pose proof (be16_range f i B). pose proof (be16_range f (i + 2) B). lia. Qed.

Lemma rd16_ok f i : 0 <= i -> i + 2 <= len f -> rd16 f i = Ok (be16 f i).
Proof. intros. unfold rd16. rewrite !rd_get by lia. cbn [bind]. unfold be16. f_equal. lia. Qed.
Lemma rd32_ok f i : 0 <= i -> i + 4 <= len f -> rd32 f i = Ok (be32 f i).
Proof. intros. unfold rd32. rewrite !rd16_ok by lia. cbn [bind]. unfold be32. f_equal. lia. Qed.

Lemma rd_n_ok f : forall n p, 0 <= p -> p + Z.of_nat n <= len f -> rd_n f p n = Ok (map (fun i => get f (p + Z.of_nat i)) (seq 0 n)).
Proof.
  induction n as [|n IH]; intros p Hp Hl; cbn [rd_n]; [reflexivity|]. rewrite rd_get by lia. cbn [bind]. rewrite IH by lia. cbn [bind seq map].
  f_equal. f_equal; [f_equal; lia|]. rewrite <- seq_shift, map_map. apply map_ext. intros i. f_equal. lia.
Qed.

Lemma remaining_ok e p : p <= e < 18446744073709551616 -> 0 <= p -> remaining_bytes e p = e - p.
Proof. intros. unfold remaining_bytes, w64. apply Z.mod_small. lia. Qed.
Lemma has_chunk_ok e p : p <= e < 18446744073709551616 -> 0 <= p -> has_chunk e p = (p + 12 <=? e).
Proof. intros. unfold has_chunk. rewrite remaining_ok by lia. unfold kPngChunkBaseSize. lia. Qed.
Lemma has_chunk_size_ok e p n : p + 12 <= e < 18446744073709551616 -> 0 <= p -> has_chunk_with_size e p n = (p + 12 + n <=? e).
Proof. intros. unfold has_chunk_with_size. rewrite remaining_ok by lia. unfold kPngChunkBaseSize, w64. rewrite Z.mod_small by lia. lia. Qed.

Lemma check_formats ct sd : 0 <= ct < 256 -> 0 <= sd < 256 -> check_color_type_and_bit_depth ct sd = true <-> In (ct, sd) header_formats.
Proof.
  intros Hc Hs.
  assert (E : forallb (fun c => forallb (fun s => Bool.eqb (check_color_type_and_bit_depth c s)
     (existsb (fun '(a, b) => (a =? c) && (b =? s)) header_formats)) (zrange 256)) (zrange 7) = true) by (vm_compute; reflexivity).
  destruct (Z_lt_le_dec ct 7) as [L|G].
  - rewrite forallb_forall in E. assert (I : In ct (zrange 7)). { unfold zrange. apply in_map_iff. exists (Z.to_nat ct). split; [lia|]. apply in_seq. lia. }
    specialize (E ct I). rewrite forallb_forall in E. assert (J : In sd (zrange 256)). { unfold zrange. apply in_map_iff. exists (Z.to_nat sd). split; [lia|]. apply in_seq. lia. }
    specialize (E sd J). apply Bool.eqb_prop in E. rewrite E, existsb_exists. split.
    + intros ((a, b) & H & K). assert (a = ct /\ b = sd) as (-> & ->) by lia. assumption.
    + intros H. exists (ct, sd). split; [assumption|]. lia.
  - split.
    + unfold check_color_type_and_bit_depth. destruct (sd =? 16); [discriminate|]. replace (ct <? 7) with false by lia. discriminate.
    + intros H. cbn in H. repeat (destruct H as [H|H]; [injection H; lia|]). destruct H.
Qed.

Lemma scount_samples ct sd : In (ct, sd) header_formats -> nth (Z.to_nat ct) kColorTypeToSampleCountTable 0 = samples ct.
Proof. intros H. cbn in H. repeat (destruct H as [H|H]; [injection H as <- <-; reflexivity|]). destruct H. Qed.
Lemma samples_ok ct sd : In (ct, sd) header_formats -> sample_ok sd (samples ct).
Proof. intros H. cbn in H. repeat (destruct H as [H|H]; [injection H as <- <-; unfold sample_ok, samples; cbn; lia|]). destruct H. Qed.

(* ------------------------------------------------------------------ the header *)


Lemma actl_loop_ok f d : bytes f -> len f < 18446744073709551616 -> forall fuel p, 0 <= p <= len f - 8 -> len f - 8 - p < Z.of_nat fuel ->
  exists d', actl_loop fuel f (len f - 8) p d = Ok d' /\ (d' = d \/ exists n, 2 <= n < 4294967296 /\ d' = set_actl (set_frames d n) true).
Proof.
  intros B L64. induction fuel as [|fuel IH]; intros p Hp Hf; [lia|]. cbn [actl_loop].
  rewrite has_chunk_ok by lia. destruct (Z.leb_spec (p + 12) (len f - 8)) as [H|H]; cbn [negb]; [|exists d; auto].
  unfold read_chunk_tag, read_chunk_size. rewrite !rd32_ok by lia. cbn [bind].
  rewrite has_chunk_size_ok by lia. pose proof (be32_range f p B) as R. destruct (Z.leb_spec (p + 12 + be32 f p) (len f - 8)) as [H1|H1]; cbn [negb]; [|exists d; auto].
  destruct (be32 f (p + 4) =? acTL).
  - unfold kPngChunkDataSize_acTL, kPngChunkHeaderSize. destruct (Z.eqb_spec (be32 f p) 8) as [E|E]; cbn [negb]; [|exists d; auto].
    rewrite !rd32_ok by lia. cbn [bind]. pose proof (be32_range f (p + 8) B) as R8. destruct (Z.leb_spec (be32 f (p + 8)) 1); [exists d; auto|].
    exists (set_actl (set_frames d (be32 f (p + 8))) true). split; [reflexivity|]. right. exists (be32 f (p + 8)). split; [lia|reflexivity].
  - destruct (_ || _); [exists d; auto|]. unfold kPngChunkBaseSize. apply IH; lia.
Qed.


Definition info_of (f : list Z) (p : Z) (d d' : dec) : Prop :=
  let d1 := set_buf (set_info (if chunk_type f 8 =? type_CgBI then set_cgbi d true else d) (be32 f (p + 8)) (be32 f (p + 12)) (negb (get f (p + 20) =? 0))
              (get f (p + 17)) (get f (p + 16)) (samples (get f (p + 17)))) (p + 25) in
  d' = d1 \/ exists n, 2 <= n < 4294967296 /\ d' = set_actl (set_frames d1 n) true.

Lemma sig_ok l : length l = 8%nat -> forallb (fun '(a, b) => a =? b) (combine l kPngSignature) = true <-> l = signature.
Proof.
  intros L. do 9 (destruct l as [|? l]; try discriminate). unfold kPngSignature, signature. cbn [combine forallb].
  rewrite !andb_true_iff, !Z.eqb_eq. split.
  - intros H. destruct H as (-> & -> & -> & -> & -> & -> & -> & -> & _). reflexivity.
  - intros H. injection H as -> -> -> -> -> -> -> ->. repeat split.
Qed.

Theorem read_info_internal_ok f d : bytes f -> len f < 18446744073709551616 -> long_enough f ->
  exists d' err, decoder_read_info_internal f d = Ok (d', err) /\
    (err = BL_SUCCESS -> firstn 8 f = signature /\ header_ok f (header_pos f) /\ info_of f (header_pos f) d d') /\
    (firstn 8 f = signature -> header_ok f (header_pos f) -> (chunk_type f 8 = type_CgBI -> chunk_len f 8 = 4) -> err = BL_SUCCESS) /\
    (err <> BL_SUCCESS -> d' = d \/ d' = set_cgbi d true).
Proof.
  intros B L64 (L41 & L57). fold (len f) in L41, L57. unfold decoder_read_info_internal. fold (len f).
  unfold kPngSignatureSize, kPngChunkBaseSize, kPngChunkDataSize_IHDR, kPngChunkDataSize_CgBI, kPngChunkHeaderSize. znorm.
  replace (len f <? 33) with false by lia.
  rewrite rd_n_ok by lia. cbn [bind].
  assert (SG : map (fun i => get f (0 + Z.of_nat i)) (seq 0 8) = firstn 8 f).
  { unfold get, len in *. do 8 (destruct f as [|? f]; [cbn in L41; lia|]). reflexivity. }
  rewrite SG. pose proof (sig_ok (firstn 8 f) ltac:(rewrite firstn_length; unfold len in *; lia)) as SO.
  destruct (forallb _ _); cbn [negb].
  2:{ exists d, BL_ERROR_INVALID_SIGNATURE. split; [reflexivity|]. split; [discriminate|]. split; [|auto]. intros S. apply SO in S. discriminate. }
  assert (SIG : firstn 8 f = signature) by (apply SO; reflexivity). clear SO SG.
  unfold read_chunk_tag, read_chunk_size. rewrite !rd32_ok by lia. cbn [bind]. znorm.
  change CgBI with type_CgBI. fold (chunk_type f 8). change (be32 f 12) with (chunk_type f 8). fold (chunk_len f 8).
  unfold header_pos, info_of.
  assert (HEAD : forall p d0, 0 <= p -> p + 25 <= len f - 8 ->
    exists d' err, (if negb (chunk_type f p =? IHDR) || negb (chunk_len f p =? 13) then Ok (d0, BL_ERROR_IMAGE_UNKNOWN_FILE_FORMAT)
       else
        let* w := rd32 f (p + 8) in let* h := rd32 f (p + 8 + 4) in let* sample_depth := rd f (p + 8 + 8) in
        let* color_type := rd f (p + 8 + 9) in let* compression := rd f (p + 8 + 10) in let* filter := rd f (p + 8 + 11) in
        let* progressive := rd f (p + 8 + 12) in
        let p := p + 25 in
        if (w =? 0) || (h =? 0) then Ok (d0, BL_ERROR_INVALID_DATA)
        else if (2147483648 <=? w) || (2147483648 <=? h) then Ok (d0, BL_ERROR_IMAGE_TOO_LARGE)
        else if negb (check_color_type_and_bit_depth color_type sample_depth) then Ok (d0, BL_ERROR_IMAGE_UNKNOWN_FILE_FORMAT)
        else if negb (compression =? 0) || negb (filter =? 0) || (2 <=? progressive) then Ok (d0, BL_ERROR_IMAGE_UNKNOWN_FILE_FORMAT)
        else
          let d := set_info d0 w h (negb (progressive =? 0)) color_type sample_depth (nth (Z.to_nat color_type) kColorTypeToSampleCountTable 0) in
          let d := set_buf d p in
          let* d := actl_loop (S (length f)) f (len f - 8) p d in Ok (d, BL_SUCCESS)) = Ok (d', err) /\
      (err = BL_SUCCESS -> header_ok f p /\
         let d1 := set_buf (set_info d0 (be32 f (p + 8)) (be32 f (p + 12)) (negb (get f (p + 20) =? 0)) (get f (p + 17)) (get f (p + 16)) (samples (get f (p + 17)))) (p + 25) in
         d' = d1 \/ exists n, 2 <= n < 4294967296 /\ d' = set_actl (set_frames d1 n) true) /\
      (header_ok f p -> err = BL_SUCCESS) /\ (err <> BL_SUCCESS -> d' = d0)).
  { intros p d0 Hp Hl. change IHDR with type_IHDR. unfold header_ok. change (2 ^ 31) with 2147483648.
    destruct (Z.eqb_spec (chunk_type f p) type_IHDR) as [E1|E1]; cbn [negb orb].
    2:{ eexists _, _. split; [reflexivity|]. split; [discriminate|]. split; [|auto]. intros (H & _). contradiction. }
    destruct (Z.eqb_spec (chunk_len f p) 13) as [E2|E2]; cbn [negb orb].
    2:{ eexists _, _. split; [reflexivity|]. split; [discriminate|]. split; [|auto]. intros (_ & H & _). contradiction. }
    rewrite !rd32_ok, !rd_get by lia. cbn [bind]. cbv zeta. replace (p + 8 + 4) with (p + 12) by lia. replace (p + 8 + 8) with (p + 16) by lia. replace (p + 8 + 9) with (p + 17) by lia.
    replace (p + 8 + 10) with (p + 18) by lia. replace (p + 8 + 11) with (p + 19) by lia. replace (p + 8 + 12) with (p + 20) by lia.
    pose proof (be32_range f (p + 8) B) as Rw. pose proof (be32_range f (p + 12) B) as Rh.
    destruct ((be32 f (p + 8) =? 0) || (be32 f (p + 12) =? 0)) eqn:E3.
    { eexists _, _. split; [reflexivity|]. split; [discriminate|]. split; [|auto]. intros H. lia. }
    destruct ((2147483648 <=? be32 f (p + 8)) || (2147483648 <=? be32 f (p + 12))) eqn:E4.
    { eexists _, _. split; [reflexivity|]. split; [discriminate|]. split; [|auto]. intros H. lia. }
    pose proof (check_formats (get f (p + 17)) (get f (p + 16)) (byte_range _ _ B) (byte_range _ _ B)) as CF.
    destruct (check_color_type_and_bit_depth _ _); cbn [negb].
    2:{ eexists _, _. split; [reflexivity|]. split; [discriminate|]. split; [|auto]. intros H. assert (false = true) by tauto. discriminate. }
    assert (IN : In (get f (p + 17), get f (p + 16)) header_formats) by (apply CF; reflexivity). clear CF.
    pose proof (byte_range f (p + 20) B) as R20.
    destruct (negb (get f (p + 18) =? 0) || negb (get f (p + 19) =? 0) || (2 <=? get f (p + 20))) eqn:E5.
    { eexists _, _. split; [reflexivity|]. split; [discriminate|]. split; [|auto]. intros H. lia. }
    rewrite (scount_samples _ _ IN).
    set (d1 := set_buf _ _).
    destruct (actl_loop_ok f d1 B L64 (S (length f)) (p + 25)) as (d' & -> & D'); [lia|unfold len; lia|]. cbn [bind].
    exists d', BL_SUCCESS. split; [reflexivity|]. split; [|split; [reflexivity|congruence]]. intros _. split; [|exact D'].
    repeat split; try assumption; lia. }
  destruct (Z.eqb_spec (chunk_type f 8) type_CgBI) as [C|C].
  - specialize (L57 C). destruct (Z.eqb_spec (chunk_len f 8) 4) as [C4|C4]; cbn [negb].
    2:{ cbn [bind]. eexists _, _. split; [reflexivity|]. split; [discriminate|]. split; [|auto]. intros _ _ H. specialize (H C). contradiction. }
    replace (len f <? 49) with false by lia. cbn [bind]. znorm.
    change (be32 f 28) with (chunk_type f 24). fold (chunk_len f 24).
    destruct (HEAD 24 (set_cgbi d true) ltac:(lia) ltac:(lia)) as (d' & err & E & A1 & A2 & A3).
    change (24 + 25) with 49 in *. znorm_in E. 
    exists d', err. split; [exact E|]. split; [intros H; split; [exact SIG|exact (A1 H)]|]. split; [intros _ H _; exact (A2 H)|intros H; right; exact (A3 H)].
  - cbn [bind]. destruct (HEAD 8 d ltac:(lia) ltac:(lia)) as (d' & err & E & A1 & A2 & A3).
    znorm_in E.
    exists d', err. split; [exact E|]. split; [intros H; split; [exact SIG|exact (A1 H)]|]. split; [intros _ H _; exact (A2 H)|intros H; left; exact (A3 H)].
Qed.

Lemma info_cgbi f d d' : bytes f -> long_enough f -> chunk_type f 8 = type_CgBI -> decoder_read_info_internal f d = Ok (d', BL_SUCCESS) -> chunk_len f 8 = 4.
Proof.
  intros B (L41 & L57) T E. fold (len f) in L41. unfold decoder_read_info_internal in E. fold (len f) in E.
  unfold kPngSignatureSize, kPngChunkBaseSize, kPngChunkDataSize_IHDR, kPngChunkDataSize_CgBI in E. znorm_in E.
  replace (len f <? 33) with false in E by lia. rewrite rd_n_ok in E by lia. cbn [bind] in E.
  destruct (negb (forallb _ _)) in E; [discriminate E|]. unfold read_chunk_tag, read_chunk_size in E. rewrite !rd32_ok in E by lia. cbn [bind] in E.
  change (be32 f (8 + 4)) with (chunk_type f 8) in E. rewrite T in E. change (type_CgBI =? CgBI) with true in E. cbv iota in E.
  unfold chunk_len. destruct (Z.eqb_spec (be32 f 8) 4) as [H|H]; [exact H|]. cbn [negb bind] in E. discriminate E.
Qed.
