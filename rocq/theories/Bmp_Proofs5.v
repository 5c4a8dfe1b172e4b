(* Proofs: decoder_read_info_internal. *)
From Verif Require Import Base Algorithm_Model Algorithm_Spec Algorithm_Proofs IntOps_Model IntOps_Spec IntOps_Proofs
  Qoi_Model Bmp_Model Bmp_Spec Bmp_Proofs Bmp_Proofs4.
Ltac Zify.zify_post_hook ::= idtac.

Definition bit_fields (hd : header) : bool :=
  (hd_size hd =? 40) && ((hd_comp hd =? 3) || (hd_comp hd =? 6)).
Definition mask_bytes (hd : header) : Z := if bit_fields hd then (if hd_comp hd =? 6 then 16 else 12) else 0.
Definition masked (hd : header) : bool := bit_fields hd || (8 <? hd_depth hd) && (52 <=? hd_size hd).

Definition pure_masks (d : list Z) (hd : header) : outcome (bmp_format * Z) :=
  if bit_fields hd && negb (hd_depth hd =? 16) && negb (hd_depth hd =? 32) then Err BL_ERROR_IMAGE_UNKNOWN_FILE_FORMAT
  else if bit_fields hd && (Z.of_nat (length d) <? 54 + mask_bytes hd) then Err BL_ERROR_DATA_TRUNCATED
  else if masked hd then
    if check_bit_masks 0 0 (masks_of d hd)
    then Ok (BmpFormat (hd_depth hd) (f_indexed (default_format (hd_depth hd))) (map mask_size_shift (masks_of d hd)), mask_bytes hd)
    else Err BL_ERROR_INVALID_DATA
  else Ok (default_format (hd_depth hd), 0).

Lemma read_masks_pure d hd : 14 + hd_size hd <= Z.of_nat (length d) -> In (hd_size hd) [12; 40; 52; 56; 108] ->
  read_masks d (hd_size hd) (hd_depth hd) (hd_comp hd) = pure_masks d hd.
Proof.
  intros L S. unfold read_masks, pure_masks, masked, mask_bytes, masks_of, header_mask.
  unfold bit_fields, kHeaderSizeWIN_V1, kCompressionBitFields, kCompressionAlphaBitFields, kHeaderSizeWIN_V2.
  destruct (Z.eqb_spec (hd_size hd) 40) as [E|N]; cbn [andb].
  - rewrite E. change (14 + 40) with 54. change (56 <=? 40) with false. change (52 <=? 40) with false.
    rewrite !andb_false_r, !orb_false_r.
    destruct (Z.eqb_spec (hd_comp hd) 3) as [C3|C3]; cbn [orb andb].
    + rewrite C3. change (3 =? 6) with false. cbv iota zeta. change (3 + 0) with 3. change (3 =? 4) with false.
      change (3 * 4) with 12.
      destruct (negb (hd_depth hd =? 16) && negb (hd_depth hd =? 32)); [reflexivity|].
      destruct (Z.ltb_spec (Z.of_nat (length d) - 54) 12), (Z.ltb_spec (Z.of_nat (length d)) (54 + 12)); try lia; [reflexivity|].
      rewrite !r32_ok by lia. cbn [bind]. change (54 + 4) with 58. change (54 + 8) with 62. reflexivity.
    + destruct (Z.eqb_spec (hd_comp hd) 6) as [C6|C6]; cbn [orb andb]; [|reflexivity].
      cbv iota zeta. change (3 + 1) with 4. change (4 =? 4) with true. change (4 * 4) with 16.
      destruct (negb (hd_depth hd =? 16) && negb (hd_depth hd =? 32)); [reflexivity|].
      destruct (Z.ltb_spec (Z.of_nat (length d) - 54) 16), (Z.ltb_spec (Z.of_nat (length d)) (54 + 16)); try lia; [reflexivity|].
      rewrite !r32_ok by lia. cbn [bind]. change (54 + 4) with 58. change (54 + 8) with 62. change (54 + 12) with 66. reflexivity.
  - cbn [orb]. destruct ((8 <? hd_depth hd) && (52 <=? hd_size hd)) eqn:M; [|reflexivity].
    apply andb_true_iff in M as [_ M]. apply Z.leb_le in M.
    destruct S as [S|[S|[S|[S|[S|[]]]]]]; rewrite <- S in *; try lia.
    + change (44 + 4 * 0 <=? 52) with true. change (44 + 4 * 1 <=? 52) with true. change (44 + 4 * 2 <=? 52) with true.
      change (44 + 4 * 3 <=? 52) with false. change (56 <=? 52) with false. cbv iota. rewrite !r32_ok by lia. reflexivity.
    + change (44 + 4 * 0 <=? 56) with true. change (44 + 4 * 1 <=? 56) with true. change (44 + 4 * 2 <=? 56) with true.
      change (44 + 4 * 3 <=? 56) with true. change (56 <=? 56) with true. cbv iota. rewrite !r32_ok by lia. reflexivity.
    + change (44 + 4 * 0 <=? 108) with true. change (44 + 4 * 1 <=? 108) with true. change (44 + 4 * 2 <=? 108) with true.
      change (44 + 4 * 3 <=? 108) with true. change (56 <=? 108) with true. cbv iota. rewrite !r32_ok by lia. reflexivity.
Qed.

Definition rle_used (hd : header) : bool :=
  ((hd_depth hd =? 4) && (hd_comp hd =? 2)) || ((hd_depth hd =? 8) && (hd_comp hd =? 1)).
Lemma rle_used_ok hd : rle_used hd = true <-> is_rle hd.
Proof.
  unfold rle_used, is_rle. rewrite orb_true_iff, !andb_true_iff, !Z.eqb_eq. reflexivity.
Qed.

(* the whole function on the decoded header *)
Definition pure_info (d : list Z) (hd : header) : outcome bmp_info :=
  let ah := Z.abs (hd_height hd) in
  let total := row_bytes (hd_width hd) (hd_depth hd) * ah in
  if (hd_height hd =? - 2 ^ 31) || (hd_width hd <=? 0) then Err BL_ERROR_INVALID_DATA
  else if negb (hd_planes hd =? 1) then Err BL_ERROR_IMAGE_UNKNOWN_FILE_FORMAT
  else if negb (hd_comp hd =? 0) && (hd_depth hd <=? 8) && negb (rle_used hd) then Err BL_ERROR_IMAGE_UNKNOWN_FILE_FORMAT
  else if hd_offset hd <? 14 + hd_size hd then Err BL_ERROR_INVALID_DATA
  else if negb (check_image_size (hd_width hd) ah) then Err BL_ERROR_IMAGE_TOO_LARGE
  else if negb (check_depth (hd_depth hd)) then Err BL_ERROR_IMAGE_UNKNOWN_FILE_FORMAT
  else if 0xFFFFFFFF <? total then Err BL_ERROR_INVALID_DATA
  else
    let isize := if (hd_size hd =? 12) || ((hd_image_size hd =? 0) && negb (rle_used hd)) then total else hd_image_size hd in
    if negb (rle_used hd) && (isize <? total) then Err BL_ERROR_INVALID_DATA
    else
      let* fm := pure_masks d hd in
      Ok (BmpInfo (hd_offset hd) (hd_size hd) (hd_width hd) (hd_height hd) (hd_depth hd) (hd_comp hd) isize
            (row_bytes (hd_width hd) (hd_depth hd)) (fst fm) (14 + hd_size hd + snd fm)).

Lemma check_depth_ok n : check_depth n = true <-> In n [1; 4; 8; 16; 24; 32].
Proof.
  unfold check_depth. rewrite !orb_true_iff, !Z.eqb_eq. cbn [In]. lia.
Qed.
Lemma check_header_size_ok n : check_header_size n = true <-> In n [12; 40; 52; 56; 108].
Proof.
  unfold check_header_size, kHeaderSizeOS2_V1, kHeaderSizeWIN_V1, kHeaderSizeWIN_V2, kHeaderSizeWIN_V3, kHeaderSizeWIN_V4,
    kHeaderSizeWIN_V5. rewrite !orb_true_iff, !Z.eqb_eq. cbn [In]. lia.
Qed.

Lemma hd_size_u32 d : hd_size (header_of d) = u32 d 14.
Proof. unfold header_of. destruct (Z.eqb_spec (u32 d 14) 12) as [E|]; [now rewrite E|reflexivity]. Qed.
Lemma hd_offset_u32 d : hd_offset (header_of d) = u32 d 10.
Proof. unfold header_of. destruct (u32 d 14 =? 12); reflexivity. Qed.

Lemma tail_pure d hd os2 fsz : os2 = (hd_size hd =? 12) -> fsz = Ok (hd_image_size hd) \/ os2 = true ->
  14 + hd_size hd <= Z.of_nat (length d) -> In (hd_size hd) [12; 40; 52; 56; 108] ->
  (if (hd_height hd =? - 2 ^ 31) || (hd_width hd <=? 0) then Err BL_ERROR_INVALID_DATA
   else if negb (hd_planes hd =? 1) then Err BL_ERROR_IMAGE_UNKNOWN_FILE_FORMAT
   else
     let ah := Z.abs (hd_height hd) in
     let rle_used := ((hd_depth hd =? 4) && (hd_comp hd =? kCompressionRLE4)) || ((hd_depth hd =? 8) && (hd_comp hd =? kCompressionRLE8)) in
     if negb (hd_comp hd =? kCompressionRGB) && (hd_depth hd <=? 8) && negb rle_used then Err BL_ERROR_IMAGE_UNKNOWN_FILE_FORMAT
     else if hd_offset hd <? 14 + hd_size hd then Err BL_ERROR_INVALID_DATA
     else if negb (check_image_size (hd_width hd) ah) then Err BL_ERROR_IMAGE_TOO_LARGE
     else if negb (check_depth (hd_depth hd)) then Err BL_ERROR_IMAGE_UNKNOWN_FILE_FORMAT
     else
       let stride := Z.land ((hd_width hd * hd_depth hd + 7) / 8 + 3) (0xFFFFFFFC) in
       let image_size := Z.land stride 0xFFFFFFFF * ah in
       if (0xFFFFFFFF <=? stride) || (0xFFFFFFFF <? image_size) then Err BL_ERROR_INVALID_DATA
       else
         let* fsize := if os2 then Ok image_size else fsz in
         let isize := if os2 || ((fsize =? 0) && negb rle_used) then image_size else fsize in
         if negb rle_used && (isize <? image_size) then Err BL_ERROR_INVALID_DATA
         else
           let* fm := read_masks d (hd_size hd) (hd_depth hd) (hd_comp hd) in
           Ok (BmpInfo (hd_offset hd) (hd_size hd) (hd_width hd) (hd_height hd) (hd_depth hd) (hd_comp hd) isize stride (fst fm)
                 (14 + hd_size hd + snd fm))) = pure_info d hd.
Proof.
  intros OS FS L S. unfold pure_info. cbv zeta. rewrite (read_masks_pure d hd L S).
  change ((hd_depth hd =? 4) && (hd_comp hd =? kCompressionRLE4) || (hd_depth hd =? 8) && (hd_comp hd =? kCompressionRLE8))
    with (rle_used hd). change kCompressionRGB with 0.
  destruct ((hd_height hd =? - 2 ^ 31) || (hd_width hd <=? 0)) eqn:E1; [reflexivity|].
  destruct (negb (hd_planes hd =? 1)); [reflexivity|].
  destruct (negb (hd_comp hd =? 0) && (hd_depth hd <=? 8) && negb (rle_used hd)); [reflexivity|].
  destruct (hd_offset hd <? 14 + hd_size hd); [reflexivity|].
  destruct (check_image_size (hd_width hd) (Z.abs (hd_height hd))) eqn:CI; cbn [negb]; [|reflexivity].
  destruct (check_depth (hd_depth hd)) eqn:CD; cbn [negb]; [|reflexivity].
  unfold check_image_size, BL_RUNTIME_MAX_IMAGE_SIZE in CI. apply andb_true_iff in CI as [CW CH]. apply Z.leb_le in CW, CH.
  apply check_depth_ok in CD. apply orb_false_iff in E1 as [_ E1]. apply Z.leb_gt in E1.
  assert (DR : 0 <= hd_depth hd <= 32) by (cbn [In] in CD; lia).
  destruct (stride_ok (hd_width hd) (hd_depth hd)) as [ST SR]; [lia|exact DR|]. rewrite ST.
  assert (LA : Z.land (row_bytes (hd_width hd) (hd_depth hd)) 4294967295 = row_bytes (hd_width hd) (hd_depth hd)).
  { change 4294967295 with (Z.ones 32). rewrite Z.land_ones by lia. apply Z.mod_small. change (2 ^ 32) with 4294967296. lia. }
  rewrite LA. destruct (Z.leb_spec 4294967295 (row_bytes (hd_width hd) (hd_depth hd))); [lia|]. cbn [orb].
  destruct (4294967295 <? row_bytes (hd_width hd) (hd_depth hd) * Z.abs (hd_height hd)); [reflexivity|].
  destruct os2; rewrite <- OS; cbn [bind orb]; [reflexivity|].
  destruct FS as [->|FS]; [|discriminate]. cbn [bind]. reflexivity.
Qed.

Lemma read_info_pure d : bytes d -> 18 <= Z.of_nat (length d) -> signature_ok d ->
  In (hd_size (header_of d)) [12; 40; 52; 56; 108] -> 14 + hd_size (header_of d) <= Z.of_nat (length d) ->
  read_info_internal d = pure_info d (header_of d).
Proof.
  intros B L18 [S0 S1] HS L. pose proof HS as HS'. rewrite hd_size_u32 in HS'. pose proof L as L'. rewrite hd_size_u32 in L'.
  unfold read_info_internal. cbv zeta. destruct (Z.ltb_spec (Z.of_nat (length d)) 18); [lia|].
  rewrite !r8_ok by lia. cbn [bind]. rewrite S0, S1. change (negb ((66 =? 66) && (77 =? 77))) with false. cbv iota.
  rewrite !(r32_ok d 10), !(r32_ok d 14) by lia. cbn [bind].
  destruct (check_header_size (u32 d 14)) eqn:CH.
  2:{ apply check_header_size_ok in HS'. congruence. }
  cbn [negb]. destruct (Z.ltb_spec (Z.of_nat (length d) - 14) (u32 d 14)); [lia|].
  unfold kHeaderSizeOS2_V1.
  destruct (Z.eqb_spec (u32 d 14) 12) as [E12|N12].
  - assert (HD : header_of d = Header (u32 d 10) 12 (signed 16 (u16 d 18)) (signed 16 (u16 d 20)) (u16 d 22) (u16 d 24) 0 0).
    { unfold header_of. rewrite E12. reflexivity. }
    rewrite !r16_ok by lia. cbn [bind].
    pose proof (u16_range d 18 B). pose proof (u16_range d 20 B).
    rewrite !to_s_signed by (change (2 ^ 16) with 65536; lia).
    rewrite <- (tail_pure d (header_of d) true (Ok 0)).
    + rewrite HD. cbn [hd_offset hd_size hd_width hd_height hd_planes hd_depth hd_comp hd_image_size].
      rewrite E12. reflexivity.
    + rewrite HD. reflexivity.
    + now right.
    + exact L.
    + exact HS.
  - assert (HD : header_of d = Header (u32 d 10) (u32 d 14) (signed 32 (u32 d 18)) (signed 32 (u32 d 22)) (u16 d 26) (u16 d 28)
      (u32 d 30) (u32 d 34)).
    { unfold header_of. destruct (Z.eqb_spec (u32 d 14) 12); [contradiction|reflexivity]. }
    assert (H40 : 40 <= u32 d 14) by (cbn [In] in HS'; lia).
    rewrite !(r16_ok d 26), !(r16_ok d 28), !(r32_ok d 18), !(r32_ok d 22), !(r32_ok d 30), !(r32_ok d 34) by lia. cbn [bind].
    pose proof (u32_range d 18 B). pose proof (u32_range d 22 B).
    rewrite !to_s_signed by (change (2 ^ 32) with 4294967296; lia).
    rewrite <- (tail_pure d (header_of d) false (Ok (u32 d 34))).
    + rewrite HD. cbn [hd_offset hd_size hd_width hd_height hd_planes hd_depth hd_comp hd_image_size]. reflexivity.
    + rewrite HD. cbn [hd_size]. symmetry. now apply Z.eqb_neq.
    + left. rewrite HD. reflexivity.
    + exact L.
    + exact HS.
Qed.

(* when the start of the file is wrong *)
Lemma read_info_bad d : ~ (18 <= Z.of_nat (length d) /\ signature_ok d /\
    In (hd_size (header_of d)) [12; 40; 52; 56; 108] /\ 14 + hd_size (header_of d) <= Z.of_nat (length d)) ->
  read_info_internal d = Err
    (if Z.of_nat (length d) <? 18 then BL_ERROR_DATA_TRUNCATED
     else if negb ((u8 d 0 =? 0x42) && (u8 d 1 =? 0x4D)) then BL_ERROR_INVALID_SIGNATURE
     else if negb (check_header_size (u32 d 14)) then BL_ERROR_IMAGE_UNKNOWN_FILE_FORMAT
     else BL_ERROR_DATA_TRUNCATED).
Proof.
  intros N. unfold read_info_internal. cbv zeta. destruct (Z.ltb_spec (Z.of_nat (length d)) 18); [reflexivity|].
  rewrite !r8_ok by lia. cbn [bind].
  destruct (negb ((u8 d 0 =? 66) && (u8 d 1 =? 77))) eqn:SG; [reflexivity|].
  rewrite !(r32_ok d 10), !(r32_ok d 14) by lia. cbn [bind].
  destruct (check_header_size (u32 d 14)) eqn:CH; cbn [negb]; [|reflexivity].
  destruct (Z.ltb_spec (Z.of_nat (length d) - 14) (u32 d 14)); [reflexivity|].
  exfalso. apply N. split; [lia|]. split.
  - apply negb_false_iff, andb_true_iff in SG as [A A']. apply Z.eqb_eq in A, A'. now split.
  - rewrite !hd_size_u32. apply check_header_size_ok in CH. split; [exact CH|lia].
Qed.

Lemma start_dec d : {18 <= Z.of_nat (length d) /\ signature_ok d /\
    In (hd_size (header_of d)) [12; 40; 52; 56; 108] /\ 14 + hd_size (header_of d) <= Z.of_nat (length d)} +
  {~ (18 <= Z.of_nat (length d) /\ signature_ok d /\
    In (hd_size (header_of d)) [12; 40; 52; 56; 108] /\ 14 + hd_size (header_of d) <= Z.of_nat (length d))}.
Proof.
  destruct (Z_le_dec 18 (Z.of_nat (length d))); [|right; tauto].
  destruct (Z.eq_dec (u8 d 0) 0x42); [|right; unfold signature_ok; tauto].
  destruct (Z.eq_dec (u8 d 1) 0x4D); [|right; unfold signature_ok; tauto].
  destruct (in_dec Z.eq_dec (hd_size (header_of d)) [12; 40; 52; 56; 108]); [|right; tauto].
  destruct (Z_le_dec (14 + hd_size (header_of d)) (Z.of_nat (length d))); [|right; tauto].
  left. unfold signature_ok. tauto.
Qed.

(* the error codes of read_info *)
Definition info_errors : list Z :=
  [BL_ERROR_DATA_TRUNCATED; BL_ERROR_INVALID_SIGNATURE; BL_ERROR_IMAGE_UNKNOWN_FILE_FORMAT; BL_ERROR_INVALID_DATA;
   BL_ERROR_IMAGE_TOO_LARGE].

Lemma pure_masks_total d hd : (exists f, pure_masks d hd = Ok f) \/ (exists e, pure_masks d hd = Err e /\ In e info_errors).
Proof.
  unfold pure_masks.
  repeat match goal with |- context [if ?b then _ else _] => destruct b end; try (left; eexists; reflexivity);
    right; eexists; (split; [reflexivity|unfold info_errors; cbn [In]; auto 10]).
Qed.

Lemma read_info_total d : bytes d ->
  (exists i, read_info_internal d = Ok i) \/ (exists e, read_info_internal d = Err e /\ In e info_errors).
Proof.
  intros B. destruct (start_dec d) as [(A1 & A2 & A3 & A4)|N].
  - rewrite (read_info_pure d B A1 A2 A3 A4). unfold pure_info. cbv zeta.
    repeat match goal with |- context [if ?b then Err ?e else _] => destruct b;
      [right; exists e; split; [reflexivity|unfold info_errors; cbn [In]; auto 10]|] end.
    destruct (pure_masks_total d (header_of d)) as [[f ->]|(e & -> & I)]; cbn [bind]; [left; eexists; reflexivity|right; eauto].
  - right. rewrite (read_info_bad d N). eexists. split; [reflexivity|].
    repeat match goal with |- context [if ?b then _ else _] => destruct b end; unfold info_errors; cbn [In]; auto 10.
Qed.

(* what an accepted file looks like *)
Lemma read_info_sound d i : bytes d -> read_info_internal d = Ok i ->
  let hd := header_of d in
  signature_ok d /\ 18 <= Z.of_nat (length d) /\ In (hd_size hd) [12; 40; 52; 56; 108] /\ 14 + hd_size hd <= Z.of_nat (length d) /\
  i_offset i = hd_offset hd /\ i_hsize i = hd_size hd /\ i_w i = hd_width hd /\ i_h i = hd_height hd /\
  i_depth i = hd_depth hd /\ i_comp i = hd_comp hd /\
  hd_planes hd = 1 /\ 1 <= i_w i <= 65535 /\ Z.abs (i_h i) <= 65535 /\ In (i_depth i) [1; 4; 8; 16; 24; 32] /\
  14 + i_hsize i <= i_offset i /\
  i_stride i = row_bytes (i_w i) (i_depth i) /\ i_stride i * Z.abs (i_h i) < 2 ^ 32 /\
  (is_rle hd /\ i_size i = hd_image_size hd \/ ~ is_rle hd /\ i_stride i * Z.abs (i_h i) <= i_size i) /\
  (i_depth i <= 8 -> hd_comp hd = 0 \/ is_rle hd) /\
  f_depth (i_fmt i) = i_depth i /\ f_indexed (i_fmt i) = (i_depth i <=? 8) /\
  (if masked hd then masks_ok (masks_of d hd) /\ Forall2 channel_of (masks_of d hd) (f_chan (i_fmt i))
   else i_fmt i = default_format (i_depth i)) /\
  0 < i_index i.
Proof.
  intros B E hd. destruct (start_dec d) as [(A1 & A2 & A3 & A4)|N]; [|rewrite (read_info_bad d N) in E; discriminate].
  rewrite (read_info_pure d B A1 A2 A3 A4) in E. fold hd in E, A3, A4. unfold pure_info in E. cbv zeta in E.
  destruct ((hd_height hd =? - 2 ^ 31) || (hd_width hd <=? 0)) eqn:E1; [discriminate|].
  destruct (Z.eqb_spec (hd_planes hd) 1) as [PL|]; cbn [negb] in E; [|discriminate].
  destruct (negb (hd_comp hd =? 0) && (hd_depth hd <=? 8) && negb (rle_used hd)) eqn:CC; [discriminate|].
  destruct (Z.ltb_spec (hd_offset hd) (14 + hd_size hd)) as [|OF]; [discriminate|].
  destruct (check_image_size (hd_width hd) (Z.abs (hd_height hd))) eqn:CI; cbn [negb] in E; [|discriminate].
  destruct (check_depth (hd_depth hd)) eqn:CD; cbn [negb] in E; [|discriminate].
  destruct (Z.ltb_spec 0xFFFFFFFF (row_bytes (hd_width hd) (hd_depth hd) * Z.abs (hd_height hd))) as [|TT]; [discriminate|].
  set (total := row_bytes (hd_width hd) (hd_depth hd) * Z.abs (hd_height hd)) in *.
  set (isize := if (hd_size hd =? 12) || (hd_image_size hd =? 0) && negb (rle_used hd) then total else hd_image_size hd) in *.
  destruct (negb (rle_used hd) && (isize <? total)) eqn:IS; [discriminate|].
  destruct (pure_masks d hd) as [fm|e| |] eqn:PM; cbn [bind] in E; try discriminate.
  injection E as <-. cbn [i_offset i_hsize i_w i_h i_depth i_comp i_size i_stride i_fmt i_index].
  unfold check_image_size, BL_RUNTIME_MAX_IMAGE_SIZE in CI. apply andb_true_iff in CI as [CW CH]. apply Z.leb_le in CW, CH.
  apply check_depth_ok in CD. apply orb_false_iff in E1 as [_ E1]. apply Z.leb_gt in E1.
  assert (RL : is_rle hd /\ isize = hd_image_size hd \/ ~ is_rle hd /\ total <= isize).
  { destruct (rle_used hd) eqn:RU.
    - left. split; [now apply rle_used_ok|]. unfold isize. cbn [negb]. rewrite andb_false_r, orb_false_r.
      destruct (Z.eqb_spec (hd_size hd) 12) as [E12|]; [exfalso|reflexivity].
      apply rle_used_ok in RU. unfold is_rle in RU. clear - E12 RU.
      assert (C0 : hd_comp hd = 0).
      { unfold hd, header_of in *. destruct (u32 d 14 =? 12) eqn:Q; [reflexivity|]. cbn in E12. apply Z.eqb_neq in Q. contradiction. }
      lia.
    - right. split; [intros R; apply rle_used_ok in R; congruence|]. cbn [negb andb] in IS. now apply Z.ltb_ge in IS. }
  assert (FM : f_depth (fst fm) = hd_depth hd /\ f_indexed (fst fm) = (hd_depth hd <=? 8) /\
    (if masked hd then masks_ok (masks_of d hd) /\ Forall2 channel_of (masks_of d hd) (f_chan (fst fm))
     else fst fm = default_format (hd_depth hd)) /\ 0 <= snd fm).
  { assert (DF : f_depth (default_format (hd_depth hd)) = hd_depth hd /\
      f_indexed (default_format (hd_depth hd)) = (hd_depth hd <=? 8)).
    { unfold default_format. destruct (hd_depth hd <=? 8); [split; reflexivity|]. destruct (hd_depth hd =? 16); split; reflexivity. }
    unfold pure_masks in PM.
    destruct (bit_fields hd && negb (hd_depth hd =? 16) && negb (hd_depth hd =? 32)); [discriminate|].
    destruct (bit_fields hd && (Z.of_nat (length d) <? 54 + mask_bytes hd)); [discriminate|].
    destruct (masked hd).
    - destruct (check_bit_masks 0 0 (masks_of d hd)) eqn:CB; [|discriminate]. injection PM as <-. cbn [fst snd f_depth f_indexed f_chan].
      split; [reflexivity|]. split; [apply DF|]. unfold masks_of in *.
      set (a := if (hd_size hd =? 40) && (hd_comp hd =? 6) || (56 <=? hd_size hd) then u32 d 66 else 0) in *.
      assert (AR : 0 <= a < 4294967296) 
        by (unfold a; match goal with |- context [if ?c then u32 d 66 else 0] => destruct c end; [apply u32_range; exact B|lia]).
      apply check_bit_masks_ok in CB; try apply u32_range; try exact B; try exact AR.
      split.
      + split; [exact CB|]. destruct CB as (r' & g' & b' & a' & EE & Kr & Kg & Kb & Ka & _).
        injection EE as <- <- <- <-. cbn [map].
        apply Forall2_cons; [apply mask_channel; auto|]. apply Forall2_cons; [apply mask_channel; auto|].
        apply Forall2_cons; [apply mask_channel; auto|]. apply Forall2_cons; [apply mask_channel; exact Ka|]. apply Forall2_nil.
      + unfold mask_bytes. destruct (bit_fields hd); [|lia]. destruct (hd_comp hd =? 6); lia.
    - injection PM as <-. cbn [fst snd]. repeat split; try apply DF. lia. }
  destruct FM as (F1 & F2 & F3 & F4).
  assert (DC : hd_depth hd <= 8 -> hd_comp hd = 0 \/ is_rle hd).
  { intros D8. destruct (Z.eqb_spec (hd_comp hd) 0) as [|NC]; [now left|]. right.
    destruct (Z.leb_spec (hd_depth hd) 8); [|lia]. cbn [negb andb] in CC. apply negb_false_iff in CC. now apply rle_used_ok. }
  assert (H12 : 12 <= hd_size hd) by (cbn [In] in A3; lia).
  change (2 ^ 32) with 4294967296.
  assert (IX : 0 < 14 + hd_size hd + snd fm) by lia.
  repeat match goal with |- _ /\ _ => split end; auto; try lia.
Qed.

(* what is accepted *)
Lemma read_info_accepts d : bytes d -> well_formed d -> hd_size (header_of d) <> 124 ->
  (masked (header_of d) = true -> masks_ok (masks_of d (header_of d))) -> exists i, read_info_internal d = Ok i.
Proof.
  intros B (SG & L18 & LH & HS & PL & WR & HR & CO & OF & TT & IS) N124 MK. set (hd := header_of d) in *.
  assert (HS' : In (hd_size hd) [12; 40; 52; 56; 108]) by (cbn [In] in HS |- *; lia).
  rewrite (read_info_pure d B L18 SG HS' LH). fold hd. unfold pure_info. cbv zeta.
  assert (DP : In (hd_depth hd) [1; 4; 8; 16; 24; 32]).
  { destruct CO as [[_ D]|[D|(_ & D & _)]]; [exact D|unfold is_rle in D; cbn [In]; lia|cbn [In] in D |- *; lia]. }
  destruct (Z.eqb_spec (hd_height hd) (- 2 ^ 31)) as [H31|]; [rewrite H31 in HR; change (Z.abs (- 2 ^ 31)) with 2147483648 in HR; lia|].
  destruct (Z.leb_spec (hd_width hd) 0); [lia|]. cbn [orb]. rewrite PL. change (negb (1 =? 1)) with false. cbv iota.
  assert (CC : negb (hd_comp hd =? 0) && (hd_depth hd <=? 8) && negb (rle_used hd) = false).
  { destruct CO as [[C _]|[R|(_ & D & _)]].
    - rewrite C. reflexivity.
    - apply rle_used_ok in R. rewrite R. apply andb_false_r.
    - destruct (Z.leb_spec (hd_depth hd) 8); [cbn [In] in D; lia|]. rewrite andb_false_r. reflexivity. }
  rewrite CC. destruct (Z.ltb_spec (hd_offset hd) (14 + hd_size hd)); [lia|].
  assert (CI : check_image_size (hd_width hd) (Z.abs (hd_height hd)) = true).
  { unfold check_image_size, BL_RUNTIME_MAX_IMAGE_SIZE. apply andb_true_iff. split; apply Z.leb_le; lia. }
  rewrite CI. cbn [negb]. apply check_depth_ok in DP as CD. rewrite CD. cbn [negb].
  change (2 ^ 32) with 4294967296 in TT.
  set (total := row_bytes (hd_width hd) (hd_depth hd) * Z.abs (hd_height hd)) in *.
  destruct (Z.ltb_spec 0xFFFFFFFF total); [lia|].
  match goal with |- context [negb (rle_used hd) && ?c] => assert (ISZ : negb (rle_used hd) && c = false) end.
  { destruct (rle_used hd) eqn:RU; [reflexivity|]. cbn [negb andb]. apply Z.ltb_ge. rewrite andb_true_r.
    destruct (Z.eqb_spec (hd_size hd) 12); [cbn [orb]; lia|]. cbn [orb].
    destruct (Z.eqb_spec (hd_image_size hd) 0) as [|NZ]; [lia|].
    destruct IS as [R|[Z|G]]; [apply rle_used_ok in R; congruence|lia|exact G]. }
  rewrite ISZ.
  assert (PM : exists fm, pure_masks d hd = Ok fm).
  { unfold pure_masks.
    destruct (bit_fields hd) eqn:BF; cbn [andb].
    - unfold bit_fields in BF. apply andb_true_iff in BF as [S40 C36]. apply Z.eqb_eq in S40.
      apply orb_true_iff in C36. rewrite !Z.eqb_eq in C36.
      destruct CO as [[C _]|[R|(_ & D & _ & LM)]]; [lia|unfold is_rle in R; lia|].
      destruct (Z.eqb_spec (hd_depth hd) 16), (Z.eqb_spec (hd_depth hd) 32); cbn [negb andb]; try (cbn [In] in D; lia);
      (unfold mask_bytes, bit_fields; rewrite S40; change (40 =? 40) with true; cbn [andb];
       specialize (LM S40);
       destruct ((hd_comp hd =? 3) || (hd_comp hd =? 6)) eqn:OO;
        [|apply orb_false_iff in OO; rewrite !Z.eqb_neq in OO; lia];
       match goal with |- context [Z.of_nat (length d) <? ?k] => destruct (Z.ltb_spec (Z.of_nat (length d)) k); [lia|] end;
       (destruct (masked hd) eqn:MM; [|eexists; reflexivity]);
       specialize (MK eq_refl); unfold masks_of in *; apply check_bit_masks_ok in MK;
        [rewrite MK; eexists; reflexivity|apply u32_range; exact B..|]);
       (match goal with |- context [if ?c then u32 d 66 else 0] => destruct c end; [apply u32_range; exact B|lia]).
    - destruct (masked hd) eqn:MM; [|eexists; reflexivity].
      specialize (MK eq_refl); unfold masks_of in *; apply check_bit_masks_ok in MK;
        [rewrite MK; eexists; reflexivity|apply u32_range; exact B..|].
      match goal with |- context [if ?c then u32 d 66 else 0] => destruct c end; [apply u32_range; exact B|lia]. }
  destruct PM as [fm ->]. cbn [bind]. eexists. reflexivity.
Qed.
