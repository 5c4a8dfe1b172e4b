(* C49: RLE-compressed bitmaps.  C50: memory safety of RLE decoding.  C51: BMP headers.  C52: uncompressed bitmaps and the
   decoder object.  C53: the encoder and the round trip. *)
From Verif Require Import Base Algorithm_Spec Qoi_Model Bmp_Model Bmp_Spec Bmp_Proofs Bmp_Proofs2 Bmp_Proofs3 Bmp_Proofs4 Bmp_Proofs5
  Bmp_Proofs6 Bmp_Proofs7.
Ltac Zify.zify_post_hook ::= idtac.

(* ------------------------------------------------------------------ files for the examples *)

Lemma bytes_b l : forallb (fun z => (0 <=? z) && (z <? 256)) l = true -> bytes l.
Proof.
  intros H. rewrite forallb_forall in H. apply Forall_forall. intros z Hz. specialize (H z Hz). apply andb_prop in H as [A B].
  apply Z.leb_le in A. apply Z.ltb_lt in B. unfold is_byte. lia.
Qed.
Ltac bytes_tac := apply bytes_b; vm_compute; reflexivity.

Definition four_bytes (v : Z) : list Z := [v mod 256; v / 256 mod 256; v / 65536 mod 256; v / 16777216 mod 256].
Definition head (hsize w h depth comp isize offset : Z) : list Z :=
  [0x42; 0x4D] ++ four_bytes 0 ++ four_bytes 0 ++ four_bytes offset ++ four_bytes hsize ++ four_bytes w ++ four_bytes h ++
  [1; 0; depth; 0] ++ four_bytes comp ++ four_bytes isize ++ repeat 0 16.
(* 3 x 2 pixels, 8 bits, two colors *)
Definition rle_file (h : Z) (s : list Z) : list Z :=
  head 40 3 h 8 1 (Z.of_nat (length s)) 62 ++ [10; 20; 30; 0; 40; 50; 60; 0] ++ s.
Definition tight (w h : Z) : Z * list Z := (w, repeat 0 (Z.to_nat (w * h))).
(* a converter of the three formats of C53 *)
Definition some_converter (al : bool) (f : bmp_format) (pal : list Z) : outcome (Z -> list Z -> list Z) :=
  Ok (fun w row => map (fun k => let k := Z.of_nat k in
    if f_depth f =? 32 then u32 row (4 * k)
    else if f_depth f =? 24 then 0xFF000000 + u16 row (3 * k) + 65536 * u8 row (3 * k + 2)
    else nth (Z.to_nat (u8 row k)) pal 0) (seq 0 (Z.to_nat w))).
Definition decode (d : list Z) : outcome image :=
  let* i := read_info_internal d in read_frame_internal some_converter tight i d.

(* What is assumed of the two helpers: the pixel converter turns rows into rows of the same width or fails with an error, and an image has room for its pixels. *)
Definition converts_rows (pc : bool -> bmp_format -> list Z -> outcome (Z -> list Z -> list Z)) : Prop :=
  forall al f pal, match pc al f pal with
    | Ok conv => forall w row, 0 <= w -> Z.of_nat (length (conv w row)) = w | Err e => e <> 0 | _ => False end.
Definition allocates (alloc : Z -> Z -> Z * list Z) : Prop :=
  forall w h, 0 < w -> 0 < h -> let '(st, m) := alloc w h in w <= st /\ Z.of_nat (length m) = st * h.
Lemma tight_allocates : allocates tight.
Proof. intros w h W H. cbn. rewrite repeat_length. nia. Qed.
Lemma some_converts : converts_rows some_converter.
Proof. intros al f pal. unfold some_converter. intros w row W. rewrite map_length, seq_length. lia. Qed.
Lemma some_converter_ok : converter_ok some_converter.
Proof.
  split; [|split].
  - eexists. split; [reflexivity|]. reflexivity.
  - eexists. split; [reflexivity|]. reflexivity.
  - intros pal _. eexists. split; [reflexivity|]. reflexivity.
Qed.

(* ------------------------------------------------------------------ C49 *)

(* A stream that makes neither of the two mistakes of [plain]: read_frame gives the picture that it describes, with the row of
   the file where the sign of the height says, or the error that it deserves. *)
Theorem C49_rle_picture_partial : forall pc alloc, allocates alloc -> forall d i r, bytes d -> read_info_internal d = Ok i ->
  is_rle (header_of d) ->
  Z.of_nat (length d) > i_offset i -> i_offset i + i_size i <= Z.of_nat (length d) ->
  14 + i_hsize i + Z.min ((i_offset i - (14 + i_hsize i)) / (if i_hsize i =? 12 then 3 else 4)) 256 * (if i_hsize i =? 12 then 3 else 4)
    <= Z.of_nat (length d) ->
  0 < Z.abs (i_h i) -> i_w i * 4 * Z.abs (i_h i) <= 0x7FFFFFFF ->
  rle (i_depth i =? 4) (i_w i) (Z.abs (i_h i)) (fun v => nth (Z.to_nat v) (palette_of d (i_hsize i) (i_offset i)) 0)
    (map (fun k => u8 d (i_offset i + Z.of_nat k)) (seq 0 (Z.to_nat (i_size i)))) 0 0 blank r true ->
  match r with
  | RlePicture c =>
      exists im, read_frame_internal pc alloc i d = Ok im /\ im_w im = i_w i /\ im_h im = Z.abs (i_h i) /\ im_alpha im = false /\
        forall x y, 0 <= x < i_w i -> 0 <= y < Z.abs (i_h i) ->
          elem_at (im_mem im) (y * im_stride im + x) = Some (c x (stored_at (i_h i) y))
  | RleTruncated => read_frame_internal pc alloc i d = Err BL_ERROR_DATA_TRUNCATED
  | RleInvalid => read_frame_internal pc alloc i d = Err BL_ERROR_DECOMPRESSION_FAILED
  end.
Proof.
  intros pc alloc AL d i r B RI RL L1 L2 L3 H0 HM RR.
  pose proof (read_info_ok d i B RI) as IO. pose proof (read_info_sound d i B RI) as SN. cbv zeta in SN.
  destruct SN as (_ & _ & S1 & S2 & S3 & S4 & S5 & S6 & S7 & S8 & S9 & S10 & S11 & S12 & S13 & S14 & S15 & S16 & S17 & S18 & S19 & S20 & S21).
  assert (RF : rle_info i = true).
  { unfold rle_info. rewrite S7, S8. destruct RL as [[-> ->]|[-> ->]]; reflexivity. }
  assert (EN : enough i d = true).
  { unfold enough, entity_of. rewrite S4 in *. rewrite !andb_true_iff, orb_true_iff, !Z.leb_le, !Z.ltb_lt. lia. }
  assert (CE : create_error (i_w i) (Z.abs (i_h i)) = None).
  { unfold create_error, BL_RUNTIME_MAX_IMAGE_SIZE, kMaxAddressableOffset.
    destruct (Z.leb_spec (i_w i) 0), (Z.leb_spec (Z.abs (i_h i)) 0), (Z.ltb_spec 65535 (i_w i)), (Z.ltb_spec 65535 (Z.abs (i_h i))),
      (Z.ltb_spec 2147483647 (i_w i * 4 * Z.abs (i_h i))); try lia. reflexivity. }
  pose proof (frame_rle pc alloc AL i d r IO B RF EN CE RR) as F.
  destruct r as [c| |]; [|exact F|exact F].
  destruct F as (im & F1 & F2 & F3 & F4 & F5 & F6 & F7). exists im.
  split; [exact F1|]. split; [exact F3|]. split; [exact F4|]. split; [|exact F7].
  rewrite F2. unfold has_alpha.
  assert (MK : masked (header_of d) = false).
  { unfold masked, bit_fields. destruct RL as [[-> ->]|[-> ->]]; cbn; now rewrite ?andb_false_r. }
  rewrite MK in S20. rewrite S20, S7. unfold default_format. destruct RL as [[-> _]|[-> _]]; reflexivity.
Qed.
Print Assumptions C49_rle_picture_partial.

(* Every stream has a meaning, so that the only missing streams are those that are not plain. *)
Theorem C49_rle_meaning : forall four w h color p, 0 < h -> bytes p -> exists r b, rle four w h color p 0 0 blank r b.
Proof. exact rle_total. Qed.
Print Assumptions C49_rle_meaning.

(* The full statement fails for absolute runs that cross the right edge: the stream is read from the middle of the run on. *)
Theorem C49_clipped_run_refuted : exists d i im c, bytes d /\ read_info_internal d = Ok i /\
  read_frame_internal some_converter tight i d = Ok im /\
  rle (i_depth i =? 4) (i_w i) (Z.abs (i_h i)) (fun v => nth (Z.to_nat v) (palette_of d (i_hsize i) (i_offset i)) 0)
    (map (fun k => u8 d (i_offset i + Z.of_nat k)) (seq 0 (Z.to_nat (i_size i)))) 0 0 blank (RlePicture c) false /\
  exists x y, 0 <= x < i_w i /\ 0 <= y < Z.abs (i_h i) /\
    elem_at (im_mem im) (y * im_stride im + x) <> Some (c x (stored_at (i_h i) y)).
Proof.
  exists (rle_file 2 [2; 1; 0; 5; 1; 1; 0; 1; 0; 0; 0; 0; 3; 1; 0; 1]). eexists. eexists. eexists.
  split; [bytes_tac|]. split; [vm_compute; reflexivity|]. split; [vm_compute; reflexivity|]. split.
  - cbn [i_depth i_w i_h i_hsize i_offset i_size].
    match goal with |- rle _ _ _ _ ?l _ _ _ _ _ => let v := eval vm_compute in l in change l with v end.
    change (8 =? 4) with false. change (Z.abs 2) with 2.
    apply rle_run; [discriminate|]. change false with (true && (2 + 5 <=? 3)).
    apply (rle_abs _ _ _ _ 5 [1; 1; 0; 1; 0; 0] [0; 0; 3; 1; 0; 1]); [lia|reflexivity|].
    apply rle_line; [reflexivity|]. apply rle_run; [discriminate|]. apply rle_stop.
  - exists 0, 0. split; [cbn; lia|]. split; [cbn; lia|]. vm_compute. discriminate.
Qed.
Print Assumptions C49_clipped_run_refuted.

Example C49_ex : rle false 3 2 (fun v => 100 + v) [3; 1; 0; 0; 0; 3; 7; 8; 9; 0; 0; 1] 0 0 blank
  (RlePicture (paint (paint blank 0 0 3 (fun _ => 101)) 0 1 3 (fun k => 100 + abs_index false [7; 8; 9; 0] k))) true.
Proof.
  apply rle_run; [discriminate|]. apply rle_line; [reflexivity|]. change true with (true && (0 + 3 <=? 3)) at 1.
  apply (rle_abs _ _ _ _ 3 [7; 8; 9; 0] [0; 1]); [lia|reflexivity|]. apply rle_stop.
Qed.
Example C49_ex_file : exists im, decode (rle_file 2 [3; 1; 0; 0; 0; 3; 0; 1; 0; 0; 0; 1]) = Ok im /\
  im_mem im = [0xFF1E140A; 0xFF3C3228; 0xFF1E140A; 0xFF3C3228; 0xFF3C3228; 0xFF3C3228].
Proof. eexists. split; vm_compute; reflexivity. Qed.

(* ------------------------------------------------------------------ C50 *)

(* Whatever the stream, the decoder reads nothing outside of it and of the palette, and writes nothing outside of the rows 0 ... h: it stays inside of memory when there is one more row. *)
Theorem C50_rle_bounds_partial : forall (four : bool) w h base stride pal m p, 0 < w -> 0 < h -> length pal = 256%nat -> bytes p ->
  (forall y, 0 <= y < h + 1 -> 0 <= base + y * stride /\ base + y * stride + w <= Z.of_nat (length m)) ->
  exists code m', decode_rle (S (length p)) four w h stride pal p m base base 0 0 = Ok (code, m') /\
    In code [0; BL_ERROR_DATA_TRUNCATED; BL_ERROR_DECOMPRESSION_FAILED] /\ length m' = length m /\
    forall j, (forall x y, 0 <= x < w -> 0 <= y <= h -> base + y * stride + x <> j) -> elem_at m' j = elem_at m j.
Proof.
  intros four w h base stride pal m p W H LP B F.
  destruct (decode_rle_safe four w h base stride pal m W LP F p H B) as (code & m' & E & I & L & K).
  exists code, m'. split; [exact E|]. split; [exact I|]. split; [exact L|]. exact K.
Qed.
Print Assumptions C50_rle_bounds_partial.

(* A plain stream stays inside of the image itself, and writes no pixel between its rows. *)
Theorem C50_plain_bounds : forall (four : bool) w h base stride pal m p r, 0 < w -> 0 < h -> length pal = 256%nat -> w <= Z.abs stride -> bytes p ->
  (forall y, 0 <= y < h -> 0 <= base + y * stride /\ base + y * stride + w <= Z.of_nat (length m)) ->
  rle four w h (fun v => nth (Z.to_nat v) pal 0) p 0 0 blank r true ->
  exists code m', decode_rle (S (length p)) four w h stride pal p m base base 0 0 = Ok (code, m') /\ length m' = length m /\
    forall j, (forall x y, 0 <= x < w -> 0 <= y < h -> base + y * stride + x <> j) -> elem_at m' j = elem_at m j.
Proof.
  intros four w h base stride pal m p r W H LP WS B F R.
  destruct (decode_rle_correct four w h base stride pal m W LP WS F p r H R B) as (m' & E & L & K & _).
  eexists. exists m'. split; [exact E|]. split; [exact L|]. intros j J. apply K. intros x' y' [X Y]. apply J; assumption.
Qed.
Print Assumptions C50_plain_bounds.

(* The full statement (without the additional row) fails: a file that moves to the row after the last one, where the pixels left of the pen are cleared.  With a positive height this is before the first byte of the image. *)
Theorem C50_write_outside_refuted : exists d, bytes d /\ (exists i, read_info_internal d = Ok i) /\ decode d = UB.
Proof.
  exists (rle_file 2 [0; 2; 1; 2; 1; 1; 0; 1]). split; [bytes_tac|]. split; [eexists; vm_compute; reflexivity|vm_compute; reflexivity].
Qed.
Print Assumptions C50_write_outside_refuted.

(* The same stream with one more row of memory: the move clears pixel (0, 2) of a 3 x 2 image. *)
Example C50_ex : decode_rle 20 false 3 2 3 (repeat 7 256) [0; 2; 1; 2; 1; 1; 0; 1] (repeat 5 9) 0 0 0 0 =
  Ok (0, [0; 0; 0; 0; 0; 0; 0; 5; 5]).
Proof. vm_compute. reflexivity. Qed.

(* ------------------------------------------------------------------ C51 *)

(* read_info reads nothing outside of the buffer and ends with a result or one of five errors. *)
Theorem C51_header_total : forall d, bytes d ->
  (exists i, read_info_internal d = Ok i) \/
  (exists e, read_info_internal d = Err e /\
     In e [BL_ERROR_DATA_TRUNCATED; BL_ERROR_INVALID_SIGNATURE; BL_ERROR_IMAGE_UNKNOWN_FILE_FORMAT; BL_ERROR_INVALID_DATA; BL_ERROR_IMAGE_TOO_LARGE]).
Proof. exact read_info_total. Qed.
Print Assumptions C51_header_total.

(* The red, green, blue and alpha bits of a true color bitmap without masks *)
Definition standard_masks (depth : Z) : list Z := if depth =? 16 then [0x7C00; 0x03E0; 0x001F; 0] else [0xFF0000; 0x00FF00; 0x0000FF; 0].

(* What it accepts is a bitmap of the announced kind, and what it reports are the fields of the header. *)
Theorem C51_header_sound : forall d i, bytes d -> read_info_internal d = Ok i ->
  let hd := header_of d in
  signature_ok d /\ In (hd_size hd) [12; 40; 52; 56; 108] /\ 14 + hd_size hd <= Z.of_nat (length d) /\ hd_planes hd = 1 /\
  i_offset i = hd_offset hd /\ i_hsize i = hd_size hd /\ i_w i = hd_width hd /\ i_h i = hd_height hd /\ i_depth i = hd_depth hd /\
  1 <= i_w i <= 65535 /\ Z.abs (i_h i) <= 65535 /\ In (i_depth i) [1; 4; 8; 16; 24; 32] /\ 14 + i_hsize i <= i_offset i /\
  i_stride i = row_bytes (i_w i) (i_depth i) /\ i_stride i * Z.abs (i_h i) < 2 ^ 32 /\
  (is_rle hd /\ i_size i = hd_image_size hd \/ ~ is_rle hd /\ i_stride i * Z.abs (i_h i) <= i_size i) /\
  (i_depth i <= 8 -> hd_comp hd = 0 \/ is_rle hd) /\
  f_depth (i_fmt i) = i_depth i /\ f_indexed (i_fmt i) = (i_depth i <=? 8) /\
  (if (hd_size hd =? 40) && ((hd_comp hd =? 3) || (hd_comp hd =? 6)) || (8 <? hd_depth hd) && (52 <=? hd_size hd)
   then masks_ok (masks_of d hd) /\ Forall2 channel_of (masks_of d hd) (f_chan (i_fmt i))
   else 8 < i_depth i -> Forall2 channel_of (standard_masks (i_depth i)) (f_chan (i_fmt i))).
Proof.
  intros d i B E. pose proof (read_info_sound d i B E) as SN. cbv zeta in SN |- *.
  destruct SN as (S0 & _ & S1 & S2 & S3 & S4 & S5 & S6 & S7 & S8 & S9 & S10 & S11 & S12 & S13 & S14 & S15 & S16 & S17 & S18 & S19 & S20 & S21).
  repeat (split; [assumption|]).
  match goal with |- (if ?b then _ else _) => change b with (masked (header_of d)); destruct (masked (header_of d)) end; [exact S20|].
  intros D8. rewrite S20. assert (D : i_depth i = 16 \/ i_depth i = 24 \/ i_depth i = 32) by (clear -S12 D8; cbn [In] in S12; lia).
  destruct D as [D|[D|D]]; rewrite D; cbn; repeat (constructor; [|]); try apply Forall2_nil;
    first [left; split; reflexivity|right; cbn [fst snd]; lia].
Qed.
Print Assumptions C51_header_sound.

(* Well-formed files are accepted, except for the two kinds below. *)
Theorem C51_header_accepts_partial : forall d, bytes d -> well_formed d ->
  hd_size (header_of d) <> 124 ->
  (8 < hd_depth (header_of d) -> 52 <= hd_size (header_of d) -> masks_ok (masks_of d (header_of d))) ->
  exists i, read_info_internal d = Ok i.
Proof.
  intros d B WF N M. apply read_info_accepts; [exact B|exact WF|exact N|]. intros K.
  unfold masked in K. apply orb_prop in K as [K|K].
  - unfold well_formed in WF. cbv zeta in WF. destruct WF as (_ & _ & _ & _ & _ & _ & _ & C & _).
    unfold bit_fields in K. apply andb_prop in K as [K1 K2]. apply Z.eqb_eq in K1.
    destruct C as [[C _]|[C|C]].
    + rewrite C in K2. discriminate.
    + destruct C as [[_ C]|[_ C]]; rewrite C in K2; discriminate.
    + apply C.
  - apply andb_prop in K as [K1 K2]. apply Z.ltb_lt in K1. apply Z.leb_le in K2. auto.
Qed.
Print Assumptions C51_header_accepts_partial.

Ltac wf_raw hd :=
  unfold well_formed; cbv zeta; match goal with |- context [header_of ?d] => change (header_of d) with hd end;
  cbn [hd_size hd_planes hd_width hd_height hd_comp hd_depth hd_offset hd_image_size];
  match goal with |- context [Z.of_nat (length ?d)] => let n := eval vm_compute in (Z.of_nat (length d)) in change (Z.of_nat (length d)) with n end;
  split; [split; reflexivity|]; split; [lia|]; split; [lia|]; split; [cbn; tauto|]; split; [reflexivity|]; split; [lia|]; split; [cbn; lia|];
  split; [left; split; [reflexivity|cbn; tauto]|split; [lia|split; [reflexivity|right; right; vm_compute; discriminate]]].

(* Files with the 124-byte header are rejected (kHeaderSizeWIN_V5 has the value 12). *)
Theorem C51_v5_refuted : exists d, bytes d /\ well_formed d /\ read_info_internal d = Err BL_ERROR_IMAGE_UNKNOWN_FILE_FORMAT.
Proof.
  exists (head 124 1 1 24 0 4 138 ++ repeat 0 (Z.to_nat 88)). split; [bytes_tac|]. split; [|vm_compute; reflexivity].
  wf_raw (Header 138 124 1 1 1 24 0 4).
Qed.
Print Assumptions C51_v5_refuted.

(* So are uncompressed true color files with the 108-byte header whose masks, which only bit fields use, are zero. *)
Theorem C51_v4_refuted : exists d, bytes d /\ well_formed d /\ hd_size (header_of d) = 108 /\ hd_comp (header_of d) = 0 /\
  read_info_internal d = Err BL_ERROR_INVALID_DATA.
Proof.
  exists (head 108 1 1 24 0 4 122 ++ repeat 0 (Z.to_nat 72)). split; [bytes_tac|]. split; [|split; [reflexivity|split; [reflexivity|vm_compute; reflexivity]]].
  wf_raw (Header 122 108 1 1 1 24 0 4).
Qed.
Print Assumptions C51_v4_refuted.

(* A compression that it does not know (4: JPEG) is accepted and read as uncompressed pixels. *)
Theorem C51_compression_refuted : exists d i, bytes d /\ read_info_internal d = Ok i /\ hd_comp (header_of d) = 4 /\
  exists im, read_frame_internal some_converter tight i d = Ok im /\ im_mem im = [0xFF030201].
Proof.
  exists (head 40 1 1 24 4 4 54 ++ [1; 2; 3; 0]). eexists. split; [bytes_tac|]. split; [vm_compute; reflexivity|]. split; [reflexivity|].
  eexists. split; vm_compute; reflexivity.
Qed.
Print Assumptions C51_compression_refuted.

(* a 16-bit file with masks *)
Definition masks_file : list Z := head 40 2 (-1) 16 3 4 66 ++ four_bytes 0xF800 ++ four_bytes 0x7E0 ++ four_bytes 0x1F ++ [1; 2; 3; 4].
Example C51_ex : bytes masks_file /\ well_formed masks_file /\
  exists i, read_info_internal masks_file = Ok i /\ i_h i = 2 ^ 32 - 1 - 2 ^ 32 /\ f_chan (i_fmt i) = [(5, 11); (6, 5); (5, 0); (0, 0)].
Proof.
  split; [bytes_tac|]. split.
  - unfold well_formed. cbv zeta. change (header_of masks_file) with (Header 66 40 2 (-1) 1 16 3 4).
    cbn [hd_size hd_planes hd_width hd_height hd_comp hd_depth hd_offset hd_image_size].
    change (Z.of_nat (length masks_file)) with 70. unfold is_rle. cbn [hd_depth hd_comp].
    change (masks_of masks_file (Header 66 40 2 (-1) 1 16 3 4)) with [0xF800; 0x7E0; 0x1F; 0].
    split; [split; reflexivity|]. split; [lia|]. split; [lia|]. split; [cbn; tauto|]. split; [reflexivity|]. split; [lia|]. split; [cbn; lia|].
    split; [|split; [lia|split; [reflexivity|right; right; vm_compute; discriminate]]].
    right. right. split; [now left|]. split; [cbn; tauto|]. split.
    + exists 0xF800, 0x7E0, 0x1F, 0. split; [reflexivity|].
      split; [exists 11, 16; repeat split; lia|]. split; [exists 5, 11; repeat split; lia|]. split; [exists 0, 5; repeat split; lia|].
      split; [now left|]. repeat split; reflexivity.
    + intros _. change (3 =? 6) with false. cbv iota. lia.
  - eexists. split; [vm_compute; reflexivity|]. split; reflexivity.
Qed.

(* ------------------------------------------------------------------ C52 *)

(* Uncompressed files: for every header that read_info accepted and every later buffer, read_frame reads inside of the buffer
   and writes inside of the image; a picture has every pixel from the stored row and column that it belongs to, converted with
   the palette of the file; otherwise there is an error for a reason. *)
Theorem C52_read_frame : forall pc alloc, converts_rows pc -> allocates alloc -> forall d0 d i, bytes d0 -> bytes d ->
  read_info_internal d0 = Ok i -> ~ is_rle (header_of d0) ->
  let palette := if i_depth i <=? 8 then palette_of d (i_hsize i) (i_offset i) else [] in
  let alpha := negb (fst (nth 3 (f_chan (i_fmt i)) (0, 0)) =? 0) in
  match read_frame_internal pc alloc i d with
  | Ok im =>
      i_offset i + i_size i <= Z.of_nat (length d) /\
      im_alpha im = alpha /\ im_w im = i_w i /\ im_h im = Z.abs (i_h i) /\ i_w i <= im_stride im /\
      Z.of_nat (length (im_mem im)) = im_stride im * im_h im /\
      exists conv, pc alpha (i_fmt i) palette = Ok conv /\
        forall x y, 0 <= x < i_w i -> 0 <= y < Z.abs (i_h i) ->
          elem_at (im_mem im) (y * im_stride im + x) =
          Some (nth (Z.to_nat x) (conv (i_w i) (stored_row d (i_offset i) (i_w i) (i_depth i) (stored_at (i_h i) y))) 0)
  | Err e =>
      e = BL_ERROR_DATA_TRUNCATED /\ Z.of_nat (length d) <= Z.max (i_offset i) (i_offset i + i_size i - 1) \/
      e = BL_ERROR_INVALID_VALUE /\ i_h i = 0 \/
      e = BL_ERROR_IMAGE_TOO_LARGE /\ 0x7FFFFFFF < i_w i * 4 * Z.abs (i_h i) \/
      pc alpha (i_fmt i) palette = Err e
  | _ => False
  end.
Proof.
  intros pc alloc PC AL d0 d i B0 B RI NR palette alpha.
  pose proof (read_info_ok d0 i B0 RI) as IO. pose proof (read_info_sound d0 i B0 RI) as SN. cbv zeta in SN.
  destruct SN as (S0 & _ & S1 & S2 & S3 & S4 & S5 & S6 & S7 & S8 & S9 & S10 & S11 & S12 & S13 & S14 & S15 & S16 & S17 & S18 & S19 & S20 & S21).
  assert (RF : rle_info i = false).
  { destruct (rle_info i) eqn:E; [|reflexivity]. exfalso. apply NR. unfold rle_info in E. rewrite S7, S8 in E.
    apply orb_prop in E as [E|E]; apply andb_prop in E as [E1 E2]; apply Z.eqb_eq in E1, E2; [left|right]; auto. }
  pose proof (frame_raw pc alloc PC AL i d IO B RF) as F.
  destruct (read_frame_internal pc alloc i d) as [im|e| |]; [| |exact F|exact F].
  - destruct F as (F1 & _ & F2 & F3 & F4 & F5 & F6 & F7). split.
    + unfold enough in F1. apply andb_prop in F1 as [_ F1]. apply Z.leb_le in F1. exact F1.
    + split; [exact F2|]. split; [exact F3|]. split; [exact F4|]. split; [exact F5|]. split; [exact F6|]. exact F7.
  - destruct F as [[F1 F2]|[F|F]].
    + left. split; [exact F2|]. unfold enough, entity_of in F1.
      assert (DIV : let en := if i_hsize i =? 12 then 3 else 4 in 0 < en /\
        (i_offset i - (14 + i_hsize i)) / en * en <= i_offset i - (14 + i_hsize i)).
      { cbv zeta. assert (0 < (if i_hsize i =? 12 then 3 else 4)) by (destruct (i_hsize i =? 12); lia).
        split; [assumption|]. rewrite Z.mul_comm. apply Z.mul_div_le. assumption. }
      cbv zeta in DIV. set (en := if i_hsize i =? 12 then 3 else 4) in *. clearbody en. destruct DIV as [D1 D2].
      set (q := (i_offset i - (14 + i_hsize i)) / en) in *. clearbody q.
      assert (D3 : Z.min q 256 * en <= i_offset i - (14 + i_hsize i)).
      { apply Z.le_trans with (q * en); [apply Z.mul_le_mono_nonneg_r; lia|exact D2]. }
      apply andb_false_iff in F1 as [F1|F1]; [apply andb_false_iff in F1 as [F1|F1]; [apply andb_false_iff in F1 as [F1|F1]|]|].
      * apply Z.leb_gt in F1. lia.
      * apply orb_false_iff in F1 as [_ F1]. apply Z.leb_gt in F1. lia.
      * apply Z.ltb_ge in F1. lia.
      * apply Z.leb_gt in F1. lia.
    + unfold create_error, BL_RUNTIME_MAX_IMAGE_SIZE, kMaxAddressableOffset in F.
      destruct (Z.leb_spec (i_w i) 0); [lia|]. cbn [orb] in F.
      destruct (Z.leb_spec (Z.abs (i_h i)) 0); cbn [orb] in F.
      * right. left. injection F as <-. split; [reflexivity|lia].
      * destruct (Z.ltb_spec 65535 (i_w i)); [lia|]. destruct (Z.ltb_spec 65535 (Z.abs (i_h i))); [lia|]. cbn [orb] in F.
        destruct (Z.ltb_spec 2147483647 (i_w i * 4 * Z.abs (i_h i))); [|discriminate].
        right. right. left. injection F as <-. split; [reflexivity|assumption].
    + right. right. right. exact F.
Qed.
Print Assumptions C52_read_frame.

(* The decoder object: a client calls read_info and read_frame with any buffers, in any order. *)
Inductive call : Type := ReadInfo (data : list Z) | ReadFrame (data : list Z).
Definition call_bytes (c : call) : list Z := match c with ReadInfo d => d | ReadFrame d => d end.
Inductive answer : Type := Code (c : Z) | Frame (im : image).
Definition perform (pc : bool -> bmp_format -> list Z -> outcome (Z -> list Z -> list Z)) (alloc : Z -> Z -> Z * list Z) (s : decoder) (c : call)
  : outcome (decoder * answer) :=
  match c with
  | ReadInfo d => let* r := dec_read_info s d in Ok (fst r, Code (snd r))
  | ReadFrame d => let* r := dec_read_frame pc alloc s d in Ok (fst r, match snd r with inl e => Code e | inr im => Frame im end)
  end.
Fixpoint session (pc : bool -> bmp_format -> list Z -> outcome (Z -> list Z -> list Z)) (alloc : Z -> Z -> Z * list Z) (s : decoder) (l : list call)
  : outcome (decoder * list answer) :=
  match l with
  | [] => Ok (s, [])
  | c :: l' => let* r := perform pc alloc s c in let* q := session pc alloc (fst r) l' in Ok (fst q, snd r :: snd q)
  end.

Definition dec_ok (s : decoder) : Prop :=
  (forall i, d_info s = Some i -> exists d, bytes d /\ read_info_internal d = Ok i /\ ~ is_rle (header_of d)) /\
  (d_info s = None -> d_frame s = false) /\ (d_frame s = true -> d_last s = 0).

(* the answers after the first error, or after the frame *)
Definition orderly (l : list answer) : Prop :=
  forall k a, nth_error l k = Some a ->
    (forall e, a = Code e -> e <> 0 -> e <> BL_ERROR_NO_MORE_DATA -> forall j b, (k < j)%nat -> nth_error l j = Some b -> b = Code e) /\
    (forall im, a = Frame im -> forall j b, (k < j)%nat -> nth_error l j = Some b -> b = Code 0 \/ b = Code BL_ERROR_NO_MORE_DATA).

Definition failed (e : Z) (s : decoder) : Prop := d_last s = e /\ e <> 0.
Definition done (s : decoder) : Prop := d_last s = 0 /\ d_frame s = true /\ exists i, d_info s = Some i.

Lemma perform_failed pc alloc e s c : failed e s -> perform pc alloc s c = Ok (s, Code e).
Proof.
  intros [L N]. assert (R : forall d, dec_read_info s d = Ok (s, e)).
  { intros d. unfold dec_read_info. destruct (d_info s); rewrite ?L; [reflexivity|]. destruct (Z.eqb_spec e 0); [lia|reflexivity]. }
  destruct c as [d|d]; cbn [perform].
  - rewrite R. reflexivity.
  - unfold dec_read_frame. rewrite R. cbn [bind]. destruct (Z.eqb_spec e 0); [lia|]. reflexivity.
Qed.
Lemma perform_done pc alloc s c : done s -> exists a, perform pc alloc s c = Ok (s, a) /\ (a = Code 0 \/ a = Code BL_ERROR_NO_MORE_DATA).
Proof.
  intros (L & F & i & I). destruct c as [d|d]; cbn [perform].
  - unfold dec_read_info. rewrite I, L. cbn. eauto.
  - unfold dec_read_frame, dec_read_info. rewrite I, L. cbn [bind]. cbn [negb Z.eqb]. rewrite I, F. cbn. eauto.
Qed.
Lemma session_failed pc alloc e s : failed e s -> forall l s' l', session pc alloc s l = Ok (s', l') -> forall a, In a l' -> a = Code e.
Proof.
  intros FS. induction l as [|c l IH]; intros s' l' E a A.
  - cbn in E. injection E as _ <-. destruct A.
  - cbn [session] in E. rewrite (perform_failed pc alloc e s c FS) in E. cbn [bind fst snd] in E.
    destruct (session pc alloc s l) as [[q1 q2]| | |] eqn:Q; try discriminate. cbn [bind fst snd] in E. injection E as _ <-.
    destruct A as [<-|A]; [reflexivity|]. eapply IH; [reflexivity|exact A].
Qed.
Lemma session_done pc alloc s : done s -> forall l s' l', session pc alloc s l = Ok (s', l') -> forall a, In a l' -> a = Code 0 \/ a = Code BL_ERROR_NO_MORE_DATA.
Proof.
  intros FS. induction l as [|c l IH]; intros s' l' E a A.
  - cbn in E. injection E as _ <-. destruct A.
  - cbn [session] in E. destruct (perform_done pc alloc s c FS) as (b & PB & PE). rewrite PB in E. cbn [bind fst snd] in E.
    destruct (session pc alloc s l) as [[q1 q2]| | |] eqn:Q; try discriminate. cbn [bind fst snd] in E. injection E as _ <-.
    destruct A as [<-|A]; [exact PE|]. eapply IH; [reflexivity|exact A].
Qed.

(* one call: the state stays sensible, and an error or a frame decides what follows *)
Lemma perform_ok pc alloc s c : converts_rows pc -> allocates alloc -> dec_ok s -> bytes (call_bytes c) ->
  (forall i, read_info_internal (call_bytes c) = Ok i -> ~ is_rle (header_of (call_bytes c))) ->
  exists s' a, perform pc alloc s c = Ok (s', a) /\ dec_ok s' /\
    (forall e, a = Code e -> e <> 0 -> failed e s' \/ e = BL_ERROR_NO_MORE_DATA) /\ (forall im, a = Frame im -> done s').
Proof.
  intros PC AL (K1 & K2 & K3) B NR.
  assert (RI : forall d, bytes d -> (forall i, read_info_internal d = Ok i -> ~ is_rle (header_of d)) ->
    exists s1 e, dec_read_info s d = Ok (s1, e) /\ dec_ok s1 /\ d_last s1 = e /\ (e = 0 -> exists i, d_info s1 = Some i)).
  { intros d BD ND. unfold dec_read_info. destruct (d_info s) as [i|] eqn:I.
    - exists s, (d_last s). split; [reflexivity|]. split; [|split; [reflexivity|eauto]]. split; [rewrite I; exact K1|]. split; [rewrite I; discriminate|exact K3].
    - destruct (Z.eqb_spec (d_last s) 0) as [L|L].
      + specialize (K2 eq_refl). destruct (read_info_total d BD) as [[i E]|(e & E & IN)]; rewrite E.
        * eexists. eexists. split; [reflexivity|]. split; [|split; [reflexivity|intros _; eexists; reflexivity]].
          split; [|split]; cbn [d_info d_frame d_last]; [|discriminate|reflexivity].
          intros i' [= <-]. exists d. split; [exact BD|]. split; [exact E|]. apply (ND i E).
        * eexists. eexists. split; [reflexivity|]. split; [|split; [reflexivity|]].
          -- split; [|split]; cbn [d_info d_frame d_last]; [discriminate|intros _; exact K2|rewrite K2; discriminate].
          -- intros ->. exfalso. cbn in IN. destruct IN as [X|[X|[X|[X|[X|[]]]]]]; discriminate X.
      + exists s, (d_last s). split; [reflexivity|]. split; [|split; [reflexivity|intros; contradiction]].
        split; [rewrite I; exact K1|]. split; [rewrite I; exact K2|exact K3]. }
  destruct c as [d|d]; cbn [call_bytes perform] in *.
  - destruct (RI d B NR) as (s1 & e & E & D & L & I). rewrite E. cbn [bind fst snd]. exists s1, (Code e).
    split; [reflexivity|]. split; [exact D|]. split; [|discriminate]. intros e' [= <-] N. left. split; assumption.
  - destruct (RI d B NR) as (s1 & e & E & D & L & I). unfold dec_read_frame. rewrite E. cbn [bind].
    destruct (Z.eqb_spec e 0) as [->|N]; cbn [negb].
    2:{ cbn [bind fst snd]. exists s1, (Code e). split; [reflexivity|]. split; [exact D|]. split; [|discriminate].
        intros e' [= <-] _. left. split; assumption. }
    destruct (I eq_refl) as [i II]. rewrite II. destruct (d_frame s1) eqn:FR.
    + cbn [bind fst snd]. exists s1, (Code BL_ERROR_NO_MORE_DATA). split; [reflexivity|]. split; [exact D|]. split; [|discriminate].
      intros e' [= <-] _. now right.
    + destruct D as (D1 & D2 & D3). destruct (D1 i II) as (d0 & B0 & R0 & N0).
      pose proof (C52_read_frame pc alloc PC AL d0 d i B0 B R0 N0) as F. cbv zeta in F.
      destruct (read_frame_internal pc alloc i d) as [im|e| |] eqn:RF; [| |contradiction|contradiction].
      * cbn [bind fst snd]. eexists. exists (Frame im). split; [reflexivity|].
        split; [split; [|split]; cbn [d_info d_frame d_last]; [|discriminate|intros _; exact L]|].
        { intros i' [= <-]. exists d0. auto. }
        split; [discriminate|]. intros im' _. split; [exact L|]. split; [reflexivity|]. eexists. reflexivity.
      * cbn [bind fst snd]. eexists. exists (Code e). split; [reflexivity|].
        split; [split; [|split]; cbn [d_info d_frame d_last]; [|discriminate|discriminate]|].
        { intros i' [= <-]. exists d0. auto. }
        split; [|discriminate]. intros e' [= <-] N. left. split; [reflexivity|exact N].
Qed.

Theorem C52_decoder_sessions : forall pc alloc, converts_rows pc -> allocates alloc -> forall l,
  (forall c, In c l -> bytes (call_bytes c) /\ (forall i, read_info_internal (call_bytes c) = Ok i -> ~ is_rle (header_of (call_bytes c)))) ->
  exists s' answers, session pc alloc decoder_fresh l = Ok (s', answers) /\ length answers = length l /\ orderly answers.
Proof.
  intros pc alloc PC AL.
  assert (G : forall l s, dec_ok s ->
    (forall c, In c l -> bytes (call_bytes c) /\ (forall i, read_info_internal (call_bytes c) = Ok i -> ~ is_rle (header_of (call_bytes c)))) ->
    exists s' answers, session pc alloc s l = Ok (s', answers) /\ length answers = length l /\ orderly answers).
  { induction l as [|c l IH]; intros s D H.
    - exists s, []. split; [reflexivity|]. split; [reflexivity|]. intros k a E. destruct k; discriminate E.
    - destruct (H c (or_introl eq_refl)) as [HB HN].
      destruct (perform_ok pc alloc s c PC AL D HB HN) as (s1 & a & E & D1 & FE & FF).
      destruct (IH s1 D1) as (s2 & ans & E2 & LN & OR); [intros c' C'; apply H; now right|].
      exists s2, (a :: ans). cbn [session]. rewrite E. cbn [bind fst snd]. rewrite E2. cbn [bind fst snd].
      split; [reflexivity|]. split; [cbn; now rewrite LN|].
      intros k b K. destruct k as [|k]; cbn [nth_error] in K.
      + injection K as <-. split.
        * intros e -> N NN j b J BB. destruct j as [|j]; [lia|]. cbn [nth_error] in BB. apply nth_error_In in BB.
          destruct (FE e eq_refl N) as [FL|]; [|contradiction]. eapply session_failed; [exact FL|exact E2|exact BB].
        * intros im -> j b J BB. destruct j as [|j]; [lia|]. cbn [nth_error] in BB. apply nth_error_In in BB.
          eapply session_done; [apply (FF im eq_refl)|exact E2|exact BB].
      + destruct (OR k b K) as [O1 O2]. split.
        * intros e EB N NN j b' J BB. destruct j as [|j]; [lia|]. cbn [nth_error] in BB. eapply O1; try eassumption. lia.
        * intros im EB j b' J BB. destruct j as [|j]; [lia|]. cbn [nth_error] in BB. eapply O2; try eassumption. lia. }
  intros l H. apply G; [|exact H]. split; [|split]; cbn; try discriminate; reflexivity.
Qed.
Print Assumptions C52_decoder_sessions.

Example C52_ex : exists im, decode (head 40 3 2 24 0 0 54 ++ [1; 2; 3; 4; 5; 6; 7; 8; 9; 0; 0; 0; 11; 12; 13; 14; 15; 16; 17; 18; 19; 0; 0; 0]) = Ok im /\
  im_mem im = [0xFF0D0C0B; 0xFF100F0E; 0xFF131211; 0xFF030201; 0xFF060504; 0xFF090807].
Proof. eexists. split; vm_compute; reflexivity. Qed.
(* a header, a truncated buffer, and then the error again although the data has come *)
Definition small_file : list Z := head 40 1 1 24 0 4 54 ++ [1; 2; 3; 0].
Example C52_ex_session : exists s, session some_converter tight decoder_fresh
  [ReadInfo (firstn 54 small_file); ReadFrame (firstn 54 small_file); ReadFrame small_file] =
  Ok (s, [Code 0; Code BL_ERROR_DATA_TRUNCATED; Code BL_ERROR_DATA_TRUNCATED]).
Proof. eexists. vm_compute. reflexivity. Qed.
Example C52_ex_frame : exists s im, session some_converter tight decoder_fresh [ReadFrame small_file; ReadFrame small_file] =
  Ok (s, [Frame im; Code BL_ERROR_NO_MORE_DATA]) /\ im_mem im = [0xFF030201].
Proof. eexists. eexists. split; [vm_compute; reflexivity|reflexivity]. Qed.

(* ------------------------------------------------------------------ C53 *)

(* Every image that can exist is written: the file has the length that its header states, and is a well-formed bitmap of the
   same size.  All writes stay inside of the output (any access outside of it is UB in the model). *)
Theorem C53_write : forall f w h src stride buf0,
  1 <= w <= 65535 -> 1 <= h <= 65535 -> (match f with A8 => 1 | _ => 4 end) * w * h <= 0x7FFFFFFF ->
  (forall y, 0 <= y < h -> 0 <= y * stride /\ y * stride + w <= Z.of_nat (length src)) ->
  Forall (fun v => 0 <= v < match f with A8 => 256 | _ => 2 ^ 32 end) src ->
  (forall n, 0 <= n -> Z.of_nat (length (buf0 n)) = n) ->
  exists d, write_frame f w h src stride buf0 = Ok d /\ bytes d /\ u32 d 2 = Z.of_nat (length d) /\ signature_ok d /\
    hd_width (header_of d) = w /\ hd_height (header_of d) = h /\ hd_planes (header_of d) = 1 /\ hd_comp (header_of d) = 0 /\
    hd_depth (header_of d) = (match f with PRGB32 => 32 | XRGB32 => 24 | A8 => 8 end) /\
    hd_image_size (header_of d) = row_bytes w (hd_depth (header_of d)) * h /\
    Z.of_nat (length d) = hd_offset (header_of d) + hd_image_size (header_of d).
Proof.
  intros f w h src stride buf0 W H SZ SO PO BF.
  assert (C : creatable f w h) by (split; [exact W|split; [exact H|exact SZ]]).
  exists (file_of f w h src stride). split; [apply write_frame_ok; assumption|]. split; [apply file_bytes; exact PO|].
  pose proof (file_length f w h src stride C) as LN. destruct (file_header f w h src stride C) as [SG HD].
  pose proof (total_bound f w h C) as [T0 T1]. rewrite HD. cbn [hd_width hd_height hd_planes hd_comp hd_depth hd_image_size hd_offset].
  split.
  - rewrite LN. assert (0 < pixels_at f) by (destruct f; cbn; lia). apply u32_le; [lia|destruct f; reflexivity..].
  - split; [exact SG|]. repeat (split; [reflexivity|]). exact LN.
Qed.
Print Assumptions C53_write.

(* ... and the decoder reads the picture back: every color is the same (XRGB32 with its undefined byte set to 0xFF, A8 as gray),
   for every pixel converter that does the three conversions (copy of 32-bit pixels, 24-bit to XRGB32, palette). *)
Theorem C53_round_trip : forall pc alloc, converts_rows pc -> converter_ok pc -> allocates alloc -> forall f w h src stride buf0,
  1 <= w <= 65535 -> 1 <= h <= 65535 -> 4 * w * h <= 0x7FFFFFFF ->
  (forall y, 0 <= y < h -> 0 <= y * stride /\ y * stride + w <= Z.of_nat (length src)) ->
  Forall (fun v => 0 <= v < match f with A8 => 256 | _ => 2 ^ 32 end) src ->
  (forall n, 0 <= n -> Z.of_nat (length (buf0 n)) = n) ->
  exists d i im, write_frame f w h src stride buf0 = Ok d /\ read_info_internal d = Ok i /\ read_frame_internal pc alloc i d = Ok im /\
    im_alpha im = (match f with PRGB32 => true | _ => false end) /\ im_w im = w /\ im_h im = h /\
    forall x y, 0 <= x < w -> 0 <= y < h ->
      elem_at (im_mem im) (y * im_stride im + x) =
      Some (let v := nth (Z.to_nat (y * stride + x)) src 0 in
            match f with PRGB32 => v | XRGB32 => 0xFF000000 + v mod 2 ^ 24 | A8 => 0xFF000000 + 0x10101 * v end).
Proof.
  intros pc alloc PC CO AL f w h src stride buf0 W H SZ SO PO BF.
  assert (C : creatable f w h).
  { split; [exact W|]. split; [exact H|]. unfold image_bytes. destruct f; nia. }
  destruct (round_trip pc alloc f w h src stride PC CO AL C SZ SO PO) as (i & im & R1 & R2 & R3 & R4 & R5 & _ & _ & R6).
  exists (file_of f w h src stride), i, im. split; [apply write_frame_ok; assumption|]. split; [exact R1|]. split; [exact R2|].
  split; [exact R3|]. split; [exact R4|]. split; [exact R5|]. intros x y X Y. rewrite (R6 x y X Y). destruct f; reflexivity.
Qed.
Print Assumptions C53_round_trip.

Example C53_ex : exists d im, write_frame XRGB32 3 2 [1; 2; 3; 99; 0x12345678; 5; 6; 99] 4 (fun n => repeat 170 (Z.to_nat n)) = Ok d /\
  length d = 78%nat /\ decode d = Ok im /\ im_mem im = [0xFF000001; 0xFF000002; 0xFF000003; 0xFF345678; 0xFF000005; 0xFF000006].
Proof. eexists. eexists. split; [vm_compute; reflexivity|]. split; [reflexivity|]. split; [vm_compute; reflexivity|reflexivity]. Qed.
Example C53_ex_alpha : exists d im, write_frame A8 2 1 [7; 200] 2 (fun n => repeat 170 (Z.to_nat n)) = Ok d /\ length d = Z.to_nat 1082 /\
  decode d = Ok im /\ im_mem im = [0xFF070707; 0xFFC8C8C8].
Proof. eexists. eexists. split; [vm_compute; reflexivity|]. split; [reflexivity|]. split; [vm_compute; reflexivity|reflexivity]. Qed.
