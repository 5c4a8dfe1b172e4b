(* Property theorems C12 - C15, C31, C32: the QOI codec. *)
From Verif Require Import Base Algorithm_Spec PixelOps_Spec Qoi_Model Qoi_Spec Qoi_Proofs2 Qoi_Proofs5 Qoi_Proofs7.

(* ---- C12: what the encoder writes, the decoder reads back, for every size, stride and content ---- *)
Theorem C12_round_trip_prgb32 : forall (w h : nat) stride src stride_of,
  (1 <= w)%nat -> (1 <= h)%nat -> Z.of_nat w <= 65535 -> Z.of_nat h <= 65535 ->
  Z.of_nat w <= Z.abs stride -> Z.of_nat w <= Z.abs (stride_of (Z.of_nat w)) ->
  Forall premul32 (image_px w h stride src) ->
  exists file, write_frame FmtPRGB32 w h stride src = Ok file /\
    qoi_decode stride_of file = Ok ({| i_w := Z.of_nat w; i_h := Z.of_nat h; i_depth := 32 |},
      stores (Z.of_nat w) (stride_of (Z.of_nat w)) 0 (image_px w h stride src)).
Proof.
  intros w h stride src stride_of H1 H2 H3 H4 H5 H6 H7. destruct (round_trip FmtPRGB32 w h stride src stride_of H1 H2 H3 H4 H5 H6 H7) as (file & E1 & E2).
  exists file. split; [exact E1|]. rewrite E2. cbn [expected channels_of]. now rewrite map_id.
Qed.
Print Assumptions C12_round_trip_prgb32.

Theorem C12_round_trip_xrgb32 : forall (w h : nat) stride src stride_of,
  (1 <= w)%nat -> (1 <= h)%nat -> Z.of_nat w <= 65535 -> Z.of_nat h <= 65535 ->
  Z.of_nat w <= Z.abs stride -> Z.of_nat w <= Z.abs (stride_of (Z.of_nat w)) ->
  Forall (fun v => 0 <= v < 2 ^ 32) (image_px w h stride src) ->
  exists file, write_frame FmtXRGB32 w h stride src = Ok file /\
    qoi_decode stride_of file = Ok ({| i_w := Z.of_nat w; i_h := Z.of_nat h; i_depth := 24 |},
      stores (Z.of_nat w) (stride_of (Z.of_nat w)) 0 (map (fun v => 0xFF000000 + v mod 2 ^ 24) (image_px w h stride src))).
Proof. exact (round_trip FmtXRGB32). Qed.
Print Assumptions C12_round_trip_xrgb32.

Theorem C12_round_trip_a8 : forall (w h : nat) stride src stride_of,
  (1 <= w)%nat -> (1 <= h)%nat -> Z.of_nat w <= 65535 -> Z.of_nat h <= 65535 ->
  Z.of_nat w <= Z.abs stride -> Z.of_nat w <= Z.abs (stride_of (Z.of_nat w)) ->
  Forall is_byte (image_px w h stride src) ->
  exists file, write_frame FmtA8 w h stride src = Ok file /\
    qoi_decode stride_of file = Ok ({| i_w := Z.of_nat w; i_h := Z.of_nat h; i_depth := 32 |},
      stores (Z.of_nat w) (stride_of (Z.of_nat w)) 0 (map (fun a => pack32 a a a a) (image_px w h stride src))).
Proof. exact (round_trip FmtA8). Qed.
Print Assumptions C12_round_trip_a8.

(* a 3 x 2 image in a bottom-up buffer (negative stride) with runs across the row end, an index hit and deltas *)
Definition ex_src (o : Z) : Z := nth (Z.to_nat (o + 4)) [0xFF000000; 0x80102030; 0x80102030; 7; 0xFF000000; 0xFF000000; 0xFF000000] 0.
Example C12_ex_hyp : Forall premul32 (image_px 3 2 (-4) ex_src).
Proof.
  change (image_px 3 2 (-4) ex_src) with [0xFF000000; 0xFF000000; 0xFF000000; 0xFF000000; 0x80102030; 0x80102030]. unfold premul32, is_byte.
  repeat constructor; try (exists 255, 0, 0, 0; repeat split; lia); exists 128, 16, 32, 48; repeat split; lia.
Qed.
Example C12_ex : match write_frame FmtPRGB32 3 2 (-4) ex_src with
  | Ok file => qoi_decode (fun w => w + 1) file = Ok ({| i_w := 3; i_h := 2; i_depth := 32 |},
      [(0, 0xFF000000); (1, 0xFF000000); (2, 0xFF000000); (4, 0xFF000000); (5, 0x80102030); (6, 0x80102030)]) | _ => False end.
Proof. vm_compute. reflexivity. Qed.

(* ---- C13: any image content, also pixels that are not premultiplied; write_frame is UB when it outgrows max_size ---- *)
Theorem C13_encoder_bound : forall f (w h : nat) stride src,
  (1 <= w)%nat -> (1 <= h)%nat -> Z.of_nat w <= 65535 -> Z.of_nat h <= 65535 -> Z.of_nat w <= Z.abs stride ->
  Forall (fun v => 0 <= v < match f with FmtA8 => 2 ^ 8 | _ => 2 ^ 32 end) (image_px w h stride src) ->
  exists file, write_frame f w h stride src = Ok file /\
    Z.of_nat (length file) <= 14 + Z.of_nat w * Z.of_nat h * (match f with FmtXRGB32 => 3 | _ => 4 end + 1) + 8.
Proof.
  intros f w h stride src H1 H2 H3 H4 H5 H6. destruct (write_frame_ok f w h stride src H1 H2 H3 H4 H5) as (cs & E & _ & _ & _ & L); [destruct f; exact H6|].
  eexists. split; [exact E|]. destruct f; exact L.
Qed.
Print Assumptions C13_encoder_bound.
(* the bound is reached: every pixel needs a full RGBA chunk *)
Example C13_ex : match write_frame FmtPRGB32 2 2 2 (fun o => nth (Z.to_nat o) [0x10000000; 0x20000000; 0x30000000; 0x40000000] 0) with
  | Ok file => length file = 42%nat | _ => False end.
Proof. vm_compute. reflexivity. Qed.

(* ---- C14: every byte string: never UB, never out of fuel; an error, or each pixel of the image written exactly once ---- *)
Theorem C14_decoder_safe : forall stride_of d, bytes d -> (forall w, w <= Z.abs (stride_of w)) ->
  (exists e, qoi_decode stride_of d = Err e) \/
  (exists inf vals, qoi_decode stride_of d = Ok (inf, stores (i_w inf) (stride_of (i_w inf)) 0 vals) /\
    1 <= i_w inf <= 65535 /\ 1 <= i_h inf <= 65535 /\ Z.of_nat (length vals) = i_w inf * i_h inf).
Proof. exact qoi_decode_safe. Qed.
Print Assumptions C14_decoder_safe.

(* a hostile run that would leave the image is cut at the last pixel; a truncated file is an error *)
Example C14_ex_run : qoi_decode (fun w => w) (qoi_header 2 1 3 0 ++ [0xFD; 1; 2; 3; 4; 5; 6; 7; 8]) =
  Ok ({| i_w := 2; i_h := 1; i_depth := 24 |}, [(0, 0xFF000000); (1, 0xFF000000)]).
Proof. vm_compute. reflexivity. Qed.
Example C14_ex_truncated : qoi_decode (fun w => w) (qoi_header 40000 40000 3 0 ++ [0xFD; 0xFD; 0xFD; 0xFE; 1; 2; 3; 4; 5; 6]) = Err BL_ERROR_DATA_TRUNCATED.
Proof. vm_compute. reflexivity. Qed.

(* ---- C15: chunk streams whose index chunks name slots that hold a pixel belonging there ---- *)
Theorem C15_decoder_spec : forall w h ch sp cs tail stride_of,
  1 <= w <= 65535 -> 1 <= h <= 65535 -> (ch = 3 \/ ch = 4) -> 0 <= sp <= 1 -> w <= Z.abs (stride_of w) ->
  Forall chunk_ok cs -> index_ok q_init cs -> w * h <= Z.of_nat (length (spec_decode q_init cs)) -> (8 <= length tail)%nat -> bytes tail ->
  qoi_decode stride_of (qoi_header w h ch sp ++ concat (map chunk_bytes cs) ++ tail) =
  Ok ({| i_w := w; i_h := h; i_depth := ch * 8 |},
      stores w (stride_of w) 0 (map (pix32 (ch =? 4)) (firstn (Z.to_nat (w * h)) (spec_decode q_init cs)))).
Proof. exact qoi_decode_spec. Qed.
Print Assumptions C15_decoder_spec.

Definition ex_cs : list chunk := [CRun 2; CDiff (-2) 1 0; CLuma 31 7 (-8); CRgba 1 2 3 128; CIndex 53; CRgb 9 9 9; CRun 1].
Example C15_ex_hyp : Forall chunk_ok ex_cs /\ index_ok q_init ex_cs /\ 2 * 4 <= Z.of_nat (length (spec_decode q_init ex_cs)).
Proof. split; [|split]; [repeat constructor; unfold is_byte; lia|vm_compute; repeat split|vm_compute; discriminate]. Qed.
Example C15_ex : map (pix32 true) (spec_decode q_init ex_cs) =
  [0xFF000000; 0xFF000000; 0xFFFE0100; 0xFF242017; 0x80010102; 0xFF000000; 0xFF090909; 0xFF090909].
Proof. vm_compute. reflexivity. Qed.

(* ---- C31 (refuted): an index chunk that names a slot never written. The specification puts the transparent pixel it
   denotes into the table again (slot 0); the decoder does not. ---- *)
Theorem C31_any_index_refuted : exists w h cs,
  Forall chunk_ok cs /\ w * h = Z.of_nat (length (spec_decode q_init cs)) /\
  exists inf vals, qoi_decode (fun w => w) (qoi_header w h 4 0 ++ concat (map chunk_bytes cs) ++ qoi_end_marker) = Ok (inf, stores w w 0 vals) /\
    vals <> map (pix32 true) (spec_decode q_init cs).
Proof.
  exists 3, 1, [CRgba 0 0 0 64; CIndex 5; CIndex 0]. split; [repeat constructor; unfold is_byte; lia|]. split; [reflexivity|].
  exists {| i_w := 3; i_h := 1; i_depth := 32 |}, [0x40000000; 0; 0x40000000]. split; [vm_compute; reflexivity|vm_compute; discriminate].
Qed.
Print Assumptions C31_any_index_refuted.

(* what does hold without the discipline on index chunks: all streams without index chunks *)
Theorem C31_no_index_partial : forall w h ch sp cs tail stride_of,
  1 <= w <= 65535 -> 1 <= h <= 65535 -> (ch = 3 \/ ch = 4) -> 0 <= sp <= 1 -> w <= Z.abs (stride_of w) ->
  Forall chunk_ok cs -> Forall (fun c => match c with CIndex _ => False | _ => True end) cs ->
  w * h <= Z.of_nat (length (spec_decode q_init cs)) -> (8 <= length tail)%nat -> bytes tail ->
  qoi_decode stride_of (qoi_header w h ch sp ++ concat (map chunk_bytes cs) ++ tail) =
  Ok ({| i_w := w; i_h := h; i_depth := ch * 8 |},
      stores w (stride_of w) 0 (map (pix32 (ch =? 4)) (firstn (Z.to_nat (w * h)) (spec_decode q_init cs)))).
Proof.
  intros w h ch sp cs tail stride_of H1 H2 H3 H4 H5 H6 H7. apply qoi_decode_spec; auto.
  clear - H7. revert H7. generalize q_init. induction cs as [|c cs IH]; intros st H; [exact I|]. inversion H; subst. cbn [index_ok]. split; [destruct c; auto; contradiction|auto].
Qed.
Print Assumptions C31_no_index_partial.
Example C31_ex : Forall (fun c => match c with CIndex _ => False | _ => True end) [CRun 62; CRgb 1 2 3] /\ 63 * 1 <= Z.of_nat (length (spec_decode q_init [CRun 62; CRgb 1 2 3])).
Proof. split; [repeat constructor|vm_compute; discriminate]. Qed.

(* ---- C32 (refuted): a file whose chunks describe fewer pixels than the image has is not always rejected: the second
   half of an index pair takes the first byte of the end marker for a chunk ---- *)
Theorem C32_short_stream_refuted : exists w h cs,
  Forall chunk_ok cs /\ index_ok q_init cs /\ Z.of_nat (length (spec_decode q_init cs)) < w * h /\
  exists r, qoi_decode (fun w => w) (qoi_header w h 4 0 ++ concat (map chunk_bytes cs) ++ qoi_end_marker) = Ok r.
Proof.
  exists 2, 1, [CIndex 0]. split; [repeat constructor; lia|]. split; [vm_compute; auto|]. split; [reflexivity|]. eexists. vm_compute. reflexivity.
Qed.
Print Assumptions C32_short_stream_refuted.
