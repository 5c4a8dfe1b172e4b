(* C36 to C38: decoding the pixel data of a PNG image. *)
From Verif Require Import Base Png_Model Png_Spec Png_Proofs Png_Proofs2 Png_Proofs7 Png_Proofs9 Png_Proofs10 Png_Proofs11 Png_Proofs12.
From Verif Require Png_Proofs6.
From Coq Require Import ZifyBool Permutation.

(* ------------------------------------------------------------------ C36 *)

(* The inverse filter turns the h rows stored at [base] into the reconstruction the standard prescribes, which is unique, and touches
   no other byte; it never fails.  bpp: bytes per pixel; bpl: bytes per row with the filter byte. *)
Theorem C36_inverse_filter m base bpp bpl h :
  bytes m -> 1 <= bpp -> bpp + 1 <= bpl -> bpl < 2 ^ 32 -> 0 < h < 2 ^ 32 -> 0 <= base -> base + h * bpl <= Z.of_nat (length m) ->
  exists m', inverse_filter_impl base bpp bpl h m = Ok m' /\ length m' = length m /\ bytes m' /\
    reconstructed bpp bpl base h m m' /\
    (forall j, 0 <= j < base \/ base + h * bpl <= j -> get m' j = get m j) /\
    (forall out, reconstructed bpp bpl base h m out ->
       forall y x, 0 <= y < h -> 0 <= x < bpl - 1 -> get out (base + y * bpl + 1 + x) = get m' (base + y * bpl + 1 + x)).
Proof.
  intros B H1 H2 H3 H4 H5 H6. change (2 ^ 32) with 4294967296 in *.
  destruct (inverse_filter_ok m bpp bpl base h) as (m' & E & L & B' & O & R); try assumption; try (unfold len; lia).
  exists m'. split; [exact E|]. split; [unfold len in L; lia|]. split; [exact B'|]. split; [exact R|]. split.
  - intros j Hj. assert (0 <= h * bpl) by nia. apply O; lia.
  - intros out R' y x Hy Hx. now apply (reconstructed_unique bpp bpl base h m).
Qed.
Print Assumptions C36_inverse_filter.

(* three rows of four bytes, two bytes per pixel: Paeth, Average, Up; one byte before and after *)
Definition raw36 : list Z := [7; 4; 10; 20; 250; 40; 3; 1; 2; 3; 4; 2; 5; 6; 7; 8; 9].
Example C36_ex_hyp : bytes raw36 /\ 1 + 3 * 5 <= Z.of_nat (length raw36).
Proof. split; [apply Forall_forall; intros z Hz; cbn in Hz; unfold is_byte; lia|vm_compute; discriminate]. Qed.
Example C36_ex : inverse_filter_impl 1 2 5 3 raw36 = Ok [7; 4; 10; 20; 4; 60; 3; 6; 12; 8; 40; 2; 11; 18; 15; 48; 9].
Proof. vm_compute. reflexivity. Qed.

(* ------------------------------------------------------------------ C37 *)

(* The size of the pixel data is not checked against overflow: the memory handed to the inverse filter is too small.
   A 65535 x 32769 image (both within the limits of the library) with two 8 bit samples per pixel: *)
Theorem C37_large_image_refuted : exists w h, w <= 65535 /\ h <= 65535 /\
  forall pad oom data scratch, Z.of_nat (length data) = 98303 -> get data 0 = 1 -> Z.of_nat (length scratch) < 32766 ->
    read_pixels false 8 2 w h pad oom data scratch = UB.
Proof. exists 65535, 32769. split; [lia|]. split; [lia|]. intros. now apply large_image_ub. Qed.
Print Assumptions C37_large_image_refuted.
Example C37_ex_large : exists data, Z.of_nat (length data) = 98303 /\ get data 0 = 1.
Proof. exists (1 :: repeat 0 (Z.to_nat 98302)). split; [|reflexivity]. cbn [length]. rewrite repeat_length. lia. Qed.

(* One byte of data is enough for an image of 2^29 pixels (four 8 bit samples each); the filter then runs over 4 GB. *)
Theorem C37_wide_image_refuted : exists w data, 0 < w < 2 ^ 31 /\ length data = 1%nat /\
  forall pad oom scratch, Z.of_nat (length scratch) < 2 ^ 31 -> read_pixels false 8 4 w 1 pad oom data scratch = UB.
Proof. exists 536870912, [1]. split; [lia|]. split; [reflexivity|]. intros. now apply wide_image_ub. Qed.
Print Assumptions C37_wide_image_refuted.

(* While the data is smaller than 4 GB and the width less than 2^28, filtering stays inside the data whatever the dimensions and the
   contents, and data of any other size is rejected: the layout computed by the code is that of the standard. *)
Theorem C37_filter_safe_partial progressive sd sc w h data scratch :
  sample_ok sd sc -> 0 < w < 2 ^ 28 -> 0 < h < 2 ^ 31 -> data_size progressive (sd * sc) w h < 2 ^ 32 -> bytes data -> bytes scratch ->
  let '(steps, size) := calculate_interlace_steps (if progressive then interlaceTableAdam7 else interlace_table_none) sd sc w h in
  size = data_size progressive (sd * sc) w h /\
  (Z.of_nat (length data) = size ->
   exists m, filter_steps (Z.max (sd * sc / 8) 1) steps (data ++ scratch) = Ok m /\ image_reconstructed progressive (sd * sc) w h data m) /\
  (Z.of_nat (length data) <> size -> forall pad oom, read_pixels progressive sd sc w h pad oom data scratch = Err BL_ERROR_INVALID_DATA).
Proof.
  intros HS Hw Hh H32 Bd Bs. change (2 ^ 28) with 268435456 in *. change (2 ^ 31) with 2147483648 in *. change (2 ^ 32) with 4294967296 in *.
  pose proof (filter_all progressive sd sc w h data scratch HS Hw Hh H32 Bd Bs) as FA. pose proof (sample_depth_pos _ _ HS) as HD. unfold read_pixels.
  assert (SZ : snd (calculate_interlace_steps (if progressive then interlaceTableAdam7 else interlace_table_none) sd sc w h) = data_size progressive (sd * sc) w h).
  { destruct progressive; [destruct (steps_adam7 sd sc w h HS Hw Hh H32) as (? & -> & _)|rewrite (steps_none sd sc w h HS Hw Hh H32)]; reflexivity. }
  destruct (calculate_interlace_steps _ sd sc w h) as (steps, size). cbn [snd] in SZ. subst size. split; [reflexivity|]. split.
  - intros E. destruct (FA E) as (_ & _ & m & Em & _ & _ & R). exists m. split; [exact Em|]. apply (image_reconstructed_raw _ _ _ _ _ scratch); try assumption; try lia. unfold len. lia.
  - intros N pad oom. destruct (_ =? 0); [reflexivity|]. replace (Z.of_nat (length data) =? _) with false by lia. reflexivity.
Qed.
Print Assumptions C37_filter_safe_partial.
Example C37_ex : sample_ok 8 4 /\ data_size false (8 * 4) 3 2 = 26 /\ data_size true (8 * 4) 3 2 = 28.
Proof. split; [unfold sample_ok; lia|]. split; reflexivity. Qed.

(* ------------------------------------------------------------------ C38 *)

(* Interlaced images with 2 bits per pixel. *)
Theorem C38_2bpp_refuted : exists w h data scratch log, Z.of_nat (length data) = data_size true 2 w h /\ bytes data /\
  read_pixels true 2 1 w h 0 false data scratch = Ok log /\ ~ pixels_ok true 2 w h data log.
Proof.
  destruct d2_wrong as (log & E & N). exists 2, 3, d2, (repeat 0 16), log. split; [reflexivity|]. split; [|now split].
  apply Forall_forall; intros z Hz; cbn in Hz; unfold is_byte; lia.
Qed.
Print Assumptions C38_2bpp_refuted.

(* Interlaced images with 4 bits per pixel, width 5 modulo 8. *)
Theorem C38_4bpp_refuted : exists w h data scratch log, Z.of_nat (length data) = data_size true 4 w h /\ bytes data /\
  read_pixels true 4 1 w h 0 false data scratch = Ok log /\ ~ pixels_ok true 4 w h data log.
Proof.
  destruct d4_wrong as (log & E & N). exists 5, 7, d4, (repeat 0 16), log. split; [reflexivity|]. split; [|now split].
  apply Forall_forall; intros z Hz; cbn in Hz; unfold is_byte; lia.
Qed.
Print Assumptions C38_4bpp_refuted.

(* Which interlaced images are decoded correctly: all except some with 2 or 4 bits per pixel. *)
Definition interlace_sound (depth w h : Z) : Prop :=
  depth = 1 \/ 8 <= depth \/ h <= 2 \/ (depth = 4 /\ (w mod 8 <> 5 \/ h <= 4)) \/
  (depth = 2 /\ w mod 8 <= 1 /\ (w mod 16 <= 2 \/ h <= 4)).

Theorem C38_decode_partial progressive sd sc w h pad oom data scratch :
  sample_ok sd sc -> 0 < w < 2 ^ 28 -> 0 < h < 2 ^ 31 -> data_size progressive (sd * sc) w h < 2 ^ 32 ->
  bytes data -> bytes scratch -> 0 <= pad <= 15 -> (progressive = true -> interlace_sound (sd * sc) w h) ->
  match read_pixels progressive sd sc w h pad oom data scratch with
  | Ok log => Z.of_nat (length data) = data_size progressive (sd * sc) w h /\ w <= 65535 /\ h <= 65535 /\ pixels_ok progressive (sd * sc) w h data log
  | Err e => (e = BL_ERROR_INVALID_DATA /\ Z.of_nat (length data) <> data_size progressive (sd * sc) w h) \/
             (e = BL_ERROR_IMAGE_TOO_LARGE /\ (65535 < w \/ 65535 < h)) \/
             (e = BL_ERROR_OUT_OF_MEMORY /\ oom = true /\ progressive = true)
  | _ => False
  end.
Proof.
  intros HS Hw Hh H32 Bd Bs Hp IS. change (2 ^ 28) with 268435456 in *. change (2 ^ 31) with 2147483648 in *. change (2 ^ 32) with 4294967296 in *.
  pose proof (read_pixels_ok progressive sd sc w h pad oom data scratch HS Hw Hh H32 Bd Bs Hp) as T.
  assert (G : progressive = true -> forall r, 0 <= r < (h + 1) / 2 -> good_row (sd * sc) w (r mod 4)).
  { intros P r Hr. specialize (IS P). pose proof (sample_depth_cases _ _ HS) as C. cbv zeta in C. unfold interlace_sound, good_row, Png_Proofs6.good2, Png_Proofs6.good13 in *. 
    set (D := sd * sc) in *. clearbody D. clear - IS Hr C. assert (C' : D = 1 \/ D = 2 \/ D = 4 \/ 8 <= D) by (destruct C as [->|[->|[->|(N & ? & ->)]]]; lia). clear C.
    assert (M : r mod 4 = 0 \/ r mod 4 = 1 \/ r mod 4 = 2 \/ r mod 4 = 3) by lia. lia. }
  specialize (T G). unfold len in T. destruct (read_pixels _ _ _ _ _ _ _ _ _); try exact T.
  destruct T as [T|[(-> & _ & T)|T]]; [left; exact T|right; left; split; [reflexivity|exact T]|right; right; exact T].
Qed.
Print Assumptions C38_decode_partial.

(* The pixels of the image are determined by the data. *)
Theorem C38_image_unique progressive depth w h data m1 m2 x y : 1 <= depth -> 0 <= x < w -> 0 <= y < h ->
  image_reconstructed progressive depth w h data m1 -> image_reconstructed progressive depth w h data m2 ->
  image_pixel progressive depth w h m1 x y = image_pixel progressive depth w h m2 x y.
Proof. apply image_pixel_unique. Qed.
Print Assumptions C38_image_unique.

(* A 3 x 3 image with 1 bit per pixel; the last pass uses the filter Sub, the second row of the pass before it the filter Up. *)
Definition data38 : list Z := [0; 128; 0; 128; 0; 192; 0; 128; 2; 128; 1; 160].
Example C38_ex_hyp : data_size true 1 3 3 = Z.of_nat (length data38) /\ interlace_sound 1 3 3 /\ bytes data38.
Proof. split; [reflexivity|]. split; [left; reflexivity|]. apply Forall_forall; intros z Hz; cbn in Hz; unfold is_byte; lia. Qed.
Example C38_ex : read_pixels true 1 1 3 3 5 false data38 [0; 0; 0] = Ok [(1, [160]); (0, [224]); (2, [160])].
Proof. vm_compute. reflexivity. Qed.
