(* The reconstruction is unique; what fails. *)
From Verif Require Import Base Bits IntOps_Model Algorithm_Model Algorithm_Proofs Png_Model Png_Spec Png_Proofs Png_Proofs2 Png_Proofs4 Png_Proofs7 Png_Proofs9 Png_Proofs10 Png_Proofs11.
From Coq Require Import ZifyBool Permutation.

Lemma reconstructed_unique bpp bpl base h raw o1 o2 : 1 <= bpp -> reconstructed bpp bpl base h raw o1 -> reconstructed bpp bpl base h raw o2 ->
  forall y x, 0 <= y < h -> 0 <= x < bpl - 1 -> get o1 (base + y * bpl + 1 + x) = get o2 (base + y * bpl + 1 + x).
Proof.
  intros Hb R1 R2 y0 x0 Hy0. revert x0. assert (Y0 : 0 <= y0) by lia. revert Hy0. pattern y0. apply Zlt_0_ind; [|exact Y0]. clear y0 Y0.
  intros y IHy Hy0 Hy x0 Hx0. assert (X0 : 0 <= x0) by lia. revert Hx0. pattern x0. apply Zlt_0_ind; [|exact X0]. clear x0 X0.
  intros x IHx Hx0 Hx.
  assert (A : forall y' x', x' < bpl - 1 -> y' < y \/ (y' = y /\ x' < x) -> (if (y' <? 0) || (x' <? 0) then 0 else get o1 (base + y' * bpl + 1 + x')) =
                                (if (y' <? 0) || (x' <? 0) then 0 else get o2 (base + y' * bpl + 1 + x'))).
  { intros y' x' B [C|(-> & C)]; destruct (Z.ltb_spec y' 0) as [?|?] || idtac; destruct (Z.ltb_spec x' 0); rewrite ?orb_true_r; try reflexivity.
    - apply IHy; lia.
    - replace (y <? 0) with false by lia. cbn [orb]. apply IHx; lia. }
  destruct (R1 y x Hy Hx) as (_ & E1). destruct (R2 y x Hy Hx) as (_ & E2). cbv zeta in E1, E2.
  replace ((y <? 0) || (x <? 0)) with false in E1, E2 by lia. rewrite E1, E2. rewrite !A by lia. reflexivity.
Qed.

Lemma image_pixel_unique prog D w h raw m1 m2 x y : 1 <= D -> 0 <= x < w -> 0 <= y < h ->
  image_reconstructed prog D w h raw m1 -> image_reconstructed prog D w h raw m2 -> image_pixel prog D w h m1 x y = image_pixel prog D w h m2 x y.
Proof.
  intros HD Hx Hy R1 R2. unfold image_reconstructed, image_pixel in *. destruct prog.
  - destruct (pass_pos x y w h Hx Hy) as (Hp & W & H). set (p := adam7 x y) in *. clearbody p. apply pixel_ext. intros j Hj.
    specialize (R1 p Hp). specialize (R2 p Hp). rewrite (pass_height_eq p h), (pass_width_eq p w) in R1, R2 by lia. rewrite (pass_height_eq p y), (pass_width_eq p w), (pass_width_eq p x) by lia. specialize (R1 ltac:(lia)). specialize (R2 ltac:(lia)).
    assert (K : 0 <= pw p x * D /\ pw p x * D + D <= pw p w * D) by (clear - W HD; nia).
    rewrite <- Z.add_assoc, !bit_at by lia. f_equal. apply (reconstructed_unique (Z.max (D / 8) 1) _ _ _ _ m1 m2 ltac:(lia) R1 R2); [lia|]. unfold row_bytes_spec. lia.
  - apply pixel_ext. intros j Hj. assert (K : 0 <= x * D /\ x * D + D <= w * D) by (clear - Hx HD; nia).
    rewrite <- Z.add_assoc, !bit_at by lia. f_equal. replace (y * row_bytes_spec D w + 1 + (x * D + j) / 8) with (0 + y * row_bytes_spec D w + 1 + (x * D + j) / 8) by lia.
    apply (reconstructed_unique (Z.max (D / 8) 1) _ _ _ _ m1 m2 ltac:(lia) R1 R2); [lia|]. unfold row_bytes_spec. lia.
Qed.

(* ------------------------------------------------------------------ running past the memory *)

Lemma sub_loop_ub off : 0 <= off -> forall fuel i p u m, 0 <= p -> 0 < i -> len m - p - off < i -> len m - p - off < Z.of_nat fuel -> (fuel <> 0)%nat ->
  filter_loop fuel off (g_sum off g_left) i p u m = UB.
Proof.
  intros Ho. induction fuel as [|fuel IH]; intros i p u m Hp Hi Hn Hf Hf0; [congruence|]. cbn [filter_loop]. replace (i =? 0) with false by lia.
  unfold g_sum at 1, g_left at 1. destruct (Z_lt_le_dec (p + off) (len m)) as [L|G].
  - rewrite !rd_get by lia. cbn [bind]. rewrite wr_set by lia. cbn [bind]. apply IH; rewrite ?set_len; lia.
  - rewrite rd_ub by lia. reflexivity.
Qed.

Lemma inverse_filter_sub_ub bpp bpl h m : 0 < len m -> get m 0 = 1 -> 0 <= bpp -> len m <= w32 (w32 (bpl - 1) - bpp) -> inverse_filter_impl 0 bpp bpl h m = UB.
Proof.
  intros H0 G Hb L. unfold inverse_filter_impl. rewrite rd_get by lia. rewrite G. cbn [bind]. change (simplify_filter_of_first_row (if kFilterTypeCount <=? 1 then kFilterTypeNone else 1)) with 1.
  cbn [filter_rows]. unfold filter_row. cbn [Z.eqb kFilterTypeSub Pos.eqb]. unfold len in *. rewrite sub_loop_ub; [reflexivity|unfold len; lia ..].
Qed.

(* RGBA, 8 bits, one row of 2^29 pixels: the size wraps to one byte. *)
Lemma wide_image_ub pad oom scratch : len scratch < 2147483648 -> read_pixels false 8 4 536870912 1 pad oom [1] scratch = UB.
Proof.
  intros L. unfold read_pixels.
  cbv iota. change (calculate_interlace_steps interlace_table_none 8 4 536870912 1) with
    ([{| s_used := true; s_width := 536870912; s_height := 1; s_bpl := 1; s_offset := 0; s_size := 1 |}], 1).
  cbv beta zeta iota. change (1 =? 0) with false. change (negb (Z.of_nat (length [1]) =? 1)) with false. cbv iota.
  cbn [filter_steps s_used s_offset s_bpl s_height]. change (Z.max (8 * 4 / 8) 1) with 4. rewrite inverse_filter_sub_ub; [reflexivity|rewrite len_app; unfold len; cbn [length]; lia|reflexivity|lia|].
  rewrite len_app. change (w32 (w32 (1 - 1) - 4)) with 4294967292. unfold len in *. cbn [length]. lia.
Qed.

(* Grey and alpha, 8 bits, 65535 x 32769: the size of the image wraps to 98303 bytes, less than one row. *)
Lemma large_image_ub pad oom data scratch : len data = 98303 -> get data 0 = 1 -> len scratch < 32766 ->
  read_pixels false 8 2 65535 32769 pad oom data scratch = UB.
Proof.
  intros Ld G L. unfold read_pixels.
  cbv iota. change (calculate_interlace_steps interlace_table_none 8 2 65535 32769) with
    ([{| s_used := true; s_width := 65535; s_height := 32769; s_bpl := 131071; s_offset := 0; s_size := 98303 |}], 98303).
  cbv beta zeta iota. fold (len data). rewrite Ld. change (98303 =? 98303) with true. change (98303 =? 0) with false. cbn [negb]. cbv iota.
  cbn [filter_steps s_used s_offset s_bpl s_height]. change (Z.max (8 * 2 / 8) 1) with 2. rewrite inverse_filter_sub_ub; [reflexivity|rewrite len_app; unfold len at 2; lia| |lia|].
  - rewrite get_app by lia. assumption.
  - rewrite len_app. change (w32 (w32 (131071 - 1) - 2)) with 131068. lia.
Qed.

(* ------------------------------------------------------------------ wrong pixels *)

Lemma wrong_pixel sd sc w h pad data scratch log x y row m :
  sample_ok sd sc -> 0 <= x < w -> 0 <= y < h ->
  read_pixels true sd sc w h pad false data scratch = Ok log -> In (y, row) log ->
  image_reconstructed true (sd * sc) w h data m -> pixel (sd * sc) row 0 x <> image_pixel true (sd * sc) w h m x y ->
  ~ pixels_ok true (sd * sc) w h data log.
Proof.
  intros HS Hx Hy _ Hin R N (_ & m2 & R2 & P). apply N. rewrite (P y row Hin x Hx). pose proof (sample_depth_pos _ _ HS).
  apply (image_pixel_unique _ _ _ _ data); try assumption; lia.
Qed.

Definition d2 : list Z := [0; 128; 0; 192; 0; 64; 0; 128; 0; 16].
Definition d4 : list Z := repeat 0 22 ++ [0; 18] ++ repeat 0 12.

Lemma filter_reconstructed sd sc w h data scratch m :
  sample_ok sd sc -> 0 < w < 268435456 -> 0 < h < 2147483648 -> data_size true (sd * sc) w h < 4294967296 ->
  bytes data -> bytes scratch -> len data = data_size true (sd * sc) w h ->
  filter_steps (Z.max (sd * sc / 8) 1) (fst (calculate_interlace_steps interlaceTableAdam7 sd sc w h)) (data ++ scratch) = Ok m ->
  image_reconstructed true (sd * sc) w h data m.
Proof.
  intros HS Hw Hh H32 Bd Bs L E. pose proof (filter_all true sd sc w h data scratch HS Hw Hh H32 Bd Bs L) as FA. pose proof (sample_depth_pos _ _ HS) as HD. cbv iota in FA.
  destruct (calculate_interlace_steps interlaceTableAdam7 sd sc w h) as (steps, size). cbn [fst] in E. destruct FA as (_ & _ & m' & E' & _ & _ & R).
  rewrite E' in E. injection E as <-. apply (image_reconstructed_raw _ _ _ _ _ scratch); try assumption; lia.
Qed.

Lemma d2_wrong : exists log, read_pixels true 2 1 2 3 0 false d2 (repeat 0 16) = Ok log /\ ~ pixels_ok true 2 2 3 d2 log.
Proof.
  exists [(1, [16]); (0, [144]); (2, [200])]. split; [vm_compute; reflexivity|].
  apply (wrong_pixel 2 1 2 3 0 d2 (repeat 0 16) _ 1 2 [200] (d2 ++ repeat 0 16)).
  - unfold sample_ok. lia.
  - lia.
  - lia.
  - vm_compute. reflexivity.
  - cbn. tauto.
  - apply (filter_reconstructed 2 1 2 3 d2 (repeat 0 16)); [unfold sample_ok; lia|lia|lia|vm_compute; reflexivity| | |vm_compute; reflexivity|vm_compute; reflexivity].
    + apply Forall_forall; intros z Hz; cbn in Hz; unfold is_byte; lia.
    + apply Forall_forall; intros z Hz; cbn in Hz; unfold is_byte; lia.
  - vm_compute. discriminate.
Qed.

Lemma d4_wrong : exists log, read_pixels true 4 1 5 7 0 false d4 (repeat 0 16) = Ok log /\ ~ pixels_ok true 4 5 7 d4 log.
Proof.
  exists [(1, [0; 0; 0]); (3, [0; 0; 0]); (5, [0; 0; 0]); (0, [0; 0; 0]); (2, [0; 0; 0]); (4, [0; 0; 0]); (6, [0; 0; 0])]. split; [vm_compute; reflexivity|].
  apply (wrong_pixel 4 1 5 7 0 d4 (repeat 0 16) _ 1 6 [0; 0; 0] (d4 ++ repeat 0 16)).
  - unfold sample_ok. lia.
  - lia.
  - lia.
  - vm_compute. reflexivity.
  - cbn. tauto.
  - apply (filter_reconstructed 4 1 5 7 d4 (repeat 0 16)); [unfold sample_ok; lia|lia|lia|vm_compute; reflexivity| | |vm_compute; reflexivity|vm_compute; reflexivity].
    + apply Forall_forall; intros z Hz; cbn in Hz; unfold is_byte; lia.
    + apply Forall_forall; intros z Hz; cbn in Hz; unfold is_byte; lia.
  - vm_compute. discriminate.
Qed.
