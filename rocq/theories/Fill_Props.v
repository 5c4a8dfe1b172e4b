(* C64, C65: fillers of the reference pipelines. *)
From Verif Require Import Base Algorithm_Model PixelOps_Spec PixelOps_Proofs PixGen_Spec PixGen_Proofs2 PixGen_Props Fill_Model Fill_Spec Fill_Proofs Fill_Proofs2 Fill_Proofs3 Fill_Proofs4 Fill_Proofs5.
Ltac Zify.zify_post_hook ::= idtac.

(* In all theorems: comp x y d m composes the source pixel at (x, y) with the destination pixel d under mask m; the opaque variant, used only
   when the operator asks for it, has to agree with mask 255. *)

(* C64: FillBoxA composes every pixel of the box once, with the source pixel of its position, and touches nothing else *)
Theorem C64_fill_box {P} (comp : Z -> Z -> P -> Z -> P) comp_opaque (optimize : bool) m stride width x0 y0 x1 y1 msk :
  (optimize = true -> forall x y d, comp x y d 255 = comp_opaque x y d) ->
  0 <= x0 < x1 -> x1 <= width < 2 ^ 31 -> 0 < y1 - y0 < 2 ^ 32 -> image m stride width y0 y1 ->
  exists m', fill_box_a comp comp_opaque optimize m stride x0 y0 x1 y1 msk = Ok m' /\
    rendered comp m m' stride width y0 y1 (fun x _ => if (x0 <=? x) && (x <? x1) then Some msk else None).
Proof. intros OP. exact (fill_box_a_ok comp comp_opaque optimize OP m stride width x0 y0 x1 y1 msk). Qed.
Print Assumptions C64_fill_box.

(* C64: FillMask draws every pixel with the mask that the commands give to it, as long as the spans of a row follow each other without gap *)
Theorem C64_fill_mask_partial {P} (comp : Z -> Z -> P -> Z -> P) comp_opaque (optimize : bool) m stride width y0 y1 alpha md prog :
  (optimize = true -> forall x y d, comp x y d 255 = comp_opaque x y d) ->
  Z.of_nat (length md) < 2 ^ 64 -> Forall (fun b => 0 <= b <= 255) md -> 0 <= alpha <= 255 -> 0 <= width < 2 ^ 28 ->
  prog_ok contiguous md width (y1 - y0) prog -> 0 < y1 - y0 < 2 ^ 32 -> y1 - y0 <= rows prog -> image m stride width y0 y1 ->
  exists m', fill_mask comp comp_opaque optimize m stride y0 y1 alpha md (encode prog) = Ok m' /\
    rendered comp m m' stride width y0 y1 (fun x y => prog_mask md alpha prog (y - y0) x).
Proof. intros OP LEN MD AL WD. exact (fill_mask_ok comp comp_opaque optimize OP md alpha width LEN MD AL WD stride y0 y1 m prog). Qed.
Print Assumptions C64_fill_mask_partial.

(* C64: the same is false for ordered spans with a gap between them: the fetcher skips the gap, the destination pointer does not
   (fillgeneric_p.h 127-131) *)
Theorem C64_fill_mask_refuted : exists (comp : Z -> Z -> Z -> Z -> Z) m stride width y0 y1 alpha md prog,
  (forall x y d, comp x y d 0 = d) /\ Forall (fun b => 0 <= b <= 255) md /\ 0 <= alpha <= 255 /\ 0 <= width < 2 ^ 28 /\
  prog_ok ordered md width (y1 - y0) prog /\ 0 < y1 - y0 < 2 ^ 32 /\ y1 - y0 <= rows prog /\ image m stride width y0 y1 /\
  forall m', fill_mask comp (fun x y d => comp x y d 255) true m stride y0 y1 alpha md (encode prog) = Ok m' ->
    ~ rendered comp m m' stride width y0 y1 (fun x y => prog_mask md alpha prog (y - y0) x).
Proof.
  exists (fun x y d m => if m =? 0 then d else 100 + x), (fun a => if (0 <=? a) && (a <? 4) then Some 0 else None), 4, 4, 0, 1, 255, [],
    [([Span 0 1 (Const 255); Span 2 3 (Const 255)], 1)].
  split; [reflexivity|]. split; [constructor|]. split; [lia|]. split; [split; [lia|reflexivity]|]. split.
  { cbn [prog_ok]. split; [lia|]. split; [split; [cbn; lia|exact I]|]. split; [|exact I]. repeat constructor; cbn; lia. }
  split; [lia|]. split; [cbn; lia|]. split.
  { split; [lia|]. intros x y X Y. replace y with 0 by lia. cbn [Z.mul Z.add]. destruct (Z.leb_spec 0 x), (Z.ltb_spec x 4); try lia; discriminate. }
  intros m' E [R _]. specialize (R 2 0 ltac:(lia) ltac:(lia)). vm_compute in E. injection E as <-. vm_compute in R. discriminate R.
Qed.
Print Assumptions C64_fill_mask_refuted.

(* C64: filling a box through a mask image: every row of the box takes the next row of the mask, scaled by alpha *)
Theorem C64_masked_box {P} (comp : Z -> Z -> P -> Z -> P) comp_opaque (optimize : bool) m stride width x0 y0 x1 y1 alpha md p mask_stride :
  (optimize = true -> forall x y d, comp x y d 255 = comp_opaque x y d) ->
  Z.of_nat (length md) < 2 ^ 64 -> Forall (fun b => 0 <= b <= 255) md -> 0 <= alpha <= 255 -> 0 <= width < 2 ^ 28 ->
  0 <= x0 < x1 -> x1 <= width -> 0 < y1 - y0 < 2 ^ 32 - 1 -> image m stride width y0 y1 ->
  (forall k, 0 <= k < y1 - y0 -> 0 <= p + k * mask_stride /\ p + k * mask_stride + (x1 - x0) <= Z.of_nat (length md)) ->
  exists m', fill_mask comp comp_opaque optimize m stride y0 y1 alpha md (masked_a_cmds alpha x0 x1 p mask_stride) = Ok m' /\
    rendered comp m m' stride width y0 y1 (fun x y => if (x0 <=? x) && (x <? x1)
      then Some (round_div (byte_at md (p + (y - y0) * mask_stride + (x - x0)) * alpha) 255) else None).
Proof.
  intros OP LEN MD AL WD X XW Y IM RD.
  assert (B : 2 ^ 28 < 2 ^ 29) by reflexivity. assert (B32 : 2 ^ 32 = 4294967296) by reflexivity.
  set (ga := 255 <=? alpha).
  assert (E : masked_a_cmds alpha x0 x1 p mask_stride = encode [([Span x0 x1 (Bytes ga p mask_stride)], 0xFFFFFFFF)]).
  { unfold masked_a_cmds. fold ga. destruct ga; [rewrite vmask_ok by lia|rewrite vmask2_ok by lia]; reflexivity. }
  rewrite E.
  destruct (fill_mask_ok comp comp_opaque optimize OP md alpha width LEN MD AL WD stride y0 y1 m [([Span x0 x1 (Bytes ga p mask_stride)], 0xFFFFFFFF)]) as (m' & F & R).
  - cbn [prog_ok]. split; [lia|]. split; [exact I|]. split; [|exact I]. constructor; [|constructor]. split; [cbn; lia|]. split; [cbn; lia|].
    cbn [s_src s_from s_to]. intros k K. apply RD. lia.
  - lia.
  - cbn. lia.
  - exact IM.
  - exists m'. split; [exact F|]. eapply rendered_ext; [|exact R]. intros x y XX YY. cbv beta. cbn [prog_mask row_mask s_from s_to].
    destruct (Z.ltb_spec (y - y0) 4294967295); [|lia]. destruct ((x0 <=? x) && (x <? x1)); [|reflexivity].
    unfold span_mask. cbn [s_src s_from]. unfold ga. destruct (Z.leb_spec 255 alpha); [|reflexivity].
    replace alpha with 255 by lia. rewrite round_mul. reflexivity.
Qed.
Print Assumptions C64_masked_box.

(* C65: a box with 24.8 fixed point coordinates is drawn with the exact coverage of every pixel, rounded down; either by the mask commands
   or, when the function says that there is nothing to draw, because no pixel has a mask *)
Theorem C65_box_coverage {P} (comp : Z -> Z -> P -> Z -> P) comp_opaque (optimize : bool) m stride width Y0 Y1 alpha x0 y0 x1 y1 :
  (optimize = true -> forall x y d, comp x y d 255 = comp_opaque x y d) -> (forall x y d, comp x y d 0 = d) ->
  0 <= alpha <= 255 -> 0 <= x0 < x1 -> x1 <= 256 * width -> width < 2 ^ 23 -> 0 <= y0 < y1 -> y1 < 2 ^ 31 - 256 ->
  256 * Y0 <= y0 -> y1 <= 256 * Y1 -> image m stride width Y0 Y1 ->
  let u := init_box_u alpha x0 y0 x1 y1 in
  exists m', (if u_draw u then fill_mask comp comp_opaque optimize m stride (u_y0 u) (u_y1 u) alpha (u_data u) (u_cmds u) else Ok m) = Ok m' /\
    rendered comp m m' stride width Y0 Y1 (fun x y => Some (box_mask alpha x0 y0 x1 y1 x y)).
Proof.
  intros OP O0 AL X XW WD Y YB YL YH IM. cbv zeta.
  destruct (box_u_ok comp comp_opaque optimize OP O0 m stride width Y0 Y1 alpha x0 y0 x1 y1 AL X XW WD Y YB YL YH IM) as [A B].
  destruct (u_draw (init_box_u alpha x0 y0 x1 y1)); [apply A; reflexivity|]. exists m. split; [reflexivity|]. apply B. reflexivity.
Qed.
Print Assumptions C65_box_coverage.

(* C65: the mask is the area: a pixel that is completely inside of the box gets alpha, one outside gets nothing, and the masks never exceed alpha *)
Theorem C65_box_mask_range alpha x0 y0 x1 y1 x y : 0 <= alpha <= 255 ->
  0 <= box_mask alpha x0 y0 x1 y1 x y <= alpha /\
  (x0 <= 256 * x -> 256 * (x + 1) <= x1 -> y0 <= 256 * y -> 256 * (y + 1) <= y1 -> box_mask alpha x0 y0 x1 y1 x y = alpha) /\
  (x1 <= 256 * x \/ 256 * (x + 1) <= x0 \/ y1 <= 256 * y \/ 256 * (y + 1) <= y0 -> box_mask alpha x0 y0 x1 y1 x y = 0).
Proof.
  intros AL. unfold box_mask. assert (OR : forall a b i, 0 <= overlap a b i <= 256) by (intros; unfold overlap; lia).
  pose proof (mulb _ _ 256 256 (OR x0 x1 x) (OR y0 y1 y)) as M. split; [|split].
  - pose proof (mulb _ alpha 65536 alpha M ltac:(lia)) as M'. set (q := overlap x0 x1 x * overlap y0 y1 y * alpha) in *. clearbody q. split; [apply Z.div_pos; lia|].
    destruct M' as [M0 M']. apply (Z.div_le_mono _ _ 65536) in M'; [|lia]. rewrite Z.mul_comm, Z.div_mul in M' by lia. exact M'.
  - intros A B C D. replace (overlap x0 x1 x) with 256 by (unfold overlap; lia). replace (overlap y0 y1 y) with 256 by (unfold overlap; lia).
    change (256 * 256) with 65536. rewrite Z.mul_comm, Z.div_mul by lia. reflexivity.
  - intros O. assert (Z0 : overlap x0 x1 x = 0 \/ overlap y0 y1 y = 0) by (unfold overlap; lia).
    destruct Z0 as [-> | ->]; rewrite ?Z.mul_0_r, ?Z.mul_0_l; reflexivity.
Qed.
Print Assumptions C65_box_mask_range.

(* C65: the operators of the reference pipelines (C62) meet the two conditions: drawing a box with them *)
Definition pixel32 : Type := { d : Z | (0 <=? d) && (d <? 2 ^ 32) = true }.
Lemma to_pixel_ok v : (0 <=? v mod 2 ^ 32) && (v mod 2 ^ 32 <? 2 ^ 32) = true.
Proof. pose proof (Z.mod_pos_bound v (2 ^ 32) ltac:(lia)). apply andb_true_iff. split; [apply Z.leb_le|apply Z.ltb_lt]; lia. Qed.
Definition to_pixel (v : Z) : pixel32 := exist _ (v mod 2 ^ 32) (to_pixel_ok v).
Definition compose (o : pixop) (src : Z -> Z -> Z) (x y : Z) (d : pixel32) (m : Z) : pixel32 := to_pixel (impl64 o (proj1_sig d) (src x y) (Some m)).
Definition compose_opaque (o : pixop) (src : Z -> Z -> Z) (x y : Z) (d : pixel32) : pixel32 := to_pixel (impl64 o (proj1_sig d) (src x y) None).
Lemma pixel_eq (d : pixel32) : to_pixel (proj1_sig d) = d.
Proof.
  destruct d as [v H]. unfold to_pixel. cbn [proj1_sig]. pose proof (to_pixel_ok v) as T. apply andb_true_iff in H as H'. destruct H' as [A B]. apply Z.leb_le in A. apply Z.ltb_lt in B.
  generalize (to_pixel_ok v). rewrite Z.mod_small by lia. intros H'. f_equal. apply Eqdep_dec.UIP_dec. apply Bool.bool_dec.
Qed.
Lemma pixel_parts (d : pixel32) : exists a r g b, u8 a /\ u8 r /\ u8 g /\ u8 b /\ proj1_sig d = pack32 a r g b.
Proof.
  destruct d as [v H]. cbn [proj1_sig]. apply andb_true_iff in H. destruct H as [A B]. apply Z.leb_le in A. apply Z.ltb_lt in B.
  exists (v / 2 ^ 24), (v / 2 ^ 16 mod 256), (v / 2 ^ 8 mod 256), (v mod 256). unfold u8, pack32.
  change (2 ^ 32) with 4294967296 in B. change (2 ^ 24) with 16777216. change (2 ^ 16) with 65536. change (2 ^ 8) with 256.
  pose proof (Z.mod_pos_bound v 256 ltac:(lia)). pose proof (Z.mod_pos_bound (v / 256) 256 ltac:(lia)). pose proof (Z.mod_pos_bound (v / 65536) 256 ltac:(lia)).
  pose proof (Z.div_mod v 256 ltac:(lia)). pose proof (Z.div_mod (v / 256) 256 ltac:(lia)). pose proof (Z.div_mod (v / 65536) 256 ltac:(lia)).
  assert (E1 : v / 65536 = v / 256 / 256) by (rewrite Z.div_div by lia; reflexivity).
  assert (E2 : v / 16777216 = v / 65536 / 256) by (rewrite Z.div_div by lia; reflexivity).
  rewrite E2. assert (0 <= v / 65536 / 256 < 256) by (rewrite <- E2; split; [apply Z.div_pos; lia|apply Z.div_lt_upper_bound; lia]). lia.
Qed.
Theorem C65_operators o src : (forall x y, exists a r g b, u8 a /\ 0 <= r <= a /\ 0 <= g <= a /\ 0 <= b <= a /\ src x y = pack32 a r g b) ->
  (forall x y d, compose o src x y d 255 = compose_opaque o src x y d) /\ (forall x y d, compose o src x y d 0 = d).
Proof.
  intros S. split; intros x y d; unfold compose, compose_opaque; destruct (S x y) as (sa & sr & sg & sb & SA & SR & SG & SB & ->);
    destruct (pixel_parts d) as (a & r & g & b & A & R & G & B & E); rewrite E.
  all: destruct (C63_mask_ends o a r g b sa sr sg sb A R G B SA ltac:(unfold u8 in *; lia) ltac:(unfold u8 in *; lia) ltac:(unfold u8 in *; lia) ltac:(lia)) as (E0 & _ & E255 & _).
  - rewrite E255. reflexivity.
  - rewrite E0, <- E. apply pixel_eq.
Qed.
Print Assumptions C65_operators.

(* examples *)
Definition ex_comp (x y d m : Z) : Z := if m =? 0 then d else 1000 * (10 * y + x) + m.
Definition ex_mem (w h : Z) : @mem Z := fun a => if (0 <=? a) && (a <? w * h) then Some 0 else None.
Lemma ex_image w h : 0 <= w -> 0 <= h -> image (ex_mem w h) w w 0 h.
Proof.
  intros W H. split; [lia|]. intros x y X Y. unfold ex_mem. destruct (Z.leb_spec 0 (y * w + x)), (Z.ltb_spec (y * w + x) (w * h)); try discriminate; exfalso; nia.
Qed.
Definition row_of (r : outcome mem) (a n : nat) : list Z :=
  match r with Ok m => map (fun i => match m (Z.of_nat i) with Some v => v | None => -1 end) (seq a n) | _ => [] end.
Example C64_ex_box : row_of (fill_box_a ex_comp (fun x y d => ex_comp x y d 255) true (ex_mem 4 3) 4 1 1 3 3 255) 0 13 =
  [0; 0; 0; 0; 0; 11255; 12255; 0; 0; 21255; 22255; 0; -1].
Proof. reflexivity. Qed.
(* two groups: one row of a constant and bytes, then two rows of bytes with distance 2, scaled by 128 *)
Definition ex_prog := [([Span 0 1 (Const 7); Span 1 4 (Bytes true 2 0)], 1); ([Span 1 3 (Bytes false 0 2)], 2)].
Example C64_ex_prog_ok : prog_ok contiguous [10; 20; 30; 40; 50] 4 3 ex_prog.
Proof.
  cbn [prog_ok ex_prog]. split; [lia|]. split; [split; [reflexivity|exact I]|]. split; [|split; [lia|split; [exact I|split; [|exact I]]]].
  - constructor; [|constructor; [|constructor]]; (split; [cbn; lia|split; [cbn; lia|]]); cbn [s_src s_from s_to length]; [lia|intros k K; lia].
  - constructor; [|constructor]. split; [cbn; lia|]. split; [cbn; lia|]. cbn [s_src s_from s_to length]. intros k K. lia.
Qed.
Example C64_ex_mask : row_of (fill_mask ex_comp (fun x y d => ex_comp x y d 255) true (ex_mem 4 3) 4 0 3 128 [10; 20; 30; 40; 50] (encode ex_prog)) 0 13 =
  [7; 1030; 2040; 3050; 0; 11005; 12010; 0; 0; 21015; 22020; 0; -1].
Proof. reflexivity. Qed.
Example C64_ex_masked : row_of (fill_mask ex_comp (fun x y d => ex_comp x y d 255) true (ex_mem 4 3) 4 1 3 255 [10; 20; 30; 40; 50] (masked_a_cmds 255 1 3 3 (-3))) 0 13 =
  [0; 0; 0; 0; 0; 11040; 12050; 0; 0; 21010; 22020; 0; -1].
Proof. reflexivity. Qed.
(* a box from (0.5, 0.25) to (2.75, 2) with alpha 255 *)
Example C65_ex : let u := init_box_u 255 128 64 704 512 in u_draw u = true /\
  row_of (fill_mask ex_comp (fun x y d => ex_comp x y d 255) true (ex_mem 4 3) 4 (u_y0 u) (u_y1 u) 255 (u_data u) (u_cmds u)) 0 13 =
  [95; 1191; 2143; 0; 10127; 11255; 12191; 0; 0; 0; 0; 0; -1].
Proof. split; reflexivity. Qed.
Example C65_ex_range : box_mask 255 128 64 704 512 2 0 = 143 /\ box_mask 200 128 64 704 512 1 1 = 200 /\ box_mask 255 128 64 704 512 3 1 = 0.
Proof. repeat split. Qed.
Example C65_ex_operator : proj1_sig (compose OpSrcOver (fun _ _ => 0x80402010) 0 0 (to_pixel 0xFF00FF00) 128) = 0xFF20CF08.
Proof. vm_compute. reflexivity. Qed.
