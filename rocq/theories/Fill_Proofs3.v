(* Boxes: FillBoxA and boxes with fractional coordinates. *)
From Verif Require Import Base Algorithm_Model PixelOps_Model PixelOps_Spec PixelOps_Proofs Fill_Model Fill_Spec Fill_Proofs Fill_Proofs2.
Ltac Zify.zify_post_hook ::= idtac.

Section Box.
Context {P : Type} (comp : Z -> Z -> P -> Z -> P) (comp_opaque : Z -> Z -> P -> P) (optimize : bool).
Context (OP : optimize = true -> forall x y d, comp x y d 255 = comp_opaque x y d).

Lemma box_loop_ok msk x0 x1 width stride : 0 <= x0 < x1 -> x1 <= width -> width <= Z.abs stride -> forall h s y,
  s_dst s = y * stride + x0 -> s_fy s = y -> image (s_mem s) stride width y (y + Z.of_nat h) ->
  exists s', box_loop h (fun s => cspan comp comp_opaque optimize s (x1 - x0) msk) x0 (stride - (x1 - x0)) s = Ok s' /\
    rendered comp (s_mem s) (s_mem s') stride width y (y + Z.of_nat h) (fun x _ => if (x0 <=? x) && (x <? x1) then Some msk else None).
Proof.
  intros X W ST. induction h as [|h IH]; intros s y D FY IM.
  - exists s. split; [reflexivity|]. split; [intros; lia|reflexivity].
  - destruct IM as [_ IM]. cbn [box_loop]. destruct (cspan_ok comp comp_opaque optimize OP (set_fx s x0) (x1 - x0) msk) as (s1 & E & (D1 & D2 & D3 & D4)).
    + lia.
    + intros o O. cbn [set_fx s_mem s_dst]. rewrite D. replace (y * stride + x0 + o) with (y * stride + (x0 + o)) by lia. apply IM; lia.
    + rewrite E. cbn [bind]. cbn [set_fx s_dst s_fx s_fy s_mem] in D1, D2, D3, D4.
      assert (R1 : rendered comp (s_mem s) (s_mem s1) stride width y (y + 1) (fun x _ => if (x0 <=? x) && (x <? x1) then Some msk else None)).
      { split.
        - intros x y' X' Y. replace y' with y by lia. rewrite D4. cbv zeta. rewrite D, FY. replace (y * stride + x - (y * stride + x0)) with (x - x0) by lia.
          replace (x0 + (x - x0)) with x by lia.
          destruct (Z.leb_spec 0 (x - x0)), (Z.ltb_spec (x - x0) (x1 - x0)), (Z.leb_spec x0 x), (Z.ltb_spec x x1); try lia; cbn [andb]; try reflexivity;
            destruct (s_mem s (y * stride + x)); reflexivity.
        - intros a N. rewrite D4. cbv zeta. rewrite D.
          destruct (Z.leb_spec 0 (a - (y * stride + x0))), (Z.ltb_spec (a - (y * stride + x0)) (x1 - x0)); try reflexivity.
          exfalso. apply (N (a - y * stride) y); lia. }
      destruct (IH (advance_y (set_dst s1 (s_dst s1 + (stride - (x1 - x0))))) (y + 1)) as (s2 & E2 & R2).
      * cbn [advance_y set_dst s_dst]. lia.
      * cbn [advance_y set_dst s_fy]. lia.
      * split; [lia|]. intros x y' X' Y'. cbn [advance_y set_dst s_mem]. destruct R1 as [_ R1]. rewrite R1; [apply IM; lia|].
        intros x' y'' X'' Y'' Q. destruct (addr_inj width _ _ _ _ _ ST X' X'' Q). lia.
      * exists s2. split; [exact E2|]. cbn [advance_y set_dst s_mem] in R2.
        eapply (rendered_split comp width); [|exact ST|exact R1|]; [lia|]. replace (y + Z.of_nat (S h)) with (y + 1 + Z.of_nat h) by lia. exact R2.
Qed.
Lemma fill_box_a_ok m stride width x0 y0 x1 y1 msk : 0 <= x0 < x1 -> x1 <= width < 2 ^ 31 -> 0 < y1 - y0 < 2 ^ 32 -> image m stride width y0 y1 ->
  exists m', fill_box_a comp comp_opaque optimize m stride x0 y0 x1 y1 msk = Ok m' /\
    rendered comp m m' stride width y0 y1 (fun x _ => if (x0 <=? x) && (x <? x1) then Some msk else None).
Proof.
  intros X W Y IM. unfold fill_box_a. assert (B : 2 ^ 31 < 2 ^ 32) by reflexivity. rewrite !w32_small by lia. cbv zeta.
  destruct (Z.eqb_spec (y1 - y0) 0); [lia|].
  destruct (box_loop_ok msk x0 x1 width stride X ltac:(lia) ltac:(destruct IM; lia) (Z.to_nat (y1 - y0)) (St m (y0 * stride + x0) x0 y0) y0) as (s' & E & R).
  - reflexivity.
  - reflexivity.
  - rewrite Z2Nat.id by lia. replace (y0 + (y1 - y0)) with y1 by lia. exact IM.
  - unfold cspan in E. rewrite E. cbn [bind]. exists (s_mem s'). split; [reflexivity|].
    cbn [s_mem] in R. rewrite Z2Nat.id in R by lia. replace (y0 + (y1 - y0)) with y1 in R by lia. exact R.
Qed.
End Box.

(* commands *)
Lemma type_and_x1_ok t x : 0 <= t < 8 -> 0 <= x < 2 ^ 29 -> type_and_x1 t x = x * 8 + t.
Proof.
  intros T X. unfold type_and_x1. rewrite Z.shiftl_mul_pow2 by lia. change (2 ^ 3) with 8. rewrite w32_small by lia.
  rewrite Z.lor_comm. rewrite <- Z.lxor_lor, <- Z.add_nocarry_lxor; [reflexivity| |].
  all: apply Z.bits_inj'; intros i I; rewrite Z.land_spec, Z.bits_0; change 8 with (2 ^ 3); rewrite <- Z.shiftl_mul_pow2, Z.shiftl_spec by lia.
  all: destruct (Z.lt_ge_cases i 3); [rewrite Z.testbit_neg_r by lia; reflexivity|].
  all: rewrite (Z.bits_above_log2 t) by (first [lia | destruct (Z.eq_dec t 0) as [->|]; [cbn; lia|assert (Z.log2 t < 3) by (apply Z.log2_lt_pow2; lia); lia]]);
    apply andb_false_r.
Qed.
Lemma cmask_ok x0 x1 m : 0 <= x1 < 2 ^ 29 -> init_cmask_a8 x0 x1 m = encode_span (Span x0 x1 (Const m)).
Proof. intros X. unfold init_cmask_a8. rewrite type_and_x1_ok by (unfold kCMask; lia). reflexivity. Qed.
Lemma vmask_ok x0 x1 p adv : 0 <= x1 < 2 ^ 29 -> init_vmask kVMaskA8WithGA x0 x1 p adv = encode_span (Span x0 x1 (Bytes true p adv)).
Proof. intros X. unfold init_vmask. rewrite type_and_x1_ok by (unfold kVMaskA8WithGA; lia). reflexivity. Qed.
Lemma vmask2_ok x0 x1 p adv : 0 <= x1 < 2 ^ 29 -> init_vmask kVMaskA8WithoutGA x0 x1 p adv = encode_span (Span x0 x1 (Bytes false p adv)).
Proof. intros X. unfold init_vmask. rewrite type_and_x1_ok by (unfold kVMaskA8WithoutGA; lia). reflexivity. Qed.

(* mask data *)
Lemma byte_at_upd l i v j : 0 <= i < Z.of_nat (length l) -> 0 <= j -> 0 <= v <= 255 ->
  byte_at (set_byte l i v) j = if j =? i then v else byte_at l j.
Proof.
  intros I J V. unfold byte_at, set_byte. replace (w8 v) with v by (unfold w8; rewrite Z.mod_small by lia; reflexivity).
  assert (G : forall n l m, (n < length l)%nat -> nth m (upd l n v) 0 = if Nat.eqb m n then v else nth m l 0).
  { clear. induction n; intros [|x l] m L; cbn [length] in L; try lia; destruct m; cbn [upd nth Nat.eqb]; try reflexivity. apply IHn. lia. }
  rewrite G by lia. destruct (Nat.eqb_spec (Z.to_nat j) (Z.to_nat i)), (Z.eqb_spec j i); try lia; reflexivity.
Qed.
Lemma length_set_byte l i v : length (set_byte l i v) = length l.
Proof. unfold set_byte. generalize (Z.to_nat i). intros n. revert l. induction n; intros [|x l]; cbn [upd length]; auto. Qed.
Lemma byte_at_app l l' i : 0 <= i -> byte_at (l ++ l') i = if i <? Z.of_nat (length l) then byte_at l i else byte_at l' (i - Z.of_nat (length l)).
Proof.
  intros I. unfold byte_at. destruct (Z.ltb_spec i (Z.of_nat (length l))); [apply app_nth1; lia|]. rewrite app_nth2 by lia. f_equal. lia.
Qed.
Lemma byte_at_line m i : 0 <= i < 32 -> 0 <= m <= 255 -> byte_at (mask_line m) i = if i <? 4 then 0 else m.
Proof.
  intros I M. unfold mask_line. rewrite byte_at_app by lia. rewrite repeat_length. change (Z.of_nat 4) with 4.
  replace (w8 m) with m by (unfold w8; rewrite Z.mod_small by lia; reflexivity).
  destruct (Z.ltb_spec i 4); unfold byte_at.
  - destruct (Z.to_nat i) as [|[|[|[|?]]]] eqn:E; try reflexivity. exfalso. lia.
  - rewrite nth_indep with (d' := m) by (rewrite repeat_length; lia). rewrite nth_repeat. reflexivity.
Qed.

(* the three lines of mask data *)
Definition sel (k a b c : Z) : Z := if k =? 0 then a else if k =? 1 then b else c.
Definition three (a0 b0 a1 b1 a2 b2 : Z) : list Z := set_byte (mask_line b0) 4 a0 ++ set_byte (mask_line b1) 4 a1 ++ set_byte (mask_line b2) 4 a2.
Lemma three_ok a0 b0 a1 b1 a2 b2 : 0 <= a0 <= 255 -> 0 <= b0 <= 255 -> 0 <= a1 <= 255 -> 0 <= b1 <= 255 -> 0 <= a2 <= 255 -> 0 <= b2 <= 255 ->
  length (three a0 b0 a1 b1 a2 b2) = 96%nat /\
  forall k i, 0 <= k < 3 -> 0 <= i < 32 ->
    byte_at (three a0 b0 a1 b1 a2 b2) (32 * k + i) = if i <? 4 then 0 else if i =? 4 then sel k a0 a1 a2 else sel k b0 b1 b2.
Proof.
  intros A0 B0 A1 B1 A2 B2. unfold three.
  assert (L : forall a b, length (set_byte (mask_line b) 4 a) = 32%nat) by (intros; rewrite length_set_byte; reflexivity).
  split; [rewrite !app_length, !L; reflexivity|]. intros k i K I.
  assert (Q : forall a b, 0 <= a <= 255 -> 0 <= b <= 255 -> byte_at (set_byte (mask_line b) 4 a) i = if i <? 4 then 0 else if i =? 4 then a else b).
  { intros a b A B. rewrite byte_at_upd by (change (length (mask_line b)) with 32%nat; lia). rewrite byte_at_line by lia.
    destruct (Z.eqb_spec i 4), (Z.ltb_spec i 4); try lia; reflexivity. }
  rewrite byte_at_app, L by lia. change (Z.of_nat 32) with 32.
  assert (C : k = 0 \/ k = 1 \/ k = 2) by lia. unfold sel. destruct C as [->|[->| ->]]; cbn [Z.eqb Pos.eqb].
  - destruct (Z.ltb_spec (32 * 0 + i) 32); [|lia]. replace (32 * 0 + i) with i by lia. apply Q; assumption.
  - destruct (Z.ltb_spec (32 * 1 + i) 32); [lia|]. rewrite byte_at_app, L by lia. change (Z.of_nat 32) with 32.
    destruct (Z.ltb_spec (32 * 1 + i - 32) 32); [|lia]. replace (32 * 1 + i - 32) with i by lia. apply Q; assumption.
  - destruct (Z.ltb_spec (32 * 2 + i) 32); [lia|]. rewrite byte_at_app, L by lia. change (Z.of_nat 32) with 32.
    destruct (Z.ltb_spec (32 * 2 + i - 32) 32); [lia|]. replace (32 * 2 + i - 32 - 32) with i by lia. apply Q; assumption.
Qed.
Definition three_end (e c0 c1 c2 : Z) (l : list Z) : list Z := set_byte (set_byte (set_byte l (e + 32 * 0) c0) (e + 32 * 1) c1) (e + 32 * 2) c2.
Lemma three_end_ok e c0 c1 c2 l : length l = 96%nat -> 0 <= e < 32 -> 0 <= c0 <= 255 -> 0 <= c1 <= 255 -> 0 <= c2 <= 255 ->
  length (three_end e c0 c1 c2 l) = 96%nat /\
  forall k i, 0 <= k < 3 -> 0 <= i < 32 -> byte_at (three_end e c0 c1 c2 l) (32 * k + i) = if i =? e then sel k c0 c1 c2 else byte_at l (32 * k + i).
Proof.
  intros L E C0 C1 C2. unfold three_end. split; [rewrite !length_set_byte; exact L|]. intros k i K I.
  rewrite !byte_at_upd by (rewrite ?length_set_byte, ?L; lia). unfold sel.
  assert (C : k = 0 \/ k = 1 \/ k = 2) by lia. destruct C as [->|[->| ->]]; cbn [Z.eqb Pos.eqb].
  all: repeat match goal with |- context [?a =? ?b] => destruct (Z.eqb_spec a b) end; try lia; reflexivity.
Qed.
Lemma set_byte_ok l i v : Forall (fun b => 0 <= b <= 255) l -> Forall (fun b => 0 <= b <= 255) (set_byte l i v).
Proof.
  unfold set_byte. generalize (Z.to_nat i). intros n F. assert (W : 0 <= w8 v <= 255) by (unfold w8; pose proof (Z.mod_pos_bound v 256); lia).
  revert n. induction F; intros [|n]; cbn [upd]; constructor; auto.
Qed.
Lemma line_bytes m : Forall (fun b => 0 <= b <= 255) (mask_line m).
Proof.
  assert (W : 0 <= w8 m <= 255) by (unfold w8; pose proof (Z.mod_pos_bound m 256); lia).
  unfold mask_line. apply Forall_app. split; apply Forall_forall; intros x I; apply repeat_spec in I; subst; lia.
Qed.
Lemma three_bytes a0 b0 a1 b1 a2 b2 : Forall (fun b => 0 <= b <= 255) (three a0 b0 a1 b1 a2 b2).
Proof. unfold three. rewrite !Forall_app. repeat split; apply set_byte_ok, line_bytes. Qed.
