(* Boxes with fractional coordinates. *)
From Verif Require Import Base Algorithm_Model PixelOps_Model PixelOps_Spec PixelOps_Proofs Fill_Model Fill_Spec Fill_Proofs Fill_Proofs2 Fill_Proofs3.
Ltac Zify.zify_post_hook ::= idtac.

Lemma cuts c0 c1 : 0 <= c0 < c1 -> exists a0 f0 a1 f1,
  Z.shiftr c0 8 = a0 /\ Z.land c0 0xFF = f0 /\ Z.shiftr (c1 + 0xFF) 8 = a1 /\ Z.land (c1 - 1) 0xFF + 1 = f1 /\
  c0 = 256 * a0 + f0 /\ 0 <= f0 < 256 /\ c1 = 256 * (a1 - 1) + f1 /\ 1 <= f1 <= 256 /\ 0 <= a0 < a1 /\ (a1 = a0 + 1 -> f0 < f1).
Proof.
  intros C. exists (Z.shiftr c0 8), (Z.land c0 0xFF), (Z.shiftr (c1 + 0xFF) 8), (Z.land (c1 - 1) 0xFF + 1).
  do 4 (split; [reflexivity|]).
  assert (LA : forall v, Z.land v 255 = v mod 256) by (intros v; change 255 with (Z.ones 8); rewrite Z.land_ones by lia; reflexivity).
  rewrite !LA, !Z.shiftr_div_pow2 by lia. change (2 ^ 8) with 256.
  pose proof (Z.div_mod c0 256 ltac:(lia)). pose proof (Z.mod_pos_bound c0 256 ltac:(lia)).
  pose proof (Z.div_mod (c1 - 1) 256 ltac:(lia)). pose proof (Z.mod_pos_bound (c1 - 1) 256 ltac:(lia)).
  replace (c1 + 255) with (c1 - 1 + 1 * 256) by lia. rewrite Z.div_add by lia. lia.
Qed.
Lemma overlap_at c0 c1 a0 f0 a1 f1 i : c0 = 256 * a0 + f0 -> 0 <= f0 < 256 -> c1 = 256 * (a1 - 1) + f1 -> 1 <= f1 <= 256 -> a0 < a1 ->
  (a1 = a0 + 1 -> f0 < f1) ->
  overlap c0 c1 i = if (a0 <=? i) && (i <? a1) then (if i =? a1 - 1 then f1 else 256) - (if i =? a0 then f0 else 0) else 0.
Proof.
  intros E0 F0 E1 F1 A F. unfold overlap.
  destruct (Z.leb_spec a0 i), (Z.ltb_spec i a1), (Z.eqb_spec i (a1 - 1)), (Z.eqb_spec i a0); cbn [andb]; lia.
Qed.

(* mask of a pixel covered by c horizontally and f vertically *)
Definition mk (alpha c f : Z) : Z := c * f * alpha / 65536.
Lemma mk_range alpha c f : 0 <= alpha <= 255 -> 0 <= c <= 256 -> 0 <= f <= 256 -> 0 <= mk alpha c f <= 255.
Proof.
  intros A C F. unfold mk. assert (0 <= c * f <= 65536) by nia. assert (0 <= c * f * alpha <= 65536 * 255) by nia.
  split; [apply Z.div_pos; lia|]. assert (c * f * alpha / 65536 < 256) by (apply Z.div_lt_upper_bound; lia). lia.
Qed.
Lemma mk_le alpha c f c' f' : 0 <= alpha -> 0 <= c <= c' -> 0 <= f <= f' -> mk alpha c f <= mk alpha c' f'.
Proof. intros A C F. unfold mk. apply Z.div_le_mono; [lia|]. apply Z.mul_le_mono_nonneg_r; [lia|]. apply Z.mul_le_mono_nonneg; lia. Qed.
Lemma mk_a alpha c f : c * (f * alpha) / 65536 = mk alpha c f.
Proof. unfold mk. f_equal. lia. Qed.
Lemma mk_b alpha f : f * alpha / 256 = mk alpha 256 f.
Proof. unfold mk. replace (256 * f * alpha) with (f * alpha * 256) by lia. change 65536 with (256 * 256). rewrite Z.div_mul_cancel_r by lia. reflexivity. Qed.
Lemma mk_c alpha c : c * alpha / 256 = mk alpha c 256.
Proof. unfold mk. replace (c * 256 * alpha) with (c * alpha * 256) by lia. change 65536 with (256 * 256). rewrite Z.div_mul_cancel_r by lia. reflexivity. Qed.
Lemma mk_d alpha : alpha = mk alpha 256 256.
Proof. unfold mk. replace (256 * 256 * alpha) with (alpha * 65536) by lia. rewrite Z.div_mul by lia. reflexivity. Qed.
Lemma mk_0 alpha c f : c = 0 \/ f = 0 -> mk alpha c f = 0.
Proof. intros [-> | ->]; unfold mk; rewrite ?Z.mul_0_r, ?Z.mul_0_l; reflexivity. Qed.

Definition boxprog (z0 : bool) (h : Z) (l0 l1 l2 : list span) : list (list span * Z) :=
  (if z0 then [] else [(l0, 1)]) ++ (if 2 <? h then [(l1, h - 2)] else []) ++ [(l2, 1)].
Lemma boxprog_encode z0 h l0 l1 l2 : encode (boxprog z0 h l0 l1 l2) =
  (if z0 then [] else map encode_span l0 ++ [init_end]) ++ (if 2 <? h then map encode_span l1 ++ [init_repeat (h - 2)] else []) ++
  map encode_span l2 ++ [init_end].
Proof. unfold boxprog, init_end, init_repeat. destruct z0, (2 <? h); cbn [app encode]; rewrite <- ?app_assoc; reflexivity. Qed.

Section Lines.
Context (md : list Z) (alpha width x0 x1 : Z).
(* the spans draw the row with vertical coverage f *)
Definition line_ok (spans : list span) (f : Z) : Prop :=
  contiguous spans /\ (forall n, 1 <= n -> Forall (span_ok md width n) spans) /\
  forall k x, match row_mask md alpha k spans x with Some v => v = mk alpha (overlap x0 x1 x) f | None => overlap x0 x1 x = 0 end.


(* the lines *)
Lemma line_const a b f m : 0 <= a < b -> b <= width -> 0 <= m <= 255 -> (forall x, a <= x < b -> mk alpha (overlap x0 x1 x) f = m) ->
  (forall x, ~ a <= x < b -> overlap x0 x1 x = 0) -> line_ok [Span a b (Const m)] f.
Proof.
  intros A B M E N. split; [exact I|]. split.
  - intros n _. constructor; [|constructor]. split; [cbn; lia|]. split; cbn; lia.
  - intros k x. cbn [row_mask s_from s_to span_mask s_src]. destruct (Z.leb_spec a x), (Z.ltb_spec x b); cbn [andb]; try (apply N; lia). symmetry. apply E. lia.
Qed.
Lemma line_short a b p f : 0 <= a < b -> b <= width -> 0 <= p -> p + (b - a) <= Z.of_nat (length md) ->
  (forall x, a <= x < b -> byte_at md (p + (x - a)) = mk alpha (overlap x0 x1 x) f) ->
  (forall x, ~ a <= x < b -> overlap x0 x1 x = 0) -> line_ok [Span a b (Bytes true p 0)] f.
Proof.
  intros A B P0 PL E N. split; [exact I|]. split.
  - intros n _. constructor; [|constructor]. split; [cbn; lia|]. split; [cbn; lia|]. cbn. intros k K. lia.
  - intros k x. cbn [row_mask s_from s_to span_mask s_src]. destruct (Z.leb_spec a x), (Z.ltb_spec x b); cbn [andb]; try (apply N; lia).
    rewrite Z.mul_0_r, Z.add_0_r. apply E. lia.
Qed.
Lemma line_long a i j b p q m f : 0 <= a < i -> i < j -> j < b -> b <= width -> 0 <= p -> p + (i - a) <= Z.of_nat (length md) ->
  0 <= q -> q + (b - j) <= Z.of_nat (length md) -> 0 <= m <= 255 ->
  (forall x, a <= x < i -> byte_at md (p + (x - a)) = mk alpha (overlap x0 x1 x) f) ->
  (forall x, i <= x < j -> m = mk alpha (overlap x0 x1 x) f) ->
  (forall x, j <= x < b -> byte_at md (q + (x - j)) = mk alpha (overlap x0 x1 x) f) ->
  (forall x, ~ a <= x < b -> overlap x0 x1 x = 0) -> line_ok [Span a i (Bytes true p 0); Span i j (Const m); Span j b (Bytes true q 0)] f.
Proof.
  intros A B J W P0 PL Q0 QL M E1 E2 E3 N. split; [repeat split|]. split.
  - intros n _. repeat constructor; cbn; try lia; intros k K; lia.
  - intros k x. cbn [row_mask s_from s_to span_mask s_src].
    destruct (Z.leb_spec a x), (Z.ltb_spec x i); cbn [andb]; try (rewrite Z.mul_0_r, Z.add_0_r; apply E1; lia).
    all: destruct (Z.leb_spec i x), (Z.ltb_spec x j); cbn [andb]; try lia; try (apply E2; lia).
    all: destruct (Z.leb_spec j x), (Z.ltb_spec x b); cbn [andb]; try lia; try (rewrite Z.mul_0_r, Z.add_0_r; apply E3; lia).
    all: apply N; lia.
Qed.
End Lines.

Section BoxU.
Context {P : Type} (comp : Z -> Z -> P -> Z -> P).
Context (O0 : forall x y d, comp x y d 0 = d).

Lemma rendered_conv m m' stride width y0 y1 mask f :
  (forall x y, 0 <= x < width -> y0 <= y < y1 -> match mask x y with Some v => v = f x y | None => f x y = 0 end) ->
  rendered comp m m' stride width y0 y1 mask -> rendered comp m m' stride width y0 y1 (fun x y => Some (f x y)).
Proof.
  intros E [A B]. split; [|exact B]. intros x y X Y. rewrite A by assumption. specialize (E x y X Y). destruct (mask x y); [subst; reflexivity|].
  destruct (m (y * stride + x)); cbn [option_map]; [|reflexivity]. rewrite E, O0. reflexivity.
Qed.
Lemma rendered_none m stride width y0 y1 f : (forall x y, 0 <= x < width -> y0 <= y < y1 -> f x y = 0) ->
  rendered comp m m stride width y0 y1 (fun x y => Some (f x y)).
Proof.
  intros E. split; [|reflexivity]. intros x y X Y. rewrite E by assumption. destruct (m (y * stride + x)); cbn [option_map]; [|reflexivity].
  rewrite O0. reflexivity.
Qed.
Lemma rendered_widen m m' stride width y0 y1 y0' y1' f : width <= Z.abs stride -> y0' <= y0 <= y1 -> y1 <= y1' ->
  (forall x y, 0 <= x < width -> y0' <= y < y1' -> ~ y0 <= y < y1 -> f x y = 0) ->
  rendered comp m m' stride width y0 y1 (fun x y => Some (f x y)) -> rendered comp m m' stride width y0' y1' (fun x y => Some (f x y)).
Proof.
  intros W A B Z R. apply (rendered_split comp width m m m' stride y0' y0 y1'); [lia|exact W| |].
  - apply rendered_none. intros; apply Z; lia.
  - apply (rendered_split comp width m m' m' stride y0 y1 y1'); [lia|exact W|exact R|]. apply rendered_none. intros; apply Z; lia.
Qed.

Context (comp_opaque : Z -> Z -> P -> P) (optimize : bool).
Context (OP : optimize = true -> forall x y d, comp x y d 255 = comp_opaque x y d).
Context (md : list Z) (alpha width : Z).
Context (LEN : Z.of_nat (length md) < 2 ^ 64) (MD : Forall (fun b => 0 <= b <= 255) md) (AL : 0 <= alpha <= 255) (WD : 0 <= width < 2 ^ 28).
Context (x0 x1 : Z).

Lemma box_rows m stride Y0 Y1 y0 y1 a0 h f0 f1 l0 l1 l2 z0 z2 :
  1 <= h < 2 ^ 32 -> Y0 <= a0 -> a0 + h <= Y1 -> image m stride width Y0 Y1 ->
  (forall y, overlap y0 y1 y = if (a0 <=? y) && (y <? a0 + h) then (if y =? a0 then f0 else if y =? a0 + h - 1 then f1 else 256) else 0) ->
  line_ok md alpha width x0 x1 l0 f0 -> line_ok md alpha width x0 x1 l1 256 -> line_ok md alpha width x0 x1 l2 f1 ->
  (z0 = true -> forall x, mk alpha (overlap x0 x1 x) f0 = 0) -> (z2 = true -> forall x, mk alpha (overlap x0 x1 x) f1 = 0) ->
  (h = 1 -> z2 = true -> forall x, mk alpha (overlap x0 x1 x) f0 = 0) ->
  let top := a0 + b2z z0 in let bottom := a0 + h - b2z z2 in
  let f := fun x y => box_mask alpha x0 y0 x1 y1 x y in
  (top < bottom -> exists m', fill_mask comp comp_opaque optimize m stride top bottom alpha md (encode (boxprog z0 h l0 l1 l2)) = Ok m' /\
    rendered comp m m' stride width Y0 Y1 (fun x y => Some (f x y))) /\
  (~ top < bottom -> rendered comp m m stride width Y0 Y1 (fun x y => Some (f x y))).
Proof.
  intros H HY0 HY1 IM OY L0 L1 L2 Z0 Z2 Z1. cbv zeta.
  assert (BM : forall x y, box_mask alpha x0 y0 x1 y1 x y = mk alpha (overlap x0 x1 x) (overlap y0 y1 y)) by reflexivity.
  assert (OUT : forall x y, ~ (a0 + b2z z0 <= y < a0 + h - b2z z2) -> box_mask alpha x0 y0 x1 y1 x y = 0).
  { intros x y N. rewrite BM, OY. destruct (Z.leb_spec a0 y), (Z.ltb_spec y (a0 + h)); cbn [andb]; try (apply mk_0; right; reflexivity).
    unfold b2z in N. destruct (Z.eqb_spec y a0) as [->|].
    - destruct z0; [apply Z0; reflexivity|]. destruct z2; [|lia]. apply Z1; [lia|reflexivity].
    - destruct (Z.eqb_spec y (a0 + h - 1)) as [->|]; [|destruct z0, z2; lia]. destruct z2; [apply Z2; reflexivity|destruct z0; lia]. }
  split.
  - intros T. assert (ST : width <= Z.abs stride) by (destruct IM; lia).
    assert (OKs : prog_ok contiguous md width (a0 + h - b2z z2 - (a0 + b2z z0)) (boxprog z0 h l0 l1 l2)).
    { assert (SK : forall n l f, line_ok md alpha width x0 x1 l f -> Forall (span_ok md width n) l).
      { intros n l f (_ & A & _). destruct (Z.lt_ge_cases n 1); [|apply A; lia]. specialize (A 1 ltac:(lia)). eapply Forall_impl; [|exact A].
        intros sp (B & C & E). split; [exact B|]. split; [exact C|]. destruct (s_src sp); [exact E|]. intros k K. lia. }
      unfold boxprog. destruct z0, (Z.ltb_spec 2 h); cbn [app prog_ok];
        repeat match goal with |- _ /\ _ => split | |- True => exact I | |- Forall _ _ => eapply SK; eassumption | |- contiguous l0 => apply L0 | |- contiguous l1 => apply L1 | |- contiguous l2 => apply L2 end; lia. }
    assert (RW : rows (boxprog z0 h l0 l1 l2) = b2z (negb z0) + (if 2 <? h then h - 2 else 0) + 1).
    { unfold boxprog. destruct z0, (2 <? h); cbn [app rows fold_right snd b2z negb]; lia. }
    destruct (fill_mask_ok comp comp_opaque optimize OP md alpha width LEN MD AL WD stride (a0 + b2z z0) (a0 + h - b2z z2) m (boxprog z0 h l0 l1 l2)) as (m' & E & R).
    + exact OKs.
    + unfold b2z in *. destruct z0, z2; lia.
    + rewrite RW. unfold b2z, negb. destruct z0, z2, (Z.ltb_spec 2 h); lia.
    + split; [destruct IM; lia|]. intros x y X Y. destruct IM as [_ IM]. apply IM; [exact X|]. unfold b2z in Y. destruct z0, z2; lia.
    + exists m'. split; [exact E|]. eapply (rendered_widen _ _ _ _ (a0 + b2z z0) (a0 + h - b2z z2)); [exact ST| | | |].
      * unfold b2z in *; destruct z0; lia.
      * unfold b2z; destruct z2; lia.
      * intros x y X Y N. apply OUT. lia.
      * eapply rendered_conv; [|exact R]. intros x y X Y. cbv beta. rewrite BM, OY.
        destruct (Z.leb_spec a0 y); [|unfold b2z in Y; destruct z0; lia]. destruct (Z.ltb_spec y (a0 + h)); [|unfold b2z in Y; destruct z2; lia]. cbn [andb].
        assert (PM : exists k, prog_mask md alpha (boxprog z0 h l0 l1 l2) (y - (a0 + b2z z0)) x =
          row_mask md alpha k (if y =? a0 then l0 else if y =? a0 + h - 1 then l2 else l1) x).
        { unfold boxprog. unfold b2z in *. destruct z0; cbn [app].
          - destruct (Z.eqb_spec y a0); [lia|]. destruct (Z.ltb_spec 2 h); cbn [app prog_mask].
            + destruct (Z.ltb_spec (y - (a0 + 1)) (h - 2)), (Z.eqb_spec y (a0 + h - 1)); try lia; [eexists; reflexivity|].
              destruct (Z.ltb_spec (y - (a0 + 1) - (h - 2)) 1); [eexists; reflexivity|lia].
            + destruct (Z.ltb_spec (y - (a0 + 1)) 1); [|lia]. destruct (Z.eqb_spec y (a0 + h - 1)); [eexists; reflexivity|lia].
          - cbn [prog_mask]. destruct (Z.ltb_spec (y - (a0 + 0)) 1), (Z.eqb_spec y a0); try lia; [eexists; reflexivity|].
            destruct (Z.ltb_spec 2 h); cbn [app prog_mask].
            + destruct (Z.ltb_spec (y - (a0 + 0) - 1) (h - 2)), (Z.eqb_spec y (a0 + h - 1)); try lia; [eexists; reflexivity|].
              destruct (Z.ltb_spec (y - (a0 + 0) - 1 - (h - 2)) 1); [eexists; reflexivity|lia].
            + destruct (Z.ltb_spec (y - (a0 + 0) - 1) 1); [|lia]. destruct (Z.eqb_spec y (a0 + h - 1)); [eexists; reflexivity|lia]. }
        destruct PM as [k PM]. rewrite PM.
        destruct (y =? a0); [destruct L0 as (_ & _ & L0); specialize (L0 k x); destruct (row_mask _ _ _ _ _); [exact L0|apply mk_0; left; exact L0]|].
        destruct (y =? a0 + h - 1); [destruct L2 as (_ & _ & L2); specialize (L2 k x); destruct (row_mask _ _ _ _ _); [exact L2|apply mk_0; left; exact L2]|].
        destruct L1 as (_ & _ & L1); specialize (L1 k x); destruct (row_mask _ _ _ _ _); [exact L1|apply mk_0; left; exact L1].
  - intros T. apply rendered_none. intros x y X Y. apply OUT. lia.
Qed.

End BoxU.
