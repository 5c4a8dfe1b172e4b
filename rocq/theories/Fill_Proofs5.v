(* Boxes with fractional coordinates: the whole function. *)
From Verif Require Import Base Algorithm_Model PixelOps_Model PixelOps_Spec PixelOps_Proofs Fill_Model Fill_Spec Fill_Proofs Fill_Proofs2 Fill_Proofs3 Fill_Proofs4.
Ltac Zify.zify_post_hook ::= idtac.

Lemma mulb a b A B : 0 <= a <= A -> 0 <= b <= B -> 0 <= a * b <= A * B.
Proof. intros. split; [apply Z.mul_nonneg_nonneg; lia|apply Z.mul_le_mono_nonneg; lia]. Qed.
Lemma land256 a b : 0 <= a <= 256 -> 0 <= b <= 256 -> Z.land a b =? 256 = (a =? 256) && (b =? 256).
Proof.
  intros A B. destruct (Z.eqb_spec a 256) as [->|NA], (Z.eqb_spec b 256) as [->|NB]; cbn [andb]; try reflexivity.
  all: apply Z.eqb_neq; intros E; assert (T : Z.testbit 256 8 = true) by reflexivity; rewrite <- E, Z.land_spec in T; apply andb_true_iff in T; destruct T as [T1 T2].
  - rewrite (Z.bits_above_log2 b) in T2; [discriminate|lia|]. destruct (Z.eq_dec b 0) as [->|]; [cbn; lia|]. apply Z.log2_lt_pow2; lia.
  - rewrite (Z.bits_above_log2 a) in T1; [discriminate|lia|]. destruct (Z.eq_dec a 0) as [->|]; [cbn; lia|]. apply Z.log2_lt_pow2; lia.
  - rewrite (Z.bits_above_log2 a) in T1; [discriminate|lia|]. destruct (Z.eq_dec a 0) as [->|]; [cbn; lia|]. apply Z.log2_lt_pow2; lia.
Qed.
Lemma walign_ok w : 0 <= Z.land (w32 (0 - w)) 3 <= 3.
Proof.
  assert (E : Z.land (w32 (0 - w)) 3 = w32 (0 - w) mod 4) by (change 3 with (Z.ones 2); rewrite Z.land_ones by lia; reflexivity).
  rewrite E. pose proof (Z.mod_pos_bound (w32 (0 - w)) 4 ltac:(lia)). lia.
Qed.

Section BoxU.
Context {P : Type} (comp : Z -> Z -> P -> Z -> P) (comp_opaque : Z -> Z -> P -> P) (optimize : bool).
Context (OP : optimize = true -> forall x y d, comp x y d 255 = comp_opaque x y d).
Context (O0 : forall x y d, comp x y d 0 = d).

Definition box_result (u : boxu) (m : @mem P) (stride width Y0 Y1 alpha : Z) (f : Z -> Z -> Z) : Prop :=
  (u_draw u = true -> exists m', fill_mask comp comp_opaque optimize m stride (u_y0 u) (u_y1 u) alpha (u_data u) (u_cmds u) = Ok m' /\
     rendered comp m m' stride width Y0 Y1 (fun x y => Some (f x y))) /\
  (u_draw u = false -> rendered comp m m stride width Y0 Y1 (fun x y => Some (f x y))).

(* what remains after the cuts: lines l0, l1, l2 *)
Lemma finish_ok md alpha width x0 x1 y0 y1 m stride Y0 Y1 a0 h f0 f1 l0 l1 l2 z0 z2 dr cmds :
  Z.of_nat (length md) < 2 ^ 64 -> Forall (fun b => 0 <= b <= 255) md -> 0 <= alpha <= 255 -> 0 <= width < 2 ^ 28 ->
  1 <= h < 2 ^ 32 -> Y0 <= a0 -> a0 + h <= Y1 -> image m stride width Y0 Y1 ->
  (forall y, overlap y0 y1 y = if (a0 <=? y) && (y <? a0 + h) then (if y =? a0 then f0 else if y =? a0 + h - 1 then f1 else 256) else 0) ->
  line_ok md alpha width x0 x1 l0 f0 -> line_ok md alpha width x0 x1 l1 256 -> line_ok md alpha width x0 x1 l2 f1 ->
  (z0 = true -> forall x, mk alpha (overlap x0 x1 x) f0 = 0) -> (z2 = true -> forall x, mk alpha (overlap x0 x1 x) f1 = 0) ->
  (h = 1 -> z2 = true -> forall x, mk alpha (overlap x0 x1 x) f0 = 0) ->
  (dr = false -> a0 + b2z z0 < a0 + h - b2z z2 -> forall x f, 0 <= f <= 256 -> mk alpha (overlap x0 x1 x) f = 0) ->
  (dr = true -> a0 + b2z z0 < a0 + h - b2z z2) -> 0 <= f0 <= 256 -> 0 <= f1 <= 256 ->
  cmds = encode (boxprog z0 h l0 l1 l2) ->
  box_result (BoxU cmds md (a0 + b2z z0) (a0 + h - b2z z2) dr) m stride width Y0 Y1 alpha (box_mask alpha x0 y0 x1 y1).
Proof.
  intros LEN MD AL WD H HY0 HY1 IM OY L0 L1 L2 Z0 Z2 Z1 DF DT F0 F1 CM. subst cmds.
  destruct (box_rows comp O0 comp_opaque optimize OP md alpha width LEN MD AL WD x0 x1 m stride Y0 Y1 y0 y1 a0 h f0 f1 l0 l1 l2 z0 z2 H HY0 HY1 IM OY L0 L1 L2 Z0 Z2 Z1)
    as [R1 R2].
  split; cbn [u_draw u_cmds u_data u_y0 u_y1].
  - intros D. apply R1. apply DT. exact D.
  - intros D. destruct (Z.lt_ge_cases (a0 + b2z z0) (a0 + h - b2z z2)) as [T|T]; [|apply R2; lia].
    apply rendered_none; [exact O0|]. intros x y _ _. apply (DF D T). rewrite OY. destruct ((a0 <=? y) && (y <? a0 + h)); [|lia].
    destruct (y =? a0); [lia|]. destruct (y =? a0 + h - 1); lia.
Qed.

Lemma box_u_ok m stride width Y0 Y1 alpha x0 y0 x1 y1 :
  0 <= alpha <= 255 -> 0 <= x0 < x1 -> x1 <= 256 * width -> width < 2 ^ 23 -> 0 <= y0 < y1 -> y1 < 2 ^ 31 - 256 ->
  256 * Y0 <= y0 -> y1 <= 256 * Y1 -> image m stride width Y0 Y1 ->
  box_result (init_box_u alpha x0 y0 x1 y1) m stride width Y0 Y1 alpha (box_mask alpha x0 y0 x1 y1).
Proof.
  intros AL X XW WD Y YB YL YH IM. unfold init_box_u.
  destruct (cuts x0 x1 X) as (ax0 & fx0 & ax1 & fx1 & Q1 & Q2 & Q3 & Q4 & EX0 & FX0 & EX1 & FX1 & AX & WX). rewrite Q1, Q2, Q3, Q4. clear Q1 Q2 Q3 Q4.
  destruct (cuts y0 y1 Y) as (ay0 & fy0 & ay1 & fy1 & Q1 & Q2 & Q3 & Q4 & EY0 & FY0 & EY1 & FY1 & AY & WY). rewrite Q1, Q2, Q3, Q4. clear Q1 Q2 Q3 Q4.
  pose proof (fun i => overlap_at x0 x1 ax0 fx0 ax1 fx1 i EX0 FX0 EX1 FX1 ltac:(lia) WX) as OX.
  pose proof (fun i => overlap_at y0 y1 ay0 fy0 ay1 fy1 i EY0 FY0 EY1 FY1 ltac:(lia) WY) as OY.
  assert (B : 2 ^ 31 < 2 ^ 32 /\ 2 ^ 23 < 2 ^ 28 /\ 2 ^ 28 < 2 ^ 29 /\ 256 * 256 * 255 < 2 ^ 32 /\ 2 ^ 31 = 2147483648 /\ 2 ^ 23 = 8388608 /\ 2 ^ 28 = 268435456 /\ 2 ^ 29 = 536870912 /\ 2 ^ 32 = 4294967296 /\ 2 ^ 64 = 18446744073709551616) by (repeat split; reflexivity).
  rewrite (w32_small (ax1 - ax0)), (w32_small (ay1 - ay0)) by lia. cbv zeta.
  set (w := ax1 - ax0). set (h := ay1 - ay0).
  assert (HH : ay0 + h = ay1) by (unfold h; lia).
  set (f0 := (if h =? 1 then fy1 else 256) - fy0).
  assert (F0 : 0 < f0 <= 256) by (unfold f0; destruct (Z.eqb_spec h 1); unfold h in *; lia).
  assert (OY' : forall y, overlap y0 y1 y = if (ay0 <=? y) && (y <? ay0 + h) then (if y =? ay0 then f0 else if y =? ay0 + h - 1 then fy1 else 256) else 0).
  { intros y. rewrite OY, HH. destruct ((ay0 <=? y) && (y <? ay1)) eqn:EE; [|reflexivity].
    unfold f0, h in *. destruct (Z.eqb_spec (ay1 - ay0) 1), (Z.eqb_spec y ay0), (Z.eqb_spec y (ay1 - 1)); lia. }
  clear OY.
  pose proof (mulb f0 alpha 256 255 ltac:(lia) AL) as M1. pose proof (mulb fy1 alpha 256 255 ltac:(lia) AL) as M2.
  rewrite (w32_small (f0 * alpha)), (w32_small (fy1 * alpha)) by lia.
  assert (OXR : forall x, 0 <= overlap x0 x1 x <= 256).
  { intros x. rewrite OX. destruct ((ax0 <=? x) && (x <? ax1)); [|lia]. destruct (Z.eqb_spec x (ax1 - 1)), (Z.eqb_spec x ax0); lia. }
  assert (ZR : forall c f, 0 <= c <= 256 -> 0 <= f <= 256 -> mk alpha c f = 0 -> forall c' f', 0 <= c' <= c -> 0 <= f' <= f -> mk alpha c' f' = 0).
  { intros c f C F E c' f' C' F'. pose proof (mk_le alpha c' f' c f ltac:(lia) C' F'). pose proof (mk_range alpha c' f' AL ltac:(lia) ltac:(lia)). lia. }
  assert (HB : 1 <= h < 2 ^ 32) by (unfold h; lia).
  assert (HY0 : Y0 <= ay0) by lia. assert (HY1 : ay0 + h <= Y1) by lia.
  assert (NX : forall x, ~ ax0 <= x < ax1 -> overlap x0 x1 x = 0).
  { intros x N. rewrite OX. destruct (Z.leb_spec ax0 x), (Z.ltb_spec x ax1); cbn [andb]; lia. }
  destruct (Z.eqb_spec w 1) as [W1|W1].
  - (* one column *)
    set (c := fx1 - fx0). assert (C : 0 < c <= 256) by (unfold c, w in *; lia).
    pose proof (mulb c (f0 * alpha) 256 (256 * 255) ltac:(lia) M1) as M3. pose proof (mulb c (fy1 * alpha) 256 (256 * 255) ltac:(lia) M2) as M4.
    pose proof (mulb c alpha 256 255 ltac:(lia) AL) as M5.
    rewrite (w32_small (c * (f0 * alpha))), (w32_small (c * alpha)), (w32_small (c * (fy1 * alpha))) by lia.
    rewrite !Z.shiftr_div_pow2 by lia. change (2 ^ 16) with 65536. change (2 ^ 8) with 256. rewrite !mk_a, mk_c.
    assert (OC : forall x, ax0 <= x < ax1 -> overlap x0 x1 x = c).
    { intros x XX. rewrite OX. unfold c, w in *. destruct (Z.leb_spec ax0 x), (Z.ltb_spec x ax1), (Z.eqb_spec x (ax1 - 1)), (Z.eqb_spec x ax0); cbn [andb]; lia. }
    assert (LC : forall md f, 0 <= f <= 256 -> line_ok md alpha width x0 x1 [Span ax0 ax1 (Const (mk alpha c f))] f).
    { intros md f F. apply line_const; [lia|lia|apply mk_range; lia|intros x XX; rewrite OC by exact XX; reflexivity|exact NX]. }
    assert (OXC : forall x, 0 <= overlap x0 x1 x <= c).
    { intros x. rewrite OX. unfold c, w in *. destruct (Z.leb_spec ax0 x), (Z.ltb_spec x ax1), (Z.eqb_spec x (ax1 - 1)), (Z.eqb_spec x ax0); cbn [andb]; lia. }
    rewrite !cmask_ok by lia.
    destruct (Z.eqb_spec h 1) as [H1|H1].
    + (* one pixel *)
      split; cbn [u_draw u_cmds u_data u_y0 u_y1].
      * intros _. assert (L : line_ok [] alpha width x0 x1 [Span ax0 ax1 (Const (mk alpha c f0))] f0) by (apply LC; lia).
        destruct L as (LA & LB & LCC).
        destruct (fill_mask_ok comp comp_opaque optimize OP [] alpha width ltac:(cbn; lia) ltac:(constructor) AL ltac:(lia) stride ay0 (ay0 + h) m
          [([Span ax0 ax1 (Const (mk alpha c f0))], 1)]) as (m' & E & R).
        -- split; [lia|]. split; [exact LA|]. split; [|exact I]. apply LB. lia.
        -- lia.
        -- cbn. lia.
        -- split; [destruct IM; lia|]. intros x y XX YY. destruct IM as [_ IM]. apply IM; lia.
        -- exists m'. split; [exact E|]. apply (rendered_widen comp O0 m m' stride width ay0 (ay0 + h)); [destruct IM; lia|lia|lia| |].
           ++ intros x y XX YY N. unfold box_mask. rewrite OY'. destruct (Z.leb_spec ay0 y), (Z.ltb_spec y (ay0 + h)); try lia; cbn [andb]; rewrite Z.mul_0_r; reflexivity.
           ++ eapply (rendered_conv comp O0); [|exact R]. intros x y XX YY. cbv beta. cbn [prog_mask].
              destruct (Z.ltb_spec (y - ay0) 1); [|lia]. specialize (LCC (y - ay0) x).
              change (box_mask alpha x0 y0 x1 y1 x y) with (mk alpha (overlap x0 x1 x) (overlap y0 y1 y)).
              rewrite OY'. destruct (Z.leb_spec ay0 y), (Z.ltb_spec y (ay0 + h)), (Z.eqb_spec y ay0); try lia. cbn [andb].
              destruct (row_mask _ _ _ _ _); [exact LCC|]. apply mk_0. left. exact LCC.
      * intros D. apply negb_false_iff, Z.eqb_eq in D. apply rendered_none; [exact O0|]. intros x y _ _.
        change (box_mask alpha x0 y0 x1 y1 x y) with (mk alpha (overlap x0 x1 x) (overlap y0 y1 y)).
        apply (ZR c f0); [lia|lia|exact D|apply OXC|]. rewrite OY'.
        destruct (Z.leb_spec ay0 y), (Z.ltb_spec y (ay0 + h)), (Z.eqb_spec y ay0); cbn [andb]; lia.
    + apply (finish_ok [] alpha width x0 x1 y0 y1 m stride Y0 Y1 ay0 h f0 fy1 [Span ax0 ax1 (Const (mk alpha c f0))]
        [Span ax0 ax1 (Const (mk alpha c 256))] [Span ax0 ax1 (Const (mk alpha c fy1))] (mk alpha c f0 =? 0) (mk alpha c fy1 =? 0)); try assumption; try lia.
      * cbn. lia.
      * constructor.
      * apply LC. lia.
      * apply LC. lia.
      * apply LC. lia.
      * intros Z0 x. apply Z.eqb_eq in Z0. apply (ZR c f0); [lia|lia|exact Z0|apply OXC|lia].
      * intros Z0 x. apply Z.eqb_eq in Z0. apply (ZR c fy1); [lia|lia|exact Z0|apply OXC|lia].
      * intros D T x f F. apply andb_false_iff in D. destruct D as [D|D]; [apply Z.ltb_ge in D; lia|].
        apply negb_false_iff, Z.eqb_eq in D. apply (ZR c 256); [lia|lia|exact D|apply OXC|lia].
      * rewrite boxprog_encode. destruct (Z.ltb_spec 2 h); [rewrite w32_small by lia|]; reflexivity.
  - (* several columns *)
    assert (W2 : 2 <= w) by (unfold w in *; lia).
    set (c0 := 256 - fx0). assert (C0 : 0 < c0 <= 256) by (unfold c0; lia).
    rewrite !Z.shiftr_div_pow2 by lia. change (2 ^ 16) with 65536. change (2 ^ 8) with 256. rewrite !mk_b.
    assert (OC : forall x, ax0 <= x < ax1 -> overlap x0 x1 x = if x =? ax0 then c0 else if x =? ax1 - 1 then fx1 else 256).
    { intros x XX. rewrite OX. unfold c0, w in *. destruct (Z.leb_spec ax0 x), (Z.ltb_spec x ax1), (Z.eqb_spec x (ax1 - 1)), (Z.eqb_spec x ax0); cbn [andb]; lia. }
    assert (Z0 : (mk alpha 256 f0 =? 0) = true -> forall x, mk alpha (overlap x0 x1 x) f0 = 0).
    { intros E x. apply Z.eqb_eq in E. apply (ZR 256 f0); [lia|lia|exact E|apply OXR|lia]. }
    assert (Z2 : (mk alpha 256 fy1 =? 0) = true -> forall x, mk alpha (overlap x0 x1 x) fy1 = 0).
    { intros E x. apply Z.eqb_eq in E. apply (ZR 256 fy1); [lia|lia|exact E|apply OXR|lia]. }
    assert (Z1 : h = 1 -> (mk alpha 256 fy1 =? 0) = true -> forall x, mk alpha (overlap x0 x1 x) f0 = 0).
    { intros H1 E x. apply Z.eqb_eq in E. apply (ZR 256 fy1); [lia|lia|exact E|apply OXR|]. unfold f0. rewrite H1. cbn [Z.eqb Pos.eqb]. lia. }
    assert (FIN : forall md l0 l1 l2, Z.of_nat (length md) < 2 ^ 64 -> Forall (fun b => 0 <= b <= 255) md ->
      line_ok md alpha width x0 x1 l0 f0 -> line_ok md alpha width x0 x1 l1 256 -> line_ok md alpha width x0 x1 l2 fy1 ->
      box_result (BoxU ((if mk alpha 256 f0 =? 0 then [] else map encode_span l0 ++ [init_end]) ++
        (if 2 <? h then map encode_span l1 ++ [init_repeat (w32 (h - 2))] else []) ++ map encode_span l2 ++ [init_end]) md
        (ay0 + b2z (mk alpha 256 f0 =? 0)) (ay0 + h - b2z (mk alpha 256 fy1 =? 0))
        (ay0 + b2z (mk alpha 256 f0 =? 0) <? ay0 + h - b2z (mk alpha 256 fy1 =? 0))) m stride width Y0 Y1 alpha (box_mask alpha x0 y0 x1 y1)).
    { intros md l0 l1 l2 LEN MD L0 L1 L2.
      apply (finish_ok md alpha width x0 x1 y0 y1 m stride Y0 Y1 ay0 h f0 fy1 l0 l1 l2 (mk alpha 256 f0 =? 0) (mk alpha 256 fy1 =? 0)); try assumption; try lia.
      rewrite boxprog_encode. destruct (Z.ltb_spec 2 h); [rewrite w32_small by lia|]; reflexivity. }
    rewrite land256 by lia. destruct ((c0 =? 256) && (fx1 =? 256)) eqn:EA.
    + (* aligned *)
      apply andb_true_iff in EA. destruct EA as [EA1 EA2]. apply Z.eqb_eq in EA1, EA2.
      assert (LC : forall f, 0 <= f <= 256 -> line_ok [] alpha width x0 x1 [Span ax0 ax1 (Const (mk alpha 256 f))] f).
      { intros f F. apply line_const; [lia|lia|apply mk_range; lia| |exact NX]. intros x XX. rewrite OC by exact XX. f_equal.
        destruct (x =? ax0); [exact EA1|]. destruct (x =? ax1 - 1); [exact EA2|reflexivity]. }
      rewrite !cmask_ok by lia.
      rewrite (mk_d alpha) at 3.
      apply (FIN [] [Span ax0 ax1 (Const (mk alpha 256 f0))] [Span ax0 ax1 (Const (mk alpha 256 256))] [Span ax0 ax1 (Const (mk alpha 256 fy1))]);
        [cbn; lia|constructor|apply LC; lia|apply LC; lia|apply LC; lia].
    + clear EA.
      pose proof (mulb c0 (f0 * alpha) 256 (256 * 255) ltac:(lia) M1) as M3. pose proof (mulb fx1 (f0 * alpha) 256 (256 * 255) ltac:(lia) M1) as M4.
      pose proof (mulb c0 (fy1 * alpha) 256 (256 * 255) ltac:(lia) M2) as M5. pose proof (mulb fx1 (fy1 * alpha) 256 (256 * 255) ltac:(lia) M2) as M6.
      pose proof (mulb c0 alpha 256 255 ltac:(lia) AL) as M7. pose proof (mulb fx1 alpha 256 255 ltac:(lia) AL) as M8.
      rewrite (w32_small (c0 * (f0 * alpha))), (w32_small (fx1 * (f0 * alpha))), (w32_small (c0 * (fy1 * alpha))), (w32_small (fx1 * (fy1 * alpha))),
        (w32_small (c0 * alpha)), (w32_small (fx1 * alpha)) by lia.
      rewrite !mk_a, !mk_c.
      fold (three (mk alpha c0 f0) (mk alpha 256 f0) (mk alpha c0 256) alpha (mk alpha c0 fy1) (mk alpha 256 fy1)).
      assert (R : forall c f, 0 < c <= 256 -> 0 < f <= 256 -> 0 <= mk alpha c f <= 255) by (intros; apply mk_range; lia).
      pose proof (walign_ok w) as WA.
      set (wa := if ax0 <? Z.land (w32 (0 - w)) 3 then 0 else Z.land (w32 (0 - w)) 3).
      assert (WA' : 0 <= wa <= 3 /\ wa <= ax0) by (unfold wa; destruct (Z.ltb_spec ax0 (Z.land (w32 (0 - w)) 3)); lia).
      clearbody wa. clear WA.
      set (T3 := three (mk alpha c0 f0) (mk alpha 256 f0) (mk alpha c0 256) alpha (mk alpha c0 fy1) (mk alpha 256 fy1)).
      destruct (three_ok (mk alpha c0 f0) (mk alpha 256 f0) (mk alpha c0 256) alpha (mk alpha c0 fy1) (mk alpha 256 fy1)) as [TL TB];
        [apply R; lia|apply R; lia|apply R; lia|lia|apply R; lia|apply R; lia|]. fold T3 in TL, TB.
      pose proof (three_bytes (mk alpha c0 f0) (mk alpha 256 f0) (mk alpha c0 256) alpha (mk alpha c0 fy1) (mk alpha 256 fy1)) as TF. fold T3 in TF. clearbody T3.
      assert (EB : forall e, 0 <= e < 32 -> Z.of_nat (length (three_end e (mk alpha fx1 f0) (mk alpha fx1 256) (mk alpha fx1 fy1) T3)) = 96 /\
        Forall (fun b => 0 <= b <= 255) (three_end e (mk alpha fx1 f0) (mk alpha fx1 256) (mk alpha fx1 fy1) T3) /\
        forall k i, 0 <= k < 3 -> 0 <= i < 32 -> byte_at (three_end e (mk alpha fx1 f0) (mk alpha fx1 256) (mk alpha fx1 fy1) T3) (32 * k + i) =
          let f := sel k f0 256 fy1 in if i =? e then mk alpha fx1 f else if i <? 4 then 0 else if i =? 4 then mk alpha c0 f else mk alpha 256 f).
      { intros e E. destruct (three_end_ok e (mk alpha fx1 f0) (mk alpha fx1 256) (mk alpha fx1 fy1) T3 TL E) as [A BB]; [apply R; lia|apply R; lia|apply R; lia|].
        split; [rewrite A; reflexivity|]. split; [unfold three_end; apply set_byte_ok, set_byte_ok, set_byte_ok, TF|].
        intros k i K I. rewrite BB, TB by assumption. cbv zeta. unfold sel.
        destruct (i =? e); [destruct (k =? 0); [reflexivity|]; destruct (k =? 1); reflexivity|]. destruct (i <? 4); [reflexivity|].
        destruct (i =? 4); (destruct (k =? 0); [reflexivity|]; destruct (k =? 1); [first [apply mk_d|reflexivity]|reflexivity]). }
      assert (AXW : ax1 <= width) by (clear -XW EX1 FX1; lia). assert (AX29 : 0 <= ax1 < 2 ^ 29) by (clear -AXW WD B AX; lia). assert (WE : w = ax1 - ax0) by reflexivity. clearbody w.
      clear M1 M2 M3 M4 M5 M6 M7 M8 B EX0 EX1 EY0 EY1 WX WY X Y XW YB YL YH WD HB HY0 HY1 HH FX0 FY0 AY OXR Z0 Z1 Z2 ZR OX OY' IM.
      destruct (Z.leb_spec (w + wa) 20) as [W20|W20].
      * (* short *)
        rewrite !vmask_ok by exact AX29.
        destruct (EB (3 + w) ltac:(lia)) as (ML & MF & MB).
        match goal with |- box_result (BoxU _ ?d _ _ _) _ _ _ _ _ _ _ => replace d with (three_end (3 + w) (mk alpha fx1 f0) (mk alpha fx1 256) (mk alpha fx1 fy1) T3) by
          (unfold three_end; repeat (f_equal; [|lia]); f_equal; lia) end.
        set (md := three_end (3 + w) (mk alpha fx1 f0) (mk alpha fx1 256) (mk alpha fx1 fy1) T3) in *. clearbody md.
        assert (LS : forall k, 0 <= k < 3 -> line_ok md alpha width x0 x1 [Span (ax0 - wa) ax1 (Bytes true (4 - wa + 32 * k) 0)] (sel k f0 256 fy1)).
        { intros k K. subst w. apply line_short; [lia|lia|lia|lia| |intros x N; apply NX; lia].
          intros x XX. replace (4 - wa + 32 * k + (x - (ax0 - wa))) with (32 * k + (4 + (x - ax0))) by lia. rewrite MB by lia. cbv zeta.
          destruct (Z.lt_ge_cases x ax0) as [XL|XL].
          - rewrite NX by lia. rewrite (mk_0 _ 0) by (left; reflexivity). destruct (Z.eqb_spec (4 + (x - ax0)) (3 + (ax1 - ax0))); [lia|]. destruct (Z.ltb_spec (4 + (x - ax0)) 4); [reflexivity|lia].
          - rewrite OC by lia. destruct (Z.eqb_spec (4 + (x - ax0)) (3 + (ax1 - ax0))), (Z.ltb_spec (4 + (x - ax0)) 4), (Z.eqb_spec (4 + (x - ax0)) 4), (Z.eqb_spec x ax0), (Z.eqb_spec x (ax1 - 1));
              try lia; reflexivity. }
        apply (FIN md [_] [_] [_]); [rewrite ML; reflexivity|exact MF|exact (LS 0 ltac:(lia))|exact (LS 1 ltac:(lia))|exact (LS 2 ltac:(lia))].
      * (* long *)
        set (iw := (w + wa - 5) / 8 * 8).
        assert (IW : iw <= w + wa - 5 < iw + 8 /\ 8 <= iw).
        { unfold iw. pose proof (Z.div_mod (w + wa - 5) 8 ltac:(lia)). pose proof (Z.mod_pos_bound (w + wa - 5) 8 ltac:(lia)). lia. }
        clearbody iw. rewrite !vmask_ok, !cmask_ok by lia.
        destruct (EB (4 - wa + 15) ltac:(lia)) as (ML & MF & MB).
        match goal with |- box_result (BoxU _ ?d _ _ _) _ _ _ _ _ _ _ => replace d with (three_end (4 - wa + 15) (mk alpha fx1 f0) (mk alpha fx1 256) (mk alpha fx1 fy1) T3) by
          (unfold three_end; repeat (f_equal; [|lia]); f_equal; lia) end.
        set (md := three_end (4 - wa + 15) (mk alpha fx1 f0) (mk alpha fx1 256) (mk alpha fx1 fy1) T3) in *. clearbody md.
        set (ie := ax0 - wa + 4 + iw).
        assert (IE : ie = ax0 - wa + 4 + iw) by reflexivity. clearbody ie.
        assert (LS : forall k, 0 <= k < 3 -> line_ok md alpha width x0 x1 [Span (ax0 - wa) (ax0 - wa + 4) (Bytes true (4 - wa + 32 * k) 0);
          Span (ax0 - wa + 4) ie (Const (mk alpha 256 (sel k f0 256 fy1))); Span ie ax1 (Bytes true (4 - wa + 16 - (ax1 - ie) + 32 * k) 0)] (sel k f0 256 fy1)).
        { intros k K. subst w. apply line_long; [lia|lia|lia|lia|lia|lia|lia|lia|apply R; [lia|unfold sel; destruct (k =? 0); [lia|destruct (k =? 1); lia]]| | | |intros x N; apply NX; lia].
          - intros x XX. replace (4 - wa + 32 * k + (x - (ax0 - wa))) with (32 * k + (4 + (x - ax0))) by lia. rewrite MB by lia. cbv zeta.
            destruct (Z.lt_ge_cases x ax0) as [XL|XL].
            + rewrite NX by lia. rewrite (mk_0 _ 0) by (left; reflexivity). destruct (Z.eqb_spec (4 + (x - ax0)) (4 - wa + 15)); [lia|]. destruct (Z.ltb_spec (4 + (x - ax0)) 4); [reflexivity|lia].
            + rewrite OC by lia. destruct (Z.eqb_spec (4 + (x - ax0)) (4 - wa + 15)), (Z.ltb_spec (4 + (x - ax0)) 4), (Z.eqb_spec (4 + (x - ax0)) 4), (Z.eqb_spec x ax0), (Z.eqb_spec x (ax1 - 1));
                try lia; reflexivity.
          - intros x XX. rewrite OC by lia. destruct (Z.eqb_spec x ax0), (Z.eqb_spec x (ax1 - 1)); try lia; reflexivity.
          - intros x XX. replace (4 - wa + 16 - (ax1 - ie) + 32 * k + (x - ie)) with (32 * k + (20 - wa + x - ax1)) by lia. rewrite MB by lia. cbv zeta.
            rewrite OC by lia. destruct (Z.eqb_spec x ax0); [lia|]. destruct (Z.ltb_spec (20 - wa + x - ax1) 4); [lia|]. destruct (Z.eqb_spec (20 - wa + x - ax1) 4); [lia|].
            destruct (Z.eqb_spec (20 - wa + x - ax1) (4 - wa + 15)), (Z.eqb_spec x (ax1 - 1)); try lia; reflexivity. }
        pose proof (LS 1 ltac:(lia)) as LS1. unfold sel in LS1 at 1. cbn [Z.eqb Pos.eqb] in LS1. rewrite <- mk_d in LS1.
        apply (FIN md [_; _; _] [_; _; _] [_; _; _]); [rewrite ML; reflexivity|exact MF|exact (LS 0 ltac:(lia))|exact LS1|exact (LS 2 ltac:(lia))].
Qed.
End BoxU.
