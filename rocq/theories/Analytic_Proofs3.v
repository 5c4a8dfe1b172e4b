(* All scanlines of the filler of rasterized paths. *)
From Verif Require Import Base Algorithm_Model PixelOps_Model IntOps_Model Fill_Model Fill_Spec Fill_Proofs Analytic_Model Analytic_Spec Analytic_Proofs Analytic_Proofs2.
Ltac Zify.zify_post_hook ::= idtac.

Lemma row_ok_ext bits cells bits' cells' nw b c xend v : (forall k, 0 <= k < nw -> bits' (b + k) = bits (b + k)) ->
  (forall x, 0 <= x <= xend -> cells' (c + x) = cells (c + x)) -> 0 <= xend -> xend < 4 * (64 * nw - 1) ->
  row_ok bits cells nw b c xend v -> row_ok bits' cells' nw b c xend v.
Proof.
  intros EB EC X0 XL (W & C & M & L & BD & TOT).
  assert (RB : forall j, 0 <= j < 64 * nw -> row_bit bits' b j = row_bit bits b j).
  { intros j J. unfold row_bit. rewrite EB; [reflexivity|]. split; [apply Z.div_pos; lia|apply Z.div_lt_upper_bound; lia]. }
  assert (DB : forall x, 0 <= x <= xend -> 0 <= x / 4 < 64 * nw) by (intros x X; split; [apply Z.div_pos; lia|apply Z.div_lt_upper_bound; lia]).
  split; [|split; [|split; [|split; [|split]]]].
  - intros k K. rewrite EB by exact K. apply W. exact K.
  - intros x X. rewrite EC by exact X. apply C. exact X.
  - intros x X N. destruct (M x X N) as [A|[A A']]; [left|right; split; [exact A|]]; rewrite RB; try assumption; apply DB; lia.
  - intros j J A. apply L; [exact J|]. rewrite <- RB; assumption.
  - exact BD.
  - exact TOT.
Qed.

Section Rows.
Context {P : Type} (comp : Z -> Z -> P -> Z -> P) (comp_opaque : Z -> Z -> P -> P) (optimize : bool).
Context (OP : optimize = true -> forall x y d, comp x y d 255 = comp_opaque x y d) (O0 : forall x y d, comp x y d 0 = d).
Context (eo : bool) (alpha xend width stride cs y0 : Z) (n : nat) (v : Z -> Z -> Z).
Notation nw := (Z.of_nat n).
Context (AL : 0 <= alpha <= 255) (X0 : 0 <= xend) (XW : xend <= width) (XL : xend < 4 * (64 * nw - 1)) (CS : xend < cs) (WS : width <= Z.abs stride).
Notation mask := (fun x y => if x <? xend then Some (fill_mask_of eo alpha (cover (v (y - y0)) x)) else None).

Lemma one_row r bits cells m fx : row_ok bits cells nw (r * nw) (r * cs) xend (v r) -> (forall x, 0 <= x < width -> m ((y0 + r) * stride + x) <> None) ->
  exists bits1 cells1 s1, scanline comp comp_opaque optimize (rule_mask eo) alpha xend n bits cells (r * nw) (r * cs) (St m ((y0 + r) * stride) fx (y0 + r)) = Ok (bits1, cells1, s1) /\
    cleared bits bits1 (r * nw) nw /\ cleared cells cells1 (r * cs) (xend + 1) /\ s_dst s1 = (y0 + r) * stride /\ s_fy s1 = y0 + r /\
    cleared_rows cells cells1 cs xend r (r + 1) /\ rendered comp m (s_mem s1) stride width (y0 + r) (y0 + r + 1) mask /\
    forall a, m a <> None -> s_mem s1 a <> None.
Proof.
  intros RO IM.
  destruct (scanline_ok comp comp_opaque optimize eo alpha xend bits cells n (r * nw) (r * cs) (v r) m ((y0 + r) * stride) (y0 + r) AL X0 XL
    RO O0 ltac:(intros x XX; apply IM; lia) OP fx) as (bits1 & cells1 & s1 & E & CB & CC & SD & SY & SM).
  assert (RC : cleared_rows cells cells1 cs xend r (r + 1)) by
    (split; [intros q x Q XX; replace q with r by lia; rewrite CC; destruct (Z.leb_spec (r * cs) (r * cs + x)), (Z.ltb_spec (r * cs + x) (r * cs + (xend + 1))); try lia; reflexivity
            |intros a A; rewrite CC; destruct (Z.leb_spec (r * cs) a), (Z.ltb_spec a (r * cs + (xend + 1))); cbn [andb]; try reflexivity; exfalso; apply (A r (a - r * cs)); lia]).
  assert (RR : rendered comp m (s_mem s1) stride width (y0 + r) (y0 + r + 1) mask) by
    (split; [intros x y XX YY; replace y with (y0 + r) by lia; rewrite SM; cbv zeta; replace ((y0 + r) * stride + x - (y0 + r) * stride) with x by lia;
             replace (y0 + r - y0) with r by lia; destruct (Z.leb_spec 0 x), (Z.ltb_spec x xend); try lia; cbn [andb]; [reflexivity|]; destruct (m ((y0 + r) * stride + x)); reflexivity
            |intros a A; rewrite SM; cbv zeta; destruct (Z.leb_spec 0 (a - (y0 + r) * stride)), (Z.ltb_spec (a - (y0 + r) * stride) xend); cbn [andb]; try reflexivity;
             exfalso; apply (A (a - (y0 + r) * stride) (y0 + r)); lia]).
  exists bits1, cells1, s1. do 7 (split; [assumption|]). intros a A. rewrite SM. cbv zeta. destruct (_ && _); [|exact A]. destruct (m a); [discriminate|contradiction].
Qed.

Lemma scanlines_ok h : forall r bits cells m fx, 0 <= r ->
  (forall q, r <= q < r + Z.of_nat (S h) -> row_ok bits cells nw (q * nw) (q * cs) xend (v q)) ->
  (forall x q, 0 <= x < width -> r <= q < r + Z.of_nat (S h) -> m ((y0 + q) * stride + x) <> None) ->
  exists bits' cells' m',
    scanlines comp comp_opaque optimize (rule_mask eo) alpha xend (S h) n bits cells (r * nw) (r * cs) stride cs (St m ((y0 + r) * stride) fx (y0 + r)) = Ok (bits', cells', m') /\
    cleared bits bits' (r * nw) (Z.of_nat (S h) * nw) /\ cleared_rows cells cells' cs xend r (r + Z.of_nat (S h)) /\
    rendered comp m m' stride width (y0 + r) (y0 + r + Z.of_nat (S h)) mask.
Proof.
  induction h as [|h IH]; intros r bits cells m fx R RO IM.
  all: destruct (one_row r bits cells m fx ltac:(apply RO; lia) ltac:(intros x XX; apply IM; lia)) as (bits1 & cells1 & s1 & E & CB & CC & SD & SY & RC & RR & SN).
  - exists bits1, cells1, (s_mem s1). cbn [scanlines]. rewrite E. cbn [bind]. split; [reflexivity|]. change (Z.of_nat 1) with 1. rewrite Z.mul_1_l.
    split; [exact CB|]. split; [exact RC|exact RR].
  - set (s2 := advance_y (set_dst s1 (s_dst s1 + stride))).
    assert (ES : s2 = St (s_mem s1) ((y0 + (r + 1)) * stride) (s_fx s1) (y0 + (r + 1))).
    { unfold s2, advance_y, set_dst. cbn [s_mem s_dst s_fx s_fy]. rewrite SD, SY. f_equal; lia. }
    destruct (IH (r + 1) bits1 cells1 (s_mem s1) (s_fx s1)) as (bits2 & cells2 & m2 & E2 & CB2 & [CC2 CF2] & RR2).
    + lia.
    + intros q Q. apply (row_ok_ext bits cells); [| |exact X0|exact XL|apply RO; lia].
      * intros k K. rewrite CB. destruct (Z.ltb_spec (q * nw + k) (r * nw + nw)); [exfalso; nia|]. rewrite andb_false_r. reflexivity.
      * intros x XX. rewrite CC. destruct (Z.ltb_spec (q * cs + x) (r * cs + (xend + 1))); [exfalso; nia|]. rewrite andb_false_r. reflexivity.
    + intros x q XX Q. apply SN. apply IM; lia.
    + exists bits2, cells2, m2. split.
      { cbn [scanlines]. cbn [scanlines] in E2. rewrite E. cbn [bind]. fold s2. rewrite ES. replace (r * nw + nw) with ((r + 1) * nw) by lia. replace (r * cs + cs) with ((r + 1) * cs) by lia.
        exact E2. }
      split; [|split].
      * intros a. rewrite CB2, CB. replace (Z.of_nat (S (S h)) * nw) with (nw + Z.of_nat (S h) * nw) by lia. replace ((r + 1) * nw) with (r * nw + nw) by lia.
        assert (0 <= Z.of_nat (S h) * nw) by nia.
        destruct (Z.leb_spec (r * nw) a), (Z.leb_spec (r * nw + nw) a), (Z.ltb_spec a (r * nw + nw)), (Z.ltb_spec a (r * nw + nw + Z.of_nat (S h) * nw)),
          (Z.ltb_spec a (r * nw + (nw + Z.of_nat (S h) * nw))); try lia; reflexivity.
      * destruct RC as [RC1 RC2]. split.
        -- intros q x Q XX. destruct (Z.eq_dec q r) as [->|].
           ++ rewrite CF2; [apply RC1; lia|]. intros q' x' Q' XX' EA. nia.
           ++ apply CC2; lia.
        -- intros a A. rewrite CF2 by (intros; apply A; lia). apply RC2. intros; apply A; lia.
      * apply (rendered_split comp width m (s_mem s1) m2 stride (y0 + r) (y0 + r + 1)); [lia|exact WS|exact RR|].
        replace (y0 + r + 1) with (y0 + (r + 1)) by lia. replace (y0 + r + Z.of_nat (S (S h))) with (y0 + (r + 1) + Z.of_nat (S h)) by lia. exact RR2.
Qed.
End Rows.
