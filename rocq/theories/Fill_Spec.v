(* What the fillers have to draw. *)
From Verif Require Import Base PixelOps_Spec Fill_Model.

Section Spec.
Context {P : Type} (comp : Z -> Z -> P -> Z -> P).

(* the pixels of the rows y0 <= y < y1 of an image of the given width; row y starts at address y * stride *)
Definition image (m : @mem P) (stride width y0 y1 : Z) : Prop :=
  0 <= width <= Z.abs stride /\ forall x y, 0 <= x < width -> y0 <= y < y1 -> m (y * stride + x) <> None.
(* m' is m after drawing with the given mask; all other memory is unchanged *)
Definition rendered (m m' : @mem P) (stride width y0 y1 : Z) (mask : Z -> Z -> option Z) : Prop :=
  (forall x y, 0 <= x < width -> y0 <= y < y1 ->
     m' (y * stride + x) = option_map (fun d => match mask x y with Some v => comp x y d v | None => d end) (m (y * stride + x))) /\
  (forall a, (forall x y, 0 <= x < width -> y0 <= y < y1 -> a <> y * stride + x) -> m' a = m a).

(* a list of mask commands: groups of spans, every group drawn on n consecutive rows *)
Inductive source := Const (v : Z) | Bytes (with_ga : bool) (p adv : Z).
Record span := Span { s_from : Z; s_to : Z; s_src : source }.
Definition encode_span (s : span) : cmd :=
  match s_src s with
  | Const v => Cmd (s_from s) (s_to s * 8 + 1) v 0
  | Bytes true p adv => Cmd (s_from s) (s_to s * 8 + 2) p (adv mod 2 ^ 64)
  | Bytes false p adv => Cmd (s_from s) (s_to s * 8 + 3) p (adv mod 2 ^ 64)
  end.
Fixpoint encode (prog : list (list span * Z)) : list cmd :=
  match prog with
  | [] => []
  | (spans, n) :: rest => map encode_span spans ++ Cmd n 0 0 0 :: encode rest
  end.
Definition byte_at (md : list Z) (i : Z) : Z := nth (Z.to_nat i) md 0.
(* mask of a span on the k-th row of its group *)
Definition span_mask (md : list Z) (alpha k : Z) (s : span) (x : Z) : Z :=
  match s_src s with
  | Const v => v
  | Bytes with_ga p adv =>
    let v := byte_at md (p + k * adv + (x - s_from s)) in if with_ga then v else round_div (v * alpha) 255
  end.
Fixpoint row_mask (md : list Z) (alpha k : Z) (spans : list span) (x : Z) : option Z :=
  match spans with
  | [] => None
  | s :: rest => if (s_from s <=? x) && (x <? s_to s) then Some (span_mask md alpha k s x) else row_mask md alpha k rest x
  end.
Fixpoint prog_mask (md : list Z) (alpha : Z) (prog : list (list span * Z)) (k x : Z) : option Z :=
  match prog with
  | [] => None
  | (spans, n) :: rest => if k <? n then row_mask md alpha k spans x else prog_mask md alpha rest (k - n) x
  end.
Definition rows (prog : list (list span * Z)) : Z := fold_right (fun g n => snd g + n) 0 prog.

(* spans in order inside of the width, the bytes of all rows readable *)
Definition span_ok (md : list Z) (width n : Z) (s : span) : Prop :=
  0 <= s_from s < s_to s /\ s_to s <= width /\
  match s_src s with
  | Const v => 0 <= v <= 255
  | Bytes _ p adv => forall k, 0 <= k < n -> 0 <= p + k * adv /\ p + k * adv + (s_to s - s_from s) <= Z.of_nat (length md)
  end.
(* every span starts where the one before ended *)
Fixpoint contiguous (spans : list span) : Prop :=
  match spans with
  | s :: (s' :: _) as rest => s_to s = s_from s' /\ contiguous rest
  | _ => True
  end.
Fixpoint ordered (spans : list span) : Prop :=
  match spans with
  | s :: (s' :: _) as rest => s_to s <= s_from s' /\ ordered rest
  | _ => True
  end.
(* groups that draw the given number of rows *)
Fixpoint prog_ok (order : list span -> Prop) (md : list Z) (width left : Z) (prog : list (list span * Z)) : Prop :=
  match prog with
  | [] => True
  | (spans, n) :: rest => 1 <= n < 2 ^ 32 /\ order spans /\ Forall (span_ok md width (Z.min n left)) spans /\ prog_ok order md width (left - n) rest
  end.
End Spec.

(* length of the part of pixel i (256 units) that lies between two coordinates *)
Definition overlap (c0 c1 i : Z) : Z := Z.max 0 (Z.min c1 (256 * (i + 1)) - Z.max c0 (256 * i)).
(* coverage of a pixel by a box, times alpha; rounded down *)
Definition box_mask (alpha x0 y0 x1 y1 x y : Z) : Z := overlap x0 x1 x * overlap y0 y1 y * alpha / 65536.
