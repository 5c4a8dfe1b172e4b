(* What composition operators mean, in exact arithmetic. A pixel is one color channel (premultiplied) and alpha; all operators work
   on the color channels independently of each other. Porter-Duff operators and blend modes as in the W3C compositing specification;
   plus, minus, linear burn, linear light and pin light as documented in compopsimplifyimpl_p.h. *)
From Coq Require Import QArith.
From Verif Require Import Base CompOp_Model.
Open Scope Q_scope.

Record pix := Pix { c : Q; a : Q }.
Definition qmin (x y : Q) : Q := if Qle_bool x y then x else y.
Definition qmax (x y : Q) : Q := if Qle_bool x y then y else x.

(* The color of blend modes: both inside the other's shape, source only, destination only *)
Definition mix (b : Q) (d s : pix) : pix := Pix (b + c s * (1 - a d) + c d * (1 - a s)) (a d + a s - a s * a d).

(* [sqrt] only occurs in soft light; all theorems hold for every function *)
Definition compose (sqrt : Q -> Q) (o : op) (d s : pix) : pix :=
  let pd fs fd := Pix (c s * fs + c d * fd) (a s * fs + a d * fd) in
  match o with
  | SrcCopy => s
  | DstCopy => d
  | Clear => Pix 0 0
  | SrcOver => pd 1 (1 - a s)
  | DstOver => pd (1 - a d) 1
  | SrcIn => pd (a d) 0
  | DstIn => pd 0 (a s)
  | SrcOut => pd (1 - a d) 0
  | DstOut => pd 0 (1 - a s)
  | SrcAtop => pd (a d) (1 - a s)
  | DstAtop => pd (1 - a d) (a s)
  | Xor => pd (1 - a d) (1 - a s)
  | Plus => Pix (qmin 1 (c d + c s)) (qmin 1 (a d + a s))
  | Minus => Pix (qmax 0 (c d - c s)) (a d + a s - a s * a d)
  | Modulate => Pix (c d * c s) (a d * a s)
  | Multiply => mix (c s * c d) d s
  | Screen => mix (c s * a d + c d * a s - c s * c d) d s
  | Overlay => mix (if Qle_bool (a d) (2 * c d) then a s * a d - 2 * (a d - c d) * (a s - c s) else 2 * c s * c d) d s
  | Darken => mix (qmin (c s * a d) (c d * a s)) d s
  | Lighten => mix (qmax (c s * a d) (c d * a s)) d s
  | ColorDodge => mix (if Qle_bool (a s) (c s) then (if Qle_bool (c d) 0 then 0 else a s * a d)
                       else qmin (a s * a d) (c d * a s * a s / (a s - c s))) d s
  | ColorBurn => mix (if Qle_bool (c s) 0 then (if Qle_bool (a d) (c d) then a s * a d else 0)
                      else a s * a d - qmin (a s * a d) ((a d - c d) * a s * a s / c s)) d s
  | LinearBurn => Pix (qmax 0 (c d + c s - a s * a d)) (a d + a s - a s * a d)
  | LinearLight => mix (qmin (qmax 0 (c d * a s + 2 * c s * a d - a s * a d)) (a s * a d)) d s
  | PinLight => mix (if Qle_bool (2 * c s) (a s) then qmin (c d * a s) (2 * c s * a d) else qmax (c d * a s) (2 * c s * a d - a s * a d)) d s
  | HardLight => mix (if Qle_bool (2 * c s) (a s) then 2 * c s * c d else a s * a d - 2 * (a d - c d) * (a s - c s)) d s
  | SoftLight =>
      let dc := c d / a d in
      let k := if Qle_bool (2 * c s) (a s) then dc * (1 - dc)
               else if Qle_bool (4 * dc) 1 then 4 * dc * (4 * dc * dc + dc - 4 * dc + 1) - dc else sqrt dc - dc in
      Pix (c d + c s * (1 - a d) + (2 * c s - a s) * a d * k) (a d + a s - a s * a d)
  | Difference => mix (c s * a d + c d * a s - 2 * qmin (c s * a d) (c d * a s)) d s
  | Exclusion => mix (c s * a d + c d * a s - 2 * c s * c d) d s
  | AlphaInv => Pix (1 - a d) (1 - a d)
  end.

(* A mask interpolates between the old and the new pixel (compop_p.h 60-65) *)
Definition lerp (m : Q) (d r : pix) : pix := Pix (c r * m + c d * (1 - m)) (a r * m + a d * (1 - m)).
Definition scale (m : Q) (s : pix) : pix := Pix (c s * m) (a s * m).
(* how a mask is applied: type A operators scale the source instead *)
Definition masked (sqrt : Q -> Q) (o : op) (m : Q) (d s : pix) : pix :=
  match f_type (op_flags o) with TypeA => compose sqrt o d (scale m s) | _ => lerp m d (compose sqrt o d s) end.

Definition unit (x : Q) : Prop := 0 <= x <= 1.
(* the pixels that memory of a format can hold; the alpha byte of XRGB32 has any value; A8 has no color *)
Definition valid (f : fmt) (p : pix) : Prop :=
  match f with
  | PRGB32 | PRGB64 => 0 <= c p <= a p /\ a p <= 1
  | XRGB32 => unit (c p) /\ unit (a p)
  | FRGB32 | FRGB64 => unit (c p) /\ a p = 1
  | ZERO32 | ZERO64 => c p = 0 /\ a p = 0
  | A8 => unit (a p)
  | FNone => False
  end.
(* the pixel that memory of a format stands for *)
Definition view (f : fmt) (p : pix) : pix :=
  match f with XRGB32 => Pix (c p) 1 | A8 => Pix (a p) (a p) | _ => p end.
Definition dst_format (f : fmt) : Prop := In f [PRGB32; XRGB32; A8].

(* two results in memory of a format that stand for the same pixel *)
Definition same (f : fmt) (p q : pix) : Prop :=
  match f with XRGB32 => c p == c q | A8 => a p == a q | _ => c p == c q /\ a p == a q end.
Definition solid_pix (i : info) (s : pix) : pix :=
  match i_solid i with
  | NoSolid => view (i_src i) s
  | Transparent => Pix 0 0
  | OpaqueBlack => Pix 0 1
  | OpaqueWhite => Pix 1 1
  | AlwaysNop => Pix 0 0
  end.
(* rendering with an entry of the table *)
Definition render (sqrt : Q -> Q) (i : info) (m : Q) (d s : pix) : pix :=
  match i_solid i with AlwaysNop => d | _ => masked sqrt (i_op i) m (view (i_dst i) d) (solid_pix i s) end.
