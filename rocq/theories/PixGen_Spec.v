(* What an operator does to one component: c is the component, sa the alpha of the source; all of them 0..255, products of two values
   divided by 255 and rounded to nearest. *)
From Verif Require Import Base PixelOps_Spec.

Definition scaled (x m : Z) : Z := round_div (x * m) 255.
Inductive pixop := OpSrcCopy | OpSrcOver | OpPlus.
Definition blend (o : pixop) (d s sa : Z) : Z :=
  match o with
  | OpSrcCopy => s
  | OpSrcOver => s + scaled d (255 - sa)
  | OpPlus => Z.min 255 (d + s)
  end.
Definition blend_masked (o : pixop) (d s sa m : Z) : Z :=
  match o with
  | OpSrcCopy => round_div (d * (255 - m) + s * m) 255
  | _ => blend o d (scaled s m) (scaled sa m)
  end.
