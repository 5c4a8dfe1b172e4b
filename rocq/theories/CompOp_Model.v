(* Model of the composition operators' tables: blend2d/core/compopsimplifyimpl_p.h (simplification of an operator for a pair of pixel
   formats), core/compopinfo.cpp (flags of the operators), core/compop_p.h. The packing of a table entry into 32 bits
   (compopinfo_p.h 82-97) is not modelled. *)
From Verif Require Import Base.

(* compop_p.h 19-52: CompOpExt *)
Inductive op := SrcOver | SrcCopy | SrcIn | SrcOut | SrcAtop | DstOver | DstCopy | DstIn | DstOut | DstAtop | Xor | Clear | Plus | Minus
  | Modulate | Multiply | Screen | Overlay | Darken | Lighten | ColorDodge | ColorBurn | LinearBurn | LinearLight | PinLight | HardLight
  | SoftLight | Difference | Exclusion | AlphaInv.
(* format_p.h 17-45: FormatExt *)
Inductive fmt := FNone | PRGB32 | XRGB32 | A8 | FRGB32 | ZERO32 | PRGB64 | FRGB64 | ZERO64.
(* compop_p.h 99-117: CompOpSolidId *)
Inductive solid := NoSolid | Transparent | OpaqueBlack | OpaqueWhite | AlwaysNop.
(* compopinfo_p.h 38-104: CompOpSimplifyInfo *)
Record info := Info { i_op : op; i_dst : fmt; i_src : fmt; i_solid : solid }.

Definition fmt_eq_dec (x y : fmt) : {x = y} + {x <> y}. Proof. decide equality. Defined.
Definition is (x y : fmt) : bool := if fmt_eq_dec x y then true else false.

(* compopsimplifyimpl_p.h: one function per operator, which call each other; n bounds the depth of the calls (the compiler does) *)
Fixpoint simp (n : nat) (o : op) (d s : fmt) : option info :=
  match n with
  | O => None
  | S n =>
    match o with
    (* lines 126-129, compopinfo_p.h 99-103 *)
    | DstCopy => Some (Info DstCopy FNone FNone AlwaysNop)
    (* lines 65-67 *)
    | AlphaInv => Some (Info AlphaInv d s OpaqueWhite)
    (* lines 79-85 *)
    | Clear =>
      if is d PRGB32 then Some (Info SrcCopy PRGB32 PRGB32 Transparent) else
      if is d XRGB32 then Some (Info SrcCopy PRGB32 PRGB32 OpaqueBlack) else
      if is d A8 then Some (Info SrcCopy A8 PRGB32 Transparent) else
      Some (Info Clear d s NoSolid)
    (* lines 103-117 *)
    | SrcCopy =>
      if is d PRGB32 && is s ZERO32 then Some (Info SrcCopy PRGB32 PRGB32 NoSolid) else
      if is d PRGB32 && is s FRGB32 then Some (Info SrcCopy PRGB32 PRGB32 NoSolid) else
      if is d XRGB32 && is s PRGB32 then Some (Info SrcCopy PRGB32 XRGB32 NoSolid) else
      if is d XRGB32 && is s ZERO32 then Some (Info SrcCopy PRGB32 XRGB32 NoSolid) else
      if is d XRGB32 && is s XRGB32 then Some (Info SrcCopy PRGB32 XRGB32 NoSolid) else
      if is d XRGB32 && is s FRGB32 then Some (Info SrcCopy PRGB32 PRGB32 NoSolid) else
      if is d A8 && is s ZERO32 then simp n Clear A8 ZERO32 else
      if is d A8 && is s XRGB32 then Some (Info SrcCopy d PRGB32 OpaqueWhite) else
      if is d A8 && is s FRGB32 then Some (Info SrcCopy d PRGB32 OpaqueWhite) else
      Some (Info SrcCopy d s NoSolid)
    (* lines 147-162 *)
    | SrcOver =>
      if is d PRGB32 && is s ZERO32 then simp n DstCopy PRGB32 PRGB32 else
      if is d PRGB32 && is s XRGB32 then simp n SrcCopy PRGB32 XRGB32 else
      if is d PRGB32 && is s FRGB32 then simp n SrcCopy PRGB32 FRGB32 else
      if is d XRGB32 && is s PRGB32 then simp n SrcOver PRGB32 PRGB32 else
      if is d XRGB32 && is s ZERO32 then simp n DstCopy PRGB32 PRGB32 else
      if is d XRGB32 && is s XRGB32 then simp n SrcCopy PRGB32 XRGB32 else
      if is d XRGB32 && is s FRGB32 then simp n SrcCopy PRGB32 FRGB32 else
      if is d A8 && is s ZERO32 then simp n DstCopy A8 PRGB32 else
      if is d A8 && is s XRGB32 then simp n SrcCopy A8 XRGB32 else
      if is d A8 && is s FRGB32 then simp n SrcCopy A8 FRGB32 else
      Some (Info SrcOver d s NoSolid)
    (* lines 180-189 *)
    | DstOver =>
      if is d PRGB32 && is s ZERO32 then simp n DstCopy PRGB32 PRGB32 else
      if is d PRGB32 && is s FRGB32 then simp n DstOver PRGB32 PRGB32 else
      if is d XRGB32 then simp n DstCopy d s else
      if is d A8 then simp n SrcOver d s else
      Some (Info DstOver d s NoSolid)
    (* lines 207-218 *)
    | SrcIn =>
      if is d PRGB32 && is s ZERO32 then simp n SrcIn PRGB32 PRGB32 else
      if is d PRGB32 && is s FRGB32 then simp n SrcIn PRGB32 PRGB32 else
      if is d XRGB32 then simp n SrcCopy d s else
      if is d A8 && is s ZERO32 then simp n Clear d s else
      if is d A8 && is s XRGB32 then simp n DstCopy d s else
      if is d A8 && is s FRGB32 then simp n DstCopy d s else
      Some (Info SrcIn d s NoSolid)
    (* lines 236-249 *)
    | DstIn =>
      if is d PRGB32 && is s ZERO32 then simp n SrcCopy d s else
      if is d PRGB32 && is s XRGB32 then simp n DstCopy d s else
      if is d PRGB32 && is s FRGB32 then simp n DstCopy d s else
      if is d XRGB32 && is s PRGB32 then simp n DstIn PRGB32 PRGB32 else
      if is d XRGB32 && is s ZERO32 then simp n DstIn PRGB32 FRGB32 else
      if is d XRGB32 && is s XRGB32 then simp n DstCopy d s else
      if is d XRGB32 && is s FRGB32 then simp n DstCopy d s else
      if is d A8 then simp n SrcIn d s else
      Some (Info DstIn d s NoSolid)
    (* lines 267-278 *)
    | SrcOut =>
      if is d PRGB32 && is s ZERO32 then simp n Clear d s else
      if is d PRGB32 && is s FRGB32 then simp n SrcOut PRGB32 PRGB32 else
      if is d XRGB32 then simp n Clear d s else
      if is d A8 && is s ZERO32 then simp n Clear d s else
      if is d A8 && is s XRGB32 then Some (Info AlphaInv d XRGB32 OpaqueWhite) else
      if is d A8 && is s FRGB32 then Some (Info AlphaInv d XRGB32 OpaqueWhite) else
      Some (Info SrcOut d s NoSolid)
    (* lines 296-310 *)
    | DstOut =>
      if is d PRGB32 && is s ZERO32 then simp n DstCopy d s else
      if is d PRGB32 && is s XRGB32 then simp n Clear d s else
      if is d PRGB32 && is s FRGB32 then simp n Clear d s else
      if is d XRGB32 && is s ZERO32 then simp n DstCopy d s else
      if is d XRGB32 && is s XRGB32 then simp n Clear d s else
      if is d XRGB32 && is s FRGB32 then simp n Clear d s else
      if is d A8 && is s ZERO32 then simp n DstCopy d s else
      if is d A8 && is s XRGB32 then simp n Clear d s else
      if is d A8 && is s FRGB32 then simp n Clear d s else
      Some (Info DstOut d s NoSolid)
    (* lines 328-341 *)
    | SrcAtop =>
      if is d PRGB32 && is s ZERO32 then simp n DstCopy d s else
      if is d PRGB32 && is s XRGB32 then simp n SrcIn d s else
      if is d PRGB32 && is s FRGB32 then simp n SrcIn d s else
      if is d XRGB32 && is s PRGB32 then simp n SrcOver d s else
      if is d XRGB32 && is s ZERO32 then simp n SrcOver d s else
      if is d XRGB32 && is s XRGB32 then simp n SrcCopy d s else
      if is d XRGB32 && is s FRGB32 then simp n SrcCopy d s else
      if is d A8 then simp n DstCopy d s else
      Some (Info SrcAtop d s NoSolid)
    (* lines 359-372 *)
    | DstAtop =>
      if is d PRGB32 && is s ZERO32 then simp n Clear d s else
      if is d PRGB32 && is s XRGB32 then simp n DstOver d s else
      if is d PRGB32 && is s FRGB32 then simp n DstOver d s else
      if is d XRGB32 && is s PRGB32 then simp n DstIn d s else
      if is d XRGB32 && is s ZERO32 then simp n Clear d s else
      if is d XRGB32 && is s XRGB32 then simp n DstCopy d s else
      if is d XRGB32 && is s FRGB32 then simp n DstCopy d s else
      if is d A8 then simp n SrcCopy d s else
      Some (Info DstAtop d s NoSolid)
    (* lines 390-405 *)
    | Xor =>
      if is d PRGB32 && is s ZERO32 then simp n DstCopy d s else
      if is d PRGB32 && is s XRGB32 then simp n SrcOut d s else
      if is d PRGB32 && is s FRGB32 then simp n SrcOut d s else
      if is d XRGB32 && is s PRGB32 then simp n DstOut d s else
      if is d XRGB32 && is s ZERO32 then simp n DstCopy d s else
      if is d XRGB32 && is s XRGB32 then simp n Clear d s else
      if is d XRGB32 && is s FRGB32 then simp n Clear d s else
      if is d A8 && is s ZERO32 then simp n DstCopy d s else
      if is d A8 && is s XRGB32 then Some (Info AlphaInv d XRGB32 OpaqueWhite) else
      if is d A8 && is s FRGB32 then Some (Info AlphaInv d XRGB32 OpaqueWhite) else
      Some (Info Xor d s NoSolid)
    (* lines 423-437 *)
    | Plus =>
      if is d PRGB32 && is s ZERO32 then simp n DstCopy d s else
      if is d PRGB32 && is s FRGB32 then simp n Plus PRGB32 PRGB32 else
      if is d XRGB32 && is s PRGB32 then simp n Plus PRGB32 PRGB32 else
      if is d XRGB32 && is s ZERO32 then simp n DstCopy d s else
      if is d XRGB32 && is s XRGB32 then simp n Plus PRGB32 PRGB32 else
      if is d XRGB32 && is s FRGB32 then simp n Plus PRGB32 PRGB32 else
      if is d A8 && is s ZERO32 then simp n DstCopy d s else
      if is d A8 && is s XRGB32 then Some (Info Plus d PRGB32 OpaqueWhite) else
      if is d A8 && is s FRGB32 then Some (Info Plus d PRGB32 OpaqueWhite) else
      Some (Info Plus d s NoSolid)
    (* lines 458-470 *)
    | Minus =>
      if is d PRGB32 && is s ZERO32 then simp n DstCopy d s else
      if is d PRGB32 && is s FRGB32 then simp n Minus PRGB32 PRGB32 else
      if is d XRGB32 && is s PRGB32 then simp n Minus PRGB32 PRGB32 else
      if is d XRGB32 && is s ZERO32 then simp n DstCopy d s else
      if is d XRGB32 && is s FRGB32 then simp n Minus PRGB32 PRGB32 else
      if is d XRGB32 && is s XRGB32 then simp n Minus PRGB32 PRGB32 else
      if is d A8 then simp n SrcOver d s else
      Some (Info Minus d s NoSolid)
    (* lines 496-507 *)
    | Modulate =>
      if is d PRGB32 && is s ZERO32 then Some (Info SrcCopy PRGB32 PRGB32 Transparent) else
      if is d PRGB32 && is s FRGB32 then simp n Modulate PRGB32 PRGB32 else
      if is d XRGB32 && is s ZERO32 then Some (Info SrcCopy PRGB32 PRGB32 OpaqueBlack) else
      if is d XRGB32 && is s FRGB32 then simp n Modulate XRGB32 PRGB32 else
      if is d XRGB32 && is s XRGB32 then simp n Modulate XRGB32 PRGB32 else
      if is d A8 || is s A8 then simp n DstIn d s else
      Some (Info Modulate d s NoSolid)
    (* lines 533-544 *)
    | Multiply =>
      if is d PRGB32 && is s ZERO32 then simp n DstCopy d s else
      if is d PRGB32 && is s FRGB32 then simp n Multiply PRGB32 XRGB32 else
      if is d XRGB32 && is s ZERO32 then simp n DstCopy d s else
      if is d XRGB32 && is s FRGB32 then simp n Modulate XRGB32 XRGB32 else
      if is d XRGB32 && is s XRGB32 then simp n Modulate XRGB32 XRGB32 else
      if is d A8 || is s A8 then simp n DstOver d s else
      Some (Info Multiply d s NoSolid)
    (* lines 571-583 *)
    | Screen =>
      if is d PRGB32 && is s ZERO32 then simp n DstCopy d s else
      if is d PRGB32 && is s FRGB32 then simp n Screen PRGB32 PRGB32 else
      if is d XRGB32 && is s PRGB32 then simp n Screen PRGB32 PRGB32 else
      if is d XRGB32 && is s ZERO32 then simp n DstCopy d s else
      if is d XRGB32 && is s FRGB32 then simp n Screen PRGB32 PRGB32 else
      if is d XRGB32 && is s XRGB32 then simp n Screen PRGB32 XRGB32 else
      if is d A8 || is s A8 then simp n SrcOver d s else
      Some (Info Screen d s NoSolid)
    (* lines 615-625 *)
    | Overlay =>
      if is d PRGB32 && is s ZERO32 then simp n DstCopy d s else
      if is d PRGB32 && is s FRGB32 then simp n Overlay PRGB32 XRGB32 else
      if is d XRGB32 && is s ZERO32 then simp n DstCopy d s else
      if is d XRGB32 && is s FRGB32 then simp n Overlay XRGB32 XRGB32 else
      if is d A8 then simp n SrcOver d s else
      Some (Info Overlay d s NoSolid)
    (* lines 655-665 *)
    | Darken =>
      if is d PRGB32 && is s ZERO32 then simp n DstCopy d s else
      if is d PRGB32 && is s FRGB32 then simp n Darken PRGB32 XRGB32 else
      if is d XRGB32 && is s ZERO32 then simp n DstCopy d s else
      if is d XRGB32 && is s FRGB32 then simp n Darken XRGB32 XRGB32 else
      if is d A8 || is s A8 then simp n DstOver d s else
      Some (Info Darken d s NoSolid)
    (* lines 695-705 *)
    | Lighten =>
      if is d PRGB32 && is s ZERO32 then simp n DstCopy d s else
      if is d PRGB32 && is s FRGB32 then simp n Lighten PRGB32 XRGB32 else
      if is d XRGB32 && is s ZERO32 then simp n DstCopy d s else
      if is d XRGB32 && is s FRGB32 then simp n Lighten XRGB32 XRGB32 else
      if is d A8 || is s A8 then simp n SrcOver d s else
      Some (Info Lighten d s NoSolid)
    (* lines 731-741 *)
    | ColorDodge =>
      if is d PRGB32 && is s ZERO32 then simp n DstCopy d s else
      if is d PRGB32 && is s FRGB32 then simp n ColorDodge PRGB32 PRGB32 else
      if is d XRGB32 && is s ZERO32 then simp n DstCopy d s else
      if is d XRGB32 && is s FRGB32 then simp n ColorDodge XRGB32 XRGB32 else
      if is d A8 || is s A8 then simp n SrcOver d s else
      Some (Info ColorDodge d s NoSolid)
    (* lines 767-777 *)
    | ColorBurn =>
      if is d PRGB32 && is s ZERO32 then simp n DstCopy d s else
      if is d PRGB32 && is s FRGB32 then simp n ColorBurn PRGB32 XRGB32 else
      if is d XRGB32 && is s ZERO32 then simp n DstCopy d s else
      if is d XRGB32 && is s FRGB32 then simp n ColorBurn XRGB32 XRGB32 else
      if is d A8 || is s A8 then simp n DstOver d s else
      Some (Info ColorBurn d s NoSolid)
    (* lines 803-813 *)
    | LinearBurn =>
      if is d PRGB32 && is s ZERO32 then simp n DstCopy d s else
      if is d PRGB32 && is s FRGB32 then simp n LinearBurn PRGB32 XRGB32 else
      if is d XRGB32 && is s ZERO32 then simp n DstCopy d s else
      if is d XRGB32 && is s FRGB32 then simp n LinearBurn XRGB32 XRGB32 else
      if is d A8 || is s A8 then simp n DstOver d s else
      Some (Info LinearBurn d s NoSolid)
    (* lines 839-849 *)
    | LinearLight =>
      if is d PRGB32 && is s ZERO32 then simp n DstCopy d s else
      if is d PRGB32 && is s FRGB32 then simp n LinearLight PRGB32 XRGB32 else
      if is d XRGB32 && is s ZERO32 then simp n DstCopy d s else
      if is d XRGB32 && is s FRGB32 then simp n LinearLight XRGB32 XRGB32 else
      if is d A8 || is s A8 then simp n SrcOver d s else
      Some (Info LinearLight d s NoSolid)
    (* lines 905-915 *)
    | PinLight =>
      if is d PRGB32 && is s ZERO32 then simp n DstCopy d s else
      if is d PRGB32 && is s FRGB32 then simp n PinLight PRGB32 XRGB32 else
      if is d XRGB32 && is s ZERO32 then simp n DstCopy d s else
      if is d XRGB32 && is s FRGB32 then simp n PinLight XRGB32 XRGB32 else
      if is d A8 || is s A8 then simp n SrcOver d s else
      Some (Info PinLight d s NoSolid)
    (* lines 971-981 *)
    | HardLight =>
      if is d PRGB32 && is s ZERO32 then simp n DstCopy d s else
      if is d PRGB32 && is s FRGB32 then simp n HardLight PRGB32 XRGB32 else
      if is d XRGB32 && is s ZERO32 then simp n DstCopy d s else
      if is d XRGB32 && is s FRGB32 then simp n HardLight XRGB32 XRGB32 else
      if is d A8 || is s A8 then simp n SrcOver d s else
      Some (Info HardLight d s NoSolid)
    (* lines 1005-1015 *)
    | SoftLight =>
      if is d PRGB32 && is s ZERO32 then simp n DstCopy d s else
      if is d PRGB32 && is s FRGB32 then simp n SoftLight PRGB32 XRGB32 else
      if is d XRGB32 && is s ZERO32 then simp n DstCopy d s else
      if is d XRGB32 && is s FRGB32 then simp n SoftLight XRGB32 XRGB32 else
      if is d A8 then simp n SrcOver d s else
      Some (Info SoftLight d s NoSolid)
    (* lines 1041-1051 *)
    | Difference =>
      if is d PRGB32 && is s ZERO32 then simp n DstCopy d s else
      if is d PRGB32 && is s FRGB32 then simp n Difference PRGB32 PRGB32 else
      if is d XRGB32 && is s ZERO32 then simp n DstCopy d s else
      if is d XRGB32 && is s FRGB32 then simp n Difference XRGB32 PRGB32 else
      if is d A8 then simp n SrcOver d s else
      Some (Info Difference d s NoSolid)
    (* lines 1077-1087 *)
    | Exclusion =>
      if is d PRGB32 && is s ZERO32 then simp n DstCopy d s else
      if is d PRGB32 && is s FRGB32 then simp n Exclusion PRGB32 PRGB32 else
      if is d XRGB32 && is s ZERO32 then simp n DstCopy d s else
      if is d XRGB32 && is s FRGB32 then simp n Exclusion XRGB32 PRGB32 else
      if is d A8 then simp n SrcOver d s else
      Some (Info Exclusion d s NoSolid)
    end
  end.
(* lines 1089-1136: dispatch; four calls are enough (theorem C60_defined) *)
Definition simplify : op -> fmt -> fmt -> option info := simp 4.

(* compop_p.h 57-96, compopinfo.cpp 13-55: the flags of an operator. Type A, B or C; uses Dc, Da, Sc, Sa; no operation in all cases,
   if Da = 0, if Da = 1, if Sa = 0, if Sa = 1 *)
Inductive mask_type := TypeA | TypeB | TypeC.
Record flags := Flags { f_type : mask_type; f_dc : bool; f_da : bool; f_sc : bool; f_sa : bool;
  f_nop : bool; f_nop_da0 : bool; f_nop_da1 : bool; f_nop_sa0 : bool; f_nop_sa1 : bool }.
Definition op_flags (o : op) : flags :=
  match o with
  | SrcOver => Flags TypeA true true true true false false false true false
  | SrcCopy => Flags TypeB false false true true false false false false false
  | SrcIn => Flags TypeB false true true true false true false false false
  | SrcOut => Flags TypeB false true true true false false false false false
  | SrcAtop => Flags TypeA true true true true false true false true false
  | DstOver => Flags TypeA true true true true false false true true false
  | DstCopy => Flags TypeC true true false false true false false false false
  | DstIn => Flags TypeB true true false true false false false false true
  | DstOut => Flags TypeA true true false true false false false true false
  | DstAtop => Flags TypeB true true true true false false false false false
  | Xor => Flags TypeA true true true true false false false true false
  | Clear => Flags TypeC false false false false false true false false false
  | Plus => Flags TypeA true true true true false false false true false
  | Minus => Flags TypeC true true true true false false false true false
  | Modulate => Flags TypeB true true true true false true false false false
  | Multiply => Flags TypeA true true true true false true false true false
  | Screen => Flags TypeA true true true true false false false true false
  | Overlay => Flags TypeA true true true true false false false true false
  | Darken => Flags TypeA true true true true false false false true false
  | Lighten => Flags TypeA true true true true false false false true false
  | ColorDodge => Flags TypeA true true true true false false false true false
  | ColorBurn => Flags TypeA true true true true false false false true false
  | LinearBurn => Flags TypeA true true true true false false false true false
  | LinearLight => Flags TypeA true true true true false false false true false
  | PinLight => Flags TypeC true true true true false false false true false
  | HardLight => Flags TypeA true true true true false false false true false
  | SoftLight => Flags TypeA true true true true false false false true false
  | Difference => Flags TypeA true true true true false false false true false
  | Exclusion => Flags TypeA true true true true false false false true false
  | AlphaInv => Flags TypeC false true false false false false false false false
  end.
