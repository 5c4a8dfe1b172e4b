(* The colour tables of gradients: interpolate_prgb32 and interpolate_prgb64 (blend2d/pixelops/interpolation.cpp).
   Simplification: the position uint32_t(round_to_int(offset * fWidth)) of a stop is an input of the model; offsets in
   0..1 give positions in 0..(size - 1) * 256, in the order of the offsets. *)
From Verif Require Import Base Algorithm_Model PixelOps_Model.

(* int32_t(x) of a uint32_t *)
Definition s32 (x : Z) : Z := if x <? 2147483648 then x else x - 4294967296.
(* uint32_t(int32_t(x - y) / int32_t(i)) (lines 78-80); C++ division rounds towards zero, INT_MIN / -1 does not occur
   because i is positive *)
Definition step (x y i : Z) : Z := w32 (Z.quot (s32 (w32 (x - y))) (s32 i)).

(* RgbaInternal::rgba32FromRgba64 (core/rgba_p.h lines 67-74): the upper byte of each component *)
Definition rgba32_of_rgba64 (c : Z) : Z :=
  Z.lor (Z.lor (Z.shiftl (Z.land (Z.shiftr c 56) 255) 24) (Z.shiftl (Z.land (Z.shiftr c 40) 255) 16))
        (Z.lor (Z.shiftl (Z.land (Z.shiftr c 24) 255) 8) (Z.land (Z.shiftr c 8) 255)).

(* interpolate_prgb32 lines 64-131: the values stored by the inner loop; [n] is i after the first pixel of the span *)
Definition mask32 : Z := 2139095040. (* 0xFF << 23 *)
Definition pack_opaque32 (r g b : Z) : Z :=
  w32 (w32 (w32 (4278190080 + Z.shiftr (Z.land r mask32) 7) + Z.shiftr (Z.land g mask32) 15) + Z.shiftr (Z.land b mask32) 23).
Definition premul_inline32 (a r g b : Z) : Z :=
  let cp := w32 (Z.shiftr (Z.land b mask32) 23 + Z.shiftr (Z.land r mask32) 7) in
  let ca := Z.shiftr (Z.land a mask32) 23 in
  let cg := Z.shiftr (Z.land g mask32) 23 in
  let cp := w32 (w32 (cp * ca) + 0x00800080) in
  let cg := w32 (w32 (cg * ca) + 0x00000080) in
  let ca := w32 (Z.shiftl ca 24) in
  let cp := Z.shiftr (Z.land (w32 (cp + Z.shiftr (Z.land cp 0xFF00FF00) 8)) 0xFF00FF00) 8 in
  let cg := Z.land (w32 (cg + Z.shiftr (Z.land cg 0xFF00FF00) 8)) 0xFF00FF00 in
  w32 (cp + w32 (cg + ca)).
Fixpoint opaque_loop32 (n : nat) (r g b ri gi bi : Z) : list Z :=
  match n with
  | O => []
  | S n =>
    let r := w32 (r + ri) in let g := w32 (g + gi) in let b := w32 (b + bi) in
    pack_opaque32 r g b :: opaque_loop32 n r g b ri gi bi
  end.
Fixpoint alpha_loop32 (n : nat) (a r g b ai ri gi bi : Z) : list Z :=
  match n with
  | O => []
  | S n =>
    let a := w32 (a + ai) in let r := w32 (r + ri) in let g := w32 (g + gi) in let b := w32 (b + bi) in
    premul_inline32 a r g b :: alpha_loop32 n a r g b ai ri gi bi
  end.
Definition span32 (c0 c1 i : Z) : list Z :=
  let r := Z.land (w32 (Z.shiftl c0 7)) mask32 in
  let g := Z.land (w32 (Z.shiftl c0 15)) mask32 in
  let b := Z.land (w32 (Z.shiftl c0 23)) mask32 in
  let ri := step (Z.land (w32 (Z.shiftl c1 7)) mask32) r i in
  let gi := step (Z.land (w32 (Z.shiftl c1 15)) mask32) g i in
  let bi := step (Z.land (w32 (Z.shiftl c1 23)) mask32) b i in
  let r := w32 (r + 4194304) in let g := w32 (g + 4194304) in let b := w32 (b + 4194304) in
  if 4278190080 <=? Z.land c0 c1 then opaque_loop32 (Z.to_nat i) r g b ri gi bi
  else
    let a := Z.land (Z.shiftr c0 1) mask32 in
    let ai := step (Z.land (Z.shiftr c1 1) mask32) a i in
    let a := w32 (a + 4194304) in
    alpha_loop32 (Z.to_nat i) a r g b ai ri gi bi.

(* interpolate_prgb64 lines 209-270 *)
Definition mask64 : Z := 2147450880. (* 0xFFFF << 15 *)
Definition pack_opaque64 (r g b : Z) : Z :=
  Z.lor (Z.lor (Z.lor (w64 (Z.shiftl (Z.land r mask64) 17)) (w64 (Z.shiftl (Z.land g mask64) 1))) (Z.shiftr (Z.land b mask64) 15)) 18446462598732840960.
(* RgbaInternal::packRgba64 (core/rgba_p.h lines 45-55) *)
Definition pack_rgba64 (r g b a : Z) : Z :=
  Z.lor (w64 (Z.shiftl (Z.lor (w32 (Z.shiftl a 16)) r) 32)) (Z.lor (w32 (Z.shiftl g 16)) b).
Definition premul_inline64 (a r g b : Z) : Z :=
  let ca := Z.shiftr a 15 in
  let cr := udiv65535 (w32 (Z.shiftr r 15 * ca)) in
  let cg := udiv65535 (w32 (Z.shiftr g 15 * ca)) in
  let cb := udiv65535 (w32 (Z.shiftr b 15 * ca)) in
  pack_rgba64 cr cg cb ca.
Fixpoint opaque_loop64 (n : nat) (r g b ri gi bi : Z) : list Z :=
  match n with
  | O => []
  | S n =>
    let r := w32 (r + ri) in let g := w32 (g + gi) in let b := w32 (b + bi) in
    pack_opaque64 r g b :: opaque_loop64 n r g b ri gi bi
  end.
Fixpoint alpha_loop64 (n : nat) (a r g b ai ri gi bi : Z) : list Z :=
  match n with
  | O => []
  | S n =>
    let a := w32 (a + ai) in let r := w32 (r + ri) in let g := w32 (g + gi) in let b := w32 (b + bi) in
    premul_inline64 a r g b :: alpha_loop64 n a r g b ai ri gi bi
  end.
Definition span64 (c0 c1 i : Z) : list Z :=
  let r := w32 (Z.land (Z.shiftr c0 17) mask64) in
  let g := w32 (Z.land (Z.shiftr c0 1) mask64) in
  let b := w32 (Z.land (w64 (Z.shiftl c0 15)) mask64) in
  let ri := step (w32 (Z.land (Z.shiftr c1 17) mask64)) r i in
  let gi := step (w32 (Z.land (Z.shiftr c1 1) mask64)) g i in
  let bi := step (w32 (Z.land (w64 (Z.shiftl c1 15)) mask64)) b i in
  let r := w32 (r + 16384) in let g := w32 (g + 16384) in let b := w32 (b + 16384) in
  if Z.land (Z.land c0 c1) 18446462598732840960 =? 18446462598732840960 then opaque_loop64 (Z.to_nat i) r g b ri gi bi
  else
    let a := w32 (Z.land (Z.shiftr c0 33) mask64) in
    let ai := step (w32 (Z.land (Z.shiftr c1 33) mask64)) a i in
    let a := w32 (a + 16384) in
    alpha_loop64 (Z.to_nat i) a r g b ai ri gi bi.

(* The code around the inner loops is the same text in both functions; [conv] reads the colour of a stop, [premul] is
   the conversion to premultiplied form and [span] the inner loop. *)
Section Interpolate.
  Context (conv premul : Z -> Z) (span : Z -> Z -> Z -> list Z).

  (* dSpanPtr[0] = value; dSpanPtr++ for each value *)
  Fixpoint put (t : list Z) (at_ : Z) (vals : list Z) : outcome (list Z) :=
    match vals with [] => Ok t | v :: r => let* t := wr t at_ v in put t (at_ + 1) r end.

  (* SolidInit (lines 54-136): paints [i] entries from [at_] and returns the pointer after them. i = 0 would make the
     do-while loop run 2^32 times. *)
  Definition paint (t : list Z) (at_ i c0 c1 : Z) : outcome (list Z * Z) :=
    if i <=? 0 then UB
    else
      let cp := premul c0 in
      if c0 =? c1 then let* t := put t at_ (repeat cp (Z.to_nat i)) in Ok (t, at_ + i)
      else
        let* t := wr t at_ cp in
        if i - 1 =? 0 then Ok (t, at_ + 1)
        else let* t := put t (at_ + 1) (span c0 c1 (i - 1)) in Ok (t, at_ + i).

  (* the loop over the stops (lines 41-139) *)
  Fixpoint stops_loop (t : list Z) (at_ c0 p0 : Z) (stops : list (Z * Z)) : outcome (list Z * Z * Z) :=
    match stops with
    | [] => Ok (t, at_, c0)
    | (p1, rgba) :: r =>
      let c1 := conv rgba in
      let i := w32 (Z.shiftr p1 8 - Z.shiftr p0 8) in
      let c0 := if i =? 0 then c1 else c0 in
      let* (t, at_) := paint t (Z.shiftr p0 8) (w32 (i + 1)) c0 c1 in
      stops_loop t at_ c1 p1 r
    end.

  (* the whole function (lines 19-154 and 163-286); [t] is the table before the call *)
  Definition interpolate (t : list Z) (d_size : Z) (stops : list (Z * Z)) : outcome (list Z) :=
    match stops with
    | [] => UB
    | (_, rgba) :: _ =>
      let c := conv rgba in
      let* (t, at_, c0) :=
        if Z.of_nat (length stops) =? 1 then let* t := put t 0 (repeat (premul c) (Z.to_nat d_size)) in Ok (t, d_size, c)
        else stops_loop t 0 c 0 stops in
      let i := w32 (d_size - at_) in
      let* t := if i =? 0 then Ok t else let* (t, _) := paint t at_ i c0 c0 in Ok t in
      wr t 0 (premul c)
    end.
End Interpolate.

Definition interpolate32 : list Z -> Z -> list (Z * Z) -> outcome (list Z) :=
  interpolate rgba32_of_rgba64 cvt_prgb32_from_argb32 span32.
Definition interpolate64 : list Z -> Z -> list (Z * Z) -> outcome (list Z) :=
  interpolate (fun c => c) cvt_prgb64_from_argb64 span64.
