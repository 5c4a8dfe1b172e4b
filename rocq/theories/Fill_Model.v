(* Model of the reference pipelines' fillers: blend2d/pipeline/reference/compopgeneric_p.h 83-186 (spans), fillgeneric_p.h 22-160
   (FillBoxA, FillMask) and blend2d/pipeline/pipedefs_p.h 419-546, 637-813 (mask commands, decomposition of a box with fractional
   coordinates into mask commands).
   Destination memory is a partial function from addresses, in units of one pixel relative to pixel_data; access elsewhere is UB. The
   stride is in pixels (a multiple of the pixel size). The fetch part is abstract: a pixel of the source is determined by its position,
   spanStartX/rectStartX set the position, fetching moves it by one, spanAdvanceX by the given distance, advance_y to the next row. *)
From Verif Require Import Base Algorithm_Model PixelOps_Model.

Section Fill.
Context {P : Type}.
(* the operator: masked and opaque, applied to the source pixel at (x, y) and the destination pixel *)
Context (comp : Z -> Z -> P -> Z -> P) (comp_opaque : Z -> Z -> P -> P) (optimize : bool).

Definition mem := Z -> option P.
Definition put (m : mem) (a : Z) (v : P) : mem := fun x => if x =? a then Some v else m x.
Record st := St { s_mem : mem; s_dst : Z; s_fx : Z; s_fy : Z }.
Definition set_dst (s : st) (d : Z) : st := St (s_mem s) d (s_fx s) (s_fy s).
Definition set_fx (s : st) (x : Z) : st := St (s_mem s) (s_dst s) x (s_fy s).
Definition advance_x (s : st) (diff : Z) : st := set_fx s (s_fx s + diff).
Definition advance_y (s : st) : st := St (s_mem s) (s_dst s) (s_fx s) (s_fy s + 1).

(* compopgeneric_p.h 122-136 *)
Definition pixel (s : st) (f : Z -> Z -> P -> P) : outcome st :=
  match s_mem s (s_dst s) with
  | None => UB
  | Some d => Ok (St (put (s_mem s) (s_dst s) (f (s_fx s) (s_fy s) d)) (s_dst s + 1) (s_fx s + 1) (s_fy s))
  end.
Definition pixel_opaque (s : st) : outcome st := pixel s comp_opaque.
Definition pixel_masked (s : st) (m : Z) : outcome st := pixel s (fun x y d => comp x y d m).

(* 138-160: do-while loops; w = 0 would wrap around (size_t) and leave the memory *)
Fixpoint times (n : nat) (f : st -> outcome st) (s : st) : outcome st :=
  match n with O => Ok s | S n => let* s := f s in times n f s end.
Definition cspan_opaque (s : st) (w : Z) : outcome st := if w =? 0 then UB else times (Z.to_nat w) pixel_opaque s.
Definition cspan_masked (s : st) (w m : Z) : outcome st := if w =? 0 then UB else times (Z.to_nat w) (fun s => pixel_masked s m) s.
Definition cspan (s : st) (w m : Z) : outcome st := if optimize && (m =? 255) then cspan_opaque s w else cspan_masked s w m.
(* 162-186; the mask is memory md of bytes, a mask pointer an index *)
Fixpoint vspan_loop (n : nat) (g : Z -> Z) (md : list Z) (p : Z) (s : st) : outcome st :=
  match n with
  | O => Ok s
  | S n => let* v := rd md p in let* s := pixel_masked s (g v) in vspan_loop n g md (p + 1) s
  end.
Definition vspan_with_ga (s : st) (md : list Z) (p w : Z) : outcome st := if w =? 0 then UB else vspan_loop (Z.to_nat w) (fun v => v) md p s.
Definition vspan_without_ga (s : st) (md : list Z) (p alpha w : Z) : outcome st :=
  if w =? 0 then UB else vspan_loop (Z.to_nat w) (fun v => udiv255 (w32 (v * alpha))) md p s.

(* fillgeneric_p.h 24-63 *)
Fixpoint box_loop (h : nat) (f : st -> outcome st) (x0 stride : Z) (s : st) : outcome st :=
  match h with
  | O => Ok s
  | S h => let* s := f (set_fx s x0) in box_loop h f x0 stride (advance_y (set_dst s (s_dst s + stride)))
  end.
Definition fill_box_a (m : mem) (stride x0 y0 x1 y1 msk : Z) : outcome mem :=
  let dst := y0 * stride + x0 in
  let w := w32 (x1 - x0) in
  let h := w32 (y1 - y0) in
  let stride := stride - w in
  if h =? 0 then UB (* 44 BL_ASSUME *) else
  let* s := box_loop (Z.to_nat h) (fun s => if optimize && (msk =? 255) then cspan_opaque s w else cspan_masked s w msk)
    x0 stride (St m dst x0 y0) in
  Ok (s_mem s).

(* pipedefs_p.h 98-106, 419-505 *)
Record cmd := Cmd { c_x0 : Z; c_x1t : Z; c_val : Z; c_adv : Z }.
Definition kCMask : Z := 1.
Definition kVMaskA8WithGA : Z := 2.
Definition kVMaskA8WithoutGA : Z := 3.
Definition type_and_x1 (t x1 : Z) : Z := Z.lor t (w32 (Z.shiftl x1 3)).
Definition init_cmask_a8 (x0 x1 v : Z) : cmd := Cmd x0 (type_and_x1 kCMask x1) v 0.
Definition init_vmask (t x0 x1 p adv : Z) : cmd := Cmd x0 (type_and_x1 t x1) p (w64 adv).
(* init_end and init_repeat do not write _value and _mask_advance; nothing reads them *)
Definition init_repeat (n : Z) : cmd := Cmd n 0 0 0.
Definition init_end : cmd := init_repeat 1.

(* fillgeneric_p.h 106-141: the commands of one scanline; cp points behind the current command *)
Fixpoint row_loop (n : nat) (md : list Z) (alpha : Z) (cmds : list cmd) (cp i x ty mv : Z) (s : st) : outcome (list cmd * Z * Z * st) :=
  match n with
  | O => NoFuel
  | S n =>
    let* (cmds, s) :=
      if ty =? kCMask then
        let* s := cspan s i (w32 mv) in Ok (cmds, s)
      else
        let* c := rd cmds (cp - 1) in
        let* cmds := wr cmds (cp - 1) (Cmd (c_x0 c) (c_x1t c) (w64 (mv + c_adv c)) (c_adv c)) in
        let* s := if ty =? kVMaskA8WithoutGA then vspan_without_ga s md mv alpha i else vspan_with_ga s md mv i in
        Ok (cmds, s) in
    let* c := rd cmds cp in
    if Z.land (c_x1t c) 7 =? 0 then Ok (cmds, cp, x, s) else
    (* 127-131: the fetcher skips the gap; dst_ptr is not moved *)
    let s := if x =? c_x0 c then s else advance_x s (w32 (c_x0 c - x)) in
    let x := c_x0 c in
    let i := w32 (Z.shiftr (c_x1t c) 3 - x) in
    row_loop n md alpha cmds (cp + 1) i (w32 (x + i)) (Z.land (c_x1t c) 7) (c_val c) s
  end.
(* 81-159 *)
Fixpoint mask_loop (h : nat) (md : list Z) (alpha stride : Z) (cmds : list cmd) (cp : Z) (s : st) : outcome mem :=
  match h with
  | O => NoFuel
  | S h =>
    let* c := rd cmds cp in
    let* (cmds, cp', s) :=
      if Z.land (c_x1t c) 7 =? 0 then Ok (cmds, cp, s) else
      let x := c_x0 c in
      let s := set_fx s x in
      let s := set_dst s (s_dst s + x) in
      let i := w32 (Z.shiftr (c_x1t c) 3 - x) in
      let* (cmds, cp', x, s) := row_loop (length cmds) md alpha cmds (cp + 1) i (w32 (x + i)) (Z.land (c_x1t c) 7) (c_val c) s in
      Ok (cmds, cp', set_dst s (s_dst s - x)) in
    let* e := rd cmds cp' in
    match h with
    | O => Ok (s_mem s)
    | _ =>
      let s := advance_y (set_dst s (s_dst s + stride)) in
      let rep := w32 (c_x0 e - 1) in
      let* cmds := wr cmds cp' (Cmd rep (c_x1t e) (c_val e) (c_adv e)) in
      mask_loop h md alpha stride cmds (if rep =? 0 then cp' + 1 else cp) s
    end
  end.
Definition fill_mask (m : mem) (stride y0 y1 alpha : Z) (md : list Z) (cmds : list cmd) : outcome mem :=
  mask_loop (Z.to_nat (w32 (y1 - y0))) md alpha stride cmds 0 (St m (y0 * stride) 0 y0).
End Fill.

(* pipedefs_p.h 520-546: 4 zeros and 28 times m *)
Definition mask_line (m : Z) : list Z := repeat 0 4 ++ repeat (w8 m) 28.

(* pipedefs_p.h 637-813 init_box_u_8bpc_24x8: the mask commands, the mask data, the rows of the box and the result; the arrays hold the
   commands in the order of mask_cmd (commands that are overwritten or behind the last used one are not listed) *)
Record boxu := BoxU { u_cmds : list cmd; u_data : list Z; u_y0 : Z; u_y1 : Z; u_draw : bool }.
Definition set_byte (l : list Z) (i v : Z) : list Z := upd l (Z.to_nat i) (w8 v).
Definition b2z (b : bool) : Z := if b then 1 else 0.
Definition init_box_u (alpha x0 y0 x1 y1 : Z) : boxu :=
  let ax0 := Z.shiftr x0 8 in
  let ay0 := Z.shiftr y0 8 in
  let ax1 := Z.shiftr (x1 + 0xFF) 8 in
  let ay1 := Z.shiftr (y1 + 0xFF) 8 in
  let fx0 := Z.land x0 0xFF in
  let fy0 := Z.land y0 0xFF in
  let fx1 := Z.land (x1 - 1) 0xFF + 1 in
  let fy1 := Z.land (y1 - 1) 0xFF + 1 in
  let w := w32 (ax1 - ax0) in
  let h := w32 (ay1 - ay0) in
  let fy0 := (if h =? 1 then fy1 else 256) - fy0 in
  let fy0_a := w32 (fy0 * alpha) in
  let fy1_a := w32 (fy1 * alpha) in
  let bottom := ay0 + h in
  if w =? 1 then
    let fx0 := fx1 - fx0 in
    let m0 := Z.shiftr (w32 (fx0 * fy0_a)) 16 in
    let line m := [init_cmask_a8 ax0 ax1 m] in
    if h =? 1 then BoxU (line m0 ++ [init_end]) [] ay0 bottom (negb (m0 =? 0)) else
    let m1 := Z.shiftr (w32 (fx0 * alpha)) 8 in
    let m2 := Z.shiftr (w32 (fx0 * fy1_a)) 16 in
    let top := ay0 + b2z (m0 =? 0) in
    let bottom := bottom - b2z (m2 =? 0) in
    BoxU ((if m0 =? 0 then [] else line m0 ++ [init_end]) ++
          (if 2 <? h then line m1 ++ [init_repeat (w32 (h - 2))] else []) ++ line m2 ++ [init_end]) []
      top bottom ((top <? bottom) && negb (m1 =? 0))
  else
    let m0x1 := Z.shiftr fy0_a 8 in
    let m1x1 := alpha in
    let m2x1 := Z.shiftr fy1_a 8 in
    let fx0 := 256 - fx0 in
    let top := ay0 + b2z (m0x1 =? 0) in
    let bottom := bottom - b2z (m2x1 =? 0) in
    let finish l0 l1 l2 data :=
      BoxU ((if m0x1 =? 0 then [] else l0 ++ [init_end]) ++ (if 2 <? h then l1 ++ [init_repeat (w32 (h - 2))] else []) ++ l2 ++ [init_end])
        data top bottom (top <? bottom) in
    if Z.land fx0 fx1 =? 256 then
      let line m := [init_cmask_a8 ax0 ax1 m] in
      finish (line m0x1) (line m1x1) (line m2x1) []
    else
      let m0x0 := Z.shiftr (w32 (fx0 * fy0_a)) 16 in
      let m0x2 := Z.shiftr (w32 (fx1 * fy0_a)) 16 in
      let m1x0 := Z.shiftr (w32 (fx0 * alpha)) 8 in
      let m1x2 := Z.shiftr (w32 (fx1 * alpha)) 8 in
      let m2x0 := Z.shiftr (w32 (fx0 * fy1_a)) 16 in
      let m2x2 := Z.shiftr (w32 (fx1 * fy1_a)) 16 in
      let data := set_byte (mask_line m0x1) 4 m0x0 ++ set_byte (mask_line m1x1) 4 m1x0 ++ set_byte (mask_line m2x1) 4 m2x0 in
      let walign := Z.land (w32 (0 - w)) 3 in
      let walign := if ax0 <? walign then 0 else walign in
      let ax0 := ax0 - walign in
      let w := w + walign in
      let mp := 4 - walign in
      if w <=? 20 then
        let data := set_byte (set_byte (set_byte data (mp + 32 * 0 + w - 1) m0x2) (mp + 32 * 1 + w - 1) m1x2) (mp + 32 * 2 + w - 1) m2x2 in
        let line k := [init_vmask kVMaskA8WithGA ax0 ax1 (mp + 32 * k) 0] in
        finish (line 0) (line 1) (line 2) data
      else
        let inner_width := (w - 5) / 8 * 8 in
        let inner_end := ax0 + 4 + inner_width in
        let tail_width := ax1 - inner_end in
        let tail := mp + 16 - tail_width in
        let data := set_byte (set_byte (set_byte data (mp + 32 * 0 + 15) m0x2) (mp + 32 * 1 + 15) m1x2) (mp + 32 * 2 + 15) m2x2 in
        let line k m := [init_vmask kVMaskA8WithGA ax0 (ax0 + 4) (mp + 32 * k) 0; init_cmask_a8 (ax0 + 4) inner_end m;
                         init_vmask kVMaskA8WithGA inner_end ax1 (tail + 32 * k) 0] in
        finish (line 0 m0x1) (line 1 m1x1) (line 2 m2x1) data.

(* rendercommandprocsync_p.h 66-86 fill_box_masked_a: the commands *)
Definition masked_a_cmds (alpha x0 x1 p stride : Z) : list cmd :=
  [init_vmask (if 255 <=? alpha then kVMaskA8WithGA else kVMaskA8WithoutGA) x0 x1 p stride; init_repeat 0xFFFFFFFF].
