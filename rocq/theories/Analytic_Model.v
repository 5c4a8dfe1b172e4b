(* Model of FillAnalytic, the reference filler of rasterized paths: blend2d/pipeline/reference/fillgeneric_p.h 164-388.
   Simplifications: bit words have 64 bits in LSB order (x86-64; BitOps::kPrivate); the accumulation buffers are memories of words and
   cells, strides counted in words and cells, pointers are indices relative to bit_top_ptr and cell_top_ptr; size_t values are not wrapped
   (x_off and i stay below 4 times the bits of a row). Destination and fetcher as in Fill_Model. *)
From Verif Require Import Base Algorithm_Model PixelOps_Model IntOps_Model Fill_Model.

(* 381-387; sar: arithmetic shift of uint32_t (intops_p.h 204), bl_abs(int32_t) *)
Definition s32 (x : Z) : Z := if x <? 2 ^ 31 then x else x - 2 ^ 32.
Definition calc_mask (cov rule alpha : Z) : Z :=
  let c := 256 in
  let m := w32 (Z.land (w32 (Z.shiftr (s32 cov) 9)) rule - c) in
  let m := Z.min (w32 (Z.abs (s32 m))) c in
  Z.shiftr (w32 (m * alpha)) 8.
(* pipedefs_p.h 823-832 init_analytic, FillRuleMask *)
Definition kNonZeroMask : Z := 0xFFFFFFFF.
Definition kEvenOddMask : Z := 0x1FF.
Definition rule_mask (even_odd : bool) : Z := if even_odd then kEvenOddMask else kNonZeroMask.

(* bitops_p.h 134, 147-149, 181-183: ctz(0) and a shift by the word size are undefined *)
Definition ones : Z := 2 ^ 64 - 1.
Definition shift_to_end (x n : Z) : outcome Z := if n <? 64 then Ok (w64 (Z.shiftl x n)) else UB.
Definition ctz64 (x : Z) : outcome Z := if x =? 0 then UB else Ok (ctz_fallback 6 x).

Definition load (m : @mem Z) (a : Z) : outcome Z := match m a with Some v => Ok v | None => UB end.
Definition store (m : @mem Z) (a v : Z) : outcome (@mem Z) := match m a with Some _ => Ok (put m a v) | None => UB end.

Section Analytic.
Context {P : Type}.
Context (comp : Z -> Z -> P -> Z -> P) (comp_opaque : Z -> Z -> P -> P) (optimize : bool).
Context (rule alpha xend : Z).

(* the variables of the function *)
Record vars := Vars { v_bits : @mem Z; v_bp : Z; v_xoff : Z; v_cells : @mem Z; v_cp : Z; v_x0 : Z; v_cov : Z; v_s : @st P }.

(* 251-262 L_BitScan_Next: words of ones; result bits, bit_ptr, x_off, bit_word (zero when the end was reached) *)
Fixpoint next_loop (n : nat) (bits : @mem Z) (bp bpe xoff : Z) : outcome (@mem Z * Z * Z * Z) :=
  match n with
  | O => NoFuel
  | S n =>
    let* w := load bits bp in
    let bw := Z.lxor ones w in
    let* bits := store bits bp 0 in
    let bp := bp + 1 in
    let xoff := xoff + 256 in
    if negb (bw =? 0) then Ok (bits, bp, xoff, bw) else
    if bp =? bpe then Ok (bits, bp, xoff, 0) else next_loop n bits bp bpe xoff
  end.
(* 284-297 VLoop; n = i *)
Fixpoint vloop (n : nat) (cells : @mem Z) (cp cov : Z) (s : @st P) : outcome (@mem Z * Z * Z * Z * @st P) :=
  let* c := load cells cp in
  let cov := w32 (cov + c) in
  let* cells := store cells cp 0 in
  let msk := calc_mask cov rule alpha in
  match n with
  | O => Ok (cells, cp, cov, msk, s)
  | S n => let* s := pixel_masked comp s msk in vloop n cells (cp + 1) cov s
  end.
(* 313-318: the next word with a bit; None: end of the row *)
Fixpoint gap_loop (n : nat) (bits : @mem Z) (bp bpe xoff bw : Z) : outcome (option (Z * Z * Z)) :=
  if negb (bw =? 0) then Ok (Some (bp, xoff, bw)) else
  match n with
  | O => NoFuel
  | S n =>
    let xoff := xoff + 256 in
    if bp =? bpe then Ok None else
    let* bw := load bits bp in
    gap_loop n bits (bp + 1) bpe xoff bw
  end.

(* the labels at which a group of bits is entered: L_BitScan_Match with bit_word, L_BitScan_Next with the value of i left from before,
   L_BitScan_End with i and bit_word *)
Inductive label := LMatch (bw : Z) | LNext (i : Z) | LEnd (i bw : Z).

(* 250-268: the end of the group: i and bit_word at 271 (bit_word after the xor) *)
Definition bit_scan (nw : nat) (bpe : Z) (l : label) (v : vars) : outcome (Z * Z * vars) :=
  let* (l, v) :=
    match l with
    | LNext i =>
      let* (bits, bp, xoff, bw) := next_loop nw (v_bits v) (v_bp v) bpe (v_xoff v) in
      Ok (if bw =? 0 then LEnd i 0 else LMatch bw, Vars bits bp xoff (v_cells v) (v_cp v) (v_x0 v) (v_cov v) (v_s v))
    | _ => Ok (l, v)
    end in
  let* (i, bw) := match l with LMatch bw => let* i := ctz64 bw in Ok (i, bw) | LEnd i bw => Ok (i, bw) | LNext _ => NoFuel end in
  let* tmp := shift_to_end ones i in
  Ok (i, Z.lxor bw tmp, v).

(* 250-341: groups of bits up to L_Scanline_Done1; fuel bounds the number of groups *)
Fixpoint groups (fuel nw : nat) (bpe : Z) (l : label) (v : vars) : outcome vars :=
  match fuel with
  | O => NoFuel
  | S fuel =>
    let* (i, bw, v) := bit_scan nw bpe l v in
    let i := i * 4 + v_xoff v in
    let i := if xend <? i then xend else i in
    let i := i - v_x0 v in
    let x0 := v_x0 v + i in
    let* (cells, cp, cov, msk, s) := vloop (Z.to_nat i) (v_cells v) (v_cp v) (v_cov v) (v_s v) in
    let v := Vars (v_bits v) (v_bp v) (v_xoff v) cells cp x0 cov s in
    if xend <=? x0 then Ok v else
    let* g := gap_loop (S nw) (v_bits v) (v_bp v) bpe (v_xoff v) bw in
    match g with
    | None => Ok v
    | Some (bp, xoff, bw) =>
      let* i := ctz64 bw in
      let* tmp := shift_to_end ones i in
      let bw := Z.lxor bw tmp in
      let* bits := store (v_bits v) (bp - 1) 0 in
      let i := i * 4 + xoff - x0 in
      let x0 := x0 + i in
      let cp := cp + i in
      if xend <? x0 then UB (* 328 BL_ASSERT *) else
      let* s := if msk =? 0 then Ok (advance_x (set_dst s (s_dst s + i)) i) else cspan comp comp_opaque optimize s i msk in
      groups fuel nw bpe (if bw =? 0 then LNext i else LMatch bw) (Vars bits bp xoff cells cp x0 cov s)
    end
  end.

(* 366-377: the first word with a bit *)
Fixpoint scan (n : nat) (bits : @mem Z) (bp bpe xoff bw : Z) : outcome (option (Z * Z * Z)) :=
  match n with
  | O => NoFuel
  | S n =>
    let* w := load bits bp in
    let bw := Z.lor bw w in
    let bp := bp + 1 in
    if negb (bw =? 0) then Ok (Some (bp, xoff, bw)) else
    let xoff := xoff + 256 in
    if bp =? bpe then Ok None else scan n bits bp bpe xoff bw
  end.
(* one scanline: 366-377, 215-341, 349-355; bits, cells, cell_ptr and destination at the end *)
Definition scanline (nw : nat) (bits cells : @mem Z) (bp cp : Z) (s : @st P) : outcome (@mem Z * @mem Z * @st P) :=
  let bpe := bp + Z.of_nat nw in
  let* r := scan nw bits bp bpe 0 0 in
  match r with
  | None => Ok (bits, cells, s)
  | Some (bp, xoff, bw) =>
    let* x0 := ctz64 bw in
    let* bits := store bits (bp - 1) 0 in
    let* tmp := shift_to_end ones x0 in
    let x0 := x0 * 4 + xoff in
    let s := set_fx (set_dst s (s_dst s + x0)) x0 in
    let cp := cp + x0 in
    if xend <=? x0 then
      let* cells := store cells cp 0 in
      Ok (bits, cells, set_dst s (s_dst s - x0))
    else
      let cov := 256 * 2 ^ 9 in
      let bw := Z.lxor bw tmp in
      let l := if negb (bw =? 0) then LMatch bw else if bp =? bpe then LEnd 64 bw else LNext 64 in
      let* v := groups (S (64 * nw)) nw bpe l (Vars bits bp xoff cells cp x0 cov s) in
      Ok (v_bits v, v_cells v, set_dst (v_s v) (s_dst (v_s v) - v_x0 v))
  end.
(* 357-378 *)
Fixpoint scanlines (h nw : nat) (bits cells : @mem Z) (bp cp stride cell_stride : Z) (s : @st P) : outcome (@mem Z * @mem Z * @mem P) :=
  match h with
  | O => NoFuel
  | S h =>
    let* (bits, cells, s) := scanline nw bits cells bp cp s in
    match h with
    | O => Ok (bits, cells, s_mem s)
    | _ => scanlines h nw bits cells (bp + Z.of_nat nw) (cp + cell_stride) stride cell_stride (advance_y (set_dst s (s_dst s + stride)))
    end
  end.
(* 174-207; y1 = y0 would wrap around *)
Definition fill_analytic (m : @mem P) (stride y0 y1 : Z) (nw : nat) (bits cells : @mem Z) (cell_stride : Z) : outcome (@mem Z * @mem Z * @mem P) :=
  scanlines (Z.to_nat (w32 (y1 - y0))) nw bits cells 0 0 stride cell_stride (St m (y0 * stride) 0 y0).
End Analytic.

(* raster/rendercommandprocsync_p.h 101-107 (the same in rendercommandprocasync_p.h 295-301): cells and words of a row; w = width of the destination *)
Definition align_up4 (x : Z) : Z := (x + 3) / 4 * 4.
Definition required_width (w : Z) : Z := align_up4 (w + 1 + 4).
Definition row_words (w : Z) : Z := (required_width w / 4 + 64 - 1) / 64.
