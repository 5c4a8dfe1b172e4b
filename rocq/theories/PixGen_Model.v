(* Model of the reference pipelines' pixel arithmetic: blend2d/pipeline/reference/pixelgeneric_p.h (packed and unpacked pixels; several
   components in one machine word) and compopgeneric_p.h 25-81 (the operators). Not modelled: cmul (unused by the operators), PixelIO (588-668). *)
From Verif Require Import Base.

(* pixelgeneric_p.h 34-39 Repeat *)
Definition u16x2 (v : Z) : Z := Z.lor v (w32 (Z.shiftl v 16)).
Definition u16x4 (v : Z) : Z := Z.lor (u16x2 v) (w64 (Z.shiftl (u16x2 v) 32)).

(* scalar_p.h 26 neg255; P32_8888::a (279), Format_A8R8G8B8 *)
Definition neg255 (x : Z) : Z := Z.lxor x 0xFF.
Definition p_a (p : Z) : Z := Z.land (Z.shiftr p 24) 0xFF.

(* 308-409 U32_8888 with one 64-bit word [.3.1.2.0] *)
Definition unpack64 (p : Z) : Z := Z.lor (Z.land p 0x00FF00FF) (Z.shiftl (Z.land p 0xFF00FF00) 24).
Definition pack64u (u : Z) : Z := Z.land (Z.lor (Z.shiftr u 24) u) 0xFFFFFFFF.
Definition mul64 (u m : Z) : Z := w64 (u * m).
Definition add64 (u v : Z) : Z := w64 (u + v).
Definition div255_64 (x : Z) : Z :=
  let u := add64 x (u16x4 0x80) in
  Z.land (Z.shiftr (add64 u (Z.land (Z.shiftr u 8) (u16x4 0xFF))) 8) (u16x4 0xFF).
Definition addus8_64 (u x : Z) : Z :=
  let val := add64 u x in
  let msk := mul64 (Z.land (Z.shiftr val 8) (u16x4 0x1)) 0xFF in
  Z.land (Z.lor val msk) (u16x4 0xFF).

(* 412-540 U32_8888 with two 32-bit words [.2.0] and [.3.1] *)
Definition unpack32 (p : Z) : Z * Z := (Z.land p 0x00FF00FF, Z.land (Z.shiftr p 8) 0x00FF00FF).
Definition pack32u (u : Z * Z) : Z := Z.lor (fst u) (w32 (Z.shiftl (snd u) 8)).
Definition mul32 (u : Z * Z) (m : Z) : Z * Z := (w32 (fst u * m), w32 (snd u * m)).
Definition add32 (u v : Z * Z) : Z * Z := (w32 (fst u + fst v), w32 (snd u + snd v)).
Definition rep32 (v : Z) : Z * Z := (u16x2 v, u16x2 v).
Definition and32 (u v : Z * Z) : Z * Z := (Z.land (fst u) (fst v), Z.land (snd u) (snd v)).
Definition or32 (u v : Z * Z) : Z * Z := (Z.lor (fst u) (fst v), Z.lor (snd u) (snd v)).
Definition shr32 (u : Z * Z) (n : Z) : Z * Z := (Z.shiftr (fst u) n, Z.shiftr (snd u) n).
Definition div255_32 (x : Z * Z) : Z * Z :=
  let u := add32 x (rep32 0x80) in
  and32 (shr32 (add32 u (and32 (shr32 u 8) (rep32 0xFF))) 8) (rep32 0xFF).
Definition addus8_32 (u x : Z * Z) : Z * Z :=
  let val := add32 u x in
  let msk := mul32 (and32 (shr32 val 8) (rep32 0x1)) 0xFF in
  and32 (or32 val msk) (rep32 0xFF).

(* 85-253 P8_Alpha, U8_Alpha *)
Definition mul8 (u m : Z) : Z := w16 (w32 (u * m)).
Definition add8 (u v : Z) : Z := w16 (w32 (u + v)).
Definition div255_8 (x : Z) : Z :=
  let u := add8 x 0x80 in
  Z.land (Z.shiftr (add8 u (Z.land (Z.shiftr u 8) 0xFF)) 8) 0xFF.
Definition addus8_8 (u x : Z) : Z :=
  let val := add8 u x in
  let msk := mul8 (Z.land (Z.shiftr val 8) 0x1) 0xFF in
  Z.land (Z.lor val msk) 0xFF.
Definition pack8u (u : Z) : Z := Z.land u 0xFF.

(* compopgeneric_p.h 25-81; [None] = no mask *)
Definition src_copy64 (d s : Z) (m : option Z) : Z :=
  match m with
  | None => s
  | Some m => pack64u (div255_64 (add64 (mul64 (unpack64 d) (Z.lxor m 0xFF)) (mul64 (unpack64 s) m)))
  end.
Definition src_over64_op (d s : Z) : Z := w32 (s + pack64u (div255_64 (mul64 (unpack64 d) (neg255 (p_a s))))).
Definition src_over64 (d s : Z) (m : option Z) : Z :=
  match m with None => src_over64_op d s | Some m => src_over64_op d (pack64u (div255_64 (mul64 (unpack64 s) m))) end.
Definition plus64 (d s : Z) (m : option Z) : Z :=
  match m with
  | None => pack64u (addus8_64 (unpack64 d) (unpack64 s))
  | Some m => pack64u (addus8_64 (unpack64 d) (div255_64 (mul64 (unpack64 s) m)))
  end.

Definition src_copy32 (d s : Z) (m : option Z) : Z :=
  match m with
  | None => s
  | Some m => pack32u (div255_32 (add32 (mul32 (unpack32 d) (Z.lxor m 0xFF)) (mul32 (unpack32 s) m)))
  end.
Definition src_over32_op (d s : Z) : Z := w32 (s + pack32u (div255_32 (mul32 (unpack32 d) (neg255 (p_a s))))).
Definition src_over32 (d s : Z) (m : option Z) : Z :=
  match m with None => src_over32_op d s | Some m => src_over32_op d (pack32u (div255_32 (mul32 (unpack32 s) m))) end.
Definition plus32 (d s : Z) (m : option Z) : Z :=
  match m with
  | None => pack32u (addus8_32 (unpack32 d) (unpack32 s))
  | Some m => pack32u (addus8_32 (unpack32 d) (div255_32 (mul32 (unpack32 s) m)))
  end.

Definition src_copy8 (d s : Z) (m : option Z) : Z :=
  match m with None => s | Some m => pack8u (div255_8 (add8 (mul8 d (Z.lxor m 0xFF)) (mul8 s m))) end.
Definition src_over8_op (d s : Z) : Z := w8 (s + pack8u (div255_8 (mul8 d (neg255 s)))).
Definition src_over8 (d s : Z) (m : option Z) : Z :=
  match m with None => src_over8_op d s | Some m => src_over8_op d (pack8u (div255_8 (mul8 s m))) end.
Definition plus8 (d s : Z) (m : option Z) : Z :=
  match m with None => pack8u (addus8_8 d s) | Some m => pack8u (addus8_8 d (div255_8 (mul8 s m))) end.
