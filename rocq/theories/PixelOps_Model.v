(* Model of the scalar pixel operations of blend2d/pixelops/scalar_p.h (portable branches) and the reciprocal
   table of blend2d/tables/tables_p.h. uint32_t arithmetic wraps explicitly (w32); values are Z. *)
From Verif Require Import Base.

(* scalar_p.h 34 *)
Definition udiv255 (x : Z) : Z := Z.shiftr (w32 (w32 (x + 0x80) * 0x101)) 16.
(* scalar_p.h 29-30: the alternative formula named in the comment (AVX) *)
Definition udiv255_alt (x : Z) : Z := Z.shiftr (w32 (w32 (x + 128) + Z.shiftr (w32 (x + 128)) 8)) 8.
(* scalar_p.h 37 *)
Definition udiv65535 (x : Z) : Z := Z.shiftr (w32 (w32 (x + 0x8000) + Z.shiftr (w32 (x + 0x8000)) 16)) 16.
(* scalar_p.h 40-46 *)
Definition udiv65535_packed (x : Z) : Z :=
  let x := w64 (x + 0x0000800000008000) in
  Z.land (Z.shiftr (w64 (x + Z.land (Z.shiftr x 16) 0x0000FFFF0000FFFF)) 16) 0x0000FFFF0000FFFF.

(* scalar_p.h 121-140 (non-SIMD branch) *)
Definition cvt_prgb32_from_argb32_a (val32 a : Z) : Z :=
  let val32 := Z.lor val32 0xFF000000 in
  let rb := Z.land val32 0x00FF00FF in
  let ag := Z.land (Z.shiftr val32 8) 0x00FF00FF in
  let rb := w32 (w32 (rb * a) + 0x00800080) in
  let ag := w32 (w32 (ag * a) + 0x00800080) in
  let rb := Z.land (w32 (rb + Z.land (Z.shiftr rb 8) 0x00FF00FF)) 0xFF00FF00 in
  let ag := Z.land (w32 (ag + Z.land (Z.shiftr ag 8) 0x00FF00FF)) 0xFF00FF00 in
  Z.lor ag (Z.shiftr rb 8).
(* scalar_p.h 142-153 *)
Definition cvt_prgb32_from_argb32 (val32 : Z) : Z := cvt_prgb32_from_argb32_a val32 (Z.shiftr val32 24).

(* scalar_p.h 178-203 (64-bit non-x86 branch) and 205-221 *)
Definition cvt_prgb64_from_argb64_a (val64 a : Z) : Z :=
  let rb := udiv65535_packed (w64 (Z.land val64 0x0000FFFF0000FFFF * a)) in
  let g := udiv65535 (w32 (Z.land (Z.shiftr val64 16) 0xFFFF * a)) in
  Z.lor (Z.lor (w64 (Z.shiftl a 48)) rb) (w32 (Z.shiftl g 16)).
Definition cvt_prgb64_from_argb64 (val64 : Z) : Z := cvt_prgb64_from_argb64_a val64 (Z.shiftr val64 48).
(* scalar_p.h 197-202 (32-bit branch) *)
Definition cvt_prgb64_from_argb64_a_32bit (val64 a : Z) : Z :=
  let r := udiv65535 (w32 (Z.land (Z.shiftr val64 32) 0xFFFF * a)) in
  let g := udiv65535 (w32 (Z.land (Z.shiftr val64 16) 0xFFFF * a)) in
  let b := udiv65535 (w32 (Z.land val64 0xFFFF * a)) in
  Z.lor (Z.lor (Z.lor (w64 (Z.shiftl a 48)) (w64 (Z.shiftl r 32))) (w32 (Z.shiftl g 16))) b.

(* tables_p.h 491-533 *)
Definition unpremultiply_rcp : list Z :=
  [0; 16711935; 8355967; 5570645; 4177983; 3342387; 2785322; 2387419; 2088991; 1856881; 1671193; 1519266; 1392661; 1285533; 1193709; 1114129;
   1044495; 983055; 928440; 879575; 835596; 795806; 759633; 726605; 696330; 668477; 642766; 618960; 596854; 576273; 557064; 539094;
   522247; 506422; 491527; 477483; 464220; 451673; 439787; 428511; 417798; 407608; 397903; 388649; 379816; 371376; 363302; 355573;
   348165; 341059; 334238; 327685; 321383; 315319; 309480; 303853; 298427; 293191; 288136; 283253; 278532; 273966; 269547; 265268;
   261123; 257106; 253211; 249431; 245763; 242201; 238741; 235379; 232110; 228930; 225836; 222825; 219893; 217038; 214255; 211543;
   208899; 206320; 203804; 201348; 198951; 196611; 194324; 192091; 189908; 187774; 185688; 183647; 181651; 179698; 177786; 175915;
   174082; 172287; 170529; 168807; 167119; 165464; 163842; 162251; 160691; 159161; 157659; 156186; 154740; 153320; 151926; 150557;
   149213; 147893; 146595; 145321; 144068; 142837; 141626; 140436; 139266; 138115; 136983; 135869; 134773; 133695; 132634; 131590;
   130561; 129549; 128553; 127572; 126605; 125653; 124715; 123792; 122881; 121984; 121100; 120229; 119370; 118524; 117689; 116866;
   116055; 115254; 114465; 113686; 112918; 112160; 111412; 110675; 109946; 109228; 108519; 107818; 107127; 106445; 105771; 105106;
   104449; 103800; 103160; 102527; 101902; 101284; 100674; 100071; 99475; 98887; 98305; 97730; 97162; 96600; 96045; 95496;
   94954; 94417; 93887; 93362; 92844; 92331; 91823; 91322; 90825; 90334; 89849; 89368; 88893; 88422; 87957; 87497;
   87041; 86590; 86143; 85702; 85264; 84832; 84403; 83979; 83559; 83143; 82732; 82324; 81921; 81521; 81125; 80733;
   80345; 79961; 79580; 79203; 78829; 78459; 78093; 77729; 77370; 77013; 76660; 76310; 75963; 75619; 75278; 74941;
   74606; 74275; 73946; 73620; 73297; 72977; 72660; 72346; 72034; 71725; 71418; 71114; 70813; 70514; 70218; 69924;
   69633; 69344; 69057; 68773; 68491; 68211; 67934; 67659; 67386; 67116; 66847; 66581; 66317; 66055; 65795; 65537].

(* scalar_p.h 48-53, one component; recip = unpremultiply_rcp[a] *)
Definition unpremultiply_8bit (c a : Z) : outcome Z :=
  let* recip := rd unpremultiply_rcp a in
  Ok (Z.shiftr (w32 (w32 (c * recip) + 0x8000)) 16).

(* scalar_p.h 158-166 *)
Definition cvt_argb32_from_prgb32 (val32 : Z) : outcome Z :=
  let r := Z.land (Z.shiftr val32 16) 0xFF in
  let g := Z.land (Z.shiftr val32 8) 0xFF in
  let b := Z.land val32 0xFF in
  let a := Z.shiftr val32 24 in
  let* r := unpremultiply_8bit r a in
  let* g := unpremultiply_8bit g a in
  let* b := unpremultiply_8bit b a in
  Ok (Z.lor (Z.lor (Z.lor (w32 (Z.shiftl a 24)) (w32 (Z.shiftl r 16))) (w32 (Z.shiftl g 8))) b).
(* scalar_p.h 168-176 *)
Definition cvt_abgr32_from_prgb32 (val32 : Z) : outcome Z :=
  let r := Z.land (Z.shiftr val32 16) 0xFF in
  let g := Z.land (Z.shiftr val32 8) 0xFF in
  let b := Z.land val32 0xFF in
  let a := Z.shiftr val32 24 in
  let* r := unpremultiply_8bit r a in
  let* g := unpremultiply_8bit g a in
  let* b := unpremultiply_8bit b a in
  Ok (Z.lor (Z.lor (Z.lor (w32 (Z.shiftl a 24)) (w32 (Z.shiftl b 16))) (w32 (Z.shiftl g 8))) r).

(* scalar_p.h 60-77 *)
Definition cvt_xrgb32_from_xrgb16_0555 (src : Z) : Z :=
  let t0 := w32 (src * 0x00080008) in
  let t0 := Z.land t0 0x1F03E0F8 in
  let t0 := Z.lor t0 (Z.shiftr t0 5) in
  let t1 := Z.shiftr t0 13 in
  let t2 := w32 (Z.shiftl t0 6) in
  let t0 := Z.land t0 0x000000FF in
  let t1 := Z.land t1 0x0000FF00 in
  let t2 := Z.land t2 0x00FF0000 in
  Z.lor (Z.lor (Z.lor 0xFF000000 t0) t1) t2.
(* scalar_p.h 79-99 *)
Definition cvt_xrgb32_from_xrgb16_0565 (src : Z) : Z :=
  let t0 := Z.land src 0x0000F81F in
  let t1 := Z.land src 0x000007E0 in
  let t0 := w32 (t0 * 0x21) in
  let t1 := w32 (t1 * 0x41) in
  let t2 := w32 (Z.shiftl t0 3) in
  let t0 := Z.shiftr t0 2 in
  let t1 := Z.shiftr t1 1 in
  let t0 := Z.land t0 0x000000FF in
  let t1 := Z.land t1 0x0000FF00 in
  let t2 := Z.land t2 0x00FF0000 in
  Z.lor (Z.lor (Z.lor 0xFF000000 t0) t1) t2.
(* scalar_p.h 101-119 *)
Definition cvt_argb32_from_argb16_4444 (src : Z) : Z :=
  let t0 := src in
  let t1 := w32 (Z.shiftl t0 12) in
  let t2 := w32 (Z.shiftl t0 4) in
  let t0 := Z.lor t0 t1 in
  let t1 := w32 (Z.shiftl t2 4) in
  let t0 := Z.land t0 0x0F00000F in
  let t1 := Z.land t1 0x000F0000 in
  let t2 := Z.land t2 0x00000F00 in
  let t0 := w32 (t0 + t1) in
  let t0 := w32 (t0 + t2) in
  w32 (t0 * 0x11).
