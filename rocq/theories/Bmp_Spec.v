(* Specification of the BMP file format, written from the format's public description and independent of the model. *)
From Verif Require Import Base.

(* ---------------------------------------------------------------- RLE ---- *)

(* A picture: the color of every pixel, row 0 being the first row of the file. *)
Definition canvas : Type := Z -> Z -> Z.
Definition blank : canvas := fun _ _ => 0.

(* n pixels of row y, from column x on, get the colors col 0, col 1, ... *)
Definition paint (c : canvas) (x y n : Z) (col : Z -> Z) : canvas :=
  fun x' y' => if (y' =? y) && (x <=? x') && (x' <? x + n) then col (x' - x) else c x' y'.

Inductive rle_result : Type :=
| RlePicture (c : canvas)  (* the stream describes this picture *)
| RleTruncated             (* the stream ends before the picture *)
| RleInvalid.              (* the stream moves outside of the picture *)

(* The palette index of the k-th pixel of an absolute run stored in bytes p: one byte each, or two pixels per byte, the high
   half first. *)
Definition abs_index (four : bool) (p : list Z) (k : Z) : Z :=
  if four then (if Z.even k then nth (Z.to_nat (k / 2)) p 0 / 16 else nth (Z.to_nat (k / 2)) p 0 mod 16)
  else nth (Z.to_nat k) p 0.
(* The palette index of the k-th pixel of an encoded run of byte v: v itself, or its two halves in turn. *)
Definition run_index (four : bool) (v k : Z) : Z :=
  if four then (if Z.even k then v / 16 else v mod 16) else v.
(* The bytes of an absolute run of n pixels: padded to an even number of bytes. *)
Definition abs_bytes (four : bool) (n : Z) : Z :=
  let b := if four then (n + 1) / 2 else n in 2 * ((b + 1) / 2).

Section Rle.
  Context (four : bool) (w h : Z) (color : Z -> Z).

  (* rle p x y c r plain: decoding the bytes p with the pen at column x of row y of the picture c gives r.  Pixels beyond the
     right edge are dropped, pixels that are skipped keep the background.  [plain] tells whether the stream does neither of
     the two things that the decoder gets wrong: an absolute run that crosses the right edge, and a move that leaves the
     picture through its last row with the pen not in column 0. *)
  Inductive rle : list Z -> Z -> Z -> canvas -> rle_result -> bool -> Prop :=
  | rle_short p x y c : (length p < 2)%nat -> rle p x y c RleTruncated true
  | rle_run n v p x y c r b : n <> 0 ->
      rle p (Z.min w (x + n)) y (paint c x y n (fun k => color (run_index four v k))) r b ->
      rle (n :: v :: p) x y c r b
  | rle_abs_short n p x y c : 3 <= n -> Z.of_nat (length p) < abs_bytes four n ->
      rle (0 :: n :: p) x y c RleTruncated true
  | rle_abs n q p x y c r b : 3 <= n -> Z.of_nat (length q) = abs_bytes four n ->
      rle p (Z.min w (x + n)) y (paint c x y n (fun k => color (abs_index four q k))) r b ->
      rle (0 :: n :: q ++ p) x y c r (b && (x + n <=? w))
  | rle_line p x y c r b : y + 1 < h -> rle p 0 (y + 1) c r b -> rle (0 :: 0 :: p) x y c r b
  | rle_line_end p x y c : h <= y + 1 -> rle (0 :: 0 :: p) x y c (RlePicture c) true
  | rle_stop p x y c : rle (0 :: 1 :: p) x y c (RlePicture c) true
  | rle_move_short p x y c : (length p < 2)%nat -> rle (0 :: 2 :: p) x y c RleTruncated true
  | rle_move_out dx dy p x y c : w < x + dx \/ h < y + dy -> rle (0 :: 2 :: dx :: dy :: p) x y c RleInvalid true
  | rle_move_end dx dy p x y c : x + dx <= w -> y + dy = h ->
      rle (0 :: 2 :: dx :: dy :: p) x y c (RlePicture c) (x + dx =? 0)
  | rle_move dx dy p x y c r b : x + dx <= w -> y + dy < h -> rle p (x + dx) (y + dy) c r b ->
      rle (0 :: 2 :: dx :: dy :: p) x y c r b.
End Rle.

(* ------------------------------------------------------------- header ---- *)

(* little-endian numbers inside of a file *)
Definition u8 (d : list Z) (i : Z) : Z := nth (Z.to_nat i) d 0.
Definition u16 (d : list Z) (i : Z) : Z := u8 d i + 256 * u8 d (i + 1).
Definition u32 (d : list Z) (i : Z) : Z := u16 d i + 65536 * u16 d (i + 2).
Definition signed (bits v : Z) : Z := if v <? 2 ^ (bits - 1) then v else v - 2 ^ bits.

(* The fields of the BITMAPFILEHEADER and of the info header: BITMAPCOREHEADER (12 bytes) or BITMAPINFOHEADER and its
   extensions (40, 52, 56, 108 or 124 bytes). *)
Record header : Type := Header {
  hd_offset : Z; hd_size : Z; hd_width : Z; hd_height : Z; hd_planes : Z; hd_depth : Z; hd_comp : Z; hd_image_size : Z }.
Definition header_of (d : list Z) : header :=
  if u32 d 14 =? 12
  then Header (u32 d 10) 12 (signed 16 (u16 d 18)) (signed 16 (u16 d 20)) (u16 d 22) (u16 d 24) 0 0
  else Header (u32 d 10) (u32 d 14) (signed 32 (u32 d 18)) (signed 32 (u32 d 22)) (u16 d 26) (u16 d 28) (u32 d 30) (u32 d 34).

(* The channel masks: they follow the 40-byte header when it asks for them (bit fields: three masks, alpha bit fields:
   four) and belong to the longer headers. *)
Definition masks_of (d : list Z) (hd : header) : list Z :=
  [u32 d 54; u32 d 58; u32 d 62; if (hd_size hd =? 40) && (hd_comp hd =? 6) || (56 <=? hd_size hd) then u32 d 66 else 0].
Definition contiguous (m : Z) : Prop := exists lo hi, 0 <= lo < hi /\ hi <= 32 /\ m = 2 ^ hi - 2 ^ lo.
Definition masks_ok (l : list Z) : Prop :=
  exists r g b a, l = [r; g; b; a] /\ contiguous r /\ contiguous g /\ contiguous b /\ (a = 0 \/ contiguous a) /\
    Z.land r g = 0 /\ Z.land r b = 0 /\ Z.land g b = 0 /\ Z.land r a = 0 /\ Z.land g a = 0 /\ Z.land b a = 0.
(* (size, shift) of a channel, as used by pixel formats *)
Definition channel_of (m : Z) (c : Z * Z) : Prop :=
  (m = 0 /\ c = (0, 0)) \/ (0 < fst c /\ 0 <= snd c /\ snd c + fst c <= 32 /\ m = 2 ^ (snd c + fst c) - 2 ^ snd c).

(* The number of bytes of a row: w pixels of the given depth, padded to 32 bits *)
Definition row_bytes (w depth : Z) : Z := 4 * ((w * depth + 31) / 32).
Definition is_rle (hd : header) : Prop := hd_depth hd = 4 /\ hd_comp hd = 2 \/ hd_depth hd = 8 /\ hd_comp hd = 1.
Definition signature_ok (d : list Z) : Prop := u8 d 0 = 0x42 /\ u8 d 1 = 0x4D.

(* What read_info needs of a file to accept it as a BMP of the documented format (pixels come later), up to the size limits
   of the library: 65535 pixels in each direction, and 2^32 bytes. *)
Definition well_formed (d : list Z) : Prop :=
  let hd := header_of d in
  signature_ok d /\ 18 <= Z.of_nat (length d) /\ 14 + hd_size hd <= Z.of_nat (length d) /\
  In (hd_size hd) [12; 40; 52; 56; 108; 124] /\
  hd_planes hd = 1 /\ 1 <= hd_width hd <= 65535 /\ 1 <= Z.abs (hd_height hd) <= 65535 /\
  (hd_comp hd = 0 /\ In (hd_depth hd) [1; 4; 8; 16; 24; 32] \/ is_rle hd \/
   (hd_comp hd = 3 \/ hd_size hd = 40 /\ hd_comp hd = 6) /\ In (hd_depth hd) [16; 32] /\ masks_ok (masks_of d hd) /\
   (hd_size hd = 40 -> 54 + (if hd_comp hd =? 6 then 16 else 12) <= Z.of_nat (length d))) /\
  14 + hd_size hd <= hd_offset hd /\
  row_bytes (hd_width hd) (hd_depth hd) * Z.abs (hd_height hd) < 2 ^ 32 /\
  (is_rle hd \/ hd_image_size hd = 0 \/ row_bytes (hd_width hd) (hd_depth hd) * Z.abs (hd_height hd) <= hd_image_size hd).

(* -------------------------------------------------------------- pixels ---- *)

(* The palette: entries of 3 bytes (12-byte header) or 4 bytes, B, G, R, between the header and the pixels; missing entries
   are opaque black.  Colors are 0xAARRGGBB. *)
Definition palette_entry (d : list Z) (pos : Z) : Z := 0xFF000000 + 65536 * u8 d (pos + 2) + 256 * u8 d (pos + 1) + u8 d pos.
Definition palette_of (d : list Z) (hsize offset : Z) : list Z :=
  let entity := if hsize =? 12 then 3 else 4 in
  map (fun k => if Z.of_nat k <? (offset - (14 + hsize)) / entity then palette_entry d (14 + hsize + Z.of_nat k * entity) else 0xFF000000)
    (seq 0 256).

(* The bytes of the r-th stored row that hold pixels *)
Definition stored_row (d : list Z) (offset w depth r : Z) : list Z :=
  map (fun k => u8 d (offset + r * row_bytes w depth + Z.of_nat k)) (seq 0 (Z.to_nat ((w * depth + 7) / 8))).
(* A positive height means that rows are stored bottom-up *)
Definition stored_at (height y : Z) : Z := if 0 <? height then height - 1 - y else y.
