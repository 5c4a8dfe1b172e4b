(* The QOI format as its specification describes it (https://qoiformat.org/qoi-specification.pdf), per pixel and
   independent of the decoder's word tricks; and the row-major layout of an image. *)
From Verif Require Import Base PixelOps_Spec.

Record px := Px { pr : Z; pg : Z; pb : Z; pa : Z }.
Definition px_ok (p : px) : Prop := is_byte (pr p) /\ is_byte (pg p) /\ is_byte (pb p) /\ is_byte (pa p).

(* index position of a pixel *)
Definition px_hash (p : px) : Z := (pr p * 3 + pg p * 5 + pb p * 7 + pa p * 11) mod 64.

Inductive chunk :=
| CIndex (i : Z)
| CDiff (dr dg db : Z)
| CLuma (dg dr_dg db_dg : Z)
| CRun (n : Z)
| CRgb (r g b : Z)
| CRgba (r g b a : Z).

Definition chunk_ok (c : chunk) : Prop :=
  match c with
  | CIndex i => 0 <= i < 64
  | CDiff dr dg db => -2 <= dr <= 1 /\ -2 <= dg <= 1 /\ -2 <= db <= 1
  | CLuma dg x y => -32 <= dg <= 31 /\ -8 <= x <= 7 /\ -8 <= y <= 7
  | CRun n => 1 <= n <= 62
  | CRgb r g b => is_byte r /\ is_byte g /\ is_byte b
  | CRgba r g b a => is_byte r /\ is_byte g /\ is_byte b /\ is_byte a
  end.

Definition chunk_bytes (c : chunk) : list Z :=
  match c with
  | CIndex i => [i]
  | CDiff dr dg db => [0x40 + (dr + 2) * 16 + (dg + 2) * 4 + (db + 2)]
  | CLuma dg x y => [0x80 + (dg + 32); (x + 8) * 16 + (y + 8)]
  | CRun n => [0xC0 + (n - 1)]
  | CRgb r g b => [0xFE; r; g; b]
  | CRgba r g b a => [0xFF; r; g; b; a]
  end.

(* decoder state: previous pixel and the array of 64 recently seen pixels *)
Record qst := Qst { q_prev : px; q_tab : Z -> px }.
Definition q_init : qst := Qst (Px 0 0 0 255) (fun _ => Px 0 0 0 0).

Definition tab_set (t : Z -> px) (i : Z) (p : px) : Z -> px := fun j => if j =? i then p else t j.

Definition chunk_px (s : qst) (c : chunk) : px :=
  let p := q_prev s in
  match c with
  | CIndex i => q_tab s i
  | CDiff dr dg db => Px ((pr p + dr) mod 256) ((pg p + dg) mod 256) ((pb p + db) mod 256) (pa p)
  | CLuma dg x y => Px ((pr p + dg + x) mod 256) ((pg p + dg) mod 256) ((pb p + dg + y) mod 256) (pa p)
  | CRun _ => p
  | CRgb r g b => Px r g b (pa p)
  | CRgba r g b a => Px r g b a
  end.
Definition chunk_count (c : chunk) : nat := match c with CRun n => Z.to_nat n | _ => 1%nat end.
Definition chunk_next (s : qst) (c : chunk) : qst :=
  let p := chunk_px s c in Qst p (tab_set (q_tab s) (px_hash p) p).

Fixpoint spec_decode (s : qst) (cs : list chunk) : list px :=
  match cs with
  | [] => []
  | c :: r => repeat (chunk_px s c) (chunk_count c) ++ spec_decode (chunk_next s c) r
  end.

(* index chunks only name slots that hold a pixel belonging there (true of everything an encoder that follows the
   specification writes: it emits an index only when the slot of the pixel's hash equals the pixel) *)
Fixpoint index_ok (s : qst) (cs : list chunk) : Prop :=
  match cs with
  | [] => True
  | c :: r => match c with CIndex i => px_hash (q_tab s i) = i | _ => True end /\ index_ok (chunk_next s c) r
  end.

(* pixel stored in a 32-bit image: premultiplied, or opaque for three channel files *)
Definition pix32 (has_alpha : bool) (p : px) : Z :=
  if has_alpha then pack32 (pa p) (round_div (pr p * pa p) 255) (round_div (pg p * pa p) 255) (round_div (pb p * pa p) 255)
  else pack32 255 (pr p) (pg p) (pb p).

(* offset of the k-th pixel in row-major order, and the stores that write vals starting with pixel k *)
Definition pix_off (w stride k : Z) : Z := (k / w) * stride + k mod w.
Fixpoint stores (w stride k : Z) (vals : list Z) : list (Z * Z) :=
  match vals with [] => [] | v :: r => (pix_off w stride k, v) :: stores w stride (k + 1) r end.

(* the 14 byte header *)
Definition be4 (v : Z) : list Z := [v / 2 ^ 24 mod 256; v / 2 ^ 16 mod 256; v / 2 ^ 8 mod 256; v mod 256].
Definition qoi_header (w h channels colorspace : Z) : list Z :=
  [113; 111; 105; 102] ++ be4 w ++ be4 h ++ [channels; colorspace].

(* the pixels of a w x h image in row-major order, given the memory src (indexed in pixels) *)
Definition image_px (w h : nat) (stride : Z) (src : Z -> Z) : list Z :=
  map (fun k => src (pix_off (Z.of_nat w) stride (Z.of_nat k))) (seq 0 (w * h)).

(* premultiplied 32-bit pixel: no component exceeds alpha *)
Definition premul32 (v : Z) : Prop := exists a r g b, is_byte a /\ 0 <= r <= a /\ 0 <= g <= a /\ 0 <= b <= a /\ v = pack32 a r g b.
