(* What the PNG and APNG standards say about chunks, the header and the palette; independent of the code. *)
From Verif Require Import Base Png_Spec.

(* Big endian integers of the file. *)
Definition be16 (f : list Z) (i : Z) : Z := 256 * get f i + get f (i + 1).
Definition be32 (f : list Z) (i : Z) : Z := 65536 * be16 f i + be16 f (i + 2).

Definition name (a b c d : Z) : Z := ((a * 256 + b) * 256 + c) * 256 + d.

(* A chunk: 4 bytes length, 4 bytes type, the data, 4 bytes checksum (5.3). *)
Definition chunk_at (f : list Z) (p : Z) : Prop := 0 <= p /\ p + 12 + be32 f p <= Z.of_nat (length f).
Definition chunk_type (f : list Z) (p : Z) : Z := be32 f (p + 4).
Definition chunk_len (f : list Z) (p : Z) : Z := be32 f p.
Definition next_chunk (f : list Z) (p : Z) : Z := p + 12 + be32 f p.

(* [chunks f p ps q]: the chunks at the positions ps follow each other from p to q. *)
Inductive chunks (f : list Z) : Z -> list Z -> Z -> Prop :=
| chunks_nil p : chunks f p [] p
| chunks_cons p ps q : chunk_at f p -> chunks f (next_chunk f p) ps q -> chunks f p (p :: ps) q.

Definition type_IHDR := name 73 72 68 82.
Definition type_PLTE := name 80 76 84 69.
Definition type_tRNS := name 116 82 78 83.
Definition type_IDAT := name 73 68 65 84.
Definition type_IEND := name 73 69 78 68.
Definition type_fcTL := name 102 99 84 76.
Definition type_CgBI := name 67 103 66 73.

(* The header (11.2.2): allowed combinations of colour type and bit depth, without 16 bit samples (not supported by the library). *)
Definition header_formats : list (Z * Z) :=
  [(0, 1); (0, 2); (0, 4); (0, 8); (2, 8); (3, 1); (3, 2); (3, 4); (3, 8); (4, 8); (6, 8)].
Definition samples (color_type : Z) : Z :=
  if color_type =? 2 then 3 else if color_type =? 4 then 2 else if color_type =? 6 then 4 else 1.
Definition signature : list Z := [137; 80; 78; 71; 13; 10; 26; 10].

(* The header chunk at p is valid. *)
Definition header_ok (f : list Z) (p : Z) : Prop :=
  chunk_type f p = type_IHDR /\ chunk_len f p = 13 /\
  0 < be32 f (p + 8) < 2 ^ 31 /\ 0 < be32 f (p + 12) < 2 ^ 31 /\
  In (get f (p + 17), get f (p + 16)) header_formats /\
  get f (p + 18) = 0 /\ get f (p + 19) = 0 /\ (get f (p + 20) = 0 \/ get f (p + 20) = 1).

(* Colours as 0xAARRGGBB. *)
Definition argb (a r g b : Z) : Z := ((a * 256 + r) * 256 + g) * 256 + b.

(* Entry i of the palette of an indexed image: the colour of the PLTE chunk at [pl] (11.2.3) with the alpha value of the tRNS chunk
   (11.3.2.1), if there is one and it is long enough.  Entries that the chunk does not have are opaque black. *)
Definition indexed_colour (f : list Z) (pl : Z) (tr : option Z) (i : Z) : Z :=
  let alpha := match tr with Some t => if i <? chunk_len f t then get f (t + 8 + i) else 255 | None => 255 end in
  if i <? chunk_len f pl / 3 then argb alpha (get f (pl + 8 + 3 * i)) (get f (pl + 8 + 3 * i + 1)) (get f (pl + 8 + 3 * i + 2))
  else argb 255 0 0 0.

(* Grey level i of a greyscale image with [depth] bits, scaled linearly to 8 bits (13.12); the level named by tRNS is transparent. *)
Definition grey_colour (f : list Z) (depth : Z) (tr : option Z) (i : Z) : Z :=
  if match tr with Some t => be16 f (t + 8) =? i | None => false end then 0
  else let v := i * 255 / (2 ^ depth - 1) in argb 255 v v v.

(* The first chunk of a type among those at the positions ps. *)
Definition find_chunk (f : list Z) (ty : Z) (ps : list Z) : option Z := find (fun p => chunk_type f p =? ty) ps.
(* The chunks the palette may not follow. *)
Definition stop_chunk (f : list Z) (p : Z) : Prop :=
  chunk_type f p = type_IHDR \/ chunk_type f p = type_IDAT \/ chunk_type f p = type_IEND \/ chunk_type f p = type_fcTL.
(* The ancillary and palette chunks from p up to the first stop chunk, at q. *)
Definition prefix (f : list Z) (p : Z) (ps : list Z) (q : Z) : Prop :=
  chunks f p ps q /\ (forall x, In x ps -> ~ stop_chunk f x) /\ chunk_at f q /\ stop_chunk f q.

Definition type_fdAT := name 102 100 65 84.
(* The data of a chunk; fdAT chunks start with a sequence number of 4 bytes (APNG). *)
Definition chunk_data (f : list Z) (p : Z) : list Z :=
  let skip := if chunk_type f p =? type_fdAT then 4 else 0 in
  map (fun i => get f (p + 8 + skip + i)) (zrange (chunk_len f p - skip)).
Definition pixel_stream (f : list Z) (qs : list Z) : list Z := concat (map (chunk_data f) qs).

(* ------------------------------------------------------------------ which files are read safely *)

(* Position of the header chunk: after the signature, or after a CgBI chunk of 4 bytes. *)
Definition header_pos (f : list Z) : Z := if chunk_type f 8 =? type_CgBI then 24 else 8.
(* A file that is not too short for its header (the reader treats the last 8 bytes as missing). *)
Definition long_enough (f : list Z) : Prop := 41 <= Z.of_nat (length f) /\ (chunk_type f 8 = type_CgBI -> 57 <= Z.of_nat (length f)).
(* No frame asks for the previous contents to be restored (dispose_op 2). *)
Definition no_dispose_previous (f : list Z) : Prop := forall p, chunk_at f p -> chunk_type f p = type_fcTL -> 26 <= chunk_len f p -> get f (p + 32) <> 2.
(* The sizes of the image of the header, as the decoder and C38 need them. *)
Definition header_limits (f : list Z) (p : Z) : Prop :=
  let depth := get f (p + 16) * samples (get f (p + 17)) in
  be32 f (p + 8) < 2 ^ 28 /\ data_size (negb (get f (p + 20) =? 0)) depth (be32 f (p + 8)) (be32 f (p + 12)) < 2 ^ 32 /\
  (get f (p + 20) <> 0 -> depth = 1 \/ 8 <= depth).
Definition file_ok (f : list Z) : Prop :=
  bytes f /\ Z.of_nat (length f) <= 2 ^ 32 /\ long_enough f /\ no_dispose_previous f /\ (header_ok f (header_pos f) -> header_limits f (header_pos f)).

