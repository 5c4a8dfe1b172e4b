(* OpenType 'cmap' table (ISO/IEC 14496-22 5.2.1, Microsoft OpenType specification): the glyph of a character in a
   sub-table, the state reported with a mapping, well-formed sub-tables, and the preference between encoding records. *)
From Verif Require Import Base.

(* big-endian numbers in the table; bytes outside the table count as zero *)
Definition byte (t : list Z) (p : Z) : Z := nth (Z.to_nat p) t 0.
Definition be16 (t : list Z) (p : Z) : Z := byte t p * 256 + byte t (p + 1).
Definition be32 (t : list Z) (p : Z) : Z := be16 t p * 65536 + be16 t (p + 2).
Definition tsize (t : list Z) : Z := Z.of_nat (length t).

Definition idx (n : Z) : list Z := map Z.of_nat (seq 0 (Z.to_nat n)).

(* format 4, "segment mapping to delta values": segment i of n at the sub-table offset off *)
Definition seg_count (t : list Z) (off : Z) : Z := be16 t (off + 6) / 2.
Definition seg_end (t : list Z) (off i : Z) : Z := be16 t (off + 14 + 2 * i).
Definition seg_start (t : list Z) (off i : Z) : Z := be16 t (off + 16 + 2 * seg_count t off + 2 * i).
Definition seg_delta (t : list Z) (off i : Z) : Z := be16 t (off + 16 + 4 * seg_count t off + 2 * i).
Definition seg_range_at (t : list Z) (off i : Z) : Z := off + 16 + 6 * seg_count t off + 2 * i.
Definition seg_range (t : list Z) (off i : Z) : Z := be16 t (seg_range_at t off i).

(* the first segment whose endCode is at least c *)
Definition seg_find (t : list Z) (off c : Z) : option Z := find (fun i => c <=? seg_end t off i) (idx (seg_count t off)).
(* the value found through idRangeOffset; a place outside the table has no glyph *)
Definition seg_glyph (t : list Z) (off i c : Z) : Z :=
  let a := seg_range_at t off i + seg_range t off i + 2 * (c - seg_start t off i) in
  if tsize t <? a + 2 then 0 else be16 t a.
Definition lookup4 (t : list Z) (off c : Z) : Z :=
  match seg_find t off c with
  | None => 0
  | Some i =>
    if c <? seg_start t off i then 0
    else if seg_range t off i =? 0 then (c + seg_delta t off i) mod 65536
    else let g := seg_glyph t off i c in if g =? 0 then 0 else (g + seg_delta t off i) mod 65536
  end.

(* a missing glyph of a glyphIdArray that idDelta would turn into a glyph *)
Definition shifted_missing (t : list Z) (off c : Z) : Prop :=
  exists i, seg_find t off c = Some i /\ seg_start t off i <= c /\ seg_range t off i <> 0 /\ seg_delta t off i <> 0 /\
    seg_range_at t off i + seg_range t off i + 2 * (c - seg_start t off i) + 2 <= tsize t /\ seg_glyph t off i c = 0.

(* formats 0, 6 and 10 *)
Definition lookup0 (t : list Z) (off c : Z) : Z := if c <? 256 then byte t (off + 6 + c) else 0.
Definition lookup6 (t : list Z) (off c : Z) : Z :=
  let first := be16 t (off + 6) in
  if (first <=? c) && (c <? first + be16 t (off + 8)) then be16 t (off + 10 + 2 * (c - first)) else 0.
Definition lookup10 (t : list Z) (off c : Z) : Z :=
  let first := be32 t (off + 12) in
  if (first <=? c) && (c <? first + be32 t (off + 16)) then be16 t (off + 20 + 2 * (c - first)) else 0.

(* formats 12 and 13; glyph ids have 16 bits *)
Definition grp_count (t : list Z) (off : Z) : Z := be32 t (off + 12).
Definition grp_first (t : list Z) (off i : Z) : Z := be32 t (off + 16 + 12 * i).
Definition grp_last (t : list Z) (off i : Z) : Z := be32 t (off + 16 + 12 * i + 4).
Definition grp_glyph (t : list Z) (off i : Z) : Z := be32 t (off + 16 + 12 * i + 8).
Definition grp_find (t : list Z) (off c : Z) : option Z :=
  find (fun i => (grp_first t off i <=? c) && (c <=? grp_last t off i)) (idx (grp_count t off)).
Definition lookup12 (t : list Z) (off c : Z) : Z :=
  match grp_find t off c with None => 0 | Some i => (grp_glyph t off i + (c - grp_first t off i)) mod 65536 end.
Definition lookup13 (t : list Z) (off c : Z) : Z :=
  match grp_find t off c with None => 0 | Some i => grp_glyph t off i mod 65536 end.

(* the glyph of character c in the sub-table at off, by its format *)
Definition glyph_of (t : list Z) (off c : Z) : Z :=
  let f := be16 t off in
  if f =? 0 then lookup0 t off c else if f =? 4 then lookup4 t off c else if f =? 6 then lookup6 t off c
  else if f =? 10 then lookup10 t off c else if f =? 12 then lookup12 t off c else if f =? 13 then lookup13 t off c else 0.

(* characters for which format 4 is read as specified: U+FFFF belongs to the end mark *)
Definition regular (t : list Z) (off c : Z) : Prop := be16 t off = 4 -> c <> 65535 /\ ~ shifted_missing t off c.

(* BLGlyphMappingState as documented in core/fontdefs.h 430-440 *)
Definition zeros (gs : list Z) : Z := Z.of_nat (length (filter (fun g => g =? 0) gs)).
Definition first_zero (gs : list Z) (k : Z) : Prop :=
  (zeros gs = 0 /\ k = 2 ^ 64 - 1) \/
  (exists a b, gs = a ++ 0 :: b /\ zeros a = 0 /\ k = Z.of_nat (length a)).

(* well-formed sub-tables *)
Definition wf0 (t : list Z) (off : Z) : Prop :=
  be16 t off = 0 /\ be16 t (off + 2) = 262 /\ off + 262 <= tsize t.
Definition is_end_mark (t : list Z) (off i : Z) : Prop := seg_start t off i = 65535 /\ seg_end t off i = 65535.
(* segments in ascending order without overlap, the last one is the end mark, glyph arrays inside the sub-table *)
Definition wf4 (t : list Z) (off : Z) : Prop :=
  let len := be16 t (off + 2) in
  let n := seg_count t off in
  be16 t off = 4 /\ be16 t (off + 6) = 2 * n /\ 2 <= n /\ 16 + 8 * n <= len /\ off + len <= tsize t /\
  (forall i, 0 <= i < n -> seg_start t off i <= seg_end t off i) /\
  (forall i, 0 <= i < n - 1 -> seg_end t off i < seg_start t off (i + 1)) /\
  is_end_mark t off (n - 1) /\
  (forall i, 0 <= i < n - 1 -> seg_range t off i <> 0 ->
     seg_range t off i mod 2 = 0 /\
     seg_range_at t off i + seg_range t off i + 2 * (seg_end t off i - seg_start t off i) + 2 <= off + len).
Definition wf6 (t : list Z) (off : Z) : Prop :=
  be16 t off = 6 /\ 1 <= be16 t (off + 8) /\ be16 t (off + 6) + be16 t (off + 8) <= 65536 /\
  be16 t (off + 2) = 10 + 2 * be16 t (off + 8) /\ off + be16 t (off + 2) <= tsize t.
Definition wf10 (t : list Z) (off : Z) : Prop :=
  be16 t off = 10 /\ 1 <= be32 t (off + 16) /\ be32 t (off + 12) + be32 t (off + 16) <= 0x110000 /\
  be32 t (off + 4) = 20 + 2 * be32 t (off + 16) /\ off + be32 t (off + 4) <= tsize t.
Definition wf12 (t : list Z) (off : Z) : Prop :=
  let n := grp_count t off in
  (be16 t off = 12 \/ be16 t off = 13) /\ 1 <= n /\ be32 t (off + 4) = 16 + 12 * n /\ off + be32 t (off + 4) <= tsize t /\
  (forall i, 0 <= i < n -> grp_first t off i <= grp_last t off i <= 0x10FFFF) /\
  (forall i, 0 <= i < n - 1 -> grp_last t off i < grp_first t off (i + 1)).

(* encoding records *)
Definition rec_count (t : list Z) : Z := be16 t 2.
Definition rec_platform (t : list Z) (i : Z) : Z := be16 t (4 + 8 * i).
Definition rec_encoding (t : list Z) (i : Z) : Z := be16 t (4 + 8 * i + 2).
Definition rec_offset (t : list Z) (i : Z) : Z := be32 t (4 + 8 * i + 4).
Definition rec_format (t : list Z) (i : Z) : Z := be16 t (rec_offset t i).

(* preference: Windows Unicode (full repertoire before BMP), then the Unicode platform by its encoding id,
   then Windows symbol fonts, then Macintosh Roman byte tables; class 0 is never used *)
Definition pref_class (platform encoding format : Z) : Z :=
  if (platform =? 3) && ((encoding =? 1) || (encoding =? 10)) then 4
  else if platform =? 0 then 3
  else if (platform =? 3) && (encoding =? 0) then 2
  else if (platform =? 1) && (encoding =? 0) && (format =? 0) then 1
  else 0.
Definition rec_class (t : list Z) (i : Z) : Z := pref_class (rec_platform t i) (rec_encoding t i) (rec_format t i).
(* record i is at least as good as record j *)
Definition preferred (t : list Z) (i j : Z) : Prop :=
  rec_class t j < rec_class t i \/ (rec_class t j = rec_class t i /\ (rec_class t i < 3 \/ rec_encoding t j <= rec_encoding t i)).
Definition strictly_preferred (t : list Z) (i j : Z) : Prop := preferred t i j /\ ~ preferred t j i.

(* character coverage: a union of ranges [a, b) *)
Definition covered (l : list (Z * Z)) (c : Z) : Prop := exists r, In r l /\ fst r <= c < snd r.

(* a format 12 or 13 sub-table without groups at the very end of the table *)
Definition empty_groups_at_end (t : list Z) (off : Z) : Prop :=
  (be16 t off = 12 \/ be16 t off = 13) /\ grp_count t off = 0 /\ off + 16 <= tsize t < off + 24.

Definition supported_format (f : Z) : Prop := f = 0 \/ f = 4 \/ f = 6 \/ f = 10 \/ f = 12 \/ f = 13.

(* a readable record of a symbol font of Windows *)
Definition symbol_record (t : list Z) (i : Z) : Prop :=
  rec_offset t i < tsize t - 4 /\ supported_format (rec_format t i) /\ rec_platform t i = 3 /\ rec_encoding t i = 0.
