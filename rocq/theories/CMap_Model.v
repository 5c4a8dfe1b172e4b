(* Model of the OpenType 'cmap' reader: blend2d/opentype/otcmap.cpp and otcmap_p.h.
   The cmap table is the list of its bytes; RawTable::size is the length of the list (otdefs_p.h 72-174), a pointer is an
   offset into it, and a read outside the list is UB. A sub-table pointer with its own size (otdefs_p.h 162-165) is the
   offset of the sub-table; its size is the size of the table minus that offset. *)
From Verif Require Import Base.

Definition E_NOT_IMPLEMENTED : Z := 0x10007.
Definition E_INVALID_DATA : Z := 0x1002E.
Definition E_NO_CHARACTER_MAPPING : Z := 0x1004C.
Definition kCharMax : Z := 0x10FFFF.
Definition SIZE_MAX : Z := 2 ^ 64 - 1.

Definition size (t : list Z) : Z := Z.of_nat (length t).

(* otdefs_p.h 245-283, 323-328: big-endian fields *)
Definition u8 (t : list Z) (p : Z) : outcome Z := rd t p.
Definition u16 (t : list Z) (p : Z) : outcome Z := let* a := rd t p in let* b := rd t (p + 1) in Ok (a * 256 + b).
Definition u32 (t : list Z) (p : Z) : outcome Z := let* a := u16 t p in let* b := u16 t (p + 2) in Ok (a * 65536 + b).

(* BLGlyphMappingState (core/fontdefs.h 430-451) *)
Record map_state := MapState { glyph_count : Z; undefined_first : Z; undefined_count : Z }.

(* otcmap.cpp 47-51, 154-159, 191-195: count an undefined glyph at index i *)
Definition undef (i : Z) (u : Z * Z) : Z * Z := (if snd u =? 0 then i else fst u, snd u + 1).
(* put the mapped glyph in front of the rest of the content *)
Definition emit (g : Z) (r : outcome (list Z * map_state)) : outcome (list Z * map_state) :=
  let* p := r in let (gs, st) := p in Ok (g :: gs, st).

(* otcmap.cpp 41-53, 187-197, 222-233: the loop of formats 0, 6 and 10; u = (undefined_first, undefined_count) *)
Fixpoint map_each (f : Z -> outcome Z) (text : list Z) (i : Z) (u : Z * Z) : outcome (list Z * map_state) :=
  match text with
  | [] => Ok ([], MapState i (fst u) (snd u))
  | uc :: text' =>
    let* g := f uc in
    emit g (map_each f text' (i + 1) (if g =? 0 then undef i u else u))
  end.

(* otcmap.cpp 30-59; Format0: otcmap_p.h 46-53 *)
Definition glyph0 (t : list Z) (off uc : Z) : outcome Z := if uc <? 256 then u8 t (off + 6 + uc) else Ok 0.
Definition map0 (t : list Z) (off : Z) (text : list Z) : outcome (list Z * map_state) :=
  map_each (glyph0 t off) text 0 (SIZE_MAX, 0).

(* otcmap.cpp 64-87: findSegmentFormat4; p is last_char_array, the result is (match, uc_first, uc_last) *)
Fixpoint find4 (fuel : nat) (t : list Z) (nseg uc p i : Z) : outcome (option (Z * Z * Z)) :=
  if i =? 0 then Ok None
  else match fuel with
  | O => NoFuel
  | S fuel' =>
    let e := p + Z.land i (Z.lnot 1) in
    let* uc_last := u16 t e in
    if uc_last <? uc then find4 fuel' t nseg uc (e + 2) (Z.shiftr (i - 1) 1)
    else
      let* uc_first := u16 t (e + 2 + nseg * 2) in
      if uc_first <=? uc then Ok (Some (e, uc_first, uc_last))
      else find4 fuel' t nseg uc p (Z.shiftr i 1)
  end.

(* otcmap.cpp 125-142: the glyph of uc in the matched segment; 0 stands for goto UndefinedGlyph *)
Definition glyph4 (t : list Z) (nseg : Z) (m : Z * Z * Z) (offset uc : Z) : outcome Z :=
  let '(e, uc_first, _) := m in
  let id_delta := 2 + nseg * 4 in
  let id_offset := 2 + nseg * 6 in
  let* v := (if offset =? 0 then Ok (Some uc)
    else
      let raw_remain := size t - 1 - e in
      let raw_offset := id_offset + (uc - uc_first) * 2 + offset in
      if raw_remain <=? raw_offset then Ok None else let* x := u16 t (e + raw_offset) in Ok (Some x)) in
  match v with
  | None => Ok 0
  | Some x => let* d := u16 t (e + id_delta) in Ok (Z.land (w32 (x + d)) 65535)
  end.

(* otcmap.cpp 113-162: [cache] is the segment of the previous character when it had a glyph, with its idRangeOffset *)
Fixpoint map4_loop (t : list Z) (nseg base n : Z) (text : list Z) (i : Z) (cache : option (Z * Z * Z * Z)) (u : Z * Z)
    : outcome (list Z * map_state) :=
  match text with
  | [] => Ok ([], MapState i (fst u) (snd u))
  | uc :: text' =>
    let fresh :=
      let* m := find4 (S (Z.to_nat n)) t nseg uc base n in
      match m with
      | None => Ok None
      | Some m => let* offset := u16 t (fst (fst m) + (2 + nseg * 6)) in Ok (Some (m, offset))
      end in
    let* c := (match cache with
      | None => fresh
      | Some (e, first, last, offset) => if (uc <? first) || (last <? uc) then fresh else Ok cache
      end) in
    match c with
    | None => emit 0 (map4_loop t nseg base n text' (i + 1) None (undef i u))
    | Some (m, offset) =>
      let* g := glyph4 t nseg m offset uc in
      if g =? 0 then emit 0 (map4_loop t nseg base n text' (i + 1) None (undef i u))
      else emit g (map4_loop t nseg base n text' (i + 1) c u)
    end
  end.
(* otcmap.cpp 89-168; Format4: otcmap_p.h 78-103 *)
Definition map4 (t : list Z) (off count : Z) (text : list Z) : outcome (list Z * map_state) :=
  let* x2 := u16 t (off + 6) in
  map4_loop t (Z.shiftr x2 1) (off + 14) count text 0 None (SIZE_MAX, 0).

(* otcmap.cpp 173-203; Format6: otcmap_p.h 104-118 *)
Definition glyph6 (t : list Z) (off first count uc : Z) : outcome Z :=
  let x := w32 (uc - first) in if x <? count then u16 t (off + 10 + x * 2) else Ok 0.
Definition map6 (t : list Z) (off : Z) (text : list Z) : outcome (list Z * map_state) :=
  let* first := u16 t (off + 6) in
  let* count := u16 t (off + 8) in
  map_each (glyph6 t off first count) text 0 (SIZE_MAX, 0).

(* otcmap.cpp 208-239; Format10: otcmap_p.h 131-140 *)
Definition glyph10 (t : list Z) (off first count uc : Z) : outcome Z :=
  let x := w32 (uc - first) in if x <? count then u16 t (off + 20 + x * 2) else Ok 0.
Definition map10 (t : list Z) (off : Z) (text : list Z) : outcome (list Z * map_state) :=
  let* first := u32 t (off + 12) in
  let* count := u32 t (off + 16) in
  map_each (glyph10 t off first count) text 0 (SIZE_MAX, 0).

(* otcmap.cpp 244-269: findGroupFormat12_13; p is start, the result is (uc_first, uc_last, first_glyph_id) *)
Fixpoint find12 (fuel : nat) (t : list Z) (uc p i : Z) : outcome (option (Z * Z * Z)) :=
  if i =? 0 then Ok None
  else match fuel with
  | O => NoFuel
  | S fuel' =>
    let g := p + 12 * Z.shiftr i 1 in
    let* uc_last := u32 t (g + 4) in
    if uc_last <? uc then find12 fuel' t uc (g + 12) (Z.shiftr (i - 1) 1)
    else
      let* uc_first := u32 t g in
      if uc <? uc_first then find12 fuel' t uc p (Z.shiftr i 1)
      else let* id := u32 t (g + 8) in Ok (Some (uc_first, uc_last, id))
  end.

(* otcmap.cpp 296-299 *)
Definition glyph12 (fmt : Z) (m : Z * Z * Z) (uc : Z) : Z :=
  let '(uc_first, _, id) := m in
  if fmt =? 12 then Z.land (w32 (id + uc - uc_first)) 65535 else Z.land id 65535.

(* otcmap.cpp 285-319: [cache] is the group of the previous character when it had a glyph *)
Fixpoint map12_loop (fmt : Z) (t : list Z) (base n : Z) (text : list Z) (i : Z) (cache : option (Z * Z * Z)) (u : Z * Z)
    : outcome (list Z * map_state) :=
  match text with
  | [] => Ok ([], MapState i (fst u) (snd u))
  | uc :: text' =>
    let fresh := find12 (S (Z.to_nat n)) t uc base n in
    let* c := (match cache with
      | None => fresh
      | Some (first, last, id) => if (uc <? first) || (last <? uc) then fresh else Ok cache
      end) in
    match c with
    | None => emit 0 (map12_loop fmt t base n text' (i + 1) None (undef i u))
    | Some m =>
      let g := glyph12 fmt m uc in
      if g =? 0 then emit 0 (map12_loop fmt t base n text' (i + 1) None (undef i u))
      else emit g (map12_loop fmt t base n text' (i + 1) c u)
    end
  end.
(* otcmap.cpp 271-325; Format12_13: otcmap_p.h 142-150 *)
Definition map12 (fmt : Z) (t : list Z) (off count : Z) (text : list Z) : outcome (list Z * map_state) :=
  map12_loop fmt t (off + 16) count text 0 None (SIZE_MAX, 0).

(* otcmap.cpp 386-423: the segments of a format 4 sub-table; k segments left; returns num_seg_after_check *)
Fixpoint check4 (k : nat) (t : list Z) (off nseg len i prev after : Z) : outcome Z :=
  match k with
  | O => Ok after
  | S k' =>
    let* last := u16 t (off + 14 + 2 * i) in
    let* first := u16 t (off + 16 + nseg * 2 + 2 * i) in
    let* id_offset := u16 t (off + 16 + nseg * 6 + 2 * i) in
    if (first =? 65535) && (last =? 65535) then check4 k' t off nseg len (i + 1) last (Z.min after i)
    else if (first <? prev) || (last <? first) then Err E_INVALID_DATA
    else if negb (i =? 0) && (first =? prev) then Err E_INVALID_DATA
    else if negb (id_offset =? 0) && negb (Z.land id_offset 1 =? 0) then Err E_INVALID_DATA
    else if negb (id_offset =? 0) && (len <=? 16 + nseg * 6 + id_offset + (last - first) * 2) then Err E_INVALID_DATA
    else check4 k' t off nseg len (i + 1) last after
  end.

(* otcmap.cpp 516-525: the groups 1 .. count - 1 of a format 12 or 13 sub-table; k groups left *)
Fixpoint check12 (k : nat) (t : list Z) (off i last : Z) : outcome unit :=
  match k with
  | O => Ok tt
  | S k' =>
    let* first := u32 t (off + 16 + 12 * i) in
    if first <=? last then Err E_INVALID_DATA
    else
      let* last := u32 t (off + 16 + 12 * i + 4) in
      if (last <? first) || (kCharMax <? last) then Err E_INVALID_DATA
      else check12 k' t off (i + 1) last
  end.

Definition guard (b : bool) {A} (k : outcome A) : outcome A := if b then k else Err E_INVALID_DATA.

(* otcmap.cpp 330-551: validate_sub_table; the result is (format_out, encoding_out.entry_count), encoding_out.offset is off *)
Definition validate (t : list Z) (off : Z) : outcome (Z * Z) :=
  guard (negb ((size t <? 4) || (size t - 4 <? off))) (
  let sz := size t - off in
  let* format := u16 t off in
  if format =? 0 then
    guard (262 <=? sz) (
    let* len := u16 t (off + 2) in
    guard (negb ((len <? 262) || (sz <? len))) (Ok (format, 256)))
  else if format =? 2 then Err E_NOT_IMPLEMENTED
  else if format =? 4 then
    guard (24 <=? sz) (
    let* len := u16 t (off + 2) in
    guard (negb ((len <? 24) || (sz <? len))) (
    let* x2 := u16 t (off + 6) in
    guard (negb ((x2 =? 0) || negb (Z.land x2 1 =? 0))) (
    let nseg := x2 / 2 in
    guard (negb (len <? 16 + nseg * 8)) (
    let* after := check4 (Z.to_nat nseg) t off nseg len 0 0 nseg in
    guard (negb (after =? 0)) (Ok (format, after))))))
  else if format =? 6 then
    guard (12 <=? sz) (
    let* len := u16 t (off + 2) in
    guard (negb ((len <? 12) || (sz <? len))) (
    let* first := u16 t (off + 6) in
    let* count := u16 t (off + 8) in
    guard (negb ((count =? 0) || (65535 <? first + count))) (
    guard (negb (len <? 20 + count * 2)) (Ok (format, count)))))
  else if format =? 8 then Err E_NOT_IMPLEMENTED
  else if format =? 10 then
    guard (20 <=? sz) (
    let* len := u32 t (off + 4) in
    guard (negb ((len <? 20) || (sz <? len))) (
    let* first := u32 t (off + 12) in
    let* count := u32 t (off + 16) in
    guard (negb ((kCharMax <=? first) || (count =? 0) || (kCharMax <? count) || (kCharMax <? w32 (first + count)))) (
    guard (negb (len <? 20 + count * 2)) (Ok (format, count)))))
  else if (format =? 12) || (format =? 13) then
    guard (16 <=? sz) (
    let* len := u32 t (off + 4) in
    guard (negb ((len <? 16) || (sz <? len))) (
    let* count := u32 t (off + 12) in
    guard (negb ((kCharMax <? count) || (len <? 16 + count * 12))) (
    let* first := u32 t (off + 16) in
    let* last := u32 t (off + 20) in
    guard (negb ((last <? first) || (kCharMax <? last))) (
    let* _ := check12 (Z.to_nat count - 1) t off 1 last in
    Ok (format, count)))))
  else if format =? 14 then guard (10 <=? sz) (Err E_NOT_IMPLEMENTED)
  else Err E_INVALID_DATA).

(* otcmap.cpp 713-725 *)
Definition is_supported (format : Z) : bool :=
  (format =? 0) || (format =? 4) || (format =? 6) || (format =? 10) || (format =? 12) || (format =? 13).

(* the part of OTFaceImpl that init writes: flags (symbol font, wrong cmap data, wrong cmap format) and the selected
   (format, offset, entry_count) with its score *)
Record face := Face { f_symbol : bool; f_wrong_data : bool; f_wrong_format : bool; f_score : Z; f_enc : option (Z * Z * Z) }.

(* otcmap.cpp 783-803 *)
Definition score (platform encoding format : Z) : Z :=
  if platform =? 0 then 0x10000 + encoding
  else if platform =? 3 then
    if encoding =? 0 then 2 else if (encoding =? 1) || (encoding =? 10) then 0x20000 + encoding else 0
  else if platform =? 1 then if (encoding =? 0) && (format =? 0) then 1 else 0
  else 0.

(* otcmap.cpp 769-824: k encoding records left *)
Fixpoint init_loop (k : nat) (t : list Z) (i : Z) (f : face) : outcome face :=
  match k with
  | O => Ok f
  | S k' =>
    let r := 4 + 8 * i in
    let* offset := u32 t (r + 4) in
    if size t - 4 <=? offset then init_loop k' t (i + 1) f
    else
      let* platform := u16 t r in
      let* encoding := u16 t (r + 2) in
      let* format := u16 t offset in
      if negb (is_supported format) then init_loop k' t (i + 1) f
      else
        let s := score platform encoding format in
        let f := Face (f_symbol f || ((platform =? 3) && (encoding =? 0))) (f_wrong_data f) (f_wrong_format f) (f_score f) (f_enc f) in
        if f_score f <? s then
          match validate t offset with
          | Ok (fmt, count) => init_loop k' t (i + 1) (Face (f_symbol f) (f_wrong_data f) (f_wrong_format f) s (Some (fmt, offset, count)))
          | Err c =>
            if c =? E_NOT_IMPLEMENTED then init_loop k' t (i + 1) (Face (f_symbol f) (f_wrong_data f) true (f_score f) (f_enc f))
            else init_loop k' t (i + 1) (Face (f_symbol f) true (f_wrong_format f) (f_score f) (f_enc f))
          | UB => UB
          | NoFuel => NoFuel
          end
        else init_loop k' t (i + 1) f
  end.

(* otcmap.cpp 740-839: init; a face without a cmap table keeps cmap_format = 0xFF (otface.cpp 103) *)
Definition init (t : list Z) : outcome face :=
  if size t =? 0 then Ok (Face false false false 0 None)
  else if size t <? 12 then Ok (Face false true false 0 None)
  else
    let* n := u16 t 2 in
    if size t <? 4 + n * 8 then Ok (Face false true false 0 None)
    else init_loop (Z.to_nat n) t 0 (Face false false false 0 None).

(* otcmap.cpp 727-738 and 21-25: funcs.map_text_to_glyphs *)
Definition map_text (t : list Z) (f : face) (text : list Z) : outcome (list Z * map_state) :=
  match f_enc f with
  | None => Err E_NO_CHARACTER_MAPPING
  | Some (fmt, off, count) =>
    if fmt =? 0 then map0 t off text
    else if fmt =? 4 then map4 t off count text
    else if fmt =? 6 then map6 t off text
    else if fmt =? 10 then map10 t off text
    else if (fmt =? 12) || (fmt =? 13) then map12 fmt t off count text
    else Err E_NO_CHARACTER_MAPPING
  end.

(* BLBitSetBuilder is the list of ranges [a, b) added so far, newest first; memory allocation is not modelled *)
(* otcmap.cpp 568-573, 633-637, 652-656: characters with a glyph of a plain array *)
Fixpoint cover_array (f : Z -> outcome Z) (k : nat) (first i : Z) (acc : list (Z * Z)) : outcome (list (Z * Z)) :=
  match k with
  | O => Ok acc
  | S k' => let* g := f i in cover_array f k' first (i + 1) (if g =? 0 then acc else (first + i, first + i + 1) :: acc)
  end.

(* otcmap.cpp 599-620, 677-700: merge adjacent segments; seg i is (segment_start, segment_end) *)
Definition add_range (a b : Z) (acc : list (Z * Z)) : list (Z * Z) := if a <? b then (a, b) :: acc else acc.
Fixpoint cover_ranges (seg : Z -> outcome (Z * Z)) (k : nat) (i a b : Z) (acc : list (Z * Z)) : outcome (list (Z * Z)) :=
  match k with
  | O => Ok (add_range a b acc)
  | S k' =>
    let* s := seg i in
    let (s1, s2) := s in
    if s1 =? b then cover_ranges seg k' (i + 1) a s2 acc
    else cover_ranges seg k' (i + 1) s1 s2 (add_range a b acc)
  end.

(* otcmap.cpp 556-707: populate_character_coverage *)
Definition coverage (t : list Z) (f : face) : outcome (list (Z * Z)) :=
  match f_enc f with
  | None => Err E_NO_CHARACTER_MAPPING
  | Some (fmt, off, count) =>
    if fmt =? 0 then cover_array (fun i => u8 t (off + 6 + i)) 256 0 0 []
    else if fmt =? 4 then
      let* x2 := u16 t (off + 6) in
      let nseg := x2 / 2 in
      if (nseg =? 0) || (count =? 0) then Ok []
      else cover_ranges (fun i => let* a := u16 t (off + 16 + nseg * 2 + 2 * i) in let* b := u16 t (off + 14 + 2 * i) in Ok (a, b + 1))
             (Z.to_nat count) 0 0 0 []
    else if fmt =? 6 then
      let* first := u16 t (off + 6) in
      cover_array (fun i => u16 t (off + 10 + i * 2)) (Z.to_nat count) first 0 []
    else if fmt =? 10 then
      let* first := u32 t (off + 12) in
      cover_array (fun i => u16 t (off + 20 + i * 2)) (Z.to_nat count) first 0 []
    else if (fmt =? 12) || (fmt =? 13) then
      if count =? 0 then Ok []
      else cover_ranges (fun i => let* a := u32 t (off + 16 + 12 * i) in let* b := u32 t (off + 16 + 12 * i + 4) in
                                  Ok (a, if b =? 4294967295 then b else b + 1))
             (Z.to_nat count) 0 0 0 []
    else Err E_NO_CHARACTER_MAPPING
  end.
