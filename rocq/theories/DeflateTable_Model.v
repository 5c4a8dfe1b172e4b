(* Model of the Huffman decode tables of the DEFLATE decoder: blend2d/compression/deflatedecoder.cpp 71-553 and the
   entry accessors of blend2d/compression/deflatedecoderutils_p.h 31-84 (build without BMI2).
   A table is a list of entry values (uint32_t) of fixed length; reads and writes outside it are UB.
   The initial contents of a table are arbitrary, so nothing depends on uninitialised entries. *)
From Verif Require Import Base Algorithm_Model.

(* deflatedefs_p.h: kMaxCodeWordLen = 15, kMaxSymbolCount = 288, kMaxMatchLen = 258;
   deflatedecoder_p.h 94-109: table bits and table sizes *)
Definition kMaxCodeWordLen : Z := 15.
Definition kMaxPreCodeWordLen : Z := 7.
Definition kMaxSymbolCount : Z := 288.
Definition kDecoderPrecodeTableBits : Z := 7.
Definition kDecoderPrecodeTableEntries : Z := 128.
Definition kDecoderLitLenTableBits : Z := 11.
Definition kDecoderLitLenTableEntries : Z := 2342.
Definition kDecoderOffsetTableBits : Z := 9.
Definition kDecoderOffsetTableEntries : Z := 594.

(* deflatedecoder_p.h 227-231 *)
Definition kEndOfBlockInvalidFlag : Z := 2 ^ 23.
Definition kEndOfBlockFlag : Z := 2 ^ 24.
Definition kOffOrLenFlag : Z := 2 ^ 25.
Definition kLiteralFlag : Z := 2 ^ 27.

(* deflatedecoderutils_p.h 38: mask32 for n < 32 *)
Definition mask32 (n : Z) : Z := 2 ^ n - 1.

(* deflatedecoderutils_p.h 46-50 *)
Definition is_literal (e : Z) : bool := negb (Z.land e kLiteralFlag =? 0).
Definition is_off_or_len (e : Z) : bool := negb (Z.land e kOffOrLenFlag =? 0).
Definition is_end_of_block (e : Z) : bool := negb (Z.land e kEndOfBlockFlag =? 0).
Definition is_end_of_block_invalid (e : Z) : bool := negb (Z.land e kEndOfBlockInvalidFlag =? 0).

(* deflatedecoderutils_p.h 53-63 *)
Definition base_length (e : Z) : Z := Z.land (Z.shiftr e 28) 15.
Definition full_length (e : Z) : Z := Z.land e 255.
Definition raw_payload (e : Z) : Z := Z.land (Z.shiftr e 8) 65535.
Definition payload_field (e : Z) : Z := Z.land (Z.shiftr e 8) 32767.
Definition precode_value (e : Z) : Z := Z.land (Z.shiftr e 8) 255.
Definition precode_repeat (e : Z) : Z := Z.land (Z.shiftr e 16) 255.

(* deflatedecoderutils_p.h 42: the low (value & 63) bits of the word; shifting 1u by 32 or more is UB *)
Definition extract_entry (src e : Z) : outcome Z :=
  let n := Z.land e 63 in
  if 32 <=? n then UB else Ok (Z.land (w32 src) (2 ^ n - 1)).
(* deflatedecoderutils_p.h 65 *)
Definition extract_extra (src e : Z) : outcome Z :=
  let* x := extract_entry src e in Ok (Z.shiftr x (base_length e)).

(* deflatedecoder.cpp 77-91 *)
Definition precode_result (v r x : Z) : Z := Z.lor (Z.lor (Z.shiftl v 8) (Z.shiftl r 16)) x.
Definition kPrecodeDecodeResults : list Z :=
  map (fun v => precode_result (Z.of_nat v) 1 0) (seq 0 16) ++
  [precode_result 16 3 2; precode_result 17 3 3; precode_result 18 11 7].

(* deflatedecoder.cpp 94-157 *)
Definition literal_result (v : Z) : Z := Z.lor (Z.lor (Z.shiftl v 8) (2 ^ 6)) kLiteralFlag.
Definition off_or_len_result (p : Z * Z) : Z := Z.lor (Z.lor (Z.shiftl (fst p) 8) (snd p)) kOffOrLenFlag.
Definition invalid_result : Z := Z.lor kEndOfBlockFlag kEndOfBlockInvalidFlag.
Definition length_bases : list (Z * Z) :=
  [(3,0); (4,0); (5,0); (6,0); (7,0); (8,0); (9,0); (10,0); (11,1); (13,1); (15,1); (17,1); (19,2); (23,2); (27,2); (31,2);
   (35,3); (43,3); (51,3); (59,3); (67,4); (83,4); (99,4); (115,4); (131,5); (163,5); (195,5); (227,5); (258,0)].
Definition kLitLenDecodeResults : list Z :=
  map (fun v => literal_result (Z.of_nat v)) (seq 0 256) ++ [kEndOfBlockFlag] ++
  map off_or_len_result length_bases ++ [invalid_result; invalid_result].

(* deflatedecoder.cpp 159-180 *)
Definition offset_bases : list (Z * Z) :=
  [(1,0); (2,0); (3,0); (4,0); (5,1); (7,1); (9,2); (13,2); (17,3); (25,3); (33,4); (49,4); (65,5); (97,5); (129,6); (193,6);
   (257,7); (385,7); (513,8); (769,8); (1025,9); (1537,9); (2049,10); (3073,10); (4097,11); (6145,11); (8193,12); (12289,12);
   (16385,13); (24577,13)].
Definition kOffsetDecodeResults : list Z := map off_or_len_result offset_bases ++ [invalid_result; invalid_result].

(* deflatedecoder.cpp 187-197 *)
Definition make_top_entry (entry len : Z) : Z :=
  let base := if is_end_of_block entry then 0 else w32 (Z.shiftl len 28) in
  w32 (entry + Z.lor len base).
(* deflatedecoder.cpp 199-205 *)
Definition make_sub_link (start base full : Z) : Z :=
  Z.lor (Z.lor (w32 (Z.shiftl base 28)) full) (w32 (Z.shiftl start 8)).
(* deflatedecoder.cpp 207-213 *)
Definition make_sub_entry (entry len : Z) : Z :=
  w32 (Z.land entry 4294967103 + len + w32 (Z.shiftl len 28)).

(* deflatedecoder.cpp 216-220 *)
Inductive table_type := TPrecode | TLitLen | TOffset.
Definition is_offset_type (t : table_type) : bool := match t with TOffset => true | _ => false end.
Definition is_precode_type (t : table_type) : bool := match t with TPrecode => true | _ => false end.

(* deflatedecoder_p.h 294-301 *)
Record table_info := TableInfo { ti_bits : Z; ti_max_len : Z; ti_literal_mask : Z }.
Definition no_info : table_info := TableInfo 0 0 0.

(* deflatedecoder.cpp 263-272: count codewords of each length; [lens] is the array of num_syms entries *)
Fixpoint count_lens (lens : list Z) (sym : Z) (counts : list Z) (len_mask literal_mask : Z) : outcome (list Z * Z * Z) :=
  match lens with
  | [] => Ok (counts, len_mask, literal_mask)
  | len :: lens' =>
    let* c := rd counts len in
    let* counts := wr counts len (w32 (c + 1)) in
    let b := Z.shiftl 1 len in
    count_lens lens' (sym + 1) counts (Z.lor len_mask b) (if sym <? 256 then Z.lor literal_mask b else literal_mask)
  end.

(* a cell of an uninitialised local array; reading it before it is written is UB *)
Definition rdi (l : list (option Z)) (i : Z) : outcome Z :=
  let* x := rd l i in match x with Some v => Ok v | None => UB end.

(* deflatedecoder.cpp 294-300: offsets of each length in the sorted symbols and codespace used; k = iterations left *)
Fixpoint len_offsets (k : nat) (len : Z) (counts : list Z) (offsets : list (option Z)) (used : Z) : outcome (list (option Z) * Z) :=
  match k with
  | O => let* c := rd counts len in Ok (offsets, w32 (w32 (Z.shiftl used 1) + c))
  | S k' =>
    let* o := rdi offsets len in
    let* c := rd counts len in
    let* offsets := wr offsets (len + 1) (Some (w32 (o + c))) in
    len_offsets k' (len + 1) counts offsets (w32 (w32 (Z.shiftl used 1) + c))
  end.

(* deflatedecoder.cpp 304-307: counting sort *)
Fixpoint sort_syms (lens : list Z) (sym : Z) (offsets data : list (option Z)) : outcome (list (option Z) * list (option Z)) :=
  match lens with
  | [] => Ok (offsets, data)
  | len :: lens' =>
    let* o := rdi offsets len in
    let* data := wr data o (Some (w16 sym)) in
    let* offsets := wr offsets len (Some (w32 (o + 1))) in
    sort_syms lens' (sym + 1) offsets data
  end.

(* memcpy(&decode_table[end], decode_table, end * sizeof(DecodeEntry)); deflatedecoder.cpp 406, 427 *)
Definition double_table (t : list Z) (tend : Z) : outcome (list Z) :=
  if (tend <? 0) || (Z.of_nat (length t) <? 2 * tend) then UB
  else let h := firstn (Z.to_nat tend) t in Ok (h ++ h ++ skipn (2 * Z.to_nat tend) t).

(* deflatedecoder.cpp 405-408: k = table_bits - len doublings *)
Fixpoint extend_table (k : nat) (t : list Z) (tend : Z) : outcome (list Z) :=
  match k with
  | O => Ok t
  | S k' => let* t := double_table t tend in extend_table k' t (2 * tend)
  end.

(* deflatedecoder.cpp 419-421 and 482-484: bit-reversed increment; IntOps::clz(x) for x > 0 is 31 - log2 x,
   clz of 0 is UB *)
Definition next_codeword (codeword ones : Z) : outcome Z :=
  let x := Z.lxor codeword ones in
  if x <=? 0 then UB
  else let bit := Z.shiftl 1 (Z.log2 x) in Ok (Z.lor (Z.land codeword (bit - 1)) bit).

(* deflatedecoder.cpp 389-391: first used length *)
Fixpoint first_len (fuel : nat) (counts : list Z) (len : Z) : outcome (Z * Z) :=
  match fuel with
  | O => NoFuel
  | S fuel' =>
    let* c := rd counts len in
    if c =? 0 then first_len fuel' counts (len + 1) else Ok (len, c)
  end.

(* deflatedecoder.cpp 425-430: advance to the next used length, doubling the table *)
Fixpoint advance_len (fuel : nat) (counts : list Z) (tbits : Z) (t : list Z) (len tend : Z) : outcome (list Z * Z * Z * Z) :=
  match fuel with
  | O => NoFuel
  | S fuel' =>
    let len := len + 1 in
    let* te := (if len <=? tbits then let* t := double_table t tend in Ok (t, 2 * tend) else Ok (t, tend)) in
    let (t, tend) := te in
    let* c := rd counts len in
    if c =? 0 then advance_len fuel' counts tbits t len tend else Ok (t, len, tend, c)
  end.

(* deflatedecoder.cpp 396-431: codewords of at most table_bits bits, one codeword per step. [None] in the second
   component means the last codeword was reached (goto Done); otherwise the state for the subtables. *)
Fixpoint fill_main (fuel : nat) (counts : list Z) (results : list Z) (tbits : Z) (t : list Z) (syms : list (option Z))
    (codeword len count tend : Z) : outcome (list Z * option (list (option Z) * Z * Z * Z)) :=
  match fuel with
  | O => NoFuel
  | S fuel' =>
    if len <=? tbits then
      let* s := rdi syms 0 in
      let* r := rd results s in
      let* t := wr t codeword (make_top_entry r len) in
      let syms := skipn 1 syms in
      if codeword =? tend - 1 then
        let* t := extend_table (Z.to_nat (tbits - len)) t tend in Ok (t, None)
      else
        let* codeword := next_codeword codeword (tend - 1) in
        let count := count - 1 in
        if count =? 0 then
          let* a := advance_len 16 counts tbits t len tend in
          let '(t, len, tend, count) := a in
          fill_main fuel' counts results tbits t syms codeword len count tend
        else fill_main fuel' counts results tbits t syms codeword len count tend
    else Ok (t, Some (syms, codeword, len, count))
  end.

(* deflatedecoder.cpp 451-458: number of index bits of a new subtable *)
Fixpoint subtable_size (fuel : nat) (counts : list Z) (tbits sbits used : Z) : outcome Z :=
  match fuel with
  | O => NoFuel
  | S fuel' =>
    if used <? 2 ^ sbits then
      let* c := rd counts (tbits + (sbits + 1)) in
      subtable_size fuel' counts tbits (sbits + 1) (w32 (w32 (Z.shiftl used 1) + c))
    else Ok sbits
  end.

(* deflatedecoder.cpp 470-473: do { table[i] = entry; i += stride } while (i < end) *)
Fixpoint fill_stride (fuel : nat) (t : list Z) (entry i stride tend : Z) : outcome (list Z) :=
  match fuel with
  | O => NoFuel
  | S fuel' =>
    let* t := wr t i entry in
    if i + stride <? tend then fill_stride fuel' t entry (i + stride) stride tend else Ok t
  end.

(* deflatedecoder.cpp 487-489: count--; while (count == 0) count = len_counts[++len] *)
Fixpoint next_len (fuel : nat) (counts : list Z) (len count : Z) : outcome (Z * Z) :=
  match fuel with
  | O => NoFuel
  | S fuel' => if count =? 0 then let* c := rd counts (len + 1) in next_len fuel' counts (len + 1) c else Ok (len, count)
  end.

(* deflatedecoder.cpp 439-490: codewords longer than table_bits; prefix is -1 (0xFFFFFFFF) before the first subtable *)
Fixpoint fill_sub (fuel : nat) (counts : list Z) (results : list Z) (tbits : Z) (t : list Z) (syms : list (option Z))
    (codeword len count tend start prefix : Z) : outcome (list Z) :=
  match fuel with
  | O => NoFuel
  | S fuel' =>
    let p := Z.land codeword (mask32 tbits) in
    let* st := (if p =? prefix then Ok (t, start, tend) else
      let* sb := subtable_size 32 counts tbits (len - tbits) count in
      let* t := wr t p (make_sub_link tend tbits (tbits + sb)) in
      Ok (t, tend, tend + 2 ^ sb)) in
    let '(t, start, tend) := st in
    let* s := rdi syms 0 in
    let* r := rd results s in
    let* t := fill_stride (Z.to_nat tend) t (make_sub_entry r len) (start + Z.shiftr codeword tbits) (2 ^ (len - tbits)) tend in
    let syms := skipn 1 syms in
    if codeword =? mask32 len then Ok t else
    let* codeword := next_codeword codeword (mask32 len) in
    let* lc := next_len 32 counts len (count - 1) in
    let (len, count) := lc in
    fill_sub fuel' counts results tbits t syms codeword len count tend start p
  end.

(* deflatedecoder.cpp 360-363: fill pairs of entries *)
Fixpoint fill_pairs (k : nat) (t : list Z) (i a b : Z) : outcome (list Z) :=
  match k with
  | O => Ok t
  | S k' => let* t := wr t i a in let* t := wr t (i + 1) b in fill_pairs k' t (i + 2) a b
  end.

(* deflatedecoder.cpp 249-500. Returns the table and its info; table_bits = 0 reports an invalid code.
   IntOps::clz(len_mask | 1): 32 - clz x = log2 x + 1. *)
Definition build_decode_table (t : list Z) (lens : list Z) (results : list Z) (max_table_bits max_len : Z) (ty : table_type)
    : outcome (list Z * table_info) :=
  let* cm := count_lens lens 0 (repeat 0 16) 0 0 in
  let '(counts, len_mask, literal_mask) := cm in
  let literal_mask := Z.land literal_mask 4294967294 in
  let max_len := Z.min max_len (Z.log2 (Z.lor len_mask 1) + 1) in
  let tbits := Z.max (Z.min max_table_bits max_len) 1 in
  let* c0 := rd counts 0 in
  let* ou := len_offsets (Z.to_nat (max_len - 1)) 1 counts (Some 0 :: Some c0 :: repeat None 14) 0 in
  let (offsets, used) := ou in
  let* od := sort_syms lens 0 offsets (repeat None (Z.to_nat kMaxSymbolCount)) in
  let (offsets, data) := od in
  let* o0 := rdi offsets 0 in
  let syms := skipn (Z.to_nat o0) data in
  let info := TableInfo tbits max_len literal_mask in
  if 2 ^ max_len <? used then Ok (t, no_info)
  else if used <? 2 ^ max_len then
    let invalid := make_top_entry invalid_result 1 in
    if used =? 0 then
      if is_offset_type ty then
        let* t := fill_pairs (Z.to_nat (2 ^ (tbits - 1))) t 0 invalid invalid in Ok (t, info)
      else Ok (t, no_info)
    else if is_precode_type ty then Ok (t, no_info)
    else
      let* c1 := rd counts 1 in
      if negb (used =? 2 ^ (max_len - 1)) || negb (c1 =? 1) then Ok (t, no_info)
      else
        let* s := rdi syms 0 in
        let* r := rd results s in
        let* t := fill_pairs (Z.to_nat (2 ^ (tbits - 1))) t 0 (make_top_entry r 1) invalid in Ok (t, info)
  else
    let* lc := first_len 16 counts 1 in
    let (len, count) := lc in
    let* mr := fill_main (S (length lens)) counts results tbits t syms 0 len count (2 ^ len) in
    match mr with
    | (t, None) => Ok (t, info)
    | (t, Some (syms, codeword, len, count)) =>
      let* t := fill_sub (S (length lens)) counts results tbits t syms codeword len count (2 ^ tbits) 0 (-1) in
      Ok (t, info)
    end.

(* deflatedecoder.cpp 527-550: one pass of the inner loop over src_index (k entries left) *)
Fixpoint fast_pass (k : nat) (t : list Z) (src dst mask max_merge fbits : Z) : outcome (list Z * Z) :=
  match k with
  | O => Ok (t, dst)
  | S k' =>
    let* e := rd t src in
    let* e := (if is_literal e then
      let lit_len := base_length e in
      let e1 := Z.lor (Z.lor (Z.land e 4278255360) (2 ^ 6)) lit_len in
      if lit_len <? max_merge then
        let* c := rd t (Z.land (Z.shiftr dst lit_len) mask) in
        let clen := base_length c in
        if is_literal c && (lit_len + clen <=? fbits)
        then Ok (w32 (e1 + (w32 (Z.shiftl (Z.land c 65280) 8) + clen + 2 ^ 6)))
        else Ok e1
      else Ok e1
     else Ok e) in
    let* t := wr t dst e in
    fast_pass k' t (src + 1) (dst + 1) mask max_merge fbits
  end.

Fixpoint fast_passes (fuel : nat) (t : list Z) (dst mask max_merge fbits : Z) : outcome (list Z) :=
  match fuel with
  | O => NoFuel
  | S fuel' =>
    let* td := fast_pass (Z.to_nat (mask + 1)) t 0 dst mask max_merge fbits in
    let (t, dst) := td in
    if dst <? 2 ^ fbits then fast_passes fuel' t dst (dst - 1) max_merge fbits else Ok t
  end.

(* number of trailing zero bits of x > 0 (IntOps::ctz) *)
Fixpoint ctz_from (fuel : nat) (x n : Z) : Z :=
  match fuel with O => n | S f => if Z.testbit x n then n else ctz_from f x (n + 1) end.
Definition ctz32 (x : Z) : Z := ctz_from 32 x 0.

(* deflatedecoder.cpp 503-553 *)
Definition build_fast_table (info : table_info) (t : list Z) : outcome (list Z * Z) :=
  let fbits := ti_bits info in
  if ti_literal_mask info =? 0 then Ok (t, fbits)
  else
    let min_lit := ctz32 (Z.lor (ti_literal_mask info) (Z.shiftl 1 fbits)) in
    let fbits := if fbits <? kDecoderLitLenTableBits
                 then Z.min (Z.max (fbits + 1) 6) kDecoderLitLenTableBits else fbits in
    let max_merge := fbits - Z.min min_lit fbits in
    let* t := fast_passes 16 t 0 (mask32 (ti_bits info)) max_merge fbits in
    Ok (t, fbits).

(* a table lookup: the entry at the next table_bits bits, or the entry it links to (deflatedecoder.cpp 1179, 1201-1206, 1266-1275) *)
Definition lookup (t : list Z) (tbits w : Z) : outcome Z :=
  let* e := rd t (Z.land w (mask32 tbits)) in
  if is_literal e || is_off_or_len e then Ok e
  else let* x := extract_extra w e in rd t (payload_field e + x).
