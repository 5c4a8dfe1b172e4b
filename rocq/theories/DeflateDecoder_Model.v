(* Model of the streaming DEFLATE decoder: Decoder::init and Decoder::decode (blend2d/compression/deflatedecoder.cpp 557-1609),
   DecoderBits (deflatedecoderutils_p.h 91-213) and the fast loop (deflatedecoderfastimpl_p.h, deflatedecoderfast_p.h).
   Target: 64-bit little-endian, no BMI2, no AVX2, ScalarCopyContext.
   Simplifications:
   - the destination array is its memory (list of capacity bytes) and its size; it is already mutable;
   - the amount of memory dst.reserve returns is an oracle [grow], see [need_output];
   - _processed_bytes is not modelled (it is only used in the growth estimate);
   - BL_ASSERT is not modelled (release build). *)
From Verif Require Import Base Algorithm_Model DeflateTable_Model.

Definition BL_SUCCESS : Z := 0.
Definition BL_ERROR_OUT_OF_MEMORY : Z := 0x10000.
Definition BL_ERROR_INVALID_DATA : Z := 0x1002E.
Definition BL_ERROR_DATA_TRUNCATED : Z := 0x10031.
Definition BL_ERROR_DECOMPRESSION_FAILED : Z := 0x10033.

(* deflatedecoder_p.h 29-44 *)
Inductive dstate :=
| KDecompressHuffmanBlock | KCopyUncompressedBlock | KInterruptedMatch | KZlibHeader | KBlockHeader | KUncompressedHeader
| KStaticHuffmanHeader | KDynamicHuffmanHeader | KDynamicHuffmanPreCodeLens | KDynamicHuffmanLitLenOffsetCodes | KDone | KInvalid.

(* deflatedecoder_p.h 270-291: the union of precode_lens, {lens, precode_decode_table} and litlen_decode_table. The members
   overlap, so only the member written last can be read; a byte of lens that was not written yet cannot be read either. *)
Inductive storage :=
| SPrecode (plens : list Z)
| SLens (lens : list (option Z)) (pre : list Z)
| SLitLen (t : list Z).

(* deflatedecoder_p.h 331-357 (persistent state without the bit buffer) *)
Record dec := Dec {
  d_state : dstate; d_final : bool; d_static : bool; d_opt : bool; d_norealloc : bool; d_copy : Z;
  d_nlit : Z; d_noff : Z; d_wi : Z; d_wc : Z; d_pinfo : table_info; d_oinfo : table_info; d_linfo : table_info; d_fast : Z;
  d_union : storage; d_off : list Z }.

Definition set_state d s := Dec s (d_final d) (d_static d) (d_opt d) (d_norealloc d) (d_copy d) (d_nlit d) (d_noff d) (d_wi d) (d_wc d) (d_pinfo d) (d_oinfo d) (d_linfo d) (d_fast d) (d_union d) (d_off d).
Definition set_final d x := Dec (d_state d) x (d_static d) (d_opt d) (d_norealloc d) (d_copy d) (d_nlit d) (d_noff d) (d_wi d) (d_wc d) (d_pinfo d) (d_oinfo d) (d_linfo d) (d_fast d) (d_union d) (d_off d).
Definition set_copy d n := Dec (d_state d) (d_final d) (d_static d) (d_opt d) (d_norealloc d) n (d_nlit d) (d_noff d) (d_wi d) (d_wc d) (d_pinfo d) (d_oinfo d) (d_linfo d) (d_fast d) (d_union d) (d_off d).
Definition set_flags d st op := Dec (d_state d) (d_final d) st op (d_norealloc d) (d_copy d) (d_nlit d) (d_noff d) (d_wi d) (d_wc d) (d_pinfo d) (d_oinfo d) (d_linfo d) (d_fast d) (d_union d) (d_off d).
Definition set_counts d nl no := Dec (d_state d) (d_final d) (d_static d) (d_opt d) (d_norealloc d) (d_copy d) nl no (d_wi d) (d_wc d) (d_pinfo d) (d_oinfo d) (d_linfo d) (d_fast d) (d_union d) (d_off d).
Definition set_work d wi wc := Dec (d_state d) (d_final d) (d_static d) (d_opt d) (d_norealloc d) (d_copy d) (d_nlit d) (d_noff d) wi wc (d_pinfo d) (d_oinfo d) (d_linfo d) (d_fast d) (d_union d) (d_off d).
Definition set_union d u := Dec (d_state d) (d_final d) (d_static d) (d_opt d) (d_norealloc d) (d_copy d) (d_nlit d) (d_noff d) (d_wi d) (d_wc d) (d_pinfo d) (d_oinfo d) (d_linfo d) (d_fast d) u (d_off d).
Definition set_pinfo d i := Dec (d_state d) (d_final d) (d_static d) (d_opt d) (d_norealloc d) (d_copy d) (d_nlit d) (d_noff d) (d_wi d) (d_wc d) i (d_oinfo d) (d_linfo d) (d_fast d) (d_union d) (d_off d).
Definition set_off d i t := Dec (d_state d) (d_final d) (d_static d) (d_opt d) (d_norealloc d) (d_copy d) (d_nlit d) (d_noff d) (d_wi d) (d_wc d) (d_pinfo d) i (d_linfo d) (d_fast d) (d_union d) t.
Definition set_lit d i fb t := Dec (d_state d) (d_final d) (d_static d) (d_opt d) (d_norealloc d) (d_copy d) (d_nlit d) (d_noff d) (d_wi d) (d_wc d) (d_pinfo d) (d_oinfo d) i fb (SLitLen t) (d_off d).

(* bit buffer and unread bytes of the input chunk *)
Record bits := Bits { b_word : Z; b_len : Z; b_src : list Z }.
(* destination: memory of capacity bytes and the write position *)
Record obuf := Out { o_mem : list Z; o_pos : Z }.
Definition o_room (o : obuf) : Z := Z.of_nat (length (o_mem o)) - o_pos o.
(* *dst_ptr++ = x *)
Definition put (o : obuf) (x : Z) : outcome obuf := let* m := wr (o_mem o) (o_pos o) x in Ok (Out m (o_pos o + 1)).

(* deflatedecoderutils_p.h 124-129: can_refill_byte *)
Definition can_refill_byte (b : bits) : bool := b_len b <? 56.
(* deflatedecoderutils_p.h 131-136: refill_byte; shifting by 64 or more is UB *)
Definition refill_byte (word len x : Z) : outcome (Z * Z) :=
  if 64 <=? len then UB else Ok (Z.lor word (w64 (Z.shiftl x len)), w64 (len + 8)).
(* while (src_ptr != src_end && can_refill_byte()) refill_byte( *src_ptr++ ) *)
Fixpoint refill_loop (src : list Z) (word len : Z) : outcome bits :=
  match src with
  | [] => Ok (Bits word len [])
  | x :: src' => if len <? 56 then let* r := refill_byte word len x in refill_loop src' (fst r) (snd r) else Ok (Bits word len src)
  end.
Definition refill (b : bits) : outcome bits := refill_loop (b_src b) (b_word b) (b_len b).

(* MemOps::loadu_le<uint64_t>(src_ptr) *)
Fixpoint le_num (l : list Z) : Z := match l with [] => 0 | x :: t => x + 256 * le_num t end.
Definition load64 (src : list Z) : outcome Z :=
  if Z.of_nat (length src) <? 8 then UB else Ok (le_num (firstn 8 src)).
(* deflatedecoderutils_p.h 143-149: refill_bit_word and the advance of src_ptr *)
Definition refill_word (b : bits) (data : Z) : bits :=
  Bits (Z.lor (b_word b) (w64 (Z.shiftl data (Z.land (b_len b) 63)))) (Z.lor (b_len b) 56)
    (skipn (Z.to_nat (Z.land (Z.shiftr (Z.lnot (b_len b)) 3) 7)) (b_src b)).

(* deflatedecoderutils_p.h 151-154: extract<Index>(n), n < 32 *)
Definition extract (b : bits) (i n : Z) : Z := Z.land (w32 (Z.shiftr (b_word b) i)) (mask32 n).
(* extract(mask) *)
Definition index (b : bits) (tbits : Z) : Z := w32 (Z.land (b_word b) (mask32 tbits)).
(* deflatedecoderutils_p.h 176-188: consumed(n) and consumed(entry) *)
Definition consumed (b : bits) (n : Z) : outcome bits :=
  if 64 <=? n then UB else Ok (Bits (Z.shiftr (b_word b) n) (w64 (b_len b - n)) (b_src b)).
Definition consumed_entry (b : bits) (e : Z) : bits :=
  Bits (Z.shiftr (b_word b) (Z.land e 63)) (w64 (b_len b - e)) (b_src b).
Definition make_byte_aligned (b : bits) : outcome bits := consumed b (Z.land (b_len b) 7).
(* deflatedecoderutils_p.h 193-197 *)
Definition fix_length (b : bits) : bits := Bits (b_word b) (Z.land (b_len b) 63) (b_src b).

(* deflatedecoder.cpp 1148-1158, 1320-1330: the match copy; two bytes, then at least one until match_end *)
Fixpoint copy_bytes (n : nat) (o : obuf) (off : Z) : outcome obuf :=
  match n with
  | O => Ok o
  | S n' => let* x := rd (o_mem o) (o_pos o - off) in let* o := put o x in copy_bytes n' o off
  end.
Definition copy_match (o : obuf) (len off : Z) : outcome obuf :=
  if len <? 3 then UB else copy_bytes (Z.to_nat len) o off.

(* result of one iteration of a loop in kDecompressHuffmanBlock; LOut / LIn carry the new _copy_remaining *)
Inductive loop_res :=
| LCont (entry : Z) (b : bits) (o : obuf)
| LOut (copy : Z) (b : bits) (o : obuf)
| LIn (copy : Z) (b : bits) (o : obuf)
| LDone (b : bits) (o : obuf)
| LBad (b : bits) (o : obuf).

(* deflatedecoder.cpp 1127-1158 (tail loop, optimized): offset and copy of a match of the given length *)
Definition opt_match (t toff : list Z) (tb ob : Z) (data length_ : Z) (saved b : bits) (o : obuf) : outcome loop_res :=
  if o_room o <? length_ then Ok (LOut length_ saved o)
  else
    let* e := rd toff (index b ob) in
    let* x := extract_extra (b_word b) e in
    let offset := payload_field e + x in
    let* r := (if negb (is_off_or_len e) then
      let* e := rd toff offset in
      let* x := extract_extra (b_word b) e in
      Ok (e, payload_field e + x, is_end_of_block e)
     else Ok (e, offset, false)) in
    let '(e, offset, bad) := r in
    if bad then Ok (LBad b o)
    else if o_pos o <? offset then Ok (LBad b o)
    else
      let b := refill_word (consumed_entry b e) data in
      let* entry := rd t (index b tb) in
      let* o := copy_match o length_ offset in
      Ok (LCont entry b o).

(* deflatedecoder.cpp 1053-1159: one iteration of the optimized tail loop *)
Definition opt_iter (t toff : list Z) (tb ob : Z) (entry : Z) (b : bits) (o : obuf) : outcome loop_res :=
  let* data := load64 (b_src b) in
  let length_ := payload_field entry in
  if is_literal entry then
    let* b := consumed b (base_length entry) in
    let* entry := rd t (index b tb) in
    let* o := put o (Z.land length_ 255) in
    if is_literal entry then
      let* b := consumed b (base_length entry) in
      let length_ := payload_field entry in
      let* entry := rd t (index b tb) in
      let* o := put o (Z.land length_ 255) in
      if is_literal entry then
        let* b := consumed b (base_length entry) in
        let length_ := payload_field entry in
        let* entry := rd t (index b tb) in
        let* o := put o (Z.land length_ 255) in
        Ok (LCont entry (refill_word b data) o)
      else Ok (LCont entry (refill_word b data) o)
    else Ok (LCont entry (refill_word b data) o)
  else
    let saved := b in
    let* x := extract_extra (b_word b) entry in
    let length_ := length_ + x in
    if negb (is_off_or_len entry) then
      let* entry := rd t length_ in
      let length_ := payload_field entry in
      let b := consumed_entry b entry in
      if is_literal entry then
        let i := index b tb in
        let* o := put o (Z.land length_ 255) in
        let b := refill_word b data in
        let* entry := rd t i in
        Ok (LCont entry b o)
      else if is_end_of_block entry then
        if is_end_of_block_invalid entry then Ok (LBad b o) else Ok (LDone b o)
      else
        let* x := extract_extra (b_word saved) entry in
        opt_match t toff tb ob data (length_ + x) saved b o
    else opt_match t toff tb ob data length_ saved (consumed_entry b entry) o.

(* deflatedecoder.cpp 1053: the loop; LCont is its end *)
Fixpoint opt_loop (fuel : nat) (t toff : list Z) (tb ob : Z) (entry : Z) (b : bits) (o : obuf) : outcome loop_res :=
  match fuel with
  | O => NoFuel
  | S fuel' =>
    if (2 <? o_room o) && (8 <=? Z.of_nat (length (b_src b))) then
      let* r := opt_iter t toff tb ob entry b o in
      match r with LCont entry b o => opt_loop fuel' t toff tb ob entry b o | r => Ok r end
    else Ok (LCont entry b o)
  end.

(* deflatedecoder.cpp 1257-1331 (tail loop, safe): offset and copy of a match whose length code takes full_len bits *)
Definition safe_match (toff : list Z) (ob : Z) (length_ full_len copy : Z) (saved : bits) (o : obuf) : outcome loop_res :=
  let* b := consumed saved full_len in
  if 64 <? b_len b then Ok (LIn copy saved o)
  else if o_room o <? length_ then Ok (LOut length_ saved o)
  else
    let* e := rd toff (index b ob) in
    let* x := extract_extra (b_word b) e in
    let offset := payload_field e + x in
    let* r := (if negb (is_off_or_len e) then
      let* e := rd toff offset in
      let* x := extract_extra (b_word b) e in
      Ok (e, payload_field e + x, is_end_of_block e)
     else Ok (e, offset, false)) in
    let '(e, offset, bad) := r in
    if bad then Ok (LBad b o)
    else if b_len b <? full_length e then Ok (LIn length_ saved o)
    else
      let* b := consumed b (full_length e) in
      if o_pos o <? offset then Ok (LBad b o)
      else let* o := copy_match o length_ offset in Ok (LCont 0 b o).

(* deflatedecoder.cpp 1172-1332: one iteration of the safe tail loop; extract(full_len) with full_len >= 32 is UB *)
Definition safe_iter (t toff : list Z) (tb ob : Z) (copy : Z) (b : bits) (o : obuf) : outcome loop_res :=
  let* b := refill b in
  let* entry := rd t (index b tb) in
  let base_len := base_length entry in
  let length_ := payload_field entry in
  if is_literal entry then
    if o_room o =? 0 then Ok (LOut copy b o)
    else if b_len b <? base_len then Ok (LIn copy b o)
    else
      let* b := consumed b base_len in
      let* o := put o (Z.land length_ 255) in
      Ok (LCont 0 b o)
  else
    let full_len := full_length entry in
    if 32 <=? full_len then UB else
    let length_ := length_ + Z.shiftr (extract b 0 full_len) base_len in
    if negb (is_off_or_len entry) then
      let* entry := rd t length_ in
      let length_ := payload_field entry in
      let full_len := full_length entry in
      if b_len b <? full_len then Ok (LIn copy b o)
      else if is_literal entry then
        if o_room o =? 0 then Ok (LOut copy b o)
        else
          let* b := consumed b full_len in
          let* o := put o (Z.land length_ 255) in
          Ok (LCont 0 b o)
      else
        let* x := extract_extra (b_word b) entry in
        let length_ := length_ + x in
        if is_end_of_block entry then
          let* b := consumed b full_len in
          if is_end_of_block_invalid entry then Ok (LBad b o) else Ok (LDone b o)
        else safe_match toff ob length_ full_len copy b o
    else safe_match toff ob length_ full_len copy b o.

Fixpoint safe_loop (fuel : nat) (t toff : list Z) (tb ob : Z) (copy : Z) (b : bits) (o : obuf) : outcome loop_res :=
  match fuel with
  | O => NoFuel
  | S fuel' =>
    let* r := safe_iter t toff tb ob copy b o in
    match r with LCont _ b o => safe_loop fuel' t toff tb ob copy b o | r => Ok r end
  end.

(* -- the fast loop -- *)

(* deflatedecoderutils.cpp 25-43 *)
Definition kScalarRepeatMultiply : list Z :=
  [0; 0x0101010101010101; 0x0001000100010001; 0x0001000001000001; 0x0000000100000001; 0x0000010000000001; 0x0001000000000001; 0x0100000000000001].
Definition kScalarRotatePredicateL : list Z := [0; 0; 0; 8; 0; 16; 32; 48].
Definition kScalarRotatePredicateR : list Z := [0; 0; 0; 16; 0; 24; 16; 8].

(* loads and stores of registers *)
Definition load_reg (m : list Z) (p : Z) : outcome Z :=
  if (p <? 0) || (Z.of_nat (length m) <? p + 8) then UB else Ok (le_num (firstn 8 (skipn (Z.to_nat p) m))).
Fixpoint store_le (n : nat) (m : list Z) (p r : Z) : outcome (list Z) :=
  match n with
  | O => Ok m
  | S n' => let* m := wr m p (r mod 256) in store_le n' m (p + 1) (r / 256)
  end.

(* deflatedecoderfastimpl_p.h 187-203: while (copy_ptr < dst_ptr) copy two registers *)
Fixpoint far_copy (fuel : nat) (m : list Z) (match_ copy dst : Z) : outcome (list Z) :=
  match fuel with
  | O => NoFuel
  | S fuel' =>
    if copy <? dst then
      let* r := load_reg m match_ in
      let* m := store_le 8 m copy r in
      let* r := load_reg m (match_ + 8) in
      let* m := store_le 8 m (copy + 8) r in
      far_copy fuel' m (match_ + 16) (copy + 16) dst
    else Ok m
  end.
(* deflatedecoderfastimpl_p.h 215-222 *)
Fixpoint near_copy (fuel : nat) (m : list Z) (r copy dst rl rr : Z) : outcome (list Z) :=
  match fuel with
  | O => NoFuel
  | S fuel' =>
    if copy <? dst then
      let r := Z.lor (Z.shiftr r rr) (w64 (Z.shiftl r rl)) in
      let* m := store_le 8 m copy r in
      near_copy fuel' m r (copy + 8) dst rl rr
    else Ok m
  end.

(* deflatedecoderfastimpl_p.h 158-222: the copy of a match *)
Definition fast_copy (o : obuf) (length_ offset : Z) : outcome obuf :=
  let m := o_mem o in
  let p := o_pos o - offset in
  let copy := o_pos o in
  let dst := o_pos o + length_ in
  let* r0 := load_reg m p in
  if 8 <=? offset then
    let* m := store_le 8 m copy r0 in
    let* r := load_reg m (p + 8) in
    let* m := store_le 8 m (copy + 8) r in
    let* m := far_copy 64 m (p + 16) (copy + 16) dst in
    Ok (Out m dst)
  else
    if offset <? 1 then UB else
    let* mult := rd kScalarRepeatMultiply offset in
    let* rl := rd kScalarRotatePredicateL offset in
    let* rr := rd kScalarRotatePredicateR offset in
    let r0 := w64 (Z.land r0 (2 ^ (offset * 8) - 1) * mult) in
    let* m := store_le 8 m copy r0 in
    let* m := near_copy 64 m r0 (copy + 8) dst rl rr in
    Ok (Out m dst).

(* one iteration: entry, bit buffer, output, decrement of safe_iters *)
Inductive fast_res :=
| FCont (entry : Z) (b : bits) (o : obuf) (iters : Z)
| FDone (b : bits) (o : obuf)
| FBad (b : bits) (o : obuf).

(* deflatedecoderfastimpl_p.h 141-223: offset and copy *)
Definition fast_match (t toff : list Z) (tb ob length_ iters : Z) (b : bits) (o : obuf) : outcome fast_res :=
  let* e := rd toff (index b ob) in
  let* x := extract_extra (b_word b) e in
  let offset := raw_payload e + x in
  let* r := (if negb (is_off_or_len e) then
    let* e := rd toff offset in
    let* x := extract_extra (b_word b) e in
    Ok (e, raw_payload e + x, is_end_of_block e)
   else Ok (e, offset, false)) in
  let '(e, offset, bad) := r in
  if bad then Ok (FBad b o)
  else
    let b := consumed_entry b e in
    if o_pos o <? offset then Ok (FBad b o)
    else
      let* entry := rd t (index b tb) in
      let* o := fast_copy o length_ offset in
      Ok (FCont entry b o (iters - (length_ + 7) / 8)).

(* deflatedecoderfastimpl_p.h 103-140: the part after the literals, with the current entry and its payload *)
Definition fast_tail (t toff : list Z) (tb ob entry payload iters : Z) (b : bits) (o : obuf) : outcome fast_res :=
  let* x := extract_extra (b_word b) entry in
  let length_ := payload + x in
  if negb (is_off_or_len entry) then
    let prev := b_word b in
    let* entry := rd t (Z.land length_ 32767) in
    let payload := raw_payload entry in
    let* data := load64 (b_src b) in
    let b := refill_word (consumed_entry b entry) data in
    if is_literal entry then
      let* entry := rd t (index b tb) in
      let* o := put o (Z.land payload 255) in
      Ok (FCont entry b o (iters - 1))
    else if is_end_of_block entry then
      if is_end_of_block_invalid entry then Ok (FBad b o) else Ok (FDone b o)
    else
      let* x := extract_extra prev entry in
      fast_match t toff tb ob (payload + x) iters b o
  else fast_match t toff tb ob length_ iters (consumed_entry b entry) o.

(* deflatedecoderfastimpl_p.h 63-101 *)
Definition fast_iter (t toff : list Z) (tb ob entry iters : Z) (b : bits) (o : obuf) : outcome fast_res :=
  let* data := load64 (b_src b) in
  let b := refill_word b data in
  let payload := raw_payload entry in
  if is_literal entry then
    let b := consumed_entry b entry in
    let lit_count := Z.shiftr (Z.land entry 255) 6 in
    let* entry := rd t (index b tb) in
    if is_literal entry then
      let b := consumed_entry b entry in
      let payload := w32 (payload + w32 (Z.shiftl (Z.shiftr entry 8) (lit_count * 8))) in
      let lit_count := lit_count + Z.shiftr (Z.land entry 255) 6 in
      let* entry := rd t (index b tb) in
      let* m := store_le 4 (o_mem o) (o_pos o) payload in
      Ok (FCont entry b (Out m (o_pos o + lit_count)) (iters - 1))
    else
      let* m := store_le 2 (o_mem o) (o_pos o) (w16 payload) in
      fast_tail t toff tb ob entry (raw_payload entry) iters b (Out m (o_pos o + lit_count))
  else fast_tail t toff tb ob entry payload iters b o.

(* while (safe_iters > 0) *)
Fixpoint fast_inner (fuel : nat) (t toff : list Z) (tb ob entry iters : Z) (b : bits) (o : obuf) : outcome fast_res :=
  match fuel with
  | O => NoFuel
  | S fuel' =>
    if 0 <? iters then
      let* r := fast_iter t toff tb ob entry iters b o in
      match r with FCont entry b o iters => fast_inner fuel' t toff tb ob entry iters b o | r => Ok r end
    else Ok (FCont entry b o iters)
  end.

(* deflatedecoderfastimpl_p.h 41-61; kSrcMinScratchShifted = 2, kDstMinScratchShifted = 37, kMinimumFastIterationCount = 20 *)
Fixpoint fast_outer (fuel : nat) (t toff : list Z) (tb ob : Z) (b : bits) (o : obuf) : outcome fast_res :=
  match fuel with
  | O => NoFuel
  | S fuel' =>
    let iters := Z.min (Z.of_nat (length (b_src b)) / 8 - 2) (o_room o / 8 - 37) in
    if iters <=? 20 then Ok (FCont 0 b o iters)
    else
      let* data := load64 (b_src b) in
      let b := refill_word b data in
      let* entry := rd t (index b tb) in
      let* r := fast_inner (Z.to_nat iters + 1) t toff tb ob entry iters b o in
      match r with FCont _ b o _ => fast_outer fuel' t toff tb ob b o | r => Ok r end
  end.
Definition fast_decode (t toff : list Z) (tb ob : Z) (b : bits) (o : obuf) : outcome fast_res :=
  fast_outer (S (length (b_src b))) t toff tb ob b o.

(* deflatedecoder.cpp 55-58 *)
Definition kPrecodeLensPermutation : list Z := [16; 17; 18; 0; 8; 7; 9; 6; 10; 5; 11; 4; 12; 3; 13; 2; 14; 1; 15].

(* what a case of the switch does next: continue, NotEnoughOutputBytes, BlockDone, NotEnoughInputBytes, ErrorInvalidData, return *)
Inductive next :=
| NCont (d : dec) (b : bits) (o : obuf)
| NOut (d : dec) (b : bits) (o : obuf)
| NDone (d : dec) (b : bits) (o : obuf)
| NIn (d : dec) (b : bits) (o : obuf)
| NBad (d : dec) (b : bits) (o : obuf)
| NRet (code : Z) (d : dec) (b : bits) (o : obuf).

(* deflatedecoder.cpp 626-650 *)
Definition zlib_header (d : dec) (b : bits) (o : obuf) : outcome next :=
  if b_len b <? 16 then Ok (NIn d b o)
  else
    let cmf := extract b 0 8 in
    let flg := extract b 8 8 in
    let fdict := Z.land (Z.shiftr flg 5) 1 in
    if negb ((Z.shiftl cmf 8 + flg) mod 31 =? 0) then Ok (NBad d b o)
    else if negb (Z.land cmf 15 =? 8) then Ok (NBad d b o)
    else if negb (fdict =? 0) then Ok (NBad d b o)
    else let* b := consumed b 16 in Ok (NCont (set_state d KBlockHeader) b o).

(* deflatedecoder.cpp 655-689 *)
Definition block_header (d : dec) (b : bits) (o : obuf) : outcome next :=
  if b_len b <? 3 then Ok (NIn d b o)
  else
    let final_block := extract b 0 1 in
    let block_type := extract b 1 2 in
    if block_type =? 3 then Ok (NBad d b o)
    else
      let* b := consumed b 3 in
      let d := set_state d (if block_type =? 0 then KUncompressedHeader else if block_type =? 1 then KStaticHuffmanHeader else KDynamicHuffmanHeader) in
      let d := if final_block =? 0 then d else set_final d true in
      let* b := (if block_type =? 0 then make_byte_aligned b else Ok b) in
      Ok (NCont d b o).

(* deflatedecoder.cpp 1466-1469: do { *dst_ptr++ = bit_word & 0xFF; bit_word >>= 8 } while (--n) *)
Fixpoint copy_from_word (n : nat) (word : Z) (o : obuf) : outcome (Z * obuf) :=
  match n with
  | O => Ok (word, o)
  | S n' => let* o := put o (Z.land word 255) in copy_from_word n' (Z.shiftr word 8) o
  end.
(* memcpy(dst_ptr, src_ptr, n) *)
Fixpoint copy_from_src (l : list Z) (o : obuf) : outcome obuf :=
  match l with [] => Ok o | x :: l' => let* o := put o x in copy_from_src l' o end.

(* deflatedecoder.cpp 1436-1490 *)
Definition copy_state (d : dec) (b : bits) (o : obuf) : outcome next :=
  let src_remaining := Z.of_nat (length (b_src b)) in
  if o_room o <? d_copy d then Ok (NOut d b o)
  else
    let* r := (if b_len b =? 0 then Ok (d, b, o, false)
      else
        let n := Z.min (d_copy d) (Z.shiftr (b_len b) 3) in
        let* wo := copy_from_word (Z.to_nat n) (b_word b) o in
        let d := set_copy d (d_copy d - n) in
        Ok (d, Bits (fst wo) (w64 (b_len b - n * 8)) (b_src b), snd wo, d_copy d =? 0)) in
    let '(d, b, o, done) := r in
    if done then Ok (NDone d b o)
    else
      let n := Z.min (d_copy d) src_remaining in
      if n =? 0 then Ok (NIn d b o)
      else
        let* o := copy_from_src (firstn (Z.to_nat n) (b_src b)) o in
        let b := Bits (b_word b) (b_len b) (skipn (Z.to_nat n) (b_src b)) in
        let d := set_copy d (d_copy d - n) in
        if d_copy d =? 0 then Ok (NDone d b o) else Ok (NCont d b o).

(* deflatedecoder.cpp 691-731 *)
Definition uncompressed_header (d : dec) (b : bits) (o : obuf) : outcome next :=
  if b_len b <? 32 then Ok (NIn d b o)
  else
    let len := extract b 0 16 in
    let len_check := Z.lxor (extract b 16 16) 65535 in
    if negb (len =? len_check) then Ok (NBad d b o)
    else
      let d := set_copy d len in
      let* b := consumed b 32 in
      if len =? 0 then Ok (NDone d b o)
      else copy_state (set_state d KCopyUncompressedBlock) b o.

(* deflatedecoder.cpp 966-999; [jlit] is whatever the storage of the litlen table holds *)
Definition build_tables (jlit : list Z) (d : dec) (b : bits) (o : obuf) (lens : list (option Z)) : outcome next :=
  let* all := (fix read (l : list (option Z)) : outcome (list Z) := match l with [] => Ok [] | x :: t =>
      match x with None => UB | Some v => let* r := read t in Ok (v :: r) end end) (firstn (Z.to_nat (d_nlit d + d_noff d)) lens) in
  let* ot := build_decode_table (d_off d) (skipn (Z.to_nat (d_nlit d)) all) kOffsetDecodeResults kDecoderOffsetTableBits kMaxCodeWordLen TOffset in
  let d := set_off d (snd ot) (fst ot) in
  if ti_bits (snd ot) =? 0 then Ok (NBad d b o)
  else
    let* lt := build_decode_table jlit (firstn (Z.to_nat (d_nlit d)) all) kLitLenDecodeResults kDecoderLitLenTableBits kMaxCodeWordLen TLitLen in
    let d := set_lit d (snd lt) (ti_bits (snd lt)) (fst lt) in
    if ti_bits (snd lt) =? 0 then Ok (NBad d b o)
    else Ok (NCont (set_state d KDecompressHuffmanBlock) b o).

(* deflatedecoder.cpp 733-773 *)
Definition static_lens : list (option Z) :=
  repeat (Some 8) 144 ++ repeat (Some 9) 112 ++ repeat (Some 7) 24 ++ repeat (Some 8) 8 ++ repeat (Some 5) 32 ++ repeat None 137.
Definition static_header (jlit : list Z) (d : dec) (b : bits) (o : obuf) : outcome next :=
  if d_static d then Ok (NCont (set_state d KDecompressHuffmanBlock) b o)
  else
    let d := set_counts (set_flags d true false) 288 32 in
    build_tables jlit d b o static_lens.

(* deflatedecoder.cpp 775-812 *)
Definition dynamic_header (d : dec) (b : bits) (o : obuf) : outcome next :=
  if b_len b <? 26 then Ok (NIn d b o)
  else
    let d := set_counts d (extract b 0 5 + 257) (extract b 5 5 + 1) in
    let d := set_flags d false false in
    let d := set_work d 4 (extract b 10 4 + 4) in
    let pl := repeat 0 19 in
    let pl := upd pl 16 (extract b 14 3) in
    let pl := upd pl 17 (extract b 17 3) in
    let pl := upd pl 18 (extract b 20 3) in
    let pl := upd pl 0 (extract b 23 3) in
    let* b := consumed b 26 in
    Ok (NCont (set_state (set_union d (SPrecode pl)) KDynamicHuffmanPreCodeLens) b o).

(* tables.precode_lens[kPrecodeLensPermutation[i]] = plen *)
Definition put_plen (pl : list Z) (i plen : Z) : outcome (list Z) :=
  let* p := rd kPrecodeLensPermutation i in wr pl p plen.

(* deflatedecoder.cpp 826-846: do-while over three lengths *)
Fixpoint plens_main (fuel : nat) (pl : list Z) (i remaining : Z) (b : bits) : outcome (list Z * Z * Z * bits) :=
  match fuel with
  | O => NoFuel
  | S fuel' =>
    let* pl := put_plen pl i (extract b 0 3) in
    let* pl := put_plen pl (i + 1) (extract b 3 3) in
    let* pl := put_plen pl (i + 2) (extract b 6 3) in
    let* b := consumed b 9 in
    let* b := (match b_src b with [] => Ok b | x :: src => let* r := refill_byte (b_word b) (b_len b) x in Ok (Bits (fst r) (snd r) src) end) in
    if (3 <=? remaining - 3) && (9 <=? b_len b) then plens_main fuel' pl (i + 3) (remaining - 3) b else Ok (pl, i + 3, remaining - 3, b)
  end.
(* deflatedecoder.cpp 855-864 *)
Fixpoint plens_tail (k : nat) (pl : list Z) (i : Z) (b : bits) : outcome (list Z * bits) :=
  match k with
  | O => Ok (pl, b)
  | S k' =>
    let plen := extract b 0 3 in
    let* b := consumed b 3 in
    let* pl := put_plen pl i plen in
    plens_tail k' pl (i + 1) b
  end.

(* deflatedecoder.cpp 814-882; [jpre] is whatever the storage of the precode table holds *)
Definition precode_lens (jpre : list Z) (d : dec) (b : bits) (o : obuf) : outcome next :=
  match d_union d with
  | SPrecode pl =>
    let i := d_wi d in
    let remaining := d_wc d - i in
    if (3 <=? remaining) && (b_len b <? 9) then Ok (NIn d b o)
    else
      let* r := (if 3 <=? remaining then plens_main 8 pl i remaining b else Ok (pl, i, remaining, b)) in
      let '(pl, i, remaining, b) := r in
      let d := set_union d (SPrecode pl) in
      if b_len b <? remaining * 3 then Ok (NIn (set_work d i (d_wc d)) b o)
      else
        let* pb := plens_tail (Z.to_nat (d_wc d - i)) pl i b in
        let (pl, b) := pb in
        let d := set_work d 0 (d_wc d) in
        let* pt := build_decode_table jpre pl kPrecodeDecodeResults kDecoderPrecodeTableBits kMaxPreCodeWordLen TPrecode in
        let d := set_pinfo (set_union d (SLens (repeat None 457) (fst pt))) (snd pt) in
        if ti_bits (snd pt) =? 0 then Ok (NBad d b o)
        else Ok (NCont (set_state d KDynamicHuffmanLitLenOffsetCodes) b o)
  | _ => UB
  end.

(* memset(lens + i, v, n) *)
Fixpoint set_lens (n : nat) (lens : list (option Z)) (i v : Z) : outcome (list (option Z)) :=
  match n with O => Ok lens | S n' => let* lens := wr lens i (Some v) in set_lens n' lens (i + 1) v end.

(* deflatedecoder.cpp 893-957: the do-while loop; the three ways out: not enough input, invalid data, end *)
Inductive lens_res := LensIn (lens : list (option Z)) (i : Z) (b : bits) | LensBad (lens : list (option Z)) (b : bits) | LensEnd (lens : list (option Z)) (i : Z) (b : bits).
Fixpoint lens_loop (fuel : nat) (pre : list Z) (pbits count : Z) (lens : list (option Z)) (i : Z) (b : bits) : outcome lens_res :=
  match fuel with
  | O => NoFuel
  | S fuel' =>
    let* b := (if can_refill_byte b then match b_src b with [] => Ok b | x :: src => let* r := refill_byte (b_word b) (b_len b) x in Ok (Bits (fst r) (snd r) src) end else Ok b) in
    let* entry := rd pre (w32 (Z.land (b_word b) (mask32 pbits))) in
    let presym := precode_value entry in
    let entry_len := full_length entry in
    let again lens i b := if i <? count then lens_loop fuel' pre pbits count lens i b else Ok (LensEnd lens i b) in
    if b_len b <? entry_len then
      match b_src b with [] => Ok (LensIn lens i b) | _ => again lens i b end
    else if presym <? 16 then
      let* lens := wr lens i (Some presym) in
      let* b := consumed b entry_len in
      again lens (i + 1) b
    else
      let n := Z.shiftr (extract b 0 entry_len) (base_length entry) + precode_repeat entry in
      if presym =? 16 then
        if i =? 0 then Ok (LensBad lens b)
        else
          let* b := consumed b entry_len in
          let* v := rdi lens (i - 1) in
          let* lens := set_lens 6 lens i v in
          again lens (i + n) b
      else if presym =? 17 then
        let* b := consumed b entry_len in
        let* lens := set_lens 10 lens i 0 in
        again lens (i + n) b
      else
        let* b := consumed b entry_len in
        let* lens := set_lens (Z.to_nat n) lens i 0 in
        again lens (i + n) b
  end.

(* deflatedecoder.cpp 884-964 *)
Definition litlen_offset_codes (jlit : list Z) (d : dec) (b : bits) (o : obuf) : outcome next :=
  match d_union d with
  | SLens lens pre =>
    let count := d_nlit d + d_noff d in
    let* r := lens_loop (S (Z.to_nat (b_len b) + 16 * length (b_src b))) pre (ti_bits (d_pinfo d)) count lens (d_wi d) b in
    match r with
    | LensIn lens i b => Ok (NIn (set_work (set_union d (SLens lens pre)) i (d_wc d)) b o)
    | LensBad lens b => Ok (NBad (set_union d (SLens lens pre)) b o)
    | LensEnd lens i b =>
      let d := set_union d (SLens lens pre) in
      if negb (i =? count) then Ok (NBad d b o) else build_tables jlit d b o lens
    end
  | _ => UB
  end.

(* deflatedecoder.cpp 1001-1332 *)
Definition huffman_tail (d : dec) (t : list Z) (b : bits) (o : obuf) : outcome next :=
  let tb := ti_bits (d_linfo d) in
  let ob := ti_bits (d_oinfo d) in
  let* r := (if (8 <=? Z.of_nat (length (b_src b))) && (3 <=? o_room o) then
      let* data := load64 (b_src b) in
      let b := refill_word b data in
      let* entry := rd t (index b tb) in
      let* r := opt_loop (64 + 8 * length (b_src b)) t (d_off d) tb ob entry b o in
      match r with LCont e b o => Ok (LCont e (fix_length b) o) | r => Ok r end
    else Ok (LCont 0 b o)) in
  let* r := (match r with LCont _ b o => safe_loop (S (Z.to_nat (b_len b) + 8 * length (b_src b))) t (d_off d) tb ob (d_copy d) b o | r => Ok r end) in
  match r with
  | LCont _ b o => NoFuel
  | LOut c b o => Ok (NOut (set_copy d c) b o)
  | LIn c b o => Ok (NIn (set_copy d c) b o)
  | LDone b o => Ok (NDone d b o)
  | LBad b o => Ok (NBad d b o)
  end.
Definition huffman_block (d : dec) (b : bits) (o : obuf) : outcome next :=
  match d_union d with
  | SLitLen t =>
    let d := set_copy d 0 in
    if (176 <=? Z.of_nat (length (b_src b))) && (450 <=? o_room o) then
      let* dt := (if d_opt d then Ok (d, t) else
        let* r := build_fast_table (d_linfo d) t in
        Ok (set_lit (set_flags d (d_static d) true) (d_linfo d) (snd r) (fst r), fst r)) in
      let (d, t) := dt in
      let* r := fast_decode t (d_off d) (d_fast d) (ti_bits (d_oinfo d)) b o in
      match r with
      | FCont _ b o _ => huffman_tail d t (fix_length b) o
      | FDone b o => Ok (NDone d (fix_length b) o)
      | FBad b o => Ok (NBad d (fix_length b) o)
      end
    else huffman_tail d t b o
  | _ => UB
  end.

Definition switch (jpre jlit : list Z) (d : dec) (b : bits) (o : obuf) : outcome next :=
  match d_state d with
  | KDone => Ok (NOut d b o)
  | KZlibHeader => zlib_header d b o
  | KBlockHeader => block_header d b o
  | KUncompressedHeader => uncompressed_header d b o
  | KStaticHuffmanHeader => static_header jlit d b o
  | KDynamicHuffmanHeader => dynamic_header d b o
  | KDynamicHuffmanPreCodeLens => precode_lens jpre d b o
  | KDynamicHuffmanLitLenOffsetCodes => litlen_offset_codes jlit d b o
  | KDecompressHuffmanBlock => huffman_block d b o
  | KInterruptedMatch => Ok (NBad d b o)
  | KCopyUncompressedBlock => copy_state d b o
  | KInvalid => Ok (NRet BL_ERROR_INVALID_DATA d b o)
  end.

(* deflatedecoder.cpp 1526-1547: the least size_estimate; the estimate from the compression ratio can only make it larger *)
Definition size_estimate (d : dec) (o : obuf) : Z :=
  match d_state d with
  | KCopyUncompressedBlock => if d_final d && negb (d_copy d =? 0) then o_pos o + d_copy d else o_pos o + Z.max (Z.max (o_pos o) 4096 + 4096) (d_copy d)
  | _ => o_pos o + Z.max (Z.max (o_pos o) 4096 + 4096) (d_copy d)
  end.

(* what is kept between calls: the decoder and its bit buffer *)
Record decoder := Decoder { dc : dec; dc_word : Z; dc_len : Z }.

(* deflatedecoder.cpp 596-1608: the loop. [grow size need] is the memory after the first size bytes that
   dst.reserve(max(need, estimate)) leaves, or None when the allocation fails. *)
Fixpoint run (fuel : nat) (jpre jlit : list Z) (grow : Z -> Z -> option (list Z)) (d : dec) (b : bits) (o : obuf) : outcome (Z * decoder * obuf) :=
  match fuel with
  | O => NoFuel
  | S fuel' =>
    let* b := refill b in
    let* n := switch jpre jlit d b o in
    match n with
    | NCont d b o => run fuel' jpre jlit grow d b o
    | NOut d b o =>
      let b := fix_length b in
      let save := Decoder d (b_word b) (b_len b) in
      if d_norealloc d then Ok (BL_ERROR_OUT_OF_MEMORY, save, o)
      else match grow (o_pos o) (size_estimate d o) with
        | None => Ok (BL_ERROR_OUT_OF_MEMORY, save, o)
        | Some m => run fuel' jpre jlit grow d b (Out (firstn (Z.to_nat (o_pos o)) (o_mem o) ++ m) (o_pos o))
        end
    | NDone d b o =>
      let b := fix_length b in
      if negb (d_final d) then run fuel' jpre jlit grow (set_state d KBlockHeader) b o
      else Ok (BL_SUCCESS, Decoder (set_state d KDone) 0 0, o)
    | NIn d b o => Ok (BL_ERROR_DATA_TRUNCATED, Decoder d (b_word b) (b_len b), o)
    | NBad d b o => let b := fix_length b in Ok (BL_ERROR_DECOMPRESSION_FAILED, Decoder (set_state d KInvalid) (b_word b) (b_len b), o)
    | NRet code d b o => Ok (code, Decoder d (b_word b) (b_len b), o)
    end
  end.

(* Decoder::decode(dst, input) *)
Definition decode (jpre jlit : list Z) (grow : Z -> Z -> option (list Z)) (s : decoder) (o : obuf) (input : list Z) : outcome (Z * decoder * obuf) :=
  run (16 + 8 * (Z.to_nat (dc_len s) + 8 * length input)) jpre jlit grow (dc s) (Bits (dc_word s) (dc_len s) input) o.

(* Decoder::init (deflatedecoder.cpp 557-586); the tables keep their old contents *)
Definition init (zlib norealloc : bool) (u : storage) (off : list Z) : decoder :=
  Decoder (Dec (if zlib then KZlibHeader else KBlockHeader) false false false norealloc 0 0 0 0 0 no_info no_info no_info 0 u off) 0 0.

(* the way the PNG reader uses it (codec/pngcodec.cpp 1399-1452): one call per chunk while the result is BL_ERROR_DATA_TRUNCATED *)
Fixpoint feed (jpre jlit : list Z) (grow : Z -> Z -> option (list Z)) (s : decoder) (o : obuf) (chunks : list (list Z)) : outcome (Z * decoder * obuf) :=
  match chunks with
  | [] => Ok (BL_ERROR_DATA_TRUNCATED, s, o)
  | c :: chunks' =>
    let* r := decode jpre jlit grow s o c in
    let '(code, s, o) := r in
    if code =? BL_ERROR_DATA_TRUNCATED then feed jpre jlit grow s o chunks' else Ok (code, s, o)
  end.
