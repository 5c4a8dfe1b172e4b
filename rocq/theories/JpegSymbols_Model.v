(* Reading Huffman symbols of the JPEG decoder: the reader is refilled before each code and the bits of the code are
   dropped (blend2d/codec/jpegcodec.cpp lines 735-742; jpeghuffman_p.h lines 190-225). *)
From Verif Require Import Base JpegHuff_Model JpegBits_Model.

(* reader.refill(); reader.read_code(dst, table) with the drop at its end *)
Definition next_symbol (data : list Z) (t : table) (r : reader) : outcome (Z * reader) :=
  let* r := refill 9 data r in
  let* (v, code_size) := read_code t (r_bits r) (r_count r) in
  let (bits, count) := drop (r_bits r) (r_count r) code_size in
  Ok (v, Reader (r_ptr r) (r_end r) bits count).
(* [k] symbols *)
Fixpoint symbols (k : nat) (data : list Z) (t : table) (r : reader) : outcome (list Z * reader) :=
  match k with
  | O => Ok ([], r)
  | S k =>
    let* (v, r) := next_symbol data t r in
    let* (vs, r) := symbols k data t r in
    Ok (v :: vs, r)
  end.
