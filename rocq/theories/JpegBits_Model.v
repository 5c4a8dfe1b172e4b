(* The bit reader of the JPEG decoder: DecoderBitStream and DecoderBitReader (blend2d/codec/jpeghuffman_p.h lines 52-188).
   Simplifications: 64-bit words; the pointers are indexes into the segment, reads go up to [end] only. The stream and
   the reader have the same fields here, eob_run and restart_counter are left out. *)
From Verif Require Import Base JpegHuff_Model.

(* lines 79-87 *)
Record reader : Type := Reader { r_ptr : Z; r_end : Z; r_bits : Z; r_count : Z }.
(* DecoderBitStream::reset (lines 66-72) *)
Definition reset (data : list Z) : reader := Reader 0 (Z.of_nat (length data)) 0 0.
(* bit_data += byte << (56 - bit_count); bit_count += 8 (lines 151-152) *)
Definition push (r : reader) (p b : Z) : reader :=
  Reader p (r_end r) (w64 (r_bits r + w64 (Z.shiftl b (56 - r_count r)))) (w64 (r_count r + 8)).
(* refill (lines 134-154) *)
Fixpoint refill (fuel : nat) (data : list Z) (r : reader) : outcome reader :=
  match fuel with
  | O => NoFuel
  | S fuel =>
    if (r_count r <=? 56) && negb (r_ptr r =? r_end r) then
      let* b := rd (firstn (Z.to_nat (r_end r)) data) (r_ptr r) in
      let p := r_ptr r + 1 in
      if b =? 255 then
        if p =? r_end r then Ok (Reader p (r_end r) (r_bits r) (r_count r))
        else
          let* m := rd (firstn (Z.to_nat (r_end r)) data) p in
          let p := p + 1 in
          if negb (m =? 0) then Ok (Reader (p - 2) (p - 2) (r_bits r) (r_count r))
          else refill fuel data (push r p b)
      else refill fuel data (push r p b)
    else Ok r
  end.
(* require_bits and read_unsigned (lines 98-102, 181-187) *)
Definition read (r : reader) (n : Z) : outcome (Z * reader) :=
  if r_count r <? n then Err BL_ERROR_DECOMPRESSION_FAILED
  else let (bits, count) := drop (r_bits r) (r_count r) n in Ok (peek (r_bits r) n, Reader (r_ptr r) (r_end r) bits count).

(* any sequence of refills and reads; the numbers of bits and the values that were read *)
Inductive op : Type := Refill | Read (n : Z).
Fixpoint exec (data : list Z) (r : reader) (ops : list op) : outcome (list (Z * Z) * reader) :=
  match ops with
  | [] => Ok ([], r)
  | Refill :: ops => let* r := refill 9 data r in exec data r ops
  | Read n :: ops =>
    let* (v, r) := read r n in
    let* (out, r) := exec data r ops in
    Ok ((n, v) :: out, r)
  end.
