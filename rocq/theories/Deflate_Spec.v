(* RFC 1951 in small definitions, independent of the decoder's code.
   A bit stream is a non-negative integer V: its first bit is V mod 2, the bits that follow are those of V / 2
   (RFC 1951, 3.1.1: data elements are packed starting with the least-significant bit of each byte). *)
From Verif Require Import Base.

(* code length of symbol s; 0 = not used *)
Definition len_of (lens : list Z) (s : Z) : Z := nth (Z.to_nat s) lens 0.

(* RFC 1951 3.2.2 step 1: number of codes for each code length *)
Definition count_len (lens : list Z) (l : Z) : Z := Z.of_nat (count_occ Z.eq_dec lens l).

(* RFC 1951 3.2.2 step 2: code = (code + bl_count[bits-1]) << 1, with bl_count[0] = 0 *)
Fixpoint next_code (lens : list Z) (n : nat) : Z :=
  match n with
  | O => 0
  | S b => 2 * (next_code lens b + (if Z.of_nat b =? 0 then 0 else count_len lens (Z.of_nat b)))
  end.

(* RFC 1951 3.2.2 step 3: consecutive values for the symbols of one length, in symbol order *)
Definition huff_code (lens : list Z) (s : Z) : Z :=
  next_code lens (Z.to_nat (len_of lens s)) + count_len (firstn (Z.to_nat s) lens) (len_of lens s).

(* the first n bits of the stream as a Huffman code, most significant bit first (RFC 1951 3.1.1) *)
Fixpoint read_code (n : nat) (V : Z) : Z :=
  match n with
  | O => 0
  | S n' => 2 * read_code n' V + (if Z.testbit V (Z.of_nat n') then 1 else 0)
  end.

(* the stream V starts with the code of symbol s *)
Definition decodes (lens : list Z) (V s : Z) : Prop :=
  0 <= s < Z.of_nat (length lens) /\ 0 < len_of lens s /\
  read_code (Z.to_nat (len_of lens s)) V = huff_code lens s.

(* share of the code space taken by the codes, in units of 2^-15 *)
Fixpoint code_space (lens : list Z) : Z :=
  match lens with
  | [] => 0
  | l :: lens' => (if l =? 0 then 0 else 2 ^ (15 - l)) + code_space lens'
  end.
Definition complete_code (lens : list Z) : Prop := code_space lens = 2 ^ 15.
(* exactly one code, of one bit (the incomplete code RFC 1951 3.2.7 allows) *)
Definition single_code (lens : list Z) : Prop := code_space lens = 2 ^ 14 /\ count_len lens 1 = 1.
Definition empty_code (lens : list Z) : Prop := code_space lens = 0.

(* the codes a block may use: RFC 1951 3.2.7 requires complete codes, except that the distance code may consist of one code of
   one bit or of no code at all. The decoder (like libdeflate) also takes a single one-bit literal/length code. *)
Definition precode_good (lens : list Z) : Prop := complete_code lens.
Definition litlen_good (lens : list Z) : Prop := complete_code lens \/ single_code lens.
Definition offset_good (lens : list Z) : Prop := complete_code lens \/ single_code lens \/ empty_code lens.

(* RFC 1951 3.2.5: length symbols 257..285 and distance symbols 0..29, by formula *)
Definition length_extra (s : Z) : Z := let i := s - 257 in if (i <? 8) || (i =? 28) then 0 else i / 4 - 1.
Definition length_base (s : Z) : Z :=
  let i := s - 257 in if i <? 8 then 3 + i else if i =? 28 then 258 else 3 + (4 + i mod 4) * 2 ^ length_extra s.
Definition offset_extra (s : Z) : Z := if s <? 4 then 0 else s / 2 - 1.
Definition offset_base (s : Z) : Z := if s <? 4 then 1 + s else 1 + (2 + s mod 2) * 2 ^ offset_extra s.
