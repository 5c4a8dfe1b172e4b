(* Independent specification of the two checksums. *)
From Verif Require Import Base.

(* RFC 1950 section 8.2: s1 = 1 + D1 + ... + Dn, s2 = n*D1 + (n-1)*D2 + ... + Dn + n, both modulo 65521;
   the checksum is s2*65536 + s1. *)
Fixpoint byte_sum (d : list Z) : Z := match d with [] => 0 | b :: r => b + byte_sum r end.
Fixpoint weighted_sum (d : list Z) : Z :=
  match d with [] => 0 | b :: r => Z.of_nat (length d) * b + weighted_sum r end.
Definition adler32_spec (d : list Z) : Z :=
  ((Z.of_nat (length d) + weighted_sum d) mod 65521) * 65536 + (1 + byte_sum d) mod 65521.

(* CRC-32 (IEEE 802.3, reflected), processed one message bit at a time: bits of each byte least significant
   first; the register is shifted right and the polynomial 0xEDB88320 added when the outgoing bit differs
   from the message bit. *)
Definition crc_bit (reg : Z) (bit : bool) : Z :=
  if xorb (Z.odd reg) bit then Z.lxor (reg / 2) 3988292384 else reg / 2.
Definition byte_bits (b : Z) : list bool :=
  [Z.testbit b 0; Z.testbit b 1; Z.testbit b 2; Z.testbit b 3;
   Z.testbit b 4; Z.testbit b 5; Z.testbit b 6; Z.testbit b 7].
Definition message_bits (d : list Z) : list bool := flat_map byte_bits d.
Definition crc32_spec (d : list Z) : Z :=
  4294967295 - fold_left crc_bit (message_bits d) 4294967295.

(* The same CRC as a polynomial remainder over GF(2), polynomials as coefficient lists, highest degree first.
   The generator is x^32+x^26+x^23+x^22+x^16+x^12+x^11+x^10+x^8+x^7+x^5+x^4+x^2+x+1. *)
Definition crc_generator : list bool :=
  [true;
   false;false;false;false;false;true;false;false;true;true;false;false;false;false;false;true;
   false;false;false;true;true;true;false;true;true;false;true;true;false;true;true;true].
Fixpoint xor_prefix (p g : list bool) : list bool :=
  match g, p with
  | [], _ => p
  | b :: g', a :: p' => xorb a b :: xor_prefix p' g'
  | _ :: _, [] => []
  end.
(* Long division: n quotient steps on a dividend; what is left is the remainder. *)
Fixpoint poly_rem (n : nat) (p : list bool) : list bool :=
  match n with
  | O => p
  | S n' =>
    match p with
    | [] => []
    | true :: _ => poly_rem n' (tl (xor_prefix p crc_generator))
    | false :: p' => poly_rem n' p'
    end
  end.
Definition complement_first (k : nat) (p : list bool) : list bool := map negb (firstn k p) ++ skipn k p.
(* Message bits, first 32 complemented, followed by 32 zero bits, divided by the generator. *)
Definition crc32_remainder (d : list Z) : list bool :=
  poly_rem (length (message_bits d)) (complement_first 32 (message_bits d ++ repeat false 32)).

(* A sequence of update calls: each continues from the checksum returned by the previous one. *)
Definition update_all {A} (upd : Z -> A -> option Z) (init : Z) (parts : list A) : option Z :=
  fold_left (fun acc d => match acc with Some c => upd c d | None => None end) parts (Some init).
