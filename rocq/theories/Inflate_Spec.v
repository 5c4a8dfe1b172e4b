(* RFC 1950 header and RFC 1951 block structure as a step relation on a bit stream, independent of the decoder's code.
   A state holds the unread stream: the integer a_V (see Deflate_Spec.v) and the number a_N of bits in it; a whole stream
   has a multiple of 8 bits, so a_N mod 8 bits are left in the current byte. *)
From Verif Require Import Base Deflate_Spec.

(* RFC 1951 3.2.6 *)
Definition static_lit : list Z := repeat 8 144 ++ repeat 9 112 ++ repeat 7 24 ++ repeat 8 8.
Definition static_off : list Z := repeat 5 32.

(* RFC 1951 3.2.7: order of the code length code lengths *)
Definition clen_order : list Z := [16; 17; 18; 0; 8; 7; 9; 6; 10; 5; 11; 4; 12; 3; 13; 2; 14; 1; 15].
(* the i-th length read is that of symbol clen_order[i]; lengths not sent are 0 *)
Fixpoint clen_at (order acc : list Z) (s : Z) : Z :=
  match order, acc with
  | o :: order', x :: acc' => if o =? s then x else clen_at order' acc' s
  | _, _ => 0
  end.
Definition clens (acc : list Z) : list Z := map (fun s => clen_at clen_order acc (Z.of_nat s)) (seq 0 19).

(* RFC 1951 3.2.3: "move backwards distance bytes in the output stream, and copy length bytes from this position" *)
Fixpoint lz_copy (n : nat) (out : list Z) (dist : Z) : list Z :=
  match n with
  | O => out
  | S n' => lz_copy n' (out ++ [nth (length out - Z.to_nat dist) out 0]) dist
  end.

Inductive amode :=
| AZlib                                           (* before the zlib header *)
| ABlock                                          (* before a block header *)
| AStored                                         (* before LEN and NLEN *)
| ACopy (n : Z)                                   (* n stored bytes left *)
| ADynamic                                        (* before HLIT, HDIST, HCLEN *)
| APrecode (nl no nc : Z) (acc : list Z)          (* reading the code length code *)
| ALens (nl no : Z) (pre acc : list Z)            (* reading the literal/length and distance code lengths *)
| ASyms (lit off : list Z)                        (* in compressed data *)
| ADone.

(* a_final: this is the last block *)
Record astate := A { a_mode : amode; a_final : bool; a_V : Z; a_N : Z; a_out : list Z }.

Definition after_block (final : bool) : amode := if final then ADone else ABlock.

Inductive astep : astate -> astate -> Prop :=
| st_zlib f V N o :
    16 <= N -> let cmf := V mod 256 in let flg := V / 256 mod 256 in
    (cmf * 256 + flg) mod 31 = 0 -> cmf mod 16 = 8 -> flg / 32 mod 2 = 0 ->
    astep (A AZlib f V N o) (A ABlock f (V / 2 ^ 16) (N - 16) o)
| st_block_stored f V N o :
    3 <= N -> V / 2 mod 4 = 0 -> let k := (N - 3) mod 8 in
    astep (A ABlock f V N o) (A AStored (V mod 2 =? 1) (V / 2 ^ (3 + k)) (N - (3 + k)) o)
| st_block_static f V N o :
    3 <= N -> V / 2 mod 4 = 1 ->
    astep (A ABlock f V N o) (A (ASyms static_lit static_off) (V mod 2 =? 1) (V / 2 ^ 3) (N - 3) o)
| st_block_dynamic f V N o :
    3 <= N -> V / 2 mod 4 = 2 ->
    astep (A ABlock f V N o) (A ADynamic (V mod 2 =? 1) (V / 2 ^ 3) (N - 3) o)
| st_stored f V N o :
    32 <= N -> let n := V mod 2 ^ 16 in V / 2 ^ 16 mod 2 ^ 16 = 65535 - n ->
    astep (A AStored f V N o) (A (if n =? 0 then after_block f else ACopy n) f (V / 2 ^ 32) (N - 32) o)
| st_copy f V N o n :
    8 <= N -> 0 < n ->
    astep (A (ACopy n) f V N o) (A (if n =? 1 then after_block f else ACopy (n - 1)) f (V / 2 ^ 8) (N - 8) (o ++ [V mod 256]))
| st_dynamic f V N o :
    14 <= N ->
    astep (A ADynamic f V N o) (A (APrecode (257 + V mod 32) (1 + V / 32 mod 32) (4 + V / 1024 mod 16) []) f (V / 2 ^ 14) (N - 14) o)
| st_precode f V N o nl no nc acc :
    3 <= N -> Z.of_nat (length acc) < nc ->
    astep (A (APrecode nl no nc acc) f V N o) (A (APrecode nl no nc (acc ++ [V mod 8])) f (V / 2 ^ 3) (N - 3) o)
| st_precode_end f V N o nl no nc acc :
    Z.of_nat (length acc) = nc -> precode_good (clens acc) ->
    astep (A (APrecode nl no nc acc) f V N o) (A (ALens nl no (clens acc) []) f V N o)
| st_len f V N o nl no pre acc s :
    Z.of_nat (length acc) < nl + no -> decodes pre V s -> s < 16 -> let l := len_of pre s in l <= N ->
    astep (A (ALens nl no pre acc) f V N o) (A (ALens nl no pre (acc ++ [s])) f (V / 2 ^ l) (N - l) o)
| st_repeat f V N o nl no pre acc :
    Z.of_nat (length acc) < nl + no -> decodes pre V 16 -> acc <> [] -> let l := len_of pre 16 in l + 2 <= N ->
    astep (A (ALens nl no pre acc) f V N o)
      (A (ALens nl no pre (acc ++ repeat (last acc 0) (Z.to_nat (3 + V / 2 ^ l mod 4)))) f (V / 2 ^ (l + 2)) (N - (l + 2)) o)
| st_zeros f V N o nl no pre acc :
    Z.of_nat (length acc) < nl + no -> decodes pre V 17 -> let l := len_of pre 17 in l + 3 <= N ->
    astep (A (ALens nl no pre acc) f V N o)
      (A (ALens nl no pre (acc ++ repeat 0 (Z.to_nat (3 + V / 2 ^ l mod 8)))) f (V / 2 ^ (l + 3)) (N - (l + 3)) o)
| st_many_zeros f V N o nl no pre acc :
    Z.of_nat (length acc) < nl + no -> decodes pre V 18 -> let l := len_of pre 18 in l + 7 <= N ->
    astep (A (ALens nl no pre acc) f V N o)
      (A (ALens nl no pre (acc ++ repeat 0 (Z.to_nat (11 + V / 2 ^ l mod 128)))) f (V / 2 ^ (l + 7)) (N - (l + 7)) o)
| st_lens_end f V N o nl no pre acc :
    Z.of_nat (length acc) = nl + no -> let lit := firstn (Z.to_nat nl) acc in let off := skipn (Z.to_nat nl) acc in
    litlen_good lit -> offset_good off ->
    astep (A (ALens nl no pre acc) f V N o) (A (ASyms lit off) f V N o)
| st_literal f V N o lit off s :
    decodes lit V s -> s < 256 -> let l := len_of lit s in l <= N ->
    astep (A (ASyms lit off) f V N o) (A (ASyms lit off) f (V / 2 ^ l) (N - l) (o ++ [s]))
| st_end_of_block f V N o lit off :
    decodes lit V 256 -> let l := len_of lit 256 in l <= N ->
    astep (A (ASyms lit off) f V N o) (A (after_block f) f (V / 2 ^ l) (N - l) o)
| st_match f V N o lit off s d :
    decodes lit V s -> 257 <= s <= 285 -> let l := len_of lit s in let k := l + length_extra s in k <= N ->
    let n := length_base s + V / 2 ^ l mod 2 ^ length_extra s in
    let V1 := V / 2 ^ k in let N1 := N - k in
    decodes off V1 d -> d <= 29 -> let l1 := len_of off d in let k1 := l1 + offset_extra d in k1 <= N1 ->
    let dist := offset_base d + V1 / 2 ^ l1 mod 2 ^ offset_extra d in
    dist <= Z.of_nat (length o) ->
    astep (A (ASyms lit off) f V N o) (A (ASyms lit off) f (V1 / 2 ^ k1) (N1 - k1) (lz_copy (Z.to_nat n) o dist)).

Inductive asteps : astate -> astate -> Prop :=
| steps_nil a : asteps a a
| steps_cons a b c : astep a b -> asteps b c -> asteps a c.

(* the integer of a byte string, first byte lowest *)
Fixpoint le_bytes (l : list Z) : Z := match l with [] => 0 | x :: t => x + 256 * le_bytes t end.

(* the stream that starts with the given bytes, decoded after the output o *)
Definition start (zlib : bool) (bytes o : list Z) : astate :=
  A (if zlib then AZlib else ABlock) false (le_bytes bytes) (8 * Z.of_nat (length bytes)) o.
(* bytes is (or starts with) a complete valid stream; o is the output before it and res the output after it *)
Definition inflates (zlib : bool) (bytes o res : list Z) : Prop :=
  exists f V N, asteps (start zlib bytes o) (A ADone f V N res).
