(* The canonical code of a list of code lengths, independently of the tables: the codes cut the 16-bit numbers into
   consecutive intervals, a code of l bits takes 2^(16 - l) of them. *)
From Verif Require Import Base.

(* code lengths of the symbols in order, from the sixteen counts of a DHT segment *)
Fixpoint lengths (l : Z) (counts : list Z) : list Z :=
  match counts with [] => [] | c :: r => repeat l (Z.to_nat c) ++ lengths (l + 1) r end.
Fixpoint weight (ls : list Z) : Z := match ls with [] => 0 | l :: r => 2 ^ (16 - l) + weight r end.
(* The sixteen bits [x] start with the code of symbol [j], which has [l] bits. *)
Definition starts_with (ls : list Z) (x : Z) (j : nat) (l : Z) : Prop :=
  nth_error ls j = Some l /\ weight (firstn j ls) <= x < weight (firstn j ls) + 2 ^ (16 - l).
(* the codes fit *)
Definition fits (ls : list Z) : Prop := weight ls <= 2 ^ 16.
(* The data of a DHT segment describe a table: sixteen counts, then one byte for each of at most 256 symbols, and the
   codes fit. *)
Definition dht_lengths (data : list Z) : list Z := lengths 1 (firstn 16 data).
Definition valid_dht (data : list Z) : Prop :=
  let n := Z.of_nat (length (dht_lengths data)) in
  16 <= Z.of_nat (length data) /\ n <= 256 /\ 16 + n <= Z.of_nat (length data) /\ fits (dht_lengths data).
