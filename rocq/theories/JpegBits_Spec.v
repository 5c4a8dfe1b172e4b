(* The bits of an entropy-coded segment, independently of the reader. *)
From Verif Require Import Base.

(* the most significant bit first *)
Definition bits_of (n v : Z) : list bool := map (fun i => Z.testbit v (n - 1 - Z.of_nat i)) (seq 0 (Z.to_nat n)).
(* 0xFF 0x00 stands for 0xFF; 0xFF and another byte is a marker, which ends the segment *)
Fixpoint entropy (l : list Z) : list Z :=
  match l with
  | [] => []
  | b :: r => if b =? 255 then match r with 0 :: r => 255 :: entropy r | _ => [] end else b :: entropy r
  end.
Definition stream_bits (l : list Z) : list bool := flat_map (bits_of 8) (entropy l).
Definition read_bits (out : list (Z * Z)) : list bool := flat_map (fun x => bits_of (fst x) (snd x)) out.
