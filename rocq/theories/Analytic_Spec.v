(* What the filler of rasterized paths has to draw. *)
From Verif Require Import Base Fill_Model Fill_Spec.

(* A cell holds the change of the cover, in units of 1/512 of 1/256 of a pixel: a row of cells is given by signed changes v x; the cover of
   pixel x is the sum of the changes at 0, ..., x. *)
Fixpoint sum_to (v : Z -> Z) (n : nat) : Z := match n with O => 0 | S n => sum_to v n + v (Z.of_nat n) end.
Definition cover (v : Z -> Z) (x : Z) : Z := sum_to v (Z.to_nat (x + 1)).

(* the fill rules; 256 * winding number is given in units of 1/512, rounded down *)
Definition winding256 (cov : Z) : Z := cov / 512.
Definition non_zero (cov : Z) : Z := Z.min 256 (Z.abs (winding256 cov)).
(* distance to the nearest even winding number *)
Definition even_odd (cov : Z) : Z := let r := winding256 cov mod 512 in Z.min r (512 - r).
Definition fill_mask_of (rule_even_odd : bool) (alpha cov : Z) : Z :=
  (if rule_even_odd then even_odd cov else non_zero cov) * alpha / 256.

(* bit j of the row of words that starts at address b *)
Definition row_bit (bits : @mem Z) (b j : Z) : bool := match bits (b + j / 64) with Some w => Z.testbit w (j mod 64) | None => false end.

(* A row of nw words at b and cells at c that describes the changes v of the pixels 0, ..., xend: 
   - the words and cells exist,
   - a bit marks 4 pixels; changes only at marked pixels and at the pixel behind,
   - no marks behind xend, the last bit of the row is behind xend,
   - the cover is bounded and ends with zero. *)
Definition row_ok (bits cells : @mem Z) (nw b c xend : Z) (v : Z -> Z) : Prop :=
  (forall k, 0 <= k < nw -> exists w, bits (b + k) = Some w /\ 0 <= w < 2 ^ 64) /\
  (forall x, 0 <= x <= xend -> cells (c + x) = Some (v x mod 2 ^ 32)) /\
  (forall x, 0 <= x <= xend -> v x <> 0 -> row_bit bits b (x / 4) = true \/ 0 < x /\ row_bit bits b ((x - 1) / 4) = true) /\
  (forall j, 0 <= j < 64 * nw -> row_bit bits b j = true -> 4 * j <= xend) /\
  (forall x, 0 <= x <= xend -> - 2 ^ 30 <= cover v x <= 2 ^ 30) /\
  cover v xend = 0.

(* the memory m' is m with n elements at a set to zero *)
Definition cleared (m m' : @mem Z) (a n : Z) : Prop := forall i, m' i = if (a <=? i) && (i <? a + n) then Some 0 else m i.
(* the cells 0, ..., xend of the rows r0 <= r < r1 are zero in m', all others as in m; rows are cs cells apart *)
Definition cleared_rows (m m' : @mem Z) (cs xend r0 r1 : Z) : Prop :=
  (forall r x, r0 <= r < r1 -> 0 <= x <= xend -> m' (r * cs + x) = Some 0) /\
  (forall a, (forall r x, r0 <= r < r1 -> 0 <= x <= xend -> a <> r * cs + x) -> m' a = m a).
