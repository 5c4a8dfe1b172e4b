(* What a BLFormatInfo means, independently of the code that checks it. *)
From Verif Require Import Base Format_Model.

Definition byte_comp (c : comp) : Prop := 0 <= c_size c < 256 /\ 0 <= c_shift c < 256.
(* a struct as C++ can hold it *)
Definition storable (f : finfo) : Prop :=
  0 <= f_depth f < 2 ^ 32 /\ 0 <= f_flags f < 2 ^ 32 /\
  byte_comp (f_r f) /\ byte_comp (f_g f) /\ byte_comp (f_b f) /\ byte_comp (f_a f).

(* the flags, by bit number *)
Definition rgb (f : finfo) : bool := Z.testbit (f_flags f) 0.
Definition alpha (f : finfo) : bool := Z.testbit (f_flags f) 1.
Definition lum (f : finfo) : bool := Z.testbit (f_flags f) 2.
Definition indexed (f : finfo) : bool := Z.testbit (f_flags f) 4.
Definition premultiplied (f : finfo) : bool := Z.testbit (f_flags f) 8.
Definition byte_swap (f : finfo) : bool := Z.testbit (f_flags f) 9.

(* the pixel bit [k] belongs to the component *)
Definition covers (c : comp) (k : Z) : Prop := c_shift c <= k < c_shift c + c_size c.
Definition disjoint (a b : comp) : Prop := forall k, ~ (covers a k /\ covers b k).

(* a component that the flags announce: 1 to 16 bits inside of the pixel *)
Definition provided (f : finfo) (c : comp) : Prop := 1 <= c_size c <= 16 /\ c_shift c + c_size c <= f_depth f.
Definition absent (c : comp) : Prop := c_size c = 0 /\ c_shift c = 0.
Definition component_ok (f : finfo) (present : bool) (c : comp) : Prop :=
  if present then provided f c else absent c.

(* the description makes sense *)
Definition valid_direct (f : finfo) : Prop :=
  (rgb f && lum f = false /\ rgb f || lum f || alpha f = true) /\
  component_ok f (rgb f || lum f) (f_r f) /\ component_ok f (rgb f || lum f) (f_g f) /\
  component_ok f (rgb f || lum f) (f_b f) /\ component_ok f (alpha f) (f_a f) /\
  (if lum f then f_r f = f_g f /\ f_g f = f_b f
   else disjoint (f_r f) (f_g f) /\ disjoint (f_r f) (f_b f) /\ disjoint (f_g f) (f_b f)) /\
  disjoint (f_r f) (f_a f) /\ disjoint (f_g f) (f_a f) /\ disjoint (f_b f) (f_a f).
Definition valid (f : finfo) : Prop :=
  In (f_depth f) [1; 2; 4; 8; 16; 24; 32] /\
  if indexed f then f_depth f <= 8 /\ exists c, In c (comps f) /\ (c_size c <> 0 \/ c_shift c <> 0)
  else valid_direct f.

(* the component is a whole byte *)
Definition whole_byte (c : comp) : Prop := c_size c = 0 \/ (c_size c = 8 /\ c_shift c mod 8 = 0).
(* the component lies in a single byte *)
Definition in_one_byte (c : comp) : Prop := c_size c = 0 \/ c_shift c / 8 = (c_shift c + c_size c - 1) / 8.

(* The number made of the bytes of a pixel, the first byte being the lowest. *)
Fixpoint le_value (l : list Z) : Z := match l with [] => 0 | b :: r => b + 256 * le_value r end.
(* the pixel that the description finds in memory, and a component of it *)
Definition pixel_value (f : finfo) (mem : list Z) : Z := le_value (if byte_swap f then rev mem else mem).
Definition component_value (c : comp) (v : Z) : Z := (v / 2 ^ c_shift c) mod 2 ^ c_size c.
Definition decode (f : finfo) (mem : list Z) : list Z := map (fun c => component_value c (pixel_value f mem)) (comps f).
(* two descriptions read every pixel alike *)
Definition same_pixels (f g : finfo) : Prop :=
  forall mem, bytes mem -> 8 * Z.of_nat (length mem) = f_depth f -> decode g mem = decode f mem.
