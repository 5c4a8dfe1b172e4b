(* Independent description of pixels. *)
From Verif Require Import Base.

(* nearest integer to x / d, halves rounded up *)
Definition round_div (x d : Z) : Z := (2 * x + d) / (2 * d).

(* 32-bit pixel made of four 8-bit components; 64-bit pixel of four 16-bit ones *)
Definition pack32 (a r g b : Z) : Z := a * 2 ^ 24 + r * 2 ^ 16 + g * 2 ^ 8 + b.
Definition pack64 (a r g b : Z) : Z := a * 2 ^ 48 + r * 2 ^ 32 + g * 2 ^ 16 + b.
Definition u8 (x : Z) : Prop := 0 <= x < 256.
Definition u16 (x : Z) : Prop := 0 <= x < 65536.

(* bit replication of an n-bit component to 8 bits: the n bits followed by its own upper bits *)
Definition replicate5 (c : Z) : Z := c * 8 + c / 4.
Definition replicate6 (c : Z) : Z := c * 4 + c / 16.
Definition replicate4 (c : Z) : Z := c * 17.
