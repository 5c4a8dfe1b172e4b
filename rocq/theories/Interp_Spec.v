(* What a colour table shows, independently of the code: w is the width of a component (8 or 16), K = 31 - w. *)
From Verif Require Import Base PixelOps_Spec.

(* components of a colour: 3 alpha, 2 red, 1 green, 0 blue *)
Definition chan (w c i : Z) : Z := (c / 2 ^ (w * i)) mod 2 ^ w.
Definition pack (w a r g b : Z) : Z := a * 2 ^ (w * 3) + r * 2 ^ (w * 2) + g * 2 ^ w + b.
(* the premultiplied pixel of the components *)
Definition premultiplied (w a r g b : Z) : Z :=
  pack w a (round_div (r * a) (2 ^ w - 1)) (round_div (g * a) (2 ^ w - 1)) (round_div (b * a) (2 ^ w - 1)).
Definition stop_pixel (w c : Z) : Z := premultiplied w (chan w c 3) (chan w c 2) (chan w c 1) (chan w c 0).

(* [v] is x + (y - x) * m / n up to 1/2 + m / 2^K, and lies between x and y *)
Definition near (K x y m n v : Z) : Prop :=
  Z.min x y <= v <= Z.max x y /\ Z.abs (n * v - (n * x + m * (y - x))) * 2 ^ K <= n * (2 ^ (K - 1) + m).
(* [v] is the premultiplied pixel of a colour at m / n between two colours *)
Definition between (w c0 c1 m n v : Z) : Prop :=
  exists a r g b, v = premultiplied w a r g b /\
  near (31 - w) (chan w c0 3) (chan w c1 3) m n a /\ near (31 - w) (chan w c0 2) (chan w c1 2) m n r /\
  near (31 - w) (chan w c0 1) (chan w c1 1) m n g /\ near (31 - w) (chan w c0 0) (chan w c1 0) m n b.

(* The entry [k] shows [v]: (p, c) is the last of the stops at or before entry k; at its own entry and behind the last
   stop its colour is shown, before the next stop a colour between both. *)
Definition shows (w : Z) (stops : list (Z * Z)) (k v : Z) : Prop :=
  exists l p c r, stops = l ++ (p, c) :: r /\ p / 256 <= k /\ Forall (fun s => k < fst s / 256) r /\
  match r with
  | (q, c') :: _ => if p / 256 =? k then v = stop_pixel w c else between w c c' (k - p / 256) (q / 256 - p / 256) v
  | [] => v = stop_pixel w c
  end.

(* positions in order and inside of the table *)
Fixpoint ordered (p0 last : Z) (stops : list (Z * Z)) : Prop :=
  match stops with [] => True | (p, _) :: r => p0 <= p <= last /\ ordered p last r end.
