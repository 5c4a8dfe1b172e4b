(* What the PNG standard (W3C, third edition) says about filtered, interlaced pixel data; independent of the code. *)
From Verif Require Import Base.
From Coq Require Import Permutation.

(* Byte [i] of the memory. *)
Definition get (m : list Z) (i : Z) : Z := nth (Z.to_nat i) m 0.

(* ------------------------------------------------------------------ filtering (clause 9) *)

(* 9.4: Paeth predictor *)
Definition paeth_predictor (a b c : Z) : Z :=
  let p := a + b - c in
  let pa := Z.abs (p - a) in let pb := Z.abs (p - b) in let pc := Z.abs (p - c) in
  if (pa <=? pb) && (pa <=? pc) then a else if pb <=? pc then b else c.

(* 9.2: what is added to the stored byte; unknown filter types (5 and above) are read as None *)
Definition predictor (filter a b c : Z) : Z :=
  if filter =? 1 then a else if filter =? 2 then b else if filter =? 3 then (a + b) / 2
  else if filter =? 4 then paeth_predictor a b c else 0.

(* An image of h rows stored at [base]; each row is one filter byte and bpl - 1 bytes.  [out] is the reconstruction of [raw]:
   a is the byte bpp to the left, b the byte above, c the byte above left, each zero outside the image. *)
Definition reconstructed (bpp bpl base h : Z) (raw out : list Z) : Prop :=
  forall y x, 0 <= y < h -> 0 <= x < bpl - 1 ->
  let at_ y x := if (y <? 0) || (x <? 0) then 0 else get out (base + y * bpl + 1 + x) in
  get out (base + y * bpl) = get raw (base + y * bpl) /\
  at_ y x = (get raw (base + y * bpl + 1 + x)
             + predictor (get raw (base + y * bpl)) (at_ y (x - bpp)) (at_ (y - 1) x) (at_ (y - 1) (x - bpp))) mod 256.

(* ------------------------------------------------------------------ interlacing (clause 8.1) *)

(* The 8 x 8 pattern; passes numbered from 0. *)
Definition adam7_pattern : list (list Z) :=
  [[0; 5; 3; 5; 1; 5; 3; 5];
   [6; 6; 6; 6; 6; 6; 6; 6];
   [4; 5; 4; 5; 4; 5; 4; 5];
   [6; 6; 6; 6; 6; 6; 6; 6];
   [2; 5; 3; 5; 2; 5; 3; 5];
   [6; 6; 6; 6; 6; 6; 6; 6];
   [4; 5; 4; 5; 4; 5; 4; 5];
   [6; 6; 6; 6; 6; 6; 6; 6]].
Definition adam7 (x y : Z) : Z := nth (Z.to_nat (x mod 8)) (nth (Z.to_nat (y mod 8)) adam7_pattern []) 0.

Definition zrange (n : Z) : list Z := map Z.of_nat (seq 0 (Z.to_nat n)).
Definition count (f : Z -> bool) (n : Z) : Z := Z.of_nat (length (filter f (zrange n))).

(* The columns and rows that hold pixels of a pass. *)
Definition pass_col (p x : Z) : bool := existsb (fun y => adam7 x y =? p) (zrange 8).
Definition pass_row (p y : Z) : bool := existsb (fun x => adam7 x y =? p) (zrange 8).

(* Layout of the inflated data, [depth] bits per pixel: rows are packed into whole bytes after one filter byte; empty passes and empty
   rows are absent. *)
Definition row_bytes_spec (depth width : Z) : Z := 1 + (width * depth + 7) / 8.
Definition pass_width (p w : Z) : Z := count (pass_col p) w.
Definition pass_height (p h : Z) : Z := count (pass_row p) h.
Definition pass_size (depth w h p : Z) : Z :=
  if (pass_width p w =? 0) || (pass_height p h =? 0) then 0
  else pass_height p h * row_bytes_spec depth (pass_width p w).
Definition pass_offset (depth w h p : Z) : Z := fold_right Z.add 0 (map (pass_size depth w h) (zrange p)).
(* Size of the inflated data. *)
Definition data_size (progressive : bool) (depth w h : Z) : Z :=
  if progressive then pass_offset depth w h 7 else h * row_bytes_spec depth w.

(* ------------------------------------------------------------------ pixels (clause 7.2) *)

(* Bit [i] of the memory, the most significant bit of each byte first. *)
Definition bit (m : list Z) (i : Z) : bool := Z.testbit (get m (i / 8)) (7 - i mod 8).
(* Pixel x of the packed row at byte [base]. *)
Definition pixel (depth : Z) (m : list Z) (base x : Z) : list bool := map (fun j => bit m (8 * base + x * depth + j)) (zrange depth).

(* The pixel (x, y) of the image whose reconstructed data is [m]. *)
Definition image_pixel (progressive : bool) (depth w h : Z) (m : list Z) (x y : Z) : list bool :=
  if progressive then
    let p := adam7 x y in
    pixel depth m (pass_offset depth w h p + pass_height p y * row_bytes_spec depth (pass_width p w) + 1) (pass_width p x)
  else pixel depth m (y * row_bytes_spec depth w + 1) x.

(* [out] is the reconstruction of every pass of [raw]. *)
Definition image_reconstructed (progressive : bool) (depth w h : Z) (raw out : list Z) : Prop :=
  let bpp := Z.max (depth / 8) 1 in
  if progressive then
    forall p, 0 <= p < 7 -> pass_width p w <> 0 ->
      reconstructed bpp (row_bytes_spec depth (pass_width p w)) (pass_offset depth w h p) (pass_height p h) raw out
  else reconstructed bpp (row_bytes_spec depth w) 0 h raw out.

(* The samples of a pixel: bits per sample and samples per pixel (11.2.2, table 12; an indexed image has one sample). *)
Definition sample_ok (sd sc : Z) : Prop :=
  (sc = 1 /\ (sd = 1 \/ sd = 2 \/ sd = 4 \/ sd = 8 \/ sd = 16)) \/ (2 <= sc <= 4 /\ (sd = 8 \/ sd = 16)).

(* Decoding [data], the inflated bytes of an image, gives rows of packed pixels: every row of the image once, and row y holds the
   pixels of row y of the image that [data] stands for. *)
Definition pixels_ok (progressive : bool) (D w h : Z) (data : list Z) (log : list (Z * list Z)) : Prop :=
  Permutation (map fst log) (zrange h) /\
  exists m, image_reconstructed progressive D w h data m /\
    forall y row, In (y, row) log -> forall x, 0 <= x < w -> pixel D row 0 x = image_pixel progressive D w h m x y.
