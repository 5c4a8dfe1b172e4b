(* Huffman tables of the JPEG decoder: blend2d/codec/jpeghuffman.cpp, and the bit reader functions that use them
   (blend2d/codec/jpeghuffman_p.h lines 79-225).
   Simplifications: arrays that are written from front to back (size, code, delta, max_code) are lists built in this
   order; the sentinel size[n] = 0 is the end of the list. 64-bit words (BLBitWord). Refilling is not modelled: the
   functions work on the bits and the number of valid bits of the reader. *)
From Verif Require Import Base Algorithm_Model.

Definition BL_ERROR_INVALID_DATA : Z := 0x1002E.
Definition BL_ERROR_DECOMPRESSION_FAILED : Z := 0x10033.

(* DecoderHuffmanTable (jpeghuffman_p.h lines 28-41); t_max starts at max_code[1], t_delta at delta[1] *)
Record table : Type := Table { t_max : list Z; t_delta : list Z; t_code : list Z; t_size : list Z; t_values : list Z; t_accel : list Z }.

(* the size list (jpeghuffman.cpp lines 31-39) *)
Fixpoint size_loop (i : Z) (data : list Z) : list Z :=
  match data with [] => [] | c :: r => repeat i (Z.to_nat c) ++ size_loop (i + 1) r end.

(* while (table->size[k] == i) table->code[k++] = uint16_t(code++) (lines 49-50) *)
Fixpoint code_loop (i k code : Z) (rest : list Z) : Z * Z * list Z * list Z :=
  match rest with
  | s :: r =>
    if s =? i then let '(k', code', codes, rest') := code_loop i (w32 (k + 1)) (w32 (code + 1)) r in (k', code', w16 code :: codes, rest')
    else (k, code, [], rest)
  | [] => (k, code, [], [])
  end.
(* for (i = 1, k = 0; i <= 16; i++, code <<= 1) (lines 44-58): max_code, delta, code *)
Fixpoint level_loop (n : nat) (i k code : Z) (rest : list Z) : outcome (list Z * list Z * list Z) :=
  match n with
  | O => Ok ([], [], [])
  | S n =>
    let delta := k - code in
    let '(k, code, codes, rest') := code_loop i k code rest in
    if match codes with [] => false | _ => Z.shiftl 1 i <=? w32 (code - 1) end then Err BL_ERROR_INVALID_DATA
    else
      let m := w32 (Z.shiftl code (16 - i)) in
      let* (ms, ds, cs) := level_loop n (i + 1) k (w32 (Z.shiftl code 1)) rest' in
      Ok (m :: ms, delta :: ds, codes ++ cs)
  end.

(* while (code < c_max) table->accel[code++] = uint8_t(i) (lines 76-77); [n] = c_max - code *)
Fixpoint fill (accel : list Z) (code : Z) (n : nat) (i : Z) : outcome (list Z) :=
  match n with O => Ok accel | S n => let* accel := wr accel code (w8 i) in fill accel (code + 1) n i end.
(* the loop over the symbols (lines 67-79) *)
Fixpoint accel_loop (accel : list Z) (i : Z) (sizes codes : list Z) : outcome (list Z) :=
  match sizes, codes with
  | s :: sizes, c :: codes =>
    let* accel :=
      if s <=? 8 then
        let s := 8 - s in fill accel (Z.shiftl c s) (Z.to_nat (Z.shiftl 1 s)) i
      else Ok accel in
    accel_loop accel (i + 1) sizes codes
  | _, _ => Ok accel
  end.

(* build_huffman_table (lines 14-83): the table and the number of bytes consumed *)
Definition build_huffman_table (data : list Z) : outcome (table * Z) :=
  let data_size := Z.of_nat (length data) in
  if data_size <? 16 then Err BL_ERROR_INVALID_DATA
  else
    let n := w32 (fold_left Z.add (firstn 16 data) 0) in
    if (256 <? n) || (data_size <? n + 16) then Err BL_ERROR_INVALID_DATA
    else
      let sizes := size_loop 1 (firstn 16 data) in
      let* (ms, ds, codes) := level_loop 16 1 0 0 sizes in
      let values := firstn (Z.to_nat n) (skipn 16 data) ++ repeat 0 (Z.to_nat (256 - n)) in
      let* accel := accel_loop (repeat 255 256) 0 sizes codes in
      Ok (Table ms ds codes sizes values accel, 16 + n).

(* peek and drop of the reader (jpeghuffman_p.h lines 122-131) *)
Definition peek (bits n : Z) : Z := Z.shiftr bits (64 - n).
Definition drop (bits count n : Z) : Z * Z := (w64 (Z.shiftl bits n), w64 (count - n)).

(* while (code >= table->max_code[code_size]) code_size++ (lines 207-208); [ms] starts at max_code[code_size], the
   sentinel max_code[17] ends it *)
Fixpoint search (ms : list Z) (code code_size : Z) : Z :=
  match ms with
  | m :: ms => if m <=? code then search ms code (code_size + 1) else code_size
  | [] => code_size
  end.
(* read_code (lines 190-224): the value and its size *)
Definition read_code (t : table) (bits count : Z) : outcome (Z * Z) :=
  let* code := rd (t_accel t) (peek bits 8) in
  if code <? 255 then
    let* code_size := rd (t_size t) code in
    if count <? code_size then Err BL_ERROR_DECOMPRESSION_FAILED
    else let* v := rd (t_values t) code in Ok (v, code_size)
  else
    let code := peek bits 16 in
    let code_size := search (skipn 8 (t_max t)) code 9 in
    if (code_size =? 17) || (count <? code_size) then Err BL_ERROR_DECOMPRESSION_FAILED
    else
      let* d := rd (t_delta t) (code_size - 1) in
      let code := w32 (peek bits code_size + w32 d) in
      let* v := rd (t_values t) code in
      Ok (v, code_size).

(* read_signed (lines 167-176) *)
Definition read_signed (bits n : Z) : Z :=
  let mask := - 2 ^ n + 1 in
  let sign := - peek bits 1 in
  peek bits n + Z.land mask (Z.lnot sign).

(* the additional table of build_huffman_ac (jpeghuffman.cpp lines 89-122): one entry *)
Definition ac_entry (t : table) (i : Z) : outcome Z :=
  let* accel := rd (t_accel t) i in
  if accel <? 255 then
    let* val := rd (t_values t) accel in
    let* size := rd (t_size t) accel in
    let run := Z.shiftr val 4 in
    let mag := Z.land val 15 in
    if negb (mag =? 0) && (size + mag <=? 8) then
      let k := Z.shiftr (Z.land (w32 (Z.shiftl i size)) 255) (8 - mag) in
      let m := Z.shiftl 1 (mag - 1) in
      let k := if k <? m then k + (- 2 ^ mag + 1) else k in
      if (-128 <=? k) && (k <=? 127) then Ok (k * 256 + (run * 16 + size + mag)) else Ok 0
    else Ok 0
  else Ok 0.

(* One coefficient of a baseline block (jpegcodec.cpp lines 760-797): Coef run value bits, or Zeros for a symbol without
   magnitude (end of block, sixteen zeros). *)
Inductive coef : Type := Coef (run value used : Z) | Zeros (run used : Z).
(* the branch "Fast AC" with the entry [ac] *)
Definition fast_coef (ac : Z) : coef := Coef (Z.land (Z.shiftr ac 4) 15) (Z.shiftr ac 8) (Z.land ac 15).
(* the other branch *)
Definition slow_coef (t : table) (bits count : Z) : outcome coef :=
  let* (ac, used) := read_code t bits count in
  let s := Z.land ac 15 in
  let run := Z.shiftr ac 4 in
  if s =? 0 then Ok (Zeros run used)
  else
    let (bits, count) := drop bits count used in
    if count <? s then Err BL_ERROR_DECOMPRESSION_FAILED
    else Ok (Coef run (read_signed bits s) (used + s)).
Definition next_coef (t : table) (bits count : Z) : outcome coef :=
  let* ac := ac_entry t (peek bits 8) in
  if negb (ac =? 0) then Ok (fast_coef ac) else slow_coef t bits count.
