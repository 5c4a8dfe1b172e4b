(* The hash map of the library: ArenaHashMap (blend2d/support/arenahashmap.cpp, arenahashmap_p.h), which stores the
   font families of BLFontManager and the compiled pipelines.
   Simplifications: a chain of nodes linked by _hash_next is a list; a node is its address and its hash code; whether
   the embedded or an allocated array holds the buckets is not represented (released memory is not modelled);
   allocation may fail at any call ([alloc]). [b64] selects a 64-bit or a 32-bit target. *)
From Verif Require Import Base Algorithm_Model.

(* BLEND2D_POPULATE_PRIMES (arenahashmap.cpp lines 15-143): prime, reciprocal, shift *)
Definition primes : list (Z * Z * Z) :=
  [(2, 0x80000000, 32); (11, 0xBA2E8BA3, 35); (29, 0x8D3DCB09, 36); (41, 0xC7CE0C7D, 37);
   (59, 0x8AD8F2FC, 37); (83, 0xC565C87C, 38); (131, 0xFA232CF3, 39); (191, 0xAB8F69E3, 39);
   (269, 0xF3A0D52D, 40); (383, 0xAB1CBDD4, 40); (541, 0xF246FACC, 41); (757, 0xAD2589A4, 41);
   (1061, 0xF7129426, 42); (1499, 0xAEE116B7, 42); (2099, 0xF9C7A737, 43); (2939, 0xB263D25C, 43);
   (4111, 0xFF10E02E, 44); (5779, 0xB5722823, 44); (8087, 0x81A97405, 44); (11321, 0xB93E91DB, 45);
   (15859, 0x843CC26B, 45); (22189, 0xBD06B9EA, 46); (31051, 0x8713F186, 46); (43451, 0xC10F1CB9, 47);
   (60869, 0x89D06A86, 47); (85159, 0xC502AF3B, 48); (102107, 0xA44F65AE, 48); (122449, 0x89038F77, 48);
   (146819, 0xE48AF7E9, 49); (176041, 0xBE9B145B, 49); (211073, 0x9EF882BA, 49); (253081, 0x849571AB, 49);
   (303469, 0xDD239C97, 50); (363887, 0xB86C196D, 50); (436307, 0x99CFA4E9, 50); (523177, 0x804595C0, 50);
   (627293, 0xD5F69FCF, 51); (752177, 0xB27063BA, 51); (901891, 0x94D170AC, 51); (1081369, 0xF83C9767, 52);
   (1296563, 0xCF09435D, 52); (1554583, 0xACAC7198, 52); (1863971, 0x90033EE3, 52); (2234923, 0xF0380EBD, 53);
   (2679673, 0xC859731E, 53); (3212927, 0xA718DE27, 53); (3852301, 0x8B5D1B4B, 53); (4618921, 0xE8774804, 54);
   (5076199, 0xD386574E, 54); (5578757, 0xC0783FE1, 54); (6131057, 0xAF21B08F, 54); (6738031, 0x9F5AFD6E, 54);
   (7405163, 0x90FFC3B9, 54); (8138279, 0x83EFECFC, 54); (8943971, 0xF01AA2EF, 55); (9829447, 0xDA7979B2, 55);
   (10802581, 0xC6CB2771, 55); (11872037, 0xB4E2C7DD, 55); (13047407, 0xA4974124, 55); (14339107, 0x95C39CF1, 55);
   (15758737, 0x8845C763, 55); (17318867, 0xF7FE593F, 56); (19033439, 0xE1A75D93, 56); (20917763, 0xCD5389B3, 56);
   (22988621, 0xBAD4841A, 56); (25264543, 0xA9FFF2FF, 56); (27765763, 0x9AAF8BF3, 56); (30514607, 0x8CC04E18, 56);
   (33535561, 0x80127068, 56); (36855587, 0xE911F0BB, 57); (38661533, 0xDE2ED7BE, 57); (40555961, 0xD3CDF2FD, 57);
   (42543269, 0xC9E9196C, 57); (44627909, 0xC07A9EB6, 57); (46814687, 0xB77CEF65, 57); (49108607, 0xAEEAC65C, 57);
   (51514987, 0xA6BF0EF0, 57); (54039263, 0x9EF510B5, 57); (56687207, 0x97883B42, 57); (59464897, 0x907430ED, 57);
   (62378699, 0x89B4CA91, 57); (65435273, 0x83461568, 57); (68641607, 0xFA489AA8, 58); (72005051, 0xEE97B1C5, 58);
   (75533323, 0xE3729293, 58); (79234469, 0xD8D2BBA3, 58); (83116967, 0xCEB1F196, 58); (87189709, 0xC50A4426, 58);
   (91462061, 0xBBD6052B, 58); (95943737, 0xB30FD999, 58); (100644991, 0xAAB29CED, 58); (105576619, 0xA2B96421, 58);
   (110749901, 0x9B1F8434, 58); (116176651, 0x93E08B4A, 58); (121869317, 0x8CF837E0, 58); (127840913, 0x86627F01, 58);
   (134105159, 0x801B8178, 58); (140676353, 0xF43F294F, 59); (147569509, 0xE8D67089, 59); (154800449, 0xDDF6243C, 59);
   (162385709, 0xD397E6AE, 59); (170342629, 0xC9B5A65A, 59); (178689419, 0xC0499865, 59); (187445201, 0xB74E35FA, 59);
   (196630033, 0xAEBE3AC1, 59); (206264921, 0xA694A37F, 59); (216371963, 0x9ECCA59F, 59); (226974197, 0x9761B6AE, 59);
   (238095983, 0x904F79A1, 59); (249762697, 0x8991CD1F, 59); (262001071, 0x8324BCA5, 59); (274839137, 0xFA090732, 60);
   (288306269, 0xEE5B16ED, 60); (302433337, 0xE338CE49, 60); (317252587, 0xD89BABC0, 60); (374358107, 0xB790EF43, 60);
   (441742621, 0x9B908414, 60); (521256293, 0x83D596FA, 60); (615082441, 0xDF72B16E, 61); (725797313, 0xBD5CDB3B, 61);
   (856440829, 0xA07A14E9, 61); (1010600209, 0x87FF5289, 61); (1192508257, 0xE6810540, 62); (1407159797, 0xC357A480, 62);
   (1660448617, 0xA58B5B4F, 62); (1959329399, 0x8C4AB55F, 62); (2312008693, 0xEDC86320, 63); (2728170257, 0xC982C4D2, 63);
   (3219240923, 0xAAC599B6, 63)].
Definition prime_count : Z := 129.

(* ArenaHashMapNode (arenahashmap_p.h lines 26-45) *)
Record node : Type := Node { n_ptr : Z; n_hash : Z }.

(* ArenaHashMapBase (arenahashmap_p.h lines 48-84) *)
Record hmap : Type := Map {
  m_data : list (list node);
  m_size : Z;
  m_count : Z;
  m_grow : Z;
  m_rcp : Z;
  m_shift : Z;
  m_prime : Z
}.

Section Target.
  Context (b64 : bool).

  (* construction (lines 89-91) and reset() (lines 115-127): NullConstants (lines 56-61) *)
  Definition empty : hmap := Map [[]; []] 0 2 1 2147483648 (if b64 then 32 else 0) 0.
  Definition reset (m : hmap) : hmap := empty.

  (* bl_prime_shift_table (arenahashmap.cpp lines 163-167) *)
  Definition prime_shift (shift : Z) : Z := if b64 then shift else shift - 32.

  (* _calc_mod (arenahashmap_p.h lines 159-168) *)
  Definition calc_mod (m : hmap) (hash : Z) : Z :=
    let divided :=
      if b64 then w32 (Z.shiftr (w64 (hash * m_rcp m)) (m_shift m))
      else Z.shiftr (w32 (Z.shiftr (w64 (hash * m_rcp m)) 32)) (m_shift m) in
    w32 (hash - w32 (divided * m_count m)).

  (* the loops of _rehash (arenahashmap.cpp lines 194-204): nodes of a chain, then chains, move to the new buckets *)
  Fixpoint move_chain (m : hmap) (data : list (list node)) (chain : list node) : outcome (list (list node)) :=
    match chain with
    | [] => Ok data
    | n :: r =>
      let i := calc_mod m (n_hash n) in
      let* b := rd data i in
      let* data := wr data i (n :: b) in
      move_chain m data r
    end.
  Fixpoint move_all (m : hmap) (data old : list (list node)) : outcome (list (list node)) :=
    match old with
    | [] => Ok data
    | chain :: r => let* data := move_chain m data chain in move_all m data r
    end.
  (* 92.8% occupancy (line 189), in 32 bits *)
  Definition grow_of (prime : Z) : Z := w32 (prime * 13) / 14.
  (* _rehash (lines 172-209) *)
  Definition rehash (alloc : bool) (m : hmap) (index : Z) : outcome hmap :=
    let* (prime, rcp, shift) := rd primes index in
    if negb alloc then Ok m
    else
      let m' := Map (repeat [] (Z.to_nat prime)) (m_size m) prime (grow_of prime) rcp (prime_shift shift) (w8 index) in
      let* data := move_all m' (m_data m') (m_data m) in
      Ok (Map data (m_size m) prime (grow_of prime) rcp (prime_shift shift) (w8 index)).

  (* _insert (lines 211-223) *)
  Definition insert (alloc : bool) (m : hmap) (n : node) : outcome hmap :=
    let i := calc_mod m (n_hash n) in
    let* b := rd (m_data m) i in
    let* data := wr (m_data m) i (n :: b) in
    let m := Map data (w64 (m_size m + 1)) (m_count m) (m_grow m) (m_rcp m) (m_shift m) (m_prime m) in
    if m_grow m <? m_size m then
      let index := Z.min (m_prime m + 2) (prime_count - 1) in
      if m_prime m <? index then rehash alloc m index else Ok m
    else Ok m.

  (* the loop of _remove (lines 228-242) *)
  Fixpoint unlink (chain : list node) (ptr : Z) : option (list node) :=
    match chain with
    | [] => None
    | p :: r => if n_ptr p =? ptr then Some r else match unlink r ptr with Some r' => Some (p :: r') | None => None end
    end.
  Definition remove (m : hmap) (n : node) : outcome (bool * hmap) :=
    let i := calc_mod m (n_hash n) in
    let* b := rd (m_data m) i in
    match unlink b (n_ptr n) with
    | Some b' =>
      let* data := wr (m_data m) i b' in
      Ok (true, Map data (w64 (m_size m - 1)) (m_count m) (m_grow m) (m_rcp m) (m_shift m) (m_prime m))
    | None => Ok (false, m)
    end.

  (* nodes_by_hash_code and get (arenahashmap_p.h lines 232-243); [matches] is key.matches *)
  Definition nodes_by_hash_code (m : hmap) (hash : Z) : outcome (list node) := rd (m_data m) (calc_mod m hash).
  Definition get (m : hmap) (hash : Z) (matches : node -> bool) : outcome (option node) :=
    let* b := nodes_by_hash_code m hash in Ok (find matches b).

  (* for_each (lines 248-261): the nodes in the order they are visited *)
  Definition for_each (m : hmap) : list node := concat (m_data m).
End Target.
