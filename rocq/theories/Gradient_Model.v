(* Model of BLGradient: /repo/blend2d/core/gradient.cpp and gradient_p.h.  A double is its 64-bit pattern.  The impl is
   modelled by its value together with the answer of is_impl_mutable.  Cached tables are modelled by the stops they
   were computed from.  An allocation of less than 2^63
   bytes is granted or refused by the parameter [mem], a larger one is always refused (malloc).  Simplified: arrays passed by the
   caller do not overlap the object; apply_transform_op is not modelled; the transform is opaque; assertions are not
   modelled. *)
From Verif Require Import Base IntOps_Model Object_Model Algorithm_Model.

Notation stop := (Z * Z)%type. (* gradient.h: BLGradientStop, offset and rgba64 *)

(* IEEE 754 comparison of binary64 patterns: the magnitude is ordered like the pattern without the sign, a magnitude
   above infinity is NaN, both zeros are equal. *)
Definition dkey (b : Z) : option Z :=
  let mag := Z.land b 9223372036854775807 in
  if 9218868437227405312 <? mag then None else Some (if Z.testbit b 63 then - mag else mag).
Definition dlt (a b : Z) : bool := match dkey a, dkey b with Some x, Some y => x <? y | _, _ => false end.
Definition dle (a b : Z) : bool := match dkey a, dkey b with Some x, Some y => x <=? y | _, _ => false end.
Definition deq (a b : Z) : bool := match dkey a, dkey b with Some x, Some y => x =? y | _, _ => false end.
Definition D0 : Z := 0.
Definition D1 : Z := 4607182418800017408. (* 1.0 *)
Definition Dm1 : Z := 13830554455654793216. (* -1.0 *)

(* gradient.h 252-281: BLGradientImpl, gradient_p.h 130-144: BLGradientPrivateImpl *)
Record gimpl := GI { g_stops : list stop; g_cap : Z; g_mut : bool; g_values : list Z; g_transform : Z;
                     g_lut32 : option (list stop); g_lut64 : option (list stop); g_info : option (list stop);
                     g_ref : bool (* object.h 221: R flag of the object info, not set for the static default impl *) }.
(* BLGradientCore: type, extend mode and transform type are fields of the object info *)
Record grad := G { g_type : Z; g_extend : Z; g_ttype : Z; g_impl : gimpl }.

Definition no_values : list Z := [0; 0; 0; 0; 0; 0]. (* gradient.cpp 29 *)
Definition no_matrix : Z := 0. (* gradient.cpp 30 *)
(* gradient.cpp 27, 1026-1036: the default object, its impl is never mutable *)
Definition default_gradient : grad := G 0 0 0 (GI [] 0 false no_values no_matrix None None None false).

(* gradient.cpp 35-44: value_count_table *)
Definition value_count (type : Z) : nat := if type =? 0 then 4%nat else if type =? 1 then 6%nat else if type =? 2 then 4%nat else O.

(* gradient_p.h 154-160; sizeof(BLGradientPrivateImpl) = 144, sizeof(BLGradientStop) = 16 *)
Definition g_impl_size (n : Z) : Z := w64 (144 + w64 (n * 16)).
Definition g_capacity (size : Z) : Z := w64 (size - 144) / 16.
Definition kInitialImplSize : Z := 176. (* gradient.cpp 53 *)
Definition granted (mem : bool) (impl_size : Z) : bool := mem && (impl_size <? 2 ^ 63).

(* gradient.cpp 58-77: analyze_stop_array; 0 conforming, 1 not conforming, 2 invalid *)
Fixpoint analyze_loop (stops : list stop) (result was_same : bool) (prev : Z) : Z :=
  match stops with
  | [] => if result then 1 else 0
  | (offset, _) :: r =>
    if negb (dle D0 offset && dle offset D1) then 2
    else let is_same := deq offset prev in
         analyze_loop r (result || dlt offset prev || (is_same && was_same)) is_same offset
  end.
Definition analyze_stop_array (stops : list stop) : Z := analyze_loop stops false false Dm1.

(* gradient.cpp 108-118: init_values *)
Definition init_values (src : list Z) (n : nat) : list Z := firstn 6 (firstn n src ++ no_values).

(* gradient.cpp 95-101, 146-151: GradientStopAlt and its order.  The offsets were analyzed before, so none is NaN; the
   field holds the key of the offset, the pattern is the one of the indexed source stop. *)
Notation alt := (Z * Z)%type.
Definition dval (b : Z) : Z := match dkey b with Some k => k | None => 0 end.
Definition alt_cmp (a b : alt) : Z :=
  let result := if fst a <? fst b then -1 else if fst b <? fst a then 1 else 0 in
  if result =? 0 then snd a - snd b else result.
Fixpoint index_stops (src : list stop) (i : Z) : list alt :=
  match src with [] => [] | (o, _) :: r => (dval o, i) :: index_stops r (i + 1) end.

(* gradient.cpp 155-170: removal of duplicates; the written prefix never overtakes the read position *)
Fixpoint dedupe (alts : list alt) (src : list stop) (out : list stop) (prev1 prev2 : Z) : outcome (list stop) :=
  match alts with
  | [] => Ok out
  | (offset, index) :: r =>
    let* s := rd src index in
    let j := Z.of_nat (length out) - Z.b2z ((prev1 =? prev2) && (prev2 =? offset)) in
    if j <? 0 then UB
    else dedupe r src (firstn (Z.to_nat j) out ++ [s]) prev2 offset
  end.

(* gradient.cpp 130-174: copy_unsafe_stops into an array of [cap] stops *)
Definition copy_unsafe_stops (cap : Z) (src : list stop) (analysis : Z) : outcome (list stop) :=
  let n := length src in
  if cap <? Z.of_nat n then UB
  else if (analysis =? 0) || (Z.of_nat n =? 0) then Ok src
  else
    let* alts := quick_sort alt_cmp (index_stops src 0) in
    dedupe (firstn (n - 1) alts) src [] (dval Dm1) (dval Dm1).

(* copy_stops (124-128) of a whole array into a new impl of [cap] stops *)
Definition copied (cap : Z) (l : list stop) : outcome (list stop) := if cap <? Z.of_nat (length l) then UB else Ok l.

(* gradient.cpp 183-200: invalidate_lut_cache after the stops were changed to [l] *)
Definition invalidated (im : gimpl) (l : list stop) : gimpl :=
  GI l (g_cap im) (g_mut im) (g_values im) (g_transform im) None None None (g_ref im).
(* gradient.cpp 342-356: alloc_impl *)
Definition alloc_gimpl (impl_size : Z) (values : list Z) (n : nat) (transform : Z) : gimpl :=
  GI [] (g_capacity impl_size) true (init_values values n) transform None None None true.
Definition with_stops (im : gimpl) (l : list stop) : gimpl :=
  GI l (g_cap im) (g_mut im) (g_values im) (g_transform im) (g_lut32 im) (g_lut64 im) (g_info im) (g_ref im).
Definition with_values (im : gimpl) (v : list Z) : gimpl :=
  GI (g_stops im) (g_cap im) (g_mut im) v (g_transform im) (g_lut32 im) (g_lut64 im) (g_info im) (g_ref im).
Definition with_caches (im : gimpl) (a b c : option (list stop)) : gimpl :=
  GI (g_stops im) (g_cap im) (g_mut im) (g_values im) (g_transform im) a b c (g_ref im).
Definition with_impl (g : grad) (im : gimpl) : grad := G (g_type g) (g_extend g) (g_ttype g) im.
Definition size_of (im : gimpl) : Z := Z.of_nat (length (g_stops im)).

(* Every call returns its code, the object, and the impl the object had before as other objects sharing it see it. *)
Definition result : Type := outcome (Z * grad * gimpl).
Definition same (code : Z) (g : grad) : result := Ok (code, g, g_impl g).
(* the object gets a new impl *)
Definition fresh (g : grad) (im : gimpl) : result := Ok (BL_SUCCESS, with_impl g im, g_impl g).
(* the impl is changed in place *)
Definition inplace (g : grad) (im : gimpl) : result := Ok (BL_SUCCESS, with_impl g im, im).

(* gradient.cpp 366-384: deep_copy of the object itself *)
Definition deep_copy (g : grad) (copy_cache mem : bool) : result :=
  let im := g_impl g in
  if negb (granted mem (g_impl_size (g_cap im))) then same BL_ERROR_OUT_OF_MEMORY g
  else
    let new := alloc_gimpl (g_impl_size (g_cap im)) (g_values im) (value_count (g_type g)) (g_transform im) in
    let* l := copied (g_cap new) (g_stops im) in
    let new := with_stops new l in
    fresh g (if copy_cache then with_caches new (g_lut32 im) (g_lut64 im) (g_info im) else new).
(* gradient.cpp 386-395: make_mutable *)
Definition make_mutable (g : grad) (copy_cache mem : bool) : result :=
  if negb (g_mut (g_impl g)) then deep_copy g copy_cache mem
  else if negb copy_cache then inplace g (invalidated (g_impl g) (g_stops (g_impl g)))
  else same BL_SUCCESS g.

(* gradient.cpp 480-528: create; the caller's transform comes with its type *)
Definition create (g : grad) (type : Z) (vals : option (list Z)) (extend : Z) (stops : list stop) (transform : option (Z * Z)) (mem : bool) : result :=
  if (2 <? type) || (2 <? extend) then same BL_ERROR_INVALID_VALUE g
  else
    let vals := match vals with Some v => v | None => no_values end in
    let '(tr, ttype) := match transform with Some t => t | None => (no_matrix, 0) end in
    let n := Z.of_nat (length stops) in
    let analysis := if n =? 0 then 0 else analyze_stop_array stops in
    if 2 <=? analysis then same BL_ERROR_INVALID_VALUE g
    else
      let im := g_impl g in
      if negb (g_mut im) || (g_cap im <? n) then
        if negb (granted mem (Z.max (g_impl_size n) kInitialImplSize)) then same BL_ERROR_OUT_OF_MEMORY g
        else
          let new := alloc_gimpl (Z.max (g_impl_size n) kInitialImplSize) vals (value_count type) tr in
          let* l := copy_unsafe_stops (g_cap new) stops analysis in
          Ok (BL_SUCCESS, G type extend ttype (with_stops new l), im)
      else
        let* l := copy_unsafe_stops (g_cap im) stops analysis in
        let im' := GI l (g_cap im) (g_mut im) (init_values vals (value_count type)) tr None None None (g_ref im) in
        Ok (BL_SUCCESS, G type extend ttype im', im').

(* gradient.cpp 533-554: shrink; BL_OBJECT_IMPL_ALIGNMENT = 16 *)
Definition shrink (g : grad) (mem : bool) : result :=
  let im := g_impl g in
  let current_size := g_impl_size (g_cap im) in
  let fitting_size := g_impl_size (size_of im) in
  if w64 (current_size - fitting_size) <? 16 then same BL_SUCCESS g
  else if negb (granted mem fitting_size) then same BL_ERROR_OUT_OF_MEMORY g
  else
    let new := alloc_gimpl fitting_size (g_values im) 6 (g_transform im) in
    let* l := copied (g_cap new) (g_stops im) in
    fresh g (with_caches (with_stops new l) (g_lut32 im) (g_lut64 im) None).

(* gradient.cpp 556-578: reserve *)
Definition reserve (g : grad) (n : Z) (mem : bool) : result :=
  let im := g_impl g in
  if g_mut im && (n <=? g_cap im) then same BL_SUCCESS g
  else if negb (granted mem (Z.max (g_impl_size n) kInitialImplSize)) then same BL_ERROR_OUT_OF_MEMORY g
  else
    let new := alloc_gimpl (Z.max (g_impl_size n) kInitialImplSize) (g_values im) 6 (g_transform im) in
    let* l := copied (g_cap new) (g_stops im) in
    fresh g (with_caches (with_stops new l) (g_lut32 im) (g_lut64 im) None).

(* gradient.cpp 590-617: set_type, set_extend_mode *)
Definition set_type (g : grad) (type : Z) : result :=
  if 2 <? type then same BL_ERROR_INVALID_VALUE g
  else Ok (BL_SUCCESS, G type (g_extend g) (g_ttype g) (g_impl g), g_impl g).
Definition set_extend_mode (g : grad) (extend : Z) : result :=
  if 2 <? extend then same BL_ERROR_INVALID_VALUE g
  else Ok (BL_SUCCESS, G (g_type g) extend (g_ttype g) (g_impl g), g_impl g).

(* gradient.cpp 619-628: get_value; None is NaN *)
Definition get_value (g : grad) (index : Z) : outcome (option Z) :=
  if 5 <? index then Ok None else let* v := rd (g_values (g_impl g)) index in Ok (Some v).
(* gradient.cpp 630-643: set_value *)
Definition set_value (g : grad) (index value : Z) (mem : bool) : result :=
  if 5 <? index then same BL_ERROR_INVALID_VALUE g
  else
    let* (code, g', old) := make_mutable g true mem in
    if negb (code =? BL_SUCCESS) then Ok (code, g', old)
    else
      let* v := wr (g_values (g_impl g')) index value in
      let im := with_values (g_impl g') v in
      Ok (BL_SUCCESS, with_impl g' im, if g_mut (g_impl g) then im else old).

(* gradient.cpp 690-711: reset_stops *)
Definition reset_stops (g : grad) (mem : bool) : result :=
  let im := g_impl g in
  if size_of im =? 0 then same BL_SUCCESS g
  else if negb (g_mut im) then
    if negb (granted mem kInitialImplSize) then same BL_ERROR_OUT_OF_MEMORY g
    else fresh g (alloc_gimpl kInitialImplSize (g_values im) 6 (g_transform im))
  else inplace g (invalidated im []).

(* gradient.cpp 713-742: assign_stops *)
Definition assign_stops (g : grad) (stops : list stop) (mem : bool) : result :=
  let im := g_impl g in
  let n := Z.of_nat (length stops) in
  if n =? 0 then reset_stops g mem
  else
    let analysis := analyze_stop_array stops in
    if 2 <=? analysis then same BL_ERROR_INVALID_VALUE g
    else if negb (g_mut im) || (g_cap im <? n) then
      if negb (granted mem (Z.max (g_impl_size n) kInitialImplSize)) then same BL_ERROR_OUT_OF_MEMORY g
      else
        let new := alloc_gimpl (Z.max (g_impl_size n) kInitialImplSize) (g_values im) 6 (g_transform im) in
        let* l := copy_unsafe_stops (g_cap new) stops analysis in
        fresh g (with_stops new l)
    else
      let* l := copy_unsafe_stops (g_cap im) stops analysis in
      inplace g (invalidated im l).

(* gradient.cpp 845-884: remove_stops_by_index.  The new impl made for a shared object keeps the size 0 of
   alloc_impl. *)
Definition remove_stops_by_index (g : grad) (r_start r_end : Z) (mem : bool) : result :=
  let im := g_impl g in
  let size := size_of im in
  let index := r_start in
  let end_ := Z.min r_end size in
  if (size <? index) || (end_ <? index) then same BL_ERROR_INVALID_VALUE g
  else if index =? end_ then same BL_SUCCESS g
  else
    let l := firstn (Z.to_nat index) (g_stops im) ++ skipn (Z.to_nat end_) (g_stops im) in
    let after_count := size - (end_ - index) in
    if negb (g_mut im) then
      if negb (granted mem (g_impl_size after_count)) then same BL_ERROR_OUT_OF_MEMORY g
      else
        let new := alloc_gimpl (g_impl_size after_count) (g_values im) 6 (g_transform im) in
        let* _ := copied (g_cap new) l in
        fresh g new
    else inplace g (invalidated im l).
(* gradient.cpp 807-812: remove_stop *)
Definition remove_stop (g : grad) (index : Z) (mem : bool) : result := remove_stops_by_index g index (w64 (index + 1)) mem.

(* gradient.cpp 761-805: insertion at index i *)
Definition insert_stop (g : grad) (i : Z) (s : stop) (mem : bool) : result :=
  let im := g_impl g in
  let n := size_of im in
  let l := firstn (Z.to_nat i) (g_stops im) ++ s :: skipn (Z.to_nat i) (g_stops im) in
  if negb (g_mut im) || (g_cap im <=? n) then
    let* impl_size := expand_impl_size (g_impl_size (w64 (n + 1))) in
    if negb (granted mem impl_size) then same BL_ERROR_OUT_OF_MEMORY g
    else
      let new := alloc_gimpl impl_size (g_values im) 6 (g_transform im) in
      let* l := copied (g_cap new) l in
      fresh g (with_stops new l)
  else
    let* l := copied (g_cap im) l in
    inplace g (invalidated im l).

Definition stop_le (s : stop) (offset : Z) : bool := dle (fst s) offset. (* gradient.cpp 86-87 *)
Definition stop_eq (s : stop) (offset : Z) : bool := deq (fst s) offset.

(* gradient.cpp 751-805 and 918-938: add_stop_rgba64 and replace_stop_rgba64 call each other: add_stop calls
   replace_stop with the offset of the replaced stop, which then returns without calling add_stop. *)
Fixpoint add_stop (fuel : nat) (g : grad) (offset rgba : Z) (mem : bool) : result :=
  match fuel with
  | O => NoFuel
  | S f =>
    if negb (dle D0 offset && dle offset D1) then same BL_ERROR_INVALID_VALUE g
    else
      let stops := g_stops (g_impl g) in
      let* first := match stops with [] => Ok false | (o, _) :: _ => Ok (dle o offset) end in
      if first then
        let* i := binary_search_closest_last stop_le stops offset in
        let* dup := if 0 <? i then let* s := rd stops (i - 1) in Ok (deq (fst s) offset) else Ok false in
        if dup then
          (* replace_stop_rgba64(self, i, offset, rgba64) *)
          if size_of (g_impl g) <=? i then same BL_ERROR_INVALID_VALUE g
          else
            let* (code, g1, old) := make_mutable g false mem in
            if negb (code =? BL_SUCCESS) then Ok (code, g1, old)
            else
              let im := g_impl g1 in
              let* s := rd (g_stops im) i in
              if deq (fst s) offset then
                let* l := wr (g_stops im) i (fst s, rgba) in
                let im := with_stops im l in
                Ok (BL_SUCCESS, with_impl g1 im, if g_mut (g_impl g) then im else old)
              else
                let* (code, g2, _) := remove_stop g1 i mem in
                if negb (code =? BL_SUCCESS) then Ok (code, g2, old)
                else let* (code, g3, o3) := add_stop f g2 offset rgba mem in
                     Ok (code, g3, if g_mut (g_impl g) then o3 else old)
        else insert_stop g (i + 1) (offset, rgba) mem
      else insert_stop g 0 (offset, rgba) mem
  end.
Definition add_stop_rgba64 (g : grad) (offset rgba : Z) (mem : bool) : result := add_stop 2 g offset rgba mem.

(* gradient.cpp 918-938: replace_stop_rgba64 *)
Definition replace_stop_rgba64 (g : grad) (index offset rgba : Z) (mem : bool) : result :=
  if size_of (g_impl g) <=? index then same BL_ERROR_INVALID_VALUE g
  else
    let* (code, g1, old) := make_mutable g false mem in
    if negb (code =? BL_SUCCESS) then Ok (code, g1, old)
    else
      let im := g_impl g1 in
      let* s := rd (g_stops im) index in
      if deq (fst s) offset then
        let* l := wr (g_stops im) index (fst s, rgba) in
        let im := with_stops im l in
        Ok (BL_SUCCESS, with_impl g1 im, if g_mut (g_impl g) then im else old)
      else
        let* (code, g2, o2) := remove_stop g1 index mem in
        if negb (code =? BL_SUCCESS) then Ok (code, g2, if g_mut (g_impl g) then o2 else old)
        else let* (code, g3, o3) := add_stop_rgba64 g2 offset rgba mem in
             Ok (code, g3, if g_mut (g_impl g) then o3 else old).

(* gradient.cpp 829-834: the inner loop of remove_stop_by_offset *)
Fixpoint end_of_run (l : list stop) (b offset : Z) : Z :=
  match l with [] => b | (o, _) :: r => if deq o offset then end_of_run r (b + 1) offset else b end.
(* gradient.cpp 823-840: the outer loop; the range to remove *)
Fixpoint find_run (l : list stop) (a offset : Z) (all : bool) : option (Z * Z) :=
  match l with
  | [] => None
  | (o, _) :: r => if dlt offset o then None
                   else if deq o offset then Some (a, if all then end_of_run r (a + 1) offset else a + 1)
                   else find_run r (a + 1) offset all
  end.
(* gradient.cpp 814-843: remove_stop_by_offset *)
Definition remove_stop_by_offset (g : grad) (offset : Z) (all mem : bool) : result :=
  if negb (dle D0 offset && dle offset D1) then same BL_ERROR_INVALID_VALUE g
  else match find_run (g_stops (g_impl g)) 0 offset all with
       | Some (a, b) => remove_stops_by_index g a b mem
       | None => same BL_SUCCESS g
       end.

(* gradient.cpp 900-901: the two loops of remove_stops_by_offset *)
Fixpoint skip_while (p : Z -> bool) (l : list stop) : nat :=
  match l with [] => O | (o, _) :: r => if p o then S (skip_while p r) else O end.
(* gradient.cpp 886-909: remove_stops_by_offset *)
Definition remove_stops_by_offset (g : grad) (offset_min offset_max : Z) (mem : bool) : result :=
  if dlt offset_max offset_min then same BL_ERROR_INVALID_VALUE g
  else
    let l := g_stops (g_impl g) in
    if size_of (g_impl g) =? 0 then same BL_SUCCESS g
    else
      let a := skip_while (fun o => dlt o offset_min) l in
      let b := (a + skip_while (fun o => dle o offset_max) (skipn a l))%nat in
      if (b <=? a)%nat then same BL_SUCCESS g
      else remove_stops_by_index g (Z.of_nat a) (Z.of_nat b) mem.

(* gradient.cpp 940-959: index_of_stop *)
Definition index_of_stop (g : grad) (offset : Z) : outcome Z :=
  let l := g_stops (g_impl g) in
  if size_of (g_impl g) =? 0 then Ok SIZE_MAX
  else
    let* i := binary_search stop_le stop_eq l offset in
    if i =? SIZE_MAX then Ok SIZE_MAX
    else
      let* dup := if 0 <? i then let* s := rd l (i - 1) in Ok (deq (fst s) offset) else Ok false in
      Ok (if dup then i - 1 else i).

(* gradient.cpp 202-337: ensure_info, ensure_lut32, ensure_lut64: the stops the cached data are computed from *)
Definition cached (c : option (list stop)) (l : list stop) : list stop := match c with Some x => x | None => l end.
Definition ensure_info (g : grad) : result :=
  let im := g_impl g in
  let im := if size_of im =? 0 then im else with_caches im (g_lut32 im) (g_lut64 im) (Some (cached (g_info im) (g_stops im))) in
  Ok (BL_SUCCESS, with_impl g im, im).
Definition ensure_lut32 (g : grad) : result :=
  let im := g_impl g in
  let im := with_caches im (Some (cached (g_lut32 im) (g_stops im))) (g_lut64 im) (g_info im) in
  Ok (BL_SUCCESS, with_impl g im, im).
Definition ensure_lut64 (g : grad) : result :=
  let im := g_impl g in
  let im := with_caches im (g_lut32 im) (Some (cached (g_lut64 im) (g_stops im))) (g_info im) in
  Ok (BL_SUCCESS, with_impl g im, im).

(* gradient.cpp 1001-1019: equals; an object with the same impl has the same content, so the comparison of the
   addresses is left out *)
Fixpoint stops_eqb (a b : list stop) : bool :=
  match a, b with
  | [], [] => true
  | (o, c) :: a', (p, d) :: b' => (o =? p) && (c =? d) && stops_eqb a' b'
  | _, _ => false
  end.
Definition equals (a b : grad) : bool :=
  if negb ((g_type a =? g_type b) && (g_extend a =? g_extend b) && (g_ttype a =? g_ttype b) && Bool.eqb (g_ref (g_impl a)) (g_ref (g_impl b))) then false
  else (g_transform (g_impl a) =? g_transform (g_impl b)) && stops_eqb (g_stops (g_impl a)) (g_stops (g_impl b)).

(* gradient.cpp 202-287: the part of ensure_info that decides between solid and gradient and between opaque and
   translucent; components are compared by their high bytes *)
Definition comp_mask : Z := 18374966859414961920. (* 0xFF00FF00FF00FF00 *)
Definition info_flags (v flags : Z) : Z :=
  let flags := if v <? 18374686479671623680 then Z.lor flags 1 else flags in
  if 72057594037927935 <? v then Z.lor flags 2 else flags.
Fixpoint info_loop (l : list stop) (prev flags : Z) : Z :=
  match l with
  | [] => flags
  | (_, c) :: r =>
    let v := Z.land c comp_mask in
    if v =? prev then info_loop r prev flags
    else info_loop r v (info_flags v (Z.lor flags 4))
  end.
(* (solid, opaque) of a gradient that has stops *)
Definition gradient_info (l : list stop) : option (bool * bool) :=
  match l with
  | [] => None
  | (_, c) :: r =>
    let prev := Z.land c comp_mask in
    let flags := info_loop r prev (info_flags prev 0) in
    let flags := if Z.testbit flags 1 then flags else Z.ldiff flags 4 in
    Some (negb (Z.testbit flags 2), negb (Z.testbit flags 0))
  end.
