(* Model of BLFontFeatureSettings: /repo/blend2d/core/fontfeaturesettings.cpp and fontfeaturesettings_p.h.
   An object is either four 32-bit words (SSO) or an array of items with a capacity and the answer of
   is_impl_mutable (reference count 1).  Simplified: an impl is modelled by its value, not by its address; the bit
   iterator (support/bitops_p.h) is an enumeration of the set bits in increasing order; an allocation is granted or
   refused by the parameter [mem]; assertions are not modelled. *)
From Verif Require Import Base IntOps_Model Object_Model Algorithm_Model TagData_Model.

Definition item : Type := Z * Z. (* fontfeaturesettings.h 88-115: tag, value *)

Record sso := Sso { d0 : Z; d1 : Z; d2 : Z; info : Z }.
Inductive settings :=
| SSO (s : sso)
| DYN (items : list item) (cap : Z) (mut : bool).

(* fontfeaturesettings.h 77 *)
Definition BL_FONT_FEATURE_INVALID_VALUE : Z := 4294967295.
(* fontfeaturesettings.h 175 *)
Definition kSSOCapacity : Z := 36.
(* fontfeaturesettings_p.h 85-94 *)
Definition kSSOFatFeatureCount : Z := 4.
Definition kSSOFatFeatureTagBitCount : Z := 8.
Definition kSSOFatFeatureTagBitMask : Z := 255.
Definition kSSOFatFeatureValueBitCount : Z := 4.
Definition kSSOFatFeatureValueBitMask : Z := 15.
Definition kSSOInvalidFatFeatureId : Z := 255.
Definition kSSOInvalidFatFeaturePattern : Z := 4294967295.
(* fontfeaturesettings.cpp 73, 105: kValueDataMask *)
Definition kValueDataMask : Z := 65535.

(* object.h 405-407 pack_type_with_marker(BL_OBJECT_TYPE_FONT_FEATURE_SETTINGS = 17) and 410-415 pack_abcp(size) *)
Definition type_with_marker : Z := Z.lor (Z.shiftl 17 22) (Z.shiftl 1 31).
Definition pack_a (a : Z) : Z := w32 (Z.shiftl a 16).

(* fontfeaturesettings.cpp 24-28: init_sso (init_static clears the first two words) *)
Definition init_sso : sso :=
  {| d0 := 0; d1 := 0; d2 := kSSOInvalidFatFeaturePattern; info := Z.lor type_with_marker (pack_a 0) |}.

(* fontfeaturesettings.cpp 30-32: get_sso_size = a_field (object.h 470) *)
Definition get_sso_size (s : sso) : Z := Z.land (Z.shiftr (info s) 16) 63.

(* fontfeaturesettings_p.h 96-106 *)
Definition has_sso_bit_tag (s : sso) (index : Z) : bool := negb (Z.land (Z.shiftr (d0 s) index) 1 =? 0).
Definition get_sso_bit_value (s : sso) (index : Z) : Z := Z.land (Z.shiftr (d1 s) index) 1.
Definition get_sso_fat_value (s : sso) (index : Z) : Z :=
  Z.land (Z.shiftr (info s) (index * kSSOFatFeatureValueBitCount)) kSSOFatFeatureValueBitMask.

(* fontfeaturesettings_p.h 108-121: find_sso_fat_tag; n slots remain *)
Fixpoint find_fat_loop (n : nat) (tags index feature_id : Z) : bool * Z :=
  match n with
  | O => (false, kSSOFatFeatureCount)
  | S n' => let id := Z.land tags kSSOFatFeatureTagBitMask in
            if (id =? kSSOInvalidFatFeatureId) || (feature_id <=? id) then (id =? feature_id, index)
            else find_fat_loop n' (Z.shiftr tags kSSOFatFeatureTagBitCount) (index + 1) feature_id
  end.
Definition find_sso_fat_tag (s : sso) (feature_id : Z) : bool * Z := find_fat_loop 4 (d2 s) 0 feature_id.

(* fontfeaturesettings.cpp 38-47: add_sso_bit_tag *)
Definition add_sso_bit_tag (s : sso) (index value : Z) : sso :=
  {| d0 := Z.lor (d0 s) (w32 (Z.shiftl 1 index)); d1 := Z.lor (d1 s) (w32 (Z.shiftl value index)); d2 := d2 s;
     info := w32 (info s + Z.shiftl 1 16) |}.

(* fontfeaturesettings.cpp 49-55: update_sso_bit_value (x & ~y is Z.ldiff x y) *)
Definition update_sso_bit_value (s : sso) (index value : Z) : sso :=
  {| d0 := d0 s; d1 := Z.lor (Z.ldiff (d1 s) (w32 (Z.shiftl 1 index))) (w32 (Z.shiftl value index)); d2 := d2 s;
     info := info s |}.

(* fontfeaturesettings.cpp 57-66: remove_sso_bit_tag *)
Definition remove_sso_bit_tag (s : sso) (index : Z) : sso :=
  {| d0 := Z.ldiff (d0 s) (w32 (Z.shiftl 1 index)); d1 := Z.ldiff (d1 s) (w32 (Z.shiftl 1 index)); d2 := d2 s;
     info := w32 (info s - Z.shiftl 1 16) |}.

(* fontfeaturesettings.cpp 68-89: add_sso_fat_tag *)
Definition add_sso_fat_tag (s : sso) (index feature_id value : Z) : sso :=
  let tag_offset := index * kSSOFatFeatureTagBitCount in
  let val_offset := index * kSSOFatFeatureValueBitCount in
  let tags := d2 s in
  let vals := Z.land (info s) kValueDataMask in
  let tags_lsb_mask := w32 (Z.shiftl 1 tag_offset) - 1 in
  let vals_lsb_mask := w32 (Z.shiftl 1 val_offset) - 1 in
  let tags := Z.lor (Z.lor (Z.land tags tags_lsb_mask)
                           (w32 (Z.shiftl (Z.ldiff tags tags_lsb_mask) kSSOFatFeatureTagBitCount)))
                    (w32 (Z.shiftl feature_id tag_offset)) in
  let vals := Z.lor (Z.lor (Z.land vals vals_lsb_mask)
                           (w32 (Z.shiftl (Z.ldiff vals vals_lsb_mask) kSSOFatFeatureValueBitCount)))
                    (w32 (Z.shiftl value val_offset)) in
  {| d0 := d0 s; d1 := d1 s; d2 := tags;
     info := Z.lor (w32 (Z.ldiff (info s) kValueDataMask + Z.shiftl 1 16)) (Z.land vals kValueDataMask) |}.

(* fontfeaturesettings.cpp 91-99: update_sso_fat_value *)
Definition update_sso_fat_value (s : sso) (index value : Z) : sso :=
  let value_offset := index * kSSOFatFeatureValueBitCount in
  let mask := w32 (Z.shiftl kSSOFatFeatureValueBitMask value_offset) in
  {| d0 := d0 s; d1 := d1 s; d2 := d2 s;
     info := Z.lor (Z.ldiff (info s) mask) (w32 (Z.shiftl value value_offset)) |}.

(* fontfeaturesettings.cpp 101-121: remove_sso_fat_tag *)
Definition remove_sso_fat_tag (s : sso) (index : Z) : sso :=
  let tag_offset := index * kSSOFatFeatureTagBitCount in
  let val_offset := index * kSSOFatFeatureValueBitCount in
  let tags := d2 s in
  let vals := Z.land (info s) kValueDataMask in
  let tags_lsb_mask := w32 (Z.shiftl 1 tag_offset) - 1 in
  let vals_lsb_mask := w32 (Z.shiftl 1 val_offset) - 1 in
  let tags := Z.lor (Z.lor (Z.land tags tags_lsb_mask)
                           (Z.ldiff (Z.shiftr tags kSSOFatFeatureTagBitCount) tags_lsb_mask))
                    (w32 (Z.shiftl kSSOInvalidFatFeatureId ((kSSOFatFeatureCount - 1) * kSSOFatFeatureTagBitCount))) in
  let vals := Z.lor (Z.land vals vals_lsb_mask)
                    (Z.ldiff (Z.shiftr vals kSSOFatFeatureValueBitCount) tags_lsb_mask) in
  {| d0 := d0 s; d1 := d1 s; d2 := tags;
     info := Z.lor (w32 (Z.ldiff (info s) kValueDataMask - Z.shiftl 1 16)) (Z.land vals kValueDataMask) |}.

(* fontfeaturesettings.cpp 123-126: can_insert_sso_fat_tag *)
Definition can_insert_sso_fat_tag (s : sso) : bool :=
  Z.shiftr (d2 s) ((kSSOFatFeatureCount - 1) * kSSOFatFeatureTagBitCount) =? kSSOInvalidFatFeatureId.

(* fontfeaturesettings.cpp 140-164: the loop of convert_items_to_sso; None stands for "return false" *)
Fixpoint to_sso_loop (items : list item) (bit_tag_ids bit_values fat_index fat_tag_ids fat_values : Z) : outcome (option sso) :=
  match items with
  | [] => Ok (Some {| d0 := bit_tag_ids; d1 := bit_values; d2 := fat_tag_ids; info := fat_values |})
  | (tag, value) :: items' =>
    let* id := feature_tag_to_id tag in
    if id =? kInvalidId then Ok None
    else
      let* fi := rd feature_info_table id in
      if has_bit_id fi then
        if 1 <? value then Ok None
        else to_sso_loop items' (Z.lor bit_tag_ids (w32 (Z.shiftl 1 (fi_bit_id fi))))
                         (Z.lor bit_values (w32 (Z.shiftl value (fi_bit_id fi)))) fat_index fat_tag_ids fat_values
      else
        if (kSSOFatFeatureValueBitMask <? value) || (kSSOFatFeatureCount <=? fat_index) then Ok None
        else to_sso_loop items' bit_tag_ids bit_values (fat_index + 1)
               (Z.lxor fat_tag_ids (w32 (Z.shiftl (Z.lxor id kSSOInvalidFatFeatureId) (fat_index * kSSOFatFeatureTagBitCount))))
               (Z.lor fat_values (w32 (Z.shiftl value (fat_index * kSSOFatFeatureValueBitCount))))
  end.
(* fontfeaturesettings.cpp 128-172: convert_items_to_sso *)
Definition convert_items_to_sso (items : list item) : outcome (option sso) :=
  to_sso_loop items 0 0 0 kSSOInvalidFatFeaturePattern
              (Z.lor type_with_marker (pack_a (Z.of_nat (length items)))).

Definition kDummyFatTagId : Z := 4294967295.

(* the set bits of a word, least significant first (support/bitops_p.h 313-345: BitIterator) *)
Definition set_bits (w : Z) : list Z := filter (Z.testbit w) (map Z.of_nat (seq 0 32)).

(* fontfeaturesettings.cpp 194-203: the inner loop of convert_sso_to_items *)
Fixpoint emit_fat (fuel : nat) (bit_feature_tag_id fat_id fat_tag_ids fat_values : Z) (out : list item)
  : outcome (Z * Z * Z * list item) :=
  match fuel with
  | O => NoFuel
  | S f =>
    if fat_id <? bit_feature_tag_id then
      let* t := rd feature_id_to_tag_table fat_id in
      let out := out ++ [(t, Z.land fat_values kSSOFatFeatureValueBitMask)] in
      let next := Z.land fat_tag_ids kSSOFatFeatureTagBitMask in
      let next := if next =? kSSOInvalidFatFeatureId then kDummyFatTagId else next in
      emit_fat f bit_feature_tag_id next (Z.shiftr fat_tag_ids kSSOFatFeatureTagBitCount)
               (Z.shiftr fat_values kSSOFatFeatureValueBitCount) out
    else Ok (fat_id, fat_tag_ids, fat_values, out)
  end.
(* fontfeaturesettings.cpp 190-206: the loop over the bit tags *)
Fixpoint emit_bits (bits : list Z) (bit_values fat_id fat_tag_ids fat_values : Z) (out : list item)
  : outcome (Z * Z * Z * list item) :=
  match bits with
  | [] => Ok (fat_id, fat_tag_ids, fat_values, out)
  | bit_index :: bits' =>
    let* bid := rd feature_bit_id_to_feature_id_table bit_index in
    let* (fat_id, fat_tag_ids, fat_values, out) := emit_fat 6 bid fat_id fat_tag_ids fat_values out in
    let* t := rd feature_id_to_tag_table bid in
    emit_bits bits' bit_values fat_id fat_tag_ids fat_values (out ++ [(t, Z.land (Z.shiftr bit_values bit_index) 1)])
  end.
(* fontfeaturesettings.cpp 211-216: the final do-while loop *)
Fixpoint emit_rest (fuel : nat) (fat_id fat_tag_ids fat_values : Z) (out : list item) : outcome (list item) :=
  match fuel with
  | O => NoFuel
  | S f =>
    let* t := rd feature_id_to_tag_table fat_id in
    let out := out ++ [(t, Z.land fat_values kSSOFatFeatureValueBitMask)] in
    let next := Z.land fat_tag_ids kSSOFatFeatureTagBitMask in
    if next =? kSSOInvalidFatFeatureId then Ok out
    else emit_rest f next (Z.shiftr fat_tag_ids kSSOFatFeatureTagBitCount)
                   (Z.shiftr fat_values kSSOFatFeatureValueBitCount) out
  end.
(* fontfeaturesettings.cpp 174-217: convert_sso_to_items, the items written *)
Definition convert_sso_to_items (s : sso) : outcome (list item) :=
  let fat_tag_ids := d2 s in
  let fat_id := Z.land fat_tag_ids kSSOFatFeatureTagBitMask in
  let fat_tag_ids := Z.shiftr fat_tag_ids kSSOFatFeatureTagBitCount in
  let fat_tag_ids := Z.lor fat_tag_ids (w32 (Z.shiftl kSSOInvalidFatFeatureId ((kSSOFatFeatureCount - 1) * kSSOFatFeatureTagBitCount))) in
  let fat_id := if fat_id =? kSSOInvalidFatFeatureId then kDummyFatTagId else fat_id in
  let* (fat_id, fat_tag_ids, fat_values, out) := emit_bits (set_bits (d0 s)) (d1 s) fat_id fat_tag_ids (info s) [] in
  if fat_id =? kDummyFatTagId then Ok out
  else emit_rest 6 fat_id fat_tag_ids fat_values out.

(* The items an array of [cap] cells holds after [out] was written to it and [size] of them are in use: writing past
   the end is undefined, and so is using a cell that was not written. *)
Definition taken (size cap : Z) (out : list item) : outcome (list item) :=
  if (cap <? Z.of_nat (length out)) || (Z.of_nat (length out) <? size) then UB else Ok (firstn (Z.to_nat size) out).

(* fontfeaturesettings_p.h 26-32; sizeof(BLFontFeatureSettingsImpl) = 24 (64-bit), sizeof(BLFontFeatureItem) = 8 *)
Definition impl_size_from_capacity (c : Z) : Z := w64 (24 + w64 (c * 8)).
Definition capacity_from_impl_size (n : Z) : Z := w64 (n - 24) / 8.

(* comparator of every lower_bound call *)
Definition tag_less (it : item) (tag : Z) : bool := fst it <? tag.

(* fontfeaturesettings_p.h 123-145: get_sso_tag_value *)
Definition get_sso_tag_value (s : sso) (feature_tag not_found : Z) : outcome Z :=
  let* id := feature_tag_to_id feature_tag in
  if id =? kInvalidId then Ok not_found
  else
    let* fi := rd feature_info_table id in
    if has_bit_id fi then
      if has_sso_bit_tag s (fi_bit_id fi) then Ok (get_sso_bit_value s (fi_bit_id fi)) else Ok not_found
    else
      let '(found, index) := find_sso_fat_tag s id in
      if found then Ok (get_sso_fat_value s index) else Ok not_found.

(* fontfeaturesettings_p.h 147-158: get_dynamic_tag_value *)
Definition get_dynamic_tag_value (items : list item) (feature_tag not_found : Z) : outcome Z :=
  let size := Z.of_nat (length items) in
  let* index := lower_bound tag_less items feature_tag in
  if index <? size then
    let* it := rd items index in
    if fst it =? feature_tag then Ok (snd it) else Ok not_found
  else Ok not_found.

(* fontfeaturesettings.cpp 486-494: get_value *)
Definition get_value (self : settings) (feature_tag : Z) : outcome Z :=
  match self with
  | SSO s => get_sso_tag_value s feature_tag BL_FONT_FEATURE_INVALID_VALUE
  | DYN items _ _ => get_dynamic_tag_value items feature_tag BL_FONT_FEATURE_INVALID_VALUE
  end.

(* fontfeaturesettings_p.h 160-172: get_tag_value, is_feature_enabled_for_plan (the template argument is chosen by
   the mode of the object) *)
Definition is_feature_enabled_for_plan (self : settings) (feature_tag : Z) : outcome bool :=
  let* id := feature_tag_to_id feature_tag in
  let* fi := rd feature_info_table (Z.min id kFeatureIdCount) in
  let nf := Z.b2z (fi_enabled fi) in
  let* v := match self with
            | SSO s => get_sso_tag_value s feature_tag nf
            | DYN items _ _ => get_dynamic_tag_value items feature_tag nf
            end in
  Ok (0 <? v).

(* fontfeaturesettings.cpp 400-408: get_size *)
Definition get_size (self : settings) : Z :=
  match self with SSO s => get_sso_size s | DYN items _ _ => Z.of_nat (length items) end.

(* fontfeaturesettings.cpp 422-450: get_view, the items a caller can read through the view (sso_data has 36 cells) *)
Definition get_view (self : settings) : outcome (list item) :=
  match self with
  | SSO s => let size := get_sso_size s in
             if size =? 0 then Ok []
             else let* out := convert_sso_to_items s in taken size 36 out
  | DYN items _ _ => Ok items
  end.

(* fontfeaturesettings.cpp 452-484: has_value *)
Definition has_value (self : settings) (feature_tag : Z) : outcome bool :=
  match self with
  | SSO s =>
    let* id := feature_tag_to_id feature_tag in
    if id =? kInvalidId then Ok false
    else
      let* fi := rd feature_info_table id in
      if has_bit_id fi then Ok (has_sso_bit_tag s (fi_bit_id fi))
      else Ok (fst (find_sso_fat_tag s (fi_bit_id fi)))
  | DYN items _ _ =>
    let* index := lower_bound tag_less items feature_tag in
    if index <? Z.of_nat (length items) then
      let* it := rd items index in Ok (fst it =? feature_tag)
    else Ok false
  end.

(* Dynamic part of set_value, fontfeaturesettings.cpp 559-610.  The third component is the content of the impl the
   object had before the call, as seen by other objects sharing it. *)
Definition set_dynamic (items : list item) (cap : Z) (can_modify : bool) (feature_tag value : Z) (mem : bool)
  : outcome (Z * settings * list item) :=
  let size := Z.of_nat (length items) in
  let self := DYN items cap can_modify in
  let* index := lower_bound tag_less items feature_tag in
  let i := Z.to_nat index in
  let* hit := if index <? size then let* it := rd items index in Ok (fst it =? feature_tag) else Ok false in
  if hit then
    let* it := rd items index in
    if snd it =? value then Ok (BL_SUCCESS, self, items)
    else
      let items' := firstn i items ++ (feature_tag, value) :: skipn (S i) items in
      if can_modify then Ok (BL_SUCCESS, DYN items' cap can_modify, items')
      else if mem then Ok (BL_SUCCESS, DYN items' (capacity_from_impl_size (impl_size_from_capacity size)) true, items)
      else Ok (BL_ERROR_OUT_OF_MEMORY, self, items)
  else if negb (is_valid_tag feature_tag) then Ok (BL_ERROR_INVALID_VALUE, self, items)
  else
    let items' := firstn i items ++ (feature_tag, value) :: skipn i items in
    if can_modify && (size <? cap) then Ok (BL_SUCCESS, DYN items' cap can_modify, items')
    else
      let* impl_size := expand_impl_size (impl_size_from_capacity (w64 (size + 1))) in
      if mem then
        let cap' := capacity_from_impl_size impl_size in
        if cap' <? size + 1 then UB else Ok (BL_SUCCESS, DYN items' cap' true, items)
      else Ok (BL_ERROR_OUT_OF_MEMORY, self, items).

(* fontfeaturesettings.cpp 496-611: set_value *)
Definition set_value (self : settings) (feature_tag value : Z) (mem : bool) : outcome (Z * settings * list item) :=
  if 65535 <? value then Ok (BL_ERROR_INVALID_VALUE, self, match self with DYN i _ _ => i | _ => [] end)
  else
    let* feature_id := feature_tag_to_id feature_tag in
    match self with
    | SSO s =>
      let size := get_sso_size s in
      let grow :=
        let impl_size := align_up 64 (impl_size_from_capacity (Z.max (size + 1) 4)) 64 in
        if mem then
          let cap := capacity_from_impl_size impl_size in
          let* out := convert_sso_to_items s in
          let* items := taken size cap out in
          let* (code, self', _) := set_dynamic items cap true feature_tag value mem in
          Ok (code, self', [])
        else Ok (BL_ERROR_OUT_OF_MEMORY, self, []) in
      if negb (feature_id =? kInvalidId) then
        let* fi := rd feature_info_table feature_id in
        if has_bit_id fi then
          if 1 <? value then Ok (BL_ERROR_INVALID_VALUE, self, [])
          else if has_sso_bit_tag s (fi_bit_id fi) then
            Ok (BL_SUCCESS, SSO (update_sso_bit_value s (fi_bit_id fi) value), [])
          else Ok (BL_SUCCESS, SSO (add_sso_bit_tag s (fi_bit_id fi) value), [])
        else if value <=? kSSOFatFeatureTagBitMask then
          let '(found, index) := find_sso_fat_tag s feature_id in
          if found then Ok (BL_SUCCESS, SSO (update_sso_fat_value s index value), [])
          else if can_insert_sso_fat_tag s then Ok (BL_SUCCESS, SSO (add_sso_fat_tag s index feature_id value), [])
          else grow
        else grow
      else if negb (is_valid_tag feature_tag) then Ok (BL_ERROR_INVALID_VALUE, self, [])
      else grow
    | DYN items cap mut =>
      if negb (is_valid_tag feature_tag) then Ok (BL_ERROR_INVALID_VALUE, self, items)
      else set_dynamic items cap mut feature_tag value mem
    end.

(* fontfeaturesettings.cpp 613-670: remove_value *)
Definition remove_value (self : settings) (feature_tag : Z) (mem : bool) : outcome (Z * settings * list item) :=
  match self with
  | SSO s =>
    let* feature_id := feature_tag_to_id feature_tag in
    if feature_id =? kInvalidId then Ok (BL_SUCCESS, self, [])
    else
      let* fi := rd feature_info_table feature_id in
      if has_bit_id fi then
        if has_sso_bit_tag s (fi_bit_id fi) then Ok (BL_SUCCESS, SSO (remove_sso_bit_tag s (fi_bit_id fi)), [])
        else Ok (BL_SUCCESS, self, [])
      else
        let '(found, index) := find_sso_fat_tag s feature_id in
        if found then Ok (BL_SUCCESS, SSO (remove_sso_fat_tag s index), []) else Ok (BL_SUCCESS, self, [])
  | DYN items cap mut =>
    let size := Z.of_nat (length items) in
    let* index := lower_bound tag_less items feature_tag in
    let i := Z.to_nat index in
    let* hit := if index <? size then let* it := rd items index in Ok (fst it =? feature_tag) else Ok false in
    if negb hit then Ok (BL_SUCCESS, self, items)
    else
      let items' := firstn i items ++ skipn (S i) items in
      if mut then Ok (BL_SUCCESS, DYN items' cap mut, items')
      else
        let* impl_size := expand_impl_size (impl_size_from_capacity (size - 1)) in
        if mem then
          let cap' := capacity_from_impl_size impl_size in
          if cap' <? size - 1 then UB else Ok (BL_SUCCESS, DYN items' cap' true, items)
        else Ok (BL_ERROR_OUT_OF_MEMORY, self, items)
  end.

(* fontfeaturesettings.cpp 319-347: reset, clear *)
Definition reset (self : settings) : settings := SSO init_sso.
Definition clear (self : settings) : settings :=
  match self with
  | SSO _ => SSO init_sso
  | DYN _ cap mut => if mut then DYN [] cap mut else SSO init_sso
  end.

(* fontfeaturesettings.cpp 350-374: shrink; BL_OBJECT_IMPL_ALIGNMENT = 16 (object_p.h 25) *)
Definition shrink (self : settings) (mem : bool) : outcome (Z * settings) :=
  match self with
  | SSO _ => Ok (BL_SUCCESS, self)
  | DYN items cap mut =>
    let size := Z.of_nat (length items) in
    let* conv := if size <=? kSSOCapacity then convert_items_to_sso items else Ok None in
    match conv with
    | Some s => Ok (BL_SUCCESS, SSO s)
    | None =>
      let current_size := impl_size_from_capacity cap in
      let shrunk_size := impl_size_from_capacity size in
      if current_size <? w64 (shrunk_size + 16) then Ok (BL_SUCCESS, self)
      else if mem then Ok (BL_SUCCESS, DYN items (capacity_from_impl_size shrunk_size) true)
      else Ok (BL_ERROR_OUT_OF_MEMORY, self)
    end
  end.

(* object.h 674: binary equality of two details *)
Definition sso_eqb (a b : sso) : bool := (d0 a =? d0 b) && (d1 a =? d1 b) && (d2 a =? d2 b) && (info a =? info b).
Fixpoint items_eqb (a b : list item) : bool :=
  match a, b with
  | [], [] => true
  | (t, v) :: a', (u, w) :: b' => (t =? u) && (v =? w) && items_eqb a' b'
  | _, _ => false
  end.

(* fontfeaturesettings.cpp 676-722: equals.  Two dynamic objects with the same impl have the same items, so the
   address comparison in front of memcmp is left out. *)
Definition equals (a b : settings) : outcome bool :=
  let mixed (s : sso) (items : list item) :=
    if get_sso_size s =? Z.of_nat (length items) then
      let* c := convert_items_to_sso items in
      match c with Some t => Ok (sso_eqb s t) | None => Ok false end
    else Ok false in
  match a, b with
  | SSO x, SSO y => Ok (sso_eqb x y)
  | DYN x _ _, DYN y _ _ => Ok (items_eqb x y)
  | SSO x, DYN y _ _ => mixed x y
  | DYN x _ _, SSO y => mixed y x
  end.
