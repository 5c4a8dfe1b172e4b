(* Independent specification of BLFontFeatureSettings (documentation in core/fontfeaturesettings.h): a finite map from
   feature tags to values. *)
From Verif Require Import Base TagData_Spec.

Definition fmap : Type := Z -> option Z.
Definition empty : fmap := fun _ => None.
Definition put (m : fmap) (t v : Z) : fmap := fun u => if u =? t then Some v else m u.
Definition del (m : fmap) (t : Z) : fmap := fun u => if u =? t then None else m u.

Definition SUCCESS : Z := 0.
Definition OUT_OF_MEMORY : Z := 65536.
Definition INVALID_VALUE : Z := 65537.
Definition NOT_SET : Z := 4294967295.

Definition tag4 (a b c d : Z) : Z := ((a * 256 + b) * 256 + c) * 256 + d.

(* The tags documented to accept only 0 and 1 (fontfeaturesettings.h 287-318): case clig cpct cpsp dlig dnom expt falt
   frac fwid halt hist hwid jalt kern liga lnum onum ordn palt pcap ruby smcp subs sups titl tnam tnum unic valt vkrn
   zero, in ASCII. *)
Definition boolean_tags : list Z :=
  [ tag4 99 97 115 101; tag4 99 108 105 103; tag4 99 112 99 116; tag4 99 112 115 112; tag4 100 108 105 103;
    tag4 100 110 111 109; tag4 101 120 112 116; tag4 102 97 108 116; tag4 102 114 97 99; tag4 102 119 105 100;
    tag4 104 97 108 116; tag4 104 105 115 116; tag4 104 119 105 100; tag4 106 97 108 116; tag4 107 101 114 110;
    tag4 108 105 103 97; tag4 108 110 117 109; tag4 111 110 117 109; tag4 111 114 100 110; tag4 112 97 108 116;
    tag4 112 99 97 112; tag4 114 117 98 121; tag4 115 109 99 112; tag4 115 117 98 115; tag4 115 117 112 115;
    tag4 116 105 116 108; tag4 116 110 97 109; tag4 116 110 117 109; tag4 117 110 105 99; tag4 118 97 108 116;
    tag4 118 107 114 110; tag4 122 101 114 111 ].

(* What a user can do with one object.  [mem]: whether an allocation made by the call succeeds. [Share b]: other
   objects start (false) or stop (true) sharing the storage of this one. *)
Inductive op :=
| Set_value (t v : Z) (mem : bool)
| Remove_value (t : Z) (mem : bool)
| Clear
| Reset
| Shrink (mem : bool)
| Share (exclusive : bool).

(* The effect of a successful operation on the map; a failed one changes nothing. *)
Definition effect (m : fmap) (o : op) : fmap :=
  match o with
  | Set_value t v _ => put m t v
  | Remove_value t _ => del m t
  | Clear | Reset => empty
  | Shrink _ | Share _ => m
  end.
Definition next (m : fmap) (o : op) (code : Z) : fmap := if code =? SUCCESS then effect m o else m.

Definition bad_value (t v : Z) : Prop := ~ valid_tag t \/ 65535 < v.
Definition not_boolean (t v : Z) : Prop := In t boolean_tags /\ 1 < v.

(* The documented result codes, except that nothing is said about a value above 1 for a boolean tag. *)
Definition code_ok (o : op) (code : Z) : Prop :=
  match o with
  | Set_value t v mem =>
      (bad_value t v -> code = INVALID_VALUE) /\
      (~ bad_value t v -> ~ not_boolean t v -> code = SUCCESS \/ (mem = false /\ code = OUT_OF_MEMORY)) /\
      (~ bad_value t v -> code = SUCCESS \/ (mem = false /\ code = OUT_OF_MEMORY) \/ code = INVALID_VALUE)
  | Remove_value _ mem | Shrink mem => code = SUCCESS \/ (mem = false /\ code = OUT_OF_MEMORY)
  | Clear | Reset | Share _ => code = SUCCESS
  end.

(* get_value: the value set, or the "invalid value" *)
Definition value_of (m : fmap) (t : Z) : Z := match m t with Some v => v | None => NOT_SET end.

(* A list of items lists the map: tags in increasing order, exactly the pairs of the map. *)
Definition lists (m : fmap) (l : list (Z * Z)) : Prop :=
  increasing (map fst l) /\ forall t v, In (t, v) l <-> m t = Some v.

(* The features used when nothing is set: calt clig cpsp kern liga opbd rvrn (fonttagdatainfo.cpp 27-96). *)
Definition default_tags : list Z :=
  [ tag4 99 97 108 116; tag4 99 108 105 103; tag4 99 112 115 112; tag4 107 101 114 110; tag4 108 105 103 97;
    tag4 111 112 98 100; tag4 114 118 114 110 ].
(* Whether a feature is in use: a value above 0 was set, or none was set and it is on by default. *)
Definition in_use (m : fmap) (t : Z) : Prop :=
  match m t with Some v => 0 < v | None => In t default_tags end.

(* The arguments of a call are 32-bit words. *)
Definition words (o : op) : Prop :=
  match o with
  | Set_value t v _ => 0 <= t < 2 ^ 32 /\ 0 <= v < 2 ^ 32
  | Remove_value t _ => 0 <= t < 2 ^ 32
  | _ => True
  end.

(* The operations the implementation gets right.  [registered]: the OpenType features the library knows. *)
Definition multi (registered : list Z) (t : Z) : Prop := In t registered /\ ~ In t boolean_tags.
Definition safe (registered : list Z) (m : fmap) (o : op) : Prop :=
  match o with
  | Set_value t v _ => ~ (multi registered t /\ 16 <= v <= 255)
  | Remove_value t _ =>
      multi registered t -> forall a b v, multi registered a -> multi registered b -> a < t < b ->
      m a <> None -> m b = Some v -> v = 0
  | _ => True
  end.
