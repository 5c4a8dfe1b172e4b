(* Executions of BLFontFeatureSettings: any sequence of the modelled calls on one object. *)
From Verif Require Import Base Object_Model TagData_Model FontFeature_Model FontFeature_Spec.

(* one call; Share stands for bl_font_feature_settings_init_weak / destroy on other objects (fontfeaturesettings.cpp
   291-347), which only changes the answer of is_impl_mutable *)
Definition exec (s : settings) (o : op) : outcome (Z * settings) :=
  match o with
  | Set_value t v mem => let* (code, s', _) := set_value s t v mem in Ok (code, s')
  | Remove_value t mem => let* (code, s', _) := remove_value s t mem in Ok (code, s')
  | Clear => Ok (BL_SUCCESS, clear s)
  | Reset => Ok (BL_SUCCESS, reset s)
  | Shrink mem => shrink s mem
  | Share exclusive => Ok (BL_SUCCESS, match s with DYN items cap _ => DYN items cap exclusive | SSO _ => s end)
  end.

Fixpoint run (s : settings) (os : list op) : outcome (list Z * settings) :=
  match os with
  | [] => Ok ([], s)
  | o :: os' => let* (c, s1) := exec s o in let* (cs, s2) := run s1 os' in Ok (c :: cs, s2)
  end.

(* states of an object after any sequence of calls, with the map a user expects; [ok] limits the calls *)
Inductive reach (ok : fmap -> op -> Prop) : settings -> fmap -> Prop :=
| reach_init : reach ok (SSO init_sso) empty
| reach_step s m o code s' : reach ok s m -> words o -> ok m o -> exec s o = Ok (code, s') ->
    reach ok s' (next m o code).
