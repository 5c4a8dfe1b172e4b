(* The calls on a BLGradient and the states they reach. *)
From Verif Require Import Base Gradient_Model.

Inductive gop :=
| Create (type : Z) (vals : option (list Z)) (extend : Z) (stops : list stop) (transform : option (Z * Z))
| Shrink | Reserve (n : Z) | Set_type (t : Z) | Set_extend (e : Z) | Set_value (i v : Z)
| Reset_stops | Assign_stops (l : list stop) | Add_stop (o c : Z)
| Remove_stop (i : Z) | Remove_stop_by_offset (o : Z) (all : bool) | Remove_by_index (a b : Z) | Remove_by_offset (a b : Z)
| Replace_stop (i o c : Z) | Ensure_info | Ensure_lut32 | Ensure_lut64.

Definition exec (g : grad) (o : gop) (mem : bool) : result :=
  match o with
  | Create t v e l m => create g t v e l m mem
  | Shrink => shrink g mem
  | Reserve n => reserve g n mem
  | Set_type t => set_type g t
  | Set_extend e => set_extend_mode g e
  | Set_value i v => set_value g i v mem
  | Reset_stops => reset_stops g mem
  | Assign_stops l => assign_stops g l mem
  | Add_stop o c => add_stop_rgba64 g o c mem
  | Remove_stop i => remove_stop g i mem
  | Remove_stop_by_offset o all => remove_stop_by_offset g o all mem
  | Remove_by_index a b => remove_stops_by_index g a b mem
  | Remove_by_offset a b => remove_stops_by_offset g a b mem
  | Replace_stop i o c => replace_stop_rgba64 g i o c mem
  | Ensure_info => ensure_info g
  | Ensure_lut32 => ensure_lut32 g
  | Ensure_lut64 => ensure_lut64 g
  end.

(* arguments: size_t and double are 64-bit words, arrays given by the caller fit into memory *)
Definition word (z : Z) : Prop := 0 <= z < 2 ^ 64.
Definition fits {A} (l : list A) : Prop := Z.of_nat (length l) < 2 ^ 58.
Definition args (o : gop) : Prop :=
  match o with
  | Create t v e l m => 0 <= t /\ 0 <= e /\ fits l /\ (forall w, v = Some w -> length w = 6%nat)
  | Reserve n => word n
  | Set_type t => 0 <= t
  | Set_extend e => 0 <= e
  | Set_value i v => word i
  | Assign_stops l => fits l
  | Remove_stop i => word i
  | Remove_by_index a b => word a /\ word b
  | Replace_stop i o c => word i
  | _ => True
  end.

(* copies of the object come and go between the calls, which changes the answer of is_impl_mutable; the static
   default impl is never mutable *)
Definition shared (g : grad) (m : bool) : grad :=
  let im := g_impl g in
  with_impl g (GI (g_stops im) (g_cap im) (m && g_ref im) (g_values im) (g_transform im) (g_lut32 im) (g_lut64 im) (g_info im) (g_ref im)).

Inductive reach : grad -> Prop :=
| reach_init : reach default_gradient
| reach_share g m : reach g -> reach (shared g m)
| reach_step g o mem code g' old : reach g -> args o -> exec g o mem = Ok (code, g', old) -> reach g'.
