(* C60, C61: the tables of the composition operators. *)
From Coq Require Import QArith Lqa.
From Verif Require Import Base CompOp_Model CompOp_Spec CompOp_Proofs CompOp_Proofs2.
Open Scope Q_scope.

(* every operator is simplified for every pair of formats: the functions call each other at most four levels deep *)
Theorem C60_defined o d s : exists i, simplify o d s = Some i.
Proof. destruct o, d, s; vm_compute; eexists; reflexivity. Qed.
Print Assumptions C60_defined.

(* C60: rendering with the simplified operator and formats gives the same pixels. Not with dst-in of a transparent source over
   XRGB32, and not with color-dodge of an A8 source over a black destination. *)
Theorem C60_simplify_partial sq o d s m D S i :
  dst_format d -> valid d D -> valid s S -> unit m -> simplify o d s = Some i ->
  ~ (o = DstIn /\ d = XRGB32 /\ s = ZERO32) -> ~ (o = ColorDodge /\ d <> A8 /\ s = A8 /\ c D <= 0) ->
  same d (masked sq o m (view d D) (view s S)) (render sq i m D S).
Proof. intros V1 V2 V3 V4 E X Y. apply simplify_ok; try assumption. intros [H|H]; [exact (X H)|exact (Y H)]. Qed.
Print Assumptions C60_simplify_partial.

(* C60 fails: dst-in of a transparent color over an XRGB32 image leaves the image as it is; the result should be black *)
Theorem C60_dst_in_refuted sq : exists o d s m D S i,
  dst_format d /\ valid d D /\ valid s S /\ unit m /\ simplify o d s = Some i /\
  ~ same d (masked sq o m (view d D) (view s S)) (render sq i m D S).
Proof.
  exists DstIn, XRGB32, ZERO32, 1, (Pix (1 # 2) 1), (Pix 0 0). eexists. unfold unit, valid, dst_format; cbn [c a In].
  split; [auto|]. split; [unfold unit; lra|]. split; [split; reflexivity|]. split; [lra|]. split; [vm_compute; reflexivity|].
  unfold same. vm_compute. discriminate.
Qed.
Print Assumptions C60_dst_in_refuted.

(* C60 fails: color-dodge of an A8 source becomes src-over, which paints black pixels white; color-dodge leaves them black *)
Theorem C60_color_dodge_refuted sq : exists o d s m D S i,
  dst_format d /\ valid d D /\ valid s S /\ unit m /\ simplify o d s = Some i /\
  ~ same d (masked sq o m (view d D) (view s S)) (render sq i m D S).
Proof.
  exists ColorDodge, PRGB32, A8, 1, (Pix 0 1), (Pix 0 1). eexists. unfold unit, valid, dst_format; cbn [c a In].
  split; [auto|]. split; [lra|]. split; [unfold unit; cbn [a]; lra|]. split; [lra|]. split; [vm_compute; reflexivity|].
  unfold same. vm_compute. intros [H _]. discriminate H.
Qed.
Print Assumptions C60_color_dodge_refuted.

(* C61, type A: scaling the source by the mask is the same as interpolating by it. Not for plus and linear burn. *)
Theorem C61_type_a_partial sq o d s m : f_type (op_flags o) = TypeA -> o <> Plus -> o <> LinearBurn ->
  0 <= c d <= a d /\ a d <= 1 -> 0 <= c s <= a s /\ a s <= 1 -> 0 <= m <= 1 ->
  let l := lerp m d (compose sq o d s) in let r := compose sq o d (scale m s) in c l == c r /\ a l == a r.
Proof. exact (type_a sq o d s m). Qed.
Print Assumptions C61_type_a_partial.

Theorem C61_plus_refuted sq : exists d s m, 0 <= c d <= a d /\ a d <= 1 /\ 0 <= c s <= a s /\ a s <= 1 /\ 0 <= m <= 1 /\
  f_type (op_flags Plus) = TypeA /\ ~ c (lerp m d (compose sq Plus d s)) == c (compose sq Plus d (scale m s)).
Proof.
  exists (Pix (3 # 4) 1), (Pix (3 # 4) 1), (1 # 3). cbn [c a]. repeat (split; [lra || reflexivity|]). vm_compute. discriminate.
Qed.
Print Assumptions C61_plus_refuted.

Theorem C61_linear_burn_refuted sq : exists d s m, 0 <= c d <= a d /\ a d <= 1 /\ 0 <= c s <= a s /\ a s <= 1 /\ 0 <= m <= 1 /\
  f_type (op_flags LinearBurn) = TypeA /\ ~ c (lerp m d (compose sq LinearBurn d s)) == c (compose sq LinearBurn d (scale m s)).
Proof.
  exists (Pix (1 # 4) 1), (Pix (1 # 4) 1), (1 # 3). cbn [c a]. repeat (split; [lra || reflexivity|]). vm_compute. discriminate.
Qed.
Print Assumptions C61_linear_burn_refuted.

(* C61, type B: interpolating by a mask is scaling the source by it and adding the rest of the destination *)
Theorem C61_type_b sq o d s m : f_type (op_flags o) = TypeB ->
  let l := lerp m d (compose sq o d s) in let r := compose sq o d (scale m s) in
  c l == c r + c d * (1 - m) /\ a l == a r + a d * (1 - m).
Proof. exact (type_b sq o d s m). Qed.
Print Assumptions C61_type_b.

(* C61, uses: a component that an operator does not use has no influence *)
Theorem C61_uses sq o d s : let fl := op_flags o in let r := compose sq o in
  (f_dc fl = false -> forall x, c (r (Pix x (a d)) s) == c (r d s) /\ a (r (Pix x (a d)) s) == a (r d s)) /\
  (f_da fl = false -> forall x, c (r (Pix (c d) x) s) == c (r d s) /\ a (r (Pix (c d) x) s) == a (r d s)) /\
  (f_sc fl = false -> forall x, c (r d (Pix x (a s))) == c (r d s) /\ a (r d (Pix x (a s))) == a (r d s)) /\
  (f_sa fl = false -> forall x, c (r d (Pix (c s) x)) == c (r d s) /\ a (r d (Pix (c s) x)) == a (r d s)).
Proof. exact (uses sq o d s). Qed.
Print Assumptions C61_uses.

(* C61, no operation: where a flag says so the destination is unchanged. Not for multiply over a transparent destination. *)
Theorem C61_nop_partial sq o d s : 0 <= c d <= a d /\ a d <= 1 -> 0 <= c s <= a s /\ a s <= 1 -> let fl := op_flags o in let r := compose sq o d s in
  (f_nop fl = true \/ (f_nop_da0 fl = true /\ a d == 0 /\ o <> Multiply) \/ (f_nop_da1 fl = true /\ a d == 1) \/
   (f_nop_sa0 fl = true /\ a s == 0) \/ (f_nop_sa1 fl = true /\ a s == 1)) ->
  c r == c d /\ a r == a d.
Proof. intros D S fl r H. pose proof (nops sq o d s D S) as N. cbv zeta in N. unfold eqp in N. tauto. Qed.
Print Assumptions C61_nop_partial.

Theorem C61_multiply_nop_refuted sq : exists d s, 0 <= c d <= a d /\ 0 <= c s <= a s /\ a s <= 1 /\
  f_nop_da0 (op_flags Multiply) = true /\ a d == 0 /\ ~ c (compose sq Multiply d s) == c d.
Proof. exists (Pix 0 0), (Pix (1 # 2) 1). cbn [c a]. repeat (split; [lra || reflexivity|]). vm_compute. discriminate. Qed.
Print Assumptions C61_multiply_nop_refuted.

(* multiply of an A8 destination is src-over, for which opaque sources are a copy: two levels of simplification *)
Example C60_ex_chain : simplify Multiply A8 FRGB32 = Some (Info SrcCopy A8 PRGB32 OpaqueWhite). Proof. vm_compute. reflexivity. Qed.
Example C60_ex_dst_out : simplify DstOut XRGB32 FRGB32 = Some (Info SrcCopy PRGB32 PRGB32 OpaqueBlack). Proof. vm_compute. reflexivity. Qed.
Example C60_ex : let D := Pix (1 # 2) (1 # 3) in let S := Pix (1 # 4) 1 in
  valid XRGB32 D /\ valid FRGB32 S /\ simplify Screen XRGB32 FRGB32 = Some (Info Screen PRGB32 PRGB32 NoSolid) /\
  c (masked (fun x => x) Screen (1 # 2) (view XRGB32 D) S) == 9 # 16 /\
  c (render (fun x => x) (Info Screen PRGB32 PRGB32 NoSolid) (1 # 2) D S) == 9 # 16.
Proof.
  unfold valid, unit. cbn [c a]. split; [split; lra|]. split; [split; [lra|reflexivity]|]. split; [vm_compute; reflexivity|].
  split; vm_compute; reflexivity.
Qed.
Example C61_ex_type_a : let d := Pix (1 # 4) (1 # 2) in let s := Pix (1 # 3) (2 # 3) in
  c (compose (fun x => x) ColorDodge d (scale (1 # 2) s)) == 5 # 12 /\ c (lerp (1 # 2) d (compose (fun x => x) ColorDodge d s)) == 5 # 12.
Proof. vm_compute. split; reflexivity. Qed.
Example C61_ex_type_b : let d := Pix (1 # 4) (1 # 2) in let s := Pix (1 # 3) (2 # 3) in
  c (lerp (1 # 2) d (compose (fun x => x) SrcIn d s)) == 5 # 24 /\ c (compose (fun x => x) SrcIn d (scale (1 # 2) s)) == 1 # 12.
Proof. vm_compute. split; reflexivity. Qed.
Example C61_ex_nop : compose (fun x => x) DstOver (Pix (1 # 4) 1) (Pix (1 # 3) (2 # 3)) = Pix (3 # 12) (3 # 3). Proof. vm_compute. reflexivity. Qed.
