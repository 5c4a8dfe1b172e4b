(* Proofs about the tables of the composition operators. *)
From Coq Require Import QArith Lqa.
From Verif Require Import Base CompOp_Model CompOp_Spec.
Open Scope Q_scope.

Lemma qle_true x y : Qle_bool x y = true -> x <= y. Proof. apply Qle_bool_iff. Qed.
Lemma qle_false x y : Qle_bool x y = false -> y < x.
Proof. intros H. apply Qnot_le_lt. intros L. apply Qle_bool_iff in L. congruence. Qed.

Ltac cases :=
  repeat match goal with
  | |- context [if Qle_bool ?x ?y then _ else _] =>
      let H := fresh "H" in destruct (Qle_bool x y) eqn:H; [apply qle_true in H|apply qle_false in H]
  end.
Ltac fin := cbn [c a] in *; first [reflexivity | ring | solve [exfalso; lra] | solve [exfalso; nra] | solve [lra] | solve [apply Qle_antisym; nra]].
Ltac go := cbn [c a] in *; first [reflexivity | ring | (unfold qmin, qmax; cases; fin)].

Lemma div_cancel x k : 0 < k -> x * k * k / k == x * k.
Proof. intros H. field. lra. Qed.

Definition exception (o : op) (d s : fmt) (D : pix) : Prop :=
  (o = DstIn /\ d = XRGB32 /\ s = ZERO32) \/ (o = ColorDodge /\ d <> A8 /\ s = A8 /\ c D <= 0).

Lemma simplify_ok sq o d s m D S i : dst_format d -> valid d D -> valid s S -> unit m -> simplify o d s = Some i -> ~ exception o d s D ->
  same d (masked sq o m (view d D) (view s S)) (render sq i m D S).
Proof.
  destruct D as [dc da], S as [sc sa].
  intros Hd VD VS M E X. unfold unit in *.
  destruct d; try (exfalso; unfold dst_format in Hd; cbn in Hd; intuition discriminate); destruct s; try contradiction VS;
    cbn [valid c a] in VD, VS; unfold unit in VD, VS;
    try (destruct VS as [VSc VSa]; subst sc sa || (subst sa)).
  all: destruct o; (vm_compute in E; injection E as <-).
  all: try (exfalso; apply X; left; repeat split; reflexivity).
  all: unfold render, solid_pix, masked; cbn [i_solid i_op i_src i_dst f_type op_flags view c a same compose mix lerp scale].
  all: try split.
  all: try solve [go].
  (* an A8 source is white: its color equals its alpha *)
  all: try (assert (K : 0 <= sa * m <= 1) by (split; nra)).
  all: try (assert (K1 : 0 <= sa * m * da) by nra).
  all: try (assert (K2 : dc * (sa * m) <= sa * m * da) by nra).
  all: try (assert (K3 : 0 <= dc * (sa * m)) by nra).
  all: unfold qmin, qmax; cases.
  all: try (lra || (ring_simplify; reflexivity) || (apply Qle_antisym; nra)).
  all: try (exfalso; apply X; right; repeat split; try discriminate; assumption).
  all: rewrite ?div_cancel in * by assumption; lra.
Qed.
