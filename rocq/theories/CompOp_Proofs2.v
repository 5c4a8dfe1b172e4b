(* Proofs about the flags of the composition operators. *)
From Coq Require Import QArith Lqa.
From Verif Require Import Base CompOp_Model CompOp_Spec CompOp_Proofs.
Open Scope Q_scope.

Definition premultiplied (p : pix) : Prop := 0 <= c p <= a p /\ a p <= 1.
Definition eqp (p q : pix) : Prop := c p == c q /\ a p == a q.

Lemma Qeq_m1 m : 0 <= m -> m == 0 \/ 0 < m.
Proof. intros H. destruct (Qlt_le_dec 0 m); [right; assumption|left; apply Qle_antisym; assumption]. Qed.

Lemma dodge_div dc sa sc m : 0 < m -> sc < sa -> dc * (sa * m) * (sa * m) / (sa * m - sc * m) == dc * sa * sa / (sa - sc) * m.
Proof. intros. field. split; nra. Qed.
Lemma burn_div dc sa sc m : 0 < m -> 0 < sc -> dc * (sa * m) * (sa * m) / (sc * m) == dc * sa * sa / sc * m.
Proof. intros. field. split; lra. Qed.

Lemma qmin_scale m x y X Y : 0 < m -> X == x * m -> Y == y * m -> qmin X Y == qmin x y * m.
Proof. intros M HX HY. unfold qmin. cases; try assumption; rewrite ?HX, ?HY in *; apply Qle_antisym; nra. Qed.
Lemma qmax_scale m x y X Y : 0 < m -> X == x * m -> Y == y * m -> qmax X Y == qmax x y * m.
Proof. intros M HX HY. unfold qmax. cases; try assumption; rewrite ?HX, ?HY in *; apply Qle_antisym; nra. Qed.
Lemma qle_scale m x y X Y : 0 < m -> X == x * m -> Y == y * m -> Qle_bool X Y = Qle_bool x y.
Proof.
  intros M HX HY. rewrite HX, HY. destruct (Qle_bool x y) eqn:E, (Qle_bool (x * m) (y * m)) eqn:F; try reflexivity; exfalso;
    rewrite <- ?not_true_iff_false, ?Qle_bool_iff in *; nra.
Qed.

Lemma times_zero x y : x == 0 -> x * y == 0. Proof. intros H. rewrite H. ring. Qed.
Lemma nop_sa0 sq o d s : f_nop_sa0 (op_flags o) = true -> premultiplied d -> premultiplied s -> a s == 0 -> eqp (compose sq o d s) d.
Proof.
  destruct d as [dc da], s as [sc sa]. unfold premultiplied, eqp. cbn [c a]. intros F [D1 D2] [S1 S2] SA.
  assert (SC : sc == 0) by lra.
  pose proof (times_zero sc da SC) as E1. pose proof (times_zero sa dc SA) as E2. pose proof (times_zero sc dc SC) as E3. pose proof (times_zero sa da SA) as E4.
  destruct o; try discriminate F; unfold compose, mix, qmin, qmax; cbn [c a]; split; try lra.
  all: try (cases; lra).
  set (k := if Qle_bool (2 * sc) sa then _ else _). pose proof (times_zero (2 * sc - sa) (da * k) ltac:(lra)) as E5.
  rewrite <- Qmult_assoc, E5. lra.
Qed.

Lemma type_a sq o d s m : f_type (op_flags o) = TypeA -> o <> Plus -> o <> LinearBurn -> premultiplied d -> premultiplied s -> unit m ->
  eqp (lerp m d (compose sq o d s)) (compose sq o d (scale m s)).
Proof.
  intros T P L HD HS M. unfold unit in M. destruct (Qeq_m1 m ltac:(tauto)) as [Z|Z].
  - assert (N : eqp (compose sq o d (scale m s)) d).
    { unfold premultiplied in *. apply nop_sa0; [destruct o; (discriminate T || reflexivity)|exact HD| |].
      - unfold scale, premultiplied. cbn [c a]. assert (c s * m == 0) by (rewrite Z; ring). assert (a s * m == 0) by (rewrite Z; ring). lra.
      - cbn [scale a]. rewrite Z. ring. }
    destruct N as [N1 N2]. unfold eqp, lerp. cbn [c a]. rewrite N1, N2. generalize (compose sq o d s). intros r. split; rewrite Z; ring.
  - destruct d as [dc da], s as [sc sa]. unfold premultiplied, eqp in *. cbn [c a] in *. destruct HD as [D1 D2], HS as [S1 S2].
    destruct o; try discriminate T; try contradiction; unfold lerp, scale, compose, mix; cbn [c a]; split; try ring.
    + cases; ring.
    + rewrite (qmin_scale m (sc * da) (dc * sa) (sc * m * da) (dc * (sa * m)) Z ltac:(ring) ltac:(ring)). ring.
    + rewrite (qmax_scale m (sc * da) (dc * sa) (sc * m * da) (dc * (sa * m)) Z ltac:(ring) ltac:(ring)). ring.
    + rewrite (qle_scale m sa sc (sa * m) (sc * m)) by (assumption || ring). cases; try ring.
      rewrite (qmin_scale m (sa * da) (dc * sa * sa / (sa - sc)) (sa * m * da) (dc * (sa * m) * (sa * m) / (sa * m - sc * m)) Z ltac:(ring) ltac:(apply dodge_div; assumption)). ring.
    + rewrite (qle_scale m sc 0 (sc * m) 0) by (assumption || ring). cases; try ring.
      rewrite (qmin_scale m (sa * da) ((da - dc) * sa * sa / sc) (sa * m * da) ((da - dc) * (sa * m) * (sa * m) / (sc * m)) Z ltac:(ring) ltac:(apply burn_div; assumption)). ring.
    + rewrite (qmin_scale m (qmax 0 (dc * sa + 2 * sc * da - sa * da)) (sa * da) (qmax 0 (dc * (sa * m) + 2 * (sc * m) * da - sa * m * da)) (sa * m * da) Z
        ltac:(apply qmax_scale; [exact Z|ring|ring]) ltac:(ring)). ring.
    + rewrite (qle_scale m (2 * sc) sa (2 * (sc * m)) (sa * m)) by (assumption || ring). cases; ring.
    + rewrite (qle_scale m (2 * sc) sa (2 * (sc * m)) (sa * m)) by (assumption || ring). set (k := if Qle_bool (2 * sc) sa then _ else _). ring.
    + rewrite (qmin_scale m (sc * da) (dc * sa) (sc * m * da) (dc * (sa * m)) Z ltac:(ring) ltac:(ring)). ring.
Qed.

Definition plus_rest (m : Q) (d r : pix) : pix := Pix (c r + c d * (1 - m)) (a r + a d * (1 - m)).
Lemma type_b sq o d s m : f_type (op_flags o) = TypeB ->
  eqp (lerp m d (compose sq o d s)) (plus_rest m d (compose sq o d (scale m s))).
Proof.
  destruct d as [dc da], s as [sc sa]. unfold eqp. intros T.
  destruct o; try discriminate T; unfold lerp, plus_rest, scale, compose; cbn [c a]; split; ring.
Qed.

Lemma uses sq o d s : let fl := op_flags o in
  (f_dc fl = false -> forall x, eqp (compose sq o (Pix x (a d)) s) (compose sq o d s)) /\
  (f_da fl = false -> forall x, eqp (compose sq o (Pix (c d) x) s) (compose sq o d s)) /\
  (f_sc fl = false -> forall x, eqp (compose sq o d (Pix x (a s))) (compose sq o d s)) /\
  (f_sa fl = false -> forall x, eqp (compose sq o d (Pix (c s) x)) (compose sq o d s)).
Proof.
  destruct d as [dc da], s as [sc sa]. cbv zeta.
  destruct o; cbn [op_flags f_dc f_da f_sc f_sa]; (repeat split; intros; try discriminate); unfold compose, eqp; cbn [c a]; try (split; ring); ring.
Qed.

Lemma nops sq o d s : premultiplied d -> premultiplied s -> let fl := op_flags o in
  (f_nop fl = true -> eqp (compose sq o d s) d) /\
  (f_nop_da0 fl = true -> o <> Multiply -> a d == 0 -> eqp (compose sq o d s) d) /\
  (f_nop_da1 fl = true -> a d == 1 -> eqp (compose sq o d s) d) /\
  (f_nop_sa0 fl = true -> a s == 0 -> eqp (compose sq o d s) d) /\
  (f_nop_sa1 fl = true -> a s == 1 -> eqp (compose sq o d s) d).
Proof.
  destruct d as [dc da], s as [sc sa]. unfold premultiplied. cbn [c a]. intros [D1 D2] [S1 S2]. cbv zeta.
  split; [|split; [|split; [|split]]].
  - destruct o; cbn [op_flags f_nop]; intros; try discriminate; split; cbn [c a compose]; ring.
  - destruct o; cbn [op_flags f_nop_da0]; intros; try discriminate; try contradiction; assert (dc == 0) by lra; split; cbn [c a compose]; nra.
  - destruct o; cbn [op_flags f_nop_da1]; intros; try discriminate; split; cbn [c a compose]; nra.
  - intros F SA. apply (nop_sa0 sq o (Pix dc da) (Pix sc sa)); [exact F|split; assumption|split; assumption|exact SA].
  - destruct o; cbn [op_flags f_nop_sa1]; intros; try discriminate; split; cbn [c a compose]; rewrite ?H0; ring.
Qed.
