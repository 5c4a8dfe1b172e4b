(* Matrix powers of the state transition over GF(2), and the double conversion. *)
From Verif Require Import Base Bits Random_Model Random_Proofs.

Definition v0 : rstate := (0, 0).
Lemma vxor_0_l a : vxor v0 a = a.
Proof. destruct a. unfold vxor, v0; cbn [fst snd]. now rewrite !Z.lxor_0_l. Qed.
Lemma vxor_0_r a : vxor a v0 = a.
Proof. destruct a. unfold vxor, v0; cbn [fst snd]. now rewrite !Z.lxor_0_r. Qed.
Lemma vxor_assoc a b c : vxor (vxor a b) c = vxor a (vxor b c).
Proof. unfold vxor; cbn [fst snd]. now rewrite !Z.lxor_assoc. Qed.
Lemma vxor_comm a b : vxor a b = vxor b a.
Proof. unfold vxor. f_equal; apply Z.lxor_comm. Qed.

Definition linear (f : rstate -> rstate) : Prop := f v0 = v0 /\ forall a b, f (vxor a b) = vxor (f a) (f b).
Lemma step_lin : linear step.
Proof. split; [reflexivity|exact step_linear]. Qed.

(* columns of a matrix: images of bits 0..63 of the first word, then of the second *)
Definition mat : Type := list rstate * list rstate.
(* sum of columns selected by the bits of v, starting at bit i *)
Fixpoint sel (m : list rstate) (v : Z) (acc : rstate) : rstate :=
  match m with
  | [] => acc
  | c :: m => sel m (Z.div2 v) (if Z.odd v then vxor acc c else acc)
  end.
Definition app_mat (m : mat) (v : rstate) : rstate := sel (snd m) (snd v) (sel (fst m) (fst v) v0).
Definition compose (m m' : mat) : mat := (map (app_mat m) (fst m'), map (app_mat m) (snd m')).

(* basis and matrix of a function *)
Fixpoint basis1 (n : nat) (i : Z) : list rstate := match n with O => [] | S n => (2 ^ i, 0) :: basis1 n (i + 1) end.
Fixpoint basis2 (n : nat) (i : Z) : list rstate := match n with O => [] | S n => (0, 2 ^ i) :: basis2 n (i + 1) end.
Definition mat_of (f : rstate -> rstate) : mat := (map f (basis1 64 0), map f (basis2 64 0)).

Lemma sel_acc m v acc : sel m v acc = vxor acc (sel m v v0).
Proof.
  revert v acc. induction m as [|c m IH]; intros v acc; cbn [sel]; [now rewrite vxor_0_r|].
  rewrite IH. rewrite (IH _ (if Z.odd v then vxor v0 c else v0)). destruct (Z.odd v).
  - rewrite vxor_0_l. now rewrite vxor_assoc.
  - now rewrite vxor_0_l.
Qed.

Lemma bit0_split v i : 0 <= v -> 0 <= i -> v * 2 ^ i = Z.lxor (if Z.odd v then 2 ^ i else 0) (Z.div2 v * 2 ^ (i + 1)).
Proof.
  intros Hv Hi.
  assert (E : v = Z.lxor (Z.b2z (Z.odd v)) (2 * Z.div2 v)).
  { rewrite <- Z.add_nocarry_lxor; [pose proof (Z.div2_odd v); lia|].
    apply Z.bits_inj'. intros n Hn. rewrite Z.land_spec, Z.bits_0. destruct (Z.eq_dec n 0) as [->|].
    - rewrite Z.testbit_even_0. now destruct (Z.testbit _ _).
    - rewrite (testbit_small (Z.b2z (Z.odd v)) 1 n); [reflexivity| |lia]. destruct (Z.odd v); cbn; lia. }
  rewrite E at 1. rewrite <- Z.shiftl_mul_pow2 by lia. rewrite Z.shiftl_lxor, !Z.shiftl_mul_pow2 by lia.
  f_equal; [destruct (Z.odd v); cbn [Z.b2z]; lia|]. rewrite Z.pow_add_r by lia. lia.
Qed.

Lemma sel_basis1 f : linear f -> forall n v i, 0 <= v < 2 ^ Z.of_nat n -> 0 <= i ->
  sel (map f (basis1 n i)) v v0 = f (v * 2 ^ i, 0).
Proof.
  intros [F0 FX]. induction n as [|n IH]; intros v i Hv Hi; cbn [basis1 map sel].
  - assert (v = 0) by (cbn in Hv; lia). subst. symmetry. exact F0.
  - rewrite sel_acc, IH; [|rewrite Nat2Z.inj_succ, Z.pow_succ_r in Hv by lia; rewrite Z.div2_div; lia|lia].
    rewrite (bit0_split v i) by lia.
    replace (Z.lxor (if Z.odd v then 2 ^ i else 0) (Z.div2 v * 2 ^ (i + 1)), 0)
      with (vxor (if Z.odd v then 2 ^ i else 0, 0) (Z.div2 v * 2 ^ (i + 1), 0)) by reflexivity.
    rewrite FX. f_equal. destruct (Z.odd v); [apply vxor_0_l|symmetry; exact F0].
Qed.
Lemma sel_basis2 f : linear f -> forall n v i, 0 <= v < 2 ^ Z.of_nat n -> 0 <= i ->
  sel (map f (basis2 n i)) v v0 = f (0, v * 2 ^ i).
Proof.
  intros [F0 FX]. induction n as [|n IH]; intros v i Hv Hi; cbn [basis2 map sel].
  - assert (v = 0) by (cbn in Hv; lia). subst. symmetry. exact F0.
  - rewrite sel_acc, IH; [|rewrite Nat2Z.inj_succ, Z.pow_succ_r in Hv by lia; rewrite Z.div2_div; lia|lia].
    rewrite (bit0_split v i) by lia.
    replace (0, Z.lxor (if Z.odd v then 2 ^ i else 0) (Z.div2 v * 2 ^ (i + 1)))
      with (vxor (0, if Z.odd v then 2 ^ i else 0) (0, Z.div2 v * 2 ^ (i + 1))) by reflexivity.
    rewrite FX. f_equal. destruct (Z.odd v); [apply vxor_0_l|symmetry; exact F0].
Qed.

Lemma mat_of_ok f : linear f -> forall v, rstate_ok v -> app_mat (mat_of f) v = f v.
Proof.
  intros HF [x y] [Hx Hy]. cbn [fst snd] in *. unfold app_mat, mat_of. cbn [fst snd]. rewrite sel_acc.
  rewrite (sel_basis1 f HF 64 x 0), (sel_basis2 f HF 64 y 0) by (try exact Hx; try exact Hy; lia).
  rewrite !Z.mul_1_r. destruct HF as [_ FX]. rewrite <- FX. unfold vxor; cbn [fst snd]. now rewrite Z.lxor_0_r, Z.lxor_0_l.
Qed.

Lemma linear_compose f g : linear f -> linear g -> linear (fun v => f (g v)).
Proof. intros [F0 FX] [G0 GX]. split; [now rewrite G0|]. intros. now rewrite GX, FX. Qed.

Lemma iter_lin p : linear (fun v => Pos.iter step v p).
Proof.
  induction p as [p IH|p IH|]; cbn [Pos.iter].
  - apply (linear_compose step (fun v => Pos.iter step (Pos.iter step v p) p) step_lin).
    apply (linear_compose (fun v => Pos.iter step v p) (fun v => Pos.iter step v p) IH IH).
  - apply (linear_compose (fun v => Pos.iter step v p) (fun v => Pos.iter step v p) IH IH).
  - exact step_lin.
Qed.
Lemma iter_ok p v : rstate_ok v -> rstate_ok (Pos.iter step v p).
Proof. intros H. apply Pos.iter_invariant; [|exact H]. intros x Hx. now apply next_state_ok. Qed.

Lemma basis1_ok n i : 0 <= i -> i + Z.of_nat n <= 64 -> Forall rstate_ok (basis1 n i).
Proof.
  revert i. induction n as [|n IH]; intros i Hi Hn; cbn [basis1]; constructor; [|apply IH; lia].
  split; cbn [fst snd]; [|lia]. split; [apply Z.pow_nonneg; lia|]. apply Z.pow_lt_mono_r; lia.
Qed.
Lemma basis2_ok n i : 0 <= i -> i + Z.of_nat n <= 64 -> Forall rstate_ok (basis2 n i).
Proof.
  revert i. induction n as [|n IH]; intros i Hi Hn; cbn [basis2]; constructor; [|apply IH; lia].
  split; cbn [fst snd]; [lia|]. split; [apply Z.pow_nonneg; lia|]. apply Z.pow_lt_mono_r; lia.
Qed.

Lemma compose_ok f g : linear f -> (forall v, rstate_ok v -> rstate_ok (g v)) ->
  compose (mat_of f) (mat_of g) = mat_of (fun v => f (g v)).
Proof.
  intros HF HG. unfold compose, mat_of. cbn [fst snd].
  assert (E : forall l, Forall rstate_ok l -> map (app_mat (map f (basis1 64 0), map f (basis2 64 0))) (map g l) = map (fun v => f (g v)) l).
  { induction 1 as [|v l Hv _ IH]; [reflexivity|]. cbn [map]. rewrite IH. f_equal. apply (mat_of_ok f HF). auto. }
  f_equal; apply E; [apply basis1_ok|apply basis2_ok]; lia.
Qed.

Definition step_mat : mat := mat_of step.
Fixpoint mpow (p : positive) : mat :=
  match p with
  | xH => step_mat
  | xO p => let m := mpow p in compose m m
  | xI p => let m := mpow p in compose step_mat (compose m m)
  end.
Lemma mpow_ok p : mpow p = mat_of (fun v => Pos.iter step v p).
Proof.
  induction p as [p IH|p IH|]; cbn [mpow Pos.iter].
  - rewrite IH. rewrite compose_ok; [|apply iter_lin|intros; now apply iter_ok].
    unfold step_mat. rewrite compose_ok; [reflexivity|exact step_lin|intros; now repeat apply iter_ok].
  - rewrite IH. rewrite compose_ok; [reflexivity|apply iter_lin|intros; now apply iter_ok].
  - reflexivity.
Qed.

Lemma advance_iter p s : advance (Npos p) s = Pos.iter step s p.
Proof. reflexivity. Qed.
Lemma advance_mat p s : rstate_ok s -> advance (Npos p) s = app_mat (mpow p) s.
Proof. intros H. rewrite advance_iter, mpow_ok. symmetry. apply (mat_of_ok _ (iter_lin p)). exact H. Qed.

Definition kOrder : positive := 1999641213840270.

Lemma mpow_order : mpow kOrder = mat_of (fun v => v).
Proof. vm_compute. reflexivity. Qed.

Lemma id_lin : linear (fun v => v).
Proof. split; reflexivity. Qed.
Lemma advance_order s : rstate_ok s -> advance (Npos kOrder) s = s.
Proof. intros H. rewrite advance_mat by exact H. rewrite mpow_order. apply (mat_of_ok _ id_lin). exact H. Qed.
