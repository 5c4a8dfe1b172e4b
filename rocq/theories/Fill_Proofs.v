(* Proofs about spans and mask commands. *)
From Verif Require Import Base Algorithm_Model PixelOps_Model PixelOps_Spec PixelOps_Proofs Fill_Model Fill_Spec.
Ltac Zify.zify_post_hook ::= idtac.

Lemma rd_app {A} (pre post : list A) c i : i = Z.of_nat (length pre) -> rd (pre ++ c :: post) i = Ok c.
Proof.
  intros ->. unfold rd. destruct (Z.ltb_spec (Z.of_nat (length pre)) 0); [lia|]. rewrite Nat2Z.id, nth_error_app2, Nat.sub_diag by lia. reflexivity.
Qed.
Lemma upd_app {A} (pre post : list A) c c' : upd (pre ++ c :: post) (length pre) c' = pre ++ c' :: post.
Proof. induction pre; cbn [app length upd]; [reflexivity|]. f_equal. exact IHpre. Qed.
Lemma wr_app {A} (pre post : list A) c c' i : i = Z.of_nat (length pre) -> wr (pre ++ c :: post) i c' = Ok (pre ++ c' :: post).
Proof.
  intros ->. unfold wr. rewrite app_length. cbn [length]. destruct (Z.ltb_spec (Z.of_nat (length pre)) 0); [lia|].
  destruct (Z.leb_spec (Z.of_nat (length pre + S (length post))) (Z.of_nat (length pre))); [lia|]. cbn [orb]. rewrite Nat2Z.id, upd_app. reflexivity.
Qed.
Lemma rd_byte md i : 0 <= i < Z.of_nat (length md) -> rd md i = Ok (byte_at md i).
Proof.
  intros I. unfold rd, byte_at. destruct (Z.ltb_spec i 0); [lia|].
  rewrite (nth_error_nth' md 0) by lia. reflexivity.
Qed.

Section Fill.
Context {P : Type} (comp : Z -> Z -> P -> Z -> P).

(* drawing w pixels with masks mk *)
Definition drawn (s s' : @st P) (w : Z) (mk : Z -> Z) : Prop :=
  s_dst s' = s_dst s + w /\ s_fx s' = s_fx s + w /\ s_fy s' = s_fy s /\
  forall a, s_mem s' a = let o := a - s_dst s in
    if (0 <=? o) && (o <? w) then option_map (fun d => comp (s_fx s + o) (s_fy s) d (mk o)) (s_mem s a) else s_mem s a.
Definition room (s : @st P) (w : Z) : Prop := forall o, 0 <= o < w -> s_mem s (s_dst s + o) <> None.

Lemma drawn_0 s mk : drawn s s 0 mk.
Proof. repeat split; try lia. intros a. cbv zeta. destruct (Z.leb_spec 0 (a - s_dst s)), (Z.ltb_spec (a - s_dst s) 0); try lia; reflexivity. Qed.
Lemma drawn_trans s s1 s2 v w mk mk' : 0 <= v -> 0 <= w -> drawn s s1 v mk -> drawn s1 s2 w (fun o => mk' (o + v)) ->
  drawn s s2 (v + w) (fun o => if o <? v then mk o else mk' o).
Proof.
  intros V W (D1 & X1 & Y1 & M1) (D2 & X2 & Y2 & M2). repeat split; try lia. intros a. rewrite M2, M1. cbv zeta. rewrite D1, X1, Y1.
  set (o := a - s_dst s). replace (a - (s_dst s + v)) with (o - v) by (unfold o; lia).
  destruct (Z.leb_spec 0 (o - v)), (Z.ltb_spec (o - v) w), (Z.leb_spec 0 o), (Z.ltb_spec o v), (Z.ltb_spec o (v + w)); try lia; cbn [andb]; try reflexivity.
  replace (s_fx s + v + (o - v)) with (s_fx s + o) by lia. replace (o - v + v) with o by lia. reflexivity.
Qed.
Lemma drawn_ext s s' w mk mk' : (forall o, 0 <= o < w -> mk o = mk' o) -> drawn s s' w mk -> drawn s s' w mk'.
Proof.
  intros E (D & X & Y & M). repeat split; try assumption. intros a. rewrite M. cbv zeta.
  destruct (Z.leb_spec 0 (a - s_dst s)), (Z.ltb_spec (a - s_dst s) w); cbn [andb]; try reflexivity. rewrite E by lia. reflexivity.
Qed.
Lemma room_after s s1 v w mk : 0 <= v -> drawn s s1 v mk -> room s (v + w) -> room s1 w.
Proof.
  intros V (D & X & Y & M) R o O. rewrite D, M. cbv zeta. specialize (R (v + o) ltac:(lia)).
  replace (s_dst s + v + o) with (s_dst s + (v + o)) by lia.
  destruct (Z.leb_spec 0 (s_dst s + (v + o) - s_dst s)), (Z.ltb_spec (s_dst s + (v + o) - s_dst s) v); cbn [andb]; try assumption; lia.
Qed.

Lemma pixel_ok s f mk : room s 1 -> (forall d, f (s_fx s) (s_fy s) d = comp (s_fx s) (s_fy s) d mk) ->
  exists s', pixel s f = Ok s' /\ drawn s s' 1 (fun _ => mk).
Proof.
  intros R E. unfold pixel. specialize (R 0 ltac:(lia)). rewrite Z.add_0_r in R. destruct (s_mem s (s_dst s)) as [d|] eqn:M; [|contradiction].
  eexists. split; [reflexivity|]. split; [reflexivity|]. split; [reflexivity|]. split; [reflexivity|].
  intros a. cbn [s_mem s_dst s_fx s_fy]. unfold put. cbv zeta. destruct (Z.eqb_spec a (s_dst s)) as [->|N].
  - rewrite Z.sub_diag. cbn [Z.leb Z.ltb Z.compare andb]. rewrite M. cbn [option_map]. rewrite E, Z.add_0_r. reflexivity.
  - destruct (Z.leb_spec 0 (a - s_dst s)), (Z.ltb_spec (a - s_dst s) 1); try lia; reflexivity.
Qed.

Lemma times_ok f m n : forall s, room s (Z.of_nat n) -> (forall x y d, f x y d = comp x y d m) ->
  exists s', times n (fun s => pixel s f) s = Ok s' /\ drawn s s' (Z.of_nat n) (fun _ => m).
Proof.
  induction n; intros s R E; [exists s; split; [reflexivity|apply drawn_0]|].
  destruct (pixel_ok s f m) as (s1 & E1 & D1); [intros o O; apply R; lia|intros; apply E|].
  destruct (IHn s1) as (s2 & E2 & D2); [apply (room_after s s1 1 _ (fun _ => m)); [lia|exact D1|replace (1 + Z.of_nat n) with (Z.of_nat (S n)) by lia; exact R]|exact E|].
  exists s2. split; [cbn [times]; rewrite E1; exact E2|].
  replace (Z.of_nat (S n)) with (1 + Z.of_nat n) by lia.
  eapply drawn_ext; [|apply (drawn_trans s s1 s2 1 (Z.of_nat n) (fun _ => m) (fun _ => m)); [lia|lia|exact D1|exact D2]].
  intros o O. cbv beta. destruct (o <? 1); reflexivity.
Qed.
Lemma cspan_masked_ok s w m : 0 < w -> room s w -> exists s', cspan_masked comp s w m = Ok s' /\ drawn s s' w (fun _ => m).
Proof.
  intros W R. unfold cspan_masked. destruct (Z.eqb_spec w 0); [lia|].
  destruct (times_ok (fun x y d => comp x y d m) m (Z.to_nat w) s) as (s' & E & D); [rewrite Z2Nat.id by lia; exact R|reflexivity|].
  rewrite Z2Nat.id in D by lia. exists s'. split; assumption.
Qed.
Lemma vspan_loop_ok g md n : forall s p, room s (Z.of_nat n) -> 0 <= p -> p + Z.of_nat n <= Z.of_nat (length md) ->
  exists s', vspan_loop comp n g md p s = Ok s' /\ drawn s s' (Z.of_nat n) (fun o => g (byte_at md (p + o))).
Proof.
  induction n; intros s p R H0 HL; [exists s; split; [reflexivity|apply drawn_0]|].
  destruct (pixel_ok s (fun x y d => comp x y d (g (byte_at md p))) (g (byte_at md p))) as (s1 & E1 & D1); [intros o O; apply R; lia|reflexivity|].
  destruct (IHn s1 (p + 1)) as (s2 & E2 & D2);
    [eapply room_after; [|exact D1|replace (1 + Z.of_nat n) with (Z.of_nat (S n)) by lia; exact R]; lia|lia|lia|].
  exists s2. split.
  - cbn [vspan_loop]. rewrite rd_byte by lia. cbn [bind]. unfold pixel_masked. rewrite E1. exact E2.
  - replace (Z.of_nat (S n)) with (1 + Z.of_nat n) by lia.
    eapply drawn_ext; [|apply (drawn_trans s s1 s2 1 (Z.of_nat n) (fun _ => g (byte_at md p)) (fun o => g (byte_at md (p + o)))); [lia|lia|exact D1|]].
    + intros o O. cbv beta. destruct (Z.ltb_spec o 1); [|reflexivity]. replace (p + o) with p by lia. reflexivity.
    + eapply drawn_ext; [|exact D2]. intros o O. cbv beta. do 2 f_equal. lia.
Qed.

Context (comp_opaque : Z -> Z -> P -> P) (optimize : bool).
Context (OP : optimize = true -> forall x y d, comp x y d 255 = comp_opaque x y d).
Lemma cspan_opaque_ok s w : optimize = true -> 0 < w -> room s w -> exists s', cspan_opaque comp_opaque s w = Ok s' /\ drawn s s' w (fun _ => 255).
Proof.
  intros O W R. unfold cspan_opaque. destruct (Z.eqb_spec w 0); [lia|].
  destruct (times_ok comp_opaque 255 (Z.to_nat w) s) as (s' & E & D); [rewrite Z2Nat.id by lia; exact R|intros; symmetry; apply OP; exact O|].
  rewrite Z2Nat.id in D by lia. exists s'. split; assumption.
Qed.
Lemma cspan_ok s w m : 0 < w -> room s w -> exists s', cspan comp comp_opaque optimize s w m = Ok s' /\ drawn s s' w (fun _ => m).
Proof.
  intros W R. unfold cspan. destruct (optimize && (m =? 255)) eqn:O; [|apply cspan_masked_ok; assumption].
  apply andb_true_iff in O. destruct O as [O ->%Z.eqb_eq]. apply cspan_opaque_ok; assumption.
Qed.

End Fill.

(* images *)
Lemma addr_inj width stride x y x' y' : width <= Z.abs stride -> 0 <= x < width -> 0 <= x' < width -> y * stride + x = y' * stride + x' -> y = y' /\ x = x'.
Proof.
  intros A X X' E. assert (E' : (y - y') * stride = x' - x) by lia.
  destruct (Z.eq_dec y y') as [->|N]; [split; [reflexivity|lia]|exfalso].
  assert (B : Z.abs stride <= Z.abs ((y - y') * stride)) by (rewrite Z.abs_mul; nia). rewrite E' in B. lia.
Qed.
Lemma rendered_ext {P} (comp : Z -> Z -> P -> Z -> P) width m m' stride y0 y1 mask mask' : (forall x y, 0 <= x < width -> y0 <= y < y1 -> mask x y = mask' x y) ->
  rendered comp m m' stride width y0 y1 mask -> rendered comp m m' stride width y0 y1 mask'.
Proof. intros E [A B]. split; [|exact B]. intros x y X Y. rewrite <- E by assumption. apply A; assumption. Qed.
Lemma rendered_split {P} (comp : Z -> Z -> P -> Z -> P) width m m1 m2 stride y0 y1 y2 mask : y0 <= y1 <= y2 -> width <= Z.abs stride ->
  rendered comp m m1 stride width y0 y1 mask -> rendered comp m1 m2 stride width y1 y2 mask -> rendered comp m m2 stride width y0 y2 mask.
Proof.
  intros Y W [A1 B1] [A2 B2]. split.
  - intros x y X Y'. destruct (Z.lt_ge_cases y y1).
    + rewrite B2; [apply A1; lia|]. intros x' y' X' Y2 E. destruct (addr_inj width _ _ _ _ _ W X X' E). lia.
    + rewrite A2 by lia. rewrite B1; [reflexivity|]. intros x' y' X' Y2 E. destruct (addr_inj width _ _ _ _ _ W X X' E). lia.
  - intros a F. rewrite B2 by (intros; apply F; lia). apply B1. intros; apply F; lia.
Qed.
