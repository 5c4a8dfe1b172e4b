(* One scanline of the filler of rasterized paths. *)
From Verif Require Import Base Algorithm_Model PixelOps_Model IntOps_Model Fill_Model Fill_Spec Fill_Proofs Analytic_Model Analytic_Spec Analytic_Proofs.
Ltac Zify.zify_post_hook ::= idtac.

Lemma load_some m a v : m a = Some v -> load m a = Ok v.
Proof. intros E. unfold load. rewrite E. reflexivity. Qed.
Lemma store_some m a v w : m a = Some v -> store m a w = Ok (put m a w).
Proof. intros E. unfold store. rewrite E. reflexivity. Qed.

Section Row.
Context {P : Type} (comp : Z -> Z -> P -> Z -> P) (comp_opaque : Z -> Z -> P -> P) (optimize : bool).
Context (eo : bool) (alpha xend : Z).
Context (bits0 cells0 : @mem Z) (n : nat) (b c : Z) (v : Z -> Z) (m0 : @mem P) (D y : Z).
Notation nw := (Z.of_nat n).
Notation rule := (rule_mask eo).
Notation B := (row_bit bits0 b).
Notation F := (fun x => fill_mask_of eo alpha (cover v x)).
Definition bits_at (bits : @mem Z) (e : Z) : Prop := forall a, bits a = if (b <=? a) && (a <? e) then Some 0 else bits0 a.
Definition cells_at (cells : @mem Z) (p : Z) : Prop := forall a, cells a = if (c <=? a) && (a <? c + p) then Some 0 else cells0 a.
Definition painted (s : @st P) (x : Z) : Prop := drawn comp (St m0 D 0 y) s x F.

Lemma bits_in bits e k : bits_at bits (b + e) -> e <= k -> bits (b + k) = bits0 (b + k).
Proof. intros H K. rewrite H. destruct (Z.ltb_spec (b + k) (b + e)); [lia|]. rewrite andb_false_r. reflexivity. Qed.
Lemma cells_put cells p : 0 <= p -> cells_at cells p -> cells_at (put cells (c + p) 0) (p + 1).
Proof.
  intros H0 H a. unfold put. destruct (Z.eqb_spec a (c + p)) as [->|N].
  - destruct (Z.leb_spec c (c + p)), (Z.ltb_spec (c + p) (c + (p + 1))); try lia; reflexivity.
  - rewrite H. destruct (Z.leb_spec c a), (Z.ltb_spec a (c + p)), (Z.ltb_spec a (c + (p + 1))); try lia; reflexivity.
Qed.

Context (AL : 0 <= alpha <= 255) (X0 : 0 <= xend) (XL : xend < 4 * (64 * nw - 1)).
Context (RO : row_ok bits0 cells0 nw b c xend v).

Lemma word_at k : 0 <= k < nw -> exists w, bits0 (b + k) = Some w /\ word_is w k B.
Proof.
  intros K. destruct RO as (W & _). destruct (W k K) as (w & E & R). exists w. split; [exact E|]. split; [exact R|].
  intros t T. unfold row_bit. replace ((64 * k + t) / 64) with k by (apply Z.div_unique with t; lia).
  replace ((64 * k + t) mod 64) with t by (apply Z.mod_unique with k; lia). rewrite E. reflexivity.
Qed.
Lemma word_none k : 0 <= k < nw -> (forall j, 64 * k <= j < 64 * k + 64 -> B j = false) -> bits0 (b + k) = Some 0.
Proof. intros K Z0. destruct (word_at k K) as (w & E & W). rewrite E. f_equal. exact (word_nonzero w k B W Z0). Qed.
Lemma cell_at cells p : cells_at cells p -> 0 <= p <= xend -> cells (c + p) = Some (v p mod 2 ^ 32).
Proof.
  intros H I. rewrite H. destruct (Z.ltb_spec (c + p) (c + p)); [lia|]. rewrite andb_false_r. destruct RO as (_ & C & _). apply C. exact I.
Qed.
Lemma bits_put bits k k' : 0 <= k <= k' + 1 -> 0 <= k' < nw -> bits_at bits (b + k) -> (forall j, 64 * k <= j < 64 * k' -> B j = false) ->
  exists bits', store bits (b + k') 0 = Ok bits' /\ bits_at bits' (b + k' + 1).
Proof.
  intros K K' H Z0. exists (put bits (b + k') 0). split.
  - destruct (Z.lt_ge_cases k' k).
    + apply (store_some _ _ 0). rewrite H. destruct (Z.leb_spec b (b + k')), (Z.ltb_spec (b + k') (b + k)); try lia; reflexivity.
    + destruct (word_at k' ltac:(lia)) as (w & E & _). apply (store_some _ _ w). rewrite H. destruct (Z.ltb_spec (b + k') (b + k)); [lia|]. rewrite andb_false_r. exact E.
  - intros a. unfold put. destruct (Z.eqb_spec a (b + k')) as [->|N].
    + destruct (Z.leb_spec b (b + k')), (Z.ltb_spec (b + k') (b + k' + 1)); try lia; reflexivity.
    + rewrite H. destruct (Z.leb_spec b a), (Z.ltb_spec a (b + k)), (Z.ltb_spec a (b + k' + 1)); try lia; cbn [andb]; try reflexivity.
      replace a with (b + (a - b)) by lia. apply word_none; [lia|]. intros j J. apply Z0. lia.
Qed.
Lemma bits_done bits k : 0 <= k <= nw -> bits_at bits (b + k) -> (forall j, 64 * k <= j < 64 * nw -> B j = false) -> bits_at bits (b + nw).
Proof.
  intros K H Z0 a. rewrite H. destruct (Z.leb_spec b a), (Z.ltb_spec a (b + k)), (Z.ltb_spec a (b + nw)); try lia; cbn [andb]; try reflexivity.
  replace a with (b + (a - b)) by lia. apply word_none; [lia|]. intros j J. apply Z0. lia.
Qed.
Lemma last_clear j : 64 * nw - 1 <= j < 64 * nw -> B j = false.
Proof. intros J. destruct (B j) eqn:E; [|reflexivity]. destruct RO as (_ & _ & _ & M & _). specialize (M j ltac:(lia) E). lia. Qed.
Lemma beyond j : 0 <= j < 64 * nw -> xend < 4 * j -> B j = false.
Proof. intros J X. destruct (B j) eqn:E; [|reflexivity]. destruct RO as (_ & _ & _ & M & _). specialize (M j J E). lia. Qed.
(* between e and g no marks: no changes behind the first pixel *)
Lemma flat e g x : (forall j, e <= j < g -> B j = false) -> 4 * e < x < 4 * g -> 0 <= e -> x <= xend -> v x = 0.
Proof.
  intros Z0 X E XE. destruct (Z.eq_dec (v x) 0) as [?|N]; [assumption|exfalso]. destruct RO as (_ & _ & M & _).
  pose proof (Z.div_mod x 4 ltac:(lia)). pose proof (Z.mod_pos_bound x 4 ltac:(lia)).
  pose proof (Z.div_mod (x - 1) 4 ltac:(lia)). pose proof (Z.mod_pos_bound (x - 1) 4 ltac:(lia)).
  destruct (M x ltac:(lia) N) as [A|[_ A]]; rewrite Z0 in A by lia; discriminate.
Qed.
(* before the first mark: no changes *)
Lemma flat0 g x : (forall j, 0 <= j < g -> B j = false) -> 0 <= x < 4 * g -> x <= xend -> v x = 0.
Proof.
  intros Z0 X XE. destruct (Z.eq_dec (v x) 0) as [?|N]; [assumption|exfalso]. destruct RO as (_ & _ & M & _).
  pose proof (Z.div_mod x 4 ltac:(lia)). pose proof (Z.mod_pos_bound x 4 ltac:(lia)).
  pose proof (Z.div_mod (x - 1) 4 ltac:(lia)). pose proof (Z.mod_pos_bound (x - 1) 4 ltac:(lia)).
  destruct (M x ltac:(lia) N) as [A|[X1 A]]; rewrite Z0 in A by lia; discriminate.
Qed.
Lemma cells_skip cells p q : 0 <= p <= q -> q <= xend + 1 -> cells_at cells p -> (forall x, p <= x < q -> v x = 0) -> cells_at cells q.
Proof.
  intros H0 Q H Z0 a. rewrite H. destruct (Z.leb_spec c a), (Z.ltb_spec a (c + p)), (Z.ltb_spec a (c + q)); try lia; cbn [andb]; try reflexivity.
  destruct RO as (_ & C & _). replace a with (c + (a - c)) by lia. rewrite C by lia. rewrite Z0 by lia. reflexivity.
Qed.
Lemma mask_at x : 0 <= x <= xend -> calc_mask (w32 (131072 + cover v x)) rule alpha = F x.
Proof. intros X. apply calc_mask_ok; [exact AL|]. destruct RO as (_ & _ & _ & _ & BD & _). apply BD. exact X. Qed.

(* ---- drawing ---- *)
Context (O0 : forall x y d, comp x y d 0 = d).
Context (RM : forall x, 0 <= x < xend -> m0 (D + x) <> None).
Lemma paint_room s x w : 0 <= x -> x + w <= xend -> painted s x -> room s w.
Proof.
  intros X W PA. apply (room_after comp (St m0 D 0 y) s x w F X PA). intros o O. cbn [s_mem s_dst]. apply RM. lia.
Qed.
Lemma paint_more s s' x w mk : 0 <= x -> 0 <= w -> painted s x -> drawn comp s s' w mk -> (forall o, 0 <= o < w -> mk o = F (x + o)) -> painted s' (x + w).
Proof.
  intros X W PA DR E. unfold painted. eapply drawn_ext; [|apply (drawn_trans comp _ s s' x w F F X W PA)].
  - intros o O. cbv beta. destruct (o <? x); reflexivity.
  - eapply drawn_ext; [|exact DR]. intros o O. rewrite E by exact O. cbv beta. rewrite (Z.add_comm x o). reflexivity.
Qed.
Lemma paint_skip s x w : 0 <= x -> 0 <= w -> painted s x -> (forall o, x <= o < x + w -> F o = 0) -> painted (advance_x (set_dst s (s_dst s + w)) w) (x + w).
Proof.
  intros X W PA Z0. apply (paint_more s _ x w (fun o => F (x + o)) X W PA); [|reflexivity].
  split; [reflexivity|]. split; [reflexivity|]. split; [reflexivity|]. intros a. cbv zeta. cbn [advance_x set_dst set_fx s_mem].
  destruct (Z.leb_spec 0 (a - s_dst s)), (Z.ltb_spec (a - s_dst s) w); cbn [andb]; try reflexivity. cbv beta in Z0. rewrite Z0 by lia.
  destruct (s_mem s a); cbn [option_map]; [|reflexivity]. rewrite O0. reflexivity.
Qed.

Lemma vloop_ok k : forall x cells s, 0 <= x -> x + Z.of_nat k <= xend -> cells_at cells x -> painted s x ->
  exists cells' s', vloop comp rule alpha k cells (c + x) (w32 (131072 + cover v (x - 1))) s =
      Ok (cells', c + (x + Z.of_nat k), w32 (131072 + cover v (x + Z.of_nat k)), F (x + Z.of_nat k), s') /\
    cells_at cells' (x + Z.of_nat k + 1) /\ painted s' (x + Z.of_nat k).
Proof.
  induction k as [|k IH]; intros x cells s X XE CA PA; cbn [vloop].
  all: rewrite (load_some _ _ _ (cell_at cells x CA ltac:(lia))); cbn [bind]; rewrite (store_some _ _ _ 0 (cell_at cells x CA ltac:(lia))); cbn [bind].
  all: replace (w32 (w32 (131072 + cover v (x - 1)) + v x mod 2 ^ 32)) with (w32 (131072 + cover v x))
    by (rewrite (cover_step v x X); unfold w32; rewrite Zplus_mod_idemp_l, Zplus_mod_idemp_r; f_equal; lia).
  all: rewrite (mask_at x ltac:(lia)).
  - exists (put cells (c + x) 0), s. rewrite !Z.add_0_r. split; [reflexivity|]. split; [apply cells_put; assumption|exact PA].
  - destruct (pixel_ok comp s (fun x y d => comp x y d (F x)) (F x)) as (s1 & E1 & D1).
    { apply (paint_room s x 1 X); [lia|exact PA]. }
    { intros d. replace (s_fx s) with x; [reflexivity|]. destruct PA as (_ & FX & _). cbn in FX. lia. }
    assert (E1' : pixel_masked comp s (F x) = Ok s1).
    { unfold pixel_masked. rewrite <- E1. unfold pixel. replace (s_fx s) with x by (destruct PA as (_ & FX & _); cbn in FX; lia). reflexivity. }
    cbv beta in E1'. rewrite E1'. cbn [bind].
    destruct (IH (x + 1) (put cells (c + x) 0) s1) as (cells' & s' & E & CA' & PA'); [lia|lia|apply cells_put; assumption| |].
    { apply (paint_more s s1 x 1 (fun _ => F x)); try assumption; try lia. intros o O. replace o with 0 by lia. rewrite Z.add_0_r. reflexivity. }
    replace (c + x + 1) with (c + (x + 1)) by lia. replace (x + 1 - 1) with x in E by lia. rewrite E.
    exists cells', s'. replace (x + Z.of_nat (S k)) with (x + 1 + Z.of_nat k) by lia. split; [reflexivity|]. split; assumption.
Qed.

(* ---- scanning ---- *)
Lemma next_loop_ok f : forall k bits, 0 <= k < nw -> nw - k <= Z.of_nat f -> bits_at bits (b + k) ->
  exists k' bw bits', next_loop f bits (b + k) (b + nw) (256 * (k - 1)) = Ok (bits', b + k' + 1, 256 * k', bw) /\
    k <= k' < nw /\ bw <> 0 /\ word_is bw k' (fun j => negb (B j)) /\ (forall j, 64 * k <= j < 64 * k' -> B j = true) /\ bits_at bits' (b + k' + 1).
Proof.
  induction f as [|f IH]; intros k bits K KF BA; [lia|]. cbn [next_loop]. destruct (word_at k K) as (w & E & W).
  rewrite (load_some bits (b + k) w) by (rewrite (bits_in bits k k BA ltac:(lia)); exact E). cbn [bind].
  destruct (bits_put bits k k ltac:(lia) ltac:(lia) BA ltac:(intros; lia)) as (bits1 & E1 & BA1). rewrite E1. cbn [bind].
  pose proof (xor_ones w k B W) as XO. replace (256 * (k - 1) + 256) with (256 * k) by lia.
  destruct (Z.eqb_spec (Z.lxor ones w) 0) as [Q|N]; cbn [negb].
  - rewrite Q in XO. pose proof (word_zero k _ XO) as ZZ. cbv beta in ZZ.
    assert (AT : forall j, 64 * k <= j < 64 * k + 64 -> B j = true) by (intros j J; specialize (ZZ j J); destruct (B j); [reflexivity|discriminate]).
    destruct (Z.eqb_spec (b + k + 1) (b + nw)).
    { specialize (AT (64 * nw - 1) ltac:(lia)). rewrite last_clear in AT by lia. discriminate. }
    destruct (IH (k + 1) bits1) as (k' & bw & bits' & E' & K' & BN & BW & BT & BA'); [lia|lia|replace (b + (k + 1)) with (b + k + 1) by lia; exact BA1|].
    exists k', bw, bits'. split; [rewrite <- E'; f_equal; lia|]. split; [lia|]. split; [exact BN|]. split; [exact BW|]. split; [|exact BA'].
    intros j J. destruct (Z.lt_ge_cases j (64 * k + 64)); [apply AT; lia|apply BT; lia].
  - exists k, (Z.lxor ones w), bits1. split; [reflexivity|]. split; [lia|]. split; [exact N|]. split; [exact XO|]. split; [intros; lia|exact BA1].
Qed.

Lemma gap_loop_ok f : forall k bits bw p, 0 <= k < nw -> nw - k <= Z.of_nat f -> p <= 64 * k + 64 -> (forall q, k < q < nw -> bits (b + q) = bits0 (b + q)) ->
  word_is bw k (fun j => (p <=? j) && B j) ->
  (gap_loop f bits (b + k + 1) (b + nw) (256 * k) bw = Ok None /\ forall j, Z.max p (64 * k) <= j < 64 * nw -> B j = false) \/
  (exists k' bw', gap_loop f bits (b + k + 1) (b + nw) (256 * k) bw = Ok (Some (b + k' + 1, 256 * k', bw')) /\ k <= k' < nw /\ bw' <> 0 /\
    word_is bw' k' (fun j => (p <=? j) && B j) /\ forall j, Z.max p (64 * k) <= j < 64 * k' -> B j = false).
Proof.
  induction f as [|f IH]; intros k bits bw p K KF P0 BI W; [lia|]. cbn [gap_loop].
  destruct (Z.eqb_spec bw 0) as [->|N]; cbn [negb].
  2:{ right. exists k, bw. split; [reflexivity|]. split; [lia|]. split; [exact N|]. split; [exact W|]. intros; lia. }
  assert (ZZ : forall j, Z.max p (64 * k) <= j < 64 * k + 64 -> B j = false).
  { intros j J. pose proof (word_zero k _ W j ltac:(lia)) as Q. cbv beta in Q. destruct (Z.leb_spec p j); [|lia]. exact Q. }
  destruct (Z.eqb_spec (b + k + 1) (b + nw)).
  - left. split; [reflexivity|]. intros j J. apply ZZ. lia.
  - destruct (word_at (k + 1) ltac:(lia)) as (w & E & WW). rewrite (load_some bits (b + k + 1) w).
    2:{ replace (b + k + 1) with (b + (k + 1)) by lia. rewrite BI by lia. exact E. }
    cbn [bind]. replace (b + k + 1 + 1) with (b + (k + 1) + 1) by lia. replace (256 * k + 256) with (256 * (k + 1)) by lia.
    destruct (IH (k + 1) bits w p) as [[E' Z']|(k' & bw' & E' & K' & BN & BW & Z')]; [lia|lia|lia|intros; apply BI; lia| | |].
    + eapply word_ext; [exact WW|]. intros j J. cbv beta. destruct (Z.leb_spec p j); [reflexivity|lia].
    + left. split; [exact E'|]. intros j J. destruct (Z.lt_ge_cases j (64 * k + 64)); [apply ZZ; lia|apply Z'; lia].
    + right. exists k', bw'. split; [exact E'|]. split; [lia|]. split; [exact BN|]. split; [exact BW|].
      intros j J. destruct (Z.lt_ge_cases j (64 * k + 64)); [apply ZZ; lia|apply Z'; lia].
Qed.

Lemma scan_ok f : forall k, 0 <= k < nw -> nw - k <= Z.of_nat f -> (forall j, 0 <= j < 64 * k -> B j = false) ->
  (scan f bits0 (b + k) (b + nw) (256 * k) 0 = Ok None /\ forall j, 0 <= j < 64 * nw -> B j = false) \/
  (exists k' w, scan f bits0 (b + k) (b + nw) (256 * k) 0 = Ok (Some (b + k' + 1, 256 * k', w)) /\ k <= k' < nw /\ w <> 0 /\ word_is w k' B /\
     forall j, 0 <= j < 64 * k' -> B j = false).
Proof.
  induction f as [|f IH]; intros k K KF Z0; [lia|]. cbn [scan]. destruct (word_at k K) as (w & E & W). rewrite (load_some _ _ _ E). cbn [bind].
  rewrite Z.lor_0_l. destruct (Z.eqb_spec w 0) as [->|N]; cbn [negb].
  2:{ right. exists k, w. split; [reflexivity|]. split; [lia|]. split; [exact N|]. split; [exact W|exact Z0]. }
  assert (ZZ : forall j, 0 <= j < 64 * (k + 1) -> B j = false).
  { intros j J. destruct (Z.lt_ge_cases j (64 * k)); [apply Z0; lia|]. apply (word_zero k _ W). lia. }
  destruct (Z.eqb_spec (b + k + 1) (b + nw)).
  - left. split; [reflexivity|]. intros j J. apply ZZ. lia.
  - replace (b + k + 1) with (b + (k + 1)) by lia. replace (256 * k + 256) with (256 * (k + 1)) by lia.
    destruct (IH (k + 1)) as [H|(k' & w & E' & K' & R)]; [lia|lia|exact ZZ|left; exact H|]. right. exists k', w. split; [exact E'|]. split; [lia|exact R].
Qed.

(* ---- groups ---- *)
Definition at_label (l : label) (w : @vars P) (g : Z) : Prop :=
  match l with
  | LMatch bw => exists k, 0 <= k < nw /\ v_bp w = b + k + 1 /\ v_xoff w = 256 * k /\ bits_at (v_bits w) (b + k + 1) /\ bw <> 0 /\
      word_is bw k (fun j => (g <=? j) && negb (B j)) /\ (forall j, g <= j < 64 * k -> B j = true)
  | LNext _ => exists k, 0 < k < nw /\ v_bp w = b + k /\ v_xoff w = 256 * (k - 1) /\ bits_at (v_bits w) (b + k) /\ g < 64 * k /\
      (forall j, g <= j < 64 * k -> B j = true)
  | LEnd _ _ => False
  end.
Definition at_group (w : @vars P) (g : Z) : Prop :=
  0 <= g /\ 4 * g <= xend /\ v_x0 w = 4 * g /\ v_cp w = c + 4 * g /\ v_cov w = w32 (131072 + cover v (4 * g - 1)) /\
  cells_at (v_cells w) (4 * g) /\ painted (v_s w) (4 * g).

Lemma bit_scan_ok l w g : 0 <= g -> at_label l w g ->
  exists i bw w' k, bit_scan n (b + nw) l w = Ok (i, bw, w') /\ 0 <= k < nw /\ 0 <= i < 64 /\ v_bp w' = b + k + 1 /\ v_xoff w' = 256 * k /\
    bits_at (v_bits w') (b + k + 1) /\ g <= 64 * k + i /\ B (64 * k + i) = false /\ word_is bw k (fun j => (64 * k + i <=? j) && B j) /\
    v_cells w' = v_cells w /\ v_cp w' = v_cp w /\ v_x0 w' = v_x0 w /\ v_cov w' = v_cov w /\ v_s w' = v_s w.
Proof.
  intros G AT.
  assert (M : forall bw (w : @vars P) k, 0 <= k < nw -> bw <> 0 -> word_is bw k (fun j => (g <=? j) && negb (B j)) ->
    exists i bw', (let* i := ctz64 bw in let* tmp := shift_to_end ones i in Ok (i, Z.lxor bw tmp, w)) = Ok (i, bw', w) /\ 0 <= i < 64 /\ g <= 64 * k + i /\
      B (64 * k + i) = false /\ word_is bw' k (fun j => (64 * k + i <=? j) && B j)).
  { clear l w AT. intros bw w k K N W. destruct (find _ _ _ W N) as (i & E & I & T & Z0). cbv beta in T, Z0. apply andb_true_iff in T. destruct T as [T1 T2].
    apply Z.leb_le in T1. apply negb_true_iff in T2. destruct (xor_end _ _ _ i W I) as (tmp & E2 & W2).
    exists i, (Z.lxor bw tmp). rewrite E. cbn [bind]. rewrite E2. cbn [bind]. split; [reflexivity|]. split; [exact I|]. split; [exact T1|]. split; [exact T2|].
    eapply word_ext; [exact W2|]. intros j J. cbv beta. destruct (Z.leb_spec (64 * k + i) j); cbn [andb].
    - destruct (Z.leb_spec g j); [|lia]. cbn [andb]. rewrite xorb_true_r, negb_involutive. reflexivity.
    - rewrite xorb_false_r. apply Z0. lia. }
  destruct l as [bw|i0|i0 bw]; [| |destruct AT].
  - destruct AT as (k & K & BP & XO & BA & N & W & _). destruct (M bw w k K N W) as (i & bw' & E & R). exists i, bw', w, k.
    split; [unfold bit_scan; cbn [bind]; destruct (ctz64 bw); cbn [bind] in *; try discriminate; exact E|]. split; [exact K|]. destruct R as (I & GI & BF & W').
    repeat (split; [assumption|]). repeat split.
  - destruct AT as (k & K & BP & XO & BA & GK & TR). destruct (next_loop_ok n k (v_bits w) ltac:(lia) ltac:(lia) BA) as (k' & bw & bits' & E & K' & N & W & TR' & BA').
    set (w1 := Vars bits' (b + k' + 1) (256 * k') (v_cells w) (v_cp w) (v_x0 w) (v_cov w) (v_s w)).
    assert (W1 : word_is bw k' (fun j => (g <=? j) && negb (B j))).
    { eapply word_ext; [exact W|]. intros j J. cbv beta. destruct (Z.leb_spec g j); [reflexivity|lia]. }
    destruct (M bw w1 k' ltac:(lia) N W1) as (i & bw' & E2 & I & GI & BF & W').
    exists i, bw', w1, k'. split.
    { unfold bit_scan. rewrite BP, XO, E. cbn [bind]. destruct (Z.eqb_spec bw 0); [contradiction|]. cbn [bind]. fold w1.
      destruct (ctz64 bw); cbn [bind] in *; try discriminate; exact E2. }
    split; [lia|]. split; [exact I|]. split; [reflexivity|]. split; [reflexivity|]. split; [exact BA'|]. repeat (split; [assumption|]). repeat split.
Qed.

Definition finished (w : @vars P) : Prop :=
  bits_at (v_bits w) (b + nw) /\ cells_at (v_cells w) (xend + 1) /\ s_dst (v_s w) - v_x0 w = D /\ s_fy (v_s w) = y /\
  exists s, painted s xend /\ s_mem s = s_mem (v_s w).

Context (OP : optimize = true -> forall x y d, comp x y d 255 = comp_opaque x y d).
Lemma groups_ok f : forall l w g, 64 * nw - g <= Z.of_nat f -> at_label l w g -> at_group w g ->
  exists w', groups comp comp_opaque optimize rule alpha xend f n (b + nw) l w = Ok w' /\ finished w'.
Proof.
  induction f as [|f IH]; intros l w g FU AL' AG.
  { exfalso. destruct AG as (G & GX & _). lia. }
  destruct AG as (G & GX & EX & EC & ECOV & CA & PA).
  destruct (bit_scan_ok l w g G AL') as (i & bw & w1 & k & E & K & I & BP & XO & BA & GI & BF & W & E1 & E2 & E3 & E4 & E5).
  cbn [groups]. rewrite E. cbn [bind]. rewrite E1, E2, E3, E4, E5, EX, EC, ECOV, XO. set (e := 64 * k + i) in *.
  replace (i * 4 + 256 * k) with (4 * e) by (unfold e; lia).
  set (X := if xend <? 4 * e then xend else 4 * e). assert (XX : X = Z.min xend (4 * e)) by (unfold X; destruct (Z.ltb_spec xend (4 * e)); lia). clearbody X.
  replace (4 * g + (X - 4 * g)) with X by lia.
  destruct (vloop_ok (Z.to_nat (X - 4 * g)) (4 * g) (v_cells w) (v_s w)) as (cells & s & EV & CA' & PA'); [lia|lia|exact CA|exact PA|].
  rewrite EV. cbn [bind]. replace (4 * g + Z.of_nat (Z.to_nat (X - 4 * g))) with X in * by lia. cbv beta.
  destruct (Z.leb_spec xend X) as [XE|XE].
  { eexists. split; [reflexivity|]. unfold finished. cbn [v_bits v_cells v_s v_x0]. replace X with xend in * by lia.
    split; [|split; [exact CA'|]].
    - apply (bits_done _ (k + 1)); [lia|replace (b + (k + 1)) with (b + k + 1) by lia; exact BA|]. intros j J. apply beyond; [lia|]. unfold e in *. lia.
    - destruct PA' as (A1 & A2 & A3 & A4). cbn [s_dst s_fy] in A1, A3. split; [lia|]. split; [exact A3|]. exists s. split; [|reflexivity].
      split; [exact A1|]. split; [exact A2|]. split; [exact A3|exact A4]. }
  assert (XE' : X = 4 * e) by lia. clear XX. subst X. cbn [v_bits v_bp v_xoff]. rewrite BP.
  destruct (gap_loop_ok (S n) k (v_bits w1) bw e) as [[EG Z0]|(k' & bw' & EG & K' & N & W' & Z0)]; [lia|lia|unfold e; lia| |exact W| |].
  { intros q Q. apply (bits_in _ (k + 1)); [replace (b + (k + 1)) with (b + k + 1) by lia; exact BA|lia]. }
  - rewrite EG. cbn [bind]. eexists. split; [reflexivity|]. unfold finished. cbn [v_bits v_cells v_s v_x0].
    assert (Z1 : forall j, e <= j < 64 * nw -> B j = false) by (intros j J; apply Z0; unfold e in *; lia).
    assert (V0 : forall x, 4 * e < x <= xend -> v x = 0) by (intros x XX; apply (flat e (64 * nw)); [exact Z1|lia|lia|lia]).
    assert (F0 : forall x, 4 * e <= x < 4 * e + (xend - 4 * e) -> F x = 0).
    { intros x XX. cbv beta. rewrite <- (cover_flat v x xend) by (try lia; intros; apply V0; lia). destruct RO as (_ & _ & _ & _ & _ & TOT). rewrite TOT.
      clear. unfold fill_mask_of, even_odd, non_zero, winding256. destruct eo; reflexivity. }
    split; [apply (bits_done _ (k + 1)); [lia|replace (b + (k + 1)) with (b + k + 1) by lia; exact BA|intros j J; apply Z1; unfold e; lia]|].
    split; [apply (cells_skip cells (4 * e + 1)); [lia|lia|exact CA'|intros x XX; apply V0; lia]|].
    pose proof (paint_skip s (4 * e) (xend - 4 * e) ltac:(lia) ltac:(lia) PA' F0) as PS. replace (4 * e + (xend - 4 * e)) with xend in PS by lia.
    destruct PA' as (A1 & A2 & A3 & A4). cbn [s_dst s_fy] in A1, A3. split; [lia|]. split; [exact A3|]. eexists. split; [exact PS|reflexivity].
  - rewrite EG. cbn [bind]. destruct (find _ _ _ W' N) as (i' & EI & I' & T & ZF). cbv beta in T, ZF. apply andb_true_iff in T. destruct T as [T1 T2]. apply Z.leb_le in T1.
    rewrite EI. cbn [bind]. destruct (xor_end _ _ _ i' W' I') as (tmp & ET & WT). rewrite ET. cbn [bind].
    set (g' := 64 * k' + i') in *.
    assert (GE : e < g'). { destruct (Z.eq_dec e g') as [Q|]; [|lia]. rewrite <- Q, BF in T2. discriminate. }
    assert (GB : 4 * g' <= xend). { destruct RO as (_ & _ & _ & MK & _). apply MK; [unfold g'; lia|exact T2]. }
    assert (Z1 : forall j, e <= j < g' -> B j = false).
    { intros j J. destruct (Z.lt_ge_cases j (64 * k')); [apply Z0; unfold e; lia|]. specialize (ZF j ltac:(unfold g' in *; lia)).
      destruct (Z.leb_spec e j); [exact ZF|lia]. }
    replace (b + k' + 1 - 1) with (b + k') by lia.
    destruct (bits_put (v_bits w1) (k + 1) k') as (bits' & EB & BA'); [lia|lia|replace (b + (k + 1)) with (b + k + 1) by lia; exact BA|intros j J; apply Z1; unfold e, g'; lia|].
    rewrite EB. cbn [bind]. replace (i' * 4 + 256 * k' - 4 * e) with (4 * g' - 4 * e) by (unfold g'; lia). replace (4 * e + (4 * g' - 4 * e)) with (4 * g') by lia.
    destruct (Z.ltb_spec xend (4 * g')); [lia|].
    assert (V0 : forall x, 4 * e < x < 4 * g' -> v x = 0) by (intros x XX; apply (flat e g'); [exact Z1|lia|lia|lia]).
    assert (FC : forall x, 4 * e <= x < 4 * g' -> F x = F (4 * e)).
    { intros x XX. cbv beta. rewrite (cover_flat v (4 * e) x) by (try lia; intros; apply V0; lia). reflexivity. }
    assert (PG : exists s', (if F (4 * e) =? 0 then Ok (advance_x (set_dst s (s_dst s + (4 * g' - 4 * e))) (4 * g' - 4 * e))
        else cspan comp comp_opaque optimize s (4 * g' - 4 * e) (F (4 * e))) = Ok s' /\ painted s' (4 * g')).
    { destruct (Z.eqb_spec (F (4 * e)) 0) as [Q|Q].
      - eexists. split; [reflexivity|]. replace (4 * g') with (4 * e + (4 * g' - 4 * e)) at 3 by lia. apply paint_skip; [lia|lia|exact PA'|].
        intros o O. rewrite FC by lia. exact Q.
      - destruct (cspan_ok comp comp_opaque optimize OP s (4 * g' - 4 * e) (F (4 * e))) as (s' & ES & DS); [lia|apply (paint_room s (4 * e)); [lia|lia|exact PA']|].
        exists s'. split; [exact ES|]. replace (4 * g') with (4 * e + (4 * g' - 4 * e)) by lia. apply (paint_more s s' (4 * e) (4 * g' - 4 * e) (fun _ => F (4 * e)) ltac:(lia) ltac:(lia) PA' DS).
        intros o O. symmetry. apply FC. lia. }
    cbv beta in PG. destruct PG as (s' & ES & PS). rewrite ES. cbn [bind].
    destruct (IH (if Z.lxor bw' tmp =? 0 then LNext (4 * g' - 4 * e) else LMatch (Z.lxor bw' tmp))
      (Vars bits' (b + k' + 1) (256 * k') cells (c + 4 * e + (4 * g' - 4 * e)) (4 * g') (w32 (131072 + cover v (4 * e))) s') g') as (w' & EW & FW).
    + lia.
    + assert (WG : word_is (Z.lxor bw' tmp) k' (fun j => (g' <=? j) && negb (B j))).
      { eapply word_ext; [exact WT|]. intros j J. cbv beta. fold g'. destruct (Z.leb_spec g' j); cbn [andb].
        - destruct (Z.leb_spec e j); [|lia]. cbn [andb]. apply xorb_true_r.
        - rewrite xorb_false_r. apply ZF. lia. }
      destruct (Z.eqb_spec (Z.lxor bw' tmp) 0) as [Q|Q]; cbn [at_label v_bp v_xoff v_bits].
      * rewrite Q in WG. pose proof (word_zero _ _ WG) as ZZ. cbv beta in ZZ.
        assert (TT : forall j, g' <= j < 64 * (k' + 1) -> B j = true).
        { intros j J. specialize (ZZ j ltac:(unfold g' in *; lia)). destruct (Z.leb_spec g' j); [|lia]. destruct (B j); [reflexivity|discriminate]. }
        exists (k' + 1). split; [|split; [lia|split; [lia|split; [replace (b + (k' + 1)) with (b + k' + 1) by lia; exact BA'|split; [unfold g'; lia|exact TT]]]]].
        destruct (Z.eq_dec (k' + 1) nw) as [Q'|]; [|lia]. specialize (TT (64 * nw - 1) ltac:(unfold g' in *; lia)). rewrite last_clear in TT by lia. discriminate.
      * exists k'. split; [lia|]. split; [reflexivity|]. split; [reflexivity|]. split; [exact BA'|]. split; [exact Q|]. split; [exact WG|]. intros; unfold g' in *; lia.
    + unfold at_group. cbn [v_x0 v_cp v_cov v_cells v_s]. split; [unfold g'; lia|]. split; [exact GB|]. split; [reflexivity|]. split; [lia|].
      split; [rewrite (cover_flat v (4 * e) (4 * g' - 1)) by (try lia; intros; apply V0; lia); reflexivity|].
      split; [apply (cells_skip cells (4 * e + 1)); [lia|lia|exact CA'|intros x XX; apply V0; lia]|exact PS].
    + exists w'. split; [exact EW|exact FW].
Qed.

Lemma scanline_ok fx : exists bits' cells' s', scanline comp comp_opaque optimize rule alpha xend n bits0 cells0 b c (St m0 D fx y) = Ok (bits', cells', s') /\
  cleared bits0 bits' b nw /\ cleared cells0 cells' c (xend + 1) /\ s_dst s' = D /\ s_fy s' = y /\
  forall a, s_mem s' a = let o := a - D in if (0 <=? o) && (o <? xend) then option_map (fun d => comp o y d (F o)) (m0 a) else m0 a.
Proof.
  unfold scanline. assert (P0 : painted (St m0 D 0 y) 0) by apply drawn_0.
  assert (C0 : cells_at cells0 0) by (intros a; destruct (Z.leb_spec c a), (Z.ltb_spec a (c + 0)); try lia; reflexivity).
  assert (B0 : bits_at bits0 (b + 0)) by (intros a; destruct (Z.leb_spec b a), (Z.ltb_spec a (b + 0)); try lia; reflexivity).
  assert (FZ : forall x, cover v x = 0 -> F x = 0) by (intros x Q; cbv beta; rewrite Q; clear; unfold fill_mask_of, even_odd, non_zero, winding256; destruct eo; reflexivity).
  assert (FIN : forall s, painted s xend -> forall a, s_mem s a = let o := a - D in if (0 <=? o) && (o <? xend) then option_map (fun d => comp o y d (F o)) (m0 a) else m0 a).
  { intros s (_ & _ & _ & A) a. rewrite A. cbn [s_dst s_fx s_fy s_mem]. cbv zeta. reflexivity. }
  destruct (scan_ok n 0) as [[E Z0]|(k & w & E & K & N & W & Z0)]; [lia|lia|intros; lia| |].
  - replace (b + 0) with b in E by lia. change (256 * 0) with 0 in E. rewrite E. cbn [bind]. do 3 eexists. split; [reflexivity|].
    assert (V0 : forall x, 0 <= x <= xend -> v x = 0) by (intros x XX; apply (flat0 (64 * nw)); [exact Z0|lia|lia]).
    split; [|split; [|split; [reflexivity|split; [reflexivity|]]]].
    + intros a. rewrite (bits_done bits0 0 ltac:(lia) B0 Z0 a) at 1. reflexivity.
    + intros a. rewrite (cells_skip cells0 0 (xend + 1) ltac:(lia) ltac:(lia) C0 ltac:(intros x XX; apply V0; lia) a) at 1. reflexivity.
    + intros a. rewrite <- (FIN (advance_x (set_dst (St m0 D 0 y) (D + xend)) xend)); [reflexivity|].
      apply (paint_skip (St m0 D 0 y) 0 xend ltac:(lia) ltac:(lia) P0). intros o O. apply FZ. rewrite (cover_flat v (-1) o) by (try lia; intros; apply V0; lia). apply cover_neg.
  - replace (b + 0) with b in E by lia. change (256 * 0) with 0 in E. rewrite E. cbn [bind].
    destruct (find _ _ _ W N) as (i & EI & I & T & ZF). cbv beta in ZF. rewrite EI. cbn [bind]. replace (b + k + 1 - 1) with (b + k) by lia.
    destruct (bits_put bits0 0 k) as (bits' & EB & BA'); [lia|lia|exact B0|intros; apply Z0; lia|]. rewrite EB. cbn [bind].
    destruct (xor_end _ _ _ i W I) as (tmp & ET & WT). rewrite ET. cbn [bind]. set (g := 64 * k + i) in *. replace (i * 4 + 256 * k) with (4 * g) by (unfold g; lia).
    assert (Z1 : forall j, 0 <= j < g -> B j = false) by (intros j J; destruct (Z.lt_ge_cases j (64 * k)); [apply Z0; lia|apply ZF; unfold g in *; lia]).
    assert (GX : 4 * g <= xend). { destruct RO as (_ & _ & _ & MK & _). apply MK; [unfold g; lia|exact T]. }
    assert (V0 : forall x, 0 <= x < 4 * g -> v x = 0) by (intros x XX; apply (flat0 g); [exact Z1|lia|lia]).
    assert (CV : forall x, -1 <= x < 4 * g -> cover v x = 0) by (intros x XX; rewrite (cover_flat v (-1) x) by (try lia; intros; apply V0; lia); apply cover_neg).
    assert (PG : painted (set_fx (set_dst (St m0 D fx y) (D + 4 * g)) (4 * g)) (4 * g)).
    { pose proof (paint_skip (St m0 D 0 y) 0 (4 * g) ltac:(lia) ltac:(unfold g; lia) P0 ltac:(intros o O; apply FZ; apply CV; lia)) as PS. exact PS. }
    cbn [s_dst].
    destruct (Z.leb_spec xend (4 * g)) as [XE|XE].
    + assert (CG : cells_at cells0 (4 * g)) by (apply (cells_skip cells0 0); [unfold g; lia|lia|exact C0|intros; apply V0; lia]).
      rewrite (store_some _ _ _ 0 (cell_at cells0 (4 * g) CG ltac:(unfold g in *; lia))). cbn [bind]. do 3 eexists. split; [reflexivity|].
      assert (BD : bits_at bits' (b + nw)).
      { apply (bits_done bits' (k + 1)); [lia|replace (b + (k + 1)) with (b + k + 1) by lia; exact BA'|]. intros j J. apply beyond; [lia|]. unfold g in *. lia. }
      replace (4 * g) with xend in * by lia.
      split; [|split; [|split; [cbn; lia|split; [reflexivity|]]]].
      * exact BD.
      * apply (cells_put cells0 xend X0 CG).
      * intros a. cbn [set_dst set_fx s_mem s_dst]. exact (FIN _ PG a).
    + assert (WG : word_is (Z.lxor w tmp) k (fun j => (g <=? j) && negb (B j))).
      { eapply word_ext; [exact WT|]. intros j J. cbv beta. fold g. destruct (Z.leb_spec g j); cbn [andb].
        - apply xorb_true_r.
        - rewrite xorb_false_r. apply ZF. lia. }
      set (bw := Z.lxor w tmp) in *.
      set (l := if negb (bw =? 0) then LMatch bw else if b + k + 1 =? b + nw then LEnd 64 bw else LNext 64).
      destruct (groups_ok (S (64 * n)) l (Vars bits' (b + k + 1) (256 * k) cells0 (c + 4 * g) (4 * g) 131072 (set_fx (set_dst (St m0 D fx y) (D + 4 * g)) (4 * g))) g) as (w' & EW & FW).
      * lia.
      * unfold l. destruct (Z.eqb_spec bw 0) as [Q|Q]; cbn [negb].
        -- rewrite Q in WG. pose proof (word_zero _ _ WG) as ZZ. cbv beta in ZZ.
           assert (TT : forall j, g <= j < 64 * (k + 1) -> B j = true).
           { intros j J. specialize (ZZ j ltac:(unfold g in *; lia)). destruct (Z.leb_spec g j); [|lia]. destruct (B j); [reflexivity|discriminate]. }
           destruct (Z.eqb_spec (b + k + 1) (b + nw)).
           { exfalso. specialize (TT (64 * nw - 1) ltac:(unfold g in *; lia)). rewrite last_clear in TT by lia. discriminate. }
           exists (k + 1). cbn [v_bp v_xoff v_bits]. split; [lia|]. split; [lia|]. split; [lia|].
           split; [replace (b + (k + 1)) with (b + k + 1) by lia; exact BA'|]. split; [unfold g; lia|exact TT].
        -- exists k. cbn [v_bp v_xoff v_bits]. split; [lia|]. split; [reflexivity|]. split; [reflexivity|]. split; [exact BA'|]. split; [exact Q|]. split; [exact WG|]. intros; unfold g in *; lia.
      * unfold at_group. cbn [v_x0 v_cp v_cov v_cells v_s]. split; [unfold g; lia|]. split; [lia|]. split; [reflexivity|]. split; [reflexivity|].
        split; [rewrite CV by (unfold g; lia); reflexivity|]. split; [apply (cells_skip cells0 0); [unfold g; lia|lia|exact C0|intros; apply V0; lia]|exact PG].
      * change (256 * 2 ^ 9) with 131072. rewrite EW. cbn [bind]. do 3 eexists. split; [reflexivity|]. destruct FW as (F1 & F2 & F3 & F4 & s & F5 & F6).
        split; [exact F1|]. split; [exact F2|]. split; [exact F3|]. split; [exact F4|]. intros a. cbn [set_dst s_mem]. rewrite <- F6. apply FIN. exact F5.
Qed.
End Row.
