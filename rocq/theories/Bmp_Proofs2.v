(* Proofs: the BMP run-length decoders draw what the stream describes, and where they can write. *)
From Verif Require Import Base Algorithm_Model Algorithm_Spec Algorithm_Proofs Qoi_Model Bmp_Model Bmp_Spec Bmp_Proofs.
Ltac Zify.zify_post_hook ::= idtac.

Lemma abs_bytes_req (four : bool) n : 0 <= n ->
  (if four then Z.land (Z.shiftr (n + 3) 1) (Z.lnot 1) else Z.shiftl (Z.shiftr (n + 1) 1) 1) = abs_bytes four n.
Proof.
  intros N. unfold abs_bytes. destruct four.
  - rewrite <- Z.ldiff_land. change 1 with (Z.ones 1) at 2. rewrite Z.ldiff_ones_r by lia.
    rewrite Z.shiftl_mul_pow2, !Z.shiftr_div_pow2 by lia. change (2 ^ 1) with 2.
    replace (n + 3) with (n + 1 + 1 * 2) by lia. rewrite Z.div_add by lia. lia.
  - rewrite Z.shiftl_mul_pow2, Z.shiftr_div_pow2 by lia. change (2 ^ 1) with 2. lia.
Qed.

Lemma abs_bytes_nat (four : bool) n : 0 <= n ->
  abs_bytes four n = Z.of_nat (if four then 2 * ((Z.to_nat n + 3) / 4) else 2 * ((Z.to_nat n + 1) / 2))%nat.
Proof.
  intros N. unfold abs_bytes. destruct four.
  - rewrite Nat2Z.inj_mul, Nat2Z.inj_div, Nat2Z.inj_add, Z2Nat.id by lia. change (Z.of_nat 4) with (2 * 2).
    change (Z.of_nat 2) with 2. change (Z.of_nat 3) with 3. rewrite <- Z.div_div by lia.
    replace (n + 3) with (n + 1 + 1 * 2) by lia. rewrite Z.div_add by lia. reflexivity.
  - rewrite Nat2Z.inj_mul, Nat2Z.inj_div, Nat2Z.inj_add, Z2Nat.id by lia. reflexivity.
Qed.

(* fewer pixels need no more bytes *)
Lemma abs_need (four : bool) i n : (i <= Z.to_nat n)%nat -> 0 <= n ->
  Z.of_nat (if four then 2 * ((i + 3) / 4) else 2 * ((i + 1) / 2))%nat <= abs_bytes four n.
Proof.
  intros I N. rewrite abs_bytes_nat by exact N. destruct four.
  - assert ((i + 3) / 4 <= (Z.to_nat n + 3) / 4)%nat by (apply Nat.div_le_mono; lia). lia.
  - assert ((i + 1) / 2 <= (Z.to_nat n + 1) / 2)%nat by (apply Nat.div_le_mono; lia). lia.
Qed.

Definition code_of (r : rle_result) : Z :=
  match r with
  | RlePicture _ => 0
  | RleTruncated => BL_ERROR_DATA_TRUNCATED
  | RleInvalid => BL_ERROR_DECOMPRESSION_FAILED
  end.

Lemma run_index_range four v k : is_byte v -> 0 <= run_index four v k < 256.
Proof.
  intros B. destruct (hi_nib v B) as [_ H], (lo_nib v B) as [_ L]. unfold is_byte in B.
  unfold run_index. destruct four; [destruct (Z.even k)|]; lia.
Qed.

Section Decode.
  Context (four : bool) (w h base stride : Z) (pal m0 : list Z).
  Context (W0 : 0 < w).
  Context (P256 : length pal = 256%nat).
  Let addr x y := base + y * stride + x.
  Let inside (x y : Z) := 0 <= x < w /\ 0 <= y < h.

  Definition rows_fit (rows : Z) : Prop :=
    forall y, 0 <= y < rows -> 0 <= base + y * stride /\ base + y * stride + w <= Z.of_nat (length m0).

  (* one run of either kind *)
  Lemma fill_ok i m d v : (0 <= d) -> d + Z.of_nat i <= Z.of_nat (length m) -> is_byte v ->
    exists m', (if four then let* c0 := rd pal (Z.shiftr v 4) in let* c1 := rd pal (Z.land v 15) in rle4_fill i m d c0 c1
                else let* c0 := rd pal v in rle_solid i m d c0) = Ok (m', d + Z.of_nat i) /\
      written m m' d (Z.of_nat i) (fun k => color_of pal (run_index four v k)).
  Proof.
    intros D L B. destruct (hi_nib v B) as [H0 HR0], (lo_nib v B) as [L0 LR0]. unfold is_byte in B.
    destruct four.
    - rewrite H0, L0, !rd_nth by lia. cbn [bind].
      destruct (rle4_fill_ok i i m d (nth (Z.to_nat (v / 16)) pal 0) (nth (Z.to_nat (v mod 16)) pal 0)) as (m' & E & W);
        [lia|lia|lia|].
      exists m'. split; [exact E|]. eapply written_ext; [|exact W]. intros k _. unfold run_index, color_of.
      now destruct (Z.even k).
    - rewrite rd_nth by lia. cbn [bind]. apply rle_solid_ok; lia.
  Qed.

  Lemma abs_ok i p m d : 0 <= d -> d + Z.of_nat i <= Z.of_nat (length m) -> bytes p ->
    ((if four then 2 * ((i + 3) / 4) else 2 * ((i + 1) / 2)) <= length p)%nat ->
    exists m', (if four then rle4_abs i pal p m d else rle8_abs i pal p m d) =
        Ok (skipn (if four then 2 * ((i + 3) / 4) else 2 * ((i + 1) / 2))%nat p, m', d + Z.of_nat i) /\
      written m m' d (Z.of_nat i) (fun k => color_of pal (abs_index four p k)).
  Proof.
    intros D L B R. destruct four.
    - apply (rle4_abs_ok i); auto.
    - apply (rle8_abs_ok i); auto.
  Qed.

  (* ------------------------------------------------ correctness ---- *)

  Definition inv (m : list Z) (c : canvas) (x y : Z) : Prop :=
    length m = length m0 /\
    (forall x' y', inside x' y' -> y' < y \/ y' = y /\ x' < x -> elem_at m (addr x' y') = Some (c x' y')) /\
    (forall x' y', 0 <= x' < w -> y < y' \/ y' = y /\ x <= x' -> c x' y' = 0) /\
    (forall j, (forall x' y', inside x' y' -> addr x' y' <> j) -> elem_at m j = elem_at m0 j).

  Context (APART : w <= Z.abs stride).

  Lemma addr_inj x y x' y' : 0 <= x < w -> 0 <= x' < w -> addr x y = addr x' y' -> x = x' /\ y = y'.
  Proof.
    unfold addr. intros R R' E. assert (D : (y - y') * stride = x' - x) by lia.
    destruct (Z.eq_dec y y') as [->|N]; [split; [lia|reflexivity]|exfalso].
    assert (A : Z.abs ((y - y') * stride) < w) by (rewrite D; lia).
    rewrite Z.abs_mul in A. assert (1 <= Z.abs (y - y')) by lia. nia.
  Qed.

  Lemma inv_run m m' c x y n i f col : inv m c x y -> 0 <= x <= w -> 0 <= y < h -> 0 <= i ->
    i = Z.min n (w - x) -> written m m' (addr x y) i f -> (forall k, 0 <= k < i -> f k = col k) ->
    inv m' (paint c x y n col) (x + i) y.
  Proof.
    intros (L & Dn & Bl & Fr) X Y I0 I [LW W] F. split; [congruence|]. split; [|split].
    - intros x' y' IN O. rewrite W. unfold paint. pose proof IN as IN0. destruct IN as [RX RY].
      destruct (Z.leb_spec (addr x y) (addr x' y')), (Z.ltb_spec (addr x' y') (addr x y + i)); cbn [andb].
      + assert (Q : addr x' y' = addr (x + (addr x' y' - addr x y)) y) by (unfold addr; lia).
        apply addr_inj in Q as [Qx Qy]; [|lia|lia]. subst y'. rewrite Z.eqb_refl. cbn [andb].
        destruct (Z.leb_spec x x'), (Z.ltb_spec x' (x + n)); try lia. cbn [andb].
        rewrite F by lia. f_equal. f_equal. lia.
      + rewrite Dn; [|exact IN0|].
        * destruct (Z.eqb_spec y' y), (Z.leb_spec x x'), (Z.ltb_spec x' (x + n)); cbn [andb]; try reflexivity.
          subst y'. unfold addr in *. lia.
        * destruct O as [O|[-> O]]; [now left|]. right. split; [reflexivity|]. unfold addr in *. lia.
      + rewrite Dn; [|exact IN0|].
        * destruct (Z.eqb_spec y' y), (Z.leb_spec x x'), (Z.ltb_spec x' (x + n)); cbn [andb]; try reflexivity.
          subst y'. unfold addr in *. lia.
        * destruct O as [O|[-> O]]; [now left|]. right. split; [reflexivity|]. unfold addr in *. lia.
      + rewrite Dn; [|exact IN0|].
        * destruct (Z.eqb_spec y' y), (Z.leb_spec x x'), (Z.ltb_spec x' (x + n)); cbn [andb]; try reflexivity.
          subst y'. unfold addr in *. lia.
        * destruct O as [O|[-> O]]; [now left|]. right. split; [reflexivity|]. unfold addr in *. lia.
    - intros x' y' RX O. unfold paint.
      destruct (Z.eqb_spec y' y), (Z.leb_spec x x'), (Z.ltb_spec x' (x + n)); cbn [andb]; try lia; apply Bl; lia.
    - intros j J. rewrite W. destruct (Z.leb_spec (addr x y) j), (Z.ltb_spec j (addr x y + i)); cbn [andb]; try (apply Fr; exact J).
      exfalso. apply (J (x + (j - addr x y)) y); [split; lia|]. unfold addr. lia.
  Qed.

  Lemma inv_canvas m c c' x y : (forall x' y', 0 <= x' < w -> c x' y' = c' x' y') -> inv m c x y -> inv m c' x y.
  Proof.
    intros E (L & Dn & Bl & Fr). split; [exact L|]. split; [|split; [|exact Fr]].
    - intros x' y' IN O. rewrite <- E by apply IN. now apply Dn.
    - intros x' y' RX O. rewrite <- E by exact RX. now apply Bl.
  Qed.

  (* background pixels *)
  Lemma inv_bg m m' c x y i : inv m c x y -> 0 <= x <= w -> 0 <= y < h -> 0 <= i <= w - x ->
    written m m' (addr x y) i (fun _ => 0) -> inv m' c (x + i) y.
  Proof.
    intros I X Y R W. assert (Bl : forall x' y', 0 <= x' < w -> y < y' \/ y' = y /\ x <= x' -> c x' y' = 0) by apply I.
    apply inv_canvas with (c := paint c x y i (fun _ => 0)).
    - intros x' y' RX. unfold paint.
      destruct (Z.eqb_spec y' y), (Z.leb_spec x x'), (Z.ltb_spec x' (x + i)); cbn [andb]; try reflexivity.
      symmetry. apply Bl; [exact RX|lia].
    - apply inv_run with (m := m) (f := fun _ => 0); auto; lia.
  Qed.

  Lemma inv_next m c y : inv m c w y -> inv m c 0 (y + 1).
  Proof.
    intros (L & Dn & Bl & Fr). split; [exact L|]. split; [|split; [|exact Fr]].
    - intros x' y' IN O. apply Dn; [exact IN|]. destruct IN. lia.
    - intros x' y' RX O. apply Bl; [exact RX|]. lia.
  Qed.

  Context (FIT : rows_fit h).

  Lemma skip_rows_ok k : forall m c x y, inv m c x y -> 0 <= x <= w -> 0 <= y -> y + Z.of_nat k <= h ->
    exists m', rle_skip_rows k w stride m (addr 0 y) (addr x y) x =
        Ok (m', addr 0 (y + Z.of_nat k), addr (if (k =? 0)%nat then x else 0) (y + Z.of_nat k), if (k =? 0)%nat then x else 0) /\
      inv m' c (if (k =? 0)%nat then x else 0) (y + Z.of_nat k).
  Proof.
    induction k as [|k IH]; intros m c x y I X Y H.
    - exists m. cbn [rle_skip_rows Nat.eqb]. rewrite Z.add_0_r. split; [reflexivity|exact I].
    - cbn [rle_skip_rows]. pose proof I as (L & _). destruct (FIT y) as [F1 F2]; [lia|].
      destruct (rle_solid_ok (Z.to_nat (w - x)) m (addr x y) kRleBackground) as (m1 & E1 & W1); [unfold addr; lia|unfold addr; lia|].
      rewrite E1. cbn [bind fst]. replace (addr 0 y + stride) with (addr 0 (y + 1)) by (unfold addr; lia).
      assert (I1 : inv m1 c 0 (y + 1)).
      { apply inv_next. replace w with (x + (w - x)) at 1 by lia.
        apply inv_bg with (m := m); auto; try lia. rewrite Z2Nat.id in W1 by lia. exact W1. }
      destruct (IH m1 c 0 (y + 1) I1) as (m' & E' & I'); [lia|lia|lia|].
      exists m'. rewrite E'. cbn [Nat.eqb]. replace (y + Z.of_nat (S k)) with (y + 1 + Z.of_nat k) by lia.
      destruct (k =? 0)%nat; split; auto.
  Qed.

  Lemma inv_end m c : inv m c 0 h ->
    forall x y, inside x y -> elem_at m (addr x y) = Some (c x y).
  Proof. intros (_ & Dn & _) x y IN. apply Dn; [exact IN|]. destruct IN. lia. Qed.

  Definition good (r : rle_result) (out : outcome (Z * list Z)) : Prop :=
    exists m', out = Ok (code_of r, m') /\ length m' = length m0 /\
      (forall j, (forall x' y', inside x' y' -> addr x' y' <> j) -> elem_at m' j = elem_at m0 j) /\
      match r with
      | RlePicture c => forall x y, inside x y -> elem_at m' (addr x y) = Some (c x y)
      | _ => True
      end.

  Lemma inv_good_err m c x y r : inv m c x y -> (match r with RlePicture _ => False | _ => True end) ->
    good r (Ok (code_of r, m)).
  Proof. intros (L & _ & _ & Fr) R. exists m. split; [reflexivity|]. split; [exact L|]. split; [exact Fr|]. now destruct r. Qed.

  Lemma inv_good_end m c : inv m c 0 h -> good (RlePicture c) (Ok (0, m)).
  Proof.
    intros I. pose proof I as (L & _ & _ & Fr). exists m. split; [reflexivity|]. split; [exact L|]. split; [exact Fr|].
    now apply inv_end.
  Qed.

  Lemma decode_rle_good p x y c r b : rle four w h (color_of pal) p x y c r b -> b = true ->
    forall fuel m, bytes p -> 0 <= x <= w -> 0 <= y < h -> inv m c x y -> (length p < fuel)%nat ->
    good r (decode_rle fuel four w h stride pal p m (addr 0 y) (addr x y) x y).
  Proof.
    induction 1 as [p x y c SH|n v p x y c r b N R IH|n p x y c N SH|n q p x y c r b N LQ R IH|p x y c r b N R IH|p x y c N
      |p x y c|p x y c SH|dx dy p x y c O|dx dy p x y c O1 O2|dx dy p x y c r b O1 O2 R IH];
      intros PB fuel m B X Y I FU; (destruct fuel as [|fuel]; [lia|]); cbn [decode_rle].
    - (* end of the input *)
      destruct p as [|b0 [|b1 p]]; cbn [length] in SH; try lia; apply (inv_good_err m c x y RleTruncated I); exact Logic.I.
    - (* run *)
      apply bytes_cons in B as [B0 B]. apply bytes_cons in B as [B1 B]. unfold is_byte in B0.
      destruct (Z.eqb_spec n 0) as [|_]; [contradiction|]. cbn [negb]. cbv zeta.
      destruct (FIT y Y) as [F1 F2]. pose proof I as (L & _). cbn [length] in FU.
      destruct (fill_ok (Z.to_nat (Z.min n (w - x))) m (addr x y) v) as (m' & E & W); [unfold addr; lia|unfold addr; lia|exact B1|].
      assert (I' : inv m' (paint c x y n (fun k => color_of pal (run_index four v k))) (Z.min w (x + n)) y).
      { replace (Z.min w (x + n)) with (x + Z.min n (w - x)) by lia.
        rewrite Z2Nat.id in W by lia. eapply inv_run; [exact I|exact X|exact Y|lia|reflexivity|exact W|reflexivity]. }
      replace (x + Z.of_nat (Z.to_nat (Z.min n (w - x)))) with (Z.min w (x + n)) by lia.
      assert (D : addr x y + Z.of_nat (Z.to_nat (Z.min n (w - x))) = addr (Z.min w (x + n)) y) by (unfold addr; lia).
      rewrite D in E. specialize (IH PB fuel m' B ltac:(lia) Y I' ltac:(lia)).
      destruct four.
      + destruct (rd pal (Z.shiftr v 4)) as [c0| | |]; cbn [bind] in E |- *; try discriminate.
        destruct (rd pal (Z.land v 15)) as [c1| | |]; cbn [bind] in E |- *; try discriminate.
        rewrite E. cbn [bind fst snd]. exact IH.
      + destruct (rd pal v) as [c0| | |]; cbn [bind] in E |- *; try discriminate.
        rewrite E. cbn [bind fst snd]. exact IH.
    - (* short absolute run *)
      change (0 =? 0) with true. cbn [negb]. cbv zeta.
      destruct (Z.leb_spec kRleCount n); [|unfold kRleCount in *; lia]. rewrite abs_bytes_req by lia.
      destruct (Z.ltb_spec (Z.of_nat (length p)) (abs_bytes four n)); [|lia].
      apply (inv_good_err m c x y RleTruncated I); exact Logic.I.
    - (* absolute run *)
      apply bytes_cons in B as [_ B]. apply bytes_cons in B as [Bn B]. unfold is_byte in Bn.
      apply andb_true_iff in PB as [-> PB]. apply Z.leb_le in PB. cbn [length] in FU.
      change (0 =? 0) with true. cbn [negb]. cbv zeta.
      destruct (Z.leb_spec kRleCount n); [|unfold kRleCount in *; lia]. rewrite abs_bytes_req by lia.
      destruct (Z.ltb_spec (Z.of_nat (length (q ++ p))) (abs_bytes four n)) as [LT|GE]; [rewrite app_length in LT; lia|].
      replace (Z.min n (w - x)) with n by lia. replace (Z.of_nat (Z.to_nat n)) with n by lia.
      destruct (FIT y Y) as [F1 F2]. pose proof I as (L & _).
      assert (LN : (if four then 2 * ((Z.to_nat n + 3) / 4) else 2 * ((Z.to_nat n + 1) / 2))%nat = length q).
      { rewrite abs_bytes_nat in LQ by lia. destruct four; lia. }
      destruct (abs_ok (Z.to_nat n) (q ++ p) m (addr x y)) as (m' & E & W); [unfold addr; lia|unfold addr; lia|exact B| |].
      { rewrite LN, app_length. lia. }
      rewrite LN in E.
      rewrite E. cbn [bind]. replace (skipn (length q) (q ++ p)) with p.
      2:{ rewrite skipn_app, Nat.sub_diag, skipn_all. reflexivity. }
      replace (Z.min w (x + n)) with (x + n) in * by lia. replace (addr x y + Z.of_nat (Z.to_nat n)) with (addr (x + n) y) by (unfold addr; lia).
      apply IH; [reflexivity| |lia|exact Y| |rewrite app_length in FU; lia].
      { apply Forall_app in B as [_ B]. exact B. }
      rewrite Z2Nat.id in W by lia.
      eapply inv_run; [exact I|exact X|exact Y|lia|lia|exact W|].
      intros k K. cbv beta. f_equal.
      assert (KQ : ((if four then Z.to_nat (k / 2) else Z.to_nat k) < length q)%nat).
      { rewrite <- LN. clear - K. destruct four.
        - assert (Z.of_nat (Z.to_nat n + 3) = n + 3) by lia.
          assert (Q : k / 2 < 2 * ((n + 3) / 4)).
          { pose proof (Z.div_mod (n + 3) 4 ltac:(lia)) as D. pose proof (Z.mod_pos_bound (n + 3) 4 ltac:(lia)).
            apply Z.div_lt_upper_bound; lia. }
          assert (Z.of_nat ((Z.to_nat n + 3) / 4) = (n + 3) / 4) by (rewrite Nat2Z.inj_div; f_equal; lia).
          assert (0 <= k / 2) by (apply Z.div_pos; lia). lia.
        - assert (Z.of_nat ((Z.to_nat n + 1) / 2) = (n + 1) / 2) by (rewrite Nat2Z.inj_div; f_equal; lia).
          pose proof (Z.div_mod (n + 1) 2 ltac:(lia)) as D. pose proof (Z.mod_pos_bound (n + 1) 2 ltac:(lia)). lia. }
      unfold abs_index. destruct four; rewrite app_nth1 by exact KQ; reflexivity.
    - (* end of line *)
      apply bytes_cons in B as [_ B]. apply bytes_cons in B as [_ B]. cbn [length] in FU.
      change (0 =? 0) with true. cbn [negb]. change (kRleCount <=? 0) with false. cbv iota.
      change (0 =? kRleLine) with true. cbv iota. cbn [bind].
      destruct (skip_rows_ok (Z.to_nat (y + 1 - y)) m c x y I) as (m' & E & I'); [lia|lia|lia|].
      replace (y + 1 - y) with 1 in * by lia. change (Z.to_nat 1) with 1%nat in *. cbn [Nat.eqb] in E, I'.
      change (Z.of_nat 1) with 1 in *.
      rewrite E. cbn [bind]. change (Z.to_nat (0 - 0)) with 0%nat. cbn [rle_solid bind fst snd].
      rewrite Z.max_r by lia. change (0 =? kRleStop) with false. destruct (Z.eqb_spec (y + 1) h); [lia|]. cbn [orb].
      change (Z.max 0 0) with 0. apply IH; auto; lia.
    - (* end of the last line *)
      change (0 =? 0) with true. cbn [negb]. change (kRleCount <=? 0) with false. cbv iota.
      change (0 =? kRleLine) with true. cbv iota. cbn [bind].
      destruct (skip_rows_ok (Z.to_nat (y + 1 - y)) m c x y I) as (m' & E & I'); [lia|lia|lia|].
      replace (y + 1 - y) with 1 in * by lia. change (Z.to_nat 1) with 1%nat in *. cbn [Nat.eqb] in E, I'.
      change (Z.of_nat 1) with 1 in *.
      rewrite E. cbn [bind]. change (Z.to_nat (0 - 0)) with 0%nat. cbn [rle_solid bind fst snd].
      rewrite Z.max_r by lia. change (0 =? kRleStop) with false. destruct (Z.eqb_spec (y + 1) h); [|lia]. cbn [orb].
      apply inv_good_end. replace h with (y + 1) by lia. exact I'.
    - (* end of bitmap *)
      change (0 =? 0) with true. cbn [negb]. change (kRleCount <=? 1) with false. cbv iota.
      change (1 =? kRleLine) with false. change (1 =? kRleMove) with false. cbv iota. cbn [bind].
      destruct (skip_rows_ok (Z.to_nat (h - y)) m c x y I) as (m' & E & I'); [lia|lia|lia|].
      destruct (Nat.eqb_spec (Z.to_nat (h - y)) 0) as [|_]; [lia|].
      rewrite Z2Nat.id in E, I' by lia. replace (y + (h - y)) with h in * by lia.
      rewrite E. cbn [bind]. change (Z.to_nat (0 - 0)) with 0%nat. cbn [rle_solid bind fst snd].
      change (1 =? kRleStop) with true. cbn [orb]. now apply inv_good_end.
    - (* short move *)
      change (0 =? 0) with true. cbn [negb]. change (kRleCount <=? 2) with false. cbv iota.
      change (2 =? kRleLine) with false. change (2 =? kRleMove) with true. cbv iota.
      destruct p as [|b0 [|b1 p]]; cbn [length] in SH; try lia; cbn [bind];
        apply (inv_good_err m c x y RleTruncated I); exact Logic.I.
    - (* move outside *)
      change (0 =? 0) with true. cbn [negb]. change (kRleCount <=? 2) with false. cbv iota.
      change (2 =? kRleLine) with false. change (2 =? kRleMove) with true. cbv iota.
      destruct (Z.ltb_spec w (x + dx)), (Z.ltb_spec h (y + dy)); try lia; cbn [orb bind];
        apply (inv_good_err m c x y RleInvalid I); exact Logic.I.
    - (* move below the last row *)
      apply Z.eqb_eq in PB.
      change (0 =? 0) with true. cbn [negb]. change (kRleCount <=? 2) with false. cbv iota.
      change (2 =? kRleLine) with false. change (2 =? kRleMove) with true. cbv iota.
      destruct (Z.ltb_spec w (x + dx)), (Z.ltb_spec h (y + dy)); try lia; cbn [orb bind].
      destruct (skip_rows_ok (Z.to_nat (y + dy - y)) m c x y I) as (m' & E & I'); [lia|lia|lia|].
      destruct (Nat.eqb_spec (Z.to_nat (y + dy - y)) 0) as [|_]; [lia|].
      rewrite Z2Nat.id in E, I' by lia. replace (y + (y + dy - y)) with h in * by lia.
      rewrite E. cbn [bind]. rewrite PB. change (Z.to_nat (0 - 0)) with 0%nat. cbn [rle_solid bind fst snd].
      rewrite Z.max_r by lia. destruct (Z.eqb_spec (y + dy) h); [|lia]. rewrite orb_true_r. now apply inv_good_end.
    - (* move *)
      apply bytes_cons in B as [_ B]. apply bytes_cons in B as [_ B]. apply bytes_cons in B as [Bx B].
      apply bytes_cons in B as [By B]. unfold is_byte in Bx, By. cbn [length] in FU.
      change (0 =? 0) with true. cbn [negb]. change (kRleCount <=? 2) with false. cbv iota.
      change (2 =? kRleLine) with false. change (2 =? kRleMove) with true. cbv iota.
      destruct (Z.ltb_spec w (x + dx)), (Z.ltb_spec h (y + dy)); try lia; cbn [orb bind].
      destruct (skip_rows_ok (Z.to_nat (y + dy - y)) m c x y I) as (m' & E & I'); [lia|lia|lia|].
      set (x1 := if (Z.to_nat (y + dy - y) =? 0)%nat then x else 0) in *.
      assert (X1 : 0 <= x1 <= x) by (unfold x1; destruct (Nat.eqb _ _); lia).
      rewrite Z2Nat.id in E, I' by lia. replace (y + (y + dy - y)) with (y + dy) in * by lia.
      rewrite E. cbn [bind]. pose proof I' as (L' & _). destruct (FIT (y + dy)) as [F1 F2]; [lia|].
      destruct (rle_solid_ok (Z.to_nat (x + dx - x1)) m' (addr x1 (y + dy)) kRleBackground) as (m2 & E2 & W2);
        [unfold addr; lia|unfold addr; lia|].
      rewrite E2. cbn [bind fst snd]. rewrite !Z.max_r by lia. change (2 =? kRleStop) with false.
      destruct (Z.eqb_spec (y + dy) h); [lia|]. cbn [orb].
      replace (addr x1 (y + dy) + Z.of_nat (Z.to_nat (x + dx - x1))) with (addr (x + dx) (y + dy)) by (unfold addr; lia).
      apply IH; [exact PB|exact B|lia|lia| |lia].
      rewrite Z2Nat.id in W2 by lia. replace (x + dx) with (x1 + (x + dx - x1)) at 1 by lia.
      apply inv_bg with (m := m'); auto; lia.
  Qed.

  Lemma decode_rle_correct p r : 0 < h -> rle four w h (color_of pal) p 0 0 blank r true -> bytes p ->
    good r (decode_rle (S (length p)) four w h stride pal p m0 base base 0 0).
  Proof.
    intros H0 R B. replace base with (addr 0 0) by (unfold addr; lia).
    eapply decode_rle_good; [exact R|reflexivity|exact B|lia|lia| |lia].
    split; [reflexivity|]. split; [|split].
    - intros x' y' [IX IY] O. lia.
    - reflexivity.
    - reflexivity.
  Qed.
End Decode.
