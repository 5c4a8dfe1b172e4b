(* Proofs: every stream has a meaning; no stream makes the BMP run-length decoders write below row h. *)
From Verif Require Import Base Algorithm_Model Algorithm_Spec Algorithm_Proofs Qoi_Model Bmp_Model Bmp_Spec Bmp_Proofs Bmp_Proofs2.
Ltac Zify.zify_post_hook ::= idtac.

Lemma abs_bytes_pos (four : bool) n : 0 <= n -> 0 <= abs_bytes four n.
Proof. intros N. rewrite abs_bytes_nat by exact N. lia. Qed.

Lemma rle_total_fuel (four : bool) w h color n : forall p x y c, (length p <= n)%nat -> bytes p -> y < h ->
  exists r b, rle four w h color p x y c r b.
Proof.
  induction n as [|n IH]; intros p x y c L B Y.
  { exists RleTruncated, true. apply rle_short. lia. }
  destruct p as [|b0 [|b1 p]]; [exists RleTruncated, true; apply rle_short; cbn; lia..|].
  cbn [length] in L. apply bytes_cons in B as [B0 B]. apply bytes_cons in B as [B1 B]. unfold is_byte in B0, B1.
  destruct (Z.eq_dec b0 0) as [->|N].
  - destruct (Z.lt_ge_cases b1 3) as [S|G].
    + assert (b1 = 0 \/ b1 = 1 \/ b1 = 2) as [->|[->| ->]] by lia.
      * destruct (Z.lt_ge_cases (y + 1) h).
        -- destruct (IH p 0 (y + 1) c) as (r & b & R); [lia|exact B|assumption|]. exists r, b. now apply rle_line.
        -- exists (RlePicture c), true. now apply rle_line_end.
      * exists (RlePicture c), true. apply rle_stop.
      * destruct p as [|dx [|dy p]]; [exists RleTruncated, true; apply rle_move_short; cbn; lia..|].
        apply bytes_cons in B as [Bx B]. apply bytes_cons in B as [By B]. cbn [length] in L.
        destruct (Z.lt_ge_cases w (x + dx)); [exists RleInvalid, true; apply rle_move_out; lia|].
        destruct (Z.lt_ge_cases h (y + dy)); [exists RleInvalid, true; apply rle_move_out; lia|].
        destruct (Z.eq_dec (y + dy) h).
        -- exists (RlePicture c), (x + dx =? 0). now apply rle_move_end.
        -- destruct (IH p (x + dx) (y + dy) c) as (r & b & R); [lia|exact B|lia|]. exists r, b. apply rle_move; [lia|lia|exact R].
    + destruct (Z.lt_ge_cases (Z.of_nat (length p)) (abs_bytes four b1)) as [S|G2].
      * exists RleTruncated, true. now apply rle_abs_short.
      * assert (A := abs_bytes_pos four b1 ltac:(lia)).
        assert (P : p = firstn (Z.to_nat (abs_bytes four b1)) p ++ skipn (Z.to_nat (abs_bytes four b1)) p)
          by (symmetry; apply firstn_skipn).
        destruct (IH (skipn (Z.to_nat (abs_bytes four b1)) p) (Z.min w (x + b1)) y
          (paint c x y b1 (fun k => color (abs_index four (firstn (Z.to_nat (abs_bytes four b1)) p) k)))) as (r & b & R).
        { rewrite skipn_length. lia. }
        { rewrite P in B. now apply Forall_app in B as [_ B]. }
        { exact Y. }
        exists r, (b && (x + b1 <=? w)). rewrite P. apply rle_abs; [lia| |exact R].
        rewrite firstn_length. lia.
  - destruct (IH p (Z.min w (x + b0)) y (paint c x y b0 (fun k => color (run_index four b1 k)))) as (r & b & R);
      [lia|exact B|exact Y|]. exists r, b. now apply rle_run.
Qed.

Lemma rle_total (four : bool) w h color p : 0 < h -> bytes p -> exists r b, rle four w h color p 0 0 blank r b.
Proof. intros H B. eapply rle_total_fuel; [apply Nat.le_refl|exact B|exact H]. Qed.

Section Safe.
  Context (four : bool) (w h base stride : Z) (pal m0 : list Z).
  Context (W0 : 0 < w) (P256 : length pal = 256%nat).
  Let addr x y := base + y * stride + x.
  (* one row more than the picture has *)
  Context (FIT : rows_fit w base stride m0 (h + 1)).

  Definition kept (m : list Z) : Prop :=
    length m = length m0 /\
    forall j, (forall x y, 0 <= x < w -> 0 <= y <= h -> addr x y <> j) -> elem_at m j = elem_at m0 j.

  Lemma kept_run m m' x y i f : kept m -> 0 <= x -> 0 <= y <= h -> x + i <= w -> written m m' (addr x y) i f -> kept m'.
  Proof.
    intros [L K] X Y I [LW W]. split; [congruence|]. intros j J. rewrite W.
    destruct (Z.leb_spec (addr x y) j), (Z.ltb_spec j (addr x y + i)); cbn [andb]; try (apply K; exact J).
    exfalso. apply (J (x + (j - addr x y)) y); [lia|exact Y|unfold addr; lia].
  Qed.

  Lemma skip_rows_kept k : forall m x y, kept m -> 0 <= x <= w -> 0 <= y -> y + Z.of_nat k <= h ->
    exists m', rle_skip_rows k w stride m (addr 0 y) (addr x y) x =
        Ok (m', addr 0 (y + Z.of_nat k), addr (if (k =? 0)%nat then x else 0) (y + Z.of_nat k), if (k =? 0)%nat then x else 0) /\
      kept m'.
  Proof.
    induction k as [|k IH]; intros m x y K X Y H.
    - exists m. cbn [rle_skip_rows Nat.eqb]. rewrite Z.add_0_r. split; [reflexivity|exact K].
    - cbn [rle_skip_rows]. pose proof K as (L & _). destruct (FIT y) as [F1 F2]; [lia|].
      destruct (rle_solid_ok (Z.to_nat (w - x)) m (addr x y) kRleBackground) as (m1 & E1 & W1); [unfold addr; lia|unfold addr; lia|].
      rewrite E1. cbn [bind fst]. replace (addr 0 y + stride) with (addr 0 (y + 1)) by (unfold addr; lia).
      assert (K1 : kept m1) by (apply (kept_run m m1 x y _ _ K) in W1; auto; lia).
      destruct (IH m1 0 (y + 1) K1) as (m' & E' & K'); [lia|lia|lia|].
      exists m'. rewrite E'. cbn [Nat.eqb]. replace (y + Z.of_nat (S k)) with (y + 1 + Z.of_nat k) by lia.
      destruct (k =? 0)%nat; split; auto.
  Qed.

  Definition fine (out : outcome (Z * list Z)) : Prop :=
    exists code m', out = Ok (code, m') /\ In code [0; BL_ERROR_DATA_TRUNCATED; BL_ERROR_DECOMPRESSION_FAILED] /\ kept m'.

  Lemma fine_ret code m : kept m -> In code [0; BL_ERROR_DATA_TRUNCATED; BL_ERROR_DECOMPRESSION_FAILED] -> fine (Ok (code, m)).
  Proof. intros K I. exists code, m. auto. Qed.

  Lemma decode_rle_fine fuel : forall p m x y, bytes p -> 0 <= x <= w -> 0 <= y < h -> kept m -> (length p < fuel)%nat ->
    fine (decode_rle fuel four w h stride pal p m (addr 0 y) (addr x y) x y).
  Proof.
    induction fuel as [|fuel IH]; intros p m x y B X Y K FU; [lia|]. cbn [decode_rle].
    destruct p as [|b0 [|b1 p]]; [apply fine_ret; [exact K|right; left; reflexivity]..|].
    cbn [length] in FU. apply bytes_cons in B as [B0 B]. apply bytes_cons in B as [B1 B].
    pose proof B0 as B0'. pose proof B1 as B1'. unfold is_byte in B0', B1'.
    destruct (FIT y) as [F1 F2]; [lia|]. pose proof K as (L & _).
    destruct (Z.eqb_spec b0 0) as [->|N]; cbn [negb]; cbv zeta.
    - destruct (Z.leb_spec kRleCount b1) as [G|G]; unfold kRleCount in G.
      + rewrite abs_bytes_req by lia.
        destruct (Z.ltb_spec (Z.of_nat (length p)) (abs_bytes four b1)); [apply fine_ret; [exact K|right; left; reflexivity]|].
        set (i := Z.to_nat (Z.min b1 (w - x))) in *.
        assert (I1 : Z.of_nat i = Z.min b1 (w - x)) by (unfold i; lia).
        destruct (abs_ok four pal P256 i p m (addr x y)) as (m' & E & W); [unfold addr; lia|unfold addr; lia|exact B| |].
        { pose proof (abs_need four i b1 ltac:(unfold i; lia) ltac:(lia)). lia. }
        rewrite E. cbn [bind].
        replace (addr x y + Z.of_nat i) with (addr (x + Z.of_nat i) y) by (unfold addr; lia).
        apply IH; [|lia|exact Y| |].
        * rewrite <- (firstn_skipn (if four then 2 * ((i + 3) / 4) else 2 * ((i + 1) / 2))%nat p) in B.
          now apply Forall_app in B as [_ B].
        * apply (kept_run m m' x y _ _ K) in W; auto; lia.
        * rewrite skipn_length. lia.
      + assert (b1 = 0 \/ b1 = 1 \/ b1 = 2) as [->|[->| ->]] by lia.
        * change (0 =? kRleLine) with true. cbv iota. cbn [bind].
          destruct (skip_rows_kept (Z.to_nat (y + 1 - y)) m x y K) as (m' & E & K'); [lia|lia|lia|].
          replace (y + 1 - y) with 1 in * by lia. change (Z.to_nat 1) with 1%nat in *. cbn [Nat.eqb] in E.
          change (Z.of_nat 1) with 1 in *.
          rewrite E. cbn [bind]. change (Z.to_nat (0 - 0)) with 0%nat. cbn [rle_solid bind fst snd].
          rewrite Z.max_r by lia. change (0 =? kRleStop) with false.
          destruct (Z.eqb_spec (y + 1) h); cbn [orb]; [apply fine_ret; [exact K'|left; reflexivity]|].
          change (Z.max 0 0) with 0. apply IH; auto; lia.
        * change (1 =? kRleLine) with false. change (1 =? kRleMove) with false. cbv iota. cbn [bind].
          destruct (skip_rows_kept (Z.to_nat (h - y)) m x y K) as (m' & E & K'); [lia|lia|lia|].
          destruct (Nat.eqb_spec (Z.to_nat (h - y)) 0) as [|_]; [lia|].
          rewrite E. cbn [bind]. change (Z.to_nat (0 - 0)) with 0%nat. cbn [rle_solid bind fst snd].
          change (1 =? kRleStop) with true. cbn [orb]. apply fine_ret; [exact K'|left; reflexivity].
        * change (2 =? kRleLine) with false. change (2 =? kRleMove) with true. cbv iota.
          destruct p as [|dx [|dy p]]; cbn [bind]; [apply fine_ret; [exact K|right; left; reflexivity]..|].
          apply bytes_cons in B as [Bx B]. apply bytes_cons in B as [By B]. unfold is_byte in Bx, By. cbn [length] in FU.
          destruct (Z.ltb_spec w (x + dx)), (Z.ltb_spec h (y + dy)); cbn [orb bind];
            try (apply fine_ret; [exact K|right; right; left; reflexivity]).
          destruct (skip_rows_kept (Z.to_nat (y + dy - y)) m x y K) as (m' & E & K'); [lia|lia|lia|].
          set (x1 := if (Z.to_nat (y + dy - y) =? 0)%nat then x else 0) in *.
          assert (X1 : 0 <= x1 <= x) by (unfold x1; destruct (Nat.eqb _ _); lia).
          rewrite Z2Nat.id in E by lia. replace (y + (y + dy - y)) with (y + dy) in * by lia.
          rewrite E. cbn [bind]. pose proof K' as (L' & _). destruct (FIT (y + dy)) as [F3 F4]; [lia|].
          destruct (rle_solid_ok (Z.to_nat (x + dx - x1)) m' (addr x1 (y + dy)) kRleBackground) as (m2 & E2 & W2);
            [unfold addr; lia|unfold addr; lia|].
          rewrite E2. cbn [bind fst snd]. rewrite !Z.max_r by lia. change (2 =? kRleStop) with false.
          assert (K2 : kept m2) by (apply (kept_run m' m2 x1 (y + dy) _ _ K') in W2; auto; lia).
          destruct (Z.eqb_spec (y + dy) h); cbn [orb]; [apply fine_ret; [exact K2|left; reflexivity]|].
          replace (addr x1 (y + dy) + Z.of_nat (Z.to_nat (x + dx - x1))) with (addr (x + dx) (y + dy)) by (unfold addr; lia).
          apply IH; auto; lia.
    - set (i := Z.to_nat (Z.min b0 (w - x))) in *.
      assert (I1 : Z.of_nat i = Z.min b0 (w - x)) by (unfold i; lia).
      destruct (fill_ok four w h base stride pal P256 i m (addr x y) b1) as (m' & E & W); [unfold addr; lia|unfold addr; lia|exact B1|].
      assert (K' : kept m') by (apply (kept_run m m' x y _ _ K) in W; auto; lia).
      assert (D : addr x y + Z.of_nat i = addr (x + Z.of_nat i) y) by (unfold addr; lia).
      rewrite D in E. specialize (IH p m' (x + Z.of_nat i) y B ltac:(lia) Y K' ltac:(lia)).
      destruct four.
      + destruct (rd pal (Z.shiftr b1 4)) as [c0| | |]; cbn [bind] in E |- *; try discriminate.
        destruct (rd pal (Z.land b1 15)) as [c1| | |]; cbn [bind] in E |- *; try discriminate.
        rewrite E. cbn [bind fst snd]. exact IH.
      + destruct (rd pal b1) as [c0| | |]; cbn [bind] in E |- *; try discriminate.
        rewrite E. cbn [bind fst snd]. exact IH.
  Qed.

  Lemma decode_rle_safe p : 0 < h -> bytes p -> fine (decode_rle (S (length p)) four w h stride pal p m0 base base 0 0).
  Proof.
    intros H0 B. replace base with (addr 0 0) by (unfold addr; lia).
    apply decode_rle_fine; [exact B|lia|lia|split; reflexivity|lia].
  Qed.
End Safe.
