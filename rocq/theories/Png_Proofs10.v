(* Decoding the pixel data: filtering every pass, then conversion or deinterlacing. *)
From Verif Require Import Base Bits IntOps_Model IntOps_Spec IntOps_Proofs2 Algorithm_Model Algorithm_Proofs Png_Model Png_Spec Png_Proofs Png_Proofs2 Png_Proofs3 Png_Proofs4 Png_Proofs5 Png_Proofs6 Png_Proofs7 Png_Proofs8 Png_Proofs9.
From Coq Require Import ZifyBool Permutation.

(* ------------------------------------------------------------------ reconstruction only depends on its own bytes *)

Lemma reconstructed_ext bpp bpl base h raw raw' out out' : 0 <= bpp -> 1 <= bpl -> 0 <= base ->
  (forall j, base <= j < base + h * bpl -> get raw j = get raw' j) -> (forall j, base <= j < base + h * bpl -> get out j = get out' j) ->
  reconstructed bpp bpl base h raw out -> reconstructed bpp bpl base h raw' out'.
Proof.
  intros Hp Hl Hb Er Eo R y x Hy Hx.
  assert (I : forall y' x', 0 <= y' < h -> 0 <= x' < bpl - 1 -> base <= base + y' * bpl + 1 + x' < base + h * bpl).
  { intros y' x' Hy' Hx'. assert (0 <= y' * bpl /\ y' * bpl + bpl <= h * bpl) by nia. lia. }
  assert (I0 : base <= base + y * bpl < base + h * bpl) by (assert (0 <= y * bpl /\ y * bpl + bpl <= h * bpl) by nia; lia).
  specialize (R y x Hy Hx). cbv zeta in R |- *. rewrite <- (Eo _ I0), <- (Er _ I0), <- (Er _ (I y x Hy Hx)).
  assert (A : forall y' x', y' < h -> x' < bpl - 1 -> (if (y' <? 0) || (x' <? 0) then 0 else get out (base + y' * bpl + 1 + x')) =
                                (if (y' <? 0) || (x' <? 0) then 0 else get out' (base + y' * bpl + 1 + x'))).
  { intros y' x' H1 H2. destruct (Z.ltb_spec y' 0); [reflexivity|]. destruct (Z.ltb_spec x' 0); [reflexivity|]. cbn [orb]. apply Eo, I; lia. }
  rewrite <- !A by lia. exact R.
Qed.

(* ------------------------------------------------------------------ the passes *)

Lemma sample_depth_cases sd sc : sample_ok sd sc -> let D := sd * sc in D = 1 \/ D = 2 \/ D = 4 \/ exists N, 1 <= N <= 8 /\ D = 8 * N.
Proof.
  intros [(-> & [->|[->|[->|[->| ->]]]])|(H & [->| ->])]; cbv zeta; [left|right;left|right;right;left|right;right;right; exists 1|right;right;right; exists 2|right;right;right; exists sc|right;right;right; exists (2 * sc)]; lia.
Qed.
Lemma sample_depth_pos sd sc : sample_ok sd sc -> 1 <= sd * sc <= 64.
Proof. intros S. destruct (sample_depth_cases _ _ S) as [->|[->|[->|(N & ? & ->)]]]; lia. Qed.

Lemma bpp_le D w : (D = 1 \/ D = 2 \/ D = 4 \/ exists N, 1 <= N <= 8 /\ D = 8 * N) -> 1 <= w -> 1 <= Z.max (D / 8) 1 <= row_bytes_spec D w - 1.
Proof.
  intros HD Hw. unfold row_bytes_spec.
  assert (w * D >= D) by (assert (0 <= D) by (destruct HD as [->|[->|[->|(N & ? & ->)]]]; lia); nia).
  destruct HD as [->|[->|[->|(N & ? & ->)]]]; lia.
Qed.

Section Filter.
  Context (raw : list Z) (sd sc w h : Z).
  Notation D := (sd * sc).
  Notation bpp := (Z.max (D / 8) 1).
  Context (B : bytes raw) (HS : sample_ok sd sc) (Hw : 0 < w < 268435456) (Hh : 0 < h < 2147483648).

  Lemma filter_pass m p s : 0 <= p < 7 -> step_ok D w h p s -> pass_offset D w h 7 < 4294967296 -> pass_offset D w h 7 <= len m -> bytes m ->
    exists m', (if s_used s then inverse_filter_impl (s_offset s) bpp (s_bpl s) (s_height s) m else Ok m) = Ok m' /\
      len m' = len m /\ bytes m' /\
      (forall j, 0 <= j -> j < pass_offset D w h p \/ pass_offset D w h (p + 1) <= j -> get m' j = get m j) /\
      (pw p w <> 0 -> reconstructed bpp (row_bytes_spec D (pw p w)) (pass_offset D w h p) (ph p h) m m').
  Proof.
    intros Hp (_ & -> & -> & -> & -> & _) H32 Hl Bm. pose proof (sample_depth_pos _ _ HS) as HD.
    pose proof (pass_offset_mono D w h 0 p ltac:(lia) ltac:(lia) ltac:(lia) ltac:(lia) ltac:(lia)) as M0. rewrite pass_offset_0 in M0.
    pose proof (pass_offset_mono D w h (p + 1) 7 ltac:(lia) ltac:(lia) ltac:(lia) ltac:(lia) ltac:(lia)) as M1.
    pose proof (pass_offset_succ D w h p ltac:(lia)) as MS. rewrite pass_size_eq in MS by lia. unfold psize in MS.
    pose proof (pw_nonneg p w ltac:(lia)) as WN. pose proof (pw_le p w ltac:(lia)) as WL. pose proof (ph_nonneg p h ltac:(lia)) as HN. pose proof (ph_le p h ltac:(lia)) as HL.
    destruct (Z.eqb_spec (pw p w) 0) as [E|E]; cbn [negb andb orb] in *.
    { exists m. refine (conj eq_refl (conj eq_refl (conj Bm (conj _ _)))); [reflexivity|]. intros N; lia. }
    destruct (Z.eqb_spec (ph p h) 0) as [E'|E']; cbn [negb andb orb] in *.
    { exists m. refine (conj eq_refl (conj eq_refl (conj Bm (conj _ _)))); [reflexivity|]. intros _ y x Hy; lia. }
    pose proof (row_bytes_le D (pw p w) ltac:(lia) HD) as RB.
    destruct (inverse_filter_ok m bpp (row_bytes_spec D (pw p w)) (pass_offset D w h p) (ph p h)) as (m' & -> & L & B' & O & R); try assumption; try lia.
    { apply bpp_le; [now apply sample_depth_cases|lia]. }
    exists m'. split; [reflexivity|]. split; [assumption|]. split; [assumption|]. split; [|intros _; assumption].
    intros j Hj Hj'. apply O; lia.
  Qed.

  Lemma filter_steps_gen : pass_offset D w h 7 < 4294967296 -> pass_offset D w h 7 <= len raw ->
    forall steps p m, 0 <= p -> p + Z.of_nat (length steps) = 7 ->
    (forall q, p <= q < 7 -> step_ok D w h q (nstep steps (Z.to_nat (q - p)))) ->
    len m = len raw -> bytes m -> (forall j, pass_offset D w h p <= j -> get m j = get raw j) ->
    (forall q, 0 <= q < p -> pw q w <> 0 -> reconstructed bpp (row_bytes_spec D (pw q w)) (pass_offset D w h q) (ph q h) raw m) ->
    exists m', filter_steps bpp steps m = Ok m' /\ len m' = len raw /\ bytes m' /\ (forall j, pass_offset D w h 7 <= j -> get m' j = get raw j) /\
      forall q, 0 <= q < 7 -> pw q w <> 0 -> reconstructed bpp (row_bytes_spec D (pw q w)) (pass_offset D w h q) (ph q h) raw m'.
  Proof.
    intros H32 Hl. pose proof (sample_depth_pos _ _ HS) as HD. induction steps as [|s steps IH]; intros p m Hp Hn ST L Bm O R; cbn [filter_steps].
    - cbn in Hn. assert (p = 7) by lia. subst p. exists m. refine (conj eq_refl (conj L (conj Bm (conj O R)))).
    - cbn [length] in Hn. pose proof (ST p ltac:(lia)) as S0. replace (p - p) with 0 in S0 by lia. cbn in S0.
      destruct (filter_pass m p s ltac:(lia) S0 H32 ltac:(lia) Bm) as (m' & -> & L' & B' & O' & R'). cbn [bind].
      assert (OFF : forall q, 0 <= q <= 7 -> 0 <= pass_offset D w h q).
      { intros q Hq. pose proof (pass_offset_mono D w h 0 q ltac:(lia) ltac:(lia) ltac:(lia) ltac:(lia) ltac:(lia)) as M0. now rewrite pass_offset_0 in M0. }
      assert (REG : forall q, 0 <= q < 7 -> pw q w <> 0 -> pass_offset D w h (q + 1) = pass_offset D w h q + ph q h * row_bytes_spec D (pw q w)).
      { intros q Hq N. rewrite pass_offset_succ, pass_size_eq, psize_rb by lia. unfold rb. now replace (pw q w =? 0) with false by lia. }
      assert (RBp : forall q, 1 <= row_bytes_spec D (pw q w)).
      { intros q. pose proof (pw_nonneg q w ltac:(lia)). pose proof (pw_le q w ltac:(lia)). apply row_bytes_le; lia. }
      apply (IH (p + 1) m'); try lia; try assumption.
      + intros q Hq. specialize (ST q ltac:(lia)). replace (Z.to_nat (q - p)) with (S (Z.to_nat (q - (p + 1)))) in ST by lia. exact ST.
      + intros j Hj. pose proof (OFF (p + 1) ltac:(lia)). rewrite O' by lia. apply O.
        pose proof (pass_offset_mono D w h p (p + 1) ltac:(lia) ltac:(lia) ltac:(lia) ltac:(lia) ltac:(lia)). lia.
      + intros q Hq N. pose proof (OFF q ltac:(lia)). destruct (Z.eq_dec q p) as [->|Nq].
        * apply (reconstructed_ext _ _ _ _ m raw m' m'); [lia|apply RBp|lia| |reflexivity|now apply R'].
          intros j Hj. apply O. lia.
        * apply (reconstructed_ext _ _ _ _ raw raw m m'); [lia|apply RBp|lia|reflexivity| |apply R; [lia|assumption]].
          intros j Hj. symmetry. apply O'; [lia|]. left. rewrite <- REG in Hj by (try assumption; lia).
          pose proof (pass_offset_mono D w h (q + 1) p ltac:(lia) ltac:(lia) ltac:(lia) ltac:(lia) ltac:(lia)). lia.
  Qed.
End Filter.

(* ------------------------------------------------------------------ pixels lie inside the data *)

Lemma adam7_odd x y : 0 <= x -> y mod 2 = 1 -> adam7 x y = 6.
Proof.
  intros Hx Hy. unfold adam7. assert (X : 0 <= x mod 8 < 8) by lia. assert (Y : y mod 8 = 1 \/ y mod 8 = 3 \/ y mod 8 = 5 \/ y mod 8 = 7) by lia.
  assert (Z.to_nat (x mod 8) < 8)%nat by lia. generalize dependent (Z.to_nat (x mod 8)). intros k Hk.
  destruct Y as [->|[->|[->| ->]]]; do 8 (destruct k as [|k]; [reflexivity|]); lia.
Qed.

Lemma pass_pos x y w h : 0 <= x < w -> 0 <= y < h ->
  let p := adam7 x y in 0 <= p < 7 /\ 0 <= pw p x < pw p w /\ 0 <= ph p y < ph p h.
Proof.
  intros Hx Hy p. destruct (Z.eq_dec (y mod 2) 1) as [O|E].
  - assert (E : p = 6) by (apply adam7_odd; lia). rewrite E. unfold pw, ph. cbn [Z.eqb Pos.eqb]. lia.
  - assert (P : p = adam7 x (2 * ((y / 2) mod 4))) by (unfold p, adam7; do 2 f_equal; f_equal; lia).
    destruct (row_pass x ((y / 2) mod 4) w Hx ltac:(lia)) as (Hp & I & W). rewrite <- P in *.
    pose proof (ph_in_row (y / 2) p h ltac:(lia) ltac:(lia) ltac:(lia) I) as H. replace (2 * (y / 2)) with y in H by lia.
    pose proof (ph_nonneg p y ltac:(lia)). lia.
Qed.

Lemma image_pixel_ext prog depth w h m m' x y : 1 <= depth -> 0 <= x < w -> 0 <= y < h ->
  (forall j, 0 <= j < data_size prog depth w h -> get m j = get m' j) -> image_pixel prog depth w h m x y = image_pixel prog depth w h m' x y.
Proof.
  intros Hd Hx Hy E. unfold image_pixel, data_size in *. destruct prog.
  - destruct (pass_pos x y w h Hx Hy) as (Hp & W & H). set (p := adam7 x y) in *. clearbody p.
    rewrite pass_height_eq, !pass_width_eq by lia. apply pixel_ext. intros j Hj.
    assert (K : 0 <= pw p x * depth /\ pw p x * depth + depth <= pw p w * depth) by (clear - W Hd; nia).
    pose proof (pass_offset_mono depth w h 0 p ltac:(lia) ltac:(lia) ltac:(lia) ltac:(lia) ltac:(lia)) as M0. rewrite pass_offset_0 in M0.
    pose proof (pass_offset_mono depth w h (p + 1) 7 ltac:(lia) ltac:(lia) ltac:(lia) ltac:(lia) ltac:(lia)) as M1.
    rewrite pass_offset_succ, pass_size_eq, psize_rb in M1 by lia. unfold rb in M1. replace (pw p w =? 0) with false in M1 by lia.
    unfold row_bytes_spec in *. set (q := (pw p w * depth + 7) / 8) in *.
    rewrite <- Z.add_assoc, !bit_at by lia. f_equal. apply E.
    assert (Q : 0 <= (pw p x * depth + j) / 8 < q) by (unfold q; lia).
    assert (0 <= ph p y * (1 + q) /\ ph p y * (1 + q) + (1 + q) <= ph p h * (1 + q)) by (clear - H Q; nia). lia.
  - apply pixel_ext. intros j Hj. assert (K : 0 <= x * depth /\ x * depth + depth <= w * depth) by (clear - Hx Hd; nia).
    unfold row_bytes_spec in *. set (q := (w * depth + 7) / 8) in *. rewrite <- Z.add_assoc, !bit_at by lia. f_equal. apply E.
    assert (Q : 0 <= (x * depth + j) / 8 < q) by (unfold q; lia).
    assert (0 <= y * (1 + q) /\ y * (1 + q) + (1 + q) <= h * (1 + q)) by (clear - Hy Q; nia). lia.
Qed.

Lemma get_app m l j : 0 <= j < len m -> get (m ++ l) j = get m j.
Proof. intros H. unfold get, len in *. apply app_nth1. lia. Qed.
Lemma len_app m l : len (m ++ l) = len m + len l.
Proof. unfold len. rewrite app_length. lia. Qed.

Lemma align_up_16 x : 0 <= x < 4294967280 -> x <= align_up 32 x 16 < x + 16.
Proof.
  intros Hx. destruct (align_up_ok 32 x 4 ltac:(lia)) as (m & (M1 & M2 & M3) & E); [change (2 ^ 32) with 4294967296; lia|].
  change (2 ^ 4) with 16 in *. rewrite E. change (2 ^ 32) with 4294967296.
  assert (m < x + 16). { destruct (Z_lt_le_dec m (x + 16)); [assumption|]. specialize (M3 (m - 16) ltac:(destruct M1 as (k & ->); exists (k - 1); lia)). lia. }
  rewrite Z.mod_small by lia. lia.
Qed.
