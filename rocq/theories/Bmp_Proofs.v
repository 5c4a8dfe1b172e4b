(* Proofs: runs of pixel writes made by the BMP run-length decoders. *)
From Verif Require Import Base Algorithm_Model Algorithm_Spec Algorithm_Proofs Bmp_Model Bmp_Spec.
Ltac Zify.zify_post_hook ::= idtac.

(* m' is m with the n elements from d on replaced by f 0, f 1, ... *)
Definition written (m m' : list Z) (d n : Z) (f : Z -> Z) : Prop :=
  length m' = length m /\
  forall j, elem_at m' j = if (d <=? j) && (j <? d + n) then Some (f (j - d)) else elem_at m j.

Lemma written_nil m d f : written m m d 0 f.
Proof. split; [reflexivity|]. intros j. destruct (Z.leb_spec d j), (Z.ltb_spec j (d + 0)); try lia; reflexivity. Qed.

Lemma written_ext m m' d n f g : (forall k, 0 <= k < n -> f k = g k) -> written m m' d n f -> written m m' d n g.
Proof.
  intros E [L W]. split; [exact L|]. intros j. rewrite W.
  destruct (Z.leb_spec d j), (Z.ltb_spec j (d + n)); cbn; try reflexivity. f_equal. apply E. lia.
Qed.

Lemma written_one m d c : 0 <= d < Z.of_nat (length m) -> wr m d c = Ok (zupd m d c) /\ written m (zupd m d c) d 1 (fun _ => c).
Proof.
  intros R. split; [now apply wr_ok|]. split; [apply zupd_length|]. intros j. rewrite elem_zupd by exact R.
  destruct (Z.eqb_spec j d), (Z.leb_spec d j), (Z.ltb_spec j (d + 1)); cbn; try lia; reflexivity.
Qed.

Lemma written_app m m1 m2 d n1 n2 f1 f2 f : 0 <= n1 -> 0 <= n2 ->
  written m m1 d n1 f1 -> written m1 m2 (d + n1) n2 f2 ->
  (forall k, 0 <= k < n1 -> f k = f1 k) -> (forall k, 0 <= k < n2 -> f (n1 + k) = f2 k) ->
  written m m2 d (n1 + n2) f.
Proof.
  intros N1 N2 [L1 W1] [L2 W2] E1 E2. split; [congruence|]. intros j. rewrite W2, W1.
  destruct (Z.leb_spec (d + n1) j), (Z.ltb_spec j (d + n1 + n2)), (Z.leb_spec d j), (Z.ltb_spec j (d + (n1 + n2))),
    (Z.ltb_spec j (d + n1)); cbn; try lia; try reflexivity.
  - rewrite <- E2 by lia. do 2 f_equal. lia.
  - rewrite <- E1 by lia. reflexivity.
Qed.

Lemma rle_solid_ok i m d c : 0 <= d -> d + Z.of_nat i <= Z.of_nat (length m) ->
  exists m', rle_solid i m d c = Ok (m', d + Z.of_nat i) /\ written m m' d (Z.of_nat i) (fun _ => c).
Proof.
  revert m d. induction i as [|i IH]; intros m d D L.
  - exists m. cbn [rle_solid]. rewrite Z.add_0_r. split; [reflexivity|apply written_nil].
  - destruct (written_one m d c) as [E W]; [lia|]. cbn [rle_solid]. rewrite E. cbn [bind].
    destruct (IH (zupd m d c) (d + 1)) as (m' & E' & W'); [lia|rewrite zupd_length; lia|].
    exists m'. rewrite E'. split; [do 2 f_equal; lia|].
    replace (Z.of_nat (S i)) with (1 + Z.of_nat i) by lia.
    eapply written_app; [lia|lia|exact W|exact W'|reflexivity|reflexivity].
Qed.

Lemma rd_nth (l : list Z) i : 0 <= i < Z.of_nat (length l) -> rd l i = Ok (nth (Z.to_nat i) l 0).
Proof.
  intros R. destruct (rd_ok l i R) as (x & E & ->). f_equal. unfold elem_at in E.
  destruct (Z.ltb_spec i 0); [lia|]. symmetry. now apply nth_error_nth.
Qed.

Lemma even_SS k : Z.even (2 + k) = Z.even k.
Proof. rewrite Z.even_add. now destruct (Z.even k). Qed.

Lemma rle4_fill_ok n : forall i m d c0 c1, (i <= n)%nat -> 0 <= d -> d + Z.of_nat i <= Z.of_nat (length m) ->
  exists m', rle4_fill i m d c0 c1 = Ok (m', d + Z.of_nat i) /\
    written m m' d (Z.of_nat i) (fun k => if Z.even k then c0 else c1).
Proof.
  induction n as [|n IH]; intros i m d c0 c1 N D L.
  - destruct i; [|lia]. exists m. cbn [rle4_fill]. rewrite Z.add_0_r. split; [reflexivity|apply written_nil].
  - destruct i as [|[|i]].
    + exists m. cbn [rle4_fill]. rewrite Z.add_0_r. split; [reflexivity|apply written_nil].
    + destruct (written_one m d c0) as [E W]; [lia|]. cbn [rle4_fill]. rewrite E. cbn [bind].
      exists (zupd m d c0). split; [reflexivity|]. eapply written_ext; [|exact W].
      intros k K. replace k with 0 by lia. reflexivity.
    + destruct (written_one m d c0) as [E W]; [lia|]. cbn [rle4_fill]. rewrite E. cbn [bind].
      destruct (written_one (zupd m d c0) (d + 1) c1) as [E1 W1]; [rewrite zupd_length; lia|]. rewrite E1. cbn [bind].
      destruct (IH i (zupd (zupd m d c0) (d + 1) c1) (d + 2) c0 c1) as (m' & E' & W'); [lia|lia|rewrite !zupd_length; lia|].
      exists m'. rewrite E'. split; [do 2 f_equal; lia|].
      replace (Z.of_nat (S (S i))) with (2 + Z.of_nat i) by lia.
      eapply (written_app _ _ _ _ 2 _ (fun k => if Z.even k then c0 else c1)); [lia|lia| |exact W'|reflexivity|].
      * eapply (written_app _ _ _ _ 1 1); [lia|lia|exact W|exact W1| |]; intros k K.
        -- replace k with 0 by lia. reflexivity.
        -- replace k with 0 by lia. reflexivity.
      * intros k K. cbv beta. now rewrite even_SS.
Qed.

(* bytes and their halves as palette indices *)
Lemma hi_nib b : is_byte b -> Z.shiftr b 4 = b / 16 /\ 0 <= b / 16 < 16.
Proof.
  intros B. unfold is_byte in B. rewrite Z.shiftr_div_pow2 by lia. change (2 ^ 4) with 16. split; [reflexivity|].
  split; [apply Z.div_pos; lia|apply Z.div_lt_upper_bound; lia].
Qed.
Lemma lo_nib b : is_byte b -> Z.land b 15 = b mod 16 /\ 0 <= b mod 16 < 16.
Proof.
  intros B. change 15 with (Z.ones 4). rewrite Z.land_ones by lia. change (2 ^ 4) with 16. split; [reflexivity|].
  apply Z.mod_pos_bound. lia.
Qed.

Lemma nth_skip {A} (l : list A) n k d : nth k (skipn n l) d = nth (n + k) l d.
Proof. revert l; induction n as [|n IH]; intros [|x l]; cbn; auto. now destruct k. Qed.

Definition color_of (pal : list Z) (v : Z) : Z := nth (Z.to_nat v) pal 0.

Lemma bytes_cons b l : bytes (b :: l) -> is_byte b /\ bytes l.
Proof. intros H. inversion H; subst. split; assumption. Qed.

Ltac wstep m d c E W :=
  destruct (written_one m d c) as [E W]; [rewrite ?zupd_length; lia|]; rewrite E; cbn [bind].

Lemma rle8_abs_ok n : forall i pal p m d, (i <= n)%nat -> length pal = 256%nat -> bytes p ->
  0 <= d -> d + Z.of_nat i <= Z.of_nat (length m) -> (2 * ((i + 1) / 2) <= length p)%nat ->
  exists m', rle8_abs i pal p m d = Ok (skipn (2 * ((i + 1) / 2)) p, m', d + Z.of_nat i) /\
    written m m' d (Z.of_nat i) (fun k => color_of pal (abs_index false p k)).
Proof.
  induction n as [|n IH]; intros i pal p m d N P B D L R.
  - destruct i; [|lia]. exists m. cbn [rle8_abs]. rewrite Z.add_0_r. split; [reflexivity|apply written_nil].
  - destruct i as [|[|i]].
    + exists m. cbn [rle8_abs]. rewrite Z.add_0_r. split; [reflexivity|apply written_nil].
    + change (2 * ((1 + 1) / 2))%nat with 2%nat in *. destruct p as [|b0 [|b1 p]]; cbn [length] in R; try lia.
      apply bytes_cons in B as [B0 B]. unfold is_byte in B0.
      cbn [rle8_abs]. rewrite rd_nth by lia. cbn [bind]. wstep m d (nth (Z.to_nat b0) pal 0) E W.
      eexists. split; [reflexivity|]. eapply written_ext; [|exact W]. intros k K. replace k with 0 by lia. reflexivity.
    + replace (2 * ((S (S i) + 1) / 2))%nat with (2 + 2 * ((i + 1) / 2))%nat in *.
      2:{ replace (S (S i) + 1)%nat with (i + 1 + 1 * 2)%nat by lia. rewrite Nat.div_add by lia. lia. }
      destruct p as [|b0 [|b1 p]]; cbn [length] in R; try lia.
      apply bytes_cons in B as [B0 B]. apply bytes_cons in B as [B1 B]. unfold is_byte in B0, B1.
      cbn [rle8_abs]. rewrite rd_nth by lia. cbn [bind]. wstep m d (nth (Z.to_nat b0) pal 0) E W.
      rewrite rd_nth by lia. cbn [bind].
      wstep (zupd m d (nth (Z.to_nat b0) pal 0)) (d + 1) (nth (Z.to_nat b1) pal 0) E1 W1.
      edestruct (IH i pal p) as (m' & E' & W'); [lia|exact P|exact B| | | |exists m'; rewrite E'].
      1: lia. 1: rewrite !zupd_length; lia. 1: lia.
      split; [cbn [skipn Nat.add]; do 2 f_equal; lia|].
      replace (Z.of_nat (S (S i))) with (2 + Z.of_nat i) by lia.
      eapply (written_app _ _ _ _ 2 _); [lia|lia| |exact W'|reflexivity|].
      * eapply (written_app _ _ _ _ 1 1); [lia|lia|exact W|exact W1| |]; intros k K; replace k with 0 by lia; reflexivity.
      * intros k K. cbv beta. unfold abs_index. replace (Z.to_nat (2 + k)) with (S (S (Z.to_nat k))) by lia. reflexivity.
Qed.

Lemma rle4_abs_ok n : forall i pal p m d, (i <= n)%nat -> length pal = 256%nat -> bytes p ->
  0 <= d -> d + Z.of_nat i <= Z.of_nat (length m) -> (2 * ((i + 3) / 4) <= length p)%nat ->
  exists m', rle4_abs i pal p m d = Ok (skipn (2 * ((i + 3) / 4)) p, m', d + Z.of_nat i) /\
    written m m' d (Z.of_nat i) (fun k => color_of pal (abs_index true p k)).
Proof.
  induction n as [|n IH]; intros i pal p m d N P B D L R.
  - destruct i; [|lia]. exists m. cbn [rle4_abs]. rewrite Z.add_0_r. split; [reflexivity|apply written_nil].
  - destruct i as [|i].
    { exists m. cbn [rle4_abs]. rewrite Z.add_0_r. split; [reflexivity|apply written_nil]. }
    destruct p as [|b0 [|b1 p]].
    1,2: exfalso; assert (4 <= S i + 3)%nat by lia;
         assert (1 <= (S i + 3) / 4)%nat by (apply Nat.div_le_lower_bound; lia); cbn [length] in R; lia.
    apply bytes_cons in B as [B0 B]. apply bytes_cons in B as [B1 B].
    destruct (hi_nib b0 B0) as [H0 HR0], (lo_nib b0 B0) as [L0 LR0], (hi_nib b1 B1) as [H1 HR1], (lo_nib b1 B1) as [L1 LR1].
    destruct i as [|[|[|i]]]; cbn [rle4_abs]; rewrite H0, rd_nth by lia; cbn [bind].
    + wstep m d (nth (Z.to_nat (b0 / 16)) pal 0) E W.
      eexists. split; [reflexivity|]. eapply written_ext; [|exact W]. intros k K. replace k with 0 by lia. reflexivity.
    + wstep m d (nth (Z.to_nat (b0 / 16)) pal 0) E W. rewrite L0, rd_nth by lia. cbn [bind].
      wstep (zupd m d (nth (Z.to_nat (b0 / 16)) pal 0)) (d + 1) (nth (Z.to_nat (b0 mod 16)) pal 0) E1 W1.
      eexists. split; [reflexivity|].
      eapply (written_app _ _ _ _ 1 1); [lia|lia|exact W|exact W1| |]; intros k K; replace k with 0 by lia; reflexivity.
    + wstep m d (nth (Z.to_nat (b0 / 16)) pal 0) E W. rewrite L0, rd_nth by lia. cbn [bind].
      wstep (zupd m d (nth (Z.to_nat (b0 / 16)) pal 0)) (d + 1) (nth (Z.to_nat (b0 mod 16)) pal 0) E1 W1.
      rewrite H1, rd_nth by lia. cbn [bind]. set (m2 := zupd (zupd m d _) (d + 1) _) in *.
      assert (LM : length m2 = length m) by (unfold m2; now rewrite !zupd_length).
      wstep m2 (d + 2) (nth (Z.to_nat (b1 / 16)) pal 0) E2 W2.
      eexists. split; [reflexivity|]. change (Z.of_nat 3) with (2 + 1).
      eapply (written_app _ _ _ _ 2 1); [lia|lia| |exact W2|reflexivity|intros k K; replace k with 0 by lia; reflexivity].
      eapply (written_app _ _ _ _ 1 1); [lia|lia|exact W|exact W1| |]; intros k K; replace k with 0 by lia; reflexivity.
    + wstep m d (nth (Z.to_nat (b0 / 16)) pal 0) E W. rewrite L0, rd_nth by lia. cbn [bind].
      wstep (zupd m d (nth (Z.to_nat (b0 / 16)) pal 0)) (d + 1) (nth (Z.to_nat (b0 mod 16)) pal 0) E1 W1.
      rewrite H1, rd_nth by lia. cbn [bind]. set (m2 := zupd (zupd m d _) (d + 1) _) in *.
      assert (LM : length m2 = length m) by (unfold m2; now rewrite !zupd_length).
      wstep m2 (d + 2) (nth (Z.to_nat (b1 / 16)) pal 0) E2 W2.
      rewrite L1, rd_nth by lia. cbn [bind].
      wstep (zupd m2 (d + 2) (nth (Z.to_nat (b1 / 16)) pal 0)) (d + 3) (nth (Z.to_nat (b1 mod 16)) pal 0) E3 W3.
      replace (2 * ((S (S (S (S i))) + 3) / 4))%nat with (2 + 2 * ((i + 3) / 4))%nat in *.
      2:{ replace (S (S (S (S i))) + 3)%nat with (i + 3 + 1 * 4)%nat by lia. rewrite Nat.div_add by lia. lia. }
      cbn [length] in R.
      edestruct (IH i pal p) as (m' & E' & W'); [lia|exact P|exact B| | | |exists m'; rewrite E'].
      1: lia. 1: rewrite !zupd_length; lia. 1: lia.
      split; [cbn [skipn Nat.add]; do 2 f_equal; lia|].
      replace (Z.of_nat (S (S (S (S i))))) with (4 + Z.of_nat i) by lia.
      eapply (written_app _ _ _ _ 4 _); [lia|lia| |exact W'|reflexivity|].
      * eapply (written_app _ _ _ _ 2 2 (fun k => color_of pal (abs_index true (b0 :: b1 :: p) k))
                 (fun k => color_of pal (abs_index true (b0 :: b1 :: p) (2 + k)))); [lia|lia| | |reflexivity|reflexivity].
        -- eapply (written_app _ _ _ _ 1 1); [lia|lia|exact W|exact W1| |]; intros k K; replace k with 0 by lia; reflexivity.
        -- eapply (written_app _ _ _ _ 1 1); [lia|lia|exact W2| | |].
           ++ replace (d + 2 + 1) with (d + 3) by lia. exact W3.
           ++ intros k K; replace k with 0 by lia; reflexivity.
           ++ intros k K; replace k with 0 by lia; reflexivity.
      * intros k K. cbv beta. unfold abs_index.
        assert (Q : Z.to_nat ((4 + k) / 2) = S (S (Z.to_nat (k / 2)))).
        { replace (4 + k) with (k + 2 * 2) by lia. rewrite Z.div_add by lia.
          assert (0 <= k / 2) by (apply Z.div_pos; lia). lia. }
        rewrite Q. replace (4 + k) with (2 + (2 + k)) by lia. rewrite !even_SS. reflexivity.
Qed.
