(* Proofs: the decoder is safe on every input (C14). *)
From Verif Require Import Base Bits Algorithm_Model Algorithm_Spec Algorithm_Proofs PixelOps_Model PixelOps_Spec PixelOps_Proofs Qoi_Model Qoi_Spec Qoi_Proofs Qoi_Proofs2.

Section Safe.
  Context (al : bool) (w h stride : Z) (Hw : 0 < w <= Z.abs stride) (Hh : 0 < h) (data : list Z) (Hd : bytes data).
  Notation N := (Z.of_nat (length data)).

  Definition Inv (s : dstate) : Prop :=
    (exists vals, Geo w h stride s vals) /\ length (d_ptab s) = 64%nat /\ length (d_utab s) = 64%nat /\ 0 <= d_src s <= N.

  Definition complete (log : list (Z * Z)) : Prop :=
    exists vals, Z.of_nat (length vals) = w * h /\ log = rev (stores w stride 0 vals).

  Definition good (src : Z) (r : outcome dres) : Prop :=
    r = Err BL_ERROR_DATA_TRUNCATED \/ (exists log, r = Ok (Done log) /\ complete log) \/
    (exists s', r = Ok (More s') /\ Inv s' /\ src < d_src s').

  Lemma rd_byte i : 0 <= i < N -> exists b, rd data i = Ok b /\ is_byte b.
  Proof.
    intros H. destruct (rd_ok data i H) as (b & E & R). exists b. split; [exact R|].
    unfold elem_at in E. destruct (i <? 0); [discriminate|]. apply nth_error_In in E.
    unfold bytes in Hd. rewrite Forall_forall in Hd. auto.
  Qed.

  Lemma advanced_good src s vals r : advanced w h stride s vals r -> length (d_ptab s) = 64%nat -> length (d_utab s) = 64%nat ->
    src < d_src s <= N -> 0 <= src -> good src r.
  Proof.
    intros [(L & ->)|(L & s' & -> & G & (S1 & S2 & S3 & S4 & S5))] L1 L2 Hs H0.
    - right. left. eexists. split; [reflexivity|]. eexists. split; [|reflexivity]. rewrite firstn_length. nia.
    - right. right. exists s'. split; [reflexivity|]. split; [|lia]. split; [eauto|]. rewrite S4, S5, S1. repeat split; auto; lia.
  Qed.

  Lemma step_good s : Inv s -> good (d_src s) (decode_step al w h stride data s).
  Proof.
    intros ((vals & G) & L1 & L2 & Hs). unfold decode_step. destruct (Z.ltb_spec (N - d_src s) (kQoiEndMarkerSize + 1)) as [|Hrem]; [now left|].
    unfold kQoiEndMarkerSize in Hrem. destruct (rd_byte (d_src s)) as (b0 & E0 & B0); [lia|]. destruct (rd_byte (d_src s + 1)) as (b1 & E1 & B1); [lia|].
    rewrite E0, E1. cbn [bind]. unfold is_byte in *.
    set (s1 := set_src s (d_src s + 1)).
    assert (G1 : Geo w h stride s1 vals) by (apply geo_fields with s; auto).
    assert (P1 : d_src s1 = d_src s + 1) by reflexivity. assert (P2 : d_ptab s1 = d_ptab s) by reflexivity. assert (P3 : d_utab s1 = d_utab s) by reflexivity.
    clearbody s1. destruct (Z.ltb_spec b0 kQoiOpRun) as [Hrun|Hrun]; unfold kQoiOpRun in Hrun.
    - destruct (Z.ltb_spec b0 64) as [H64|H64].
      + destruct (rd_ok (d_ptab s1) b0) as (p & _ & Ep); [rewrite P2; lia|]. destruct (rd_ok (d_utab s1) b0) as (u & _ & Eu); [rewrite P3; lia|].
        rewrite Ep, Eu. cbn [bind].
        assert (G2 : Geo w h stride (set_pix s1 p u) vals) by (apply geo_fields with s1; auto).
        destruct G2 as (y & x & G2 & Hx). destruct (put_ok w h stride Hw _ _ _ _ G2 Hx) as (s2 & E2 & G3 & (S1 & S2 & S3 & S4 & S5)).
        rewrite E2. cbn [bind]. cbn [set_pix d_src d_pix d_upix d_ptab d_utab] in *.
        destruct (Z.eqb_spec (d_ptr s2) (d_end s2)) as [Q|Q]; cbn [negb].
        * assert (Ex : x + 1 = w) by (destruct G3; lia). rewrite Ex in G3.
          eapply advanced_good; [eapply end_of_row_ok with (y := y); [lia|lia|exact G3|apply same_refl]|..]; try lia; try (rewrite S4, P2 || rewrite S5, P3; assumption).
        * destruct (Z.ltb_spec b1 64) as [K|K]; cbn [negb].
          -- destruct (rd_ok (d_ptab s2) b1) as (p2 & _ & Ep2); [rewrite S4, P2; lia|]. destruct (rd_ok (d_utab s2) b1) as (u2 & _ & Eu2); [rewrite S5, P3; lia|].
             rewrite Ep2, Eu2. cbn [bind].
             assert (G4 : RowGeo w h stride (set_src (set_pix s2 p2 u2) (d_src s2 + 1)) y (x + 1) (vals ++ [p])).
             { eapply rowgeo_fields; [exact G3|reflexivity..]. }
             destruct (put_ok w h stride Hw _ _ _ _ G4) as (s3 & E3 & G5 & (R1 & R2 & R3 & R4 & R5)); [destruct G3; lia|].
             rewrite E3. cbn [bind]. cbn [set_src set_pix d_src d_pix d_upix d_ptab d_utab] in *.
             eapply advanced_good; [eapply after_put_ok; [lia|lia|exact G5|destruct G3; lia|apply same_refl]|..]; try lia; try (rewrite R4, S4, P2 || rewrite R5, S5, P3; assumption).
          -- right. right. exists s2. split; [reflexivity|]. split; [|lia]. split.
             { exists (vals ++ [p]), y, (x + 1). split; [exact G3|destruct G3; lia]. }
             rewrite S4, S5, P2, P3. repeat split; auto; lia.
      + rewrite rd_lut by lia. cbn [bind].
        match goal with |- good _ (store_pixel _ _ _ _ ?t) => destruct (store_pixel_ok al w h stride Hw Hh t vals) as (r & Er & A); [eapply geo_fields; [exact G1|reflexivity..]|..] end; cycle 2.
        { rewrite Er. eapply advanced_good; [exact A|..]; cbn [d_src d_ptab d_utab set_src set_pix]; rewrite ?zupd_length; try congruence; try lia.
          rewrite Z.shiftr_div_pow2 by lia. change (2 ^ 7) with 128. lia. }
        all: cbn; congruence.
    - destruct (Z.leb_spec kQoiOpRgb b0) as [Hr|Hr]; unfold kQoiOpRgb in Hr.
      + destruct (rd_byte (d_src s1 + 1)) as (c1 & F1 & _); [lia|]. destruct (rd_byte (d_src s1 + 2)) as (c2 & F2 & _); [lia|].
        destruct (rd_byte (d_src s1 + 3)) as (c3 & F3 & _); [lia|]. rewrite F1, F2, F3. cbn [bind].
        match goal with |- good _ (store_pixel _ _ _ _ ?t) => destruct (store_pixel_ok al w h stride Hw Hh t vals) as (r & Er & A); [eapply geo_fields; [exact G1|reflexivity..]|..] end; cycle 2.
        { rewrite Er. eapply advanced_good; [exact A|..]; cbn [d_src d_ptab d_utab set_src set_pix]; rewrite ?zupd_length; try congruence; try lia. }
        all: cbn; congruence.
      + eapply advanced_good; [apply (store_rle_ok w h stride Hw Hh) with (vals := vals); [|exact G1]|..]; try congruence; try lia.
        change 0x3F with (2 ^ 6 - 1). rewrite land_mask by lia. change (2 ^ 6) with 64. change (Z.of_nat 64) with 64. lia.
  Qed.

  Lemma loop_good fuel : forall s, Inv s -> N - d_src s < Z.of_nat fuel ->
    decode_loop al w h stride data fuel s = Err BL_ERROR_DATA_TRUNCATED \/
    (exists log, decode_loop al w h stride data fuel s = Ok log /\ complete log).
  Proof.
    induction fuel as [|f IH]; intros s I Hf; [destruct I as (_ & _ & _ & I); lia|]. cbn [decode_loop].
    destruct (step_good s I) as [->|[(log & -> & C)|(s' & -> & I' & L)]]; cbn [bind]; [now left|right; eauto|].
    apply IH; [exact I'|lia].
  Qed.

  Lemma init_geo src0 pix upix pt ut :
    Geo w h stride {| d_src := src0; d_row := 0; d_ptr := 0; d_end := w; d_h := h; d_pix := pix; d_upix := upix; d_ptab := pt; d_utab := ut; d_log := [] |} [].
  Proof. exists 0, 0. split; [|lia]. constructor; cbn; lia || reflexivity. Qed.

  Lemma decode_good src0 pt ut : 0 <= src0 < N -> length pt = 64%nat -> length ut = 64%nat ->
    decode_qoi_data al w h stride data src0 pt ut = Err BL_ERROR_DATA_TRUNCATED \/
    (exists log, decode_qoi_data al w h stride data src0 pt ut = Ok log /\ complete log).
  Proof.
    intros H0 L1 L2. unfold decode_qoi_data. destruct (rd_byte src0 H0) as (b & -> & B). cbn [bind].
    pose proof (up_hash_range (up_unpack 0xFF000000)) as Hr.
    destruct ((kQoiOpRun <=? b) && (b <? kQoiOpRun + 62)).
    - rewrite !wr_ok by lia. cbn [bind]. apply loop_good.
      + split; [exists []; apply init_geo|]. cbn [d_ptab d_utab d_src]. rewrite !zupd_length. repeat split; lia.
      + cbn [d_src]. lia.
    - cbn [bind]. apply loop_good.
      + split; [exists []; apply init_geo|]. cbn [d_ptab d_utab d_src]. repeat split; lia.
      + cbn [d_src]. lia.
  Qed.
End Safe.
