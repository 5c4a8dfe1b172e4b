(* Proofs: the decoder computes what the QOI specification prescribes (C15). *)
From Verif Require Import Base Bits Algorithm_Model Algorithm_Spec Algorithm_Proofs PixelOps_Model PixelOps_Spec PixelOps_Proofs Qoi_Model Qoi_Spec Qoi_Proofs Qoi_Proofs2 Qoi_Proofs3.

Lemma nth_skipn {A} (l : list A) n m : nth_error (skipn n l) m = nth_error l (n + m).
Proof. revert l. induction n; intros [|x l]; cbn; auto. now destruct m. Qed.

Lemma rd_skip {A} (d : list A) src j b : 0 <= src -> 0 <= j -> nth_error (skipn (Z.to_nat src) d) (Z.to_nat j) = Some b -> rd d (src + j) = Ok b.
Proof.
  intros H0 Hj E. rewrite nth_skipn in E. unfold rd. destruct (Z.ltb_spec (src + j) 0); [lia|].
  replace (Z.to_nat (src + j)) with (Z.to_nat src + Z.to_nat j)%nat by lia. now rewrite E.
Qed.

Lemma map_repeat {A B} (g : A -> B) x n : map g (repeat x n) = repeat (g x) n.
Proof. induction n; cbn; congruence. Qed.

Lemma mod_mod_add x y : (x + y mod 256) mod 256 = (x + y) mod 256.
Proof. lia. Qed.

Section Spec.
  Context (al : bool) (w h stride : Z) (Hw : 0 < w <= Z.abs stride) (Hh : 0 < h) (data : list Z).
  Notation N := (Z.of_nat (length data)).

  Record Rel (s : dstate) (st : qst) : Prop := {
    r_prev : px_ok (q_prev st);
    r_tabok : forall i, 0 <= i < 64 -> px_ok (q_tab st i);
    r_upix : d_upix s = lanes (q_prev st);
    r_pix : d_pix s = pix32 al (q_prev st);
    r_ut : forall i, 0 <= i < 64 -> elem_at (d_utab s) i = Some (lanes (q_tab st i));
    r_pt : forall i, 0 <= i < 64 -> elem_at (d_ptab s) i = Some (pix32 al (q_tab st i));
    r_lu : length (d_utab s) = 64%nat;
    r_lp : length (d_ptab s) = 64%nat }.
  Definition seen (st : qst) : Prop := q_tab st (px_hash (q_prev st)) = q_prev st.

  Lemma rel_same s s' st : Rel s st -> same s s' -> Rel s' st.
  Proof. intros [] (E1 & E2 & E3 & E4 & E5). constructor; try congruence; try assumption; intros i Hi; rewrite ?E4, ?E5; auto. Qed.

  Lemma chunk_px_ok s st c : Rel s st -> chunk_ok c -> px_ok (chunk_px st c).
  Proof.
    intros R C. pose proof (r_prev _ _ R) as P. pose proof P as (P1 & P2 & P3 & P4).
    destruct c; cbn [chunk_px chunk_ok] in *; unfold px_ok, is_byte in *; cbn [pr pg pb pa]; try lia.
    - now apply (r_tabok _ _ R).
  Qed.

  Lemma seen_next st c : seen (chunk_next st c).
  Proof. unfold seen, chunk_next. cbn [q_prev q_tab]. unfold tab_set. now rewrite Z.eqb_refl. Qed.

  (* storing pixel p in both tables at its hash *)
  Lemma rel_store s st p s' : Rel s st -> px_ok p -> d_upix s' = lanes p -> d_pix s' = pix32 al p ->
    d_utab s' = zupd (d_utab s) (px_hash p) (lanes p) -> d_ptab s' = zupd (d_ptab s) (px_hash p) (pix32 al p) ->
    Rel s' (Qst p (tab_set (q_tab st) (px_hash p) p)).
  Proof.
    intros [] Hp E1 E2 E3 E4. pose proof (px_hash_range p) as Hr. constructor; cbn [q_prev q_tab]; auto.
    - intros i Hi. unfold tab_set. destruct (i =? px_hash p); auto.
    - intros i Hi. rewrite E3, elem_zupd by lia. unfold tab_set. destruct (i =? px_hash p); auto.
    - intros i Hi. rewrite E4, elem_zupd by lia. unfold tab_set. destruct (i =? px_hash p); auto.
    - rewrite E3, zupd_length. assumption.
    - rewrite E4, zupd_length. assumption.
  Qed.

  (* the pixel is already in the table *)
  Lemma rel_known s st p s' : Rel s st -> px_ok p -> q_tab st (px_hash p) = p -> d_upix s' = lanes p -> d_pix s' = pix32 al p ->
    d_utab s' = d_utab s -> d_ptab s' = d_ptab s -> Rel s' (Qst p (tab_set (q_tab st) (px_hash p) p)).
  Proof.
    intros [] Hp HT E1 E2 E3 E4. pose proof (px_hash_range p) as Hr.
    assert (T : forall i, 0 <= i < 64 -> tab_set (q_tab st) (px_hash p) p i = q_tab st i).
    { intros i Hi. unfold tab_set. destruct (Z.eqb_spec i (px_hash p)) as [->|]; auto. }
    constructor; cbn [q_prev q_tab]; auto; try congruence; intros i Hi; rewrite T by exact Hi; rewrite ?E3, ?E4; auto.
  Qed.

  Lemma store_pixel_spec s st p vals : Geo w h stride s vals -> Rel s st -> px_ok p ->
    forall s1, s1 = set_pix s (d_pix s) (lanes p) -> exists s0, Rel s0 (Qst p (tab_set (q_tab st) (px_hash p) p)) /\ d_src s0 = d_src s /\
      advanced w h stride s0 (vals ++ [pix32 al p]) (store_pixel al w h stride s1).
  Proof.
    intros G R Hp s1 ->. destruct (store_pixel_ok al w h stride Hw Hh (set_pix s (d_pix s) (lanes p)) vals) as (r & Er & A).
    - now apply geo_fields with s.
    - apply (r_lp _ _ R).
    - apply (r_lu _ _ R).
    - cbn [set_pix d_upix d_src d_ptab d_utab] in A. rewrite up_pack_ok, up_hash_ok in A by exact Hp. rewrite Er.
      eexists. split; [|split; [|exact A]]; [|reflexivity]. eapply rel_store; [exact R|exact Hp|reflexivity..].
  Qed.

  (* a chunk that is not an index *)
  Lemma step_spec s st vals c rest : Geo w h stride s vals -> Rel s st -> chunk_ok c -> 0 <= d_src s ->
    (forall i, c <> CIndex i) -> (forall n, c = CRun n -> seen st) ->
    skipn (Z.to_nat (d_src s)) data = chunk_bytes c ++ rest -> (8 <= length rest)%nat -> bytes rest ->
    exists s0, Rel s0 (chunk_next st c) /\ d_src s0 = d_src s + Z.of_nat (length (chunk_bytes c)) /\
      advanced w h stride s0 (vals ++ repeat (pix32 al (chunk_px st c)) (chunk_count c)) (decode_step al w h stride data s).
  Proof.
    intros G R C H0 Hni Hseen Hsk Hrest Hbr.
    assert (HN : N - d_src s = Z.of_nat (length (chunk_bytes c) + length rest)).
    { rewrite <- app_length, <- Hsk, skipn_length. assert (length (skipn (Z.to_nat (d_src s)) data) > 0)%nat.
      { rewrite Hsk, app_length. lia. } rewrite skipn_length in H. lia. }
    assert (Hlen : (1 <= length (chunk_bytes c))%nat) by (destruct c; cbn; lia).
    unfold decode_step. destruct (Z.ltb_spec (N - d_src s) (kQoiEndMarkerSize + 1)) as [B|_]; [unfold kQoiEndMarkerSize in B; lia|].
    assert (RD : forall j b, 0 <= j -> nth_error (chunk_bytes c ++ rest) (Z.to_nat j) = Some b -> rd data (d_src s + j) = Ok b).
    { intros j b Hj E. apply rd_skip; auto. now rewrite Hsk. }
    pose proof (RD 0) as RD0. rewrite Z.add_0_r in RD0. pose proof (RD 1) as RD1.
    pose proof (r_prev _ _ R) as P. pose proof P as (P1 & P2 & P3 & P4). unfold is_byte in P1, P2, P3, P4.
    assert (HG : forall o, Geo w h stride (set_src s o) vals) by (intros o; now apply geo_fields with s).
    assert (HR : forall o, Rel (set_src s o) st) by (intros o; destruct R; constructor; assumption).
    destruct rest as [|e0 rest]; [cbn in Hrest; lia|]. destruct rest as [|e1 rest]; [cbn in Hrest; lia|].
    destruct c as [i|dr dg db|dg xr xb|n|r g b|r g b a]; cbn [chunk_ok] in C; unfold is_byte in C.
    - now destruct (Hni i).
    - (* DIFF *)
      rewrite (RD0 _ ltac:(lia) eq_refl), (RD1 _ ltac:(lia) eq_refl). cbn [bind].
      set (b0 := 64 + (dr + 2) * 16 + (dg + 2) * 4 + (db + 2)). assert (B0 : 64 <= b0 < 128) by (unfold b0; lia).
      unfold kQoiOpRun. destruct (Z.ltb_spec b0 192); [|lia]. destruct (Z.ltb_spec b0 64); [lia|].
      rewrite rd_lut by lia. cbn [bind]. pose proof (lut_all b0 ltac:(lia)) as L. unfold lut_ok in L. destruct (Z.ltb_spec b0 128); [|lia].
      apply andb_true_iff in L as [L1 L2]. apply Z.eqb_eq in L1. apply Z.eqb_eq in L2.
      assert (Em : Z.land e0 (lut_value (b0 - 64)) = 0).
      { assert (is_byte e0) by (unfold bytes in Hbr; rewrite Forall_forall in Hbr; apply Hbr; now left). unfold is_byte in *.
        replace e0 with (Z.land e0 255) by (rewrite land_ff; apply Z.mod_small; lia). rewrite <- Z.land_assoc, (Z.land_comm 255), L1. apply Z.land_0_r. }
      rewrite Em. change (Z.land (Z.lor 0 (w32 (Z.shiftl 0 12))) 0x000F000F) with (lanes4 0 0 0 0).
      assert (Er : Z.land (Z.shiftr b0 4) 3 = dr + 2) by (change 3 with (2 ^ 2 - 1); rewrite land_mask, Z.shiftr_div_pow2 by lia; change (2 ^ 4) with 16; change (2 ^ 2) with 4; unfold b0; lia).
      assert (Eg : Z.land (Z.shiftr b0 2) 3 = dg + 2) by (change 3 with (2 ^ 2 - 1); rewrite land_mask, Z.shiftr_div_pow2 by lia; change (2 ^ 2) with 4; unfold b0; lia).
      assert (Eb : Z.land b0 3 = db + 2) by (change 3 with (2 ^ 2 - 1); rewrite land_mask by lia; change (2 ^ 2) with 4; unfold b0; lia).
      rewrite L2, Er, Eg, Eb. replace (dr + 2 - 2) with dr by lia. replace (dg + 2 - 2) with dg by lia. replace (db + 2 - 2) with db by lia.
      replace (Z.shiftr b0 7) with 0 by (rewrite Z.shiftr_div_pow2 by lia; change (2 ^ 7) with 128; lia).
      change (up_unpack (pack32 0 (dr mod 256) (dg mod 256) (db mod 256))) with (up_unpack (argb (Px (dr mod 256) (dg mod 256) (db mod 256) 0))).
      rewrite up_unpack_ok by (unfold px_ok, is_byte; cbn; lia). cbn [set_src d_upix d_src d_pix]. rewrite (r_upix _ _ R).
      unfold lanes at 2. cbn [pr pg pb pa]. rewrite add_lanes; try assumption; unfold is_byte; try lia.
      assert (Ep : Px ((pr (q_prev st) + 0 + dr mod 256) mod 256) ((pg (q_prev st) + dg mod 256) mod 256) ((pb (q_prev st) + 0 + db mod 256) mod 256) ((pa (q_prev st) + 0) mod 256) = chunk_px st (CDiff dr dg db)).
      { cbn [chunk_px]. rewrite !Z.add_0_r, !mod_mod_add. f_equal. apply Z.mod_small. lia. }
      rewrite Ep. cbn [chunk_count repeat].
      match goal with |- context [store_pixel _ _ _ _ ?t] => destruct (store_pixel_spec (set_src s (d_src s + 1 + 0)) st (chunk_px st (CDiff dr dg db)) vals (HG _) (HR _)
        ltac:(eapply chunk_px_ok; [exact R|cbn [chunk_ok]; lia]) t eq_refl) as (s0 & R0 & S0 & A0) end.
      exists s0. split; [exact R0|]. split; [|exact A0]. rewrite S0. cbn [set_src d_src chunk_bytes length]. lia.
    - (* LUMA *)
      rewrite (RD0 _ ltac:(lia) eq_refl), (RD1 _ ltac:(lia) eq_refl). cbn [bind].
      set (b0 := 128 + (dg + 32)). assert (B0 : 128 <= b0 < 192) by (unfold b0; lia).
      set (b1 := (xr + 8) * 16 + (xb + 8)). assert (B1 : 0 <= b1 < 256) by (unfold b1; lia).
      unfold kQoiOpRun. destruct (Z.ltb_spec b0 192); [|lia]. destruct (Z.ltb_spec b0 64); [lia|].
      rewrite rd_lut by lia. cbn [bind]. pose proof (lut_all b0 ltac:(lia)) as L. unfold lut_ok in L. destruct (Z.ltb_spec b0 128); [lia|].
      apply andb_true_iff in L as [L1 L2]. apply Z.eqb_eq in L1. apply Z.eqb_eq in L2.
      assert (Em : Z.land b1 (lut_value (b0 - 64)) = b1).
      { replace b1 with (Z.land b1 255) at 1 by (rewrite land_ff; apply Z.mod_small; lia). rewrite <- Z.land_assoc, (Z.land_comm 255), L1. rewrite land_ff. apply Z.mod_small. lia. }
      rewrite Em. pose proof (rb_all b1 B1) as RB. unfold rb_ok in RB. apply Z.eqb_eq in RB. rewrite RB.
      assert (Q1 : b1 / 16 = xr + 8) by (unfold b1; lia). assert (Q2 : b1 mod 16 = xb + 8) by (unfold b1; lia). rewrite Q1, Q2.
      rewrite L2. replace (Z.shiftr b0 7) with 1 by (rewrite Z.shiftr_div_pow2 by lia; change (2 ^ 7) with 128; lia).
      change (up_unpack (pack32 0 ((b0 - 168) mod 256) ((b0 - 160) mod 256) ((b0 - 168) mod 256))) with (up_unpack (argb (Px ((b0 - 168) mod 256) ((b0 - 160) mod 256) ((b0 - 168) mod 256) 0))).
      rewrite up_unpack_ok by (unfold px_ok, is_byte; cbn [pr pg pb pa]; lia). cbn [set_src d_upix d_src d_pix]. rewrite (r_upix _ _ R).
      unfold lanes at 2. cbn [pr pg pb pa]. rewrite add_lanes; try assumption; unfold is_byte; try lia.
      assert (Ep : Px ((pr (q_prev st) + (xr + 8) + (b0 - 168) mod 256) mod 256) ((pg (q_prev st) + (b0 - 160) mod 256) mod 256) ((pb (q_prev st) + (xb + 8) + (b0 - 168) mod 256) mod 256) ((pa (q_prev st) + 0) mod 256) = chunk_px st (CLuma dg xr xb)).
      { cbn [chunk_px]. rewrite !Z.add_0_r, !mod_mod_add. unfold b0. f_equal; [f_equal; lia|f_equal; lia|f_equal; lia|apply Z.mod_small; lia]. }
      rewrite Ep. cbn [chunk_count repeat].
      match goal with |- context [store_pixel _ _ _ _ ?t] => destruct (store_pixel_spec (set_src s (d_src s + 1 + 1)) st (chunk_px st (CLuma dg xr xb)) vals (HG _) (HR _)
        ltac:(eapply chunk_px_ok; [exact R|cbn [chunk_ok]; lia]) t eq_refl) as (s0 & R0 & S0 & A0) end.
      exists s0. split; [exact R0|]. split; [|exact A0]. rewrite S0. cbn [set_src d_src chunk_bytes length]. lia.
    - (* RUN *)
      rewrite (RD0 _ ltac:(lia) eq_refl), (RD1 _ ltac:(lia) eq_refl). cbn [bind].
      unfold kQoiOpRun. destruct (Z.ltb_spec (192 + (n - 1)) 192); [lia|]. unfold kQoiOpRgb. destruct (Z.leb_spec 254 (192 + (n - 1))); [lia|].
      replace (Z.land (192 + (n - 1)) 0x3F + 1) with n by (change 0x3F with (2 ^ 6 - 1); rewrite land_mask by lia; change (2 ^ 6) with 64; lia).
      exists (set_src s (d_src s + 1)). split; [|split; [cbn [set_src d_src chunk_bytes length]; lia|]].
      + cbn [chunk_next chunk_px]. apply rel_known with s; auto; try reflexivity; [|apply (r_upix _ _ R)|apply (r_pix _ _ R)]. now apply (Hseen n).
      + cbn [chunk_px chunk_count]. rewrite <- (r_pix _ _ R). apply (store_rle_ok w h stride Hw Hh 64 n (set_src s (d_src s + 1)) vals); [lia|apply HG].
    - (* RGB *)
      rewrite (RD0 _ ltac:(lia) eq_refl), (RD1 _ ltac:(lia) eq_refl). cbn [bind].
      change (254 <? kQoiOpRun) with false. change (kQoiOpRgb <=? 254) with true. cbv iota. cbn [set_src d_src].
      replace (d_src s + 1 + 1) with (d_src s + 2) by lia. replace (d_src s + 1 + 2) with (d_src s + 3) by lia. replace (d_src s + 1 + 3) with (d_src s + 4) by lia.
      rewrite (RD 2 g ltac:(lia) eq_refl), (RD 3 b ltac:(lia) eq_refl). rewrite (RD 4 e0 ltac:(lia) eq_refl). cbn [bind].
      assert (Hbe : is_byte e0) by (unfold bytes in Hbr; rewrite Forall_forall in Hbr; apply Hbr; now left). unfold is_byte in Hbe.
      rewrite unpackRGBA_ok by (unfold is_byte; lia). cbn [set_src d_upix]. rewrite (r_upix _ _ R). rewrite opRGBX_rgb by (try assumption; unfold is_byte; lia).
      cbn [chunk_count repeat].
      match goal with |- context [store_pixel _ _ _ _ ?t] => destruct (store_pixel_spec (set_src s (d_src s + 1 + (254 - 251))) st (chunk_px st (CRgb r g b)) vals (HG _) (HR _)
        ltac:(eapply chunk_px_ok; [exact R|cbn [chunk_ok]; unfold is_byte; lia]) t eq_refl) as (s0 & R0 & S0 & A0) end.
      exists s0. split; [exact R0|]. split; [|exact A0]. rewrite S0. cbn [set_src d_src chunk_bytes length]. lia.
    - (* RGBA *)
      rewrite (RD0 _ ltac:(lia) eq_refl), (RD1 _ ltac:(lia) eq_refl). cbn [bind].
      change (255 <? kQoiOpRun) with false. change (kQoiOpRgb <=? 255) with true. cbv iota. cbn [set_src d_src].
      replace (d_src s + 1 + 1) with (d_src s + 2) by lia. replace (d_src s + 1 + 2) with (d_src s + 3) by lia. replace (d_src s + 1 + 3) with (d_src s + 4) by lia.
      rewrite (RD 2 g ltac:(lia) eq_refl), (RD 3 b ltac:(lia) eq_refl). rewrite (RD 4 a ltac:(lia) eq_refl). cbn [bind].
      rewrite unpackRGBA_ok by (unfold is_byte; lia). cbn [set_src d_upix]. rewrite (r_upix _ _ R). rewrite opRGBX_rgba by (try assumption; unfold is_byte; lia).
      cbn [chunk_count repeat].
      match goal with |- context [store_pixel _ _ _ _ ?t] => destruct (store_pixel_spec (set_src s (d_src s + 1 + (255 - 251))) st (chunk_px st (CRgba r g b a)) vals (HG _) (HR _)
        ltac:(eapply chunk_px_ok; [exact R|cbn [chunk_ok]; unfold is_byte; lia]) t eq_refl) as (s0 & R0 & S0 & A0) end.
      exists s0. split; [exact R0|]. split; [|exact A0]. rewrite S0. cbn [set_src d_src chunk_bytes length]. lia.
  Qed.

  Definition stream (cs : list chunk) : list Z := concat (map chunk_bytes cs).
  Definition result (vals : list Z) (st : qst) (cs : list chunk) : outcome (list (Z * Z)) :=
    Ok (rev (stores w stride 0 (firstn (Z.to_nat (w * h)) (vals ++ map (pix32 al) (spec_decode st cs))))).

  Lemma chunk_bytes_ok c : chunk_ok c -> bytes (chunk_bytes c).
  Proof. unfold bytes, is_byte. destruct c; cbn [chunk_ok chunk_bytes]; unfold is_byte; intros; repeat constructor; lia. Qed.
  Lemma stream_ok cs : Forall chunk_ok cs -> bytes (stream cs).
  Proof. induction 1 as [|c cs Hc _ IH]; [constructor|]. unfold stream in *. cbn [map concat]. apply Forall_app. split; [now apply chunk_bytes_ok|exact IH]. Qed.

  Lemma firstn_prefix {A} (k : nat) (a b : list A) : (k <= length a)%nat -> firstn k (a ++ b) = firstn k a.
  Proof. intros L. rewrite firstn_app. replace (k - length a)%nat with 0%nat by lia. cbn [firstn]. apply app_nil_r. Qed.

  Lemma skipn_add {A} (n m : nat) (l : list A) : skipn (n + m) l = skipn m (skipn n l).
  Proof. revert l. induction n; intros [|x l]; cbn; auto. now destruct m. Qed.

  Lemma skip_chunk src bs rest : 0 <= src -> skipn (Z.to_nat src) data = bs ++ rest -> skipn (Z.to_nat (src + Z.of_nat (length bs))) data = rest.
  Proof.
    intros H0 E. replace (Z.to_nat (src + Z.of_nat (length bs))) with (Z.to_nat src + length bs)%nat by lia.
    rewrite skipn_add, E, skipn_app, skipn_all, Nat.sub_diag. reflexivity.
  Qed.

  Lemma put_same s y x vals p u : RowGeo w h stride s y x vals -> x < w ->
    exists s', put w h stride (set_pix s p u) = Ok s' /\ RowGeo w h stride s' y (x + 1) (vals ++ [p]) /\ same (set_pix s p u) s'.
  Proof.
    intros G Hx. assert (G0 : RowGeo w h stride (set_pix s p u) y x vals) by (eapply rowgeo_fields; [exact G|reflexivity..]).
    exact (put_ok w h stride Hw _ _ _ _ G0 Hx).
  Qed.

  Lemma loop_spec tail : (8 <= length tail)%nat -> bytes tail ->
    forall fuel cs s st vals, (length cs < fuel)%nat -> Geo w h stride s vals -> Rel s st ->
      (seen st \/ forall c, hd_error cs = Some c -> forall n, c <> CRun n) -> Forall chunk_ok cs -> index_ok st cs ->
      0 <= d_src s -> skipn (Z.to_nat (d_src s)) data = stream cs ++ tail ->
      w * h <= Z.of_nat (length vals + length (spec_decode st cs)) ->
      decode_loop al w h stride data fuel s = result vals st cs.
  Proof.
    intros Ht Hbt. induction fuel as [|f IH]; intros cs s st vals Hf G R Hsn C I H0 Hsk Hcount; [lia|].
    pose proof (geo_lt w h stride Hw _ _ G) as Hlt. destruct cs as [|c cs]; [cbn in Hcount; lia|].
    pose proof (Forall_inv C) as Hc. pose proof (Forall_inv_tail C) as Hcs.
    cbn [index_ok] in I. destruct I as [Ic I]. unfold stream in Hsk. cbn [map concat] in Hsk. rewrite <- app_assoc in Hsk. fold (stream cs) in Hsk.
    assert (Hbr : bytes (stream cs ++ tail)) by (apply Forall_app; split; [now apply stream_ok|exact Hbt]).
    (* common end: a step that emitted [vs], leaving chunks cs' and state st' *)
    assert (Common : forall s0 st' cs' V r, Rel s0 st' -> seen st' -> Forall chunk_ok cs' -> index_ok st' cs' -> (length cs' < f)%nat -> 0 <= d_src s0 ->
      skipn (Z.to_nat (d_src s0)) data = stream cs' ++ tail -> advanced w h stride s0 V r ->
      vals ++ map (pix32 al) (spec_decode st (c :: cs)) = V ++ map (pix32 al) (spec_decode st' cs') ->
      bind r (fun r => match r with Done l => Ok l | More s => decode_loop al w h stride data f s end) = result vals st (c :: cs)).
    { intros s0 st' cs' V r R' S' C' I' F' Z' K' A' E'. unfold result. rewrite E'. assert (EL := f_equal (@length Z) E'). rewrite !app_length, !map_length in EL.
      destruct A' as [(L & ->)|(L & s' & -> & G' & SM)]; cbn [bind].
      - rewrite firstn_prefix by lia. reflexivity.
      - assert (EQ : d_src s' = d_src s0) by apply SM.
        rewrite (IH cs' s' st' V); try assumption; try (rewrite EQ; assumption); [reflexivity|eapply rel_same; eassumption|now left|lia]. }
    cbn [decode_loop].
    assert (Other : (forall i, c <> CIndex i) -> (let* r := decode_step al w h stride data s in match r with Done l => Ok l | More s => decode_loop al w h stride data f s end) = result vals st (c :: cs)).
    { intros Hni. destruct (step_spec s st vals c (stream cs ++ tail)) as (s0 & R0 & S0 & A0); try assumption.
      - intros n ->. destruct Hsn as [|Hsn]; [assumption|]. exfalso. now apply (Hsn (CRun n) eq_refl n).
      - rewrite app_length. lia.
      - eapply Common; [exact R0|apply seen_next|exact Hcs|exact I|cbn [length] in Hf; lia|lia|rewrite S0; apply skip_chunk; [exact H0|exact Hsk]|exact A0|].
        cbn [spec_decode]. rewrite map_app, app_assoc, map_repeat. reflexivity. }
    destruct c as [i|dr dg db|dg xr xb|n|r g b|r g b a]; [clear Other|apply Other; discriminate..].
    (* INDEX *)
    cbn [chunk_ok] in Hc. cbn [chunk_bytes app] in Hsk.
    assert (HN : N - d_src s = Z.of_nat (1 + length (stream cs ++ tail))).
    { change (1 + length (stream cs ++ tail))%nat with (length (i :: stream cs ++ tail)). rewrite <- Hsk, skipn_length.
      assert (length (skipn (Z.to_nat (d_src s)) data) > 0)%nat by (rewrite Hsk; cbn; lia). rewrite skipn_length in H. lia. }
    unfold decode_step. destruct (Z.ltb_spec (N - d_src s) (kQoiEndMarkerSize + 1)) as [B|_]; [unfold kQoiEndMarkerSize in B; rewrite app_length in HN; lia|].
    assert (E0 : rd data (d_src s) = Ok i) by (rewrite <- (Z.add_0_r (d_src s)); apply rd_skip; [exact H0|lia|now rewrite Hsk]).
    destruct (stream cs ++ tail) as [|e rest] eqn:Es; [apply (f_equal (@length Z)) in Es; rewrite app_length in Es; cbn in Es; lia|].
    assert (E1 : rd data (d_src s + 1) = Ok e) by (apply rd_skip; [exact H0|lia|now rewrite Hsk]).
    rewrite E0, E1. cbn [bind]. unfold kQoiOpRun. destruct (Z.ltb_spec i 192); [|lia]. destruct (Z.ltb_spec i 64); [|lia].
    cbn [set_src d_ptab d_utab]. rewrite (rd_elem _ _ _ (r_pt _ _ R i Hc)), (rd_elem _ _ _ (r_ut _ _ R i Hc)). cbn [bind].
    set (p := q_tab st i) in *. assert (Hp : px_ok p) by now apply (r_tabok _ _ R).
    destruct G as (y & x & G & Hx).
    assert (G1 : RowGeo w h stride (set_src s (d_src s + 1)) y x vals) by (eapply rowgeo_fields; [exact G|reflexivity..]).
    destruct (put_same _ y x vals (pix32 al p) (lanes p) G1 Hx) as (s2 & E2 & G2 & S2). unfold set_src at 1 2 in E2 || idtac. rewrite E2. cbn [bind].
    destruct S2 as (T1 & T2 & T3 & T4 & T5). cbn [set_pix set_src d_src d_pix d_upix d_ptab d_utab] in T1, T2, T3, T4, T5.
    assert (R2 : Rel s2 (chunk_next st (CIndex i))).
    { unfold chunk_next. cbn [chunk_px]. fold p. apply rel_known with s; auto. fold p in Ic. rewrite Ic. reflexivity. }
    assert (Hsk2 : skipn (Z.to_nat (d_src s2)) data = stream cs ++ tail).
    { rewrite T1, Es. change 1 with (Z.of_nat (length [i])). apply skip_chunk; [exact H0|exact Hsk]. }
    assert (EV : vals ++ map (pix32 al) (spec_decode st (CIndex i :: cs)) = (vals ++ [pix32 al p]) ++ map (pix32 al) (spec_decode (chunk_next st (CIndex i)) cs)).
    { cbn [spec_decode chunk_count repeat chunk_px]. fold p. cbn [app map]. rewrite <- app_assoc. reflexivity. }
    destruct (Z.eqb_spec (d_ptr s2) (d_end s2)) as [Q|Q]; cbn [negb].
    - assert (Ex : x + 1 = w) by (destruct G2; lia). rewrite Ex in G2.
      eapply Common; [exact R2|apply seen_next|exact Hcs|exact I|cbn [length] in Hf; lia|lia|exact Hsk2| |exact EV].
      apply (end_of_row_ok w h stride Hw Hh) with (y := y); [exact G2|apply same_refl].
    - destruct (Z.ltb_spec e 64) as [K|K]; cbn [negb].
      + (* a second index handled in the same iteration *)
        assert (Hlt2 : Z.of_nat (length (vals ++ [pix32 al p])) < w * h) by (apply (geo_lt w h stride Hw s2); exists y, (x + 1); split; [exact G2|destruct G2; lia]).
        assert (EL := f_equal (@length Z) EV). rewrite !app_length, !map_length in EL. rewrite app_length in Hlt2.
        destruct cs as [|c2 cs2]; [cbn [spec_decode chunk_count repeat app length] in Hcount, Hlt2; lia|].
        pose proof (Forall_inv Hcs) as Hc2. pose proof (Forall_inv_tail Hcs) as Hcs2.
        destruct c2 as [j|dr dg db|dg xr xb|n|r g b|r g b a].
        2-6: exfalso; cbn [chunk_ok] in Hc2; unfold stream in Es; cbn [map concat chunk_bytes app] in Es; apply (f_equal (hd 0)) in Es; cbn [hd] in Es; lia.
        unfold stream in Es. cbn [map concat chunk_bytes app] in Es. assert (Ej := f_equal (hd 0) Es). cbn [hd] in Ej. subst j.
        cbn [chunk_ok] in Hc2. cbn [index_ok] in I. destruct I as [Ic2 I].
        rewrite (rd_elem _ _ _ (r_pt _ _ R2 e Hc2)), (rd_elem _ _ _ (r_ut _ _ R2 e Hc2)). cbn [bind].
        set (p2 := q_tab (chunk_next st (CIndex i)) e) in *. assert (Hp2 : px_ok p2) by now apply (r_tabok _ _ R2).
        assert (G3 : RowGeo w h stride (set_src (set_pix s2 (pix32 al p2) (lanes p2)) (d_src s2 + 1)) y (x + 1) (vals ++ [pix32 al p])) by (eapply rowgeo_fields; [exact G2|reflexivity..]).
        destruct (put_ok w h stride Hw _ _ _ _ G3) as (s3 & E3 & G4 & S3); [destruct G2; lia|]. rewrite E3. cbn [bind].
        destruct S3 as (U1 & U2 & U3 & U4 & U5). cbn [set_pix set_src d_src d_pix d_upix d_ptab d_utab] in U1, U2, U3, U4, U5, G4.
        eapply Common with (cs' := cs2) (st' := chunk_next (chunk_next st (CIndex i)) (CIndex e)) (s0 := s3);
          [|apply seen_next|exact Hcs2|exact I|cbn [length] in Hf; lia|lia| |eapply (after_put_ok w h stride Hw Hh); [exact G4|destruct G2; lia|apply same_refl]|].
        * unfold chunk_next at 1. cbn [chunk_px]. fold p2. apply rel_known with s2; auto. rewrite Ic2. reflexivity.
        * rewrite U1. change 1 with (Z.of_nat (length [e])). apply skip_chunk; [lia|]. rewrite Hsk2. unfold stream. cbn [map concat chunk_bytes app]. reflexivity.
        * rewrite EV. cbn [spec_decode chunk_count repeat chunk_px]. fold p2. cbn [app map]. rewrite <- !app_assoc. reflexivity.
      + eapply Common; [exact R2|apply seen_next|exact Hcs|exact I|cbn [length] in Hf; lia|lia|exact Hsk2| |exact EV].
        right. split; [apply (geo_lt w h stride Hw s2); exists y, (x + 1); split; [exact G2|destruct G2; lia]|].
        exists s2. split; [reflexivity|]. split; [|apply same_refl]. exists y, (x + 1). split; [exact G2|destruct G2; lia].
  Qed.
End Spec.
