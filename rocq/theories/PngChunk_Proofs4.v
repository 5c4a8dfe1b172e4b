(* Proofs about whole calls of the PNG decoder: the invariant of its state. *)
From Verif Require Import Base Bits IntOps_Model Algorithm_Model Algorithm_Proofs Png_Model Png_Spec Png_Proofs Png_Proofs2 Png_Proofs3 Png_Proofs4 Png_Proofs5 Png_Proofs6 Png_Proofs7 Png_Proofs8 Png_Proofs9 Png_Proofs10 Png_Proofs11 PngChunk_Model PngChunk_Spec PngChunk_Proofs PngChunk_Proofs2 PngChunk_Proofs3.
From Coq Require Import ZifyBool.

Definition env_ok (en : env) : Prop :=
  (forall z e, inflate en z = Fail e -> e <> BL_SUCCESS) /\ (forall z out, inflate en z = Done out -> bytes out) /\
  bytes (scratch en) /\ 0 <= pad en <= 15.

Definition limits (d : dec) : Prop :=
  iw d < 268435456 /\ data_size (prog d) (sdepth d * scount d) (iw d) (ih d) < 4294967296 /\
  (prog d = true -> sdepth d * scount d = 1 \/ 8 <= sdepth d * scount d).

Definition fresh (d : dec) : Prop :=
  frame d = 0 /\ first d = 0 /\ f_fctl d = false /\ f_actl d = false /\ prev d = no_fctl /\ ctrl d = no_fctl /\
  palsize d = 0 /\ f_plte d = false /\ f_trns d = false /\ f_key d = false.

Definition shape (d : dec) : Prop :=
  0 < iw d < 2147483648 /\ 0 < ih d < 2147483648 /\ In (ctype d, sdepth d) header_formats /\ scount d = samples (ctype d).

Definition ready (d : dec) : Prop :=
  shape d /\ limits d /\ ctl_ok 1 d /\ f_fctl d = false /\ 0 <= frame d /\
  (f_actl d = true -> 2 <= frames d < 4294967296 /\ frame d < frames d) /\ (f_actl d = false -> frame d <= 1) /\
  (frame d = 0 -> first d = 0 -> palsize d = 0 /\ f_plte d = false /\ f_trns d = false /\ f_key d = false).

Definition dec_inv (d : dec) : Prop :=
  length (pal d) = 256%nat /\ (last d = BL_SUCCESS -> (buf d = 0 /\ fresh d) \/ (0 < buf d /\ ready d)).

Lemma dispose_none en d x y w h : ctl_ok 1 d -> dispose en d x y w h = Ok (d, BL_SUCCESS).
Proof.
  intros (_ & I & C1 & C2 & _). unfold dispose, in_image. replace (c_dispose (ctrl d) =? 2) with false by lia. replace (c_dispose (prev d) =? 2) with false by lia.
  destruct (c_dispose (prev d) =? 1); [|reflexivity]. unfold inside in I.
  match goal with |- context [if ?b then Ok tt else UB] => replace b with true by lia end. reflexivity.
Qed.

(* What the pixels of the frame that was read are. *)
Definition frame_pixels (en : env) (f : list Z) (d : dec) (log : list (Z * list Z)) : Prop :=
  let ty := if frame d =? 0 then type_IDAT else type_fdAT in
  exists w h ps q qs r data,
    chunks f (buf d) ps q /\ (forall x, In x ps -> chunk_type f x <> ty) /\
    (if frame d =? 0 then w = iw d /\ h = ih d
     else exists x, In x ps /\ chunk_type f x = type_fcTL /\ w = be32 f (x + 12) /\ h = be32 f (x + 16)) /\
    qs <> [] /\ chunks f q qs r /\ Forall (fun x => chunk_type f x = ty) qs /\ inflate en (pixel_stream f qs) = Done data /\
    pixels_ok (prog d) (sdepth d * scount d) w h data log.

Lemma pixel_data_ok en f d : bytes f -> len f <= 4294967296 -> no_dispose_previous f -> env_ok en -> limits d ->
  shape d -> ctl_ok 1 d -> 0 < buf d -> f_fctl d = false -> 0 <= frame d -> (f_actl d = true -> 2 <= frames d < 4294967296 /\ frame d < frames d) -> (f_actl d = false -> frame d = 0) ->
  exists d' err log, decoder_read_pixel_data en f d = Ok (d', err, log) /\ pal d' = pal d /\
    (err = BL_SUCCESS -> last d' = last d /\ 0 < buf d' /\ ready d' /\ frame_pixels en f d log).
Proof.
  intros B L32 NDP (NF & BO & BS & PD) (LW & LD & LP) (SW & SH & SF & SC) CT Hb FC Hfr FA FN.
  unfold decoder_read_pixel_data. fold (len f).
  destruct (Z.ltb_spec (len f) (buf d)) as [X|X]; [exists d, BL_ERROR_INVALID_STATE, []; split; [reflexivity|]; split; [reflexivity|discriminate]|].
  set (tg := if frame d =? 0 then IDAT else fdAT).
  assert (TG : tg = type_IDAT \/ tg = type_fdAT) by (subst tg; destruct (frame d =? 0); [left|right]; reflexivity).
  destruct (skip_ok f tg B ltac:(lia) NDP (S (length f)) (buf d) d) as (d1 & err & q & E & RE & C1 & K); [lia|unfold len; lia|lia|lia|exact CT|].
  rewrite E. cbn [bind]. clear E.
  assert (RS : last d1 = last d /\ frame d1 = frame d /\ f_actl d1 = f_actl d /\ iw d1 = iw d /\ ih d1 = ih d /\ prog d1 = prog d /\ frames d1 = frames d /\
     ctype d1 = ctype d /\ sdepth d1 = sdepth d /\ scount d1 = scount d /\ pal d1 = pal d) by (unfold rest in RE; repeat split; congruence). clear RE.
  destruct RS as (R1 & R2 & R3 & R4 & R5 & R6 & R7 & R8 & R9 & R10 & R11).
  destruct (Z.eqb_spec err BL_SUCCESS) as [->|NE]; cbn [negb]; [|exists d1, err, []; split; [reflexivity|]; split; [exact R11|]; intros ->; contradiction].
  destruct (K eq_refl) as (QP & CA & CTQ & ps & CH & NI & W1 & W2). clear K. rewrite R2.
  destruct (negb (frame d =? 0) && negb (f_fctl d1)) eqn:NW; [exists d1, BL_ERROR_INVALID_DATA, []; split; [reflexivity|]; split; [exact R11|discriminate]|].
  set (win := if frame d =? 0 then (0, 0, iw d1, ih d1) else _).
  assert (WIN : exists x y w h, win = (x, y, w, h) /\ 0 <= x /\ 0 <= y /\ 0 <= w /\ 0 <= h /\ x + w <= iw d /\ y + h <= ih d /\
     (if frame d =? 0 then w = iw d /\ h = ih d else exists x, In x ps /\ chunk_type f x = type_fcTL /\ w = be32 f (x + 12) /\ h = be32 f (x + 16))).
  { subst win. destruct (Z.eqb_spec (frame d) 0) as [F0|F0].
    - exists 0, 0, (iw d1), (ih d1). split; [reflexivity|]. clear -R4 R5 SW SH. repeat split; lia.
    - eexists _, _, _, _. split; [reflexivity|]. destruct C1 as ((I1 & I2 & I3 & I4 & I5 & I6) & _). rewrite R4 in I5. rewrite R5 in I6.
      split; [exact I3|]. split; [exact I4|]. split; [exact I1|]. split; [exact I2|]. split; [exact I5|]. split; [exact I6|].
      cbn [negb andb] in NW. destruct (W2 FC ltac:(destruct (f_fctl d1); [reflexivity|discriminate NW])) as (x & X1 & X2 & X3 & X4). exists x. auto. }
  destruct WIN as (x & y & w & h & -> & Wx & Wy & Ww & Wh & Wxw & Wyh & WW).
  destruct (calculate_interlace_steps _ _ _ w h) as (steps, size) eqn:CS.
  rewrite R6, R9, R10 in CS.
  assert (SZ : size = snd (calculate_interlace_steps (if prog d then interlaceTableAdam7 else interlace_table_none) (sdepth d) (scount d) w h)) by (rewrite CS; reflexivity).
  assert (SO : sample_ok (sdepth d) (scount d)) by (rewrite SC; exact (samples_ok _ _ SF)).
  destruct (Z.eqb_spec size 0) as [S0|S0]; [exists d1, BL_ERROR_INVALID_DATA, []; split; [reflexivity|]; split; [exact R11|discriminate]|].
  assert (POS : 0 < w /\ 0 < h).
  { destruct (Z.eq_dec w 0) as [Z0|Z0]; [|destruct (Z.eq_dec h 0) as [Z1|Z1]; [|lia]];
    exfalso; apply S0; rewrite SZ; apply steps_empty; ((clear -Ww Wh Wx Wy Wxw Wyh LW SH Z0; lia) || (clear -Ww Wh Wx Wy Wxw Wyh LW SH Z1; lia)). }
  pose proof (sample_depth_pos _ _ SO) as DP.
  assert (DS : data_size (prog d) (sdepth d * scount d) w h < 4294967296) by (pose proof (data_size_mono (prog d) (sdepth d * scount d) w h (iw d) (ih d)); lia).
  rewrite steps_size in SZ by (try assumption; lia).
  unfold read_chunk_size. rewrite rd32_ok by (unfold chunk_at in CA; fold (len f) in CA; pose proof (be32_range f q B); lia). cbn [bind].
  assert (QL : q + 12 + be32 f q <= len f) by (unfold chunk_at in CA; fold (len f) in CA; lia). pose proof (be32_range f q B) as RQ.
  destruct (idat_ok (inflate en) f tg size NF B ltac:(lia) TG (S (length f)) q [] q ltac:(lia) (chunks_nil _ _) (Forall_nil _)) as (err & data & r & E & K); [lia|unfold len in *; lia|exact CA|exact CTQ|].
  change (pixel_stream f []) with (@nil Z) in E. rewrite E. cbn [bind]. clear E.
  destruct (Z.eqb_spec err BL_SUCCESS) as [->|NE]; cbn [negb]; [|exists d1, err, []; split; [reflexivity|]; split; [exact R11|]; intros ->; contradiction].
  destruct (K eq_refl) as (RQ1 & LDT & qs & CQ & FQ & IQ). clear K. cbn [app] in CQ, IQ.
  set (d2 := set_buf (set_fctl d1 false) r).
  assert (P2 : last d2 = last d /\ buf d2 = r /\ frame d2 = frame d /\ f_actl d2 = f_actl d /\ f_fctl d2 = false /\ iw d2 = iw d /\ ih d2 = ih d /\ prog d2 = prog d /\ frames d2 = frames d /\
     ctype d2 = ctype d /\ sdepth d2 = sdepth d /\ scount d2 = scount d /\ pal d2 = pal d /\ first d2 = first d1 /\ ctrl d2 = ctrl d1 /\ prev d2 = prev d1) by (subst d2; destruct d1; cbn in *; repeat split; congruence).
  destruct P2 as (P1 & P2 & P3 & P4 & P5 & P6 & P7 & P8 & P9 & P10 & P11 & P12 & P13 & P14 & P15 & P16).
  rewrite P3.
  destruct (negb (frame d =? 0) && negb (image_matches en)); [exists d2, BL_ERROR_INVALID_STATE, []; split; [reflexivity|]; split; [exact P13|discriminate]|].
  assert (C2 : ctl_ok 1 d2).
  { unfold ctl_ok, inside in *. rewrite P14, P15, P16, P6, P7, P5. rewrite R4, R5 in C1. intuition congruence. }
  assert (DI : (if frame d =? 0 then Ok (d2, BL_SUCCESS) else dispose en d2 x y w h) = Ok (d2, BL_SUCCESS)) by (destruct (frame d =? 0); [reflexivity|apply dispose_none; exact C2]).
  rewrite DI. cbn [bind]. change (negb (BL_SUCCESS =? BL_SUCCESS)) with false. cbv iota. rewrite P8, P11, P12.
  assert (BW : 0 < w < 268435456 /\ 0 < h < 2147483648) by (clear -POS Wx Wy Wxw Wyh LW SH; lia). destruct BW as (BW & BH).
  pose proof (read_pixels_ok (prog d) (sdepth d) (scount d) w h (pad en) (oom en) data (scratch en) SO BW BH DS (BO _ _ IQ) BS PD) as RP.
  assert (G : prog d = true -> forall r, 0 <= r < (h + 1) / 2 -> good_row (sdepth d * scount d) w (r mod 4)).
  { intros PT r0 Hr. specialize (LP PT). unfold good_row, Png_Proofs6.good2, Png_Proofs6.good13. clear -LP. lia. }
  specialize (RP G). clear G.
  destruct (read_pixels _ _ _ _ _ _ _ _ _) as [log|e| |]; [| |destruct RP|destruct RP].
  2:{ exists d2, e, []. split; [reflexivity|]. split; [exact P13|]. intros ->. exfalso. destruct RP as [(RP & _)|[(RP & _)|(RP & _)]]; discriminate RP. }
  destruct RP as (_ & _ & _ & RP).
  assert (II : in_image d2 x y w h = true) by (unfold in_image; rewrite P6, P7; clear -Wx Wy Wxw Wyh; lia). rewrite II. cbn [negb].
  assert (FN0 : f_actl d = true -> frame d <> 0 -> 0 < first d1).
  { intros FT F0. destruct C1 as (_ & _ & _ & _ & _ & C6). apply C6. destruct (f_fctl d1); [reflexivity|]. exfalso. revert NW. replace (frame d =? 0) with false by (clear -F0; lia). discriminate. }
  rewrite P3. set (d3 := set_frame d2 (w64 (frame d + 1))).
  assert (FR : w64 (frame d + 1) = frame d + 1).
  { unfold w64. apply Z.mod_small. clear -FA FN Hfr. destruct (f_actl d); [specialize (FA eq_refl)|specialize (FN eq_refl)]; lia. }
  assert (D3 : last d3 = last d /\ buf d3 = r /\ frame d3 = frame d + 1 /\ f_actl d3 = f_actl d /\ f_fctl d3 = false /\ iw d3 = iw d /\ ih d3 = ih d /\ prog d3 = prog d /\ frames d3 = frames d /\
     ctype d3 = ctype d /\ sdepth d3 = sdepth d /\ scount d3 = scount d /\ pal d3 = pal d /\ first d3 = first d1 /\ ctrl d3 = ctrl d1 /\ prev d3 = prev d1) by (subst d3; rewrite FR; destruct d2; cbn in *; repeat split; congruence).
  clearbody d3. clear P1 P2 P3 P4 P5 P6 P7 P8 P9 P10 P11 P12 P13 P14 P15 P16 C2 DI II.
  destruct D3 as (P1 & P2 & P3 & P4 & P5 & P6 & P7 & P8 & P9 & P10 & P11 & P12 & P13 & P14 & P15 & P16).
  assert (QN : qs <> []) by (intros ->; inversion CQ; subst; clear -RQ1; lia).
  assert (FP : frame_pixels en f d log).
  { exists w, h, ps, q, qs, r, data. replace (if frame d =? 0 then type_IDAT else type_fdAT) with tg by (subst tg; destruct (frame d =? 0); reflexivity). auto 10. }
  assert (C3 : ctl_ok 1 d3).
  { unfold ctl_ok, inside in *. rewrite P14, P15, P16, P6, P7, P5. rewrite R4, R5 in C1. intuition congruence. }
  assert (S3 : shape d3) by (unfold shape; rewrite P6, P7, P10, P11, P12; auto).
  assert (L3 : limits d3) by (unfold limits; rewrite P6, P7, P8, P11, P12; auto).
  rewrite P4, P9, P3. destruct (f_actl d && (frames d <=? frame d + 1)) eqn:WR.
  - exists (set_buf (set_frame d3 0) (first d3)), BL_SUCCESS, log. split; [reflexivity|]. split; [destruct d3; exact P13|]. intros _.
    assert (F1 : 0 < first d3) by (rewrite P14; apply FN0; clear -WR FA; destruct (f_actl d); try discriminate; try reflexivity; specialize (FA eq_refl); cbn in WR; lia).
    split; [destruct d3; exact P1|]. split; [destruct d3; exact F1|]. split; [|exact FP].
    assert (FF : f_actl d3 = true /\ 2 <= frames d3 < 4294967296) by (rewrite P4, P9; destruct (f_actl d); [split; [reflexivity|apply FA; reflexivity]|discriminate WR]).
    clear -S3 L3 C3 P5 F1 FF. destruct d3. unfold ready, shape, limits, ctl_ok, inside in *. cbn in *. destruct FF as (-> & FF). repeat split; try tauto; try lia; discriminate.
  - exists d3, BL_SUCCESS, log. split; [reflexivity|]. split; [exact P13|]. intros _. split; [exact P1|]. split; [clear -P2 RQ1 QP Hb; lia|]. split; [|exact FP].
    unfold ready. rewrite P3, P4, P9. split; [exact S3|]. split; [exact L3|]. split; [exact C3|]. split; [exact P5|]. split; [clear -Hfr; lia|]. split; [|split; [|clear -Hfr; lia]].
    + intros FT. specialize (FA FT). rewrite FT in WR. clear -FA WR. cbn in WR. lia.
    + intros FT. specialize (FN FT). clear -FN. lia.
Qed.

Lemma info_ready f p d d' : header_limits f p -> header_ok f p -> 0 < p -> fresh d -> last d = 0 -> length (pal d) = 256%nat -> info_of f p d d' ->
  last d' = 0 /\ length (pal d') = 256%nat /\ buf d' = p + 25 /\ ready d' /\ frame d' = 0 /\ pal d' = pal d /\
  iw d' = be32 f (p + 8) /\ ih d' = be32 f (p + 12) /\ prog d' = negb (get f (p + 20) =? 0) /\ ctype d' = get f (p + 17) /\ sdepth d' = get f (p + 16) /\ scount d' = samples (get f (p + 17)).
Proof.
  intros HL (H1 & H2 & H3 & H4 & H5 & H6 & H7 & H8) Hp FR L0 LP IO. change (2 ^ 31) with 2147483648 in *.
  unfold info_of in IO. cbv zeta in IO. set (d0 := if chunk_type f 8 =? type_CgBI then set_cgbi d true else d) in IO.
  assert (F0 : fresh d0 /\ last d0 = 0 /\ pal d0 = pal d) by (subst d0; destruct (_ =? _); [destruct d; repeat split; apply FR || assumption|auto]).
  clearbody d0. destruct F0 as (F0 & L1 & LP0). rewrite <- LP0 in *. clear LP0 FR L0 d.
  destruct d0. unfold fresh in F0. cbn in F0, L1, LP. destruct F0 as (-> & -> & -> & -> & -> & -> & -> & -> & -> & ->). subst last.
  destruct IO as [->|(n & N & ->)]; cbn; (split; [reflexivity|]; split; [exact LP|]; split; [reflexivity|]; split; [|repeat split; reflexivity]).
  - destruct HL as (HL1 & HL2 & HL3). unfold ready, shape, limits, ctl_ok, inside. cbn. repeat split; try lia; try assumption; try discriminate; intros; apply HL3; lia.
  - destruct HL as (HL1 & HL2 & HL3). unfold ready, shape, limits, ctl_ok, inside. cbn. repeat split; try lia; try assumption; try discriminate; intros; apply HL3; lia.
Qed.

Lemma header_pos_pos f : 0 < header_pos f. Proof. unfold header_pos. destruct (_ =? _); lia. Qed.

Lemma read_info_inv f d : file_ok f -> dec_inv d ->
  exists d' err, decoder_read_info f d = Ok (d', err) /\ dec_inv d' /\ pal d' = pal d /\ (err = BL_SUCCESS -> last d' = BL_SUCCESS /\ 0 < buf d' /\ ready d').
Proof.
  intros FO (LP & INV). pose proof FO as (B & L32 & LE & _ & HL). fold (len f) in L32. unfold decoder_read_info.
  destruct (Z.eqb_spec (buf d) 0) as [B0|B0]; cbn [andb]; [destruct (Z.eqb_spec (last d) BL_SUCCESS) as [L0|L0]|].
  - destruct (read_info_internal_ok f d B ltac:(lia) LE) as (d' & err & -> & K1 & _ & K3). cbn [bind].
    destruct (INV L0) as [(_ & FR)|(X & _)]; [|lia].
    destruct (Z.eqb_spec err BL_SUCCESS) as [->|NE].
    + destruct (K1 eq_refl) as (_ & HO & IO). destruct (info_ready f _ d d' (HL HO) HO (header_pos_pos f) FR L0 LP IO) as (A1 & A2 & A3 & A4 & A5 & A6 & _). pose proof (header_pos_pos f).
      exists d', BL_SUCCESS. split; [reflexivity|]. split; [|split; [exact A6|intros _; split; [exact A1|split; [lia|exact A4]]]]. split; [exact A2|]. intros _. right. split; [lia|exact A4].
    + exists (set_last d' err), err. split; [reflexivity|]. assert (PP : pal d' = pal d) by (destruct (K3 NE) as [->| ->]; destruct d; reflexivity).
      split; [|split; [destruct d'; exact PP|intros ->; contradiction]]. split; [destruct d'; cbn in *; congruence|]. destruct d'; cbn. intros ->. contradiction.
  - exists d, (last d). split; [reflexivity|]. split; [split; assumption|]. split; [reflexivity|]. intros E. contradiction.
  - exists d, (last d). split; [reflexivity|]. split; [split; assumption|]. split; [reflexivity|]. intros E. split; [exact E|]. destruct (INV E) as [(X & _)|X]; [contradiction|exact X].
Qed.

Theorem read_frame_inv en f d : file_ok f -> env_ok en -> dec_inv d ->
  exists d' err log, decoder_read_frame en f d = Ok (d', err, log) /\ dec_inv d'.
Proof.
  intros FO EO INV. pose proof FO as (B & L32 & LE & NDP & _). fold (len f) in L32. unfold decoder_read_frame.
  destruct (read_info_inv f d FO INV) as (d1 & err & E & INV1 & PP & K). rewrite E. cbn [bind].
  destruct (Z.eqb_spec err BL_SUCCESS) as [->|NE]; cbn [negb]; [|exists d1, err, []; split; [reflexivity|exact INV1]].
  destruct (K eq_refl) as (L1 & B1 & RD). clear E K.
  assert (BADL : forall (d : dec) err, length (pal d) = 256%nat -> err <> BL_SUCCESS -> dec_inv (set_last d err)).
  { intros [] e HL HE. cbn in HL. split; [exact HL|]. cbn. intros ->. contradiction. }
  pose proof RD as (S1 & LIM & C1 & F1 & F2 & F3 & F4 & F5).
  destruct ((frame d1 =? 0) && (first d1 =? 0)) eqn:FST.
  - destruct (F5 ltac:(lia) ltac:(lia)) as (Z1 & Z2 & Z3 & Z4).
    destruct (important_chunks_ok (conv en) f d1 B L32 B1 (proj1 INV1) Z1 Z2 Z3 Z4 ltac:(apply S1)) as (d2 & err & -> & LP2 & K). cbn [bind].
    destruct (Z.eqb_spec err BL_SUCCESS) as [->|NE]; cbn [negb]; [|exists (set_last d2 err), err, []; split; [reflexivity|apply BADL; assumption]].
    destruct (K eq_refl) as (BB & CO & _). clear K.
    assert (RS : last d2 = last d1 /\ frame d2 = frame d1 /\ f_actl d2 = f_actl d1 /\ f_fctl d2 = f_fctl d1 /\ iw d2 = iw d1 /\ ih d2 = ih d1 /\ prog d2 = prog d1 /\ frames d2 = frames d1 /\
       ctype d2 = ctype d1 /\ sdepth d2 = sdepth d1 /\ scount d2 = scount d1 /\ prev d2 = prev d1 /\ ctrl d2 = ctrl d1 /\ first d2 = first d1) by (clear -CO; destruct d2; unfold core in CO; cbn in *; repeat split; congruence).
    destruct RS as (R1 & R2 & R3 & R4 & R5 & R6 & R7 & R8 & R9 & R10 & R11 & R12 & R13 & R14).
    destruct (pixel_data_ok en f d2 B L32 NDP EO) as (d3 & err & log & -> & P3 & K).
    + unfold limits in *. rewrite R5, R6, R7, R10, R11. exact LIM.
    + unfold shape in *. rewrite R5, R6, R9, R10, R11. exact S1.
    + unfold ctl_ok, inside in *. rewrite R4, R5, R6, R12, R13, R14. exact C1.
    + clear -BB B1. lia.
    + congruence.
    + clear -R2 F2. lia.
    + rewrite R3, R8, R2. exact F3.
    + intros _. clear -R2 FST. lia.
    + cbn [bind]. destruct (Z.eqb_spec err BL_SUCCESS) as [->|NE]; [|exists (set_last d3 err), err, log; split; [reflexivity|apply BADL; congruence]].
      destruct (K eq_refl) as (K1 & K2 & K3 & _). exists d3, BL_SUCCESS, log. split; [reflexivity|]. split; [congruence|]. intros _. right. split; assumption.
  - destruct (f_actl d1) eqn:FA; cbn [negb bind].
    2:{ change (negb (BL_ERROR_NO_MORE_DATA =? BL_SUCCESS)) with true. cbv iota. exists d1, BL_ERROR_NO_MORE_DATA, []. split; [reflexivity|exact INV1]. }
    change (negb (BL_SUCCESS =? BL_SUCCESS)) with false. cbv iota.
    destruct (pixel_data_ok en f d1 B L32 NDP EO LIM S1 C1 B1 F1 F2) as (d3 & err & log & -> & P3 & K); [rewrite FA; exact F3|congruence|].
    cbn [bind]. destruct (Z.eqb_spec err BL_SUCCESS) as [->|NE]; [|exists (set_last d3 err), err, log; split; [reflexivity|apply BADL; [rewrite P3; apply INV1|assumption]]].
    destruct (K eq_refl) as (K1 & K2 & K3 & _). exists d3, BL_SUCCESS, log. split; [reflexivity|]. split; [rewrite P3; apply INV1|]. intros _. right. split; assumption.
Qed.

(* ------------------------------------------------------------------ the first frame *)

Theorem first_frame_ok en f d d' log : file_ok f -> env_ok en -> length (pal d) = 256%nat -> fresh d -> last d = BL_SUCCESS -> buf d = 0 ->
  decoder_read_frame en f d = Ok (d', BL_SUCCESS, log) ->
  let p := header_pos f in
  firstn 8 f = signature /\ header_ok f p /\
  exists ps q ps' q' qs r data,
    prefix f (p + 25) ps q /\ chunks f q ps' q' /\ (forall x, In x ps' -> chunk_type f x <> type_IDAT) /\
    qs <> [] /\ chunks f q' qs r /\ Forall (fun x => chunk_type f x = type_IDAT) qs /\ inflate en (pixel_stream f qs) = Done data /\
    pixels_ok (negb (get f (p + 20) =? 0)) (get f (p + 16) * samples (get f (p + 17))) (be32 f (p + 8)) (be32 f (p + 12)) data log /\
    (get f (p + 17) = 3 -> forall i, 0 <= i < 256 -> entry (pal d') i =
       match find_chunk f type_PLTE ps with Some pl => Some (indexed_colour f pl (find_chunk f type_tRNS ps) i) | None => entry (pal d) i end) /\
    (get f (p + 17) = 0 -> forall i, 0 <= i < 2 ^ get f (p + 16) -> entry (pal d') i = Some (grey_colour f (get f (p + 16)) (find_chunk f type_tRNS ps) i)).
Proof.
  intros FO EO LP FR L0 B0 E. pose proof FO as (B & L32 & LE & NDP & HL). fold (len f) in L32. cbv zeta. set (p := header_pos f).
  unfold decoder_read_frame, decoder_read_info in E. rewrite B0, L0 in E. change ((0 =? 0) && (BL_SUCCESS =? BL_SUCCESS)) with true in E. cbv iota in E.
  destruct (read_info_internal_ok f d B ltac:(lia) LE) as (d1 & err & E1 & K1 & _ & _). rewrite E1 in E. cbn [bind] in E.
  destruct (Z.eq_dec err BL_SUCCESS) as [EE|NE].
  2:{ exfalso. replace (err =? BL_SUCCESS) with false in E by lia. cbn [negb] in E. injection E as _ E _. contradiction. }
  subst err. change (BL_SUCCESS =? BL_SUCCESS) with true in E. cbn [negb] in E. cbv iota in E.
  destruct (K1 eq_refl) as (SG & HO & IO). fold p in HO, IO, HL. split; [exact SG|]. split; [exact HO|]. pose proof (header_pos_pos f) as PP. fold p in PP.
  destruct (info_ready f p d d1 (HL HO) HO PP FR L0 LP IO) as (A1 & A2 & A3 & RD & A5 & A6 & I1 & I2 & I3 & I4 & I5 & I6).
  assert (F1 : first d1 = 0). { clear -IO FR. unfold info_of in IO. cbv zeta in IO. assert (X : first d = 0) by apply FR. destruct (chunk_type f 8 =? type_CgBI); destruct IO as [->|(n & _ & ->)]; destruct d; exact X. }
  rewrite A5, F1 in E. change ((0 =? 0) && (0 =? 0)) with true in E. cbv iota in E.
  pose proof RD as (S1 & LIM & C1 & G1 & G2 & G3 & G4 & G5). destruct (G5 A5 F1) as (Z1 & Z2 & Z3 & Z4).
  destruct (important_chunks_ok (conv en) f d1 B L32 ltac:(lia) A2 Z1 Z2 Z3 Z4 ltac:(apply S1)) as (d2 & err & E2 & LP2 & K). rewrite E2 in E. cbn [bind] in E.
  destruct (Z.eq_dec err BL_SUCCESS) as [EE|NE].
  2:{ exfalso. replace (err =? BL_SUCCESS) with false in E by lia. cbn [negb] in E. injection E as _ E _. contradiction. }
  subst err. change (BL_SUCCESS =? BL_SUCCESS) with true in E. cbn [negb] in E. cbv iota in E.
  destruct (K eq_refl) as (BB & CO & PZ & ps & PF & IX & GR). clear K E1 E2.
  assert (RS : last d2 = last d1 /\ frame d2 = frame d1 /\ f_actl d2 = f_actl d1 /\ f_fctl d2 = f_fctl d1 /\ iw d2 = iw d1 /\ ih d2 = ih d1 /\ prog d2 = prog d1 /\ frames d2 = frames d1 /\
       ctype d2 = ctype d1 /\ sdepth d2 = sdepth d1 /\ scount d2 = scount d1 /\ prev d2 = prev d1 /\ ctrl d2 = ctrl d1 /\ first d2 = first d1) by (clear -CO; destruct d2; unfold core in CO; cbn in *; repeat split; congruence).
  destruct RS as (R1 & R2 & R3 & R4 & R5 & R6 & R7 & R8 & R9 & R10 & R11 & R12 & R13 & R14).
  destruct (pixel_data_ok en f d2 B L32 NDP EO) as (d3 & err & log' & E3 & P3 & K).
  - unfold limits in *. rewrite R5, R6, R7, R10, R11. exact LIM.
  - unfold shape in *. rewrite R5, R6, R9, R10, R11. exact S1.
  - unfold ctl_ok, inside in *. rewrite R4, R5, R6, R12, R13, R14. exact C1.
  - clear -BB A3 PP. lia.
  - congruence.
  - clear -R2 G2. lia.
  - rewrite R3, R8, R2. exact G3.
  - intros _. congruence.
  - rewrite E3 in E. cbn [bind] in E. assert (EE : err = BL_SUCCESS /\ log' = log) by (split; congruence). destruct EE as (-> & ->).
    change (BL_SUCCESS =? BL_SUCCESS) with true in E. cbv iota in E. injection E as ->. destruct (K eq_refl) as (_ & _ & _ & FP). clear K.
    unfold frame_pixels in FP. rewrite R2, A5 in FP. change (0 =? 0) with true in FP. cbv iota zeta in FP. destruct FP as (w & h & ps' & q' & qs & r & data & Q1 & Q2 & (-> & ->) & Q3 & Q4 & Q5 & Q6 & Q7).
    exists ps, (buf d2), ps', q', qs, r, data. rewrite R5, R6, R7, R10, R11, I1, I2, I3, I5, I6 in Q7. rewrite A3 in PF. rewrite I4 in IX, GR. rewrite I5, P3 in *. rewrite A6 in IX. auto 12.
Qed.

(* ------------------------------------------------------------------ later frames *)

Theorem later_frame_ok en f d d' log : file_ok f -> env_ok en -> dec_inv d -> frame d <> 0 -> decoder_read_frame en f d = Ok (d', BL_SUCCESS, log) -> frame_pixels en f d log.
Proof.
  intros FO EO INV F0 E. pose proof FO as (B & L32 & LE & NDP & HL). fold (len f) in L32. unfold decoder_read_frame, decoder_read_info in E.
  destruct INV as (LP & INV). destruct ((buf d =? 0) && (last d =? BL_SUCCESS)) eqn:X.
  { exfalso. unfold BL_SUCCESS in *. destruct (INV ltac:(lia)) as [(_ & FR)|(Y & _)]; [|lia]. apply F0. apply FR. }
  cbn [bind] in E. destruct (Z.eq_dec (last d) BL_SUCCESS) as [L0|L0].
  2:{ exfalso. replace (last d =? BL_SUCCESS) with false in E by lia. cbn [negb] in E. injection E as _ E _. contradiction. }
  rewrite L0 in E. change (negb (BL_SUCCESS =? BL_SUCCESS)) with false in E. cbv iota in E.
  replace ((frame d =? 0) && (first d =? 0)) with false in E by lia.
  destruct (INV L0) as [(Y & _)|(B1 & S1 & LIM & C1 & F1 & F2 & F3 & F4 & F5)]; [exfalso; rewrite L0, Y in X; discriminate X|].
  destruct (f_actl d) eqn:FA; cbn [negb bind] in E.
  2:{ exfalso. change (negb (BL_ERROR_NO_MORE_DATA =? BL_SUCCESS)) with true in E. cbv iota in E. discriminate E. }
  change (negb (BL_SUCCESS =? BL_SUCCESS)) with false in E. cbv iota in E.
  destruct (pixel_data_ok en f d B L32 NDP EO LIM S1 C1 B1 F1 F2) as (d3 & err & log' & E3 & P3 & K); [rewrite FA; exact F3|congruence|].
  rewrite E3 in E. cbn [bind] in E. assert (EE : err = BL_SUCCESS /\ log' = log) by (split; congruence). destruct EE as (-> & ->). apply K. reflexivity.
Qed.
