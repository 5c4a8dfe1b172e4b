(* C39: the PNG chunk reader is safe and reads the header exactly.  C40: palettes and the first frame.  C41: animations. *)
From Verif Require Import Base Bits IntOps_Model Algorithm_Model Png_Model Png_Spec Png_Proofs PngChunk_Model PngChunk_Spec PngChunk_Proofs PngChunk_Proofs2 PngChunk_Proofs3 PngChunk_Proofs4.
From Coq Require Import ZifyBool.

(* ------------------------------------------------------------------ files for the examples *)

Definition chunk (ty : Z) (data : list Z) : list Z :=
  let n := Z.of_nat (length data) in
  [n / 2 ^ 24 mod 256; n / 2 ^ 16 mod 256; n / 2 ^ 8 mod 256; n mod 256; ty / 2 ^ 24 mod 256; ty / 2 ^ 16 mod 256; ty / 2 ^ 8 mod 256; ty mod 256] ++ data ++ [0; 0; 0; 0].
Definition ihdr (w h depth ctype interlace : Z) : list Z := chunk type_IHDR [0; 0; 0; w; 0; 0; 0; h; depth; ctype; 0; 0; interlace].
Definition type_acTL := name 97 99 84 76.
Definition fctl_data (seq w h x y dispose : Z) : list Z :=
  [0; 0; 0; seq; 0; 0; 0; w; 0; 0; 0; h; 0; 0; 0; x; 0; 0; 0; y; 0; 1; 0; 10; dispose; 0].
Lemma bytes_b l : forallb (fun z => (0 <=? z) && (z <? 256)) l = true -> bytes l.
Proof. intros H. rewrite forallb_forall in H. apply Forall_forall. intros z Hz. specialize (H z Hz). unfold is_byte. lia. Qed.
Ltac bytes_tac := apply bytes_b; vm_compute; reflexivity.

(* ------------------------------------------------------------------ C39 *)

(* A complete file that ends with the header: the reader leaves the file. *)
Theorem C39_short_file_refuted : exists f, bytes f /\ firstn 8 f = signature /\ header_ok f 8 /\ decoder_read_info f decoder_create = UB.
Proof.
  exists (signature ++ ihdr 1 1 8 0 0). split; [bytes_tac|]. split; [reflexivity|]. split; [|vm_compute; reflexivity].
  vm_compute. repeat split; auto; try (intros [=]).
Qed.
Print Assumptions C39_short_file_refuted.

(* A chunk of 2^32 - 12 bytes: the size of the step overflows, and the reader stays where it is.  (Nothing is read outside of the file.) *)
Lemma endless rest d : length rest = Z.to_nat (2 ^ 32) -> forall fuel,
  important_loop fuel ((signature ++ ihdr 1 1 8 0 0 ++ [255; 255; 255; 244; 116; 69; 88; 116]) ++ rest) (2 ^ 32 + 41) 33 d = NoFuel.
Proof.
  intros L. set (f := _ ++ rest). induction fuel as [|fuel IH]; [reflexivity|]. cbn [important_loop].
  assert (E1 : read_chunk_tag f 33 = Ok (name 116 69 88 116)) by reflexivity.
  assert (E2 : read_chunk_size f 33 = Ok (2 ^ 32 - 12)) by reflexivity.
  rewrite E1, E2. cbn [bind].
  change (has_chunk (2 ^ 32 + 41) 33) with true. change (has_chunk_with_size (2 ^ 32 + 41) 33 (2 ^ 32 - 12)) with true. cbn [negb].
  change (name 116 69 88 116 =? PLTE) with false. change (name 116 69 88 116 =? tRNS) with false.
  change ((name 116 69 88 116 =? IHDR) || (name 116 69 88 116 =? IDAT) || (name 116 69 88 116 =? IEND) || (name 116 69 88 116 =? fcTL)) with false. cbv iota.
  change (33 + w32 (kPngChunkBaseSize + (2 ^ 32 - 12))) with 33. exact IH.
Qed.

Theorem C39_endless_refuted : exists f d, bytes f /\ firstn 8 f = signature /\ header_ok f 8 /\
  decoder_read_info f decoder_create = Ok (d, BL_SUCCESS) /\ forall fuel, important_loop fuel f (Z.of_nat (length f)) (buf d) d = NoFuel.
Proof.
  set (rest := repeat 0 (Z.to_nat (2 ^ 32))).
  assert (L : length rest = Z.to_nat (2 ^ 32)) by apply repeat_length.
  assert (R : Forall is_byte rest) by (apply Forall_forall; intros z Hz; apply repeat_spec in Hz; unfold is_byte; lia).
  clearbody rest. set (f := (signature ++ ihdr 1 1 8 0 0 ++ [255; 255; 255; 244; 116; 69; 88; 116]) ++ rest).
  assert (LF : len f = 2 ^ 32 + 41) by (unfold len, f; rewrite app_length, L; change (length (signature ++ _)) with 41%nat; lia).
  assert (B : bytes f) by (apply Forall_app; split; [bytes_tac|exact R]).
  assert (HO : header_ok f 8).
  { unfold header_ok. repeat split; try reflexivity; try (left; reflexivity). do 3 right. left. reflexivity. }
  destruct (read_info_internal_ok f decoder_create B) as (d' & err & E & K1 & K2 & _); [rewrite LF; reflexivity|split; [fold (len f); rewrite LF; discriminate|discriminate]|].
  assert (err = BL_SUCCESS) as -> by (apply K2; [reflexivity|exact HO|discriminate]).
  destruct (K1 eq_refl) as (_ & _ & IO). change (header_pos f) with 8 in IO.
  exists f, d'. split; [exact B|]. split; [reflexivity|]. split; [exact HO|]. split.
  - unfold decoder_read_info. change (buf decoder_create =? 0) with true. change (last decoder_create =? BL_SUCCESS) with true. cbn [andb]. rewrite E. reflexivity.
  - assert (BD : buf d' = 33). { destruct IO as [->|(n & _ & ->)]; reflexivity. }
    rewrite BD. fold (len f). rewrite LF. apply endless. exact L.
Qed.
Print Assumptions C39_endless_refuted.

(* The header: what is accepted and what is reported, for any file that is not cut off right after the header. *)
Theorem C39_header f : bytes f -> Z.of_nat (length f) < 2 ^ 64 -> long_enough f ->
  exists d err, decoder_read_info f decoder_create = Ok (d, err) /\
    (err = BL_SUCCESS <-> firstn 8 f = signature /\ header_ok f (header_pos f) /\ (chunk_type f 8 = type_CgBI -> chunk_len f 8 = 4)) /\
    (err = BL_SUCCESS -> let p := header_pos f in
       iw d = be32 f (p + 8) /\ ih d = be32 f (p + 12) /\ sdepth d = get f (p + 16) /\ ctype d = get f (p + 17) /\
       scount d = samples (get f (p + 17)) /\ (prog d = true <-> get f (p + 20) = 1)).
Proof.
  intros B L64 LE. unfold decoder_read_info. change (buf decoder_create =? 0) with true. change (last decoder_create =? BL_SUCCESS) with true. cbn [andb].
  destruct (read_info_internal_ok f decoder_create B L64 LE) as (d & err & E & K1 & K2 & K3). rewrite E. cbn [bind].
  eexists _, err. split; [reflexivity|]. split.
  - split; [|intros (A & C & D); exact (K2 A C D)]. intros ->. destruct (K1 eq_refl) as (A & C & _). split; [exact A|]. split; [exact C|].
    intros T. exact (info_cgbi f decoder_create d B LE T E).
  - intros ->. destruct (K1 eq_refl) as (_ & (_ & _ & _ & _ & _ & _ & _ & PR) & IO). change (BL_SUCCESS =? BL_SUCCESS) with true. cbv iota. unfold info_of in IO. cbv zeta in *.
    set (p := header_pos f) in *. clearbody p.
    destruct (chunk_type f 8 =? type_CgBI); destruct IO as [->|(n & _ & ->)]; cbn; repeat split; lia.
Qed.
Print Assumptions C39_header.

(* Programs: any sequence of calls, each with its own file and environment. *)
Inductive call := Restart | ReadInfo (f : list Z) | ReadFrame (en : env) (f : list Z).
Definition run1 (c : call) (d : dec) : outcome (dec * Z) :=
  match c with
  | Restart => Ok (decoder_restart d, BL_SUCCESS)
  | ReadInfo f => decoder_read_info f d
  | ReadFrame en f => let* (d, err, _) := decoder_read_frame en f d in Ok (d, err)
  end.
Fixpoint run (cs : list call) (d : dec) : outcome (dec * list Z) :=
  match cs with
  | [] => Ok (d, [])
  | c :: cs' => let* (d, err) := run1 c d in let* (d, errs) := run cs' d in Ok (d, err :: errs)
  end.
Definition call_ok (c : call) : Prop :=
  match c with Restart => True | ReadInfo f => file_ok f | ReadFrame en f => file_ok f /\ env_ok en end.

Lemma restart_inv d : length (pal d) = 256%nat -> dec_inv (decoder_restart d).
Proof. intros L. split; [exact L|]. intros _. left. repeat split. Qed.

Lemma run_inv cs : Forall call_ok cs -> forall d, dec_inv d -> exists d' errs, run cs d = Ok (d', errs) /\ dec_inv d'.
Proof.
  induction 1 as [|c cs HC HCS IH]; intros d INV; cbn [run]; [exists d, []; auto|].
  assert (X : exists d1 err, run1 c d = Ok (d1, err) /\ dec_inv d1).
  { destruct c as [|f|en f]; cbn [run1].
    - eexists _, _. split; [reflexivity|]. apply restart_inv. apply INV.
    - destruct (read_info_inv f d HC INV) as (d1 & err & E & I1 & _). eauto.
    - destruct HC as (FO & EO). destruct (read_frame_inv en f d FO EO INV) as (d1 & err & log & E & I1). rewrite E. cbn [bind]. eauto. }
  destruct X as (d1 & err & -> & I1). cbn [bind]. destruct (IH d1 I1) as (d2 & errs & -> & I2). cbn [bind]. eauto.
Qed.

(* Whatever the bytes of the files are, no call reads outside of them or outside of the palette, writes outside of the image, or fails to end. *)
Theorem C39_decoder_safe_partial cs : Forall call_ok cs -> exists d errs, run cs decoder_create = Ok (d, errs) /\ length errs = length cs.
Proof.
  intros H. destruct (run_inv cs H decoder_create) as (d & errs & E & _).
  - apply restart_inv. reflexivity.
  - exists d, errs. split; [exact E|]. clear H. revert d errs E. generalize decoder_create. induction cs as [|c cs IH]; intros d0 d errs E; cbn [run] in E.
    + injection E as _ <-. reflexivity.
    + destruct (run1 c d0) as [(d1, e)| | |]; try discriminate E. cbn [bind] in E. destruct (run cs d1) as [(d2, es)| | |] eqn:R; try discriminate E. cbn [bind] in E.
      injection E as _ <-. cbn. f_equal. exact (IH _ _ _ R).
Qed.
Print Assumptions C39_decoder_safe_partial.

(* ------------------------------------------------------------------ C40 *)

(* An indexed image without PLTE chunk is accepted, and its pixels are looked up in memory that was never written. *)
Theorem C40_missing_palette_refuted : exists f en d log, bytes f /\ env_ok en /\
  decoder_read_frame en f decoder_create = Ok (d, BL_SUCCESS, log) /\ ctype d = 3 /\ log = [(0, [7])] /\ entry (pal d) 7 = None.
Proof.
  exists (signature ++ ihdr 1 1 8 3 0 ++ chunk type_IDAT [1] ++ chunk type_IEND []), (Env (fun _ => Done [0; 7]) [] 0 false false BL_SUCCESS true).
  eexists _, _. split; [bytes_tac|]. split; [|split; [vm_compute; reflexivity|repeat split]].
  split; [discriminate|]. split; [intros z out [= <-]; bytes_tac|]. split; [constructor|cbn; lia].
Qed.
Print Assumptions C40_missing_palette_refuted.

(* The first frame: it is read only if the signature and the header are valid; its pixels are those of the consecutive IDAT chunks, and the
   palette is that of the PLTE and tRNS chunks, or the grey scale. *)
Theorem C40_first_frame_partial en f d log : file_ok f -> env_ok en -> decoder_read_frame en f decoder_create = Ok (d, BL_SUCCESS, log) ->
  let p := header_pos f in
  firstn 8 f = signature /\ header_ok f p /\
  exists ps q ps' q' qs r data,
    prefix f (p + 25) ps q /\ chunks f q ps' q' /\ (forall x, In x ps' -> chunk_type f x <> type_IDAT) /\
    qs <> [] /\ chunks f q' qs r /\ Forall (fun x => chunk_type f x = type_IDAT) qs /\ inflate en (pixel_stream f qs) = Done data /\
    pixels_ok (negb (get f (p + 20) =? 0)) (get f (p + 16) * samples (get f (p + 17))) (be32 f (p + 8)) (be32 f (p + 12)) data log /\
    (get f (p + 17) = 3 -> forall pl, find_chunk f type_PLTE ps = Some pl ->
       forall i, 0 <= i < 256 -> entry (pal d) i = Some (indexed_colour f pl (find_chunk f type_tRNS ps) i)) /\
    (get f (p + 17) = 0 -> forall i, 0 <= i < 2 ^ get f (p + 16) -> entry (pal d) i = Some (grey_colour f (get f (p + 16)) (find_chunk f type_tRNS ps) i)).
Proof.
  intros FO EO E. destruct (first_frame_ok en f decoder_create d log FO EO) as (A & C & ps & q & ps' & q' & qs & r & data & Q1 & Q2 & Q3 & Q4 & Q5 & Q6 & Q7 & Q8 & Q9 & Q10); try reflexivity; [repeat split|exact E|].
  cbv zeta. split; [exact A|]. split; [exact C|]. exists ps, q, ps', q', qs, r, data. repeat (split; [assumption|]). split; [|exact Q10].
  intros T pl HP i Hi. specialize (Q9 T i Hi). rewrite HP in Q9. exact Q9.
Qed.
Print Assumptions C40_first_frame_partial.

(* ------------------------------------------------------------------ C41 *)

(* Two frames of one pixel; the first one is to be disposed of by restoring what was there before. *)
Definition apng (dispose0 dispose1 : Z) : list Z :=
  signature ++ ihdr 1 1 8 6 0 ++ chunk type_acTL [0; 0; 0; 2; 0; 0; 0; 0] ++
  chunk type_fcTL (fctl_data 0 1 1 0 0 dispose0) ++ chunk type_IDAT [1] ++
  chunk type_fcTL (fctl_data 1 1 1 0 0 dispose1) ++ chunk type_fdAT [0; 0; 0; 2; 1] ++ chunk type_IEND [].
Definition env41 : env := Env (fun _ => Done [0; 10; 20; 30; 255]) [] 0 false false BL_SUCCESS true.
Lemma env41_ok : env_ok env41.
Proof. split; [discriminate|]. split; [intros z out [= <-]; bytes_tac|]. split; [constructor|cbn; lia]. Qed.

Theorem C41_dispose_previous_refuted : exists f0 f1, bytes f0 /\ bytes f1 /\
  run [ReadFrame env41 f0; ReadFrame env41 f0] decoder_create = UB /\ run [ReadFrame env41 f1; ReadFrame env41 f1] decoder_create = UB.
Proof. exists (apng 2 0), (apng 0 2). split; [bytes_tac|]. split; [bytes_tac|]. split; vm_compute; reflexivity. Qed.
Print Assumptions C41_dispose_previous_refuted.

(* An animation whose default image is not one of its frames: after two frames the decoder cannot go on. *)
Definition apng_default : list Z :=
  signature ++ ihdr 1 1 8 6 0 ++ chunk type_acTL [0; 0; 0; 2; 0; 0; 0; 0] ++ chunk type_IDAT [1] ++
  chunk type_fcTL (fctl_data 0 1 1 0 0 0) ++ chunk type_fdAT [0; 0; 0; 1; 1] ++
  chunk type_fcTL (fctl_data 2 1 1 0 0 0) ++ chunk type_fdAT [0; 0; 0; 3; 1] ++ chunk type_IEND [].
Theorem C41_default_image_refuted : exists f d, bytes f /\
  run [ReadFrame env41 f; ReadFrame env41 f; ReadFrame env41 f] decoder_create = Ok (d, [BL_SUCCESS; BL_SUCCESS; BL_ERROR_INVALID_DATA]).
Proof. exists apng_default. eexists. split; [bytes_tac|]. vm_compute. reflexivity. Qed.
Print Assumptions C41_default_image_refuted.

(* The pixels of every later frame, in every reachable state: those of the consecutive fdAT chunks after the frame control chunk. *)
Theorem C41_frame_pixels_partial cs d errs en f d' log : Forall call_ok cs -> run cs decoder_create = Ok (d, errs) ->
  file_ok f -> env_ok en -> frame d <> 0 -> decoder_read_frame en f d = Ok (d', BL_SUCCESS, log) ->
  exists w h ps q qs r data,
    chunks f (buf d) ps q /\ (forall x, In x ps -> chunk_type f x <> type_fdAT) /\
    (exists x, In x ps /\ chunk_type f x = type_fcTL /\ w = be32 f (x + 12) /\ h = be32 f (x + 16)) /\
    qs <> [] /\ chunks f q qs r /\ Forall (fun x => chunk_type f x = type_fdAT) qs /\ inflate en (pixel_stream f qs) = Done data /\
    pixels_ok (prog d) (sdepth d * scount d) w h data log.
Proof.
  intros HC R FO EO F0 E. destruct (run_inv cs HC decoder_create (restart_inv decoder_create eq_refl)) as (d0 & errs0 & R0 & INV). rewrite R in R0. injection R0 as <- <-.
  pose proof (later_frame_ok en f d d' log FO EO INV F0 E) as FP. unfold frame_pixels in FP. replace (frame d =? 0) with false in FP by lia. exact FP.
Qed.
Print Assumptions C41_frame_pixels_partial.

(* ------------------------------------------------------------------ examples *)

(* 2 x 2 indexed pixels of 1 bit: black and a half transparent red. *)
Definition file40 : list Z :=
  signature ++ ihdr 2 2 1 3 0 ++ chunk type_PLTE [0; 0; 0; 255; 0; 0] ++ chunk type_tRNS [255; 128] ++ chunk type_IDAT [1; 2] ++ chunk type_IDAT [3] ++ chunk type_IEND [].
Definition env40 : env := Env (fun z => if Z.of_nat (length z) <? 3 then More else Done [0; 64; 2; 192]) [] 0 false false BL_SUCCESS true.

Lemma no_previous f : forallb (fun p => negb ((chunk_type f p =? type_fcTL) && (get f (p + 32) =? 2))) (zrange (Z.of_nat (length f))) = true -> bytes f -> no_dispose_previous f.
Proof.
  intros H B p (P0 & P1) T L G. rewrite forallb_forall in H. specialize (H p). rewrite T, G, !Z.eqb_refl in H. discriminate H.
  unfold zrange. apply in_map_iff. exists (Z.to_nat p). pose proof (be32_range f (p) B). split; [lia|]. apply in_seq. lia.
Qed.
Ltac file_tac := unfold file_ok; (split; [bytes_tac|]); (split; [vm_compute; discriminate|]); (split; [split; [vm_compute; discriminate|intros X; vm_compute in X; discriminate X]|]);
  (split; [apply no_previous; [vm_compute; reflexivity|bytes_tac]|]); intros _; unfold header_limits; cbv zeta; (split; [vm_compute; reflexivity|]); (split; [vm_compute; reflexivity|]); intros X; vm_compute in X; vm_compute; auto.

Example C39_ex_header : exists d, decoder_read_info file40 decoder_create = Ok (d, BL_SUCCESS) /\ iw d = 2 /\ ih d = 2 /\ sdepth d = 1 /\ ctype d = 3 /\ prog d = false.
Proof. eexists. split; [vm_compute; reflexivity|]. repeat split. Qed.
Example C39_ex_header_bad : long_enough (signature ++ ihdr 2 2 16 3 0 ++ chunk type_IEND []) /\ exists d err, decoder_read_info (signature ++ ihdr 2 2 16 3 0 ++ chunk type_IEND []) decoder_create = Ok (d, err) /\ err <> BL_SUCCESS.
Proof. split; [split; [vm_compute; discriminate|intros X; vm_compute in X; discriminate X]|]. eexists _, _. split; [vm_compute; reflexivity|discriminate]. Qed.

Lemma file40_ok : file_ok file40. Proof. file_tac. Qed.
Lemma env40_ok : env_ok env40.
Proof. split; [intros z c; cbn; destruct (_ <? _); discriminate|]. split; [|split; [constructor|cbn; lia]]. intros z out. cbn. destruct (_ <? _); [discriminate|]. intros [= <-]. bytes_tac. Qed.
Lemma apng_ok : file_ok (apng 0 1). Proof. file_tac. Qed.

(* A still image, its header again, an animation whose frames go round, and an image that is cut off. *)
Definition program39 : list call :=
  [ReadFrame env40 file40; ReadFrame env40 file40; Restart; ReadInfo file40; Restart;
   ReadFrame env41 (apng 0 1); ReadFrame env41 (apng 0 1); ReadFrame env41 (apng 0 1); Restart; ReadFrame env40 (firstn 80 file40)].
Lemma cut_ok : file_ok (firstn 80 file40).
Proof.
  unfold file_ok. split; [bytes_tac|]. split; [vm_compute; discriminate|]. split; [split; [vm_compute; discriminate|intros X; vm_compute in X; discriminate X]|].
  split; [apply no_previous; [vm_compute; reflexivity|bytes_tac]|]. intros _. unfold header_limits. cbv zeta. split; [vm_compute; reflexivity|]. split; [vm_compute; reflexivity|].
  intros X. vm_compute in X. vm_compute; auto.
Qed.
Example C39_ex_program : Forall call_ok program39 /\ exists d, run program39 decoder_create =
  Ok (d, [BL_SUCCESS; BL_ERROR_NO_MORE_DATA; BL_SUCCESS; BL_SUCCESS; BL_SUCCESS; BL_SUCCESS; BL_SUCCESS; BL_SUCCESS; BL_SUCCESS; BL_ERROR_DATA_TRUNCATED]).
Proof.
  split.
  - repeat apply Forall_cons; try apply Forall_nil; cbn [call_ok]; try exact I; try exact file40_ok; split; auto using file40_ok, env40_ok, env41_ok, apng_ok, cut_ok.
  - eexists. vm_compute. reflexivity.
Qed.

Example C40_ex : file_ok file40 /\ env_ok env40 /\ exists d log, decoder_read_frame env40 file40 decoder_create = Ok (d, BL_SUCCESS, log) /\
  entry (pal d) 0 = Some (argb 255 0 0 0) /\ entry (pal d) 1 = Some (argb 128 255 0 0).
Proof. split; [exact file40_ok|]. split; [exact env40_ok|]. eexists _, _. split; [vm_compute; reflexivity|]. repeat split. Qed.

Example C41_ex : file_ok (apng 0 1) /\ exists d errs d' log, run [ReadFrame env41 (apng 0 1)] decoder_create = Ok (d, errs) /\ frame d <> 0 /\
  decoder_read_frame env41 (apng 0 1) d = Ok (d', BL_SUCCESS, log) /\ log = [(0, [10; 20; 30; 255])].
Proof. split; [exact apng_ok|]. eexists _, _, _, _. split; [vm_compute; reflexivity|]. split; [vm_compute; discriminate|]. split; vm_compute; reflexivity. Qed.
