(* Proofs about the pixel data chunks and frame control. *)
From Verif Require Import Base Bits IntOps_Model Algorithm_Model Algorithm_Proofs Png_Model Png_Spec Png_Proofs Png_Proofs2 Png_Proofs3 Png_Proofs4 Png_Proofs5 Png_Proofs6 Png_Proofs7 Png_Proofs8 Png_Proofs9 Png_Proofs10 Png_Proofs11 PngChunk_Model PngChunk_Spec PngChunk_Proofs PngChunk_Proofs2.
From Coq Require Import ZifyBool.

(* ------------------------------------------------------------------ sizes of windows *)

Lemma pw_mono p a b : 0 <= a <= b -> pw p a <= pw p b.
Proof. intros H. unfold pw. repeat (match goal with |- context [if ?b then _ else _] => destruct b end); lia. Qed.
Lemma ph_mono p a b : 0 <= a <= b -> ph p a <= ph p b.
Proof. intros H. unfold ph. repeat (match goal with |- context [if ?b then _ else _] => destruct b end); lia. Qed.

Lemma row_bytes_mono D a b : 0 <= D -> 0 <= a <= b -> 1 <= row_bytes_spec D a <= row_bytes_spec D b.
Proof. intros. unfold row_bytes_spec. assert (0 <= a * D <= b * D) by nia. lia. Qed.

Lemma psize_mono D w h W H p : 0 <= D -> 0 <= w <= W -> 0 <= h <= H -> psize D w h p <= psize D W H p.
Proof.
  intros HD Hw Hh. unfold psize. pose proof (pw_mono p w W Hw). pose proof (ph_mono p h H Hh). pose proof (pw_nonneg p w ltac:(lia)). pose proof (ph_nonneg p h ltac:(lia)).
  pose proof (row_bytes_mono D (pw p w) (pw p W) HD ltac:(lia)).
  destruct ((pw p w =? 0) || (ph p h =? 0)) eqn:E1; destruct ((pw p W =? 0) || (ph p H =? 0)) eqn:E2; try lia; nia.
Qed.

Lemma data_size_mono prog D w h W H : 0 <= D -> 0 <= w <= W -> 0 <= h <= H -> data_size prog D w h <= data_size prog D W H.
Proof.
  intros HD Hw Hh. unfold data_size. destruct prog.
  - assert (forall n : nat, (n <= 7)%nat -> pass_offset D w h (Z.of_nat n) <= pass_offset D W H (Z.of_nat n)) as X.
    { induction n as [|n IH]; intros Hn; [reflexivity|]. replace (Z.of_nat (S n)) with (Z.of_nat n + 1) by lia. rewrite !pass_offset_succ, !pass_size_eq by lia.
      pose proof (psize_mono D w h W H (Z.of_nat n) HD Hw Hh). specialize (IH ltac:(lia)). lia. }
    exact (X 7%nat ltac:(lia)).
  - pose proof (row_bytes_mono D w W HD Hw). nia.
Qed.

Lemma steps_size (prg : bool) sd sc w h : sample_ok sd sc -> 0 < w < 268435456 -> 0 < h < 2147483648 -> data_size prg (sd * sc) w h < 4294967296 ->
  snd (calculate_interlace_steps (if prg then interlaceTableAdam7 else interlace_table_none) sd sc w h) = data_size prg (sd * sc) w h.
Proof. intros HS Hw Hh H32. destruct prg; [destruct (steps_adam7 sd sc w h HS Hw Hh H32) as (? & -> & _)|rewrite (steps_none sd sc w h HS Hw Hh H32)]; reflexivity. Qed.

Definition tab_ok (t : itab) : Prop := 0 <= x_off t < Z.shiftl 1 (x_pow t) /\ 0 <= y_off t < Z.shiftl 1 (y_pow t) /\ 0 <= x_pow t <= 3 /\ 0 <= y_pow t <= 3.

Lemma step_empty t sd sc w h o : tab_ok t -> 0 <= w < 268435456 -> 0 <= h < 2147483648 -> w = 0 \/ h = 0 -> s_size (interlace_step t sd sc w h o) = 0.
Proof.
  intros (T1 & T2 & T3 & T4) Hw Hh Z0. unfold interlace_step. cbn [s_size].
  assert (X : forall off pow n, n = 0 -> 0 <= off < Z.shiftl 1 pow -> 0 <= pow <= 3 -> Z.shiftr (w32 (n + Z.shiftl 1 pow - off - 1)) pow = 0).
  { intros off pow n -> H1 H2. rewrite Z.shiftr_div_pow2 by lia. rewrite Z.shiftl_mul_pow2, Z.mul_1_l in * by lia.
    assert (2 ^ pow <= 8) by (change 8 with (2 ^ 3); apply Z.pow_le_mono_r; lia). unfold w32. rewrite Z.mod_small by lia. apply Z.div_small. lia. }
  destruct Z0 as [Z0|Z0].
  - rewrite (X (x_off t) (x_pow t) w) by assumption. reflexivity.
  - rewrite (X (y_off t) (y_pow t) h) by assumption. cbn [Z.eqb negb]. rewrite andb_false_r. reflexivity.
Qed.

Lemma steps_empty (prg : bool) sd sc w h : 0 <= w < 268435456 -> 0 <= h < 2147483648 -> w = 0 \/ h = 0 ->
  snd (calculate_interlace_steps (if prg then interlaceTableAdam7 else interlace_table_none) sd sc w h) = 0.
Proof.
  intros Hw Hh Z0. unfold calculate_interlace_steps.
  assert (X : forall t acc, Forall tab_ok t -> snd (interlace_steps t sd sc w h 0 acc) = 0).
  { induction t as [|t ts IH]; intros acc F; [reflexivity|]. inversion F; subst. cbn [interlace_steps]. rewrite step_empty by assumption.
    change (add_overflow 32 false 0 0 false) with (0, false). cbv beta iota. apply IH. assumption. }
  apply X. destruct prg; apply Forall_forall; intros t Ht; cbn in Ht; unfold tab_ok; repeat (destruct Ht as [<-|Ht]; [cbn; lia|]); destruct Ht.
Qed.

(* ------------------------------------------------------------------ frame control *)

Definition inside (d : dec) (c : fctl) : Prop :=
  0 <= c_w c /\ 0 <= c_h c /\ 0 <= c_x c /\ 0 <= c_y c /\ c_x c + c_w c <= iw d /\ c_y c + c_h c <= ih d.

Lemma fctl_ok f d off p size : bytes f -> 0 <= iw d < 2147483648 -> 0 <= ih d < 2147483648 -> 0 <= p -> p + size <= len f ->
  exists d' err, decoderReadFCTL f d off p size = Ok (d', err) /\
   (err = BL_SUCCESS -> exists c, inside d c /\ c_dispose c = get f (p + 24) /\ 0 <= c_dispose c <= 2 /\ (c_w c = be32 f (p + 4) /\ c_h c = be32 f (p + 8)) /\
       d' = set_fctl (set_ctrl d (ctrl d) c (if first d =? 0 then off else first d)) true) /\
   (err <> BL_SUCCESS -> d' = d).
Proof.
  intros B Hw Hh Hp Hl. unfold decoderReadFCTL, kPngChunkDataSize_fcTL.
  destruct (Z.ltb_spec size 26); [exists d, BL_ERROR_INVALID_DATA; split; [reflexivity|]; split; [discriminate|reflexivity]|].
  rewrite !rd32_ok, !rd16_ok, !rd_get by lia. cbn [bind].
  pose proof (be32_range f (p + 4) B). pose proof (be32_range f (p + 8) B). pose proof (be32_range f (p + 12) B). pose proof (be32_range f (p + 16) B). pose proof (byte_range f (p + 24) B).
  match goal with |- context [if ?b then Ok (d, _) else _] => destruct b eqn:E end.
  { exists d, BL_ERROR_INVALID_DATA. split; [reflexivity|]. split; [discriminate|reflexivity]. }
  unfold w32 in E. rewrite !orb_false_iff in E. destruct E as (((((E1 & E2) & E3) & E4) & E5) & E6). rewrite Z.mod_small in E3, E4 by lia.
  eexists _, _. split; [reflexivity|]. split; [|intros X; contradiction X; reflexivity]. intros _. eexists. split; [|split; [|split; [|split; [|reflexivity]]]]; unfold inside; cbn [c_w c_h c_x c_y c_dispose]; lia.
Qed.

(* ------------------------------------------------------------------ looking for pixel data *)

(* Everything but the frame control. *)
Definition rest (d : dec) := (last d, frame d, buf d, (f_cgbi d, f_actl d), (iw d, ih d, prog d, frames d), (ctype d, sdepth d, scount d), (pal d, palsize d, saved d)).

(* [n]: the largest allowed dispose operation *)
Definition ctl_ok (n : Z) (d : dec) : Prop :=
  inside d (ctrl d) /\ inside d (prev d) /\ 0 <= c_dispose (ctrl d) <= n /\ 0 <= c_dispose (prev d) <= n /\ 0 <= first d /\ (f_fctl d = true -> 0 < first d).


(* The window of the frame is that of the frame control chunk x. *)
Definition window_of (f : list Z) (x : Z) (d : dec) : Prop :=
  chunk_type f x = type_fcTL /\ c_w (ctrl d) = be32 f (x + 12) /\ c_h (ctrl d) = be32 f (x + 16).
Definition window_from (f : list Z) (ps : list Z) (d d' : dec) : Prop :=
  (f_fctl d = true -> f_fctl d' = true /\ ctrl d' = ctrl d) /\
  (f_fctl d = false -> f_fctl d' = true -> exists x, In x ps /\ window_of f x d').

Lemma skip_ok f tag : bytes f -> len f < 18446744073709551616 -> no_dispose_previous f -> forall fuel p d, 0 < p <= len f -> len f - p < Z.of_nat fuel ->
  0 <= iw d < 2147483648 -> 0 <= ih d < 2147483648 -> ctl_ok 1 d ->
  exists d' err q, skip_loop fuel f (len f) p tag d = Ok (d', err, q) /\ rest d' = rest d /\ ctl_ok 1 d' /\
    (err = BL_SUCCESS -> p <= q /\ chunk_at f q /\ chunk_type f q = tag /\ exists ps, chunks f p ps q /\ (forall x, In x ps -> chunk_type f x <> tag) /\ window_from f ps d d').
Proof.
  intros B L64 NDP. induction fuel as [|fuel IH]; intros p d Hp Hf Hw Hh CT; [lia|]. cbn [skip_loop].
  assert (BAD : forall e, e <> BL_SUCCESS -> exists d' err q, Ok (d, e, p) = Ok (d', err, q) /\ rest d' = rest d /\ ctl_ok 1 d' /\
    (err = BL_SUCCESS -> p <= q /\ chunk_at f q /\ chunk_type f q = tag /\ exists ps, chunks f p ps q /\ (forall x, In x ps -> chunk_type f x <> tag) /\ window_from f ps d d')).
  { intros e E. exists d, e, p. split; [reflexivity|]. split; [reflexivity|]. split; [exact CT|]. intros ->. contradiction. }
  rewrite has_chunk_ok by lia. destruct (Z.leb_spec (p + 12) (len f)) as [H|H]; cbn [negb]; [|apply BAD; discriminate].
  unfold read_chunk_tag, read_chunk_size. rewrite !rd32_ok by lia. cbn [bind].
  pose proof (be32_range f p B) as R. rewrite has_chunk_size_ok by lia. destruct (Z.leb_spec (p + 12 + be32 f p) (len f)) as [H1|H1]; cbn [negb]; [|apply BAD; discriminate].
  fold (chunk_type f p). change IHDR with type_IHDR. change IEND with type_IEND. change fcTL with type_fcTL.
  assert (CA : chunk_at f p) by (unfold chunk_at; fold (len f); lia).
  destruct (Z.eqb_spec (chunk_type f p) tag) as [T|T].
  { exists d, BL_SUCCESS, p. split; [reflexivity|]. split; [reflexivity|]. split; [exact CT|]. intros _. split; [lia|]. split; [exact CA|]. split; [exact T|].
    exists []. split; [constructor|]. split; [intros x []|]. split; [tauto|congruence]. }
  destruct (chunk_type f p =? type_IHDR); [apply BAD; discriminate|]. destruct (chunk_type f p =? type_IEND); [apply BAD; discriminate|].
  unfold kPngChunkBaseSize.
  assert (NEXT : forall d1, rest d1 = rest d -> ctl_ok 1 d1 -> (f_fctl d = true -> f_fctl d1 = true /\ ctrl d1 = ctrl d) ->
    (f_fctl d = false -> f_fctl d1 = true -> window_of f p d1) -> exists d' err q, skip_loop fuel f (len f) (p + (12 + be32 f p)) tag d1 = Ok (d', err, q) /\ rest d' = rest d /\ ctl_ok 1 d' /\
    (err = BL_SUCCESS -> p <= q /\ chunk_at f q /\ chunk_type f q = tag /\ exists ps, chunks f p ps q /\ (forall x, In x ps -> chunk_type f x <> tag) /\ window_from f ps d d')).
  { intros d1 R1 C1 F1 F2. assert (I1 : iw d1 = iw d /\ ih d1 = ih d) by (unfold rest in R1; split; congruence). destruct I1 as (I1 & I2).
    destruct (IH (p + (12 + be32 f p)) d1) as (d' & err & q & E & R' & C' & K); try lia; [exact C1|].
    exists d', err, q. split; [exact E|]. split; [congruence|]. split; [exact C'|]. intros E0. destruct (K E0) as (Q1 & Q2 & Q3 & ps & CH & NI & W1 & W2). split; [lia|]. split; [exact Q2|]. split; [exact Q3|].
    exists (p :: ps). split; [constructor; [exact CA|unfold next_chunk; replace (p + 12 + be32 f p) with (p + (12 + be32 f p)) by lia; exact CH]|]. split; [intros x [<-|X]; [exact T|exact (NI x X)]|]. split.
    - intros X. destruct (F1 X) as (Y & Z). destruct (W1 Y) as (U & V). split; congruence.
    - intros X Y. destruct (f_fctl d1) eqn:FD1.
      + destruct (W1 eq_refl) as (U & V). exists p. split; [left; reflexivity|]. specialize (F2 X eq_refl). unfold window_of in *. rewrite V. exact F2.
      + destruct (W2 eq_refl Y) as (x & X1 & X2). exists x. split; [right; exact X1|exact X2]. }
  destruct (Z.eqb_spec (chunk_type f p) type_fcTL) as [FC|FC]; cbn [andb]; [|cbn [bind]; change (negb (BL_SUCCESS =? BL_SUCCESS)) with false; cbv iota; apply NEXT; [reflexivity|exact CT|tauto|congruence]].
  destruct (f_actl d); [|cbn [bind]; change (negb (BL_SUCCESS =? BL_SUCCESS)) with false; cbv iota; apply NEXT; [reflexivity|exact CT|tauto|congruence]].
  destruct (f_fctl d) eqn:FD.
  { cbn [bind]. change (negb (BL_ERROR_INVALID_DATA =? BL_SUCCESS)) with true. cbv iota. apply BAD. discriminate. }
  destruct (fctl_ok f d p (p + 8) (be32 f p) B Hw Hh ltac:(lia) ltac:(lia)) as (d1 & err & E & K1 & K2). 
  assert (SZ : err = BL_SUCCESS -> 26 <= be32 f p).
  { intros ->. unfold decoderReadFCTL, kPngChunkDataSize_fcTL in E. destruct (Z.ltb_spec (be32 f p) 26); [discriminate E|lia]. }
  rewrite E. cbn [bind]. destruct (Z.eqb_spec err BL_SUCCESS) as [->|NE]; cbn [negb].
  - destruct (K1 eq_refl) as (c & IN & DC & DR & WN & ->). apply NEXT; [destruct d; reflexivity| |congruence|].
  2:{ intros _ _. split; [exact FC|]. replace (p + 8 + 4) with (p + 12) in WN by lia. replace (p + 8 + 8) with (p + 16) in WN by lia. destruct d; cbn. destruct WN. split; assumption. }
    specialize (NDP p CA FC (SZ eq_refl)). replace (p + 8 + 24) with (p + 32) in DC by lia.
    destruct CT as (C1 & C2 & C3 & C4 & C5 & C6). destruct d. unfold ctl_ok, inside, set_fctl, set_ctrl in *. cbn in *.
    repeat split; try lia; destruct (first =? 0) eqn:E0; lia.
  - rewrite (K2 NE). apply BAD. exact NE.
Qed.

(* ------------------------------------------------------------------ the pixel data *)

Lemma chunks_snoc f p ps q : chunks f p ps q -> chunk_at f q -> chunks f p (ps ++ [q]) (next_chunk f q).
Proof. induction 1; intros C; cbn; [constructor; [assumption|constructor]|constructor; [assumption|auto]]. Qed.

Lemma rd_n_zrange f p n : 0 <= p -> 0 <= n -> p + n <= len f -> rd_n f p (Z.to_nat n) = Ok (map (fun i => get f (p + i)) (zrange n)).
Proof. intros. rewrite rd_n_ok by lia. unfold zrange. rewrite map_map. reflexivity. Qed.

Lemma idat_ok inflate f tag size : (forall z e, inflate z = Fail e -> e <> BL_SUCCESS) -> bytes f -> len f < 18446744073709551616 -> tag = type_IDAT \/ tag = type_fdAT ->
  forall fuel p qs p0, 0 <= p0 -> chunks f p0 qs p -> Forall (fun q => chunk_type f q = tag) qs -> p0 <= p <= len f -> len f - p < Z.of_nat fuel -> chunk_at f p -> chunk_type f p = tag ->
  exists err data r, idat_loop fuel inflate f (len f) p tag (be32 f p) size (pixel_stream f qs) = Ok (err, data, r) /\
   (err = BL_SUCCESS -> p + 12 <= r <= len f /\ len data = size /\ exists qs', chunks f p0 (qs ++ qs') r /\ Forall (fun q => chunk_type f q = tag) qs' /\ inflate (pixel_stream f (qs ++ qs')) = Done data).
Proof.
  intros NF B L64 TG. induction fuel as [|fuel IH]; intros p qs p0 H0 CH FA Hp Hf CA CT; [lia|]. cbn [idat_loop].
  unfold chunk_at in CA. fold (len f) in CA. pose proof (be32_range f p B) as R. unfold kPngChunkHeaderSize, kPngChunkBaseSize. change fdAT with type_fdAT.
  assert (BAD : forall e r, e <> BL_SUCCESS -> exists err data r', Ok (e, [], r) = Ok (err, data, r') /\
   (err = BL_SUCCESS -> p + 12 <= r' <= len f /\ len data = size /\ exists qs', chunks f p0 (qs ++ qs') r' /\ Forall (fun q => chunk_type f q = tag) qs' /\ inflate (pixel_stream f (qs ++ qs')) = Done data)).
  { intros e r E. eexists _, _, _. split; [reflexivity|]. intros ->. contradiction. }
  destruct ((tag =? type_fdAT) && (be32 f p <? 4)) eqn:SM; [apply BAD; discriminate|].
  set (skip := if tag =? type_fdAT then 4 else 0). assert (SK : 0 <= skip <= be32 f p) by (subst skip; destruct (tag =? type_fdAT) eqn:E; lia).
  assert (PR : (if tag =? type_fdAT then (p + 8 + 4, be32 f p - 4) else (p + 8, be32 f p)) = (p + 8 + skip, be32 f p - skip)).
  { subst skip. destruct (tag =? type_fdAT); f_equal; lia. }
  rewrite PR. rewrite rd_n_zrange by lia. cbn [bind].
  assert (PS : pixel_stream f qs ++ map (fun i => get f (p + 8 + skip + i)) (zrange (be32 f p - skip)) = pixel_stream f (qs ++ [p])).
  { unfold pixel_stream. rewrite map_app, concat_app. cbn [map concat]. rewrite app_nil_r. f_equal. unfold chunk_data. rewrite CT. reflexivity. }
  rewrite PS.
  assert (CH' : chunks f p0 (qs ++ [p]) (p + (12 + be32 f p))) by (replace (p + (12 + be32 f p)) with (next_chunk f p) by (unfold next_chunk; lia); apply chunks_snoc; [exact CH|unfold chunk_at; fold (len f); lia]).
  assert (FA' : Forall (fun q => chunk_type f q = tag) (qs ++ [p])) by (apply Forall_app; split; [exact FA|constructor; [exact CT|constructor]]).
  assert (CONT : exists err data r, (if negb (has_chunk (len f) (p + (12 + be32 f p))) then Ok (BL_ERROR_DATA_TRUNCATED, [], p + (12 + be32 f p)) else
      let* chunk_size := read_chunk_size f (p + (12 + be32 f p)) in
      if negb (has_chunk_with_size (len f) (p + (12 + be32 f p)) chunk_size) then Ok (BL_ERROR_DATA_TRUNCATED, [], p + (12 + be32 f p)) else
      let* chunk_tag := read_chunk_tag f (p + (12 + be32 f p)) in
      if negb (chunk_tag =? tag) then Ok (BL_ERROR_INVALID_DATA, [], p + (12 + be32 f p)) else
      idat_loop fuel inflate f (len f) (p + (12 + be32 f p)) tag chunk_size size (pixel_stream f (qs ++ [p]))) = Ok (err, data, r) /\
   (err = BL_SUCCESS -> p + 12 <= r <= len f /\ len data = size /\ exists qs', chunks f p0 (qs ++ qs') r /\ Forall (fun q => chunk_type f q = tag) qs' /\ inflate (pixel_stream f (qs ++ qs')) = Done data)).
  { set (p1 := p + (12 + be32 f p)) in *. rewrite has_chunk_ok by lia. destruct (Z.leb_spec (p1 + 12) (len f)) as [H|H]; cbn [negb]; [|apply BAD; discriminate].
    unfold read_chunk_tag, read_chunk_size. rewrite !rd32_ok by lia. cbn [bind]. pose proof (be32_range f p1 B) as R1.
    rewrite has_chunk_size_ok by lia. destruct (Z.leb_spec (p1 + 12 + be32 f p1) (len f)) as [H1|H1]; cbn [negb]; [|apply BAD; discriminate].
    fold (chunk_type f p1). destruct (Z.eqb_spec (chunk_type f p1) tag) as [T|T]; cbn [negb]; [|apply BAD; discriminate].
    destruct (IH p1 (qs ++ [p]) p0 H0 CH' FA') as (err & data & r & E & K); [lia|lia|unfold chunk_at; fold (len f); lia|exact T|].
    exists err, data, r. split; [exact E|]. intros E0. destruct (K E0) as (K1 & K2 & qs' & K3 & K4 & K5). split; [lia|]. split; [exact K2|].
    exists (p :: qs'). rewrite <- app_assoc in K3, K5. split; [exact K3|]. split; [constructor; assumption|exact K5]. }
  destruct (0 <? be32 f p - skip); [|exact CONT].
  destruct (inflate (pixel_stream f (qs ++ [p]))) as [out| |code] eqn:IN; [|exact CONT|].
  - fold (len out). destruct (Z.eqb_spec (len out) size) as [E|E]; cbn [negb]; [|apply BAD; discriminate].
    eexists _, _, _. split; [reflexivity|]. intros _. split; [lia|]. split; [exact E|]. exists [p]. split; [exact CH'|]. split; [constructor; [exact CT|constructor]|exact IN].
  - eexists _, _, _. split; [reflexivity|]. intros ->. exfalso. exact (NF _ _ IN eq_refl).
Qed.
