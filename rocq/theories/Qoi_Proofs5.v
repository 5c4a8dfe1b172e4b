(* Proofs: whole-file decoding. *)
From Verif Require Import Base Bits Algorithm_Model Algorithm_Spec Algorithm_Proofs PixelOps_Model PixelOps_Spec PixelOps_Proofs Qoi_Model Qoi_Spec Qoi_Proofs Qoi_Proofs2 Qoi_Proofs3 Qoi_Proofs4.

Lemma be4_ok v : 0 <= v < 4294967296 -> be32 (v / 2 ^ 24 mod 256) (v / 2 ^ 16 mod 256) (v / 2 ^ 8 mod 256) (v mod 256) = v.
Proof. intros H. unfold be32. change (2 ^ 24) with 16777216. change (2 ^ 16) with 65536. change (2 ^ 8) with 256. lia. Qed.

Lemma read_info_header w h ch sp rest : 1 <= w <= 65535 -> 1 <= h <= 65535 -> (ch = 3 \/ ch = 4) -> 0 <= sp <= 1 ->
  read_info (qoi_header w h ch sp ++ rest) = Ok {| i_w := w; i_h := h; i_depth := ch * 8 |}.
Proof.
  intros Hw Hh Hc Hs. unfold read_info, qoi_header, be4. cbn [app].
  match goal with |- context [length ?l] => set (d := l) end.
  assert (L : kQoiHeaderSize <= Z.of_nat (length d)) by (unfold d, kQoiHeaderSize; cbn [length]; lia).
  destruct (Z.ltb_spec (Z.of_nat (length d)) kQoiHeaderSize); [lia|].
  assert (E0 : rd d 0 = Ok 113) by reflexivity. assert (E1 : rd d 1 = Ok 111) by reflexivity. assert (E2 : rd d 2 = Ok 105) by reflexivity. assert (E3 : rd d 3 = Ok 102) by reflexivity.
  assert (Ew : rd_be32 d 4 = Ok w) by (rewrite <- (be4_ok w) by lia; reflexivity).
  assert (Eh : rd_be32 d 8 = Ok h) by (rewrite <- (be4_ok h) by lia; reflexivity).
  assert (Ec : rd d 12 = Ok ch) by reflexivity. assert (Es : rd d 13 = Ok sp) by reflexivity.
  rewrite E0, E1, E2, E3. cbn [bind]. change (negb ((113 =? 113) && (111 =? 111) && (105 =? 105) && (102 =? 102))) with false. cbv iota.
  rewrite Ew, Eh. cbn [bind]. destruct (Z.eqb_spec w 0); [lia|]. destruct (Z.eqb_spec h 0); [lia|]. cbn [orb].
  rewrite Ec, Es. cbn [bind].
  assert (negb (ch =? 3) && negb (ch =? 4) = false) as -> by (destruct Hc as [-> | ->]; reflexivity).
  destruct (Z.ltb_spec 1 sp); [lia|]. unfold BL_RUNTIME_MAX_IMAGE_SIZE. destruct (Z.ltb_spec 65535 w); [lia|]. destruct (Z.ltb_spec 65535 h); [lia|]. reflexivity.
Qed.

Lemma spec_ext cs : forall s s', q_prev s = q_prev s' -> (forall i, q_tab s i = q_tab s' i) ->
  spec_decode s cs = spec_decode s' cs /\ (index_ok s cs -> index_ok s' cs).
Proof.
  induction cs as [|c cs IH]; intros s s' Ep Et; [split; auto|].
  assert (E : chunk_px s c = chunk_px s' c) by (destruct c; cbn [chunk_px]; rewrite ?Ep; auto).
  destruct (IH (chunk_next s c) (chunk_next s' c)) as [A B].
  - exact E.
  - intros i. unfold chunk_next. cbn [q_tab]. unfold tab_set. rewrite E, Et. reflexivity.
  - cbn [spec_decode index_ok]. rewrite E, A. split; [reflexivity|]. intros [I1 I2]. split; [|now apply B]. destruct c; auto. now rewrite <- Et.
Qed.

Lemma elem_repeat {A} (x : A) n i : 0 <= i < Z.of_nat n -> elem_at (repeat x n) i = Some x.
Proof. intros H. unfold elem_at. destruct (Z.ltb_spec i 0); [lia|]. rewrite nth_error_repeat; [reflexivity|lia]. Qed.

Definition black : px := Px 0 0 0 255.
Definition zero_px : px := Px 0 0 0 0.

Section Top.
  Context (al : bool) (w h stride : Z) (Hw : 0 < w <= Z.abs stride) (Hh : 0 < h).

  Lemma init_rel src0 :
    Rel al {| d_src := src0; d_row := 0; d_ptr := 0; d_end := w; d_h := h; d_pix := 0xFF000000; d_upix := up_unpack 0xFF000000;
           d_ptab := repeat (if al then 0 else 0xFF000000) 64; d_utab := repeat 0 64; d_log := [] |} q_init.
  Proof.
    constructor; cbn [q_init q_prev q_tab d_upix d_pix d_utab d_ptab].
    - unfold px_ok, is_byte. cbn. lia.
    - intros i _. unfold px_ok, is_byte. cbn. lia.
    - reflexivity.
    - now destruct al.
    - intros i Hi. rewrite elem_repeat by (change (Z.of_nat 64) with 64; lia). reflexivity.
    - intros i Hi. rewrite elem_repeat by (change (Z.of_nat 64) with 64; lia). now destruct al.
    - reflexivity.
    - reflexivity.
  Qed.

  Lemma decode_data_spec data src0 cs tail : 0 <= src0 -> skipn (Z.to_nat src0) data = stream cs ++ tail -> Forall chunk_ok cs -> index_ok q_init cs ->
    w * h <= Z.of_nat (length (spec_decode q_init cs)) -> (8 <= length tail)%nat -> bytes tail ->
    decode_qoi_data al w h stride data src0 (repeat (if al then 0 else 0xFF000000) 64) (repeat 0 64) =
    Ok (rev (stores w stride 0 (map (pix32 al) (firstn (Z.to_nat (w * h)) (spec_decode q_init cs))))).
  Proof.
    intros H0 Hsk C I Hn Ht Hbt. unfold decode_qoi_data.
    destruct cs as [|c cs]; [cbn in Hn; nia|].
    assert (Hfuel : (length (c :: cs) < S (length data))%nat).
    { assert (forall l, (length l <= length (stream l))%nat) as HL.
      { induction l as [|a l IH]; [cbn; lia|]. unfold stream in *. cbn [map concat length]. rewrite app_length.
        assert (1 <= length (chunk_bytes a))%nat by (destruct a; cbn; lia). lia. }
      specialize (HL (c :: cs)). assert (E := f_equal (@length Z) Hsk). rewrite skipn_length, app_length in E. lia. }
    assert (exists b0, rd data src0 = Ok b0 /\ hd_error (chunk_bytes c) = Some b0) as (b0 & E0 & Eb).
    { assert (Hb : exists b0 r, chunk_bytes c = b0 :: r) by (destruct c; cbn; eauto). destruct Hb as (b0 & r & Hb). exists b0. split; [|now rewrite Hb].
      rewrite <- (Z.add_0_r src0). apply rd_skip; [exact H0|lia|]. rewrite Hsk. unfold stream. cbn [map concat]. now rewrite Hb. }
    rewrite E0. cbn [bind]. rewrite <- firstn_map.
    pose proof (Forall_inv C) as Hc.
    assert (Hrun : (kQoiOpRun <=? b0) && (b0 <? kQoiOpRun + 62) = match c with CRun _ => true | _ => false end).
    { clear - Eb Hc. unfold kQoiOpRun. destruct c; cbn [chunk_bytes hd_error chunk_ok] in Eb, Hc; unfold is_byte in *; apply (f_equal (fun o => match o with Some x => x | None => 0 end)) in Eb; cbv beta iota in Eb; subst b0; lia. }
    rewrite Hrun. clear Hrun.
    destruct c as [i|dr dg db|dg xr xb|n|r g b|r g b a].
    4:{ (* the first chunk is a run of the initial pixel *)
        assert (Hh53 : up_hash (up_unpack 0xFF000000) = px_hash black) by reflexivity. rewrite Hh53.
        pose proof (px_hash_range black) as Hr. rewrite !wr_ok by (rewrite repeat_length; change (Z.of_nat 64) with 64; lia). cbn [bind].
        set (st1 := Qst black (tab_set (q_tab q_init) (px_hash black) black)).
        destruct (spec_ext cs (chunk_next st1 (CRun n)) (chunk_next q_init (CRun n))) as [X1 _]; [reflexivity| |].
        { intros i. unfold chunk_next, st1, tab_set. cbn [q_tab q_prev q_init chunk_px]. fold black. now destruct (i =? px_hash black). }
        destruct (spec_ext cs (chunk_next q_init (CRun n)) (chunk_next st1 (CRun n))) as [_ X2]; [reflexivity| |].
        { intros i. unfold chunk_next, st1, tab_set. cbn [q_tab q_prev q_init chunk_px]. fold black. now destruct (i =? px_hash black). }
        assert (ES : spec_decode q_init (CRun n :: cs) = spec_decode st1 (CRun n :: cs)).
        { cbn [spec_decode]. rewrite X1. reflexivity. }
        rewrite ES in *.
        rewrite (loop_spec al w h stride Hw Hh data tail Ht Hbt _ (CRun n :: cs) _ st1 []); try assumption.
        - reflexivity.
        - apply init_geo; lia.
        - eapply (rel_store al 0) with (p := black); [apply (init_rel src0)|unfold px_ok, is_byte; cbn; lia|reflexivity|now destruct al|reflexivity|].
          cbn [d_ptab]. now destruct al.
        - left. unfold seen, st1. cbn [q_prev q_tab]. unfold tab_set. now rewrite Z.eqb_refl.
        - cbn [index_ok] in I |- *. split; [exact Logic.I|]. now apply X2. }
    all: cbn [bind];
      match goal with |- decode_loop _ _ _ _ _ _ _ = Ok (rev (stores _ _ _ (firstn _ (map _ (spec_decode _ ?l))))) =>
        rewrite (loop_spec al w h stride Hw Hh data tail Ht Hbt _ l _ q_init []); try assumption;
        [reflexivity|apply init_geo; lia|apply init_rel|right; intros ? E ?; injection E as <-; discriminate] end.
  Qed.
End Top.

Lemma qoi_decode_spec w h ch sp cs tail stride_of :
  1 <= w <= 65535 -> 1 <= h <= 65535 -> (ch = 3 \/ ch = 4) -> 0 <= sp <= 1 -> w <= Z.abs (stride_of w) ->
  Forall chunk_ok cs -> index_ok q_init cs -> w * h <= Z.of_nat (length (spec_decode q_init cs)) -> (8 <= length tail)%nat -> bytes tail ->
  qoi_decode stride_of (qoi_header w h ch sp ++ concat (map chunk_bytes cs) ++ tail) =
  Ok ({| i_w := w; i_h := h; i_depth := ch * 8 |},
      stores w (stride_of w) 0 (map (pix32 (ch =? 4)) (firstn (Z.to_nat (w * h)) (spec_decode q_init cs)))).
Proof.
  intros Hw Hh Hc Hs Hst C I Hn Ht Hbt. unfold qoi_decode. rewrite read_info_header by assumption. cbn [bind i_w]. unfold read_frame. cbn [i_depth i_w i_h].
  set (d := qoi_header w h ch sp ++ concat (map chunk_bytes cs) ++ tail).
  assert (L : Z.of_nat (length d) = 14 + Z.of_nat (length (concat (map chunk_bytes cs) ++ tail))).
  { unfold d. rewrite app_length. change (length (qoi_header w h ch sp)) with 14%nat. lia. }
  rewrite app_length in L. unfold kQoiHeaderSize.
  destruct (Z.ltb_spec (Z.of_nat (length d)) 14); [lia|]. destruct (Z.leb_spec (Z.of_nat (length d)) 14); [lia|].
  replace (ch * 8 =? 32) with (ch =? 4) by lia.
  rewrite (decode_data_spec (ch =? 4) w h (stride_of w)) with (cs := cs) (tail := tail); try assumption; try lia.
  - cbn [bind]. rewrite rev_involutive. reflexivity.
  - reflexivity.
Qed.

Lemma read_info_safe d : bytes d -> (exists e, read_info d = Err e) \/
  (exists inf, read_info d = Ok inf /\ 1 <= i_w inf <= 65535 /\ 1 <= i_h inf <= 65535 /\ (i_depth inf = 24 \/ i_depth inf = 32) /\ 14 <= Z.of_nat (length d)).
Proof.
  intros Hd. unfold read_info. destruct (Z.ltb_spec (Z.of_nat (length d)) kQoiHeaderSize) as [|L]; [left; eexists; reflexivity|]. unfold kQoiHeaderSize in L.
  assert (RB : forall i, 0 <= i < 14 -> exists b, rd d i = Ok b /\ is_byte b) by (intros i Hi; apply rd_byte; [exact Hd|lia]).
  destruct (RB 0) as (m0 & E0 & _); [lia|]. destruct (RB 1) as (m1 & E1 & _); [lia|]. destruct (RB 2) as (m2 & E2 & _); [lia|]. destruct (RB 3) as (m3 & E3 & _); [lia|].
  rewrite E0, E1, E2, E3. cbn [bind]. destruct (negb _); [left; eexists; reflexivity|].
  unfold rd_be32. change (4 + 1) with 5. change (4 + 2) with 6. change (4 + 3) with 7. change (8 + 1) with 9. change (8 + 2) with 10. change (8 + 3) with 11.
  destruct (RB 4) as (a0 & A0 & B0); [lia|]. destruct (RB 5) as (a1 & A1 & B1); [lia|]. destruct (RB 6) as (a2 & A2 & B2); [lia|]. destruct (RB 7) as (a3 & A3 & B3); [lia|].
  destruct (RB 8) as (c0 & C0 & D0); [lia|]. destruct (RB 9) as (c1 & C1 & D1); [lia|]. destruct (RB 10) as (c2 & C2 & D2); [lia|]. destruct (RB 11) as (c3 & C3 & D3); [lia|].
  rewrite A0, A1, A2, A3, C0, C1, C2, C3. cbn [bind].
  assert (0 <= be32 a0 a1 a2 a3) as P1 by (unfold be32, is_byte in *; lia). assert (0 <= be32 c0 c1 c2 c3) as P2 by (unfold be32, is_byte in *; lia).
  destruct (Z.eqb_spec (be32 a0 a1 a2 a3) 0); [left; eexists; reflexivity|]. destruct (Z.eqb_spec (be32 c0 c1 c2 c3) 0); [left; eexists; reflexivity|]. cbn [orb].
  destruct (RB 12) as (ch & E12 & _); [lia|]. destruct (RB 13) as (sp & E13 & _); [lia|]. rewrite E12, E13. cbn [bind].
  destruct (Z.eqb_spec ch 3), (Z.eqb_spec ch 4); cbn [negb andb]; try (left; eexists; reflexivity);
  (destruct (1 <? sp); [left; eexists; reflexivity|]); unfold BL_RUNTIME_MAX_IMAGE_SIZE;
  (destruct (Z.ltb_spec 65535 (be32 a0 a1 a2 a3)); [left; eexists; reflexivity|]); (destruct (Z.ltb_spec 65535 (be32 c0 c1 c2 c3)); [left; eexists; reflexivity|]);
  right; eexists; (split; [reflexivity|]); cbn [i_w i_h i_depth]; lia.
Qed.

(* Every input: an error, or every pixel of the image written exactly once in row-major order. *)
Lemma qoi_decode_safe stride_of d : bytes d -> (forall w, w <= Z.abs (stride_of w)) ->
  (exists e, qoi_decode stride_of d = Err e) \/
  (exists inf vals, qoi_decode stride_of d = Ok (inf, stores (i_w inf) (stride_of (i_w inf)) 0 vals) /\
    1 <= i_w inf <= 65535 /\ 1 <= i_h inf <= 65535 /\ Z.of_nat (length vals) = i_w inf * i_h inf).
Proof.
  intros Hd Hst. unfold qoi_decode. destruct (read_info_safe d Hd) as [(e & ->)|(inf & -> & H1 & H2 & H3 & L)]; cbn [bind]; [left; eexists; reflexivity|].
  unfold read_frame. destruct (Z.ltb_spec (Z.of_nat (length d)) kQoiHeaderSize); [left; cbn; eauto|].
  destruct (Z.leb_spec (Z.of_nat (length d)) kQoiHeaderSize) as [|L2]; [left; cbn; eauto|]. unfold kQoiHeaderSize in *.
  specialize (Hst (i_w inf)).
  destruct (decode_good (i_depth inf =? 32) (i_w inf) (i_h inf) (stride_of (i_w inf)) ltac:(lia) ltac:(lia) d Hd 14
    (repeat (if i_depth inf =? 32 then 0 else 0xFF000000) 64) (repeat 0 64)) as [->|(log & -> & vals & Lv & ->)]; try apply repeat_length; try lia; cbn [bind]; [left; eexists; reflexivity|].
  right. exists inf, vals. rewrite rev_involutive. auto.
Qed.
