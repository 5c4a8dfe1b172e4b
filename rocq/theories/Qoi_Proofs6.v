(* Proofs: the encoder's emission of one pixel as a chunk of the specification. *)
From Verif Require Import Base Bits Algorithm_Model Algorithm_Spec Algorithm_Proofs PixelOps_Model PixelOps_Spec PixelOps_Proofs PixelOps_Proofs2 Qoi_Model Qoi_Spec Qoi_Proofs Qoi_Proofs5.

Lemma lor_le_l a b : 0 <= a -> 0 <= b -> a <= Z.lor a b.
Proof.
  intros Ha Hb. assert (E : Z.lor a b = a + Z.ldiff b a).
  { rewrite (Z.add_nocarry_lxor a (Z.ldiff b a)).
    - apply Z.bits_inj'. intros n Hn. rewrite Z.lxor_spec, Z.lor_spec, Z.ldiff_spec. now destruct (Z.testbit a n), (Z.testbit b n).
    - apply Z.bits_inj'. intros m Hm. rewrite Z.land_spec, Z.ldiff_spec, Z.bits_0. now destruct (Z.testbit a m), (Z.testbit b m). }
  rewrite E. assert (0 <= Z.ldiff b a) by (apply Z.ldiff_nonneg; auto). lia.
Qed.
Lemma lor_le_r a b : 0 <= a -> 0 <= b -> b <= Z.lor a b.
Proof. intros. rewrite Z.lor_comm. now apply lor_le_l. Qed.

Lemma rgba_argb p : px_ok p -> rgba_r (argb p) = pr p /\ rgba_g (argb p) = pg p /\ rgba_b (argb p) = pb p /\ rgba_a (argb p) = pa p.
Proof.
  intros (H1 & H2 & H3 & H4). unfold rgba_r, rgba_g, rgba_b, rgba_a, argb. unfold is_byte in *.
  repeat split; [apply comp_r|apply comp_g|apply comp_b|apply comp_a]; unfold u8; assumption.
Qed.

Lemma argb_inj p q : px_ok p -> px_ok q -> argb p = argb q -> p = q.
Proof.
  intros Hp Hq E. destruct (rgba_argb p Hp) as (A1 & A2 & A3 & A4). destruct (rgba_argb q Hq) as (B1 & B2 & B3 & B4).
  rewrite E in *. destruct p as [r1 g1 b1 a1], q as [r2 g2 b2 a2]. cbn [pr pg pb pa] in *. congruence.
Qed.

Lemma sub_w32 a b k : w32 (w32 (a - b) + k) mod 256 = (a - b + k) mod 256.
Proof. unfold w32. lia. Qed.
Lemma sub2_w32 a b c d k : w32 (w32 (w32 (a - b) - w32 (c - d)) + k) mod 256 = (a - b - (c - d) + k) mod 256.
Proof. unfold w32. lia. Qed.

Lemma lor_chunk4 a b c d : a = 1 -> 0 <= b < 4 -> 0 <= c < 4 -> 0 <= d < 4 ->
  Z.lor (Z.lor (Z.lor (a * 64) (Z.shiftl b 4)) (Z.shiftl c 2)) d = a * 64 + b * 16 + c * 4 + d.
Proof.
  intros -> Hb Hc Hd.
  assert (exists b', b = b' /\ (b' = 0 \/ b' = 1 \/ b' = 2 \/ b' = 3)) as (? & -> & B) by (exists b; lia).
  assert (c = 0 \/ c = 1 \/ c = 2 \/ c = 3) as C by lia. assert (d = 0 \/ d = 1 \/ d = 2 \/ d = 3) as D by lia.
  destruct B as [->|[->|[->| ->]]], C as [->|[->|[->| ->]]], D as [->|[->|[->| ->]]]; reflexivity.
Qed.

Lemma delta_ok a q : px_ok a -> px_ok q -> pa a = pa q ->
  exists c, delta_chunk (argb a) (argb q) = chunk_bytes c /\ chunk_ok c /\ (length (chunk_bytes c) <= 4)%nat /\
    (forall st, q_prev st = a -> chunk_px st c = q) /\ (forall i, c <> CIndex i) /\ (forall n, c <> CRun n).
Proof.
  intros Ha Hq Eal. unfold delta_chunk.
  destruct (rgba_argb a Ha) as (-> & -> & -> & _). destruct (rgba_argb q Hq) as (-> & -> & -> & _).
  rewrite !land_ff, !sub2_w32, !sub_w32. destruct a as [ar ag ab aa], q as [r g b al]. cbn [pr pg pb pa] in *. subst al.
  destruct Ha as (A1 & A2 & A3 & A4), Hq as (B1 & B2 & B3 & _). cbn [pr pg pb pa] in *. unfold is_byte in *.
  remember ((r - ar + 2) mod 256) as xr eqn:Exr. remember ((g - ag + 2) mod 256) as xg eqn:Exg. remember ((b - ab + 2) mod 256) as xb eqn:Exb.
  assert (Rr : 0 <= xr < 256) by (subst; lia). assert (Rg : 0 <= xg < 256) by (subst; lia). assert (Rb : 0 <= xb < 256) by (subst; lia).
  destruct (Z.leb_spec (Z.lor (Z.lor xr xg) xb) 0x3) as [L|L].
  { assert (0 <= Z.lor xr xg) as P by (apply Z.lor_nonneg; lia).
    pose proof (lor_le_l (Z.lor xr xg) xb P ltac:(lia)). pose proof (lor_le_r (Z.lor xr xg) xb P ltac:(lia)).
    pose proof (lor_le_l xr xg ltac:(lia) ltac:(lia)). pose proof (lor_le_r xr xg ltac:(lia) ltac:(lia)).
    assert (0 <= xr < 4 /\ 0 <= xg < 4 /\ 0 <= xb < 4) as (X1 & X2 & X3) by lia.
    exists (CDiff (xr - 2) (xg - 2) (xb - 2)). cbn [chunk_bytes chunk_ok length]. split; [|split; [lia|split; [lia|split; [|split; discriminate]]]].
    - change kQoiOpDiff with (1 * 64). rewrite lor_chunk4 by lia. f_equal. unfold w8. clear - X1 X2 X3. rewrite Z.mod_small by lia. ring.
    - intros st Ep. cbn [chunk_px]. rewrite Ep. cbn [pr pg pb pa]. clear - A1 A2 A3 B1 B2 B3 Exr Exg Exb. f_equal; lia. }
  clear L. clear Exr Exg Exb xr xg xb Rr Rg Rb.
  remember ((r - ar - (g - ag) + 8) mod 256) as xr eqn:Exr. remember ((g - ag + 32) mod 256) as xg eqn:Exg. remember ((b - ab - (g - ag) + 8) mod 256) as xb eqn:Exb.
  assert (Rr : 0 <= xr < 256) by (subst; lia). assert (Rg : 0 <= xg < 256) by (subst; lia). assert (Rb : 0 <= xb < 256) by (subst; lia).
  destruct (Z.leb_spec (Z.lor xr xb) 0xF) as [L|L]; cbn [andb]; [destruct (Z.leb_spec xg 0x3F) as [L2|L2]|].
  - pose proof (lor_le_l xr xb ltac:(lia) ltac:(lia)). pose proof (lor_le_r xr xb ltac:(lia) ltac:(lia)).
    assert (0 <= xr < 16 /\ 0 <= xg < 64 /\ 0 <= xb < 16) as (X1 & X2 & X3) by lia.
    exists (CLuma (xg - 32) (xr - 8) (xb - 8)). cbn [chunk_bytes chunk_ok length]. split; [|split; [lia|split; [lia|split; [|split; discriminate]]]].
    + assert (E1 : Z.lor kQoiOpLuma xg = 128 + xg) by (change kQoiOpLuma with (2 * 2 ^ 6); rewrite lor_mul_add; [ring|lia|change (2 ^ 6) with 64; lia]).
      assert (E2 : Z.lor (Z.shiftl xr 4) xb = xr * 16 + xb) by (rewrite lor_shift_add; [reflexivity|lia|change (2 ^ 4) with 16; lia]).
      rewrite E1, E2. unfold w8. clear - X1 X2 X3. rewrite !Z.mod_small by lia.
      replace (128 + (xg - 32 + 32)) with (128 + xg) by ring. replace ((xr - 8 + 8) * 16 + (xb - 8 + 8)) with (xr * 16 + xb) by ring. reflexivity.
    + intros st Ep. cbn [chunk_px]. rewrite Ep. cbn [pr pg pb pa]. clear - A1 A2 A3 B1 B2 B3 Exr Exg Exb. f_equal; lia.
  - exists (CRgb r g b). cbn [chunk_bytes chunk_ok length]. unfold w8, is_byte. rewrite !Z.mod_small by lia.
    split; [reflexivity|split; [lia|split; [lia|split; [|split; discriminate]]]]. intros st Ep. cbn [chunk_px]. now rewrite Ep.
  - exists (CRgb r g b). cbn [chunk_bytes chunk_ok length]. unfold w8, is_byte. rewrite !Z.mod_small by lia.
    split; [reflexivity|split; [lia|split; [lia|split; [|split; discriminate]]]]. intros st Ep. cbn [chunk_px]. now rewrite Ep.
Qed.

(* Encoder table E against the specification's table T. valid/enc describe the pixels of a source format. *)
Record Einv (valid : px -> Prop) (enc : px -> Z) (tbl : list Z) (st : qst) : Prop := {
  e_len : length tbl = 64%nat;
  e_tab : forall q, valid q -> elem_at tbl (px_hash q) = Some (enc q) -> q_tab st (px_hash q) = q;
  e_prev : forall q, valid q -> px_hash q = px_hash (q_prev st) -> elem_at tbl (px_hash q) = Some (enc q) -> q = q_prev st }.

Lemma einv_run valid enc tbl st n : Einv valid enc tbl st -> Einv valid enc tbl (chunk_next st (CRun n)).
Proof.
  intros [L T P]. constructor; [exact L| |exact P]. intros q V E. unfold chunk_next. cbn [q_tab chunk_px]. unfold tab_set.
  destruct (Z.eqb_spec (px_hash q) (px_hash (q_prev st))) as [H|H]; [symmetry; now apply P|now apply T].
Qed.

Section Emit.
  Context (valid : px -> Prop) (enc : px -> Z).
  Context (enc_inj : forall p q, valid p -> valid q -> enc p = enc q -> p = q).

  Lemma einv_known tbl st q c : Einv valid enc tbl st -> valid q -> elem_at tbl (px_hash q) = Some (enc q) -> chunk_px st c = q ->
    Einv valid enc tbl (chunk_next st c).
  Proof.
    intros [L T P] V E Ec. unfold chunk_next. rewrite Ec. constructor; [exact L| |]; cbn [q_tab q_prev].
    - intros q2 V2 E2. unfold tab_set. destruct (Z.eqb_spec (px_hash q2) (px_hash q)) as [H|H]; [|now apply T].
      rewrite H in E2. rewrite E in E2. injection E2 as E2. now apply enc_inj.
    - intros q2 V2 H E2. rewrite H, E in E2. injection E2 as E2. symmetry. now apply enc_inj.
  Qed.

  Lemma einv_new tbl st q c : Einv valid enc tbl st -> valid q -> chunk_px st c = q ->
    Einv valid enc (zupd tbl (px_hash q) (enc q)) (chunk_next st c).
  Proof.
    intros [L T P] V Ec. unfold chunk_next. rewrite Ec. pose proof (px_hash_range q) as R.
    assert (HL : 0 <= px_hash q < Z.of_nat (length tbl)) by (rewrite L; change (Z.of_nat 64) with 64; lia).
    constructor; [now rewrite zupd_length| |]; cbn [q_tab q_prev].
    - intros q2 V2. rewrite elem_zupd by exact HL. unfold tab_set. destruct (Z.eqb_spec (px_hash q2) (px_hash q)) as [H|H]; intros E2.
      + injection E2 as E2. now apply enc_inj.
      + now apply T.
    - intros q2 V2 H. rewrite elem_zupd by exact HL. destruct (Z.eqb_spec (px_hash q2) (px_hash q)); [|contradiction].
      intros E2. injection E2 as E2. symmetry. now apply enc_inj.
  Qed.
End Emit.

(* Source formats: meaning of a raw (normalised) pixel, the pixels that occur, and their representation in the table *)
Definition px_of (v : Z) : px := Px (rgba_r v) (rgba_g v) (rgba_b v) (rgba_a v).
Definition npx_a8 (p : Z) : px := Px 255 255 255 p.
Definition npx_prgb (p : Z) : px := match cvt_argb32_from_prgb32 p with Ok v => px_of v | _ => Px 0 0 0 0 end.
Definition valid_a8 (q : px) : Prop := pr q = 255 /\ pg q = 255 /\ pb q = 255 /\ is_byte (pa q).
Definition valid_x (q : px) : Prop := px_ok q /\ pa q = 255.

Definition raw_a8 (p : Z) : Prop := is_byte p.
Definition raw_x (p : Z) : Prop := exists r g b, is_byte r /\ is_byte g /\ is_byte b /\ p = pack32 255 r g b.
Definition raw_p (p : Z) : Prop := 0 <= p < 4294967296.

(* what one emission must satisfy *)
Definition emits (emit : Z -> list Z -> Z -> outcome (list Z * Z * list Z)) (inv : Z -> list Z -> qst -> Prop) (raw : Z -> Prop)
  (npx : Z -> px) (K : nat) : Prop :=
  forall prev tbl st p, inv prev tbl st -> raw p ->
  exists c prev' tbl', emit prev tbl p = Ok (chunk_bytes c, prev', tbl') /\ chunk_ok c /\ (length (chunk_bytes c) <= K)%nat /\
    (forall n, c <> CRun n) /\ match c with CIndex i => px_hash (q_tab st i) = i | _ => True end /\
    chunk_px st c = npx p /\ inv prev' tbl' (chunk_next st c).

Lemma index_byte h : 0 <= h < 64 -> w8 (Z.lor kQoiOpIndex h) = h.
Proof. intros H. change kQoiOpIndex with 0. rewrite Z.lor_0_l. unfold w8. lia. Qed.

Lemma rd_tbl (tbl : list Z) h : length tbl = 64%nat -> 0 <= h < 64 -> exists t, elem_at tbl h = Some t /\ rd tbl h = Ok t.
Proof. intros L H. apply rd_ok. rewrite L. change (Z.of_nat 64) with 64. lia. Qed.
Lemma wr_tbl (tbl : list Z) h x : length tbl = 64%nat -> 0 <= h < 64 -> wr tbl h x = Ok (zupd tbl h x).
Proof. intros L H. apply wr_ok. rewrite L. change (Z.of_nat 64) with 64. lia. Qed.

Definition inv_a8 (prev : Z) (tbl : list Z) (st : qst) : Prop := Einv valid_a8 pa tbl st.
Lemma emits_a8 : emits emit_a8 inv_a8 raw_a8 npx_a8 5.
Proof.
  intros prev tbl st p I R. unfold raw_a8 in R. unfold emit_a8. rewrite hashA8_ok by exact R.
  assert (V : valid_a8 (npx_a8 p)) by (unfold valid_a8, npx_a8; cbn; auto).
  assert (INJ : forall p q, valid_a8 p -> valid_a8 q -> pa p = pa q -> p = q).
  { intros [r1 g1 b1 a1] [r2 g2 b2 a2] (A1 & A2 & A3 & _) (B1 & B2 & B3 & _) E. cbn [pr pg pb pa] in *. congruence. }
  pose proof (px_hash_range (npx_a8 p)) as HR. unfold inv_a8 in *. destruct (rd_tbl tbl (px_hash (npx_a8 p)) (e_len _ _ _ _ I) HR) as (t & Et & Er).
  change (Px 255 255 255 p) with (npx_a8 p). rewrite Er. cbn [bind]. destruct (Z.eqb_spec t p) as [->|Hne].
  - exists (CIndex (px_hash (npx_a8 p))), p, tbl. rewrite index_byte by exact HR. cbn [chunk_bytes chunk_ok length].
    assert (ET : q_tab st (px_hash (npx_a8 p)) = npx_a8 p) by (apply (e_tab _ _ _ _ I); [exact V|exact Et]).
    repeat split; try lia; try discriminate; [now rewrite ET|exact ET| | |].
    all: destruct (einv_known valid_a8 pa INJ tbl st (npx_a8 p) (CIndex (px_hash (npx_a8 p))) I V Et ET); assumption.
  - rewrite (wr_tbl tbl _ _ (e_len _ _ _ _ I) HR). cbn [bind]. exists (CRgba 255 255 255 p), p, (zupd tbl (px_hash (npx_a8 p)) p).
    unfold raw_a8, is_byte in *. unfold w8, w16. rewrite !Z.mod_small by lia. cbn [chunk_bytes chunk_ok length]. unfold is_byte.
    repeat split; try lia; try discriminate.
    all: destruct (einv_new valid_a8 pa INJ tbl st (npx_a8 p) (CRgba 255 255 255 p) I V eq_refl); assumption.
Qed.

Lemma einv_px_inj : forall p q, px_ok p -> px_ok q -> argb p = argb q -> p = q. Proof. exact argb_inj. Qed.

Definition inv_x (prev : Z) (tbl : list Z) (st : qst) : Prop := Einv valid_x argb tbl st /\ prev = argb (q_prev st) /\ valid_x (q_prev st).
Lemma raw_x_px p : raw_x p -> valid_x (px_of p) /\ argb (px_of p) = p.
Proof.
  intros (r & g & b & Hr & Hg & Hb & ->).
  assert (O : px_ok (Px r g b 255)) by (unfold px_ok, is_byte in *; cbn; lia).
  destruct (rgba_argb _ O) as (E1 & E2 & E3 & E4). unfold argb in *. cbn [pr pg pb pa] in *. unfold px_of. rewrite E1, E2, E3, E4. repeat split; apply O.
Qed.

Lemma emits_x : emits emit_xrgb inv_x raw_x px_of 4.
Proof.
  intros prev tbl st p (I & Ep & Vp) R. destruct (raw_x_px p R) as [V Eq]. set (q := px_of p) in *. unfold emit_xrgb.
  rewrite <- Eq. rewrite hash32_ok by apply V. pose proof (px_hash_range q) as HR.
  assert (INJ : forall p q, valid_x p -> valid_x q -> argb p = argb q -> p = q) by (intros ? ? [] []; now apply argb_inj).
  destruct (rd_tbl tbl (px_hash q) (e_len _ _ _ _ I) HR) as (t & Et & Er). rewrite Er. cbn [bind]. destruct (Z.eqb_spec t (argb q)) as [->|Hne].
  - exists (CIndex (px_hash q)), (argb q), tbl. rewrite index_byte by exact HR. cbn [chunk_bytes chunk_ok length].
    assert (ET : q_tab st (px_hash q) = q) by (apply (e_tab _ _ _ _ I); [exact V|exact Et]).
    split; [reflexivity|]. split; [exact HR|]. split; [lia|]. split; [discriminate|]. split; [now rewrite ET|]. split; [exact ET|]. split; [|split].
    + apply (einv_known valid_x argb INJ tbl st q); assumption.
    + unfold chunk_next. cbn [q_prev chunk_px]. now rewrite ET.
    + unfold chunk_next. cbn [q_prev chunk_px]. now rewrite ET.
  - rewrite (wr_tbl tbl _ _ (e_len _ _ _ _ I) HR). cbn [bind]. subst prev.
    destruct (delta_ok (q_prev st) q) as (c & E1 & E2 & E3 & E4 & E5 & E6); [apply Vp|apply V|destruct V, Vp; congruence|].
    exists c, (argb q), (zupd tbl (px_hash q) (argb q)). rewrite E1. specialize (E4 st eq_refl).
    split; [reflexivity|]. split; [exact E2|]. split; [exact E3|]. split; [exact E6|]. split; [destruct c; auto; now destruct (E5 i)|]. split; [exact E4|]. split; [|split].
    + apply einv_new; assumption.
    + unfold chunk_next. cbn [q_prev]. now rewrite E4.
    + unfold chunk_next. cbn [q_prev]. now rewrite E4.
Qed.

Definition inv_p (prev : Z) (tbl : list Z) (st : qst) : Prop := Einv px_ok argb tbl st /\ prev = argb (q_prev st) /\ px_ok (q_prev st).
Lemma u32_px v : 0 <= v < 4294967296 -> px_ok (px_of v) /\ argb (px_of v) = v.
Proof.
  intros H. unfold px_of, px_ok, argb, rgba_r, rgba_g, rgba_b, rgba_a. cbn [pr pg pb pa]. rewrite !land_ff, !Z.shiftr_div_pow2 by lia. unfold pack32, is_byte.
  change (2 ^ 24) with 16777216. change (2 ^ 16) with 65536. change (2 ^ 8) with 256. repeat split; lia.
Qed.
Lemma cvt_total p : raw_p p -> exists v, cvt_argb32_from_prgb32 p = Ok v /\ 0 <= v < 4294967296.
Proof.
  unfold raw_p. intros H. unfold cvt_argb32_from_prgb32, unpremultiply_8bit.
  assert (A : u8 (Z.shiftr p 24)) by (rewrite Z.shiftr_div_pow2 by lia; change (2 ^ 24) with 16777216; unfold u8; lia).
  rewrite rcp_ok by exact A. cbn [bind]. eexists. split; [reflexivity|]. change 4294967296 with (2 ^ 32).
  assert (W : forall x, 0 <= w32 x < 2 ^ 32) by (intros; unfold w32; change (2 ^ 32) with 4294967296; lia).
  assert (S : forall x, 0 <= Z.shiftr (w32 x) 16 < 2 ^ 32) by (intros; rewrite Z.shiftr_div_pow2 by lia; unfold w32; change (2 ^ 32) with 4294967296; change (2 ^ 16) with 65536; lia).
  repeat apply lor_bound; try lia; auto.
Qed.
Lemma raw_p_any p : raw_p p -> cvt_argb32_from_prgb32 p = Ok (argb (npx_prgb p)) /\ px_ok (npx_prgb p).
Proof. intros H. unfold npx_prgb. destruct (cvt_total p H) as (v & -> & Hv). destruct (u32_px v Hv) as [A ->]. auto. Qed.

Lemma raw_p_px p : premul32 p -> cvt_argb32_from_prgb32 p = Ok (argb (npx_prgb p)) /\ px_ok (npx_prgb p) /\ pix32 true (npx_prgb p) = p.
Proof.
  intros (a & r & g & b & Ha & Hr & Hg & Hb & ->). unfold is_byte in *.
  destruct (unpremul_ok a r) as (r' & _ & Ur & Er & _); [exact Ha|exact Hr|].
  destruct (unpremul32_ok a r g b) as (r2 & g2 & b2 & R1 & G1 & B1 & Xr & Xg & Xb & E1 & _ & E2); [exact Ha|exact Hr|exact Hg|exact Hb|].
  destruct (unpremul_ok a r) as (ur & Y1 & _ & Z1 & _); [exact Ha|exact Hr|]. destruct (unpremul_ok a g) as (ug & Y2 & _ & Z2 & _); [exact Ha|exact Hg|]. destruct (unpremul_ok a b) as (ub & Y3 & _ & Z3 & _); [exact Ha|exact Hb|].
  rewrite Xr in Y1. rewrite Xg in Y2. rewrite Xb in Y3. injection Y1 as <-. injection Y2 as <-. injection Y3 as <-.
  assert (O : px_ok (Px r2 g2 b2 a)) by (unfold px_ok, is_byte, u8 in *; cbn; lia).
  assert (EN : npx_prgb (pack32 a r g b) = Px r2 g2 b2 a).
  { unfold npx_prgb. rewrite E1. destruct (rgba_argb _ O) as (F1 & F2 & F3 & F4). unfold argb in *. cbn [pr pg pb pa] in *. unfold px_of. now rewrite F1, F2, F3, F4. }
  rewrite EN. split; [exact E1|]. split; [exact O|]. unfold pix32. cbn [pr pg pb pa]. now rewrite Z1, Z2, Z3.
Qed.

Lemma emits_p : emits emit_prgb inv_p raw_p npx_prgb 5.
Proof.
  intros prev tbl st p (I & Ep & Vp) R. destruct (raw_p_any p R) as (Eq & V). set (q := npx_prgb p) in *. unfold emit_prgb.
  rewrite Eq. cbn [bind]. rewrite hash32_ok by apply V. pose proof (px_hash_range q) as HR.
  destruct (rd_tbl tbl (px_hash q) (e_len _ _ _ _ I) HR) as (t & Et & Er). rewrite Er. cbn [bind]. destruct (Z.eqb_spec t (argb q)) as [->|Hne].
  - exists (CIndex (px_hash q)), (argb q), tbl. rewrite index_byte by exact HR. cbn [chunk_bytes chunk_ok length].
    assert (ET : q_tab st (px_hash q) = q) by (apply (e_tab _ _ _ _ I); [exact V|exact Et]).
    split; [reflexivity|]. split; [exact HR|]. split; [lia|]. split; [discriminate|]. split; [now rewrite ET|]. split; [exact ET|]. split; [|split].
    + apply (einv_known px_ok argb argb_inj tbl st q); assumption.
    + unfold chunk_next. cbn [q_prev chunk_px]. now rewrite ET.
    + unfold chunk_next. cbn [q_prev chunk_px]. now rewrite ET.
  - rewrite (wr_tbl tbl _ _ (e_len _ _ _ _ I) HR). cbn [bind]. subst prev.
    assert (exists c, (if rgba_a (argb (q_prev st)) =? rgba_a (argb q) then Ok (delta_chunk (argb (q_prev st)) (argb q), argb q, zupd tbl (px_hash q) (argb q))
        else Ok ([kQoiOpRgba; w8 (rgba_r (argb q)); w8 (rgba_g (argb q)); w8 (rgba_b (argb q)); w8 (rgba_a (argb q))], argb q, zupd tbl (px_hash q) (argb q))) =
        Ok (chunk_bytes c, argb q, zupd tbl (px_hash q) (argb q)) /\ chunk_ok c /\ (length (chunk_bytes c) <= 5)%nat /\
        (chunk_px st c = q) /\ (forall i, c <> CIndex i) /\ (forall n, c <> CRun n)) as (c & -> & E2 & E3 & E4 & E5 & E6).
    { destruct (rgba_argb q V) as (-> & -> & -> & ->). destruct (rgba_argb (q_prev st) Vp) as (_ & _ & _ & ->).
      destruct (Z.eqb_spec (pa (q_prev st)) (pa q)) as [Ea|Ea].
      - destruct (delta_ok (q_prev st) q Vp V Ea) as (c & E1 & E2 & E3 & E4 & E5 & E6). exists c. rewrite E1. specialize (E4 st eq_refl). repeat split; auto.
      - exists (CRgba (pr q) (pg q) (pb q) (pa q)). destruct V as (V1 & V2 & V3 & V4). cbn [chunk_bytes chunk_ok length chunk_px]. unfold w8. unfold is_byte in *. rewrite !Z.mod_small by lia.
        repeat split; try lia; try discriminate. now destruct q. }
    exists c, (argb q), (zupd tbl (px_hash q) (argb q)).
    split; [reflexivity|]. split; [exact E2|]. split; [exact E3|]. split; [exact E6|]. split; [destruct c; auto; now destruct (E5 i)|]. split; [exact E4|]. split; [|split].
    + apply einv_new; try assumption. exact argb_inj.
    + unfold chunk_next. cbn [q_prev]. now rewrite E4.
    + unfold chunk_next. cbn [q_prev]. now rewrite E4.
Qed.
