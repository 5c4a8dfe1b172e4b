(* Proofs: the encoder's traversal; encoded files and the round trip. *)
From Verif Require Import Base Bits Algorithm_Model Algorithm_Spec Algorithm_Proofs PixelOps_Model PixelOps_Spec PixelOps_Proofs PixelOps_Proofs2 Qoi_Model Qoi_Spec Qoi_Proofs Qoi_Proofs2 Qoi_Proofs4 Qoi_Proofs5 Qoi_Proofs6.

Lemma spec_app cs1 cs2 st : spec_decode st (cs1 ++ cs2) = spec_decode st cs1 ++ spec_decode (fold_left chunk_next cs1 st) cs2.
Proof. revert st; induction cs1 as [|c cs1 IH]; intros st; cbn [app spec_decode fold_left]; [reflexivity|]. now rewrite IH, app_assoc. Qed.
Lemma index_app cs1 cs2 st : index_ok st cs1 -> index_ok (fold_left chunk_next cs1 st) cs2 -> index_ok st (cs1 ++ cs2).
Proof. revert st; induction cs1 as [|c cs1 IH]; intros st; cbn [app index_ok fold_left]; [auto|]. intros [A B] C. auto. Qed.

Definition zsum (l : list Z) : Z := fold_right Z.add 0 l.
Definition run_len (n : Z) : Prop := 1 <= n <= 62.

Lemma zsum_nonneg ns : Forall run_len ns -> 0 <= zsum ns.
Proof. unfold run_len. induction 1 as [|a l H HF IH]; unfold zsum in *; cbn [fold_right]; lia. Qed.

Lemma emit_runs_ok fuel : forall n, 1 <= n <= Z.of_nat fuel ->
  exists ns, emit_runs fuel n = Ok (stream (map CRun ns)) /\ Forall run_len ns /\ zsum ns = n.
Proof.
  induction fuel as [|f IH]; intros n Hn; [lia|]. cbn [emit_runs].
  destruct (Z.eqb_spec (n - Z.min n 62) 0) as [E|E].
  - exists [n]. unfold run_len, stream, zsum. cbn [map concat chunk_bytes fold_right app]. split; [|split; [constructor; [lia|constructor]|lia]].
    replace (w8 (Z.min n 62 + (kQoiOpRun - 1))) with (192 + (n - 1)) by (unfold w8, kQoiOpRun; lia). reflexivity.
  - destruct (IH (n - Z.min n 62)) as (ns & -> & F & S); [lia|]. cbn [bind]. exists (62 :: ns).
    unfold stream, zsum in *. cbn [map concat chunk_bytes fold_right app]. split; [|split; [constructor; [unfold run_len; lia|exact F]|lia]].
    replace (w8 (Z.min n 62 + (kQoiOpRun - 1))) with (192 + (62 - 1)) by (unfold w8, kQoiOpRun; lia). reflexivity.
Qed.

Lemma runs_spec ns : forall st, Forall run_len ns -> spec_decode st (map CRun ns) = repeat (q_prev st) (Z.to_nat (zsum ns)) /\ index_ok st (map CRun ns) /\
  q_prev (fold_left chunk_next (map CRun ns) st) = q_prev st.
Proof.
  induction ns as [|n ns IH]; intros st F; [cbn; auto|]. inversion F as [|? ? H F']; subst. unfold run_len in H.
  destruct (IH (chunk_next st (CRun n)) F') as (A & B & C). pose proof (zsum_nonneg ns F') as P.
  cbn [map spec_decode chunk_px chunk_count index_ok fold_left]. rewrite A, C. cbn [chunk_next q_prev chunk_px]. split; [|auto].
  rewrite <- repeat_app. f_equal. unfold zsum in *. cbn [fold_right]. lia.
Qed.

Lemma stream_app a b : stream (a ++ b) = stream a ++ stream b.
Proof. unfold stream. now rewrite map_app, concat_app. Qed.

Lemma stream_runs_len ns : Forall run_len ns -> Z.of_nat (length (stream (map CRun ns))) <= zsum ns.
Proof.
  induction 1 as [|n ns H F IH]; [cbn; lia|]. unfold stream, run_len, zsum in *. cbn [map concat chunk_bytes app length fold_right]. lia.
Qed.

Lemma runs_ok ns : Forall run_len ns -> Forall chunk_ok (map CRun ns).
Proof. induction 1 as [|n ns H F IH]; constructor; auto. Qed.

Section Traverse.
  Context (norm : Z -> Z) (emit : Z -> list Z -> Z -> outcome (list Z * Z * list Z)).
  Context (w h0 : nat) (stride : Z) (src : Z -> Z).
  Context (Hw : 0 < Z.of_nat w <= Z.abs stride) (Hh : (0 < h0)%nat).

  Definition F (k : nat) : Z := norm (src (pix_off (Z.of_nat w) stride (Z.of_nat k))).
  Definition rest (k : nat) : list Z := map F (seq k (w * h0 - k)).
  Definition pos (h x : nat) : nat := ((h0 - h) * w + (w - x))%nat.
  Definition off (h x : nat) : Z := Z.of_nat (h0 - h) * stride + (Z.of_nat w - Z.of_nat x).

  Lemma pos_lt h x : (1 <= h <= h0)%nat -> (1 <= x <= w)%nat -> (pos h x < w * h0)%nat.
  Proof. intros H1 H2. unfold pos. assert ((h0 - h) * w + w <= w * h0)%nat; [|lia]. assert (exists d, h0 = h + d)%nat as [d ->] by (exists (h0 - h)%nat; lia). replace (h + d - h)%nat with d by lia. destruct h; nia. Qed.
  Lemma pos_row h : (1 <= h <= h0)%nat -> pos h 0 = pos (h - 1) w.
  Proof. intros H. unfold pos. replace (h0 - (h - 1))%nat with (S (h0 - h)) by lia. cbn [Nat.mul]. lia. Qed.
  Lemma off_row h : (1 <= h <= h0)%nat -> off h 0 + (stride - Z.of_nat w) = off (h - 1) w.
  Proof. intros H. unfold off. replace (h0 - (h - 1))%nat with (S (h0 - h)) by lia. rewrite Nat2Z.inj_succ. change (Z.of_nat 0) with 0. ring. Qed.
  Lemma off_step h x : (1 <= x)%nat -> off h x + 1 = off h (x - 1).
  Proof. intros H. unfold off. lia. Qed.
  Lemma pos_step h x : (1 <= x <= w)%nat -> pos h (x - 1) = S (pos h x).
  Proof. intros H. unfold pos. lia. Qed.
  Lemma pos_end : pos 1 0 = (w * h0)%nat.
  Proof. unfold pos. destruct h0 as [|d]; [lia|]. replace (S d - 1)%nat with d by lia. replace (w - 0)%nat with w by lia. lia. Qed.

  Lemma rd_at h x : (1 <= h <= h0)%nat -> (1 <= x <= w)%nat -> rd_src norm w h0 stride src (off h x) = Ok (F (pos h x)).
  Proof.
    intros H1 H2. unfold rd_src, off. rewrite in_image_ok by lia. unfold F, pos. do 3 f_equal.
    replace (Z.of_nat ((h0 - h) * w + (w - x))) with (Z.of_nat (h0 - h) * Z.of_nat w + (Z.of_nat w - Z.of_nat x)) by lia.
    now rewrite pix_off_yx by lia.
  Qed.

  Lemma rest_cons k : (k < w * h0)%nat -> rest k = F k :: rest (S k).
  Proof. intros H. unfold rest. replace (w * h0 - k)%nat with (S (w * h0 - S k)) by lia. reflexivity. Qed.
  Lemma rest_end : rest (w * h0) = [].
  Proof. unfold rest. now rewrite Nat.sub_diag. Qed.
  Lemma rest_run pixel d : forall k, (k + d <= w * h0)%nat -> (forall i, (k <= i < k + d)%nat -> F i = pixel) -> rest k = repeat pixel d ++ rest (k + d).
  Proof.
    induction d as [|d IH]; intros k Hk E; [now rewrite Nat.add_0_r|]. rewrite rest_cons by lia. cbn [repeat app].
    rewrite (E k) by lia. f_equal. rewrite (IH (S k)); [|lia|intros; apply E; lia]. now replace (S k + d)%nat with (k + S d)%nat by lia.
  Qed.

  Lemma scan_row_ok h pixel : (1 <= h <= h0)%nat -> forall x p0, (x <= w)%nat ->
    exists x' o' p', scan_row norm w h0 stride src x (off h x) pixel p0 = Ok (x', o', p') /\ (x' <= x)%nat /\
      (forall i, (pos h x <= i < pos h x')%nat -> F i = pixel) /\
      ((x' = 0%nat /\ o' = off h 0) \/ ((1 <= x')%nat /\ o' = off h x' + 1 /\ p' = F (pos h x') /\ p' <> pixel)).
  Proof.
    intros Hr. induction x as [|x IH]; intros p0 Hx; cbn [scan_row].
    - exists 0%nat, (off h 0), p0. repeat split; auto; intros; lia.
    - rewrite rd_at by lia. cbn [bind]. destruct (Z.eqb_spec (F (pos h (S x))) pixel) as [E|E]; cbn [negb].
      + rewrite off_step by lia. replace (S x - 1)%nat with x by lia. destruct (IH (F (pos h (S x)))) as (x' & o' & p' & E1 & E2 & E3 & E4); [lia|].
        exists x', o', p'. split; [exact E1|]. split; [lia|]. split; [|exact E4]. intros i Hi. pose proof (pos_step h (S x) ltac:(lia)) as PS. replace (S x - 1)%nat with x in PS by lia.
        destruct (Nat.eq_dec i (pos h (S x))) as [->|]; [exact E|]. apply E3. lia.
      + exists (S x), (off h (S x) + 1), (F (pos h (S x))). split; [reflexivity|]. split; [lia|]. split; [intros; lia|]. right. split; [lia|]. auto.
  Qed.

  Lemma scan_rows_ok pixel : forall h x p0 n, (1 <= h <= h0)%nat -> (x <= w)%nat ->
    exists x' h' o' p' n' k', scan_rows norm w h0 stride src h x (off h x) pixel p0 n = Ok (x', h', o', p', n') /\
      n' = n + (Z.of_nat k' - Z.of_nat (pos h x)) /\ (pos h x <= k')%nat /\ (forall i, (pos h x <= i < k')%nat -> F i = pixel) /\
      ((x' = 0%nat /\ k' = (w * h0)%nat) \/
       ((1 <= x' <= w)%nat /\ (1 <= h' <= h)%nat /\ o' = off h' x' + 1 /\ k' = pos h' x' /\ p' = F k' /\ p' <> pixel)).
  Proof.
    induction h as [|h IH]; intros x p0 n Hr Hx; [lia|]. cbn [scan_rows].
    destruct (scan_row_ok (S h) pixel Hr x p0 Hx) as (x' & o' & p' & -> & Hx' & Ei & Ecase). cbn [bind].
    assert (Mono : (pos (S h) x <= pos (S h) x')%nat) by (unfold pos; lia).
    assert (Dist : Z.of_nat x - Z.of_nat x' = Z.of_nat (pos (S h) x') - Z.of_nat (pos (S h) x)) by (unfold pos; lia).
    destruct x' as [|x''].
    - destruct Ecase as [[_ ->]|Ecase]; [|lia]. destruct h as [|h'].
      + exists 0%nat, 0%nat, (off 1 0), p', (n + (Z.of_nat x - Z.of_nat 0)), (w * h0)%nat. rewrite <- pos_end. repeat split; auto; lia.
      + rewrite off_row by lia. replace (S (S h') - 1)%nat with (S h') by lia.
        destruct (IH w p' (n + (Z.of_nat x - Z.of_nat 0))) as (x2 & h2 & o2 & p2 & n2 & k2 & E1 & E2 & E3 & E4 & E5); [lia|lia|].
        exists x2, h2, o2, p2, n2, k2. split; [exact E1|]. pose proof (pos_row (S (S h')) ltac:(lia)) as PR. replace (S (S h') - 1)%nat with (S h') in PR by lia.
        split; [lia|]. split; [lia|]. split.
        * intros i Hi. destruct (Nat.lt_ge_cases i (pos (S (S h')) 0)); [apply Ei; lia|apply E4; lia].
        * destruct E5 as [E5|(F1 & F2 & F3)]; [left; exact E5|right; repeat split; try apply F3; lia].
    - destruct Ecase as [[? _]|(H1 & -> & -> & Hne)]; [lia|].
      exists (S x''), (S h), (off (S h) (S x'') + 1), (F (pos (S h) (S x''))), (n + (Z.of_nat x - Z.of_nat (S x''))), (pos (S h) (S x'')).
      split; [reflexivity|]. split; [lia|]. split; [lia|]. split; [exact Ei|]. right. split; [lia|]. split; [lia|]. auto.
  Qed.

  Definition lit f prev tbl (h x : nat) (o p : Z) (out : list Z) : outcome (list Z) :=
    let* (bs, prev, tbl) := emit prev tbl p in
    let out := out ++ bs in
    match x with
    | O => UB
    | S O => match h with
             | O => UB
             | S O => Ok out
             | S h' => encode_loop norm emit w h0 stride src f h' w (o + (stride - Z.of_nat w)) p prev tbl out
             end
    | S x' => encode_loop norm emit w h0 stride src f h x' o p prev tbl out
    end.
  Lemma encode_loop_S f h x o pixel prev tbl out : encode_loop norm emit w h0 stride src (S f) h x o pixel prev tbl out =
    let* p := rd_src norm w h0 stride src o in
    if p =? pixel then
      let* (x, h, o, p, n) := scan_rows norm w h0 stride src h (x - 1) (o + 1) pixel p 1 in
      let* r := emit_runs (Z.to_nat n) n in
      match x with O => Ok (out ++ r) | S _ => lit f prev tbl h x o p (out ++ r) end
    else lit f prev tbl h x (o + 1) p out.
  Proof. reflexivity. Qed.

  Context (inv : Z -> list Z -> qst -> Prop) (raw : Z -> Prop) (npx : Z -> px) (K : nat).
  Context (Hemit : emits emit inv raw npx K) (HK : (1 <= K)%nat).
  Context (Hrun : forall prev tbl st n, inv prev tbl st -> inv prev tbl (chunk_next st (CRun n))).
  Context (Hraw : forall k, (k < w * h0)%nat -> raw (F k)).

  Lemma inv_runs prev tbl ns : forall st, inv prev tbl st -> inv prev tbl (fold_left chunk_next (map CRun ns) st).
  Proof. induction ns as [|n ns IH]; intros st I; [exact I|]. cbn [map fold_left]. apply IH, Hrun, I. Qed.

  Definition encodes (st : qst) (k : nat) (out : list Z) (r : outcome (list Z)) : Prop :=
    exists cs, r = Ok (out ++ stream cs) /\ Forall chunk_ok cs /\ index_ok st cs /\ spec_decode st cs = map npx (rest k) /\
      (length (stream cs) <= K * length (rest k))%nat.

  Lemma encode_loop_ok fuel : forall h x pixel prev tbl st out, (1 <= h <= h0)%nat -> (1 <= x <= w)%nat -> (w * h0 - pos h x <= fuel)%nat ->
    inv prev tbl st -> (raw pixel -> npx pixel = q_prev st) ->
    encodes st (pos h x) out (encode_loop norm emit w h0 stride src fuel h x (off h x) pixel prev tbl out).
  Proof.
    induction fuel as [|f IH]; intros h x pixel prev tbl st out Hr Hx Hf I Hpix; [pose proof (pos_lt h x Hr Hx); lia|].
    rewrite encode_loop_S. set (literal := lit f prev tbl).
    (* the literal part, started at pixel position (h1, x1) with the source pointer already past it *)
    assert (LIT : forall h1 x1 st1 out1, (1 <= h1 <= h)%nat -> (1 <= x1 <= w)%nat -> (w * h0 - pos h1 x1 <= S f)%nat -> inv prev tbl st1 ->
      encodes st1 (pos h1 x1) out1 (literal h1 x1 (off h1 x1 + 1) (F (pos h1 x1)) out1)).
    { clear I Hpix st. intros h1 x1 st out1 Hr1 Hx1 Hf1 I. pose proof (pos_lt h1 x1 ltac:(lia) Hx1) as PL. unfold literal, lit.
      destruct (Hemit prev tbl st (F (pos h1 x1)) I (Hraw _ PL)) as (c & prev' & tbl' & -> & C1 & C2 & C3 & C4 & C5 & C6). cbn [bind].
      assert (ONE : chunk_count c = 1%nat) by (destruct c; auto; now destruct (C3 n)).
      assert (FIN : forall k r, rest (pos h1 x1) = F (pos h1 x1) :: rest k -> encodes (chunk_next st c) k (out1 ++ chunk_bytes c) r -> encodes st (pos h1 x1) out1 r).
      { intros k r Ek (cs & -> & D1 & D2 & D3 & D4). exists (c :: cs). unfold stream in *. cbn [map concat]. rewrite Ek. cbn [spec_decode map length index_ok].
        rewrite ONE, C5, D3, <- app_assoc. rewrite app_length. repeat split; auto; lia. }
      pose proof (rest_cons _ PL) as RC. rewrite <- pos_step in RC by lia.
      assert (PREV : raw (F (pos h1 x1)) -> npx (F (pos h1 x1)) = q_prev (chunk_next st c)) by (intros _; unfold chunk_next; cbn [q_prev]; now rewrite C5).
      destruct x1 as [|[|x2]]; [lia| |].
      - destruct h1 as [|[|h2]]; [lia| |].
        + apply (FIN _ _ RC). change (pos 1 (1 - 1)) with (pos 1 0). rewrite pos_end. exists []. unfold stream. cbn [map concat]. rewrite app_nil_r, rest_end. repeat split; auto; cbn; lia.
        + apply (FIN _ _ RC). rewrite off_step by lia. change (1 - 1)%nat with 0%nat. rewrite pos_row, off_row by lia. replace (S (S h2) - 1)%nat with (S h2) by lia.
          apply IH; auto; try lia. pose proof (pos_row (S (S h2)) ltac:(lia)) as PR. replace (S (S h2) - 1)%nat with (S h2) in PR by lia.
          pose proof (pos_step (S (S h2)) 1 ltac:(lia)) as PS. change (1 - 1)%nat with 0%nat in PS. lia.
      - apply (FIN _ _ RC). rewrite off_step by lia. replace (S (S x2) - 1)%nat with (S x2) by lia. apply IH; auto; try lia.
        pose proof (pos_step h1 (S (S x2)) ltac:(lia)) as PS. replace (S (S x2) - 1)%nat with (S x2) in PS by lia. lia. }
    rewrite rd_at by lia. cbn [bind]. destruct (Z.eqb_spec (F (pos h x)) pixel) as [E|E]; [|apply LIT; auto; lia].
    rewrite off_step by lia.
    destruct (scan_rows_ok pixel h (x - 1) (F (pos h x)) 1 Hr ltac:(lia)) as (x' & h' & o' & p' & n' & k' & -> & En & Hk & Ei & Ecase). cbn [bind].
    pose proof (pos_step h x Hx) as PS. rewrite PS in *.
    assert (Hn' : n' = Z.of_nat (k' - pos h x)) by lia.
    assert (Hk'N : (k' <= w * h0)%nat). { destruct Ecase as [[_ ->]|(X1 & X2 & _ & -> & _)]; [lia|]. pose proof (pos_lt h' x' ltac:(lia) X1). lia. }
    destruct (emit_runs_ok (Z.to_nat n') n') as (ns & -> & Fr & Sm); [lia|]. cbn [bind].
    destruct (runs_spec ns st Fr) as (R1 & R2 & R3).
    assert (RR : rest (pos h x) = repeat pixel (k' - pos h x) ++ rest k').
    { rewrite (rest_run pixel (k' - pos h x) (pos h x)); [f_equal; f_equal; lia|lia|]. intros i Hi. destruct (Nat.eq_dec i (pos h x)) as [->|]; [exact E|apply Ei; lia]. }
    assert (NP : npx pixel = q_prev st) by (apply Hpix; rewrite <- E; apply Hraw, pos_lt; auto).
    assert (WRAP : forall r, encodes (fold_left chunk_next (map CRun ns) st) k' (out ++ stream (map CRun ns)) r -> encodes st (pos h x) out r).
    { intros r (cs & -> & D1 & D2 & D3 & D4). exists (map CRun ns ++ cs). rewrite stream_app, app_assoc, spec_app, R1, D3.
      split; [reflexivity|]. split; [apply Forall_app; split; [now apply runs_ok|exact D1]|]. split; [now apply index_app|]. split.
      - rewrite RR, map_app, map_repeat, NP, Sm, Hn', Nat2Z.id. reflexivity.
      - rewrite RR, !app_length, repeat_length. pose proof (stream_runs_len ns Fr) as SL. nia. }
    destruct Ecase as [[-> ->]|(X1 & X2 & -> & Ek & -> & _)].
    - apply WRAP. exists []. unfold stream at 2. cbn [map concat]. rewrite app_nil_r, rest_end. repeat split; auto; cbn; lia.
    - destruct x' as [|x2]; [lia|]. apply WRAP. rewrite Ek. apply LIT; auto; [lia|now apply inv_runs].
  Qed.

  Lemma encode_data_ok pixel tbl st : (1 <= w)%nat -> inv 0xFF000000 tbl st -> (raw pixel -> npx pixel = q_prev st) ->
    encodes st 0 [] (encode_data norm emit w h0 stride src pixel tbl).
  Proof.
    intros H1 I Hp. unfold encode_data. assert (E : pos h0 w = 0%nat) by (unfold pos; lia). assert (E2 : off h0 w = 0) by (unfold off; lia).
    pose proof (encode_loop_ok (w * h0) h0 w pixel 0xFF000000 tbl st []) as G. rewrite E, E2 in G. apply G; auto; lia.
  Qed.
End Traverse.

(* ---- the three source formats ---- *)
Lemma rest_image w h stride src norm : rest norm w h stride src 0 = map norm (image_px w h stride src).
Proof. unfold rest, image_px, F. rewrite Nat.sub_0_r, map_map. reflexivity. Qed.

Lemma elem_repeat_eq (x y : Z) i : elem_at (repeat x 64) i = Some y -> y = x.
Proof. unfold elem_at. destruct (i <? 0); [discriminate|]. intros E. apply nth_error_In, repeat_spec in E. exact E. Qed.

Lemma argb_nonzero p : px_ok p -> argb p = 0 -> p = zero_px.
Proof.
  intros Hp E. apply argb_inj; [exact Hp|unfold px_ok, is_byte, zero_px; cbn; lia|]. now rewrite E.
Qed.

Lemma init_a8 : inv_a8 0xFF000000 (repeat 0xFFFF 64) q_init.
Proof.
  unfold inv_a8. constructor; [reflexivity| |]; intros q (_ & _ & _ & V) *; [intros E|intros _ E]; apply elem_repeat_eq in E; unfold is_byte in V; lia.
Qed.
Lemma init_x : inv_x 0xFF000000 (repeat 0 64) q_init.
Proof.
  split; [|split; [reflexivity|split; [unfold px_ok, is_byte; cbn; lia|reflexivity]]].
  constructor; [reflexivity| |]; intros q (V & A) *; [intros E|intros _ E]; apply elem_repeat_eq in E; apply argb_nonzero in E; auto; subst q; discriminate A.
Qed.
Lemma init_p : inv_p 0xFF000000 (repeat 0 64) q_init.
Proof.
  split; [|split; [reflexivity|unfold px_ok, is_byte; cbn; lia]].
  constructor; [reflexivity| |].
  - intros q V E. apply elem_repeat_eq in E. apply argb_nonzero in E; [|exact V]. subst q. reflexivity.
  - intros q V H E. apply elem_repeat_eq in E. apply argb_nonzero in E; [|exact V]. subst q. discriminate H.
Qed.

Lemma run_a8 prev tbl st n : inv_a8 prev tbl st -> inv_a8 prev tbl (chunk_next st (CRun n)).
Proof. apply einv_run. Qed.
Lemma run_x prev tbl st n : inv_x prev tbl st -> inv_x prev tbl (chunk_next st (CRun n)).
Proof. intros (A & B & C). split; [now apply einv_run|split; assumption]. Qed.
Lemma run_p prev tbl st n : inv_p prev tbl st -> inv_p prev tbl (chunk_next st (CRun n)).
Proof. intros (A & B & C). split; [now apply einv_run|split; assumption]. Qed.

Lemma split32 v : 0 <= v < 4294967296 -> exists a r g b, is_byte a /\ is_byte r /\ is_byte g /\ is_byte b /\ v = pack32 a r g b /\ 0xFF000000 + v mod 2 ^ 24 = pack32 255 r g b.
Proof.
  intros H. exists (v / 16777216), (v / 65536 mod 256), (v / 256 mod 256), (v mod 256). unfold is_byte, pack32.
  change (2 ^ 24) with 16777216. change (2 ^ 16) with 65536. change (2 ^ 8) with 256. repeat split; lia.
Qed.

Definition norm_of (f : qoi_format) : Z -> Z := match f with FmtXRGB32 => fun p => Z.lor p 0xFF000000 | _ => fun p => p end.
Definition npx_of (f : qoi_format) : Z -> px := match f with FmtA8 => npx_a8 | FmtXRGB32 => fun p => px_of (Z.lor p 0xFF000000) | FmtPRGB32 => npx_prgb end.
Definition src_ok (f : qoi_format) : Z -> Prop := match f with FmtA8 => is_byte | FmtXRGB32 => fun v => 0 <= v < 2 ^ 32 | FmtPRGB32 => premul32 end.

Definition src_any (f : qoi_format) : Z -> Prop := match f with FmtA8 => is_byte | _ => fun v => 0 <= v < 2 ^ 32 end.
Lemma src_ok_any f v : src_ok f v -> src_any f v.
Proof.
  destruct f; cbn; auto. intros (a & r & g & b & Ha & Hr & Hg & Hb & ->). unfold pack32, is_byte in *. change (2 ^ 24) with 16777216. change (2 ^ 16) with 65536. change (2 ^ 8) with 256. lia.
Qed.

Lemma encode_ok f (w h : nat) stride src : (1 <= w)%nat -> (1 <= h)%nat -> Z.of_nat w <= Z.abs stride -> Forall (src_any f) (image_px w h stride src) ->
  exists cs, encodeQoiData f w h stride src = Ok (stream cs) /\ Forall chunk_ok cs /\ index_ok q_init cs /\
    spec_decode q_init cs = map (npx_of f) (image_px w h stride src) /\ Z.of_nat (length (stream cs)) <= (channels_of f + 1) * (Z.of_nat w * Z.of_nat h).
Proof.
  intros Hw Hh Hs Hsrc.
  assert (SRC : forall k, (k < w * h)%nat -> src_any f (src (pix_off (Z.of_nat w) stride (Z.of_nat k)))).
  { intros k Hk. rewrite Forall_forall in Hsrc. apply Hsrc. unfold image_px. apply in_map_iff. exists k. split; [reflexivity|]. apply in_seq. lia. }
  assert (LEN : length (image_px w h stride src) = (w * h)%nat) by (unfold image_px; rewrite map_length, seq_length; reflexivity).
  destruct f; cbn [encodeQoiData src_any npx_of channels_of] in *.
  - edestruct (encode_data_ok (fun p => p) emit_a8 w h stride src ltac:(lia) ltac:(lia) inv_a8 raw_a8 npx_a8 5 emits_a8 ltac:(lia) run_a8) as (cs & E & A & B & C & D);
      [intros k Hk; apply SRC, Hk|exact Hw|exact init_a8| |exists cs].
    { unfold raw_a8, is_byte. intros R. exfalso. revert R. instantiate (1 := 0xFFFFFFFF). lia. }
    rewrite rest_image, map_id in *. rewrite LEN in D. repeat split; auto; lia.
  - edestruct (encode_data_ok (fun p => Z.lor p 0xFF000000) emit_xrgb w h stride src ltac:(lia) ltac:(lia) inv_x raw_x px_of 4 emits_x ltac:(lia) run_x) as (cs & E & A & B & C & D);
      [|exact Hw|exact init_x| |exists cs].
    { intros k Hk. unfold F. destruct (split32 _ (SRC k Hk)) as (a & r & g & b & Ha & Hr & Hg & Hb & -> & _). rewrite lor_opaque by assumption. exists r, g, b. auto. }
    { intros _. instantiate (1 := 0xFF000000). reflexivity. }
    rewrite rest_image in *. rewrite map_length, LEN in D. rewrite map_map in C. repeat split; auto; lia.
  - edestruct (encode_data_ok (fun p => p) emit_prgb w h stride src ltac:(lia) ltac:(lia) inv_p raw_p npx_prgb 5 emits_p ltac:(lia) run_p) as (cs & E & A & B & C & D);
      [intros k Hk; apply SRC, Hk|exact Hw|exact init_p| |exists cs].
    { intros _. instantiate (1 := 0xFF000000). reflexivity. }
    rewrite rest_image, map_id in *. rewrite LEN in D. repeat split; auto; lia.
Qed.

Lemma header_ok v : 0 <= v < 4294967296 -> be32_bytes v = be4 v.
Proof. intros H. unfold be32_bytes, be4, w8. rewrite !Z.shiftr_div_pow2 by lia. reflexivity. Qed.

Lemma write_frame_ok f (w h : nat) stride src : (1 <= w)%nat -> (1 <= h)%nat -> Z.of_nat w <= 65535 -> Z.of_nat h <= 65535 -> Z.of_nat w <= Z.abs stride -> Forall (src_any f) (image_px w h stride src) ->
  exists cs, write_frame f w h stride src = Ok (qoi_header (Z.of_nat w) (Z.of_nat h) (channels_of f) 0 ++ stream cs ++ qoi_end_marker) /\ Forall chunk_ok cs /\ index_ok q_init cs /\
    spec_decode q_init cs = map (npx_of f) (image_px w h stride src) /\
    Z.of_nat (length (qoi_header (Z.of_nat w) (Z.of_nat h) (channels_of f) 0 ++ stream cs ++ qoi_end_marker)) <= 14 + Z.of_nat w * Z.of_nat h * (channels_of f + 1) + 8.
Proof.
  intros Hw Hh Hw2 Hh2 Hs Hsrc. destruct (encode_ok f w h stride src Hw Hh Hs Hsrc) as (cs & E & A & B & C & D). exists cs.
  assert (CH : channels_of f = 3 \/ channels_of f = 4) by (destruct f; auto).
  assert (L : Z.of_nat (length (qoi_header (Z.of_nat w) (Z.of_nat h) (channels_of f) 0 ++ stream cs ++ qoi_end_marker)) = 14 + Z.of_nat (length (stream cs)) + 8).
  { rewrite !app_length. change (length (qoi_header _ _ _ _)) with 14%nat. change (length qoi_end_marker) with 8%nat. lia. }
  assert (P : 1 <= Z.of_nat w * Z.of_nat h <= 4294836225) by nia.
  split; [|repeat split; auto; rewrite L; lia].
  unfold write_frame. destruct (Z.eqb_spec (Z.of_nat w) 0); [lia|]. destruct (Z.eqb_spec (Z.of_nat h) 0); [lia|]. cbn [orb]. rewrite E. cbn [bind].
  rewrite !header_ok by lia.
  change (qoi_magic ++ be4 (Z.of_nat w) ++ be4 (Z.of_nat h) ++ [channels_of f; 0]) with (qoi_header (Z.of_nat w) (Z.of_nat h) (channels_of f) 0).
  rewrite L. assert (M : max_size_of f (Z.of_nat w) (Z.of_nat h) = Z.of_nat w * Z.of_nat h * (channels_of f + 1) + 14 + 8).
  { unfold max_size_of, kQoiHeaderSize, kQoiEndMarkerSize, w64. set (wh := Z.of_nat w * Z.of_nat h) in *. clearbody wh. destruct CH as [-> | ->]; rewrite !Z.mod_small; try lia; rewrite ?Z.mod_small; lia. }
  rewrite M. destruct (Z.ltb_spec (Z.of_nat w * Z.of_nat h * (channels_of f + 1) + 14 + 8) (14 + Z.of_nat (length (stream cs)) + 8)); [lia|reflexivity].
Qed.

Definition expected (f : qoi_format) (v : Z) : Z :=
  match f with FmtA8 => pack32 v v v v | FmtXRGB32 => 0xFF000000 + v mod 2 ^ 24 | FmtPRGB32 => v end.

Lemma expected_ok f v : src_ok f v -> pix32 (channels_of f =? 4) (npx_of f v) = expected f v.
Proof.
  destruct f; cbn [src_ok npx_of expected channels_of].
  - intros H. change (4 =? 4) with true. unfold pix32, npx_a8. cbn [pr pg pb pa]. unfold is_byte, round_div in *. assert (E : (2 * (255 * v) + 255) / (2 * 255) = v) by lia. rewrite E || idtac. reflexivity.
  - intros H. change (3 =? 4) with false. destruct (split32 v H) as (a & r & g & b & Ha & Hr & Hg & Hb & -> & ->). rewrite lor_opaque by assumption. unfold pix32.
    assert (O : px_ok (Px r g b 255)) by (unfold px_ok, is_byte in *; cbn; lia). destruct (rgba_argb _ O) as (E1 & E2 & E3 & _). unfold argb in *. cbn [pr pg pb pa] in *.
    unfold px_of. cbn [pr pg pb pa]. now rewrite E1, E2, E3.
  - intros H. change (4 =? 4) with true. now apply raw_p_px.
Qed.

Lemma round_trip f (w h : nat) stride src stride_of : (1 <= w)%nat -> (1 <= h)%nat -> Z.of_nat w <= 65535 -> Z.of_nat h <= 65535 -> Z.of_nat w <= Z.abs stride ->
  Z.of_nat w <= Z.abs (stride_of (Z.of_nat w)) -> Forall (src_ok f) (image_px w h stride src) ->
  exists file, write_frame f w h stride src = Ok file /\
    qoi_decode stride_of file = Ok ({| i_w := Z.of_nat w; i_h := Z.of_nat h; i_depth := channels_of f * 8 |},
      stores (Z.of_nat w) (stride_of (Z.of_nat w)) 0 (map (expected f) (image_px w h stride src))).
Proof.
  intros Hw Hh Hw2 Hh2 Hs Hs2 Hsrc. destruct (write_frame_ok f w h stride src Hw Hh Hw2 Hh2 Hs (Forall_impl _ (src_ok_any f) Hsrc)) as (cs & E & A & B & C & _).
  eexists. split; [exact E|].
  assert (LEN : length (image_px w h stride src) = (w * h)%nat) by (unfold image_px; rewrite map_length, seq_length; reflexivity).
  unfold stream. rewrite qoi_decode_spec; try assumption; try lia.
  - rewrite C. rewrite firstn_all2 by (rewrite map_length, LEN; lia). rewrite map_map. do 3 f_equal. apply map_ext_in. intros v Hv. rewrite Forall_forall in Hsrc. now apply expected_ok, Hsrc.
  - destruct f; cbn; auto.
  - rewrite C, map_length, LEN. lia.
  - cbn. lia.
  - unfold bytes, qoi_end_marker. repeat constructor; unfold is_byte; lia.
Qed.
