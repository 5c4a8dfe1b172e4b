(* Proofs about the chunks before the pixel data: the palette. *)
From Verif Require Import Base Bits IntOps_Model Algorithm_Model Algorithm_Proofs Png_Model Png_Spec Png_Proofs PngChunk_Model PngChunk_Spec PngChunk_Proofs.
From Coq Require Import ZifyBool.

Definition entry (l : list (option Z)) (i : Z) : option Z := nth (Z.to_nat i) l None.
Notation plen l := (Z.of_nat (length l)).

Lemma wr_pal_ok l i v : length l = 256%nat -> 0 <= i < 256 -> exists l', wr_pal l i v = Ok l' /\ length l' = 256%nat /\
  forall j, 0 <= j -> entry l' j = if j =? i then v else entry l j.
Proof.
  intros L Hi. unfold wr_pal. replace ((0 <=? i) && (i <? 256)) with true by lia. eexists. split; [reflexivity|].
  split; [rewrite upd_length; exact L|]. intros j Hj. unfold entry.
  destruct (nth_error (upd l (Z.to_nat i) v) (Z.to_nat j)) eqn:E.
  - rewrite (nth_error_nth _ _ _ E). rewrite nth_upd in E. destruct (Z.eqb_spec j i) as [->|N].
    + rewrite Nat.eqb_refl in E. destruct (nth_error l (Z.to_nat i)); congruence.
    + replace (Nat.eqb (Z.to_nat i) (Z.to_nat j)) with false in E by (symmetry; apply Nat.eqb_neq; lia). symmetry. exact (nth_error_nth _ _ _ E).
  - apply nth_error_None in E. rewrite upd_length in E. rewrite !nth_overflow by (rewrite ?upd_length; lia). replace (j =? i) with false by lia. reflexivity.
Qed.

Lemma plte_loop_ok f : forall n p i l, bytes f -> length l = 256%nat -> 0 <= p -> p + 3 * Z.of_nat n <= len f -> 0 <= i -> i + Z.of_nat n <= 256 ->
  exists l', plte_loop f p i n l = Ok l' /\ length l' = 256%nat /\
  forall j, 0 <= j -> entry l' j = if (i <=? j) && (j <? i + Z.of_nat n)
    then Some (argb 255 (get f (p + 3 * (j - i))) (get f (p + 3 * (j - i) + 1)) (get f (p + 3 * (j - i) + 2))) else entry l j.
Proof.
  induction n as [|n IH]; intros p i l B L Hp Hl Hi Hn; cbn [plte_loop].
  { exists l. split; [reflexivity|]. split; [exact L|]. intros j Hj. replace ((i <=? j) && _) with false by lia. reflexivity. }
  rewrite !rd_get by lia. cbn [bind].
  destruct (wr_pal_ok l i (Some (rgba32 (get f p) (get f (p + 1)) (get f (p + 2)) 255)) L ltac:(lia)) as (l1 & -> & L1 & E1). cbn [bind].
  destruct (IH (p + 3) (i + 1) l1) as (l2 & -> & L2 & E2); try assumption; try lia. exists l2. split; [reflexivity|]. split; [exact L2|].
  intros j Hj. rewrite E2, E1 by assumption. destruct (Z.eqb_spec j i) as [->|N].
  - replace ((i + 1 <=? i) && _) with false by lia. replace ((i <=? i) && _) with true by lia. replace (p + 3 * (i - i)) with p by lia. f_equal. unfold rgba32, argb. lia.
  - replace ((i <=? j) && (j <? i + Z.of_nat (S n))) with ((i + 1 <=? j) && (j <? i + 1 + Z.of_nat n)) by lia.
    replace (p + 3 + 3 * (j - (i + 1))) with (p + 3 * (j - i)) by lia. reflexivity.
Qed.

Lemma black_loop_ok : forall n i l, length l = 256%nat -> 0 <= i -> i + Z.of_nat n <= 256 ->
  exists l', black_loop i n l = Ok l' /\ length l' = 256%nat /\
  forall j, 0 <= j -> entry l' j = if (i <=? j) && (j <? i + Z.of_nat n) then Some (argb 255 0 0 0) else entry l j.
Proof.
  induction n as [|n IH]; intros i l L Hi Hn; cbn [black_loop].
  { exists l. split; [reflexivity|]. split; [exact L|]. intros j Hj. replace ((i <=? j) && _) with false by lia. reflexivity. }
  destruct (wr_pal_ok l i (Some (rgba32 0 0 0 255)) L ltac:(lia)) as (l1 & -> & L1 & E1). cbn [bind].
  destruct (IH (i + 1) l1) as (l2 & -> & L2 & E2); try assumption; try lia. exists l2. split; [reflexivity|]. split; [exact L2|].
  intros j Hj. rewrite E2, E1 by assumption. destruct (Z.eqb_spec j i) as [->|N].
  - replace ((i + 1 <=? i) && _) with false by lia. replace ((i <=? i) && _) with true by lia. reflexivity.
  - replace ((i <=? j) && (j <? i + Z.of_nat (S n))) with ((i + 1 <=? j) && (j <? i + 1 + Z.of_nat n)) by lia. reflexivity.
Qed.

Lemma trns_loop_ok f : forall n p i l, length l = 256%nat -> 0 <= p -> p + i + Z.of_nat n <= len f -> 0 <= i -> i + Z.of_nat n <= 256 ->
  exists l', trns_loop f p i n l = Ok l' /\ length l' = 256%nat /\
  forall j, 0 <= j -> entry l' j = if (i <=? j) && (j <? i + Z.of_nat n)
    then option_map (fun v => set_alpha v (get f (p + j))) (entry l j) else entry l j.
Proof.
  induction n as [|n IH]; intros p i l L Hp Hl Hi Hn; cbn [trns_loop].
  { exists l. split; [reflexivity|]. split; [exact L|]. intros j Hj. replace ((i <=? j) && _) with false by lia. reflexivity. }
  rewrite !rd_get by lia. cbn [bind]. fold (entry l i).
  destruct (wr_pal_ok l i (option_map (fun v => set_alpha v (get f (p + i))) (entry l i)) L ltac:(lia)) as (l1 & -> & L1 & E1). cbn [bind].
  destruct (IH p (i + 1) l1) as (l2 & -> & L2 & E2); try assumption; try lia. exists l2. split; [reflexivity|]. split; [exact L2|].
  intros j Hj. rewrite E2, E1 by assumption. destruct (Z.eqb_spec j i) as [->|N].
  - replace ((i + 1 <=? i) && _) with false by lia. replace ((i <=? i) && _) with true by lia. reflexivity.
  - replace ((i <=? j) && (j <? i + Z.of_nat (S n))) with ((i + 1 <=? j) && (j <? i + 1 + Z.of_nat n)) by lia. reflexivity.
Qed.

Lemma set_alpha_argb a r g b x : 0 <= r < 256 -> 0 <= g < 256 -> 0 <= b < 256 -> set_alpha (argb a r g b) x = argb x r g b.
Proof.
  intros. unfold set_alpha, argb. change 16777215 with (Z.ones 24). rewrite Z.land_ones by lia. change (2 ^ 24) with 16777216. lia.
Qed.

(* Everything but the palette. *)
Definition core (d : dec) := (last d, frame d, buf d, (f_cgbi d, f_actl d, f_fctl d), (iw d, ih d, prog d, frames d), (ctype d, sdepth d, scount d), (prev d, ctrl d, first d, saved d)).

Definition found (o : option Z) : bool := match o with Some _ => true | None => false end.

(* The state after the chunks at ps, started with palette l0. *)
Definition pal_state (f : list Z) (l0 : list (option Z)) (ps : list Z) (d : dec) : Prop :=
  length (pal d) = 256%nat /\ 0 <= palsize d <= 256 /\
  f_plte d = found (find_chunk f type_PLTE ps) /\ f_trns d = found (find_chunk f type_tRNS ps) /\
  (forall pl, find_chunk f type_PLTE ps = Some pl -> palsize d = chunk_len f pl / 3) /\
  (ctype d = 3 -> forall i, 0 <= i < 256 -> entry (pal d) i =
     match find_chunk f type_PLTE ps with Some pl => Some (indexed_colour f pl (find_chunk f type_tRNS ps) i) | None => entry l0 i end) /\
  (ctype d = 0 -> f_key d = f_trns d /\ forall t, find_chunk f type_tRNS ps = Some t -> key d = be16 f (t + 8)).

Lemma find_chunk_app f ty a b : find_chunk f ty (a ++ b) = match find_chunk f ty a with Some x => Some x | None => find_chunk f ty b end.
Proof. unfold find_chunk. induction a as [|x a IH]; cbn; [reflexivity|]. destruct (chunk_type f x =? ty); [reflexivity|exact IH]. Qed.
Lemma find_chunk_one f ty p : find_chunk f ty [p] = if chunk_type f p =? ty then Some p else None.
Proof. reflexivity. Qed.
Lemma find_chunk_in f ty ps x : find_chunk f ty ps = Some x -> In x ps /\ chunk_type f x = ty.
Proof. intros H. apply find_some in H. destruct H. split; [assumption|lia]. Qed.

Lemma important_ok f l0 : bytes f -> len f <= 4294967296 -> forall fuel p ps0 d, 0 < p <= len f -> len f - p < Z.of_nat fuel ->
  pal_state f l0 ps0 d -> exists d' err q, important_loop fuel f (len f) p d = Ok (d', err, q) /\ core d' = core d /\ p <= q <= len f /\
    length (pal d') = 256%nat /\ (err = BL_SUCCESS -> exists ps, prefix f p ps q /\ pal_state f l0 (ps0 ++ ps) d').
Proof.
  intros B L32. induction fuel as [|fuel IH]; intros p ps0 d Hp Hf PS; [lia|]. cbn [important_loop].
  assert (BAD : forall e, e <> BL_SUCCESS -> exists d' err q, Ok (d, e, p) = Ok (d', err, q) /\ core d' = core d /\ p <= q <= len f /\
    length (pal d') = 256%nat /\ (err = BL_SUCCESS -> exists ps, prefix f p ps q /\ pal_state f l0 (ps0 ++ ps) d')).
  { intros e E. exists d, e, p. split; [reflexivity|]. split; [reflexivity|]. split; [lia|]. split; [apply PS|]. intros ->. contradiction. }
  rewrite has_chunk_ok by lia. destruct (Z.leb_spec (p + 12) (len f)) as [H|H]; cbn [negb]; [|apply BAD; discriminate].
  unfold read_chunk_tag, read_chunk_size. rewrite !rd32_ok by lia. cbn [bind].
  pose proof (be32_range f p B) as R. rewrite has_chunk_size_ok by lia. destruct (Z.leb_spec (p + 12 + be32 f p) (len f)) as [H1|H1]; cbn [negb]; [|apply BAD; discriminate].
  fold (chunk_type f p). change PLTE with type_PLTE. change tRNS with type_tRNS. change IHDR with type_IHDR. change IDAT with type_IDAT. change IEND with type_IEND. change fcTL with type_fcTL.
  assert (CA : chunk_at f p) by (unfold chunk_at; fold (len f); lia).
  assert (NEXT : forall d1, core d1 = core d -> ~ stop_chunk f p -> pal_state f l0 (ps0 ++ [p]) d1 ->
     exists d' err q, important_loop fuel f (len f) (p + 12 + be32 f p) d1 = Ok (d', err, q) /\ core d' = core d /\ p <= q <= len f /\
     length (pal d') = 256%nat /\ (err = BL_SUCCESS -> exists ps, prefix f p ps q /\ pal_state f l0 (ps0 ++ ps) d')).
  { intros d1 C1 NS P1. destruct (IH (p + 12 + be32 f p) (ps0 ++ [p]) d1) as (d' & err & q & E & C & Q & LP & K); [lia|lia|exact P1|].
    exists d', err, q. split; [exact E|]. split; [congruence|]. split; [lia|]. split; [exact LP|]. intros E0. destruct (K E0) as (ps & (CH & ST & PF) & P').
    exists (p :: ps). split.
    - split; [constructor; assumption|]. split; [|exact PF]. intros x [<-|X]; [exact NS|exact (ST x X)].
    - rewrite <- app_assoc in P'. exact P'. }
  destruct PS as (LP & PZ & FP & FT & SZ & IX & GR).
  assert (NSTOP : forall ty, chunk_type f p = ty -> ty <> type_IHDR -> ty <> type_IDAT -> ty <> type_IEND -> ty <> type_fcTL -> ~ stop_chunk f p) by (unfold stop_chunk; intros; lia).
  destruct (Z.eqb_spec (chunk_type f p) type_PLTE) as [TP|TP].
  - destruct (f_plte d || f_trns d) eqn:FL; [apply BAD; discriminate|].
    destruct (_ || _) eqn:SZE in |- *; [apply BAD; discriminate|]. unfold kPngChunkHeaderSize.
    assert (NP : find_chunk f type_PLTE ps0 = None) by (destruct (find_chunk f type_PLTE ps0); [cbn in FP; lia|reflexivity]).
    assert (NT : find_chunk f type_tRNS ps0 = None) by (destruct (find_chunk f type_tRNS ps0); [cbn in FT; lia|reflexivity]).
    set (d1 := set_palsize _ _). assert (E1 : pal d1 = pal d) by (subst d1; destruct d; reflexivity). rewrite E1.
    set (n := be32 f p / 3) in *. assert (N : be32 f p = 3 * n /\ 0 < n <= 256) by (subst n; lia).
    destruct (plte_loop_ok f (Z.to_nat n) (p + 8) 0 (pal d) B LP) as (l1 & -> & L1 & G1); try lia. cbn [bind].
    destruct (black_loop_ok (Z.to_nat (256 - n)) n l1 L1) as (l2 & -> & L2 & G2); try lia. cbn [bind].
    replace (p + 8 + 3 * n + 4) with (p + 12 + be32 f p) by lia. apply NEXT.
    + subst d1. destruct d; reflexivity.
    + apply (NSTOP _ TP); discriminate.
    + unfold pal_state. rewrite !find_chunk_app, NP, NT, !find_chunk_one, TP, Z.eqb_refl. change (type_PLTE =? type_tRNS) with false. cbv iota.
      assert (F : pal (set_pal d1 l2) = l2 /\ palsize (set_pal d1 l2) = n /\ f_plte (set_pal d1 l2) = true /\ f_trns (set_pal d1 l2) = f_trns d /\
                  f_key (set_pal d1 l2) = f_key d /\ ctype (set_pal d1 l2) = ctype d) by (subst d1; destruct d; repeat split; reflexivity).
      destruct F as (-> & -> & -> & -> & -> & ->). split; [exact L2|]. split; [lia|]. split; [reflexivity|]. split; [cbn in *; lia|].
      split; [intros pl [= <-]; reflexivity|]. split.
      * intros CT i Hi. rewrite G2, G1 by lia. unfold indexed_colour, chunk_len. fold n.
        destruct (Z.ltb_spec i n) as [I|I].
        -- replace ((n <=? i) && _) with false by lia. replace ((0 <=? i) && _) with true by lia. rewrite Z.sub_0_r. reflexivity.
        -- replace ((n <=? i) && _) with true by lia. reflexivity.
      * intros CT. destruct (GR CT) as (GK & _). split; [exact GK|]. intros t [=].
  - destruct (Z.eqb_spec (chunk_type f p) type_tRNS) as [TT|TT].
    + destruct (f_trns d) eqn:FT'; [apply BAD; discriminate|].
      assert (NT : find_chunk f type_tRNS ps0 = None) by (destruct (find_chunk f type_tRNS ps0); [cbn in FT; discriminate|reflexivity]).
      destruct (_ || _) eqn:C46 in |- *; [apply BAD; discriminate|].
      assert (NS : ~ stop_chunk f p) by (apply (NSTOP _ TT); discriminate).
      unfold kPngChunkHeaderSize, kPngChunkBaseSize.
      destruct (Z.eqb_spec (ctype d) 0) as [C0|C0].
      { destruct (Z.eqb_spec (be32 f p) 2) as [S2|S2]; cbn [negb]; [|apply BAD; discriminate]. rewrite rd16_ok by lia. cbn [bind].
        replace (p + (12 + 2)) with (p + 12 + be32 f p) by lia. apply NEXT; [destruct d; reflexivity|exact NS|].
        set (d1 := set_trns _ _). unfold pal_state. rewrite !find_chunk_app, NT, !find_chunk_one, TT, Z.eqb_refl. change (type_tRNS =? type_PLTE) with false. cbv iota.
        replace (match find_chunk f type_PLTE ps0 with Some x => Some x | None => None end) with (find_chunk f type_PLTE ps0) by (destruct (find_chunk f type_PLTE ps0); reflexivity).
        assert (F : pal d1 = pal d /\ palsize d1 = palsize d /\ f_plte d1 = f_plte d /\ f_trns d1 = true /\ f_key d1 = true /\ ctype d1 = ctype d /\ key d1 = be16 f (p + 8)) by (subst d1; destruct d; repeat split; reflexivity).
        destruct F as (-> & -> & -> & -> & -> & -> & ->). split; [exact LP|]. split; [exact PZ|]. split; [exact FP|]. split; [reflexivity|]. split; [exact SZ|].
        split; [intros; lia|]. intros _. split; [reflexivity|]. intros t [= <-]. reflexivity. }
      destruct (Z.eqb_spec (ctype d) 2) as [C2|C2].
      { destruct (Z.eqb_spec (be32 f p) 6) as [S2|S2]; cbn [negb]; [|apply BAD; discriminate]. rewrite !rd16_ok by lia. cbn [bind].
        replace (p + (12 + 6)) with (p + 12 + be32 f p) by lia. apply NEXT; [destruct d; reflexivity|exact NS|].
        set (d1 := set_trns _ _). unfold pal_state. rewrite !find_chunk_app, NT, !find_chunk_one, TT, Z.eqb_refl. change (type_tRNS =? type_PLTE) with false. cbv iota.
        replace (match find_chunk f type_PLTE ps0 with Some x => Some x | None => None end) with (find_chunk f type_PLTE ps0) by (destruct (find_chunk f type_PLTE ps0); reflexivity).
        assert (F : pal d1 = pal d /\ palsize d1 = palsize d /\ f_plte d1 = f_plte d /\ f_trns d1 = true /\ ctype d1 = ctype d) by (subst d1; destruct d; repeat split; reflexivity).
        destruct F as (-> & -> & -> & -> & ->). split; [exact LP|]. split; [exact PZ|]. split; [exact FP|]. split; [reflexivity|]. split; [exact SZ|].
        split; intros; lia. }
      destruct (_ || _) eqn:S3 in |- *; [apply BAD; discriminate|].
      destruct (trns_loop_ok f (Z.to_nat (be32 f p)) (p + 8) 0 (pal d) LP) as (l1 & -> & L1 & G1); try lia. cbn [bind].
      assert (HP : exists pl, find_chunk f type_PLTE ps0 = Some pl) by (destruct (find_chunk f type_PLTE ps0); [eauto|cbn in FP; lia]). destruct HP as (pl & HP).
      unfold w32. rewrite Z.mod_small by lia. replace (p + 8 + (be32 f p + 4)) with (p + 12 + be32 f p) by lia. apply NEXT; [destruct d; reflexivity|exact NS|].
      set (d1 := set_trns _ _). unfold pal_state. rewrite !find_chunk_app, NT, HP, !find_chunk_one, TT, Z.eqb_refl. cbv iota.
      assert (F : pal d1 = l1 /\ palsize d1 = palsize d /\ f_plte d1 = f_plte d /\ f_trns d1 = true /\ ctype d1 = ctype d) by (subst d1; destruct d; repeat split; reflexivity).
      destruct F as (-> & -> & -> & -> & ->). split; [exact L1|]. split; [exact PZ|]. split; [rewrite FP, HP; reflexivity|]. split; [reflexivity|].
      split; [intros pl' [= <-]; exact (SZ pl HP)|]. split; [|intros; lia].
      intros CT i Hi. rewrite G1 by lia. rewrite (IX CT i Hi), HP, NT. specialize (SZ pl HP). unfold indexed_colour. fold (chunk_len f p) in *.
      destruct (Z.ltb_spec i (chunk_len f pl / 3)) as [I|I].
      * destruct (Z.ltb_spec i (chunk_len f p)) as [J|J].
        -- replace ((0 <=? i) && _) with true by lia. cbn [option_map]. rewrite set_alpha_argb by (apply byte_range; exact B). reflexivity.
        -- replace ((0 <=? i) && _) with false by lia. reflexivity.
      * replace ((0 <=? i) && _) with false by lia. reflexivity.
    + destruct (_ || _) eqn:ST in |- *.
      * exists d, BL_SUCCESS, p. split; [reflexivity|]. split; [reflexivity|]. split; [lia|]. split; [exact LP|]. intros _. exists []. split.
        -- split; [constructor|]. split; [intros x []|]. split; [exact CA|]. unfold stop_chunk. lia.
        -- rewrite app_nil_r. unfold pal_state. tauto.
      * unfold kPngChunkBaseSize, w32. rewrite Z.mod_small by lia. replace (p + (12 + be32 f p)) with (p + 12 + be32 f p) by lia. apply NEXT; [reflexivity|unfold stop_chunk; lia|].
        unfold pal_state. rewrite !find_chunk_app, !find_chunk_one. replace (chunk_type f p =? type_PLTE) with false by lia. replace (chunk_type f p =? type_tRNS) with false by lia.
        replace (match find_chunk f type_PLTE ps0 with Some x => Some x | None => None end) with (find_chunk f type_PLTE ps0) by (destruct (find_chunk f type_PLTE ps0); reflexivity).
        replace (match find_chunk f type_tRNS ps0 with Some x => Some x | None => None end) with (find_chunk f type_tRNS ps0) by (destruct (find_chunk f type_tRNS ps0); reflexivity).
        tauto.
Qed.

(* ------------------------------------------------------------------ greyscale *)

Lemma gray_loop_ok scale : forall n i l, 0 <= scale -> length l = 256%nat -> 0 <= i -> i + Z.of_nat n <= 256 -> (i + Z.of_nat n - 1) * scale <= 255 ->
  exists l', gray_loop (argb 255 (i * scale) (i * scale) (i * scale)) (scale * 65793) i n l = Ok l' /\ length l' = 256%nat /\
  forall j, 0 <= j -> entry l' j = if (i <=? j) && (j <? i + Z.of_nat n) then Some (argb 255 (j * scale) (j * scale) (j * scale)) else entry l j.
Proof.
  induction n as [|n IH]; intros i l Hs L Hi Hn Hb; cbn [gray_loop].
  { exists l. split; [reflexivity|]. split; [exact L|]. intros j Hj. replace ((i <=? j) && _) with false by lia. reflexivity. }
  destruct (wr_pal_ok l i (Some (argb 255 (i * scale) (i * scale) (i * scale))) L ltac:(lia)) as (l1 & -> & L1 & E1). cbn [bind].
  destruct n as [|n].
  { cbn [gray_loop]. exists l1. split; [reflexivity|]. split; [exact L1|]. intros j Hj. rewrite E1 by assumption.
    destruct (Z.eqb_spec j i) as [->|N]; [replace ((i <=? i) && _) with true by lia; reflexivity|replace ((i <=? j) && _) with false by lia; reflexivity]. }
  replace (w32 (argb 255 (i * scale) (i * scale) (i * scale) + scale * 65793)) with (argb 255 ((i + 1) * scale) ((i + 1) * scale) ((i + 1) * scale)).
  2:{ unfold w32, argb. rewrite Z.mod_small; [lia|]. assert (0 <= i * scale) by nia. assert ((i + 1) * scale <= 255) by nia. lia. }
  destruct (IH (i + 1) l1) as (l2 & -> & L2 & E2); try assumption; try lia; try nia. exists l2. split; [reflexivity|]. split; [exact L2|].
  intros j Hj. rewrite E2, E1 by assumption. destruct (Z.eqb_spec j i) as [->|N].
  - replace ((i + 1 <=? i) && _) with false by lia. replace ((i <=? i) && _) with true by lia. reflexivity.
  - replace ((i <=? j) && (j <? i + Z.of_nat (S (S n)))) with ((i + 1 <=? j) && (j <? i + 1 + Z.of_nat (S n))) by lia. reflexivity.
Qed.

Lemma grayscale_ok depth l : length l = 256%nat -> depth = 1 \/ depth = 2 \/ depth = 4 \/ depth = 8 ->
  exists l', create_grayscale_palette depth l = Ok l' /\ length l' = 256%nat /\
  forall i, 0 <= i < 2 ^ depth -> entry l' i = Some (let v := i * 255 / (2 ^ depth - 1) in argb 255 v v v).
Proof.
  intros L D. unfold create_grayscale_palette.
  assert (E : exists s, 0 <= s /\ s * (2 ^ depth - 1) = 255 /\ w32 (nth (Z.to_nat depth) [0; 0xFF; 0x55; 0; 0x11; 0; 0; 0; 0x01] 0 * 0x00010101) = s * 65793 /\ w32 (Z.shiftl 1 depth) = 2 ^ depth /\ 2 <= 2 ^ depth <= 256).
  { destruct D as [->|[->|[->| ->]]]; [exists 255|exists 85|exists 17|exists 1]; repeat split; vm_compute; congruence. }
  destruct E as (s & S0 & S1 & -> & -> & S2).
  destruct (gray_loop_ok s (Z.to_nat (2 ^ depth)) 0 l S0 L) as (l' & E & L' & G); try lia.
  change (argb 255 (0 * s) (0 * s) (0 * s)) with 4278190080 in E. exists l'. split; [exact E|]. split; [exact L'|].
  intros i Hi. rewrite G by lia. replace ((0 <=? i) && _) with true by lia. cbv zeta.
  replace (i * 255 / (2 ^ depth - 1)) with (i * s); [reflexivity|]. rewrite <- S1. rewrite Z.mul_assoc, Z.div_mul by lia. reflexivity.
Qed.

Theorem important_chunks_ok conv f d : bytes f -> len f <= 4294967296 -> 0 < buf d -> length (pal d) = 256%nat -> palsize d = 0 -> f_plte d = false -> f_trns d = false -> f_key d = false ->
  In (ctype d, sdepth d) header_formats ->
  exists d' err, decoder_read_important_chunks conv f d = Ok (d', err) /\ length (pal d') = 256%nat /\
    (err = BL_SUCCESS -> buf d <= buf d' <= len f /\ core (set_buf d' (buf d)) = core d /\ 0 <= palsize d' <= 256 /\
      exists ps, prefix f (buf d) ps (buf d') /\
      (ctype d = 3 -> forall i, 0 <= i < 256 -> entry (pal d') i =
         match find_chunk f type_PLTE ps with Some pl => Some (indexed_colour f pl (find_chunk f type_tRNS ps) i) | None => entry (pal d) i end) /\
      (ctype d = 0 -> forall i, 0 <= i < 2 ^ sdepth d -> entry (pal d') i = Some (grey_colour f (sdepth d) (find_chunk f type_tRNS ps) i))).
Proof.
  intros B L32 Hb LP PZ FP FT FK FM. unfold decoder_read_important_chunks. fold (len f).
  destruct (Z.ltb_spec (len f) (buf d)) as [X|X]; [exists d, BL_ERROR_INVALID_STATE; split; [reflexivity|]; split; [exact LP|discriminate]|].
  destruct (important_ok f (pal d) B L32 (S (length f)) (buf d) [] d) as (d1 & err & q & E & C & Q & LP1 & K); [lia|unfold len; lia| |].
  { unfold pal_state. cbn. split; [exact LP|]. split; [lia|]. split; [exact FP|]. split; [exact FT|]. split; [discriminate|]. split; [reflexivity|].
    intros _. split; [congruence|discriminate]. }
  rewrite E. cbn [bind]. destruct (Z.eqb_spec err BL_SUCCESS) as [->|NE]; cbn [negb]; [|exists d1, err; split; [reflexivity|]; split; [exact LP1|]; intros ->; contradiction].
  destruct (K eq_refl) as (ps & PF & PS). cbn [app] in PS. clear K E.
  assert (C' : ctype d1 = ctype d /\ sdepth d1 = sdepth d) by (unfold core in C; split; congruence). destruct C' as (C1 & C2). rewrite C1, C2.
  destruct PS as (_ & PZ1 & FP1 & FT1 & SZ1 & IX & GR). rewrite C1 in IX, GR.
  destruct (Z.eqb_spec (ctype d) 0) as [C0|C0].
  - assert (D : sdepth d = 1 \/ sdepth d = 2 \/ sdepth d = 4 \/ sdepth d = 8).
    { clear -FM C0. rewrite C0 in FM. cbn in FM. repeat (destruct FM as [FM|FM]; [injection FM; lia|]). destruct FM. }
    replace (true && (sdepth d <=? 8)) with true by lia.
    destruct (grayscale_ok (sdepth d) (pal d1) LP1 D) as (l1 & -> & L1 & G). cbn [bind].
    assert (SH : w32 (Z.shiftl 1 (sdepth d)) = 2 ^ sdepth d /\ 2 ^ sdepth d <= 256) by (destruct D as [->|[->|[->| ->]]]; split; vm_compute; congruence). destruct SH as (-> & P256).
    destruct (GR C0) as (GK & GT). rewrite GK, FT1.
    assert (exists l2, (if found (find_chunk f type_tRNS ps) && (key d1 <? 2 ^ sdepth d) then wr_pal l1 (key d1) (Some 0) else Ok l1) = Ok l2 /\ length l2 = 256%nat /\
        forall i, 0 <= i < 2 ^ sdepth d -> entry l2 i = Some (grey_colour f (sdepth d) (find_chunk f type_tRNS ps) i)) as (l2 & -> & L2 & G2).
    { unfold grey_colour. destruct (find_chunk f type_tRNS ps) as [t|] eqn:FTR; cbn [found].
      - rewrite (GT t eq_refl). pose proof (be16_range f (t + 8) B) as RK. destruct (Z.ltb_spec (be16 f (t + 8)) (2 ^ sdepth d)) as [K|K]; cbn [andb].
        + destruct (wr_pal_ok l1 (be16 f (t + 8)) (Some 0) L1 ltac:(lia)) as (l2 & -> & L2 & E2). exists l2. split; [reflexivity|]. split; [exact L2|].
          intros i Hi. rewrite E2 by lia. rewrite (Z.eqb_sym i). destruct (be16 f (t + 8) =? i); [reflexivity|]. apply G. exact Hi.
        + exists l1. split; [reflexivity|]. split; [exact L1|]. intros i Hi. replace (be16 f (t + 8) =? i) with false by lia. apply G. exact Hi.
      - exists l1. split; [reflexivity|]. split; [exact L1|]. exact G. }
    cbn [bind]. destruct (Z.eqb_spec conv BL_SUCCESS) as [->|NC]; cbn [negb]; [|eexists _, _; split; [reflexivity|]; split; [destruct d1; exact L2|]; intros ->; contradiction].
    eexists _, _. split; [reflexivity|]. split; [destruct d1; exact L2|]. intros _.
    assert (F : pal (set_buf (set_pal d1 l2) q) = l2 /\ buf (set_buf (set_pal d1 l2) q) = q /\ palsize (set_buf (set_pal d1 l2) q) = palsize d1 /\ core (set_buf (set_buf (set_pal d1 l2) q) (buf d1)) = core d1) by (destruct d1; repeat split; reflexivity).
    destruct F as (-> & -> & -> & F). split; [lia|]. assert (BB : buf d1 = buf d) by (unfold core in C; congruence). rewrite BB in F. split; [congruence|]. split; [lia|].
    exists ps. split; [exact PF|]. split; [intros; lia|]. intros _. exact G2.
  - cbn [andb bind]. destruct (Z.eqb_spec conv BL_SUCCESS) as [->|NC]; cbn [negb]; [|eexists _, _; split; [reflexivity|]; split; [exact LP1|]; intros ->; contradiction].
    eexists _, _. split; [reflexivity|]. split; [destruct d1; exact LP1|]. intros _.
    assert (F : pal (set_buf d1 q) = pal d1 /\ buf (set_buf d1 q) = q /\ palsize (set_buf d1 q) = palsize d1 /\ core (set_buf (set_buf d1 q) (buf d1)) = core d1) by (destruct d1; repeat split; reflexivity).
    destruct F as (-> & -> & -> & F). split; [lia|]. assert (BB : buf d1 = buf d) by (unfold core in C; congruence). rewrite BB in F. split; [congruence|]. split; [lia|].
    exists ps. split; [exact PF|]. split; [exact IX|]. intros; lia.
Qed.
