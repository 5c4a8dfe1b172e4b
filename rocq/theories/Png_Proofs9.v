(* The rows of an interlaced image: the loop over the rows of passes 0 to 5, and pixel conversion. *)
From Verif Require Import Base Bits IntOps_Model Algorithm_Model Algorithm_Proofs Png_Model Png_Spec Png_Proofs Png_Proofs2 Png_Proofs3 Png_Proofs4 Png_Proofs5 Png_Proofs6 Png_Proofs7 Png_Proofs8.
From Coq Require Import ZifyBool.

(* ------------------------------------------------------------------ conversion *)

Lemma rd_list_ok m : forall n p, 0 <= p -> p + Z.of_nat n <= len m ->
  exists l, rd_list m p n = Ok l /\ length l = n /\ forall j, 0 <= j < Z.of_nat n -> get l j = get m (p + j).
Proof.
  induction n as [|n IH]; intros p Hp Hl; cbn [rd_list].
  - exists []. repeat split. intros; lia.
  - rewrite rd_get by lia. cbn [bind]. destruct (IH (p + 1)) as (l & -> & L & G); [lia|lia|]. cbn [bind].
    exists (get m p :: l). split; [reflexivity|]. split; [cbn [length]; lia|]. intros j Hj. destruct (Z.eq_dec j 0) as [->|N].
    + rewrite Z.add_0_r. reflexivity.
    + unfold get at 1. replace (Z.to_nat j) with (S (Z.to_nat (j - 1))) by lia. cbn [nth]. fold (get l (j - 1)). rewrite G by lia. f_equal. lia.
Qed.

Lemma zrange_length n : length (zrange n) = Z.to_nat n.
Proof. unfold zrange. now rewrite map_length, seq_length. Qed.
Lemma zrange_in n i : In i (zrange n) <-> 0 <= i < n.
Proof.
  unfold zrange. rewrite in_map_iff. split.
  - intros (k & <- & Hk). apply in_seq in Hk. lia.
  - intros H. exists (Z.to_nat i). split; [lia|]. apply in_seq. lia.
Qed.
Lemma zrange_cons n : 0 < n -> zrange n = 0 :: map (fun i => i + 1) (zrange (n - 1)).
Proof.
  intros H. unfold zrange. replace (Z.to_nat n) with (S (Z.to_nat (n - 1))) by lia. cbn [seq map]. f_equal.
  rewrite <- seq_shift, !map_map. apply map_ext. intros k. lia.
Qed.
Lemma zrange_add a b : 0 <= a -> 0 <= b -> zrange (a + b) = zrange a ++ map (fun i => a + i) (zrange b).
Proof.
  intros Ha Hb. revert b Hb. apply natlike_ind.
  - rewrite Z.add_0_r. cbn. now rewrite app_nil_r.
  - intros b Hb IH. unfold Z.succ. rewrite Z.add_assoc, !zrange_succ, IH, map_app by lia. cbn [map]. now rewrite app_assoc.
Qed.

Lemma pixel_list depth l m p n w x : 1 <= depth -> 0 <= x < w -> n = (w * depth + 7) / 8 -> (forall j, 0 <= j < n -> get l j = get m (p + j)) ->
  pixel depth l 0 x = pixel depth m p x.
Proof.
  intros Hd Hx -> H. apply pixel_ext. intros j Hj. assert (0 <= x * depth) by nia. assert (x * depth + depth <= w * depth) by nia.
  replace (8 * 0 + x * depth + j) with (8 * 0 + (x * depth + j)) by lia. rewrite <- Z.add_assoc. rewrite !bit_at by lia. rewrite Z.add_0_l. rewrite H by lia. reflexivity.
Qed.

Lemma convert_rect_ok m w depth stride : 1 <= depth -> 1 <= w -> 0 <= stride -> forall n row drow src, 0 <= src ->
  (n <> 0%nat -> src + (Z.of_nat n - 1) * stride + (w * depth + 7) / 8 <= len m) ->
  exists l, convert_rect n row drow src stride w depth m = Ok l /\
    map fst l = map (fun i => row + drow * i) (zrange (Z.of_nat n)) /\
    forall y r, In (y, r) l -> exists i, 0 <= i < Z.of_nat n /\ y = row + drow * i /\ forall x, 0 <= x < w -> pixel depth r 0 x = pixel depth m (src + i * stride) x.
Proof.
  intros Hd Hw Hst. induction n as [|n IH]; intros row drow src Hs Hl; cbn [convert_rect].
  - exists []. split; [reflexivity|]. split; [reflexivity|]. intros y r [].
  - specialize (Hl ltac:(discriminate)).
    assert (W : 0 <= w * depth) by nia. assert (SN : 0 <= Z.of_nat n * stride) by nia.
    destruct (rd_list_ok m (Z.to_nat ((w * depth + 7) / 8)) src) as (l & -> & L & G); [lia|lia|]. cbn [bind].
    destruct (IH (row + drow) drow (src + stride)) as (log & -> & F & E); [lia| |].
    { intros Hn. replace (src + stride + (Z.of_nat n - 1) * stride) with (src + (Z.of_nat (S n) - 1) * stride) by lia. assumption. }
    cbn [bind]. exists ((row, l) :: log). split; [reflexivity|]. split.
    + cbn [map fst]. rewrite F, (zrange_cons (Z.of_nat (S n))) by lia. cbn [map]. rewrite map_map.
      replace (Z.of_nat (S n) - 1) with (Z.of_nat n) by lia. f_equal; [lia|]. apply map_ext. intros i. lia.
    + intros y r [H|H].
      * injection H as <- <-. exists 0. split; [lia|]. split; [lia|]. intros x Hx. rewrite Z.mul_0_l, Z.add_0_r.
        apply (pixel_list depth l m src ((w * depth + 7) / 8) w x Hd Hx eq_refl). intros j Hj. apply G. lia.
      * destruct (E y r H) as (i & Hi & -> & P). exists (i + 1). split; [lia|]. split; [lia|]. intros x Hx. rewrite P by assumption. f_equal. lia.
Qed.

(* ------------------------------------------------------------------ the row loop *)

Definition rb (depth w p : Z) : Z := if pw p w =? 0 then 0 else row_bytes_spec depth (pw p w).
Lemma psize_rb depth w h p : psize depth w h p = ph p h * rb depth w p.
Proof. unfold psize, rb. destruct (pw p w =? 0); cbn [orb]; [lia|]. destruct (Z.eqb_spec (ph p h) 0) as [->|]; lia. Qed.

Lemma row_pass x n w : 0 <= x < w -> n = 0 \/ n = 1 \/ n = 2 \/ n = 3 ->
  let p := adam7 x (2 * n) in 0 <= p < 6 /\ in_row n p = true /\ 0 <= pw p x < pw p w.
Proof.
  intros Hx Hn p. assert (E : p = adam7 x (2 * n)) by reflexivity. rewrite adam7_row in E by lia. clearbody p.
  destruct Hn as [->|[->|[->| ->]]]; cbn [Z.eqb Pos.eqb] in E.
  - destruct (Z.eqb_spec (x mod 8) 0); [|destruct (Z.eqb_spec (x mod 8) 4); [|destruct (Z.eqb_spec (x mod 4) 2)]]; subst p; (split; [lia|]); (split; [reflexivity|]); unfold pw; cbn [Z.eqb Pos.eqb]; lia.
  - destruct (Z.eqb_spec (x mod 2) 0); subst p; (split; [lia|]); (split; [reflexivity|]); unfold pw; cbn [Z.eqb Pos.eqb]; lia.
  - destruct (Z.eqb_spec (x mod 4) 0); [|destruct (Z.eqb_spec (x mod 4) 2)]; subst p; (split; [lia|]); (split; [reflexivity|]); unfold pw; cbn [Z.eqb Pos.eqb]; lia.
  - destruct (Z.eqb_spec (x mod 2) 0); subst p; (split; [lia|]); (split; [reflexivity|]); unfold pw; cbn [Z.eqb Pos.eqb]; lia.
Qed.

Lemma ph_next r p : 0 <= r -> 0 <= p < 6 -> ph p (2 * (r + 1)) = ph p (2 * r) + b2z (in_row (r mod 4) p).
Proof.
  intros Hr Hp. assert (C : p = 0 \/ p = 1 \/ p = 2 \/ p = 3 \/ p = 4 \/ p = 5) by lia.
  assert (M : r mod 4 = 0 \/ r mod 4 = 1 \/ r mod 4 = 2 \/ r mod 4 = 3) by lia.
  destruct C as [->|[->|[->|[->|[->| ->]]]]]; destruct M as [M|[M|[M|M]]]; rewrite M; unfold ph, in_row, b2z; cbn [Z.eqb Pos.eqb orb]; lia.
Qed.
Lemma ph_in_row r p h : 0 <= r -> 0 <= p < 6 -> 2 * r < h -> in_row (r mod 4) p = true -> ph p (2 * r) + 1 <= ph p h.
Proof.
  intros Hr Hp Hh I. assert (C : p = 0 \/ p = 1 \/ p = 2 \/ p = 3 \/ p = 4 \/ p = 5) by lia.
  assert (M : r mod 4 = 0 \/ r mod 4 = 1 \/ r mod 4 = 2 \/ r mod 4 = 3) by lia.
  destruct C as [->|[->|[->|[->|[->| ->]]]]]; destruct M as [M|[M|[M|M]]]; rewrite M in I; unfold ph; cbn in I; try discriminate; cbn [Z.eqb Pos.eqb]; lia.
Qed.

Section Loop.
  Context (m0 : list Z) (depth w h tmp stride : Z).
  Notation S6 := (pass_offset depth w h 6).
  Notation H2 := ((h + 1) / 2).
  Context (Bm : bytes m0) (Hdepth : depth = 1 \/ depth = 2 \/ depth = 4 \/ exists N, 1 <= N <= 8 /\ depth = 8 * N).
  Context (Hw : 1 <= w <= 65535) (Hh : 1 <= h <= 65535).
  Context (Htmp : S6 <= tmp) (Hstride : (w * depth + 7) / 8 <= stride).
  Context (Hend : tmp + Z.min 4 H2 * stride <= len m0).
  Context (Hgood : forall r, 0 <= r < H2 -> good_row depth w (r mod 4)).

  Lemma depth_pos : 1 <= depth <= 64.
  Proof. destruct Hdepth as [->|[->|[->|(N & ? & ->)]]]; lia. Qed.

  Definition entry_ok (y : Z) (r : list Z) : Prop :=
    0 <= y < h /\ forall x, 0 <= x < w -> pixel depth r 0 x = image_pixel true depth w h m0 x y.

  Definition ptr_inv (r : Z) (d : ptrs) : Prop := forall p, 0 <= p < 6 -> dsel p d = pass_offset depth w h p + ph p (2 * r) * rb depth w p.
  Definition mem_inv (m : list Z) : Prop := len m = len m0 /\ bytes m /\ forall j, 0 <= j < S6 -> get m j = get m0 j.
  Definition rows_ok (n row : Z) (m : list Z) : Prop :=
    forall i x, 0 <= i < n -> 0 <= x < w -> pixel depth m (tmp + i * stride) x = image_pixel true depth w h m0 x (row + 2 * i).

  Lemma next_le r d p : 0 <= r -> 2 * r < h -> 0 <= p < 6 -> in_row (r mod 4) p = true -> ptr_inv r d ->
    0 <= dsel p d /\ next_of depth w p d <= S6.
  Proof.
    intros Hr Hrh Hp I PI. pose proof depth_pos as HD. pose proof (ph_in_row r p h Hr Hp Hrh I) as PH. pose proof (ph_nonneg p (2 * r) ltac:(lia)) as PN.
    pose proof (pass_offset_mono depth w h 0 p ltac:(lia) ltac:(lia) ltac:(lia) ltac:(lia) ltac:(lia)) as M0. rewrite pass_offset_0 in M0.
    pose proof (pass_offset_mono depth w h (p + 1) 6 ltac:(lia) ltac:(lia) ltac:(lia) ltac:(lia) ltac:(lia)) as M1.
    rewrite pass_offset_succ, pass_size_eq, psize_rb in M1 by lia.
    pose proof (pw_nonneg p w ltac:(lia)) as WN. pose proof (pw_le p w ltac:(lia)) as WL.
    unfold next_of, base_of. rewrite (PI p Hp). unfold rb in *. destruct (Z.eqb_spec (pw p w) 0) as [E|E].
    - rewrite E. rewrite !Z.mul_0_r in *. cbn [b2z Z.ltb Z.compare]. change ((0 + 7) / 8) with 0. lia.
    - replace (0 <? pw p w) with true by lia. cbn [b2z]. unfold row_bytes_spec in *. rewrite (Z.mul_comm depth).
      set (q := (pw p w * depth + 7) / 8) in *. assert (Q0 : 0 <= q) by (unfold q; apply Z.div_pos; [|lia]; clear - WN HD; nia).
      clearbody q. clear - PH PN M0 M1 Q0. split; nia.
  Qed.

  Lemma image_pixel_row r d x m : 0 <= r -> 2 * r < h -> 0 <= x < w -> ptr_inv r d -> mem_inv m ->
    let p := adam7 x (2 * (r mod 4)) in
    pixel depth m (base_of w p d) (pw p x) = image_pixel true depth w h m0 x (2 * r).
  Proof.
    intros Hr Hrh Hx PI (L & B & O) p. pose proof depth_pos as HD.
    destruct (row_pass x (r mod 4) w Hx ltac:(lia)) as (Hp & I & PW). fold p in Hp, I, PW.
    unfold image_pixel. replace (adam7 x (2 * r)) with p.
    2:{ unfold p, adam7. do 2 f_equal. f_equal. lia. }
    rewrite pass_height_eq, !pass_width_eq by lia.
    destruct (next_le r d p Hr Hrh Hp I PI) as (N0 & N1).
    assert (E : base_of w p d = pass_offset depth w h p + ph p (2 * r) * row_bytes_spec depth (pw p w) + 1).
    { unfold base_of. rewrite (PI p Hp). unfold rb. replace (pw p w =? 0) with false by lia. replace (0 <? pw p w) with true by lia. reflexivity. }
    rewrite <- E. apply pixel_ext. intros j Hj. unfold next_of in N1.
    assert (K : 0 <= pw p x * depth /\ pw p x * depth + depth <= depth * pw p w) by (clear - PW HD; nia).
    rewrite <- Z.add_assoc. rewrite !bit_at by lia. f_equal. apply O. unfold base_of, b2z in *. destruct (0 <? pw p w); lia.
  Qed.

  Lemma deinterlace_loop_ok : forall fuel r d m log, 0 <= r < H2 -> H2 - r <= Z.of_nat fuel ->
    ptr_inv r d -> mem_inv m -> rows_ok (r mod 4) (8 * (r / 4)) m ->
    map fst log = map (fun i => 2 * i) (zrange (4 * (r / 4))) -> (forall y l, In (y, l) log -> entry_ok y l) ->
    exists log', deinterlace_loop fuel depth w (H2 - r) (r mod 4) (8 * (r / 4)) tmp stride d m log = Ok log' /\
      map fst log' = map (fun i => 2 * i) (zrange H2) /\ (forall y l, In (y, l) log' -> entry_ok y l).
  Proof.
    induction fuel as [|fuel IH]; intros r d m log Hr Hf PI MI RO LF LE; [lia|]. cbn [deinterlace_loop].
    pose proof depth_pos as HD. set (n := r mod 4) in *. assert (Hn : n = 0 \/ n = 1 \/ n = 2 \/ n = 3) by (unfold n; lia).
    assert (WD : 0 <= w * depth) by (clear - Hw HD; nia).
    assert (S60 : 0 <= S6). { pose proof (pass_offset_mono depth w h 0 6 ltac:(lia) ltac:(lia) ltac:(lia) ltac:(lia) ltac:(lia)) as M. now rewrite pass_offset_0 in M. }
    assert (NS : 0 <= n * stride /\ n * stride + stride <= Z.min 4 H2 * stride).
    { assert (n + 1 <= Z.min 4 H2) by (unfold n; lia). assert (0 <= stride) by lia. assert (0 <= n) by lia. generalize (Z.min 4 H2) H H0 H1. clear. intros. nia. }
    pose proof MI as (L & B & O).
    set (t := tmp + n * stride) in *.
    assert (PRE : row_pre depth w n t d m).
    { split; [assumption|]. split; [lia|]. split; [|lia]. intros p Hp I.
      destruct (next_le r d p ltac:(lia) ltac:(lia) Hp I PI). split; [assumption|]. lia. }
    assert (ROW : exists d' m', (if depth <? 8 then row_bits depth w n t d m else row_bytes (depth / 8) w n t d m) = Ok (d', m') /\
        row_post depth w n t d m d' m').
    { destruct Hdepth as [E|[E|[E|(N & HN & E)]]].
      1-3: replace (depth <? 8) with true by lia; apply row_bits_ok; [lia|assumption|apply Hgood; lia|assumption].
      replace (depth <? 8) with false by lia. rewrite E in PRE |- *. replace (8 * N / 8) with N by (rewrite Z.mul_comm, Z.div_mul; lia).
      apply row_bytes_ok; [assumption|assumption|assumption|lia]. }
    destruct ROW as (d' & m' & -> & (L' & B' & O' & D' & P')). cbn [bind].
    assert (PI' : ptr_inv (r + 1) d').
    { intros p Hp. rewrite D' by assumption. rewrite ph_next by lia. fold n. destruct (in_row n p) eqn:I; cbn [b2z].
      - unfold next_of, base_of. rewrite (PI p Hp). unfold rb. destruct (Z.eqb_spec (pw p w) 0) as [E|E].
        + rewrite E. cbn [b2z Z.ltb Z.compare]. rewrite !Z.mul_0_r. change ((0 + 7) / 8) with 0. lia.
        + pose proof (pw_nonneg p w ltac:(lia)). replace (0 <? pw p w) with true by lia. cbn [b2z]. unfold row_bytes_spec. rewrite (Z.mul_comm depth). lia.
      - rewrite (PI p Hp). lia. }
    assert (MI' : mem_inv m') by (split; [lia|]; split; [assumption|]; intros j Hj; rewrite O' by lia; apply O; lia).
    assert (RO' : rows_ok (n + 1) (8 * (r / 4)) m').
    { intros i x Hi Hx. destruct (Z.eq_dec i n) as [->|Ni].
      - fold t. rewrite P' by assumption. replace (8 * (r / 4) + 2 * n) with (2 * r) by (unfold n; lia).
        apply (image_pixel_row r d x m); [lia|lia|assumption|assumption|assumption].
      - rewrite <- (RO i x) by lia. apply pixel_ext. intros j Hj.
        assert (X : 0 <= x * depth /\ x * depth + depth <= w * depth) by (clear - Hx HD; nia).
        assert (IS : 0 <= i * stride /\ i * stride + stride <= n * stride) by (assert (0 <= stride) by lia; assert (0 <= i /\ i + 1 <= n) by lia; clear - H H0; nia).
        rewrite <- !Z.add_assoc. rewrite !bit_at by lia. f_equal. apply O'; lia. }
    replace (w32 (H2 - r - 1)) with (H2 - (r + 1)) by (unfold w32; rewrite Z.mod_small; lia).
    destruct ((H2 - (r + 1) =? 0) || (n + 1 =? 4)) eqn:FL.
    - destruct (convert_rect_ok m' w depth stride ltac:(lia) ltac:(lia) ltac:(lia) (Z.to_nat (n + 1)) (8 * (r / 4)) 2 tmp ltac:(lia)) as (l & -> & CF & CE).
      { intros _. rewrite Z2Nat.id by lia. replace (n + 1 - 1) with n by lia. fold t. lia. }
      cbn [bind]. rewrite Z2Nat.id in * by lia.
      assert (LF' : map fst (log ++ l) = map (fun i => 2 * i) (zrange (r + 1))).
      { rewrite map_app, LF, CF. replace (r + 1) with (4 * (r / 4) + (n + 1)) by (unfold n; lia). rewrite (zrange_add (4 * (r / 4)) (n + 1)), map_app by lia. f_equal.
        rewrite map_map. apply map_ext. intros i. lia. }
      assert (LE' : forall y l', In (y, l') (log ++ l) -> entry_ok y l').
      { intros y l' Hin. apply in_app_or in Hin. destruct Hin as [Hin|Hin]; [now apply LE|].
        destruct (CE y l' Hin) as (i & Hi & -> & P). split; [unfold n in Hi; lia|]. intros x Hx. rewrite P by assumption. apply RO'; lia. }
      destruct (Z.eqb_spec (H2 - (r + 1)) 0) as [E0|E0].
      + exists (log ++ l). split; [reflexivity|]. split; [|assumption]. now replace H2 with (r + 1) by lia.
      + assert (R4 : (r + 1) mod 4 = 0 /\ 4 * ((r + 1) / 4) = r + 1 /\ 8 * ((r + 1) / 4) = 8 * (r / 4) + 8) by (unfold n in *; lia). destruct R4 as (R1 & R2 & R3).
        specialize (IH (r + 1) d' m' (log ++ l) ltac:(lia) ltac:(lia) PI' MI'). rewrite R1, R2, R3 in IH. apply IH; try assumption.
        intros i x Hi; lia.
    - assert (R4 : (r + 1) mod 4 = n + 1 /\ (r + 1) / 4 = r / 4) by (unfold n in *; lia). destruct R4 as (R1 & R2).
      specialize (IH (r + 1) d' m' log ltac:(lia) ltac:(lia) PI' MI'). rewrite R1, R2 in IH. now apply IH.
  Qed.
End Loop.
