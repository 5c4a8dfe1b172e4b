(* Proofs: decoder_read_frame_internal. *)
From Verif Require Import Base Algorithm_Model Algorithm_Spec Algorithm_Proofs IntOps_Model IntOps_Spec IntOps_Proofs
  Qoi_Model Bmp_Model Bmp_Spec Bmp_Proofs Bmp_Proofs2 Bmp_Proofs3 Bmp_Proofs4 Bmp_Proofs5.
Ltac Zify.zify_post_hook ::= idtac.

Lemma wr_slice_ok l : forall m pos, 0 <= pos -> pos + Z.of_nat (length l) <= Z.of_nat (length m) ->
  exists m', wr_slice m pos l = Ok m' /\ written m m' pos (Z.of_nat (length l)) (fun k => nth (Z.to_nat k) l 0).
Proof.
  induction l as [|v l IH]; intros m pos P L.
  - exists m. split; [reflexivity|]. apply written_nil.
  - cbn [length] in L. cbn [wr_slice]. destruct (written_one m pos v) as [E W]; [lia|]. rewrite E. cbn [bind].
    destruct (IH (zupd m pos v) (pos + 1)) as (m' & E' & W'); [lia|rewrite zupd_length; lia|].
    exists m'. split; [exact E'|]. cbn [length]. replace (Z.of_nat (S (length l))) with (1 + Z.of_nat (length l)) by lia.
    eapply written_app; [lia|lia|exact W|exact W'| |].
    + intros k K. replace k with 0 by lia. reflexivity.
    + intros k K. replace (Z.to_nat (1 + k)) with (S (Z.to_nat k)) by lia. reflexivity.
Qed.

Lemma list_ext_nth (a b : list Z) : length a = length b -> (forall k, (k < length a)%nat -> nth k a 0 = nth k b 0) -> a = b.
Proof.
  revert b. induction a as [|x a IH]; intros [|y b] L H; cbn in L; try lia; [reflexivity|].
  f_equal; [apply (H 0%nat); cbn; lia|]. apply IH; [lia|]. intros k K. apply (H (S k)). cbn. lia.
Qed.

Lemma nth_first {A} (l : list A) n k d : (k < n)%nat -> nth k (firstn n l) d = nth k l d.
Proof.
  revert l k. induction n as [|n IH]; intros [|x l] [|k] K; cbn; try lia; try reflexivity. apply IH. lia.
Qed.

Lemma nth_map_seq (f : nat -> Z) n k d : (k < n)%nat -> nth k (map f (seq 0 n)) d = f k.
Proof.
  intros K. rewrite (nth_indep _ d (f 0%nat)) by (rewrite map_length, seq_length; exact K).
  rewrite map_nth, seq_nth by exact K. reflexivity.
Qed.

Lemma slice_bytes d pos n : 0 <= pos -> 0 <= n -> pos + n <= Z.of_nat (length d) ->
  firstn (Z.to_nat n) (skipn (Z.to_nat pos) d) = map (fun k => u8 d (pos + Z.of_nat k)) (seq 0 (Z.to_nat n)).
Proof.
  intros P N L. apply list_ext_nth.
  - rewrite firstn_length, skipn_length, map_length, seq_length. lia.
  - intros k K. rewrite firstn_length, skipn_length in K. rewrite nth_first by lia.
    rewrite nth_skip, nth_map_seq by lia. unfold u8. f_equal. lia.
Qed.

Lemma rd_slice_ok d pos n : 0 <= pos -> 0 <= n -> pos + n <= Z.of_nat (length d) ->
  rd_slice d pos n = Ok (map (fun k => u8 d (pos + Z.of_nat k)) (seq 0 (Z.to_nat n))).
Proof.
  intros P N L. unfold rd_slice.
  destruct (Z.leb_spec 0 pos), (Z.leb_spec 0 n), (Z.leb_spec (pos + n) (Z.of_nat (length d))); try lia. cbn [andb].
  f_equal. now apply slice_bytes.
Qed.

Section Rect.
  Context (conv : list Z -> list Z) (w S : Z) (d : list Z) (sstride nbytes : Z).
  Context (CL : forall row, Z.of_nat (length (conv row)) = w) (W0 : 0 <= w) (AP : w <= Z.abs S).

  Lemma convert_rect_ok n : forall m line pos,
    (forall k, 0 <= k < Z.of_nat n -> 0 <= line + k * S /\ line + k * S + w <= Z.of_nat (length m)) ->
    0 <= nbytes -> 0 <= sstride -> 0 <= pos ->
    (forall k, 0 <= k < Z.of_nat n -> pos + k * sstride + nbytes <= Z.of_nat (length d)) ->
    exists m', convert_rect n conv m line S d pos sstride nbytes = Ok m' /\ length m' = length m /\
      (forall k x, 0 <= k < Z.of_nat n -> 0 <= x < w ->
        elem_at m' (line + k * S + x) =
        Some (nth (Z.to_nat x) (conv (map (fun j => u8 d (pos + k * sstride + Z.of_nat j)) (seq 0 (Z.to_nat nbytes)))) 0)) /\
      (forall j, (forall k x, 0 <= k < Z.of_nat n -> 0 <= x < w -> line + k * S + x <> j) -> elem_at m' j = elem_at m j).
  Proof.
    induction n as [|n IH]; intros m line pos F NB SS P R.
    - exists m. split; [reflexivity|]. split; [reflexivity|]. split; [intros; lia|reflexivity].
    - cbn [convert_rect]. pose proof (R 0 ltac:(lia)) as R0. pose proof (F 0 ltac:(lia)) as [F0 F1].
      rewrite rd_slice_ok by lia. cbn [bind]. set (row := map _ _).
      destruct (wr_slice_ok (conv row) m line) as (m1 & E1 & L1 & W1); [lia|rewrite CL; lia|]. rewrite E1. cbn [bind].
      rewrite CL in W1.
      destruct (IH m1 (line + S) (pos + sstride)) as (m' & E' & L' & W' & K'); [|exact NB|exact SS|lia| |].
      { intros k K. pose proof (F (k + 1) ltac:(lia)). rewrite L1. lia. }
      { intros k K. pose proof (R (k + 1) ltac:(lia)). lia. }
      exists m'. split; [exact E'|]. split; [congruence|]. split.
      + intros k x K X. destruct (Z.eq_dec k 0) as [->|NK].
        * rewrite K'.
          -- rewrite W1. destruct (Z.leb_spec line (line + 0 * S + x)), (Z.ltb_spec (line + 0 * S + x) (line + w)); try lia. cbn [andb].
             replace (line + 0 * S + x - line) with x by lia. unfold row.
             replace (pos + 0 * sstride) with pos by lia. reflexivity.
          -- intros k' x' K1 X1 Q. assert (D : (k' + 1) * S = x - x') by lia.
             assert (A : Z.abs ((k' + 1) * S) < w) by (rewrite D; lia). rewrite Z.abs_mul in A.
             assert (1 <= Z.abs (k' + 1)) by lia. nia.
        * replace (line + k * S + x) with (line + S + (k - 1) * S + x) by lia. rewrite W' by lia.
          replace (pos + sstride + (k - 1) * sstride) with (pos + k * sstride) by lia. reflexivity.
      + intros j J. rewrite K'.
        * rewrite W1. destruct (Z.leb_spec line j), (Z.ltb_spec j (line + w)); try reflexivity. cbn [andb].
          exfalso. apply (J 0 (j - line)); lia.
        * intros k x K X. specialize (J (k + 1) x ltac:(lia) X). lia.
  Qed.
End Rect.

(* palette *)
Lemma lor_disjoint a b n : 0 <= a < 2 ^ n -> 0 <= n -> Z.lor a (b * 2 ^ n) = a + b * 2 ^ n.
Proof.
  intros A N. symmetry. rewrite <- Z.shiftl_mul_pow2 by exact N.
  assert (D : Z.land a (Z.shiftl b n) = 0).
  { apply Z.bits_inj'. intros k K. rewrite Z.land_spec, Z.bits_0, Z.shiftl_spec by exact K.
    destruct (Z.lt_ge_cases k n).
    - rewrite (Z.testbit_neg_r b (k - n)) by lia. apply andb_false_r.
    - destruct (Z.eq_dec a 0) as [->|]; [now rewrite Z.bits_0|].
      rewrite (Z.bits_above_log2 a k); [reflexivity|lia|]. apply Z.log2_lt_pow2; [lia|].
      apply Z.lt_le_trans with (2 ^ n); [apply A|apply Z.pow_le_mono_r; lia]. }
  rewrite Z.add_nocarry_lxor by exact D. now apply Z.lxor_lor.
Qed.

Lemma rgb_lor b g r : 0 <= b < 256 -> 0 <= g < 256 -> 0 <= r < 256 ->
  Z.lor (Z.lor (Z.lor b (Z.shiftl g 8)) (Z.shiftl r 16)) 0xFF000000 = 0xFF000000 + 65536 * r + 256 * g + b.
Proof.
  intros B G R. rewrite !Z.shiftl_mul_pow2 by lia. rewrite (lor_disjoint b g 8) by (change (2 ^ 8) with 256; lia).
  change (2 ^ 8) with 256. rewrite (lor_disjoint (b + g * 256) r 16) by (change (2 ^ 16) with 65536; lia).
  change (2 ^ 16) with 65536. change 0xFF000000 with (255 * 2 ^ 24) at 1.
  rewrite (lor_disjoint (b + g * 256 + r * 65536) 255 24) by (change (2 ^ 24) with 16777216; lia).
  change (2 ^ 24) with 16777216. lia.
Qed.

Lemma read_palette_ok d entity n : forall pos, bytes d -> 0 <= pos -> 3 <= entity ->
  pos + Z.of_nat n * entity <= Z.of_nat (length d) ->
  read_palette n d pos entity = Ok (map (fun k => palette_entry d (pos + Z.of_nat k * entity)) (seq 0 n)).
Proof.
  induction n as [|n IH]; intros pos B P E L; [reflexivity|].
  cbn [read_palette]. rewrite !rd_nth by lia. cbn [bind]. rewrite IH by (try assumption; lia). cbn [bind seq map].
  f_equal. f_equal.
  - replace (pos + Z.of_nat 0 * entity) with pos by lia. unfold palette_entry.
    pose proof (u8_byte d pos B). pose proof (u8_byte d (pos + 1) B). pose proof (u8_byte d (pos + 2) B).
    unfold u8 in *. now rewrite rgb_lor by assumption.
  - rewrite <- seq_shift, map_map. apply map_ext. intros k. f_equal. lia.
Qed.

Lemma palette_length d hs off : length (palette_of d hs off) = 256%nat.
Proof. unfold palette_of. now rewrite map_length, seq_length. Qed.

Definition entity_of (hs : Z) : Z := if hs =? 12 then 3 else 4.
Lemma entity_range hs : 3 <= entity_of hs <= 4.
Proof. unfold entity_of. destruct (hs =? 12); lia. Qed.

Lemma palette_ok d hs off : bytes d -> 0 <= hs -> 14 + hs <= off ->
  let n := Z.min ((off - (14 + hs)) / entity_of hs) 256 in
  14 + hs + n * entity_of hs <= Z.of_nat (length d) ->
  (let* l := read_palette (Z.to_nat n) d (14 + hs) (entity_of hs) in Ok (l ++ repeat 0xFF000000 (Z.to_nat (256 - n)))) =
  Ok (palette_of d hs off).
Proof.
  intros B H O n L. pose proof (entity_range hs) as ER.
  assert (N0 : 0 <= (off - (14 + hs)) / entity_of hs) by (apply Z.div_pos; lia).
  rewrite read_palette_ok by (try assumption; try lia). cbn [bind]. f_equal.
  apply list_ext_nth.
  - rewrite app_length, map_length, seq_length, repeat_length, palette_length. lia.
  - intros k K. rewrite app_length, map_length, seq_length, repeat_length in K. unfold palette_of. fold (entity_of hs).
    rewrite nth_map_seq by lia.
    destruct (Nat.lt_ge_cases k (Z.to_nat n)).
    + rewrite app_nth1 by (rewrite map_length, seq_length; lia). rewrite nth_map_seq by lia.
      destruct (Z.ltb_spec (Z.of_nat k) ((off - (14 + hs)) / entity_of hs)); [reflexivity|lia].
    + rewrite app_nth2 by (rewrite map_length, seq_length; lia).
      rewrite (nth_indep _ 0 0xFF000000) by (rewrite map_length, seq_length, repeat_length; lia). rewrite nth_repeat.
      destruct (Z.ltb_spec (Z.of_nat k) ((off - (14 + hs)) / entity_of hs)); [lia|reflexivity].
Qed.

(* The state left by a successful read_info, as far as read_frame relies on it *)
Definition info_ok (i : bmp_info) : Prop :=
  12 <= i_hsize i /\ 1 <= i_w i <= 65535 /\ Z.abs (i_h i) <= 65535 /\ In (i_depth i) [1; 4; 8; 16; 24; 32] /\
  14 + i_hsize i <= i_offset i /\ i_stride i = row_bytes (i_w i) (i_depth i) /\ 0 <= i_size i /\
  (i_depth i = 4 /\ i_comp i = 2 \/ i_depth i = 8 /\ i_comp i = 1 \/ i_stride i * Z.abs (i_h i) <= i_size i).

Lemma read_info_ok d i : bytes d -> read_info_internal d = Ok i -> info_ok i.
Proof.
  intros B E. destruct (read_info_sound d i B E) as (_ & _ & HS & _ & _ & HE & _ & HH & HDp & HC & _ & W & H & D & O & ST & _ & IS & _).
  assert (RB : 0 <= i_stride i).
  { rewrite ST. apply stride_ok; [lia|]. cbn [In] in D. lia. }
  assert (I0 : 0 <= hd_image_size (header_of d)).
  { unfold header_of. destruct (u32 d 14 =? 12); cbn [hd_image_size]; [lia|]. now apply u32_range. }
  assert (IZ : 0 <= i_size i).
  { destruct IS as [[_ ->]|[_ IS]]; [exact I0|]. nia. }
  unfold info_ok. rewrite HE in *. repeat match goal with |- _ /\ _ => split end; auto; try lia.
  - cbn [In] in HS. lia.
  - destruct IS as [[R _]|[_ IS]]; [|tauto]. unfold is_rle in R. rewrite <- HDp, <- HC in R. tauto.
Qed.

Definition rle_info (i : bmp_info) : bool := ((i_depth i =? 4) && (i_comp i =? 2)) || ((i_depth i =? 8) && (i_comp i =? 1)).

Definition has_alpha (i : bmp_info) : bool := negb (fst (nth 3 (f_chan (i_fmt i)) (0, 0)) =? 0).

Section Frame.
  Context (pc : bool -> bmp_format -> list Z -> outcome (Z -> list Z -> list Z)) (alloc : Z -> Z -> Z * list Z).
  Context (PC : forall al f pal, match pc al f pal with
                | Ok conv => forall w row, 0 <= w -> Z.of_nat (length (conv w row)) = w
                | Err e => e <> 0
                | UB | NoFuel => False
                end).
  Context (AL : forall w h, 0 < w -> 0 < h -> let '(st, m) := alloc w h in w <= st /\ Z.of_nat (length m) = st * h).

  Definition frame_palette (i : bmp_info) (d : list Z) : list Z :=
    if i_depth i <=? 8 then palette_of d (i_hsize i) (i_offset i) else [].

  (* reading a frame, as far as the choice of error codes *)
  Definition enough (i : bmp_info) (d : list Z) : bool :=
    (14 + i_hsize i <=? Z.of_nat (length d)) &&
    ((8 <? i_depth i) || (14 + i_hsize i + Z.min ((i_offset i - (14 + i_hsize i)) / entity_of (i_hsize i)) 256 * entity_of (i_hsize i)
       <=? Z.of_nat (length d))) &&
    (i_offset i <? Z.of_nat (length d)) && (i_offset i + i_size i <=? Z.of_nat (length d)).

  (* if there are enough bytes for the pixels, there are enough for the rest *)
  Lemma enough_ok i d : info_ok i ->
    enough i d = (i_offset i <? Z.of_nat (length d)) && (i_offset i + i_size i <=? Z.of_nat (length d)).
  Proof.
    intros (H12 & _ & _ & _ & O & _ & I0 & _). unfold enough. pose proof (entity_range (i_hsize i)) as ER.
    destruct (Z.ltb_spec (i_offset i) (Z.of_nat (length d))) as [L|L]; [|cbn [andb]; now rewrite andb_false_r].
    cbn [andb]. rewrite andb_true_r.
    destruct (Z.leb_spec (14 + i_hsize i) (Z.of_nat (length d))); [|lia]. cbn [andb].
    match goal with |- (_ || (?a <=? ?b)) && _ = _ => assert (E : a <= b) end.
    { set (q := (i_offset i - (14 + i_hsize i)) / entity_of (i_hsize i)).
      assert (QQ : q * entity_of (i_hsize i) <= i_offset i - (14 + i_hsize i)).
      { unfold q. rewrite Z.mul_comm. apply Z.mul_div_le. lia. }
      assert (Z.min q 256 * entity_of (i_hsize i) <= q * entity_of (i_hsize i)) by (apply Z.mul_le_mono_nonneg_r; lia). lia. }
    apply Z.leb_le in E. rewrite E, orb_true_r. reflexivity.
  Qed.

  Lemma frame_prefix i d : info_ok i -> bytes d ->
    read_frame_internal pc alloc i d =
    if negb (enough i d) then Err BL_ERROR_DATA_TRUNCATED
    else
      match create_error (i_w i) (Z.abs (i_h i)) with
      | Some e => Err e
      | None =>
          let '(stride, m0) := alloc (i_w i) (Z.abs (i_h i)) in
          let line := if 0 <? i_h i then (Z.abs (i_h i) - 1) * stride else 0 in
          let dst_stride := if 0 <? i_h i then - stride else stride in
          if rle_info i then
            let* src := rd_slice d (i_offset i) (i_size i) in
            let* r := decode_rle (S (length src)) (i_depth i =? 4) (i_w i) (Z.abs (i_h i)) dst_stride (frame_palette i d) src m0 line line 0 0 in
            let '(code, m1) := r in
            if code =? 0 then Ok (Image (has_alpha i) (i_w i) (Z.abs (i_h i)) stride m1) else Err code
          else
            let* conv := pc (has_alpha i) (i_fmt i) (frame_palette i d) in
            let* m1 := convert_rect (Z.to_nat (Z.abs (i_h i))) (conv (i_w i)) m0 line dst_stride d (i_offset i) (i_stride i)
              ((i_w i * i_depth i + 7) / 8) in
            Ok (Image (has_alpha i) (i_w i) (Z.abs (i_h i)) stride m1)
      end.
  Proof.
    intros (H12 & W & H & D & O & ST & I0 & IS) B. unfold read_frame_internal, enough, frame_palette, has_alpha. cbv zeta.
    fold (entity_of (i_hsize i)). change kHeaderSizeOS2_V1 with 12. fold (entity_of (i_hsize i)).
    destruct (Z.ltb_spec (Z.of_nat (length d)) (14 + i_hsize i)), (Z.leb_spec (14 + i_hsize i) (Z.of_nat (length d))); try lia;
      [reflexivity|]. cbn [andb].
    set (n := Z.min ((i_offset i - (14 + i_hsize i)) / entity_of (i_hsize i)) 256) in *.
    destruct (Z.leb_spec (i_depth i) 8) as [D8|D8], (Z.ltb_spec 8 (i_depth i)) as [D8'|D8']; try lia.
    - cbn [orb].
      destruct (Z.ltb_spec (Z.of_nat (length d) - (14 + i_hsize i)) (n * entity_of (i_hsize i))) as [LT|GE];
        destruct (Z.leb_spec (14 + i_hsize i + n * entity_of (i_hsize i)) (Z.of_nat (length d))); try lia; [reflexivity|].
      unfold n in *. rewrite (palette_ok d (i_hsize i) (i_offset i)) by (try assumption; lia). cbn [bind andb].
      destruct (Z.leb_spec (Z.of_nat (length d)) (i_offset i)), (Z.ltb_spec (i_offset i) (Z.of_nat (length d))); try lia; [reflexivity|].
      destruct (Z.ltb_spec (Z.of_nat (length d) - i_offset i) (i_size i)), (Z.leb_spec (i_offset i + i_size i) (Z.of_nat (length d)));
        try lia; reflexivity.
    - cbn [orb bind andb].
      destruct (Z.leb_spec (Z.of_nat (length d)) (i_offset i)), (Z.ltb_spec (i_offset i) (Z.of_nat (length d))); try lia; [reflexivity|].
      destruct (Z.ltb_spec (Z.of_nat (length d) - i_offset i) (i_size i)), (Z.leb_spec (i_offset i + i_size i) (Z.of_nat (length d)));
        try lia; reflexivity.
  Qed.

  Lemma image_fit h S m w base stride (flip : bool) : 0 < w -> 0 < h -> w <= S -> Z.of_nat (length m) = S * h ->
    base = (if flip then (h - 1) * S else 0) -> stride = (if flip then - S else S) ->
    rows_fit w base stride m h /\ w <= Z.abs stride.
  Proof.
    intros W H WS L -> ->. split.
    - intros y Y. rewrite L. destruct flip; nia.
    - destruct flip; lia.
  Qed.

  (* the row that holds line y of the image, as stored in the file *)
  Lemma stored_addr h S y x : 0 < Z.abs h -> 0 <= y < Z.abs h ->
    (if 0 <? h then (Z.abs h - 1) * S else 0) + stored_at h y * (if 0 <? h then - S else S) + x = y * S + x /\
    0 <= stored_at h y < Z.abs h.
  Proof.
    intros H Y. unfold stored_at. destruct (Z.ltb_spec 0 h); [rewrite Z.abs_eq in * by lia|]; split; try lia.
  Qed.

  Lemma create_ok w h : create_error w h = None -> 0 < w /\ 0 < h.
  Proof. unfold create_error. destruct (Z.leb_spec w 0), (Z.leb_spec h 0); cbn [orb]; try discriminate. auto. Qed.

  (* uncompressed pictures *)
  Lemma frame_raw i d : info_ok i -> bytes d -> rle_info i = false ->
    match read_frame_internal pc alloc i d with
    | UB | NoFuel => False
    | Err e => enough i d = false /\ e = BL_ERROR_DATA_TRUNCATED \/ create_error (i_w i) (Z.abs (i_h i)) = Some e \/
        pc (has_alpha i) (i_fmt i) (frame_palette i d) = Err e
    | Ok im =>
        enough i d = true /\ create_error (i_w i) (Z.abs (i_h i)) = None /\
        im_alpha im = has_alpha i /\ im_w im = i_w i /\ im_h im = Z.abs (i_h i) /\ i_w i <= im_stride im /\
        Z.of_nat (length (im_mem im)) = im_stride im * im_h im /\
        exists conv, pc (has_alpha i) (i_fmt i) (frame_palette i d) = Ok conv /\
          forall x y, 0 <= x < i_w i -> 0 <= y < Z.abs (i_h i) ->
            elem_at (im_mem im) (y * im_stride im + x) =
            Some (nth (Z.to_nat x) (conv (i_w i) (stored_row d (i_offset i) (i_w i) (i_depth i) (stored_at (i_h i) y))) 0)
    end.
  Proof.
    intros IO B NR. rewrite (frame_prefix i d IO B). destruct (enough i d) eqn:EN; cbn [negb]; [|left; auto].
    destruct (create_error (i_w i) (Z.abs (i_h i))) as [e|] eqn:CE; [right; left; reflexivity|].
    apply create_ok in CE as [WP HP]. pose proof (AL _ _ WP HP) as A.
    destruct (alloc (i_w i) (Z.abs (i_h i))) as [S m0]. destruct A as [WS LM]. rewrite NR. cbv zeta.
    pose proof (PC (has_alpha i) (i_fmt i) (frame_palette i d)) as P.
    destruct (pc (has_alpha i) (i_fmt i) (frame_palette i d)) as [conv|e| |] eqn:PE; cbn [bind]; try contradiction.
    2:{ right. right. reflexivity. }
    rewrite (enough_ok i d IO) in EN. apply andb_true_iff in EN as [O1 O2]. apply Z.ltb_lt in O1. apply Z.leb_le in O2.
    pose proof IO as (H12 & W & H & D & O & ST & I0 & IS).
    assert (NB : 0 <= (i_w i * i_depth i + 7) / 8 <= i_stride i).
    { rewrite ST. unfold row_bytes. assert (0 <= i_w i * i_depth i) by (cbn [In] in D; nia). set (v := i_w i * i_depth i) in *.
      clear - H0. pose proof (Z.div_mod (v + 7) 8 ltac:(lia)). pose proof (Z.mod_pos_bound (v + 7) 8 ltac:(lia)).
      pose proof (Z.div_mod (v + 31) 32 ltac:(lia)). pose proof (Z.mod_pos_bound (v + 31) 32 ltac:(lia)). lia. }
    assert (TOT : i_stride i * Z.abs (i_h i) <= i_size i).
    { unfold rle_info in NR. destruct IS as [[R1 R2]|[[R1 R2]|IS]]; [rewrite R1, R2 in NR; discriminate..|exact IS]. }
    destruct (image_fit (Z.abs (i_h i)) S m0 (i_w i) _ _ (0 <? i_h i) WP HP WS LM eq_refl eq_refl) as [FIT AP].
    destruct (convert_rect_ok (conv (i_w i)) (i_w i) (if 0 <? i_h i then - S else S) d (i_stride i) ((i_w i * i_depth i + 7) / 8)
      ltac:(intros row; apply P; lia) ltac:(lia) AP (Z.to_nat (Z.abs (i_h i))) m0 (if 0 <? i_h i then (Z.abs (i_h i) - 1) * S else 0)
      (i_offset i)) as (m' & E' & L' & W' & _).
    { rewrite Z2Nat.id by lia. intros k K. apply FIT. exact K. }
    1: lia. 1: lia. 1: lia.
    { rewrite Z2Nat.id by lia. intros k K. assert ((k + 1) * i_stride i <= i_stride i * Z.abs (i_h i)) by nia. lia. }
    rewrite E'. cbn [bind im_alpha im_w im_h im_stride im_mem].
    repeat match goal with |- _ /\ _ => split end; auto; try lia.
    exists conv. split; [reflexivity|]. intros x y X Y.
    destruct (stored_addr (i_h i) S y x ltac:(lia) Y) as [AD SR]. rewrite <- AD.
    rewrite W' by (try rewrite Z2Nat.id by lia; assumption).
    unfold stored_row. rewrite <- ST. reflexivity.
  Qed.

  (* run-length encoded pictures *)
  Definition stream_of (i : bmp_info) (d : list Z) : list Z :=
    map (fun k => u8 d (i_offset i + Z.of_nat k)) (seq 0 (Z.to_nat (i_size i))).

  Lemma frame_rle i d r : info_ok i -> bytes d -> rle_info i = true -> enough i d = true ->
    create_error (i_w i) (Z.abs (i_h i)) = None ->
    rle (i_depth i =? 4) (i_w i) (Z.abs (i_h i)) (fun v => nth (Z.to_nat v) (palette_of d (i_hsize i) (i_offset i)) 0)
      (stream_of i d) 0 0 blank r true ->
    match r with
    | RlePicture c => exists im, read_frame_internal pc alloc i d = Ok im /\ im_alpha im = has_alpha i /\
        im_w im = i_w i /\ im_h im = Z.abs (i_h i) /\ i_w i <= im_stride im /\
        Z.of_nat (length (im_mem im)) = im_stride im * im_h im /\
        forall x y, 0 <= x < i_w i -> 0 <= y < Z.abs (i_h i) ->
          elem_at (im_mem im) (y * im_stride im + x) = Some (c x (stored_at (i_h i) y))
    | RleTruncated => read_frame_internal pc alloc i d = Err BL_ERROR_DATA_TRUNCATED
    | RleInvalid => read_frame_internal pc alloc i d = Err BL_ERROR_DECOMPRESSION_FAILED
    end.
  Proof.
    intros IO B NR EN CE R. rewrite (frame_prefix i d IO B), EN. cbn [negb]. rewrite CE.
    apply create_ok in CE as [WP HP]. pose proof (AL _ _ WP HP) as A.
    destruct (alloc (i_w i) (Z.abs (i_h i))) as [S m0]. destruct A as [WS LM]. rewrite NR. cbv zeta.
    rewrite (enough_ok i d IO) in EN. apply andb_true_iff in EN as [O1 O2]. apply Z.ltb_lt in O1. apply Z.leb_le in O2.
    pose proof IO as (H12 & W & H & D & O & ST & I0 & IS).
    rewrite rd_slice_ok by lia. cbn [bind]. fold (stream_of i d).
    assert (SB : bytes (stream_of i d)).
    { unfold stream_of, bytes. apply Forall_forall. intros v V. apply in_map_iff in V as (k & <- & _). now apply u8_byte. }
    assert (D8 : i_depth i <= 8).
    { unfold rle_info in NR. apply orb_true_iff in NR. rewrite !andb_true_iff, !Z.eqb_eq in NR. lia. }
    assert (FP : frame_palette i d = palette_of d (i_hsize i) (i_offset i)).
    { unfold frame_palette. destruct (Z.leb_spec (i_depth i) 8); [reflexivity|lia]. }
    rewrite FP.
    destruct (image_fit (Z.abs (i_h i)) S m0 (i_w i) _ _ (0 <? i_h i) WP HP WS LM eq_refl eq_refl) as [FIT AP].
    destruct (decode_rle_correct (i_depth i =? 4) (i_w i) (Z.abs (i_h i)) (if 0 <? i_h i then (Z.abs (i_h i) - 1) * S else 0)
      (if 0 <? i_h i then - S else S) (palette_of d (i_hsize i) (i_offset i)) m0 WP (palette_length _ _ _) AP FIT
      (stream_of i d) r HP R SB) as (m' & E & L' & _ & C).
    rewrite E. cbn [bind]. destruct r as [c| |]; cbn [code_of].
    - change (0 =? 0) with true. cbv iota. eexists. split; [reflexivity|]. cbn [im_alpha im_w im_h im_stride im_mem].
      repeat match goal with |- _ /\ _ => split end; auto; try lia.
      intros x y X Y. destruct (stored_addr (i_h i) S y x ltac:(lia) Y) as [AD SR]. rewrite <- AD. apply C. split; assumption.
    - reflexivity.
    - reflexivity.
  Qed.
End Frame.
