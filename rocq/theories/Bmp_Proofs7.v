(* Proofs: the encoder writes a file that the decoder reads back. *)
From Verif Require Import Base Checksum_Proofs Algorithm_Model Algorithm_Spec Algorithm_Proofs IntOps_Model IntOps_Spec IntOps_Proofs IntOps_Proofs2
  Qoi_Model Bmp_Model Bmp_Spec Bmp_Proofs Bmp_Proofs2 Bmp_Proofs3 Bmp_Proofs4 Bmp_Proofs5 Bmp_Proofs6.
Ltac Zify.zify_post_hook ::= idtac.

(* ---- a buffer filled from left to right ---- *)
Lemma upd_mid (a : list Z) x b v : upd (a ++ x :: b) (length a) v = a ++ v :: b.
Proof. induction a as [|y a IH]; cbn; [reflexivity|now rewrite IH]. Qed.

Lemma wr_mid (a : list Z) x b v : wr (a ++ x :: b) (Z.of_nat (length a)) v = Ok (a ++ v :: b).
Proof.
  rewrite wr_ok by (rewrite app_length; cbn [length]; lia). unfold zupd. rewrite Nat2Z.id, upd_mid. reflexivity.
Qed.

Lemma wr_slice_app l : forall a x, (length l <= length x)%nat ->
  wr_slice (a ++ x) (Z.of_nat (length a)) l = Ok ((a ++ l) ++ skipn (length l) x).
Proof.
  induction l as [|v l IH]; intros a x L; cbn [wr_slice length skipn].
  - now rewrite app_nil_r.
  - destruct x as [|y x]; cbn [length] in L; [lia|]. rewrite wr_mid. cbn [bind].
    replace (a ++ v :: x) with ((a ++ [v]) ++ x) by (rewrite <- app_assoc; reflexivity).
    replace (Z.of_nat (length a) + 1) with (Z.of_nat (length (a ++ [v]))) by (rewrite app_length; cbn [length]; lia).
    rewrite IH by lia. rewrite <- !app_assoc. reflexivity.
Qed.

(* ---- rows ---- *)
Definition src_row (src : list Z) (w stride y : Z) : list Z :=
  map (fun k => u8 src (y * stride + Z.of_nat k)) (seq 0 (Z.to_nat w)).
Definition file_row (f : pixel_format) (src : list Z) (w stride y gap : Z) : list Z :=
  enc_row f (src_row src w stride y) ++ repeat 0 (Z.to_nat gap).
Definition pixel_bytes (f : pixel_format) : Z := match f with PRGB32 => 4 | XRGB32 => 3 | A8 => 1 end.

Lemma concat_length {A} (g : A -> list Z) n l : (forall x, length (g x) = n) -> length (concat (map g l)) = (n * length l)%nat.
Proof. intros H. induction l as [|x l IH]; cbn; [lia|]. rewrite app_length, H, IH. lia. Qed.

Lemma enc_row_length f row : Z.of_nat (length (enc_row f row)) = pixel_bytes f * Z.of_nat (length row).
Proof.
  destruct f; cbn [enc_row pixel_bytes].
  - rewrite (concat_length _ 4) by reflexivity. lia.
  - rewrite (concat_length _ 3) by reflexivity. lia.
  - lia.
Qed.

Lemma src_row_length src w stride y : 0 <= w -> Z.of_nat (length (src_row src w stride y)) = w.
Proof. intros W. unfold src_row. rewrite map_length, seq_length. lia. Qed.

Lemma enc_rows_ok f w gap src stride n : 0 <= w -> 0 <= gap -> forall h a x,
  Z.of_nat n <= h ->
  (forall y, 0 <= y < h -> 0 <= y * stride /\ y * stride + w <= Z.of_nat (length src)) ->
  Z.of_nat n * (pixel_bytes f * w + gap) <= Z.of_nat (length x) ->
  enc_rows n f w gap src ((h - 1) * stride) stride (a ++ x) (Z.of_nat (length a)) =
  Ok (a ++ concat (map (fun k => file_row f src w stride (h - 1 - Z.of_nat k) gap) (seq 0 n)) ++
      skipn (n * Z.to_nat (pixel_bytes f * w + gap)) x, Z.of_nat (length a) + Z.of_nat n * (pixel_bytes f * w + gap)).
Proof.
  intros W G. induction n as [|n IH]; intros h a x N F L.
  - cbn [enc_rows seq map concat skipn Nat.mul app]. rewrite Z.add_0_r. reflexivity.
  - cbn [enc_rows]. destruct (F (h - 1)) as [F1 F2]; [lia|]. rewrite rd_slice_ok by lia. cbn [bind]. cbv zeta.
    fold (src_row src w stride (h - 1)).
    set (row := enc_row f (src_row src w stride (h - 1))).
    assert (PB : 0 < pixel_bytes f) by (destruct f; cbn; lia).
    assert (LR : Z.of_nat (length row) = pixel_bytes f * w) by (unfold row; rewrite enc_row_length, src_row_length by exact W; reflexivity).
    set (bpl := pixel_bytes f * w) in *.
    assert (B0 : 0 <= bpl) by lia.
    rewrite wr_slice_app by nia. cbn [bind].
    replace (Z.of_nat (length a) + Z.of_nat (length row)) with (Z.of_nat (length (a ++ row))) by (rewrite app_length; lia).
    rewrite wr_slice_app by (rewrite repeat_length, skipn_length; nia). cbn [bind].
    replace (Z.of_nat (length (a ++ row)) + gap) with (Z.of_nat (length ((a ++ row) ++ repeat 0 (Z.to_nat gap))))
      by (rewrite (app_length (a ++ row)), repeat_length; lia).
    replace ((h - 1) * stride - stride) with ((h - 1 - 1) * stride) by lia.
    rewrite IH.
    + f_equal. f_equal.
      * cbn [seq map concat]. unfold file_row at 2. replace (h - 1 - Z.of_nat 0) with (h - 1) by lia. fold row.
        rewrite <- seq_shift, map_map, !skipn_skipn_add, <- !app_assoc. f_equal. f_equal. f_equal. f_equal.
        -- f_equal. apply map_ext. intros k. f_equal. lia.
        -- f_equal. rewrite repeat_length. lia.
      * rewrite (app_length (a ++ row)), app_length, repeat_length. lia.
    + lia.
    + intros y Y. apply F. lia.
    + rewrite !skipn_length, repeat_length. nia.
Qed.

(* ---- equal blocks ---- *)
Lemma blocks_length {A} n (ls : list (list A)) : Forall (fun l => length l = n) ls -> length (concat ls) = (length ls * n)%nat.
Proof. induction 1 as [|l ls E F IH]; cbn; [reflexivity|]. rewrite app_length, E, IH. reflexivity. Qed.

Lemma nth_blocks {A} n (ls : list (list A)) dflt : Forall (fun l => length l = n) ls -> forall r j, (j < n)%nat -> (r < length ls)%nat ->
  nth (r * n + j) (concat ls) dflt = nth j (nth r ls []) dflt.
Proof.
  induction 1 as [|l ls E F IH]; intros r j J R; cbn [length] in R; [lia|]. cbn [concat].
  destruct r as [|r]; cbn [nth].
  - rewrite app_nth1 by lia. f_equal.
  - rewrite app_nth2 by lia. replace (S r * n + j - length l)%nat with (r * n + j)%nat by lia. apply IH; lia.
Qed.

Lemma u32_le v a b c e : 0 <= v < 2 ^ 32 -> a = w8 v -> b = w8 (Z.shiftr v 8) -> c = w8 (Z.shiftr v 16) -> e = w8 (Z.shiftr v 24) ->
  a + 256 * b + 65536 * (c + 256 * e) = v.
Proof.
  intros V -> -> -> ->. unfold w8. rewrite !Z.shiftr_div_pow2 by lia.
  change (2 ^ 8) with 256. change (2 ^ 16) with 65536. change (2 ^ 24) with 16777216. change (2 ^ 32) with 4294967296 in V.
  Ltac Zify.zify_post_hook ::= Z.div_mod_to_equations. lia.
Qed.
Ltac Zify.zify_post_hook ::= idtac.

(* ---- the whole file ---- *)
Definition pixels_at (f : pixel_format) : Z := 14 + enc_header_size f + enc_palette_size f.
Definition enc_total (f : pixel_format) (w h : Z) : Z := row_bytes w (enc_depth f) * h.
Definition head_of (f : pixel_format) (w h : Z) : list Z :=
  ([0x42; 0x4D] ++ (le32 (pixels_at f + enc_total f w h) ++ le32 0 ++ le32 (pixels_at f))) ++
  firstn (Z.to_nat (enc_header_size f)) (win_header f w h (enc_total f w h)).
Definition palette_bytes (f : pixel_format) : list Z := match f with A8 => enc_palette | _ => [] end.
Definition body_of (f : pixel_format) (w h : Z) (src : list Z) (stride : Z) : list Z :=
  concat (map (fun k => file_row f src w stride (h - 1 - Z.of_nat k) (enc_gap f w)) (seq 0 (Z.to_nat h))).
Definition file_of (f : pixel_format) (w h : Z) (src : list Z) (stride : Z) : list Z :=
  (head_of f w h ++ palette_bytes f) ++ body_of f w h src stride.

(* an image that can exist: its size is limited in each direction and in bytes *)
Definition image_bytes (f : pixel_format) (w h : Z) : Z := (match f with A8 => 1 | _ => 4 end) * w * h.
Definition creatable (f : pixel_format) (w h : Z) : Prop :=
  1 <= w <= 65535 /\ 1 <= h <= 65535 /\ image_bytes f w h <= 0x7FFFFFFF.

Lemma enc_bpl_ok f w : 1 <= w <= 65535 -> enc_bpl f w = pixel_bytes f * w.
Proof. intros W. destruct f; cbn [enc_bpl pixel_bytes]; unfold w32; rewrite ?Z.mod_small; lia. Qed.

Ltac Zify.zify_post_hook ::= Z.div_mod_to_equations.
Lemma row_len f w : 1 <= w <= 65535 -> pixel_bytes f * w + enc_gap f w = row_bytes w (enc_depth f) /\ 0 <= enc_gap f w <= 3.
Proof.
  intros W. assert (PB : 1 <= pixel_bytes f <= 4) by (destruct f; cbn; lia).
  assert (G : f = PRGB32 \/ exists m, least_multiple_ge (2 ^ 2) (enc_bpl f w) m /\ enc_gap f w = m - enc_bpl f w).
  { assert (R : 0 <= enc_bpl f w < 2 ^ 32) by (rewrite enc_bpl_ok by exact W; change (2 ^ 32) with 4294967296; nia).
    destruct (align_up_diff_ok 32 (enc_bpl f w) 2) as (m & M & E); [lia|exact R|].
    destruct f; [now left|right; exists m; split; [exact M|exact E]..]. }
  destruct G as [->|(m & M & E)].
  - cbn [pixel_bytes enc_gap enc_depth]. unfold row_bytes. lia.
  - rewrite enc_bpl_ok in M, E by exact W. destruct M as ([q Q] & LE & LT). change (2 ^ 2) with 4 in *.
    rewrite E. unfold row_bytes.
    assert (D : enc_depth f = 8 * pixel_bytes f) by (destruct f; reflexivity). rewrite D.
    assert (X : m < pixel_bytes f * w + 4).
    { destruct (Z.lt_ge_cases m (pixel_bytes f * w + 4)) as [|C]; [assumption|]. exfalso.
      specialize (LT (m - 4)). assert ((4 | m - 4)) by (exists (q - 1); lia). lia. }
    replace (w * (8 * pixel_bytes f)) with (8 * (pixel_bytes f * w)) by ring.
    set (u := pixel_bytes f * w) in *. clearbody u. clear -Q X LE. lia.
Qed.
Ltac Zify.zify_post_hook ::= idtac.

Lemma total_bound f w h : creatable f w h -> 0 < enc_total f w h /\ pixels_at f + enc_total f w h < 2 ^ 32.
Proof.
  intros (W & H & B). unfold enc_total. destruct (row_len f w W) as [<- G].
  assert (P : pixels_at f <= 1200) by (destruct f; cbn; lia). change (2 ^ 32) with 4294967296.
  assert (PB : 1 <= pixel_bytes f) by (destruct f; cbn; lia).
  assert (Q : pixel_bytes f * w * h <= image_bytes f w h) by (destruct f; cbn [pixel_bytes]; unfold image_bytes; nia).
  nia.
Qed.

Lemma head_length f w h : Z.of_nat (length (head_of f w h)) = 14 + enc_header_size f.
Proof. destruct f; reflexivity. Qed.
Lemma palette_length f : Z.of_nat (length (palette_bytes f)) = enc_palette_size f.
Proof. destruct f; reflexivity. Qed.
Lemma rows_equal f w h src stride : 1 <= w <= 65535 ->
  Forall (fun l => length l = Z.to_nat (row_bytes w (enc_depth f)))
    (map (fun k => file_row f src w stride (h - 1 - Z.of_nat k) (enc_gap f w)) (seq 0 (Z.to_nat h))).
Proof.
  intros W. apply Forall_forall. intros l L. apply in_map_iff in L. destruct L as (k & <- & _).
  unfold file_row. rewrite app_length, repeat_length. destruct (row_len f w W) as [<- G].
  pose proof (enc_row_length f (src_row src w stride (h - 1 - Z.of_nat k))) as E.
  rewrite src_row_length in E by lia. assert (1 <= pixel_bytes f) by (destruct f; cbn; lia). lia.
Qed.
Lemma row_bytes_pos f w : 1 <= w <= 65535 -> 0 < row_bytes w (enc_depth f).
Proof. intros W. destruct (row_len f w W) as [<- G]. assert (1 <= pixel_bytes f) by (destruct f; cbn; lia). nia. Qed.
Lemma body_length f w h src stride : 1 <= w <= 65535 -> 0 <= h -> Z.of_nat (length (body_of f w h src stride)) = enc_total f w h.
Proof.
  intros W H. unfold body_of. rewrite (blocks_length _ _ (rows_equal f w h src stride W)), map_length, seq_length.
  unfold enc_total. pose proof (row_bytes_pos f w W). nia.
Qed.

Definition src_ok (w h stride : Z) (src : list Z) : Prop :=
  forall y, 0 <= y < h -> 0 <= y * stride /\ y * stride + w <= Z.of_nat (length src).

Lemma write_frame_ok f w h src stride buf0 : creatable f w h -> src_ok w h stride src ->
  (forall n, 0 <= n -> Z.of_nat (length (buf0 n)) = n) ->
  write_frame f w h src stride buf0 = Ok (file_of f w h src stride).
Proof.
  intros C F BL. pose proof (total_bound f w h C) as [T0 T1]. destruct C as (W & H & B). pose proof (row_len f w W) as [RL G].
  unfold write_frame. destruct (Z.eqb_spec w 0) as [?|_]; [lia|]. destruct (Z.eqb_spec h 0) as [?|_]; [lia|]. cbn [orb]. cbv zeta.
  assert (IS : w32 (w32 (enc_bpl f w + enc_gap f w) * h) = enc_total f w h).
  { rewrite enc_bpl_ok by exact W. rewrite RL. pose proof (row_bytes_pos f w W). unfold enc_total in *. unfold w32.
    change (2 ^ 32) with 4294967296 in T1. assert (0 < pixels_at f) by (destruct f; cbn; lia).
    rewrite (Z.mod_small (row_bytes w (enc_depth f))) by nia. rewrite Z.mod_small by lia. reflexivity. }
  rewrite IS. change (2 + 12 + enc_header_size f + enc_palette_size f) with (pixels_at f).
  change (2 ^ 32) with 4294967296 in T1. assert (P0 : 0 < pixels_at f) by (destruct f; cbn; lia).
  assert (FS : w32 (pixels_at f + enc_total f w h) = pixels_at f + enc_total f w h) by (unfold w32; rewrite Z.mod_small; lia).
  rewrite FS. set (n := pixels_at f + enc_total f w h) in *. assert (LB := BL n ltac:(lia)).
  set (buf := buf0 n) in *. clearbody buf. clear BL.
  assert (HS : 40 <= enc_header_size f) by (clear; destruct f; vm_compute; discriminate).
  assert (PS : 0 <= enc_palette_size f) by (clear; destruct f; vm_compute; discriminate).
  assert (LN : 14 + enc_header_size f + enc_palette_size f <= Z.of_nat (length buf)) by (rewrite LB; unfold n, pixels_at in *; lia).
  pose proof (wr_slice_app [0x42; 0x4D] [] buf) as W1. cbn [length app] in W1. change (Z.of_nat 0) with 0 in W1.
  rewrite W1 by (cbn; lia). cbn [bind].
  set (x1 := skipn 2 buf). assert (L1 : Z.of_nat (length x1) = n - 2) by (unfold x1; rewrite skipn_length; lia).
  change (66 :: 77 :: x1) with ([66; 77] ++ x1). change 2 with (Z.of_nat (length [66; 77])) at 1.
  rewrite wr_slice_app by (change (length (le32 n ++ le32 0 ++ le32 (pixels_at f))) with 12%nat; lia). cbn [bind].
  change (length (le32 n ++ le32 0 ++ le32 (pixels_at f))) with 12%nat.
  set (x2 := skipn 12 x1). assert (L2 : Z.of_nat (length x2) = n - 14) by (unfold x2; rewrite skipn_length; lia).
  change 14 with (Z.of_nat (length ([66; 77] ++ le32 n ++ le32 0 ++ le32 (pixels_at f)))) at 1.
  set (wh := firstn (Z.to_nat (enc_header_size f)) (win_header f w h (enc_total f w h))).
  assert (LW : Z.of_nat (length wh) = enc_header_size f) by (unfold wh; destruct f; reflexivity).
  rewrite wr_slice_app by lia. cbn [bind].
  assert (HO : ([66; 77] ++ le32 n ++ le32 0 ++ le32 (pixels_at f)) ++ wh = head_of f w h) by reflexivity. rewrite HO.
  set (x3 := skipn (length wh) x2). assert (L3 : Z.of_nat (length x3) = n - 14 - enc_header_size f)
    by (unfold x3; rewrite skipn_length; lia).
  assert (PW : (match f with A8 => wr_slice (head_of f w h ++ x3) (14 + enc_header_size f) enc_palette | _ => Ok (head_of f w h ++ x3) end) =
               Ok ((head_of f w h ++ palette_bytes f) ++ skipn (length (palette_bytes f)) x3)).
  { destruct f; cbn [palette_bytes length skipn]; rewrite ?app_nil_r; [reflexivity|reflexivity|].
    rewrite <- (head_length A8 w h). rewrite wr_slice_app; [reflexivity|].
    change (length enc_palette) with (Z.to_nat 1024). change (enc_palette_size A8) with 1024 in *. lia. }
  rewrite PW. cbn [bind].
  set (x4 := skipn (length (palette_bytes f)) x3).
  assert (LP := palette_length f).
  assert (L4 : Z.of_nat (length x4) = enc_total f w h).
  { unfold x4. rewrite skipn_length. unfold n, pixels_at in L3. unfold pixels_at in *. lia. }
  set (a := head_of f w h ++ palette_bytes f).
  assert (LA : Z.of_nat (length a) = 14 + enc_header_size f + enc_palette_size f).
  { unfold a. rewrite app_length. pose proof (head_length f w h). lia. }
  rewrite <- LA.
  rewrite (enc_rows_ok f w (enc_gap f w) src stride (Z.to_nat h)) with (h := h).
  - cbn [bind fst]. unfold file_of. fold a. f_equal. f_equal. fold (body_of f w h src stride).
    rewrite skipn_all2; [apply app_nil_r|]. rewrite RL. unfold enc_total in L4. pose proof (row_bytes_pos f w W). nia.
  - lia.
  - lia.
  - lia.
  - exact F.
  - rewrite RL, L4. unfold enc_total. lia.
Qed.

(* ---- reading it back ---- *)
Definition pixel_range (f : pixel_format) : Z := match f with A8 => 256 | _ => 2 ^ 32 end.
Definition pixels_ok (f : pixel_format) (src : list Z) : Prop := Forall (fun v => 0 <= v < pixel_range f) src.

Lemma byte_w8 v : is_byte (w8 v).
Proof. unfold is_byte, w8. apply Z.mod_pos_bound. lia. Qed.
Lemma bytes_le32 v : bytes (le32 v).
Proof. unfold le32. repeat (apply Forall_cons; [apply byte_w8|]). apply Forall_nil. Qed.
Lemma bytes_le16 v : bytes (le16 v).
Proof. unfold le16. repeat (apply Forall_cons; [apply byte_w8|]). apply Forall_nil. Qed.
Lemma bytes_app a b : bytes a -> bytes b -> bytes (a ++ b).
Proof. intros. apply Forall_app. now split. Qed.
Lemma bytes_repeat0 n : bytes (repeat 0 n).
Proof. induction n; cbn; constructor; [unfold is_byte; lia|assumption]. Qed.
Lemma bytes_firstn n l : bytes l -> bytes (firstn n l).
Proof. intros H. revert n. induction H as [|x l X H IH]; intros [|n]; cbn; constructor; [exact X|apply IH]. Qed.
Lemma bytes_concat {A} (g : A -> list Z) l : (forall x, In x l -> bytes (g x)) -> bytes (concat (map g l)).
Proof.
  induction l as [|x l IH]; intros H; cbn; [constructor|]. apply bytes_app; [apply H; now left|apply IH].
  intros y Y. apply H. now right.
Qed.

Lemma file_bytes f w h src stride : pixels_ok f src -> bytes (file_of f w h src stride).
Proof.
  intros P. unfold file_of. apply bytes_app; [apply bytes_app|].
  - unfold head_of. apply bytes_app; [apply bytes_app|].
    + repeat constructor; unfold is_byte; lia.
    + repeat apply bytes_app; apply bytes_le32.
    + apply bytes_firstn. unfold win_header. repeat apply bytes_app; try apply bytes_le32; try apply bytes_le16; try apply bytes_repeat0.
      apply bytes_concat. intros; apply bytes_le32.
  - destruct f; cbn [palette_bytes]; [constructor|constructor|].
    apply bytes_concat. intros x X. apply in_seq in X. repeat constructor; unfold is_byte; lia.
  - unfold body_of. apply bytes_concat. intros k _. unfold file_row. apply bytes_app; [|apply bytes_repeat0].
    assert (R : Forall (fun v => 0 <= v < pixel_range f) (src_row src w stride (h - 1 - Z.of_nat k))).
    { unfold src_row. apply Forall_forall. intros v V. apply in_map_iff in V. destruct V as (j & <- & _). unfold u8.
      destruct (Nat.lt_ge_cases (Z.to_nat ((h - 1 - Z.of_nat k) * stride + Z.of_nat j)) (length src)) as [L|L].
      - unfold pixels_ok in P. rewrite Forall_forall in P. apply P. apply nth_In. exact L.
      - rewrite nth_overflow by exact L. destruct f; cbn; lia. }
    destruct f; cbn [enc_row].
    + apply bytes_concat. intros; apply bytes_le32.
    + apply bytes_concat. intros. repeat (apply Forall_cons; [apply byte_w8|]). apply Forall_nil.
    + exact R.
Qed.

Lemma file_length f w h src stride : creatable f w h -> Z.of_nat (length (file_of f w h src stride)) = pixels_at f + enc_total f w h.
Proof.
  intros (W & H & _). unfold file_of. rewrite !app_length. pose proof (head_length f w h). pose proof (palette_length f).
  pose proof (body_length f w h src stride W). unfold pixels_at. lia.
Qed.

Lemma file_header f w h src stride : creatable f w h -> let d := file_of f w h src stride in
  signature_ok d /\ header_of d = Header (pixels_at f) (enc_header_size f) w h 1 (enc_depth f) 0 (enc_total f w h).
Proof.
  intros C d. pose proof (total_bound f w h C) as [T0 T1]. destruct C as (W & H & B).
  assert (T2 : 0 <= enc_total f w h < 2 ^ 32) by (assert (0 < pixels_at f) by (destruct f; cbn; lia); lia).
  set (tail := palette_bytes f ++ body_of f w h src stride).
  assert (D : d = head_of f w h ++ tail) by (unfold d, file_of, tail; rewrite app_assoc; reflexivity).
  clearbody tail d. subst d.
  assert (E10 : u32 (head_of f w h ++ tail) 10 = pixels_at f) by (destruct f; reflexivity).
  assert (E14 : u32 (head_of f w h ++ tail) 14 = enc_header_size f) by (destruct f; reflexivity).
  assert (E18 : u32 (head_of f w h ++ tail) 18 = w) by (apply u32_le; [change (2 ^ 32) with 4294967296; lia|destruct f; reflexivity..]).
  assert (E22 : u32 (head_of f w h ++ tail) 22 = h) by (apply u32_le; [change (2 ^ 32) with 4294967296; lia|destruct f; reflexivity..]).
  assert (E26 : u16 (head_of f w h ++ tail) 26 = 1) by (destruct f; reflexivity).
  assert (E28 : u16 (head_of f w h ++ tail) 28 = enc_depth f) by (destruct f; reflexivity).
  assert (E30 : u32 (head_of f w h ++ tail) 30 = 0) by (destruct f; reflexivity).
  assert (E34 : u32 (head_of f w h ++ tail) 34 = enc_total f w h) by (apply u32_le; [exact T2|destruct f; reflexivity..]).
  split; [split; destruct f; reflexivity|].
  unfold header_of. rewrite E10, E14, E18, E22, E26, E28, E30, E34.
  replace (enc_header_size f =? 12) with false by (destruct f; reflexivity).
  f_equal; unfold signed; change (2 ^ (32 - 1)) with 2147483648;
    (match goal with |- (if ?a <? ?b then _ else _) = _ => destruct (Z.ltb_spec a b); [reflexivity|lia] end).
Qed.

Definition enc_format (f : pixel_format) : bmp_format :=
  match f with
  | PRGB32 => BmpFormat 32 false [(8, 16); (8, 8); (8, 0); (8, 24)]
  | XRGB32 => BmpFormat 24 false [(8, 16); (8, 8); (8, 0); (0, 0)]
  | A8 => BmpFormat 8 true [(0, 0); (0, 0); (0, 0); (0, 0)]
  end.

Lemma file_info f w h src stride : creatable f w h -> pixels_ok f src ->
  exists idx, read_info_internal (file_of f w h src stride) =
    Ok (BmpInfo (pixels_at f) (enc_header_size f) w h (enc_depth f) 0 (enc_total f w h) (row_bytes w (enc_depth f)) (enc_format f) idx).
Proof.
  intros C P. pose proof (total_bound f w h C) as [T0 T1]. destruct (file_header f w h src stride C) as [SG HD].
  pose proof (file_bytes f w h src stride P) as BY. pose proof (file_length f w h src stride C) as LN.
  set (d := file_of f w h src stride) in *.
  assert (P14 : 54 <= 14 + enc_header_size f <= pixels_at f) by (clear; destruct f; vm_compute; split; discriminate).
  rewrite read_info_pure; [|exact BY|lia|exact SG|rewrite HD; clear; destruct f; cbn; tauto|rewrite HD; cbn [hd_size]; lia].
  rewrite HD. unfold pure_info. cbn [hd_height hd_width hd_planes hd_comp hd_depth hd_offset hd_size hd_image_size]. cbv zeta.
  destruct C as (W & H & B).
  destruct (Z.eqb_spec h (- 2 ^ 31)) as [E|_]; [lia|]. destruct (Z.leb_spec w 0); [lia|]. cbn [orb].
  change (negb (1 =? 1)) with false. change (negb (0 =? 0)) with false. cbn [andb].
  destruct (Z.ltb_spec (pixels_at f) (14 + enc_header_size f)); [lia|].
  assert (CI : check_image_size w (Z.abs h) = true).
  { unfold check_image_size, BL_RUNTIME_MAX_IMAGE_SIZE. rewrite Z.abs_eq by lia. apply andb_true_intro. split; apply Z.leb_le; lia. }
  rewrite CI. cbn [negb].
  assert (CD : check_depth (enc_depth f) = true) by (destruct f; reflexivity). rewrite CD. cbn [negb].
  rewrite Z.abs_eq by lia. fold (enc_total f w h). change (2 ^ 32) with 4294967296 in T1.
  destruct (Z.ltb_spec 4294967295 (enc_total f w h)); [lia|].
  replace (enc_header_size f =? 12) with false by (destruct f; reflexivity).
  destruct (Z.eqb_spec (enc_total f w h) 0) as [E|_]; [lia|]. cbn [orb andb].
  destruct (Z.ltb_spec (enc_total f w h) (enc_total f w h)); [lia|]. rewrite andb_false_r.
  assert (PM : exists n, pure_masks d (Header (pixels_at f) (enc_header_size f) w h 1 (enc_depth f) 0 (enc_total f w h)) = Ok (enc_format f, n)).
  { unfold pure_masks, masked, bit_fields. cbn [hd_comp hd_depth hd_size].
    destruct f; eexists; reflexivity. }
  destruct PM as [n ->]. cbn [bind fst snd]. eexists. reflexivity.
Qed.

Lemma file_stored f w h src stride r : creatable f w h -> 0 <= r < h ->
  stored_row (file_of f w h src stride) (pixels_at f) w (enc_depth f) r = enc_row f (src_row src w stride (h - 1 - r)).
Proof.
  intros (W & H & _) R.
  assert (PB : 1 <= pixel_bytes f) by (destruct f; cbn; lia).
  assert (NB : (w * enc_depth f + 7) / 8 = pixel_bytes f * w).
  { replace (w * enc_depth f + 7) with (7 + (pixel_bytes f * w) * 8) by (destruct f; cbn [enc_depth pixel_bytes]; ring).
    rewrite Z.div_add by lia. reflexivity. }
  pose proof (enc_row_length f (src_row src w stride (h - 1 - r))) as EL. rewrite src_row_length in EL by lia.
  pose proof (row_len f w W) as [RL G].
  unfold stored_row. rewrite NB.
  apply (nth_ext _ _ 0 0); [rewrite map_length, seq_length; lia|].
  intros k K. rewrite map_length, seq_length in K.
  set (g := fun k => u8 (file_of f w h src stride) (pixels_at f + r * row_bytes w (enc_depth f) + Z.of_nat k)).
  rewrite (nth_indep _ 0 (g O)) by (rewrite map_length, seq_length; exact K).
  rewrite map_nth, seq_nth by exact K. cbn [plus]. unfold g, u8. clear g.
  pose proof (row_bytes_pos f w W) as RP.
  assert (LA : Z.of_nat (length (head_of f w h ++ palette_bytes f)) = pixels_at f).
  { rewrite app_length. pose proof (head_length f w h). pose proof (palette_length f). unfold pixels_at. lia. }
  unfold file_of. rewrite app_nth2 by nia.
  replace (Z.to_nat (pixels_at f + r * row_bytes w (enc_depth f) + Z.of_nat k) - length (head_of f w h ++ palette_bytes f))%nat
    with (Z.to_nat r * Z.to_nat (row_bytes w (enc_depth f)) + k)%nat by nia.
  unfold body_of. rewrite (nth_blocks _ _ 0 (rows_equal f w h src stride W)) by (rewrite ?map_length, ?seq_length; lia).
  set (g := fun k => file_row f src w stride (h - 1 - Z.of_nat k) (enc_gap f w)).
  rewrite (nth_indep _ [] (g O)) by (rewrite map_length, seq_length; lia).
  rewrite map_nth, seq_nth by lia. unfold g, file_row. replace (h - 1 - Z.of_nat (0 + Z.to_nat r)) with (h - 1 - r) by lia.
  rewrite app_nth1 by lia. reflexivity.
Qed.

(* The conversions that reading the three kinds of files asks for *)
Definition converter_ok (pc : bool -> bmp_format -> list Z -> outcome (Z -> list Z -> list Z)) : Prop :=
  (exists c, pc true (enc_format PRGB32) [] = Ok c /\
     forall w row, 0 <= w -> c w row = map (fun k => u32 row (4 * Z.of_nat k)) (seq 0 (Z.to_nat w))) /\
  (exists c, pc false (enc_format XRGB32) [] = Ok c /\
     forall w row, 0 <= w -> c w row =
       map (fun k => 0xFF000000 + u16 row (3 * Z.of_nat k) + 65536 * u8 row (3 * Z.of_nat k + 2)) (seq 0 (Z.to_nat w))) /\
  (forall pal, length pal = 256%nat -> exists c, pc false (enc_format A8) pal = Ok c /\
     forall w row, 0 <= w -> c w row = map (fun k => nth (Z.to_nat (u8 row (Z.of_nat k))) pal 0) (seq 0 (Z.to_nat w))).

Definition pixel_back (f : pixel_format) (v : Z) : Z :=
  match f with PRGB32 => v | XRGB32 => 0xFF000000 + v mod 2 ^ 24 | A8 => 0xFF000000 + 0x10101 * v end.

Lemma enc_row_nth {A} (g : A -> list Z) n row x j dflt : (forall v, length (g v) = n) -> (j < n)%nat -> (x < length row)%nat ->
  nth (x * n + j) (concat (map g row)) 0 = nth j (g (nth x row dflt)) 0.
Proof.
  intros G J X. rewrite (nth_blocks n); [|apply Forall_forall; intros l L; apply in_map_iff in L; destruct L as (v & <- & _); apply G|exact J|now rewrite map_length].
  rewrite (nth_indep _ [] (g dflt)) by (now rewrite map_length). rewrite map_nth. reflexivity.
Qed.

Lemma gray_palette w h src stride v : 0 <= v < 256 ->
  nth (Z.to_nat v) (palette_of (file_of A8 w h src stride) 40 (pixels_at A8)) 0 = 0xFF000000 + 0x10101 * v.
Proof.
  intros V. unfold palette_of. change (40 =? 12) with false. cbv iota zeta. change (pixels_at A8) with 1078.
  change ((1078 - (14 + 40)) / 4) with 256.
  set (g := fun k => if Z.of_nat k <? 256 then palette_entry (file_of A8 w h src stride) (14 + 40 + Z.of_nat k * 4) else 4278190080).
  rewrite (nth_indep _ 0 (g O)) by (rewrite map_length, seq_length; lia). rewrite map_nth, seq_nth by lia. cbn [plus]. unfold g.
  destruct (Z.ltb_spec (Z.of_nat (Z.to_nat v)) 256); [|lia]. rewrite Z2Nat.id by lia.
  unfold palette_entry.
  assert (E : forall j, (j < 3)%nat -> u8 (file_of A8 w h src stride) (54 + v * 4 + Z.of_nat j) = v).
  { intros j J. unfold u8, file_of. pose proof (head_length A8 w h) as HL. change (14 + enc_header_size A8) with 54 in HL.
    pose proof (palette_length A8) as PL. change (enc_palette_size A8) with 1024 in PL.
    rewrite app_nth1 by (rewrite app_length; lia). rewrite app_nth2 by lia.
    replace (Z.to_nat (54 + v * 4 + Z.of_nat j) - length (head_of A8 w h))%nat with (Z.to_nat v * 4 + j)%nat by lia.
    cbn [palette_bytes]. unfold enc_palette.
    rewrite (enc_row_nth (fun i => [Z.of_nat i; Z.of_nat i; Z.of_nat i; 255]) 4 _ _ _ O) by (try reflexivity; rewrite ?seq_length; lia).
    rewrite seq_nth by lia. cbn [plus]. destruct j as [|[|[|j]]]; cbn [nth]; lia. }
  change (14 + 40) with 54. pose proof (E 0%nat ltac:(lia)) as E0. pose proof (E 1%nat ltac:(lia)) as E1. pose proof (E 2%nat ltac:(lia)) as E2.
  change (Z.of_nat 0) with 0 in E0. change (Z.of_nat 1) with 1 in E1. change (Z.of_nat 2) with 2 in E2. rewrite Z.add_0_r in E0.
  rewrite E0, E1, E2. ring.
Qed.

Lemma src_row_nth src w stride y x : 0 <= x < w -> 0 <= y * stride -> nth (Z.to_nat x) (src_row src w stride y) 0 = u8 src (y * stride + x).
Proof.
  intros X Y. unfold src_row. set (g := fun k => u8 src (y * stride + Z.of_nat k)).
  rewrite (nth_indep _ 0 (g O)) by (rewrite map_length, seq_length; lia). rewrite map_nth, seq_nth by lia. unfold g. f_equal. lia.
Qed.

Lemma map_seq_nth (g : nat -> Z) w x : 0 <= x < w -> nth (Z.to_nat x) (map g (seq 0 (Z.to_nat w))) 0 = g (Z.to_nat x).
Proof.
  intros X. rewrite (nth_indep _ 0 (g O)) by (rewrite map_length, seq_length; lia). rewrite map_nth, seq_nth by lia. reflexivity.
Qed.

Ltac Zify.zify_post_hook ::= Z.div_mod_to_equations.
Lemma low24 v : 0 <= v -> w8 v + 256 * w8 (Z.shiftr v 8) + 65536 * w8 (Z.shiftr v 16) = v mod 2 ^ 24.
Proof.
  intros V. unfold w8. rewrite !Z.shiftr_div_pow2 by lia.
  change (2 ^ 8) with 256. change (2 ^ 16) with 65536. change (2 ^ 24) with 16777216. lia.
Qed.
Ltac Zify.zify_post_hook ::= idtac.

Lemma round_trip pc alloc f w h src stride :
  (forall al fm pal, match pc al fm pal with
     | Ok conv => forall w row, 0 <= w -> Z.of_nat (length (conv w row)) = w | Err e => e <> 0 | _ => False end) ->
  converter_ok pc ->
  (forall w h, 0 < w -> 0 < h -> let '(st, m) := alloc w h in w <= st /\ Z.of_nat (length m) = st * h) ->
  creatable f w h -> 4 * w * h <= 0x7FFFFFFF -> src_ok w h stride src -> pixels_ok f src ->
  exists i im,
    read_info_internal (file_of f w h src stride) = Ok i /\
    read_frame_internal pc alloc i (file_of f w h src stride) = Ok im /\
    im_alpha im = (match f with PRGB32 => true | _ => false end) /\
    im_w im = w /\ im_h im = h /\ w <= im_stride im /\ Z.of_nat (length (im_mem im)) = im_stride im * h /\
    forall x y, 0 <= x < w -> 0 <= y < h ->
      elem_at (im_mem im) (y * im_stride im + x) = Some (pixel_back f (u8 src (y * stride + x))).
Proof.
  intros PC (C1 & C2 & C3) AL C C4 SO PO.
  destruct (file_info f w h src stride C PO) as [idx RI]. pose proof (total_bound f w h C) as [T0 T1].
  pose proof (file_bytes f w h src stride PO) as BY. pose proof (file_length f w h src stride C) as LN.
  set (i := BmpInfo (pixels_at f) (enc_header_size f) w h (enc_depth f) 0 (enc_total f w h) (row_bytes w (enc_depth f)) (enc_format f) idx) in *.
  exists i. pose proof (read_info_ok _ _ BY RI) as IO.
  assert (RF : rle_info i = false) by (destruct f; reflexivity).
  pose proof (frame_raw pc alloc PC AL i (file_of f w h src stride) IO BY RF) as FR.
  assert (EN : enough i (file_of f w h src stride) = true).
  { unfold enough, i. cbn [i_hsize i_depth i_offset i_size]. rewrite LN.
    assert (HP : 14 + enc_header_size f <= pixels_at f) by (clear; destruct f; vm_compute; discriminate).
    assert (P2 : 14 + enc_header_size f + Z.min ((pixels_at f - (14 + enc_header_size f)) / entity_of (enc_header_size f)) 256 *
                 entity_of (enc_header_size f) <= pixels_at f) by (clear; destruct f; vm_compute; discriminate).
    apply andb_true_intro; split; [apply andb_true_intro; split; [apply andb_true_intro; split|]|].
    - apply Z.leb_le. lia.
    - apply orb_true_iff. right. apply Z.leb_le. lia.
    - apply Z.ltb_lt. lia.
    - apply Z.leb_le. lia. }
  destruct C as (W & H & B). pose proof (conj W (conj H B) : creatable f w h) as C.
  assert (CE : create_error (i_w i) (Z.abs (i_h i)) = None).
  { unfold i. cbn [i_w i_h]. unfold create_error, BL_RUNTIME_MAX_IMAGE_SIZE, kMaxAddressableOffset. rewrite Z.abs_eq by lia.
    destruct (Z.leb_spec w 0), (Z.leb_spec h 0), (Z.ltb_spec 65535 w), (Z.ltb_spec 65535 h), (Z.ltb_spec 2147483647 (w * 4 * h)); try lia. reflexivity. }
  assert (LP : length (frame_palette i (file_of f w h src stride)) = (match f with A8 => 256 | _ => 0 end)%nat).
  { unfold frame_palette, i. cbn [i_depth i_hsize i_offset]. destruct f; reflexivity. }
  assert (PCF : exists c, pc (has_alpha i) (i_fmt i) (frame_palette i (file_of f w h src stride)) = Ok c).
  { destruct f.
    - destruct C1 as (c & E & _). exists c. exact E.
    - destruct C2 as (c & E & _). exists c. exact E.
    - destruct (C3 _ LP) as (c & E & _). exists c. exact E. }
  destruct PCF as [cc PCC].
  destruct (read_frame_internal pc alloc i (file_of f w h src stride)) as [im|e| |] eqn:RFI; try contradiction.
  2:{ exfalso. rewrite EN, CE, PCC in FR. destruct FR as [[X _]|[X|X]]; discriminate. }
  exists im. destruct FR as (_ & _ & A & IW & IH & ST & LM & conv & CV & PX).
  split; [exact RI|]. split; [reflexivity|]. split; [rewrite A; unfold i; destruct f; reflexivity|].
  unfold i in IW, IH, ST. cbn [i_w i_h] in IW, IH, ST. rewrite Z.abs_eq in IH by lia.
  split; [exact IW|]. split; [exact IH|]. split; [exact ST|]. split; [rewrite LM, IH; reflexivity|].
  intros x y X Y.
  assert (RW := PX x y). unfold i in RW. cbn [i_w i_h i_offset i_depth] in RW. rewrite Z.abs_eq in RW by lia.
  rewrite RW by assumption. clear RW PX. f_equal.
  unfold stored_at. destruct (Z.ltb_spec 0 h); [|lia].
  rewrite file_stored by (try exact C; lia). replace (h - 1 - (h - 1 - y)) with y by lia.
  destruct (SO y Y) as [S1 S2].
  pose proof (src_row_length src w stride y ltac:(lia)) as SL.
  assert (SX : (Z.to_nat x < length (src_row src w stride y))%nat) by lia.
  assert (VR : 0 <= u8 src (y * stride + x) < pixel_range f).
  { unfold pixels_ok in PO. rewrite Forall_forall in PO. apply PO. apply nth_In. lia. }
  rewrite <- src_row_nth with (w := w) in * by assumption.
  set (row := src_row src w stride y) in *. clearbody row.
  assert (QQ : forall n k, Z.to_nat (Z.of_nat n * Z.of_nat (Z.to_nat x) + Z.of_nat k) = (Z.to_nat x * n + k)%nat) by (intros; lia).
  destruct f.
  - destruct C1 as (c & E & CC). change (pc (has_alpha i) (i_fmt i) (frame_palette i (file_of PRGB32 w h src stride)))
      with (pc true (enc_format PRGB32) []) in CV. rewrite E in CV. injection CV as <-.
    rewrite CC by lia. rewrite map_seq_nth by exact X. cbn [enc_row pixel_back pixel_range] in *.
    assert (B4 : forall k, (k < 4)%nat -> u8 (concat (map le32 row)) (4 * Z.of_nat (Z.to_nat x) + Z.of_nat k) = nth k (le32 (nth (Z.to_nat x) row 0)) 0).
    { intros k K. unfold u8. change (4 * Z.of_nat (Z.to_nat x) + Z.of_nat k) with (Z.of_nat 4 * Z.of_nat (Z.to_nat x) + Z.of_nat k). rewrite (QQ 4%nat k). apply enc_row_nth; [reflexivity|exact K|exact SX]. }
    apply u32_le; [exact VR|..].
    + pose proof (B4 0%nat ltac:(lia)) as Q. change (Z.of_nat 0) with 0 in Q. rewrite Z.add_0_r in Q. exact Q.
    + exact (B4 1%nat ltac:(lia)).
    + exact (B4 2%nat ltac:(lia)).
    + rewrite <- Z.add_assoc. exact (B4 3%nat ltac:(lia)).
  - destruct C2 as (c & E & CC). change (pc (has_alpha i) (i_fmt i) (frame_palette i (file_of XRGB32 w h src stride)))
      with (pc false (enc_format XRGB32) []) in CV. rewrite E in CV. injection CV as <-.
    rewrite CC by lia. rewrite map_seq_nth by exact X. cbn [enc_row pixel_back pixel_range] in *.
    set (g := fun v => [w8 v; w8 (Z.shiftr v 8); w8 (Z.shiftr v 16)]).
    assert (B3 : forall k, (k < 3)%nat -> u8 (concat (map g row)) (3 * Z.of_nat (Z.to_nat x) + Z.of_nat k) = nth k (g (nth (Z.to_nat x) row 0)) 0).
    { intros k K. unfold u8. change (3 * Z.of_nat (Z.to_nat x) + Z.of_nat k) with (Z.of_nat 3 * Z.of_nat (Z.to_nat x) + Z.of_nat k). rewrite (QQ 3%nat k). apply enc_row_nth; [reflexivity|exact K|exact SX]. }
    rewrite <- low24 by lia. unfold u16.
    pose proof (B3 0%nat ltac:(lia)) as Q0. change (Z.of_nat 0) with 0 in Q0. rewrite Z.add_0_r in Q0.
    pose proof (B3 1%nat ltac:(lia)) as Q1. pose proof (B3 2%nat ltac:(lia)) as Q2.
    change (Z.of_nat 1) with 1 in Q1. change (Z.of_nat 2) with 2 in Q2. rewrite Q0, Q1, Q2. cbn [nth g]. unfold g. cbn [nth]. ring.
  - destruct (C3 _ LP) as (c & E & CC). change (pc (has_alpha i) (i_fmt i) (frame_palette i (file_of A8 w h src stride)))
      with (pc false (enc_format A8) (frame_palette i (file_of A8 w h src stride))) in CV. rewrite E in CV. injection CV as <-.
    rewrite CC by lia. rewrite map_seq_nth by exact X. cbn [enc_row pixel_back pixel_range] in *.
    unfold u8. rewrite Nat2Z.id. apply gray_palette. exact VR.
Qed.
