(* Decoding the pixel data: the whole path from the inflated bytes to the rows handed to the pixel converter. *)
From Verif Require Import Base Bits IntOps_Model Algorithm_Model Algorithm_Proofs Png_Model Png_Spec Png_Proofs Png_Proofs2 Png_Proofs3 Png_Proofs4 Png_Proofs5 Png_Proofs6 Png_Proofs7 Png_Proofs8 Png_Proofs9 Png_Proofs10.
From Coq Require Import ZifyBool Permutation.

Lemma rows_permutation h : 0 <= h ->
  Permutation (map (fun i => 1 + 2 * i) (zrange (h / 2)) ++ map (fun i => 2 * i) (zrange ((h + 1) / 2))) (zrange h).
Proof.
  revert h. apply natlike_ind; [apply Permutation_refl|]. intros h Hh IH. unfold Z.succ. rewrite (zrange_succ h) by assumption.
  destruct (Z.eq_dec (h mod 2) 0) as [E|E].
  - replace ((h + 1) / 2) with (h / 2) in * by lia. replace ((h + 1 + 1) / 2) with (h / 2 + 1) by lia.
    rewrite (zrange_succ (h / 2)), map_app, app_assoc by lia. cbn [map]. replace (2 * (h / 2)) with h by lia.
    apply Permutation_app_tail. assumption.
  - replace ((h + 1 + 1) / 2) with ((h + 1) / 2) by lia. replace (zrange ((h + 1) / 2)) with (zrange (h / 2) ++ [h / 2]) at 1 by (rewrite <- zrange_succ by lia; f_equal; lia).
    rewrite map_app. cbn [map]. replace (1 + 2 * (h / 2)) with h by lia. rewrite <- app_assoc.
    etransitivity; [|apply Permutation_app_tail; exact IH]. rewrite <- app_assoc. apply Permutation_app_head. apply Permutation_app_comm.
Qed.

Lemma data_size_ge depth w h : 1 <= depth -> 1 <= w -> 1 <= h -> h <= pass_offset depth w h 7.
Proof.
  intros Hd Hw Hh.
  pose proof (pass_offset_mono depth w h 1 6 ltac:(lia) ltac:(lia) ltac:(lia) ltac:(lia) ltac:(lia)) as M.
  pose proof (pass_offset_succ depth w h 0 ltac:(lia)) as A. pose proof (pass_offset_succ depth w h 6 ltac:(lia)) as C.
  rewrite pass_offset_0 in A. cbn [Z.add Pos.add Pos.succ] in A, C. rewrite pass_size_eq, psize_rb in A, C by lia. unfold rb, pw, ph in A, C. cbn [Z.eqb Pos.eqb] in A, C.
  replace ((w + 7) / 8 =? 0) with false in A by lia. replace (w =? 0) with false in C by lia. unfold row_bytes_spec in A, C.
  assert (R : forall n, 1 <= n -> 1 <= (n * depth + 7) / 8) by (intros n Hn; apply Z.div_le_lower_bound; nia).
  pose proof (R ((w + 7) / 8) ltac:(lia)) as R0. pose proof (R w Hw) as R6.
  set (q0 := ((w + 7) / 8 * depth + 7) / 8) in *. set (q6 := (w * depth + 7) / 8) in *. clearbody q0 q6.
  assert (X0 : 2 * ((h + 7) / 8) <= pass_offset depth w h 1) by (rewrite A; assert (0 <= (h + 7) / 8) by lia; nia).
  assert (X6 : 2 * (h / 2) <= h / 2 * (1 + q6)) by (assert (0 <= h / 2) by lia; nia). lia.
Qed.

Section Pixels.
  Context (sd sc w h pad : Z) (oom : bool).
  Notation D := (sd * sc).
  Context (HS : sample_ok sd sc) (Hw : 1 <= w <= 65535) (Hh : 1 <= h <= 65535) (Hpad : 0 <= pad <= 15).
  Context (Hgood : forall r, 0 <= r < (h + 1) / 2 -> good_row D w (r mod 4)).

  Lemma read_interlaced_ok m steps : bytes m -> pass_offset D w h 7 <= len m ->
    (forall p, 0 <= p < 7 -> step_ok D w h p (nstep steps (Z.to_nat p))) ->
    (exists log, read_interlaced D w h pad oom steps m = Ok log /\ Permutation (map fst log) (zrange h) /\
       forall y r, In (y, r) log -> entry_ok m D w h y r) \/
    (oom = true /\ read_interlaced D w h pad oom steps m = Err BL_ERROR_OUT_OF_MEMORY).
  Proof.
    intros B Hl ST. pose proof (sample_depth_pos _ _ HS) as HD. unfold read_interlaced.
    pose proof (ST 6 ltac:(lia)) as S6. change (Z.to_nat 6) with 6%nat in S6. destruct S6 as (_ & H6 & _ & B6 & O6 & Z6).
    rewrite H6, B6, O6, Z6. unfold ph, pw in *. cbn [Z.eqb Pos.eqb] in *. fold (pw 6 w) in *.
    pose proof (pass_offset_mono D w h 0 6 ltac:(lia) ltac:(lia) ltac:(lia) ltac:(lia) ltac:(lia)) as M0. rewrite pass_offset_0 in M0.
    pose proof (pass_offset_succ D w h 6 ltac:(lia)) as MS. cbn [Z.add Pos.add Pos.succ] in MS. rewrite pass_size_eq, psize_rb in MS by lia.
    unfold rb, pw, ph in MS. cbn [Z.eqb Pos.eqb] in MS. replace (w =? 0) with false in MS by lia.
    pose proof (row_bytes_le D w ltac:(lia) HD) as RB. set (bpl := row_bytes_spec D w) in *.
    assert (BPL : bpl = 1 + (w * D + 7) / 8) by reflexivity.
    assert (ODD : exists log, (if h / 2 =? 0 then Ok [] else convert_rect (Z.to_nat (h / 2)) 1 2 (1 + pass_offset D w h 6) bpl w D m) = Ok log /\
      map fst log = map (fun i => 1 + 2 * i) (zrange (h / 2)) /\ forall y r, In (y, r) log -> entry_ok m D w h y r).
    { destruct (Z.eqb_spec (h / 2) 0) as [E|E].
      - exists []. rewrite E. split; [reflexivity|]. split; [reflexivity|]. intros y r [].
      - assert (ME : (h / 2 - 1) * bpl = h / 2 * bpl - bpl) by lia.
        destruct (convert_rect_ok m w D bpl ltac:(lia) ltac:(lia) ltac:(lia) (Z.to_nat (h / 2)) 1 2 (1 + pass_offset D w h 6)) as (l & E1 & F & P).
        + lia.
        + intros _. rewrite Z2Nat.id by lia. rewrite ME. lia.
        + rewrite Z2Nat.id in * by lia. exists l. split; [exact E1|]. split; [exact F|]. intros y r Hin. destruct (P y r Hin) as (i & Hi & -> & PX).
          split; [lia|]. intros x Hx. rewrite PX by assumption. unfold image_pixel. rewrite adam7_odd by lia.
          rewrite pass_height_eq, !pass_width_eq by lia. unfold ph, pw. cbn [Z.eqb Pos.eqb]. fold bpl. replace ((1 + 2 * i) / 2) with i by lia. f_equal. lia. }
    destruct ODD as (log & -> & LF & LE). cbn [bind].
    replace (w32 (h + 1)) with (h + 1) by (unfold w32; rewrite Z.mod_small; lia).
    rewrite (Z.min_comm ((h + 1) / 2)). pose proof (align_up_16 bpl ltac:(lia)) as AL. set (tb := align_up 32 bpl 16) in *. clearbody tb.
    set (th := Z.min 4 ((h + 1) / 2)) in *. assert (TH : 1 <= th <= 4) by (unfold th; lia).
    assert (TS : 0 <= tb * th <= 4 * (bpl + 16)) by (clear - TH AL RB; nia).
    assert (EW : w32 (tb * th) = tb * th) by (unfold w32; apply Z.mod_small; lia). rewrite EW.
    assert (EW2 : w32 (tb * th + 15) = tb * th + 15) by (unfold w32; apply Z.mod_small; lia). rewrite EW2. clear EW EW2.
    assert (LOOP : forall tmp m', bytes m' -> pass_offset D w h 6 <= tmp -> tmp + tb * th + 15 <= len m' -> len m <= len m' ->
       (forall j, 0 <= j < len m -> get m' j = get m j) ->
       (forall p, 0 <= p < 7 -> step_ok D w h p (nstep steps (Z.to_nat p))) ->
       exists log', deinterlace D w h (tmp + pad) tb steps m' = Ok log' /\ map fst log' = map (fun i => 2 * i) (zrange ((h + 1) / 2)) /\
         forall y r, In (y, r) log' -> entry_ok m D w h y r).
    { intros tmp m' B' T0 T1 LM AG _. unfold deinterlace. replace (w32 (h + 1)) with (h + 1) by (unfold w32; rewrite Z.mod_small; lia).
      set (d := {| d0 := _ |}).
      destruct (deinterlace_loop_ok m' D w h (tmp + pad) tb) with (fuel := S (length m')) (r := 0) (d := d) (m := m') (log := @nil (Z * list Z)) as (log' & E & F & P).
      - now apply sample_depth_cases.
      - lia.
      - lia.
      - lia.
      - lia.
      - fold th. lia.
      - exact Hgood.
      - lia.
      - pose proof (data_size_ge D w h ltac:(lia) ltac:(lia) ltac:(lia)) as G. unfold len in LM, Hl. lia.
      - intros p Hp. replace (ph p (2 * 0)) with 0 by (assert (C : p = 0 \/ p = 1 \/ p = 2 \/ p = 3 \/ p = 4 \/ p = 5) by lia; destruct C as [->|[->|[->|[->|[->| ->]]]]]; reflexivity).
        rewrite Z.add_0_r.
        assert (C : p = 0 \/ p = 1 \/ p = 2 \/ p = 3 \/ p = 4 \/ p = 5) by lia.
        destruct (ST p ltac:(lia)) as (_ & _ & _ & _ & <- & _). destruct C as [->|[->|[->|[->|[->| ->]]]]]; reflexivity.
      - split; [reflexivity|]. split; [assumption|]. reflexivity.
      - intros i x Hi. change (0 mod 4) with 0 in Hi. lia.
      - reflexivity.
      - intros y l [].
      - rewrite Z.sub_0_r in E. exists log'. split; [exact E|]. split; [exact F|]. intros y r Hin. destruct (P y r Hin) as (Hy & PX). split; [assumption|].
        intros x Hx. rewrite PX by assumption. apply image_pixel_ext; [lia|assumption|assumption|]. intros j Hj. apply AG. unfold data_size in Hj. lia. }
    assert (HB : 0 <= h / 2 * bpl) by (assert (0 <= h / 2) by lia; clear - H RB; nia).
    assert (FIN : forall log', map fst log' = map (fun i => 2 * i) (zrange ((h + 1) / 2)) -> (forall y r, In (y, r) log' -> entry_ok m D w h y r) ->
       Permutation (map fst (log ++ log')) (zrange h) /\ forall y r, In (y, r) (log ++ log') -> entry_ok m D w h y r).
    { intros log' F P. split.
      - rewrite map_app, LF, F. apply rows_permutation. lia.
      - intros y r Hin. apply in_app_or in Hin. destruct Hin; [now apply LE|now apply P]. }
    unfold psize. unfold pw, ph. cbn [Z.eqb Pos.eqb]. fold bpl. 
    destruct (Z.ltb_spec (if (w =? 0) || (h / 2 =? 0) then 0 else h / 2 * bpl) (tb * th + 15)) as [LT|GE].
    - destruct oom; cbn [bind]; [right; split; reflexivity|]. left. fold (len m).
      destruct (LOOP (len m) (m ++ repeat 0 (Z.to_nat (tb * th + 15)))) as (log' & -> & F & P).
      + apply Forall_app. split; [assumption|]. apply Forall_forall. intros z Hz. apply repeat_spec in Hz. subst z. split; reflexivity.
      + lia.
      + rewrite len_app. unfold len. rewrite repeat_length. lia.
      + rewrite len_app. unfold len. lia.
      + intros j Hj. now apply get_app.
      + exact ST.
      + cbn [bind]. destruct (FIN log' F P) as (PM & EN). exists (log ++ log'). split; [reflexivity|]. split; assumption.
    - left. cbn [bind]. destruct (LOOP (pass_offset D w h 6) m) as (log' & -> & F & P).
      + assumption.
      + lia.
      + replace (w =? 0) with false in GE by lia. cbn [orb] in GE. destruct (h / 2 =? 0); lia.
      + lia.
      + reflexivity.
      + exact ST.
      + cbn [bind]. destruct (FIN log' F P) as (PM & EN). exists (log ++ log'). split; [reflexivity|]. split; assumption.
  Qed.
End Pixels.

Lemma image_reconstructed_raw prog D w h data scratch m : 1 <= D <= 64 -> 0 < w < 268435456 -> 0 < h -> data_size prog D w h <= len data ->
  image_reconstructed prog D w h (data ++ scratch) m -> image_reconstructed prog D w h data m.
Proof.
  intros HD Hw Hh Hl. unfold image_reconstructed, data_size in *. destruct prog.
  - intros R p Hp N. rewrite !pass_width_eq, !pass_height_eq in * by lia.
    pose proof (pass_offset_mono D w h 0 p ltac:(lia) ltac:(lia) ltac:(lia) ltac:(lia) ltac:(lia)) as M0. rewrite pass_offset_0 in M0.
    pose proof (pass_offset_mono D w h (p + 1) 7 ltac:(lia) ltac:(lia) ltac:(lia) ltac:(lia) ltac:(lia)) as M1.
    rewrite pass_offset_succ, pass_size_eq, psize_rb in M1 by lia. unfold rb in M1. replace (pw p w =? 0) with false in M1 by lia.
    pose proof (pw_nonneg p w ltac:(lia)) as WN. pose proof (pw_le p w ltac:(lia)) as WL.
    pose proof (row_bytes_le D (pw p w) ltac:(lia) HD) as RB.
    specialize (R p Hp). rewrite !pass_width_eq, !pass_height_eq in R by lia. specialize (R N).
    eapply reconstructed_ext; [| | | | |exact R]; [lia|lia|lia| |reflexivity]. intros j Hj. apply get_app. lia.
  - intros R. pose proof (row_bytes_le D w ltac:(lia) HD) as RB.
    eapply reconstructed_ext; [| | | | |exact R]; [lia|lia|lia| |reflexivity]. intros j Hj. apply get_app. lia.
Qed.

(* After inflating: filtering always succeeds on data of the exact size, whatever the image. *)
Theorem filter_all prog sd sc w h data scratch :
  sample_ok sd sc -> 0 < w < 268435456 -> 0 < h < 2147483648 -> data_size prog (sd * sc) w h < 4294967296 ->
  bytes data -> bytes scratch -> len data = data_size prog (sd * sc) w h ->
  let '(steps, size) := calculate_interlace_steps (if prog then interlaceTableAdam7 else interlace_table_none) sd sc w h in
  size = data_size prog (sd * sc) w h /\
  (if prog then forall p, 0 <= p < 7 -> step_ok (sd * sc) w h p (nstep steps (Z.to_nat p)) else s_bpl (nstep steps 0) = row_bytes_spec (sd * sc) w) /\
  exists m, filter_steps (Z.max (sd * sc / 8) 1) steps (data ++ scratch) = Ok m /\ len m = len data + len scratch /\ bytes m /\
    image_reconstructed prog (sd * sc) w h (data ++ scratch) m.
Proof.
  intros HS Hw Hh H32 Bd Bs Hl. pose proof (sample_depth_pos _ _ HS) as HD.
  assert (B : bytes (data ++ scratch)) by (apply Forall_app; split; assumption).
  destruct prog.
  - destruct (steps_adam7 sd sc w h HS Hw Hh H32) as (steps & -> & LS & ST). unfold data_size in *.
    split; [reflexivity|]. split; [exact ST|].
    destruct (filter_steps_gen (data ++ scratch) sd sc w h HS Hw Hh H32) with (steps := steps) (p := 0) (m := data ++ scratch) as (m & E & L & Bm & O & R).
    + rewrite len_app. unfold len at 2. lia.
    + lia.
    + rewrite LS. reflexivity.
    + intros q Hq. rewrite Z.sub_0_r. apply ST. lia.
    + reflexivity.
    + exact B.
    + reflexivity.
    + intros q Hq. lia.
    + exists m. split; [exact E|]. split; [rewrite L; apply len_app|]. split; [exact Bm|].
      intros p Hp N. rewrite !pass_width_eq, !pass_height_eq in * by lia. now apply R.
  - rewrite (steps_none sd sc w h HS Hw Hh H32). cbn [nstep nth s_bpl]. split; [reflexivity|]. split; [reflexivity|].
    cbn [filter_steps s_used s_offset s_bpl s_height]. unfold data_size in *. pose proof (row_bytes_le (sd * sc) w ltac:(lia) HD) as RB.
    destruct (inverse_filter_ok (data ++ scratch) (Z.max (sd * sc / 8) 1) (row_bytes_spec (sd * sc) w) 0 h) as (m & -> & L & Bm & O & R); try assumption; try lia.
    + apply bpp_le; [now apply sample_depth_cases|lia].
    + rewrite len_app. unfold len at 2. lia.
    + cbn [bind]. exists m. split; [reflexivity|]. split; [rewrite L; apply len_app|]. split; [exact Bm|exact R].
Qed.

Theorem read_pixels_ok prog sd sc w h pad oom data scratch :
  sample_ok sd sc -> 0 < w < 268435456 -> 0 < h < 2147483648 -> data_size prog (sd * sc) w h < 4294967296 ->
  bytes data -> bytes scratch -> 0 <= pad <= 15 ->
  (prog = true -> forall r, 0 <= r < (h + 1) / 2 -> good_row (sd * sc) w (r mod 4)) ->
  match read_pixels prog sd sc w h pad oom data scratch with
  | Ok log => len data = data_size prog (sd * sc) w h /\ w <= 65535 /\ h <= 65535 /\ pixels_ok prog (sd * sc) w h data log
  | Err e => (e = BL_ERROR_INVALID_DATA /\ len data <> data_size prog (sd * sc) w h) \/
             (e = BL_ERROR_IMAGE_TOO_LARGE /\ len data = data_size prog (sd * sc) w h /\ (65535 < w \/ 65535 < h)) \/
             (e = BL_ERROR_OUT_OF_MEMORY /\ oom = true /\ prog = true)
  | _ => False
  end.
Proof.
  intros HS Hw Hh H32 Bd Bs Hpad Hgood. pose proof (sample_depth_pos _ _ HS) as HD. unfold read_pixels.
  pose proof (filter_all prog sd sc w h data scratch HS Hw Hh H32 Bd Bs) as FA.
  assert (SZ : snd (calculate_interlace_steps (if prog then interlaceTableAdam7 else interlace_table_none) sd sc w h) = data_size prog (sd * sc) w h).
  { destruct prog; [destruct (steps_adam7 sd sc w h HS Hw Hh H32) as (? & -> & _)|rewrite (steps_none sd sc w h HS Hw Hh H32)]; reflexivity. }
  destruct (calculate_interlace_steps _ sd sc w h) as (steps, size). cbn [snd] in SZ. subst size.
  assert (POS : 0 < data_size prog (sd * sc) w h).
  { unfold data_size. destruct prog; [pose proof (data_size_ge (sd * sc) w h); lia|]. pose proof (row_bytes_le (sd * sc) w ltac:(lia) HD). nia. }
  replace (data_size prog (sd * sc) w h =? 0) with false by lia. fold (len data).
  destruct (Z.eqb_spec (len data) (data_size prog (sd * sc) w h)) as [E|E]; cbn [negb]; [|now left].
  destruct (FA E) as (_ & ST & m & -> & L & Bm & R). clear FA. cbn [bind]. unfold BL_RUNTIME_MAX_IMAGE_SIZE.
  destruct ((65535 <? w) || (65535 <? h)) eqn:TL. { right. left. repeat split; lia. }
  assert (RD : image_reconstructed prog (sd * sc) w h data m) by (apply (image_reconstructed_raw _ _ _ _ _ scratch); try assumption; lia).
  assert (LS : 0 <= len scratch) by (unfold len; lia).
  destruct prog.
  - destruct (read_interlaced_ok sd sc w h pad oom HS ltac:(lia) ltac:(lia) Hpad (Hgood eq_refl) m steps Bm ltac:(unfold data_size in E; lia) ST) as [(log & -> & PM & EN)|(-> & ->)].
    + split; [assumption|]. split; [lia|]. split; [lia|]. split; [assumption|]. exists m. split; [assumption|]. intros y row Hin x Hx. destruct (EN y row Hin) as (_ & P). now apply P.
    + right. right. repeat split.
  - rewrite ST. unfold data_size in E. pose proof (row_bytes_le (sd * sc) w ltac:(lia) HD) as RB.
    destruct (convert_rect_ok m w (sd * sc) (row_bytes_spec (sd * sc) w) ltac:(lia) ltac:(lia) ltac:(lia) (Z.to_nat h) 0 1 1 ltac:(lia)) as (log & -> & F & P).
    { intros _. rewrite Z2Nat.id by lia. unfold row_bytes_spec in *. set (q := (w * (sd * sc) + 7) / 8) in *. assert ((h - 1) * (1 + q) = h * (1 + q) - (1 + q)) by lia. lia. }
    rewrite Z2Nat.id in * by lia. split; [assumption|]. split; [lia|]. split; [lia|]. split.
    + rewrite F. rewrite map_ext with (g := fun i => i) by (intros; lia). rewrite map_id. apply Permutation_refl.
    + exists m. split; [assumption|]. intros y row Hin x Hx. destruct (P y row Hin) as (i & Hi & -> & PX). rewrite PX by assumption.
      unfold image_pixel. f_equal. lia.
Qed.
