(* Rows of mask commands, boxes. *)
From Verif Require Import Base Algorithm_Model PixelOps_Model PixelOps_Spec PixelOps_Proofs Fill_Model Fill_Spec Fill_Proofs.
Ltac Zify.zify_post_hook ::= idtac.

(* the command of a span on row k of its group *)
Definition span_type (s : span) : Z := match s_src s with Const _ => 1 | Bytes true _ _ => 2 | Bytes false _ _ => 3 end.
Definition encode_at (k : Z) (s : span) : cmd :=
  Cmd (s_from s) (s_to s * 8 + span_type s)
    (match s_src s with Const v => v | Bytes _ p adv => (p + k * adv) mod 2 ^ 64 end)
    (match s_src s with Const v => 0 | Bytes _ p adv => adv mod 2 ^ 64 end).
Lemma span_type_ok s : Z.land (s_to s * 8 + span_type s) 7 = span_type s /\ Z.shiftr (s_to s * 8 + span_type s) 3 = s_to s.
Proof.
  assert (R : 1 <= span_type s <= 3) by (unfold span_type; destruct (s_src s) as [|[] ? ?]; lia).
  split.
  - change 7 with (Z.ones 3). rewrite Z.land_ones by lia. change (2 ^ 3) with 8. rewrite Z.add_comm, Z.mod_add by lia. apply Z.mod_small. lia.
  - rewrite Z.shiftr_div_pow2 by lia. change (2 ^ 3) with 8. rewrite Z.add_comm, Z.div_add by lia. rewrite Z.div_small by lia. reflexivity.
Qed.
Lemma encode_at_0 md width n s : Z.of_nat (length md) < 2 ^ 64 -> 1 <= n -> span_ok md width n s -> encode_span s = encode_at 0 s.
Proof.
  intros L N (A & B & C). unfold encode_span, encode_at, span_type. destruct (s_src s) as [v|ga p adv]; [reflexivity|].
  specialize (C 0 ltac:(lia)). rewrite (Z.mod_small (p + 0 * adv)) by lia. replace (p + 0 * adv) with p by lia. destruct ga; reflexivity.
Qed.

Section Fill.
Context {P : Type} (comp : Z -> Z -> P -> Z -> P) (comp_opaque : Z -> Z -> P -> P) (optimize : bool).
Context (OP : optimize = true -> forall x y d, comp x y d 255 = comp_opaque x y d).
Context (md : list Z) (alpha width : Z).
Context (LEN : Z.of_nat (length md) < 2 ^ 64) (MD : Forall (fun b => 0 <= b <= 255) md) (AL : 0 <= alpha <= 255) (WD : 0 <= width < 2 ^ 28).

Lemma byte_at_ok i : 0 <= byte_at md i <= 255.
Proof.
  unfold byte_at. destruct (Nat.lt_ge_cases (Z.to_nat i) (length md)) as [I|I].
  - rewrite Forall_forall in MD. apply MD, nth_In, I.
  - rewrite nth_overflow by exact I. lia.
Qed.

Definition span_body (cmds : list cmd) (cp i ty mv : Z) (s : @st P) : outcome (list cmd * st) :=
  if ty =? kCMask then
    let* s := cspan comp comp_opaque optimize s i (w32 mv) in Ok (cmds, s)
  else
    let* c := rd cmds (cp - 1) in
    let* cmds := wr cmds (cp - 1) (Cmd (c_x0 c) (c_x1t c) (w64 (mv + c_adv c)) (c_adv c)) in
    let* s := if ty =? kVMaskA8WithoutGA then vspan_without_ga comp s md mv alpha i else vspan_with_ga comp s md mv i in
    Ok (cmds, s).

Lemma span_body_ok pre sp post k n s : span_ok md width n sp -> 0 <= k < n -> room s (s_to sp - s_from sp) ->
  exists s', span_body (pre ++ encode_at k sp :: post) (Z.of_nat (length pre) + 1) (s_to sp - s_from sp) (span_type sp) (c_val (encode_at k sp)) s =
    Ok (pre ++ encode_at (k + 1) sp :: post, s') /\ drawn comp s s' (s_to sp - s_from sp) (fun o => span_mask md alpha k sp (s_from sp + o)).
Proof.
  intros (A & B & C) K R. unfold span_body, encode_at, span_mask, span_type in *. cbn [c_val]. destruct (s_src sp) as [v|ga p adv].
  - cbn [Z.eqb kCMask Pos.eqb]. destruct (cspan_ok comp comp_opaque optimize OP s (s_to sp - s_from sp) v) as (s' & E & D); [lia|exact R|].
    rewrite w32_small by lia. rewrite E. cbn [bind]. exists s'. split; [reflexivity|exact D].
  - specialize (C k K). rewrite (Z.mod_small (p + k * adv)) by lia.
    assert (T : ((if ga then 2 else 3) =? kCMask) = false) by (destruct ga; reflexivity). rewrite T.
    rewrite rd_app by lia. cbn [bind c_x0 c_x1t c_adv]. rewrite wr_app by lia. cbn [bind].
    assert (V : w64 (p + k * adv + adv mod 2 ^ 64) = (p + (k + 1) * adv) mod 2 ^ 64).
    { unfold w64. rewrite Z.add_mod_idemp_r by lia. f_equal. lia. }
    rewrite V.
    assert (G : exists s', (if (if ga then 2 else 3) =? kVMaskA8WithoutGA then vspan_without_ga comp s md (p + k * adv) alpha (s_to sp - s_from sp) else
        vspan_with_ga comp s md (p + k * adv) (s_to sp - s_from sp)) = Ok s' /\ drawn comp s s' (s_to sp - s_from sp)
        (fun o => let v := byte_at md (p + k * adv + (s_from sp + o - s_from sp)) in if ga then v else round_div (v * alpha) 255)).
    { unfold vspan_without_ga, vspan_with_ga. destruct (Z.eqb_spec (s_to sp - s_from sp) 0); [lia|].
      destruct ga; cbn [Z.eqb kVMaskA8WithoutGA Pos.eqb].
      - destruct (vspan_loop_ok comp (fun v => v) md (Z.to_nat (s_to sp - s_from sp)) s (p + k * adv)) as (s' & E & D);
          rewrite ?Z2Nat.id in * by lia; [exact R|lia|lia|].
        exists s'. split; [exact E|]. eapply drawn_ext; [|exact D]. intros o O. cbv beta zeta. f_equal. lia.
      - destruct (vspan_loop_ok comp (fun v => udiv255 (w32 (v * alpha))) md (Z.to_nat (s_to sp - s_from sp)) s (p + k * adv)) as (s' & E & D);
          rewrite ?Z2Nat.id in * by lia; [exact R|lia|lia|].
        exists s'. split; [exact E|]. eapply drawn_ext; [|exact D]. intros o O. cbv beta zeta.
        replace (p + k * adv + (s_from sp + o - s_from sp)) with (p + k * adv + o) by lia.
        pose proof (byte_at_ok (p + k * adv + o)) as Bt.
        assert (Pr : 0 <= byte_at md (p + k * adv + o) * alpha <= 65025) by nia.
        rewrite w32_small by lia. apply udiv255_ok, Pr. }
    destruct G as (s' & E & D). rewrite E. cbn [bind]. exists s'. split; [reflexivity|exact D].
Qed.

Lemma row_mask_from k spans x : contiguous spans -> (forall s, In s spans -> s_from s < s_to s) ->
  match spans with [] => True | s :: _ => x < s_from s -> row_mask md alpha k spans x = None end.
Proof.
  induction spans as [|s rest IH]; [auto|]. intros C F X. cbn [row_mask].
  pose proof (F s (or_introl eq_refl)) as Fs.
  destruct (Z.leb_spec (s_from s) x); [lia|]. cbn [andb]. destruct rest as [|s' rest]; [reflexivity|].
  destruct C as [C1 C2]. apply IH; [exact C2|intros; apply F; right; assumption|lia].
Qed.

Lemma row_loop_S fuel cmds cp i x ty mv s : row_loop comp comp_opaque optimize (S fuel) md alpha cmds cp i x ty mv s =
  (let* (cmds, s) := span_body cmds cp i ty mv s in
    let* c := rd cmds cp in
    if Z.land (c_x1t c) 7 =? 0 then Ok (cmds, cp, x, s) else
    let s := if x =? c_x0 c then s else advance_x s (w32 (c_x0 c - x)) in
    let x := c_x0 c in
    let i := w32 (Z.shiftr (c_x1t c) 3 - x) in
    row_loop comp comp_opaque optimize fuel md alpha cmds (cp + 1) i (w32 (x + i)) (Z.land (c_x1t c) 7) (c_val c) s).
Proof. reflexivity. Qed.

Lemma row_loop_ok n k e post b : 0 <= k < n -> Z.land (c_x1t e) 7 = 0 -> forall rest sp pre s fuel,
  (length rest < fuel)%nat -> contiguous (sp :: rest) -> Forall (span_ok md width n) (sp :: rest) ->
  s_dst s = b + s_from sp -> s_fx s = s_from sp -> (forall x, 0 <= x < width -> s_mem s (b + x) <> None) ->
  exists X s', row_loop comp comp_opaque optimize fuel md alpha (pre ++ encode_at k sp :: map (encode_at k) rest ++ e :: post)
      (Z.of_nat (length pre) + 1) (s_to sp - s_from sp) (s_to sp) (span_type sp) (c_val (encode_at k sp)) s =
    Ok (pre ++ map (encode_at (k + 1)) (sp :: rest) ++ e :: post, Z.of_nat (length pre + S (length rest)), X, s') /\
    s_dst s' = b + X /\ s_fy s' = s_fy s /\
    forall a, s_mem s' a = match row_mask md alpha k (sp :: rest) (a - b) with
      Some v => option_map (fun d => comp (a - b) (s_fy s) d v) (s_mem s a) | None => s_mem s a end.
Proof.
  intros K E0. induction rest as [|sp' rest IH]; intros sp pre s fuel FU CO OKs D FX RM.
  all: destruct fuel as [|fuel]; [cbn [length] in FU; lia|]; rewrite row_loop_S.
  all: pose proof (Forall_inv OKs) as OK1; pose proof (Forall_inv_tail OKs) as OK2.
  all: assert (SR : 0 <= s_from sp < s_to sp /\ s_to sp <= width) by (destruct OK1 as (? & ? & _); lia).
  all: assert (RO : room s (s_to sp - s_from sp)) by (intros o O; rewrite D; replace (b + s_from sp + o) with (b + (s_from sp + o)) by lia; apply RM; lia).
  - cbn [map app]. destruct (span_body_ok pre sp (e :: post) k n s OK1 K RO) as (s' & E & (D1 & D2 & D3 & D4)).
    rewrite E. cbn [bind]. replace (pre ++ encode_at (k + 1) sp :: e :: post) with ((pre ++ [encode_at (k + 1) sp]) ++ e :: post) by (rewrite <- app_assoc; reflexivity).
    rewrite rd_app by (rewrite app_length; cbn [length]; lia). cbn [bind]. rewrite E0. cbn [Z.eqb].
    exists (s_to sp), s'. split; [rewrite <- app_assoc; cbn [app length]; do 4 f_equal; lia|]. split; [lia|]. split; [exact D3|].
    intros a. rewrite D4. cbv zeta. rewrite D, FX. cbn [row_mask].
    replace (a - (b + s_from sp)) with (a - b - s_from sp) by lia. replace (s_from sp + (a - b - s_from sp)) with (a - b) by lia.
    destruct (Z.leb_spec 0 (a - b - s_from sp)), (Z.ltb_spec (a - b - s_from sp) (s_to sp - s_from sp)),
      (Z.leb_spec (s_from sp) (a - b)), (Z.ltb_spec (a - b) (s_to sp)); try lia; reflexivity.
  - cbn [map app]. destruct (span_body_ok pre sp (encode_at k sp' :: map (encode_at k) rest ++ e :: post) k n s OK1 K RO) as (s1 & E & (D1 & D2 & D3 & D4)).
    rewrite E. cbn [bind].
    replace (pre ++ encode_at (k + 1) sp :: encode_at k sp' :: map (encode_at k) rest ++ e :: post) with
      ((pre ++ [encode_at (k + 1) sp]) ++ encode_at k sp' :: map (encode_at k) rest ++ e :: post) by (rewrite <- app_assoc; reflexivity).
    rewrite rd_app by (rewrite app_length; cbn [length]; lia). cbn [bind].
    destruct CO as [CO1 CO2]. pose proof (Forall_inv OK2) as OK3.
    assert (SR' : 0 <= s_from sp' < s_to sp' /\ s_to sp' <= width) by (destruct OK3 as (? & ? & _); lia).
    assert (Hx1t : c_x1t (encode_at k sp') = s_to sp' * 8 + span_type sp') by reflexivity. rewrite Hx1t.
    destruct (span_type_ok sp') as [T1 T2]. rewrite T1, T2.
    assert (T3 : span_type sp' =? 0 = false) by (unfold span_type; destruct (s_src sp') as [|[] ? ?]; reflexivity). rewrite T3.
    assert (Hx0 : c_x0 (encode_at k sp') = s_from sp') by reflexivity. rewrite Hx0.
    destruct (Z.eqb_spec (s_to sp) (s_from sp')); [|lia]. cbv zeta.
    assert (B28 : 2 ^ 28 < 2 ^ 32) by reflexivity.
    rewrite (w32_small (s_to sp' - s_from sp')) by lia.
    replace (s_from sp' + (s_to sp' - s_from sp')) with (s_to sp') by lia. rewrite (w32_small (s_to sp')) by lia.
    destruct (IH sp' (pre ++ [encode_at (k + 1) sp]) s1 fuel) as (X & s2 & E2 & F1 & F2 & F3); clear IH.
    + cbn [length] in FU. lia.
    + exact CO2.
    + exact OK2.
    + lia.
    + lia.
    + intros x Hx. rewrite D4. cbv zeta. destruct ((0 <=? b + x - s_dst s) && (b + x - s_dst s <? s_to sp - s_from sp)); [|apply RM; exact Hx].
      pose proof (RM x Hx). destruct (s_mem s (b + x)); cbn [option_map]; congruence.
    + rewrite app_length in E2. cbn [length] in E2.
      replace (Z.of_nat (length pre + 1) + 1) with (Z.of_nat (length pre) + 1 + 1) in E2 by lia. rewrite E2.
      exists X, s2. split; [rewrite <- app_assoc; cbn [app map length]; do 4 f_equal; lia|]. split; [exact F1|]. split; [congruence|].
      intros a. rewrite F3, D4, D3. cbv zeta. rewrite D, FX.
      pose proof (row_mask_from k (sp' :: rest) (a - b) CO2) as RF. cbv beta iota in RF.
      assert (RF' : a - b < s_from sp' -> row_mask md alpha k (sp' :: rest) (a - b) = None).
      { apply RF. intros q Hq. rewrite Forall_forall in OK2. destruct (OK2 q Hq) as (? & _). lia. }
      change (row_mask md alpha k (sp :: sp' :: rest) (a - b)) with
        (if (s_from sp <=? a - b) && (a - b <? s_to sp) then Some (span_mask md alpha k sp (a - b)) else row_mask md alpha k (sp' :: rest) (a - b)).
      replace (a - (b + s_from sp)) with (a - b - s_from sp) by lia. replace (s_from sp + (a - b - s_from sp)) with (a - b) by lia.
      destruct (Z.leb_spec 0 (a - b - s_from sp)), (Z.ltb_spec (a - b - s_from sp) (s_to sp - s_from sp)),
        (Z.leb_spec (s_from sp) (a - b)), (Z.ltb_spec (a - b) (s_to sp)); try lia; cbn [andb]; try reflexivity.
      rewrite RF' by lia. reflexivity.
Qed.

(* rows *)
Lemma row_mask_range n k spans x v : Forall (span_ok md width n) spans -> row_mask md alpha k spans x = Some v -> 0 <= x < width.
Proof.
  induction spans as [|s rest IH]; cbn [row_mask]; [discriminate|]. intros F.
  pose proof (Forall_inv F) as (A & B & _). destruct (Z.leb_spec (s_from s) x), (Z.ltb_spec x (s_to s)); cbn [andb]; try (apply IH, (Forall_inv_tail F)).
  intros _. lia.
Qed.
Lemma rendered_row m m' stride y n k spans : Forall (span_ok md width n) spans ->
  (forall a, m' a = match row_mask md alpha k spans (a - y * stride) with
    Some v => option_map (fun d => comp (a - y * stride) y d v) (m a) | None => m a end) ->
  rendered comp m m' stride width y (y + 1) (fun x _ => row_mask md alpha k spans x).
Proof.
  intros F E. split.
  - intros x y' X Y. replace y' with y by lia. rewrite E. replace (y * stride + x - y * stride) with x by lia.
    destruct (row_mask md alpha k spans x); [reflexivity|]. destruct (m (y * stride + x)); reflexivity.
  - intros a N. rewrite E. destruct (row_mask md alpha k spans (a - y * stride)) eqn:R; [|reflexivity].
    apply (row_mask_range _ _ _ _ _ F) in R. exfalso. apply (N (a - y * stride) y); lia.
Qed.

Definition row_stage (cmds : list cmd) (cp : Z) (s : @st P) : outcome (list cmd * Z * st) :=
  let* c := rd cmds cp in
  if Z.land (c_x1t c) 7 =? 0 then Ok (cmds, cp, s) else
  let x := c_x0 c in
  let s := set_fx s x in
  let s := set_dst s (s_dst s + x) in
  let i := w32 (Z.shiftr (c_x1t c) 3 - x) in
  let* (cmds, cp', x, s) := row_loop comp comp_opaque optimize (length cmds) md alpha cmds (cp + 1) i (w32 (x + i)) (Z.land (c_x1t c) 7) (c_val c) s in
  Ok (cmds, cp', set_dst s (s_dst s - x)).
Lemma row_stage_ok n k spans pre e post s : 0 <= k < n -> Z.land (c_x1t e) 7 = 0 -> contiguous spans -> Forall (span_ok md width n) spans ->
  (forall x, 0 <= x < width -> s_mem s (s_dst s + x) <> None) ->
  exists s', row_stage (pre ++ map (encode_at k) spans ++ e :: post) (Z.of_nat (length pre)) s =
    Ok (pre ++ map (encode_at (k + 1)) spans ++ e :: post, Z.of_nat (length pre + length spans), s') /\
    s_dst s' = s_dst s /\ s_fy s' = s_fy s /\
    forall a, s_mem s' a = match row_mask md alpha k spans (a - s_dst s) with
      Some v => option_map (fun d => comp (a - s_dst s) (s_fy s) d v) (s_mem s a) | None => s_mem s a end.
Proof.
  intros K E0 CO OKs RM. unfold row_stage. destruct spans as [|sp rest].
  - cbn [map app]. rewrite rd_app by lia. cbn [bind]. rewrite E0. cbn [Z.eqb]. exists s. cbn [length]. rewrite Nat.add_0_r. repeat split; reflexivity.
  - cbn [map app]. rewrite rd_app by lia. cbn [bind].
    assert (Hx1t : c_x1t (encode_at k sp) = s_to sp * 8 + span_type sp) by reflexivity. rewrite Hx1t.
    destruct (span_type_ok sp) as [T1 T2]. rewrite T1, T2.
    assert (T3 : span_type sp =? 0 = false) by (unfold span_type; destruct (s_src sp) as [|[] ? ?]; reflexivity). rewrite T3.
    assert (Hx0 : c_x0 (encode_at k sp) = s_from sp) by reflexivity. rewrite Hx0. cbv zeta.
    assert (SR : 0 <= s_from sp < s_to sp /\ s_to sp <= width) by (destruct (Forall_inv OKs) as (? & ? & _); lia).
    assert (B28 : 2 ^ 28 < 2 ^ 32) by reflexivity.
    rewrite (w32_small (s_to sp - s_from sp)) by lia.
    replace (s_from sp + (s_to sp - s_from sp)) with (s_to sp) by lia. rewrite (w32_small (s_to sp)) by lia.
    match goal with |- context [row_loop _ _ _ ?f _ _ _ _ _ _ _ _ ?t] =>
      destruct (row_loop_ok n k e post (s_dst s) K E0 rest sp pre t f) as (X & s' & E & D1 & D2 & D3) end.
    + rewrite app_length. cbn [length]. rewrite app_length, map_length. cbn [length]. lia.
    + exact CO.
    + exact OKs.
    + reflexivity.
    + reflexivity.
    + exact RM.
    + rewrite E. cbn [bind]. eexists. split; [reflexivity|]. cbn [set_dst s_dst s_fy s_mem]. split; [lia|]. split; [exact D2|]. exact D3.
Qed.

Lemma mask_loop_S h stride cmds cp s : mask_loop comp comp_opaque optimize (S h) md alpha stride cmds cp s =
  (let* (cmds, cp', s) := row_stage cmds cp s in
   let* e := rd cmds cp' in
   match h with
   | O => Ok (s_mem s)
   | _ =>
     let s := advance_y (set_dst s (s_dst s + stride)) in
     let rep := w32 (c_x0 e - 1) in
     let* cmds := wr cmds cp' (Cmd rep (c_x1t e) (c_val e) (c_adv e)) in
     mask_loop comp comp_opaque optimize h md alpha stride cmds (if rep =? 0 then cp' + 1 else cp) s
   end).
Proof. unfold row_stage. cbn [mask_loop]. destruct (rd cmds cp); reflexivity. Qed.

Lemma encode_at_0s n spans : 1 <= n -> Forall (span_ok md width n) spans -> map encode_span spans = map (encode_at 0) spans.
Proof. intros N F. apply map_ext_in. intros s I. rewrite Forall_forall in F. apply (encode_at_0 md width n); auto. Qed.

Lemma mask_loop_ok stride : width <= Z.abs stride -> forall h spans n rest k pre s y,
  (0 < h)%nat -> 0 <= k < n -> n < 2 ^ 32 -> Forall (span_ok md width (Z.min n (k + Z.of_nat h))) spans -> contiguous spans ->
  prog_ok contiguous md width (k + Z.of_nat h - n) rest -> Z.of_nat h <= n - k + rows rest ->
  s_dst s = y * stride -> s_fy s = y -> image (s_mem s) stride width y (y + Z.of_nat h) ->
  exists m', mask_loop comp comp_opaque optimize h md alpha stride (pre ++ map (encode_at k) spans ++ Cmd (n - k) 0 0 0 :: encode rest)
      (Z.of_nat (length pre)) s = Ok m' /\
    rendered comp (s_mem s) m' stride width y (y + Z.of_nat h) (fun x y' => prog_mask md alpha ((spans, n) :: rest) (k + (y' - y)) x).
Proof.
  intros ST. induction h as [|h IH]; intros spans n rest k pre s y H0 K N GS CO RS HR D FY [_ IM]; [lia|].
  rewrite mask_loop_S.
  destruct (row_stage_ok (Z.min n (k + Z.of_nat (S h))) k spans pre (Cmd (n - k) 0 0 0) (encode rest) s) as (s1 & E & D1 & D2 & D3);
    [lia|reflexivity|exact CO|exact GS|intros x X; rewrite D; apply IM; [exact X|lia]|].
  rewrite E. cbn [bind].
  replace (pre ++ map (encode_at (k + 1)) spans ++ Cmd (n - k) 0 0 0 :: encode rest) with
    ((pre ++ map (encode_at (k + 1)) spans) ++ Cmd (n - k) 0 0 0 :: encode rest) by (rewrite <- app_assoc; reflexivity).
  assert (LP : Z.of_nat (length pre + length spans) = Z.of_nat (length (pre ++ map (encode_at (k + 1)) spans))) by (rewrite app_length, map_length; reflexivity).
  rewrite rd_app by exact LP. cbn [bind c_x0 c_x1t c_val c_adv].
  rewrite D in D3. rewrite FY in D3.
  pose proof (rendered_row (s_mem s) (s_mem s1) stride y _ k spans GS D3) as R1.
  assert (R1' : rendered comp (s_mem s) (s_mem s1) stride width y (y + 1) (fun x y' => prog_mask md alpha ((spans, n) :: rest) (k + (y' - y)) x)).
  { eapply rendered_ext; [|exact R1]. intros x y' X Y. cbv beta. replace (k + (y' - y)) with k by lia. cbn [prog_mask].
    destruct (Z.ltb_spec k n); [reflexivity|lia]. }
  destruct h as [|h'].
  - exists (s_mem s1). split; [reflexivity|exact R1'].
  - remember (S h') as h eqn:Hh. cbv zeta. rewrite wr_app by exact LP. cbn [bind].
    assert (B32 : 2 ^ 32 = 4294967296) by reflexivity.
    rewrite (w32_small (n - k - 1)) by lia.
    set (s2 := advance_y (set_dst s1 (s_dst s1 + stride))).
    assert (IM2 : image (s_mem s2) stride width (y + 1) (y + 1 + Z.of_nat h)).
    { split; [lia|]. intros x y' X Y. cbn [s2 advance_y set_dst s_mem]. destruct R1' as [_ R1']. rewrite R1'.
      - apply IM; lia.
      - intros x' y'' X' Y'' Q. destruct (addr_inj width _ _ _ _ _ ST X X' Q). lia. }
    assert (DD : s_dst s2 = (y + 1) * stride) by (cbn [s2 advance_y set_dst s_dst]; lia).
    assert (FF : s_fy s2 = y + 1) by (cbn [s2 advance_y set_dst s_fy]; lia).
    destruct (Z.eqb_spec (n - k - 1) 0) as [Z0|Z0].
    + destruct rest as [|[spans' n'] rest]; [cbn [rows fold_right] in HR; lia|].
      destruct RS as (N' & CO' & GS' & RS').
      destruct (IH spans' n' rest 0 ((pre ++ map (encode_at (k + 1)) spans) ++ [Cmd (n - k - 1) 0 0 0]) s2 (y + 1)) as (m' & E' & R').
      * lia.
      * lia.
      * lia.
      * replace (0 + Z.of_nat h) with (k + Z.of_nat (S h) - n) by lia. exact GS'.
      * exact CO'.
      * replace (0 + Z.of_nat h - n') with (k + Z.of_nat (S h) - n - n') by lia. exact RS'.
      * cbn [rows fold_right snd] in HR. fold (rows rest) in HR. lia.
      * exact DD.
      * exact FF.
      * exact IM2.
      * exists m'. split.
        -- cbn [encode]. rewrite (encode_at_0s (Z.min n' (k + Z.of_nat (S h) - n)) spans') by (assumption || lia).
           rewrite (app_length _ [_]), <- app_assoc in E'. cbn [app length] in E'. rewrite Z.sub_0_r in E'.
           replace (Z.of_nat (length pre + length spans) + 1) with (Z.of_nat (length (pre ++ map (encode_at (k + 1)) spans) + 1)) by lia. exact E'.
        -- eapply (rendered_split comp width _ (s_mem s1)); [|exact ST|exact R1'|]; [lia|].
           replace (y + Z.of_nat (S h)) with (y + 1 + Z.of_nat h) by lia.
           eapply rendered_ext; [|exact R']. intros x y' X Y. cbv beta.
           change (prog_mask md alpha ((spans, n) :: (spans', n') :: rest) (k + (y' - y)) x) with
             (if k + (y' - y) <? n then row_mask md alpha (k + (y' - y)) spans x else prog_mask md alpha ((spans', n') :: rest) (k + (y' - y) - n) x).
           destruct (Z.ltb_spec (k + (y' - y)) n); [lia|]. f_equal. lia.
    + destruct (IH spans n rest (k + 1) pre s2 (y + 1)) as (m' & E' & R').
      * lia.
      * lia.
      * exact N.
      * replace (k + 1 + Z.of_nat h) with (k + Z.of_nat (S h)) by lia. exact GS.
      * exact CO.
      * replace (k + 1 + Z.of_nat h) with (k + Z.of_nat (S h)) by lia. exact RS.
      * lia.
      * exact DD.
      * exact FF.
      * exact IM2.
      * exists m'. split.
        -- rewrite <- app_assoc. replace (n - k - 1) with (n - (k + 1)) by lia. exact E'.
        -- eapply (rendered_split comp width _ (s_mem s1)); [|exact ST|exact R1'|]; [lia|].
           replace (y + Z.of_nat (S h)) with (y + 1 + Z.of_nat h) by lia.
           eapply rendered_ext; [|exact R']. intros x y' X Y. cbv beta. f_equal. lia.
Qed.

Lemma fill_mask_ok stride y0 y1 m prog : prog_ok contiguous md width (y1 - y0) prog ->
  0 < y1 - y0 < 2 ^ 32 -> y1 - y0 <= rows prog -> image m stride width y0 y1 ->
  exists m', fill_mask comp comp_opaque optimize m stride y0 y1 alpha md (encode prog) = Ok m' /\
    rendered comp m m' stride width y0 y1 (fun x y => prog_mask md alpha prog (y - y0) x).
Proof.
  intros F Y R IM. destruct prog as [|[spans n] rest]; [cbn in R; lia|].
  destruct F as (N & CO & G & F).
  unfold fill_mask. rewrite w32_small by lia.
  destruct (mask_loop_ok stride ltac:(destruct IM as [? _]; lia) (Z.to_nat (y1 - y0)) spans n rest 0 [] (St m (y0 * stride) 0 y0) y0) as (m' & E & RR).
  - lia.
  - lia.
  - lia.
  - rewrite Z2Nat.id by lia. rewrite Z.add_0_l. exact G.
  - exact CO.
  - rewrite Z2Nat.id by lia. rewrite Z.add_0_l. exact F.
  - rewrite Z2Nat.id by lia. cbn [rows fold_right snd] in R. fold (rows rest) in R. lia.
  - reflexivity.
  - reflexivity.
  - cbn [s_mem]. rewrite Z2Nat.id by lia. replace (y0 + (y1 - y0)) with y1 by lia. exact IM.
  - exists m'. split.
    + cbn [encode]. rewrite (encode_at_0s (Z.min n (y1 - y0)) spans) by (assumption || lia). cbn [app length] in E. rewrite Z.sub_0_r in E. exact E.
    + cbn [s_mem] in RR. rewrite Z2Nat.id in RR by lia. replace (y0 + (y1 - y0)) with y1 in RR by lia. exact RR.
Qed.
End Fill.
