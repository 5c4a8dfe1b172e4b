(* Proofs for the cmap reader: what validate_sub_table guarantees and the mapping of text by every format. *)
From Verif Require Import Base CMap_Model CMap_Spec CMap_Proofs CMap_Proofs2.
Ltac Zify.zify_post_hook ::= idtac.

(* -- formats 12 and 13 -- *)
Section Format12.
  Context (t : list Z) (off n : Z) (B : bytes t) (Hoff : 0 <= off) (Hn : 0 <= n) (Hsz : off + 16 + 12 * n <= size t).

  Lemma check12_sound k : forall i last, 0 <= i -> i + Z.of_nat k = n ->
    check12 k t off i last = Ok tt ->
    (0 < Z.of_nat k -> last < grp_first t off i) /\
    (forall j, i <= j < n -> grp_first t off j <= grp_last t off j <= 0x10FFFF) /\
    (forall j, i <= j < n - 1 -> grp_last t off j < grp_first t off (j + 1)).
  Proof using B Hoff Hn Hsz.
    induction k; intros i last Hi Hk E; cbn [check12] in E.
    - repeat split; intros; lia.
    - rewrite u32_ok in E by lia. cbn [bind] in E. fold (grp_first t off i) in E.
      destruct (Z.leb_spec (grp_first t off i) last); [discriminate|].
      rewrite u32_ok in E by lia. cbn [bind] in E. fold (grp_last t off i) in E.
      destruct ((_ <? _) || _) eqn:M; [discriminate|]. apply orb_false_iff in M. destruct M as [M1 M2].
      unfold kCharMax in M2.
      destruct (IHk (i + 1) _ (ltac:(lia)) (ltac:(lia)) E) as (P1 & P2 & P3).
      split; [lia|]. split.
      + intros j Hj. destruct (Z.eq_dec j i) as [->|]; [lia|apply P2; lia].
      + intros j Hj. destruct (Z.eq_dec j i) as [->|]; [apply P1; lia|apply P3; lia].
  Qed.

  Context (O : ordered (grp_first t off) (grp_last t off) n).
  Definition code_lookup12 (fmt c : Z) : Z :=
    match find (fun i => (grp_first t off i <=? c) && (c <=? grp_last t off i)) (idx n) with
    | None => 0 | Some i => if fmt =? 12 then (grp_glyph t off i + (c - grp_first t off i)) mod 65536 else grp_glyph t off i mod 65536 end.

  Definition cache12 (c : option (Z * Z * Z)) : Prop :=
    match c with None => True | Some c => exists j, 0 <= j < n /\ c = (grp_first t off j, grp_last t off j, grp_glyph t off j) end.

  Lemma map12_loop_ok fmt : forall text i cache u, cache12 cache ->
    map12_loop fmt t (off + 16) n text i cache u = Ok (result (code_lookup12 fmt) text i u).
  Proof using B Hoff Hn Hsz O.
    induction text as [|c text IH]; intros i cache u C.
    - unfold result. cbn. rewrite Z.add_0_r. reflexivity.
    - cbn [map12_loop]. cbv zeta.
      assert (FR : exists j, find12 (S (Z.to_nat n)) t c (off + 16) n = Ok (option_map (fun j => (grp_first t off j, grp_last t off j, grp_glyph t off j)) j)
        /\ found (grp_first t off) (grp_last t off) c 0 n j).
      { destruct (find12_ok t off n B Hoff Hn Hsz O c (S (Z.to_nat n)) 0 n) as [j [E F]]; try lia.
        rewrite Z.mul_0_r, Z.add_0_r in E. exists j. split; assumption. }
      assert (K : exists j, (match cache with
        | None => find12 (S (Z.to_nat n)) t c (off + 16) n
        | Some (first, last, id) => if (c <? first) || (last <? c) then find12 (S (Z.to_nat n)) t c (off + 16) n else Ok cache end)
          = Ok (option_map (fun j => (grp_first t off j, grp_last t off j, grp_glyph t off j)) j)
        /\ found (grp_first t off) (grp_last t off) c 0 n j).
      { destruct cache as [[[f l] d]|]; [|exact FR].
        destruct ((c <? f) || (l <? c)) eqn:R; [exact FR|].
        destruct C as (j & Hj & Ej). injection Ej as -> -> ->.
        exists (Some j). split; [reflexivity|]. cbn. apply orb_false_iff in R. lia. }
      destruct K as (j & E & F). rewrite E. cbn [bind].
      pose proof (found_find _ _ _ _ _ O F) as FF.
      destruct j as [j|]; cbn [option_map].
      + assert (G : glyph12 fmt (grp_first t off j, grp_last t off j, grp_glyph t off j) c = code_lookup12 fmt c).
        { unfold code_lookup12, glyph12. rewrite FF. destruct (fmt =? 12).
          - rewrite low_w32. f_equal. lia.
          - apply land_low. }
        rewrite G. destruct (code_lookup12 fmt c =? 0) eqn:Z0.
        * rewrite IH by exact I. apply Z.eqb_eq in Z0.
          change (undef i u) with (step_u i u 0). rewrite <- Z0. apply emit_result.
        * rewrite IH. 2:{ exists j. cbn in F. split; [lia|reflexivity]. }
          rewrite <- emit_result. unfold step_u. rewrite Z0. reflexivity.
      + assert (G : code_lookup12 fmt c = 0) by (unfold code_lookup12; rewrite FF; reflexivity).
        rewrite IH by exact I. change (undef i u) with (step_u i u 0). rewrite <- G at 1 2. apply emit_result.
  Qed.
End Format12.

Lemma guard_ok {A} b (k : outcome A) x : guard b k = Ok x -> b = true /\ k = Ok x.
Proof. destruct b; [auto|discriminate]. Qed.
Ltac inv_guard E :=
  let G := fresh "G" in apply guard_ok in E; destruct E as [G E]; cbv beta iota zeta in E.

(* what an accepted sub-table looks like *)
Definition valid (t : list Z) (off fmt count : Z) : Prop :=
  fmt = be16 t off /\
  ((fmt = 0 /\ off + 262 <= size t /\ count = 256) \/
   (fmt = 4 /\ off + 16 + 8 * seg_count t off <= size t /\ 1 <= count <= seg_count t off /\
     ordered (seg_start t off) (seg_end t off) count /\ (forall j, count <= j < seg_count t off -> is_end_mark t off j)) \/
   (fmt = 6 /\ off + 20 + 2 * count <= size t /\ 1 <= count /\ count = be16 t (off + 8) /\ be16 t (off + 6) + count <= 65535) \/
   (fmt = 10 /\ off + 20 + 2 * count <= size t /\ 1 <= count /\ count = be32 t (off + 16) /\ be32 t (off + 12) + count <= 0x10FFFF) \/
   ((fmt = 12 \/ fmt = 13) /\ off + 16 + 12 * count <= size t /\ 0 <= count /\ count = grp_count t off /\
     ordered (grp_first t off) (grp_last t off) count /\ (forall i, 0 <= i < count -> grp_last t off i <= 0x10FFFF))).

Lemma validate_valid t off fmt count : bytes t -> 0 <= off -> validate t off = Ok (fmt, count) -> valid t off fmt count.
Proof.
  intros B Hoff E. unfold validate in E. inv_guard E.
  assert (S4 : off + 4 <= size t) by lia.
  rewrite u16_ok in E by lia. cbn [bind] in E. unfold valid.
  pose proof (be16_range t off B) as Rf. set (f := be16 t off) in *.
  destruct (Z.eqb_spec f 0) as [F|_].
  { inv_guard E. rewrite u16_ok in E by lia. cbn [bind] in E. inv_guard E. injection E as <- <-.
    split; [reflexivity|]. left. lia. }
  destruct (Z.eqb_spec f 2) as [F|_]; [discriminate|].
  destruct (Z.eqb_spec f 4) as [F|_].
  { inv_guard E. rewrite u16_ok in E by lia. cbn [bind] in E. inv_guard E.
    rewrite u16_ok in E by lia. cbn [bind] in E. inv_guard E. fold (seg_count t off) in E. inv_guard E.
    destruct (check4 _ _ _ _ _ _ _ _) as [a| | |] eqn:C; cbn [bind] in E; try discriminate.
    inv_guard E. injection E as <- <-.
    pose proof (nseg_nonneg t off B) as Nn.
    assert (Hs : off + 16 + 8 * seg_count t off <= size t) by lia.
    destruct (check4_sound t off B Hoff Hs _ (Z.to_nat (seg_count t off)) 0 0 _ a ltac:(lia) ltac:(lia) C) as [P _].
    destruct (P eq_refl) as (P1 & P2 & P3 & P4 & P5 & P6).
    split; [reflexivity|]. right; left. split; [exact F|]. split; [exact Hs|]. split; [lia|].
    split; [apply ordered_steps; assumption|exact P5]. }
  destruct (Z.eqb_spec f 6) as [F|_].
  { inv_guard E. rewrite u16_ok in E by lia. cbn [bind] in E. inv_guard E.
    rewrite u16_ok in E by lia. cbn [bind] in E. rewrite u16_ok in E by lia. cbn [bind] in E. inv_guard E. inv_guard E.
    injection E as <- <-. split; [reflexivity|]. right; right; left.
    pose proof (be16_range t (off + 8) B). lia. }
  destruct (Z.eqb_spec f 8) as [F|_]; [discriminate|].
  destruct (Z.eqb_spec f 10) as [F|_].
  { inv_guard E. rewrite u32_ok in E by lia. cbn [bind] in E. inv_guard E.
    rewrite u32_ok in E by lia. cbn [bind] in E. rewrite u32_ok in E by lia. cbn [bind] in E. inv_guard E. inv_guard E.
    injection E as <- <-. split; [reflexivity|]. right; right; right; left.
    pose proof (be32_range t (off + 16) B). pose proof (be32_range t (off + 12) B). unfold kCharMax in *.
    assert (W : w32 (be32 t (off + 12) + be32 t (off + 16)) = be32 t (off + 12) + be32 t (off + 16)).
    { unfold w32. apply Z.mod_small. lia. }
    rewrite W in *. lia. }
  destruct ((f =? 12) || (f =? 13)) eqn:F1213.
  { inv_guard E. rewrite u32_ok in E by lia. cbn [bind] in E. inv_guard E.
    rewrite u32_ok in E by lia. cbn [bind] in E. inv_guard E. fold (grp_count t off) in *.
    pose proof (be32_range t (off + 12) B) as Rc. fold (grp_count t off) in Rc.
    destruct (u32 t (off + 16)) as [first| | |] eqn:U1; cbn [bind] in E; try discriminate.
    destruct (u32 t (off + 20)) as [last| | |] eqn:U2; cbn [bind] in E; try discriminate.
    inv_guard E. destruct (check12 _ _ _ _ _) as [[]| | |] eqn:C; cbn [bind] in E; try discriminate.
    injection E as <- <-. split; [reflexivity|]. right; right; right; right.
    split; [lia|]. assert (Hs : off + 16 + 12 * grp_count t off <= size t) by lia. split; [exact Hs|]. split; [lia|]. split; [reflexivity|].
    destruct (Z.eq_dec (grp_count t off) 0) as [Z0|NZ].
    { rewrite Z0. split; [split; intros; lia|intros; lia]. }
    rewrite u32_ok in U1 by lia. rewrite u32_ok in U2 by lia. injection U1 as U1. injection U2 as U2.
    destruct (check12_sound t off (grp_count t off) B Hoff ltac:(lia) Hs (Z.to_nat (grp_count t off) - 1) 1 last ltac:(lia) ltac:(lia) C) as (P1 & P2 & P3).
    assert (E1 : grp_first t off 0 = first) by (unfold grp_first; rewrite Z.mul_0_r, Z.add_0_r; exact U1).
    assert (E2 : grp_last t off 0 = last).
    { unfold grp_last. rewrite Z.mul_0_r, Z.add_0_r. replace (off + 16 + 4) with (off + 20) by lia. exact U2. }
    unfold kCharMax in *.
    split.
    - apply ordered_steps.
      + intros i Hi. destruct (Z.eq_dec i 0) as [->|]; [lia|apply P2; lia].
      + intros i Hi. destruct (Z.eq_dec i 0) as [->|]; [rewrite E2; apply P1; lia|apply P3; lia].
    - intros i Hi. destruct (Z.eq_dec i 0) as [->|]; [lia|apply P2; lia]. }
  destruct (f =? 14); [|discriminate]. inv_guard E. discriminate.
Qed.

(* the glyph of a character by the code *)
Definition code_glyph (t : list Z) (off fmt count c : Z) : Z :=
  if fmt =? 0 then lookup0 t off c else if fmt =? 4 then code_lookup4 t off count c else if fmt =? 6 then lookup6 t off c
  else if fmt =? 10 then lookup10 t off c else code_lookup12 t off count fmt c.

Definition chars (text : list Z) : Prop := Forall (fun c => 0 <= c < 2 ^ 32) text.

Lemma w32_sub c first : 0 <= c < 2 ^ 32 -> 0 <= first < 2 ^ 32 -> 
  (first <= c /\ w32 (c - first) = c - first) \/ (c < first /\ w32 (c - first) = c - first + 2 ^ 32).
Proof.
  intros A D. unfold w32. change (2 ^ 32) with 4294967296 in *. destruct (Z_le_gt_dec first c) as [L|L]; [left|right]; (split; [lia|]).
  - apply Z.mod_small; lia.
  - rewrite <- (Z_mod_plus_full (c - first) 1). apply Z.mod_small; lia.
Qed.

Theorem map_text_ok t f fmt off count text : bytes t -> chars text -> 0 <= off -> f_enc f = Some (fmt, off, count) -> valid t off fmt count ->
  map_text t f text = Ok (result (code_glyph t off fmt count) text 0 (SIZE_MAX, 0)).
Proof.
  intros B C Hoff E. unfold map_text. rewrite E. clear E.
  unfold chars in C. rewrite Forall_forall in C.
    intros [Ef [(F & S & Ec)|[(F & S & Cc & O & En)|[(F & S & Cp & Cc & Fc)|[(F & S & Cp & Cc & Fc)|(F & S & Cp & Cc & O & La)]]]]].
    - rewrite F. cbn [Z.eqb]. unfold map0. apply map_each_ok. intros c Hc. apply C in Hc.
      unfold glyph0, code_glyph, lookup0. cbn [Z.eqb]. destruct (Z.ltb_spec c 256); [|reflexivity]. apply u8_ok. lia.
    - rewrite F. cbn [Z.eqb]. pose proof (nseg_nonneg t off B).
      unfold map4. rewrite u16_ok by lia. cbn [bind]. rewrite shiftr1. fold (seg_count t off).
      rewrite (map4_loop_ok t off B Hoff S count ltac:(lia) O text 0 None _ I). reflexivity.
    - rewrite F. cbn [Z.eqb Pos.eqb]. unfold map6. rewrite u16_ok by lia. cbn [bind]. rewrite u16_ok by lia. cbn [bind].
      apply map_each_ok. intros c Hc. apply C in Hc. unfold glyph6, code_glyph, lookup6. cbn [Z.eqb Pos.eqb]. cbv zeta. rewrite <- Cc.
      pose proof (be16_range t (off + 6) B).
      destruct (w32_sub c (be16 t (off + 6)) Hc ltac:(lia)) as [[L ->]|[L ->]].
      + destruct (Z.leb_spec (be16 t (off + 6)) c); [|lia].
        destruct (Z.ltb_spec (c - be16 t (off + 6)) count); destruct (Z.ltb_spec c (be16 t (off + 6) + count)); try lia; cbn [andb]; [|reflexivity].
        rewrite u16_ok by lia. f_equal. f_equal. lia.
      + destruct (Z.leb_spec (be16 t (off + 6)) c); [lia|]. cbn [andb]. destruct (Z.ltb_spec (c - be16 t (off + 6) + 2 ^ 32) count); [lia|reflexivity].
    - rewrite F. cbn [Z.eqb Pos.eqb]. unfold map10. rewrite u32_ok by lia. cbn [bind]. rewrite u32_ok by lia. cbn [bind].
      apply map_each_ok. intros c Hc. apply C in Hc. unfold glyph10, code_glyph, lookup10. cbn [Z.eqb Pos.eqb]. cbv zeta. rewrite <- Cc.
      pose proof (be32_range t (off + 12) B).
      destruct (w32_sub c (be32 t (off + 12)) Hc ltac:(lia)) as [[L ->]|[L ->]].
      + destruct (Z.leb_spec (be32 t (off + 12)) c); [|lia].
        destruct (Z.ltb_spec (c - be32 t (off + 12)) count); destruct (Z.ltb_spec c (be32 t (off + 12) + count)); try lia; cbn [andb]; [|reflexivity].
        rewrite u16_ok by lia. f_equal. f_equal. lia.
      + destruct (Z.leb_spec (be32 t (off + 12)) c); [lia|]. cbn [andb]. destruct (Z.ltb_spec (c - be32 t (off + 12) + 2 ^ 32) count); [lia|reflexivity].
    - assert (M : map12 fmt t off count text = Ok (result (code_lookup12 t off count fmt) text 0 (SIZE_MAX, 0))).
      { unfold map12. apply (map12_loop_ok t off count B Hoff Cp S O fmt text 0 None _ I). }
      destruct F as [F|F]; rewrite F in *; cbn [Z.eqb Pos.eqb orb]; rewrite M; reflexivity.
Qed.
