(* Properties C54-C58 of the OpenType cmap reader (blend2d/opentype/otcmap.cpp). *)
From Verif Require Import Base CMap_Model CMap_Spec CMap_Proofs CMap_Proofs2 CMap_Proofs3 CMap_Proofs4.
Ltac Zify.zify_post_hook ::= idtac.

(* A face whose selected sub-table is known. *)
Lemma init_valid t f fmt off count : bytes t -> init t = Ok f -> f_enc f = Some (fmt, off, count) ->
  0 <= off /\ validate t off = Ok (fmt, count) /\ valid t off fmt count.
Proof.
  intros B I E. destruct (init_good t f B I) as [(_ & _ & G)|[_ N]]; [|congruence].
  unfold good in G. rewrite E in G. destruct G as (j & _ & _ & Eo & V & _).
  assert (0 <= off) by (subst off; apply be32_range, B).
  split; [assumption|]. split; [assumption|]. apply validate_valid; assumption.
Qed.

(* C54: reading the cmap table of any font and mapping any text through it never reads outside the table.
   Full statement: forall t, bytes t -> exists f, init t = Ok f. It is false for a format 12 or 13 sub-table without groups at
   the end of the table (C54_init_refuted); proved for all other tables. *)
Theorem C54_init_safe_partial : forall t, bytes t ->
  (forall i, 0 <= i < rec_count t -> ~ empty_groups_at_end t (rec_offset t i)) -> exists f, init t = Ok f.
Proof. exact init_safe. Qed.

(* Once a face was created, mapping text and collecting the coverage stay inside the table for every text. *)
Theorem C54_map_safe : forall t f, bytes t -> init t = Ok f ->
  (forall text, Forall (fun c => 0 <= c < 2 ^ 32) text ->
     match f_enc f with
     | None => map_text t f text = Err E_NO_CHARACTER_MAPPING
     | Some _ => exists r, map_text t f text = Ok r
     end) /\
  match f_enc f with
  | None => coverage t f = Err E_NO_CHARACTER_MAPPING
  | Some _ => exists l, coverage t f = Ok l
  end.
Proof.
  intros t f B I. destruct (f_enc f) as [[[fmt off] count]|] eqn:E.
  - destruct (init_valid t f fmt off count B I E) as (Ho & _ & V). split.
    + intros text C. eexists. apply (map_text_ok t f fmt off count text B C Ho E V).
    + destruct (coverage_ok t f fmt off count B Ho E V) as (l & El & _). exists l. exact El.
  - split; [intros text _; unfold map_text|unfold coverage]; rewrite E; reflexivity.
Qed.

(* The selected sub-table with its declared length lies inside of the table. *)
Theorem C54_declared_length : forall t f fmt off count, bytes t -> init t = Ok f -> f_enc f = Some (fmt, off, count) ->
  let len := if be16 t off <? 8 then be16 t (off + 2) else be32 t (off + 4) in
  off + len <= tsize t /\ 12 <= len.
Proof.
  intros t f fmt off count B I Ee. destruct (init_valid t f fmt off count B I Ee) as (Ho & E & _). cbv zeta.
  unfold tsize in *. unfold validate in E. inv_guard E. unfold size in *.
  rewrite u16_ok in E by (unfold size; lia). cbn [bind] in E.
  destruct (Z.eqb_spec (be16 t off) 0) as [F|_].
  { inv_guard E. rewrite u16_ok in E by (unfold size; lia). cbn [bind] in E. inv_guard E. rewrite F. cbn [Z.ltb Z.compare]. lia. }
  destruct (Z.eqb_spec (be16 t off) 2) as [F|_]; [discriminate|].
  destruct (Z.eqb_spec (be16 t off) 4) as [F|_].
  { inv_guard E. rewrite u16_ok in E by (unfold size; lia). cbn [bind] in E. inv_guard E. rewrite F. cbn [Z.ltb Z.compare Pos.compare Pos.compare_cont]. lia. }
  destruct (Z.eqb_spec (be16 t off) 6) as [F|_].
  { inv_guard E. rewrite u16_ok in E by (unfold size; lia). cbn [bind] in E. inv_guard E. rewrite F. cbn [Z.ltb Z.compare Pos.compare Pos.compare_cont]. lia. }
  destruct (Z.eqb_spec (be16 t off) 8) as [F|_]; [discriminate|].
  destruct (Z.eqb_spec (be16 t off) 10) as [F|_].
  { inv_guard E. rewrite u32_ok in E by (unfold size; lia). cbn [bind] in E. inv_guard E. rewrite F. cbn [Z.ltb Z.compare Pos.compare Pos.compare_cont]. lia. }
  destruct ((be16 t off =? 12) || (be16 t off =? 13)) eqn:F.
  { inv_guard E. rewrite u32_ok in E by (unfold size; lia). cbn [bind] in E. inv_guard E. destruct (Z.ltb_spec (be16 t off) 8); lia. }
  destruct (be16 t off =? 14); [|discriminate]. inv_guard E. discriminate.
Qed.

Definition b2 (x : Z) : list Z := [x / 256; x mod 256].
Definition b4 (x : Z) : list Z := b2 (x / 65536) ++ b2 (x mod 65536).
(* a table with one encoding record *)
Definition one_record (platform encoding : Z) (sub : list Z) : list Z := b2 0 ++ b2 1 ++ b2 platform ++ b2 encoding ++ b4 12 ++ sub.

(* The 8 bytes after the sub-table are read. *)
Theorem C54_init_refuted : exists t, bytes t /\ tsize t = 28 /\ rec_offset t 0 = 12 /\ init t = UB.
Proof.
  exists (one_record 3 10 (b2 12 ++ b2 0 ++ b4 16 ++ b4 0 ++ b4 0)).
  split; [repeat constructor; try discriminate|]. split; [reflexivity|]. split; reflexivity.
Qed.

(* C55: a text maps to the glyphs that the OpenType specification assigns to its characters, and the mapping state counts the
   characters without a glyph. Full statement: without the hypothesis [regular]; false for format 4 (C55_missing_glyph_refuted).
   [regular] excludes, in format 4 only, U+FFFF and characters whose glyphIdArray entry is 0 while idDelta is not. *)
Theorem C55_mapping_partial : forall t f fmt off count text, bytes t -> init t = Ok f -> f_enc f = Some (fmt, off, count) ->
  Forall (fun c => 0 <= c < 2 ^ 32) text -> Forall (regular t off) text ->
  let gs := map (glyph_of t off) text in
  exists st, map_text t f text = Ok (gs, st) /\
    glyph_count st = Z.of_nat (length text) /\ undefined_count st = zeros gs /\ first_zero gs (undefined_first st).
Proof.
  intros t f fmt off count text B I E C R gs. destruct (init_valid t f fmt off count B I E) as (Ho & _ & V).
  rewrite (map_text_ok t f fmt off count text B C Ho E V).
  assert (Eq : map (code_glyph t off fmt count) text = gs).
  { apply map_ext_in. intros c Hc. rewrite Forall_forall in C, R. specialize (C c Hc). specialize (R c Hc). cbv beta in C.
    unfold code_glyph, glyph_of. cbv zeta.
    destruct V as [Ef [(F & S & Ec)|[(F & S & Cc & O & En)|[(F & S & Cp & Cc & Fc)|[(F & S & Cp & Cc & Fc)|(F & S & Cp & Cc & O & La)]]]]];
      rewrite <- Ef.
    - rewrite F. reflexivity.
    - rewrite F. cbn [Z.eqb Pos.eqb]. unfold regular in R. rewrite <- Ef, F in R. destruct (R eq_refl) as [R1 R2].
      apply code_lookup4_spec; try assumption; lia.
    - rewrite F. reflexivity.
    - rewrite F. reflexivity.
    - unfold code_lookup12, lookup12, lookup13, grp_find. rewrite <- Cc.
      destruct F as [F|F]; rewrite F; cbn [Z.eqb Pos.eqb]; reflexivity. }
  pose proof (result_state (code_glyph t off fmt count) text) as RS. cbv zeta in RS. rewrite Eq in RS.
  destruct RS as (R1 & R2 & R3 & R4). exists (snd (result (code_glyph t off fmt count) text 0 (SIZE_MAX, 0))).
  split; [|auto]. rewrite <- R1. rewrite <- surjective_pairing. reflexivity.
Qed.

(* For every accepted table and every text the glyph of a character does not depend on its neighbours, is a 16-bit number,
   and the state describes the result. *)
Theorem C55_pointwise : forall t f, bytes t -> init t = Ok f -> f_enc f <> None ->
  exists g : Z -> Z, (forall c, 0 <= g c < 65536) /\ forall text, Forall (fun c => 0 <= c < 2 ^ 32) text ->
    exists st, map_text t f text = Ok (map g text, st) /\
      glyph_count st = Z.of_nat (length text) /\ undefined_count st = zeros (map g text) /\ first_zero (map g text) (undefined_first st).
Proof.
  intros t f B I N. destruct (f_enc f) as [[[fmt off] count]|] eqn:E; [|contradiction].
  destruct (init_valid t f fmt off count B I E) as (Ho & _ & V).
  exists (code_glyph t off fmt count). split.
  - intros c. unfold code_glyph.
    destruct (fmt =? 0). { unfold lookup0. destruct (c <? 256); [|lia]. pose proof (byte_range t (off + 6 + c) B). lia. }
    destruct (fmt =? 4).
    { unfold code_lookup4. destruct (find _ _) as [i|]; [|lia]. unfold code_glyph4.
      destruct (_ =? 0); [apply Z.mod_pos_bound; lia|]. destruct (_ <? _); [lia|apply Z.mod_pos_bound; lia]. }
    destruct (fmt =? 6). { unfold lookup6. cbv zeta. destruct (_ && _); [apply be16_range, B|lia]. }
    destruct (fmt =? 10). { unfold lookup10. cbv zeta. destruct (_ && _); [apply be16_range, B|lia]. }
    unfold code_lookup12. destruct (find _ _) as [i|]; [|lia]. destruct (fmt =? 12); apply Z.mod_pos_bound; lia.
  - intros text C. rewrite (map_text_ok t f fmt off count text B C Ho E V).
    destruct (result_state (code_glyph t off fmt count) text) as (R1 & R2 & R3 & R4).
    exists (snd (result (code_glyph t off fmt count) text 0 (SIZE_MAX, 0))).
    split; [|auto]. rewrite <- R1. rewrite <- surjective_pairing. reflexivity.
Qed.

(* format 4: one segment 'A'..'B' with the given idDelta and glyphIdArray, and the end mark *)
Definition sub4 (delta g1 g2 : Z) : list Z :=
  b2 4 ++ b2 36 ++ b2 0 ++ b2 4 ++ b2 4 ++ b2 1 ++ b2 0 ++ b2 66 ++ b2 65535 ++ b2 0 ++ b2 65 ++ b2 65535 ++
  b2 delta ++ b2 1 ++ b2 4 ++ b2 0 ++ b2 g1 ++ b2 g2.

Theorem C55_missing_glyph_refuted : exists t f off, bytes t /\ init t = Ok f /\ (exists n, f_enc f = Some (4, off, n)) /\ wf4 t off /\
  glyph_of t off 65 = 0 /\ (exists st, map_text t f [65] = Ok ([5], st) /\ undefined_count st = 0).
Proof.
  set (t := one_record 3 1 (sub4 5 0 7)).
  exists t, (Face false false false 0x20001 (Some (4, 12, 1))), 12.
  assert (N : seg_count t 12 = 2) by reflexivity.
  split; [subst t; repeat constructor; try discriminate|].
  split; [reflexivity|]. split; [exists 1; reflexivity|].
  split.
  { unfold wf4. rewrite N. split; [reflexivity|]. split; [reflexivity|]. split; [lia|].
    split; [vm_compute; discriminate|]. split; [vm_compute; discriminate|].
    split. { intros i Hi. assert (i = 0 \/ i = 1) as [->| ->] by lia; vm_compute; discriminate. }
    split. { intros i Hi. assert (i = 0) as -> by lia. vm_compute. reflexivity. }
    split; [split; reflexivity|].
    intros i Hi _. assert (i = 0) as -> by lia. split; [reflexivity|vm_compute; discriminate]. }
  split; [reflexivity|]. eexists. split; [vm_compute; reflexivity|reflexivity].
Qed.

(* C56: every well-formed sub-table of a supported format is accepted with all its entries. Full statement: also for format 6
   and for format 10 tables that reach U+10FFFF; both are false. *)
Theorem C56_accepts_partial : forall t off, bytes t -> 0 <= off ->
  (wf0 t off -> validate t off = Ok (0, 256)) /\
  (wf4 t off -> validate t off = Ok (4, seg_count t off - 1)) /\
  (wf10 t off -> be32 t (off + 12) + be32 t (off + 16) <= 0x10FFFF -> validate t off = Ok (10, be32 t (off + 16))) /\
  (wf12 t off -> grp_count t off <= 0x10FFFF -> validate t off = Ok (be16 t off, grp_count t off)).
Proof.
  intros t off B Ho. split; [apply accept0; assumption|]. split; [apply accept4; assumption|].
  split; [apply accept10; assumption|apply accept12; assumption].
Qed.

(* No well-formed format 6 sub-table is accepted: its length is 10 + 2 * count, the code asks for 20 + 2 * count. *)
Theorem C56_format6_rejected : forall t off, bytes t -> 0 <= off -> wf6 t off -> validate t off = Err E_INVALID_DATA.
Proof.
  intros t off B Ho (F & C & FC & L & S). change (tsize t) with (size t) in S.
  unfold validate. rewrite guard_true by lia. cbv zeta. rewrite u16_ok by lia. cbn [bind]. rewrite F. cbn [Z.eqb Pos.eqb].
  rewrite guard_true by lia. rewrite u16_ok by lia. cbn [bind]. rewrite guard_true by lia.
  rewrite u16_ok by lia. cbn [bind]. rewrite u16_ok by lia. cbn [bind]. unfold guard.
  destruct (negb _); [|reflexivity]. destruct (Z.ltb_spec (be16 t (off + 2)) (20 + be16 t (off + 8) * 2)); [reflexivity|lia].
Qed.
Definition sub6 : list Z := b2 6 ++ b2 14 ++ b2 0 ++ b2 65 ++ b2 2 ++ b2 3 ++ b2 4.
Theorem C56_format6_refuted : exists t off, bytes t /\ wf6 t off /\ glyph_of t off 66 = 4 /\ validate t off = Err E_INVALID_DATA.
Proof.
  exists (one_record 3 1 sub6), 12. split; [repeat constructor; try discriminate|].
  split; [repeat split; vm_compute; try reflexivity; discriminate|]. split; reflexivity.
Qed.
Definition sub10 (first : Z) : list Z := b2 10 ++ b2 0 ++ b4 24 ++ b4 0 ++ b4 first ++ b4 2 ++ b2 3 ++ b2 4.
Theorem C56_format10_refuted : exists t off, bytes t /\ wf10 t off /\ glyph_of t off 0x10FFFF = 4 /\ validate t off = Err E_INVALID_DATA.
Proof.
  exists (one_record 3 10 (sub10 0x10FFFE)), 12. split; [repeat constructor; try discriminate|].
  split; [repeat split; vm_compute; try reflexivity; discriminate|]. split; reflexivity.
Qed.

(* C57: the selected sub-table belongs to a usable encoding record, no usable record is preferred to it, and of equally good
   records it is the first one; nothing is selected exactly when no record is usable. *)
Theorem C57_selection : forall t f, bytes t -> init t = Ok f ->
  let directory_fits := 12 <= tsize t /\ 4 + 8 * rec_count t <= tsize t in
  (~ directory_fits -> f_enc f = None) /\
  (directory_fits ->
    match f_enc f with
    | None => forall i, 0 <= i < rec_count t -> ~ usable t i
    | Some (fmt, off, count) => exists i, 0 <= i < rec_count t /\ usable t i /\ off = rec_offset t i /\ validate t off = Ok (fmt, count) /\
        (forall j, 0 <= j < rec_count t -> usable t j -> preferred t i j) /\
        (forall j, 0 <= j < i -> usable t j -> strictly_preferred t i j)
    end).
Proof.
  intros t f B I D. change (tsize t) with (size t) in D.
  destruct (init_good t f B I) as [(H1 & H2 & G)|[H N]]; unfold D.
  - split; [tauto|]. intros _. unfold good in G. destruct (f_enc f) as [[[fmt off] count]|]; [|apply G].
    destruct G as (i & Hi & U & Eo & V & _ & Mx & Fi). exists i. split; [exact Hi|]. split; [exact U|]. split; [exact Eo|]. split; [exact V|].
    split.
    + intros j Hj Uj. apply scr_preferred; [assumption|]. apply Mx; assumption.
    + intros j Hj Uj. specialize (Fi j Hj Uj). split; [apply scr_preferred; [assumption|lia]|].
      intros P. apply scr_preferred in P; [lia|assumption].
  - split; [intros _; exact N|]. lia.
Qed.

(* The symbol font flag is set exactly when there is a Windows symbol record of a supported format, whatever is selected; the
   diagnostics flag for an unsupported format is never set (such records are skipped before they are validated). *)
Theorem C57_flags : forall t f, bytes t -> init t = Ok f ->
  f_wrong_format f = false /\
  (f_symbol f = true <-> 12 <= tsize t /\ 4 + 8 * rec_count t <= tsize t /\ exists i, 0 <= i < rec_count t /\ symbol_record t i).
Proof.
  intros t f B I. change (tsize t) with (size t). unfold init in I.
  destruct (Z.eqb_spec (size t) 0); [injection I as <-; split; [reflexivity|split; [discriminate|lia]]|].
  destruct (Z.ltb_spec (size t) 12); [injection I as <-; split; [reflexivity|split; [discriminate|lia]]|].
  rewrite u16_ok in I by lia. cbn [bind] in I. fold (rec_count t) in I. pose proof (be16_range t 2 B) as R. fold (rec_count t) in R.
  destruct (Z.ltb_spec (size t) (4 + rec_count t * 8)); [injection I as <-; split; [reflexivity|split; [discriminate|lia]]|].
  destruct (init_loop_flags t B ltac:(lia) (Z.to_nat (rec_count t)) 0 _ _ (Z.le_refl 0) ltac:(lia) I) as [W S]. split; [exact W|]. rewrite S.
  rewrite Z2Nat.id by lia. cbn [f_symbol]. split.
  - intros [H'|(j & Hj & R')]; [discriminate|]. split; [assumption|]. split; [lia|]. exists j. split; [lia|exact R'].
  - intros (_ & _ & j & Hj & R'). right. exists j. split; [lia|exact R'].
Qed.
Example C57_ex_flags : exists f, init (one_record 3 0 (sub4 5 3 7)) = Ok f /\ f_symbol f = true.
Proof. eexists. split; reflexivity. Qed.

(* C58: the character coverage contains every character that has a glyph, it is exact for formats 0, 6 and 10, and for the
   other formats it is the union of their segments. Full statement: the coverage holds exactly the characters that map to a
   glyph; false for formats 4, 12 and 13 (C58_coverage_refuted). *)
Theorem C58_coverage_partial : forall t f fmt off count, bytes t -> init t = Ok f -> f_enc f = Some (fmt, off, count) ->
  exists l, coverage t f = Ok l /\ forall c g st, 0 <= c < 2 ^ 32 -> map_text t f [c] = Ok ([g], st) ->
    (g <> 0 -> covered l c) /\
    (be16 t off = 0 \/ be16 t off = 6 \/ be16 t off = 10 -> covered l c -> g <> 0) /\
    (be16 t off = 4 -> covered l c -> exists i, 0 <= i < seg_count t off /\ seg_start t off i <= c <= seg_end t off i) /\
    (be16 t off = 12 \/ be16 t off = 13 -> (covered l c <-> exists i, 0 <= i < grp_count t off /\ grp_first t off i <= c <= grp_last t off i)).
Proof.
  intros t f fmt off count B I E. destruct (init_valid t f fmt off count B I E) as (Ho & _ & V).
  destruct (coverage_ok t f fmt off count B Ho E V) as (l & El & C). exists l. split; [exact El|].
  intros c g st Hc M. assert (CC : chars [c]) by (repeat constructor; lia).
  rewrite (map_text_ok t f fmt off count [c] B CC Ho E V) in M. unfold result in M. cbn [map] in M. injection M as Eg _.
  destruct (C c ltac:(lia)) as (C1 & C2 & C3).
  assert (Ef : fmt = be16 t off) by apply V. rewrite Ef in C1, C2, C3, Eg.
  split; [|split; [|split]].
  - intros N. destruct V as [_ [(F & _)|[(F & _)|[(F & _)|[(F & _)|(F & _)]]]]]; rewrite Ef in F.
    + apply C1; [auto|congruence].
    + apply C2; [exact F|]. rewrite F in Eg. apply glyph_in_segment. unfold code_glyph in Eg. cbn [Z.eqb Pos.eqb] in Eg. congruence.
    + apply C1; [auto|congruence].
    + apply C1; [auto|congruence].
    + apply C3; [exact F|]. apply (glyph_in_group t off count (be16 t off)). unfold code_glyph in Eg.
      destruct F as [F|F]; rewrite F in *; cbn [Z.eqb Pos.eqb] in Eg; congruence.
  - intros F Cv. apply C1 in Cv; [congruence|exact F].
  - intros F Cv. apply C2 in Cv; [|exact F]. destruct Cv as (i & Hi & R). exists i. split; [|exact R].
    destruct V as [_ [(F' & _)|[(F' & _ & Cc & _)|[(F' & _)|[(F' & _)|(F' & _)]]]]]; lia.
  - intros F. rewrite (C3 F). 
    assert (Ec : count = grp_count t off).
    { destruct V as [_ [(F' & _)|[(F' & _)|[(F' & _)|[(F' & _)|(F' & _ & _ & Ec & _)]]]]]; lia. }
    rewrite Ec. reflexivity.
Qed.

Theorem C58_coverage_refuted : exists t f l c st, bytes t /\ init t = Ok f /\ coverage t f = Ok l /\
  map_text t f [c] = Ok ([0], st) /\ covered l c.
Proof.
  set (t := one_record 3 1 (sub4 0 0 7)).
  exists t, (Face false false false 0x20001 (Some (4, 12, 1))), [(65, 67)], 65. eexists.
  split; [subst t; repeat constructor; try discriminate|]. split; [reflexivity|]. split; [reflexivity|].
  split; [vm_compute; reflexivity|]. exists (65, 67). split; [left; reflexivity|]. cbn. lia.
Qed.

Print Assumptions C54_init_safe_partial.
Print Assumptions C54_map_safe.
Print Assumptions C54_declared_length.
Print Assumptions C54_init_refuted.
Print Assumptions C55_mapping_partial.
Print Assumptions C55_pointwise.
Print Assumptions C55_missing_glyph_refuted.
Print Assumptions C56_accepts_partial.
Print Assumptions C56_format6_rejected.
Print Assumptions C56_format6_refuted.
Print Assumptions C56_format10_refuted.
Print Assumptions C57_selection.
Print Assumptions C57_flags.
Print Assumptions C58_coverage_partial.
Print Assumptions C58_coverage_refuted.

(* -- examples -- *)
(* two groups: 0x41-0x43 -> 10.. and 0x1F600-0x1F601 -> 20.. *)
Definition sub12 (fmt : Z) : list Z := b2 fmt ++ b2 0 ++ b4 40 ++ b4 0 ++ b4 2 ++ b4 65 ++ b4 67 ++ b4 10 ++ b4 128512 ++ b4 128513 ++ b4 20.
Definition ex12 : list Z := one_record 3 10 (sub12 12).
Example C54_ex_hyp : bytes ex12 /\ init ex12 = Ok (Face false false false 0x2000A (Some (12, 12, 2))).
Proof. split; [repeat constructor; try discriminate|reflexivity]. Qed.
Example C55_ex_map : map_text ex12 (Face false false false 0x2000A (Some (12, 12, 2))) [67; 64; 128513; 0xFFFFFFFF; 65] =
  Ok ([12; 0; 21; 0; 10], MapState 5 1 2).
Proof. reflexivity. Qed.
Example C55_ex_spec : map (glyph_of ex12 12) [67; 64; 128513; 0xFFFFFFFF; 65] = [12; 0; 21; 0; 10].
Proof. reflexivity. Qed.
Example C55_ex_map13 : let t := one_record 0 4 (sub12 13) in
  exists f, init t = Ok f /\ map_text t f [67; 128513; 68] = Ok ([10; 20; 0], MapState 3 2 1).
Proof. eexists. split; reflexivity. Qed.
Example C55_ex_map4 : let t := one_record 3 1 (sub4 5 3 7) in
  exists f, init t = Ok f /\ map_text t f [65; 66; 67; 66] = Ok ([8; 12; 0; 12], MapState 4 2 1) /\ Forall (regular t 12) [65; 66; 67].
Proof.
  eexists. split; [reflexivity|]. split; [reflexivity|].
  assert (R : forall c, c = 65 \/ c = 66 \/ c = 67 -> regular (one_record 3 1 (sub4 5 3 7)) 12 c).
  { intros c Hc _. split; [lia|]. intros S.
    assert (shifted_missing (one_record 3 1 (sub4 5 3 7)) 12 c -> False).
    { intros (i & F & L & _ & _ & _ & G).
      destruct Hc as [->|[->| ->]]; vm_compute in F; injection F as <-; [vm_compute in G; discriminate|vm_compute in G; discriminate|].
      vm_compute in L. apply L. reflexivity. }
    contradiction. }
  repeat (apply Forall_cons; [apply R; lia|]). apply Forall_nil.
Qed.
Example C56_ex_wf12 : wf12 ex12 12.
Proof.
  unfold wf12. assert (N : grp_count ex12 12 = 2) by reflexivity. rewrite N. split; [left; reflexivity|]. split; [lia|]. split; [reflexivity|].
  split; [vm_compute; discriminate|]. split.
  - intros i Hi. assert (i = 0 \/ i = 1) as [->| ->] by lia; vm_compute; split; discriminate.
  - intros i Hi. assert (i = 0) as -> by lia. reflexivity.
Qed.
(* two records: the Unicode platform first, Windows UCS4 second *)
Example C57_ex_two : let t := b2 0 ++ b2 2 ++ b2 0 ++ b2 3 ++ b4 20 ++ b2 3 ++ b2 10 ++ b4 56 ++ sub4 5 3 7 ++ sub12 12 in
  init t = Ok (Face false false false 0x2000A (Some (12, 56, 2))) /\ usable t 0 /\ usable t 1.
Proof.
  split; [reflexivity|]. split; (split; [reflexivity|]; split; [unfold supported_format; vm_compute; tauto|]; split; [reflexivity|]; eexists; reflexivity).
Qed.
Example C58_ex_cover : coverage ex12 (Face false false false 0x2000A (Some (12, 12, 2))) = Ok [(128512, 128514); (65, 68)].
Proof. reflexivity. Qed.
