(* The header of a dynamic block and the code length code. *)
From Verif Require Import Base Bits Algorithm_Spec Algorithm_Model Algorithm_Proofs Deflate_Spec DeflateTable_Model DeflateTable_Proofs DeflateTable_Proofs2 DeflateTable_Proofs3 DeflateTable_Proofs4 DeflateTable_Proofs5 DeflateTable_Proofs6 DeflateTable_Proofs7 DeflateTable_Proofs8 DeflateTable_Proofs9 Inflate_Spec Inflate_Proofs DeflateDecoder_Model DeflateDecoder_Proofs DeflateDecoder_Proofs2 DeflateDecoder_Proofs3 DeflateDecoder_Proofs4 DeflateDecoder_Proofs5 DeflateDecoder_Proofs6 DeflateDecoder_Proofs7.
Ltac Zify.zify_post_hook ::= idtac.

Lemma rel_step d b m o a fut d' b' m' o' a' : rel d b m o a fut -> asteps a a' -> bits_ok (a_V a') (a_N a') m' b' fut -> mode_rel d' b' m' a' -> out_of o' = a_out a' -> o_ok o' ->
  d_final d' = a_final a' -> (a_mode a' = AZlib \/ a_mode a' = ABlock -> a_final a' = false) -> length (d_off d') = 594%nat -> (d_static d' = true -> tables d' static_lit static_off) ->
  (length (b_src b') <= length (b_src b))%nat -> rel d' b' m' o' a' fut.
Proof.
  intros R S B MR O OK DF NF E1 E2 HS. destruct R as [R1 R2 R3 R4 R5 R6 R7 R8 R9 R10 R11]. constructor; try assumption.
  - eapply asteps_wf; eassumption.
  - eapply tame_steps; eassumption.
  - lia.
Qed.

Lemma clens_4 x y z w : upd (upd (upd (upd (repeat 0 19) 16 x) 17 y) 18 z) 0 w = clens [x; y; z; w].
Proof. reflexivity. Qed.
Lemma put_plen_ok acc x : (length acc < 19)%nat -> put_plen (clens acc) (Z.of_nat (length acc)) x = Ok (clens (acc ++ [x])).
Proof.
  intros H. do 19 (destruct acc as [|? acc]; [reflexivity|]). cbn [length] in H. lia.
Qed.

Lemma dynamic_ok fut d b m o a : rel d b m o a fut -> (b_src b = [] \/ 56 <= b_len b) -> d_state d = KDynamicHuffmanHeader -> exists n, dynamic_header d b o = Ok n /\ next_spec d b o a fut n.
Proof.
  intros R C ES. pose proof R as [B RM RO ROK RF RNF ROFF RST RW RT RS]. unfold mode_rel in RM. rewrite ES in RM. destruct a as [am f V N out]. cbn [a_mode a_V a_N a_out a_final] in *. destruct am; try contradiction.
  pose proof (bo_len _ _ _ _ _ B) as L. pose proof (a_N_len _ _ _ _ _ B) as LN. unfold dynamic_header. destruct (b_len b <? 26) eqn:F.
  { eexists. split; [reflexivity|]. apply (in_spec _ _ _ m); try assumption; [|lia]. intros Ef. rewrite Ef in B. pose proof (a_N_short _ _ _ _ B ltac:(destruct C as [C1|C1]; [exact C1|lia])). apply dynamic_dead. lia. }
  rewrite !(extract_V _ _ _ _ _ _ _ B) by lia. rewrite clens_4. rewrite consumed_ok by lia. cbn [bind]. eexists. split; [reflexivity|].
  set (nl := 257 + V mod 32). set (no := 1 + V / 32 mod 32). set (nc := 4 + V / 1024 mod 16).
  assert (RC : 0 <= V / 1024 mod 16) by (apply Z.mod_pos_bound; reflexivity).
  assert (ST : asteps (A ADynamic f V N out) (A (APrecode nl no nc [V / 2 ^ 14 mod 2 ^ 3; V / 2 ^ 17 mod 2 ^ 3; V / 2 ^ 20 mod 2 ^ 3; V / 2 ^ 23 mod 2 ^ 3]) f (V / 2 ^ 26) (N - 26) out)).
  { eapply steps_cons; [apply st_dynamic; lia|]. fold nl no nc.
    eapply steps_cons; [apply st_precode; [lia|subst nc; cbn [length]; lia]|]. eapply steps_cons; [apply st_precode; [lia|subst nc; cbn [app length]; lia]|].
    eapply steps_cons; [apply st_precode; [lia|subst nc; cbn [app length]; lia]|]. eapply steps_cons; [apply st_precode; [lia|subst nc; cbn [app length]; lia]|].
    rewrite !div_div by lia. cbn [app]. change (14 + 3 + 3 + 3 + 3) with 26. change (14 + 3 + 3 + 3) with 23. change (14 + 3 + 3) with 20. change (14 + 3) with 17. change (2 ^ 3) with 8.
    replace (N - 14 - 3 - 3 - 3 - 3) with (N - 26) by lia. constructor. }
  pose proof (consume_ok _ _ _ _ _ 26 B ltac:(lia)) as B1.
  eexists _, (m - 26). split; [exact ST|]. split; [|split; [reflexivity|]].
  - eapply rel_step; [exact R|exact ST|exact B1| |exact RO|exact ROK|exact RF|intros [?|?]; discriminate|exact ROFF|discriminate|cbn [b_src]; lia].
    unfold mode_rel. cbn [set_state set_union set_work set_flags set_counts d_state d_nlit d_noff d_wc d_wi d_union d_static a_mode length]. subst nl no nc. change (2 ^ 0) with 1. rewrite Z.div_1_r. change (2 ^ 5) with 32. change (2 ^ 10) with 1024. change (2 ^ 4) with 16.
    repeat split; lia.
  - unfold mu, avail. cbn [b_len b_src]. match goal with |- context [rank ?x o] => pose proof (rank_range x o) end. pose proof (rank_range d o). lia.
Qed.

Section Precode.
  Context (f : bool) (nl no nc : Z) (out fut : list Z).
  Let S acc V N := A (APrecode nl no nc acc) f V N out.

  Lemma plens_main_ok : forall fuel acc V N m b, bits_ok V N m b fut -> nc <= 19 -> 3 <= nc - Z.of_nat (length acc) < 3 * Z.of_nat fuel + 3 -> 9 <= b_len b -> (b_src b = [] \/ 30 + (nc - Z.of_nat (length acc)) <= b_len b) ->
    exists acc' V' N' m' b', plens_main fuel (clens acc) (Z.of_nat (length acc)) (nc - Z.of_nat (length acc)) b = Ok (clens acc', Z.of_nat (length acc'), nc - Z.of_nat (length acc'), b') /\
      asteps (S acc V N) (S acc' V' N') /\ bits_ok V' N' m' b' fut /\ (length (b_src b') <= length (b_src b))%nat /\ avail b' < avail b /\ 0 <= nc - Z.of_nat (length acc') /\
      (b_src b' = [] \/ 30 <= b_len b') /\ (nc - Z.of_nat (length acc') < 3 \/ b_len b' < 9).
  Proof.
    induction fuel as [|fuel IH]; intros acc V N m b B Hnc HR HL HC; [lia|]. cbn [plens_main]. pose proof (bo_len _ _ _ _ _ B) as L. pose proof (bo_m _ _ _ _ _ B) as M. pose proof (a_N_len _ _ _ _ _ B) as LN.
    rewrite !(extract_V _ _ _ _ _ _ _ B) by lia. rewrite (put_plen_ok acc) by lia. cbn [bind].
    set (x0 := V / 2 ^ 0 mod 2 ^ 3). set (x1 := V / 2 ^ 3 mod 2 ^ 3). set (x2 := V / 2 ^ 6 mod 2 ^ 3).
    replace (Z.of_nat (length acc) + 1) with (Z.of_nat (length (acc ++ [x0]))) by (rewrite app_length; cbn; lia). rewrite put_plen_ok by (rewrite app_length; cbn [length]; lia). cbn [bind].
    replace (Z.of_nat (length acc) + 2) with (Z.of_nat (length ((acc ++ [x0]) ++ [x1]))) by (rewrite !app_length; cbn; lia). rewrite put_plen_ok by (rewrite !app_length; cbn [length]; lia). cbn [bind].
    rewrite consumed_ok by lia. cbn [bind]. pose proof (consume_ok _ _ _ _ _ 9 B ltac:(lia)) as B1.
    set (acc1 := ((acc ++ [x0]) ++ [x1]) ++ [x2]). assert (LA : Z.of_nat (length acc1) = Z.of_nat (length acc) + 3) by (subst acc1; rewrite !app_length; cbn; lia).
    assert (ST : asteps (S acc V N) (S acc1 (V / 2 ^ 9) (N - 9))).
    { unfold S. eapply steps_cons; [apply st_precode; lia|]. eapply steps_cons; [apply st_precode; [lia|rewrite app_length; cbn [length]; lia]|]. eapply steps_cons; [apply st_precode; [lia|rewrite !app_length; cbn [length]; lia]|].
      rewrite !div_div by lia. change (3 + 3 + 3) with 9. change (3 + 3) with 6. replace (N - 3 - 3 - 3) with (N - 9) by lia. subst acc1 x0 x1 x2. change (2 ^ 0) with 1. rewrite Z.div_1_r. change 8 with (2 ^ 3). constructor. }
    cbn [b_src b_word b_len].
    assert (RB : exists b2 m2, match b_src b with [] => Ok (Bits (b_word b / 2 ^ 9) (b_len b - 9) (b_src b)) | x :: src => let* r := refill_byte (b_word b / 2 ^ 9) (b_len b - 9) x in Ok (Bits (fst r) (snd r) src) end = Ok b2 /\
      bits_ok (V / 2 ^ 9) (N - 9) m2 b2 fut /\ (length (b_src b2) <= length (b_src b))%nat /\ avail b2 = avail b - 9 /\ (b_src b2 = [] \/ b_len b2 = b_len b - 1)).
    { destruct (b_src b) as [|x src] eqn:E.
      - exists (Bits (b_word b / 2 ^ 9) (b_len b - 9) []), (m - 9). split; [reflexivity|]. split; [exact B1|]. unfold avail. rewrite E. cbn. split; [lia|]. split; [lia|]. left; reflexivity.
      - destruct (refill_byte_ok _ _ _ _ _ x src B1 ltac:(reflexivity) ltac:(cbn [b_len]; lia)) as [w [E1 B2]]. cbn [b_word b_len] in E1, B2. rewrite E1. cbn [bind fst snd]. eexists _, _. split; [reflexivity|]. split; [exact B2|]. unfold avail. rewrite E. cbn [b_src length b_len]. split; [lia|]. split; [lia|]. right; lia. }
    destruct RB as [b2 [m2 [E2 [B2 [LS2 [AV2 C2]]]]]]. rewrite E2. cbn [bind]. clear E2. fold acc1.
    replace (Z.of_nat (length acc) + 3) with (Z.of_nat (length acc1)) by lia. replace (nc - Z.of_nat (length acc) - 3) with (nc - Z.of_nat (length acc1)) by lia.
    destruct ((3 <=? nc - Z.of_nat (length acc1)) && (9 <=? b_len b2)) eqn:FC.
    - assert (IHL : 9 <= b_len b2 /\ 3 <= nc - Z.of_nat (length acc1) < 3 * Z.of_nat fuel + 3) by (clear -FC HR LA; lia). destruct IHL as [I1 I2].
      assert (IC : b_src b2 = [] \/ 30 + (nc - Z.of_nat (length acc1)) <= b_len b2).
      { destruct C2 as [C2|C2]; [left; exact C2|]. destruct HC as [HC|HC]; [left; destruct (b_src b2); [reflexivity|rewrite HC in LS2; cbn in LS2; lia]|right; clear -C2 HC LA; lia]. }
      destruct (IH acc1 _ _ m2 b2 B2 Hnc I2 I1 IC) as [acc' [V' [N' [m' [b' [E3 [S3 [B3 [LS3 [AV3 R3]]]]]]]]]].
      exists acc', V', N', m', b'. split; [exact E3|]. split; [eapply asteps_trans; eassumption|]. split; [exact B3|]. split; [clear -LS2 LS3; lia|]. split; [clear -AV2 AV3; lia|exact R3].
    - exists acc1, (V / 2 ^ 9), (N - 9), m2, b2. split; [reflexivity|]. split; [exact ST|]. split; [exact B2|]. split; [exact LS2|]. split; [clear -AV2; lia|]. split; [clear -LA HR; lia|]. split; [|clear -FC; lia].
      destruct C2 as [C2|C2]; [left; exact C2|]. destruct HC as [HC|HC]; [left; destruct (b_src b2); [reflexivity|rewrite HC in LS2; cbn in LS2; lia]|right; clear -C2 HC HR; lia].
  Qed.

  Lemma plens_tail_ok : forall k acc V N m b, bits_ok V N m b fut -> nc <= 19 -> Z.of_nat (length acc) + Z.of_nat k = nc -> 3 * Z.of_nat k <= b_len b ->
    exists acc' V' N' m' b', plens_tail k (clens acc) (Z.of_nat (length acc)) b = Ok (clens acc', b') /\ Z.of_nat (length acc') = nc /\
      asteps (S acc V N) (S acc' V' N') /\ bits_ok V' N' m' b' fut /\ b_src b' = b_src b /\ avail b' <= avail b.
  Proof.
    induction k as [|k IH]; intros acc V N m b B Hnc HR HL.
    - exists acc, V, N, m, b. split; [reflexivity|]. split; [lia|]. split; [constructor|]. split; [exact B|]. split; [reflexivity|lia].
    - cbn [plens_tail]. pose proof (bo_len _ _ _ _ _ B) as L. pose proof (a_N_len _ _ _ _ _ B) as LN. rewrite (extract_V _ _ _ _ _ _ _ B) by lia. rewrite consumed_ok by lia. cbn [bind].
      rewrite put_plen_ok by lia. cbn [bind]. change (2 ^ 0) with 1. rewrite Z.div_1_r. pose proof (consume_ok _ _ _ _ _ 3 B ltac:(lia)) as B1.
      set (acc1 := acc ++ [V mod 2 ^ 3]). assert (LA : Z.of_nat (length acc1) = Z.of_nat (length acc) + 1) by (subst acc1; rewrite app_length; cbn; lia).
      replace (Z.of_nat (length acc) + 1) with (Z.of_nat (length acc1)) by lia.
      destruct (IH acc1 _ _ _ _ B1 Hnc ltac:(lia) ltac:(cbn [b_len]; lia)) as [acc' [V' [N' [m' [b' [E [LC [S3 [B3 [ES AV]]]]]]]]]].
      exists acc', V', N', m', b'. split; [exact E|]. split; [exact LC|]. split; [|split; [exact B3|split; [exact ES|unfold avail in *; cbn [b_len b_src] in AV; lia]]].
      eapply steps_cons; [|exact S3]. unfold S. subst acc1. change (2 ^ 3) with 8 at 1. apply st_precode; lia.
  Qed.
End Precode.

Lemma precode_ok fut jpre d b m o a : rel d b m o a fut -> (b_src b = [] \/ 56 <= b_len b) -> length jpre = 128%nat -> d_state d = KDynamicHuffmanPreCodeLens -> exists n, precode_lens jpre d b o = Ok n /\ next_spec d b o a fut n.
Proof.
  intros R C HJ ES. pose proof R as [B RM RO ROK RF RNF ROFF RST RW RT RS]. unfold mode_rel in RM. rewrite ES in RM. destruct a as [am f V N out]. cbn [a_mode a_V a_N a_out a_final] in *. destruct am; try contradiction.
  destruct RM as [M1 [M2 [M3 [M4 [M5 M6]]]]]. destruct RW as [W0 [_ WN]]. cbn [a_mode wf_mode a_N] in W0, WN. pose proof W0 as [W1 [W2 [W3 [W4 W5]]]].
  pose proof (bo_len _ _ _ _ _ B) as L. pose proof (a_N_len _ _ _ _ _ B) as LN. unfold precode_lens. rewrite M5, M3, M4.
  destruct ((3 <=? nc - Z.of_nat (length acc)) && (b_len b <? 9)) eqn:F.
  { eexists. split; [reflexivity|]. apply (in_spec _ _ _ m); try assumption; [|lia]. intros Ef. rewrite Ef in B. pose proof (a_N_short _ _ _ _ B ltac:(destruct C as [C1|C1]; [exact C1|lia])). eapply precode_dead; [reflexivity|]. lia. }
  assert (MAIN : exists acc' V' N' m' b', (if 3 <=? nc - Z.of_nat (length acc) then plens_main 8 (clens acc) (Z.of_nat (length acc)) (nc - Z.of_nat (length acc)) b else Ok (clens acc, Z.of_nat (length acc), nc - Z.of_nat (length acc), b)) =
      Ok (clens acc', Z.of_nat (length acc'), nc - Z.of_nat (length acc'), b') /\
      asteps (A (APrecode nl no nc acc) f V N out) (A (APrecode nl no nc acc') f V' N' out) /\ bits_ok V' N' m' b' fut /\ (length (b_src b') <= length (b_src b))%nat /\ avail b' <= avail b /\ 0 <= nc - Z.of_nat (length acc') /\
      (b_src b' = [] \/ 30 <= b_len b') /\ (nc - Z.of_nat (length acc') < 3 \/ b_len b' < 9)).
  { destruct (3 <=? nc - Z.of_nat (length acc)) eqn:F3.
    - destruct (plens_main_ok f nl no nc out fut 8 acc V N m b B ltac:(lia) ltac:(lia) ltac:(lia) ltac:(destruct C as [C1|C1]; [left; exact C1|right; lia])) as [acc' [V' [N' [m' [b' [E [S1 [B1 [LS [AV R1]]]]]]]]]]. exists acc', V', N', m', b'. split; [exact E|]. split; [exact S1|]. split; [exact B1|]. split; [exact LS|]. split; [lia|exact R1].
    - exists acc, V, N, m, b. split; [reflexivity|]. split; [constructor|]. split; [exact B|]. split; [lia|]. split; [lia|]. split; [lia|]. split; [|left; lia]. destruct C as [C1|C1]; [left; exact C1|right; lia]. }
  destruct MAIN as [acc' [V' [N' [m' [b' [E1 [S1 [B1 [LS [AV [NC [C1 C2]]]]]]]]]]]]. rewrite E1. cbn [bind]. clear E1.
  destruct (b_len b' <? (nc - Z.of_nat (length acc')) * 3) eqn:F2.
  { eexists. split; [reflexivity|]. eexists _, m'. split; [exact S1|]. split; [|split; [reflexivity|split]].
    - eapply rel_step; [exact R|exact S1|exact B1| |exact RO|exact ROK|exact RF|intros [?|?]; discriminate|exact ROFF| |exact LS].
      + unfold mode_rel. cbn [set_work set_union d_state d_nlit d_noff d_wc d_wi d_union d_static a_mode]. rewrite ES. auto 10.
      + cbn [set_work set_union d_static]. rewrite M6. discriminate.
    - destruct C1 as [C1|C1]; [exact C1|lia].
    - intros Ef. rewrite Ef in B1. pose proof (a_N_short _ _ _ _ B1 ltac:(destruct C1 as [C1|C1]; [exact C1|lia])). eapply precode_dead; [reflexivity|]. pose proof (bo_len _ _ _ _ _ B1). lia. }
  cbn [d_wc set_union]. rewrite M3.
  destruct (plens_tail_ok f nl no nc out fut (Z.to_nat (nc - Z.of_nat (length acc'))) acc' V' N' m' b' B1 ltac:(lia) ltac:(lia) ltac:(lia)) as [acc2 [V2 [N2 [m2 [b2 [E2 [LC [S2 [B2 [ES2 AV2]]]]]]]]]]. rewrite E2. cbn [bind]. clear E2.
  pose proof (asteps_trans _ _ _ S1 S2) as S3. destruct (asteps_rel_tame _ _ _ _ _ _ _ R S3) as [[W2' _] _]. cbn [a_mode wf_mode] in W2'. destruct W2' as [_ [_ [_ [_ W6]]]].
  destruct (pre_build (clens acc2) jpre (clens_range _ W6) ltac:(rewrite clens_length; lia) HJ) as [t' [info [E3 [LT Q]]]]. change kDecoderPrecodeTableBits with 7. change kMaxPreCodeWordLen with 7. rewrite E3. cbn [bind fst snd]. destruct Q as [[Q1 [Q2 _]]|[Q1 [Q2 [Q3 Q4]]]].
  - rewrite Q1. cbn [Z.eqb]. eexists. split; [reflexivity|]. cbn [next_spec]. eapply dead_back; [split; [exact W0|split; [apply (bo_V _ _ _ _ _ B)|exact WN]]|exact S3|].
    apply stuck_dead; [discriminate|]. intros b3 St. inversion St; subst; [lia|contradiction].
  - replace (ti_bits info =? 0) with false by lia. eexists. split; [reflexivity|]. pose proof (st_precode_end f V2 N2 out nl no nc acc2 LC Q1) as St. pose proof (asteps_trans _ _ _ S3 (asteps_one _ _ St)) as S4.
    eexists _, m2. split; [exact S4|]. split; [|split; [reflexivity|]].
    + eapply rel_step; [exact R|exact S4|exact B2| |exact RO|exact ROK|exact RF|intros [?|?]; discriminate|exact ROFF| |rewrite ES2; exact LS].
      * unfold mode_rel. cbn [set_state set_pinfo set_work set_union d_state d_nlit d_noff d_wc d_wi d_union d_static d_pinfo a_mode length]. split; [exact M1|]. split; [exact M2|]. split; [reflexivity|]. split; [exact M6|]. split; [lia|].
        exists (repeat None 457), t'. split; [reflexivity|]. split; [apply repeat_length|]. split; [reflexivity|]. auto.
      * cbn [set_state set_pinfo set_work set_union d_static]. rewrite M6. discriminate.
    + unfold mu. unfold rank at 2. rewrite ES. unfold rank. cbn [set_state d_state]. lia.
Qed.
