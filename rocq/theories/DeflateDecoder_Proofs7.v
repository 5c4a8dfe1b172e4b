(* Stored blocks. *)
From Verif Require Import Base Bits Algorithm_Spec Algorithm_Model Algorithm_Proofs Deflate_Spec DeflateTable_Model DeflateTable_Proofs DeflateTable_Proofs2 DeflateTable_Proofs3 DeflateTable_Proofs4 DeflateTable_Proofs5 DeflateTable_Proofs6 DeflateTable_Proofs7 DeflateTable_Proofs8 DeflateTable_Proofs9 Inflate_Spec Inflate_Proofs DeflateDecoder_Model DeflateDecoder_Proofs DeflateDecoder_Proofs2 DeflateDecoder_Proofs3 DeflateDecoder_Proofs4 DeflateDecoder_Proofs5 DeflateDecoder_Proofs6.
Ltac Zify.zify_post_hook ::= idtac.

Lemma next_spec_trans d b o a fut d1 b1 o1 a1 n : wf a -> asteps a a1 -> d_norealloc d1 = d_norealloc d -> mu d1 b1 o1 <= mu d b o -> avail b1 <= avail b ->
  next_spec d1 b1 o1 a1 fut n -> next_spec d b o a fut n.
Proof.
  intros W S E M AV H. destruct n as [d' b' o'|d' b' o'|d' b' o'|d' b' o'|d' b' o'|c d' b' o']; cbn [next_spec] in *.
  - destruct H as [a' [m' [S1 [R [E1 M1]]]]]. exists a', m'. split; [eapply asteps_trans; eassumption|]. split; [exact R|]. split; [congruence|lia].
  - destruct H as [a' [m' [S1 [R [E1 [M1 NR]]]]]]. exists a', m'. split; [eapply asteps_trans; eassumption|]. split; [exact R|]. split; [congruence|]. split; [lia|exact NR].
  - destruct H as [f [V [N [m' [S1 [Ef [OK [E1 Hf]]]]]]]]. exists f, V, N, m'. split; [eapply asteps_trans; eassumption|]. split; [exact Ef|]. split; [exact OK|]. split; [congruence|]. intros Q. destruct (Hf Q) as [R L]. split; [exact R|lia].
  - destruct H as [a' [m' [S1 [R [E1 HD]]]]]. exists a', m'. split; [eapply asteps_trans; eassumption|]. split; [exact R|]. split; [congruence|exact HD].
  - eapply dead_back; eassumption.
  - exact H.
Qed.

(* the first k bytes of a stream *)
Fixpoint wbytes (k : nat) (V : Z) : list Z := match k with O => [] | S k' => V mod 256 :: wbytes k' (V / 256) end.
Lemma wbytes_length k : forall V, length (wbytes k V) = k.
Proof. induction k; intros V; cbn; [reflexivity|]. rewrite IHk. reflexivity. Qed.
Lemma wbytes_mod k : forall V m, 8 * Z.of_nat k <= m -> wbytes k (V mod 2 ^ m) = wbytes k V.
Proof.
  induction k as [|k IH]; intros V m H; [reflexivity|]. cbn [wbytes]. pose proof (mod_mod_le V m 8 ltac:(lia)) as E. pose proof (mod_div V m 8 ltac:(lia)) as E2. change (2 ^ 8) with 256 in *. rewrite E, E2. f_equal. apply IH. lia.
Qed.
Lemma le_bytes_cons x l : 0 <= x < 256 -> le_bytes (x :: l) mod 256 = x /\ le_bytes (x :: l) / 256 = le_bytes l.
Proof. intros H. cbn [le_bytes]. generalize (le_bytes l). intros z. split; dlia. Qed.
Lemma wbytes_le k : forall l, bytes l -> (k <= length l)%nat -> wbytes k (le_bytes l) = firstn k l.
Proof.
  induction k as [|k IH]; intros l B H; [reflexivity|]. destruct l as [|x l]; [cbn in H; lia|]. inversion B; subst. destruct (le_bytes_cons x l H2) as [E1 E2]. cbn [wbytes firstn]. rewrite E1, E2. f_equal. apply IH; [assumption|cbn in H; lia].
Qed.
Lemma le_bytes_skip k : forall l, bytes l -> (k <= length l)%nat -> le_bytes l / 2 ^ (8 * Z.of_nat k) = le_bytes (skipn k l).
Proof.
  induction k as [|k IH]; intros l B H; [cbn [skipn]; change (8 * Z.of_nat 0) with 0; apply Z.div_1_r|]. destruct l as [|x l]; [cbn in H; lia|]. inversion B; subst. destruct (le_bytes_cons x l H2) as [E1 E2]. cbn [skipn].
  replace (8 * Z.of_nat (S k)) with (8 + 8 * Z.of_nat k) by lia. rewrite <- div_div by lia. change (2 ^ 8) with 256. rewrite E2. apply IH; [assumption|cbn in H; lia].
Qed.

Lemma copies f n : forall k V N out, 0 < n -> Z.of_nat k <= n -> 8 * Z.of_nat k <= N ->
  asteps (A (ACopy n) f V N out) (A (if n =? Z.of_nat k then after_block f else ACopy (n - Z.of_nat k)) f (V / 2 ^ (8 * Z.of_nat k)) (N - 8 * Z.of_nat k) (out ++ wbytes k V)).
Proof.
  intros k. revert n. induction k as [|k IH]; intros n V N out Hn Hk HN.
  - cbn [wbytes]. rewrite app_nil_r. replace (n =? Z.of_nat 0) with false by lia. change (8 * Z.of_nat 0) with 0. change (2 ^ 0) with 1. rewrite Z.div_1_r, !Z.sub_0_r. replace (n - Z.of_nat 0) with n by lia. constructor.
  - eapply steps_cons; [apply st_copy; lia|]. cbn [wbytes]. replace (out ++ V mod 256 :: wbytes k (V / 256)) with ((out ++ [V mod 256]) ++ wbytes k (V / 256)) by (rewrite <- app_assoc; reflexivity).
    change 256 with (2 ^ 8). replace (8 * Z.of_nat (S k)) with (8 + 8 * Z.of_nat k) by lia. rewrite <- div_div by lia. destruct (n =? 1) eqn:F.
    + assert (k = 0%nat) by lia. subst k. replace (n =? Z.of_nat 1) with true by lia. cbn [wbytes]. rewrite app_nil_r. change (8 * Z.of_nat 0) with 0. change (2 ^ 0) with 1. rewrite Z.div_1_r, Z.add_0_r. constructor.
    + specialize (IH (n - 1) (V / 2 ^ 8) (N - 8) (out ++ [V mod 2 ^ 8]) ltac:(lia) ltac:(lia) ltac:(lia)).
      replace (n =? Z.of_nat (S k)) with (n - 1 =? Z.of_nat k) by lia. replace (n - Z.of_nat (S k)) with (n - 1 - Z.of_nat k) by lia. replace (N - (8 + 8 * Z.of_nat k)) with (N - 8 - 8 * Z.of_nat k) by lia. exact IH.
Qed.

Lemma copy_from_word_ok : forall k w o, 0 <= w -> o_ok o -> Z.of_nat k <= o_room o ->
  exists o', copy_from_word k w o = Ok (w / 2 ^ (8 * Z.of_nat k), o') /\ o_next o o' /\ out_of o' = out_of o ++ wbytes k w /\ o_room o' = o_room o - Z.of_nat k.
Proof.
  induction k as [|k IH]; intros w o Hw OK HR.
  - exists o. split; [cbn; f_equal; f_equal; symmetry; apply Z.div_1_r|]. split; [split; [exact OK|reflexivity]|]. split; [symmetry; apply app_nil_r|lia].
  - cbn [copy_from_word wbytes]. rewrite (land_mod w 8) by (reflexivity || lia). change (2 ^ 8) with 256. destruct (put_ok o (w mod 256) OK ltac:(lia)) as [o1 [E1 [[O1 L1] [O2 P1]]]]. rewrite E1. cbn [bind].
    rewrite Z.shiftr_div_pow2 by lia. destruct (IH (w / 2 ^ 8) o1 (div_nonneg _ _ Hw) O1) as [o2 [E2 [[O3 L3] [O4 P2]]]]; [unfold o_room in *; lia|].
    exists o2. split; [rewrite E2, div_div by lia; do 4 f_equal; lia|]. split; [split; [exact O3|congruence]|]. split; [rewrite O4, O2, <- app_assoc; reflexivity|]. unfold o_room in *; lia.
Qed.
Lemma copy_from_src_ok : forall l o, o_ok o -> Z.of_nat (length l) <= o_room o ->
  exists o', copy_from_src l o = Ok o' /\ o_next o o' /\ out_of o' = out_of o ++ l /\ o_room o' = o_room o - Z.of_nat (length l).
Proof.
  induction l as [|x l IH]; intros o OK HR.
  - exists o. split; [reflexivity|]. split; [split; [exact OK|reflexivity]|]. split; [symmetry; apply app_nil_r|cbn; lia].
  - cbn [copy_from_src length] in *. destruct (put_ok o x OK ltac:(lia)) as [o1 [E1 [[O1 L1] [O2 P1]]]]. rewrite E1. cbn [bind].
    destruct (IH o1 O1) as [o2 [E2 [[O3 L3] [O4 P2]]]]; [unfold o_room in *; lia|].
    exists o2. split; [exact E2|]. split; [split; [exact O3|congruence]|]. split; [rewrite O4, O2, <- app_assoc; reflexivity|]. unfold o_room in *; lia.
Qed.

(* bytes of the chunk when the bit buffer is empty *)
Lemma skip_src V N m b fut k : bits_ok V N m b fut -> m = b_len b -> b_len b = 0 -> (k <= length (b_src b))%nat ->
  bits_ok (V / 2 ^ (8 * Z.of_nat k)) (N - 8 * Z.of_nat k) 0 (Bits (b_word b) (b_len b) (skipn k (b_src b))) fut /\ wbytes k V = firstn k (b_src b).
Proof.
  intros B EM EL HK. rewrite EM, EL in *. pose proof (bo_rest _ _ _ _ _ B) as HR. rewrite EL in HR. change (2 ^ 0) with 1 in HR. rewrite Z.div_1_r in HR. pose proof (bo_bytes _ _ _ _ _ B) as HB. pose proof (bo_N _ _ _ _ _ B) as HN.
  assert (LK : (k <= length (b_src b ++ fut))%nat) by (rewrite app_length; lia).
  assert (ESK : skipn k (b_src b ++ fut) = skipn k (b_src b) ++ fut) by (rewrite skipn_app; replace (k - length (b_src b))%nat with 0%nat by lia; reflexivity).
  split.
  - constructor; cbn [b_len b_word b_src]; try lia.
    + rewrite (bo_word _ _ _ _ _ B). change (2 ^ 0) with 1. rewrite !Z.mod_1_r. reflexivity.
    + apply div_nonneg, (bo_V _ _ _ _ _ B).
    + change (2 ^ 0) with 1. rewrite Z.div_1_r, HR, le_bytes_skip by assumption. rewrite ESK. reflexivity.
    + rewrite HN, EL, <- ESK. rewrite skipn_length. lia.
    + rewrite <- ESK. apply Forall_skipn', HB.
  - rewrite HR, wbytes_le by assumption. rewrite firstn_app. replace (k - length (b_src b))%nat with 0%nat by lia. apply app_nil_r.
Qed.

(* the whole state but for its mode after output and input moved on *)
Lemma rel_move d b m o a fut d' b' m' o' a' : rel d b m o a fut -> asteps a a' -> bits_ok (a_V a') (a_N a') m' b' fut -> mode_rel d' b' m' a' -> out_of o' = a_out a' -> o_ok o' ->
  d_final d' = a_final a' -> (a_mode a' = AZlib \/ a_mode a' = ABlock -> a_final a' = false) -> d_off d' = d_off d -> d_static d' = d_static d -> d_union d' = d_union d -> d_linfo d' = d_linfo d -> d_oinfo d' = d_oinfo d ->
  (length (b_src b') <= length (b_src b))%nat -> rel d' b' m' o' a' fut.
Proof.
  intros R S B MR O OK DF NF E1 E2 E3 E4 E5 HS. destruct R as [R1 R2 R3 R4 R5 R6 R7 R8 R9 R10 R11]. constructor; try assumption.
  - congruence.
  - rewrite E2. intros Q. destruct (R8 Q) as [t T]. exists t. rewrite E3, E4, E5, E1. exact T.
  - eapply asteps_wf; eassumption.
  - eapply tame_steps; eassumption.
  - lia.
Qed.
Lemma asteps_rel_tame d b m o a a' fut : rel d b m o a fut -> asteps a a' -> wf a' /\ tame a'.
Proof. intros R S. split; [eapply asteps_wf; [apply (r_wf _ _ _ _ _ _ R)|exact S]|eapply tame_steps; [apply (r_tame _ _ _ _ _ _ R)|exact S]]. Qed.

(* the end of a stored block *)
Lemma stored_done d b m o a fut d' b' m' o' V N : rel d b m o a fut -> asteps a (A (after_block (a_final a)) (a_final a) V N (out_of o')) -> bits_ok V N m' b' fut -> m' = b_len b' -> o_ok o' ->
  d_final d' = d_final d -> d_norealloc d' = d_norealloc d -> d_off d' = d_off d -> d_static d' = d_static d -> d_union d' = d_union d -> d_linfo d' = d_linfo d -> d_oinfo d' = d_oinfo d ->
  (length (b_src b') <= length (b_src b))%nat -> avail b' < avail b -> next_spec d b o a fut (NDone d' b' o').
Proof.
  intros R S B EM OK DF DN E1 E2 E3 E4 E5 HS AV. cbn [next_spec]. exists (a_final a), V, N, m'. split; [exact S|]. pose proof (r_final _ _ _ _ _ _ R) as RF. split; [congruence|]. split; [exact OK|]. split; [exact DN|].
  intros Ef. rewrite Ef in S. cbn [after_block] in S. rewrite fix_id by apply (bo_len _ _ _ _ _ B). split; [|exact AV].
  eapply rel_move; [exact R|exact S| | | | | | | | | | | |]; cbn [a_mode a_V a_N a_out a_final set_state d_final d_off d_static d_union d_linfo d_oinfo]; try assumption; try reflexivity; try congruence.
  unfold mode_rel. cbn [set_state d_state a_mode]. right; left; exact EM.
Qed.

Lemma copy_ok fut d b m o a : rel d b m o a fut -> d_state d = KCopyUncompressedBlock -> exists n, copy_state d b o = Ok n /\ next_spec d b o a fut n.
Proof.
  intros R ES. pose proof R as [B RM RO ROK RF RNF ROFF RST RW RT RS]. unfold mode_rel in RM. rewrite ES in RM. destruct a as [am f V N out]. cbn [a_mode a_V a_N a_out a_final] in *. destruct am; try contradiction. destruct RM as [EC [E8 EM]].
  pose proof (bo_len _ _ _ _ _ B) as L. pose proof (a_N_len _ _ _ _ _ B) as LN. pose proof RW as [WN _]. cbn [a_mode wf_mode] in WN.
  unfold copy_state. rewrite EC. destruct (o_room o <? n) eqn:FR.
  { eexists. split; [reflexivity|]. exists (A (ACopy n) f V N out), m. rewrite fix_id by exact L. split; [constructor|]. split; [exact R|]. split; [reflexivity|]. split; [lia|]. split; [right; split; [exact ES|lia]|]. apply tight_pot. unfold pot. cbn [a_out a_mode]. rewrite <- RO, out_length by exact ROK. unfold o_room in FR. lia. }
  (* bytes of the bit buffer *)
  set (n1 := Z.min n (b_len b / 8)). assert (Hn1 : 0 <= n1 <= n /\ 8 * n1 <= b_len b /\ (n1 = n \/ 8 * n1 = b_len b)) by (subst n1; clear -L E8 WN; dlia). clearbody n1.
  destruct Hn1 as [Q1 [Q2 Q3]].
  assert (STEP1 : exists o1, o_next o o1 /\ out_of o1 = out_of o ++ wbytes (Z.to_nat n1) V /\ o_room o1 = o_room o - n1 /\ exists d1,
    (if b_len b =? 0 then Ok (d, b, o, false) else
        let n0 := Z.min n (Z.shiftr (b_len b) 3) in
        let* wo := copy_from_word (Z.to_nat n0) (b_word b) o in
        let d := set_copy d (n - n0) in
        Ok (d, Bits (fst wo) (w64 (b_len b - n0 * 8)) (b_src b), snd wo, d_copy d =? 0)) = Ok (d1, Bits (b_word b / 2 ^ (8 * n1)) (b_len b - 8 * n1) (b_src b), o1, n =? n1) /\
    d_copy d1 = n - n1 /\ d1 = set_copy d (n - n1)).
  { destruct (b_len b =? 0) eqn:F0.
    - assert (n1 = 0) by lia. subst n1. exists o. split; [split; [exact ROK|reflexivity]|]. cbn [Z.to_nat wbytes]. rewrite app_nil_r. split; [reflexivity|]. split; [lia|]. exists d. change (8 * 0) with 0. change (2 ^ 0) with 1. rewrite Z.div_1_r, Z.sub_0_r.
      split; [|split; [lia|]]. + replace (n =? 0) with false by lia. destruct b; reflexivity. + rewrite Z.sub_0_r, <- EC. destruct d; reflexivity.
    - rewrite Z.shiftr_div_pow2 by lia. change (2 ^ 3) with 8. cbv zeta. replace (Z.min n (b_len b / 8)) with n1 by (clear -L E8 Q1 Q2 Q3; dlia).
      destruct (copy_from_word_ok (Z.to_nat n1) (b_word b) o (bo_word_nonneg _ _ _ _ _ B) ROK ltac:(lia)) as [o1 [E1 [ON [O1 P1]]]]. exists o1. split; [exact ON|].
      split; [rewrite O1, (bo_word _ _ _ _ _ B), wbytes_mod by lia; reflexivity|]. split; [lia|]. exists (set_copy d (n - n1)). split; [|split; reflexivity].
      rewrite E1. cbn [bind fst snd set_copy d_copy]. replace (Z.of_nat (Z.to_nat n1)) with n1 by lia. unfold w64. rewrite Z.mod_small by lia. replace (n1 * 8) with (8 * n1) by lia. replace (n - n1 =? 0) with (n =? n1) by lia. reflexivity. }
  destruct STEP1 as [o1 [[OK1 OL1] [OO1 [OR1 [d1 [E1 [EC1 ED1]]]]]]]. cbv zeta in E1. rewrite E1. cbn [bind]. clear E1.
  pose proof (copies f n (Z.to_nat n1) V N out ltac:(lia) ltac:(lia) ltac:(lia)) as ST1. rewrite !Z2Nat.id in ST1 by lia.
  pose proof (consume_ok _ _ _ _ _ (8 * n1) B ltac:(lia)) as B1. set (V1 := V / 2 ^ (8 * n1)) in *. set (b1 := Bits (b_word b / 2 ^ (8 * n1)) (b_len b - 8 * n1) (b_src b)) in *. rewrite <- RO, <- OO1 in ST1.
  assert (Hd1 : d_final d1 = d_final d /\ d_norealloc d1 = d_norealloc d /\ d_off d1 = d_off d /\ d_static d1 = d_static d /\ d_union d1 = d_union d /\ d_linfo d1 = d_linfo d /\ d_oinfo d1 = d_oinfo d /\ d_state d1 = KCopyUncompressedBlock) by (rewrite ED1; cbn; auto 10).
  destruct Hd1 as [D1 [D2 [D3 [D4 [D5 [D6 [D7 D8]]]]]]]. assert (L1 : b_len b1 = b_len b - 8 * n1) by reflexivity. assert (S1 : b_src b1 = b_src b) by reflexivity. 
  destruct (n =? n1) eqn:FD.
  { rewrite <- RO in R. eexists. split; [reflexivity|]. eapply stored_done with (m' := m - 8 * n1); cbn [a_final]; [rewrite <- RO; exact R|rewrite <- RO; exact ST1|exact B1|lia|exact OK1|assumption..|rewrite S1; lia|unfold avail; rewrite L1, S1; lia]. }
  assert (L10 : b_len b1 = 0) by lia. rewrite EC1, <- S1.
  set (n2 := Z.min (n - n1) (Z.of_nat (length (b_src b1)))). assert (Hn2 : 0 <= n2 <= n - n1 /\ n2 <= Z.of_nat (length (b_src b1)) /\ (n2 = n - n1 \/ n2 = Z.of_nat (length (b_src b1)))) by (subst n2; lia). clearbody n2. destruct Hn2 as [P1 [P2 P3]].
  destruct (n2 =? 0) eqn:F2.
  { eexists. split; [reflexivity|]. exists (A (ACopy (n - n1)) f V1 (N - 8 * n1) (out_of o1)), (m - 8 * n1). rewrite RO in ST1 at 1. split; [exact ST1|].
    split; [|split; [exact D2|split]].
    - eapply rel_move; [exact R|exact ST1| | | | | | | | | | | |]; cbn [a_mode a_V a_N a_out a_final]; try assumption; try reflexivity; try congruence; [|intros [?|?]; discriminate].
      unfold mode_rel. rewrite D8. cbn [a_mode]. split; [exact EC1|]. rewrite L10. split; [reflexivity|lia].
    - apply length_zero_iff_nil. lia.
    - intros Ef. rewrite Ef in B1. pose proof (a_N_short _ _ _ _ B1 ltac:(apply length_zero_iff_nil; lia)) as Q0. rewrite L10 in Q0. rewrite Q0. apply stuck_dead; [discriminate|]. intros b2 S2. inversion S2; subst. lia. }
  destruct (copy_from_src_ok (firstn (Z.to_nat n2) (b_src b1)) o1 OK1) as [o2 [E2 [[OK2 OL2] [OO2 OR2]]]]; [rewrite firstn_length; lia|]. rewrite E2. cbn [bind].
  destruct (skip_src _ _ _ _ _ (Z.to_nat n2) B1 ltac:(lia) L10 ltac:(lia)) as [B2 W2]. rewrite Z2Nat.id in B2 by lia.
  pose proof (copies f (n - n1) (Z.to_nat n2) V1 (N - 8 * n1) (out_of o1) ltac:(lia) ltac:(lia)) as ST2. rewrite !Z2Nat.id in ST2 by lia.
  assert (LN2 : 8 * n2 <= N - 8 * n1). { pose proof (bo_N _ _ _ _ _ B1) as HN. rewrite HN, app_length. lia. }
  specialize (ST2 LN2). rewrite W2, <- OO2 in ST2. pose proof (asteps_trans _ _ _ ST1 ST2) as ST3. rewrite RO in ST3 at 1. clear ST1 ST2. cbn [set_copy d_copy]. replace (n - n1 - n2 =? 0) with (n - n1 =? n2) by lia.
  assert (LS : length (skipn (Z.to_nat n2) (b_src b1)) = (length (b_src b1) - Z.to_nat n2)%nat) by apply skipn_length.
  destruct (n - n1 =? n2) eqn:F3.
  - eexists. split; [reflexivity|]. eapply stored_done with (m' := 0); cbn [a_final set_copy d_final d_norealloc d_off d_static d_union d_linfo d_oinfo b_len b_src]; [exact R|exact ST3|exact B2|symmetry; exact L10|exact OK2|assumption..| |].
    + rewrite LS, S1. clear; lia.
    + unfold avail. cbn [b_len b_src]. rewrite LS, L10. rewrite S1 in *. clear -L P1 P2 F2; lia.
  - eexists. split; [reflexivity|]. eexists (A (ACopy (n - n1 - n2)) f _ _ _), 0. split; [exact ST3|]. split; [|split; [exact D2|]].
    + eapply rel_move; [exact R|exact ST3| | | | | | | | | | | |]; cbn [a_mode a_V a_N a_out a_final set_copy d_final d_norealloc d_off d_static d_union d_linfo d_oinfo b_len b_src]; try assumption; try reflexivity; try congruence; [|intros [?|?]; discriminate|rewrite LS, S1; clear; lia].
      unfold mode_rel. cbn [set_copy d_state]. rewrite D8. cbn [a_mode d_copy b_len]. split; [reflexivity|]. rewrite L10. split; reflexivity.
    + unfold mu, avail. cbn [b_len b_src]. rewrite LS. pose proof (rank_range (set_copy d1 (n - n1 - n2)) o2). pose proof (rank_range d o). rewrite L10. rewrite S1 in *. clear -L P1 P2 F2 H H0; lia.
Qed.

Lemma lxor_check x : 0 <= x < 65536 -> Z.lxor x 65535 = 65535 - x.
Proof.
  intros H. assert (E : Z.lxor x 65535 + x = 65535).
  { rewrite Z.add_nocarry_lxor.
    - rewrite (Z.lxor_comm x), Z.lxor_assoc, Z.lxor_nilpotent. reflexivity.
    - apply Z.bits_inj'. intros i Hi. rewrite Z.land_spec, Z.lxor_spec, Z.bits_0. destruct (Z.ltb_spec i 16).
      + replace (Z.testbit 65535 i) with true; [destruct (Z.testbit x i); reflexivity|]. symmetry. change 65535 with (Z.ones 16). apply Z.ones_spec_low. lia.
      + rewrite (testbit_small x 16 i) by (change (2 ^ 16) with 65536; lia). apply andb_false_r. }
  lia.
Qed.

Lemma stored_ok fut d b m o a : rel d b m o a fut -> (b_src b = [] \/ 56 <= b_len b) -> d_state d = KUncompressedHeader -> exists n, uncompressed_header d b o = Ok n /\ next_spec d b o a fut n.
Proof.
  intros R C ES. pose proof R as [B RM RO ROK RF RNF ROFF RST RW RT RS]. unfold mode_rel in RM. rewrite ES in RM. destruct a as [am f V N out]. cbn [a_mode a_V a_N a_out a_final] in *. destruct am; try contradiction. destruct RM as [E8 EM].
  pose proof (bo_len _ _ _ _ _ B) as L. pose proof (bo_m _ _ _ _ _ B) as M. pose proof (bo_src _ _ _ _ _ B) as Sr. pose proof (a_N_len _ _ _ _ _ B) as LN.
  assert (EM' : m = b_len b). { destruct C as [C1|C1]; [rewrite C1 in Sr; cbn in Sr; lia|lia]. }
  unfold uncompressed_header. destruct (b_len b <? 32) eqn:F.
  { eexists. split; [reflexivity|]. apply (in_stuck _ _ _ m); try assumption; [discriminate|lia|]. intros a' S1. inversion S1; subst. cbn [a_N]. lia. }
  rewrite !(extract_V _ _ _ _ _ _ _ B) by lia. change (2 ^ 0) with 1. rewrite Z.div_1_r.
  assert (RL : 0 <= V mod 2 ^ 16 < 65536) by (apply Z.mod_pos_bound; reflexivity). assert (RC : 0 <= V / 2 ^ 16 mod 2 ^ 16 < 65536) by (apply Z.mod_pos_bound; reflexivity).
  rewrite lxor_check by exact RC. destruct (V mod 2 ^ 16 =? 65535 - V / 2 ^ 16 mod 2 ^ 16) eqn:F1; cbn [negb].
  2:{ eexists. split; [reflexivity|]. apply stuck_dead; [discriminate|]. intros b1 S1. inversion S1; subst. lia. }
  pose proof (consume_ok _ _ _ _ _ 32 B ltac:(lia)) as B1. rewrite consumed_ok by lia. cbn [bind].
  pose proof (st_stored f V N out ltac:(lia) ltac:(lia)) as ST. cbv zeta in ST. destruct (V mod 2 ^ 16 =? 0) eqn:F0.
  - eexists. split; [reflexivity|]. eapply stored_done with (m' := m - 32); cbn [a_final set_copy d_final d_norealloc d_off d_static d_union d_linfo d_oinfo b_len b_src]; [exact R|apply asteps_one; rewrite RO; exact ST|exact B1|cbn [b_len]; lia|exact ROK|reflexivity..|lia|unfold avail; cbn [b_len b_src]; lia].
  - set (d1 := set_state (set_copy d (V mod 2 ^ 16)) KCopyUncompressedBlock). set (b1 := Bits (b_word b / 2 ^ 32) (b_len b - 32) (b_src b)) in *.
    assert (R1 : rel d1 b1 (m - 32) o (A (ACopy (V mod 2 ^ 16)) f (V / 2 ^ 32) (N - 32) out) fut).
    { eapply rel_move; [exact R|apply asteps_one; exact ST| | | | | | | | | | | |]; cbn [a_mode a_V a_N a_out a_final]; subst d1 b1; cbn [set_state set_copy d_final d_off d_static d_union d_linfo d_oinfo b_src]; try assumption; try reflexivity; [|intros [?|?]; discriminate].
      unfold mode_rel. cbn [set_state d_state a_mode d_copy set_copy b_len]. split; [reflexivity|]. split; [clear -E8; dlia|lia]. }
    destruct (copy_ok _ _ _ _ _ _ R1 eq_refl) as [n [E NS]]. exists n. split; [exact E|]. eapply next_spec_trans with (d1 := d1) (b1 := b1) (o1 := o); [exact RW|apply asteps_one, ST|reflexivity| | |exact NS].
    + unfold mu, avail. subst b1. cbn [b_len b_src]. pose proof (rank_range d1 o). pose proof (rank_range d o). lia.
    + unfold avail. subst b1. cbn [b_len b_src]. lia.
Qed.
