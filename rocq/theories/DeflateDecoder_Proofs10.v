(* Compressed data, the loop of decode, and a sequence of calls. *)
From Verif Require Import Base Bits Algorithm_Spec Algorithm_Model Algorithm_Proofs Deflate_Spec DeflateTable_Model DeflateTable_Proofs DeflateTable_Proofs2 DeflateTable_Proofs3 DeflateTable_Proofs4 DeflateTable_Proofs5 DeflateTable_Proofs6 DeflateTable_Proofs7 DeflateTable_Proofs8 DeflateTable_Proofs9 Inflate_Spec Inflate_Proofs DeflateDecoder_Model DeflateDecoder_Proofs DeflateDecoder_Proofs2 DeflateDecoder_Proofs3 DeflateDecoder_Proofs4 DeflateDecoder_Proofs5 DeflateDecoder_Proofs6 DeflateDecoder_Proofs7 DeflateDecoder_Proofs8 DeflateDecoder_Proofs9.
Ltac Zify.zify_post_hook ::= idtac.

Lemma huffman_tail_eq d t b o : huffman_tail d t b o =
  let* r := tail_loops t (d_off d) (ti_bits (d_linfo d)) (ti_bits (d_oinfo d)) (d_copy d) b o in
  match r with
  | LCont _ b o => NoFuel
  | LOut c b o => Ok (NOut (set_copy d c) b o)
  | LIn c b o => Ok (NIn (set_copy d c) b o)
  | LDone b o => Ok (NDone d b o)
  | LBad b o => Ok (NBad d b o)
  end.
Proof. unfold huffman_tail, tail_loops. match goal with |- (let* r := ?X in _) = _ => destruct X as [r| | |] end; reflexivity. Qed.

Lemma full_tight lit off f V N m b fut o : wf_mode (ASyms lit off) -> bits_ok V N m b fut -> o_ok o -> full lit b o -> tight o (A (ASyms lit off) f V N (out_of o)).
Proof.
  intros W B OK [H|[s [D [Rs [HL H]]]]].
  - apply tight_pot. unfold pot. cbn [a_out a_mode]. rewrite out_length by exact OK. unfold o_room in H. lia.
  - pose proof (bo_m _ _ _ _ _ B) as M. pose proof (decodes_len lit _ s (proj1 W) D) as L1. pose proof (length_extra_range s Rs) as X1. rewrite (bo_word _ _ _ _ _ B) in D, H. apply (proj1 (dec_mod lit V m s ltac:(lia))) in D.
    rewrite mod_div, mod_mod_le in H by lia.
    remember (length_base s + V / 2 ^ len_of lit s mod 2 ^ length_extra s) as n0 eqn:En.
    apply tight_step; [discriminate|]. intros b2 St. pose proof (proj1 W) as W1. pose proof (out_length o OK) as LO. clear B HL M L1 X1 OK.
    inversion St as [| | | | | | | | | | | | | |? ? ? ? ? ? s' D' R'|? ? ? ? ? ? D'|? ? ? ? ? ? s' d D' R']; subst lit0 off0 V0 N0 f0 o0; unfold pot; cbn [a_out a_mode].
    + exfalso. pose proof (decodes_unique lit V s' s W1 D' D) as E. clear -E R' Rs. lia.
    + exfalso. pose proof (decodes_unique lit V 256 s W1 D' D) as E. clear -E Rs. lia.
    + pose proof (decodes_unique lit V s' s W1 D' D) as E. rewrite lz_copy_length. assert (En2 : n = n0) by (rewrite En, <- E; reflexivity). rewrite En2, Nat2Z.inj_add, LO. unfold o_room in H. clear -H. lia.
Qed.

Lemma huffman_ok fut d b m o a : rel d b m o a fut -> d_state d = KDecompressHuffmanBlock -> exists n, huffman_block d b o = Ok n /\ next_spec d b o a fut n.
Proof.
  intros R ES. pose proof R as [B RM RO ROK RF RNF ROFF RST RW RT RS]. unfold mode_rel in RM. rewrite ES in RM. destruct a as [am f V N out]. cbn [a_mode a_V a_N a_out a_final] in *. destruct am; try contradiction.
  destruct RM as [t [U [LT [OT [R1 R2]]]]]. pose proof RW as [W _]. cbn [a_mode] in W. unfold huffman_block. rewrite U. replace (176 <=? Z.of_nat (length (b_src b))) with false by lia. cbn [andb].
  rewrite huffman_tail_eq. cbn [set_copy d_off d_linfo d_oinfo d_copy].
  destruct (tail_loops_ok lit off t (d_off d) _ _ f fut W LT OT R1 R2 0 V N m b o B ROK) as [r [E [TS NC]]]. rewrite E. cbn [bind]. clear E.
  destruct TS as [V' [N' [m' [b0 [o0 [S [B' [[ON OL] [LS [AV SP]]]]]]]]]]. rewrite RO in S.
  assert (TB : forall c, tables (set_copy d c) lit off) by (intros; exists t; cbn [set_copy d_union d_linfo d_oinfo d_off]; auto).
  assert (RR : forall c, rel (set_copy d c) b0 m' o0 (A (ASyms lit off) f V' N' (out_of o0)) fut).
  { intros c. eapply rel_step; [exact R|exact S|exact B'| |reflexivity|exact ON|exact RF|intros [?|?]; discriminate|exact ROFF|exact RST|exact LS]. unfold mode_rel. cbn [set_copy d_state]. rewrite ES. apply TB. }
  assert (MU : forall c, mu (set_copy d c) b0 o0 <= mu d b o).
  { intros c. unfold mu. pose proof (rank_range (set_copy d c) o0). pose proof (rank_range d o). destruct AV as [AV|[AV EO]]; [lia|]. rewrite AV, EO. unfold rank. cbn [set_copy d_state]. rewrite ES. lia. }
  pose proof (r_tame _ _ _ _ _ _ (RR 0) _ (steps_nil _)) as [T1 T2]. cbn [a_V a_final] in T2.
  destruct r as [e b' o'|c b' o'|c b' o'|b' o'|b' o'].
  - destruct (NC e b' o' eq_refl).
  - destruct SP as [E1 [-> HR]]. eexists. split; [reflexivity|]. cbn [next_spec]. rewrite E1. eexists _, m'. split; [exact S|]. split; [apply RR|]. split; [reflexivity|]. split; [apply MU|]. split; [left; cbn [set_copy d_state]; split; [exact ES|eapply full_lt, HR]|]. eapply full_tight; eassumption.
  - destruct SP as [-> [-> [ES0 SH]]]. eexists. split; [reflexivity|]. cbn [next_spec]. eexists _, m'. split; [exact S|]. split; [apply RR|]. split; [reflexivity|]. split; [exact ES0|].
    intros ->. apply stuck_dead; [discriminate|]. intros s. eapply short_stuck; eassumption.
  - destruct SP as [-> [D [HL E1]]]. eexists. split; [reflexivity|]. cbn [next_spec]. set (l := len_of lit 256) in *. pose proof (decodes_len lit _ 256 (proj1 W) D) as Rl. fold l in Rl. pose proof (a_N_len _ _ _ _ _ B') as LN. pose proof (bo_m _ _ _ _ _ B') as M.
    pose proof (st_end_of_block f V' N' (out_of o0) lit off D ltac:(fold l; lia)) as St. cbv zeta in St. fold l in St. pose proof (asteps_trans _ _ _ S (asteps_one _ _ St)) as S2.
    exists f, (V' / 2 ^ l), (N' - l), (m' - l). split; [exact S2|]. cbn [set_copy d_final]. split; [exact RF|]. split; [exact ON|]. split; [reflexivity|]. intros Ef. rewrite Ef in *. cbn [after_block] in S2. rewrite E1.
    pose proof (consume_ok _ _ _ _ _ l B' ltac:(lia)) as B2. split.
    + eapply rel_step; [exact R|exact S2|exact B2| |reflexivity|exact ON|exact RF|reflexivity|exact ROFF|exact RST|exact LS]. unfold mode_rel. cbn [set_state d_state a_mode a_V].
      destruct (Z.ltb_spec l 5) as [Q|Q]; [right; right; apply T2; auto|left; lia].
    + unfold avail in *. cbn [b_len b_src]. destruct AV as [AV|[AV _]]; lia.
  - destruct SP as [-> BW]. eexists. split; [reflexivity|]. cbn [next_spec]. eapply dead_back; [exact RW|exact S|]. apply stuck_dead; [discriminate|]. intros s. pose proof (bo_m _ _ _ _ _ B') as M. pose proof (bo_len _ _ _ _ _ B') as L.
    rewrite (bo_word _ _ _ _ _ B') in BW. eapply bad_stuck; [exact W|exact T1|apply (bo_V _ _ _ _ _ B')| |exact BW]. lia.
Qed.

Lemma switch_ok fut jpre jlit d b m o a : length jpre = 128%nat -> length jlit = 2342%nat -> rel d b m o a fut -> (b_src b = [] \/ 56 <= b_len b) -> exists n, switch jpre jlit d b o = Ok n /\ next_spec d b o a fut n.
Proof.
  intros J1 J2 R C. unfold switch. destruct (d_state d) eqn:ES; try (exfalso; pose proof (r_mode _ _ _ _ _ _ R) as RM; unfold mode_rel in RM; rewrite ES in RM; exact RM).
  - eapply huffman_ok; eassumption.
  - eapply copy_ok; eassumption.
  - eapply zlib_ok; eassumption.
  - eapply block_ok; eassumption.
  - eapply stored_ok; eassumption.
  - eapply static_ok; eassumption.
  - eapply dynamic_ok; eassumption.
  - eapply precode_ok; eassumption.
  - eapply lens_ok_state; eassumption.
Qed.

(* what dst.reserve has to deliver *)
Definition grow_ok (grow : Z -> Z -> option (list Z)) : Prop := forall size need m, grow size need = Some m -> need <= size + Z.of_nat (length m).

Definition run_spec (fut : list Z) (grow : Z -> Z -> option (list Z)) (nr : bool) (a : astate) (r : Z * decoder * obuf) : Prop :=
  let '(code, s, o') := r in
  code = BL_SUCCESS /\ (exists f V N, asteps a (A ADone f V N (out_of o'))) \/
  code = BL_ERROR_DATA_TRUNCATED /\ (exists a' m', asteps a a' /\ rel (dc s) (Bits (dc_word s) (dc_len s) []) m' o' a' fut /\ d_norealloc (dc s) = nr /\ (fut = [] -> dead a')) \/
  code = BL_ERROR_DECOMPRESSION_FAILED /\ dead a \/
  code = BL_ERROR_OUT_OF_MEMORY /\ (nr = true /\ tight o' a \/ nr = false /\ exists size need, grow size need = None).

Lemma tight_back o a a1 : wf a -> asteps a a1 -> tight o a1 -> tight o a.
Proof. intros W S T f V N res H. apply (T f V N res). eapply asteps_det; eassumption. Qed.
Lemma run_spec_trans fut grow nr a a1 r : wf a -> asteps a a1 -> run_spec fut grow nr a1 r -> run_spec fut grow nr a r.
Proof.
  intros W S H. destruct r as [[code s] o']. destruct H as [[-> [f [V [N H]]]]|[[-> [a' [m' [S1 R]]]]|[[-> D]|H]]].
  - left. split; [reflexivity|]. exists f, V, N. eapply asteps_trans; eassumption.
  - right; left. split; [reflexivity|]. exists a', m'. split; [eapply asteps_trans; eassumption|exact R].
  - right; right; left. split; [reflexivity|]. eapply dead_back; eassumption.
  - right; right; right. destruct H as [-> [[H1 H2]|H]]; (split; [reflexivity|]); [left|right; exact H]. split; [exact H1|]. eapply tight_back; eassumption.
Qed.

Section Run.
  Context (fut jpre jlit : list Z) (grow : Z -> Z -> option (list Z)) (J1 : length jpre = 128%nat) (J2 : length jlit = 2342%nat) (GO : grow_ok grow).

  Lemma run_ok : forall fuel d b m o a, rel d b m o a fut -> mu d b o < Z.of_nat fuel ->
    exists r, run fuel jpre jlit grow d b o = Ok r /\ run_spec fut grow (d_norealloc d) a r.
  Proof.
    induction fuel as [|fuel IH]; intros d b m o a R HF.
    { exfalso. pose proof (bo_len _ _ _ _ _ (r_bits _ _ _ _ _ _ R)). pose proof (rank_range d o). unfold mu, avail in HF. lia. }
    cbn [run]. destruct (rel_refill _ _ _ _ _ _ R) as [b1 [m1 [E1 [R1 [C1 AV1]]]]]. rewrite E1. cbn [bind].
    assert (MU1 : mu d b1 o = mu d b o) by (unfold mu; rewrite AV1; reflexivity). pose proof (r_wf _ _ _ _ _ _ R) as W.
    destruct (switch_ok fut jpre jlit d b1 m1 o a J1 J2 R1 C1) as [n [E2 NS]]. rewrite E2. cbn [bind]. clear E1 E2.
    destruct n as [d' b' o'|d' b' o'|d' b' o'|d' b' o'|d' b' o'|c d' b' o']; cbn [next_spec] in NS.
    - destruct NS as [a' [m' [S1 [R2 [EN M]]]]]. destruct (IH d' b' m' o' a' R2 ltac:(lia)) as [r [E SP]]. exists r. split; [exact E|]. rewrite EN in SP. eapply run_spec_trans; eassumption.
    - destruct NS as [a' [m' [S1 [R2 [EN [M [NR TI]]]]]]]. rewrite EN. destruct (d_norealloc d) eqn:FN.
      { eexists. split; [reflexivity|]. right; right; right. split; [reflexivity|]. left. split; [reflexivity|]. eapply tight_back; eassumption. }
      destruct (grow (o_pos o') (size_estimate d' o')) as [mm|] eqn:EG.
      2:{ eexists. split; [reflexivity|]. right; right; right. split; [reflexivity|]. right. split; [reflexivity|]. eexists _, _. exact EG. }
      pose proof (GO _ _ _ EG) as HG. pose proof (r_ook _ _ _ _ _ _ R2) as OK. unfold o_ok in OK.
      set (o2 := Out (firstn (Z.to_nat (o_pos o')) (o_mem o') ++ mm) (o_pos o')).
      assert (LF : length (firstn (Z.to_nat (o_pos o')) (o_mem o')) = Z.to_nat (o_pos o')) by (rewrite firstn_length; lia).
      assert (O2 : out_of o2 = out_of o'). { unfold out_of. subst o2. cbn [o_pos o_mem]. rewrite firstn_app, LF, Nat.sub_diag. cbn [firstn]. rewrite app_nil_r, firstn_firstn, Nat.min_id. reflexivity. }
      assert (RM2 : o_room o2 = Z.of_nat (length mm)) by (unfold o_room; subst o2; cbn [o_pos o_mem]; rewrite app_length, LF; lia).
      assert (OK2 : o_ok o2) by (unfold o_ok; subst o2; cbn [o_pos o_mem]; rewrite app_length, LF; lia).
      assert (R3 : rel d' (fix_length b') m' o2 a' fut). { destruct R2. constructor; try assumption. rewrite O2. assumption. }
      assert (MU3 : mu d' (fix_length b') o2 < mu d' (fix_length b') o').
      { unfold mu. enough (rank d' o2 < rank d' o') by lia. unfold rank. destruct NR as [[Q1 Q2]|[Q1 Q2]]; rewrite Q1.
        - replace (o_room o' <? 258) with true by lia. replace (o_room o2 <? 258) with false; [lia|]. unfold size_estimate in HG. rewrite Q1 in HG. lia.
        - replace (o_room o' <? d_copy d') with true by lia. replace (o_room o2 <? d_copy d') with false; [lia|]. unfold size_estimate in HG. rewrite Q1 in HG. destruct (d_final d' && negb (d_copy d' =? 0)); lia. }
      destruct (IH d' (fix_length b') m' o2 a' R3 ltac:(lia)) as [r [E SP]]. exists r. split; [exact E|]. rewrite EN in SP. eapply run_spec_trans; eassumption.
    - destruct NS as [f [V [N [m' [S1 [Ef [OK [EN HC]]]]]]]]. destruct f.
      + rewrite Ef. cbn [negb]. eexists. split; [reflexivity|]. left. split; [reflexivity|]. exists true, V, N. exact S1.
      + rewrite Ef. cbn [negb]. destruct (HC eq_refl) as [R2 AV2]. destruct (IH _ _ m' o' _ R2) as [r [E SP]].
        { unfold mu in *. pose proof (rank_range (set_state d' KBlockHeader) o'). pose proof (rank_range d o). lia. }
        exists r. split; [exact E|]. cbn [set_state d_norealloc] in SP. rewrite EN in SP. eapply run_spec_trans; [exact W|exact S1|exact SP].
    - destruct NS as [a' [m' [S1 [R2 [EN [ES HD]]]]]]. eexists. split; [reflexivity|]. right; left. split; [reflexivity|]. exists a', m'. split; [exact S1|]. cbn [dc dc_word dc_len]. split; [|split; [exact EN|exact HD]].
      destruct b' as [w l src]. cbn [b_src b_word b_len] in *. subst src. exact R2.
    - eexists. split; [reflexivity|]. right; right; left. split; [reflexivity|exact NS].
    - destruct NS.
  Qed.
End Run.

(* the decoder between two calls, with the input that is still to come *)
Definition waits (s : decoder) (o : obuf) (a : astate) (fut : list Z) : Prop := exists m, rel (dc s) (Bits (dc_word s) (dc_len s) []) m o a fut.

Lemma decode_ok jpre jlit grow s o a c fut : length jpre = 128%nat -> length jlit = 2342%nat -> grow_ok grow -> waits s o a (c ++ fut) -> (length c < 176)%nat ->
  exists r, decode jpre jlit grow s o c = Ok r /\ run_spec fut grow (d_norealloc (dc s)) a r.
Proof.
  intros J1 J2 GO [m R] HC. unfold decode.
  assert (R1 : rel (dc s) (Bits (dc_word s) (dc_len s) c) m o a fut).
  { destruct R as [[B1 B2 B3 B4 B5 B6 B7 B8] RM RO ROK RF RNF ROFF RST RW RT RS]. cbn [b_len b_word b_src app length] in *. constructor; try assumption. constructor; cbn [b_len b_word b_src]; try assumption. cbn in B3. lia. }
  apply (run_ok fut jpre jlit grow J1 J2 GO _ _ _ m); [exact R1|]. pose proof (bo_len _ _ _ _ _ (r_bits _ _ _ _ _ _ R1)) as L. cbn [b_len] in L. unfold mu, avail. cbn [b_len b_src]. pose proof (rank_range (dc s) o). lia.
Qed.

Definition feed_spec (grow : Z -> Z -> option (list Z)) (nr : bool) (a : astate) (r : Z * decoder * obuf) : Prop :=
  let '(code, s, o') := r in
  code = BL_SUCCESS /\ (exists f V N, asteps a (A ADone f V N (out_of o'))) \/
  (code = BL_ERROR_DATA_TRUNCATED \/ code = BL_ERROR_DECOMPRESSION_FAILED) /\ dead a \/
  code = BL_ERROR_OUT_OF_MEMORY /\ (nr = true /\ tight o' a \/ nr = false /\ exists size need, grow size need = None).

Lemma feed_ok jpre jlit grow : length jpre = 128%nat -> length jlit = 2342%nat -> grow_ok grow -> forall chunks s o a, waits s o a (concat chunks) -> Forall (fun c => (length c < 176)%nat) chunks -> (concat chunks = [] -> dead a) ->
  exists r, feed jpre jlit grow s o chunks = Ok r /\ feed_spec grow (d_norealloc (dc s)) a r.
Proof.
  intros J1 J2 GO. induction chunks as [|c chunks IH]; intros s o a WT HC HD.
  - eexists. split; [reflexivity|]. right; left. split; [left; reflexivity|]. apply HD. reflexivity.
  - cbn [feed concat] in *. inversion HC as [|? ? HC1 HC2]; subst. destruct (decode_ok jpre jlit grow s o a c (concat chunks) J1 J2 GO WT HC1) as [[[code s'] o'] [E SP]]. rewrite E. cbn [bind].
    assert (W : wf a) by (destruct WT as [m R]; apply (r_wf _ _ _ _ _ _ R)).
    destruct SP as [[-> SP]|[[-> [a' [m' [S1 [R [EN HD']]]]]]|[[-> SP]|[-> SP]]]].
    + eexists. split; [reflexivity|]. left. split; [reflexivity|exact SP].
    + change (BL_ERROR_DATA_TRUNCATED =? BL_ERROR_DATA_TRUNCATED) with true. cbn iota. destruct (IH s' o' a' (ex_intro _ m' R) HC2 HD') as [r [E2 SP]]. exists r. split; [exact E2|]. rewrite EN in SP. destruct r as [[code s2] o2].
      destruct SP as [[-> [f [V [N SP]]]]|[[Q D]|[-> [[Q1 Q2]|SP]]]]; [left|right; left|right; right; split; [reflexivity|left]; split; [exact Q1|eapply tight_back; eassumption]|right; right; split; [reflexivity|right; exact SP]].
      * split; [reflexivity|]. exists f, V, N. eapply asteps_trans; eassumption.
      * split; [exact Q|]. eapply dead_back; eassumption.
    + eexists. split; [reflexivity|]. right; left. split; [right; reflexivity|exact SP].
    + eexists. split; [reflexivity|]. right; right. split; [reflexivity|exact SP].
Qed.

Lemma init_waits zlib nr u off o bs : length off = 594%nat -> o_ok o -> bytes bs -> tame (start zlib bs (out_of o)) -> waits (init zlib nr u off) o (start zlib bs (out_of o)) bs.
Proof.
  intros HO OK HB HT. exists 0. unfold start in *. assert (HV : 0 <= le_bytes bs) by (apply le_bytes_nonneg, HB).
  constructor; cbn [a_V a_N a_out a_final a_mode init dc dc_word dc_len d_final d_off d_static b_src length]; try assumption; try reflexivity; try discriminate; try lia.
  - constructor; cbn [b_len b_word b_src length app]; try lia; try assumption.
  - unfold mode_rel. cbn [d_state a_mode b_len]. destruct zlib; [reflexivity|left; lia].
  - split; [destruct zlib; exact I|]. cbn [a_V a_N]. lia.
Qed.

Lemma start_dead zlib bs o : bs = [] -> dead (start zlib bs o).
Proof. intros ->. apply stuck_dead; [destruct zlib; discriminate|]. intros b St. unfold start in St. cbn in St. destruct zlib; inversion St; subst; lia. Qed.
