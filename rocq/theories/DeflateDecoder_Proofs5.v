(* The tail loops against the stream. *)
From Verif Require Import Base Bits Algorithm_Spec Algorithm_Model Algorithm_Proofs Deflate_Spec DeflateTable_Model DeflateTable_Proofs DeflateTable_Proofs2 DeflateTable_Proofs3 DeflateTable_Proofs4 DeflateTable_Proofs5 DeflateTable_Proofs6 DeflateTable_Proofs7 DeflateTable_Proofs8 DeflateTable_Proofs9 Inflate_Spec Inflate_Proofs DeflateDecoder_Model DeflateDecoder_Proofs DeflateDecoder_Proofs2 DeflateDecoder_Proofs3 DeflateDecoder_Proofs4.
Ltac Zify.zify_post_hook ::= idtac.

(* bits in the buffer and the chunk *)
Definition avail (b : bits) : Z := b_len b + 8 * Z.of_nat (length (b_src b)).

Lemma fix_id b : 0 <= b_len b < 64 -> fix_length b = b.
Proof. intros H. unfold fix_length. rewrite land63, Z.mod_small by lia. destruct b; reflexivity. Qed.
Lemma fix_fix b : fix_length (fix_length b) = fix_length b.
Proof. unfold fix_length. cbn [b_word b_len b_src]. rewrite !land63, Z.mod_mod by lia. reflexivity. Qed.

Definition out_next (o o' : obuf) : Prop := o_ok o' /\ length (o_mem o') = length (o_mem o).

(* how a tail loop ends, when it starts with the stream V of N bits, the buffer b and the output o *)
Definition tail_spec (lit off : list Z) (f : bool) (V N : Z) (b : bits) (fut : list Z) (o : obuf) (r : loop_res) : Prop :=
  exists V' N' m' b0 o0,
    asteps (A (ASyms lit off) f V N (out_of o)) (A (ASyms lit off) f V' N' (out_of o0)) /\ bits_ok V' N' m' b0 fut /\ out_next o o0 /\
    (length (b_src b0) <= length (b_src b))%nat /\ (avail b0 < avail b \/ avail b0 = avail b /\ o0 = o) /\
    match r with
    | LCont _ b' o' => fix_length b' = b0 /\ o' = o0
    | LOut _ b' o' => fix_length b' = b0 /\ o' = o0 /\ full lit b0 o0
    | LIn _ b' o' => b' = b0 /\ o' = o0 /\ b_src b0 = [] /\ short lit off (b_word b0) (b_len b0) (out_of o0)
    | LDone b' o' => o' = o0 /\ decodes lit V' 256 /\ len_of lit 256 <= b_len b0 /\
        fix_length b' = Bits (b_word b0 / 2 ^ len_of lit 256) (b_len b0 - len_of lit 256) (b_src b0)
    | LBad _ o' => o' = o0 /\ bad_word lit off (b_word b0) (b_len b0) (out_of o0)
    end.

Section Loops.
  Context (lit off t toff : list Z) (tb ob : Z) (f : bool) (fut : list Z).
  Context (W : wf_mode (ASyms lit off)) (LT : lit_table lit tb t) (OT : off_table off ob toff) (Rtb : 1 <= tb <= 11) (Rob : 1 <= ob <= 9).

  Lemma tail_step V N V1 N1 b b1 o o1 r :
    asteps (A (ASyms lit off) f V N (out_of o)) (A (ASyms lit off) f V1 N1 (out_of o1)) -> out_next o o1 -> (length (b_src b1) <= length (b_src b))%nat -> avail b1 < avail b ->
    tail_spec lit off f V1 N1 b1 fut o1 r -> tail_spec lit off f V N b fut o r.
  Proof.
    intros S1 [O1 O2] L1 A1 [V' [N' [m' [b0 [o0 [S2 [B [[O3 O4] [L2 [A2 R]]]]]]]]]]. exists V', N', m', b0, o0. split; [eapply asteps_trans; eassumption|]. split; [exact B|]. split; [split; [exact O3|congruence]|].
    split; [lia|]. split; [left; lia|exact R].
  Qed.

  Lemma safe_loop_ok copy : forall fuel V N m b o, bits_ok V N m b fut -> o_ok o -> avail b < Z.of_nat fuel ->
    exists r, safe_loop fuel t toff tb ob copy b o = Ok r /\ tail_spec lit off f V N b fut o r /\ (forall e b' o', r <> LCont e b' o').
  Proof.
    induction fuel as [|fuel IH]; intros V N m b o B OK HF.
    { pose proof (bo_len _ _ _ _ _ B). unfold avail in HF. lia. }
    cbn [safe_loop]. destruct (refill_ok _ _ _ _ _ B) as [b1 [E1 [B1 [C1 [L1 [L2 L3]]]]]]. set (m1 := Z.max m (b_len b1)) in *. clearbody m1.
    pose proof (bo_len _ _ _ _ _ B1) as LB. pose proof (bo_m _ _ _ _ _ B1) as MB. pose proof (bo_V _ _ _ _ _ B1) as HV. pose proof (bo_N _ _ _ _ _ B1) as HN.
    destruct (safe_iter_ok lit off t toff tb ob W LT OT Rtb Rob b b1 o copy E1 (bo_word_nonneg _ _ _ _ _ B1) LB OK) as [r [E2 SP]]. rewrite E2. cbn [bind].
    assert (AV : avail b1 = avail b) by (unfold avail; clear -L3; lia).
    assert (HNL : b_len b1 <= N) by (rewrite HN; clear; lia).
    destruct r as [e b2 o2|c b2 o2|c b2 o2|b2 o2|b2 o2]; cbn [iter_spec] in SP.
    - destruct SP as [k [SS [Rk [-> ON]]]]. pose proof (consume_ok _ _ _ _ _ k B1 ltac:(lia)) as B2.
      assert (ST : astep (A (ASyms lit off) f V N (out_of o)) (A (ASyms lit off) f (V / 2 ^ k) (N - k) (out_of o2))).
      { apply sym_astep; [exact W|exact HV| |clear -HNL Rk; lia]. rewrite (bo_word _ _ _ _ _ B1) in SS. eapply sym_lift; [exact W|exact HV|exact SS|clear -MB Rk; lia]. }
      destruct (IH _ _ _ _ o2 B2 (proj1 ON)) as [r [E3 [TS NC]]]; [unfold avail in *; cbn [b_len b_src]; lia|].
      exists r. split; [exact E3|]. split; [|exact NC]. eapply tail_step; [apply asteps_one, ST|exact ON| | |exact TS]; [exact L2|unfold avail in *; cbn [b_len b_src]; lia].
    - destruct SP as [-> [-> HR]]. eexists. split; [reflexivity|]. split; [|discriminate]. exists V, N, m1, b1, o. split; [constructor|]. split; [exact B1|]. split; [split; [exact OK|reflexivity]|].
      split; [exact L2|]. split; [right; split; [exact AV|reflexivity]|]. split; [apply fix_id, LB|]. split; [reflexivity|exact HR].
    - destruct SP as [-> [-> [HL SH]]]. eexists. split; [reflexivity|]. split; [|discriminate]. exists V, N, m1, b1, o. split; [constructor|]. split; [exact B1|]. split; [split; [exact OK|reflexivity]|].
      split; [exact L2|]. split; [right; split; [exact AV|reflexivity]|]. split; [reflexivity|]. split; [reflexivity|]. split; [|exact SH]. destruct C1 as [C1|C1]; [exact C1|lia].
    - destruct SP as [-> [D [HL ->]]]. eexists. split; [reflexivity|]. split; [|discriminate]. exists V, N, m1, b1, o. split; [constructor|]. split; [exact B1|]. split; [split; [exact OK|reflexivity]|].
      split; [exact L2|]. split; [right; split; [exact AV|reflexivity]|]. split; [reflexivity|]. split; [|split; [exact HL|]].
      + rewrite (bo_word _ _ _ _ _ B1) in D. apply (proj1 (dec_mod lit V m1 256 ltac:(lia))). exact D.
      + pose proof (decodes_len lit _ 256 (proj1 W) D). apply fix_id. cbn [b_len]. lia.
    - destruct SP as [-> BW]. eexists. split; [reflexivity|]. split; [|discriminate]. exists V, N, m1, b1, o. split; [constructor|]. split; [exact B1|]. split; [split; [exact OK|reflexivity]|].
      split; [exact L2|]. split; [right; split; [exact AV|reflexivity]|]. split; [reflexivity|exact BW].
  Qed.

  Lemma opt_loop_ok : forall fuel V N b0 b o entry, fix_length b = b0 -> bits_ok V N 64 b0 fut -> 56 <= b_len b0 -> o_ok o -> elem_at t (b_word b0 mod 2 ^ tb) = Some entry -> avail b0 < Z.of_nat fuel ->
    exists r, opt_loop fuel t toff tb ob entry b o = Ok r /\ tail_spec lit off f V N b0 fut o r.
  Proof.
    induction fuel as [|fuel IH]; intros V N b0 b o entry FX B HL OK HE HF.
    { unfold avail in HF. lia. }
    cbn [opt_loop]. assert (ES : b_src b = b_src b0) by (rewrite <- FX; reflexivity). rewrite ES.
    pose proof (bo_len _ _ _ _ _ B) as LB. pose proof (bo_V _ _ _ _ _ B) as HV. pose proof (bo_N _ _ _ _ _ B) as HN.
    assert (HNL : 56 <= N) by (rewrite HN; clear -HL; lia).
    destruct ((2 <? o_room o) && (8 <=? Z.of_nat (length (b_src b0)))) eqn:FC.
    - assert (C1 : 2 < o_room o /\ 8 <= Z.of_nat (length (b_src b0))) by (clear -FC; lia). destruct C1 as [C1 C2].
      destruct (opt_iter_ok lit off t toff tb ob W LT OT Rtb Rob b0 b o entry FX (bo_word_nonneg _ _ _ _ _ B) ltac:(clear -HL LB; lia) OK C1 C2 HE) as [r [E2 SP]]. rewrite E2. cbn [bind].
      destruct r as [e b2 o2|c b2 o2|c b2 o2|b2 o2|b2 o2]; cbn [opt_spec] in SP.
      + destruct SP as [k [data [SS [Rk [LD [FX2 [HE2 ON]]]]]]].
        pose proof (consume_ok _ _ _ _ _ k B ltac:(clear -Rk HL; lia)) as B1. destruct (refill_word_ok _ _ _ _ _ data B1 LD) as [B2 [R2 [L2 L3]]].
        assert (ST : asteps (A (ASyms lit off) f V N (out_of o)) (A (ASyms lit off) f (V / 2 ^ k) (N - k) (out_of o2))).
        { eapply (syms_lift lit off f (b_word b0)); [exact W|exact SS|apply (bo_word _ _ _ _ _ B)|exact HV|clear -Rk; lia|clear -Rk HNL; lia]. }
        rewrite <- FX2 in B2, R2, L2, L3. cbn [b_len b_src] in L2, L3.
        destruct (IH _ _ _ b2 o2 e eq_refl B2 (proj1 R2) (proj1 ON)) as [r [E3 TS]]; [exact HE2|unfold avail in *; lia|].
        exists r. split; [exact E3|]. eapply tail_step; [exact ST|exact ON| | |exact TS]; [exact L2|unfold avail in *; lia].
      + destruct SP as [FX2 [-> HR]]. eexists. split; [reflexivity|]. exists V, N, 64, b0, o. split; [constructor|]. split; [exact B|]. split; [split; [exact OK|reflexivity]|].
        split; [lia|]. split; [right; split; reflexivity|]. split; [exact FX2|]. split; [reflexivity|exact HR].
      + destruct SP.
      + destruct SP as [-> [D FX2]]. eexists. split; [reflexivity|]. exists V, N, 64, b0, o. split; [constructor|]. split; [exact B|]. split; [split; [exact OK|reflexivity]|].
        split; [lia|]. split; [right; split; reflexivity|]. pose proof (decodes_len lit _ 256 (proj1 W) D) as L. split; [reflexivity|]. split; [|split; [clear -L HL; lia|exact FX2]].
        rewrite (bo_word _ _ _ _ _ B) in D. apply (proj1 (dec_mod lit V 64 256 ltac:(clear -L; lia))). exact D.
      + destruct SP as [-> BW]. eexists. split; [reflexivity|]. exists V, N, 64, b0, o. split; [constructor|]. split; [exact B|]. split; [split; [exact OK|reflexivity]|].
        split; [lia|]. split; [right; split; reflexivity|]. split; [reflexivity|exact BW].
    - eexists. split; [reflexivity|]. exists V, N, 64, b0, o. split; [constructor|]. split; [exact B|]. split; [split; [exact OK|reflexivity]|]. split; [lia|]. split; [right; split; reflexivity|]. split; [exact FX|reflexivity].
  Qed.

  (* both loops *)
  Definition tail_loops (copy : Z) (b : bits) (o : obuf) : outcome loop_res :=
    let* r := (if (8 <=? Z.of_nat (length (b_src b))) && (3 <=? o_room o) then
        let* data := load64 (b_src b) in
        let b := refill_word b data in
        let* entry := rd t (index b tb) in
        let* r := opt_loop (64 + 8 * length (b_src b)) t toff tb ob entry b o in
        match r with LCont e b o => Ok (LCont e (fix_length b) o) | r => Ok r end
      else Ok (LCont 0 b o)) in
    match r with LCont _ b o => safe_loop (S (Z.to_nat (b_len b) + 8 * length (b_src b))) t toff tb ob copy b o | r => Ok r end.

  Lemma tail_loops_ok copy V N m b o : bits_ok V N m b fut -> o_ok o ->
    exists r, tail_loops copy b o = Ok r /\ tail_spec lit off f V N b fut o r /\ (forall e b' o', r <> LCont e b' o').
  Proof.
    intros B OK. pose proof W as [W1 [W2 _]]. unfold tail_loops.
    assert (SL : forall V N m b o, bits_ok V N m b fut -> o_ok o -> exists r, safe_loop (S (Z.to_nat (b_len b) + 8 * length (b_src b))) t toff tb ob copy b o = Ok r /\ tail_spec lit off f V N b fut o r /\ (forall e b' o', r <> LCont e b' o')).
    { clear -W LT OT Rtb Rob. intros V N m b o B OK. apply (safe_loop_ok copy _ V N m b o B OK). pose proof (bo_len _ _ _ _ _ B). unfold avail. lia. }
    destruct ((8 <=? Z.of_nat (length (b_src b))) && (3 <=? o_room o)) eqn:FC; [|cbn [bind]; apply (SL V N m); assumption].
    assert (LD : load64 (b_src b) = Ok (le_num (firstn 8 (b_src b)))) by (unfold load64; replace (Z.of_nat (length (b_src b)) <? 8) with false by (clear -FC; lia); reflexivity).
    rewrite LD. cbn [bind]. set (data := le_num (firstn 8 (b_src b))) in *. clearbody data. destruct (refill_word_ok _ _ _ _ _ data B LD) as [B1 [R1 [L1 L2]]].
    set (b1 := refill_word b data) in *. clearbody b1. rewrite index_ok by (clear -Rtb; lia).
    destruct (lit_fetch lit tb t (b_word b1) LT W1 W2 ltac:(clear -Rtb; lia) (bo_word_nonneg _ _ _ _ _ B1)) as [e [E _]]. rewrite (rd_elem _ _ _ E). cbn [bind].
    destruct (opt_loop_ok (64 + 8 * length (b_src b1)) V N b1 b1 o e (fix_id b1 (bo_len _ _ _ _ _ B1)) B1 (proj1 R1) OK E ltac:(unfold avail; clear -R1; lia)) as [r [E2 TS]]. rewrite E2. cbn [bind].
    assert (SH : tail_spec lit off f V N b fut o r).
    { destruct TS as [V' [N' [m' [b0 [o0 [S2 [B0 [ON [L3 [A2 R]]]]]]]]]]. exists V', N', m', b0, o0. split; [exact S2|]. split; [exact B0|]. split; [exact ON|]. split; [clear -L1 L3; lia|].
      split; [|exact R]. unfold avail in *. destruct A2 as [A2|[A2 A3]]; [left; clear -A2 L2; lia|right; split; [clear -A2 L2; lia|exact A3]]. }
    destruct r as [e' b2 o2|c b2 o2|c b2 o2|b2 o2|b2 o2]; cbn [bind]; try (eexists; split; [reflexivity|]; split; [exact SH|discriminate]).
    destruct SH as [V' [N' [m' [b0 [o0 [S2 [B0 [[ON1 ON2] [L3 [A2 [FX ->]]]]]]]]]]]. rewrite FX.
    destruct (SL V' N' m' b0 o0 B0 ON1) as [r [E3 [TS2 NC]]]. exists r. split; [exact E3|]. split; [|exact NC].
    destruct TS2 as [V2 [N2 [m2 [b3 [o3 [S3 [B3 [[ON3 ON4] [L4 [A3 R]]]]]]]]]]. exists V2, N2, m2, b3, o3. split; [eapply asteps_trans; eassumption|]. split; [exact B3|]. split; [split; [exact ON3|congruence]|].
    split; [lia|]. split; [|exact R]. destruct A2 as [A2|[A2 ->]], A3 as [A3|[A3 ->]]; try (left; lia). right. split; [congruence|reflexivity].
  Qed.
End Loops.
