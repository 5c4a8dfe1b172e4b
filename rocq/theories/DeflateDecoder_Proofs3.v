(* One iteration of the optimized tail loop. The bit count of the buffer is kept modulo 64 there. *)
From Verif Require Import Base Bits Algorithm_Spec Algorithm_Model Algorithm_Proofs Deflate_Spec DeflateTable_Model DeflateTable_Proofs DeflateTable_Proofs2 DeflateTable_Proofs3 DeflateTable_Proofs4 DeflateTable_Proofs5 DeflateTable_Proofs6 DeflateTable_Proofs7 DeflateTable_Proofs8 DeflateTable_Proofs9 Inflate_Spec Inflate_Proofs DeflateDecoder_Model DeflateDecoder_Proofs DeflateDecoder_Proofs2.

Inductive sym_steps (lit off : list Z) : Z -> list Z -> Z -> list Z -> Prop :=
| syms_nil V o : sym_steps lit off V o 0 o
| syms_cons V o k o1 k2 o2 : sym_step lit off V o k o1 -> sym_steps lit off (V / 2 ^ k) o1 k2 o2 -> sym_steps lit off V o (k + k2) o2.

Lemma land63 x : Z.land x 63 = x mod 64.
Proof. rewrite (land_mod _ 6) by (reflexivity || lia). reflexivity. Qed.

Lemma len_sub x n : 0 <= x mod 64 - n mod 64 -> Z.land (w64 (x - n)) 63 = x mod 64 - n mod 64.
Proof.
  intros H. rewrite land63. unfold w64. replace ((x - n) mod 18446744073709551616 mod 64) with ((x - n) mod 64).
  - rewrite Zminus_mod. apply Z.mod_small. lia.
  - change 18446744073709551616 with (64 * 2 ^ 58). rewrite Z.rem_mul_r by lia. rewrite Z.mul_comm, Z.mod_add by lia. rewrite Z.mod_mod by lia. reflexivity.
Qed.

Lemma fix_refill b data : fix_length (refill_word b data) = refill_word (fix_length b) data.
Proof.
  unfold fix_length, refill_word. cbn [b_word b_len b_src]. f_equal.
  - rewrite !land63. rewrite Z.mod_mod by lia. reflexivity.
  - apply Z.bits_inj'. intros n Hn. rewrite !Z.lor_spec, !Z.land_spec, Z.lor_spec.
    destruct (Z.testbit (b_len b) n), (Z.testbit 56 n) eqn:E5, (Z.testbit 63 n) eqn:E6; try reflexivity.
    all: assert (n = 3 \/ n = 4 \/ n = 5 \/ (n <> 3 /\ n <> 4 /\ n <> 5)) as [->|[->|[->|Q]]] by lia; try discriminate.
    all: destruct (Z_lt_ge_dec n 6) as [Q2|Q2]; [assert (n = 0 \/ n = 1 \/ n = 2) as [->|[->| ->]] by lia; discriminate|rewrite (testbit_small 56 6 n) in E5 by lia; discriminate].
  - f_equal. f_equal. apply Z.bits_inj'. intros n Hn. rewrite !Z.land_spec, !Z.shiftr_spec, !Z.lnot_spec, !Z.land_spec by lia.
    destruct (Z_lt_ge_dec n 3) as [Q2|Q2]; [assert (n = 0 \/ n = 1 \/ n = 2) as [->|[->| ->]] by lia; cbn [Z.add Pos.add Pos.succ]|rewrite (testbit_small 7 3 n), !andb_false_r by lia; reflexivity].
    all: match goal with |- context [Z.testbit 63 ?k] => change (Z.testbit 63 k) with true end; rewrite !andb_true_r; reflexivity.
Qed.

Lemma refill_low b data j : 0 <= b_word b -> 0 <= j <= b_len b -> b_len b < 64 -> b_word (refill_word b data) mod 2 ^ j = b_word b mod 2 ^ j.
Proof.
  intros HP Hj HB. unfold refill_word. cbn [b_word]. rewrite land63, (Z.mod_small (b_len b)) by lia. apply Z.bits_inj'. intros n Hn. rewrite !mod_pow2_testbit by lia. rewrite Z.lor_spec.
  destruct (n <? j) eqn:F; [|reflexivity]. cbn [andb]. unfold w64. change 18446744073709551616 with (2 ^ 64). rewrite mod_pow2_testbit, Z.shiftl_spec_low by lia. rewrite andb_false_r, orb_false_r. reflexivity.
Qed.

Definition opt_spec (lit off t : list Z) (tb : Z) (b : bits) (o : obuf) (r : loop_res) : Prop :=
  match r with
  | LCont e b' o' => exists k data, sym_steps lit off (b_word b) (out_of o) k (out_of o') /\ 1 <= k <= 48 /\ load64 (b_src b) = Ok data /\
      fix_length b' = refill_word (Bits (b_word b / 2 ^ k) (b_len b - k) (b_src b)) data /\ elem_at t (b_word b' mod 2 ^ tb) = Some e /\ o_next o o'
  | LOut _ b' o' => fix_length b' = b /\ o' = o /\ full lit b o
  | LIn _ _ _ => False
  | LDone b' o' => o' = o /\ decodes lit (b_word b) 256 /\ fix_length b' = Bits (b_word b / 2 ^ len_of lit 256) (b_len b - len_of lit 256) (b_src b)
  | LBad _ o' => o' = o /\ bad_word lit off (b_word b) (b_len b) (out_of o)
  end.

Section OptIter.
  Context (lit off t toff : list Z) (tb ob : Z).
  Context (W : wf_mode (ASyms lit off)) (LT : lit_table lit tb t) (OT : off_table off ob toff) (Rtb : 1 <= tb <= 11) (Rob : 1 <= ob <= 9).

  (* a step of the buffer by n bits *)
  Lemma consumed_view b b' n m : 0 <= m <= b_len b' -> m <= 48 -> b_len b' < 64 -> n mod 64 = m -> fix_length b = b' ->
    fix_length (consumed_entry b n) = Bits (b_word b' / 2 ^ m) (b_len b' - m) (b_src b').
  Proof.
    intros H1 H2 H3 E <-. unfold fix_length, consumed_entry in *. cbn [b_word b_len b_src] in *. rewrite land63 in *. rewrite land63. rewrite E. rewrite Z.shiftr_div_pow2 by lia. f_equal.
    pose proof (len_sub (b_len b) n) as Q. rewrite land63 in Q. rewrite Q by lia. rewrite ?land63. lia.
  Qed.
  Lemma consumed_view' b b' n : 0 <= n <= b_len b' -> n <= 48 -> b_len b' < 64 -> fix_length b = b' ->
    exists b1, consumed b n = Ok b1 /\ fix_length b1 = Bits (b_word b' / 2 ^ n) (b_len b' - n) (b_src b') /\ b_word b1 = b_word b / 2 ^ n /\ b_src b1 = b_src b.
  Proof.
    intros H1 H2 H3 <-. unfold consumed. replace (64 <=? n) with false by lia. eexists. split; [reflexivity|]. unfold fix_length. cbn [b_word b_len b_src]. rewrite Z.shiftr_div_pow2 by lia. unfold fix_length in H1; cbn [b_len] in H1. split; [|split; reflexivity].
    f_equal. rewrite len_sub; rewrite (Z.mod_small n 64) by lia; rewrite land63 in *; lia.
  Qed.

  Lemma opt_match_ok b0 b o s data length_ saved :
    0 <= b_word b0 -> 56 <= b_len b0 < 64 -> o_ok o -> load64 (b_src b0) = Ok data -> decodes lit (b_word b0) s -> 257 <= s <= 285 ->
    length_ = length_base s + b_word b0 / 2 ^ len_of lit s mod 2 ^ length_extra s ->
    fix_length saved = b0 -> let k := len_of lit s + length_extra s in fix_length b = Bits (b_word b0 / 2 ^ k) (b_len b0 - k) (b_src b0) ->
    exists r, opt_match t toff tb ob data length_ saved b o = Ok r /\ opt_spec lit off t tb b0 o r.
  Proof.
    intros HP HB OK LD D Rs EL SV k FB0. pose proof W as [W1 [W2 [W3 [W4 _]]]]. pose proof (decodes_len lit _ s W1 D) as L1. pose proof (length_extra_range s Rs) as X1.
    assert (RL : 3 <= length_ <= 258) by (rewrite EL; apply length_range; [exact Rs|apply Z.mod_pos_bound, pow2_pos; clear -X1; lia]). hide EL.
    assert (Rk : 1 <= k <= 20) by (unfold k; clear -L1 X1; lia).
    unfold opt_match. destruct (o_room o <? length_) eqn:FR; [eexists; split; [reflexivity|]; cbn [opt_spec]; split; [exact SV|]; split; [reflexivity|]; right; exists s; split; [exact D|]; split; [exact Rs|]; split; [fold k; clear -Rk HB; lia|]; show EL; rewrite <- EL; clear -FR; lia|].
    assert (EW : b_word b = b_word b0 / 2 ^ k) by (unfold fix_length in FB0; injection FB0; auto).
    remember (b_word b0 / 2 ^ k) as P1 eqn:EP1. assert (HP1 : 0 <= P1) by (rewrite EP1; apply div_nonneg, HP). hide EP1.
    rewrite index_ok by (clear -Rob; lia). rewrite EW.
    destruct (off_fetch off ob toff P1 OT W3 W4 ltac:(clear -Rob; lia) HP1) as [e [offset [bad [E C]]]].
    unfold off_lookup in E. destruct (rd toff (P1 mod 2 ^ ob)) as [e0| | |]; try discriminate E. cbn [bind] in E |- *.
    destruct (extract_extra P1 e0) as [x| | |]; try discriminate E. cbn [bind] in E |- *. rewrite E. cbn [bind]. clear E.
    destruct C as [[-> [d [D2 [Rd [L2 [F1 [F2 EO]]]]]]]|[-> C]].
    - pose proof (offset_extra_range d Rd) as X2.
      assert (RO : 1 <= offset) by (pose proof (offset_base_range d Rd) as OB; rewrite EO; pose proof (Z.mod_pos_bound (P1 / 2 ^ len_of off d) (2 ^ offset_extra d) (pow2_pos _ (proj1 X2))) as Q1; clear -OB Q1; lia).
      hide EO. set (k1 := len_of off d + offset_extra d) in *. assert (Rk1 : 1 <= k1 <= 28) by (unfold k1; clear -L2 X2; lia).
      pose proof (out_length o OK) as LO.
      destruct (o_pos o <? offset) eqn:FO.
      + eexists. split; [reflexivity|]. cbn [opt_spec]. split; [reflexivity|]. show EP1. show EO. eapply bad_dist; [exact D|exact Rs|fold k; rewrite <- EP1; exact D2|clear -Rd; lia| |]; fold k.
        * clear -Rk Rk1 HB. unfold k1 in Rk1. lia.
        * rewrite <- EP1, LO, <- EO. clear -FO. lia.
      + assert (E63 : e mod 64 = k1) by (rewrite <- land63, F2; exact F1).
        pose proof (consumed_view b (Bits P1 (b_len b0 - k) (b_src b0)) e k1 ltac:(cbn [b_len]; clear -HB Rk Rk1; lia) ltac:(clear -Rk1; lia) ltac:(cbn [b_len]; clear -HB Rk; lia) E63 FB0) as CV. cbn [b_word b_len b_src] in CV.
        assert (EW2 : P1 / 2 ^ k1 = b_word b0 / 2 ^ (k + k1)).
        { show EP1. rewrite EP1. clear -Rk Rk1. rewrite Z.div_div, <- Z.pow_add_r by (lia || (apply Z.pow_nonzero; lia) || apply pow2_pos; lia). reflexivity. }
        assert (FX : fix_length (refill_word (consumed_entry b e) data) = refill_word (Bits (b_word b0 / 2 ^ (k + k1)) (b_len b0 - (k + k1)) (b_src b0)) data).
        { rewrite fix_refill, CV, EW2. f_equal. f_equal. clear. lia. }
        set (b2 := refill_word (consumed_entry b e) data) in *.
        assert (HP2 : 0 <= b_word b2).
        { unfold b2, refill_word, consumed_entry. cbn [b_word]. apply Z.lor_nonneg. split; [rewrite Z.shiftr_nonneg, EW; exact HP1|]. unfold w64. apply Z.mod_pos_bound. reflexivity. }
        rewrite index_ok by (clear -Rtb; lia).
        destruct (lit_fetch lit tb t (b_word b2) LT W1 W2 ltac:(clear -Rtb; lia) HP2) as [e2 [E2 _]]. rewrite (rd_elem _ _ _ E2). cbn [bind].
        destruct (copy_match_ok o length_ offset OK ltac:(clear -RL FR; lia) ltac:(clear -RO FO; lia)) as [o' [E1 [O1 [O2 _]]]]. rewrite E1. cbn [bind].
        eexists. split; [reflexivity|]. cbn [opt_spec]. exists (k + k1), data. split.
        * replace (k + k1) with (k + k1 + 0) by (clear; lia). econstructor; [|constructor]. show EP1. show EO. show EL. rewrite O2, EL, EO, EP1.
          apply (sym_match lit off (b_word b0) (out_of o) s d D Rs); fold k; try rewrite <- EP1; [exact D2|clear -Rd; lia|]. rewrite <- EO, LO. clear -FO. lia.
        * split; [clear -Rk Rk1; lia|]. split; [exact LD|]. split; [exact FX|]. split; [exact E2|exact O1].
    - eexists. split; [reflexivity|]. cbn [opt_spec]. split; [reflexivity|]. eapply bad_off; [exact D|exact Rs| |]; fold k; [clear -HB Rk; lia|show EP1; rewrite <- EP1; exact C].
  Qed.

  (* a literal *)
  Lemma literal_view e0 P s : lit_entry lit P e0 s -> s < 256 -> Z.land (payload_field e0) 255 = s /\ is_literal e0 = true /\ base_length e0 = len_of lit s /\ e0 mod 64 = len_of lit s.
  Proof.
    intros [D [Rs0 [L [P1 [P2 [P3 [P4 [P5 [P6 [P7 [P8 [P9 P10]]]]]]]]]]]] F. assert (F' : (s <? 256) = true) by lia. split; [|split; [|split]].
    - rewrite P1. unfold lit_pay. rewrite F'. rewrite (land_mod _ 8) by (reflexivity || lia). change (2 ^ 8) with 256. clear -Rs0 F. lia.
    - rewrite P2. exact F'.
    - apply P7. clear -F. lia.
    - rewrite <- land63, P6. unfold lit_lo. rewrite F'. reflexivity.
  Qed.

  Lemma case_literal P e0 : lit_case lit P tb t e0 -> is_literal e0 = true -> exists s, lit_entry lit P e0 s /\ s < 256 /\ len_of lit s <= 11.
  Proof.
    intros C F. destruct C as [s LE Rs LTb|x e s F1 F2 F3 X1 X2 X3 LE FL|x e F1 F2 F3 X1 X2 X3 Ee N]; [|congruence|congruence].
    exists s. split; [exact LE|]. destruct LE as [_ [_ [_ [_ [Q _]]]]]. rewrite Q in F. split; [clear -F; lia|clear -LTb Rtb; lia].
  Qed.

  Lemma opt_iter_ok b0 b o entry :
    fix_length b = b0 -> 0 <= b_word b0 -> 56 <= b_len b0 < 64 -> o_ok o -> 2 < o_room o -> 8 <= Z.of_nat (length (b_src b0)) -> elem_at t (b_word b0 mod 2 ^ tb) = Some entry ->
    exists r, opt_iter t toff tb ob entry b o = Ok r /\ opt_spec lit off t tb b0 o r.
  Proof.
    intros FX HP HB OK HR HS HE. pose proof W as [W1 [W2 [W3 [W4 _]]]].
    assert (ES : b_src b = b_src b0) by (rewrite <- FX; reflexivity). assert (EW : b_word b = b_word b0) by (rewrite <- FX; reflexivity).
    unfold opt_iter. rewrite ES. unfold load64 at 1. replace (Z.of_nat (length (b_src b0)) <? 8) with false by (clear -HS; lia). cbn [bind].
    assert (LD : load64 (b_src b0) = Ok (le_num (firstn 8 (b_src b0)))) by (unfold load64; replace (Z.of_nat (length (b_src b0)) <? 8) with false by (clear -HS; lia); reflexivity).
    set (data := le_num (firstn 8 (b_src b0))) in *. clearbody data.
    destruct (lit_fetch lit tb t (b_word b0) LT W1 W2 ltac:(clear -Rtb; lia) HP) as [e0 [E C]].
    assert (e0 = entry) as -> by congruence. clear E.
    destruct (is_literal entry) eqn:FL1.
    - (* up to three literals *)
      destruct (case_literal _ _ C FL1) as [s1 [LE1 [Fs1 Ls1]]]. destruct (literal_view _ _ _ LE1 Fs1) as [V1 [_ [V2 _]]]. pose proof LE1 as [D1 [_ [L1 _]]]. rewrite V1, V2.
      destruct (consumed_view' b b0 (len_of lit s1) ltac:(clear -HB L1; lia) ltac:(clear -L1; lia) ltac:(clear -HB; lia) FX) as [b1 [E1 [FX1 [EW1 ES1]]]]. rewrite E1. cbn [bind].
      rewrite index_ok by (clear -Rtb; lia). rewrite EW1, EW. remember (b_word b0 / 2 ^ len_of lit s1) as Q1 eqn:EQ1. assert (HQ1 : 0 <= Q1) by (rewrite EQ1; apply div_nonneg, HP).
      destruct (lit_fetch lit tb t Q1 LT W1 W2 ltac:(clear -Rtb; lia) HQ1) as [e1 [G1 C1]]. rewrite (rd_elem _ _ _ G1). cbn [bind].
      destruct (put_ok o s1 OK ltac:(clear -HR; lia)) as [o1 [PE1 [[O1a O1b] [O2 O3]]]]. rewrite PE1. cbn [bind].
      assert (R1 : 1 < o_room o1) by (unfold o_room in *; rewrite O1b, O3; clear -HR; lia).
      (* how each of the three ends *)
      assert (FIN : forall k o' bk e, 1 <= k <= 33 -> sym_steps lit off (b_word b0) (out_of o) k (out_of o') -> o_next o o' ->
                fix_length bk = Bits (b_word b0 / 2 ^ k) (b_len b0 - k) (b_src b0) -> elem_at t ((b_word b0 / 2 ^ k) mod 2 ^ tb) = Some e ->
                opt_spec lit off t tb b0 o (LCont e (refill_word bk data) o')).
      { intros k o' bk e Rk SS ON FXk Ek. cbn [opt_spec]. exists k, data. split; [exact SS|]. split; [clear -Rk; lia|]. split; [exact LD|]. rewrite fix_refill, FXk. split; [reflexivity|]. split; [|exact ON].
        assert (EB : b_word (refill_word bk data) = b_word (fix_length (refill_word bk data))) by reflexivity. rewrite EB, fix_refill, FXk.
        rewrite refill_low; [exact Ek| | |]; cbn [b_word b_len]; [apply div_nonneg, HP|clear -HB Rk Rtb; lia|clear -HB Rk; lia]. }
      assert (S1 : sym_step lit off (b_word b0) (out_of o) (len_of lit s1) (out_of o1)) by (rewrite O2; constructor; [exact D1|exact Fs1]).
      destruct (is_literal e1) eqn:FL2.
      + destruct (case_literal _ _ C1 FL2) as [s2 [LE2 [Fs2 Ls2]]]. destruct (literal_view _ _ _ LE2 Fs2) as [V3 [_ [V4 _]]]. pose proof LE2 as [D2 [_ [L2 _]]]. rewrite V3, V4.
        destruct (consumed_view' b1 (Bits Q1 (b_len b0 - len_of lit s1) (b_src b0)) (len_of lit s2) ltac:(cbn [b_len]; clear -HB L1 Ls1 L2; lia) ltac:(clear -L2; lia) ltac:(cbn [b_len]; clear -HB L1; lia) FX1) as [b2 [E2 [FX2 [EW2 ES2]]]]. rewrite E2. cbn [bind].
        rewrite index_ok by (clear -Rtb; lia). rewrite EW2, EW1, EW, <- EQ1.
        assert (EQ2 : Q1 / 2 ^ len_of lit s2 = b_word b0 / 2 ^ (len_of lit s1 + len_of lit s2)).
        { rewrite EQ1. clear -L1 L2. rewrite Z.div_div, <- Z.pow_add_r by (lia || (apply Z.pow_nonzero; lia) || apply pow2_pos; lia). reflexivity. }
        cbn [b_word b_len b_src] in FX2. rewrite EQ2 in *. remember (b_word b0 / 2 ^ (len_of lit s1 + len_of lit s2)) as Q2 eqn:EQ2'. assert (HQ2 : 0 <= Q2) by (rewrite EQ2'; apply div_nonneg, HP).
        destruct (lit_fetch lit tb t Q2 LT W1 W2 ltac:(clear -Rtb; lia) HQ2) as [e2 [G2 C2]]. rewrite (rd_elem _ _ _ G2). cbn [bind].
        destruct (put_ok o1 s2 O1a ltac:(clear -R1; lia)) as [o2 [PE2 [[O4a O4b] [O5 O6]]]]. rewrite PE2. cbn [bind].
        assert (R2 : 0 < o_room o2) by (unfold o_room in *; rewrite O4b, O6; clear -R1; lia).
        assert (S2 : sym_step lit off Q1 (out_of o1) (len_of lit s2) (out_of o2)) by (rewrite O5; constructor; [exact D2|exact Fs2]).
        destruct (is_literal e2) eqn:FL3.
        * destruct (case_literal _ _ C2 FL3) as [s3 [LE3 [Fs3 Ls3]]]. destruct (literal_view _ _ _ LE3 Fs3) as [V5 [_ [V6 _]]]. pose proof LE3 as [D3 [_ [L3 _]]]. rewrite V5, V6.
          destruct (consumed_view' b2 (Bits Q2 (b_len b0 - len_of lit s1 - len_of lit s2) (b_src b0)) (len_of lit s3) ltac:(cbn [b_len]; clear -HB L1 L2 L3 Ls1 Ls2; lia) ltac:(clear -L3; lia) ltac:(cbn [b_len]; clear -HB L1 L2; lia) FX2) as [b3 [E3 [FX3 [EW3 ES3]]]]. rewrite E3. cbn [bind].
          rewrite index_ok by (clear -Rtb; lia). rewrite EW3, EW2, EW1, EW, <- EQ1, EQ2.
          assert (EQ3 : Q2 / 2 ^ len_of lit s3 = b_word b0 / 2 ^ (len_of lit s1 + (len_of lit s2 + (len_of lit s3 + 0)))).
          { rewrite EQ2'. clear -L1 L2 L3. rewrite Z.div_div, <- Z.pow_add_r by (lia || (apply Z.pow_nonzero; lia) || apply pow2_pos; lia). f_equal. f_equal. lia. }
          cbn [b_word b_len b_src] in FX3. rewrite EQ3 in *.
          destruct (lit_fetch lit tb t (b_word b0 / 2 ^ (len_of lit s1 + (len_of lit s2 + (len_of lit s3 + 0)))) LT W1 W2 ltac:(clear -Rtb; lia) ltac:(apply div_nonneg, HP)) as [e3 [G3 C3]]. rewrite (rd_elem _ _ _ G3). cbn [bind].
          destruct (put_ok o2 s3 O4a R2) as [o3 [PE3 [[O7a O7b] [O8 O9]]]]. rewrite PE3. cbn [bind].
          assert (S3 : sym_step lit off Q2 (out_of o2) (len_of lit s3) (out_of o3)) by (rewrite O8; constructor; [exact D3|exact Fs3]).
          eexists. split; [reflexivity|]. eapply FIN; [|econstructor; [exact S1|rewrite <- EQ1; econstructor; [exact S2|rewrite EQ2; econstructor; [exact S3|constructor]]]| | |exact G3].
          -- clear -L1 L2 L3 Ls1 Ls2 Ls3. lia.
          -- split; [exact O7a|congruence].
          -- rewrite FX3. f_equal. clear. lia.
        * eexists. split; [reflexivity|]. eapply FIN; [|econstructor; [exact S1|rewrite <- EQ1; econstructor; [exact S2|constructor]]| | |].
          -- clear -L1 L2 Ls1 Ls2. lia.
          -- split; [exact O4a|congruence].
          -- rewrite FX2, EQ2', Z.add_0_r. f_equal. clear. lia.
          -- rewrite Z.add_0_r, <- EQ2'. exact G2.
      + eexists. split; [reflexivity|]. eapply FIN; [|econstructor; [exact S1|constructor]| | |].
        * clear -L1 Ls1. lia.
        * split; [exact O1a|congruence].
        * rewrite FX1, Z.add_0_r, EQ1. reflexivity.
        * rewrite Z.add_0_r, <- EQ1. exact G1.
    - rewrite EW. destruct C as [s LE Rs LTb|x e s F1 F2 F3 X1 X2 X3 LE FL|x e F1 F2 F3 X1 X2 X3 Ee N].
      + destruct LE as [D [Rs0 [L [P1 [P2 [P3 [P4 [P5 [P6 [P7 [P8 [P9 P10]]]]]]]]]]]].
        assert (Rs' : 257 <= s <= 285) by (rewrite P2 in FL1; clear -FL1 Rs; lia). pose proof (length_extra_range s Rs') as X.
        rewrite (P9 Rs' _ HP). cbn [bind]. rewrite P5. replace ((257 <=? s) && (s <=? 285)) with true by (clear -Rs'; lia). cbn [negb].
        apply (opt_match_ok b0 _ o s); try assumption.
        * rewrite P1. unfold lit_pay. replace (s <? 256) with false by (clear -Rs'; lia). replace ((s =? 256) || (286 <=? s)) with false by (clear -Rs'; lia). reflexivity.
        * apply (consumed_view b b0); [clear -L X HB; lia|clear -L X; lia|clear -HB; lia| |exact FX]. rewrite <- land63, P6. unfold lit_lo.
          replace (s <? 256) with false by (clear -Rs'; lia). replace ((s =? 256) || (286 <=? s)) with false by (clear -Rs'; lia). rewrite Z.mod_small by (clear -X; lia). apply Z.add_comm.
      + rewrite X1. cbn [bind]. rewrite F2. cbn [negb]. rewrite X3. cbn [bind]. clear X1 X2 X3.
        pose proof LE as [D [Rs0 [L [P1 [P2 [P3 [P4 [P5 [P6 [P7 [P8 [P9 P10]]]]]]]]]]]]. rewrite P2.
        destruct (s <? 256) eqn:F.
        * destruct (literal_view _ _ _ LE ltac:(clear -F; lia)) as [V1 [_ [_ V2]]]. rewrite V1.
          pose proof (consumed_view b b0 e (len_of lit s) ltac:(clear -L HB; lia) ltac:(clear -L; lia) ltac:(clear -HB; lia) V2 FX) as CV.
          destruct (put_ok o s OK ltac:(clear -HR; lia)) as [o1 [PE1 [O1 [O2 O3]]]]. rewrite PE1. cbn [bind].
          rewrite index_ok by (clear -Rtb; lia). assert (EB : b_word (consumed_entry b e) = b_word b0 / 2 ^ len_of lit s) by (unfold fix_length in CV; injection CV; auto). rewrite EB.
          destruct (lit_fetch lit tb t (b_word b0 / 2 ^ len_of lit s) LT W1 W2 ltac:(clear -Rtb; lia) ltac:(apply div_nonneg, HP)) as [e1 [G1 C1]]. rewrite (rd_elem _ _ _ G1). cbn [bind].
          eexists. split; [reflexivity|]. cbn [opt_spec]. exists (len_of lit s), data. split.
          -- replace (len_of lit s) with (len_of lit s + 0) by (clear; lia). econstructor; [|constructor]. rewrite O2. constructor; [exact D|clear -F; lia].
          -- split; [clear -L; lia|]. split; [exact LD|]. rewrite fix_refill, CV. split; [reflexivity|]. split; [|exact O1].
             assert (EB2 : b_word (refill_word (consumed_entry b e) data) = b_word (fix_length (refill_word (consumed_entry b e) data))) by reflexivity. rewrite EB2, fix_refill, CV.
             rewrite refill_low; [exact G1| | |]; cbn [b_word b_len]; [apply div_nonneg, HP|clear -HB L Rtb; lia|clear -HB L; lia].
        * rewrite P3, P4. destruct ((s =? 256) || (286 <=? s)) eqn:F6.
          -- destruct (286 <=? s) eqn:F7; (eexists; split; [reflexivity|]; cbn [opt_spec]; split; [reflexivity|]).
             ++ eapply bad_lit; [exact D|clear -F7; lia|clear -L HB; lia].
             ++ assert (s = 256) as -> by (clear -F6 F7; lia). split; [exact D|].
                apply (consumed_view b b0); [clear -L HB; lia|clear -L; lia|clear -HB; lia| |exact FX]. rewrite <- land63, P6. reflexivity.
          -- assert (Rs' : 257 <= s <= 285) by (clear -F F6; lia). pose proof (length_extra_range s Rs') as X. rewrite ?EW, (P9 Rs' _ HP). cbn [bind].
             apply (opt_match_ok b0 _ o s); try assumption.
             ++ rewrite P1. unfold lit_pay. rewrite F, F6. reflexivity.
             ++ apply (consumed_view b b0); [clear -L X HB; lia|clear -L X; lia|clear -HB; lia| |exact FX]. rewrite <- land63, P6. unfold lit_lo. rewrite F, F6. rewrite Z.mod_small by (clear -X; lia). apply Z.add_comm.
      + rewrite X1. cbn [bind]. rewrite F2. cbn [negb]. rewrite X3. cbn [bind]. subst e. cbv [is_literal is_end_of_block is_end_of_block_invalid ent]. 
        eexists. split; [reflexivity|]. cbn [opt_spec]. split; [reflexivity|]. apply bad_none; [exact N|clear -HB; lia].
  Qed.
End OptIter.
