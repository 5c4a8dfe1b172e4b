(* Incomplete codes, and the three kinds of tables in terms of entry fields. *)
From Verif Require Import Base Bits Algorithm_Spec Algorithm_Model Algorithm_Proofs Deflate_Spec DeflateTable_Model DeflateTable_Proofs DeflateTable_Proofs2 DeflateTable_Proofs3 DeflateTable_Proofs4 DeflateTable_Proofs5 DeflateTable_Proofs6.

Lemma fill_pairs_ok a b : forall k t i, 0 <= i -> i + 2 * Z.of_nat k <= Z.of_nat (length t) ->
  exists t', fill_pairs k t i a b = Ok t' /\ length t' = length t /\
    forall j, elem_at t' j = if (i <=? j) && (j <? i + 2 * Z.of_nat k) then Some (if Z.even (j - i) then a else b) else elem_at t j.
Proof.
  induction k as [|k IH]; intros t i Hi Hl.
  { exists t. split; [reflexivity|]. split; [reflexivity|]. intros j. replace ((i <=? j) && (j <? i + 2 * Z.of_nat 0)) with false by lia. reflexivity. }
  cbn [fill_pairs]. rewrite wr_ok by lia. cbn [bind]. rewrite wr_ok by (rewrite zupd_length; lia). cbn [bind].
  destruct (IH (zupd (zupd t i a) (i + 1) b) (i + 2)) as [t' [E [L G]]]; [lia|rewrite !zupd_length; lia|].
  exists t'. split; [exact E|]. split; [rewrite L, !zupd_length; reflexivity|]. intros j. rewrite G.
  destruct ((i + 2 <=? j) && (j <? i + 2 + 2 * Z.of_nat k)) eqn:F.
  - replace ((i <=? j) && (j <? i + 2 * Z.of_nat (S k))) with true by lia. replace (j - i) with (j - (i + 2) + 2) by lia.
    rewrite Z.even_add. cbn [Z.even]. destruct (Z.even (j - (i + 2))); reflexivity.
  - destruct ((i <=? j) && (j <? i + 2 * Z.of_nat (S k))) eqn:F2.
    + assert (C : j = i \/ j = i + 1) by lia. destruct C as [-> | ->].
      * rewrite elem_zupd by (rewrite zupd_length; lia). replace (i =? i + 1) with false by lia. rewrite elem_zupd, Z.eqb_refl, Z.sub_diag by lia. reflexivity.
      * rewrite elem_zupd, Z.eqb_refl by (rewrite zupd_length; lia). replace (i + 1 - i) with 1 by lia. reflexivity.
    + rewrite !elem_zupd by (rewrite ?zupd_length; lia). replace (j =? i + 1) with false by lia. replace (j =? i) with false by lia. reflexivity.
Qed.

(* what a table with T index bits says about every stream, in terms of the fields of the results *)
Definition table_for (lens : list Z) (lo pay fl : Z -> Z) (T : Z) (t : list Z) : Prop :=
  forall V, 0 <= V ->
  (exists s, decodes lens V s /\ 1 <= len_of lens s <= 15 /\
     ((len_of lens s <= T /\
       elem_at t (V mod 2 ^ T) = Some (ent (lo s + len_of lens s) (pay s) (fl s) (if Z.testbit (fl s) 1 then 0 else len_of lens s))) \/
      (T < len_of lens s /\ exists st sb, 1 <= sb /\ len_of lens s <= T + sb <= 15 /\ 0 <= st < 32768 /\
         elem_at t (V mod 2 ^ T) = Some (ent (T + sb) st 0 T) /\
         elem_at t (st + (V / 2 ^ T) mod 2 ^ sb) = Some (ent (lo s mod 64 + len_of lens s) (pay s) (fl s) (len_of lens s))))) \/
  ((forall V' s, 0 <= V' -> V' mod 2 = 1 \/ V mod 2 = 0 -> ~ decodes lens V' s) /\ elem_at t (V mod 2 ^ T) = Some (ent 1 0 3 0) /\ elem_at t (V mod 2) = Some (ent 1 0 3 0)).

Definition accepted (ty : table_type) (lens : list Z) : Prop :=
  match ty with TPrecode => precode_good lens | TLitLen => litlen_good lens | TOffset => offset_good lens end.

Lemma code_space_nonneg lens : 0 <= code_space lens.
Proof. induction lens as [|l lens IH]; [cbn; lia|]. cbn [code_space]. destruct (l =? 0); [lia|]. pose proof (Z.pow_nonneg 2 (15 - l)). lia. Qed.

Section Build.
  Context (lens : list Z) (results : list Z) (lo pay fl : Z -> Z) (mtb maxlen : Z) (cap : nat) (ty : table_type).
  Context (Hok : lens_ok lens) (Hmax : 1 <= maxlen <= 15) (HF : Forall (fun l => l <= maxlen) lens) (Hmtb : 1 <= mtb <= 15).
  Context (Hres : forall s, 0 <= s < Z.of_nat (length lens) -> elem_at results s = Some (ent (lo s) (pay s) (fl s) 0) /\ ent_ok (lo s) (pay s) (fl s) 0 /\ lo s <= 64).
  Context (Hcap : 2 ^ mtb <= Z.of_nat cap < 32768).
  Context (Hfit : complete_code lens -> forall T, (1 <= T)%nat -> Z.of_nat T <= mtb -> (Z.of_nat T = mtb \/ Forall (fun l => l <= Z.of_nat T) lens) -> fits lens T cap).

  Lemma single_head : single_code lens -> exists s r, sorted_syms lens = s :: r /\ len_of lens s = 1.
  Proof.
    intros [_ H1]. unfold sorted_syms. rewrite levels_S. pose proof (level_length lens 1) as L. change (Z.of_nat 1) with 1 in L. rewrite H1 in L.
    destruct (level lens 1) as [|s l] eqn:E; [cbn in L; lia|]. exists s. eexists. split; [reflexivity|].
    assert (In s (level lens 1)) by (rewrite E; now left). apply level_in in H. lia.
  Qed.

  Lemma rc15_low V : 0 <= V -> (read_code 15 V < 2 ^ 14 <-> V mod 2 = 0).
  Proof.
    intros HV. pose proof (rc_prefix 1 15 V ltac:(lia)) as P. change (Z.of_nat (15 - 1)) with 14 in P.
    pose proof (rc_range 15 V) as R. change (2 ^ Z.of_nat 15) with 32768 in R. change (2 ^ 14) with 16384 in *.
    assert (E : read_code 1 V = V mod 2).
    { cbn [read_code]. change (Z.of_nat 0) with 0. rewrite b2z_testbit by lia. change (2 ^ 0) with 1. rewrite Z.div_1_r. lia. }
    rewrite E in P. pose proof (Z.mod_pos_bound V 2 ltac:(lia)). lia.
  Qed.

  Lemma build_ok t : length t = cap -> exists t' info, build_decode_table t lens results mtb maxlen ty = Ok (t', info) /\ length t' = cap /\
    ((ti_bits info = 0 /\ ~ accepted ty lens /\ t' = t) \/
     (accepted ty lens /\ 1 <= ti_bits info <= mtb /\ table_for lens lo pay fl (ti_bits info) t' /\ lit_mask_ok lens (ti_literal_mask info) /\
      (ti_bits info = mtb \/ Forall (fun l => l <= ti_bits info) lens))).
  Proof.
    intros Ht. destruct (Z.eq_dec (code_space lens) (2 ^ 15)) as [HC|HC].
    - destruct (build_complete lens Hok HC t results (fun s => ent (lo s) (pay s) (fl s) 0) cap mtb maxlen ty Hmax HF Hmtb) as
        [T [M [lm [t' [RT [HT [RM [HM [Hlm [HTM [E [L FO]]]]]]]]]]]].
      { intros s Hs. apply Hres. exact Hs. } { exact Ht. } { apply Hfit, HC. }
      exists t', (TableInfo (Z.of_nat T) (Z.of_nat M) lm). split; [exact E|]. split; [exact L|]. right. cbn [ti_bits ti_literal_mask].
      split; [destruct ty; [exact HC|left; exact HC|left; exact HC]|]. split; [lia|]. split; [|split; [exact Hlm|exact HTM]].
      intros V HV. left. destruct (final_lookup lens _ T cap t' V RT FO HV) as [s [D [R C]]].
      exists s. split; [exact D|]. split; [exact R|]. destruct D as [D _]. destruct (Hres s D) as [_ [HE HL]].
      destruct C as [[C1 C2]|[C1 [st [sb [C2 [C3 [C4 [C5 [C6 C7]]]]]]]]].
      + left. split; [exact C1|]. rewrite C2, top_ent by assumption. reflexivity.
      + right. split; [exact C1|]. pose proof (pow2_pos sb ltac:(lia)). pose proof (pow2_pos (Z.of_nat T) ltac:(lia)). exists st, sb. split; [lia|]. split; [lia|]. split; [lia|].
        rewrite link_ent in C6 by lia. split; [exact C6|]. rewrite C7, sub_ent by assumption. reflexivity.
    - destruct (build_unfold t lens results mtb maxlen ty Hok Hmax HF) as [counts [M [lm [tl [RM [HMmax [HFM [Hlm [Lc [Hcounts EB]]]]]]]]]].
      cbv zeta in EB. set (T := Z.max (Z.min mtb (Z.of_nat M)) 1) in *. assert (RT : 1 <= T <= mtb) by lia.
      assert (HTM : T = mtb \/ Forall (fun l => l <= T) lens).
      { destruct (Z_le_gt_dec mtb (Z.of_nat M)); [left; lia|right]. replace T with (Z.of_nat M) by lia. exact HFM. }
      rewrite invalid_ent in EB. pose proof (used_of_space lens M ltac:(lia) (proj1 Hok) HFM) as US. pose proof (code_space_nonneg lens) as CN.
      set (B := 2 ^ (15 - Z.of_nat M)) in *. assert (PB : 0 < B) by (apply pow2_pos; lia).
      assert (E15 : 2 ^ Z.of_nat M * B = 2 ^ 15) by (unfold B; rewrite <- Z.pow_add_r by lia; f_equal; lia).
      assert (E14 : 2 ^ (Z.of_nat M - 1) * B = 2 ^ 14) by (unfold B; rewrite <- Z.pow_add_r by lia; f_equal; lia).
      assert (RU : 0 <= used_of lens M) by nia.
      assert (ET2 : 2 * Z.of_nat (Z.to_nat (2 ^ (T - 1))) = 2 ^ T).
      { rewrite Z2Nat.id by (apply Z.pow_nonneg; lia). rewrite <- Z.pow_succ_r by lia. f_equal. lia. }
      assert (Tcap : 2 ^ T <= Z.of_nat (length t)) by (rewrite Ht; pose proof (Z.pow_le_mono_r 2 T mtb ltac:(lia) ltac:(lia)); lia).
      assert (ET1 : 2 ^ T = 2 * 2 ^ (T - 1)) by (rewrite <- Z.pow_succ_r by lia; f_equal; lia). pose proof (pow2_pos (T - 1) ltac:(lia)) as PT1.
      assert (Rej : ~ accepted ty lens -> build_decode_table t lens results mtb maxlen ty = Ok (t, no_info) -> exists t' info, build_decode_table t lens results mtb maxlen ty = Ok (t', info) /\ length t' = cap /\
        ((ti_bits info = 0 /\ ~ accepted ty lens /\ t' = t) \/ (accepted ty lens /\ 1 <= ti_bits info <= mtb /\ table_for lens lo pay fl (ti_bits info) t' /\ lit_mask_ok lens (ti_literal_mask info) /\
          (ti_bits info = mtb \/ Forall (fun l => l <= ti_bits info) lens)))).
      { intros NA EE. exists t, no_info. split; [exact EE|]. split; [exact Ht|]. left. auto. }
      change (2 ^ 15) with 32768 in *. change (2 ^ 14) with 16384 in *.
      destruct (2 ^ Z.of_nat M <? used_of lens M) eqn:F1.
      { apply Rej; [|exact EB]. assert (32768 < code_space lens) by nia.
        destruct ty; unfold accepted, precode_good, litlen_good, offset_good, complete_code, single_code, empty_code; change (2 ^ 15) with 32768; change (2 ^ 14) with 16384; lia. }
      assert (F2 : used_of lens M <? 2 ^ Z.of_nat M = true) by (assert (used_of lens M <> 2 ^ Z.of_nat M) by (intros C; rewrite C in US; lia); lia).
      rewrite F2 in EB. destruct (used_of lens M =? 0) eqn:F3.
      { assert (C0 : code_space lens = 0) by (replace (used_of lens M) with 0 in US by lia; lia).
        destruct (is_offset_type ty) eqn:Fty.
        - destruct (fill_pairs_ok (ent 1 0 3 0) (ent 1 0 3 0) (Z.to_nat (2 ^ (T - 1))) t 0 ltac:(lia) ltac:(lia)) as [t' [E [L G]]].
          rewrite E in EB. cbn [bind] in EB. exists t', (TableInfo T (Z.of_nat M) lm). split; [exact EB|]. split; [congruence|]. right. cbn [ti_bits ti_literal_mask].
          split; [destruct ty; try discriminate; right; right; exact C0|]. split; [lia|]. split; [|split; assumption].
          intros V HV. right. split.
          + intros V' s _ _ D. pose proof (decodes_sorted lens V' s (proj1 Hok) D) as I. pose proof (ksum_space lens (proj1 Hok)) as K.
            rewrite C0 in K. apply in_split in I. destruct I as [d [r I]]. rewrite I, ksum_app in K. cbn [ksum] in K.
            pose proof (ksum_nonneg lens d). pose proof (ksum_nonneg lens r). pose proof (wt_ge1 lens s ltac:(rewrite I; apply in_elt)). lia.
          + pose proof (Z.mod_pos_bound V (2 ^ T) ltac:(lia)). pose proof (Z.mod_pos_bound V 2 ltac:(lia)).
            assert (GG : forall j, 0 <= j < 2 ^ T -> elem_at t' j = Some (ent 1 0 3 0)).
            { intros j Hj. rewrite G. replace ((0 <=? j) && (j <? 0 + 2 * Z.of_nat (Z.to_nat (2 ^ (T - 1))))) with true by lia. destruct (Z.even (j - 0)); reflexivity. }
            split; apply GG; lia.
        - apply Rej; [|exact EB]. destruct ty; try discriminate; unfold accepted, precode_good, litlen_good, complete_code, single_code; change (2 ^ 15) with 32768; change (2 ^ 14) with 16384; lia. }
      destruct (is_precode_type ty) eqn:Fty.
      { apply Rej; [|exact EB]. destruct ty; try discriminate. exact HC. }
      rewrite (rd_elem counts 1 (count_len lens 1)) in EB by (apply Hcounts; unfold len_ok; lia). cbn [bind] in EB.
      destruct (negb (used_of lens M =? 2 ^ (Z.of_nat M - 1)) || negb (count_len lens 1 =? 1)) eqn:F4.
      { apply Rej; [|exact EB]. assert (NS : ~ single_code lens).
        { intros [S1 S2]. change (2 ^ 14) with 16384 in S1. assert (used_of lens M = 2 ^ (Z.of_nat M - 1)) by nia. lia. }
        assert (C0 : code_space lens <> 0) by nia.
        destruct ty; try discriminate; unfold accepted, litlen_good, offset_good, complete_code, empty_code; change (2 ^ 15) with 32768; tauto. }
      assert (HS : single_code lens) by (split; [change (2 ^ 14) with 16384; assert (used_of lens M = 2 ^ (Z.of_nat M - 1)) by lia; nia|lia]).
      destruct (single_head HS) as [s [r [Es El]]].
      assert (Hs : In s (sorted_syms lens)) by (rewrite Es; now left). apply sorted_in in Hs. destruct Hs as [Hs _].
      rewrite Es in EB. cbn [map app] in EB. rewrite (rdi_elem _ 0 s) in EB by reflexivity. cbn [bind] in EB.
      destruct (Hres s Hs) as [Hr [HE HL]]. rewrite (rd_elem results s _ Hr) in EB. cbn [bind] in EB.
      destruct (fill_pairs_ok (make_top_entry (ent (lo s) (pay s) (fl s) 0) 1) (ent 1 0 3 0) (Z.to_nat (2 ^ (T - 1))) t 0 ltac:(lia) ltac:(lia)) as [t' [E [L G]]].
      rewrite E in EB. cbn [bind] in EB. exists t', (TableInfo T (Z.of_nat M) lm). split; [exact EB|]. split; [congruence|]. right. cbn [ti_bits ti_literal_mask].
      split; [destruct ty; try discriminate; unfold accepted, litlen_good, offset_good; tauto|]. split; [lia|]. split; [|split; assumption].
      intros V HV. pose proof (Z.mod_pos_bound V (2 ^ T) ltac:(lia)) as R1. pose proof (Z.mod_pos_bound V 2 ltac:(lia)) as R2.
      assert (EV : Z.even (V mod 2 ^ T) = Z.even V).
      { rewrite Z.mod_eq by lia. rewrite Z.even_sub, ET1, <- Z.mul_assoc, Z.even_mul. cbn [Z.even orb]. destruct (Z.even V); reflexivity. }
      destruct (Z.eq_dec (V mod 2) 0) as [V0|V1].
      + left. exists s. split.
        * apply (decodes_interval lens V [] s r Es). cbn [ksum]. unfold wt. rewrite El. pose proof (rc_range 15 V). change (15 - 1) with 14.
          apply rc15_low in V0; [|exact HV]. lia.
        * rewrite El. split; [lia|]. left. split; [lia|]. rewrite G.
          replace ((0 <=? V mod 2 ^ T) && (V mod 2 ^ T <? 0 + 2 * Z.of_nat (Z.to_nat (2 ^ (T - 1))))) with true by lia.
          rewrite Z.sub_0_r, EV, top_ent by (assumption || lia). rewrite Zeven_mod. unfold Zeq_bool. replace (V mod 2) with 0 by lia. reflexivity.
      + right. split.
        * intros V' s' HV' [Q|Q] D; [|lia]. assert (I : In s' (sorted_syms lens)) by (apply (decodes_sorted lens V' s' (proj1 Hok) D)). apply in_split in I. destruct I as [d' [r' I]].
          apply (decodes_interval lens V' d' s' r' I) in D. pose proof (ksum_space lens (proj1 Hok)) as K. destruct HS as [S1 _]. rewrite S1, I, ksum_app in K. cbn [ksum] in K.
          pose proof (ksum_nonneg lens r'). pose proof (rc15_low V' HV') as [RL _]. specialize (RL ltac:(lia)). lia.
        * assert (GG : forall j, 0 <= j < 2 ^ T -> Z.even j = false -> elem_at t' j = Some (ent 1 0 3 0)).
          { intros j Hj Ej. rewrite G. replace ((0 <=? j) && (j <? 0 + 2 * Z.of_nat (Z.to_nat (2 ^ (T - 1))))) with true by lia. rewrite Z.sub_0_r, Ej. reflexivity. }
          split; apply GG; [lia| |lia|]; [rewrite EV|]; rewrite Zeven_mod; unfold Zeq_bool; [|rewrite Z.mod_mod by lia]; replace (V mod 2) with 1 by lia; reflexivity.
  Qed.
End Build.
