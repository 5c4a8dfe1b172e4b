(* What the decoder fetches from the tables for a bit word, and what it does with it, in terms of the codes. *)
From Verif Require Import Base Bits Algorithm_Spec Algorithm_Model Algorithm_Proofs Deflate_Spec DeflateTable_Model DeflateTable_Proofs DeflateTable_Proofs2 DeflateTable_Proofs3 DeflateTable_Proofs4 DeflateTable_Proofs5 DeflateTable_Proofs6 DeflateTable_Proofs7 DeflateTable_Proofs8 DeflateTable_Proofs9 Inflate_Spec Inflate_Proofs DeflateDecoder_Model.

Definition none_for (lens : list Z) (P : Z) : Prop := forall V s, 0 <= V -> V mod 2 = 1 \/ P mod 2 = 0 -> ~ decodes lens V s.

Section Fetch.
  Context (lens : list Z) (lo pay fl : Z -> Z) (T : Z) (t : list Z).
  Context (HT : table_for lens lo pay fl T t) (HF : Forall len_ok lens) (RT : 1 <= T <= 15).
  Context (HR : forall s, 0 <= s < Z.of_nat (length lens) -> res_ok lo pay fl s).

  Lemma fetch_ok P : 0 <= P -> exists e0, elem_at t (P mod 2 ^ T) = Some e0 /\
    ((exists s, decodes lens P s /\ 1 <= len_of lens s <= T /\ sym_entry lo pay fl s (len_of lens s) e0 /\ Z.testbit (fl s) 1 = false) \/
     (is_literal e0 = false /\ is_off_or_len e0 = false /\ full_length e0 < 32 /\
      exists x e, extract_extra P e0 = Ok x /\ x = P mod 2 ^ full_length e0 / 2 ^ base_length e0 /\ rd t (payload_field e0 + x) = Ok e /\
        ((exists s, decodes lens P s /\ 1 <= len_of lens s <= 15 /\ sym_entry lo pay fl s (len_of lens s) e /\ full_length e = lo s mod 64 + len_of lens s) \/
         (none_for lens P /\ e = ent 1 0 3 0)))).
  Proof.
    intros HV. pose proof (pow2_pos T ltac:(lia)) as PT.
    destruct (top_lookup lens lo pay fl T t HT RT HR P HV) as [e [E [[s [D [L C]]]|[N [-> E2]]]]].
    - exists e. split; [exact E|]. destruct (HR s (proj1 D)) as [EO [R1 [R2 [R3 R4]]]].
      destruct C as [[C1 [C2 C3]]|[C1 [st [sb [e' [C2 [C3 [C4 [C5 [C6 [C7 C8]]]]]]]]]]].
      + destruct (Z.testbit (fl s) 1) eqn:F.
        * right. specialize (C3 eq_refl). subst e. destruct (R4 eq_refl) as [Rl Rp].
          assert (EO' : ent_ok (len_of lens s) 0 (fl s) 0) by (unfold ent_ok in *; lia).
          rewrite ent_literal, ent_off, ent_full, ent_base by exact EO'.
          assert (F2 : Z.testbit (fl s) 4 = false /\ Z.testbit (fl s) 2 = false) by (destruct (Z.testbit (fl s) 4), (Z.testbit (fl s) 2); try discriminate; auto).
          destruct F2 as [F4 F2]. split; [exact F4|]. split; [exact F2|]. split; [lia|].
          pose proof (decodes_mod lens P s HV D) as D'. pose proof (pow2_pos (len_of lens s) ltac:(lia)) as PL.
          pose proof (Z.mod_pos_bound P (2 ^ len_of lens s) PL) as RV. pose proof (Z.pow_le_mono_r 2 (len_of lens s) T ltac:(lia) C1).
          destruct (top_lookup lens lo pay fl T t HT RT HR (P mod 2 ^ len_of lens s) ltac:(lia)) as [e2 [E2 [[s2 [D2 [L2 C2']]]|[N _]]]]; [|destruct (N (P mod 2 ^ len_of lens s) s ltac:(lia) ltac:(lia) D')].
          rewrite (Z.mod_small (P mod 2 ^ len_of lens s)) in E2 by lia.
          assert (s2 = s) as -> by exact (decodes_unique lens _ s2 s HF D2 D').
          destruct C2' as [[_ [Q Q2]]|[Q _]]; [|lia]. specialize (Q2 F).
          exists (P mod 2 ^ len_of lens s), e2. rewrite ent_extra by (assumption || (rewrite Z.mod_small by lia; lia) || lia).
          rewrite (Z.mod_small (len_of lens s) 64) by lia. change (2 ^ 0) with 1. rewrite Z.div_1_r. split; [reflexivity|]. split; [reflexivity|].
          rewrite ent_pay by exact EO'. split; [apply rd_elem; rewrite Z.add_0_l; exact E2|]. left. exists s. split; [exact D|]. split; [lia|]. split; [exact Q|].
          rewrite Q2, ent_full by exact EO'. rewrite Rl. reflexivity.
        * left. exists s. split; [exact D|]. split; [lia|]. split; [exact C2|exact F].
      + right. subst e. assert (EL : ent_ok (T + sb) st 0 T) by (unfold ent_ok; lia).
        rewrite ent_literal, ent_off, ent_full, ent_base by exact EL. split; [reflexivity|]. split; [reflexivity|]. split; [lia|].
        exists (P mod 2 ^ (T + sb) / 2 ^ T), e'. rewrite ent_extra by (assumption || (rewrite Z.mod_small by lia; lia) || lia). rewrite (Z.mod_small (T + sb) 64) by lia.
        split; [reflexivity|]. split; [reflexivity|]. rewrite ent_pay by exact EL. split; [|left; exists s; auto]. apply rd_elem. rewrite <- C6. f_equal. f_equal.
        rewrite Z.pow_add_r by lia. pose proof (pow2_pos sb ltac:(lia)). rewrite Z.rem_mul_r by lia.
        rewrite Z.mul_comm, Z.div_add by lia. pose proof (Z.mod_pos_bound P (2 ^ T) PT). rewrite (Z.div_small (P mod 2 ^ T)) by lia. lia.
    - exists (ent 1 0 3 0). split; [exact E|]. right. assert (EI : ent_ok 1 0 3 0) by (unfold ent_ok; lia).
      rewrite ent_literal, ent_off, ent_full, ent_base, ent_pay by exact EI. split; [reflexivity|]. split; [reflexivity|]. split; [lia|].
      exists (P mod 2), (ent 1 0 3 0). rewrite ent_extra by (assumption || (rewrite Z.mod_small by lia; lia) || lia).
      change (1 mod 64) with 1. change (2 ^ 1) with 2. change (2 ^ 0) with 1. rewrite Z.div_1_r, Z.add_0_l. split; [reflexivity|]. split; [reflexivity|]. split; [apply rd_elem, E2|].
      right. split; [exact N|reflexivity].
  Qed.
End Fetch.

(* the low six bits, as consumed(entry) uses them *)
Lemma land63_full e : Z.land e 63 = full_length e mod 64.
Proof. unfold full_length. rewrite (land_mod _ 6), (land_mod _ 8) by (reflexivity || lia). change (2 ^ 6) with 64. change (2 ^ 8) with 256. lia. Qed.

(* the extra bits of symbol s after its code of l bits *)
Lemma sym_extra lo pay fl s l e W : sym_entry lo pay fl s l e -> 0 <= lo s <= 13 -> 1 <= l <= 15 -> Z.testbit (fl s) 1 = false -> 0 <= W ->
  extract_extra W e = Ok (W / 2 ^ l mod 2 ^ lo s).
Proof.
  intros [x [base [-> [EO [Ex [Ef Eb]]]]]] R1 R2 F HW. rewrite Eb in * by exact F. rewrite ent_extra by (assumption || lia). rewrite Ex. rewrite (Z.mod_small (lo s)) by lia.
  pose proof (pow2_pos l ltac:(lia)). pose proof (pow2_pos (lo s) ltac:(lia)). f_equal. rewrite Z.add_comm, Z.pow_add_r by lia. rewrite Z.rem_mul_r by lia.
  rewrite Z.mul_comm, Z.div_add by lia. pose proof (Z.mod_pos_bound W (2 ^ l)). rewrite (Z.div_small (W mod 2 ^ l)) by lia. reflexivity.
Qed.

Definition lit_entry (lens : list Z) (P : Z) (e : Z) (s : Z) : Prop :=
  decodes lens P s /\ 0 <= s < 288 /\ 1 <= len_of lens s <= 15 /\ payload_field e = lit_pay s /\ is_literal e = (s <? 256) /\ is_end_of_block e = ((s =? 256) || (286 <=? s)) /\
  is_end_of_block_invalid e = (286 <=? s) /\ is_off_or_len e = ((257 <=? s) && (s <=? 285)) /\ Z.land e 63 = lit_lo s mod 64 + len_of lens s /\
  (s < 256 \/ 257 <= s <= 285 -> base_length e = len_of lens s) /\ (256 <= s -> full_length e = lit_lo s + len_of lens s) /\
  (257 <= s <= 285 -> forall W, 0 <= W -> extract_extra W e = Ok (W / 2 ^ len_of lens s mod 2 ^ length_extra s)) /\
  (forall W, 0 <= W -> exists x, extract_extra W e = Ok x).

Lemma lit_entry_of lens P s e : Forall len_ok lens -> (length lens <= 288)%nat -> decodes lens P s -> sym_entry lit_lo lit_pay lit_fl s (len_of lens s) e -> lit_entry lens P e s.
Proof.
  intros HF HL D SE. pose proof (decodes_len lens P s HF D) as L. assert (Rs : 0 <= s < 288) by (destruct D; lia).
  pose proof SE as [x [base [Ee [EO [Ex [Ef Eb]]]]]]. destruct (lit_res_ok s Rs) as [EO0 [R1 [R2 [R3 R4]]]].
  assert (R0 : 0 <= lit_lo s) by (unfold ent_ok in EO0; lia).
  unfold lit_entry. rewrite land63_full. rewrite Ee at 1 2 3 4 5 6 7 8. rewrite ent_pay, ent_literal, ent_eob, ent_invalid, ent_off, ent_full, ent_base by exact EO.
  split; [exact D|]. split; [exact Rs|]. split; [exact L|]. split; [reflexivity|].
  split; [unfold lit_fl; destruct (s <? 256); [reflexivity|]; destruct (s =? 256), (286 <=? s); reflexivity|].
  split; [unfold lit_fl; destruct (s <? 256) eqn:F1; [replace (s =? 256) with false by lia; replace (286 <=? s) with false by lia; reflexivity|]; destruct (s =? 256), (286 <=? s); reflexivity|].
  split; [unfold lit_fl; destruct (s <? 256) eqn:F1; [replace (286 <=? s) with false by lia; reflexivity|]; destruct (s =? 256) eqn:F2; [replace (286 <=? s) with false by lia; reflexivity|]; destruct (286 <=? s); reflexivity|].
  split.
  { unfold lit_fl; destruct (s <? 256) eqn:F1; [replace (257 <=? s) with false by lia; reflexivity|]; destruct (s =? 256) eqn:F2; [replace (257 <=? s) with false by lia; reflexivity|].
    destruct (286 <=? s) eqn:F3; [replace (s <=? 285) with false by lia; rewrite andb_false_r; reflexivity|]. replace (257 <=? s) with true by lia. replace (s <=? 285) with true by lia. reflexivity. }
  split; [exact Ex|].
  split; [intros Q; apply Eb; unfold lit_fl; destruct (s <? 256) eqn:F1; [reflexivity|]; replace (s =? 256) with false by lia; replace (286 <=? s) with false by lia; reflexivity|].
  assert (LL : 256 <= s -> lit_lo s <= 13).
  { intros Q. unfold lit_lo in *. replace (s <? 256) with false in * by lia. destruct ((s =? 256) || (286 <=? s)) eqn:F; [lia|]. pose proof (length_extra_range s ltac:(lia)). lia. }
  split; [intros Q; apply Ef; specialize (LL Q); lia|].
  split.
  - intros Q W HW. rewrite (sym_extra lit_lo lit_pay lit_fl s (len_of lens s) e W SE); try assumption.
    + unfold lit_lo. replace (s <? 256) with false by lia. replace (s =? 256) with false by lia. replace (286 <=? s) with false by lia. reflexivity.
    + specialize (LL ltac:(lia)). lia.
    + unfold lit_fl. replace (s <? 256) with false by lia. replace (s =? 256) with false by lia. replace (286 <=? s) with false by lia. reflexivity.
  - intros W HW. rewrite Ee. rewrite ent_extra by (assumption || lia). eexists. reflexivity.
Qed.

Inductive lit_case (lens : list Z) (P T : Z) (t : list Z) (e0 : Z) : Prop :=
| lc_direct s : lit_entry lens P e0 s -> s < 256 \/ 257 <= s <= 285 -> len_of lens s <= T -> lit_case lens P T t e0
| lc_sub x e s : is_literal e0 = false -> is_off_or_len e0 = false -> full_length e0 < 32 -> extract_extra P e0 = Ok x ->
    x = P mod 2 ^ full_length e0 / 2 ^ base_length e0 -> rd t (payload_field e0 + x) = Ok e -> lit_entry lens P e s -> full_length e = lit_lo s mod 64 + len_of lens s ->
    lit_case lens P T t e0
| lc_none x e : is_literal e0 = false -> is_off_or_len e0 = false -> full_length e0 < 32 -> extract_extra P e0 = Ok x ->
    x = P mod 2 ^ full_length e0 / 2 ^ base_length e0 -> rd t (payload_field e0 + x) = Ok e -> e = ent 1 0 3 0 -> none_for lens P ->
    lit_case lens P T t e0.

Lemma lit_fetch lens T t P : lit_table lens T t -> Forall len_ok lens -> (length lens <= 288)%nat -> 1 <= T <= 15 -> 0 <= P ->
  exists e0, elem_at t (P mod 2 ^ T) = Some e0 /\ lit_case lens P T t e0.
Proof.
  intros HT HF HL RT HP. destruct (fetch_ok lens lit_lo lit_pay lit_fl T t HT HF RT ltac:(intros; apply lit_res_ok; lia) P HP) as [e0 [E C]].
  exists e0. split; [exact E|]. destruct C as [[s [D [L [SE F]]]]|[F1 [F2 [F3 [x [e [X1 [X2 [X3 [[s [D [L [SE FL]]]]|[N Ee]]]]]]]]]]].
  - apply (lc_direct _ _ _ _ _ s); [apply lit_entry_of; assumption| |lia].
    assert (Rs : 0 <= s < 288) by (destruct D; lia). unfold lit_fl in F. destruct (s <? 256) eqn:Q1; [lia|]. destruct (s =? 256) eqn:Q2; [discriminate|]. destruct (286 <=? s) eqn:Q3; [discriminate|lia].
  - eapply lc_sub; try eassumption. apply lit_entry_of; assumption.
  - eapply lc_none; eassumption.
Qed.

Definition off_entry (lens : list Z) (P : Z) (e : Z) (s : Z) : Prop :=
  decodes lens P s /\ 0 <= s < 32 /\ 1 <= len_of lens s <= 15 /\ payload_field e = off_pay s /\ is_end_of_block e = (30 <=? s) /\
  is_off_or_len e = (s <=? 29) /\ Z.land e 63 = off_lo s + len_of lens s /\ full_length e = off_lo s + len_of lens s /\
  (s <= 29 -> forall W, 0 <= W -> extract_extra W e = Ok (W / 2 ^ len_of lens s mod 2 ^ offset_extra s)) /\
  (forall W, 0 <= W -> exists x, extract_extra W e = Ok x).
Lemma off_entry_of lens P s e : Forall len_ok lens -> (length lens <= 32)%nat -> decodes lens P s -> sym_entry off_lo off_pay off_fl s (len_of lens s) e -> off_entry lens P e s.
Proof.
  intros HF HL D SE. pose proof (decodes_len lens P s HF D) as L. assert (Rs : 0 <= s < 32) by (destruct D; lia).
  pose proof SE as [x [base [Ee [EO [Ex [Ef Eb]]]]]].
  assert (R0 : 0 <= off_lo s <= 13) by (unfold off_lo; destruct (30 <=? s) eqn:F; [lia|apply offset_extra_range; lia]).
  unfold off_entry. rewrite land63_full. rewrite Ee at 1 2 3 4 5. rewrite ent_pay, ent_eob, ent_off, !ent_full by exact EO.
  split; [exact D|]. split; [exact Rs|]. split; [exact L|]. split; [reflexivity|].
  split; [unfold off_fl; destruct (30 <=? s); reflexivity|].
  split; [unfold off_fl; destruct (30 <=? s) eqn:F; [replace (s <=? 29) with false by lia|replace (s <=? 29) with true by lia]; reflexivity|].
  split; [rewrite Ex, Z.mod_small by lia; lia|]. split; [rewrite Ef; lia|].
  split.
  - intros Q W HW. rewrite (sym_extra off_lo off_pay off_fl s (len_of lens s) e W SE); try assumption.
    + unfold off_lo. replace (30 <=? s) with false by lia. reflexivity.
    + unfold off_fl. replace (30 <=? s) with false by lia. reflexivity.
  - intros W HW. rewrite Ee. rewrite ent_extra by (assumption || (rewrite Ex, Z.mod_small by lia; lia) || lia). eexists. reflexivity.
Qed.

(* deflatedecoder.cpp 1127-1141, 1266-1287: the entry of the offset code and the offset *)
Definition off_lookup (toff : list Z) (P i : Z) : outcome (Z * Z * bool) :=
  let* e := rd toff i in
  let* x := extract_extra P e in
  let offset := payload_field e + x in
  if negb (is_off_or_len e) then
    let* e := rd toff offset in
    let* x := extract_extra P e in
    Ok (e, payload_field e + x, is_end_of_block e)
  else Ok (e, offset, false).

Lemma off_fetch lens T t P : off_table lens T t -> Forall len_ok lens -> (length lens <= 32)%nat -> 1 <= T <= 15 -> 0 <= P ->
  exists e offset bad, off_lookup t P (P mod 2 ^ T) = Ok (e, offset, bad) /\
    ((bad = false /\ exists d, decodes lens P d /\ 0 <= d <= 29 /\ 1 <= len_of lens d <= 15 /\ full_length e = len_of lens d + offset_extra d /\ Z.land e 63 = full_length e /\
        offset = offset_base d + P / 2 ^ len_of lens d mod 2 ^ offset_extra d) \/
     (bad = true /\ ((exists d, decodes lens P d /\ 30 <= d) \/ none_for lens P))).
Proof.
  intros HT HF HL RT HP. destruct (fetch_ok lens off_lo off_pay off_fl T t HT HF RT ltac:(intros; apply off_res_ok; lia) P HP) as [e0 [E C]].
  unfold off_lookup. rewrite (rd_elem _ _ _ E). cbn [bind].
  destruct C as [[s [D [L [SE F]]]]|[F1 [F2 [F3 [x [e [X1 [X2 [X3 C]]]]]]]]].
  - destruct (off_entry_of lens P s e0 HF HL D SE) as [_ [Rs [_ [P1 [P2 [P3 [P4 [P5 [P6 P7]]]]]]]]].
    assert (Q : s <= 29) by (unfold off_fl in F; destruct (30 <=? s) eqn:Q; [discriminate|lia]).
    rewrite (P6 Q P HP). cbn [bind]. rewrite P3. replace (s <=? 29) with true by lia. cbn [negb].
    eexists _, _, _. split; [reflexivity|]. left. split; [reflexivity|]. exists s. split; [exact D|]. split; [clear -Rs Q; lia|]. split; [clear -L RT; lia|].
    unfold off_lo, off_pay in *. replace (30 <=? s) with false in * by lia. split; [rewrite P5; apply Z.add_comm|]. split; [rewrite P4, P5; reflexivity|]. rewrite P1. reflexivity.
  - rewrite X1. cbn [bind]. rewrite F2. cbn [negb]. rewrite X3. cbn [bind]. destruct C as [[s [D [L [SE FL]]]]|[N Ee]].
    + destruct (off_entry_of lens P s e HF HL D SE) as [_ [Rs [_ [P1 [P2 [P3 [P4 [P5 [P6 P7]]]]]]]]].
      destruct (30 <=? s) eqn:Q.
      * destruct (P7 P HP) as [y Y]. rewrite Y. cbn [bind]. eexists _, _, _. split; [reflexivity|]. right. split; [exact P2|]. left. exists s. split; [exact D|clear -Q; lia].
      * rewrite (P6 ltac:(lia) P HP). cbn [bind]. eexists _, _, _. split; [reflexivity|]. left. split; [exact P2|]. exists s. split; [exact D|]. split; [clear -Rs Q; lia|]. split; [clear -L RT; lia|].
        unfold off_lo, off_pay in *. rewrite Q in *. split; [rewrite P5; apply Z.add_comm|]. split; [rewrite P4, P5; reflexivity|]. rewrite P1. reflexivity.
    + subst e. assert (EI : ent_ok 1 0 3 0) by (unfold ent_ok; lia). rewrite ent_extra by (assumption || (rewrite Z.mod_small by lia; lia) || lia). cbn [bind].
      eexists _, _, _. split; [reflexivity|]. right. split; [reflexivity|]. right. exact N.
Qed.
