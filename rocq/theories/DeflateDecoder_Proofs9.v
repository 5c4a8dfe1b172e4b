(* The code lengths of a dynamic block and the tables built from them. *)
From Verif Require Import Base Bits Algorithm_Spec Algorithm_Model Algorithm_Proofs Deflate_Spec DeflateTable_Model DeflateTable_Proofs DeflateTable_Proofs2 DeflateTable_Proofs3 DeflateTable_Proofs4 DeflateTable_Proofs5 DeflateTable_Proofs6 DeflateTable_Proofs7 DeflateTable_Proofs8 DeflateTable_Proofs9 Inflate_Spec Inflate_Proofs DeflateDecoder_Model DeflateDecoder_Proofs DeflateDecoder_Proofs2 DeflateDecoder_Proofs3 DeflateDecoder_Proofs4 DeflateDecoder_Proofs5 DeflateDecoder_Proofs6 DeflateDecoder_Proofs7 DeflateDecoder_Proofs8.
Ltac Zify.zify_post_hook ::= idtac.

Definition pre_add (s : Z) : Z := if s =? 18 then 11 else 3.
Lemma pre_fetch pre T pt P : Forall (fun l => 0 <= l <= 7) pre -> length pre = 19%nat -> precode_good pre -> pre_table pre T pt -> 1 <= T <= 7 -> (T = 7 \/ Forall (fun l => l <= T) pre) -> 0 <= P ->
  exists s e, decodes pre P s /\ 0 <= s < 19 /\ 1 <= len_of pre s <= 7 /\ elem_at pt (P mod 2 ^ T) = Some e /\ full_length e = len_of pre s + pre_lo s /\ base_length e = len_of pre s /\ precode_value e = s /\
    (16 <= s -> precode_repeat e = pre_add s).
Proof.
  intros H1 H2 G HT RT C4 HP. assert (HF : Forall len_ok pre) by (apply len7_ok, H1).
  assert (Hok : lens_ok pre) by (split; [exact HF|lia]). destruct (complete_decodes pre Hok G P) as [s0 D0].
  destruct (HT P HP) as [[s [D [L1 Q]]]|[N _]]; [|exfalso; apply (N P s0 HP); [pose proof (Z.mod_pos_bound P 2); lia|exact D0]].
  assert (Rs : 0 <= s < 19) by (destruct D; lia). assert (Ls : len_of pre s <= T /\ len_of pre s <= 7).
  { assert (I : In (len_of pre s) pre) by (unfold len_of; apply nth_In; lia). rewrite Forall_forall in H1. specialize (H1 _ I). split; [|lia]. destruct C4 as [C4|C4]; [lia|]. rewrite Forall_forall in C4. apply C4, I. }
  destruct Q as [[_ Q]|[Q _]]; [|lia]. cbn [Z.testbit] in Q. destruct (pre_results s Rs) as [_ [EO0 _]].
  assert (R : 0 <= pre_lo s <= 7) by (unfold pre_lo; repeat (destruct (_ <? _) || destruct (_ =? _)); lia).
  assert (EO : ent_ok (pre_lo s + len_of pre s) (pre_pay s) 0 (len_of pre s)) by (unfold ent_ok in *; lia).
  exists s. eexists. split; [exact D|]. split; [exact Rs|]. split; [lia|]. split; [exact Q|].
  rewrite (ent_value _ _ _ _ EO), (ent_base _ _ _ _ EO), (ent_full _ _ _ _ EO), (ent_repeat _ _ _ _ EO) by reflexivity. split; [lia|]. split; [reflexivity|]. clear -Rs.
  unfold pre_pay, pre_add. split; [|intros HS]; repeat match goal with |- context [?x <? ?y] => destruct (x <? y) eqn:? | |- context [?x =? ?y] => destruct (x =? y) eqn:? end; try lia; try (assert (s = 16 \/ s = 17 \/ s = 18) as [->|[->| ->]] by lia; reflexivity || lia).
Qed.

(* bytes of the array of lengths *)
Definition holds (lens : list (option Z)) (acc : list Z) : Prop := length lens = 457%nat /\ firstn (length acc) lens = map Some acc.
Lemma holds_set k : forall lens acc v, holds lens acc -> (length acc + k <= 457)%nat ->
  exists lens', set_lens k lens (Z.of_nat (length acc)) v = Ok lens' /\ holds lens' (acc ++ repeat v k).
Proof.
  induction k as [|k IH]; intros lens acc v [H1 H2] HK.
  - exists lens. cbn. rewrite app_nil_r. split; [reflexivity|split; assumption].
  - cbn [set_lens repeat]. rewrite wr_ok by lia. cbn [bind]. assert (H' : holds (zupd lens (Z.of_nat (length acc)) (Some v)) (acc ++ [v])).
    { split; [rewrite zupd_length; exact H1|]. rewrite app_length. cbn [length]. unfold zupd. rewrite Nat2Z.id. replace (length acc + 1)%nat with (Datatypes.S (length acc)) by lia. rewrite firstn_upd by lia. rewrite H2, map_app. reflexivity. }
    destruct (IH _ _ v H') as [lens' [E H3]]; [rewrite app_length; cbn [length]; lia|]. exists lens'. rewrite app_length in E. cbn [length] in E. replace (Z.of_nat (length acc) + 1) with (Z.of_nat (length acc + 1)) by lia. split; [exact E|]. rewrite <- app_assoc in H3. exact H3.
Qed.
Lemma holds_prefix lens acc x : holds lens (acc ++ x) -> holds lens acc.
Proof.
  intros [H1 H2]. split; [exact H1|]. rewrite map_app, app_length in H2.
  replace (firstn (length acc) lens) with (firstn (length acc) (firstn (length acc + length x) lens)) by (rewrite firstn_firstn; f_equal; lia). rewrite H2. rewrite firstn_app, map_length, Nat.sub_diag. cbn [firstn]. rewrite app_nil_r.
  apply firstn_all2. rewrite map_length. lia.
Qed.
Lemma holds_repeat lens acc v n k : holds lens (acc ++ repeat v n) -> (k <= n)%nat -> holds lens (acc ++ repeat v k).
Proof. intros H HK. replace n with (k + (n - k))%nat in H by lia. rewrite repeat_app, app_assoc in H. eapply holds_prefix, H. Qed.
Lemma holds_last lens acc : holds lens acc -> acc <> [] -> (length acc <= 457)%nat -> rdi lens (Z.of_nat (length acc) - 1) = Ok (last acc 0).
Proof.
  intros [H1 H2] NE HL. destruct (exists_last NE) as [l [x ->]]. rewrite last_last. rewrite app_length in *. cbn [length] in *. unfold rdi. rewrite (rd_elem _ _ (Some x)); [reflexivity|].
  unfold elem_at. replace (Z.of_nat (length l + 1) - 1 <? 0) with false by lia. replace (Z.to_nat (Z.of_nat (length l + 1) - 1)) with (length l) by lia.
  rewrite <- (nth_error_firstn' _ (length l + 1)) by lia. rewrite H2, map_app, nth_error_app2, map_length, Nat.sub_diag by (rewrite map_length; lia). reflexivity.
Qed.

Section Lens.
  Context (f : bool) (nl no : Z) (pre out fut pt : list Z) (T : Z).
  Context (Rnl : 257 <= nl <= 288) (Rno : 1 <= no <= 32) (H1 : Forall (fun l => 0 <= l <= 7) pre) (H2 : length pre = 19%nat) (G : precode_good pre) (HT : pre_table pre T pt) (RT : 1 <= T <= 7) (C4 : T = 7 \/ Forall (fun l => l <= T) pre).
  Let S acc V N := A (ALens nl no pre acc) f V N out.

  Definition lens_spec (acc : list Z) (V N : Z) (b : bits) (r : lens_res) : Prop :=
    match r with
    | LensIn lens' i b' => exists acc' V' N' m', asteps (S acc V N) (S acc' V' N') /\ bits_ok V' N' m' b' fut /\ i = Z.of_nat (length acc') /\ i < nl + no /\ holds lens' acc' /\ b_src b' = [] /\ (fut = [] -> dead (S acc' V' N'))
    | LensBad _ _ => dead (S acc V N)
    | LensEnd lens' i b' => exists acc' V' N' m', asteps (S acc V N) (S acc' V' N') /\ bits_ok V' N' m' b' fut /\ i = Z.of_nat (length acc') /\ nl + no <= i /\ holds lens' acc' /\ (length (b_src b') <= length (b_src b))%nat /\ avail b' <= avail b
    end.

  Lemma lens_spec_trans acc V N b acc1 V1 N1 b1 r : 0 <= V -> 0 <= N -> Forall len_ok acc -> asteps (S acc V N) (S acc1 V1 N1) -> (length (b_src b1) <= length (b_src b))%nat -> avail b1 <= avail b -> lens_spec acc1 V1 N1 b1 r -> lens_spec acc V N b r.
  Proof.
    intros HV HN HA St LS AV H. destruct r as [l i b'|l b'|l i b']; cbn [lens_spec] in *.
    - destruct H as [acc' [V' [N' [m' [S1 R]]]]]. exists acc', V', N', m'. split; [eapply asteps_trans; eassumption|exact R].
    - eapply dead_back; [|exact St|exact H]. unfold wf. cbn. auto 10.
    - destruct H as [acc' [V' [N' [m' [S1 [R1 [R2 [R3 [R4 [R5 R6]]]]]]]]]]. exists acc', V', N', m'. split; [eapply asteps_trans; eassumption|]. split; [exact R1|]. split; [exact R2|]. split; [exact R3|]. split; [exact R4|]. split; lia.
  Qed.

  Lemma lens_loop_ok : forall fuel acc V N m b lens, bits_ok V N m b fut -> Forall len_ok acc -> holds lens acc -> Z.of_nat (length acc) < nl + no -> b_len b + 16 * Z.of_nat (length (b_src b)) < Z.of_nat fuel ->
    exists r, lens_loop fuel pt T (nl + no) lens (Z.of_nat (length acc)) b = Ok r /\ lens_spec acc V N b r.
  Proof.
    induction fuel as [|fuel IH]; intros acc V N m b lens B HA HO HI HF.
    { pose proof (bo_len _ _ _ _ _ B). lia. }
    cbn [lens_loop]. pose proof (bo_len _ _ _ _ _ B) as L0.
    assert (RB : exists b1 m1, (if can_refill_byte b then match b_src b with [] => Ok b | x :: src => let* r := refill_byte (b_word b) (b_len b) x in Ok (Bits (fst r) (snd r) src) end else Ok b) = Ok b1 /\
       bits_ok V N m1 b1 fut /\ (length (b_src b1) <= length (b_src b))%nat /\ avail b1 = avail b /\ (56 <= b_len b1 \/ b_src b1 = [] \/ b_len b1 + 16 * Z.of_nat (length (b_src b1)) < b_len b + 16 * Z.of_nat (length (b_src b))) /\ b_len b1 + 16 * Z.of_nat (length (b_src b1)) <= b_len b + 16 * Z.of_nat (length (b_src b))).
    { unfold can_refill_byte. destruct (b_len b <? 56) eqn:F.
      - destruct (b_src b) as [|x src] eqn:E.
        + exists b, m. rewrite E. split; [reflexivity|]. split; [exact B|]. split; [lia|]. split; [reflexivity|]. split; [right; left; reflexivity|lia].
        + destruct (refill_byte_ok _ _ _ _ _ x src B E ltac:(lia)) as [w [E1 B2]]. rewrite E1. cbn [bind fst snd]. eexists _, _. split; [reflexivity|]. split; [exact B2|]. unfold avail. rewrite E. cbn [b_src length b_len]. split; [lia|]. split; [lia|]. split; [right; right|]; lia.
      - exists b, m. split; [reflexivity|]. split; [exact B|]. split; [lia|]. split; [reflexivity|]. split; [left; lia|lia]. }
    destruct RB as [b1 [m1 [E1 [B1 [LS1 [AV1 [C1 M1]]]]]]]. rewrite E1. cbn [bind]. clear E1.
    pose proof (bo_len _ _ _ _ _ B1) as L. pose proof (bo_m _ _ _ _ _ B1) as M. pose proof (bo_V _ _ _ _ _ B1) as HV. pose proof (a_N_len _ _ _ _ _ B1) as LN. pose proof (bo_src _ _ _ _ _ B1) as Sr.
    change (w32 (Z.land (b_word b1) (mask32 T))) with (index b1 T). rewrite index_ok by lia.
    destruct (pre_fetch pre T pt (b_word b1) H1 H2 G HT RT C4 (bo_word_nonneg _ _ _ _ _ B1)) as [s [e [D [Rs [Rl [EE [EF [EB [EV ER]]]]]]]]]. rewrite (rd_elem _ _ _ EE). cbn [bind]. rewrite EF, EB, EV. clear EV.
    set (l := len_of pre s) in *. assert (RX : 0 <= pre_lo s <= 7) by (unfold pre_lo; clear; repeat (destruct (_ <? _) || destruct (_ =? _)); lia).
    assert (WF : wf (S acc V N)) by (unfold wf; cbn; clear -Rnl Rno H1 H2 G HA HV LN L; auto 12 with zarith).
    assert (HP7 : Forall len_ok pre) by (apply len7_ok, H1).
    (* the table is right about the stream once the code is in the buffer *)
    assert (DV : l <= b_len b1 -> decodes pre V s). { intros Q. rewrite (bo_word _ _ _ _ _ B1) in D. apply (proj1 (dec_mod pre V m1 s ltac:(fold l; lia))). exact D. }
    assert (UQ : decodes pre V s -> forall s', decodes pre V s' -> s' = s) by (intros Q s' Q'; exact (decodes_unique pre V s' s HP7 Q' Q)).
    assert (REC : forall acc2 V2 N2 m2 b2 lens2, asteps (S acc V N) (S acc2 V2 N2) -> bits_ok V2 N2 m2 b2 fut -> holds lens2 acc2 -> Forall len_ok acc2 -> b_src b2 = b_src b1 -> b_len b2 < b_len b1 ->
      exists r, (if Z.of_nat (length acc2) <? nl + no then lens_loop fuel pt T (nl + no) lens2 (Z.of_nat (length acc2)) b2 else Ok (LensEnd lens2 (Z.of_nat (length acc2)) b2)) = Ok r /\ lens_spec acc V N b r).
    { intros acc2 V2 N2 m2 b2 lens2 St B2 HO2 HA2 ES2 HL2. assert (AV2 : avail b2 <= avail b) by (unfold avail in *; rewrite ES2; lia). destruct (Z.of_nat (length acc2) <? nl + no) eqn:FI.
      - destruct (IH acc2 V2 N2 m2 b2 lens2 B2 HA2 HO2 ltac:(lia) ltac:(rewrite ES2; lia)) as [r [E3 SP]]. exists r. split; [exact E3|]. eapply lens_spec_trans; [exact HV|lia|exact HA|exact St| |exact AV2|exact SP]. rewrite ES2. exact LS1.
      - eexists. split; [reflexivity|]. cbn [lens_spec]. exists acc2, V2, N2, m2. split; [exact St|]. split; [exact B2|]. split; [reflexivity|]. split; [lia|]. split; [exact HO2|]. rewrite ES2. split; [exact LS1|exact AV2]. }
    destruct (b_len b1 <? l + pre_lo s) eqn:FL.
    { destruct (b_src b1) as [|x src] eqn:ES.
      - eexists. split; [reflexivity|]. cbn [lens_spec]. exists acc, V, N, m1. split; [constructor|]. split; [exact B1|]. split; [reflexivity|]. split; [exact HI|]. split; [exact HO|]. split; [exact ES|]. intros Ef.
        rewrite Ef in B1. pose proof (a_N_short _ _ _ _ B1 ES) as EN. cbn in Sr. assert (m1 = b_len b1) as EM by lia.
        assert (EW : b_word b1 = V). { rewrite (bo_word _ _ _ _ _ B1). pose proof (bo_rest _ _ _ _ _ B1) as HR. rewrite ES in HR. cbn [app le_bytes] in HR. pose proof (Z.div_mod V (2 ^ b_len b1) ltac:(apply Z.pow_nonzero; lia)) as Q. rewrite HR, Z.mul_0_r, Z.add_0_l in Q. rewrite EM. symmetry. exact Q. }
        rewrite EW in D. specialize (UQ D). clear -UQ FL EN HI. apply stuck_dead; [discriminate|]. intros b2 St. unfold S in St. inversion St; subst; try lia.
        + match goal with H : decodes pre V ?x |- _ => pose proof (UQ _ H); subst x end. assert (pre_lo s = 0) by (unfold pre_lo; replace (s <? 16) with true by lia; reflexivity). lia.
        + match goal with H : decodes pre V ?x |- _ => pose proof (UQ _ H) as <- end. change (pre_lo 16) with 2 in FL. lia.
        + match goal with H : decodes pre V ?x |- _ => pose proof (UQ _ H) as <- end. change (pre_lo 17) with 3 in FL. lia.
        + match goal with H : decodes pre V ?x |- _ => pose proof (UQ _ H) as <- end. change (pre_lo 18) with 7 in FL. lia.
      - replace (Z.of_nat (length acc) <? nl + no) with true by lia. destruct (IH acc V N m1 b1 lens B1 HA HO HI) as [r [E3 SP]]; [rewrite ES in *; clear -C1 FL Rl RX HF M1; destruct C1 as [C1|[C1|C1]]; [lia|discriminate|lia]|].
        exists r. split; [exact E3|]. eapply lens_spec_trans with (acc1 := acc) (V1 := V) (N1 := N) (b1 := b1); [exact HV|lia|exact HA|apply steps_nil| |clear -AV1; lia|exact SP]. rewrite ES. exact LS1. }
    specialize (DV ltac:(clear -FL RX; lia)). specialize (UQ DV).
    destruct (s <? 16) eqn:F16.
    { assert (EX : pre_lo s = 0) by (unfold pre_lo; rewrite F16; reflexivity). rewrite EX, Z.add_0_r in *. destruct (holds_set 1 lens acc s HO ltac:(clear -HI Rnl Rno; lia)) as [lens2 [E2 HO2]]. cbn [set_lens] in E2. destruct (wr lens (Z.of_nat (length acc)) (Some s)) as [lens2'| | |]; try discriminate. cbn [bind] in E2. injection E2 as ->.
      cbn [bind]. rewrite consumed_ok by (clear -FL L Rl; lia). cbn [bind]. replace (Z.of_nat (length acc) + 1) with (Z.of_nat (length (acc ++ [s]))) by (rewrite app_length; cbn; lia).
      eapply REC; [apply asteps_one, st_len; [exact HI|exact DV|clear -F16; lia|fold l; clear -FL LN; lia]|apply consume_ok; [exact B1|fold l; clear -FL Rl; lia]|exact HO2| |reflexivity|cbn [b_len]; fold l; clear -Rl; lia].
      apply Forall_app. split; [exact HA|]. constructor; [unfold len_ok; clear -F16 Rs; lia|constructor]. }
    assert (EN : Z.shiftr (extract b1 0 (l + pre_lo s)) l + precode_repeat e = pre_add s + V / 2 ^ l mod 2 ^ pre_lo s).
    { rewrite ER by (clear -F16; lia). rewrite (extract_V _ _ _ _ _ _ _ B1) by (clear -FL Rl RX; lia). change (2 ^ 0) with 1. rewrite Z.div_1_r, Z.shiftr_div_pow2 by (clear -Rl; lia). rewrite mod_div by (clear -Rl RX; lia). replace (l + pre_lo s - l) with (pre_lo s) by lia. lia. }
    rewrite EN. clear EN.
    assert (RPT : forall k v x, x = pre_lo s -> (Z.to_nat (pre_add s + V / 2 ^ l mod 2 ^ x) <= k)%nat -> (length acc + k <= 457)%nat -> len_ok v ->
       asteps (S acc V N) (S (acc ++ repeat v (Z.to_nat (pre_add s + V / 2 ^ l mod 2 ^ x))) (V / 2 ^ (l + x)) (N - (l + x))) ->
       exists r, (let* lens := set_lens k lens (Z.of_nat (length acc)) v in if Z.of_nat (length acc) + (pre_add s + V / 2 ^ l mod 2 ^ x) <? nl + no then lens_loop fuel pt T (nl + no) lens (Z.of_nat (length acc) + (pre_add s + V / 2 ^ l mod 2 ^ x)) (Bits (b_word b1 / 2 ^ (l + x)) (b_len b1 - (l + x)) (b_src b1)) else Ok (LensEnd lens (Z.of_nat (length acc) + (pre_add s + V / 2 ^ l mod 2 ^ x)) (Bits (b_word b1 / 2 ^ (l + x)) (b_len b1 - (l + x)) (b_src b1)))) = Ok r /\ lens_spec acc V N b r).
    { intros k v x -> HK HK2 OV St. destruct (holds_set k lens acc v HO HK2) as [lens2 [E2 HO2]]. rewrite E2. cbn [bind]. pose proof (holds_repeat _ _ _ _ _ HO2 HK) as HO3.
      assert (RM : 0 <= V / 2 ^ l mod 2 ^ pre_lo s) by (apply Z.mod_pos_bound, pow2_pos; clear -RX; lia). assert (RA : 0 <= pre_add s) by (unfold pre_add; destruct (s =? 18); lia).
      set (nn := pre_add s + V / 2 ^ l mod 2 ^ pre_lo s) in *. replace (Z.of_nat (length acc) + nn) with (Z.of_nat (length (acc ++ repeat v (Z.to_nat nn)))) by (rewrite app_length, repeat_length; clear -RM RA; subst nn; lia).
      eapply REC; [exact St|apply consume_ok; [exact B1|clear -FL Rl RX; lia]|exact HO3| |reflexivity|cbn [b_len]; clear -Rl RX; lia]. apply Forall_app. split; [exact HA|apply repeat_Forall, OV]. }
    assert (RMOD : forall x, 0 <= x -> 0 <= V / 2 ^ l mod 2 ^ x < 2 ^ x) by (intros; apply Z.mod_pos_bound, pow2_pos; assumption).
    destruct (s =? 16) eqn:F1.
    { assert (s = 16) by (clear -F1; lia). subst s. destruct (Z.of_nat (length acc) =? 0) eqn:F0.
      - eexists. split; [reflexivity|]. cbn [lens_spec]. clear -UQ F0 HI. apply stuck_dead; [discriminate|]. intros b2 St. unfold S in St. inversion St; subst; try lia; try (match goal with H : decodes pre V ?x |- _ => pose proof (UQ _ H); lia end).
        assert (acc = []) by (apply length_zero_iff_nil; lia). contradiction.
      - rewrite consumed_ok by (clear -FL L Rl RX; lia). cbn [bind]. assert (NE : acc <> []) by (intros ->; cbn in F0; lia). rewrite (holds_last lens acc HO NE) by (clear -HI Rnl Rno; lia). cbn [bind].
        specialize (RMOD 2 ltac:(lia)). change (2 ^ 2) with 4 in RMOD. apply (RPT 6%nat (last acc 0) 2 eq_refl); [change (pre_add 16) with 3; change (2 ^ 2) with 4; clear -RMOD; lia|clear -HI Rnl Rno; lia|apply last_Forall; [unfold len_ok; lia|exact HA]|].
        apply asteps_one. change (pre_add 16) with 3. change (2 ^ 2) with 4. apply st_repeat; [exact HI|exact DV|exact NE|]. fold l. change (pre_lo 16) with 2 in FL. clear -FL LN; lia. }
    destruct (s =? 17) eqn:F2.
    { assert (s = 17) by (clear -F2; lia). subst s. rewrite consumed_ok by (clear -FL L Rl RX; lia). cbn [bind].
      specialize (RMOD 3 ltac:(lia)). change (2 ^ 3) with 8 in RMOD. apply (RPT 10%nat 0 3 eq_refl); [change (pre_add 17) with 3; change (2 ^ 3) with 8; clear -RMOD; lia|clear -HI Rnl Rno; lia|unfold len_ok; lia|].
      apply asteps_one. change (pre_add 17) with 3. change (2 ^ 3) with 8. apply st_zeros; [exact HI|exact DV|]. fold l. change (pre_lo 17) with 3 in FL. clear -FL LN; lia. }
    { assert (s = 18) by (clear -F1 F2 F16 Rs; lia). subst s. rewrite consumed_ok by (clear -FL L Rl RX; lia). cbn [bind].
      specialize (RMOD 7 ltac:(lia)). change (2 ^ 7) with 128 in RMOD. apply (RPT (Z.to_nat (pre_add 18 + V / 2 ^ l mod 2 ^ 7)) 0 7 eq_refl); [apply Nat.le_refl|change (pre_add 18) with 11; change (2 ^ 7) with 128; clear -RMOD HI Rnl Rno; lia|unfold len_ok; lia|].
      apply asteps_one. change (pre_add 18) with 11. change (2 ^ 7) with 128. apply st_many_zeros; [exact HI|exact DV|]. fold l. change (pre_lo 18) with 7 in FL. clear -FL LN; lia. }
  Qed.
End Lens.

Lemma read_all acc : (fix read (l : list (option Z)) : outcome (list Z) := match l with [] => Ok [] | x :: t =>
      match x with None => UB | Some v => let* r := read t in Ok (v :: r) end end) (map Some acc) = Ok acc.
Proof. induction acc as [|x acc IH]; [reflexivity|]. cbn [map]. rewrite IH. reflexivity. Qed.

Lemma build_tables_ok jlit d b o lens acc : length jlit = 2342%nat -> length (d_off d) = 594%nat -> 257 <= d_nlit d <= 288 -> 1 <= d_noff d <= 32 -> Z.of_nat (length acc) = d_nlit d + d_noff d -> Forall len_ok acc -> firstn (length acc) lens = map Some acc ->
  let lit := firstn (Z.to_nat (d_nlit d)) acc in let off := skipn (Z.to_nat (d_nlit d)) acc in
  exists n, build_tables jlit d b o lens = Ok n /\
   ((exists d', n = NBad d' b o) /\ ~ (litlen_good lit /\ offset_good off) \/
    litlen_good lit /\ offset_good off /\ exists d', n = NCont d' b o /\ d_state d' = KDecompressHuffmanBlock /\ tables d' lit off /\ length (d_off d') = 594%nat /\ d_final d' = d_final d /\ d_norealloc d' = d_norealloc d /\ d_static d' = d_static d).
Proof.
  intros HJ HO R1 R2 HA HF HL lit off. unfold build_tables. replace (Z.to_nat (d_nlit d + d_noff d)) with (length acc) by lia. rewrite HL, read_all. cbn [bind].
  change kDecoderOffsetTableBits with 9. change kDecoderLitLenTableBits with 11. change kMaxCodeWordLen with 15. fold off lit.
  destruct (off_build off (d_off d) (Forall_skipn' _ _ _ HF) ltac:(unfold off; rewrite skipn_length; lia) HO) as [t1 [i1 [E1 [L1 Q1]]]]. rewrite E1. cbn [bind fst snd]. destruct Q1 as [[Q1 [Q2 _]]|[Q1 [Q2 Q3]]].
  { rewrite Q1. cbn [Z.eqb]. eexists. split; [reflexivity|]. left. split; [eexists; reflexivity|tauto]. }
  replace (ti_bits i1 =? 0) with false by lia. cbn [set_off d_nlit]. fold lit.
  assert (LK : lens_ok lit) by (split; [apply Forall_firstn', HF|unfold lit; rewrite firstn_length; lia]). destruct (lit_build lit jlit LK HJ) as [t2 [i2 [E2 [L2 P1]]]]. rewrite E2. cbn [bind fst snd]. destruct P1 as [[P1 [P2 _]]|[P1 [P2 [P3 _]]]].
  { rewrite P1. cbn [Z.eqb]. eexists. split; [reflexivity|]. left. split; [eexists; reflexivity|tauto]. }
  replace (ti_bits i2 =? 0) with false by lia. eexists. split; [reflexivity|]. right. split; [exact P1|]. split; [exact Q1|]. eexists. split; [reflexivity|]. split; [reflexivity|]. split; [|split; [exact L1|auto]].
  exists t2. cbn [set_state set_lit set_off d_union d_linfo d_oinfo d_off]. auto.
Qed.

Lemma static_ok fut jlit d b m o a : rel d b m o a fut -> length jlit = 2342%nat -> d_state d = KStaticHuffmanHeader -> exists n, static_header jlit d b o = Ok n /\ next_spec d b o a fut n.
Proof.
  intros R HJ ES. pose proof R as [B RM RO ROK RF RNF ROFF RST RW RT RS]. unfold mode_rel in RM. rewrite ES in RM. destruct a as [am f V N out]. cbn [a_mode a_V a_N a_out a_final] in *. destruct am; try contradiction. destruct RM as [-> ->].
  assert (G : forall d', d_state d' = KDecompressHuffmanBlock -> tables d' static_lit static_off -> length (d_off d') = 594%nat -> d_final d' = d_final d -> d_norealloc d' = d_norealloc d -> next_spec d b o (A (ASyms static_lit static_off) f V N out) fut (NCont d' b o)).
  { intros d' D1 D2 D3 D4 D5. exists (A (ASyms static_lit static_off) f V N out), m. split; [apply steps_nil|]. split; [|split; [exact D5|]].
    - eapply rel_step; [exact R|apply steps_nil|exact B| |exact RO|exact ROK|cbn [a_final]; congruence|intros [?|?]; discriminate|exact D3|intros _; exact D2|lia]. unfold mode_rel. rewrite D1. exact D2.
    - unfold mu, rank. rewrite D1, ES. destruct (o_room o <? 258); lia. }
  unfold static_header. destruct (d_static d) eqn:FS.
  - eexists. split; [reflexivity|]. apply G; try reflexivity; [exact (RST eq_refl)|exact ROFF].
  - pose proof static_wf as [W1 [W2 [W3 [W4 [W5 W6]]]]].
    destruct (build_tables_ok jlit (set_counts (set_flags d true false) 288 32) b o static_lens (static_lit ++ static_off) HJ ROFF ltac:(cbn; lia) ltac:(cbn; lia) eq_refl ltac:(apply Forall_app; split; assumption) eq_refl) as [n [E Q]].
    exists n. split; [exact E|]. cbn [set_counts d_nlit] in Q. change (firstn (Z.to_nat 288) (static_lit ++ static_off)) with static_lit in Q. change (skipn (Z.to_nat 288) (static_lit ++ static_off)) with static_off in Q.
    destruct Q as [[_ Q]|[_ [_ [d' [-> [D1 [D2 [D3 [D4 [D5 D6]]]]]]]]]]; [exfalso; apply Q; split; assumption|]. apply G; assumption.
Qed.

Lemma lens_ok_state fut jlit d b m o a : rel d b m o a fut -> length jlit = 2342%nat -> d_state d = KDynamicHuffmanLitLenOffsetCodes -> exists n, litlen_offset_codes jlit d b o = Ok n /\ next_spec d b o a fut n.
Proof.
  intros R HJ ES. pose proof R as [B RM RO ROK RF RNF ROFF RST RW RT RS]. unfold mode_rel in RM. rewrite ES in RM. destruct a as [am f V N out]. cbn [a_mode a_V a_N a_out a_final] in *. destruct am; try contradiction.
  destruct RM as [M1 [M2 [M3 [M4 [M5 [lens [pt [M6 [M7 [M8 [M9 [M10 M11]]]]]]]]]]]]. pose proof RW as [W0 [WV WN]]. cbn [a_mode wf_mode a_N a_V] in W0, WN, WV. destruct W0 as [W1 [W2 [W3 [W4 [W5 W6]]]]].
  unfold litlen_offset_codes. rewrite M6, M1, M2, M3. pose proof (bo_len _ _ _ _ _ B) as L.
  destruct (lens_loop_ok f nl no pre out fut pt _ W1 W2 W3 W4 W6 M9 M10 M11 (S (Z.to_nat (b_len b) + 16 * length (b_src b))) acc V N m b lens B W5 (conj M7 M8) M5 ltac:(lia)) as [r [E SP]]. rewrite E. cbn [bind]. clear E.
  assert (RNG : wf (A (ALens nl no pre acc) f V N out)) by exact RW.
  destruct r as [lens' i b'|lens' b'|lens' i b']; cbn [lens_spec] in SP.
  - destruct SP as [acc' [V' [N' [m' [S1 [B1 [Ei [Hi [[HO1 HO2] [ES1 HD]]]]]]]]]]. eexists. split; [reflexivity|]. eexists _, m'. split; [exact S1|]. split; [|split; [reflexivity|split; [exact ES1|exact HD]]].
    eapply rel_step; [exact R|exact S1|exact B1| |exact RO|exact ROK|exact RF|intros [?|?]; discriminate|exact ROFF| |rewrite ES1; cbn; lia].
    + unfold mode_rel. cbn [set_work set_union d_state d_nlit d_noff d_wi d_union d_static d_pinfo a_mode]. rewrite ES. split; [exact M1|]. split; [exact M2|]. split; [exact Ei|]. split; [exact M4|]. split; [lia|]. exists lens', pt. auto 10.
    + cbn [set_work set_union d_static]. rewrite M4. discriminate.
  - eexists. split; [reflexivity|]. exact SP.
  - destruct SP as [acc' [V' [N' [m' [S1 [B1 [Ei [Hi [[HO1 HO2] [LS AV]]]]]]]]]]. destruct (asteps_rel_tame _ _ _ _ _ _ _ R S1) as [[W0 _] _]. cbn [a_mode wf_mode] in W0. destruct W0 as [_ [_ [_ [_ [W7 _]]]]].
    destruct (i =? nl + no) eqn:FI; cbn [negb].
    2:{ eexists. split; [reflexivity|]. cbn [next_spec]. eapply dead_back; [exact RW|exact S1|]. apply stuck_dead; [discriminate|]. intros b2 St. clear -St FI Hi Ei. inversion St; subst; lia. }
    set (d1 := set_union d (SLens lens' pt)).
    destruct (build_tables_ok jlit d1 b' o lens' acc' HJ ROFF) as [n [E Q]]; [subst d1; cbn; lia|subst d1; cbn; lia|subst d1; cbn; lia|exact W7|exact HO2|]. exists n. split; [exact E|]. subst d1. cbn [set_union d_nlit] in Q. rewrite M1 in Q.
    destruct Q as [[[d' ->] Q]|[G1 [G2 [d' [-> [D1 [D2 [D3 [D4 [D5 D6]]]]]]]]]].
    + cbn [next_spec]. eapply dead_back; [exact RW|exact S1|]. apply stuck_dead; [discriminate|]. intros b2 St. clear -St FI Hi Ei Q. inversion St; subst; try lia. apply Q. split; assumption.
    + pose proof (st_lens_end f V' N' out nl no pre acc' ltac:(lia) G1 G2) as St. pose proof (asteps_trans _ _ _ S1 (asteps_one _ _ St)) as S2. eexists _, m'. split; [exact S2|]. split; [|split; [exact D5|]].
      * eapply rel_step; [exact R|exact S2|exact B1| |exact RO|exact ROK|cbn in D4; cbn [a_final]; congruence|intros [?|?]; discriminate|exact D3| |exact LS].
        -- unfold mode_rel. rewrite D1. exact D2.
        -- rewrite D6. cbn [set_union d_static]. rewrite M4. discriminate.
      * unfold mu, rank. rewrite D1, ES. destruct (o_room o <? 258); lia.
Qed.
