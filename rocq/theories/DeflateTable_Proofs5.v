(* build_decode_table as a whole (deflatedecoder.cpp 249-500). *)
From Verif Require Import Base Bits Algorithm_Spec Algorithm_Model Algorithm_Proofs Deflate_Spec DeflateTable_Model DeflateTable_Proofs DeflateTable_Proofs2 DeflateTable_Proofs3 DeflateTable_Proofs4.

Lemma used_of_cons x t l : len_ok x -> used_of (x :: t) l = used_of t l + (if (1 <=? x) && (x <=? Z.of_nat l) then 2 ^ (Z.of_nat l - x) else 0).
Proof.
  intros Hx. unfold len_ok in Hx. induction l as [|l IH].
  - cbn. replace ((1 <=? x) && (x <=? 0)) with false by lia. reflexivity.
  - cbn [used_of]. rewrite IH, count_len_cons. rewrite Nat2Z.inj_succ. unfold Z.succ.
    destruct (Z.eqb_spec x (Z.of_nat l + 1)) as [->|Hne].
    + replace (Z.of_nat l + 1 <=? Z.of_nat l) with false by lia. rewrite andb_false_r.
      replace ((1 <=? Z.of_nat l + 1) && (Z.of_nat l + 1 <=? Z.of_nat l + 1)) with true by lia.
      rewrite Z.sub_diag. change (2 ^ 0) with 1. lia.
    + replace ((1 <=? x) && (x <=? Z.of_nat l + 1)) with ((1 <=? x) && (x <=? Z.of_nat l)) by lia.
      destruct ((1 <=? x) && (x <=? Z.of_nat l)) eqn:E; [|lia].
      replace (Z.of_nat l + 1 - x) with (Z.succ (Z.of_nat l - x)) by lia. rewrite Z.pow_succ_r by lia. lia.
Qed.

Lemma used_of_space lens M : (M <= 15)%nat -> Forall len_ok lens -> Forall (fun l => l <= Z.of_nat M) lens ->
  used_of lens M * 2 ^ (15 - Z.of_nat M) = code_space lens.
Proof.
  intros HM H. induction H as [|x t Hx Ht IH]; intros HF.
  - cbn [code_space]. replace (used_of [] M) with 0; [reflexivity|]. clear. induction M; [reflexivity|]. cbn [used_of]. rewrite <- IHM. reflexivity.
  - inversion_clear HF. rewrite used_of_cons by auto. cbn [code_space]. rewrite <- IH by auto. unfold len_ok in Hx.
    destruct (Z.eqb_spec x 0) as [->|Hne].
    + cbn [andb]. replace ((1 <=? 0) && (0 <=? Z.of_nat M)) with false by lia. lia.
    + replace ((1 <=? x) && (x <=? Z.of_nat M)) with true by lia. rewrite Z.mul_add_distr_r, <- Z.pow_add_r by lia.
      replace (Z.of_nat M - x + (15 - Z.of_nat M)) with (15 - x) by lia. lia.
Qed.

Lemma used_of_ksum lens l : (l <= 15)%nat -> used_of lens l * 2 ^ (15 - Z.of_nat l) = ksum lens (levels lens 1 l).
Proof.
  induction l as [|l IH]; intros H; [reflexivity|]. cbn [used_of]. rewrite levels_snoc, ksum_app, <- IH by lia.
  rewrite (ksum_level lens (S l) (level lens (1 + l))) by (intros s Hs; apply level_in in Hs; apply Hs).
  cbn [Nat.add]. rewrite level_length.
  replace (15 - Z.of_nat l) with (Z.succ (15 - Z.of_nat (S l))) by lia. rewrite Z.pow_succ_r by lia. ring.
Qed.

Lemma ksum_space lens : Forall len_ok lens -> ksum lens (sorted_syms lens) = code_space lens.
Proof.
  intros H. rewrite <- (used_of_space lens 15); [|lia|exact H|].
  - unfold sorted_syms. rewrite used_of_ksum by lia. reflexivity.
  - eapply Forall_impl; [|exact H]. unfold len_ok. cbn. lia.
Qed.

Lemma has_len_in lens l : has_len lens l = true <-> In l lens.
Proof.
  unfold has_len. rewrite existsb_exists. split; [intros [x [Hx E]]; apply Z.eqb_eq in E; now subst|intros H; exists l; split; [exact H|apply Z.eqb_refl]].
Qed.

Lemma firstn_in {A} (x : A) n l : In x (firstn n l) -> In x l.
Proof. intros H. rewrite <- (firstn_skipn n l). apply in_or_app. now left. Qed.

(* the literals (symbols below 256) that have a code of k bits *)
Definition lit_mask_ok (lens : list Z) (m : Z) : Prop :=
  0 <= m /\ forall k, 0 <= k -> Z.testbit m k = (1 <=? k) && has_len (firstn 256 lens) k.

(* everything before the case distinction *)
Lemma build_unfold t lens results mtb maxlen ty : lens_ok lens -> 1 <= maxlen <= 15 -> Forall (fun l => l <= maxlen) lens ->
  exists counts M lm tl, (1 <= M <= 15)%nat /\ Z.of_nat M <= maxlen /\ Forall (fun l => l <= Z.of_nat M) lens /\
    lit_mask_ok lens lm /\ length counts = 16%nat /\ (forall l, len_ok l -> elem_at counts l = Some (count_len lens l)) /\
    build_decode_table t lens results mtb maxlen ty =
    let max_len := Z.of_nat M in
    let tbits := Z.max (Z.min mtb max_len) 1 in
    let used := used_of lens M in
    let syms := map Some (sorted_syms lens) ++ tl in
    let info := TableInfo tbits max_len lm in
    if 2 ^ max_len <? used then Ok (t, no_info)
    else if used <? 2 ^ max_len then
      let invalid := make_top_entry invalid_result 1 in
      if used =? 0 then
        if is_offset_type ty then
          let* t := fill_pairs (Z.to_nat (2 ^ (tbits - 1))) t 0 invalid invalid in Ok (t, info)
        else Ok (t, no_info)
      else if is_precode_type ty then Ok (t, no_info)
      else
        let* c1 := rd counts 1 in
        if negb (used =? 2 ^ (max_len - 1)) || negb (c1 =? 1) then Ok (t, no_info)
        else
          let* s := rdi syms 0 in
          let* r := rd results s in
          let* t := fill_pairs (Z.to_nat (2 ^ (tbits - 1))) t 0 (make_top_entry r 1) invalid in Ok (t, info)
    else
      let* lc := first_len 16 counts 1 in
      let (len, count) := lc in
      let* mr := fill_main (S (length lens)) counts results tbits t syms 0 len count (2 ^ len) in
      match mr with
      | (t, None) => Ok (t, info)
      | (t, Some (syms, codeword, len, count)) =>
        let* t := fill_sub (S (length lens)) counts results tbits t syms codeword len count (2 ^ tbits) 0 (-1) in
        Ok (t, info)
      end.
Proof.
  intros [HL HN] Hmax HFmax.
  destruct (count_lens_ok lens 0 (repeat 0 16) 0 0 HL) as [counts [lm [tm [E [Lc [Hc [Hlm [Nlm [Htm Ntm]]]]]]]]].
  { reflexivity. }
  { intros l Hl. exists 0. split; [|split; [lia|]].
    - unfold len_ok in Hl. unfold elem_at. replace (l <? 0) with false by lia. apply nth_error_repeat. lia.
    - change (2 ^ 32) with 4294967296. lia. }
  assert (Hcounts : forall l, len_ok l -> elem_at counts l = Some (count_len lens l)).
  { intros l Hl. destruct (Hc l Hl) as [c [E0 E1]]. rewrite E1. f_equal.
    unfold len_ok in Hl. unfold elem_at in E0. replace (l <? 0) with false in E0 by lia. rewrite nth_error_repeat in E0 by lia. injection E0 as <-. lia. }
  specialize (Nlm ltac:(lia)). specialize (Ntm ltac:(lia)).
  assert (Hlog : forall x, In x lens -> x <= Z.log2 (Z.lor lm 1)).
  { intros x Hx. rewrite Forall_forall in HL. pose proof (HL x Hx) as R. unfold len_ok in R.
    assert (P : 0 < Z.lor lm 1).
    { assert (0 <= Z.lor lm 1) by (apply Z.lor_nonneg; lia). destruct (Z.eq_dec (Z.lor lm 1) 0) as [C|]; [|lia].
      apply Z.lor_eq_0_iff in C. lia. }
    apply Z.log2_le_pow2; [exact P|].
    destruct (Z_lt_ge_dec (Z.lor lm 1) (2 ^ x)) as [C|]; [exfalso|lia].
      assert (Tb : Z.testbit (Z.lor lm 1) x = true).
      { rewrite Z.lor_spec, Hlm by lia. rewrite (proj2 (has_len_in lens x) Hx). rewrite orb_true_r. reflexivity. }
      rewrite (testbit_small (Z.lor lm 1) x x) in Tb; [discriminate| |lia]. split; [apply Z.lor_nonneg; lia|exact C]. }
  set (Mz := Z.min maxlen (Z.log2 (Z.lor lm 1) + 1)).
  assert (HMz : 1 <= Mz <= maxlen) by (unfold Mz; pose proof (Z.log2_nonneg (Z.lor lm 1)); lia).
  assert (HFM : Forall (fun l => l <= Mz) lens).
  { apply Forall_forall. intros x Hx. rewrite Forall_forall in HFmax. pose proof (HFmax x Hx). pose proof (Hlog x Hx). unfold Mz. cbn beta in *. lia. }
  assert (EM : Mz = Z.of_nat (Z.to_nat Mz)) by lia. set (M := Z.to_nat Mz) in *.
  assert (HFM' : Forall (fun l => l <= Z.of_nat M) lens) by (rewrite <- EM; exact HFM).
  destruct (len_offsets_ok lens counts HN Lc Hcounts (M - 1) 1 (Some 0 :: Some (count_len lens 0) :: repeat None 14)) as [offs [Eo [Lo Ho]]].
  { lia. } { lia. } { reflexivity. }
  { intros l Hl. assert (l = 0 \/ l = 1)%nat as [->| ->] by lia; [reflexivity|]. cbn [base_of]. unfold elem_at. cbn. reflexivity. }
  destruct (sort_syms_ok lens M (conj HL HN) ltac:(lia) HFM' lens [] offs (repeat None 288)) as [offs' [data' [Es [Ld [E0 Hd]]]]].
  { reflexivity. } { exact Lo. } { apply repeat_length. }
  { intros l Hl. cbn. rewrite Z.add_0_r. apply Ho. lia. }
  { intros l r s _ C. destruct r; discriminate. }
  destruct (sorted_prefix lens data' Ld HN) as [tl Etl].
  { intros l r s Hl Hs. destruct (le_gt_dec l M); [apply Hd; auto|]. exfalso.
    assert (Hin : In s (level lens l)) by (eapply nth_error_In; exact Hs). apply level_in in Hin. destruct Hin as [R1 R2].
    rewrite Forall_forall in HFM. specialize (HFM (len_of lens s)). cbn beta in HFM.
    assert (In (len_of lens s) lens) by (unfold len_of; apply nth_In; lia). specialize (HFM H). lia. }
  exists counts, M, (Z.land tm 4294967294), tl.
  split; [lia|]. split; [lia|]. split; [exact HFM'|]. split.
  { split; [apply Z.land_nonneg; lia|]. intros k Hk. rewrite Z.land_spec, Htm by lia. cbn [Z.sub].
    rewrite Z.bits_0, orb_false_l. change (Z.to_nat (256 - 0)) with 256%nat.
    change 4294967294 with (2 * Z.ones 31). destruct (Z.eqb_spec k 0) as [->|Hk0].
    - rewrite Z.testbit_even_0, andb_false_r. reflexivity.
    - replace (1 <=? k) with true by lia. cbn [andb].
      replace k with (Z.succ (k - 1)) at 2 by lia. rewrite Z.testbit_even_succ by lia.
      destruct (Z_lt_ge_dec k 32); [rewrite Z.ones_spec_low by lia; apply andb_true_r|].
      rewrite Z.ones_spec_high by lia. rewrite andb_false_r. destruct (has_len (firstn 256 lens) k) eqn:C; [|reflexivity].
      apply has_len_in in C. apply firstn_in in C. rewrite Forall_forall in HL. specialize (HL k C). unfold len_ok in HL. lia. }
  split; [exact Lc|]. split; [exact Hcounts|].
  unfold build_decode_table. rewrite E. cbn [bind]. fold Mz. rewrite EM.
  rewrite (rd_elem _ _ _ (Hcounts 0 ltac:(unfold len_ok; lia))). cbn [bind].
  replace (Z.to_nat (Z.of_nat M - 1)) with (M - 1)%nat by lia.
  change (Z.of_nat 1) with 1 in Eo. change (used_of lens (1 - 1)) with 0 in Eo. replace (1 + (M - 1))%nat with M in Eo by lia.
  rewrite Eo. cbn [bind].
  change (Z.of_nat (length (@nil Z))) with 0 in Es. change (Z.to_nat kMaxSymbolCount) with 288%nat. rewrite Es. cbn [bind].
  rewrite (rdi_elem _ _ _ E0). cbn [bind]. rewrite Etl. reflexivity.
Qed.

Lemma first_len_ok lens counts : (forall l, len_ok l -> elem_at counts l = Some (count_len lens l)) ->
  forall fuel a, (1 <= a <= 15)%nat -> (16 - a < fuel)%nat -> levels lens a (16 - a) <> [] ->
  exists n, (a <= n <= 15)%nat /\ first_len fuel counts (Z.of_nat a) = Ok (Z.of_nat n, Z.of_nat (length (level lens n))) /\
    level lens n <> [] /\ levels lens a (16 - a) = level lens n ++ levels lens (S n) (15 - n).
Proof.
  intros Hc. induction fuel as [|fuel IH]; intros a Ha Hf Hne; [lia|]. cbn [first_len].
  rewrite (rd_elem _ _ _ (Hc (Z.of_nat a) ltac:(unfold len_ok; lia))). cbn [bind]. rewrite <- level_length.
  replace (16 - a)%nat with (S (15 - a)) in Hne |- * by lia. rewrite levels_S in Hne |- *.
  destruct (Z.eqb_spec (Z.of_nat (length (level lens a))) 0) as [E|E].
  - assert (En : level lens a = []) by (destruct (level lens a); [reflexivity|cbn [length] in E; lia]).
    rewrite En in Hne |- *. cbn [app] in Hne |- *.
    assert (a < 15)%nat by (destruct (Nat.eq_dec a 15) as [->|]; [exfalso; apply Hne; reflexivity|lia]).
    replace (15 - a)%nat with (16 - S a)%nat in Hne |- * by lia. replace (Z.of_nat a + 1) with (Z.of_nat (S a)) by lia.
    destruct (IH (S a)) as [n [R [E1 [N1 E2]]]]; [lia|lia|exact Hne|]. exists n. split; [lia|]. auto.
  - exists a. split; [lia|]. split; [reflexivity|]. split; [|reflexivity]. intros C. rewrite C in E. cbn in E. lia.
Qed.

Section Complete.
  Context (lens : list Z) (Hok : lens_ok lens) (Hcomplete : complete_code lens).
  Notation ks := (ksum lens).

  Lemma complete_ksum : ks (sorted_syms lens) = 2 ^ 15.
  Proof. rewrite ksum_space by apply Hok. exact Hcomplete. Qed.

  (* a proper prefix of m codes leaves at least 2^-m of the code space *)
  Lemma prefix_room : forall d r, sorted_syms lens = d ++ r -> r <> [] -> 2 ^ 15 <= (2 ^ 15 - ks d) * 2 ^ Z.of_nat (length d).
  Proof.
    induction d as [|s d IH] using rev_ind; intros r E Hr; [cbn; lia|].
    rewrite <- app_assoc in E. cbn [app] in E. pose proof (IH (s :: r) E ltac:(discriminate)) as I.
    pose proof (huff_code_ksum lens d s r E) as HK.
    assert (Hs : In s (sorted_syms lens)) by (rewrite E; apply in_elt). pose proof (wt_ge1 lens s Hs) as W.
    apply sorted_in in Hs. destruct Hs as [_ Rl].
    assert (E15 : 2 ^ 15 = 2 ^ len_of lens s * wt lens s) by (unfold wt; rewrite <- Z.pow_add_r by lia; f_equal; lia).
    pose proof complete_ksum as C. rewrite E, ksum_app in C. cbn [ksum] in C.
    assert (Rr : 0 < ks r).
    { destruct r as [|x r]; [congruence|]. cbn [ksum]. pose proof (ksum_nonneg lens r).
      assert (In x (sorted_syms lens)) by (rewrite E; apply in_or_app; right; right; now left). pose proof (wt_ge1 lens x H0). lia. }
    rewrite ksum_app, app_length. cbn [ksum length]. rewrite Z.add_0_r, Nat2Z.inj_add, Z.pow_add_r by lia. change (2 ^ Z.of_nat 1) with 2.
    assert (Hhalf : 2 ^ 15 - ks d <= 2 * (2 ^ 15 - (ks d + wt lens s))).
    { rewrite <- HK. rewrite <- HK in C. rewrite E15 in *. set (w := wt lens s) in *. set (h := huff_code lens s) in *. set (p := 2 ^ len_of lens s) in *.
      assert (h + 1 < p) by (clear - C Rr W; nia). clear - H W. nia. }
    pose proof (pow2_pos (Z.of_nat (length d)) ltac:(lia)) as P. clear - I Hhalf P. nia.
  Qed.

  Lemma ksum_long k ss : (forall s, In s ss -> k < len_of lens s <= 15) -> 0 <= k -> ks ss <= Z.of_nat (length ss) * 2 ^ (14 - k).
  Proof.
    intros H Hk. induction ss as [|s ss IH]; [cbn; lia|]. cbn [ksum length]. specialize (IH ltac:(intros; apply H; now right)).
    pose proof (H s ltac:(now left)). unfold wt at 1.
    assert (2 ^ (15 - len_of lens s) <= 2 ^ (14 - k)) by (apply Z.pow_le_mono_r; lia). lia.
  Qed.

  (* the number of symbols in subtables *)
  Lemma subs_bound T done r : (T <= 14)%nat -> sorted_syms lens = done ++ r -> r <> [] -> (forall s, In s r -> Z.of_nat T < len_of lens s) ->
    2 ^ (Z.of_nat T + 1) <= Z.of_nat (length r) * 2 ^ Z.of_nat (length done).
  Proof.
    intros HT E Hr Hl. pose proof (prefix_room done r E Hr) as P.
    assert (K : ks r = 2 ^ 15 - ks done) by (pose proof complete_ksum as C; rewrite E, ksum_app in C; lia).
    rewrite <- K in P.
    assert (L : ks r <= Z.of_nat (length r) * 2 ^ (14 - Z.of_nat T)).
    { apply ksum_long; [|lia]. intros s Hs. split; [apply Hl; exact Hs|].
      assert (In s (sorted_syms lens)) by (rewrite E; apply in_or_app; now right). apply sorted_in in H. lia. }
    assert (E15 : 2 ^ 15 = 2 ^ (Z.of_nat T + 1) * 2 ^ (14 - Z.of_nat T)) by (rewrite <- Z.pow_add_r by lia; f_equal; lia).
    pose proof (pow2_pos (14 - Z.of_nat T) ltac:(lia)). pose proof (pow2_pos (Z.of_nat (length done)) ltac:(lia)).
    rewrite E15 in P. set (a := 2 ^ (Z.of_nat T + 1)) in *. set (b := 2 ^ (14 - Z.of_nat T)) in *. set (c := 2 ^ Z.of_nat (length done)) in *.
    clear - P L H H0. assert (a * b <= Z.of_nat (length r) * b * c) by nia. nia.
  Qed.

  (* the table never needs more entries than it has *)
  Definition fits (T cap : nat) : Prop :=
    2 ^ Z.of_nat T <= Z.of_nat cap /\
    forall done r, sorted_syms lens = done ++ r -> r <> [] -> (forall s, In s r -> Z.of_nat T < len_of lens s) ->
    forall E, Z.even E = true -> E <= Z.of_nat (length r) + waste (15 - Z.of_nat T) - 1 -> 2 ^ Z.of_nat T + E <= Z.of_nat cap.

  Lemma sorted_length : Z.of_nat (length (sorted_syms lens)) <= Z.of_nat (length lens).
  Proof.
    assert (incl (sorted_syms lens) (map Z.of_nat (seq 0 (length lens)))).
    { intros s Hs. apply sorted_in in Hs. apply in_map_iff. exists (Z.to_nat s). rewrite in_seq. lia. }
    apply NoDup_incl_length in H; [|apply sorted_nodup]. rewrite map_length, seq_length in H. lia.
  Qed.

  Lemma even_le E n : Z.even E = true -> Z.even n = true -> E <= n + 1 -> E <= n.
  Proof. intros H1 H2 H. apply Z.even_spec in H1, H2. destruct H1, H2. lia. Qed.

  Lemma fits_litlen : fits 11 2342.
  Proof.
    split; [vm_compute; discriminate|]. intros done r E Hr Hl Ev He Hb.
    pose proof (subs_bound 11 done r ltac:(lia) E Hr Hl) as SB. pose proof sorted_length as SL. rewrite E, app_length in SL. destruct Hok as [_ HN].
    change (2 ^ (Z.of_nat 11 + 1)) with 4096 in SB. change (waste (15 - Z.of_nat 11)) with 12 in Hb. change (2 ^ Z.of_nat 11) with 2048.
    change (Z.of_nat 2342) with 2342.
    assert (Hm : (4 <= length done)%nat).
    { destruct (le_gt_dec 4 (length done)); [assumption|exfalso].
      assert (2 ^ Z.of_nat (length done) <= 2 ^ 3) by (apply Z.pow_le_mono_r; lia). change (2 ^ 3) with 8 in H. nia. }
    assert (Ev <= 294) by (apply even_le; [exact He|reflexivity|lia]). lia.
  Qed.

  Lemma fits_offset : (length lens <= 32)%nat -> fits 9 594.
  Proof.
    intros HN. split; [vm_compute; discriminate|]. intros done r E Hr Hl Ev He Hb.
    pose proof (subs_bound 9 done r ltac:(lia) E Hr Hl) as SB. pose proof sorted_length as SL. rewrite E, app_length in SL.
    change (2 ^ (Z.of_nat 9 + 1)) with 1024 in SB. change (waste (15 - Z.of_nat 9)) with 58 in Hb. change (2 ^ Z.of_nat 9) with 512.
    change (Z.of_nat 594) with 594.
    assert (Hm : (6 <= length done)%nat).
    { destruct (le_gt_dec 6 (length done)); [assumption|exfalso].
      assert (2 ^ Z.of_nat (length done) <= 2 ^ 5) by (apply Z.pow_le_mono_r; lia). change (2 ^ 5) with 32 in H.
      destruct (Nat.eq_dec (length done) 0) as [Z0|]; [rewrite Z0 in SB; change (2 ^ Z.of_nat 0) with 1 in SB; lia|]. nia. }
    assert (Ev <= 82) by (apply even_le; [exact He|reflexivity|lia]). lia.
  Qed.

  (* smaller tables have no subtables *)
  Lemma fits_small T cap : 2 ^ Z.of_nat T <= Z.of_nat cap -> Forall (fun l => l <= Z.of_nat T) lens -> fits T cap.
  Proof.
    intros H HF. split; [exact H|]. intros done r E Hr Hl. exfalso. destruct r as [|s r]; [congruence|].
    pose proof (Hl s ltac:(now left)) as L. assert (Hs : In s (sorted_syms lens)) by (rewrite E; apply in_elt). apply sorted_in in Hs.
    rewrite Forall_forall in HF. specialize (HF (len_of lens s)). cbn beta in HF.
    assert (In (len_of lens s) lens) by (unfold len_of; apply nth_In; lia). specialize (HF H0). lia.
  Qed.

  Lemma build_complete t results res cap mtb maxlen ty :
    1 <= maxlen <= 15 -> Forall (fun l => l <= maxlen) lens -> 1 <= mtb <= 15 ->
    (forall s, 0 <= s < Z.of_nat (length lens) -> elem_at results s = Some (res s)) -> length t = cap ->
    (forall T, (1 <= T)%nat -> Z.of_nat T <= mtb -> (Z.of_nat T = mtb \/ Forall (fun l => l <= Z.of_nat T) lens) -> fits T cap) ->
    exists T M lm t', (1 <= T <= 15)%nat /\ Z.of_nat T <= mtb /\ (T <= M <= 15)%nat /\ Forall (fun l => l <= Z.of_nat M) lens /\ lit_mask_ok lens lm /\
      (Z.of_nat T = mtb \/ Forall (fun l => l <= Z.of_nat T) lens) /\
      build_decode_table t lens results mtb maxlen ty = Ok (t', TableInfo (Z.of_nat T) (Z.of_nat M) lm) /\ length t' = cap /\ final_ok lens res T cap t'.
  Proof.
    intros Hmax HFmax Hmtb Hres Hlen Hfit.
    destruct (build_unfold t lens results mtb maxlen ty Hok Hmax HFmax) as [counts [M [lm [tl [RM [HMmax [HFM [Hlm [Lc [Hcounts EB]]]]]]]]]].
    set (T := Z.to_nat (Z.min mtb (Z.of_nat M))).
    assert (ET : Z.max (Z.min mtb (Z.of_nat M)) 1 = Z.of_nat T) by lia.
    assert (RT : (1 <= T <= 15)%nat) by lia.
    exists T, M, lm.
    assert (HTM : Z.of_nat T = mtb \/ Forall (fun l => l <= Z.of_nat T) lens).
    { destruct (Z_le_gt_dec mtb (Z.of_nat M)); [left; lia|right]. replace T with M by lia. exact HFM. }
    destruct (Hfit T ltac:(lia) ltac:(lia) HTM) as [Hcap1 Hcap2].
    pose proof (used_of_space lens M ltac:(lia) (proj1 Hok) HFM) as US. unfold complete_code in Hcomplete. rewrite Hcomplete in US.
    assert (EU : used_of lens M = 2 ^ Z.of_nat M).
    { rewrite (pow2_split 15 (15 - Z.of_nat M)) in US by lia. replace (15 - (15 - Z.of_nat M)) with (Z.of_nat M) in US by lia.
      pose proof (pow2_pos (15 - Z.of_nat M) ltac:(lia)). nia. }
    cbv zeta in EB. rewrite ET, EU, Z.ltb_irrefl in EB. pose proof complete_ksum as CK.
    assert (Hne : sorted_syms lens <> []) by (intros C; rewrite C in CK; cbn in CK; lia).
    destruct (first_len_ok lens counts Hcounts 16 1 ltac:(lia) ltac:(lia) Hne) as [n [Rn [E1 [N1 Es]]]].
    change (Z.of_nat 1) with 1 in E1. rewrite E1 in EB. cbn [bind] in EB.
    change (levels lens 1 (16 - 1)) with (sorted_syms lens) in Es.
    assert (A0 : at_code lens [] (level lens n) n 0).
    { constructor; [lia|exact Es|exact N1|exists []; reflexivity|pose proof (pow2_pos (Z.of_nat n) ltac:(lia)); lia|].
      cbn [ksum]. replace (read_code n 0) with 0; [reflexivity|]. clear. induction n; [reflexivity|]. cbn [read_code]. rewrite <- IHn, Z.bits_0. reflexivity. }
    pose proof sorted_length as SL.
    destruct (fill_main_ok lens res counts results T cap Hcounts Hres RT Hcap1 CK tl (S (length lens)) [] (level lens n) n 0 t A0) as [t1 [L1 [[F1 MO]|[done [cur [n' [x' [F1 [A1 [Hn' [MO HF1]]]]]]]]]]].
    { rewrite <- Es. lia. } { exact Hlen. } { apply main_ok_nil. } { constructor. }
    - exists t1. split; [exact RT|]. split; [lia|]. split; [lia|]. split; [exact HFM|]. split; [exact Hlm|]. split; [exact HTM|].
      assert (F2 : fill_main (S (length lens)) counts results (Z.of_nat T) t (map Some (sorted_syms lens) ++ tl) 0 (Z.of_nat n) (Z.of_nat (length (level lens n))) (2 ^ Z.of_nat n) = Ok (t1, None)).
      { destruct (le_gt_dec n T) as [H|H].
        - replace (min n T) with n in F1 by lia. rewrite Es. exact F1.
        - exfalso. cbn [fill_main] in F1. replace (Z.of_nat n <=? Z.of_nat T) with false in F1 by lia. discriminate. }
      rewrite F2 in EB. split; [exact EB|]. split; [exact L1|].
      intros i Hi. left. unfold direct, pt. destruct (MO i Hi) as [d [s [r [E [L [I1 [I2 E2]]]]]]].
      { rewrite CK. pose proof (rc_range T i). rewrite (pow2_split 15 (15 - Z.of_nat T)) by lia. replace (15 - (15 - Z.of_nat T)) with (Z.of_nat T) by lia.
        pose proof (pow2_pos (15 - Z.of_nat T) ltac:(lia)). nia. }
      exists d, s, r. auto.
    - assert (F2 : fill_main (S (length lens)) counts results (Z.of_nat T) t (map Some (sorted_syms lens) ++ tl) 0 (Z.of_nat n) (Z.of_nat (length (level lens n))) (2 ^ Z.of_nat n)
        = Ok (t1, Some (map Some (cur ++ levels lens (S n') (15 - n')) ++ tl, x', Z.of_nat n', Z.of_nat (length cur)))).
      { destruct (le_gt_dec n T) as [H|H].
        - replace (min n T) with n in F1 by lia. rewrite Es. exact F1.
        - rewrite Es. cbn [fill_main] in F1 |- *. replace (Z.of_nat n <=? Z.of_nat T) with false in F1 |- * by lia. exact F1. }
      rewrite F2 in EB. cbn [bind] in EB. pose proof (ac_n _ _ _ _ _ A1) as Rn'. pose proof (pow2_pos (Z.of_nat T) ltac:(lia)) as PT.
      pose proof (pow2_pos (15 - Z.of_nat T) ltac:(lia)) as PB.
      set (subs := Z.of_nat (length (cur ++ levels lens (S n') (15 - n')))).
      assert (Hsub : forall s, In s (cur ++ levels lens (S n') (15 - n')) -> Z.of_nat T < len_of lens s).
      { intros s Hs. apply in_app_or in Hs. destruct Hs as [Hs|Hs].
        - destruct (ac_level _ _ _ _ _ A1) as [pre Hp]. assert (In s (level lens n')) by (rewrite Hp; apply in_or_app; now right). apply level_in in H. lia.
        - apply levels_in in Hs. lia. }
      assert (Hrne : cur ++ levels lens (S n') (15 - n') <> []).
      { pose proof (ac_cur _ _ _ _ _ A1). destruct cur; [congruence|discriminate]. }
      pose proof (ac_sorted _ _ _ _ _ A1) as Es1.
      assert (Hlim : exists q, ks done = q * 2 ^ (15 - Z.of_nat T)).
      { assert (HF2 : Forall (fun s => 1 <= len_of lens s <= Z.of_nat T) done).
        { apply Forall_forall. intros s Hs. rewrite Forall_forall in HF1. specialize (HF1 s Hs). cbn beta in HF1.
          assert (In s (sorted_syms lens)) by (rewrite Es1; apply in_or_app; now left). apply sorted_in in H. lia. }
        clear - HF2 RT. induction HF2 as [|s d Hs _ [q IH]]; [exists 0; reflexivity|]. cbn [ksum]. rewrite IH. unfold wt.
        exists (2 ^ (Z.of_nat T - len_of lens s) + q). rewrite Z.mul_add_distr_r, <- Z.pow_add_r by lia. do 2 f_equal. lia. }
      assert (HS : Z.of_nat (length (sorted_syms lens)) = Z.of_nat (length done) + subs) by (unfold subs; rewrite Es1, app_length; lia).
      assert (Hcap3 : forall E, Z.even E = true -> E <= subs + waste (15 - Z.of_nat T) - 1 -> 2 ^ Z.of_nat T + E <= Z.of_nat cap).
      { apply (Hcap2 done _ Es1 Hrne Hsub). }
      destruct (fill_sub_ok lens res counts results T cap Hcounts Hres RT CK (proj2 Hok) done subs HS Hcap3 tl (S (length lens))
        [] cur n' x' t1 0 (2 ^ Z.of_nat T) (-1) (ks done) 0) as [t2 [E2 [L2 FO]]].
      { rewrite Es1, app_length in SL. lia. }
      { constructor.
        - rewrite app_nil_r. exact A1.
        - exact Hn'.
        - exact L1.
        - intros i Hi HP. unfold direct. destruct (MO i Hi HP) as [d [s [r [E [L [I1 [I2 E2]]]]]]]. exists d, s, r. auto.
        - intros i Hi Hp1 Hp2. lia.
        - exact Hlim.
        - rewrite app_nil_r. rewrite <- CK, Es1, ksum_app. pose proof (ksum_nonneg lens (cur ++ levels lens (S n') (15 - n'))). lia.
        - left. auto.
        - rewrite app_nil_r. lia.
        - intros _. cbn [length]. pose proof (waste_pos (Z.of_nat n' - Z.of_nat T) ltac:(lia)). lia.
        - rewrite Z.sub_diag. reflexivity.
        - repeat split; lia. }
      rewrite E2 in EB. cbn [bind] in EB.
      exists t2. split; [exact RT|]. split; [lia|]. split; [lia|]. split; [exact HFM|]. split; [exact Hlm|]. split; [exact HTM|].
      split; [exact EB|]. split; [exact L2|exact FO].
  Qed.

  (* what a finished table says about a stream *)
  Lemma final_lookup res T cap t V : (1 <= T <= 15)%nat -> final_ok lens res T cap t -> 0 <= V ->
    exists s, decodes lens V s /\ 1 <= len_of lens s <= 15 /\
      ((len_of lens s <= Z.of_nat T /\ elem_at t (V mod 2 ^ Z.of_nat T) = Some (make_top_entry (res s) (len_of lens s))) \/
       (Z.of_nat T < len_of lens s /\ exists st sb, 1 <= sb <= 15 - Z.of_nat T /\ len_of lens s <= Z.of_nat T + sb /\ 2 ^ Z.of_nat T <= st /\ st + 2 ^ sb <= Z.of_nat cap /\
         elem_at t (V mod 2 ^ Z.of_nat T) = Some (make_sub_link st (Z.of_nat T) (Z.of_nat T + sb)) /\
         elem_at t (st + (V / 2 ^ Z.of_nat T) mod 2 ^ sb) = Some (make_sub_entry (res s) (len_of lens s)))).
  Proof.
    intros HT F HV. pose proof (pow2_pos (Z.of_nat T) ltac:(lia)) as PT. set (i := V mod 2 ^ Z.of_nat T).
    assert (Hi : 0 <= i < 2 ^ Z.of_nat T) by (apply Z.mod_pos_bound; lia).
    assert (Hpre : forall n, (n <= 15)%nat -> read_code n V * 2 ^ (15 - Z.of_nat n) <= read_code 15 V < read_code n V * 2 ^ (15 - Z.of_nat n) + 2 ^ (15 - Z.of_nat n)).
    { intros n Hn. pose proof (rc_prefix n 15 V Hn) as Pf. replace (Z.of_nat (15 - n)) with (15 - Z.of_nat n) in Pf by lia.
      pose proof (pow2_pos (15 - Z.of_nat n) ltac:(lia)) as P.
      pose proof (Z.div_mod (read_code 15 V) (2 ^ (15 - Z.of_nat n)) ltac:(lia)) as DM.
      pose proof (Z.mod_pos_bound (read_code 15 V) (2 ^ (15 - Z.of_nat n)) ltac:(lia)). rewrite Pf in DM. lia. }
    destruct (F i Hi) as [[d [s [r [E [L [I1 [I2 E2]]]]]]]|[st [sb [R1 [R2 [R3 [R4 R5]]]]]]].
    - exists s. unfold pt in *. unfold i in I1, I2. rewrite rc_mod in I1, I2 by lia. pose proof (Hpre T ltac:(lia)) as Hp.
      split; [apply (decodes_interval lens V d s r E); lia|].
      assert (Hs : In s (sorted_syms lens)) by (rewrite E; apply in_elt). apply sorted_in in Hs. split; [lia|]. left. auto.
    - pose proof (pow2_pos sb ltac:(lia)) as Psb. set (y := (V / 2 ^ Z.of_nat T) mod 2 ^ sb).
      assert (Hy : 0 <= y < 2 ^ sb) by (apply Z.mod_pos_bound; lia).
      destruct (R5 y Hy) as [d [s [r [E [L [I1 [I2 E2]]]]]]]. exists s.
      assert (Eiy : i + 2 ^ Z.of_nat T * y = V mod 2 ^ (Z.of_nat T + sb)).
      { unfold i, y. rewrite Z.pow_add_r by lia. rewrite Z.rem_mul_r by lia. lia. }
      unfold spt in I1, I2. rewrite Eiy in I1, I2. rewrite rc_mod in I1, I2 by lia.
      pose proof (Hpre (T + Z.to_nat sb)%nat ltac:(lia)) as Hp. replace (15 - Z.of_nat (T + Z.to_nat sb)) with (15 - Z.of_nat T - sb) in Hp by lia.
      split; [apply (decodes_interval lens V d s r E); lia|]. split; [lia|]. right. split; [lia|]. exists st, sb. repeat (split; [solve [auto|lia]|]). exact E2.
  Qed.

  Lemma complete_decodes V : exists s, decodes lens V s.
  Proof.
    destruct (interval_exists lens (sorted_syms lens) (read_code 15 V)) as [d [s [r [E H]]]].
    { rewrite complete_ksum. pose proof (rc_range 15 V). change (2 ^ Z.of_nat 15) with (2 ^ 15) in *. lia. }
    exists s. apply (decodes_interval lens V d s r E). exact H.
  Qed.
End Complete.

Lemma decodes_unique lens V s s' : Forall len_ok lens -> decodes lens V s -> decodes lens V s' -> s = s'.
Proof.
  intros HL D D'. pose proof (decodes_sorted lens V s HL D) as I. pose proof (decodes_sorted lens V s' HL D') as I'.
  apply in_split in I, I'. destruct I as [d [r E]], I' as [d' [r' E']].
  apply (interval_unique lens (sorted_syms lens) (read_code 15 V) d s r d' s' r' E E').
  - apply (decodes_interval lens V d s r E), D.
  - apply (decodes_interval lens V d' s' r' E'), D'.
Qed.
