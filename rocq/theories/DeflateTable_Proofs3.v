(* Canonical codes as intervals of the code space; the direct part of the table (deflatedecoder.cpp 389-431). *)
From Verif Require Import Base Bits Algorithm_Spec Algorithm_Model Algorithm_Proofs Deflate_Spec DeflateTable_Model DeflateTable_Proofs DeflateTable_Proofs2.

Lemma pow2_pos k : 0 <= k -> 0 < 2 ^ k. Proof. intros. apply Z.pow_pos_nonneg; lia. Qed.
Lemma pow2_split a b : 0 <= b <= a -> 2 ^ a = 2 ^ b * 2 ^ (a - b).
Proof. intros. rewrite <- Z.pow_add_r by lia. f_equal. lia. Qed.

Lemma rc_zeros n k x : 0 <= x < 2 ^ Z.of_nat n -> read_code (n + k) x = read_code n x * 2 ^ Z.of_nat k.
Proof.
  intros Hx. induction k as [|k IH]; [rewrite Nat.add_0_r; cbn; lia|].
  rewrite Nat.add_succ_r. cbn [read_code]. rewrite IH. rewrite (testbit_small x (Z.of_nat n)) by lia.
  rewrite Nat2Z.inj_succ, Z.pow_succ_r by lia. lia.
Qed.

Section Canon.
  Context (lens : list Z).
  Definition wt (s : Z) : Z := 2 ^ (15 - len_of lens s).
  Fixpoint ksum (ss : list Z) : Z := match ss with [] => 0 | s :: t => wt s + ksum t end.
  Lemma ksum_app a b : ksum (a ++ b) = ksum a + ksum b.
  Proof. induction a; cbn; lia. Qed.
  Lemma wt_nonneg s : 0 <= wt s. Proof. apply Z.pow_nonneg. lia. Qed.
  Lemma ksum_nonneg a : 0 <= ksum a.
  Proof. induction a; cbn; [lia|]. pose proof (wt_nonneg a). lia. Qed.

  Lemma syms_of_in : forall ls sym l s, In s (syms_of ls sym l) -> sym <= s < sym + Z.of_nat (length ls) /\ nth (Z.to_nat (s - sym)) ls 0 = l.
  Proof.
    induction ls as [|x t IH]; intros sym l s H; [destruct H|]. cbn [syms_of] in H. cbn [length].
    assert (G : In s (syms_of t (sym + 1) l) -> sym <= s < sym + Z.of_nat (S (length t)) /\ nth (Z.to_nat (s - sym)) (x :: t) 0 = l).
    { intros G. apply IH in G. destruct G as [A B]. split; [lia|].
      replace (Z.to_nat (s - sym)) with (S (Z.to_nat (s - (sym + 1)))) by lia. exact B. }
    destruct (x =? l) eqn:E; [|now apply G]. destruct H as [<-|H]; [|now apply G].
    split; [lia|]. rewrite Z.sub_diag. cbn. lia.
  Qed.
  Lemma level_in l s : In s (level lens l) -> 0 <= s < Z.of_nat (length lens) /\ len_of lens s = Z.of_nat l.
  Proof.
    intros H. apply syms_of_in in H. destruct H as [A B]. split; [lia|]. unfold len_of. rewrite <- B. f_equal. f_equal. lia.
  Qed.
  Lemma levels_in a k s : In s (levels lens a k) -> 0 <= s < Z.of_nat (length lens) /\ Z.of_nat a <= len_of lens s < Z.of_nat (a + k).
  Proof.
    intros H. unfold levels in H. apply in_flat_map in H. destruct H as [l [Hl Hs]]. apply in_seq in Hl. apply level_in in Hs. lia.
  Qed.
  Lemma sorted_in s : In s (sorted_syms lens) -> 0 <= s < Z.of_nat (length lens) /\ 1 <= len_of lens s <= 15.
  Proof. intros H. apply levels_in in H. lia. Qed.

  Lemma wt_ge1 s : In s (sorted_syms lens) -> 1 <= wt s.
  Proof. intros H. apply sorted_in in H. unfold wt. pose proof (pow2_pos (15 - len_of lens s)). lia. Qed.

  Lemma ksum_level l ss : (forall s, In s ss -> len_of lens s = Z.of_nat l) -> ksum ss = Z.of_nat (length ss) * 2 ^ (15 - Z.of_nat l).
  Proof.
    induction ss as [|s t IH]; intros H; [reflexivity|]. cbn [ksum length]. rewrite IH by (intros; apply H; now right).
    unfold wt. rewrite (H s) by now left. lia.
  Qed.
  Lemma level_length l : Z.of_nat (length (level lens l)) = count_len lens (Z.of_nat l).
  Proof. apply syms_of_length. Qed.

  (* the RFC codes are the starts of the intervals *)
  Lemma next_code_ksum : forall b, (b <= 15)%nat -> next_code lens b * 2 ^ (15 - Z.of_nat b) = ksum (levels lens 1 (b - 1)).
  Proof.
    induction b as [|b IH]; intros Hb; [reflexivity|]. cbn [next_code]. specialize (IH ltac:(lia)).
    destruct b as [|b]; [reflexivity|].
    replace (S (S b) - 1)%nat with (S b) by lia. rewrite levels_snoc, ksum_app. cbn [Nat.add].
    replace (S b - 1)%nat with b in IH by lia. rewrite <- IH.
    rewrite (ksum_level (S b) (level lens (S b))) by (intros s Hs; apply level_in in Hs; apply Hs).
    rewrite level_length. replace (Z.of_nat (S b) =? 0) with false by lia.
    rewrite (pow2_split (15 - Z.of_nat (S b)) 1) by lia. change (2 ^ 1) with 2.
    replace (15 - Z.of_nat (S b) - 1) with (15 - Z.of_nat (S (S b))) by lia. ring.
  Qed.

  Lemma syms_of_rank : forall ls sym l d s r, syms_of ls sym l = d ++ s :: r ->
    count_len (firstn (Z.to_nat (s - sym)) ls) l = Z.of_nat (length d).
  Proof.
    induction ls as [|x t IH]; intros sym l d s r H; [destruct d; discriminate|]. cbn [syms_of] in H.
    destruct (x =? l) eqn:E.
    - destruct d as [|y d].
      + injection H as <- _. rewrite Z.sub_diag. reflexivity.
      + injection H as <- H. pose proof (IH _ _ _ _ _ H) as G.
        assert (Hin : In s (syms_of t (sym + 1) l)) by (rewrite H; apply in_elt). apply syms_of_in in Hin.
        replace (Z.to_nat (s - sym)) with (S (Z.to_nat (s - (sym + 1)))) by lia. cbn [firstn]. rewrite count_len_cons, E, G.
        cbn [length]. lia.
    - pose proof (IH _ _ _ _ _ H) as G.
      assert (Hin : In s (syms_of t (sym + 1) l)) by (rewrite H; apply in_elt). apply syms_of_in in Hin.
      replace (Z.to_nat (s - sym)) with (S (Z.to_nat (s - (sym + 1)))) by lia. cbn [firstn]. rewrite count_len_cons, E, G. lia.
  Qed.

  Lemma huff_code_level l d s r : (1 <= l <= 15)%nat -> level lens l = d ++ s :: r ->
    huff_code lens s * 2 ^ (15 - Z.of_nat l) = ksum (levels lens 1 (l - 1) ++ d).
  Proof.
    intros Hl H. assert (Hin : In s (level lens l)) by (rewrite H; apply in_elt).
    destruct (level_in _ _ Hin) as [Rs El]. unfold huff_code. rewrite El, Nat2Z.id.
    pose proof (syms_of_rank lens 0 (Z.of_nat l) d s r H) as Rk. rewrite Z.sub_0_r in Rk. rewrite Rk.
    rewrite ksum_app, <- next_code_ksum by lia.
    rewrite (ksum_level l d); [lia|]. intros y Hy. apply (level_in l). rewrite H. apply in_or_app. now left.
  Qed.

  (* splitting the sorted list at a symbol *)
  Lemma levels_split : forall k a s, In s (levels lens a k) -> exists l d r, (a <= l < a + k)%nat /\ level lens l = d ++ s :: r /\
    levels lens a k = (levels lens a (l - a) ++ d) ++ s :: r ++ levels lens (S l) (a + k - S l).
  Proof.
    induction k as [|k IH]; intros a s H; [destruct H|]. rewrite levels_S in H. apply in_app_or in H. destruct H as [H|H].
    - apply in_split in H. destruct H as [d [r E]]. exists a, d, r. split; [lia|]. split; [exact E|].
      rewrite Nat.sub_diag. replace (a + S k - S a)%nat with k by lia. rewrite levels_S, E. cbn [levels seq flat_map app].
      rewrite <- app_assoc. reflexivity.
    - destruct (IH _ _ H) as [l [d [r [Hl [E1 E2]]]]]. exists l, d, r. split; [lia|]. split; [exact E1|].
      rewrite levels_S, E2. replace (l - a)%nat with (S (l - S a)) by lia. rewrite levels_S.
      replace (a + S k - S l)%nat with (S a + k - S l)%nat by lia. rewrite <- !app_assoc. reflexivity.
  Qed.

  Lemma sorted_nodup : NoDup (sorted_syms lens).
  Proof.
    assert (G1 : forall ls sym l, NoDup (syms_of ls sym l)).
    { induction ls as [|x t IH]; intros sym l; cbn [syms_of]; [constructor|]. destruct (x =? l); [|apply IH].
      constructor; [|apply IH]. intros H. apply syms_of_in in H. lia. }
    assert (G2 : forall k a, NoDup (levels lens a k)).
    { induction k as [|k IH]; intros a; [constructor|]. rewrite levels_S.
      assert (Hd : forall s, In s (level lens a) -> ~ In s (levels lens (S a) k)).
      { intros s H1 H2. apply level_in in H1. apply levels_in in H2. lia. }
      assert (N1 : NoDup (level lens a)) by apply G1. specialize (IH (S a)). revert N1 IH Hd.
      generalize (level lens a) (levels lens (S a) k). intros A B N1 N2 Hd. induction N1; cbn; [exact N2|].
      constructor.
      - intros Hc. apply in_app_or in Hc. destruct Hc as [Hc|Hc]; [contradiction|]. apply (Hd x); [now left|exact Hc].
      - apply IHN1. intros s Hs. apply Hd. now right. }
    apply G2.
  Qed.

  Lemma split_unique {A} (d d' : list A) s r r' : NoDup (d ++ s :: r) -> d ++ s :: r = d' ++ s :: r' -> d = d' /\ r = r'.
  Proof.
    revert d'. induction d as [|x d IH]; intros d' N E.
    - destruct d' as [|y d'].
      + injection E as ->. auto.
      + injection E as <- E. exfalso. cbn in N. inversion N as [|? ? Hn]; subst. apply Hn. apply in_elt.
    - destruct d' as [|y d'].
      + injection E as -> E. exfalso. cbn in N. inversion N as [|? ? Hn]; subst. apply Hn. apply in_elt.
      + injection E as <- E. inversion N; subst. destruct (IH d') as [-> ->]; auto.
  Qed.

  Lemma huff_code_ksum d s r : sorted_syms lens = d ++ s :: r -> huff_code lens s * wt s = ksum d.
  Proof.
    intros E. assert (Hin : In s (sorted_syms lens)) by (rewrite E; apply in_elt).
    destruct (levels_split 15 1 s Hin) as [l [d' [r' [Hl [E1 E2]]]]].
    assert (El : len_of lens s = Z.of_nat l) by (apply (level_in l); rewrite E1; apply in_elt).
    pose proof (huff_code_level l d' s r' ltac:(lia) E1) as Hc.
    fold (sorted_syms lens) in E2. rewrite E in E2.
    pose proof sorted_nodup as N. rewrite E in N.
    destruct (split_unique _ _ _ _ _ N E2) as [-> _]. unfold wt. rewrite El. exact Hc.
  Qed.

  (* decoding = falling into the interval of the symbol *)
  Lemma decodes_interval V d s r : sorted_syms lens = d ++ s :: r ->
    (decodes lens V s <-> ksum d <= read_code 15 V < ksum d + wt s).
  Proof.
    intros E. assert (Hin : In s (sorted_syms lens)) by (rewrite E; apply in_elt).
    apply sorted_in in Hin. destruct Hin as [Rs Rl].
    pose proof (huff_code_ksum d s r E) as Hc.
    set (l := Z.to_nat (len_of lens s)). assert (Hl : len_of lens s = Z.of_nat l) by lia.
    pose proof (rc_prefix l 15 V ltac:(lia)) as Hp.
    replace (Z.of_nat (15 - l)) with (15 - len_of lens s) in Hp by lia. fold (wt s) in Hp.
    assert (W : 0 < wt s) by (apply pow2_pos; lia).
    unfold decodes. fold l. rewrite <- Hp, <- Hc. clear Hp Hc.
    split.
    - intros [_ [_ H]]. pose proof (Z.div_mod (read_code 15 V) (wt s) ltac:(lia)). pose proof (Z.mod_pos_bound (read_code 15 V) (wt s) W). nia.
    - intros H. split; [exact Rs|]. split; [lia|]. symmetry. apply Z.div_unique with (read_code 15 V - huff_code lens s * wt s); lia.
  Qed.

  Lemma decodes_sorted V s : Forall len_ok lens -> decodes lens V s -> In s (sorted_syms lens).
  Proof.
    intros HF [Hs [Hl _]]. unfold sorted_syms, levels. apply in_flat_map.
    assert (HIn : In (len_of lens s) lens) by (apply nth_In; lia).
    rewrite Forall_forall in HF. specialize (HF _ HIn). unfold len_ok in HF.
    exists (Z.to_nat (len_of lens s)). split; [apply in_seq; lia|]. unfold level. rewrite Z2Nat.id by lia.
    assert (G : forall ls sym, sym <= s < sym + Z.of_nat (length ls) -> In s (syms_of ls sym (nth (Z.to_nat (s - sym)) ls 0))).
    { induction ls as [|x t IH]; intros sym H; [cbn [length] in H; lia|]. cbn [syms_of]. cbn [length] in H.
      destruct (Z.eq_dec s sym) as [->|Hne].
      - rewrite Z.sub_diag. cbn [nth Z.to_nat]. rewrite Z.eqb_refl. now left.
      - replace (Z.to_nat (s - sym)) with (S (Z.to_nat (s - (sym + 1)))) by lia. cbn [nth].
        destruct (x =? _); [right|]; apply IH; lia. }
    specialize (G lens 0). rewrite Z.sub_0_r in G. apply G. lia.
  Qed.

  (* an interval exists for every point below the total *)
  Lemma interval_exists : forall ss P, 0 <= P < ksum ss -> exists d s r, ss = d ++ s :: r /\ ksum d <= P < ksum d + wt s.
  Proof.
    induction ss as [|x t IH]; intros P H; [cbn in H; lia|]. cbn [ksum] in H.
    destruct (Z_lt_ge_dec P (wt x)).
    - exists [], x, t. cbn. split; [reflexivity|lia].
    - destruct (IH (P - wt x)) as [d [s [r [E R]]]]; [lia|]. exists (x :: d), s, r. subst t. cbn. split; [reflexivity|lia].
  Qed.
  Lemma interval_unique ss P d s r d' s' r' : ss = d ++ s :: r -> ss = d' ++ s' :: r' ->
    ksum d <= P < ksum d + wt s -> ksum d' <= P < ksum d' + wt s' -> s = s'.
  Proof.
    revert ss P d'. induction d as [|x d IH]; intros ss P d' E E' R R'.
    - destruct d' as [|y d']; cbn in *; subst ss; injection E'; intros; subst; [reflexivity|].
      cbn in R'. pose proof (ksum_nonneg d'). lia.
    - destruct d' as [|y d']; cbn in *; subst ss; injection E'; intros; subst.
      + cbn in R. pose proof (ksum_nonneg d). lia.
      + apply (IH (d' ++ s' :: r') (P - wt y) d'); auto; lia.
  Qed.

  (* ---- the direct table ---- *)
  Context (res : Z -> Z).
  Definition top (s : Z) : Z := make_top_entry (res s) (len_of lens s).
  Definition main_ok (done : list Z) (n : nat) (t : list Z) : Prop :=
    forall i, 0 <= i < 2 ^ Z.of_nat n -> read_code n i * 2 ^ (15 - Z.of_nat n) < ksum done ->
    exists d s r, done = d ++ s :: r /\ len_of lens s <= Z.of_nat n /\
      ksum d <= read_code n i * 2 ^ (15 - Z.of_nat n) /\ read_code n i * 2 ^ (15 - Z.of_nat n) + 2 ^ (15 - Z.of_nat n) <= ksum d + wt s /\
      elem_at t i = Some (top s).

  Lemma double_ok done n t : (n < 15)%nat -> main_ok done n t -> 2 ^ Z.of_nat (S n) <= Z.of_nat (length t) ->
    exists t', double_table t (2 ^ Z.of_nat n) = Ok t' /\ length t' = length t /\ main_ok done (S n) t' /\
      (forall i, 2 ^ Z.of_nat (S n) <= i -> elem_at t' i = elem_at t i).
  Proof.
    intros Hn H Hlen. pose proof (pow2_pos (Z.of_nat n)) as P0. rewrite Nat2Z.inj_succ, Z.pow_succ_r in * by lia.
    unfold double_table. replace (_ || _) with false by lia.
    set (m := Z.to_nat (2 ^ Z.of_nat n)). set (h := firstn m t).
    assert (Lh : length h = m) by (apply firstn_length_le; lia).
    eexists. split; [reflexivity|]. split; [|split].
    - rewrite !app_length, Lh, skipn_length. lia.
    - intros i Hi HP. rewrite Nat2Z.inj_succ, Z.pow_succ_r in Hi by lia.
      set (j := i mod 2 ^ Z.of_nat n). assert (Rj : 0 <= j < 2 ^ Z.of_nat n) by (apply Z.mod_pos_bound; lia).
      assert (Rij : read_code n j = read_code n i) by (apply rc_mod; lia).
      cbn [read_code] in *. rewrite Nat2Z.inj_succ in *.
      assert (E2 : 2 ^ (15 - Z.of_nat n) = 2 * 2 ^ (15 - Z.succ (Z.of_nat n))).
      { rewrite (pow2_split (15 - Z.of_nat n) 1) by lia. f_equal. f_equal. lia. }
      set (B := 2 ^ (15 - Z.succ (Z.of_nat n))) in *. assert (0 < B) by (apply pow2_pos; lia).
      set (b := if Z.testbit i (Z.of_nat n) then 1 else 0) in *. assert (Hb : 0 <= b <= 1) by (unfold b; destruct (Z.testbit i (Z.of_nat n)); lia).
      destruct (H j Rj) as [d [s [r [E [L [I1 [I2 T]]]]]]].
      { rewrite E2, Rij. nia. }
      exists d, s, r. split; [exact E|]. split; [lia|]. rewrite E2, Rij in I1, I2. split; [nia|]. split; [nia|].
      rewrite <- T. unfold elem_at. replace (i <? 0) with false by lia. replace (j <? 0) with false by lia.
      assert (Hj : nth_error t (Z.to_nat j) = nth_error h (Z.to_nat j)) by (symmetry; apply nth_error_firstn'; lia).
      rewrite Hj. destruct (Z_lt_ge_dec i (2 ^ Z.of_nat n)).
      + rewrite nth_error_app1 by lia. f_equal. f_equal. unfold j. symmetry. apply Z.mod_small. lia.
      + rewrite nth_error_app2 by lia. rewrite nth_error_app1 by lia. f_equal. unfold j.
        rewrite <- (Z.mod_unique i (2 ^ Z.of_nat n) 1 (i - 2 ^ Z.of_nat n)) by lia. lia.
    - intros i Hi. unfold elem_at. destruct (i <? 0); [reflexivity|].
      rewrite !nth_error_app2 by lia. rewrite nth_error_skipn'. f_equal. lia.
  Qed.

  Lemma extend_ok done : forall k n t, (n + k <= 15)%nat -> main_ok done n t -> 2 ^ Z.of_nat (n + k) <= Z.of_nat (length t) ->
    exists t', extend_table k t (2 ^ Z.of_nat n) = Ok t' /\ length t' = length t /\ main_ok done (n + k) t' /\
      (forall i, 2 ^ Z.of_nat (n + k) <= i -> elem_at t' i = elem_at t i).
  Proof.
    induction k as [|k IH]; intros n t Hk H Hlen.
    - exists t. rewrite Nat.add_0_r. auto.
    - cbn [extend_table]. destruct (double_ok done n t) as [t1 [E1 [L1 [M1 F1]]]]; [lia|exact H| |].
      { etransitivity; [|exact Hlen]. apply Z.pow_le_mono_r; lia. }
      rewrite E1. cbn [bind]. replace (2 * 2 ^ Z.of_nat n) with (2 ^ Z.of_nat (S n)) by (rewrite Nat2Z.inj_succ, Z.pow_succ_r; lia).
      replace (n + S k)%nat with (S n + k)%nat in * by lia.
      destruct (IH (S n) t1) as [t2 [E2 [L2 [M2 F2]]]]; [lia|exact M1|lia|].
      exists t2. split; [exact E2|]. split; [lia|]. split; [exact M2|]. intros i Hi. rewrite F2 by exact Hi. apply F1.
      etransitivity; [|exact Hi]. apply Z.pow_le_mono_r; lia.
  Qed.

  Lemma write_ok_main done n t x s : (n <= 15)%nat -> main_ok done n t -> 0 <= x < 2 ^ Z.of_nat n -> 2 ^ Z.of_nat n <= Z.of_nat (length t) ->
    len_of lens s = Z.of_nat n -> read_code n x * 2 ^ (15 - Z.of_nat n) = ksum done ->
    main_ok (done ++ [s]) n (zupd t x (top s)).
  Proof.
    intros Hn H Hx Hlen Hs HK i Hi HP. rewrite elem_zupd by lia. rewrite ksum_app in HP. cbn [ksum] in HP.
    assert (Ws : wt s = 2 ^ (15 - Z.of_nat n)) by (unfold wt; now rewrite Hs).
    pose proof (pow2_pos (15 - Z.of_nat n) ltac:(lia)) as B0. set (B := 2 ^ (15 - Z.of_nat n)) in *.
    destruct (i =? x) eqn:E.
    - assert (i = x) by lia. subst i. exists done, s, []. split; [reflexivity|]. rewrite Hs. repeat split; lia.
    - assert (Hne : read_code n i <> read_code n x).
      { intros C. apply rc_inj in C; lia. }
      destruct (H i Hi) as [d [s' [r [Ed [L [I1 [I2 T]]]]]]].
      { fold B. rewrite <- HK. nia. }
      exists d, s', (r ++ [s]). split; [rewrite Ed, <- app_assoc; reflexivity|]. auto.
  Qed.

  Lemma main_ok_nil n t : main_ok [] n t.
  Proof.
    intros i Hi HP. cbn in HP. pose proof (rc_range n i). pose proof (Z.pow_nonneg 2 (15 - Z.of_nat n) ltac:(lia)). nia.
  Qed.

  (* ---- the loop over codewords of at most T bits ---- *)
  Context (counts results : list Z) (T : nat) (cap : nat).
  Context (Hcounts : forall l, len_ok l -> elem_at counts l = Some (count_len lens l)).
  Context (Hresults : forall s, 0 <= s < Z.of_nat (length lens) -> elem_at results s = Some (res s)).
  Context (HT : (1 <= T <= 15)%nat) (Hcap : 2 ^ Z.of_nat T <= Z.of_nat cap).
  Context (Hcomplete : ksum (sorted_syms lens) = 2 ^ 15).

  Lemma advance_ok done : forall fuel n t, (15 - n < fuel)%nat -> (1 <= n <= 15)%nat -> levels lens (S n) (15 - n) <> [] ->
    length t = cap -> main_ok done (min n T) t ->
    exists t' n', advance_len fuel counts (Z.of_nat T) t (Z.of_nat n) (2 ^ Z.of_nat (min n T)) =
        Ok (t', Z.of_nat n', 2 ^ Z.of_nat (min n' T), Z.of_nat (length (level lens n'))) /\
      (n < n' <= 15)%nat /\ level lens n' <> [] /\ levels lens (S n) (15 - n) = level lens n' ++ levels lens (S n') (15 - n') /\
      length t' = cap /\ main_ok done (min n' T) t'.
  Proof.
    induction fuel as [|fuel IH]; intros n t Hf Hn Hne Hlen H; [lia|].
    assert (n < 15)%nat by (destruct (Nat.eq_dec n 15) as [->|]; [exfalso; apply Hne; reflexivity|lia]).
    cbn [advance_len]. replace (Z.of_nat n + 1) with (Z.of_nat (S n)) by lia.
    assert (exists t1, (if Z.of_nat (S n) <=? Z.of_nat T
        then let* t0 := double_table t (2 ^ Z.of_nat (min n T)) in Ok (t0, 2 * 2 ^ Z.of_nat (min n T))
        else Ok (t, 2 ^ Z.of_nat (min n T))) = Ok (t1, 2 ^ Z.of_nat (min (S n) T)) /\ length t1 = cap /\ main_ok done (min (S n) T) t1) as [t1 [E1 [L1 M1]]].
    { destruct (Z.leb_spec (Z.of_nat (S n)) (Z.of_nat T)).
      - replace (min n T) with n in * by lia. replace (min (S n) T) with (S n) by lia.
        destruct (double_ok done n t) as [t1 [E1 [L1 [M1 _]]]]; [lia|exact H| |].
        { rewrite Hlen. etransitivity; [|exact Hcap]. apply Z.pow_le_mono_r; lia. }
        exists t1. rewrite E1. cbn [bind]. split; [|split; [lia|exact M1]]. rewrite (Nat2Z.inj_succ n), Z.pow_succ_r by lia. reflexivity.
      - replace (min n T) with T in * by lia. replace (min (S n) T) with T by lia. exists t. auto. }
    rewrite E1. cbn [bind].
    rewrite (rd_elem _ _ _ (Hcounts (Z.of_nat (S n)) ltac:(unfold len_ok; lia))). cbn [bind].
    replace (15 - n)%nat with (S (15 - S n)) in Hne |- * by lia. rewrite levels_S in Hne |- *.
    pose proof (level_length (S n)) as LL.
    destruct (Z.eqb_spec (count_len lens (Z.of_nat (S n))) 0) as [E0|E0].
    - assert (El : level lens (S n) = []) by (destruct (level lens (S n)); [reflexivity|cbn [length] in LL; lia]).
      rewrite El in Hne |- *. cbn [app] in *.
      destruct (IH (S n) t1) as [t' [n' [E [Rn [Ne [Es [Lt M]]]]]]]; [lia|lia|exact Hne|exact L1|exact M1|].
      exists t', n'. split; [exact E|]. split; [lia|]. auto.
    - exists t1, (S n). rewrite <- LL. split; [reflexivity|]. split; [lia|]. split; [|auto].
      intros C. apply E0. rewrite <- LL, C. reflexivity.
  Qed.

  (* state shared by the two loops: n bits, codeword x, symbols done and the rest of level n *)
  Record at_code (done cur : list Z) (n : nat) (x : Z) : Prop := AtCode {
    ac_n : (1 <= n <= 15)%nat;
    ac_sorted : sorted_syms lens = done ++ cur ++ levels lens (S n) (15 - n);
    ac_cur : cur <> [];
    ac_level : exists pre, level lens n = pre ++ cur;
    ac_x : 0 <= x < 2 ^ Z.of_nat n;
    ac_k : read_code n x * 2 ^ (15 - Z.of_nat n) = ksum done;
  }.

  Lemma ksum_zero ss : (forall s, In s ss -> 1 <= wt s) -> ksum ss = 0 -> ss = [].
  Proof.
    destruct ss as [|s t]; [reflexivity|]. cbn. intros H E. pose proof (H s ltac:(now left)). pose proof (ksum_nonneg t). lia.
  Qed.

  Lemma at_code_cons done s cur n x : at_code done (s :: cur) n x ->
    len_of lens s = Z.of_nat n /\ 0 <= s < Z.of_nat (length lens) /\ wt s = 2 ^ (15 - Z.of_nat n) /\
    (x = 2 ^ Z.of_nat n - 1 <-> cur ++ levels lens (S n) (15 - n) = []).
  Proof.
    intros [Hn Hs Hc [pre Hl] Hx Hk].
    assert (Hin : In s (level lens n)) by (rewrite Hl; apply in_elt). destruct (level_in _ _ Hin) as [Rs El].
    assert (Ws : wt s = 2 ^ (15 - Z.of_nat n)) by (unfold wt; now rewrite El).
    split; [exact El|]. split; [exact Rs|]. split; [exact Ws|].
    assert (Tot : ksum (done ++ (s :: cur) ++ levels lens (S n) (15 - n)) = 2 ^ 15) by (rewrite <- Hs; exact Hcomplete).
    rewrite ksum_app in Tot. cbn [app ksum] in Tot. rewrite Ws, <- Hk in Tot.
    pose proof (pow2_pos (15 - Z.of_nat n) ltac:(lia)) as B0.
    rewrite (pow2_split 15 (Z.of_nat n)) in Tot by lia. set (B := 2 ^ (15 - Z.of_nat n)) in *.
    rewrite <- rc_ones by exact Hx. split; intros H.
    - rewrite H in Tot. apply ksum_zero; [|nia]. intros y Hy. apply wt_ge1. rewrite Hs. apply in_or_app. right. now right.
    - rewrite H in Tot. cbn [ksum] in Tot. nia.
  Qed.

  Lemma at_code_next done s cur n x x' : at_code done (s :: cur) n x -> 0 <= x' < 2 ^ Z.of_nat n -> read_code n x' = read_code n x + 1 ->
    (cur <> [] -> at_code (done ++ [s]) cur n x') /\
    (forall n', cur = [] -> (n < n' <= 15)%nat -> level lens n' <> [] -> levels lens (S n) (15 - n) = level lens n' ++ levels lens (S n') (15 - n') ->
      at_code (done ++ [s]) (level lens n') n' x').
  Proof.
    intros A Rx' Ex'. destruct (at_code_cons _ _ _ _ _ A) as [El [Rs [Ws _]]]. destruct A as [Hn Hs Hc [pre Hl] Hx Hk].
    split.
    - intros Hcur. constructor; auto.
      + rewrite Hs, <- app_assoc. reflexivity.
      + exists (pre ++ [s]). rewrite Hl, <- app_assoc. reflexivity.
      + rewrite ksum_app. cbn [ksum]. rewrite Ex', Ws. lia.
    - intros n' -> Hn' Hne Hlv. constructor.
      + lia.
      + rewrite Hs, Hlv, <- app_assoc. reflexivity.
      + exact Hne.
      + exists []. reflexivity.
      + split; [lia|]. apply Z.lt_le_trans with (2 ^ Z.of_nat n); [lia|]. apply Z.pow_le_mono_r; lia.
      + rewrite ksum_app. cbn [ksum]. replace n' with (n + (n' - n))%nat by lia. rewrite rc_zeros by exact Rx'.
        rewrite Ex', <- Z.mul_assoc, <- Z.pow_add_r by lia.
        replace (Z.of_nat (n' - n) + (15 - Z.of_nat (n + (n' - n)))) with (15 - Z.of_nat n) by lia. rewrite Ws. lia.
  Qed.

  Lemma fill_main_ok tl : forall fuel done cur n x t, at_code done cur n x ->
    (length (cur ++ levels lens (S n) (15 - n)) < fuel)%nat -> length t = cap -> main_ok done (min n T) t ->
    Forall (fun s => len_of lens s <= Z.of_nat T) done ->
    exists t', length t' = cap /\
      ((fill_main fuel counts results (Z.of_nat T) t (map Some (cur ++ levels lens (S n) (15 - n)) ++ tl) x (Z.of_nat n) (Z.of_nat (length cur)) (2 ^ Z.of_nat (min n T)) = Ok (t', None)
        /\ main_ok (sorted_syms lens) T t')
      \/ exists done' cur' n' x', fill_main fuel counts results (Z.of_nat T) t (map Some (cur ++ levels lens (S n) (15 - n)) ++ tl) x (Z.of_nat n) (Z.of_nat (length cur)) (2 ^ Z.of_nat (min n T))
          = Ok (t', Some (map Some (cur' ++ levels lens (S n') (15 - n')) ++ tl, x', Z.of_nat n', Z.of_nat (length cur')))
        /\ at_code done' cur' n' x' /\ (T < n')%nat /\ main_ok done' T t' /\ Forall (fun s => len_of lens s <= Z.of_nat T) done').
  Proof.
    induction fuel as [|fuel IH]; intros done cur n x t A Hf Hlen M HFT; [lia|].
    cbn [fill_main]. destruct (Z.leb_spec (Z.of_nat n) (Z.of_nat T)).
    2:{ exists t. split; [exact Hlen|]. right. exists done, cur, n, x. split; [reflexivity|]. split; [exact A|]. split; [lia|].
        replace (min n T) with T in M by lia. split; [exact M|exact HFT]. }
    replace (min n T) with n in * by lia.
    destruct cur as [|s cur]; [exfalso; apply (ac_cur _ _ _ _ A); reflexivity|].
    destruct (at_code_cons _ _ _ _ _ A) as [El [Rs [Ws Hend]]].
    cbn [app map]. change (rdi (Some s :: map Some (cur ++ levels lens (S n) (15 - n)) ++ tl) 0) with (@Ok Z s). cbn [bind].
    rewrite (rd_elem _ _ _ (Hresults s Rs)). cbn [bind].
    pose proof (ac_x _ _ _ _ A) as Rx. pose proof (ac_n _ _ _ _ A) as Rn.
    assert (Pn : 2 ^ Z.of_nat n <= 2 ^ Z.of_nat T) by (apply Z.pow_le_mono_r; lia).
    rewrite wr_ok by lia. cbn [bind skipn].
    assert (M1 : main_ok (done ++ [s]) n (zupd t x (make_top_entry (res s) (Z.of_nat n)))).
    { pose proof (write_ok_main done n t x s ltac:(lia) M Rx ltac:(lia) El (ac_k _ _ _ _ A)) as W. unfold top in W. rewrite El in W. exact W. }
    set (t1 := zupd t x (make_top_entry (res s) (Z.of_nat n))) in *.
    assert (L1 : length t1 = cap) by (unfold t1; rewrite zupd_length; exact Hlen).
    destruct (Z.eqb_spec x (2 ^ Z.of_nat n - 1)) as [Ex|Ex].
    - apply Hend in Ex. destruct (extend_ok (done ++ [s]) (T - n) n t1) as [t2 [E2 [L2 [M2 _]]]]; [lia|exact M1| |].
      { replace (n + (T - n))%nat with T by lia. lia. }
      replace (Z.to_nat (Z.of_nat T - Z.of_nat n)) with (T - n)%nat by lia. rewrite E2. cbn [bind].
      exists t2. split; [lia|]. left. split; [reflexivity|]. replace (n + (T - n))%nat with T in M2 by lia.
      assert (Es : sorted_syms lens = done ++ [s]).
      { rewrite (ac_sorted _ _ _ _ A). cbn [app]. rewrite Ex. reflexivity. }
      rewrite Es. exact M2.
    - destruct (next_codeword_ok n x Rx Ex) as [x' [Ey [Ry Rc]]]. rewrite Ey. cbn [bind].
      destruct (at_code_next _ _ _ _ _ _ A Ry Rc) as [N1 N2].
      assert (HF2 : Forall (fun s => len_of lens s <= Z.of_nat T) (done ++ [s])).
      { apply Forall_app. split; [exact HFT|]. constructor; [lia|constructor]. }
      cbn [app length] in Hf.
      destruct (Z.eqb_spec (Z.of_nat (length (s :: cur)) - 1) 0) as [E0|E0].
      + assert (cur = []) by (destruct cur; [reflexivity|cbn [length] in E0; lia]). subst cur. cbn [app] in *.
        assert (Hne : levels lens (S n) (15 - n) <> []) by (intros C; apply Ex, Hend, C).
        destruct (advance_ok (done ++ [s]) 16 n t1) as [t2 [n' [E2 [Rn' [Ne [Es [L2 M2]]]]]]]; [lia|lia|exact Hne|exact L1| |].
        { replace (min n T) with n by lia. exact M1. }
        replace (min n T) with n in E2 by lia. rewrite E2. cbn [bind].
        rewrite Es. apply (IH (done ++ [s]) (level lens n') n' x' t2); auto.
        rewrite <- Es. lia.
      + replace (Z.of_nat (length (s :: cur)) - 1) with (Z.of_nat (length cur)) by (cbn [length]; lia).
        assert (Hcur : cur <> []) by (intros ->; cbn in E0; lia).
        specialize (IH (done ++ [s]) cur n x' t1 (N1 Hcur) ltac:(lia) L1). replace (min n T) with n in IH by lia.
        apply IH; auto.
  Qed.
End Canon.
