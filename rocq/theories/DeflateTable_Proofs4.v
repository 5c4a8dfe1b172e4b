(* The subtables (deflatedecoder.cpp 433-490) and the bound on the number of entries. *)
From Verif Require Import Base Bits Algorithm_Spec Algorithm_Model Algorithm_Proofs Deflate_Spec DeflateTable_Model DeflateTable_Proofs DeflateTable_Proofs2 DeflateTable_Proofs3.

Lemma levels_app lens : forall a i j, levels lens a (i + j) = levels lens a i ++ levels lens (a + i) j.
Proof. intros. unfold levels. rewrite seq_app, flat_map_app. reflexivity. Qed.

Definition waste (d : Z) : Z := 2 ^ d - d.
Lemma waste_mono a b : 1 <= a <= b -> waste a <= waste b.
Proof.
  intros H. unfold waste. rewrite (pow2_split b a) by lia.
  assert (H1 : b - a < 2 ^ (b - a)) by (apply Z.pow_gt_lin_r; lia).
  assert (H2 : a < 2 ^ a) by (apply Z.pow_gt_lin_r; lia). nia.
Qed.
Lemma waste_pos a : 1 <= a -> 1 <= waste a.
Proof. intros H. unfold waste. assert (a < 2 ^ a) by (apply Z.pow_gt_lin_r; lia). lia. Qed.

Lemma fill_stride_ok entry stride tend : 1 <= stride -> forall fuel t i, 0 <= i < tend -> tend <= Z.of_nat (length t) -> tend - i <= Z.of_nat fuel * stride ->
  exists t', fill_stride fuel t entry i stride tend = Ok t' /\ length t' = length t /\
    forall j, elem_at t' j = if (i <=? j) && (j <? tend) && ((j - i) mod stride =? 0) then Some entry else elem_at t j.
Proof.
  intros Hs. induction fuel as [|fuel IH]; intros t i Hi Hlen Hf; [lia|]. cbn [fill_stride].
  rewrite wr_ok by lia. cbn [bind]. destruct (Z.ltb_spec (i + stride) tend).
  - destruct (IH (zupd t i entry) (i + stride)) as [t' [E [L F]]]; [lia|rewrite zupd_length; lia|nia|].
    exists t'. split; [exact E|]. split; [rewrite L; apply zupd_length|]. intros j. rewrite F, elem_zupd by lia.
    destruct (Z.eqb_spec j i) as [->|Hne].
    + rewrite Z.sub_diag, Z.mod_0_l by lia. replace (i + stride <=? i) with false by lia. replace ((i <=? i) && (i <? tend)) with true by lia. reflexivity.
    + replace (j - i) with (j - (i + stride) + 1 * stride) by lia. rewrite Z.mod_add by lia.
      destruct (Z_lt_ge_dec j (i + stride)).
      * replace (i + stride <=? j) with false by lia. cbn [andb].
        destruct (Z_lt_ge_dec j i); [replace (i <=? j) with false by lia; reflexivity|].
        rewrite <- (Z.mod_add (j - (i + stride)) 1) by lia. replace (j - (i + stride) + 1 * stride) with (j - i) by lia.
        rewrite (Z.mod_small (j - i)) by lia. replace (j - i =? 0) with false by lia. rewrite andb_false_r. reflexivity.
      * replace (i + stride <=? j) with true by lia. replace (i <=? j) with true by lia. reflexivity.
  - exists (zupd t i entry). split; [reflexivity|]. split; [apply zupd_length|]. intros j. rewrite elem_zupd by lia.
    destruct (Z.eqb_spec j i) as [->|Hne].
    + rewrite Z.sub_diag, Z.mod_0_l by lia. replace ((i <=? i) && (i <? tend)) with true by lia. reflexivity.
    + destruct ((i <=? j) && (j <? tend)) eqn:E; cbn [andb]; [|reflexivity].
      rewrite Z.mod_small by lia. replace (j - i =? 0) with false by lia. reflexivity.
Qed.

Lemma block_eq a b k B : 0 < B -> a * B <= k < a * B + B -> b * B <= k < b * B + B -> a * B = b * B.
Proof. intros. assert (a = b) by nia. now subst. Qed.
Lemma block_le a b B : 0 < B -> a * B < b * B -> a * B + B <= b * B.
Proof. intros. assert (a < b) by nia. nia. Qed.
Lemma block_in a q B : 0 < B -> a * B <= q * B < a * B + B -> a * B = q * B.
Proof. intros. assert (a = q) by nia. now subst. Qed.

Section Sub.
  Context (lens : list Z) (res : Z -> Z).
  Context (counts results : list Z) (T : nat) (cap : nat).
  Context (Hcounts : forall l, len_ok l -> elem_at counts l = Some (count_len lens l)).
  Context (Hresults : forall s, 0 <= s < Z.of_nat (length lens) -> elem_at results s = Some (res s)).
  Context (HT : (1 <= T <= 15)%nat).
  Context (Hcomplete : ksum lens (sorted_syms lens) = 2 ^ 15).
  Context (Hsmall : (length lens <= 288)%nat).
  (* symbols with direct entries, number of symbols in subtables *)
  Context (dm : list Z) (subs : Z).
  Context (Hsubs : Z.of_nat (length (sorted_syms lens)) = Z.of_nat (length dm) + subs).
  Context (Hcap : forall E, Z.even E = true -> E <= subs + waste (15 - Z.of_nat T) - 1 -> 2 ^ Z.of_nat T + E <= Z.of_nat cap).

  Notation TZ := (Z.of_nat T).
  Notation B := (2 ^ (15 - Z.of_nat T)).
  Notation ks := (ksum lens).
  Notation rest cur n := (cur ++ levels lens (S n) (15 - n)).
  Definition sub (s : Z) : Z := make_sub_entry (res s) (len_of lens s).
  Definition pt (i : Z) : Z := read_code T i * B.
  Definition spt (i sb y : Z) : Z := read_code (T + Z.to_nat sb) (i + 2 ^ TZ * y) * 2 ^ (15 - TZ - sb).

  Definition direct (done : list Z) (t : list Z) (i : Z) : Prop :=
    exists d s r, done = d ++ s :: r /\ len_of lens s <= TZ /\ ks d <= pt i /\ pt i + B <= ks d + wt lens s /\ elem_at t i = Some (top lens res s).
  Definition sub_cov (done t : list Z) (i st sb : Z) : Prop :=
    forall y, 0 <= y < 2 ^ sb -> spt i sb y < ks done ->
    exists d s r, done = d ++ s :: r /\ TZ < len_of lens s <= TZ + sb /\ ks d <= spt i sb y /\ spt i sb y + 2 ^ (15 - TZ - sb) <= ks d + wt lens s /\
      elem_at t (st + y) = Some (sub s).
  (* codes of at most m bits *)
  Definition upto (m : Z) (ss : list Z) : Z := ks (filter (fun s => len_of lens s <=? m) ss).

  Lemma upto_cons m s ss : upto m (s :: ss) = (if len_of lens s <=? m then wt lens s else 0) + upto m ss.
  Proof. unfold upto. cbn [filter]. destruct (len_of lens s <=? m); reflexivity. Qed.
  Lemma upto_nonneg m ss : 0 <= upto m ss. Proof. apply ksum_nonneg. Qed.
  Lemma upto_app m a b : upto m (a ++ b) = upto m a + upto m b.
  Proof. unfold upto. rewrite filter_app. apply ksum_app. Qed.
  Lemma upto_all m ss : (forall s, In s ss -> len_of lens s <= m) -> upto m ss = ks ss.
  Proof.
    induction ss as [|s ss IH]; intros H; [reflexivity|]. rewrite upto_cons. cbn [ksum].
    rewrite IH by (intros; apply H; now right). pose proof (H s ltac:(now left)). replace (len_of lens s <=? m) with true by lia. reflexivity.
  Qed.
  Lemma upto_none m ss : (forall s, In s ss -> m < len_of lens s) -> upto m ss = 0.
  Proof.
    induction ss as [|s ss IH]; intros H; [reflexivity|]. rewrite upto_cons.
    rewrite IH by (intros; apply H; now right). pose proof (H s ltac:(now left)). replace (len_of lens s <=? m) with false by lia. reflexivity.
  Qed.

  Lemma upto_rest cur n m : (n <= m <= 15)%nat -> (forall s, In s cur -> len_of lens s = Z.of_nat n) ->
    upto (Z.of_nat m) (rest cur n) = ks (cur ++ levels lens (S n) (m - n)).
  Proof.
    intros Hm Hc. replace (15 - n)%nat with ((m - n) + (15 - m))%nat by lia. rewrite levels_app, app_assoc, upto_app.
    rewrite upto_all, upto_none; [lia| |].
    - intros s Hs. apply levels_in in Hs. lia.
    - intros s Hs. apply in_app_or in Hs. destruct Hs as [Hs|Hs]; [rewrite (Hc s Hs); lia|]. apply levels_in in Hs. lia.
  Qed.

  Lemma size_ok done cur n x K : at_code lens done cur n x -> (T < n)%nat -> K = ks done -> K + B <= 2 ^ 15 ->
    forall fuel j used, (15 - j < fuel)%nat -> (n <= j <= 15)%nat -> used * 2 ^ (15 - Z.of_nat j) = upto (Z.of_nat j) (rest cur n) ->
    0 <= used < 2 ^ 30 ->
    waste (Z.of_nat n - TZ) + (Z.of_nat j - TZ) - 2 ^ (Z.of_nat j - TZ) + used <= Z.of_nat (length (cur ++ levels lens (S n) (j - n))) ->
    (j = n \/ upto (Z.of_nat j - 1) (rest cur n) < B) ->
    exists sb, subtable_size fuel counts TZ (Z.of_nat j - TZ) used = Ok sb /\ Z.of_nat n - TZ <= sb <= 15 - TZ /\
      B <= upto (TZ + sb) (rest cur n) /\ (TZ + sb = Z.of_nat n \/ upto (TZ + sb - 1) (rest cur n) < B) /\
      waste (Z.of_nat n - TZ) + sb <= Z.of_nat (length (rest cur n)).
  Proof.
    intros A Hn HK HKB. pose proof (ac_n _ _ _ _ _ A) as Rn.
    assert (Hcur : forall s, In s cur -> len_of lens s = Z.of_nat n).
    { intros s Hs. destruct (ac_level _ _ _ _ _ A) as [pre Hp]. apply (level_in lens n). rewrite Hp. apply in_or_app. now right. }
    assert (Htot : ks (rest cur n) = 2 ^ 15 - K).
    { pose proof Hcomplete as C. rewrite (ac_sorted _ _ _ _ _ A), ksum_app in C. lia. }
    induction fuel as [|fuel IH]; intros j used Hf Rj Hu Ru Hlen Hmin; [lia|].
    cbn [subtable_size]. pose proof (pow2_pos (15 - Z.of_nat j) ltac:(lia)) as Pj.
    assert (EB : B = 2 ^ (Z.of_nat j - TZ) * 2 ^ (15 - Z.of_nat j)) by (rewrite <- Z.pow_add_r by lia; f_equal; lia).
    destruct (Z.ltb_spec used (2 ^ (Z.of_nat j - TZ))) as [Hlt|Hge].
    - assert (Hj : (j < 15)%nat).
      { destruct (Nat.eq_dec j 15) as [->|]; [|lia]. exfalso.
        rewrite upto_rest in Hu by (auto; lia). rewrite Htot in Hu. nia. }
      replace (TZ + (Z.of_nat j - TZ + 1)) with (Z.of_nat (S j)) by lia.
      rewrite (rd_elem _ _ _ (Hcounts (Z.of_nat (S j)) ltac:(unfold len_ok; lia))). cbn [bind].
      replace (Z.of_nat j - TZ + 1) with (Z.of_nat (S j) - TZ) by lia.
      pose proof (level_length lens (S j)) as LL. pose proof (count_len_le lens (Z.of_nat (S j))) as CL.
      assert (Hused : used < 2 ^ 14).
      { apply Z.lt_le_trans with (2 ^ (Z.of_nat j - TZ)); [lia|]. apply Z.pow_le_mono_r; lia. }
      change (2 ^ 14) with 16384 in Hused.
      assert (Ew : w32 (w32 (Z.shiftl used 1) + count_len lens (Z.of_nat (S j))) = 2 * used + count_len lens (Z.of_nat (S j))).
      { unfold w32. rewrite Z.shiftl_mul_pow2 by lia. change (2 ^ 1) with 2. rewrite (Z.mod_small (used * 2)) by lia. rewrite Z.mod_small by lia. lia. }
      rewrite Ew. apply IH; try lia.
      + rewrite (upto_rest cur n (S j)) by (auto; lia). rewrite (upto_rest cur n j) in Hu by (auto; lia).
        replace (S j - n)%nat with (S (j - n)) by lia. rewrite levels_snoc, app_assoc, ksum_app.
        replace (S n + (j - n))%nat with (S j) by lia. rewrite <- Hu.
        rewrite (ksum_level lens (S j) (level lens (S j))) by (intros s Hs; apply level_in in Hs; apply Hs). rewrite LL.
        replace (15 - Z.of_nat j) with (Z.succ (15 - Z.of_nat (S j))) by lia. rewrite Z.pow_succ_r by lia. ring.
      + replace (S j - n)%nat with (S (j - n)) by lia. rewrite levels_snoc, app_assoc, app_length, Nat2Z.inj_add.
        replace (S n + (j - n))%nat with (S j) by lia. rewrite LL.
        replace (Z.of_nat (S j) - TZ) with (Z.succ (Z.of_nat j - TZ)) by lia. rewrite Z.pow_succ_r by lia. lia.
      + right. replace (Z.of_nat (S j) - 1) with (Z.of_nat j) by lia. rewrite <- Hu, EB. nia.
    - exists (Z.of_nat j - TZ). split; [reflexivity|]. split; [lia|].
      replace (TZ + (Z.of_nat j - TZ)) with (Z.of_nat j) by lia.
      split; [rewrite <- Hu, EB; nia|]. split.
      + destruct Hmin as [->|Hm]; [now left|right; exact Hm].
      + replace (15 - n)%nat with ((j - n) + (15 - j))%nat by lia. rewrite levels_app, app_assoc, app_length. lia.
  Qed.

  Lemma next_len_ok : forall fuel n cur, (16 - n < fuel)%nat -> (1 <= n <= 15)%nat -> rest cur n <> [] ->
    exists n' cur', next_len fuel counts (Z.of_nat n) (Z.of_nat (length cur)) = Ok (Z.of_nat n', Z.of_nat (length cur')) /\
      cur' <> [] /\ rest cur n = rest cur' n' /\ ((n' = n /\ cur' = cur) \/ ((n < n' <= 15)%nat /\ cur = [] /\ cur' = level lens n')).
  Proof.
    induction fuel as [|fuel IH]; intros n cur Hf Hn Hne; [lia|]. cbn [next_len].
    destruct (Z.eqb_spec (Z.of_nat (length cur)) 0) as [E|E].
    - assert (cur = []) by (destruct cur; [reflexivity|cbn [length] in E; lia]). subst cur. cbn [app] in *.
      assert (n < 15)%nat by (destruct (Nat.eq_dec n 15) as [->|]; [exfalso; apply Hne; reflexivity|lia]).
      replace (Z.of_nat n + 1) with (Z.of_nat (S n)) by lia.
      rewrite (rd_elem _ _ _ (Hcounts (Z.of_nat (S n)) ltac:(unfold len_ok; lia))). cbn [bind].
      rewrite <- (level_length lens (S n)).
      replace (15 - n)%nat with (S (15 - S n)) in Hne |- * by lia. rewrite levels_S in Hne |- *.
      destruct (IH (S n) (level lens (S n))) as [n' [cur' [E' [N' [R' C']]]]]; [lia|lia|exact Hne|].
      exists n', cur'. split; [exact E'|]. split; [exact N'|]. split; [exact R'|]. right.
      destruct C' as [[-> ->]|[Rn [_ ->]]]; split; try lia; auto.
    - exists n, cur. split; [reflexivity|]. split; [intros ->; cbn in E; lia|]. split; [reflexivity|]. left. auto.
  Qed.

  Record sub_inv (ds cur : list Z) (n : nat) (x : Z) (t : list Z) (start tend pv lim sb : Z) : Prop := SubInv {
    si_at : at_code lens (dm ++ ds) cur n x;
    si_T : (T < n)%nat;
    si_len : length t = cap;
    si_direct : forall i, 0 <= i < 2 ^ TZ -> pt i < ks dm -> direct dm t i;
    si_links : forall i, 0 <= i < 2 ^ TZ -> ks dm <= pt i -> pt i < lim ->
      exists st sb', 1 <= sb' <= 15 - TZ /\ 2 ^ TZ <= st /\ (if i =? pv then st = start /\ sb' = sb else st + 2 ^ sb' <= start) /\
        elem_at t i = Some (make_sub_link st TZ (TZ + sb')) /\ sub_cov (dm ++ ds) t i st sb';
    si_lim : exists q, lim = q * B;
    si_k : ks (dm ++ ds) <= lim <= 2 ^ 15;
    si_pv : (pv = -1 /\ lim = ks dm /\ ds = []) \/ (0 <= pv < 2 ^ TZ /\ pt pv + B = lim /\ lim - B <= ks (dm ++ ds) /\ ks dm <= pt pv /\ tend = start + 2 ^ sb);
    si_blk : ks (dm ++ ds) < lim -> 1 <= sb <= 15 - TZ /\ lim <= ks (dm ++ ds) + upto (TZ + sb) (rest cur n) /\
      (TZ + sb <= Z.of_nat n \/ ks (dm ++ ds) + upto (TZ + sb - 1) (rest cur n) < lim) /\
      (exists r, lim - ks (dm ++ ds) = r * 2 ^ (15 - Z.of_nat n) /\
        tend - 2 ^ TZ <= Z.of_nat (length ds) + 2 ^ sb - (Z.of_nat n - TZ) + r - 1);
    si_bnd : ks (dm ++ ds) = lim -> tend - 2 ^ TZ <= Z.of_nat (length ds) + waste (Z.of_nat n - TZ) - 1;
    si_even : Z.even (tend - 2 ^ TZ) = true;
    si_ends : 0 <= start <= tend /\ 2 ^ TZ <= tend <= Z.of_nat cap /\ (pv <> -1 -> 2 ^ TZ <= start);
  }.

  Lemma pt_inj i j : 0 <= i < 2 ^ TZ -> 0 <= j < 2 ^ TZ -> pt i = pt j -> i = j.
  Proof. intros Hi Hj H. apply (rc_inj T); auto. unfold pt in H. pose proof (pow2_pos (15 - TZ) ltac:(lia)). nia. Qed.

  Lemma at_prefix done cur n x : at_code lens done cur n x -> (T <= n)%nat ->
    0 <= x mod 2 ^ TZ < 2 ^ TZ /\ pt (x mod 2 ^ TZ) <= ks done < pt (x mod 2 ^ TZ) + B.
  Proof.
    intros A Hn. pose proof (pow2_pos TZ ltac:(lia)) as P0. split; [apply Z.mod_pos_bound; lia|].
    unfold pt. rewrite rc_mod by lia. pose proof (rc_prefix T n x Hn) as Pf. rewrite <- (ac_k _ _ _ _ _ A).
    pose proof (ac_n _ _ _ _ _ A) as Rn.
    assert (EB : B = 2 ^ Z.of_nat (n - T) * 2 ^ (15 - Z.of_nat n)) by (rewrite <- Z.pow_add_r by lia; f_equal; lia).
    pose proof (pow2_pos (15 - Z.of_nat n) ltac:(lia)). pose proof (pow2_pos (Z.of_nat (n - T)) ltac:(lia)).
    rewrite EB. pose proof (Z.div_mod (read_code n x) (2 ^ Z.of_nat (n - T)) ltac:(lia)) as DM.
    pose proof (Z.mod_pos_bound (read_code n x) (2 ^ Z.of_nat (n - T)) ltac:(lia)) as MB. rewrite Pf in DM.
    set (a := read_code T x) in *. set (b := read_code n x) in *. set (c := 2 ^ Z.of_nat (n - T)) in *. set (e := 2 ^ (15 - Z.of_nat n)) in *.
    clear - DM MB H H0. nia.
  Qed.

  Lemma rc_sub_prefix i sb y : 0 <= sb -> 0 <= i < 2 ^ TZ -> read_code T (i + 2 ^ TZ * y) = read_code T i.
  Proof.
    intros Hsb Hi. rewrite <- (rc_mod T TZ (i + 2 ^ TZ * y)) by lia.
    rewrite Z.mul_comm, Z.mod_add by (apply Z.pow_nonzero; lia). rewrite Z.mod_small by lia. reflexivity.
  Qed.
  Lemma spt_range i sb y : 0 <= sb <= 15 - TZ -> 0 <= i < 2 ^ TZ -> pt i <= spt i sb y /\ spt i sb y + 2 ^ (15 - TZ - sb) <= pt i + B.
  Proof.
    intros Hsb Hi. unfold spt, pt. rewrite <- (rc_sub_prefix i sb y) by lia.
    pose proof (rc_prefix T (T + Z.to_nat sb) (i + 2 ^ TZ * y) ltac:(lia)) as Pf.
    replace (Z.of_nat (T + Z.to_nat sb - T)) with sb in Pf by lia.
    rewrite (pow2_split (15 - TZ) sb) by lia.
    pose proof (pow2_pos (15 - TZ - sb) ltac:(lia)). pose proof (pow2_pos sb ltac:(lia)).
    pose proof (Z.div_mod (read_code (T + Z.to_nat sb) (i + 2 ^ TZ * y)) (2 ^ sb) ltac:(lia)) as DM.
    pose proof (Z.mod_pos_bound (read_code (T + Z.to_nat sb) (i + 2 ^ TZ * y)) (2 ^ sb) ltac:(lia)) as MB. rewrite Pf in DM.
    set (a := read_code T (i + 2 ^ TZ * y)) in *. set (b := read_code (T + Z.to_nat sb) (i + 2 ^ TZ * y)) in *.
    set (c := 2 ^ sb) in *. set (e := 2 ^ (15 - TZ - sb)) in *. clear - DM MB H H0. nia.
  Qed.

  (* opening a subtable for the prefix of the current codeword *)
  Lemma open_ok ds cur n x t start tend pv lim sb : sub_inv ds cur n x t start tend pv lim sb ->
    let p := Z.land x (mask32 TZ) in
    exists t' start' tend' lim' sb',
      (if p =? pv then Ok (t, start, tend) else
        let* sb := subtable_size 32 counts TZ (Z.of_nat n - TZ) (Z.of_nat (length cur)) in
        let* t := wr t p (make_sub_link tend TZ (TZ + sb)) in
        Ok (t, tend, tend + 2 ^ sb)) = Ok (t', start', tend') /\
      sub_inv ds cur n x t' start' tend' p lim' sb' /\ ks (dm ++ ds) < lim' /\ p = x mod 2 ^ TZ.
  Proof.
    intros I p. assert (Ep : p = x mod 2 ^ TZ) by (apply land_mask; lia).
    destruct (at_prefix _ _ _ _ (si_at _ _ _ _ _ _ _ _ _ _ I) ltac:(pose proof (si_T _ _ _ _ _ _ _ _ _ _ I); lia)) as [Rp Kp].
    rewrite <- Ep in Rp, Kp. pose proof (pow2_pos (15 - TZ) ltac:(lia)) as B0. pose proof (pow2_pos TZ ltac:(lia)) as P0.
    destruct I as [A HTn Hlen Hdir Hlinks [q Hq] Hk Hpv Hblk Hbnd Heven [Hst [Htend Hst2]]].
    pose proof (ac_n _ _ _ _ _ A) as Rn.
    destruct (Z.eqb_spec p pv) as [->|Hne].
    - exists t, start, tend, lim, sb. split; [reflexivity|]. split; [|split; [|exact Ep]].
      + constructor; eauto.
      + destruct Hpv as [[-> _]|[_ [E _]]]; lia.
    - assert (Hlim : ks (dm ++ ds) = lim).
      { destruct Hpv as [[_ [-> ->]]|[Rpv [E1 [E2 _]]]]; [now rewrite app_nil_r|].
        destruct (Z_lt_ge_dec (ks (dm ++ ds)) lim); [exfalso|lia]. apply Hne. apply pt_inj; auto.
        apply (block_eq (read_code T p) (read_code T pv) (ks (dm ++ ds)) B); [lia|exact Kp|unfold pt in E1; lia]. }
      assert (Ept : pt p = lim).
      { rewrite Hq. apply block_in; [lia|]. rewrite <- Hq, <- Hlim. exact Kp. }
      assert (Hlt : lim < 2 ^ 15).
      { destruct (Z.eq_dec lim (2 ^ 15)) as [E|]; [exfalso|lia].
        assert (ks (rest cur n) = 0).
        { pose proof Hcomplete as C. rewrite (ac_sorted _ _ _ _ _ A), ksum_app in C. lia. }
        assert (Hz : rest cur n = []).
        { apply (ksum_zero lens res counts results T cap Hcounts Hresults HT); [|assumption]. intros y Hy. apply wt_ge1. rewrite (ac_sorted _ _ _ _ _ A). apply in_or_app. now right. }
        apply (ac_cur _ _ _ _ _ A). destruct cur; [reflexivity|discriminate]. }
      assert (HlimB : lim + B <= 2 ^ 15).
      { rewrite (pow2_split 15 (15 - TZ)) in Hlt |- * by lia. rewrite Hq in Hlt |- *. rewrite (Z.mul_comm B) in Hlt |- *. apply block_le; lia. }
      assert (Hcur : forall s, In s cur -> len_of lens s = Z.of_nat n).
      { intros s Hs. destruct (ac_level _ _ _ _ _ A) as [pre Hp]. apply (level_in lens n). rewrite Hp. apply in_or_app. now right. }
      assert (Lcur : (length cur <= 288)%nat).
      { destruct (ac_level _ _ _ _ _ A) as [pre Hp]. pose proof (level_length lens n) as LL. rewrite Hp, app_length in LL.
        pose proof (count_len_le lens (Z.of_nat n)). lia. }
      destruct (size_ok _ _ _ _ _ A HTn eq_refl ltac:(lia) 32 n (Z.of_nat (length cur))) as [sb' [Es [Rsb [Hcov [Hmin Hcnt]]]]].
      { lia. } { lia. }
      { rewrite upto_rest by (auto; lia). rewrite Nat.sub_diag. cbn [levels seq flat_map]. rewrite app_nil_r.
        rewrite (ksum_level lens n cur Hcur). reflexivity. }
      { change (2 ^ 30) with 1073741824. lia. }
      { unfold waste. rewrite Nat.sub_diag. cbn [levels seq flat_map]. rewrite app_nil_r. lia. }
      { now left. }
      rewrite Es. cbn [bind].
      pose proof (Hbnd Hlim) as Hb.
      assert (Lrest : Z.of_nat (length (rest cur n)) = subs - Z.of_nat (length ds)).
      { pose proof Hsubs as S'. rewrite (ac_sorted _ _ _ _ _ A), <- app_assoc, !app_length in S'. rewrite app_length. lia. }
      assert (P2 : 2 ^ sb' = 2 * 2 ^ (sb' - 1)) by (rewrite <- Z.pow_succ_r by lia; f_equal; lia).
      assert (Hcap' : 2 ^ TZ + (tend - 2 ^ TZ + 2 ^ sb') <= Z.of_nat cap).
      { apply Hcap.
        - rewrite Z.even_add, Heven, P2, Z.even_mul. reflexivity.
        - pose proof (waste_mono sb' (15 - TZ) ltac:(lia)) as W. unfold waste in *. lia. }
      rewrite wr_ok by lia. cbn [bind].
      eexists _, _, _, (lim + B), sb'. split; [reflexivity|]. split; [|split; [lia|exact Ep]].
      constructor.
      + exact A.
      + exact HTn.
      + rewrite zupd_length. exact Hlen.
      + intros i Hi HP. destruct (Hdir i Hi HP) as [d [s [r [E [L [I1 [I2 E2]]]]]]]. exists d, s, r. rewrite elem_zupd by lia.
        replace (i =? p) with false; [auto|]. symmetry. apply Z.eqb_neq. intros ->.
        rewrite ksum_app in Hlim. pose proof (ksum_nonneg lens ds). lia.
      + intros i Hi HP1 HP2. rewrite elem_zupd by lia. destruct (Z.eqb_spec i p) as [->|Hip].
        * exists tend, sb'. split; [lia|]. split; [lia|]. split; [auto|]. split; [reflexivity|].
          intros y Hy Hs. exfalso. pose proof (spt_range p sb' y ltac:(lia) Hi). lia.
        * assert (pt i < lim).
          { destruct (Z_lt_ge_dec (pt i) lim); [assumption|]. exfalso. apply Hip. apply pt_inj; auto. rewrite Ept, Hq. symmetry. unfold pt. apply block_in; [lia|]. rewrite <- Hq. fold (pt i). lia. }
          destruct (Hlinks i Hi HP1 H) as [st [sb1 [R1 [R2 [R3 [R4 R5]]]]]].
          assert (R6 : st + 2 ^ sb1 <= tend).
          { destruct (i =? pv) eqn:Ei; [|lia]. destruct R3 as [-> ->]. destruct Hpv as [[-> _]|Hpv]; [lia|lia]. }
          exists st, sb1. split; [lia|]. split; [lia|]. split; [exact R6|]. split; [exact R4|].
          intros y Hy Hs. destruct (R5 y Hy Hs) as [d [s [r [E [L [I1 [I2 E2]]]]]]]. exists d, s, r. rewrite elem_zupd by lia.
          replace (st + y =? p) with false by lia. auto.
      + exists (q + 1). lia.
      + lia.
      + right. split; [lia|]. split; [lia|]. split; [lia|]. split; [|lia]. rewrite Ept, <- Hlim, ksum_app. pose proof (ksum_nonneg lens ds). lia.
      + intros _. split; [lia|]. split; [lia|]. split; [destruct Hmin; [left; lia|right; lia]|].
        exists (2 ^ (Z.of_nat n - TZ)). split.
        * replace (lim + B - ks (dm ++ ds)) with B by lia. rewrite <- Z.pow_add_r by lia. f_equal. lia.
        * unfold waste in Hb. lia.
      + intros C. exfalso. lia.
      + replace (tend + 2 ^ sb' - 2 ^ TZ) with (tend - 2 ^ TZ + 2 ^ sb') by lia. rewrite Z.even_add, Heven, P2, Z.even_mul. reflexivity.
      + pose proof (pow2_pos sb' ltac:(lia)). repeat split; lia.
  Qed.

  (* placing the current symbol into the open subtable *)
  Lemma place_ok ds s cur n x t start tend lim sb : sub_inv ds (s :: cur) n x t start tend (x mod 2 ^ TZ) lim sb -> ks (dm ++ ds) < lim ->
    exists t', fill_stride (Z.to_nat tend) t (make_sub_entry (res s) (Z.of_nat n)) (start + Z.shiftr x TZ) (2 ^ (Z.of_nat n - TZ)) tend = Ok t' /\
      length t' = cap /\ Z.of_nat n <= TZ + sb /\ ks (dm ++ ds) + wt lens s <= lim /\
      (forall i, 0 <= i < 2 ^ TZ -> pt i < ks dm -> direct dm t' i) /\
      (forall i, 0 <= i < 2 ^ TZ -> ks dm <= pt i -> pt i < lim ->
        exists st sb', 1 <= sb' <= 15 - TZ /\ 2 ^ TZ <= st /\ (if i =? x mod 2 ^ TZ then st = start /\ sb' = sb else st + 2 ^ sb' <= start) /\
        elem_at t' i = Some (make_sub_link st TZ (TZ + sb')) /\ sub_cov (dm ++ ds ++ [s]) t' i st sb').
  Proof.
    intros I HKlim. pose proof (si_at _ _ _ _ _ _ _ _ _ _ I) as A. destruct (at_code_cons lens res counts results T cap Hcounts Hresults HT Hcomplete _ _ _ _ _ A) as [El [Rs [Ws _]]].
    destruct (at_prefix _ _ _ _ A ltac:(pose proof (si_T _ _ _ _ _ _ _ _ _ _ I); lia)) as [Rp Kp].
    destruct I as [_ HTn Hlen Hdir Hlinks [q Hq] Hk Hpv Hblk Hbnd Heven [Hst [Htend Hst2]]].
    set (p := x mod 2 ^ TZ) in *. pose proof (ac_n _ _ _ _ _ A) as Rn. pose proof (pow2_pos (15 - TZ) ltac:(lia)) as B0. pose proof (pow2_pos TZ ltac:(lia)) as P0.
    specialize (Hst2 ltac:(lia)). destruct Hpv as [[C _]|[_ [Hlim [_ [Hdmp Htd]]]]]; [lia|].
    destruct (Hblk HKlim) as [Rsb [Hcov [_ _]]].
    assert (Hnsb : Z.of_nat n <= TZ + sb).
    { destruct (Z_le_gt_dec (Z.of_nat n) (TZ + sb)); [assumption|exfalso].
      rewrite upto_none in Hcov; [lia|]. intros y Hy. cbn [app] in Hy.
      destruct Hy as [<-|Hy]; [lia|]. apply in_app_or in Hy. destruct Hy as [Hy|Hy].
      - destruct (ac_level _ _ _ _ _ A) as [pre Hp]. destruct (level_in lens n y) as [_ E]; [rewrite Hp; apply in_or_app; right; now right|lia].
      - apply levels_in in Hy. lia. }
    pose proof (pow2_pos (15 - Z.of_nat n) ltac:(lia)) as Bn0. pose proof (pow2_pos (Z.of_nat n - TZ) ltac:(lia)) as Sn0. pose proof (pow2_pos sb ltac:(lia)) as Ssb0.
    pose proof (ac_x _ _ _ _ _ A) as Rx. pose proof (ac_k _ _ _ _ _ A) as HK.
    assert (Rc : 0 <= Z.shiftr x TZ < 2 ^ (Z.of_nat n - TZ)).
    { rewrite Z.shiftr_div_pow2 by lia. split; [apply Z.div_pos; lia|]. apply Z.div_lt_upper_bound; [lia|].
      rewrite <- Z.pow_add_r by lia. replace (TZ + (Z.of_nat n - TZ)) with (Z.of_nat n) by lia. lia. }
    assert (Hpow : 2 ^ (Z.of_nat n - TZ) <= 2 ^ sb) by (apply Z.pow_le_mono_r; lia).
    set (c := Z.shiftr x TZ) in *. set (stride := 2 ^ (Z.of_nat n - TZ)) in *.
    destruct (fill_stride_ok (make_sub_entry (res s) (Z.of_nat n)) stride tend ltac:(lia) (Z.to_nat tend) t (start + c)) as [t' [E [L F]]].
    { lia. } { lia. } { rewrite Z2Nat.id by lia. clear - Hst Rc Htend Sn0 P0. nia. }
    exists t'. split; [exact E|]. split; [lia|]. split; [exact Hnsb|].
    assert (HKw : ks (dm ++ ds) + wt lens s <= lim).
    { rewrite Ws, <- HK. rewrite <- HK, Hq in HKlim. rewrite Hq.
      assert (EB : q * B = q * stride * 2 ^ (15 - Z.of_nat n)).
      { rewrite <- Z.mul_assoc. f_equal. unfold stride. rewrite <- Z.pow_add_r by lia. f_equal. lia. }
      rewrite EB in HKlim |- *. apply block_le; assumption. }
    split; [exact HKw|].
    assert (Fout : forall j, j < start \/ tend <= j -> elem_at t' j = elem_at t j).
    { intros j Hj. rewrite F. replace ((start + c <=? j) && (j <? tend)) with false by lia. reflexivity. }
    split.
    { intros i Hi HP. destruct (Hdir i Hi HP) as [d [s' [r [E1 [L1 [I1 [I2 E2]]]]]]]. exists d, s', r. rewrite Fout by lia. auto. }
    intros i Hi HP1 HP2. destruct (Hlinks i Hi HP1 HP2) as [st [sb' [R1 [R2 [R3 [R4 R5]]]]]].
    exists st, sb'. split; [exact R1|]. split; [exact R2|]. split; [exact R3|]. rewrite Fout by lia. split; [exact R4|].
    assert (Hold : forall y, 0 <= y < 2 ^ sb' -> spt i sb' y < ks (dm ++ ds) -> elem_at t' (st + y) = elem_at t (st + y) ->
      exists d s0 r, dm ++ ds ++ [s] = d ++ s0 :: r /\ TZ < len_of lens s0 <= TZ + sb' /\ ks d <= spt i sb' y /\
        spt i sb' y + 2 ^ (15 - TZ - sb') <= ks d + wt lens s0 /\ elem_at t' (st + y) = Some (sub s0)).
    { intros y Hy HQ He. destruct (R5 y Hy HQ) as [d [s' [r [E1 [L1 [I1 [I2 E2]]]]]]]. exists d, s', (r ++ [s]).
      rewrite app_assoc, E1, <- app_assoc. rewrite He. auto. }
    intros y Hy HQ.
    destruct (Z.eqb_spec i p) as [->|Hip].
    2:{ apply Hold; [exact Hy| |apply Fout; lia].
        (* an older subtable lies entirely below the current block *)
        pose proof (spt_range i sb' y ltac:(lia) Hi) as [_ Q2].
        assert (pt i + B <= pt p).
        { assert (pt i <> pt p) by (intros C; apply Hip, pt_inj; auto). apply block_le; [lia|]. fold (pt i) (pt p). destruct (Z_lt_ge_dec (pt i) (pt p)); [assumption|]. exfalso.
          apply H. symmetry. unfold pt. apply block_in; [lia|]. fold (pt i) (pt p). lia. }
        lia. }
    destruct R3 as [-> ->].
    (* index y of the current subtable *)
    assert (Hpre : read_code n (p + 2 ^ TZ * y) * 2 ^ (15 - Z.of_nat n) <= spt p sb y /\
      spt p sb y + 2 ^ (15 - TZ - sb) <= read_code n (p + 2 ^ TZ * y) * 2 ^ (15 - Z.of_nat n) + 2 ^ (15 - Z.of_nat n)).
    { unfold spt. pose proof (rc_prefix n (T + Z.to_nat sb) (p + 2 ^ TZ * y) ltac:(lia)) as Pf.
      replace (Z.of_nat (T + Z.to_nat sb - n)) with (TZ + sb - Z.of_nat n) in Pf by lia.
      rewrite (pow2_split (15 - Z.of_nat n) (TZ + sb - Z.of_nat n)) by lia.
      replace (15 - Z.of_nat n - (TZ + sb - Z.of_nat n)) with (15 - TZ - sb) by lia.
      pose proof (pow2_pos (TZ + sb - Z.of_nat n) ltac:(lia)) as Pc. pose proof (pow2_pos (15 - TZ - sb) ltac:(lia)) as Pe.
      pose proof (Z.div_mod (read_code (T + Z.to_nat sb) (p + 2 ^ TZ * y)) (2 ^ (TZ + sb - Z.of_nat n)) ltac:(lia)) as DM.
      pose proof (Z.mod_pos_bound (read_code (T + Z.to_nat sb) (p + 2 ^ TZ * y)) (2 ^ (TZ + sb - Z.of_nat n)) ltac:(lia)) as MB.
      rewrite Pf in DM.
      set (a := read_code n (p + 2 ^ TZ * y)) in *. set (b := read_code (T + Z.to_nat sb) (p + 2 ^ TZ * y)) in *.
      set (k := 2 ^ (TZ + sb - Z.of_nat n)) in *. set (e := 2 ^ (15 - TZ - sb)) in *. clear - DM MB Pc Pe. nia. }
    assert (Hclass : (y mod stride = c) <-> read_code n (p + 2 ^ TZ * y) = read_code n x).
    { assert (Em : (p + 2 ^ TZ * y) mod 2 ^ Z.of_nat n = p + 2 ^ TZ * (y mod stride)).
      { rewrite (Z.div_mod y stride) at 1 by lia. unfold stride at 1.
        replace (p + 2 ^ TZ * (2 ^ (Z.of_nat n - TZ) * (y / stride) + y mod stride)) with
          (p + 2 ^ TZ * (y mod stride) + (y / stride) * 2 ^ Z.of_nat n)
          by (rewrite (pow2_split (Z.of_nat n) TZ) by lia; ring).
        rewrite Z.mod_add by (apply Z.pow_nonzero; lia). apply Z.mod_small.
        pose proof (Z.mod_pos_bound y stride ltac:(lia)) as Mb. rewrite (pow2_split (Z.of_nat n) TZ) by lia. fold stride. clear - Mb Rp P0. nia. }
      assert (Ex : x = p + 2 ^ TZ * c).
      { unfold p, c. rewrite Z.shiftr_div_pow2 by lia. pose proof (Z.div_mod x (2 ^ TZ) ltac:(lia)). lia. }
      split; intros H.
      - rewrite <- (rc_mod n (Z.of_nat n) (p + 2 ^ TZ * y)) by lia. rewrite Em, H, <- Ex. reflexivity.
      - rewrite <- (rc_mod n (Z.of_nat n) (p + 2 ^ TZ * y)) in H by lia.
        apply rc_inj in H; [|apply Z.mod_pos_bound; apply pow2_pos; lia|exact Rx]. rewrite Em in H. clear - H Ex P0. nia. }
    assert (Hidx : ((start + c <=? start + y) && (start + y <? tend) && ((start + y - (start + c)) mod stride =? 0)) = (y mod stride =? c)).
    { replace (start + y - (start + c)) with (y - c) by lia. rewrite Htd. replace (start + y <? start + 2 ^ sb) with true by lia. rewrite andb_true_r.
      pose proof (Z.mod_pos_bound y stride ltac:(lia)) as Mb.
      destruct (Z.eqb_spec (y mod stride) c) as [Ec|Ec].
      - pose proof (Z.mod_le y stride ltac:(lia) ltac:(lia)). replace (start + c <=? start + y) with true by lia. cbn [andb].
        replace ((y - c) mod stride) with 0; [reflexivity|]. rewrite <- Ec, Zminus_mod_idemp_r, Z.sub_diag, Z.mod_0_l; lia.
      - destruct (start + c <=? start + y); [|reflexivity]. cbn [andb]. apply Z.eqb_neq. intros C. apply Ec.
        assert (Hc0 : c = c mod stride) by (symmetry; apply Z.mod_small; lia).
        replace y with (y - c + c) by lia. rewrite Z.add_mod, C, <- Hc0 by lia. rewrite Z.add_0_l. symmetry. exact Hc0. }
    assert (HK' : ks (dm ++ ds ++ [s]) = ks (dm ++ ds) + wt lens s) by (rewrite app_assoc, (ksum_app lens (dm ++ ds)); cbn [ksum]; lia).
    rewrite HK', Ws in HQ.
    destruct (Z.eqb_spec (y mod stride) c) as [Ec|Ec].
    - exists (dm ++ ds), s, []. rewrite app_assoc. split; [reflexivity|]. rewrite El. split; [lia|].
      rewrite Ws, <- HK. apply Hclass in Ec. rewrite Ec in Hpre. split; [lia|]. split; [lia|].
      rewrite F, Hidx. unfold sub. rewrite El. reflexivity.
    - apply Hold; [exact Hy| |rewrite F, Hidx; reflexivity].
      assert (Hne : read_code n (p + 2 ^ TZ * y) <> read_code n x) by (intros C; apply Ec, Hclass, C).
      pose proof (pow2_pos (15 - TZ - sb) ltac:(lia)).
      set (a := read_code n (p + 2 ^ TZ * y)) in *. set (b := 2 ^ (15 - Z.of_nat n)) in *. rewrite <- HK in HQ |- *.
      destruct Hpre as [H1 H2]. clear - H1 H2 HQ Hne Bn0 H. fold b in Bn0. set (k := read_code n x) in *. assert (a < k) by nia. nia.
  Qed.

  (* a table in which every index leads to the symbol whose code it starts with *)
  Definition final_ok (t : list Z) : Prop :=
    forall i, 0 <= i < 2 ^ TZ -> direct (sorted_syms lens) t i \/
      exists st sb, 1 <= sb <= 15 - TZ /\ 2 ^ TZ <= st /\ st + 2 ^ sb <= Z.of_nat cap /\
        elem_at t i = Some (make_sub_link st TZ (TZ + sb)) /\
        forall y, 0 <= y < 2 ^ sb -> exists d s r, sorted_syms lens = d ++ s :: r /\ TZ < len_of lens s <= TZ + sb /\
          ks d <= spt i sb y /\ spt i sb y + 2 ^ (15 - TZ - sb) <= ks d + wt lens s /\ elem_at t (st + y) = Some (sub s).

  Lemma fill_sub_ok tl : forall fuel ds cur n x t start tend pv lim sb, (length (rest cur n) < fuel)%nat ->
    sub_inv ds cur n x t start tend pv lim sb ->
    exists t', fill_sub fuel counts results TZ t (map Some (rest cur n) ++ tl) x (Z.of_nat n) (Z.of_nat (length cur)) tend start pv = Ok t' /\
      length t' = cap /\ final_ok t'.
  Proof.
    induction fuel as [|fuel IH]; intros ds cur n x t start tend pv lim sb Hf I; [lia|].
    cbn [fill_sub].
    destruct (open_ok _ _ _ _ _ _ _ _ _ _ I) as [t1 [start1 [tend1 [lim1 [sb1 [E1 [I1 [K1 Ep]]]]]]]].
    rewrite E1. cbn [bind]. clear E1 I.
    pose proof (si_at _ _ _ _ _ _ _ _ _ _ I1) as A.
    destruct cur as [|s cur]; [exfalso; apply (ac_cur _ _ _ _ _ A); reflexivity|].
    destruct (at_code_cons lens res counts results T cap Hcounts Hresults HT Hcomplete _ _ _ _ _ A) as [El [Rs [Ws Xs]]].
    cbn [app map]. change (rdi (Some s :: map Some (rest cur n) ++ tl) 0) with (@Ok Z s). cbn [bind].
    rewrite (rd_elem _ _ _ (Hresults s Rs)). cbn [bind].
    rewrite Ep in I1 |- *. clear Ep pv t start tend lim sb.
    destruct (place_ok _ _ _ _ _ _ _ _ _ _ I1 K1) as [t2 [E2 [L2 [Hnsb [KW [D2 Lk2]]]]]].
    rewrite E2. cbn [bind skipn]. clear E2.
    destruct I1 as [_ HTn _ _ _ [q Hq] Hk Hpv Hblk _ Heven [Hst [Htend Hst2]]].
    pose proof (ac_n _ _ _ _ _ A) as Rn. pose proof (ac_x _ _ _ _ _ A) as Rx.
    pose proof (pow2_pos (15 - TZ) ltac:(lia)) as B0. pose proof (pow2_pos TZ ltac:(lia)) as P0.
    assert (Rp : 0 <= x mod 2 ^ TZ < 2 ^ TZ) by (apply Z.mod_pos_bound; lia).
    set (p := x mod 2 ^ TZ) in *. specialize (Hst2 ltac:(lia)).
    destruct Hpv as [[C _]|[_ [Hlim [HlimK [Hdmp Htd]]]]]; [lia|].
    assert (Em : mask32 (Z.of_nat n) = 2 ^ Z.of_nat n - 1) by reflexivity.
    rewrite Em.
    assert (HK' : ks (dm ++ ds ++ [s]) = ks (dm ++ ds) + wt lens s) by (rewrite app_assoc, (ksum_app lens (dm ++ ds)); cbn [ksum]; lia).
    destruct (Z.eqb_spec x (2 ^ Z.of_nat n - 1)) as [Ex|Ex].
    - apply Xs in Ex. exists t2. split; [reflexivity|]. split; [exact L2|].
      assert (Es : sorted_syms lens = dm ++ ds ++ [s]).
      { rewrite (ac_sorted _ _ _ _ _ A). cbn [app]. rewrite Ex, <- app_assoc. reflexivity. }
      assert (Hl : lim1 = 2 ^ 15) by (rewrite Es in Hcomplete; lia).
      intros i Hi. destruct (Z_lt_ge_dec (pt i) (ks dm)) as [Hlo|Hhi].
      + left. destruct (D2 i Hi Hlo) as [d [s' [r [E [L [Q1 [Q2 E2]]]]]]]. exists d, s', (r ++ ds ++ [s]).
        rewrite Es, E, <- app_assoc. auto.
      + right. assert (Hp15 : pt i + B <= 2 ^ 15).
        { unfold pt. pose proof (rc_range T i). rewrite (pow2_split 15 (15 - TZ)) by lia. replace (15 - (15 - TZ)) with TZ by lia. nia. }
        destruct (Lk2 i Hi ltac:(lia) ltac:(lia)) as [st [sb' [R1 [R2 [R3 [R4 R5]]]]]].
        exists st, sb'. split; [exact R1|]. split; [exact R2|]. split.
        { destruct (i =? p); [destruct R3 as [-> ->]|]; lia. }
        split; [exact R4|]. intros y Hy. rewrite Es. apply R5; [exact Hy|].
        rewrite <- Es, Hcomplete. pose proof (spt_range i sb' y ltac:(lia) Hi). pose proof (pow2_pos (15 - TZ - sb') ltac:(lia)). lia.
    - destruct (next_codeword_ok n x Rx Ex) as [x' [Ey [Ry Rc]]]. rewrite Ey. cbn [bind].
      destruct (at_code_next lens res counts results T cap Hcounts Hresults HT Hcomplete _ _ _ _ _ _ A Ry Rc) as [N1 N2].
      assert (Hne : rest cur n <> []) by (intros C; apply Ex, Xs, C).
      replace (Z.of_nat (length (s :: cur)) - 1) with (Z.of_nat (length cur)) by (cbn [length]; lia).
      destruct (next_len_ok 32 n cur ltac:(lia) Rn Hne) as [n' [cur' [En [Nc [Er Hc]]]]]. rewrite En. cbn [bind].
      cbn [app length] in Hf. rewrite Er in Hf |- *. rewrite <- app_assoc in N1, N2.
      assert (Rn' : (n <= n' <= 15)%nat) by (destruct Hc as [[-> _]|[Q _]]; lia).
      apply (IH (ds ++ [s]) cur' n' x' t2 start1 tend1 p lim1 sb1); [lia|].
      destruct (Hblk K1) as [Rsb [Hcov [Hmin [r [Hr HE]]]]]. cbn [app] in Hcov, Hmin. rewrite Er, upto_cons in Hcov, Hmin.
      replace (len_of lens s <=? TZ + sb1) with true in Hcov by lia.
      pose proof (pow2_pos (15 - Z.of_nat n) ltac:(lia)) as Bn. pose proof (upto_nonneg (TZ + sb1 - 1) (rest cur' n')) as Un.
      constructor.
      + destruct Hc as [[-> ->]|[Rn2 [-> ->]]]; [apply N1; exact Nc|]. apply N2; auto.
      + lia.
      + exact L2.
      + exact D2.
      + exact Lk2.
      + exists q. exact Hq.
      + lia.
      + right. pose proof (wt_ge1 lens s). split; [exact Rp|]. split; [exact Hlim|]. split; [rewrite HK', Ws; lia|]. split; [exact Hdmp|exact Htd].
      + rewrite HK'. intros Hlt. split; [exact Rsb|]. split; [lia|]. split.
        { destruct Hmin as [Hm|Hm]; [left; lia|]. destruct (Z_le_gt_dec (TZ + sb1) (Z.of_nat n)); [left; lia|].
          replace (len_of lens s <=? TZ + sb1 - 1) with true in Hm by lia. right; lia. }
        exists ((r - 1) * 2 ^ (Z.of_nat n' - Z.of_nat n)). rewrite Ws in Hlt |- *. split.
        * replace (2 ^ (15 - Z.of_nat n)) with (2 ^ (Z.of_nat n' - Z.of_nat n) * 2 ^ (15 - Z.of_nat n')) in Hr |- *
            by (rewrite <- Z.pow_add_r by lia; f_equal; lia). nia.
        * assert (Hr1 : 1 <= r - 1) by (clear - Hr Hlt Bn; nia).
          assert (Hlin : Z.of_nat n' - Z.of_nat n < 2 ^ (Z.of_nat n' - Z.of_nat n)) by (apply Z.pow_gt_lin_r; lia).
          rewrite app_length. cbn [length]. rewrite Nat2Z.inj_add.
          set (w := 2 ^ (Z.of_nat n' - Z.of_nat n)) in *. set (k := Z.of_nat n' - Z.of_nat n) in *.
          assert (r - 1 + k <= (r - 1) * w) by (assert (0 <= k) by lia; clear - Hr1 Hlin H; nia). lia.
      + rewrite HK'. intros Heq. rewrite app_length. cbn [length]. rewrite Nat2Z.inj_add.
        assert (r = 1) by (rewrite Ws in Heq; clear - Hr Heq Bn; nia). subst r.
        assert (Hn : Z.of_nat n = TZ + sb1).
        { destruct Hmin as [Hm|Hm]; [lia|]. destruct (Z.leb_spec (len_of lens s) (TZ + sb1 - 1)); lia. }
        pose proof (waste_mono (Z.of_nat n - TZ) (Z.of_nat n' - TZ) ltac:(lia)) as W. unfold waste in W |- *.
        replace sb1 with (Z.of_nat n - TZ) in HE by lia. lia.
      + exact Heven.
      + repeat split; lia.
  Qed.
End Sub.
