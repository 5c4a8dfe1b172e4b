(* Counting codeword lengths and sorting the symbols (deflatedecoder.cpp 258-310). *)
From Verif Require Import Base Bits Algorithm_Spec Algorithm_Model Algorithm_Proofs Deflate_Spec DeflateTable_Model DeflateTable_Proofs.

Lemma nth_error_ext' {A} (a b : list A) : (forall n, nth_error a n = nth_error b n) -> a = b.
Proof.
  revert b. induction a as [|x a IH]; intros [|y b] H.
  - reflexivity.
  - specialize (H 0%nat). discriminate.
  - specialize (H 0%nat). discriminate.
  - pose proof (H 0%nat) as H0. cbn in H0. injection H0 as ->. f_equal. apply IH. intros n. apply (H (S n)).
Qed.
Lemma skipn_skipn' {A} (d : list A) : forall a b, skipn a (skipn b d) = skipn (b + a) d.
Proof.
  intros a b. revert d. induction b as [|b IH]; intros d; [reflexivity|]. destruct d; cbn; [now rewrite skipn_nil|apply IH].
Qed.
Lemma nth_error_skipn' {A} (d : list A) : forall b m, nth_error (skipn b d) m = nth_error d (b + m).
Proof.
  intros b. revert d. induction b as [|b IH]; intros d m; [reflexivity|]. destruct d; cbn; [destruct m; reflexivity|apply IH].
Qed.
Lemma nth_error_firstn' {A} (d : list A) : forall n m, (m < n)%nat -> nth_error (firstn n d) m = nth_error d m.
Proof.
  induction d as [|x d IH]; intros n m H; [rewrite firstn_nil; reflexivity|].
  destruct n as [|n]; [lia|]. destruct m as [|m]; [reflexivity|]. cbn. apply IH. lia.
Qed.

Definition len_ok (l : Z) : Prop := 0 <= l <= 15.
Definition lens_ok (lens : list Z) : Prop := Forall len_ok lens /\ (length lens <= 288)%nat.

Lemma count_len_cons x t l : count_len (x :: t) l = (if x =? l then 1 else 0) + count_len t l.
Proof. unfold count_len. cbn. destruct (Z.eq_dec x l), (x =? l) eqn:E; lia. Qed.
Lemma count_len_app a b l : count_len (a ++ b) l = count_len a l + count_len b l.
Proof. unfold count_len. rewrite count_occ_app. lia. Qed.
Lemma count_len_nonneg a l : 0 <= count_len a l. Proof. unfold count_len. lia. Qed.
Lemma count_len_le a l : count_len a l <= Z.of_nat (length a).
Proof. induction a as [|x a IH]; [reflexivity|]. rewrite count_len_cons. cbn [length]. destruct (x =? l); lia. Qed.

Definition has_len (lens : list Z) (l : Z) : bool := existsb (fun x => x =? l) lens.

Lemma count_lens_ok : forall lens sym counts lm tm, Forall len_ok lens -> length counts = 16%nat ->
  (forall l, len_ok l -> exists c, elem_at counts l = Some c /\ 0 <= c /\ c + Z.of_nat (length lens) < 2 ^ 32) ->
  exists counts' lm' tm', count_lens lens sym counts lm tm = Ok (counts', lm', tm') /\ length counts' = 16%nat /\
    (forall l, len_ok l -> exists c, elem_at counts l = Some c /\ elem_at counts' l = Some (c + count_len lens l)) /\
    (forall k, 0 <= k -> Z.testbit lm' k = Z.testbit lm k || has_len lens k) /\
    (0 <= lm -> 0 <= lm') /\
    (forall k, 0 <= k -> Z.testbit tm' k = Z.testbit tm k || has_len (firstn (Z.to_nat (256 - sym)) lens) k) /\
    (0 <= tm -> 0 <= tm').
Proof.
  induction lens as [|x lens IH]; intros sym counts lm tm HF Hlen Hc.
  - exists counts, lm, tm. cbn [count_lens has_len existsb]. repeat split; auto.
    + intros l Hl. destruct (Hc l Hl) as [c [E _]]. exists c. cbn. rewrite Z.add_0_r. auto.
    + intros. now rewrite orb_false_r.
    + intros. rewrite firstn_nil. cbn. now rewrite orb_false_r.
  - inversion HF as [|? ? Hx HF']; subst. cbn [count_lens].
    destruct (Hc x Hx) as [c [Ec [Hc0 Hc1]]]. rewrite (rd_elem _ _ _ Ec). cbn [bind].
    pose proof (elem_at_range _ _ _ Ec) as Rx. rewrite wr_ok by lia. cbn [bind].
    assert (Hw : w32 (c + 1) = c + 1) by (unfold w32; apply Z.mod_small; cbn [length] in Hc1; lia).
    rewrite Hw.
    edestruct (IH (sym + 1) (zupd counts x (c + 1)) (Z.lor lm (Z.shiftl 1 x))
      (if sym <? 256 then Z.lor tm (Z.shiftl 1 x) else tm)) as [c' [lm' [tm' [E [L [C [M [Mn [T Tn]]]]]]]]].
    { exact HF'. }
    { rewrite zupd_length. exact Hlen. }
    { intros l Hl. rewrite elem_zupd by lia. destruct (Hc l Hl) as [d [Ed [Hd0 Hd1]]]. cbn [length] in *.
      destruct (l =? x) eqn:El.
      - exists (c + 1). split; [reflexivity|]. assert (l = x) by lia. subst. lia.
      - exists d. split; [exact Ed|]. lia. }
    exists c', lm', tm'. split; [exact E|]. split; [exact L|]. split; [|split; [|split; [|split]]].
    + intros l Hl. destruct (C l Hl) as [d [Ed Ed']]. rewrite elem_zupd in Ed by lia. rewrite count_len_cons.
      destruct (l =? x) eqn:El.
      * injection Ed as <-. assert (l = x) by lia. subst. exists c. split; [exact Ec|].
        rewrite Z.eqb_refl. rewrite Ed'. f_equal. lia.
      * exists d. split; [exact Ed|]. replace (x =? l) with false by lia. rewrite Ed'. f_equal. 
    + intros k Hk. rewrite M by lia. rewrite Z.lor_spec. cbn [has_len existsb].
      rewrite <- !orb_assoc. f_equal. fold (has_len lens k). f_equal.
      rewrite Z.shiftl_1_l. rewrite Z.pow2_bits_eqb by apply Hx. reflexivity.
    + intros Hp. apply Mn. apply Z.lor_nonneg. split; [exact Hp|]. rewrite Z.shiftl_1_l. apply Z.pow_nonneg. lia.
    + intros k Hk. rewrite T by lia. destruct (Z.ltb_spec sym 256).
      * rewrite Z.lor_spec. replace (Z.to_nat (256 - sym)) with (S (Z.to_nat (256 - (sym + 1)))) by lia.
        cbn [firstn has_len existsb]. rewrite <- !orb_assoc. f_equal. fold (has_len (firstn (Z.to_nat (256 - (sym + 1))) lens) k).
        f_equal. rewrite Z.shiftl_1_l. rewrite Z.pow2_bits_eqb by apply Hx. reflexivity.
      * replace (Z.to_nat (256 - sym)) with 0%nat by lia. replace (Z.to_nat (256 - (sym + 1))) with 0%nat by lia.
        reflexivity.
    + intros Hp. apply Tn. destruct (sym <? 256); [|exact Hp]. apply Z.lor_nonneg. split; [exact Hp|].
      rewrite Z.shiftl_1_l. apply Z.pow_nonneg. lia.
Qed.

(* position of the first symbol of length l in the sorted data *)
Fixpoint base_of (lens : list Z) (l : nat) : Z :=
  match l with O => 0 | S l' => base_of lens l' + count_len lens (Z.of_nat l') end.
(* codespace used by codes of length 1..l, in units of 2^-l *)
Fixpoint used_of (lens : list Z) (l : nat) : Z :=
  match l with O => 0 | S l' => 2 * used_of lens l' + count_len lens (Z.of_nat l) end.

Lemma base_of_nonneg lens l : 0 <= base_of lens l.
Proof. induction l; cbn; [lia|]. pose proof (count_len_nonneg lens (Z.of_nat l)). lia. Qed.
Lemma base_of_mono lens l k : (l <= k)%nat -> base_of lens l <= base_of lens k.
Proof.
  induction 1; [lia|]. cbn. pose proof (count_len_nonneg lens (Z.of_nat m)). lia.
Qed.
Lemma base_of_le lens l : base_of lens l <= Z.of_nat (length lens).
Proof.
  assert (G : base_of lens l = Z.of_nat (length (filter (fun x => (0 <=? x) && (x <? Z.of_nat l)) lens))).
  { induction l as [|l IH].
    - cbn. induction lens as [|x t IH]; [reflexivity|]. cbn [filter].
      destruct ((0 <=? x) && (x <? 0)) eqn:E; [lia|exact IH].
    - cbn [base_of]. rewrite IH. clear IH. induction lens as [|x t IHt]; [reflexivity|].
      rewrite count_len_cons. cbn [filter].
      destruct ((0 <=? x) && (x <? Z.of_nat l)) eqn:E1, ((0 <=? x) && (x <? Z.of_nat (S l))) eqn:E2, (x =? Z.of_nat l) eqn:E3; cbn [length]; lia. }
  rewrite G.
  apply Nat2Z.inj_le. clear. induction lens as [|x t IH]; cbn; [lia|]. destruct ((0 <=? x) && (x <? Z.of_nat l)); cbn; lia.
Qed.
Lemma used_of_range lens l : (length lens <= 288)%nat -> 0 <= used_of lens l <= 288 * (2 ^ Z.of_nat l - 1).
Proof.
  intros Hn. induction l as [|l IH]; [cbn; lia|]. cbn [used_of]. rewrite Nat2Z.inj_succ, Z.pow_succ_r by lia.
  pose proof (count_len_nonneg lens (Z.succ (Z.of_nat l))). pose proof (count_len_le lens (Z.succ (Z.of_nat l))). lia.
Qed.

Lemma rdi_elem l i v : elem_at l i = Some (Some v) -> rdi l i = Ok v.
Proof. intros H. unfold rdi. rewrite (rd_elem _ _ _ H). reflexivity. Qed.

Lemma len_offsets_ok lens counts : (length lens <= 288)%nat -> length counts = 16%nat ->
  (forall l, len_ok l -> elem_at counts l = Some (count_len lens l)) ->
  forall k len offs, (1 <= len)%nat -> (len + k <= 15)%nat -> length offs = 16%nat ->
  (forall l, (l <= len)%nat -> elem_at offs (Z.of_nat l) = Some (Some (base_of lens l))) ->
  exists offs', len_offsets k (Z.of_nat len) counts offs (used_of lens (len - 1)) = Ok (offs', used_of lens (len + k)) /\
    length offs' = 16%nat /\ (forall l, (l <= len + k)%nat -> elem_at offs' (Z.of_nat l) = Some (Some (base_of lens l))).
Proof.
  intros Hn Hcl Hc. induction k as [|k IH]; intros len offs H1 H15 Ho Hb.
  - cbn [len_offsets]. rewrite (rd_elem _ _ _ (Hc (Z.of_nat len) ltac:(unfold len_ok; lia))). cbn [bind].
    exists offs. rewrite Nat.add_0_r. split; [|split; auto].
    f_equal. f_equal. replace len with (S (len - 1)) at 3 by lia. cbn [used_of].
    replace (Z.of_nat (S (len - 1))) with (Z.of_nat len) by lia.
    pose proof (used_of_range lens (len - 1) Hn) as R.
    assert (2 ^ Z.of_nat (len - 1) <= 2 ^ 14) by (apply Z.pow_le_mono_r; lia).
    pose proof (count_len_le lens (Z.of_nat len)). pose proof (count_len_nonneg lens (Z.of_nat len)).
    change (2 ^ 14) with 16384 in *.
    unfold w32. rewrite Z.shiftl_mul_pow2 by lia. change (2 ^ 1) with 2. rewrite (Z.mod_small (used_of lens (len - 1) * 2)) by lia.
    rewrite Z.mod_small by lia. lia.
  - cbn [len_offsets]. rewrite (rdi_elem _ _ _ (Hb len (le_n _))). cbn [bind].
    rewrite (rd_elem _ _ _ (Hc (Z.of_nat len) ltac:(unfold len_ok; lia))). cbn [bind].
    rewrite wr_ok by lia. cbn [bind].
    pose proof (used_of_range lens (len - 1) Hn) as R.
    assert (2 ^ Z.of_nat (len - 1) <= 2 ^ 14) by (apply Z.pow_le_mono_r; lia).
    pose proof (count_len_le lens (Z.of_nat len)). pose proof (count_len_nonneg lens (Z.of_nat len)).
    change (2 ^ 14) with 16384 in *.
    assert (Eu : w32 (w32 (Z.shiftl (used_of lens (len - 1)) 1) + count_len lens (Z.of_nat len)) = used_of lens (S len - 1)).
    { replace (S len - 1)%nat with (S (len - 1)) by lia. cbn [used_of]. replace (Z.of_nat (S (len - 1))) with (Z.of_nat len) by lia.
      unfold w32. rewrite Z.shiftl_mul_pow2 by lia. change (2 ^ 1) with 2. rewrite (Z.mod_small (used_of lens (len - 1) * 2)) by lia.
      rewrite Z.mod_small by lia. lia. }
    rewrite Eu. replace (Z.of_nat len + 1) with (Z.of_nat (S len)) by lia.
    pose proof (base_of_le lens (S len)) as B1. pose proof (base_of_nonneg lens (S len)) as B0. cbn [base_of] in B1, B0.
    destruct (IH (S len) (zupd offs (Z.of_nat (S len)) (Some (w32 (base_of lens len + count_len lens (Z.of_nat len)))))) as [o' [E [L B]]].
    + lia.
    + lia.
    + rewrite zupd_length. exact Ho.
    + intros l Hl. rewrite elem_zupd by lia. destruct (Z.of_nat l =? Z.of_nat (S len)) eqn:El.
      * assert (l = S len) by lia. subst l. cbn [base_of]. unfold w32. rewrite Z.mod_small by lia. reflexivity.
      * apply Hb. lia.
    + exists o'. split; [|split; [exact L|]].
      * rewrite E. replace (len + S k)%nat with (S len + k)%nat by lia. reflexivity.
      * intros l Hl. apply B. lia.
Qed.

(* symbols of length l, in order *)
Fixpoint syms_of (lens : list Z) (sym l : Z) : list Z :=
  match lens with
  | [] => []
  | x :: t => if x =? l then sym :: syms_of t (sym + 1) l else syms_of t (sym + 1) l
  end.
Lemma syms_of_length lens : forall sym l, Z.of_nat (length (syms_of lens sym l)) = count_len lens l.
Proof.
  induction lens as [|x t IH]; intros sym l; [reflexivity|]. rewrite count_len_cons. cbn [syms_of].
  destruct (x =? l); cbn [length]; rewrite ?Nat2Z.inj_succ, IH; lia.
Qed.
Lemma syms_of_app a : forall b sym l, syms_of (a ++ b) sym l = syms_of a sym l ++ syms_of b (sym + Z.of_nat (length a)) l.
Proof.
  induction a as [|x t IH]; intros b sym l; cbn [app syms_of length].
  - f_equal. lia.
  - rewrite IH. replace (sym + 1 + Z.of_nat (length t)) with (sym + Z.of_nat (S (length t))) by lia.
    destruct (x =? l); reflexivity.
Qed.

Lemma sort_syms_ok lens M : lens_ok lens -> (M <= 15)%nat -> Forall (fun l => l <= Z.of_nat M) lens ->
  forall post pre offs data, lens = pre ++ post -> length offs = 16%nat -> length data = 288%nat ->
  (forall l, (l <= M)%nat -> elem_at offs (Z.of_nat l) = Some (Some (base_of lens l + count_len pre (Z.of_nat l)))) ->
  (forall l r s, (l <= M)%nat -> nth_error (syms_of pre 0 (Z.of_nat l)) r = Some s -> elem_at data (base_of lens l + Z.of_nat r) = Some (Some s)) ->
  exists offs' data', sort_syms post (Z.of_nat (length pre)) offs data = Ok (offs', data') /\ length data' = 288%nat /\
    elem_at offs' 0 = Some (Some (count_len lens 0)) /\
    (forall l r s, (l <= M)%nat -> nth_error (syms_of lens 0 (Z.of_nat l)) r = Some s -> elem_at data' (base_of lens l + Z.of_nat r) = Some (Some s)).
Proof.
  intros [HF Hn] HM HM'. induction post as [|x post IH]; intros pre offs data El Ho Hd Hoff Hdat.
  - rewrite app_nil_r in El. subst pre. exists offs, data. cbn [sort_syms]. split; [reflexivity|]. split; [exact Hd|].
    split; [|exact Hdat]. specialize (Hoff 0%nat ltac:(lia)). cbn [base_of] in Hoff. rewrite Z.add_0_l in Hoff. exact Hoff.
  - assert (Hx : 0 <= x <= Z.of_nat M).
    { assert (In x lens) by (subst lens; apply in_elt). rewrite Forall_forall in HF, HM'. specialize (HF x H). specialize (HM' x H). unfold len_ok in HF. lia. }
    cbn [sort_syms]. pose proof (Hoff (Z.to_nat x) ltac:(lia)) as Ex. rewrite Z2Nat.id in Ex by lia.
    rewrite (rdi_elem _ _ _ Ex). cbn [bind].
    set (o := base_of lens (Z.to_nat x) + count_len pre x).
    assert (Cx : count_len lens x = count_len pre x + 1 + count_len post x).
    { rewrite El at 1. rewrite count_len_app, count_len_cons, Z.eqb_refl. lia. }
    assert (Ro : base_of lens (Z.to_nat x) <= o < base_of lens (S (Z.to_nat x))).
    { cbn [base_of]. rewrite Z2Nat.id by lia. unfold o. pose proof (count_len_nonneg pre x). pose proof (count_len_nonneg post x). lia. }
    pose proof (base_of_nonneg lens (Z.to_nat x)). pose proof (base_of_le lens (S (Z.to_nat x))).
    rewrite (wr_ok data) by lia. cbn [bind].
    pose proof (elem_at_range _ _ _ Ex). rewrite (wr_ok offs) by lia. cbn [bind].
    assert (Hlp : Z.of_nat (length pre) < 288).
    { subst lens. rewrite app_length in Hn. cbn [length] in Hn. lia. }
    replace (w16 (Z.of_nat (length pre))) with (Z.of_nat (length pre)) by (unfold w16; rewrite Z.mod_small; lia).
    replace (w32 (o + 1)) with (o + 1) by (unfold w32; rewrite Z.mod_small; lia).
    destruct (IH (pre ++ [x]) (zupd offs x (Some (o + 1))) (zupd data o (Some (Z.of_nat (length pre))))) as [o' [d' [E [D [O' G]]]]].
    + rewrite El, <- app_assoc. reflexivity.
    + rewrite zupd_length. exact Ho.
    + rewrite zupd_length. exact Hd.
    + intros l Hl. rewrite elem_zupd by lia. rewrite count_len_app, count_len_cons. cbn [count_len].
      destruct (Z.of_nat l =? x) eqn:Elx.
      * assert (x = Z.of_nat l) by lia. subst x. rewrite Z.eqb_refl. unfold o. rewrite Nat2Z.id. f_equal. f_equal. unfold count_len at 3. cbn. lia.
      * replace (x =? Z.of_nat l) with false by lia. rewrite Hoff by lia. unfold count_len at 3. cbn. f_equal. f_equal. lia.
    + intros l r s Hl Hr. rewrite elem_zupd by lia. rewrite syms_of_app in Hr. cbn [syms_of] in Hr.
      destruct (x =? Z.of_nat l) eqn:Elx.
      * assert (x = Z.of_nat l) by lia. subst x. rewrite Nat2Z.id in *.
        destruct (Nat.eq_dec r (length (syms_of pre 0 (Z.of_nat l)))) as [->|Hne].
        -- rewrite nth_error_app2, Nat.sub_diag in Hr by lia. cbn in Hr. injection Hr as <-.
           rewrite syms_of_length. unfold o. rewrite Nat2Z.id, Z.eqb_refl. reflexivity.
        -- assert (r < length (syms_of pre 0 (Z.of_nat l)))%nat.
           { assert (Hs : nth_error (syms_of pre 0 (Z.of_nat l) ++ [0 + Z.of_nat (length pre)]) r <> None) by congruence.
             apply nth_error_Some in Hs. rewrite app_length in Hs. cbn [length] in Hs. lia. }
           rewrite nth_error_app1 in Hr by lia.
           pose proof (syms_of_length pre 0 (Z.of_nat l)). unfold o. rewrite Nat2Z.id.
           replace (base_of lens l + Z.of_nat r =? base_of lens l + count_len pre (Z.of_nat l)) with false by lia.
           apply Hdat; assumption.
      * rewrite app_nil_r in Hr.
        assert (Hrl : (r < length (syms_of pre 0 (Z.of_nat l)))%nat) by (apply nth_error_Some; congruence).
        pose proof (syms_of_length pre 0 (Z.of_nat l)).
        assert (count_len pre (Z.of_nat l) <= count_len lens (Z.of_nat l)).
        { rewrite El, count_len_app. pose proof (count_len_nonneg (x :: post) (Z.of_nat l)). lia. }
        assert (base_of lens l + Z.of_nat r <> o).
        { destruct (Nat.lt_ge_cases l (Z.to_nat x)).
          - pose proof (base_of_mono lens (S l) (Z.to_nat x) ltac:(lia)) as Mo. cbn [base_of] in Mo. lia.
          - pose proof (base_of_mono lens (S (Z.to_nat x)) l ltac:(lia)) as Mo. lia. }
        replace (base_of lens l + Z.of_nat r =? o) with false by lia. apply Hdat; assumption.
    + rewrite app_length in E. cbn [length] in E.
      replace (Z.of_nat (length pre + 1)) with (Z.of_nat (length pre) + 1) in E by lia.
      exists o', d'. auto.
Qed.

(* the used symbols in canonical order *)
Definition level (lens : list Z) (l : nat) : list Z := syms_of lens 0 (Z.of_nat l).
Definition levels (lens : list Z) (a k : nat) : list Z := flat_map (level lens) (seq a k).
Definition sorted_syms (lens : list Z) : list Z := levels lens 1 15.

Lemma levels_S lens a k : levels lens a (S k) = level lens a ++ levels lens (S a) k.
Proof. reflexivity. Qed.
Lemma levels_snoc lens a k : levels lens a (S k) = levels lens a k ++ level lens (a + k).
Proof. unfold levels. rewrite seq_S, flat_map_app. cbn [flat_map]. rewrite app_nil_r. reflexivity. Qed.

Lemma segment_eq lens l data : 
  (forall r s, nth_error (level lens l) r = Some s -> elem_at data (base_of lens l + Z.of_nat r) = Some (Some s)) ->
  (Z.to_nat (base_of lens l + count_len lens (Z.of_nat l)) <= length data)%nat ->
  firstn (length (level lens l)) (skipn (Z.to_nat (base_of lens l)) data) = map Some (level lens l).
Proof.
  intros H Hlen. pose proof (base_of_nonneg lens l) as B0. pose proof (syms_of_length lens 0 (Z.of_nat l)) as SL.
  fold (level lens l) in SL. set (n := length (level lens l)) in *.
  apply nth_error_ext'. intros r.
  destruct (Nat.lt_ge_cases r n) as [Hr|Hr].
  - assert (exists s, nth_error (level lens l) r = Some s) as [s Es].
    { destruct (nth_error (level lens l) r) eqn:E; [eauto|]. apply nth_error_None in E. unfold n in Hr. lia. }
    rewrite nth_error_map, Es. cbn [option_map].
    rewrite <- (H r s Es). unfold elem_at. replace (base_of lens l + Z.of_nat r <? 0) with false by lia.
    replace (Z.to_nat (base_of lens l + Z.of_nat r)) with (Z.to_nat (base_of lens l) + r)%nat by lia.
    rewrite nth_error_firstn' by lia. apply nth_error_skipn'.
  - rewrite (proj2 (nth_error_None _ r)), (proj2 (nth_error_None _ r)); [reflexivity| |].
    + rewrite map_length. unfold n in Hr. lia.
    + rewrite firstn_length. lia.
Qed.

Lemma sorted_prefix lens data : length data = 288%nat -> (length lens <= 288)%nat ->
  (forall l r s, (l <= 15)%nat -> nth_error (syms_of lens 0 (Z.of_nat l)) r = Some s -> elem_at data (base_of lens l + Z.of_nat r) = Some (Some s)) ->
  exists tl, skipn (Z.to_nat (count_len lens 0)) data = map Some (sorted_syms lens) ++ tl.
Proof.
  intros Hd Hn H.
  assert (G : forall k, (k <= 15)%nat -> exists tl, skipn (Z.to_nat (count_len lens 0)) data = map Some (levels lens 1 k) ++ tl /\
    tl = skipn (Z.to_nat (base_of lens (S k))) data).
  { induction k as [|k IH]; intros Hk.
    - eexists. split; [reflexivity|]. cbn [base_of]. rewrite Z.add_0_l. reflexivity.
    - destruct IH as [tl [E Et]]; [lia|]. rewrite levels_snoc, map_app.
      pose proof (segment_eq lens (1 + k) data) as Sg. cbn [Nat.add] in *.
      pose proof (base_of_le lens (S (S k))) as BL. cbn [base_of] in BL.
      rewrite <- Et in Sg. rewrite <- Sg.
      + exists (skipn (length (level lens (S k))) tl). rewrite <- app_assoc, firstn_skipn. split; [exact E|].
        rewrite Et. rewrite skipn_skipn'. f_equal. cbn [base_of].
        pose proof (syms_of_length lens 0 (Z.of_nat (S k))) as SL. fold (level lens (S k)) in SL.
        pose proof (base_of_nonneg lens (S k)) as B0. cbn [base_of] in B0. lia.
      + intros r s Hr. apply (H (S k)); [lia|exact Hr].
      + cbn [base_of]. lia. }
  destruct (G 15%nat (le_n _)) as [tl [E _]]. exists tl. exact E.
Qed.
