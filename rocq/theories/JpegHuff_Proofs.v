From Verif Require Import Base Bits Algorithm_Model Interp_Proofs3 JpegHuff_Model JpegHuff_Spec.
Ltac Zify.zify_post_hook ::= idtac.

Lemma sizes_lengths data : forall i, size_loop i data = lengths i data.
Proof. induction data as [|c r IH]; intros i; cbn [size_loop lengths]; [reflexivity|]. rewrite IH. reflexivity. Qed.
Lemma weight_app a b : weight (a ++ b) = weight a + weight b.
Proof. induction a as [|x a IH]; cbn [app weight]; [reflexivity|]. rewrite IH. lia. Qed.
Lemma weight_repeat l n : weight (repeat l n) = Z.of_nat n * 2 ^ (16 - l).
Proof. induction n as [|n IH]; [reflexivity|]. cbn [repeat weight]. rewrite IH. lia. Qed.
Lemma weight_nonneg ls : 0 <= weight ls.
Proof. induction ls as [|l ls IH]; cbn [weight]; [lia|]. pose proof (Z.pow_nonneg 2 (16 - l) ltac:(lia)). lia. Qed.

(* what the level loop computes *)
Fixpoint run (code : Z) (c : nat) : list Z := match c with O => [] | S c => w16 code :: run (code + 1) c end.
Fixpoint ends (i code : Z) (counts : list Z) : list Z :=
  match counts with [] => [] | c :: r => (code + c) * 2 ^ (16 - i) :: ends (i + 1) (2 * (code + c)) r end.
Fixpoint dels (i k code : Z) (counts : list Z) : list Z :=
  match counts with [] => [] | c :: r => k - code :: dels (i + 1) (k + c) (2 * (code + c)) r end.
Fixpoint cds (i code : Z) (counts : list Z) : list Z :=
  match counts with [] => [] | c :: r => run code (Z.to_nat c) ++ cds (i + 1) (2 * (code + c)) r end.

Lemma code_loop_ok i c : forall k code rest, match rest with s :: _ => s <> i | [] => True end -> 0 <= k -> k + Z.of_nat c < 4294967296 -> 0 <= code -> code + Z.of_nat c < 4294967296 ->
  code_loop i k code (repeat i c ++ rest) = (k + Z.of_nat c, code + Z.of_nat c, run code c, rest).
Proof.
  induction c as [|c IH]; intros k code rest H Hk Hk2 Hc Hc2; cbn [repeat app code_loop run].
  - rewrite !Z.add_0_r. destruct rest as [|s r]; [reflexivity|]. cbn [code_loop]. destruct (Z.eqb_spec s i); [contradiction|reflexivity].
  - rewrite Z.eqb_refl. assert (w32 (k + 1) = k + 1) as -> by (unfold w32; apply Z.mod_small; lia). assert (w32 (code + 1) = code + 1) as -> by (unfold w32; apply Z.mod_small; lia).
    rewrite IH by (try assumption; lia). replace (k + 1 + Z.of_nat c) with (k + Z.of_nat (S c)) by lia. replace (code + 1 + Z.of_nat c) with (code + Z.of_nat (S c)) by lia. reflexivity.
Qed.
Lemma lengths_head i counts : match lengths (i + 1) counts with s :: _ => s <> i | [] => True end.
Proof.
  assert (G : forall counts l, i < l -> match lengths l counts with s :: _ => s <> i | [] => True end).
  { induction counts0 as [|c r IH]; intros l Hl; cbn [lengths]; [exact I|]. destruct (Z.to_nat c); cbn [repeat app]; [apply IH; lia|lia]. }
  apply G. lia.
Qed.
Lemma pow_step i : i <= 15 -> 2 ^ (16 - i) = 2 * 2 ^ (16 - (i + 1)).
Proof. intros H. replace (16 - i) with (Z.succ (16 - (i + 1))) by lia. apply Z.pow_succ_r. lia. Qed.
Lemma pow_split i : 1 <= i <= 16 -> 2 ^ i * 2 ^ (16 - i) = 65536.
Proof. intros H. rewrite <- Z.pow_add_r by lia. replace (i + (16 - i)) with 16 by lia. reflexivity. Qed.
Definition total (counts : list Z) : Z := fold_right Z.add 0 counts.
Lemma total_nonneg counts : bytes counts -> 0 <= total counts.
Proof. unfold total. induction 1 as [|x l H F IH]; cbn [fold_right]; [lia|]. unfold is_byte in H. lia. Qed.

Lemma level_loop_ok counts : forall i k code s, bytes counts -> 1 <= i -> i + Z.of_nat (length counts) = 17 -> 0 <= k -> k + total counts <= 256 -> 0 <= code <= 131072 -> (i <= 16 -> s = code * 2 ^ (16 - i)) -> 0 <= s <= 65536 ->
  level_loop (length counts) i k code (lengths i counts) =
  if s + weight (lengths i counts) <=? 65536 then Ok (ends i code counts, dels i k code counts, cds i code counts) else Err BL_ERROR_INVALID_DATA.
Proof.
  induction counts as [|c r IH]; intros i k code s B Hi HL Hk HT Hc Hs Hs2; cbn [length level_loop lengths ends dels cds weight].
  - rewrite Z.add_0_r. destruct (Z.leb_spec s 65536); [reflexivity|lia].
  - inversion B as [|? ? B1 B2]; subst x l. unfold is_byte in B1. cbn [length] in HL. cbn [total fold_right] in HT. fold (total r) in HT. pose proof (total_nonneg r B2) as TN.
    specialize (Hs ltac:(lia)). assert (NC : Z.of_nat (Z.to_nat c) = c) by (apply Z2Nat.id; lia).
    rewrite code_loop_ok by (try apply lengths_head; lia). rewrite NC. rewrite weight_app, weight_repeat, NC. cbv iota.
    pose proof (pow_split i ltac:(lia)) as PS. assert (Wp : 0 < 2 ^ (16 - i)) by (apply Z.pow_pos_nonneg; lia). assert (Ip : 2 <= 2 ^ i <= 65536) by (split; [change 2 with (2 ^ 1) at 1|change 65536 with (2 ^ 16)]; apply Z.pow_le_mono_r; lia).
    rewrite Z.shiftl_1_l.
    assert (CT : (match run code (Z.to_nat c) with [] => false | _ => 2 ^ i <=? w32 (code + c - 1) end) = negb (code + c <=? 2 ^ i)).
    { destruct (Z.to_nat c) eqn:Ec; cbn [run].
      - assert (c = 0) by lia. subst c. rewrite Z.add_0_r. destruct (Z.leb_spec code (2 ^ i)); [reflexivity|]. exfalso. assert ((2 ^ i + 1) * 2 ^ (16 - i) <= code * 2 ^ (16 - i)) by (apply Z.mul_le_mono_nonneg_r; lia). lia.
      - assert (w32 (code + c - 1) = code + c - 1) as -> by (unfold w32; apply Z.mod_small; lia). destruct (Z.leb_spec (2 ^ i) (code + c - 1)), (Z.leb_spec (code + c) (2 ^ i)); cbn [negb]; lia. }
    rewrite CT. assert (SE : s + c * 2 ^ (16 - i) = (code + c) * 2 ^ (16 - i)) by (rewrite Hs; ring).
    rewrite Z.add_assoc, SE.
    destruct (Z.leb_spec (code + c) (2 ^ i)) as [F|F]; cbn [negb].
    + assert (E1 : (code + c) * 2 ^ (16 - i) <= 65536) by (rewrite <- PS; apply Z.mul_le_mono_nonneg_r; lia).
      assert (E0 : 0 <= (code + c) * 2 ^ (16 - i)) by (apply Z.mul_nonneg_nonneg; lia).
      assert (W1 : w32 (Z.shiftl (code + c) 1) = 2 * (code + c)) by (rewrite Z.shiftl_mul_pow2 by lia; change (2 ^ 1) with 2; unfold w32; rewrite Z.mod_small; lia). rewrite W1.
      assert (W2 : w32 (Z.shiftl (code + c) (16 - i)) = (code + c) * 2 ^ (16 - i)) by (rewrite Z.shiftl_mul_pow2 by lia; unfold w32; apply Z.mod_small; lia). rewrite W2.
      rewrite (IH (i + 1) (k + c) (2 * (code + c)) ((code + c) * 2 ^ (16 - i))); try assumption; try lia.
      * destruct (Z.leb_spec ((code + c) * 2 ^ (16 - i) + weight (lengths (i + 1) r)) 65536); reflexivity.
      * intros H16. rewrite (pow_step i) by lia. ring.
    + destruct (Z.leb_spec ((code + c) * 2 ^ (16 - i) + weight (lengths (i + 1) r)) 65536) as [X|X]; [|reflexivity]. exfalso. pose proof (weight_nonneg (lengths (i + 1) r)).
      assert ((2 ^ i + 1) * 2 ^ (16 - i) <= (code + c) * 2 ^ (16 - i)) by (apply Z.mul_le_mono_nonneg_r; lia). lia.
Qed.

(* codes and their intervals *)
Fixpoint aligned (s : Z) (ls cs : list Z) : Prop :=
  match ls, cs with l :: ls, c :: cs => c * 2 ^ (16 - l) = s /\ 0 <= c /\ 1 <= l <= 16 /\ aligned (s + 2 ^ (16 - l)) ls cs | [], [] => True | _, _ => False end.
Lemma aligned_app ls : forall cs ls' cs' s, aligned s ls cs -> aligned (s + weight ls) ls' cs' -> aligned s (ls ++ ls') (cs ++ cs').
Proof.
  induction ls as [|l ls IH]; intros [|c cs] ls' cs' s A B; cbn [aligned app weight] in *; try contradiction; [rewrite Z.add_0_r in B; exact B|].
  destruct A as (A1 & A2 & A3 & A4). repeat (split; [assumption|]). apply IH; [exact A4|]. replace (s + 2 ^ (16 - l) + weight ls) with (s + (2 ^ (16 - l) + weight ls)) by ring. exact B.
Qed.
Lemma aligned_run i c : forall code, 1 <= i <= 16 -> 0 <= code -> (code + Z.of_nat c) * 2 ^ (16 - i) <= 65536 -> aligned (code * 2 ^ (16 - i)) (repeat i c) (run code c).
Proof.
  induction c as [|c IH]; intros code Hi Hc HL; cbn [repeat run aligned]; [exact I|]. assert (Wp : 1 <= 2 ^ (16 - i)) by (change 1 with (2 ^ 0) at 1; apply Z.pow_le_mono_r; lia).
  assert (code < 65536). { destruct (Z.lt_ge_cases code 65536); [assumption|]. exfalso. assert (65537 * 1 <= (code + Z.of_nat (S c)) * 2 ^ (16 - i)) by (apply Z.mul_le_mono_nonneg; lia). lia. }
  assert (w16 code = code) as -> by (unfold w16; apply Z.mod_small; lia). split; [reflexivity|]. split; [exact Hc|]. split; [exact Hi|].
  replace (code * 2 ^ (16 - i) + 2 ^ (16 - i)) with ((code + 1) * 2 ^ (16 - i)) by ring. apply IH; [exact Hi|lia|]. replace (code + 1 + Z.of_nat c) with (code + Z.of_nat (S c)) by lia. exact HL.
Qed.
Lemma cds_aligned counts : forall i code s, bytes counts -> 1 <= i -> i + Z.of_nat (length counts) = 17 -> 0 <= code -> (i <= 16 -> s = code * 2 ^ (16 - i)) -> s + weight (lengths i counts) <= 65536 ->
  aligned s (lengths i counts) (cds i code counts).
Proof.
  induction counts as [|c r IH]; intros i code s B Hi HL Hc Hs HW; cbn [lengths cds weight] in *; [exact I|]. inversion B as [|? ? B1 B2]; subst x l. unfold is_byte in B1. cbn [length] in HL.
  specialize (Hs ltac:(lia)). assert (NC : Z.of_nat (Z.to_nat c) = c) by (apply Z2Nat.id; lia). rewrite weight_app, weight_repeat, NC in HW. pose proof (weight_nonneg (lengths (i + 1) r)).
  assert (SE : s + c * 2 ^ (16 - i) = (code + c) * 2 ^ (16 - i)) by (rewrite Hs; ring). rewrite Z.add_assoc, SE in HW.
  apply aligned_app; [rewrite Hs; apply aligned_run; [lia|lia|rewrite NC; lia]|]. rewrite weight_repeat, NC, SE. apply IH; try assumption; try lia. intros H16. rewrite (pow_step i) by lia. ring.
Qed.
Lemma aligned_nth ls : forall cs s j l, aligned s ls cs -> nth_error ls j = Some l -> 1 <= l <= 16 /\ exists c, c * 2 ^ (16 - l) = s + weight (firstn j ls).
Proof.
  induction ls as [|x ls IH]; intros [|c cs] s [|j] l A E; cbn [aligned nth_error firstn weight] in *; try contradiction; try discriminate.
  - inversion E; subst. destruct A as (A1 & _ & A3 & _). split; [exact A3|]. exists c. lia.
  - destruct A as (_ & _ & _ & A4). destruct (IH _ _ _ _ A4 E) as (H & d & Hd). split; [exact H|]. exists d. lia.
Qed.
Lemma starts_unique ls x : forall j j' l l', starts_with ls x j l -> starts_with ls x j' l' -> j = j' /\ l = l'.
Proof.
  assert (M : forall ls j j' l, nth_error ls j = Some l -> (j < j')%nat -> (j' <= length ls)%nat -> weight (firstn j ls) + 2 ^ (16 - l) <= weight (firstn j' ls)).
  { clear. induction ls as [|y ls IH]; intros [|j] [|j'] l E L L'; cbn [nth_error firstn weight length] in *; try discriminate; try lia.
    - inversion E; subst. pose proof (weight_nonneg (firstn j' ls)). lia.
    - specialize (IH j j' l E ltac:(lia) ltac:(lia)). lia. }
  intros j j' l l' [E B] [E' B']. assert (j = j').
  { destruct (Nat.lt_trichotomy j j') as [L|[L|L]]; [|exact L|]; exfalso.
    - pose proof (M ls j j' l E L ltac:(apply Nat.lt_le_incl; apply nth_error_Some; congruence)). lia.
    - pose proof (M ls j' j l' E' L ltac:(apply Nat.lt_le_incl; apply nth_error_Some; congruence)). lia. }
  subst j'. split; [reflexivity|congruence].
Qed.

(* the acceleration table *)
Lemma fill_ok n : forall a code i, 0 <= code -> code + Z.of_nat n <= Z.of_nat (length a) ->
  exists a', fill a code n i = Ok a' /\ length a' = length a /\ forall x, 0 <= x -> get a' x = if (code <=? x) && (x <? code + Z.of_nat n) then w8 i else get a x.
Proof.
  induction n as [|n IH]; intros a code i Hc HL; cbn [fill].
  - exists a. split; [reflexivity|]. split; [reflexivity|]. intros x Hx. destruct (Z.leb_spec code x), (Z.ltb_spec x (code + Z.of_nat 0)); cbn [andb]; try reflexivity; lia.
  - destruct (Interp_Proofs3.wr_ok a code (w8 i) ltac:(lia)) as (a1 & E1 & L1 & G1). rewrite E1. cbn [bind]. destruct (IH a1 (code + 1) i ltac:(lia) ltac:(lia)) as (a2 & E2 & L2 & G2).
    exists a2. split; [exact E2|]. split; [congruence|]. intros x Hx. rewrite G2, G1 by assumption.
    destruct (Z.leb_spec (code + 1) x), (Z.ltb_spec x (code + 1 + Z.of_nat n)), (Z.leb_spec code x), (Z.ltb_spec x (code + Z.of_nat (S n))), (Z.eqb_spec x code); cbn [andb]; try reflexivity; lia.
Qed.
Definition short (s : Z) (ls : list Z) (x : Z) (j : nat) (l : Z) : Prop :=
  nth_error ls j = Some l /\ l <= 8 /\ s + weight (firstn j ls) <= 256 * x < s + weight (firstn j ls) + 2 ^ (16 - l).
Lemma accel_loop_ok ls : forall a i s cs, length a = 256%nat -> 0 <= s -> s + weight ls <= 65536 -> aligned s ls cs ->
  exists a', accel_loop a i ls cs = Ok a' /\ length a' = 256%nat /\ forall x, 0 <= x < 256 ->
  (exists j l, short s ls x j l /\ get a' x = w8 (i + Z.of_nat j)) \/ ((forall j l, ~ short s ls x j l) /\ get a' x = get a x).
Proof.
  induction ls as [|l ls IH]; intros a i s [|c cs] La Hs HW A; cbn [aligned accel_loop weight] in *; try contradiction.
  - exists a. split; [reflexivity|]. split; [exact La|]. intros x _. right. split; [|reflexivity]. intros [|j] l (E & _); discriminate.
  - destruct A as (A1 & A2 & A3 & A4). pose proof (weight_nonneg ls) as WN.
    assert (P : exists a1, (if l <=? 8 then fill a (Z.shiftl c (8 - l)) (Z.to_nat (Z.shiftl 1 (8 - l))) i else Ok a) = Ok a1 /\ length a1 = 256%nat /\
      forall x, 0 <= x < 256 -> get a1 x = if (l <=? 8) && ((s <=? 256 * x) && (256 * x <? s + 2 ^ (16 - l))) then w8 i else get a x).
    { destruct (Z.leb_spec l 8) as [L8|L8]; [|exists a; auto]. rewrite Z.shiftl_1_l, Z.shiftl_mul_pow2 by lia.
      assert (PW : 2 ^ (16 - l) = 2 ^ (8 - l) * 256) by (replace (16 - l) with (8 - l + 8) by lia; rewrite Z.pow_add_r by lia; reflexivity).
      assert (PP : 0 < 2 ^ (8 - l)) by (apply Z.pow_pos_nonneg; lia). rewrite PW in *. remember (2 ^ (8 - l)) as w. assert (S256 : s = c * w * 256) by lia.
      assert (0 <= c * w) by (apply Z.mul_nonneg_nonneg; lia).
      destruct (fill_ok (Z.to_nat w) a (c * w) i ltac:(lia) ltac:(rewrite La; lia)) as (a1 & E1 & L1 & G1). exists a1. split; [exact E1|]. split; [congruence|]. intros x Hx. rewrite G1 by lia. rewrite Z2Nat.id by lia. cbn [andb].
      destruct (Z.leb_spec (c * w) x), (Z.ltb_spec x (c * w + w)), (Z.leb_spec s (256 * x)), (Z.ltb_spec (256 * x) (s + w * 256)); cbn [andb]; try reflexivity; lia. }
    destruct P as (a1 & E1 & L1 & G1). rewrite E1. cbn [bind].
    destruct (IH a1 (i + 1) (s + 2 ^ (16 - l)) cs L1 ltac:(pose proof (Z.pow_nonneg 2 (16 - l) ltac:(lia)); lia) ltac:(lia) A4) as (a2 & E2 & L2 & G2). exists a2. split; [exact E2|]. split; [exact L2|]. intros x Hx.
    destruct (G2 x Hx) as [(j & l' & (N & L8 & I) & G)|[NO G]].
    + left. exists (S j), l'. split; [split; [exact N|split; [exact L8|cbn [firstn weight]; lia]]|]. rewrite G. f_equal. lia.
    + rewrite G, G1 by assumption. destruct ((l <=? 8) && ((s <=? 256 * x) && (256 * x <? s + 2 ^ (16 - l)))) eqn:Q.
      * rewrite !andb_true_iff, !Z.leb_le, Z.ltb_lt in Q. left. exists O, l. split; [split; [reflexivity|split; [lia|cbn [firstn weight]; lia]]|]. f_equal. lia.
      * right. split; [|reflexivity]. intros [|j] l' (N & L8 & I); cbn [nth_error firstn weight] in *.
        -- inversion N; subst l'. rewrite !andb_false_iff, !Z.leb_gt, Z.ltb_ge in Q. lia.
        -- apply (NO j l'). split; [exact N|split; [exact L8|lia]].
Qed.

(* the search for longer codes *)
Lemma search_ok counts : forall i k code s x, bytes counts -> 1 <= i -> i + Z.of_nat (length counts) = 17 -> 0 <= code -> (i <= 16 -> s = code * 2 ^ (16 - i)) -> s <= x ->
  let L := search (ends i code counts) x i in
  (L = 17 /\ s + weight (lengths i counts) <= x) \/
  (i <= L <= 16 /\ exists j d, nth_error (lengths i counts) j = Some L /\ s + weight (firstn j (lengths i counts)) <= x < s + weight (firstn j (lengths i counts)) + 2 ^ (16 - L) /\
   nth_error (dels i k code counts) (Z.to_nat (L - i)) = Some d /\ x / 2 ^ (16 - L) + d = k + Z.of_nat j).
Proof.
  induction counts as [|c r IH]; intros i k code s x B Hi HL Hc Hs Hx; cbn [ends dels lengths search weight length] in *; cbv zeta; [left; lia|].
  inversion B as [|? ? B1 B2]; subst x0 l. unfold is_byte in B1. specialize (Hs ltac:(lia)). assert (NC : Z.of_nat (Z.to_nat c) = c) by (apply Z2Nat.id; lia).
  assert (Wp : 0 < 2 ^ (16 - i)) by (apply Z.pow_pos_nonneg; lia). assert (SE : s + c * 2 ^ (16 - i) = (code + c) * 2 ^ (16 - i)) by (rewrite Hs; ring).
  destruct (Z.leb_spec ((code + c) * 2 ^ (16 - i)) x) as [G|G].
  - specialize (IH (i + 1) (k + c) (2 * (code + c)) ((code + c) * 2 ^ (16 - i)) x B2 ltac:(lia) ltac:(lia) ltac:(lia) ltac:(intros H16; rewrite (pow_step i) by lia; ring) G). cbv zeta in IH.
    rewrite weight_app, weight_repeat, NC, Z.add_assoc, SE. destruct IH as [[A1 A2]|(A1 & j & d & A2 & A3 & A4 & A5)]; [left; auto|right]. split; [lia|]. exists (Z.to_nat c + j)%nat, d.
    rewrite nth_error_app2 by (rewrite repeat_length; lia). rewrite repeat_length. replace (Z.to_nat c + j - Z.to_nat c)%nat with j by lia. split; [exact A2|].
    rewrite <- (repeat_length i (Z.to_nat c)) at 1 3. rewrite firstn_app_2. rewrite weight_app, weight_repeat, NC. split; [lia|]. split; [|lia].
    replace (Z.to_nat (search (ends (i + 1) (2 * (code + c)) r) x (i + 1) - i)) with (S (Z.to_nat (search (ends (i + 1) (2 * (code + c)) r) x (i + 1) - (i + 1)))) by lia. exact A4.
  - right. split; [lia|]. set (q := (x - s) / 2 ^ (16 - i)). pose proof (Z.div_mod (x - s) (2 ^ (16 - i)) ltac:(lia)) as D. pose proof (Z.mod_pos_bound (x - s) (2 ^ (16 - i)) Wp) as M. fold q in D.
    assert (q0 : 0 <= q) by (apply Z.div_pos; lia). assert (qc : q < c) by (apply Z.div_lt_upper_bound; lia). exists (Z.to_nat q), (k - code).
    rewrite nth_error_app1 by (rewrite repeat_length; lia). split; [rewrite nth_error_repeat by lia; reflexivity|].
    assert (FW : weight (firstn (Z.to_nat q) (repeat i (Z.to_nat c) ++ lengths (i + 1) r)) = q * 2 ^ (16 - i)).
    { replace (repeat i (Z.to_nat c)) with (repeat i (Z.to_nat q) ++ repeat i (Z.to_nat (c - q))) by (rewrite <- repeat_app; f_equal; lia). rewrite <- app_assoc. rewrite <- (repeat_length i (Z.to_nat q)) at 1. replace (length (repeat i (Z.to_nat q))) with (length (repeat i (Z.to_nat q)) + 0)%nat by lia. rewrite firstn_app_2. cbn [firstn]. rewrite app_nil_r, weight_repeat, Z2Nat.id by lia. reflexivity. }
    rewrite FW. split; [lia|]. rewrite Z.sub_diag. split; [reflexivity|]. rewrite Z2Nat.id by lia.
    assert (XD : x / 2 ^ (16 - i) = code + q) by (symmetry; apply (Z.div_unique x (2 ^ (16 - i)) (code + q) ((x - s) mod 2 ^ (16 - i))); [lia|]; rewrite Hs in *; lia). rewrite XD. lia.
Qed.
Lemma search_skip n : forall ms x i, (n <= length ms)%nat -> i + Z.of_nat n <= search ms x i -> search (skipn n ms) x (i + Z.of_nat n) = search ms x i.
Proof.
  induction n as [|n IH]; intros ms x i HL HS; [cbn [skipn]; rewrite Z.add_0_r; reflexivity|]. destruct ms as [|m ms]; cbn [length] in HL; [lia|]. cbn [search skipn] in *.
  destruct (m <=? x); [|lia]. rewrite <- (IH ms x (i + 1)) by lia. f_equal. lia.
Qed.
