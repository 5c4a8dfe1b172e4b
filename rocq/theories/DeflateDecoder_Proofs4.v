(* The bit buffer against the stream: after which steps it holds which bits, and what of Layer 1 carries over to the stream. *)
From Verif Require Import Base Bits Algorithm_Spec Algorithm_Model Algorithm_Proofs Deflate_Spec DeflateTable_Model DeflateTable_Proofs DeflateTable_Proofs2 DeflateTable_Proofs3 DeflateTable_Proofs4 DeflateTable_Proofs5 DeflateTable_Proofs6 DeflateTable_Proofs7 DeflateTable_Proofs8 DeflateTable_Proofs9 Inflate_Spec Inflate_Proofs DeflateDecoder_Model DeflateDecoder_Proofs DeflateDecoder_Proofs2 DeflateDecoder_Proofs3.

(* the stream V of N bits; the buffer holds its first b_len bits and, above them, the next bits up to position m (they are
   still in the input chunk); fut are the bytes of the chunks to come *)
Record bits_ok (V N m : Z) (b : bits) (fut : list Z) : Prop := BitsOk {
  bo_len : 0 <= b_len b < 64;
  bo_m : b_len b <= m <= 64;
  bo_src : m <= b_len b + 8 * Z.of_nat (length (b_src b));
  bo_word : b_word b = V mod 2 ^ m;
  bo_V : 0 <= V;
  bo_rest : V / 2 ^ b_len b = le_bytes (b_src b ++ fut);
  bo_N : N = b_len b + 8 * Z.of_nat (length (b_src b ++ fut));
  bo_bytes : bytes (b_src b ++ fut) }.

Lemma bo_word_nonneg V N m b fut : bits_ok V N m b fut -> 0 <= b_word b.
Proof. intros H. rewrite (bo_word _ _ _ _ _ H). apply Z.mod_pos_bound, pow2_pos. destruct (bo_m _ _ _ _ _ H), (bo_len _ _ _ _ _ H). lia. Qed.
Lemma le_bytes_nonneg l : bytes l -> 0 <= le_bytes l.
Proof. induction 1 as [|x l Hx Hl IH]; [reflexivity|]. cbn [le_bytes]. unfold is_byte in Hx. lia. Qed.

Lemma mod_div V m k : 0 <= k <= m -> V mod 2 ^ m / 2 ^ k = V / 2 ^ k mod 2 ^ (m - k).
Proof.
  intros H. replace (2 ^ m) with (2 ^ k * 2 ^ (m - k)) by (rewrite <- Z.pow_add_r by lia; f_equal; lia).
  pose proof (pow2_pos k ltac:(lia)). pose proof (pow2_pos (m - k) ltac:(lia)). rewrite Z.rem_mul_r by lia. rewrite Z.mul_comm, Z.div_add by lia.
  pose proof (Z.mod_pos_bound V (2 ^ k)). rewrite (Z.div_small (V mod 2 ^ k)) by lia. reflexivity.
Qed.
Lemma div_div V a b : 0 <= a -> 0 <= b -> V / 2 ^ a / 2 ^ b = V / 2 ^ (a + b).
Proof. intros. rewrite Z.div_div, <- Z.pow_add_r by (lia || (apply Z.pow_nonzero; lia) || apply pow2_pos; lia). reflexivity. Qed.
Lemma mod_mod_le V a b : 0 <= b <= a -> V mod 2 ^ a mod 2 ^ b = V mod 2 ^ b.
Proof.
  intros H. replace (2 ^ a) with (2 ^ b * 2 ^ (a - b)) by (rewrite <- Z.pow_add_r by lia; f_equal; lia).
  pose proof (pow2_pos b ltac:(lia)). pose proof (pow2_pos (a - b) ltac:(lia)). rewrite Z.rem_mul_r by lia. rewrite Z.mul_comm, Z.mod_add by lia. apply Z.mod_mod. lia.
Qed.

Lemma consume_ok V N m b fut k : bits_ok V N m b fut -> 0 <= k <= b_len b -> bits_ok (V / 2 ^ k) (N - k) (m - k) (Bits (b_word b / 2 ^ k) (b_len b - k) (b_src b)) fut.
Proof.
  intros H Hk. pose proof (bo_m _ _ _ _ _ H). pose proof (bo_len _ _ _ _ _ H). pose proof (bo_src _ _ _ _ _ H). pose proof (bo_N _ _ _ _ _ H). constructor; cbn [b_len b_word b_src]; try lia.
  - rewrite (bo_word _ _ _ _ _ H). apply mod_div. lia.
  - apply div_nonneg, (bo_V _ _ _ _ _ H).
  - rewrite div_div by lia. replace (k + (b_len b - k)) with (b_len b) by lia. apply (bo_rest _ _ _ _ _ H).
  - apply (bo_bytes _ _ _ _ _ H).
Qed.

Lemma byte_testbit x n : 0 <= x < 256 -> 8 <= n -> Z.testbit x n = false.
Proof. intros. apply (testbit_small x 8); change (2 ^ 8) with 256; lia. Qed.

(* one byte *)
Lemma refill_byte_ok V N m b fut x src : bits_ok V N m b fut -> b_src b = x :: src -> b_len b < 56 ->
  exists w, refill_byte (b_word b) (b_len b) x = Ok (w, b_len b + 8) /\ bits_ok V N (Z.max m (b_len b + 8)) (Bits w (b_len b + 8) src) fut.
Proof.
  intros H ES HL. pose proof (bo_m _ _ _ _ _ H) as M. pose proof (bo_len _ _ _ _ _ H) as L. pose proof (bo_src _ _ _ _ _ H) as Sr. pose proof (bo_N _ _ _ _ _ H) as HN.
  pose proof (bo_bytes _ _ _ _ _ H) as HB. pose proof (bo_rest _ _ _ _ _ H) as HR. pose proof (bo_V _ _ _ _ _ H) as HV. rewrite ES in *. cbn [app] in HB, HR, HN. inversion HB as [|? ? Hx HB']; subst. unfold is_byte in Hx.
  cbn [le_bytes length] in *. unfold refill_byte. replace (64 <=? b_len b) with false by lia. eexists. split; [unfold w64 at 2; rewrite (Z.mod_small (b_len b + 8)) by lia; reflexivity|].
  assert (Q : V / 2 ^ (b_len b + 8) = le_bytes (src ++ fut)).
  { rewrite <- div_div by lia. rewrite HR. change (2 ^ 8) with 256. rewrite Z.mul_comm, Z.div_add by lia. rewrite Z.div_small by lia. lia. }
  assert (X : x = V / 2 ^ b_len b mod 2 ^ 8) by (rewrite HR; change (2 ^ 8) with 256; rewrite Z.mul_comm, Z.mod_add, Z.mod_small by lia; reflexivity).
  constructor; cbn [b_len b_word b_src]; try lia; [|exact HB'].
  rewrite (bo_word _ _ _ _ _ H). apply Z.bits_inj'. intros n Hn. rewrite Z.lor_spec. unfold w64. change 18446744073709551616 with (2 ^ 64). rewrite !mod_pow2_testbit by lia.
  rewrite Z.shiftl_spec by lia. destruct (Z_lt_ge_dec n (b_len b)) as [A|A].
  - rewrite (Z.testbit_neg_r x) by lia. rewrite andb_false_r, orb_false_r. replace (n <? m) with true by lia. replace (n <? Z.max m (b_len b + 8)) with true by lia. reflexivity.
  - rewrite X, mod_pow2_testbit by lia. rewrite <- Z.shiftr_div_pow2, Z.shiftr_spec by lia. replace (n - b_len b + b_len b) with n by lia.
    destruct (Z.testbit V n); rewrite ?andb_false_r, ?andb_true_r; [|reflexivity]. lia.
Qed.

Lemma bits_ok_src V N m w l src fut src' : bits_ok V N m (Bits w l src) fut -> src = src' -> bits_ok V N m (Bits w l src') fut.
Proof. intros H ->. exact H. Qed.

Lemma refill_ok V N m b fut : bits_ok V N m b fut ->
  exists b', refill b = Ok b' /\ bits_ok V N (Z.max m (b_len b')) b' fut /\ (b_src b' = [] \/ 56 <= b_len b') /\ b_len b <= b_len b' /\
    (length (b_src b') <= length (b_src b))%nat /\ b_len b' + 8 * Z.of_nat (length (b_src b')) = b_len b + 8 * Z.of_nat (length (b_src b)).
Proof.
  destruct b as [w l src]. unfold refill. cbn [b_src b_word b_len]. revert w l m. induction src as [|x src IH]; intros w l m H.
  - pose proof (bo_m _ _ _ _ _ H) as M. exists (Bits w l []). cbn [refill_loop b_len b_src] in *. split; [reflexivity|]. split; [rewrite Z.max_l by lia; exact H|]. split; [left; reflexivity|]. split; [lia|]. split; [lia|reflexivity].
  - pose proof (bo_m _ _ _ _ _ H) as M. cbn [refill_loop b_len] in *. destruct (l <? 56) eqn:F.
    + destruct (refill_byte_ok V N m _ fut x src H eq_refl ltac:(cbn [b_len]; lia)) as [w' [E H']]. cbn [b_word b_len] in E, H'. rewrite E. cbn [bind fst snd].
      destruct (IH _ _ _ H') as [b' [E' [H2 [H3 [H4 [H5 H6]]]]]]. exists b'. split; [exact E'|]. replace (Z.max (Z.max m (l + 8)) (b_len b')) with (Z.max m (b_len b')) in H2 by lia. split; [exact H2|]. split; [exact H3|].
      cbn [length b_src] in *. split; [lia|]. split; [lia|]. lia.
    + exists (Bits w l (x :: src)). split; [reflexivity|]. cbn [b_len b_src]. rewrite Z.max_l by lia. split; [exact H|]. split; [right; lia|]. split; [lia|]. split; [lia|reflexivity].
Qed.

Lemma le_num_bytes l : le_num l = le_bytes l.
Proof. induction l as [|x l IH]; [reflexivity|]. cbn. rewrite IH. reflexivity. Qed.
Lemma le_bytes_app a b : bytes a -> le_bytes (a ++ b) = le_bytes a + 2 ^ (8 * Z.of_nat (length a)) * le_bytes b /\ 0 <= le_bytes a < 2 ^ (8 * Z.of_nat (length a)).
Proof.
  induction 1 as [|x a Hx Ha IH]; [cbn [app le_bytes length]; change (2 ^ (8 * Z.of_nat 0)) with 1; lia|]. cbn [app le_bytes length]. destruct IH as [E R]. rewrite E.
  replace (8 * Z.of_nat (S (length a))) with (8 + 8 * Z.of_nat (length a)) by lia. rewrite Z.pow_add_r by lia. change (2 ^ 8) with 256. unfold is_byte in Hx.
  revert E R. generalize (2 ^ (8 * Z.of_nat (length a))) (le_bytes a) (le_bytes b). intros. split; nia.
Qed.

Lemma refill_word_ok V N m b fut data : bits_ok V N m b fut -> load64 (b_src b) = Ok data ->
  bits_ok V N 64 (refill_word b data) fut /\ 56 <= b_len (refill_word b data) < 64 /\ (length (b_src (refill_word b data)) <= length (b_src b))%nat /\
  b_len (refill_word b data) + 8 * Z.of_nat (length (b_src (refill_word b data))) = b_len b + 8 * Z.of_nat (length (b_src b)).
Proof.
  intros H LD. pose proof (bo_m _ _ _ _ _ H) as M. pose proof (bo_len _ _ _ _ _ H) as L. pose proof (bo_src _ _ _ _ _ H) as Sr. pose proof (bo_N _ _ _ _ _ H) as HN.
  pose proof (bo_bytes _ _ _ _ _ H) as HB. pose proof (bo_rest _ _ _ _ _ H) as HR. pose proof (bo_V _ _ _ _ _ H) as HV.
  unfold load64 in LD. destruct (Z.of_nat (length (b_src b)) <? 8) eqn:F8; [discriminate|]. assert (ED : data = le_num (firstn 8 (b_src b))) by congruence. clear LD.
  set (src := b_src b) in *. set (l := b_len b) in *. set (q := l / 8). assert (Rq : 0 <= q <= 7) by (unfold q; lia).
  assert (EL : Z.lor l 56 = 56 + l mod 8).
  { rewrite (Z.div_mod l 8) at 1 by lia. rewrite Z.add_comm. change (8 * (l / 8)) with (2 ^ 3 * q). apply Z.bits_inj'. intros n Hn.
    change 56 with (0 + 2 ^ 3 * 7) at 1. rewrite Z.lor_spec. pose proof (Z.mod_pos_bound l 8 ltac:(lia)). rewrite !testbit_add_mul by lia.
    replace (56 + l mod 8) with (l mod 8 + 2 ^ 3 * 7) by lia. rewrite testbit_add_mul by lia. destruct (n <? 3); [rewrite Z.testbit_0_l, orb_false_r; reflexivity|].
    assert (q = 0 \/ q = 1 \/ q = 2 \/ q = 3 \/ q = 4 \/ q = 5 \/ q = 6 \/ q = 7) as Cq by lia. rewrite <- Z.lor_spec. f_equal. destruct Cq as [->|[->|[->|[->|[->|[->|[->| ->]]]]]]]; reflexivity. }
  assert (EA : Z.land (Z.shiftr (Z.lnot l) 3) 7 = 7 - q).
  { rewrite (land_mod _ 3) by (reflexivity || lia). rewrite Z.shiftr_div_pow2 by lia. unfold Z.lnot. change (2 ^ 3) with 8. clearbody l. unfold q. clear -L. lia. }
  unfold refill_word. fold l src. rewrite EL, EA. cbn [b_len b_src b_word].
  assert (Lq : l = 8 * q + l mod 8) by (unfold q; apply Z.div_mod; lia). pose proof (Z.mod_pos_bound l 8 ltac:(lia)) as Lm.
  set (n := Z.to_nat (7 - q)). assert (Sn : (n <= length src)%nat) by (unfold n; lia). rewrite skipn_length.
  split; [|split; [lia|split; lia]].
  assert (B1 : bytes (firstn n src) /\ bytes (skipn n src ++ fut)).
  { rewrite <- (firstn_skipn n src), <- app_assoc in HB. apply Forall_app in HB. exact HB. }
  assert (L1 : Z.of_nat (length (firstn n src)) = 7 - q) by (rewrite firstn_length; unfold n; lia).
  constructor; cbn [b_len b_src b_word].
  - lia.
  - lia.
  - rewrite skipn_length. lia.
  - assert (B8 : bytes (firstn 8 src)) by (rewrite <- (firstn_skipn 8 src), <- app_assoc in HB; apply Forall_app in HB; apply HB).
    assert (X : data = V / 2 ^ l mod 2 ^ 64).
    { rewrite ED, HR, le_num_bytes. rewrite <- (firstn_skipn 8 src) at 2. rewrite <- app_assoc. destruct (le_bytes_app (firstn 8 src) (skipn 8 src ++ fut) B8) as [E R]. rewrite E.
      replace (8 * Z.of_nat (length (firstn 8 src))) with 64 in * by (rewrite firstn_length; lia). rewrite Z.mul_comm, Z.mod_add, Z.mod_small by lia. reflexivity. }
    rewrite (bo_word _ _ _ _ _ H). apply Z.bits_inj'. intros i Hi. rewrite Z.lor_spec. unfold w64. change 18446744073709551616 with (2 ^ 64). rewrite !mod_pow2_testbit by lia.
    rewrite land63, (Z.mod_small l) by lia. rewrite Z.shiftl_spec by lia. destruct (Z_lt_ge_dec i l) as [A|A].
    + rewrite (Z.testbit_neg_r data) by lia. rewrite andb_false_r, orb_false_r. replace (i <? m) with true by lia. replace (i <? 64) with true by lia. reflexivity.
    + rewrite X, mod_pow2_testbit by lia. rewrite <- Z.shiftr_div_pow2, Z.shiftr_spec by lia. replace (i - l + l) with i by lia.
      destruct (Z.testbit V i); rewrite ?andb_false_r, ?andb_true_r; [|reflexivity]. clear -A M L. lia.
  - exact HV.
  - replace (56 + l mod 8) with (l + 8 * (7 - q)) by lia. rewrite <- div_div by lia. rewrite HR. rewrite <- (firstn_skipn n src) at 1. rewrite <- app_assoc.
    destruct (le_bytes_app (firstn n src) (skipn n src ++ fut) (proj1 B1)) as [E R]. rewrite E, L1 in *. pose proof (pow2_pos (8 * (7 - q)) ltac:(lia)).
    rewrite Z.mul_comm, Z.div_add by lia. rewrite Z.div_small by lia. lia.
  - rewrite HN, !app_length, skipn_length. lia.
  - apply B1.
Qed.

(* lia without equations for / and mod *)
Ltac Zify.zify_post_hook ::= idtac.

(* -- the codes -- *)
Lemma dec_mod lens V m s : len_of lens s <= m -> (decodes lens (V mod 2 ^ m) s <-> decodes lens V s).
Proof.
  intros H. unfold decodes. split; intros [D1 [D2 D3]]; (split; [exact D1|]); (split; [exact D2|]); rewrite <- D3; [symmetry|]; apply rc_mod; lia.
Qed.

Lemma sym_lift lit off V m out k out' : wf_mode (ASyms lit off) -> 0 <= V -> sym_step lit off (V mod 2 ^ m) out k out' -> k <= m -> sym_step lit off V out k out'.
Proof.
  intros [W1 [W2 [W3 [W4 _]]]] HV S Hk. inversion S as [s D R|s d D R l k' n V1 D2 R2 l1 k1 dist HD]; subst.
  - constructor; [apply (dec_mod lit V m s Hk), D|exact R].
  - pose proof (decodes_len lit _ s W1 D) as L1. pose proof (length_extra_range s R) as X1. pose proof (decodes_len off _ d W3 D2) as L2. assert (X2 : 0 <= offset_extra d <= 13) by (apply offset_extra_range; destruct D2 as [D2 _]; clear -D2 R2; lia).
    assert (K0 : 1 <= k' /\ k' = len_of lit s + length_extra s) by (unfold k', l; clear -L1 X1; lia). assert (K1 : 1 <= k1 /\ k1 = len_of off d + offset_extra d) by (unfold k1, l1; clear -L2 X2; lia).
    assert (EV : V1 = V / 2 ^ k' mod 2 ^ (m - k')) by (unfold V1; apply mod_div; clear -K0 K1 Hk; lia).
    assert (D' : decodes lit V s) by (apply (dec_mod lit V m s); [clear -K0 K1 Hk X1; lia|exact D]).
    assert (EN : n = length_base s + V / 2 ^ l mod 2 ^ length_extra s).
    { unfold n. f_equal. rewrite mod_div by (unfold l; clear -K0 K1 Hk L1 X1; lia). apply mod_mod_le. unfold l. clear -K0 K1 Hk L1 X1. lia. }
    assert (ED : dist = offset_base d + V / 2 ^ k' / 2 ^ l1 mod 2 ^ offset_extra d).
    { unfold dist. f_equal. rewrite EV, mod_div by (unfold l1; clear -K0 K1 Hk L2 X2; lia). apply mod_mod_le. unfold l1. clear -K0 K1 Hk L2 X2. lia. }
    rewrite EN, ED. rewrite ED in HD. apply (sym_match lit off V out s d D' R); [|exact R2|exact HD].
    apply (dec_mod off _ (m - k') d); [clear -K0 K1 Hk X2; lia|]. fold l. fold k'. rewrite <- EV. exact D2.
Qed.

Lemma sym_pos lit off V out k out' : wf_mode (ASyms lit off) -> sym_step lit off V out k out' -> 1 <= k <= 48.
Proof.
  intros [W1 [W2 [W3 [W4 _]]]] S. inversion S as [s D R|s d D R l k' n V1 D2 R2 l1 k1 dist HD]; subst.
  - pose proof (decodes_len lit _ s W1 D). lia.
  - pose proof (decodes_len lit _ s W1 D) as L1. pose proof (length_extra_range s R) as X1. pose proof (decodes_len off _ d W3 D2) as L2. assert (X2 : 0 <= offset_extra d <= 13) by (apply offset_extra_range; destruct D2 as [D2 _]; clear -D2 R2; lia).
    unfold k', k1, l, l1. clear -L1 X1 L2 X2. lia.
Qed.

Lemma syms_lift lit off f P out k out' : wf_mode (ASyms lit off) -> sym_steps lit off P out k out' -> forall V m N, P = V mod 2 ^ m -> 0 <= V -> k <= m -> k <= N ->
  0 <= k /\ asteps (A (ASyms lit off) f V N out) (A (ASyms lit off) f (V / 2 ^ k) (N - k) out').
Proof.
  intros W S. induction S as [V0 o|V0 o k o1 k2 o2 S1 S2 IH]; intros V m N EP HV Hk HN.
  - split; [lia|]. rewrite Z.div_1_r, Z.sub_0_r. constructor.
  - pose proof (sym_pos _ _ _ _ _ _ W S1) as K.
    assert (K2 : 0 <= k2) by (clear -S2 W; induction S2 as [|? ? ? ? ? ? S1 S2 IH]; [lia|pose proof (sym_pos _ _ _ _ _ _ W S1); lia]).
    subst V0. assert (S1' := sym_lift lit off V m o k o1 W HV S1 ltac:(lia)).
    destruct (IH (V / 2 ^ k) (m - k) (N - k)) as [_ IH']; [apply mod_div; lia|apply div_nonneg, HV|lia|lia|].
    split; [clear -K K2; lia|]. econstructor; [apply sym_astep; [exact W|exact HV|exact S1'|clear -K K2 HN; lia]|]. rewrite div_div in IH' by (clear -K K2; lia). replace (N - (k + k2)) with (N - k - k2) by (clear; lia). exact IH'.
Qed.

(* the codes of a block that can be decoded without looking past the end of the input *)
Definition tame_off (off : list Z) : Prop := (len_of off 30 = 0 /\ len_of off 31 = 0) \/ off = static_off.

Lemma static_codes s : 0 <= s < 32 -> len_of static_off s = 5 /\ huff_code static_off s = s.
Proof.
  intros H. assert (E : forallb (fun s => (len_of static_off s =? 5) && (huff_code static_off s =? s)) (map Z.of_nat (seq 0 32)) = true) by (vm_compute; reflexivity).
  rewrite forallb_forall in E. specialize (E s). assert (I : In s (map Z.of_nat (seq 0 32))) by (apply in_map_iff; exists (Z.to_nat s); rewrite in_seq; lia). specialize (E I). lia.
Qed.

Lemma tame_bad off V1 j d d' : tame_off off -> (length off <= 32)%nat -> 0 <= j -> decodes off (V1 mod 2 ^ j) d -> 30 <= d -> decodes off V1 d' -> d' <= 29 -> False.
Proof.
  intros T HL Hj D Rd D' Rd'. destruct T as [[T1 T2]| ->].
  - destruct D as [D1 [D2 _]]. assert (d = 30 \/ d = 31) as [->| ->] by lia; lia.
  - assert (R : 0 <= d < 32) by (destruct D as [D1 _]; cbn in D1; lia). assert (R' : 0 <= d' < 32) by (destruct D' as [D1 _]; lia).
    destruct (static_codes d R) as [L E]. destruct (static_codes d' R') as [L' E']. destruct D as [_ [_ D]]. destruct D' as [_ [_ D']]. rewrite L, E in D. rewrite L', E' in D'.
    change (Z.to_nat 5) with 5%nat in *. cbn [read_code] in D, D'. 
    assert (B : forall i, 0 <= i -> Z.testbit (V1 mod 2 ^ j) i = true -> Z.testbit V1 i = true) by (intros i Hi; rewrite mod_pow2_testbit by lia; intros Q; apply andb_prop in Q; apply Q).
    pose proof (B 0 ltac:(lia)) as B0. pose proof (B 1 ltac:(lia)) as B1. pose proof (B 2 ltac:(lia)) as B2. pose proof (B 3 ltac:(lia)) as B3. clear B.
    change (Z.of_nat 0) with 0 in *. change (Z.of_nat 1) with 1 in *. change (Z.of_nat 2) with 2 in *. change (Z.of_nat 3) with 3 in *. change (Z.of_nat 4) with 4 in *.
    revert B0 B1 B2 B3 D D' Rd Rd'. clear. generalize (Z.testbit (V1 mod 2 ^ j)) (Z.testbit V1). intros p q.
    destruct (p 0), (p 1), (p 2), (p 3), (p 4); intros B0 B1 B2 B3 D; try (intros; exfalso; lia); rewrite (B0 eq_refl), (B1 eq_refl), (B2 eq_refl), (B3 eq_refl); destruct (q 4); lia.
Qed.

Lemma none_mod lens V j s : 0 <= V -> 0 <= j -> none_for lens (V mod 2 ^ j) -> ~ decodes lens V s.
Proof.
  intros HV Hj N. apply (N V s HV). assert (j = 0 \/ 1 <= j) as [->|Q] by lia; [right; rewrite Z.mod_1_r; reflexivity|].
  pose proof (mod_mod_le V j 1 ltac:(lia)) as E. change (2 ^ 1) with 2 in E. rewrite E. lia.
Qed.

(* bad data: no step *)
Lemma bad_stuck lit off f V m N bl out b : wf_mode (ASyms lit off) -> tame_off off -> 0 <= V -> 0 <= bl <= m -> bad_word lit off (V mod 2 ^ m) bl out -> ~ astep (A (ASyms lit off) f V N out) b.
Proof.
  intros W T HV HB BW St. pose proof W as [W1 [W2 [W3 [W4 _]]]].
  assert (G : (exists s, decodes lit V s /\ (s < 256 \/ s = 256)) \/ (exists s d, decodes lit V s /\ 257 <= s <= 285 /\ let k := len_of lit s + length_extra s in decodes off (V / 2 ^ k) d /\ d <= 29 /\
       offset_base d + V / 2 ^ k / 2 ^ len_of off d mod 2 ^ offset_extra d <= Z.of_nat (length out))).
  { inversion St; subst.
    - left. exists s. split; [assumption|left; assumption].
    - left. exists 256. split; [assumption|right; reflexivity].
    - right. exists s, d. split; [assumption|]. split; [assumption|]. split; [assumption|]. split; assumption. }
  clear St. destruct BW as [s D Rs Ls|NF Hb|s D Rs k Hk C|s d D Rs k V1 D2 Rd Hk HD].
  - apply (dec_mod lit V m s ltac:(lia)) in D. destruct G as [[s' [D' Q]]|[s' [d [D' [Q _]]]]]; assert (s' = s) as -> by exact (decodes_unique lit V s' s W1 D' D); clear -Q Rs; lia.
  - destruct G as [[s' [D' Q]]|[s' [d [D' [Q _]]]]]; revert D'; apply (none_mod lit V m); try assumption; lia.
  - pose proof (decodes_len lit _ s W1 D) as L1. pose proof (length_extra_range s Rs) as X1. assert (K : k = len_of lit s + length_extra s) by reflexivity. clearbody k.
    apply (dec_mod lit V m s ltac:(clear -HB Hk K L1 X1; lia)) in D. destruct G as [[s' [D' Q]]|[s' [d' [D' [Q [D2' [Rd' _]]]]]]]; (assert (s' = s) as -> by exact (decodes_unique lit V s' s W1 D' D)); [clear -Q Rs; lia|].
    rewrite <- K in D2'. rewrite mod_div in C by (clear -HB Hk K L1 X1; lia). destruct C as [[d [D2 Rd]]|NF].
    + eapply (tame_bad off (V / 2 ^ k) (m - k) d d'); try eassumption. clear -HB Hk. lia.
    + revert D2'. apply (none_mod off _ (m - k)); [apply div_nonneg, HV|clear -HB Hk; lia|exact NF].
  - pose proof (decodes_len lit _ s W1 D) as L1. pose proof (length_extra_range s Rs) as X1. pose proof (decodes_len off _ d W3 D2) as L2. assert (X2 : 0 <= offset_extra d <= 13) by (apply offset_extra_range; destruct D2 as [D2 _]; clear -D2 Rd; lia).
    assert (K : k = len_of lit s + length_extra s) by reflexivity. 
    apply (dec_mod lit V m s ltac:(clear -HB Hk K L1 X1 L2 X2; lia)) in D. destruct G as [[s' [D' Q]]|[s' [d' [D' [Q [D2' [Rd' HD']]]]]]]; (assert (s' = s) as -> by exact (decodes_unique lit V s' s W1 D' D)); [clear -Q Rs; lia|].
    fold k in D2', HD'. assert (EV : V1 = V / 2 ^ k mod 2 ^ (m - k)) by (unfold V1; apply mod_div; clear -HB Hk K L1 X1 L2 X2; lia). clearbody V1. clearbody k.
    rewrite EV in D2, HD. apply (proj1 (dec_mod off _ (m - k) d ltac:(clear -HB Hk X2; lia))) in D2. assert (d' = d) as -> by exact (decodes_unique off _ d' d W3 D2' D2).
    rewrite mod_div, mod_mod_le in HD by (clear -HB Hk L2 X2; lia). clear -HD HD'. generalize dependent (offset_base d + V / 2 ^ k / 2 ^ len_of off d mod 2 ^ offset_extra d). intros. lia.
Qed.

Lemma short_stuck lit off f V N m b out s : wf_mode (ASyms lit off) -> bits_ok V N m b [] -> b_src b = [] -> short lit off (b_word b) (b_len b) out -> ~ astep (A (ASyms lit off) f V N out) s.
Proof.
  intros W H ES [S1 S2] St. pose proof (bo_m _ _ _ _ _ H) as M. pose proof (bo_len _ _ _ _ _ H) as L. pose proof (bo_src _ _ _ _ _ H) as Sr. pose proof (bo_N _ _ _ _ _ H) as HN. pose proof (bo_rest _ _ _ _ _ H) as HR.
  rewrite ES in *. cbn [app length le_bytes] in *. assert (m = b_len b) as -> by lia.
  assert (EW : b_word b = V). { rewrite (bo_word _ _ _ _ _ H). pose proof (Z.div_mod V (2 ^ b_len b) ltac:(apply Z.pow_nonzero; lia)) as Q. rewrite HR, Z.mul_0_r, Z.add_0_l in Q. symmetry. exact Q. }
  rewrite EW in *. destruct (astep_sym lit off f V N out s W St) as [[k [o' [Sy Hk]]]|[D [Hk _]]].
  - specialize (S1 k o' Sy). lia.
  - specialize (S2 D). lia.
Qed.
