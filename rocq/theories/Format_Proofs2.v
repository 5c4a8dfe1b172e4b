(* The result of bl_format_info_sanitize: flags, byte order, idempotence. *)
From Verif Require Import Base Bits Object_Model Format_Model Format_Spec Format_Proofs.
Ltac Zify.zify_post_hook ::= idtac.

Definition swaps f : bool := byte_swap f && (8 <? f_depth f) && (indexed f || allb onebyteb f).
Definition flags2 f : Z :=
  let fl := if byte_swap f && ((f_depth f <=? 8) || (indexed f || allb onebyteb f)) then Z.ldiff (flags1 f) F_BYTE_SWAP else flags1 f in
  let fl := if indexed f || allb alignedb f then Z.lor fl F_BYTE_ALIGNED else fl in
  if negb (indexed f) && undefb f then Z.lor fl F_UNDEFINED_BITS else fl.
Definition result f : finfo := with_flags (if swaps f then swap_comps f else f) (flags2 f).

Lemma pub_bits n : 0 <= n -> Z.testbit F_PUBLIC n = ((n =? 0) || (n =? 1) || (n =? 2) || (n =? 4) || (n =? 8) || (n =? 9)).
Proof.
  intros H. destruct (Z.lt_ge_cases n 10) as [L|L].
  - assert (n = 0 \/ n = 1 \/ n = 2 \/ n = 3 \/ n = 4 \/ n = 5 \/ n = 6 \/ n = 7 \/ n = 8 \/ n = 9) as C by lia.
    repeat (destruct C as [C|C]; [subst; reflexivity|]). subst. reflexivity.
  - rewrite (testbit_small F_PUBLIC 10) by (unfold F_PUBLIC; lia). lia.
Qed.
Lemma one_bit k n : 0 <= k -> Z.testbit (2 ^ k) n = (n =? k).
Proof. intros. rewrite Z.pow2_bits_eqb by lia. apply Z.eqb_sym. Qed.
Lemma flags1_bit f n : 0 <= n -> Z.testbit (flags1 f) n = Z.testbit (f_flags f) n && Z.testbit F_PUBLIC n && (indexed f || alpha f || negb (n =? 8)).
Proof.
  intros H. unfold flags1. destruct (indexed f || alpha f); rewrite ?Z.ldiff_spec, Z.land_spec; [rewrite andb_true_r; reflexivity|].
  change F_PREMULTIPLIED with (2 ^ 8). rewrite one_bit by lia. reflexivity.
Qed.
Lemma flags2_bit f n : 0 <= n -> Z.testbit (flags2 f) n =
  if n =? 16 then indexed f || allb alignedb f
  else if n =? 17 then negb (indexed f) && undefb f
  else if n =? 9 then byte_swap f && (8 <? f_depth f) && negb (indexed f || allb onebyteb f)
  else if n =? 8 then premultiplied f && (indexed f || alpha f)
  else Z.testbit (f_flags f) n && ((n =? 0) || (n =? 1) || (n =? 2) || (n =? 4)).
Proof.
  intros H. unfold flags2.
  assert (L : forall (b : bool) x k, 0 <= k -> Z.testbit (if b then Z.lor x (2 ^ k) else x) n = (Z.testbit x n || (b && (n =? k)))).
  { intros [] x k K; [rewrite Z.lor_spec, one_bit by lia; reflexivity|rewrite orb_false_r; reflexivity]. }
  assert (D : forall (b : bool) x k, 0 <= k -> Z.testbit (if b then Z.ldiff x (2 ^ k) else x) n = (Z.testbit x n && negb (b && (n =? k)))).
  { intros [] x k K; [rewrite Z.ldiff_spec, one_bit by lia; reflexivity|rewrite andb_true_r; reflexivity]. }
  change F_BYTE_ALIGNED with (2 ^ 16). change F_UNDEFINED_BITS with (2 ^ 17). change F_BYTE_SWAP with (2 ^ 9).
  rewrite !L, D, flags1_bit, pub_bits by lia.
  destruct (Z.eqb_spec n 16) as [->|N16]; [cbn; rewrite ?andb_false_r, ?andb_true_r, ?orb_false_r; cbn; try rewrite andb_false_r; reflexivity|].
  destruct (Z.eqb_spec n 17) as [->|N17]; [cbn; rewrite ?andb_false_r, ?andb_true_r, ?orb_false_r; cbn; try rewrite andb_false_r; reflexivity|].
  rewrite !andb_false_r, !orb_false_r.
  destruct (Z.eqb_spec n 9) as [->|N9]; [change (Z.testbit (f_flags f) 9) with (byte_swap f); cbn [Z.eqb Pos.eqb orb negb]|].
  - rewrite orb_true_r, !andb_true_r. rewrite Z.leb_antisym. destruct (byte_swap f), (8 <? f_depth f), (indexed f || allb onebyteb f); reflexivity.
  - rewrite andb_false_r. cbn [negb]. rewrite andb_true_r, orb_false_r.
    destruct (Z.eqb_spec n 8) as [->|N8]; [change (Z.testbit (f_flags f) 8) with (premultiplied f); cbn [Z.eqb Pos.eqb orb negb]; rewrite orb_false_r, andb_true_r; reflexivity|].
    cbn [negb]. rewrite orb_true_r, andb_true_r, orb_false_r. reflexivity.
Qed.

Lemma sanitize_eq f : storable f -> sanitize f = if validb f then Ok (result f) else Err BL_ERROR_INVALID_VALUE.
Proof.
  intros S. unfold sanitize. rewrite examine_eq by assumption. destruct (validb f) eqn:V; [|reflexivity]. cbn [bind].
  replace (test_flag (flags1 f) F_BYTE_SWAP) with (byte_swap f).
  2:{ change F_BYTE_SWAP with (2 ^ 9). rewrite test_flag_pow2, flags1_bit by lia. change (Z.testbit F_PUBLIC 9) with true. cbn. rewrite orb_true_r, !andb_true_r. reflexivity. }
  unfold result, flags2, swaps. rewrite (Z.leb_antisym 8). destruct (byte_swap f), (8 <? f_depth f), (indexed f), (allb onebyteb f), (allb alignedb f), (undefb f); reflexivity.
Qed.
Lemma sanitize_ok f g : storable f -> sanitize f = Ok g -> valid f /\ g = result f.
Proof. intros S E. rewrite sanitize_eq in E by assumption. destruct (validb f) eqn:V; [|discriminate]. inversion E. split; [apply validb_spec; assumption|reflexivity]. Qed.

(* comps of the result *)
Lemma result_comps f : comps (result f) = if swaps f then map (swap_comp (f_depth f)) (comps f) else comps f.
Proof. unfold result. destruct (swaps f); reflexivity. Qed.
Lemma result_depth f : f_depth (result f) = f_depth f.
Proof. unfold result. destruct (swaps f); reflexivity. Qed.
Lemma result_flags f : f_flags (result f) = flags2 f.
Proof. unfold result. destruct (swaps f); reflexivity. Qed.
Lemma result_kinds f : rgb (result f) = rgb f /\ alpha (result f) = alpha f /\ lum (result f) = lum f /\ indexed (result f) = indexed f.
Proof.
  unfold rgb, alpha, lum, indexed. rewrite result_flags, !flags2_bit by lia. cbn. rewrite !andb_true_r. auto.
Qed.
Lemma result_swap f : byte_swap (result f) = byte_swap f && (8 <? f_depth f) && negb (indexed f || allb onebyteb f).
Proof. unfold byte_swap at 1. rewrite result_flags, flags2_bit by lia. reflexivity. Qed.
Lemma result_premul f : premultiplied (result f) = premultiplied f && (indexed f || alpha f).
Proof. unfold premultiplied at 1. rewrite result_flags, flags2_bit by lia. reflexivity. Qed.

Lemma swaps_direct f : valid f -> swaps f = true -> indexed f = false /\ In (f_depth f) [16; 24; 32] /\ allb onebyteb f = true /\ byte_swap f = true.
Proof.
  intros [V1 V2] S. unfold swaps in S. rewrite !andb_true_iff in S. destruct S as [[S1 S2] S3]. cbn [In] in *.
  destruct (indexed f); [lia|]. cbn [orb] in S3. split; [reflexivity|]. split; [lia|auto].
Qed.
Lemma in_comps_byte f c : storable f -> In c (comps f) -> byte_comp c.
Proof. intros (_ & _ & Hr & Hg & Hb & Ha) [<- | [<- | [<- | [<- | []]]]]; assumption. Qed.
Lemma valid_provided f c : valid f -> indexed f = false -> In c (comps f) -> c_size c <> 0 -> 1 <= c_size c <= 16 /\ c_shift c + c_size c <= f_depth f.
Proof.
  intros [_ V] I Hc N. rewrite I in V. destruct V as (_ & V1 & V2 & V3 & V4 & _). unfold component_ok, provided, absent in *.
  destruct Hc as [<- | [<- | [<- | [<- | []]]]]; [destruct (rgb f || lum f)|destruct (rgb f || lum f)|destruct (rgb f || lum f)|destruct (alpha f)]; lia.
Qed.
Lemma swap_comp_eq d c : byte_comp c -> d <= 32 -> (c_size c <> 0 -> c_shift c + c_size c <= d) ->
  swap_comp d c = if c_size c =? 0 then c else Comp (c_size c) (d - c_shift c - c_size c).
Proof.
  intros [A B] D H. unfold swap_comp. destruct (Z.eqb_spec (c_size c) 0); [reflexivity|]. f_equal. unfold w8, w32. specialize (H n). rewrite (Z.mod_small _ 4294967296) by lia. apply Z.mod_small. lia.
Qed.
Lemma allb_forall p f : allb p f = true <-> forall c, In c (comps f) -> p c = true.
Proof.
  unfold allb. rewrite !andb_true_iff. split.
  - intros (((A & B) & C) & D) c [<- | [<- | [<- | [<- | []]]]]; assumption.
  - intros H. cbn in H. repeat split; apply H; auto.
Qed.

(* bits of pixels *)
Lemma le_bound l : bytes l -> 0 <= le_value l.
Proof. induction 1 as [|b l Hb _ IH]; cbn [le_value]; [lia|unfold is_byte in Hb; lia]. Qed.
Lemma le_bit l : bytes l -> forall b j, 0 <= j < 8 -> Z.testbit (le_value l) (8 * Z.of_nat b + j) = Z.testbit (nth b l 0) j.
Proof.
  induction 1 as [|x l Hx _ IH]; intros b j Hj.
  - cbn [le_value]. rewrite Z.bits_0. destruct b; cbn; rewrite Z.bits_0; reflexivity.
  - cbn [le_value]. change 256 with (2 ^ 8). rewrite testbit_add_mul by (unfold is_byte in Hx; lia). destruct b as [|b]; cbn [nth].
    + replace (8 * Z.of_nat 0 + j <? 8) with true by lia. f_equal; lia.
    + replace (8 * Z.of_nat (S b) + j <? 8) with false by lia. rewrite <- IH by assumption. f_equal. lia.
Qed.
Lemma component_bit c v n : 0 <= c_size c -> 0 <= c_shift c -> 0 <= n -> Z.testbit (component_value c v) n = (n <? c_size c) && Z.testbit v (c_shift c + n).
Proof. intros. unfold component_value. rewrite mod_pow2_testbit by lia. rewrite Z.div_pow2_bits by lia. f_equal. f_equal. lia. Qed.

(* the byte and the offset in it of a component in a single byte *)
Lemma one_byte c d : byte_comp c -> c_size c <> 0 -> c_shift c + c_size c <= 8 * Z.of_nat d -> onebyteb c = true ->
  exists b o, c_shift c = 8 * Z.of_nat b + o /\ 0 <= o /\ o + c_size c <= 8 /\ (b < d)%nat /\ o = c_shift c mod 8.
Proof.
  intros [A B] N H O. unfold onebyteb in O. replace (c_size c =? 0) with false in O by lia. cbn [orb] in O. apply Z.eqb_eq in O.
  exists (Z.to_nat (c_shift c / 8)), (c_shift c mod 8). revert O. generalize dependent (c_shift c). generalize dependent (c_size c). clear. intros. Z.div_mod_to_equations. lia.
Qed.

Lemma swapped_bits c d mem n : bytes mem -> length mem = d -> byte_comp c -> c_size c <> 0 -> c_shift c + c_size c <= 8 * Z.of_nat d -> 8 * Z.of_nat d <= 32 ->
  onebyteb c = true -> 0 <= n ->
  exists b o, c_shift c = 8 * Z.of_nat b + o /\ 0 <= o /\ o + c_size c <= 8 /\ (b < d)%nat /\ o = c_shift c mod 8 /\
   Z.testbit (component_value c (le_value (rev mem))) n = ((n <? c_size c) && Z.testbit (nth (d - S b) mem 0) (o + n)) /\
   Z.testbit (component_value (swap_comp (8 * Z.of_nat d) c) (le_value mem)) n = ((n <? c_size c) && Z.testbit (nth (d - S b) mem 0) (8 - o - c_size c + n)).
Proof.
  intros M Lm B N H D O Hn. destruct (one_byte c d B N H O) as (b & o & E1 & E2 & E3 & E4 & E5). exists b, o. repeat (split; [assumption|]).
  destruct B as [B1 B2]. assert (Mr : bytes (rev mem)) by (apply Forall_rev; exact M). split.
  - rewrite component_bit by lia. destruct (Z.ltb_spec n (c_size c)); [|reflexivity]. cbn [andb]. rewrite E1.
    replace (8 * Z.of_nat b + o + n) with (8 * Z.of_nat b + (o + n)) by lia. rewrite le_bit by (assumption || lia). rewrite rev_nth by lia. rewrite Lm. reflexivity.
  - rewrite swap_comp_eq by (try split; lia). replace (c_size c =? 0) with false by lia. rewrite component_bit by (cbn [c_size c_shift]; lia). cbn [c_size c_shift].
    destruct (Z.ltb_spec n (c_size c)); [|reflexivity]. cbn [andb].
    replace (8 * Z.of_nat d - c_shift c - c_size c + n) with (8 * Z.of_nat (d - S b) + (8 - o - c_size c + n)) by lia. rewrite le_bit by (assumption || lia). reflexivity.
Qed.

(* the component sits in the middle of its byte *)
Definition centred (c : comp) : Prop := c_size c = 0 \/ 2 * (c_shift c mod 8) + c_size c = 8.

Lemma component_inj c v c' v' : byte_comp c -> byte_comp c' -> (forall n, 0 <= n -> Z.testbit (component_value c v) n = Z.testbit (component_value c' v') n) -> component_value c v = component_value c' v'.
Proof. intros _ _ H. apply Z.bits_inj'. exact H. Qed.

Lemma rev_one (l : list Z) : (length l <= 1)%nat -> rev l = l.
Proof. destruct l as [|a [|b l]]; cbn; auto; lia. Qed.

Lemma same_noswap f : storable f -> valid f -> swaps f = false -> same_pixels f (result f).
Proof.
  intros S V W mem M L. unfold decode. rewrite result_comps, W. assert (E : pixel_value (result f) mem = pixel_value f mem).
  { unfold pixel_value. rewrite result_swap. unfold swaps in W. destruct (byte_swap f); [|reflexivity]. cbn [andb] in *.
    destruct (Z.ltb_spec 8 (f_depth f)); cbn [andb] in *; [rewrite W; reflexivity|]. rewrite rev_one by lia. reflexivity. }
  rewrite E. reflexivity.
Qed.
Lemma same_swap f : storable f -> valid f -> swaps f = true -> (same_pixels f (result f) <-> forall c, In c (comps f) -> centred c).
Proof.
  intros St V W. destruct (swaps_direct f V W) as (I & D & O & B).
  assert (Dn : exists d, f_depth f = 8 * Z.of_nat d /\ (d <= 4)%nat).
  { cbn [In] in D. destruct D as [<- | [<- | [<- | []]]]; [exists 2%nat|exists 3%nat|exists 4%nat]; split; lia. }
  destruct Dn as (d & Dd & D4). rewrite allb_forall in O.
  assert (R : byte_swap (result f) = false) by (rewrite result_swap; unfold swaps in W; destruct (indexed f || allb onebyteb f); cbn [negb]; [apply andb_false_r|rewrite andb_false_r in W; discriminate]).
  unfold same_pixels, decode, pixel_value. rewrite result_comps, W, B, R.
  split.
  - intros H c Ic. unfold centred. destruct (Z.eq_dec (c_size c) 0) as [Z0|N0]; [auto|]. right.
    pose proof (in_comps_byte f c St Ic) as Bc. destruct (valid_provided f c V I Ic N0) as [P1 P2].
    destruct (one_byte c d Bc N0 ltac:(lia) (O c Ic)) as (b & o & E1 & E2 & E3 & E4 & E5).
    set (mem := repeat 0 (d - S b) ++ 2 ^ o :: repeat 0 b).
    assert (Lm : length mem = d) by (unfold mem; rewrite app_length; cbn [length]; rewrite !repeat_length; lia).
    assert (Po : 0 < 2 ^ o < 256) by (split; [apply Z.pow_pos_nonneg; lia|change 256 with (2 ^ 8); apply Z.pow_lt_mono_r; lia]).
    assert (M : bytes mem).
    { unfold mem. apply Forall_app. split; [apply Forall_forall; intros x Hx; apply repeat_spec in Hx; rewrite Hx; unfold is_byte; lia|].
      constructor; [unfold is_byte; lia|apply Forall_forall; intros x Hx; apply repeat_spec in Hx; rewrite Hx; unfold is_byte; lia]. }
    specialize (H mem M). rewrite Lm in H. specialize (H (eq_sym Dd)). rewrite map_map in H.
    pose proof (ext_in_map H c Ic) as X. clear H. cbn beta in X.
    destruct (swapped_bits c d mem 0 M Lm Bc N0 ltac:(lia) ltac:(lia) (O c Ic) ltac:(lia)) as (b' & o' & F1 & F2 & F3 & F4 & F5 & F6 & F7).
    assert (o' = o) by lia. assert (b' = b) by lia. subst o' b'. rewrite Dd in X. rewrite X in F7. rewrite F6 in F7.
    assert (Nt : nth (d - S b) mem 0 = 2 ^ o) by (unfold mem; rewrite app_nth2; rewrite repeat_length; [rewrite Nat.sub_diag; reflexivity|lia]).
    rewrite Nt in F7. replace (0 <? c_size c) with true in F7 by lia. cbn [andb] in F7. rewrite !one_bit in F7 by lia. revert F7.
    assert (Q : (c_shift c mod 8 + 0 =? o) = true) by lia. rewrite Q. intros F7. symmetry in F7. apply Z.eqb_eq in F7. lia.
  - intros H mem M L. rewrite map_map. apply map_ext_in. intros c Ic.
    pose proof (in_comps_byte f c St Ic) as Bc. destruct (Z.eq_dec (c_size c) 0) as [Z0|N0].
    + unfold swap_comp. rewrite Z0. cbn [Z.eqb]. unfold component_value. rewrite Z0. change (2 ^ 0) with 1. rewrite !Z.mod_1_r. reflexivity.
    + destruct (valid_provided f c V I Ic N0) as [P1 P2]. apply Z.bits_inj'. intros n Hn.
      destruct (swapped_bits c d mem n M ltac:(lia) Bc N0 ltac:(lia) ltac:(lia) (O c Ic) Hn) as (b & o & F1 & F2 & F3 & F4 & F5 & F6 & F7).
      rewrite Dd. rewrite F6, F7. destruct (H c Ic) as [K|K]; [lia|]. rewrite <- F5 in K. f_equal. f_equal. lia.
Qed.

(* idempotence *)
Lemma covers_swap f c k : storable f -> valid f -> indexed f = false -> In c (comps f) -> covers (swap_comp (f_depth f) c) k <-> covers c (f_depth f - 1 - k).
Proof.
  intros S V I Ic. pose proof (in_comps_byte f c S Ic) as Bc. pose proof (valid_depth f V). rewrite swap_comp_eq; [|assumption|lia|intros N; destruct (valid_provided f c V I Ic N); lia].
  unfold covers. destruct (Z.eqb_spec (c_size c) 0); cbn [c_size c_shift]; lia.
Qed.
Lemma swap_byte f c : storable f -> valid f -> indexed f = false -> In c (comps f) -> byte_comp (swap_comp (f_depth f) c).
Proof.
  intros S V I Ic. pose proof (in_comps_byte f c S Ic) as Bc. pose proof (valid_depth f V). rewrite swap_comp_eq; [|assumption|lia|intros N; destruct (valid_provided f c V I Ic N); lia].
  destruct (Z.eqb_spec (c_size c) 0); [assumption|]. destruct (valid_provided f c V I Ic n). destruct Bc. split; cbn [c_size c_shift]; lia.
Qed.
Lemma swap_ok f g p c : storable f -> valid f -> indexed f = false -> In c (comps f) -> f_depth g = f_depth f -> component_ok f p c -> component_ok g p (swap_comp (f_depth f) c).
Proof.
  intros S V I Ic Eg. pose proof (in_comps_byte f c S Ic) as Bc. pose proof (valid_depth f V). rewrite swap_comp_eq; [|assumption|lia|intros N; destruct (valid_provided f c V I Ic N); lia].
  unfold component_ok, provided, absent. rewrite Eg. destruct Bc. destruct p, (Z.eqb_spec (c_size c) 0); cbn [c_size c_shift]; lia.
Qed.
Lemma swap_disjoint f c e : storable f -> valid f -> indexed f = false -> In c (comps f) -> In e (comps f) -> disjoint c e -> disjoint (swap_comp (f_depth f) c) (swap_comp (f_depth f) e).
Proof. intros S V I Ic Ie D k. rewrite !(covers_swap f) by assumption. apply D. Qed.
Lemma flags2_range f : 0 <= flags2 f < 2 ^ 32.
Proof.
  assert (N : 0 <= flags2 f).
  { unfold flags2. cbv zeta. assert (P : 0 <= flags1 f) by (unfold flags1; destruct (indexed f || alpha f); [|apply Z.ldiff_nonneg; left]; apply Z.land_nonneg; right; unfold F_PUBLIC; lia).
    assert (Q : 0 <= (if byte_swap f && ((f_depth f <=? 8) || (indexed f || allb onebyteb f)) then Z.ldiff (flags1 f) F_BYTE_SWAP else flags1 f)).
    { destruct (byte_swap f && _); [apply Z.ldiff_nonneg; left|]; assumption. }
    revert Q. generalize (if byte_swap f && ((f_depth f <=? 8) || (indexed f || allb onebyteb f)) then Z.ldiff (flags1 f) F_BYTE_SWAP else flags1 f). intros z Q.
    destruct (indexed f || allb alignedb f), (negb (indexed f) && undefb f); rewrite ?Z.lor_nonneg; unfold F_BYTE_ALIGNED, F_UNDEFINED_BITS; repeat split; lia. }
  split; [exact N|]. apply bits_small_iff; [lia|exact N|]. intros n Hn. rewrite flags2_bit by lia.
  replace (n =? 16) with false by lia. replace (n =? 17) with false by lia. replace (n =? 9) with false by lia. replace (n =? 8) with false by lia.
  replace ((n =? 0) || (n =? 1) || (n =? 2) || (n =? 4)) with false by lia. apply andb_false_r.
Qed.
Lemma result_storable f : storable f -> valid f -> storable (result f).
Proof.
  intros S V. unfold storable. rewrite result_depth, result_flags. pose proof (flags2_range f). pose proof S as (S1 & S2 & S3). split; [assumption|]. split; [assumption|].
  unfold result. destruct (swaps f) eqn:W; [|assumption]. destruct (swaps_direct f V W) as (I & _).
  cbn [with_flags swap_comps f_r f_g f_b f_a]. repeat split; apply (swap_byte f); auto; unfold comps; cbn; auto.
Qed.
Lemma result_valid f : storable f -> valid f -> valid (result f).
Proof.
  intros S V. destruct (result_kinds f) as (K1 & K2 & K3 & K4). unfold valid. rewrite result_depth, K4. destruct (swaps f) eqn:W.
  - destruct (swaps_direct f V W) as (I & _). rewrite I. pose proof V as [V1 V2]. split; [exact V1|]. rewrite I in V2.
    unfold valid_direct in *. rewrite K1, K2, K3.
    destruct V2 as (A1 & A2 & A3 & A4 & A5 & A6 & A7 & A8 & A9).
    assert (Eg : f_depth (result f) = f_depth f) by apply result_depth.
    assert (C1 : In (f_r f) (comps f)) by (cbn; auto). assert (C2 : In (f_g f) (comps f)) by (cbn; auto).
    assert (C3 : In (f_b f) (comps f)) by (cbn; auto). assert (C4 : In (f_a f) (comps f)) by (cbn; auto).
    assert (R : f_r (result f) = swap_comp (f_depth f) (f_r f) /\ f_g (result f) = swap_comp (f_depth f) (f_g f) /\ f_b (result f) = swap_comp (f_depth f) (f_b f) /\ f_a (result f) = swap_comp (f_depth f) (f_a f)) by (unfold result; rewrite W; cbn; auto).
    destruct R as (R1 & R2 & R3 & R4). rewrite R1, R2, R3, R4.
    split; [exact A1|]. split; [apply swap_ok; assumption|]. split; [apply swap_ok; assumption|]. split; [apply swap_ok; assumption|]. split; [apply swap_ok; assumption|].
    split; [|split; [apply swap_disjoint; assumption|split; apply swap_disjoint; assumption]].
    destruct (lum f); [destruct A6 as [<- <-]; auto|]. destruct A6 as (B1 & B2 & B3). split; [|split]; apply swap_disjoint; assumption.
  - unfold valid_direct, component_ok, provided. rewrite result_comps, W, K1, K2, K3, result_depth. unfold result. rewrite W. exact V.
Qed.
Lemma swap_aligned f c : storable f -> valid f -> indexed f = false -> In (f_depth f) [16; 24; 32] -> In c (comps f) -> alignedb (swap_comp (f_depth f) c) = alignedb c /\ (onebyteb c = true -> onebyteb (swap_comp (f_depth f) c) = true).
Proof.
  intros S V I D Ic. pose proof (in_comps_byte f c S Ic) as Bc. pose proof (valid_depth f V). rewrite swap_comp_eq; [|assumption|lia|intros N; destruct (valid_provided f c V I Ic N); lia].
  destruct (Z.eqb_spec (c_size c) 0); [auto|]. destruct (valid_provided f c V I Ic n) as [P1 P2]. unfold alignedb, onebyteb. cbn [c_size c_shift].
  replace (c_size c =? 0) with false by lia. cbn [orb].
  assert (M : f_depth f mod 8 = 0) by (cbn [In] in D; destruct D as [<- | [<- | [<- | []]]]; reflexivity).
  destruct Bc as [B1 B2]. revert M P1 P2 B1 B2. generalize (f_depth f) (c_size c) (c_shift c). clear. intros d s t M P1 P2 B1 B2. split.
  - destruct (Z.eqb_spec s 8) as [->|]; [cbn [andb]|reflexivity]. apply Bool.eq_iff_eq_true. rewrite !Z.eqb_eq. clear -M. Z.div_mod_to_equations. lia.
  - rewrite !Z.eqb_eq. intros E. clear - M E P1 P2 B2. Z.div_mod_to_equations. lia.
Qed.
Lemma result_aligned f : storable f -> valid f -> allb alignedb (result f) = allb alignedb f.
Proof.
  intros S V. destruct (swaps f) eqn:W; [|unfold allb, result; rewrite W; reflexivity]. destruct (swaps_direct f V W) as (I & D & O & B).
  unfold allb, result. rewrite W. cbn [with_flags swap_comps f_r f_g f_b f_a].
  rewrite !(fun c H => proj1 (swap_aligned f c S V I D H)) by (cbn; auto). reflexivity.
Qed.
Lemma result_onebyte f : storable f -> valid f -> allb onebyteb (result f) = allb onebyteb f.
Proof.
  intros S V. destruct (swaps f) eqn:W; [|unfold allb, result; rewrite W; reflexivity]. destruct (swaps_direct f V W) as (I & D & O & B). rewrite O.
  rewrite allb_forall in *. intros c Ic. rewrite result_comps, W in Ic. apply in_map_iff in Ic. destruct Ic as (e & <- & Ie). apply (swap_aligned f e S V I D Ie). apply O. exact Ie.
Qed.
Lemma result_undef f : storable f -> valid f -> indexed f = false -> undefb (result f) = undefb f.
Proof.
  intros S V I. destruct (result_kinds f) as (_ & _ & _ & K4). apply Bool.eq_iff_eq_true.
  rewrite !undefb_spec by (auto using result_storable, result_valid; congruence). rewrite result_depth, result_comps. destruct (swaps f) eqn:W; [|tauto].
  split; intros (k & Hk & H); exists (f_depth f - 1 - k); (split; [lia|]).
  - intros c Ic C. apply (H (swap_comp (f_depth f) c)); [apply in_map; exact Ic|]. apply (covers_swap f); assumption.
  - intros c Ic C. apply in_map_iff in Ic. destruct Ic as (e & <- & Ie). rewrite (covers_swap f) in C by assumption. apply (H e Ie). replace k with (f_depth f - 1 - (f_depth f - 1 - k)) by lia. exact C.
Qed.
Lemma idem f : storable f -> valid f -> result (result f) = result f.
Proof.
  intros S V. destruct (result_kinds f) as (K1 & K2 & K3 & K4).
  assert (W : swaps (result f) = false).
  { unfold swaps at 1. rewrite result_swap, result_depth, K4, result_onebyte by assumption. destruct (byte_swap f), (8 <? f_depth f), (indexed f || allb onebyteb f); reflexivity. }
  unfold result at 1. rewrite W.
  assert (F : flags2 (result f) = f_flags (result f)).
  { rewrite result_flags. apply Z.bits_inj'. intros n Hn. rewrite !flags2_bit by lia.
    rewrite K2, K4, result_aligned, result_onebyte, result_swap, result_premul, result_depth, result_flags by assumption.
    destruct (Z.eqb_spec n 16); [reflexivity|]. destruct (Z.eqb_spec n 17); [destruct (indexed f) eqn:I; [reflexivity|rewrite result_undef by assumption; reflexivity]|].
    destruct (Z.eqb_spec n 9); [destruct (byte_swap f), (8 <? f_depth f), (indexed f || allb onebyteb f); reflexivity|].
    destruct (Z.eqb_spec n 8); [destruct (premultiplied f), (indexed f || alpha f); reflexivity|].
    rewrite flags2_bit by lia. replace (n =? 16) with false by lia. replace (n =? 17) with false by lia. replace (n =? 9) with false by lia. replace (n =? 8) with false by lia.
    destruct (Z.testbit (f_flags f) n), ((n =? 0) || (n =? 1) || (n =? 2) || (n =? 4)); reflexivity. }
  rewrite F. destruct (result f); reflexivity.
Qed.
