(* Properties of BLFormatInfo::sanitize and BLFormatInfo::query. *)
From Verif Require Import Base Bits Object_Model Format_Model Format_Spec Format_Proofs Format_Proofs2.
Ltac Zify.zify_post_hook ::= idtac.

Ltac storable_tac := unfold storable, byte_comp; cbv zeta; repeat split; vm_compute; first [reflexivity | discriminate].
(* ARGB 4444 of the other byte order *)
Definition argb4444_swapped : finfo := Info 16 (F_RGBA + F_BYTE_SWAP) (Comp 4 8) (Comp 4 4) (Comp 4 0) (Comp 4 12).
(* RGB 565 of the other byte order, with a stray premultiplied flag *)
Definition rgb565_swapped : finfo := Info 16 (F_RGB + F_PREMULTIPLIED + F_BYTE_SWAP) (Comp 5 11) (Comp 6 5) (Comp 5 0) (Comp 0 0).
(* big endian ARGB32 *)
Definition argb32_swapped : finfo := Info 32 (F_RGBA + F_BYTE_SWAP) (Comp 8 16) (Comp 8 8) (Comp 8 0) (Comp 8 24).
(* gray with alpha *)
Definition luma88 : finfo := Info 16 F_LUMA (Comp 8 0) (Comp 8 0) (Comp 8 0) (Comp 8 8).
Definition overlapping : finfo := Info 16 F_RGB (Comp 6 10) (Comp 6 5) (Comp 5 0) (Comp 0 0).

(* C85: sanitize accepts exactly the descriptions that make sense, and reports an error for the others. *)
Theorem C85_accepts f : storable f -> (exists g, sanitize f = Ok g) <-> valid f.
Proof.
  intros S. rewrite sanitize_eq by assumption. rewrite <- validb_spec by assumption. destruct (validb f); split; try discriminate; eauto. intros [g E]. discriminate.
Qed.
Print Assumptions C85_accepts.
Theorem C85_rejects f : storable f -> ~ valid f -> sanitize f = Err BL_ERROR_INVALID_VALUE.
Proof. intros S V. rewrite sanitize_eq by assumption. destruct (validb f) eqn:E; [|reflexivity]. apply validb_spec in E; [contradiction|assumption]. Qed.
Print Assumptions C85_rejects.
Example C85_ex_luma : storable luma88 /\ valid luma88 /\ sanitize luma88 = Ok (with_flags luma88 (F_LUMA + F_BYTE_ALIGNED)).
Proof.
  assert (S : storable luma88) by storable_tac. split; [exact S|]. split; [apply C85_accepts; [exact S|eexists; vm_compute; reflexivity]|vm_compute; reflexivity].
Qed.
Example C85_ex_overlap : storable overlapping /\ ~ valid overlapping /\ sanitize overlapping = Err BL_ERROR_INVALID_VALUE.
Proof.
  assert (S : storable overlapping) by storable_tac. split; [exact S|]. split; [|vm_compute; reflexivity].
  intros V. apply (C85_accepts _ S) in V. destruct V as [g E]. vm_compute in E. discriminate.
Qed.

(* C86: what a successful sanitize stores. *)
Lemma size_swap d c : c_size (swap_comp d c) = c_size c.
Proof. unfold swap_comp. destruct (c_size c =? 0); reflexivity. Qed.
Lemma allb_false p f : allb p f = false <-> exists c, In c (comps f) /\ p c = false.
Proof.
  split.
  - unfold allb. rewrite !andb_false_iff. cbn [comps In]. intros [[[H|H]|H]|H]; eexists; split; try exact H; auto.
  - intros (c & I & E). apply not_true_is_false. rewrite allb_forall. intros H. rewrite (H c I) in E. discriminate.
Qed.
Lemma onebyteb_false c : onebyteb c = false <-> ~ in_one_byte c.
Proof. unfold onebyteb, in_one_byte. rewrite orb_false_iff, !Z.eqb_neq. intuition lia. Qed.
Theorem C86_result f g : storable f -> sanitize f = Ok g ->
  valid g /\ storable g /\ f_depth g = f_depth f /\ map c_size (comps g) = map c_size (comps f) /\
  rgb g = rgb f /\ alpha g = alpha f /\ lum g = lum f /\ indexed g = indexed f /\
  (premultiplied g = true <-> premultiplied f = true /\ (indexed f = true \/ alpha f = true)).
Proof.
  intros S E. apply sanitize_ok in E; [|assumption]. destruct E as [V ->]. destruct (result_kinds f) as (K1 & K2 & K3 & K4).
  split; [apply result_valid; assumption|]. split; [apply result_storable; assumption|]. split; [apply result_depth|]. split.
  - rewrite result_comps. destruct (swaps f); [|reflexivity]. rewrite map_map. apply map_ext. intros c. apply size_swap.
  - repeat (split; [assumption|]). rewrite result_premul, andb_true_iff, orb_true_iff. tauto.
Qed.
Print Assumptions C86_result.
Theorem C86_flags f g : storable f -> sanitize f = Ok g ->
  (byte_swap g = true <-> byte_swap f = true /\ 8 < f_depth f /\ exists c, In c (comps f) /\ ~ in_one_byte c) /\
  (Z.testbit (f_flags g) 16 = true <-> indexed f = true \/ (forall c, In c (comps g) -> whole_byte c)) /\
  (Z.testbit (f_flags g) 17 = true <-> indexed f = false /\ exists k, 0 <= k < f_depth g /\ forall c, In c (comps g) -> ~ covers c k) /\
  (forall n, 0 <= n -> ~ In n [0; 1; 2; 4; 8; 9; 16; 17] -> Z.testbit (f_flags g) n = false).
Proof.
  intros S E. apply sanitize_ok in E; [|assumption]. destruct E as [V ->]. destruct (result_kinds f) as (K1 & K2 & K3 & K4).
  split; [|split; [|split]].
  - rewrite result_swap, !andb_true_iff, negb_true_iff, orb_false_iff, allb_false. split.
    + intros [[A B] [C (c & D & F)]]. split; [assumption|]. split; [lia|]. exists c. split; [assumption|]. apply onebyteb_false. assumption.
    + intros (A & B & c & C & D). split; [split; [assumption|lia]|]. split; [destruct V as [_ V]; destruct (indexed f); [lia|reflexivity]|].
      exists c. split; [assumption|]. apply onebyteb_false. assumption.
  - rewrite result_flags, flags2_bit by lia. cbn [Z.eqb Pos.eqb]. rewrite orb_true_iff, <- result_aligned by assumption. rewrite allb_forall.
    assert (W : forall c, alignedb c = true <-> whole_byte c) by (intros c; unfold alignedb, whole_byte; rewrite orb_true_iff, andb_true_iff, !Z.eqb_eq; tauto).
    split; (intros [H|H]; [left; exact H|right; intros c Ic; apply W; apply H; exact Ic]).
  - rewrite result_flags, flags2_bit by lia. cbn [Z.eqb Pos.eqb]. rewrite andb_true_iff, negb_true_iff. split.
    + intros [I U]. split; [assumption|]. apply undefb_spec; [apply result_storable; assumption|apply result_valid; assumption|congruence|]. rewrite result_undef by assumption. assumption.
    + intros [I U]. split; [assumption|]. rewrite <- (result_undef f) by assumption. apply undefb_spec; [apply result_storable; assumption|apply result_valid; assumption|congruence|exact U].
  - intros n Hn N. cbn [In] in N. rewrite result_flags, flags2_bit by lia.
    replace (n =? 16) with false by lia. replace (n =? 17) with false by lia. replace (n =? 9) with false by lia. replace (n =? 8) with false by lia.
    replace ((n =? 0) || (n =? 1) || (n =? 2) || (n =? 4)) with false by lia. apply andb_false_r.
Qed.
Print Assumptions C86_flags.
(* the byte swap stays because the green component crosses a byte boundary; the premultiplied flag goes *)
Example C86_ex_565 : storable rgb565_swapped /\ sanitize rgb565_swapped = Ok (with_flags rgb565_swapped (F_RGB + F_BYTE_SWAP)).
Proof. split; [storable_tac|vm_compute; reflexivity]. Qed.
Example C86_ex_555 : let f := Info 16 F_RGB (Comp 5 10) (Comp 5 5) (Comp 5 0) (Comp 0 0) in
  storable f /\ sanitize f = Ok (with_flags f (F_RGB + F_UNDEFINED_BITS)).
Proof. split; [storable_tac|vm_compute; reflexivity]. Qed.

(* C87: the sanitized description should read every pixel like the original one. It does exactly when no byte swap is
   resolved, or when all the components sit in the middle of their bytes. *)
Theorem C87_byte_order_exact f g : storable f -> sanitize f = Ok g ->
  (same_pixels f g <->
   byte_swap f = false \/ f_depth f <= 8 \/ (exists c, In c (comps f) /\ ~ in_one_byte c) \/
   (forall c, In c (comps f) -> c_size c = 0 \/ 2 * (c_shift c mod 8) + c_size c = 8)).
Proof.
  intros S E. apply sanitize_ok in E; [|assumption]. destruct E as [V ->]. destruct (swaps f) eqn:W.
  - rewrite (same_swap f S V W). destruct (swaps_direct f V W) as (I & D & O & B). split; [intros H; right; right; right; exact H|].
    intros [H|[H|[(c & Ic & H)|H]]]; [congruence|cbn [In] in D; lia| |exact H]. rewrite allb_forall in O. apply onebyteb_false in H. rewrite (O c Ic) in H. discriminate.
  - split; [intros _|intros _; apply same_noswap; assumption]. unfold swaps in W. rewrite !andb_false_iff, orb_false_iff in W. destruct W as [[W|W]|[_ W]]; [auto|right; left; lia|].
    apply allb_false in W. destruct W as (c & Ic & F). right; right; left. exists c. split; [assumption|]. apply onebyteb_false. assumption.
Qed.
Print Assumptions C87_byte_order_exact.
(* in particular when the components are whole bytes *)
Theorem C87_byte_order_partial f g : storable f -> sanitize f = Ok g -> (forall c, In c (comps f) -> whole_byte c) -> same_pixels f g.
Proof.
  intros S E H. apply (C87_byte_order_exact f g S E). right; right; right. intros c Ic. destruct (H c Ic) as [K|[K1 K2]]; [auto|right; lia].
Qed.
Print Assumptions C87_byte_order_partial.
(* Not otherwise: ARGB 4444 of the other byte order is accepted and its components are exchanged inside of the bytes. *)
Theorem C87_byte_order_refuted : exists f g, storable f /\ sanitize f = Ok g /\ byte_swap g = false /\ ~ same_pixels f g.
Proof.
  exists argb4444_swapped, (Info 16 F_RGBA (Comp 4 4) (Comp 4 8) (Comp 4 12) (Comp 4 0)).
  split; [storable_tac|]. split; [vm_compute; reflexivity|]. split; [reflexivity|].
  intros H. specialize (H [0x12; 0x34]). cbn [length] in H. assert (B : bytes [0x12; 0x34]) by (repeat constructor; unfold is_byte; lia).
  specialize (H B eq_refl). vm_compute in H. discriminate.
Qed.
Print Assumptions C87_byte_order_refuted.
(* the bytes 12 34 hold the pixel 0x1234: A = 1, R = 2, G = 3, B = 4; afterwards A = 2, R = 1, G = 4, B = 3 *)
Example C87_ex_4444 : decode argb4444_swapped [0x12; 0x34] = [2; 3; 4; 1] /\
  decode (Info 16 F_RGBA (Comp 4 4) (Comp 4 8) (Comp 4 12) (Comp 4 0)) [0x12; 0x34] = [1; 4; 3; 2].
Proof. split; vm_compute; reflexivity. Qed.
Example C87_ex_argb32 : storable argb32_swapped /\ (forall c, In c (comps argb32_swapped) -> whole_byte c) /\
  sanitize argb32_swapped = Ok (Info 32 (F_RGBA + F_BYTE_ALIGNED) (Comp 8 8) (Comp 8 16) (Comp 8 24) (Comp 8 0)).
Proof.
  split; [storable_tac|]. split; [|vm_compute; reflexivity]. intros c [<- | [<- | [<- | [<- | []]]]]; right; split; reflexivity.
Qed.

(* C88: sanitize is idempotent and leaves the built-in formats alone. *)
Theorem C88_idempotent f g : storable f -> sanitize f = Ok g -> sanitize g = Ok g.
Proof.
  intros S E. apply sanitize_ok in E; [|assumption]. destruct E as [V ->]. rewrite sanitize_eq by (apply result_storable; assumption).
  pose proof (result_valid f S V) as V'. apply validb_spec in V'; [|apply result_storable; assumption]. rewrite V'. rewrite idem by assumption. reflexivity.
Qed.
Print Assumptions C88_idempotent.
Theorem C88_query fmt : 0 <= fmt -> let (code, f) := query fmt in
  (code = BL_SUCCESS <-> 1 <= fmt <= 3) /\ (code = BL_SUCCESS -> sanitize f = Ok f /\ byte_swap f = false) /\
  (code <> BL_SUCCESS -> code = BL_ERROR_INVALID_VALUE /\ f_depth f = 0 /\ f_flags f = 0).
Proof.
  intros H. unfold query. destruct ((fmt =? 0) || (3 <? fmt)) eqn:E.
  - unfold BL_ERROR_INVALID_VALUE, BL_SUCCESS. split; [split; lia|]. split; [lia|]. intros _. auto.
  - assert (fmt = 1 \/ fmt = 2 \/ fmt = 3) as C by lia. split; [split; [lia|reflexivity]|]. split; [|congruence]. intros _.
    destruct C as [-> | [-> | ->]]; split; vm_compute; reflexivity.
Qed.
Print Assumptions C88_query.
Example C88_ex : sanitize argb4444_swapped = Ok (Info 16 F_RGBA (Comp 4 4) (Comp 4 8) (Comp 4 12) (Comp 4 0)) /\ storable argb4444_swapped.
Proof. split; [vm_compute; reflexivity|storable_tac]. Qed.
