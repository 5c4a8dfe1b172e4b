(* Properties of the streaming DEFLATE decoder: what it decodes, how the input is split, what it writes, and what it does when it
   is called again. Inflate_Spec.v states what a stream means. *)
From Verif Require Import Base Deflate_Spec DeflateTable_Model Inflate_Spec Inflate_Proofs Inflate_Exec DeflateDecoder_Model DeflateDecoder_Proofs2 DeflateDecoder_Proofs4 DeflateDecoder_Proofs6 DeflateDecoder_Proofs7 DeflateDecoder_Proofs10 DeflateDecoder_Frame.
Ltac Zify.zify_post_hook ::= idtac.

(* the bytes of the destination array *)
Definition written (o : obuf) : list Z := firstn (Z.to_nat (o_pos o)) (o_mem o).
Definition capacity (o : obuf) : Z := Z.of_nat (length (o_mem o)).
Definition array_ok (o : obuf) : Prop := 0 <= o_pos o <= capacity o.
Definition is_bytes (l : list Z) : Prop := Forall (fun x => 0 <= x < 256) l.
(* reserve either fails or provides what was asked for *)
Definition reserve_ok (grow : Z -> Z -> option (list Z)) : Prop := forall size need m, grow size need = Some m -> need <= size + Z.of_nat (length m).
(* what the tables hold before (jpre, jlit, off: indeterminate bytes of the tables' sizes) *)
Definition tables_ok (jpre jlit off : list Z) : Prop := length jpre = 128%nat /\ length jlit = 2342%nat /\ length off = 594%nat.
(* small calls: less than 176 bytes of input each, so that the fast loop is not entered *)
Definition small (chunks : list (list Z)) : Prop := Forall (fun c => (length c < 176)%nat) chunks.

(* streams that do not meet the two known faults outside the fast loop: no block has a distance code in which symbols 30 or 31
   have a code (other than the static one), and no stored block follows a block whose end-of-block code is shorter than 5 bits *)
Definition plain (zlib : bool) (bytes o : list Z) : Prop := forall b, asteps (start zlib bytes o) b ->
  match a_mode b with
  | ASyms lit off =>
    ((len_of off 30 = 0 /\ len_of off 31 = 0) \/ off = static_off) /\
    (decodes lit (a_V b) 256 -> len_of lit 256 < 5 -> a_final b = false -> (a_V b / 2 ^ len_of lit 256) / 2 mod 4 <> 0)
  | _ => True
  end.

Lemma start_wf zlib bs o : is_bytes bs -> wf (start zlib bs o).
Proof.
  intros H. unfold start, wf. cbn [a_mode a_V a_N]. split; [destruct zlib; exact I|]. split; [|lia]. clear o. induction H as [|x l Hx Hl IH]; cbn [le_bytes]; lia.
Qed.

Lemma bytes_check l : forallb (fun x => (0 <=? x) && (x <? 256)) l = true -> is_bytes l.
Proof. intros H. apply Forall_forall. intros x Hx. rewrite forallb_forall in H. specialize (H x Hx). lia. Qed.
Lemma small_check l : forallb (fun c => (length c <? 176)%nat) l = true -> small l.
Proof. intros H. apply Forall_forall. intros x Hx. rewrite forallb_forall in H. specialize (H x Hx). apply Nat.ltb_lt, H. Qed.

(* a valid stream that the interpreter runs to its end through plain states *)
Fixpoint plain_run (n : nat) (a : astate) : bool :=
  (match a_mode a with
   | ASyms lit off => ((len_of off 30 =? 0) && (len_of off 31 =? 0) || (length off =? 32)%nat && forallb (Z.eqb 5) off) && (negb (len_of lit 256 <? 5) || a_final a || negb ((a_V a / 2 ^ len_of lit 256) / 2 mod 4 =? 0))
   | _ => true
   end) &&
  match n with
  | O => false
  | S n' => match a_mode a with ADone => true | _ => match anext a with Some b => plain_run n' b | None => false end end
  end.
Lemma all_five : forall l, forallb (Z.eqb 5) l = true -> l = repeat 5 (length l).
Proof. induction l as [|x l IH]; intros H; [reflexivity|]. cbn [forallb length repeat] in *. apply andb_true_iff in H. destruct H as [H1 H2]. apply Z.eqb_eq in H1. rewrite <- H1, <- IH by exact H2. reflexivity. Qed.
Lemma plain_run_ok : forall n a, wf a -> plain_run n a = true -> forall b, asteps a b ->
  match a_mode b with
  | ASyms lit off => tame_off off /\ (decodes lit (a_V b) 256 -> len_of lit 256 < 5 -> a_final b = false -> (a_V b / 2 ^ len_of lit 256) / 2 mod 4 <> 0)
  | _ => True
  end.
Proof.
  induction n as [|n IH]; intros a W E b St; cbn [plain_run] in E; [rewrite andb_false_r in E; discriminate|]. apply andb_true_iff in E. destruct E as [E1 E2].
  destruct St as [a|a a1 b St1 St2].
  - destruct (a_mode a) as [| | | | | | |lit off|]; try exact I. apply andb_true_iff in E1. destruct E1 as [E3 E4]. split.
    + apply orb_true_iff in E3. destruct E3 as [E3|E3]; apply andb_true_iff in E3; destruct E3 as [E5 E6]; [left; apply Z.eqb_eq in E5; apply Z.eqb_eq in E6; split; assumption|right].
      apply Nat.eqb_eq in E5. apply all_five in E6. rewrite E5 in E6. exact E6.
    + intros _ H1 H2 H3. rewrite H2, orb_false_r in E4. apply orb_true_iff in E4. destruct E4 as [E4|E4]; [apply negb_true_iff, Z.ltb_ge in E4; lia|]. apply negb_true_iff, Z.eqb_neq in E4. contradiction.
  - assert (W1 : wf a1) by (eapply asteps_wf; [exact W|apply asteps_one, St1]).
    assert (E3 : match anext a with Some c => plain_run n c | None => false end = true).
    { destruct a as [m f V N o]. cbn [a_mode] in E2. destruct m; try exact E2. inversion St1. }
    destruct (anext a) as [c|] eqn:EN; [|discriminate]. apply anext_step in EN. assert (c = a1) as -> by (eapply astep_det; [exact W|exact EN|exact St1]). apply (IH a1 W1 E3 b St2).
Qed.
Lemma plain_by_run n zlib bs o : is_bytes bs -> plain_run n (start zlib bs o) = true -> plain zlib bs o.
Proof. intros H E b St. exact (plain_run_ok n _ (start_wf zlib bs o H) E b St). Qed.

(* streams of one static block are plain, valid or not *)
Lemma plain_static bs o : is_bytes bs -> le_bytes bs mod 8 = 3 -> plain false bs o.
Proof.
  intros HB H3. assert (G : forall b, asteps (start false bs o) b -> (b = start false bs o \/ a_final b = true /\ (a_mode b = ASyms static_lit static_off \/ a_mode b = ADone))).
  { assert (G1 : forall a b, asteps a b -> a_final a = true -> a_mode a = ASyms static_lit static_off \/ a_mode a = ADone -> a_final b = true /\ (a_mode b = ASyms static_lit static_off \/ a_mode b = ADone)).
    { induction 1 as [a|a a1 b S1 S2 IH]; intros F M; [split; assumption|]. apply IH; clear IH S2; destruct a as [m f V N out]; cbn [a_final a_mode] in F, M; subst f; destruct M as [-> | ->]; inversion S1; subst; cbn [a_final a_mode after_block]; auto. }
    intros b St. remember (start false bs o) as a eqn:EA. destruct St as [a|a a1 b S1 S2]; [left; reflexivity|right]. subst a. unfold start in S1. apply (G1 a1 b S2); clear S2 G1.
    - inversion S1; subst; cbn [a_final]; apply Z.eqb_eq; clear -H3; Z.div_mod_to_equations; lia.
    - inversion S1; subst; cbn [a_mode]; auto; exfalso; match goal with H : _ / 2 mod 4 = _ |- _ => revert H end; clear -H3; intros; Z.div_mod_to_equations; lia. }
  intros b St. apply G in St. destruct St as [->|[F [M|M]]]; [exact I| |]; rewrite M; [|exact I]. split; [right; reflexivity|]. intros _ _ Q. congruence.
Qed.

(* C44: decoding a plain stream in small calls gives exactly its output, or fails exactly when there is none; memory runs out only
   when reserve fails, or when the array must not be reallocated and the output does not fit (or fits with nothing left). *)
Theorem C44_inflate_partial : forall jpre jlit off grow u zlib norealloc o chunks,
  tables_ok jpre jlit off -> reserve_ok grow -> array_ok o -> is_bytes (concat chunks) -> small chunks -> plain zlib (concat chunks) (written o) ->
  exists code s' o', feed jpre jlit grow (init zlib norealloc u off) o chunks = Ok (code, s', o') /\
  (code = BL_SUCCESS /\ inflates zlib (concat chunks) (written o) (written o') \/
   (code = BL_ERROR_DATA_TRUNCATED \/ code = BL_ERROR_DECOMPRESSION_FAILED) /\ (forall res, ~ inflates zlib (concat chunks) (written o) res) \/
   code = BL_ERROR_OUT_OF_MEMORY /\
     (norealloc = true /\ (forall res, inflates zlib (concat chunks) (written o) res -> capacity o <= Z.of_nat (length res)) \/ norealloc = false /\ exists size need, grow size need = None)).
Proof.
  intros jpre jlit off grow u zlib norealloc o chunks [T1 [T2 T3]] HG HO HB HS HP.
  assert (WT : waits (init zlib norealloc u off) o (start zlib (concat chunks) (out_of o)) (concat chunks)) by (apply init_waits; assumption).
  destruct (feed_ok jpre jlit grow T1 T2 HG chunks _ o _ WT HS (start_dead zlib (concat chunks) (out_of o))) as [[[code s'] o'] [E SP]].
  exists code, s', o'. split; [exact E|]. destruct SP as [[-> [f [V [N SP]]]]|[[Q D]|[-> SP]]]; [left|right; left|right; right].
  - split; [reflexivity|]. exists f, V, N. exact SP.
  - split; [exact Q|]. intros res [f [V [N H]]]. apply (D f V N res H).
  - split; [reflexivity|]. destruct SP as [[Q T]|SP]; [left|right; exact SP]. cbn [init dc d_norealloc] in Q. split; [exact Q|]. intros res [f [V [N H]]]. specialize (T f V N res H).
    assert (EL : length (o_mem o') = length (o_mem o)).
    { destruct (feed_inv jpre jlit grow 0 [] chunks _ o (length (o_mem o)) _ s' o' ltac:(lia) (conj (proj1 HO) (conj eq_refl eq_refl)) E) as [_ [n' [_ [[_ [I1 _]] I2]]]]. cbn [init dc d_norealloc] in I2. rewrite I1. apply I2, Q. }
    unfold capacity. rewrite <- EL. exact T.
Qed.
Print Assumptions C44_inflate_partial.

Local Opaque decode run.
Lemma feed_stop jpre jlit grow more : forall chunks s o code s' o', feed jpre jlit grow s o chunks = Ok (code, s', o') -> code <> BL_ERROR_DATA_TRUNCATED -> feed jpre jlit grow s o (chunks ++ more) = Ok (code, s', o').
Proof.
  induction chunks as [|c chunks IH]; intros s o code s' o' E NE; cbn [feed app] in *; [injection E as <- _ _; contradiction|]. destruct (decode _ _ _ _ _ _) as [[[code1 s1] o1]| | |]; try discriminate E. cbn [bind] in *.
  destruct (code1 =? BL_ERROR_DATA_TRUNCATED); [apply IH; assumption|exact E].
Qed.
(* C44: a stream found invalid cannot be completed by further input *)
Theorem C44_invalid_is_final_partial : forall jpre jlit off grow u zlib norealloc o chunks more s' o' res,
  tables_ok jpre jlit off -> reserve_ok grow -> array_ok o -> is_bytes (concat (chunks ++ more)) -> small (chunks ++ more) -> plain zlib (concat (chunks ++ more)) (written o) ->
  feed jpre jlit grow (init zlib norealloc u off) o chunks = Ok (BL_ERROR_DECOMPRESSION_FAILED, s', o') -> ~ inflates zlib (concat (chunks ++ more)) (written o) res.
Proof.
  intros jpre jlit off grow u zlib norealloc o chunks more s' o' res HT HG HO HB HS HP E. apply (feed_stop jpre jlit grow more) in E; [|discriminate].
  destruct (C44_inflate_partial jpre jlit off grow u zlib norealloc o (chunks ++ more) HT HG HO HB HS HP) as [code [s1 [o1 [E1 H]]]]. rewrite E in E1. injection E1 as <- _ _.
  destruct H as [[H _]|[[_ H]|[H _]]]; [discriminate H|apply H|discriminate H].
Qed.
Print Assumptions C44_invalid_is_final_partial.

Definition no_grow : Z -> Z -> option (list Z) := fun _ _ => None.
Definition j_pre : list Z := repeat 0 128.
Definition j_lit : list Z := repeat 0 2342.
Definition j_off : list Z := repeat 0 594.
Definition empty_array (n : Z) : obuf := Out (repeat 0 (Z.to_nat n)) 0.
Definition run_result (r : outcome (Z * decoder * obuf)) : option (Z * list Z) := match r with Ok (code, _, o) => Some (code, written o) | _ => None end.

(* zlib header, a static block with literals and a match, and a final stored block *)
Definition stream_s : list Z := [120;156;74;76;74;78;76;130;35;64;0;3;0;252;255;1;2;3].
Example C44_ex_plain : plain true stream_s [].
Proof. apply (plain_by_run 30). - apply bytes_check; reflexivity. - vm_compute. reflexivity. Qed.
Example C44_ex_inflates : inflates true stream_s [] [97; 98; 99; 97; 98; 99; 97; 98; 99; 97; 98; 99; 97; 98; 1; 2; 3].
Proof. apply (inflate_run_ok 30). vm_compute. reflexivity. Qed.
Example C44_ex_feed : run_result (feed j_pre j_lit no_grow (init true true (SPrecode []) j_off) (empty_array 17) [firstn 7 stream_s; skipn 7 stream_s]) = Some (BL_SUCCESS, [97; 98; 99; 97; 98; 99; 97; 98; 99; 97; 98; 99; 97; 98; 1; 2; 3]).
Proof. vm_compute. reflexivity. Qed.
Example C44_ex_full : run_result (feed j_pre j_lit no_grow (init true true (SPrecode []) j_off) (empty_array 16) [stream_s]) = Some (BL_ERROR_OUT_OF_MEMORY, [97; 98; 99; 97; 98; 99; 97; 98; 99; 97; 98; 99; 97; 98]).
Proof. vm_compute. reflexivity. Qed.
Example C44_ex_static_plain : plain false [75; 76; 255; 255] [].
Proof. apply plain_static; [apply bytes_check; reflexivity|reflexivity]. Qed.

(* C44 refuted without [plain]: a valid stream, in which a stored block follows a dynamic block with a short end-of-block code, is
   rejected. A whole-word refill leaves bits above the bit length in the bit buffer; when the stored bytes are then copied directly
   from the input, these bits stay and are combined with the header of the next block. *)
Definition stream_c : list Z := [4;193;129;0;0;0;0;0;144;86;255;19;8;12;0;243;255;1;2;3;4;5;6;7;8;9;10;11;12;1;3;0;252;255;20;21;22].
Theorem C44_stored_after_short_code_refuted : exists bytes res, is_bytes bytes /\ inflates false bytes [] res /\ small [bytes] /\
  exists s' o', feed j_pre j_lit no_grow (init false true (SPrecode []) j_off) (empty_array 100) [bytes] = Ok (BL_ERROR_DECOMPRESSION_FAILED, s', o').
Proof.
  exists stream_c, [1; 2; 3; 4; 5; 6; 7; 8; 9; 10; 11; 12; 20; 21; 22]. split; [apply bytes_check; reflexivity|]. split; [apply (inflate_run_ok 60); vm_compute; reflexivity|]. split; [apply small_check; reflexivity|].
  assert (E : option_map fst (run_result (feed j_pre j_lit no_grow (init false true (SPrecode []) j_off) (empty_array 100) [stream_c])) = Some BL_ERROR_DECOMPRESSION_FAILED) by (vm_compute; reflexivity).
  destruct (feed _ _ _ _ _ _) as [[[code s'] o']| | |]; try discriminate E. cbn in E. injection E as ->. exists s', o'. reflexivity.
Qed.
Print Assumptions C44_stored_after_short_code_refuted.

(* C44 refuted for larger calls: the fast loop decodes a valid stream to other bytes and reports success. *)
Definition stream_g : list Z := [237;250;209;130;36;73;146;36;73;34;177;168;121;124;103;85;253;255;63;192;111;212;11;32;177;168;121;100;245;236;7;220;253;231;255;224;255;15;0;255;253;207;255;193;255;63;0;254;251;159;255;131;255;191;0;252;247;127;0].
Definition history_g : list Z := repeat 0 (Z.to_nat 8300).
Definition array_g : obuf := Out (repeat 0 (Z.to_nat 9900)) 8300.
Fixpoint differ (l m : list Z) : bool := match l, m with x :: l, y :: m => negb (x =? y) || differ l m | [], [] => false | _, _ => true end.
Lemma differ_ok : forall l m, differ l m = true -> l <> m.
Proof. induction l as [|x l IH]; intros m H Q; subst m; cbn in H; [discriminate|]. rewrite Z.eqb_refl in H. apply (IH l H eq_refl). Qed.
Theorem C44_fast_loop_wrong_bytes_refuted : exists bytes o res s' o', is_bytes bytes /\ array_ok o /\ inflates false bytes (written o) res /\ Z.of_nat (length res) < capacity o /\
  decode j_pre j_lit no_grow (init false true (SPrecode []) j_off) o bytes = Ok (BL_SUCCESS, s', o') /\ written o' <> res.
Proof.
  set (bytes := stream_g ++ repeat 0 541).
  assert (E : match inflate_run 200 false bytes history_g, run_result (decode j_pre j_lit no_grow (init false true (SPrecode []) j_off) array_g bytes) with
              | Some res, Some (code, w) => (Z.of_nat (length res) <? 9900) && (code =? BL_SUCCESS) && differ w res
              | _, _ => false end = true) by (vm_compute; reflexivity).
  destruct (inflate_run _ _ _ _) as [res|] eqn:E1; [|discriminate E]. apply inflate_run_ok in E1.
  destruct (decode _ _ _ _ _ _) as [[[code s'] o']| | |] eqn:E2; try discriminate E. cbn [run_result] in E. apply andb_true_iff in E. destruct E as [E E3]. apply andb_true_iff in E. destruct E as [E4 E5].
  exists bytes, array_g, res, s', o'. split; [apply Forall_app; split; [apply bytes_check; reflexivity|apply repeat_Forall; lia]|]. split; [split; vm_compute; discriminate|].
  split; [replace (written array_g) with history_g by (vm_compute; reflexivity); exact E1|]. split; [apply Z.ltb_lt, E4|]. split; [|apply differ_ok, E3]. apply Z.eqb_eq in E5. rewrite E5 in E2. exact E2.
Qed.
Print Assumptions C44_fast_loop_wrong_bytes_refuted.

(* C45: the way the input is cut into small calls does not matter *)
Theorem C45_chunking_partial : forall jpre jlit off jpre2 jlit2 off2 grow grow2 u u2 zlib norealloc o chunks chunks2 s1 o1,
  tables_ok jpre jlit off -> tables_ok jpre2 jlit2 off2 -> reserve_ok grow -> reserve_ok grow2 ->
  array_ok o -> is_bytes (concat chunks) -> small chunks -> small chunks2 -> concat chunks2 = concat chunks -> plain zlib (concat chunks) (written o) ->
  feed jpre jlit grow (init zlib norealloc u off) o chunks = Ok (BL_SUCCESS, s1, o1) ->
  (if norealloc then Z.of_nat (length (written o1)) < capacity o else forall size need, grow2 size need <> None) ->
  exists s2 o2, feed jpre2 jlit2 grow2 (init zlib norealloc u2 off2) o chunks2 = Ok (BL_SUCCESS, s2, o2) /\ written o2 = written o1.
Proof.
  intros jpre jlit off jpre2 jlit2 off2 grow grow2 u u2 zlib norealloc o chunks chunks2 s1 o1 HT HT2 HG HG2 HO HB HS HS2 EQ HP E HL.
  destruct (C44_inflate_partial jpre jlit off grow u zlib norealloc o chunks HT HG HO HB HS HP) as [code [s [o' [E1 H]]]]. rewrite E in E1. injection E1 as <- <- <-.
  destruct H as [[_ I1]|[[[H|H] _]|[H _]]]; try discriminate H.
  rewrite <- EQ in HB, HP. destruct (C44_inflate_partial jpre2 jlit2 off2 grow2 u2 zlib norealloc o chunks2 HT2 HG2 HO HB HS2 HP) as [code [s2 [o2 [E2 H]]]]. rewrite EQ in H, HB.
  destruct H as [[-> I2]|[[_ H]|[-> [[-> H2]|[-> [size [need H]]]]]]].
  - exists s2, o2. split; [exact E2|]. destruct I1 as [f [V [N I1]]]. destruct I2 as [f2 [V2 [N2 I2]]]. pose proof (asteps_det _ _ _ _ _ _ (start_wf zlib _ _ HB) I1 I2) as Q. inversion Q; subst; [congruence|]. match goal with H : astep (A ADone _ _ _ _) _ |- _ => inversion H end.
  - exfalso. apply (H _ I1).
  - exfalso. specialize (H2 _ I1). lia.
  - exfalso. apply (HL size need H).
Qed.
Print Assumptions C45_chunking_partial.
Example C45_ex : run_result (feed j_pre j_lit no_grow (init true true (SPrecode []) j_off) (empty_array 18) (map (fun x => [x]) stream_s)) = run_result (feed j_pre j_lit no_grow (init true true (SPrecode []) j_off) (empty_array 18) [stream_s]).
Proof. vm_compute. reflexivity. Qed.

(* C45 refuted for larger calls: a stream that is decoded in small calls overruns the array when passed in one call *)
Definition stream_a : list Z := [53;198;33;1;0;0;0;128;160;173;252;63;97;146;4;0;28;14;135;195;225;112;56;28;14;135;195;225;112;56;28;14;135;195;225;112;56;28;14;135;195;225;112;56;28;14;135;195;225;112;56;28;14;135;195;225;112;56;28;14;135;195;225;112;56;28;14;135;195;225;112;56;28;14;135;195;225;112;56;28;14;135;195;225;112;56;28;14;135;195;225;112;56;28;14;135;195;225;112;56;28;14;135;195;225;112;56;28;14;135;195;225;112;56;28;14;135;195;225;112;56;28;14;135;195;225;112;56;28;14;135;195;225;112;56;28;14;135;195;225;112;56;28;14;135;195;225;112;56;28;14;135;195;225;112;56;28;14;135;195;225;112;56;156;0].
Definition bytes_a : list Z := stream_a ++ repeat 0 (Z.to_nat (1440 - Z.of_nat (length stream_a))).
Lemma overflow_a : decode j_pre j_lit no_grow (init false true (SPrecode []) j_off) (empty_array 1704) bytes_a = UB.
Proof. vm_compute. reflexivity. Qed.
Lemma inflates_a : exists res, inflates false bytes_a [] res /\ Z.of_nat (length res) < 1704.
Proof.
  assert (E : match inflate_run (Z.to_nat 2000) false bytes_a [] with Some res => Z.of_nat (length res) <? 1704 | None => false end = true) by (vm_compute; reflexivity).
  destruct (inflate_run _ _ _ _) as [res|] eqn:E1; [|discriminate E]. apply inflate_run_ok in E1. exists res. split; [exact E1|apply Z.ltb_lt, E].
Qed.
Lemma bytes_a_ok : is_bytes bytes_a.
Proof. apply Forall_app; split; [apply bytes_check; reflexivity|apply repeat_Forall; lia]. Qed.
Fixpoint cut (fuel : nat) (l : list Z) : list (list Z) := match fuel with O => [] | S f => match l with [] => [] | _ => firstn 100 l :: cut f (skipn 100 l) end end.
Theorem C45_one_call_refuted : exists bytes cap chunks s' o', is_bytes bytes /\ plain false bytes [] /\ concat chunks = bytes /\ small chunks /\
  feed j_pre j_lit no_grow (init false true (SPrecode []) j_off) (empty_array cap) chunks = Ok (BL_SUCCESS, s', o') /\
  decode j_pre j_lit no_grow (init false true (SPrecode []) j_off) (empty_array cap) bytes = UB.
Proof.
  assert (HP : plain false bytes_a []) by (apply (plain_by_run (Z.to_nat 2000)); [apply bytes_a_ok|vm_compute; reflexivity]).
  assert (HC : concat (cut 20 bytes_a) = bytes_a) by (vm_compute; reflexivity). assert (HS : small (cut 20 bytes_a)) by (apply small_check; vm_compute; reflexivity).
  assert (HO : array_ok (empty_array 1704)) by (split; vm_compute; discriminate). destruct inflates_a as [res [HI HL]].
  destruct (C44_inflate_partial j_pre j_lit j_off no_grow (SPrecode []) false true (empty_array 1704) (cut 20 bytes_a)) as [code [s' [o' [E H]]]].
  - split; [|split]; reflexivity.
  - discriminate.
  - exact HO.
  - rewrite HC. apply bytes_a_ok.
  - exact HS.
  - rewrite HC. exact HP.
  - rewrite HC in H. change (written (empty_array 1704)) with (@nil Z) in H. destruct H as [[-> _]|[[_ H]|[_ [[_ H]|[H _]]]]].
    + exists bytes_a, 1704, (cut 20 bytes_a), s', o'. split; [apply bytes_a_ok|]. split; [exact HP|]. split; [exact HC|]. split; [exact HS|]. split; [exact E|apply overflow_a].
    + exfalso. apply (H res HI).
    + exfalso. specialize (H res HI). unfold capacity, empty_array in H. cbn [o_mem] in H. rewrite repeat_length in H. lia.
    + discriminate H.
Qed.
Print Assumptions C45_one_call_refuted.

(* C45 refuted for an array that the output fills: the code after it is complete in one call but not at the cut of two *)
Definition stream_n : list Z := [5;193;1;1;0;0;0;128;144;173;250;63;34;128;1].
Theorem C45_exact_fit_refuted : exists bytes chunks s1 o1 s2 o2, concat chunks = bytes /\ plain false bytes [] /\ small [bytes] /\ small chunks /\
  feed j_pre j_lit no_grow (init false true (SPrecode []) j_off) (empty_array 6) [bytes] = Ok (BL_SUCCESS, s1, o1) /\
  feed j_pre j_lit no_grow (init false true (SPrecode []) j_off) (empty_array 6) chunks = Ok (BL_ERROR_OUT_OF_MEMORY, s2, o2).
Proof.
  exists stream_n, [firstn 14 stream_n; skipn 14 stream_n].
  assert (E : option_map fst (run_result (feed j_pre j_lit no_grow (init false true (SPrecode []) j_off) (empty_array 6) [stream_n])) = Some BL_SUCCESS) by (vm_compute; reflexivity).
  assert (E2 : option_map fst (run_result (feed j_pre j_lit no_grow (init false true (SPrecode []) j_off) (empty_array 6) [firstn 14 stream_n; skipn 14 stream_n])) = Some BL_ERROR_OUT_OF_MEMORY) by (vm_compute; reflexivity).
  destruct (feed _ _ _ _ _ [stream_n]) as [[[code s1] o1]| | |]; try discriminate E. destruct (feed _ _ _ _ _ _) as [[[code2 s2] o2]| | |]; try discriminate E2. cbn in E, E2. injection E as ->. injection E2 as ->.
  exists s1, o1, s2, o2. split; [reflexivity|]. split; [apply (plain_by_run 300); [apply bytes_check; reflexivity|vm_compute; reflexivity]|]. split; [apply small_check; reflexivity|]. split; [apply small_check; reflexivity|]. split; reflexivity.
Qed.
Print Assumptions C45_exact_fit_refuted.

(* C46: for every input, table contents, call sizes and state of the decoder: what the array held is kept, its size does not
   shrink, and it keeps its capacity when it must not be reallocated *)
Theorem C46_append_only : forall jpre jlit grow s o chunks code s' o', array_ok o -> feed jpre jlit grow s o chunks = Ok (code, s', o') ->
  o_pos o <= o_pos o' /\ firstn (Z.to_nat (o_pos o)) (o_mem o') = written o /\ o_pos o <= capacity o' /\ (d_norealloc (dc s) = true -> capacity o' = capacity o).
Proof.
  intros jpre jlit grow s o chunks code s' o' HO E. unfold array_ok, capacity in HO.
  destruct (feed_inv jpre jlit grow (o_pos o) (written o) chunks s o (length (o_mem o)) code s' o') as [_ [n' [P [[I1 [I2 I3]] N]]]]; [exact HO|split; [lia|split; reflexivity]|exact E|].
  split; [exact I1|]. split; [exact I3|]. unfold capacity. rewrite I2. split; [exact P|]. intros Q. rewrite (N Q). reflexivity.
Qed.
Print Assumptions C46_append_only.
Example C46_ex : match feed j_pre j_lit (fun size need => Some (repeat 7 (Z.to_nat (need - size)))) (init true false (SPrecode []) j_off) (Out [5; 6; 0; 0] 2) [stream_s] with
  | Ok (code, _, o) => (code, written o) = (BL_SUCCESS, [5; 6; 97; 98; 99; 97; 98; 99; 97; 98; 99; 97; 98; 99; 97; 98; 1; 2; 3]) | _ => False end.
Proof. vm_compute. reflexivity. Qed.

(* C47: memory safety (and no use of an indeterminate value) *)
(* small calls on plain streams do not reach undefined behaviour and return *)
Theorem C47_safe_partial : forall jpre jlit off grow u zlib norealloc o chunks,
  tables_ok jpre jlit off -> reserve_ok grow -> array_ok o -> is_bytes (concat chunks) -> small chunks -> plain zlib (concat chunks) (written o) ->
  exists r, feed jpre jlit grow (init zlib norealloc u off) o chunks = Ok r.
Proof.
  intros jpre jlit off grow u zlib norealloc o chunks HT HG HO HB HS HP. destruct (C44_inflate_partial jpre jlit off grow u zlib norealloc o chunks HT HG HO HB HS HP) as [code [s [o' [E _]]]]. eexists. exact E.
Qed.
Print Assumptions C47_safe_partial.

(* the fast loop writes past the end of the array on a valid stream whose output fits the array *)
Theorem C47_overflow_refuted : exists bytes res cap, is_bytes bytes /\ inflates false bytes [] res /\ Z.of_nat (length res) < cap /\
  decode j_pre j_lit no_grow (init false true (SPrecode []) j_off) (empty_array cap) bytes = UB.
Proof. destruct inflates_a as [res [HI HL]]. exists bytes_a, res, 1704. split; [apply bytes_a_ok|]. split; [exact HI|]. split; [exact HL|apply overflow_a]. Qed.
Print Assumptions C47_overflow_refuted.

(* the fast loop reads past the end of the distance table on an invalid stream *)
Definition stream_b : list Z := [75;4;62] ++ repeat 0 205.
Theorem C47_table_read_refuted : exists bytes cap, is_bytes bytes /\ decode j_pre j_lit no_grow (init false true (SPrecode []) j_off) (empty_array cap) bytes = UB.
Proof. exists stream_b, 480. split; [apply Forall_app; split; [apply bytes_check; reflexivity|apply repeat_Forall; lia]|]. vm_compute. reflexivity. Qed.
Print Assumptions C47_table_read_refuted.

(* C48: calls after the end of the stream *)
(* after a stream was found invalid, every call reports INVALID_DATA and leaves the array alone *)
Theorem C48_invalid_stays : forall jpre jlit grow s o chunks s' o' input, feed jpre jlit grow s o chunks = Ok (BL_ERROR_DECOMPRESSION_FAILED, s', o') ->
  exists s2, decode jpre jlit grow s' o' input = Ok (BL_ERROR_INVALID_DATA, s2, o') /\ d_state (dc s2) = KInvalid.
Proof.
  intros jpre jlit grow s o chunks s' o' input E. destruct (feed_end _ _ _ _ _ _ _ _ _ E) as [H _]. destruct (decode_run jpre jlit grow s' o' input) as [fuel ->]. apply run_invalid, H. reflexivity.
Qed.
Print Assumptions C48_invalid_stays.
(* after the end of a stream decoded into an array that must not be reallocated, every call reports OUT_OF_MEMORY *)
Theorem C48_done_stays_partial : forall jpre jlit grow s o chunks s' o' input, array_ok o -> d_norealloc (dc s) = true -> feed jpre jlit grow s o chunks = Ok (BL_SUCCESS, s', o') ->
  exists s2, decode jpre jlit grow s' o' input = Ok (BL_ERROR_OUT_OF_MEMORY, s2, o') /\ d_state (dc s2) = KDone.
Proof.
  intros jpre jlit grow s o chunks s' o' input HO N E. destruct (feed_end _ _ _ _ _ _ _ _ _ E) as [_ H]. unfold array_ok, capacity in HO.
  destruct (feed_inv jpre jlit grow (o_pos o) (written o) chunks s o (length (o_mem o)) _ s' o' HO (conj (Z.le_refl _) (conj eq_refl eq_refl)) E) as [D _]. destruct (decode_run jpre jlit grow s' o' input) as [fuel ->]. apply run_done_fixed; [apply H; reflexivity|rewrite D; exact N].
Qed.
Print Assumptions C48_done_stays_partial.
(* otherwise no call ever returns, whatever its input, as long as reserve succeeds: the loop runs for every amount of fuel *)
Theorem C48_done_returns_refuted : exists s o chunks s' o', feed j_pre j_lit (fun size need => Some (repeat 0 (Z.to_nat (need - size)))) s o chunks = Ok (BL_SUCCESS, s', o') /\
  forall input fuel, run fuel j_pre j_lit (fun size need => Some (repeat 0 (Z.to_nat (need - size)))) (dc s') (Bits (dc_word s') (dc_len s') input) o' = NoFuel.
Proof.
  set (grow := fun size need => Some (repeat 0 (Z.to_nat (need - size)))). set (bytes := [1; 2; 0; 253; 255; 7; 9]).
  assert (E : option_map fst (run_result (feed j_pre j_lit grow (init false false (SPrecode []) j_off) (empty_array 4) [bytes])) = Some BL_SUCCESS) by (vm_compute; reflexivity).
  destruct (feed _ _ _ _ _ _) as [[[code s'] o']| | |] eqn:E1; try discriminate E. cbn in E. injection E as ->.
  exists (init false false (SPrecode []) j_off), (empty_array 4), [bytes], s', o'. split; [exact E1|]. intros input fuel. destruct (feed_end _ _ _ _ _ _ _ _ _ E1) as [_ H].
  destruct (feed_inv j_pre j_lit grow 0 [] [bytes] _ (empty_array 4) 4 _ s' o' ltac:(lia) (conj (Z.le_refl _) (conj eq_refl eq_refl)) E1) as [D _].
  apply run_done_loops; [discriminate|apply H; reflexivity|exact D].
Qed.
Print Assumptions C48_done_returns_refuted.
Example C48_ex_invalid : run_result (feed j_pre j_lit no_grow (init true true (SPrecode []) j_off) (empty_array 4) [[120; 157]]) = Some (BL_ERROR_DECOMPRESSION_FAILED, []).
Proof. vm_compute. reflexivity. Qed.
