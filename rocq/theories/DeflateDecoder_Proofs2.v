(* One iteration of the safe tail loop, in terms of the codes and the bits of the buffer. *)
From Verif Require Import Base Bits Algorithm_Spec Algorithm_Model Algorithm_Proofs Deflate_Spec DeflateTable_Model DeflateTable_Proofs DeflateTable_Proofs2 DeflateTable_Proofs3 DeflateTable_Proofs4 DeflateTable_Proofs5 DeflateTable_Proofs6 DeflateTable_Proofs7 DeflateTable_Proofs8 DeflateTable_Proofs9 Inflate_Spec Inflate_Proofs DeflateDecoder_Model DeflateDecoder_Proofs.

(* keeps lia away from a hypothesis *)
Definition hid (P : Prop) : Prop := P.
Ltac hide H := match type of H with ?T => change (hid T) in H end.
Ltac show H := unfold hid in H.

(* -- output -- *)
Definition out_of (o : obuf) : list Z := firstn (Z.to_nat (o_pos o)) (o_mem o).
Definition o_ok (o : obuf) : Prop := 0 <= o_pos o <= Z.of_nat (length (o_mem o)).
Definition o_next (o o' : obuf) : Prop := o_ok o' /\ length (o_mem o') = length (o_mem o).

Lemma out_length o : o_ok o -> Z.of_nat (length (out_of o)) = o_pos o.
Proof. intros [H1 H2]. unfold out_of. rewrite firstn_length. lia. Qed.

Lemma firstn_upd {A} (l : list A) : forall n x, (n < length l)%nat -> firstn (S n) (upd l n x) = firstn n l ++ [x].
Proof.
  induction l as [|h l IH]; intros n x H; cbn [length] in H; [lia|]. destruct n; [reflexivity|]. cbn [upd firstn app]. f_equal. apply IH. lia.
Qed.

Lemma put_ok o x : o_ok o -> 0 < o_room o ->
  exists o', put o x = Ok o' /\ o_next o o' /\ out_of o' = out_of o ++ [x] /\ o_pos o' = o_pos o + 1.
Proof.
  intros [H1 H2] HR. unfold o_room in HR. unfold put. rewrite wr_ok by lia. cbn [bind]. eexists. split; [reflexivity|]. unfold o_next, o_ok, out_of. cbn [o_mem o_pos].
  rewrite zupd_length. split; [lia|]. split; [|reflexivity]. unfold zupd. replace (Z.to_nat (o_pos o + 1)) with (S (Z.to_nat (o_pos o))) by lia. apply firstn_upd. lia.
Qed.

Lemma copy_bytes_ok off : 1 <= off -> forall n o, o_ok o -> Z.of_nat n <= o_room o -> off <= o_pos o ->
  exists o', copy_bytes n o off = Ok o' /\ o_next o o' /\ out_of o' = lz_copy n (out_of o) off /\ o_pos o' = o_pos o + Z.of_nat n.
Proof.
  intros Ho. induction n as [|n IH]; intros o OK HR HP.
  - exists o. split; [reflexivity|]. split; [split; [exact OK|reflexivity]|]. split; [reflexivity|lia].
  - cbn [copy_bytes lz_copy]. destruct (rd_ok (o_mem o) (o_pos o - off)) as [x [E1 E2]]; [unfold o_ok, o_room in *; lia|]. rewrite E2. cbn [bind].
    destruct (put_ok o x OK ltac:(lia)) as [o1 [E3 [[O1 L1] [O2 P1]]]]. rewrite E3. cbn [bind].
    destruct (IH o1 O1) as [o2 [E4 [[O3 L3] [O4 P2]]]]; [unfold o_room in *; lia|lia|].
    exists o2. split; [exact E4|]. split; [split; [exact O3|congruence]|]. split; [|lia]. rewrite O4, O2. f_equal. f_equal. f_equal.
    pose proof (out_length o OK) as LL.
    unfold elem_at in E1. destruct (o_pos o - off <? 0) eqn:F; [discriminate|]. symmetry. apply nth_error_nth.
    unfold out_of in *. rewrite nth_error_firstn' by lia. rewrite <- E1. f_equal. lia.
Qed.

Lemma copy_match_ok o len off : o_ok o -> 3 <= len <= o_room o -> 1 <= off <= o_pos o ->
  exists o', copy_match o len off = Ok o' /\ o_next o o' /\ out_of o' = lz_copy (Z.to_nat len) (out_of o) off /\ o_pos o' = o_pos o + len.
Proof.
  intros OK HL HO. unfold copy_match. replace (len <? 3) with false by lia. destruct (copy_bytes_ok off ltac:(lia) (Z.to_nat len) o OK ltac:(lia) ltac:(lia)) as [o' [H1 [H2 [H3 H4]]]].
  exists o'. split; [exact H1|]. split; [exact H2|]. split; [exact H3|lia].
Qed.

(* -- bits -- *)
Lemma index_ok b tb : 0 <= tb <= 15 -> index b tb = b_word b mod 2 ^ tb.
Proof.
  intros H. unfold index, mask32. rewrite land_mask by lia. unfold w32. pose proof (pow2_pos tb ltac:(lia)). pose proof (Z.mod_pos_bound (b_word b) (2 ^ tb) ltac:(lia)).
  apply Z.mod_small. pose proof (Z.pow_le_mono_r 2 tb 15 ltac:(lia) ltac:(lia)). change (2 ^ 15) with 32768 in *. lia.
Qed.
Lemma extract_ok b i n : 0 <= i -> 0 <= n < 32 -> extract b i n = b_word b / 2 ^ i mod 2 ^ n.
Proof.
  intros Hi Hn. unfold extract, mask32. rewrite land_mask by lia. rewrite Z.shiftr_div_pow2 by lia. unfold w32.
  change 4294967296 with (2 ^ 32). replace (2 ^ 32) with (2 ^ n * 2 ^ (32 - n)) by (rewrite <- Z.pow_add_r by lia; f_equal; lia).
  pose proof (pow2_pos n ltac:(lia)). pose proof (pow2_pos (32 - n) ltac:(lia)). rewrite Z.rem_mul_r by lia.
  rewrite Z.mul_comm, Z.mod_add by lia. apply Z.mod_mod. lia.
Qed.
Lemma consumed_ok b n : 0 <= n < 64 -> 0 <= b_len b - n < 64 -> consumed b n = Ok (Bits (b_word b / 2 ^ n) (b_len b - n) (b_src b)).
Proof.
  intros H1 H2. unfold consumed. replace (64 <=? n) with false by lia. rewrite Z.shiftr_div_pow2 by lia. unfold w64. rewrite Z.mod_small by lia. reflexivity.
Qed.

Lemma length_range s x : 257 <= s <= 285 -> 0 <= x < 2 ^ length_extra s -> 3 <= length_base s + x <= 258.
Proof.
  intros Hs Hx. assert (E : forallb (fun s => implb ((257 <=? s) && (s <=? 285)) ((3 <=? length_base s) && (length_base s + 2 ^ length_extra s - 1 <=? 258))) (map Z.of_nat (seq 0 286)) = true) by (vm_compute; reflexivity).
  rewrite forallb_forall in E. specialize (E s). assert (I : In s (map Z.of_nat (seq 0 286))) by (apply in_map_iff; exists (Z.to_nat s); rewrite in_seq; lia).
  specialize (E I). replace (257 <=? s) with true in E by lia. replace (s <=? 285) with true in E by lia. cbn [andb implb] in E. clear I. apply andb_prop in E. destruct E. lia.
Qed.
Lemma offset_base_range d : 0 <= d <= 29 -> 1 <= offset_base d.
Proof.
  intros H. unfold offset_base. destruct (d <? 4) eqn:F; [lia|]. pose proof (offset_extra_range d H) as R. pose proof (pow2_pos (offset_extra d) ltac:(lia)). pose proof (Z.mod_pos_bound d 2). nia.
Qed.

(* the data that make the decoder give up in the middle of a block *)
Inductive bad_word (lit off : list Z) (P bl : Z) (out : list Z) : Prop :=
| bad_lit s : decodes lit P s -> 286 <= s -> len_of lit s <= bl -> bad_word lit off P bl out
| bad_none : none_for lit P -> 1 <= bl -> bad_word lit off P bl out
| bad_off s : decodes lit P s -> 257 <= s <= 285 -> let k := len_of lit s + length_extra s in k <= bl ->
    ((exists d, decodes off (P / 2 ^ k) d /\ 30 <= d) \/ none_for off (P / 2 ^ k)) -> bad_word lit off P bl out
| bad_dist s d : decodes lit P s -> 257 <= s <= 285 -> let k := len_of lit s + length_extra s in let V1 := P / 2 ^ k in
    decodes off V1 d -> d <= 29 -> k + len_of off d + offset_extra d <= bl ->
    Z.of_nat (length out) < offset_base d + V1 / 2 ^ len_of off d mod 2 ^ offset_extra d -> bad_word lit off P bl out.

(* no symbol in the first bl bits *)
Definition short (lit off : list Z) (P bl : Z) (out : list Z) : Prop :=
  (forall k out', sym_step lit off P out k out' -> bl < k) /\ (decodes lit P 256 -> bl < len_of lit 256).

(* the output has no room for the next symbol *)
Definition full (lit : list Z) (b : bits) (o : obuf) : Prop :=
  o_room o = 0 \/ exists s, decodes lit (b_word b) s /\ 257 <= s <= 285 /\ len_of lit s + length_extra s <= b_len b /\
    o_room o < length_base s + b_word b / 2 ^ len_of lit s mod 2 ^ length_extra s.
Lemma full_lt lit b o : full lit b o -> o_room o < 258.
Proof.
  intros [H|[s [_ [H [_ R]]]]]; [lia|]. pose proof (length_extra_range s H) as X. pose proof (length_range s (b_word b / 2 ^ len_of lit s mod 2 ^ length_extra s) H ltac:(apply Z.mod_pos_bound, pow2_pos, X)). lia.
Qed.

Definition iter_spec (lit off : list Z) (b : bits) (o : obuf) (r : loop_res) : Prop :=
  match r with
  | LCont _ b' o' => exists k, sym_step lit off (b_word b) (out_of o) k (out_of o') /\ 1 <= k <= b_len b /\ b' = Bits (b_word b / 2 ^ k) (b_len b - k) (b_src b) /\ o_next o o'
  | LOut _ b' o' => b' = b /\ o' = o /\ full lit b o
  | LIn _ b' o' => b' = b /\ o' = o /\ b_len b < 48 /\ short lit off (b_word b) (b_len b) (out_of o)
  | LDone b' o' => o' = o /\ decodes lit (b_word b) 256 /\ len_of lit 256 <= b_len b /\ b' = Bits (b_word b / 2 ^ len_of lit 256) (b_len b - len_of lit 256) (b_src b)
  | LBad _ o' => o' = o /\ bad_word lit off (b_word b) (b_len b) (out_of o)
  end.

Section Iter.
  Context (lit off t toff : list Z) (tb ob : Z).
  Context (W : wf_mode (ASyms lit off)) (LT : lit_table lit tb t) (OT : off_table off ob toff) (Rtb : 1 <= tb <= 11) (Rob : 1 <= ob <= 9).

  Lemma short_of P bl out s : decodes lit P s -> bl < len_of lit s -> short lit off P bl out.
  Proof.
    intros D H. destruct W as [W1 [W2 [W3 [W4 _]]]]. split.
    - intros k out' S. inversion S as [s' D' R|s' d D' R l k' n V1 D2 R2 l1 k1 dist HD]; subst.
      + assert (s' = s) as -> by exact (decodes_unique lit P s' s W1 D' D). exact H.
      + assert (s' = s) as -> by exact (decodes_unique lit P s' s W1 D' D). pose proof (length_extra_range s R) as X1. pose proof (decodes_len off _ d W3 D2) as X2. assert (X3 : 0 <= offset_extra d) by (destruct D2 as [D2 _]; apply offset_extra_range; clear -D2 R2; lia).
        unfold k', k1, l, l1. clear -H X1 X2 X3. lia.
    - intros D2. assert (s = 256) as -> by exact (decodes_unique lit P s 256 W1 D D2). exact H.
  Qed.
  Lemma short_match P bl out s : decodes lit P s -> 257 <= s <= 285 -> bl < len_of lit s + length_extra s -> short lit off P bl out.
  Proof.
    intros D Rs H. destruct W as [W1 [W2 [W3 [W4 _]]]]. split.
    - intros k out' S. inversion S as [s' D' R|s' d D' R l k' n V1 D2 R2 l1 k1 dist HD]; subst.
      + assert (s' = s) as -> by exact (decodes_unique lit P s' s W1 D' D). clear -R Rs. lia.
      + assert (s' = s) as -> by exact (decodes_unique lit P s' s W1 D' D). pose proof (decodes_len off _ d W3 D2) as X2. assert (X3 : 0 <= offset_extra d) by (destruct D2 as [D2 _]; apply offset_extra_range; clear -D2 R2; lia).
        unfold k', k1, l, l1. clear -H X2 X3. lia.
    - intros D2. assert (s = 256) as -> by exact (decodes_unique lit P s 256 W1 D D2). clear -Rs. lia.
  Qed.
  Lemma short_match2 P bl out s d : decodes lit P s -> 257 <= s <= 285 -> let k := len_of lit s + length_extra s in
    decodes off (P / 2 ^ k) d -> d <= 29 -> bl < k + (len_of off d + offset_extra d) -> short lit off P bl out.
  Proof.
    intros D Rs k D2 Rd H. destruct W as [W1 [W2 [W3 [W4 _]]]]. split.
    - intros k0 out' S. inversion S as [s' D' R|s' d' D' R l k' n V1 D2' R2 l1 k1 dist HD]; subst.
      + assert (s' = s) as -> by exact (decodes_unique lit P s' s W1 D' D). clear -R Rs. lia.
      + assert (s' = s) as -> by exact (decodes_unique lit P s' s W1 D' D). fold l k in k'. assert (d' = d) as -> by exact (decodes_unique off _ d' d W3 D2' D2). exact H.
    - intros D3. assert (s = 256) as -> by exact (decodes_unique lit P s 256 W1 D D3). clear -Rs. lia.
  Qed.

  Lemma safe_match_ok b o s copy length_ :
    0 <= b_word b -> 0 <= b_len b < 64 -> o_ok o -> decodes lit (b_word b) s -> 257 <= s <= 285 ->
    length_ = length_base s + b_word b / 2 ^ len_of lit s mod 2 ^ length_extra s ->
    exists r, safe_match toff ob length_ (len_of lit s + length_extra s) copy b o = Ok r /\ iter_spec lit off b o r.
  Proof.
    intros HP HB OK D Rs EL. pose proof W as [W1 [W2 [W3 [W4 _]]]]. pose proof (decodes_len lit _ s W1 D) as L1. pose proof (length_extra_range s Rs) as X1.
    assert (RL : 3 <= length_ <= 258) by (rewrite EL; apply length_range; [exact Rs|apply Z.mod_pos_bound, pow2_pos; lia]). hide EL.
    set (k := len_of lit s + length_extra s) in *. assert (Rk : 1 <= k <= 20) by (unfold k; lia).
    unfold safe_match. unfold consumed at 1. replace (64 <=? k) with false by lia. cbn [bind b_len b_word b_src]. rewrite Z.shiftr_div_pow2 by lia.
    destruct (Z_lt_ge_dec (b_len b) k) as [Q|Q].
    { unfold w64. replace (64 <? _) with true by lia. eexists. split; [reflexivity|]. cbn [iter_spec]. split; [reflexivity|]. split; [reflexivity|]. split; [lia|].
      eapply short_match; eassumption. }
    unfold w64. rewrite (Z.mod_small (b_len b - k)) by lia. replace (64 <? b_len b - k) with false by lia.
    destruct (o_room o <? length_) eqn:FR; [eexists; split; [reflexivity|]; cbn [iter_spec]; split; [reflexivity|]; split; [reflexivity|]; right; exists s; split; [exact D|]; split; [exact Rs|]; split; [fold k; lia|]; show EL; rewrite <- EL; clear -FR; lia|].
    remember (b_word b / 2 ^ k) as P1 eqn:EP1. assert (HP1 : 0 <= P1) by (rewrite EP1; apply div_nonneg, HP). hide EP1.
    rewrite index_ok by lia. cbn [b_word].
    destruct (off_fetch off ob toff P1 OT W3 W4 ltac:(lia) HP1) as [e [offset [bad [E C]]]].
    unfold off_lookup in E. destruct (rd toff (P1 mod 2 ^ ob)) as [e0| | |]; try discriminate E. cbn [bind] in E |- *.
    destruct (extract_extra P1 e0) as [x| | |]; try discriminate E. cbn [bind] in E |- *. rewrite E. cbn [bind]. clear E.
    destruct C as [[-> [d [D2 [Rd [L2 [F1 [F2 EO]]]]]]]|[-> C]].
    - assert (RO : 1 <= offset) by (pose proof (offset_base_range d Rd) as OB; pose proof (offset_extra_range d Rd) as X2; rewrite EO; pose proof (Z.mod_pos_bound (P1 / 2 ^ len_of off d) (2 ^ offset_extra d) (pow2_pos _ (proj1 X2))) as Q1; clear -OB Q1; lia).
      hide EO. pose proof (offset_extra_range d Rd) as X2. rewrite F1. destruct (b_len b - k <? len_of off d + offset_extra d) eqn:FB.
      + eexists. split; [reflexivity|]. cbn [iter_spec]. split; [reflexivity|]. split; [reflexivity|]. split; [clear -L2 X2 FB Rk; lia|].
        show EP1. eapply short_match2; [exact D|exact Rs|fold k; rewrite <- EP1; exact D2|clear -Rd; lia|]. fold k. clear -FB. lia.
      + set (k1 := len_of off d + offset_extra d) in *. assert (Rk1 : 1 <= k1 <= 28) by (unfold k1; clear -L2 X2; lia).
        rewrite consumed_ok by (cbn [b_len]; clear -HB Rk Rk1 FB; lia). cbn [bind b_word b_len b_src].
        pose proof (out_length o OK) as LO.
        destruct (o_pos o <? offset) eqn:FO.
        * eexists. split; [reflexivity|]. cbn [iter_spec]. split; [reflexivity|]. show EP1. show EO. eapply bad_dist; [exact D|exact Rs|fold k; rewrite <- EP1; exact D2|clear -Rd; lia| |]; fold k.
          -- clear -FB. unfold k1 in FB. lia.
          -- rewrite <- EP1, LO, <- EO. clear -FO. lia.
        * destruct (copy_match_ok o length_ offset OK ltac:(clear -RL FR; lia) ltac:(clear -RO FO; lia)) as [o' [E1 [O1 [O2 _]]]]. rewrite E1. cbn [bind].
          eexists. split; [reflexivity|]. cbn [iter_spec]. exists (k + k1). split.
          -- show EP1. show EO. show EL. rewrite O2, EL, EO, EP1. apply (sym_match lit off (b_word b) (out_of o) s d D Rs); fold k; try rewrite <- EP1; [exact D2|clear -Rd; lia|]. rewrite <- EO, LO. clear -FO. lia.
          -- split; [clear -Rk Rk1 FB; lia|]. split; [|exact O1]. show EP1. rewrite EP1. clear -Rk Rk1. rewrite Z.div_div, <- Z.pow_add_r by (lia || (apply Z.pow_nonzero; lia) || apply pow2_pos; lia). f_equal. clear. lia.
    - eexists. split; [reflexivity|]. cbn [iter_spec]. split; [reflexivity|]. eapply bad_off; [exact D|exact Rs| |]; fold k; [lia|show EP1; rewrite <- EP1; exact C].
  Qed.

  (* one iteration after the refill *)
  Lemma safe_iter_ok b0 b o copy :
    refill b0 = Ok b -> 0 <= b_word b -> 0 <= b_len b < 64 -> o_ok o ->
    exists r, safe_iter t toff tb ob copy b0 o = Ok r /\ iter_spec lit off b o r.
  Proof.
    intros RF HP HB OK. pose proof W as [W1 [W2 [W3 [W4 _]]]]. unfold safe_iter. rewrite RF. cbn [bind]. rewrite index_ok by lia.
    destruct (lit_fetch lit tb t (b_word b) LT W1 W2 ltac:(lia) HP) as [e0 [E C]]. rewrite (rd_elem _ _ _ E). cbn [bind].
    destruct C as [s LE Rs LTb|x e s F1 F2 F3 X1 X2 X3 LE FL|x e F1 F2 F3 X1 X2 X3 Ee N].
    - destruct LE as [D [Rs0 [L [P1 [P2 [P3 [P4 [P5 [P6 [P7 [P8 [P9 P10]]]]]]]]]]]].
      rewrite P2. destruct (s <? 256) eqn:F.
      + rewrite (P7 ltac:(lia)). destruct (o_room o =? 0) eqn:FR; [eexists; split; [reflexivity|]; cbn [iter_spec]; split; [reflexivity|]; split; [reflexivity|left; lia]|].
        destruct (b_len b <? len_of lit s) eqn:FB.
        * eexists. split; [reflexivity|]. cbn [iter_spec]. split; [reflexivity|]. split; [reflexivity|]. split; [lia|]. eapply short_of; [exact D|lia].
        * rewrite consumed_ok by lia. cbn [bind].
          assert (EP : Z.land (payload_field e0) 255 = s).
          { rewrite P1. unfold lit_pay. rewrite F. rewrite (land_mod _ 8) by (reflexivity || lia). change (2 ^ 8) with 256. lia. }
          rewrite EP. destruct (put_ok o s OK ltac:(unfold o_room, o_ok in *; lia)) as [o' [E1 [O1 [O2 _]]]]. rewrite E1. cbn [bind].
          eexists. split; [reflexivity|]. cbn [iter_spec]. exists (len_of lit s). split; [rewrite O2; constructor; [exact D|lia]|]. split; [lia|]. split; [reflexivity|exact O1].
      + assert (Rs' : 257 <= s <= 285) by lia. rewrite (P8 ltac:(lia)), (P7 ltac:(lia)). pose proof (length_extra_range s Rs') as X.
        assert (EL : lit_lo s = length_extra s) by (unfold lit_lo; rewrite F; replace ((s =? 256) || (286 <=? s)) with false by lia; reflexivity).
        rewrite EL. replace (32 <=? length_extra s + len_of lit s) with false by lia. rewrite P5. replace ((257 <=? s) && (s <=? 285)) with true by lia. cbn [negb].
        rewrite extract_ok by lia. rewrite (Z.add_comm (length_extra s)). apply safe_match_ok; try assumption.
        rewrite P1. unfold lit_pay. rewrite F. replace ((s =? 256) || (286 <=? s)) with false by lia. f_equal. rewrite Z.div_1_r, Z.shiftr_div_pow2 by lia.
        rewrite Z.pow_add_r by lia. pose proof (pow2_pos (len_of lit s) ltac:(lia)). pose proof (pow2_pos (length_extra s) ltac:(lia)). rewrite Z.rem_mul_r by lia.
        rewrite Z.mul_comm, Z.div_add by lia. pose proof (Z.mod_pos_bound (b_word b) (2 ^ len_of lit s)). rewrite (Z.div_small (b_word b mod _)) by lia. reflexivity.
    - hide X2. rewrite F1, F2. replace (32 <=? full_length e0) with false by lia. cbn [negb].
      assert (R0 : 0 <= full_length e0) by (unfold full_length; apply Z.land_nonneg; right; lia).
      assert (RB : 0 <= base_length e0) by (unfold base_length; apply Z.land_nonneg; right; lia).
      rewrite extract_ok by lia. change (2 ^ 0) with 1. rewrite Z.div_1_r, Z.shiftr_div_pow2 by lia. show X2. rewrite <- X2, X3. clear X2. cbn [bind].
      destruct LE as [D [Rs0 [L [P1 [P2 [P3 [P4 [P5 [P6 [P7 [P8 [P9 P10]]]]]]]]]]]].
      rewrite FL, P2. destruct (b_len b <? lit_lo s mod 64 + len_of lit s) eqn:FB.
      + eexists. split; [reflexivity|]. cbn [iter_spec]. split; [reflexivity|]. split; [reflexivity|].
        assert (LL : lit_lo s mod 64 <= 13) by apply (lit_res_ok s Rs0). hide P6. split; [lia|].
        destruct (Z_lt_ge_dec s 257) as [Q|Q]; [|destruct (Z_lt_ge_dec s 286) as [Q2|Q2]].
        * eapply short_of; [exact D|]. pose proof (Z.mod_pos_bound (lit_lo s) 64 eq_refl) as B1. unfold lit_lo in *. destruct (s <? 256) eqn:F; [clear -FB; lia|]. replace (s =? 256) with true in FB by (clear -Q F; lia). cbn [orb] in FB. clear -FB. lia.
        * eapply short_match; [exact D|lia|]. unfold lit_lo in FB. replace (s <? 256) with false in FB by lia. replace ((s =? 256) || (286 <=? s)) with false in FB by lia.
          pose proof (length_extra_range s ltac:(lia)). rewrite Z.mod_small in FB by lia. lia.
        * eapply short_of; [exact D|]. unfold lit_lo in FB. replace (s <? 256) with false in FB by lia. replace ((s =? 256) || (286 <=? s)) with true in FB by lia. lia.
      + destruct (s <? 256) eqn:F.
        * assert (EL : lit_lo s mod 64 = 0) by (unfold lit_lo; rewrite F; reflexivity). rewrite EL, Z.add_0_l in *.
          destruct (o_room o =? 0) eqn:FR; [eexists; split; [reflexivity|]; cbn [iter_spec]; split; [reflexivity|]; split; [reflexivity|left; lia]|].
          rewrite consumed_ok by lia. cbn [bind].
          assert (EP : Z.land (payload_field e) 255 = s).
          { rewrite P1. unfold lit_pay. rewrite F. rewrite (land_mod _ 8) by (reflexivity || lia). change (2 ^ 8) with 256. lia. }
          rewrite EP. destruct (put_ok o s OK ltac:(unfold o_room, o_ok in *; lia)) as [o' [E1 [O1 [O2 _]]]]. rewrite E1. cbn [bind].
          eexists. split; [reflexivity|]. cbn [iter_spec]. exists (len_of lit s). split; [rewrite O2; constructor; [exact D|lia]|]. split; [lia|]. split; [reflexivity|exact O1].
        * destruct (P10 (b_word b) HP) as [y Y]. rewrite P3, P4. destruct ((s =? 256) || (286 <=? s)) eqn:F6.
          -- rewrite Y. cbn [bind]. assert (EL : lit_lo s mod 64 = 0) by (unfold lit_lo; rewrite F, F6; reflexivity). rewrite EL, Z.add_0_l in *.
             rewrite consumed_ok by lia. cbn [bind]. destruct (286 <=? s) eqn:F7; (eexists; split; [reflexivity|]; cbn [iter_spec]; split; [reflexivity|]).
             ++ eapply bad_lit; [exact D|lia|lia].
             ++ assert (s = 256) as -> by lia. split; [exact D|]. split; [lia|reflexivity].
          -- assert (Rs' : 257 <= s <= 285) by lia. rewrite (P9 Rs' (b_word b) HP). cbn [bind]. pose proof (length_extra_range s Rs') as X.
             assert (EL : lit_lo s mod 64 = length_extra s) by (unfold lit_lo; rewrite F, F6; apply Z.mod_small; lia). rewrite EL, (Z.add_comm (length_extra s)).
             apply safe_match_ok; try assumption. rewrite P1. unfold lit_pay. rewrite F, F6. reflexivity.
    - hide X2. rewrite F1, F2. replace (32 <=? full_length e0) with false by lia. cbn [negb].
      assert (R0 : 0 <= full_length e0) by (unfold full_length; apply Z.land_nonneg; right; lia).
      assert (RB : 0 <= base_length e0) by (unfold base_length; apply Z.land_nonneg; right; lia).
      rewrite extract_ok by lia. change (2 ^ 0) with 1. rewrite Z.div_1_r, Z.shiftr_div_pow2 by lia. show X2. rewrite <- X2, X3. clear X2. cbn [bind]. subst e.
      change (full_length (ent 1 0 3 0)) with 1. change (is_literal (ent 1 0 3 0)) with false. change (is_end_of_block (ent 1 0 3 0)) with true. change (is_end_of_block_invalid (ent 1 0 3 0)) with true.
      assert (EI : ent_ok 1 0 3 0) by (unfold ent_ok; lia). rewrite ent_extra by (assumption || (rewrite Z.mod_small by lia; lia) || lia). cbn [bind].
      destruct (b_len b <? 1) eqn:FB.
      + eexists. split; [reflexivity|]. cbn [iter_spec]. split; [reflexivity|]. split; [reflexivity|]. split; [lia|]. split.
        * intros k out' S. exfalso. inversion S as [s' D' R|s' d D' R l k' n V1 D2 R2 l1 k1 dist HD]; subst; eapply (N (b_word b) s' HP); try exact D'; clear; lia.
        * intros D. exfalso. eapply (N (b_word b) 256 HP); [clear; lia|exact D].
      + rewrite consumed_ok by lia. cbn [bind]. eexists. split; [reflexivity|]. cbn [iter_spec]. split; [reflexivity|]. eapply bad_none; [exact N|lia].
  Qed.
End Iter.
