(* Every single call of BLString does its job. *)
From Verif Require Import Base Bits IntOps_Model IntOps_Spec IntOps_Proofs Algorithm_Model Object_Model Object_Spec Object_Proofs Object_Proofs2
  BitArray_Model BitArray_Spec BitArray_Proofs3 Handle_Client Handle_Proofs Array_Model Array_Spec Array_Proofs Array_Proofs2 Array_Proofs3 Array_Proofs4 Array_Proofs5
  String_Model String_Spec String_Proofs String_Proofs2.

(* new text [x] at [index], the rest is in place already *)
Lemma text_step h os h1 o1 sz c1 c2 index x l2 (f : list cell -> outcome (list cell)) (P : Z -> list Z -> Prop) : opened h os h1 o1 sz c1 -> f c1 = Ok c2 -> length c2 = length c1 ->
  (forall j, nth_error c2 j = if (index <=? Z.of_nat j) && (Z.of_nat j <? index + len x) then option_map Some (nth_error x (j - Z.to_nat index)) else nth_error c1 j) ->
  0 <= index -> index + len x <= sz -> len l2 = sz ->
  (forall j, (j < length l2)%nat -> Z.of_nat j < index \/ index + len x <= Z.of_nat j -> nth_error c1 j = option_map Some (nth_error l2 j)) ->
  (forall j, index <= Z.of_nat j < index + len x -> nth_error l2 j = nth_error x (j - Z.to_nat index)) ->
  P BL_SUCCESS l2 ->
  sstep h os (let* c := block h1 o1 (own_loc o1) in let* c := f c in let* (h1, self) := s_store h1 o1 c in Ok (BL_SUCCESS, h1, self)) P.
Proof.
  intros OP FC LC N I0 IX L2 K1 K2 HP. destruct OP as (B & S1 & F). rewrite B. cbn [bind]. rewrite FC. cbn [bind].
  eapply (opened_step h os h1 o1 sz c1); [exact (conj B (conj S1 F))| | |exact L2|exact HP].
  - split; auto. intros j J. rewrite N. replace (_ && _) with false by lia. reflexivity.
  - intros j J. rewrite N. destruct (_ && _) eqn:Q; [rewrite K2 by lia; reflexivity|]. apply K1; auto. lia.
Qed.
Lemma repeat_len {A} (b : A) n : 0 <= n -> len (repeat b (Z.to_nat n)) = n. Proof. intros. unfold len. rewrite repeat_length. lia. Qed.
Lemma fill_text n c1 index b : 0 <= n -> 0 <= index -> index + n <= len c1 -> exists c2, fill_cells (Z.to_nat n) c1 index b = Ok c2 /\ length c2 = length c1 /\
  forall j, nth_error c2 j = if (index <=? Z.of_nat j) && (Z.of_nat j <? index + len (repeat b (Z.to_nat n))) then option_map Some (nth_error (repeat b (Z.to_nat n)) (j - Z.to_nat index)) else nth_error c1 j.
Proof.
  intros N I B. destruct (fill_ok n c1 index b N I B) as (c2 & E & L & K). exists c2. split; auto. split; auto. intros j. rewrite K, repeat_len by auto.
  destruct (_ && _) eqn:Q; auto. rewrite nth_repeat. replace (_ <? _)%nat with true by lia. reflexivity.
Qed.
Lemma copy_text x c1 index : 0 <= index -> index + len x <= len c1 -> exists c2, copy_cells (length x) c1 index (map Some x) 0 = Ok c2 /\ length c2 = length c1 /\
  forall j, nth_error c2 j = if (index <=? Z.of_nat j) && (Z.of_nat j <? index + len x) then option_map Some (nth_error x (j - Z.to_nat index)) else nth_error c1 j.
Proof.
  intros I B. pose proof (len_nonneg x). destruct (copy_ok (len x) c1 index (map Some x) x 0 (rep_map x)) as (c2 & E & L & K); try lia. unfold len in E at 1. rewrite Nat2Z.id in E. exists c2. split; auto. split; auto.
  intros j. rewrite K. destruct (_ && _); auto. f_equal. f_equal. lia.
Qed.

Section Calls.
  Context (m : bool) (h : heap) (os : list obj) (o : obj) (l : list Z) (size cap : Z) (mut : bool) (c : list cell)
          (W : str_wf h (o :: os)) (VW : view h o l size cap mut c).
  Notation L := (l ++ [0]).
  Let Bnd : 0 <= size <= cap /\ cap + 1 <= max_bytes /\ size + 1 <= len c /\ cap + 1 <= len c /\ size = len l /\ rep c L /\ rep c l /\ len L = size + 1.
  Proof. exact (bounds h o l size cap mut c VW). Qed.

  (* ---- modify_op ---- *)
  Lemma modify_ok op n : 0 <= n < 2 ^ 64 -> let index := if is_assign op then 0 else size in
    (str_modify_op m h o op n = Ok (BL_ERROR_OUT_OF_MEMORY, h, o, 0) /\ (m = false \/ 2 ^ 60 <= size + n)) \/
    exists h1 o1 c1, str_modify_op m h o op n = Ok (BL_SUCCESS, h1, o1, index) /\ opened h os h1 o1 (index + n) c1 /\ rep c1 (take l index).
  Proof.
    intros N0 index. destruct Bnd as (B1 & B2 & B3 & B4 & B5 & R & R' & LL). unfold max_bytes in *.
    unfold str_modify_op. rewrite (v_unpack _ _ _ _ _ _ _ VW), (v_mut _ _ _ _ _ _ _ VW). cbn [bind]. fold index.
    assert (I0 : 0 <= index <= size) by (subst index; destruct (is_assign op); lia).
    rewrite sat_ok by lia. set (sa := Z.min (index + n) (2 ^ 64 - 1)). assert (SA : 0 <= sa < 2 ^ 64 /\ index <= sa) by lia. rewrite lor_msk_lt by lia.
    destruct (mut && (sa <=? cap)) eqn:FIT; cbn [negb].
    - right. apply andb_true_iff in FIT as (M & FIT). apply Z.leb_le in FIT. assert (ES : index + n = sa) by lia. rewrite ES. rewrite (v_block _ _ _ _ _ _ _ VW). cbn [bind].
      destruct (wrc_ok c sa 0) as (c1 & -> & L1 & N1); [lia|]. cbn [bind]. destruct (is_sso o) eqn:SO.
      + destruct (sso_facts h os o l size cap mut c W VW SO) as (C14 & C15 & _ & NB).
        assert (HB : exists b, nth_error c1 14 = Some (Some b) /\ Z.land b 0xC0 = 0).
        { rewrite N1. destruct (Z.eqb_spec sa (Z.of_nat 14)); [now exists 0|]. eexists. split; [exact NB|]. apply lxor14_land. lia. }
        destruct HB as (b & HB1 & HB2). destruct (set_sso_ok c1 sa b ltac:(unfold len in *; lia) HB1 HB2) as (c2 & -> & L2 & N2). cbn [bind].
        assert (G : exists c3, (if is_assign op then fill_cells 14 c2 0 0 else Ok c2) = Ok c3 /\ length c3 = length c /\ terminated sa c3 /\ sized o c3 sa /\ rep c3 (take l index)).
        { assert (T2 : forall c3, nth_error c3 14 = nth_error c2 14 -> (sa < 14 -> nth_error c3 (Z.to_nat sa) = Some (Some 0)) -> terminated sa c3 /\ sized o c3 sa).
          { intros c3 E14 EL. unfold terminated, sized. rewrite E14, N2. change (14 =? Z.of_nat 14) with true. cbn beta iota. split; auto.
            destruct (Z.eq_dec sa 14) as [->|]; [|apply EL; lia]. change (Z.to_nat 14) with 14%nat. rewrite E14, N2. reflexivity. }
          unfold index. destruct (is_assign op).
          - destruct (fill_ok 14 c2 0 0) as (c3 & E3 & L3 & N3); try (unfold len in *; lia). change (Z.to_nat 14) with 14%nat in E3. rewrite E3. exists c3. split; auto. split; [lia|].
            destruct (T2 c3) as (T3 & T4). { rewrite N3. reflexivity. } { intros Q. rewrite N3. replace (_ && _) with true by lia. reflexivity. } split; auto. split; auto. apply rep_nil.
          - exists c2. split; auto. split; [lia|]. destruct (T2 c2) as (T3 & T4); auto. { intros Q. rewrite N2, N1. replace (14 =? _) with false by lia. replace (_ =? _) with true by lia. reflexivity. }
            split; auto. split; auto. intros j J. rewrite take_length in J. unfold len in *. rewrite N2, N1. unfold index in *.
            destruct (Z.eqb_spec 14 (Z.of_nat j)); [lia|]. assert (n = 0 \/ Z.of_nat j <> sa) as Q by lia. destruct (Z.eqb_spec sa (Z.of_nat j)) as [Q2|Q2]; [lia|]. rewrite R' by lia. rep_t. }
        destruct G as (c3 & -> & L3 & T3 & Z3 & R3). cbn [bind].
        assert (EP : putv h o sa c3 = (h, sso_of c3)) by (destruct o; [reflexivity|discriminate SO]).
        eexists _, _, c3. split; [reflexivity|]. split; auto. eapply put_opened; eauto. lia.
      + rewrite (store_here h os o l size cap mut c W VW). cbn [bind]. destruct (putv h o size c1) as [h1 o1] eqn:EP.
        rewrite (put_size h os o l size cap mut c W VW _ _ sa _ _ EP). unfold set_cells. rewrite SO. cbn [bind].
        destruct (putv h o sa c1) as [h2 o2] eqn:EP2. eexists _, _, c1. split; [reflexivity|]. split.
        * eapply put_opened; eauto; [lia|intros Q; congruence|]. unfold terminated. rewrite N1. replace (_ =? _) with true by lia. reflexivity.
        * intros j J. rewrite take_length in J. rewrite N1. unfold len in *. replace (_ =? _) with false by lia. rewrite R' by lia. rep_t.
    - assert (G : init_res m h sa (size + n) (if (sa <=? kSSOCapacity) && negb (does_grow op) then Ok (Some (h, init_sso sa))
              else if s_maximum_size <? sa then Ok None
              else let* impl_size := expand_impl_size_with_modify_op (s_impl_size sa) (does_grow op) in s_init_dynamic m h impl_size sa)).
      { unfold kSSOCapacity. destruct ((sa <=? 14) && negb (does_grow op)) eqn:Q.
        - right. destruct (init_sso_fresh h sa ltac:(lia)) as (_ & F). eexists _, _, _. split; [reflexivity|exact F].
        - destruct (Z.ltb_spec s_maximum_size sa) as [MX|MX]; apply max_size in MX.
          + left. split; auto. right. lia.
          + destruct (expand_dynamic_ok m (does_grow op) h sa sa) as (sz & -> & I); try lia. cbn [bind]. destruct I as [(-> & I)|I]; [left|now right]. split; auto. destruct I; [now left|right; lia]. }
      destruct G as [(-> & G)|(h1 & n1 & d & -> & F)]; cbn [bind]; [now left|]. right.
      pose proof (fresh_size _ _ _ _ _ F) as (_ & DS). rewrite (fresh_self _ _ _ _ _ _ _ _ _ _ _ VW F). cbn [bind].
      destruct (copy_ok index d 0 c l 0 R') as (d1 & E1 & L1 & N1); try lia.
      destruct (wrc_ok d1 sa 0) as (d2 & E2 & L2 & N2); [unfold len in *; lia|].
      assert (SB : sa + 1 <= 2 ^ 63). { destruct F as (_ & _ & [(_ & k & _ & F)|(_ & _ & _ & F & _)]); unfold max_bytes in *; lia. }
      assert (ES : index + n = sa) by lia. rewrite ES.
      assert (KP : keeps sa d d2).
      { split; [lia|]. intros j J. rewrite N2, N1. destruct F as (_ & T & _). unfold terminated in T. destruct (Z.eqb_spec sa (Z.of_nat j)) as [Q|Q].
        - rewrite <- T. f_equal. lia.
        - unfold len in *. rep_t. }
      destruct (fresh_fill _ _ _ _ _ _ (fun d => let* d := copy_cells (Z.to_nat index) d 0 c 0 in wrc d sa 0) F ltac:(cbv beta; rewrite E1; exact E2) KP) as (h2 & n2 & -> & F2). cbn [bind].
      destruct (fresh_opened h os o sa h2 n2 d2 W F2) as (h3 & -> & OP). cbn [bind]. eexists _, _, d2. split; [reflexivity|]. split; auto.
      intros j J. rewrite take_length in J. rewrite N2, N1. unfold len in *. replace (sa =? _) with false by lia. rep_t.
  Qed.

  Lemma modify_text_step op n x (f : Z -> list cell -> outcome (list cell)) (P : Z -> list Z -> Prop) : 0 <= n < 2 ^ 64 -> len x = n ->
    (forall c1 index, 0 <= index -> index + n <= len c1 -> exists c2, f index c1 = Ok c2 /\ length c2 = length c1 /\
       forall j, nth_error c2 j = if (index <=? Z.of_nat j) && (Z.of_nat j <? index + len x) then option_map Some (nth_error x (j - Z.to_nat index)) else nth_error c1 j) ->
    P BL_SUCCESS (put op l x) -> (m = false \/ 2 ^ 60 <= size + n -> P BL_ERROR_OUT_OF_MEMORY l) ->
    sstep h os (let* (code, h1, self, index) := str_modify_op m h o op n in
      if negb (code =? BL_SUCCESS) then Ok (code, h1, self) else
        let* c := block h1 self (own_loc self) in let* c := f index c in let* (h1, self) := s_store h1 self c in Ok (BL_SUCCESS, h1, self)) P.
  Proof.
    intros N0 LX HF HS HO. destruct Bnd as (B1 & B2 & B3 & B4 & B5 & R & R' & LL). destruct (modify_ok op n N0) as [(-> & Q)|(h1 & o1 & c1 & -> & OP & RP)]; cbn [bind].
    - change (negb (BL_ERROR_OUT_OF_MEMORY =? BL_SUCCESS)) with true. cbn iota. apply (oom_step h os o l size cap mut c W VW). auto.
    - change (negb (BL_SUCCESS =? BL_SUCCESS)) with false. cbn iota. set (index := if is_assign op then 0 else size) in *.
      assert (I0 : 0 <= index <= size) by (subst index; destruct (is_assign op); lia).
      destruct (HF c1 index) as (c2 & E & LC & N); try lia. { destruct OP as (_ & S1 & _). lia. }
      apply (text_step h os h1 o1 (index + n) c1 c2 index x (put op l x)); auto; try lia.
      + unfold put. subst index. destruct (is_assign op); rewrite ?len_app; lia.
      + intros j J Q. unfold put in *. subst index. unfold len in *. destruct (is_assign op); rewrite ?app_length in *; try lia. rewrite RP by (rewrite take_length; lia). rep_t.
      + intros j J. unfold put. subst index. unfold len in *. destruct (is_assign op); rep_t.
  Qed.
  Lemma modify_write_step op x : len x <= max_bytes -> sstep h os (str_modify_op_write m h o op x) (sop_ok m l (SModify op x)).
  Proof.
    intros XB. destruct Bnd as (_ & _ & _ & _ & B5 & _). pose proof (len_nonneg x). unfold str_modify_op_write, s_write_at. fold (len x).
    apply (modify_text_step op (len x) x (fun index c => copy_cells (length x) c index (map Some x) 0)); auto; [unfold max_bytes in *; lia| | |].
    - intros. now apply copy_text.
    - left. auto.
    - intros Q. right. split; auto. unfold s_demand. destruct Q; [now left|right; lia].
  Qed.
  Lemma apply_char_gen op b n (P : Z -> list Z -> Prop) : 0 <= n < 2 ^ 64 -> P BL_SUCCESS (put op l (repeat b (Z.to_nat n))) -> (m = false \/ 2 ^ 60 <= size + n -> P BL_ERROR_OUT_OF_MEMORY l) ->
    sstep h os (str_apply_op_char m h o op b n) P.
  Proof.
    intros N0 HS HO. unfold str_apply_op_char, s_memset_at.
    apply (modify_text_step op n (repeat b (Z.to_nat n)) (fun index c => fill_cells (Z.to_nat n) c index b)); auto.
    - apply repeat_len. lia.
    - intros. apply fill_text; auto. lia.
  Qed.

  (* ---- insert_op ---- *)
  Lemma insert_ok i n : 0 <= i <= size -> 0 <= n < 2 ^ 64 ->
    (str_insert_op m h o i n = Ok (BL_ERROR_OUT_OF_MEMORY, h, o, 0) /\ (m = false \/ 2 ^ 60 <= size + n)) \/
    exists h1 o1 c1, str_insert_op m h o i n = Ok (BL_SUCCESS, h1, o1, i) /\ opened h os h1 o1 (size + n) c1 /\
      forall j, (Z.of_nat j < i -> nth_error c1 j = option_map Some (nth_error l j)) /\
                (i + n <= Z.of_nat j < size + n -> nth_error c1 j = option_map Some (nth_error l (j - Z.to_nat n))).
  Proof.
    intros I0 N0. destruct Bnd as (B1 & B2 & B3 & B4 & B5 & R & R' & LL). unfold max_bytes in *.
    unfold str_insert_op. rewrite (v_unpack _ _ _ _ _ _ _ VW), (v_mut _ _ _ _ _ _ _ VW). cbn [bind].
    rewrite sat_ok by lia. set (sa := Z.min (size + n) (2 ^ 64 - 1)). assert (SA : 0 <= sa < 2 ^ 64 /\ size <= sa) by lia. rewrite lor_msk_lt by lia.
    destruct (mut && (sa <=? cap)) eqn:FIT; cbn [negb].
    - right. apply andb_true_iff in FIT as (M & FIT). apply Z.leb_le in FIT. assert (ES : size + n = sa) by lia. rewrite ES.
      rewrite (size_here h os o l size cap mut c W VW).
      destruct (set_cells_ok h os o l size cap mut c W VW c sa ltac:(lia) eq_refl (self_byte h os o l size cap mut c W VW)) as (c0 & -> & L0 & SZ & NC0). cbn [bind].
      destruct (putv h o sa c0) as [h1 o1] eqn:EP. destruct (put_block h os o l size cap mut c W VW _ _ _ _ EP) as (-> & EL & _). cbn [bind].
      assert (R0 : rep c0 l).
      { intros j J. rewrite NC0. unfold len in *. destruct (is_sso o && (14 =? Z.of_nat j)) eqn:Q; [|now apply R']. apply andb_true_iff in Q as (SO & Q).
        pose proof (sso_facts h os o l size cap mut c W VW SO). lia. }
      unfold move_own. destruct (copy_ok (size - i) c0 (i + n) c0 l i R0) as (c1 & -> & L1 & N1); try (unfold len in *; lia). cbn [bind].
      destruct (wrc_ok c1 sa 0) as (c2 & -> & L2 & N2); [unfold len in *; lia|]. cbn [bind].
      rewrite (put_store h os o l size cap mut c W VW _ _ c2 _ _ EP). cbn [bind]. destruct (putv h o sa c2) as [h2 o2] eqn:EP2.
      eexists _, _, c2. split; [reflexivity|]. split.
      + eapply put_opened; eauto; [lia|lia| |].
        * intros SO. specialize (SZ SO). pose proof (sso_facts h os o l size cap mut c W VW SO) as (C14 & C15 & _ & NB). rewrite N2. destruct (Z.eqb_spec sa (Z.of_nat 14)) as [->|Q]; [reflexivity|].
          rewrite N1. replace (_ && _) with false by lia. exact SZ.
        * unfold terminated. rewrite N2. replace (_ =? _) with true by lia. reflexivity.
      + intros j. rewrite N2, N1. unfold len in *. split; intros J.
        * replace (sa =? _) with false by lia. replace (_ && _) with false by lia. apply R0. lia.
        * replace (sa =? _) with false by lia. replace (_ && _) with true by lia. f_equal. f_equal. lia.
    - destruct (Z.ltb_spec s_maximum_size sa) as [MX|MX]; apply max_size in MX. { left. split; auto. right. lia. }
      assert (ES : size + n = sa) by lia. destruct (expand_dynamic_ok m true h sa sa) as (sz & E & I); try lia. cbn [expand_impl_size_with_modify_op] in E. rewrite E. cbn [bind].
      destruct I as [(-> & I)|(h1 & n1 & d & -> & F)]; cbn [bind]. { left. split; auto. destruct I; [now left|right; lia]. } right. rewrite ES.
      pose proof (fresh_size _ _ _ _ _ F) as (_ & DS). rewrite (fresh_self _ _ _ _ _ _ _ _ _ _ _ VW F). cbn [bind].
      destruct (copy_ok i d 0 c l 0 R') as (d1 & E1 & L1 & N1); try lia.
      destruct (copy_ok (size - i) d1 (i + n) c l i R') as (d2 & E2 & L2 & N2); try (unfold len in *; lia).
      assert (KP : keeps sa d d2) by (split; [lia|]; intros j J; rewrite N2, N1; unfold len in *; rep_t).
      destruct (fresh_fill _ _ _ _ _ _ (fun d => let* d := copy_cells (Z.to_nat i) d 0 c 0 in copy_cells (Z.to_nat (size - i)) d (i + n) c i) F ltac:(cbv beta; rewrite E1; exact E2) KP) as (h2 & n2 & -> & F2). cbn [bind].
      destruct (fresh_opened h os o sa h2 n2 d2 W F2) as (h3 & RE & OP). unfold replace_instance. rewrite RE. cbn [bind]. eexists _, _, d2. split; [reflexivity|]. split; auto.
      intros j. rewrite N2, N1. unfold len in *. split; intros J.
      + replace (_ && _) with false by lia. replace (_ && _) with true by lia. f_equal. f_equal. lia.
      + replace (_ && _) with true by lia. f_equal. f_equal. lia.
  Qed.
  Lemma insert_text_step i n x (f : Z -> list cell -> outcome (list cell)) (P : Z -> list Z -> Prop) : 0 <= i <= size -> 0 <= n < 2 ^ 64 -> len x = n ->
    (forall c1 index, 0 <= index -> index + n <= len c1 -> exists c2, f index c1 = Ok c2 /\ length c2 = length c1 /\
       forall j, nth_error c2 j = if (index <=? Z.of_nat j) && (Z.of_nat j <? index + len x) then option_map Some (nth_error x (j - Z.to_nat index)) else nth_error c1 j) ->
    P BL_SUCCESS (l_insert l i x) -> (m = false \/ 2 ^ 60 <= size + n -> P BL_ERROR_OUT_OF_MEMORY l) ->
    sstep h os (let* (code, h1, self, index) := str_insert_op m h o i n in
      if negb (code =? BL_SUCCESS) then Ok (code, h1, self) else
        let* c := block h1 self (own_loc self) in let* c := f index c in let* (h1, self) := s_store h1 self c in Ok (BL_SUCCESS, h1, self)) P.
  Proof.
    intros I0 N0 LX HF HS HO. destruct Bnd as (B1 & B2 & B3 & B4 & B5 & R & R' & LL). destruct (insert_ok i n I0 N0) as [(-> & Q)|(h1 & o1 & c1 & -> & OP & RP)]; cbn [bind].
    - change (negb (BL_ERROR_OUT_OF_MEMORY =? BL_SUCCESS)) with true. cbn iota. apply (oom_step h os o l size cap mut c W VW). auto.
    - change (negb (BL_SUCCESS =? BL_SUCCESS)) with false. cbn iota.
      destruct (HF c1 i) as (c2 & E & LC & N); try lia. { destruct OP as (_ & S1 & _). lia. }
      apply (text_step h os h1 o1 (size + n) c1 c2 i x (l_insert l i x)); auto; try lia.
      + unfold l_insert. rewrite !len_app, len_take, len_drop by lia. lia.
      + intros j J Q. unfold l_insert in *. rewrite !app_length, take_length, drop_length in J. unfold len in *. destruct Q as [Q|Q].
        * rewrite (proj1 (RP j)) by lia. rep_t.
        * rewrite (proj2 (RP j)) by lia. rep_t.
      + intros j J. unfold l_insert. unfold len in *. rep_t.
  Qed.

  (* ---- new storage with the first [n] bytes ---- *)
  Lemma copy_replace_step n (P : Z -> list Z -> Prop) : 0 <= n <= size -> P BL_SUCCESS (take l n) -> (m = false \/ 2 ^ 60 <= size -> P BL_ERROR_OUT_OF_MEMORY l) ->
    sstep h os (copy_and_replace m h o n) P.
  Proof.
    intros N0 HS HO. destruct Bnd as (B1 & B2 & B3 & B4 & B5 & R & R' & LL). unfold copy_and_replace, max_bytes in *.
    destruct (init_string_ok m h n) as [(-> & I)|(h1 & n1 & d & -> & F)]; try lia; cbn [bind]. { apply (oom_step h os o l size cap mut c W VW), HO. destruct I; [now left|right; lia]. }
    pose proof (fresh_size _ _ _ _ _ F) as (_ & DS). destruct (copy_ok n d 0 c l 0 R') as (d1 & E1 & L1 & N1); try lia.
    apply (fresh_step h os o l size cap mut c n h1 n1 d (fun src d => copy_cells (Z.to_nat n) d 0 src 0) d1 (take l n)); auto.
    - split; [lia|]. intros j J. rewrite N1. rep_t.
    - intros j J. rewrite take_length in J. rewrite N1. unfold len in *. rep_t.
    - apply len_take. lia.
  Qed.
  Lemma mut_dyn p im : o = Dyn p -> get_impl h p = Ok im -> isize im = size /\ icap im = cap /\ mem im = c /\ is_impl_mutable im = mut.
  Proof.
    intros E G. pose proof (v_kind _ _ _ _ _ _ _ VW) as KD. rewrite E in KD. destruct KD as (im' & E' & K). unfold get_impl in G. rewrite E' in G. injection G as ->. unfold is_impl_mutable. intuition.
  Qed.
  Lemma get_dyn p : o = Dyn p -> exists im, get_impl h p = Ok im.
  Proof. intros E. pose proof (v_kind _ _ _ _ _ _ _ VW) as KD. rewrite E in KD. destruct KD as (im' & E' & _). exists im'. unfold get_impl. now rewrite E'. Qed.

  (* ---- in place ---- *)
  Lemma in_sso_step n c1 c2 l1 code (P : Z -> list Z -> Prop) : is_sso o = true -> 0 <= n <= 14 -> length c1 = length c -> nth_error c1 14 = Some (Some (Z.lxor size 14)) -> rep c1 l1 -> len l1 = n ->
    (n < 14 -> nth_error c1 (Z.to_nat n) = Some (Some 0)) -> set_sso_size c1 n = Ok c2 -> P code l1 -> sstep h os (Ok (code, h, sso_of c2)) P.
  Proof.
    intros SO N0 L1 E14 R1 LN T1 E2 HP. destruct (sso_facts h os o l size cap mut c W VW SO) as (C14 & C15 & M & NB).
    destruct Bnd as (B1 & _). assert (HL : Z.land (Z.lxor size 14) 0xC0 = 0) by (apply lxor14_land; lia).
    destruct (set_sso_ok c1 n _ ltac:(unfold len in *; lia) E14 HL) as (c2' & E & L2 & N2). rewrite E2 in E. injection E as <-.
    assert (S2 : nth_error c2 14 = Some (Some (Z.lxor n 14))) by (now rewrite N2).
    assert (E : putv h o n c2 = (h, sso_of c2)) by (destruct o; [reflexivity|discriminate SO]).
    assert (R2 : rep c2 (l1 ++ [0])).
    { apply term_rep.
      - intros j J. rewrite N2. unfold len in *. replace (14 =? _) with false by lia. auto.
      - rewrite LN. unfold terminated. destruct (Z.eq_dec n 14) as [->|]; [exact S2|]. rewrite N2. replace (14 =? _) with false by lia. apply T1. lia. }
    pose proof (put_step h os o l size cap mut c W VW n c2 l1 code P M R2 LN ltac:(lia) ltac:(lia) (fun _ => S2) HP) as G. rewrite E in G. exact G.
  Qed.
  Lemma clear_step : sstep h os (str_clear h o) (sop_ok m l SClear).
  Proof.
    destruct Bnd as (B1 & B2 & B3 & B4 & B5 & R & R' & LL). assert (HS : sop_ok m l SClear BL_SUCCESS []) by (left; auto).
    assert (HZ : size = 0 -> sop_ok m l SClear BL_SUCCESS l) by (intros Q; destruct l; [auto|unfold len in *; cbn in *; lia]).
    destruct o as [s0 c0|p] eqn:EO; rewrite <- EO in *; unfold str_clear; rewrite EO at 1.
    - pose proof (v_kind _ _ _ _ _ _ _ VW) as KD. rewrite EO in KD. destruct KD as (-> & -> & C14 & C15 & M & NB). destruct (Z.eqb_spec size 0) as [Q|Q].
      + apply (same_step h os o l size cap mut c W VW). auto.
      + destruct (fill_ok 14 c 0 0) as (c1 & E1 & L1 & N1); try lia. change (Z.to_nat 14) with 14%nat in E1. rewrite E1. cbn [bind].
        assert (E14 : nth_error c1 14 = Some (Some (Z.lxor size 14))) by (rewrite N1; exact NB).
        destruct (set_sso_ok c1 0 _ ltac:(unfold len in *; lia) E14 (lxor14_land size ltac:(lia))) as (c2 & E2 & L2 & N2). rewrite E2. cbn [bind].
        apply (in_sso_step 0 c1 c2 []); auto; try lia; try (now rewrite EO). { apply rep_nil. } intros _. rewrite N1. reflexivity.
    - destruct (get_dyn p EO) as (im & G). rewrite G. cbn [bind]. destruct (mut_dyn p im EO G) as (-> & _ & _ & ->). destruct (Sumbool.sumbool_of_bool mut) as [M|M]; rewrite M; cbn [negb].
      + destruct (Z.eqb_spec size 0) as [Q|Q]. { apply (same_step h os o l size cap mut c W VW). auto. }
        rewrite (size_here h os o l size cap mut c W VW). unfold set_cells. replace (is_sso o) with false by now rewrite EO. cbn [bind].
        destruct (putv h o 0 c) as [h1 o1] eqn:EP. destruct (put_block h os o l size cap mut c W VW _ _ _ _ EP) as (PB & _). rewrite EO in PB. cbn [own_loc] in PB. rewrite PB. cbn [bind].
        destruct (wrc_ok c 0 0) as (c1 & -> & L1 & N1); [lia|]. cbn [bind]. rewrite (put_store h os o l size cap mut c W VW _ _ c1 _ _ EP). cbn [bind].
        apply (put_step h os o l size cap mut c W VW 0 c1 []); auto; try lia; [|intros Q'; rewrite EO in Q'; discriminate].
        apply term_rep; [apply rep_nil|]. unfold terminated. rewrite N1. reflexivity.
      + destruct (init_sso_fresh h 0 ltac:(lia)) as (_ & F). pose proof (fresh_finish h os o 0 h _ _ [] (sop_ok m l SClear) W F (rep_nil _) eq_refl HS) as GF.
        unfold finish, replace_instance in GF. destruct (release h o) as [h'| | |]; cbn [bind] in *; auto.
  Qed.
  Lemma shrink_step : sstep h os (str_shrink m h o) (sop_ok m l SShrink).
  Proof.
    destruct Bnd as (B1 & B2 & B3 & B4 & B5 & R & R' & LL). assert (HS : sop_ok m l SShrink BL_SUCCESS l) by (left; auto).
    destruct o as [s0 c0|p] eqn:EO; rewrite <- EO in *; unfold str_shrink; rewrite EO at 1.
    - apply (same_step h os o l size cap mut c W VW). auto.
    - destruct (get_dyn p EO) as (im & G). rewrite G. cbn [bind]. destruct (mut_dyn p im EO G) as (-> & _). destruct (_ || _).
      + apply copy_replace_step; [lia|rewrite take_all by lia; auto|]. intros Q. right. split; auto. unfold s_demand. destruct Q; [now left|right; lia].
      + apply (same_step h os o l size cap mut c W VW). auto.
  Qed.
  Lemma make_mutable_step : sstep h os (str_make_mutable m h o) (sop_ok m l SMakeMutable).
  Proof.
    destruct Bnd as (B1 & B2 & B3 & B4 & B5 & R & R' & LL). assert (HS : sop_ok m l SMakeMutable BL_SUCCESS l) by (left; auto).
    destruct o as [s0 c0|p] eqn:EO; rewrite <- EO in *; unfold str_make_mutable; rewrite EO at 1.
    - apply (same_step h os o l size cap mut c W VW). auto.
    - destruct (get_dyn p EO) as (im & G). rewrite G. cbn [bind]. destruct (mut_dyn p im EO G) as (-> & _). destruct (is_impl_mutable im).
      + apply (same_step h os o l size cap mut c W VW). auto.
      + apply copy_replace_step; [lia|rewrite take_all by lia; auto|]. intros Q. right. split; auto. unfold s_demand. destruct Q; [now left|right; lia].
  Qed.
  Lemma reserve_step n : 0 <= n -> 17 + n < 2 ^ 64 -> sstep h os (str_reserve m h o n) (sop_ok m l (SReserve n)).
  Proof.
    intros N0 N1. destruct Bnd as (B1 & B2 & B3 & B4 & B5 & R & R' & LL). assert (HS : sop_ok m l (SReserve n) BL_SUCCESS l) by (left; auto). unfold max_bytes in *.
    unfold str_reserve. rewrite (v_unpack _ _ _ _ _ _ _ VW), (v_mut _ _ _ _ _ _ _ VW). cbn [bind]. destruct (_ <=? cap).
    { apply (same_step h os o l size cap mut c W VW). auto. }
    rewrite s_impl_ok by lia. destruct (dynamic_ok m h size (17 + Z.max size n) (Z.max size n)) as [(-> & I)|(h1 & n1 & d & -> & F)]; try lia; cbn [bind].
    { apply (oom_step h os o l size cap mut c W VW). right. split; auto. unfold s_demand. destruct I; [now left|right; lia]. }
    pose proof (fresh_size _ _ _ _ _ F) as (_ & DS). destruct (copy_ok size d 0 c l 0 R') as (d1 & E1 & L1 & ND); try lia.
    apply (fresh_step h os o l size cap mut c size h1 n1 d (fun src d => copy_cells (Z.to_nat size) d 0 src 0) d1 l); auto.
    - split; [lia|]. intros j J. rewrite ND. rep_t.
    - intros j J. rewrite ND. unfold len in *. rep_t.
  Qed.
  Lemma resize_step n b : 0 <= n < 2 ^ 64 -> sstep h os (str_resize m h o n b) (sop_ok m l (SResize n b)).
  Proof.
    intros N0. destruct Bnd as (B1 & B2 & B3 & B4 & B5 & R & R' & LL). unfold str_resize. rewrite (v_unpack _ _ _ _ _ _ _ VW). cbn [bind].
    assert (HO : m = false \/ 2 ^ 60 <= size + Z.max 0 (n - size) -> sop_ok m l (SResize n b) BL_ERROR_OUT_OF_MEMORY l).
    { intros Q. right. split; auto. unfold s_demand. destruct Q; [now left|right; lia]. }
    destruct (Z.leb_spec n size) as [Q|Q].
    - assert (HS : sop_ok m l (SResize n b) BL_SUCCESS (take l n)).
      { left. split; auto. cbn [spec_sop]. replace (Z.to_nat (n - len l)) with 0%nat by lia. cbn [repeat]. now rewrite app_nil_r. }
      destruct (Z.eqb_spec n size) as [QE|QE]. { apply (same_step h os o l size cap mut c W VW). rewrite take_all in HS by lia. exact HS. }
      rewrite (v_mut _ _ _ _ _ _ _ VW). cbn [bind]. destruct (Sumbool.sumbool_of_bool mut) as [M|M]; rewrite M; cbn [negb].
      + destruct o as [s0 c0|p] eqn:EO; rewrite <- EO in *.
        * pose proof (v_kind _ _ _ _ _ _ _ VW) as KD. rewrite EO in KD. destruct KD as (-> & -> & C14 & C15 & _ & NB).
          destruct (fill_ok (size - n) c n 0) as (c1 & -> & L1 & N1); try lia. cbn [bind].
          assert (E14 : nth_error c1 14 = Some (Some (Z.lxor size 14))) by (rewrite N1; replace (_ && _) with false by lia; exact NB).
          destruct (set_sso_ok c1 n _ ltac:(unfold len in *; lia) E14 (lxor14_land size ltac:(lia))) as (c2 & E2 & L2 & N2). rewrite E2. cbn [bind].
          apply (in_sso_step n c1 c2 (take l n)); auto; try lia; try (now rewrite EO).
          -- intros j J. rewrite take_length in J. rewrite N1. unfold len in *. replace (_ && _) with false by lia. rewrite R' by lia. rep_t.
          -- apply len_take. lia.
          -- intros _. rewrite N1. replace (_ && _) with true by lia. reflexivity.
        * rewrite (size_here h os o l size cap mut c W VW). unfold set_cells. replace (is_sso o) with false by now rewrite EO. cbn [bind].
          destruct (putv h o n c) as [h1 o1] eqn:EP. destruct (put_block h os o l size cap mut c W VW _ _ _ _ EP) as (-> & _). cbn [bind].
          destruct (wrc_ok c n 0) as (c1 & -> & L1 & N1); [lia|]. cbn [bind]. rewrite (put_store h os o l size cap mut c W VW _ _ c1 _ _ EP). cbn [bind].
          assert (LT : len (take l n) = n) by (apply len_take; lia).
          apply (put_step h os o l size cap mut c W VW n c1 (take l n)); auto; try lia; [|intros Q'; rewrite EO in Q'; discriminate].
          apply term_rep. 2:{ rewrite LT. unfold terminated. rewrite N1. replace (_ =? _) with true by lia. reflexivity. }
          intros j J. rewrite take_length in J. rewrite N1. unfold len in *. replace (_ =? _) with false by lia. rewrite R' by lia. rep_t.
      + apply copy_replace_step; auto; [lia|]. intros Q2. apply HO. destruct Q2; [now left|right; lia].
    - apply apply_char_gen; [lia| |].
      + left. split; auto. cbn [spec_sop]. rewrite take_all by lia. now rewrite <- B5.
      + intros Q2. apply HO. destruct Q2; [now left|right; lia].
  Qed.

  (* ---- remove ---- *)
  Lemma remove_step a e b : 0 <= a -> 0 <= e -> spec_sop l b = (let e' := Z.min e (len l) in l_replace l (Z.min a e') e' []) -> s_demand l b = len l ->
    sstep h os (str_remove_range m h o a e) (sop_ok m l b).
  Proof.
    intros A0 E0 SP DM. destruct Bnd as (B1 & B2 & B3 & B4 & B5 & R & R' & LL). unfold str_remove_range. rewrite (v_unpack _ _ _ _ _ _ _ VW). cbn [bind]. unfold max_bytes in *.
    rewrite <- B5 in SP. cbv zeta in SP. set (en := Z.min e size) in *. set (i := Z.min a en) in *. assert (IE : 0 <= i <= en /\ en <= size) by lia. set (n := en - i).
    set (l1 := l_replace l i en []) in *. assert (HS : sop_ok m l b BL_SUCCESS l1) by (left; auto).
    assert (LN : len l1 = size - n). { unfold l1, l_replace. rewrite !len_app, len_take, len_drop by lia. change (len (@nil Z)) with 0. lia. }
    destruct (Z.eqb_spec n 0) as [Q|Q].
    { apply (same_step h os o l size cap mut c W VW). replace l with l1 at 2; auto. unfold l1, l_replace. replace en with i by lia. cbn [app]. apply firstn_skipn. }
    assert (N1L : forall j, nth_error l1 j = if Z.of_nat j <? i then nth_error l j else nth_error l (j + Z.to_nat n)).
    { intros j. unfold l1, l_replace. cbn [app]. unfold len in *. nth_step. rewrite ltb_z. destruct (Z.ltb_spec (Z.of_nat j) i).
      - replace (_ <? _) with true by lia. replace (_ <? _)%nat with true by lia. reflexivity.
      - replace (_ <? _) with false by lia. f_equal. lia. }
    destruct o as [s0 c0|p] eqn:EO; rewrite <- EO in *.
    - pose proof (v_kind _ _ _ _ _ _ _ VW) as KD. rewrite EO in KD. destruct KD as (-> & -> & C14 & C15 & _ & NB). unfold move_own.
      destruct (copy_ok (size - en) c i c l (i + n) R') as (c1 & -> & L1 & N1); try lia. cbn [bind]. unfold kSSOCapacity.
      destruct (fill_ok (14 - (size - n)) c1 (size - n) 0) as (c2 & -> & L2 & N2); try (unfold len in *; lia). cbn [bind].
      assert (E14 : nth_error c2 14 = Some (Some (Z.lxor size 14))). { rewrite N2. replace (_ && _) with false by lia. rewrite N1. replace (_ && _) with false by lia. exact NB. }
      destruct (set_sso_ok c2 (size - n) _ ltac:(unfold len in *; lia) E14 (lxor14_land size ltac:(lia))) as (c3 & E3 & L3 & N3). rewrite E3. cbn [bind].
      apply (in_sso_step (size - n) c2 c3 l1); auto; try lia; try (now rewrite EO).
      + intros j J. rewrite N2, N1, N1L. unfold len in *. replace (_ && _) with false by lia. destruct (Z.ltb_spec (Z.of_nat j) i).
        * replace (_ && _) with false by lia. apply R'. lia.
        * replace (_ && _) with true by lia. f_equal. f_equal. lia.
      + intros Q2. rewrite N2. replace (_ && _) with true by lia. reflexivity.
    - destruct (get_dyn p EO) as (im & G). rewrite G. cbn [bind]. destruct (mut_dyn p im EO G) as (_ & IC & IM & ->). destruct (Sumbool.sumbool_of_bool mut) as [M|M]; rewrite M; cbn [negb].
      + rewrite IM. unfold move_own. destruct (copy_ok (size - en + 1) c i c L (i + n) R) as (c1 & -> & L1 & N1); try lia. cbn [bind].
        assert (E : putv h o (size - n) c1 = (put_impl h p (Impl (rc im) (base im) (size - n) (icap im) c1), o)).
        { rewrite EO. cbn [putv]. unfold get_impl in G. destruct (nth_error h p) as [[im'|]|]; try discriminate G. now injection G as ->. }
        assert (R1 : rep c1 (l1 ++ [0])).
        { intros j J. rewrite N1. rewrite app_length in J. cbn [length] in J. unfold len in *. destruct (Z.ltb_spec (Z.of_nat j) i).
          - replace (_ && _) with false by lia. rewrite R' by lia. rewrite nth_app. replace (_ <? _)%nat with true by lia. rewrite N1L. replace (_ <? _) with true by lia. reflexivity.
          - replace (_ && _) with true by lia. rewrite !nth_app, N1L. replace (_ <? i) with false by lia. destruct (Nat.ltb_spec j (length l1)).
            + replace (_ <? _)%nat with true by lia. f_equal. f_equal. lia.
            + replace (_ <? _)%nat with false by lia. f_equal. f_equal. lia. }
        pose proof (put_step h os o l size cap mut c W VW (size - n) c1 l1 BL_SUCCESS (sop_ok m l b) M R1 LN ltac:(lia) L1 ltac:(intros Q'; rewrite EO in Q'; discriminate) HS) as GS.
        rewrite E in GS. exact GS.
      + destruct (init_string_ok m h (size - n)) as [(-> & I)|(h1 & n1 & d & -> & F)]; try lia; cbn [bind].
        { apply (oom_step h os o l size cap mut c W VW). right. split; auto. rewrite DM. destruct I; [now left|right; lia]. }
        pose proof (fresh_size _ _ _ _ _ F) as (_ & DS). destruct (copy_ok i d 0 c l 0 R') as (d1 & E1 & L1 & N1); try lia.
        destruct (copy_ok (size - en) d1 i c l en R') as (d2 & E2 & L2 & N2); try (unfold len in *; lia).
        apply (fresh_step h os o l size cap mut c (size - n) h1 n1 d (fun src d => let* d := copy_cells (Z.to_nat i) d 0 src 0 in copy_cells (Z.to_nat (size - en)) d i src en) d2 l1); auto.
        * rewrite E1. exact E2.
        * split; [lia|]. intros j J. rewrite N2, N1. replace (_ && _) with false by lia. replace (_ && _) with false by lia. reflexivity.
        * intros j J. rewrite N2, N1, N1L. unfold len in *. destruct (Z.ltb_spec (Z.of_nat j) i).
          -- replace (_ && _) with false by lia. replace (_ && _) with true by lia. f_equal. f_equal. lia.
          -- replace (_ && _) with true by lia. f_equal. f_equal. lia.
  Qed.
End Calls.
