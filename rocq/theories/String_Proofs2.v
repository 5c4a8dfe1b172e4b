(* modify_and_copy, insert_and_copy, modify_op, insert_op. *)
From Verif Require Import Base Bits IntOps_Model IntOps_Spec IntOps_Proofs Algorithm_Model Object_Model Object_Spec Object_Proofs Object_Proofs2
  BitArray_Model BitArray_Spec BitArray_Proofs3 Handle_Client Handle_Proofs Array_Model Array_Spec Array_Proofs Array_Proofs2 Array_Proofs3 Array_Proofs4 Array_Proofs5
  String_Model String_Spec String_Proofs.

(* ---- reading through a pointer ---- *)
Definition readable (L : list Z) (s : src) (n : Z) : Prop :=
  0 <= n /\ match s with SExt _ e => n <= len e | SIn i => 0 <= i /\ i + n <= len L end.
Lemma read_len L s n : readable L s n -> len (src_items L s n) = n.
Proof.
  intros (N & V). unfold src_items. destruct s as [off e|i].
  - apply len_take. lia.
  - rewrite len_take; [lia|]. rewrite len_drop; lia.
Qed.
Lemma copy_to_ok L c n d di s : rep c L -> readable L s n -> 0 <= di -> di + n <= len d ->
  exists d', copy_to n d di (Ok c) s = Ok d' /\ length d' = length d /\
    forall j, nth_error d' j = if (di <=? Z.of_nat j) && (Z.of_nat j <? di + n) then option_map Some (nth_error (src_items L s n) (j - Z.to_nat di)) else nth_error d j.
Proof.
  intros R (N0 & SV) D0 D1. destruct s as [off e|i]; cbn [copy_to src_items bind].
  - destruct (copy_ok n d di (map Some e) e 0 (rep_map e)) as (d' & E & LL & N); try lia. exists d'. split; auto. split; auto.
    intros j. rewrite N. destruct (_ && _) eqn:Q; auto. rep_t.
  - destruct (copy_ok n d di c L i R) as (d' & E & LL & N); try lia. exists d'. split; auto. split; auto.
    intros j. rewrite N. destruct (_ && _) eqn:Q; auto. rep_t.
Qed.
Lemma move_own_ok L c n di s : rep c L -> readable L s n -> 0 <= di -> di + n <= len c ->
  exists d', move_own n c di s = Ok d' /\ length d' = length c /\
    forall j, nth_error d' j = if (di <=? Z.of_nat j) && (Z.of_nat j <? di + n) then option_map Some (nth_error (src_items L s n) (j - Z.to_nat di)) else nth_error c j.
Proof. exact (copy_to_ok L c n c di s). Qed.

(* ---- strlen ---- *)
Lemma strlen_ok : forall t fuel c i n, (forall j, (j < length t)%nat -> nth_error c (Z.to_nat i + j) = option_map Some (nth_error t j)) -> 0 <= i ->
  In 0 t -> (length t <= fuel)%nat -> strlen_loop fuel c i n = Ok (n + len (cstr t)).
Proof.
  induction t as [|x t IH]; intros fuel c i n R I HI F; [destruct HI|]. destruct fuel as [|fuel]; [cbn in F; lia|]. cbn [strlen_loop cstr].
  pose proof (R 0%nat ltac:(cbn; lia)) as R0. cbn in R0. rewrite Nat.add_0_r in R0. rewrite (rdc_some c i x I R0). cbn [bind].
  destruct (Z.eqb_spec x 0) as [->|N]. { unfold len. cbn. f_equal. lia. }
  rewrite (IH fuel c (i + 1) (n + 1)); try lia.
  - f_equal. unfold len. cbn [length]. lia.
  - intros j J. specialize (R (S j) ltac:(cbn; lia)). cbn in R. rewrite <- R. f_equal. lia.
  - destruct HI; [congruence|auto].
  - cbn in F. lia.
Qed.
Lemma cstr_take t : cstr t = take t (len (cstr t)) /\ len (cstr t) <= len t.
Proof.
  induction t as [|x t (IH1 & IH2)]; [now cbn|]. cbn [cstr]. destruct (x =? 0). { split; [reflexivity|]. unfold len. cbn. lia. }
  unfold len, take in *. cbn [length]. rewrite Nat2Z.id in *. cbn [firstn]. split; [now f_equal|lia].
Qed.
Lemma arg_ok h o l size cap mut c s n : view h o l size cap mut c -> text_valid h o l s n ->
  exists k, arg_size (Ok c) s n = Ok k /\ src_text l s n = src_items (l ++ [0]) s k /\ readable (l ++ [0]) s k /\ k <= max_bytes /\ len (src_text l s n) = k.
Proof.
  intros VW TV. pose proof (bounds _ _ _ _ _ _ _ VW) as (B1 & B2 & B3 & B4 & B5 & R & R' & L1). unfold arg_size, src_text, readable.
  destruct (Z.eqb_spec n (2 ^ 64 - 1)) as [->|N].
  - destruct s as [off e|i]; cbn [text_valid src_strlen] in *; rewrite ?Z.eqb_refl in TV.
    + destruct TV as (E1 & _ & I0). destruct (cstr_take e) as (CT & CL). exists (len (cstr e)). split; [|split; [|split; [|split]]]; auto.
      * rewrite (strlen_ok e) by (auto; try lia; intros j J; now rewrite nth_error_map). reflexivity.
      * split; [apply len_nonneg|lia].
      * lia.
    + destruct TV as (I0 & _). destruct (cstr_take (drop (l ++ [0]) i)) as (CT & CL). rewrite len_drop in CL by lia.
      exists (len (cstr (drop (l ++ [0]) i))). split; [|split; [|split; [|split]]]; auto.
      * cbn [bind]. rewrite (strlen_ok (drop (l ++ [0]) i)); auto; try lia.
        -- intros j J. rewrite nth_drop. apply R. rewrite drop_length in J. lia.
        -- apply nth_error_In with (n := Z.to_nat (size - i)). unfold len in *. rewrite nth_drop, nth_app. replace (_ <? _)%nat with false by lia.
           replace (_ - _)%nat with 0%nat by lia. reflexivity.
        -- rewrite drop_length. unfold len in *. lia.
      * split; [apply len_nonneg|lia].
      * lia.
  - assert (Q : readable (l ++ [0]) s n /\ n <= max_bytes).
    { unfold readable. destruct s as [off e|i]; cbn [text_valid] in TV; replace (n =? 2 ^ 64 - 1) with false in TV by lia; lia. }
    destruct Q as (Q1 & Q2). exists n. split; auto. split; [destruct s; reflexivity|]. split; auto. split; auto.
    transitivity (len (src_items (l ++ [0]) s n)); [destruct s; reflexivity|now apply read_len].
Qed.

Lemma max_size n : (s_maximum_size < n -> 2 ^ 60 <= n) /\ (n <= s_maximum_size -> n <= 2 ^ 63 - 4114).
Proof. assert (E : s_maximum_size = 2 ^ 63 - 4114) by reflexivity. rewrite E. lia. Qed.

(* the bytes at and behind [size] *)
Ltac keep_t := split; [congruence || lia|intros j J; unfold len in *; repeat match goal with N : forall j, nth_error ?d j = _ |- context [nth_error ?d _] => rewrite N end; rep_t].

Section Calls.
  Context (m : bool) (h : heap) (os : list obj) (o : obj) (l : list Z) (size cap : Z) (mut : bool) (c : list cell)
          (W : str_wf h (o :: os)) (VW : view h o l size cap mut c).
  Notation L := (l ++ [0]).
  Let Bnd : 0 <= size <= cap /\ cap + 1 <= max_bytes /\ size + 1 <= len c /\ cap + 1 <= len c /\ size = len l /\ rep c L /\ rep c l /\ len L = size + 1.
  Proof. exact (bounds h o l size cap mut c VW). Qed.

  Lemma oom_step (P : Z -> list Z -> Prop) : P BL_ERROR_OUT_OF_MEMORY l -> sstep h os (Ok (BL_ERROR_OUT_OF_MEMORY, h, o)) P.
  Proof. apply (same_step h os o l size cap mut c W VW). Qed.

  (* write behind [index], terminate, set the size: in place *)
  Lemma in_place_step c1 c2 x op (P : Z -> list Z -> Prop) : let index := if is_assign op then 0 else size in let sa := index + len x in
    mut = true -> sa <= cap -> length c1 = length c ->
    (forall j, nth_error c1 j = if (index <=? Z.of_nat j) && (Z.of_nat j <? sa) then option_map Some (nth_error x (j - Z.to_nat index)) else nth_error c j) ->
    wrc c1 sa 0 = Ok c2 -> P BL_SUCCESS (put op l x) ->
    sstep h os (if is_sso o then
                  let* c := set_sso_size c2 sa in
                  let* c := if is_assign op then fill_cells (Z.to_nat (kSSOCapacity - sa)) c sa 0 else Ok c in
                  Ok (BL_SUCCESS, h, sso_of c)
                else let* (h1, self) := s_store h o c2 in let* (h2, self) := s_set_size h1 self sa in Ok (BL_SUCCESS, h2, self)) P.
  Proof.
    intros index sa M FIT L1 N1 E2 HP. destruct Bnd as (B1 & B2 & B3 & B4 & B5 & R & R' & LL). pose proof (len_nonneg x) as X0.
    assert (I0 : 0 <= index <= size) by (subst index; destruct (is_assign op); lia).
    destruct (wrc_ok c1 sa 0) as (c2' & E2' & L2 & N2); [unfold len in *; lia|]. rewrite E2 in E2'. injection E2' as <-.
    assert (LP : len (put op l x) = sa). { unfold put. subst sa index. destruct (is_assign op); rewrite ?len_app; lia. }
    assert (RP : rep c2 (put op l x ++ [0])).
    { apply term_rep. 2:{ unfold terminated. rewrite LP, N2. replace (sa =? _) with true by lia. reflexivity. }
      intros j J. rewrite N2, N1. unfold put in *. subst sa index. unfold len in *.
      destruct (is_assign op); rewrite ?app_length in *.
      - rep_t.
      - destruct (Z.eqb_spec (size + Z.of_nat (length x)) (Z.of_nat j)); [rep_t|]. destruct (_ && _) eqn:Q; [rep_t|]. rewrite R' by lia. rep_t. }
    destruct (is_sso o) eqn:SO.
    - destruct (sso_facts h os o l size cap mut c W VW SO) as (C14 & C15 & _ & NB).
      assert (HB : exists b, nth_error c2 14 = Some (Some b) /\ Z.land b 0xC0 = 0).
      { rewrite N2, N1. destruct (Z.eqb_spec sa (Z.of_nat 14)); [now exists 0|]. replace (_ && _) with false by lia. eexists. split; [exact NB|]. apply lxor14_land. lia. }
      destruct HB as (b & HB1 & HB2). destruct (set_sso_ok c2 sa b ltac:(unfold len in *; lia) HB1 HB2) as (c3 & -> & L3 & N3). cbn [bind].
      assert (R3 : rep c3 (put op l x ++ [0])).
      { intros j J. rewrite N3. rewrite app_length in J. cbn [length] in J. unfold len in LP, X0. destruct (Z.eqb_spec 14 (Z.of_nat j)) as [Q|Q]; [|apply RP; rewrite app_length; cbn; lia].
        assert (sa = 14) by lia. replace sa with 14. rewrite nth_app. replace (_ <? _)%nat with false by lia. replace (_ - _)%nat with 0%nat by lia. reflexivity. }
      assert (G : exists c4, (if is_assign op then fill_cells (Z.to_nat (kSSOCapacity - sa)) c3 sa 0 else Ok c3) = Ok c4 /\ length c4 = length c /\ rep c4 (put op l x ++ [0]) /\ nth_error c4 14 = Some (Some (Z.lxor sa 14))).
      { destruct (is_assign op).
        - unfold kSSOCapacity. destruct (fill_ok (14 - sa) c3 sa 0) as (c4 & -> & L4 & N4); try (unfold len in *; lia). exists c4. split; auto. split; [lia|]. split.
          + intros j J. rewrite N4. rewrite app_length in J. cbn [length] in J. unfold len in *. destruct (_ && _) eqn:Q; [|apply R3; rewrite app_length; cbn; lia].
            rewrite nth_app. replace (_ <? _)%nat with false by lia. replace (_ - _)%nat with 0%nat by lia. reflexivity.
          + rewrite N4. replace (_ && _) with false by lia. now rewrite N3.
        - exists c3. split; auto. split; [lia|]. split; auto. now rewrite N3. }
      destruct G as (c4 & -> & L4 & R4 & N4). cbn [bind].
      assert (E : (h, sso_of c4) = putv h o sa c4) by (destruct o; [reflexivity|discriminate SO]).
      pose proof (put_step h os o l size cap mut c W VW sa c4 _ BL_SUCCESS P M R4 LP FIT L4 (fun _ => N4) HP) as G. rewrite <- E in G. exact G.
    - rewrite (store_here h os o l size cap mut c W VW). cbn [bind]. destruct (putv h o size c2) as [h1 o1] eqn:EP.
      rewrite (put_size h os o l size cap mut c W VW _ _ sa _ _ EP). unfold set_cells. rewrite SO. cbn [bind].
      apply (put_step h os o l size cap mut c W VW sa c2 (put op l x)); auto; try lia. intros Q. congruence.
  Qed.

  Lemma modify_gen op s n (P : Z -> list Z -> Prop) : readable L s n -> n <= max_bytes ->
    (does_grow op = false -> (if is_assign op then 0 else size) + n <= 14 -> mut = true /\ (if is_assign op then 0 else size) + n <= cap) ->
    P BL_SUCCESS (put op l (src_items L s n)) -> (m = false \/ 2 ^ 60 <= size + n -> P BL_ERROR_OUT_OF_MEMORY l) ->
    sstep h os (modify_and_copy m h o op s n) P.
  Proof.
    intros RD NM NS HS HO. destruct Bnd as (B1 & B2 & B3 & B4 & B5 & R & R' & LL). pose proof (read_len _ _ _ RD) as XL. set (x := src_items L s n) in *.
    unfold modify_and_copy. rewrite (v_unpack _ _ _ _ _ _ _ VW), (v_mut _ _ _ _ _ _ _ VW). cbn [bind].
    set (index := if is_assign op then 0 else size) in *. assert (I0 : 0 <= index <= size) by (subst index; destruct (is_assign op); lia). pose proof (proj1 RD) as N0.
    unfold max_bytes in *. rewrite sat_ok by lia. rewrite Z.min_l by lia. set (sa := index + n) in *. rewrite lor_msk_lt by lia.
    destruct (mut && (sa <=? cap)) eqn:FIT; cbn [negb].
    - apply andb_true_iff in FIT as (M & FIT). apply Z.leb_le in FIT. rewrite (v_block _ _ _ _ _ _ _ VW). cbn [bind].
      destruct (move_own_ok L c n index s R RD) as (c1 & -> & L1 & N1); try lia. cbn [bind]. fold x in N1.
      destruct (wrc_ok c1 sa 0) as (c2 & E2 & L2 & N2); [unfold len in *; lia|]. rewrite E2. cbn [bind].
      subst sa. rewrite <- XL in *. apply (in_place_step c1 c2 x op P); auto.
    - destruct (Z.ltb_spec s_maximum_size sa) as [MX|MX]. { apply oom_step, HO. right. apply max_size in MX. lia. }
      apply max_size in MX. assert (SC : (sa <=? kSSOCapacity) && negb (does_grow op) = false).
      { unfold kSSOCapacity. destruct (does_grow op) eqn:G; [now rewrite andb_false_r|]. cbn [negb]. rewrite andb_true_r. apply Z.leb_gt.
        destruct (Z.le_gt_cases sa 14) as [Q|]; auto. destruct (NS eq_refl Q) as (M & Q2). rewrite M in FIT. cbn [andb] in FIT. lia. }
      rewrite SC. destruct (expand_dynamic_ok m (does_grow op) h sa sa) as (sz & -> & I); try lia. cbn [bind].
      destruct I as [(-> & I)|(h1 & n1 & d & -> & F)]; cbn [bind]. { apply oom_step, HO. destruct I; [now left|right; lia]. }
      pose proof (fresh_size _ _ _ _ _ F) as (_ & DS).
      destruct (copy_ok index d 0 c l 0 R') as (d1 & E1 & L1 & N1); try lia.
      destruct (copy_to_ok L c n d1 index s R RD) as (d2 & E2 & L2 & N2); try (unfold len in *; lia). fold x in N2.
      apply (fresh_step h os o l size cap mut c sa h1 n1 d (fun src d => let* d := copy_cells (Z.to_nat index) d 0 src 0 in copy_to n d index (Ok src) s) d2 (put op l x)); auto.
      + rewrite E1. exact E2.
      + split; [lia|]. intros j J. rewrite N2, N1. unfold len in *. rep_t.
      + intros j J. rewrite N2, N1. unfold put in *. subst index sa. unfold len in *. destruct (is_assign op); rewrite ?app_length in *; rep_t.
      + unfold put. subst sa index. destruct (is_assign op); rewrite ?len_app; lia.
  Qed.

  (* ---- insert_and_copy ---- *)
  Lemma insert_gen i s n (P : Z -> list Z -> Prop) : 0 <= i <= size -> readable L s n -> n <= max_bytes ->
    (match s with SExt off e => n = 0 \/ off + n <= 0 \/ cap <= off | SIn _ => True end) ->
    P BL_SUCCESS (l_insert l i (src_items L s n)) -> (m = false \/ 2 ^ 60 <= size + n -> P BL_ERROR_OUT_OF_MEMORY l) ->
    sstep h os (insert_and_copy m h o i s n) P.
  Proof.
    intros I0 RD NM OV HS HO. destruct Bnd as (B1 & B2 & B3 & B4 & B5 & R & R' & LL). pose proof (read_len _ _ _ RD) as XL. set (x := src_items L s n) in *.
    unfold insert_and_copy. rewrite (v_unpack _ _ _ _ _ _ _ VW), (v_mut _ _ _ _ _ _ _ VW). cbn [bind].
    pose proof (proj1 RD) as N0. unfold max_bytes in *. rewrite sat_ok by lia. rewrite Z.min_l by lia. rewrite (w64_small (i + n)) by lia. rewrite lor_msk_lt by lia.
    assert (LI : len (l_insert l i x) = size + n) by (unfold l_insert; rewrite !len_app, len_take, len_drop by lia; lia).
    destruct (mut && (size + n <=? cap)) eqn:FIT; cbn [negb].
    - apply andb_true_iff in FIT as (M & FIT). apply Z.leb_le in FIT. rewrite (size_here h os o l size cap mut c W VW).
      destruct (set_cells_ok h os o l size cap mut c W VW c (size + n) ltac:(lia) eq_refl (self_byte h os o l size cap mut c W VW)) as (c0 & -> & L0 & SZ & NC0). cbn [bind].
      destruct (putv h o (size + n) c0) as [h1 o1] eqn:EP. destruct (put_block h os o l size cap mut c W VW _ _ _ _ EP) as (-> & EL & _). cbn [bind].
      (* when the text gets longer, byte 14 is not one of the old text *)
      assert (R0 : rep c0 L).
      { intros j J. rewrite NC0. unfold len in *. destruct (is_sso o && (14 =? Z.of_nat j)) eqn:Q; [|now apply R]. apply andb_true_iff in Q as (SO & Q).
        pose proof (sso_facts h os o l size cap mut c W VW SO) as (C14 & _ & _ & NB). rewrite app_length in *. cbn [length] in *. assert (size = 14 /\ n = 0) as (-> & ->) by lia.
        rewrite Z.add_0_r. rewrite <- R by (rewrite app_length; cbn; lia). replace j with 14%nat by lia. now rewrite NB. }
      unfold move_own at 1. destruct (copy_ok (size - i + 1) c0 (i + n) c0 L i R0) as (c1 & -> & L1 & N1); try (unfold len in *; lia). cbn [bind].
      assert (FINAL : forall c2, length c2 = length c0 -> (forall j, nth_error c2 j = if (i <=? Z.of_nat j) && (Z.of_nat j <? i + n) then option_map Some (nth_error x (j - Z.to_nat i)) else nth_error c1 j) ->
        sstep h os (let* (h2, self) := s_store h1 o1 c2 in Ok (BL_SUCCESS, h2, self)) P).
      { intros c2 L2 N2. rewrite (put_store h os o l size cap mut c W VW _ _ c2 _ _ EP). cbn [bind].
        apply (put_step h os o l size cap mut c W VW _ c2 (l_insert l i x)); auto; try lia.
        - intros j J. rewrite N2, N1. unfold l_insert in *. rewrite !app_length, take_length, drop_length in J. cbn [length] in J. unfold len in *.
          destruct ((i <=? Z.of_nat j) && (Z.of_nat j <? i + n)) eqn:Q1; [rep_t|].
          destruct ((i + n <=? Z.of_nat j) && (Z.of_nat j <? i + n + (size - i + 1))) eqn:Q2; [rep_t|]. rewrite R0 by (rewrite app_length; cbn; lia). rep_t.
        - intros SO. specialize (SZ SO). destruct (sso_facts h os o l size cap mut c W VW SO) as (C14 & C15 & _ & NB). rewrite N2. replace (_ && _) with false by lia. rewrite N1.
          destruct (_ && _) eqn:Q; auto. assert (E14 : size + n = 14) by lia. rewrite E14. rewrite nth_app. unfold len in *. replace (_ <? _)%nat with false by lia. replace (_ - _)%nat with 0%nat by lia. reflexivity. }
      assert (E0 : forall c' di s', copy_own 0 c' di s' = Ok c') by (intros ? ? [? ?|?]; reflexivity).
      destruct s as [off e|k].
      + destruct RD as (_ & EL1). cbn [src_off]. assert (XE : x = take e n) by reflexivity.
        destruct (Z.ltb_spec off i) as [LO|LO].
        * destruct (Z.eq_dec n 0) as [N00|N00].
          { replace (Z.min (i - off) n) with 0 by lia. rewrite E0. cbn [bind]. replace (n - 0) with 0 by lia. rewrite E0. cbn [bind]. apply FINAL; auto. intros j. replace (_ && _) with false by lia. reflexivity. }
          assert (OFN : off + n <= 0) by lia. replace (Z.min (i - off) n) with n by lia. cbn [copy_own].
          destruct (copy_ok n c1 i (map Some e) e 0 (rep_map e)) as (c2 & -> & L2 & N2); try (unfold len in *; lia). cbn [bind].
          rewrite Z.sub_diag. cbn [src_add]. set (s2 := if src_off 1 _ <? _ then _ else _).
          change (match s2 with SExt _ l0 => copy_cells (Z.to_nat 0) c2 (i + n) (map Some l0) 0 | SIn i0 => if (0 <? 0) && (i0 <? i + n + 0) && (i + n <? i0 + 0) then UB else copy_cells (Z.to_nat 0) c2 (i + n) c2 i0 end) with (copy_own 0 c2 (i + n) s2).
          rewrite E0. cbn [bind]. apply FINAL; [lia|]. intros j. rewrite N2, XE. destruct (_ && _) eqn:Q1; auto. rep_t.
        * rewrite E0. cbn [bind src_add src_off]. rewrite Z.add_0_r, Z.sub_0_r. change (Z.to_nat 0) with 0%nat. cbn [skipn]. rewrite Z.mul_0_l, Z.add_0_r.
          destruct (Z.eq_dec n 0) as [N00|N00]. { replace (copy_own n c1 i) with (copy_own 0 c1 i) by (now rewrite N00). rewrite E0. cbn [bind]. apply FINAL; auto. intros j. replace (_ && _) with false by lia. reflexivity. }
          assert (C1 : cap <= off) by lia. replace (off <? size + n) with false by lia. cbn [copy_own].
          destruct (copy_ok n c1 i (map Some e) e 0 (rep_map e)) as (c2 & -> & L2 & N2); try (unfold len in *; lia). cbn [bind]. apply FINAL; [lia|].
          intros j. rewrite N2, XE. destruct (_ && _) eqn:Q1; auto. rep_t.
      + destruct RD as (_ & K0 & K1). cbn [src_off]. rewrite !Z.mul_1_r. assert (XE : x = take (drop L k) n) by reflexivity.
        set (lead := if k <? i then Z.min (i - k) n else 0). assert (LEAD : lead = Z.min (Z.max (i - k) 0) n) by (subst lead; destruct (Z.ltb_spec k i); lia).
        clearbody lead. cbn [copy_own src_add src_off]. rewrite !Z.mul_1_r.
        assert (RL : rep c1 (take L i)). { intros j J. rewrite take_length in J. rewrite N1. unfold len in *. replace (_ && _) with false by lia. rewrite R0 by lia. rewrite nth_take. replace (_ <? _)%nat with true by lia. reflexivity. }
        replace ((0 <? lead) && (k <? i + lead) && (i <? k + lead)) with false by lia.
        assert (HC : exists c2, copy_cells (Z.to_nat lead) c1 i c1 k = Ok c2 /\ length c2 = length c1 /\
           forall j, nth_error c2 j = if (i <=? Z.of_nat j) && (Z.of_nat j <? i + lead) then option_map Some (nth_error L (j - Z.to_nat i + Z.to_nat k)) else nth_error c1 j).
        { destruct (Z.eq_dec lead 0) as [->|NZ].
          - exists c1. split; [reflexivity|]. split; auto. intros j. replace (_ && _) with false by lia. reflexivity.
          - destruct (copy_ok lead c1 i c1 (take L i) k RL) as (c2 & E & LL2 & N2); try lia. { rewrite len_take; lia. } { unfold len in *; lia. }
            exists c2. split; auto. split; auto. intros j. rewrite N2. destruct (_ && _) eqn:Q1; auto. rewrite nth_take. replace (_ <? _)%nat with true by lia. reflexivity. }
        destruct HC as (c2 & -> & L2 & N2). cbn [bind].
        assert (XN : forall j, (j < Z.to_nat n)%nat -> nth_error x j = nth_error L (j + Z.to_nat k)).
        { intros j J. rewrite XE, nth_take, nth_drop. replace (_ <? _)%nat with true by lia. f_equal. lia. }
        destruct (Z.eq_dec n lead) as [EL'|EL'].
        { rewrite EL', Z.sub_diag. set (s2 := if _ <? _ then _ else _).
          change (match s2 with SExt _ l0 => copy_cells (Z.to_nat 0) c2 (i + lead) (map Some l0) 0 | SIn i0 => if (0 <? 0) && (i0 <? i + lead + 0) && (i + lead <? i0 + 0) then UB else copy_cells (Z.to_nat 0) c2 (i + lead) c2 i0 end) with (copy_own 0 c2 (i + lead) s2).
          rewrite E0. cbn [bind]. apply FINAL; [lia|]. intros j. rewrite N2, <- EL'. destruct (_ && _) eqn:Q1; auto. rewrite XN by lia. reflexivity. }
        destruct (Z.ltb_spec (k + lead) (size + n)) as [KN|KN].
        2:{ exfalso. lia. }
        (* the part behind the insertion point has moved by n *)
        assert (HD : exists c3, copy_cells (Z.to_nat (n - lead)) c2 (i + lead) c2 (k + lead + n) = Ok c3 /\ length c3 = length c2 /\
           forall j, nth_error c3 j = if (i + lead <=? Z.of_nat j) && (Z.of_nat j <? i + n) then option_map Some (nth_error L (j - Z.to_nat i + Z.to_nat k)) else nth_error c2 j).
        { destruct (copy_cells_ok (Z.to_nat (n - lead)) c2 (i + lead) c2 (k + lead + n)) as (c3 & E & LL3 & N3); try (unfold len in *; lia).
          { intros j J. rewrite N2. unfold len in *. replace (_ && _) with false by lia. rewrite N1. replace (_ && _) with true by lia.
            destruct (nth_some L (Z.to_nat j - Z.to_nat (i + n) + Z.to_nat i)) as (v & ->); [lia|]. now exists v. }
          exists c3. split; auto. split; auto. intros j. specialize (N3 (Z.of_nat j) ltac:(lia)). rewrite Nat2Z.id in N3. rewrite N3.
          replace ((i + lead <=? Z.of_nat j) && (Z.of_nat j <? i + lead + Z.of_nat (Z.to_nat (n - lead)))) with ((i + lead <=? Z.of_nat j) && (Z.of_nat j <? i + n)) by lia. clear N3.
          destruct ((i + lead <=? Z.of_nat j) && (Z.of_nat j <? i + n)) eqn:Q1; auto. rewrite N2. unfold len in *. replace (_ && _) with false by lia. rewrite N1. replace (_ && _) with true by lia. f_equal. f_equal. lia. }
        cbn [copy_own].
        replace ((0 <? n - lead) && (k + lead + n <? i + lead + (n - lead)) && (i + lead <? k + lead + n + (n - lead))) with false by lia.
        destruct HD as (c3 & -> & L3 & N3). cbn [bind]. apply FINAL; [lia|]. intros j. rewrite N3, N2.
        destruct ((i <=? Z.of_nat j) && (Z.of_nat j <? i + n)) eqn:Q0.
        * rewrite XN by lia. destruct ((i + lead <=? Z.of_nat j) && (Z.of_nat j <? i + n)) eqn:Q1; auto. replace (_ && _) with true by lia. reflexivity.
        * replace ((i + lead <=? Z.of_nat j) && (Z.of_nat j <? i + n)) with false by lia. replace (_ && _) with false by lia. reflexivity.
    - destruct (Z.ltb_spec s_maximum_size (size + n)) as [MX|MX]. { apply oom_step, HO. right. apply max_size in MX. lia. }
      apply max_size in MX. destruct (expand_dynamic_ok m true h (size + n) (size + n)) as (sz & E & I); try lia. cbn [expand_impl_size_with_modify_op] in E. rewrite E. cbn [bind].
      destruct I as [(-> & I)|(h1 & n1 & d & -> & F)]; cbn [bind]. { apply oom_step, HO. destruct I; [now left|right; lia]. }
      pose proof (fresh_size _ _ _ _ _ F) as (_ & DS).
      destruct (copy_ok i d 0 c l 0 R') as (d1 & E1 & L1 & N1); try lia.
      destruct (copy_ok (size - i) d1 (i + n) c l i R') as (d2 & E2 & L2 & N2); try (unfold len in *; lia).
      destruct (copy_to_ok L c n d2 i s R RD) as (d3 & E3 & L3 & N3); try (unfold len in *; lia). fold x in N3.
      apply (fresh_step h os o l size cap mut c (size + n) h1 n1 d (fun src d => let* d := copy_cells (Z.to_nat i) d 0 src 0 in
          let* d := copy_cells (Z.to_nat (size - i)) d (i + n) src i in copy_to n d i (Ok src) s) d3 (l_insert l i x)); auto.
      + rewrite E1. cbn [bind]. rewrite E2. exact E3.
      + split; [lia|]. intros j J. rewrite N3, N2, N1. unfold len in *. rep_t.
      + intros j J. rewrite N3, N2, N1. unfold l_insert in *. rewrite !app_length, take_length, drop_length in J. unfold len in *. rep_t.
  Qed.
End Calls.
