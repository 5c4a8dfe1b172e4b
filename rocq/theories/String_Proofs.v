(* The storage of a string before, during and after a call. *)
From Verif Require Import Base Bits IntOps_Model IntOps_Spec IntOps_Proofs Algorithm_Model Object_Model Object_Spec Object_Proofs Object_Proofs2
  BitArray_Model BitArray_Spec BitArray_Proofs3 Handle_Client Handle_Proofs Array_Model Array_Spec Array_Proofs Array_Proofs2 Array_Proofs3 Array_Proofs4 Array_Proofs5
  String_Model String_Spec.

Notation sstep := (hstep (ext := False) str_okI str_okS items []).

(* ---- positions ---- *)
Lemma len1 {A} (v : A) : len [v] = 1. Proof. reflexivity. Qed.
Lemma upd_spec (d : list cell) i v j : 0 <= i < len d -> nth_error (upd d (Z.to_nat i) (Some v)) j = if (i =? Z.of_nat j) then Some (Some v) else nth_error d j.
Proof.
  intros I. unfold len in I. destruct (Z.eqb_spec i (Z.of_nat j)) as [->|N].
  - rewrite Nat2Z.id. apply nth_upd_eq. lia.
  - apply nth_upd_neq. lia.
Qed.
Lemma wrc_ok d i v : 0 <= i < len d -> exists d', wrc d i v = Ok d' /\ length d' = length d /\ forall j, nth_error d' j = if (i =? Z.of_nat j) then Some (Some v) else nth_error d j.
Proof.
  intros I. rewrite wrc_some by (unfold len in I; lia). eexists. split; [reflexivity|]. split; [apply upd_len|]. intros j. now apply upd_spec.
Qed.
Lemma rep_snoc c l v : rep c l -> nth_error c (length l) = Some (Some v) -> rep c (l ++ [v]).
Proof.
  intros R T j J. rewrite app_length in J. cbn [length] in J. rewrite nth_app. destruct (Nat.ltb_spec j (length l)); [now apply R|].
  replace j with (length l) by lia. rewrite Nat.sub_diag. exact T.
Qed.
Lemma rep_app1 c l r : rep c (l ++ r) -> rep c l.
Proof. intros R j J. rewrite R by (rewrite app_length; lia). rewrite nth_app. replace (j <? length l)%nat with true by lia. reflexivity. Qed.
Lemma rep_term c l : rep c (l ++ [0]) -> terminated (len l) c.
Proof. intros R. unfold terminated, len. rewrite Nat2Z.id, R by (rewrite app_length; cbn; lia). rewrite nth_app, Nat.ltb_irrefl, Nat.sub_diag. reflexivity. Qed.
Lemma term_rep c l : rep c l -> terminated (len l) c -> rep c (l ++ [0]).
Proof. intros R T. apply rep_snoc; auto. unfold terminated, len in T. now rewrite Nat2Z.id in T. Qed.

(* ---- byte 14 of an SSO string ---- *)
Lemma z14 (P : Z -> Prop) n : 0 <= n <= 14 -> P 0 -> P 1 -> P 2 -> P 3 -> P 4 -> P 5 -> P 6 -> P 7 -> P 8 -> P 9 -> P 10 -> P 11 -> P 12 -> P 13 -> P 14 -> P n.
Proof.
  intros N. intros. assert (n = 0 \/ n = 1 \/ n = 2 \/ n = 3 \/ n = 4 \/ n = 5 \/ n = 6 \/ n = 7 \/ n = 8 \/ n = 9 \/ n = 10 \/ n = 11 \/ n = 12 \/ n = 13 \/ n = 14) as Q by lia.
  repeat (destruct Q as [->|Q]; [assumption|]). now subst.
Qed.
Lemma lxor14_land n : 0 <= n <= 14 -> Z.land (Z.lxor n 14) 0xC0 = 0.
Proof. intros N. revert N. intros N. apply (z14 (fun n => Z.land (Z.lxor n 14) 0xC0 = 0)); auto. Qed.
Lemma sso_size_ok c n : nth_error c 14 = Some (Some (Z.lxor n 14)) -> sso_size c = n.
Proof. intros E. unfold sso_size. rewrite E. unfold kSSOCapacity. now rewrite Z.lxor_assoc, Z.lxor_nilpotent, Z.lxor_0_r. Qed.
Lemma sso_of_ok c n : nth_error c 14 = Some (Some (Z.lxor n 14)) -> sso_of c = Sso n c.
Proof. intros E. unfold sso_of. now rewrite (sso_size_ok c n). Qed.
(* byte 14 may be overwritten as the terminator before the size is set *)
Lemma set_sso_ok c n b : len c = 15 -> nth_error c 14 = Some (Some b) -> Z.land b 0xC0 = 0 ->
  exists c', set_sso_size c n = Ok c' /\ length c' = length c /\ forall j, nth_error c' j = if 14 =? Z.of_nat j then Some (Some (Z.lxor n 14)) else nth_error c j.
Proof.
  intros L E B. unfold set_sso_size. rewrite (rdc_some c 14 b) by (auto; lia). cbn [bind]. rewrite B, Z.lor_0_l. unfold kSSOCapacity. apply wrc_ok. lia.
Qed.

(* ---- what the functions see of [self] ---- *)
Record view (h : heap) (o : obj) (l : list Z) (size cap : Z) (mut : bool) (c : list cell) : Prop := View {
  v_unpack : s_unpack h o = Ok (own_loc o, size, cap);
  v_size : get_size h o = Ok size;
  v_block : block h o (own_loc o) = Ok c;
  v_mut : is_instance_mutable h o = Ok mut;
  v_val : str_value h o = l;
  v_rep : rep c (l ++ [0]);
  v_len : len l = size;
  v_cap : size <= cap;
  v_capc : cap + 1 <= len c;
  v_bytes : cap + 1 <= max_bytes;
  v_kind : match o with Sso s c' => s = size /\ c' = c /\ cap = 14 /\ len c = 15 /\ mut = true /\ nth_error c 14 = Some (Some (Z.lxor size 14))
           | Dyn p => exists im, nth_error h p = Some (Some im) /\ isize im = size /\ icap im = cap /\ mem im = c /\ mut = (rc im =? 1) end;
  v_scap : s_cap h o = cap;
  v_amut : amutable h o <-> mut = true }.

Lemma view_of h os o : str_wf h (o :: os) -> exists size cap mut c, view h o (str_value h o) size cap mut c.
Proof.
  intros W. destruct o as [s c|p].
  - pose proof (wf_sso _ _ _ _ _ _ W) as (S1 & L & N & I & T). destruct (init_rep s c ltac:(lia) I) as (R & Ln).
    assert (HV : str_value h (Sso s c) = items s c) by reflexivity. exists s, 14, true, c. rewrite HV.
    constructor; auto; cbn [s_unpack get_size block own_loc is_instance_mutable s_cap amutable]; auto; try lia.
    + apply term_rep; auto. now rewrite Ln.
    + unfold max_bytes. lia.
    + intuition.
  - destruct (wf_get _ _ _ _ _ W) as (im & E & G & (S1 & S2 & S3 & I & T) & _). destruct (init_rep (isize im) (mem im) ltac:(lia) I) as (R & Ln).
    assert (HV : str_value h (Dyn p) = items (isize im) (mem im)) by (unfold str_value, value; now rewrite E).
    exists (isize im), (icap im), (rc im =? 1), (mem im). rewrite HV.
    constructor; auto; cbn [s_unpack get_size block own_loc is_instance_mutable s_cap amutable]; rewrite ?G, ?E; cbn [bind]; auto; try lia.
    + apply term_rep; auto. now rewrite Ln.
    + exists im. auto.
Qed.
Lemma view_in h os x : str_wf h os -> In x os -> exists size cap mut c, view h x (str_value h x) size cap mut c.
Proof.
  intros W I. destruct (in_split _ _ I) as (l1 & l2 & ->). apply (view_of h (l1 ++ l2)). apply wf_at. exact W.
Qed.

(* [self] with new size and cells, in place *)
Definition putv (h : heap) (o : obj) (size : Z) (c : list cell) : heap * obj :=
  match o with
  | Sso _ _ => (h, sso_of c)
  | Dyn p => match nth_error h p with
             | Some (Some im) => (put_impl h p (Impl (rc im) (base im) size (icap im) c), o)
             | _ => (h, o)
             end
  end.
(* byte 14 tells the size *)
Definition sized (o : obj) (c : list cell) (n : Z) : Prop := is_sso o = true -> nth_error c 14 = Some (Some (Z.lxor n 14)).
Definition set_cells (o : obj) (c : list cell) (n : Z) : outcome (list cell) := if is_sso o then set_sso_size c n else Ok c.

Section Self.
  Context (h : heap) (os : list obj) (o : obj) (l : list Z) (size cap : Z) (mut : bool) (c : list cell)
          (W : str_wf h (o :: os)) (VW : view h o l size cap mut c).

  Lemma bounds : 0 <= size <= cap /\ cap + 1 <= max_bytes /\ size + 1 <= len c /\ cap + 1 <= len c /\ size = len l /\ rep c (l ++ [0]) /\ rep c l /\ len (l ++ [0]) = size + 1.
  Proof.
    pose proof (v_len _ _ _ _ _ _ _ VW). pose proof (len_nonneg l). pose proof (v_cap _ _ _ _ _ _ _ VW). pose proof (v_capc _ _ _ _ _ _ _ VW).
    pose proof (v_bytes _ _ _ _ _ _ _ VW). pose proof (v_rep _ _ _ _ _ _ _ VW) as R. pose proof (rep_app1 _ _ _ R).
    rewrite len_app, len1. repeat split; auto; lia.
  Qed.
  Lemma sso_facts : is_sso o = true -> cap = 14 /\ len c = 15 /\ mut = true /\ nth_error c 14 = Some (Some (Z.lxor size 14)).
  Proof. pose proof (v_kind _ _ _ _ _ _ _ VW) as KD. destruct o; [|discriminate]. intuition. Qed.
  Lemma put_self : putv h o size c = (h, o).
  Proof.
    pose proof (v_kind _ _ _ _ _ _ _ VW) as KD. destruct o as [s c'|p]; cbn [putv].
    - destruct KD as (-> & -> & _ & _ & _ & N). now rewrite (sso_of_ok c size).
    - destruct KD as (im & E & <- & <- & <- & _). rewrite E. f_equal. unfold put_impl. destruct im as [r0 b0 s0 k0 m0]; cbn [rc base isize icap mem].
      clear - E. revert p E. induction h as [|x h' IH]; intros [|p] E; cbn in *; auto; [congruence|]. f_equal. now apply IH.
  Qed.
  Lemma put_store s1 c1 c2 h1 o1 : putv h o s1 c1 = (h1, o1) -> s_store h1 o1 c2 = Ok (putv h o s1 c2).
  Proof.
    pose proof (v_kind _ _ _ _ _ _ _ VW) as KD. destruct o as [s c'|p]; cbn [putv]. { intros E. injection E as <- <-. reflexivity. }
    destruct KD as (im & E & _). rewrite E. intros Q. injection Q as <- <-. cbn [s_store store]. unfold get_impl, put_impl.
    assert (L : (p < length h)%nat) by (apply nth_error_Some; congruence).
    rewrite nth_upd_eq by auto. cbn [bind rc base isize icap]. now rewrite upd_upd.
  Qed.
  Lemma put_size s1 c1 s2 h1 o1 : putv h o s1 c1 = (h1, o1) -> s_set_size h1 o1 s2 = let* c2 := set_cells o c1 s2 in Ok (putv h o s2 c2).
  Proof.
    pose proof (v_kind _ _ _ _ _ _ _ VW) as KD. destruct o as [s c'|p]; cbn [putv]. { intros E. injection E as <- <-. reflexivity. }
    destruct KD as (im & E & _). rewrite E. intros Q. injection Q as <- <-. cbn [s_set_size set_cells is_sso bind]. unfold get_impl, put_impl.
    assert (L : (p < length h)%nat) by (apply nth_error_Some; congruence).
    rewrite nth_upd_eq by auto. cbn [bind rc base isize icap mem]. now rewrite upd_upd.
  Qed.
  Lemma put_block s1 c1 h1 o1 : putv h o s1 c1 = (h1, o1) -> block h1 o1 (own_loc o) = Ok c1 /\ own_loc o1 = own_loc o /\ is_sso o1 = is_sso o.
  Proof.
    pose proof (v_kind _ _ _ _ _ _ _ VW) as KD. destruct o as [s c'|p]; cbn [putv]. { intros E. injection E as <- <-. auto. }
    destruct KD as (im & E & _). rewrite E. intros Q. injection Q as <- <-. cbn [block own_loc]. unfold get_impl, put_impl.
    assert (L : (p < length h)%nat) by (apply nth_error_Some; congruence).
    rewrite nth_upd_eq by auto. auto.
  Qed.
  Lemma store_here c2 : s_store h o c2 = Ok (putv h o size c2). Proof. apply (put_store size c). apply put_self. Qed.
  Lemma size_here s2 : s_set_size h o s2 = let* c2 := set_cells o c s2 in Ok (putv h o s2 c2). Proof. apply (put_size size c). apply put_self. Qed.
  (* set_size after the text was written: [b] is what byte 14 holds *)
  Lemma set_cells_ok c1 n : 0 <= n <= cap -> length c1 = length c -> (is_sso o = true -> exists b, nth_error c1 14 = Some (Some b) /\ Z.land b 0xC0 = 0) ->
    exists c2, set_cells o c1 n = Ok c2 /\ length c2 = length c /\ sized o c2 n /\
      forall j, nth_error c2 j = if is_sso o && (14 =? Z.of_nat j) then Some (Some (Z.lxor n 14)) else nth_error c1 j.
  Proof.
    intros N L HB. unfold set_cells, sized. destruct (is_sso o) eqn:S1.
    - destruct (sso_facts S1) as (_ & L15 & _). destruct (HB eq_refl) as (b & E & B).
      destruct (set_sso_ok c1 n b ltac:(unfold len in *; lia) E B) as (c2 & -> & LL & NN). exists c2. split; auto. split; [lia|]. split; auto. intros _. rewrite NN. reflexivity.
    - exists c1. split; auto. split; auto. split; auto. discriminate.
  Qed.
  Lemma self_byte : is_sso o = true -> exists b, nth_error c 14 = Some (Some b) /\ Z.land b 0xC0 = 0.
  Proof. intros S1. pose proof bounds as (B1 & _). destruct (sso_facts S1) as (C14 & _ & _ & E). eexists. split; [exact E|]. apply lxor14_land. lia. Qed.

  (* a mutable string may be changed in place *)
  Lemma put_wf s1 c1 l1 h1 o1 : putv h o s1 c1 = (h1, o1) -> mut = true -> rep c1 (l1 ++ [0]) -> len l1 = s1 -> s1 <= cap -> length c1 = length c -> sized o c1 s1 ->
    str_wf h1 (o1 :: os) /\ (forall x, In x os -> str_value h1 x = str_value h x) /\ str_value h1 o1 = l1.
  Proof.
    intros EP M R L1 C1 LC SZ. pose proof (v_kind _ _ _ _ _ _ _ VW) as KD. pose proof bounds as (B1 & B2 & B3 & B4 & _).
    pose proof (len_nonneg l1). pose proof (rep_term _ _ R) as RT. pose proof (rep_app1 _ _ _ R) as R'. pose proof (rep_init _ _ R') as RI. pose proof (rep_items _ _ R') as RV.
    rewrite L1 in *. unfold sized in SZ. destruct o as [s c'|p]; cbn [putv] in EP.
    - destruct KD as (-> & -> & KC & LK & _). injection EP as <- <-. specialize (SZ eq_refl). rewrite (sso_of_ok c1 s1) by auto. split; [|split]; auto.
      eapply sso_swap_ok; [exact W|]. split; [lia|]. split; [unfold len in *; lia|]. auto.
    - destruct KD as (im & E & Es & Ec & Em & MM). rewrite E in EP. injection EP as <- <-.
      destruct (update_ok str_okI str_okS items [] h os p im s1 (icap im) c1 W E) as (W' & O' & N').
      { apply Z.eqb_eq. congruence. }
      { split; [lia|]. split; [unfold len in *; lia|]. split; [lia|]. auto. }
      split; auto. split; auto. unfold str_value. rewrite N'. exact RV.
  Qed.
  Lemma put_step s1 c1 l1 code (P : Z -> list Z -> Prop) : mut = true -> rep c1 (l1 ++ [0]) -> len l1 = s1 -> s1 <= cap -> length c1 = length c -> sized o c1 s1 ->
    P code l1 -> sstep h os (let '(h1, o1) := putv h o s1 c1 in Ok (code, h1, o1)) P.
  Proof.
    intros M R L1 C1 LC SZ HP. destruct (putv h o s1 c1) as [h1 o1] eqn:E. destruct (put_wf s1 c1 l1 h1 o1 E) as (W1 & O1 & V1); auto.
    exists code, h1, o1. split; auto. split; auto. split; auto. fold str_value. now rewrite V1.
  Qed.
  Lemma same_step code (P : Z -> list Z -> Prop) : P code l -> sstep h os (Ok (code, h, o)) P.
  Proof. intros HP. apply hstep_same; auto. change (P code (str_value h o)). now rewrite (v_val _ _ _ _ _ _ _ VW). Qed.
End Self.

(* ---- fresh storage ---- *)
Definition fresh (h : heap) (size : Z) (h1 : heap) (n : obj) (d : list cell) : Prop :=
  0 <= size /\ terminated size d /\
  ((n = Dyn (length h) /\ exists cap, h1 = h ++ [Some (Impl 1 1 size cap d)] /\ size <= cap /\ cap + 1 <= len d /\ cap + 1 <= max_bytes) \/
   (h1 = h /\ n = Sso size d /\ len d = 15 /\ size <= 14 /\ nth_error d 14 = Some (Some (Z.lxor size 14)))).

Lemma fresh_size h size h1 n d : fresh h size h1 n d -> 0 <= size /\ size + 1 <= len d.
Proof. intros (S0 & T & [(_ & cap & _ & A & B & _)|(_ & _ & A & B & _)]); lia. Qed.
Lemma fresh_block h size h1 n d : fresh h size h1 n d -> block h1 n (own_loc n) = Ok d.
Proof.
  intros (_ & _ & [(-> & cap & -> & _)|(-> & -> & _)]); cbn [block own_loc]; auto. unfold get_impl. rewrite nth_snoc, Nat.eqb_refl. reflexivity.
Qed.
(* text is written in front of the terminator *)
Definition keeps (size : Z) (d d' : list cell) : Prop := length d' = length d /\ forall j, size <= Z.of_nat j -> nth_error d' j = nth_error d j.
Lemma keeps_term size d d' : 0 <= size -> keeps size d d' -> terminated size d -> terminated size d'.
Proof. intros S0 (_ & K) T. unfold terminated in *. rewrite K by lia. exact T. Qed.
Lemma fresh_fill h size h1 n d d' (f : list cell -> outcome (list cell)) : fresh h size h1 n d -> f d = Ok d' -> keeps size d d' ->
  exists h2 n2, fill_new h1 n f = Ok (h2, n2) /\ fresh h size h2 n2 d'.
Proof.
  intros F FD K. unfold fill_new. rewrite (fresh_block _ _ _ _ _ F). cbn [bind]. rewrite FD. cbn [bind].
  destruct F as (S0 & T & CS). pose proof (keeps_term _ _ _ S0 K T) as T'. destruct K as (L & K).
  destruct CS as [(-> & cap & -> & A & B & C)|(-> & -> & A & B & C)]; cbn [s_store].
  - rewrite store_new. eexists _, _. split; [reflexivity|]. split; auto. split; auto. left. split; auto. exists cap. unfold len in *. repeat split; auto. lia.
  - assert (C' : nth_error d' 14 = Some (Some (Z.lxor size 14))) by (rewrite K; auto; lia).
    rewrite (sso_of_ok d' size) by auto. eexists _, _. split; [reflexivity|]. split; auto. split; auto. right. unfold len in *. repeat split; auto. lia.
Qed.
Lemma fresh_nth h size h1 n d p im : fresh h size h1 n d -> nth_error h p = Some (Some im) -> nth_error h1 p = Some (Some im).
Proof.
  intros (_ & _ & [(-> & cap & -> & _)|(-> & _)]) E; auto. rewrite nth_snoc. destruct (Nat.eqb_spec p (length h)) as [->|N]; auto.
  assert (length h < length h)%nat by (apply nth_error_Some; congruence). lia.
Qed.
Lemma fresh_self h o l sz cap mut c size h1 n d : view h o l sz cap mut c -> fresh h size h1 n d -> block h1 o (own_loc o) = Ok c.
Proof.
  intros VW F. pose proof (v_kind _ _ _ _ _ _ _ VW) as KD. destruct o as [s c'|p].
  - destruct KD as (_ & -> & _). auto.
  - destruct KD as (im & E & _ & _ & <- & _). cbn [block own_loc]. unfold get_impl. rewrite (fresh_nth _ _ _ _ _ _ _ F E). auto.
Qed.
Lemma fresh_finish h os o size h2 n d l1 (P : Z -> list Z -> Prop) : str_wf h (o :: os) -> fresh h size h2 n d -> rep d l1 -> len l1 = size -> P BL_SUCCESS l1 ->
  sstep h os (finish h2 o n) P.
Proof.
  intros W (S0 & T & F) R L HP. pose proof (rep_init _ _ R) as RI. pose proof (rep_items _ _ R) as RV. rewrite L in *. unfold finish.
  destruct F as [(-> & cap & -> & A & B & C)|(-> & -> & A & B & C)].
  - apply (hstep_new str_okI str_okS); auto. { split; [lia|]. auto. } now rewrite RV.
  - apply (hstep_to_sso str_okI str_okS); auto. { split; [lia|]. auto. } now rewrite RV.
Qed.
(* allocate, fill, replace *)
Lemma fresh_step h os o l sz cap mut c size h1 n d (f : list cell -> list cell -> outcome (list cell)) d' l1 (P : Z -> list Z -> Prop) :
  str_wf h (o :: os) -> view h o l sz cap mut c -> fresh h size h1 n d -> f c d = Ok d' -> keeps size d d' -> rep d' l1 -> len l1 = size -> P BL_SUCCESS l1 ->
  sstep h os (let* src := block h1 o (own_loc o) in let* (h2, newO) := fill_new h1 n (f src) in finish h2 o newO) P.
Proof.
  intros W VW F FD K R L HP. rewrite (fresh_self _ _ _ _ _ _ _ _ _ _ _ VW F). cbn [bind].
  destruct (fresh_fill _ _ _ _ _ _ _ F FD K) as (h2 & n2 & -> & F2). cbn [bind]. eapply fresh_finish; eauto.
Qed.

(* ---- allocation ---- *)
Lemma s_impl_ok n : 0 <= n -> 17 + n < 2 ^ 64 -> s_impl_size n = 17 + n.
Proof. intros N B. unfold s_impl_size, sizeof_BLStringImpl. rewrite w64_small; lia. Qed.
Definition init_res (m : bool) (h : heap) (size need : Z) (r : outcome (option (heap * obj))) : Prop :=
  (r = Ok None /\ (m = false \/ 2 ^ 60 <= need)) \/
  (exists h1 n d, r = Ok (Some (h1, n)) /\ fresh h size h1 n d).
Lemma dynamic_ok (m : bool) h size s need : 0 <= size <= need -> 17 + need <= s -> s < 2 ^ 64 -> (s <= 2 ^ 62 \/ 2 ^ 60 <= need) ->
  init_res m h size need (s_init_dynamic m h s size).
Proof.
  intros N0 N2 S1 RB. unfold s_init_dynamic, BL_OBJECT_IMPL_MAX_SIZE, sizeof_BLStringImpl. change ((2 ^ 64 - 1) / 2 - 4096) with (2 ^ 63 - 4097).
  destruct m; cbn [andb]; [|left; auto]. destruct (Z.leb_spec s (2 ^ 63 - 4097)) as [Q|Q]; [|left; split; auto; right; lia]. right.
  destruct (wrc_ok (repeat None (Z.to_nat (s - 16))) size 0) as (d & -> & L & N). { unfold len. rewrite repeat_length. lia. } cbn [bind].
  rewrite repeat_length in L. eexists _, _, d. split; [reflexivity|]. split; [lia|]. split. { unfold terminated. rewrite N. replace (size =? _) with true by lia. reflexivity. }
  left. split; auto. unfold s_capacity, sizeof_BLStringImpl. rewrite w64_small by lia. eexists. split; [reflexivity|]. unfold len, max_bytes. lia.
Qed.
Lemma expand_dynamic_ok (m g : bool) h size need : 0 <= size <= need -> 17 + need < 2 ^ 64 ->
  exists s, expand_impl_size_with_modify_op (s_impl_size need) g = Ok s /\ init_res m h size need (s_init_dynamic m h s size).
Proof.
  intros N0 N2. rewrite s_impl_ok by lia. unfold expand_impl_size_with_modify_op. destruct g.
  - destruct (expand_ok (17 + need) ltac:(lia)) as (s & E & B & _). exists s. split; auto. apply dynamic_ok; auto; try lia.
    destruct (Z.lt_ge_cases need (2 ^ 60)); [|now right]. left. pose proof (expand_bound (17 + need) s ltac:(lia) E). lia.
  - eexists. split; [reflexivity|]. apply dynamic_ok; auto; lia.
Qed.
Lemma sso_cells_nth n j : nth_error (sso_cells n) j = if (j <? 14)%nat then Some (Some 0) else if (j =? 14)%nat then Some (Some (Z.lxor n 14)) else None.
Proof. unfold sso_cells. do 15 (destruct j as [|j]; [reflexivity|]). destruct j; reflexivity. Qed.
Lemma init_sso_fresh h n : 0 <= n <= 14 -> init_sso n = Sso n (sso_cells n) /\ fresh h n h (init_sso n) (sso_cells n).
Proof.
  intros N. assert (E : init_sso n = Sso n (sso_cells n)). { unfold init_sso. apply sso_of_ok. now rewrite sso_cells_nth. }
  split; auto. rewrite E. split; [lia|]. split.
  - unfold terminated. rewrite sso_cells_nth. destruct (Z.eq_dec n 14) as [->|]; [reflexivity|]. replace (Z.to_nat n <? 14)%nat with true by lia. reflexivity.
  - right. split; auto. split; auto. split; [reflexivity|]. split; [lia|]. now rewrite sso_cells_nth.
Qed.
Lemma init_string_ok (m : bool) h n : 0 <= n -> 17 + n < 2 ^ 64 -> init_res m h n n (init_string m h n n).
Proof.
  intros N0 N2. unfold init_string, kSSOCapacity. destruct (Z.leb_spec n 14).
  - right. destruct (init_sso_fresh h n ltac:(lia)) as (_ & F). eexists _, _, _. split; [reflexivity|exact F].
  - rewrite s_impl_ok by auto. apply dynamic_ok; auto; lia.
Qed.

(* ---- the handle is in place, text is still to be written in front of the terminator ---- *)
Definition opened (h : heap) (os : list obj) (h1 : heap) (o1 : obj) (sz : Z) (c1 : list cell) : Prop :=
  block h1 o1 (own_loc o1) = Ok c1 /\ sz + 1 <= len c1 /\
  forall c2 l2, keeps sz c1 c2 -> rep c2 l2 -> len l2 = sz ->
    exists h2 o2, s_store h1 o1 c2 = Ok (h2, o2) /\ str_wf h2 (o2 :: os) /\ (forall x, In x os -> str_value h2 x = str_value h x) /\ str_value h2 o2 = l2.

Lemma opened_step h os h1 o1 sz c1 c2 l2 code (P : Z -> list Z -> Prop) : opened h os h1 o1 sz c1 -> keeps sz c1 c2 -> rep c2 l2 -> len l2 = sz ->
  P code l2 -> sstep h os (let* (h2, self) := s_store h1 o1 c2 in Ok (code, h2, self)) P.
Proof.
  intros (B & S1 & F) L R Z0 HP. destruct (F c2 l2 L R Z0) as (h2 & o2 & X & W & O & V). rewrite X. cbn [bind].
  exists code, h2, o2. split; auto. split; auto. split; auto. fold str_value. now rewrite V.
Qed.
Lemma fresh_opened h os o size h2 n d : str_wf h (o :: os) -> fresh h size h2 n d -> exists h3, release h2 o = Ok h3 /\ opened h os h3 n size d.
Proof.
  intros W F. pose proof (fresh_size _ _ _ _ _ F) as (_ & SZ). destruct (release_ok str_okI str_okS items [] _ _ _ W) as (h' & R & W1 & V1). fold str_wf in W1. destruct F as (S0 & T & F).
  destruct F as [(-> & cap & -> & A & B & C)|(-> & -> & A & B & C)].
  - destruct (release_app _ _ (Some (Impl 1 1 size cap d)) _ R) as (R1 & LH). exists (h' ++ [Some (Impl 1 1 size cap d)]). split; auto.
    split; [|split]; [|lia|].
    + cbn [block own_loc]. unfold get_impl. rewrite nth_snoc, LH, Nat.eqb_refl. reflexivity.
    + intros c2 l2 K R2 Z0. cbn [s_store]. rewrite <- LH. rewrite store_new. eexists _, _. split; [reflexivity|].
      destruct (alloc_ok str_okI str_okS items [] h' os size cap c2 W1) as (W2 & V2 & N2).
      { pose proof (rep_init _ _ R2) as RI. pose proof (keeps_term _ _ _ S0 K T). destruct K as (L & K). rewrite Z0 in *. split; [lia|]. split; [unfold len in *; lia|]. auto. }
      split; [exact W2|]. split.
      * intros x I. unfold str_value. rewrite V2 by auto. now apply V1.
      * unfold str_value. rewrite N2. rewrite <- Z0. now apply rep_items.
  - exists h'. split; auto. split; [reflexivity|]. split; [lia|]. intros c2 l2 K R2 Z0. cbn [s_store].
    assert (C' : nth_error c2 14 = Some (Some (Z.lxor size 14))) by (destruct K as (_ & K); rewrite K; auto; lia).
    rewrite (sso_of_ok c2 size) by auto. eexists _, _. split; [reflexivity|]. split; [|split].
    + apply wf_tail_sso; auto. pose proof (rep_init _ _ R2) as RI. pose proof (keeps_term _ _ _ S0 K T). destruct K as (L & K). rewrite Z0 in *. split; [lia|]. split; [unfold len in *; lia|]. auto.
    + intros x I. now apply V1.
    + unfold str_value, value. rewrite <- Z0. now apply rep_items.
Qed.
Lemma put_opened h os o l size cap mut c s1 c1 h1 o1 : str_wf h (o :: os) -> view h o l size cap mut c -> putv h o s1 c1 = (h1, o1) -> mut = true ->
  0 <= s1 <= cap -> length c1 = length c -> sized o c1 s1 -> terminated s1 c1 -> opened h os h1 o1 s1 c1.
Proof.
  intros W VW EP M S1 LC SZ T. destruct (put_block _ _ _ _ _ _ _ _ W VW _ _ _ _ EP) as (PB & EL & _). pose proof (bounds _ _ _ _ _ _ _ VW) as (B1 & B2 & B3 & B4 & _).
  split; [now rewrite EL|]. split; [unfold len in *; lia|]. intros c2 l2 K R2 Z2. rewrite (put_store _ _ _ _ _ _ _ _ W VW _ _ c2 _ _ EP).
  pose proof (keeps_term _ _ _ (proj1 S1) K T) as T2. destruct K as (LK & K).
  destruct (putv h o s1 c2) as [h2 o2] eqn:E2. exists h2, o2. split; auto.
  apply (put_wf _ _ _ _ _ _ _ _ W VW s1 c2 l2 h2 o2 E2 M); auto; try lia. { apply term_rep; auto. now rewrite Z2. }
  intros Q. specialize (SZ Q). rewrite K; auto. pose proof (sso_facts _ _ _ _ _ _ _ _ W VW Q). lia.
Qed.
