(* Proofs about the tag tables: the hash lookups are exact, the tag test accepts exactly printable tags. *)
From Verif Require Import Base Bits TagData_Model TagData_Spec.
Ltac Zify.zify_post_hook ::= idtac.

Lemma rd_in {A} (l : list A) i : 0 <= i < Z.of_nat (length l) ->
  exists x, rd l i = Ok x /\ nth_error l (Z.to_nat i) = Some x.
Proof.
  intros H. unfold rd. destruct (Z.ltb_spec i 0); [lia|].
  destruct (nth_error l (Z.to_nat i)) as [x|] eqn:E; [eauto|]. apply nth_error_None in E. lia.
Qed.

Definition below (n : Z) (l : list Z) : bool := forallb (fun x => (0 <=? x) && (x <? n)) l.
Lemma below_ok n l i x : below n l = true -> nth_error l i = Some x -> 0 <= x < n.
Proof.
  intros H E. apply nth_error_In in E. unfold below in H. rewrite forallb_forall in H.
  specialize (H _ E). apply andb_prop in H as [A B]. apply Z.leb_le in A. apply Z.ltb_lt in B. lia.
Qed.

(* one probe: hash, read the index, read the tag *)
Lemma probe (hash tags : list Z) m s w t :
  0 <= s <= 32 -> w = 2 ^ (32 - s) -> Z.of_nat (length hash) = w ->
  below (Z.of_nat (length tags)) hash = true ->
  exists i u, rd hash (Z.shiftr (w32 (t * m)) s) = Ok i /\ rd tags i = Ok u /\
              0 <= i /\ nth_error tags (Z.to_nat i) = Some u.
Proof.
  intros Hs -> Hl Hb.
  assert (R : 0 <= Z.shiftr (w32 (t * m)) s < Z.of_nat (length hash)).
  { rewrite Hl. rewrite Z.shiftr_div_pow2 by lia.
    assert (B : 0 <= w32 (t * m) < 2 ^ 32) by (unfold w32; apply Z.mod_pos_bound; reflexivity).
    assert (0 < 2 ^ s) by (apply Z.pow_pos_nonneg; lia).
    split; [apply Z.div_pos; lia|]. apply Z.div_lt_upper_bound; [lia|].
    rewrite <- Z.pow_add_r by lia. replace (s + (32 - s)) with 32 by lia. lia. }
  destruct (rd_in hash _ R) as (i & E1 & N1). pose proof (below_ok _ _ _ _ Hb N1) as Bi.
  destruct (rd_in tags i ltac:(lia)) as (u & E2 & N2). exists i, u. repeat split; auto. lia.
Qed.

Fixpoint increasingb (l : list Z) : bool :=
  match l with
  | [] => true
  | x :: r => match r with [] => true | y :: _ => x <? y end && increasingb r
  end.
Lemma increasingb_ok l : increasingb l = true -> increasing l.
Proof.
  induction l as [|x r IH]; cbn; auto. intros H. apply andb_prop in H as [A B]. split; auto.
  destruct r; auto. apply Z.ltb_lt; auto.
Qed.

Definition ok_is (o : outcome Z) (i : Z) : bool := match o with Ok x => x =? i | _ => false end.
Fixpoint hits (f : Z -> outcome Z) (tags : list Z) (i : Z) : bool :=
  match tags with
  | [] => true
  | t :: r => ok_is (f t) i && hits f r (i + 1)
  end.
Lemma hits_ok f tags : forall i, hits f tags i = true ->
  forall k t, nth_error tags k = Some t -> f t = Ok (i + Z.of_nat k).
Proof.
  induction tags as [|t r IH]; intros i H k u E; [destruct k; discriminate|].
  cbn in H. apply andb_prop in H as [A B]. destruct k as [|k].
  - cbn in E. injection E as <-. unfold ok_is in A. destruct (f t); try discriminate.
    apply Z.eqb_eq in A. subst. f_equal. lia.
  - cbn in E. rewrite (IH _ B _ _ E). f_equal. lia.
Qed.

Lemma exact (f : Z -> outcome Z) (tags : list Z) :
  hits f tags 0 = true ->
  (forall t, exists r, f t = Ok r /\ (r = kInvalidId \/ (0 <= r /\ nth_error tags (Z.to_nat r) = Some t))) ->
  forall t, exists r, f t = Ok r /\ tag_id tags t r.
Proof.
  intros Hh Hs t. destruct (Hs t) as (r & E & C). exists r. split; auto.
  destruct C as [->|C]; [|left; auto].
  destruct (in_dec Z.eq_dec t tags) as [I|I].
  - apply In_nth_error in I as [k Ek]. pose proof (hits_ok _ _ _ Hh _ _ Ek) as E'.
    rewrite E in E'. injection E' as ->. left. split; [lia|]. rewrite Nat2Z.id. exact Ek.
  - right. split; auto.
Qed.

Ltac probe1 tags h m s :=
  let i := fresh "i" in let u := fresh "u" in let E := fresh "E" in let E' := fresh "E" in
  let P := fresh "P" in let N := fresh "N" in
  match goal with |- context [Z.shiftr (w32 (?t * m)) s] =>
    destruct (probe h tags m s (Z.of_nat (length h)) t) as (i & u & E & E' & P & N);
      [lia|vm_compute; reflexivity|reflexivity|vm_compute; reflexivity|];
      cbv zeta; rewrite E; cbn [bind]; rewrite ?E'; cbn [bind]
  end.

Lemma table_exact t : exists r, table_tag_to_id t = Ok r /\ tag_id table_id_to_tag_table t r.
Proof.
  apply exact; [vm_compute; reflexivity|]. clear t. intros t. unfold table_tag_to_id.
  probe1 table_id_to_tag_table table_hash_table 907879475 25.
  destruct (Z.eqb_spec u t) as [->|N1], (Z.eqb_spec t 1886545264) as [->|N2]; eexists; split; try reflexivity; auto;
    right; split; try lia; vm_compute; reflexivity.
Qed.

Lemma script_exact t : exists r, script_tag_to_id t = Ok r /\ tag_id script_id_to_tag_table t r.
Proof.
  apply exact; [vm_compute; reflexivity|]. clear t. intros t. unfold script_tag_to_id.
  probe1 script_id_to_tag_table script_hash_table 516816048 24.
  probe1 script_id_to_tag_table script_hash_table 670046653 24. rewrite ?E0; cbn [bind].
  destruct (Z.eqb_spec u t) as [->|N1], (Z.eqb_spec u0 t) as [->|N2]; eexists; split; try reflexivity; auto.
Qed.

Lemma language_exact t : exists r, language_tag_to_id t = Ok r /\ tag_id language_id_to_tag_table t r.
Proof.
  apply exact; [vm_compute; reflexivity|]. clear t. intros t. unfold language_tag_to_id.
  probe1 language_id_to_tag_table language_hashTable1 78747468 22.
  probe1 language_id_to_tag_table language_hashTable2 3168659 23. rewrite ?E0; cbn [bind].
  destruct (Z.eqb_spec u t) as [->|N1], (Z.eqb_spec u0 t) as [->|N2]; eexists; split; try reflexivity; auto.
Qed.

Lemma feature_exact t : exists r, feature_tag_to_id t = Ok r /\ tag_id feature_id_to_tag_table t r.
Proof.
  apply exact; [vm_compute; reflexivity|]. clear t. intros t. unfold feature_tag_to_id.
  probe1 feature_id_to_tag_table feature_hashTable1 1174536694 24.
  probe1 feature_id_to_tag_table feature_hashTable2 46218148 26. rewrite ?E0; cbn [bind].
  destruct (Z.eqb_spec u t) as [->|N1], (Z.eqb_spec u0 t) as [->|N2]; eexists; split; try reflexivity; auto.
Qed.

Lemma baseline_exact t : exists r, baseline_tag_to_id t = Ok r /\ tag_id baseline_id_to_tag_table t r.
Proof.
  apply exact; [vm_compute; reflexivity|]. clear t. intros t. unfold baseline_tag_to_id.
  probe1 baseline_id_to_tag_table baseline_hash_table 3145789 28.
  destruct (Z.eqb_spec u t) as [->|N1]; eexists; split; try reflexivity; auto.
Qed.

Lemma variation_exact t : exists r, variation_tag_to_id t = Ok r /\ tag_id variation_id_to_tag_table t r.
Proof.
  apply exact; [vm_compute; reflexivity|]. clear t. intros t. unfold variation_tag_to_id.
  probe1 variation_id_to_tag_table variation_hash_table 119 29.
  destruct (Z.eqb_spec u t) as [->|N1]; eexists; split; try reflexivity; auto.
Qed.

(* is_valid_tag *)

Lemma land_80 x : 0 <= x < 2 ^ 32 -> Z.land x 2155905152 = 0 <->
  (x mod 256 < 128 /\ x / 256 mod 256 < 128 /\ x / 65536 mod 256 < 128 /\ x / 16777216 mod 256 < 128).
Proof.
  intros Hx.
  assert (T : forall k, 0 <= k -> Z.testbit x (k + 7) = negb (x / 2 ^ k mod 256 <? 128)).
  { intros k Hk. rewrite <- (Z.shiftr_div_pow2 x k) by lia. replace (k + 7) with (7 + k) by lia. rewrite <- Z.shiftr_spec by lia.
    set (y := Z.shiftr x k). assert (Y : 0 <= y mod 256 < 256) by (apply Z.mod_pos_bound; lia).
    replace (Z.testbit y 7) with (Z.testbit (y mod 2 ^ 8) 7) by (rewrite Z.mod_pow2_bits_low; [reflexivity|lia]).
    change (2 ^ 8) with 256. set (z := y mod 256) in *. clearbody z.
    rewrite Z.testbit_odd, Z.shiftr_div_pow2 by lia. change (2 ^ 7) with 128.
    destruct (Z.ltb_spec z 128).
    - rewrite Z.div_small by lia. reflexivity.
    - replace (z / 128) with 1; [reflexivity|]. apply Z.div_unique with (z - 128); lia. }
  pose proof (T 0 ltac:(lia)) as T0. pose proof (T 8 ltac:(lia)) as T1. pose proof (T 16 ltac:(lia)) as T2.
  pose proof (T 24 ltac:(lia)) as T3. clear T.
  change (2 ^ 0) with 1 in T0. rewrite Z.div_1_r in T0. change (2 ^ 8) with 256 in T1.
  change (2 ^ 16) with 65536 in T2. change (2 ^ 24) with 16777216 in T3. 
  change (0 + 7) with 7 in T0. change (8 + 7) with 15 in T1. change (16 + 7) with 23 in T2. change (24 + 7) with 31 in T3.
  assert (E : Z.land x 2155905152 = 0 <-> (Z.testbit x 7 = false /\ Z.testbit x 15 = false /\ Z.testbit x 23 = false /\ Z.testbit x 31 = false)).
  { split.
    - intros H.
      assert (Q : forall i, Z.testbit 2155905152 i = true -> Z.testbit x i = false).
      { intros i Hi. assert (K : Z.testbit (Z.land x 2155905152) i = false) by (rewrite H; apply Z.bits_0).
        rewrite Z.land_spec, Hi, andb_true_r in K. exact K. }
      repeat split; apply Q; reflexivity.
    - intros (A & B & C & D). apply Z.bits_inj'. intros i Hi. rewrite Z.bits_0, Z.land_spec.
      destruct (Z.testbit 2155905152 i) eqn:Ei; [|apply andb_false_r]. rewrite andb_true_r.
      assert (i < 32). { destruct (Z.lt_ge_cases i 32); auto. rewrite Z.bits_above_log2 in Ei; [discriminate|lia|].
        change (Z.log2 2155905152) with 31. lia. }
      assert (i = 7 \/ i = 15 \/ i = 23 \/ i = 31).
      { assert (Hd : forallb (fun k => negb (Z.testbit 2155905152 (Z.of_nat k)) || ((Z.of_nat k =? 7) || (Z.of_nat k =? 15) || (Z.of_nat k =? 23) || (Z.of_nat k =? 31))) (seq 0 32) = true) by reflexivity.
        rewrite forallb_forall in Hd. specialize (Hd (Z.to_nat i)). rewrite Z2Nat.id in Hd by lia.
        rewrite Ei in Hd. cbn [negb orb] in Hd. specialize (Hd ltac:(apply in_seq; lia)).
        repeat rewrite orb_true_iff in Hd. rewrite !Z.eqb_eq in Hd. tauto. }
      intuition (subst; assumption). }
  rewrite E, T0, T1, T2, T3. rewrite !negb_false_iff, !Z.ltb_lt. reflexivity.
Qed.

Lemma bytes_of_tag t : 0 <= t < 2 ^ 32 -> exists a b c d,
  0 <= a < 256 /\ 0 <= b < 256 /\ 0 <= c < 256 /\ 0 <= d < 256 /\ t = a * 16777216 + b * 65536 + c * 256 + d.
Proof.
  intros H. change (2 ^ 32) with 4294967296 in H.
  pose proof (Z.div_mod t 256 ltac:(lia)). pose proof (Z.mod_pos_bound t 256 ltac:(lia)).
  set (q := t / 256) in *. pose proof (Z.div_mod q 256 ltac:(lia)). pose proof (Z.mod_pos_bound q 256 ltac:(lia)).
  set (q2 := q / 256) in *. pose proof (Z.div_mod q2 256 ltac:(lia)). pose proof (Z.mod_pos_bound q2 256 ltac:(lia)).
  exists (q2 / 256), (q2 mod 256), (q mod 256), (t mod 256). lia.
Qed.

Lemma chars_of a b c d : 0 <= a < 256 -> 0 <= b < 256 -> 0 <= c < 256 -> 0 <= d < 256 ->
  let t := a * 16777216 + b * 65536 + c * 256 + d in
  t mod 256 = d /\ t / 256 mod 256 = c /\ t / 65536 mod 256 = b /\ t / 16777216 mod 256 = a.
Proof.
  intros Ha Hb Hc Hd t.
  assert (H3 : t / 256 = a * 65536 + b * 256 + c) by (symmetry; apply Z.div_unique with d; lia).
  assert (H4 : t / 65536 = a * 256 + b) by (symmetry; apply Z.div_unique with (c * 256 + d); lia).
  assert (H5 : t / 16777216 = a) by (symmetry; apply Z.div_unique with (b * 65536 + c * 256 + d); lia).
  rewrite H3, H4, H5. repeat split; symmetry.
  - apply Z.mod_unique with (a * 65536 + b * 256 + c); lia.
  - apply Z.mod_unique with (a * 256 + b); lia.
  - apply Z.mod_unique with a; lia.
  - apply Z.mod_unique with 0; lia.
Qed.

Lemma lor_bound32 x y : 0 <= x < 2 ^ 32 -> 0 <= y < 2 ^ 32 -> 0 <= Z.lor x y < 2 ^ 32.
Proof.
  intros Hx Hy. split; [apply Z.lor_nonneg; lia|].
  destruct (Z.eq_dec (Z.lor x y) 0) as [->|N]; [lia|].
  apply Z.log2_lt_pow2; [assert (0 <= Z.lor x y) by (apply Z.lor_nonneg; lia); lia|].
  rewrite Z.log2_lor by lia.
  assert (L : forall z, 0 <= z < 2 ^ 32 -> Z.log2 z < 32).
  { intros z Hz. destruct (Z.eq_dec z 0) as [->|]; [reflexivity|]. apply Z.log2_lt_pow2; lia. }
  pose proof (L x Hx). pose proof (L y Hy). lia.
Qed.

(* digit-wise: x has all bytes < 128 iff ... for subtraction with borrow *)
Lemma valid_tag_exact t : 0 <= t < 2 ^ 32 -> is_valid_tag t = true <-> valid_tag t.
Proof.
  intros Ht. destruct (bytes_of_tag t Ht) as (a & b & c & d & Ha & Hb & Hc & Hd & ->).
  unfold valid_tag, tag_chars. destruct (chars_of a b c d Ha Hb Hc Hd) as (E0 & E1 & E2 & E3).
  set (t := a * 16777216 + b * 65536 + c * 256 + d) in *.
  rewrite E0, E1, E2, E3. unfold is_valid_tag. cbv zeta.
  change (make_tag 32 32 32 32) with 538976288. change (make_tag 1 1 1 1) with 16843009.
  set (x := w32 (t - 538976288)). set (y := w32 (t + 16843009)).
  assert (Bx : 0 <= x < 2 ^ 32) by (unfold x, w32; apply Z.mod_pos_bound; reflexivity).
  assert (By : 0 <= y < 2 ^ 32) by (unfold y, w32; apply Z.mod_pos_bound; reflexivity).
  rewrite Z.eqb_eq, Z.land_lor_distr_l, Z.lor_eq_0_iff, !land_80 by assumption.
  rewrite !Forall_cons_iff. unfold printable.
  (* x in terms of borrows, y in terms of carries *)
  assert (X : exists p q r s, x = p * 16777216 + q * 65536 + r * 256 + s /\ 0 <= p < 256 /\ 0 <= q < 256 /\ 0 <= r < 256 /\ 0 <= s < 256 /\
     exists b1 b2 b3 b4, d - 32 = s - 256 * b1 /\ c - 32 - b1 = r - 256 * b2 /\ b - 32 - b2 = q - 256 * b3 /\ a - 32 - b3 = p - 256 * b4).
  { exists ((a - 32 - (if b - 32 - (if c - 32 - (if d <? 32 then 1 else 0) <? 0 then 1 else 0) <? 0 then 1 else 0)) mod 256),
           ((b - 32 - (if c - 32 - (if d <? 32 then 1 else 0) <? 0 then 1 else 0)) mod 256),
           ((c - 32 - (if d <? 32 then 1 else 0)) mod 256), ((d - 32) mod 256).
    set (b1 := if d <? 32 then 1 else 0). set (b2 := if c - 32 - b1 <? 0 then 1 else 0).
    set (b3 := if b - 32 - b2 <? 0 then 1 else 0). set (b4 := if a - 32 - b3 <? 0 then 1 else 0).
    assert (D0 : (d - 32) mod 256 = d - 32 + 256 * b1) by (unfold b1; destruct (Z.ltb_spec d 32); symmetry; [apply Z.mod_unique with (-1)|apply Z.mod_unique with 0]; lia).
    assert (B1 : 0 <= b1 <= 1) by (unfold b1; destruct (d <? 32); lia).
    assert (D1 : (c - 32 - b1) mod 256 = c - 32 - b1 + 256 * b2) by (unfold b2; destruct (Z.ltb_spec (c - 32 - b1) 0); symmetry; [apply Z.mod_unique with (-1)|apply Z.mod_unique with 0]; lia).
    assert (B2 : 0 <= b2 <= 1) by (unfold b2; destruct (_ <? 0); lia).
    assert (D2 : (b - 32 - b2) mod 256 = b - 32 - b2 + 256 * b3) by (unfold b3; destruct (Z.ltb_spec (b - 32 - b2) 0); symmetry; [apply Z.mod_unique with (-1)|apply Z.mod_unique with 0]; lia).
    assert (B3 : 0 <= b3 <= 1) by (unfold b3; destruct (_ <? 0); lia).
    assert (D3 : (a - 32 - b3) mod 256 = a - 32 - b3 + 256 * b4) by (unfold b4; destruct (Z.ltb_spec (a - 32 - b3) 0); symmetry; [apply Z.mod_unique with (-1)|apply Z.mod_unique with 0]; lia).
    pose proof (Z.mod_pos_bound (d - 32) 256 ltac:(lia)). pose proof (Z.mod_pos_bound (c - 32 - b1) 256 ltac:(lia)).
    pose proof (Z.mod_pos_bound (b - 32 - b2) 256 ltac:(lia)). pose proof (Z.mod_pos_bound (a - 32 - b3) 256 ltac:(lia)).
    split.
    - unfold x, w32. symmetry. apply Z.mod_unique with (- b4); unfold t; lia.
    - repeat split; try lia. exists b1, b2, b3, b4. lia. }
  assert (Y : exists p q r s, y = p * 16777216 + q * 65536 + r * 256 + s /\ 0 <= p < 256 /\ 0 <= q < 256 /\ 0 <= r < 256 /\ 0 <= s < 256 /\
     exists b1 b2 b3 b4, d + 1 = s + 256 * b1 /\ c + 1 + b1 = r + 256 * b2 /\ b + 1 + b2 = q + 256 * b3 /\ a + 1 + b3 = p + 256 * b4).
  { set (b1 := if 256 <=? d + 1 then 1 else 0). set (b2 := if 256 <=? c + 1 + b1 then 1 else 0).
    set (b3 := if 256 <=? b + 1 + b2 then 1 else 0). set (b4 := if 256 <=? a + 1 + b3 then 1 else 0).
    exists (a + 1 + b3 - 256 * b4), (b + 1 + b2 - 256 * b3), (c + 1 + b1 - 256 * b2), (d + 1 - 256 * b1).
    assert (B1 : 0 <= b1 <= 1 /\ 0 <= d + 1 - 256 * b1 < 256) by (unfold b1; destruct (Z.leb_spec 256 (d + 1)); lia).
    assert (B2 : 0 <= b2 <= 1 /\ 0 <= c + 1 + b1 - 256 * b2 < 256) by (unfold b2; destruct (Z.leb_spec 256 (c + 1 + b1)); lia).
    assert (B3 : 0 <= b3 <= 1 /\ 0 <= b + 1 + b2 - 256 * b3 < 256) by (unfold b3; destruct (Z.leb_spec 256 (b + 1 + b2)); lia).
    assert (B4 : 0 <= b4 <= 1 /\ 0 <= a + 1 + b3 - 256 * b4 < 256) by (unfold b4; destruct (Z.leb_spec 256 (a + 1 + b3)); lia).
    split; [unfold y, w32; symmetry; apply Z.mod_unique with b4; unfold t; lia|].
    repeat split; try lia. exists b1, b2, b3, b4. lia. }
  destruct X as (p & q & r & s & -> & Hp & Hq & Hr & Hs & b1 & b2 & b3 & b4 & X0 & X1 & X2 & X3).
  destruct Y as (p' & q' & r' & s' & -> & Hp' & Hq' & Hr' & Hs' & c1 & c2 & c3 & c4 & Y0 & Y1 & Y2 & Y3).
  destruct (chars_of p q r s Hp Hq Hr Hs) as (-> & -> & -> & ->).
  destruct (chars_of p' q' r' s' Hp' Hq' Hr' Hs') as (-> & -> & -> & ->).
  clear - Ha Hb Hc Hd Hp Hq Hr Hs X0 X1 X2 X3 Hp' Hq' Hr' Hs' Y0 Y1 Y2 Y3.
  split.
  - intros [(s1 & r1 & q1 & p1) (s2 & r2 & q2 & p2)].
    assert (b1 = 0 /\ c1 = 0) by lia. assert (b2 = 0 /\ c2 = 0) by lia. assert (b3 = 0 /\ c3 = 0) by lia.
    assert (b4 = 0 /\ c4 = 0) by lia. repeat split; try lia. constructor.
  - intros (A & B & C & D & _).
    assert (b1 = 0 /\ c1 = 0) by lia. assert (b2 = 0 /\ c2 = 0) by lia. assert (b3 = 0 /\ c3 = 0) by lia.
    assert (b4 = 0 /\ c4 = 0) by lia. lia.
Qed.

(* tag_to_ascii *)
Lemma tag_to_ascii_ok t : 0 <= t < 2 ^ 32 ->
  tag_to_ascii t = map (fun c => if (32 <=? c) && (c <=? 126) then c else 63) (tag_chars t).
Proof.
  intros Ht. destruct (bytes_of_tag t Ht) as (a & b & c & d & Ha & Hb & Hc & Hd & ->).
  unfold tag_to_ascii, tag_chars. destruct (chars_of a b c d Ha Hb Hc Hd) as (E0 & E1 & E2 & E3).
  rewrite E0, E1, E2, E3. cbn [tag_to_ascii_loop map].
  assert (S : forall p q, 0 <= p < 256 -> 0 <= q < 16777216 -> Z.shiftr (p * 16777216 + q) 24 = p /\ w32 (Z.shiftl (p * 16777216 + q) 8) = q * 256).
  { intros p q Hp Hq. rewrite Z.shiftr_div_pow2, Z.shiftl_mul_pow2 by lia. split.
    - symmetry. apply Z.div_unique with q; lia.
    - unfold w32. symmetry. apply Z.mod_unique with p; lia. }
  assert (F : forall z, (if (z <? 32) || (126 <? z) then 63 else z) = if (32 <=? z) && (z <=? 126) then z else 63).
  { intros z. destruct (Z.ltb_spec z 32), (Z.ltb_spec 126 z), (Z.leb_spec 32 z), (Z.leb_spec z 126); cbn; auto; lia. }
  destruct (S a (b * 65536 + c * 256 + d) Ha ltac:(lia)) as [A1 A2].
  replace (a * 16777216 + b * 65536 + c * 256 + d) with (a * 16777216 + (b * 65536 + c * 256 + d)) by lia.
  rewrite A1, A2. destruct (S b (c * 65536 + d * 256) Hb ltac:(lia)) as [B1 B2].
  replace ((b * 65536 + c * 256 + d) * 256) with (b * 16777216 + (c * 65536 + d * 256)) by lia.
  rewrite B1, B2. destruct (S c (d * 65536) Hc ltac:(lia)) as [C1 C2].
  replace ((c * 65536 + d * 256) * 256) with (c * 16777216 + d * 65536) by lia.
  rewrite C1, C2. destruct (S d 0 Hd ltac:(lia)) as [D1 D2].
  replace (d * 65536 * 256) with (d * 16777216 + 0) by lia. rewrite D1. rewrite !F. reflexivity.
Qed.
