(* Doubles: the order of the patterns is the order of the numbers. *)
From Verif Require Import Base Object_Model Algorithm_Model Algorithm_Spec Algorithm_Proofs Algorithm_Proofs2 Gradient_Model Gradient_Spec.
Ltac Zify.zify_post_hook ::= idtac.

Definition scaled (mag : Z) : Z := let e := mag / 2 ^ 52 in let m := mag mod 2 ^ 52 in if e =? 0 then m else (m + 2 ^ 52) * 2 ^ (e - 1).

Lemma scaled_lt a b : 0 <= a < b -> scaled a < scaled b.
Proof.
  intros H. unfold scaled. set (P := 2 ^ 52). assert (HP : 0 < P) by (unfold P; lia).
  pose proof (Z.div_mod a P ltac:(lia)) as Ea. pose proof (Z.div_mod b P ltac:(lia)) as Eb.
  pose proof (Z.mod_pos_bound a P HP) as Ma. pose proof (Z.mod_pos_bound b P HP) as Mb.
  pose proof (Z.div_pos a P ltac:(lia) HP) as Da.
  set (ea := a / P) in *. set (eb := b / P) in *. set (ma := a mod P) in *. set (mb := b mod P) in *.
  assert (C : ea = eb /\ ma < mb \/ ea < eb) by nia.
  destruct C as [[<- C]|C].
  - destruct (Z.eqb_spec ea 0); [lia|]. pose proof (Z.pow_pos_nonneg 2 (ea - 1) ltac:(lia) ltac:(lia)). nia.
  - destruct (Z.eqb_spec eb 0); [lia|]. assert (Q : P * 2 ^ (eb - 1) <= (mb + P) * 2 ^ (eb - 1)).
    { pose proof (Z.pow_pos_nonneg 2 (eb - 1) ltac:(lia) ltac:(lia)). nia. }
    destruct (Z.eqb_spec ea 0).
    + pose proof (Z.pow_pos_nonneg 2 (eb - 1) ltac:(lia) ltac:(lia)). nia.
    + assert (R : 2 ^ eb = 2 * 2 ^ (eb - 1)). { rewrite <- Z.pow_succ_r by lia. f_equal. lia. }
      assert (S : 2 ^ ea = 2 * 2 ^ (ea - 1)). { rewrite <- Z.pow_succ_r by lia. f_equal. lia. }
      assert (T : 2 ^ ea <= 2 ^ (eb - 1)) by (apply Z.pow_le_mono_r; lia).
      pose proof (Z.pow_pos_nonneg 2 (ea - 1) ltac:(lia) ltac:(lia)). nia.
Qed.
Lemma scaled_0 : scaled 0 = 0. Proof. reflexivity. Qed.
Lemma scaled_mono a b : 0 <= a -> 0 <= b -> (a < b <-> scaled a < scaled b).
Proof.
  intros Ha Hb. split; [intros; apply scaled_lt; lia|]. intros H. destruct (Z.lt_trichotomy a b) as [C|[->|C]]; [auto|lia|].
  pose proof (scaled_lt b a ltac:(lia)). lia.
Qed.
Lemma scaled_nonneg a : 0 <= a -> 0 <= scaled a.
Proof. intros H. destruct (Z.eq_dec a 0) as [->|]; [rewrite scaled_0; lia|]. pose proof (scaled_lt 0 a ltac:(lia)). rewrite scaled_0 in *. lia. Qed.

(* numbers as a function of keys *)
Definition of_key (k : Z) : Z := if k <? 0 then - scaled (- k) else scaled k.
Lemma of_key_lt a b : a < b <-> of_key a < of_key b.
Proof.
  unfold of_key. destruct (Z.ltb_spec a 0), (Z.ltb_spec b 0).
  - pose proof (scaled_mono (- b) (- a) ltac:(lia) ltac:(lia)). lia.
  - pose proof (scaled_lt 0 (- a) ltac:(lia)). rewrite scaled_0 in *. pose proof (scaled_nonneg b ltac:(lia)). lia.
  - pose proof (scaled_lt 0 (- b) ltac:(lia)). rewrite scaled_0 in *. pose proof (scaled_nonneg a ltac:(lia)). lia.
  - apply scaled_mono; lia.
Qed.

Lemma num_key b : num b = match dkey b with Some k => Some (of_key k) | None => None end.
Proof.
  unfold num, dkey. change 9223372036854775807 with (Z.ones 63). rewrite Z.land_ones by lia. set (m := b mod 2 ^ 63).
  assert (M : 0 <= m < 2 ^ 63) by (apply Z.mod_pos_bound; lia).
  pose proof (Z.div_mod m (2 ^ 52) ltac:(lia)) as E. pose proof (Z.mod_pos_bound m (2 ^ 52) ltac:(lia)) as B.
  change (if m / 2 ^ 52 =? 0 then m mod 2 ^ 52 else (m mod 2 ^ 52 + 2 ^ 52) * 2 ^ (m / 2 ^ 52 - 1)) with (scaled m).
  replace ((m / 2 ^ 52 =? 2047) && negb (m mod 2 ^ 52 =? 0)) with (9218868437227405312 <? m).
  - destruct (9218868437227405312 <? m); [reflexivity|]. unfold of_key. destruct (Z.testbit b 63).
    + destruct (Z.ltb_spec (- m) 0); [rewrite Z.opp_involutive; reflexivity|]. replace m with 0 by lia. reflexivity.
    + destruct (Z.ltb_spec m 0); [lia|reflexivity].
  - destruct (Z.ltb_spec 9218868437227405312 m), (Z.eqb_spec (m / 2 ^ 52) 2047), (Z.eqb_spec (m mod 2 ^ 52) 0); cbn [andb negb]; try reflexivity; exfalso; lia.
Qed.

Definition valid (b : Z) : Prop := num b <> None.
Lemma valid_key b : valid b -> exists k, dkey b = Some k /\ nval b = of_key k /\ dval b = k.
Proof. unfold valid, nval, dval. rewrite num_key. destruct (dkey b) as [k|]; [eauto|congruence]. Qed.
Lemma of_key_le a b : a <= b <-> of_key a <= of_key b.
Proof. pose proof (of_key_lt b a). lia. Qed.
Lemma dle_n a b : valid a -> valid b -> dle a b = (nval a <=? nval b).
Proof. intros A B. destruct (valid_key a A) as (x & E & -> & _), (valid_key b B) as (y & F & -> & _). unfold dle. rewrite E, F. pose proof (of_key_le x y). destruct (Z.leb_spec x y), (Z.leb_spec (of_key x) (of_key y)); auto; lia. Qed.
Lemma dlt_n a b : valid a -> valid b -> dlt a b = (nval a <? nval b).
Proof. intros A B. destruct (valid_key a A) as (x & E & -> & _), (valid_key b B) as (y & F & -> & _). unfold dlt. rewrite E, F. pose proof (of_key_lt x y). destruct (Z.ltb_spec x y), (Z.ltb_spec (of_key x) (of_key y)); auto; lia. Qed.
Lemma deq_n a b : valid a -> valid b -> deq a b = (nval a =? nval b).
Proof. intros A B. destruct (valid_key a A) as (x & E & -> & _), (valid_key b B) as (y & F & -> & _). unfold deq. rewrite E, F. pose proof (of_key_lt x y). pose proof (of_key_lt y x). destruct (Z.eqb_spec x y), (Z.eqb_spec (of_key x) (of_key y)); auto; try subst; lia. Qed.
Lemma dval_lt a b : valid a -> valid b -> (dval a < dval b <-> nval a < nval b).
Proof. intros A B. destruct (valid_key a A) as (x & _ & -> & ->), (valid_key b B) as (y & _ & -> & ->). apply of_key_lt. Qed.
Lemma dval_eq a b : valid a -> valid b -> (dval a = dval b <-> nval a = nval b).
Proof. intros A B. pose proof (dval_lt a b A B). pose proof (dval_lt b a B A). lia. Qed.

Lemma nval_D0 : nval D0 = 0. Proof. vm_compute. reflexivity. Qed.
Lemma nval_D1 : nval D1 = one. Proof. vm_compute. reflexivity. Qed.
Lemma valid_D0 : valid D0. Proof. vm_compute. discriminate. Qed.
Lemma valid_D1 : valid D1. Proof. vm_compute. discriminate. Qed.
Lemma valid_Dm1 : valid Dm1. Proof. vm_compute. discriminate. Qed.
Lemma nval_Dm1 : nval Dm1 < 0. Proof. vm_compute. reflexivity. Qed.

Lemma range_check o : (dle D0 o && dle o D1) = true <-> in01 o.
Proof.
  unfold in01. destruct (num o) as [x|] eqn:E.
  - assert (V : valid o) by (unfold valid; congruence). rewrite (dle_n _ _ valid_D0 V), (dle_n _ _ V valid_D1), nval_D0, nval_D1, andb_true_iff, !Z.leb_le.
    split; [intros; split; [discriminate|lia]|intros [_ H]; lia].
  - assert (K : dkey o = None) by (rewrite num_key in E; destruct (dkey o); congruence).
    unfold dle. rewrite K. destruct (dkey D0); cbn [andb]; (split; [discriminate|intros [H _]; congruence]).
Qed.
Lemma in01_valid o : in01 o -> valid o. Proof. intros [H _]. exact H. Qed.
