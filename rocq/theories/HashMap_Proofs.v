From Coq Require Import Permutation.
From Verif Require Import Base Bits Algorithm_Model HashMap_Model HashMap_Spec.
Ltac Zify.zify_post_hook ::= idtac.

(* division by multiplication *)
Definition rowb (row : Z * Z * Z) : bool :=
  let '(p, r, s) := row in
  let e := r * p - 2 ^ s in let q := 4294967295 / p in let t := 4294967295 mod p in
  (2 <=? p) && (p <? 4294967296) && (0 <=? r) && (r <? 4294967296) && (32 <=? s) && (s <? 64) && (0 <=? e) &&
  ((q - 1) * e + (p - 1) * r <? 2 ^ s) && (q * e + t * r <? 2 ^ s).
Lemma rows_ok : forallb rowb primes = true.
Proof. vm_compute. reflexivity. Qed.
Lemma row_ok k row : nth_error primes k = Some row -> rowb row = true.
Proof. intros H. apply nth_error_In in H. exact (proj1 (forallb_forall _ _) rows_ok _ H). Qed.
Lemma rcp_div p r s h : rowb (p, r, s) = true -> 0 <= h < 4294967296 -> h * r / 2 ^ s = h / p.
Proof.
  unfold rowb. intros H Hh. rewrite !andb_true_iff, !Z.leb_le, !Z.ltb_lt in H. destruct H as [[[[[[[[P1 P2] R1] R2] S1] S2] E0] C1] C2].
  remember (2 ^ s) as M. assert (MP : 0 < M) by (subst M; apply Z.pow_pos_nonneg; lia). clear HeqM.
  pose proof (Z.div_mod h p ltac:(lia)) as Dh. pose proof (Z.mod_pos_bound h p ltac:(lia)) as Bt.
  pose proof (Z.div_mod 4294967295 p ltac:(lia)) as DQ. pose proof (Z.mod_pos_bound 4294967295 p ltac:(lia)) as BT.
  set (q := h / p) in *. set (t := h mod p) in *. set (Q := 4294967295 / p) in *. set (T := 4294967295 mod p) in *.
  remember (r * p - M) as e. assert (Er : r * p = M + e) by lia. clear Heqe.
  assert (q0 : 0 <= q) by (apply Z.div_pos; lia).
  assert (HQ : q <= Q) by (apply Z.div_le_mono; lia).
  assert (F : q * e + t * r < M).
  { destruct (Z.eq_dec q Q) as [E|N].
    - rewrite E in *. assert (t <= T) by lia. assert (t * r <= T * r) by (apply Z.mul_le_mono_nonneg_r; lia). lia.
    - assert (q * e <= (Q - 1) * e) by (apply Z.mul_le_mono_nonneg_r; lia). assert (t * r <= (p - 1) * r) by (apply Z.mul_le_mono_nonneg_r; lia). lia. }
  assert (X : h * r = q * M + (q * e + t * r)) by (rewrite Dh; replace ((p * q + t) * r) with (q * (r * p) + t * r) by ring; rewrite Er; ring).
  symmetry. apply (Z.div_unique (h * r) M q (q * e + t * r)); [|lia]. left. split; [|exact F].
  apply Z.add_nonneg_nonneg; apply Z.mul_nonneg_nonneg; lia.
Qed.
Lemma calc_mod_ok b64 m p r s h : rowb (p, r, s) = true -> m_count m = p -> m_rcp m = r -> m_shift m = prime_shift b64 s -> u32 h -> calc_mod b64 m h = h mod p.
Proof.
  intros H Ec Er Es Hh. unfold calc_mod. rewrite Ec, Er, Es. pose proof (rcp_div p r s h H Hh) as D.
  unfold rowb in H. rewrite !andb_true_iff, !Z.leb_le, !Z.ltb_lt in H. destruct H as [[[[[[[[P1 P2] R1] R2] S1] S2] E0] C1] C2]. clear E0 C1 C2. unfold u32 in Hh. change (2 ^ 32) with 4294967296 in Hh.
  assert (B : 0 <= h * r < 18446744073709551616) by (split; [apply Z.mul_nonneg_nonneg; lia|]; apply Z.le_lt_trans with (4294967295 * r); [apply Z.mul_le_mono_nonneg_r; lia|lia]).
  assert (W : w64 (h * r) = h * r) by (unfold w64; apply Z.mod_small; exact B). rewrite W.
  assert (Hq : 0 <= h / p < 4294967296) by (split; [apply Z.div_pos; lia|apply Z.div_lt_upper_bound; [lia|]; apply Z.lt_le_trans with (1 * 4294967296); [lia|apply Z.mul_le_mono_nonneg_r; lia]]).
  assert (V : (if b64 then w32 (Z.shiftr (h * r) (prime_shift b64 s)) else Z.shiftr (w32 (Z.shiftr (h * r) 32)) (prime_shift b64 s)) = h / p).
  { unfold prime_shift. destruct b64.
    - rewrite Z.shiftr_div_pow2 by lia. rewrite D. unfold w32. apply Z.mod_small. exact Hq.
    - assert (U : w32 (Z.shiftr (h * r) 32) = Z.shiftr (h * r) 32).
      { unfold w32. apply Z.mod_small. rewrite Z.shiftr_div_pow2 by lia. split; [apply Z.div_pos; [lia|reflexivity]|]. apply Z.div_lt_upper_bound; [reflexivity|]. change (2 ^ 32) with 4294967296. lia. }
      rewrite U. rewrite Z.shiftr_shiftr by lia. replace (32 + (s - 32)) with s by lia. rewrite Z.shiftr_div_pow2 by lia. exact D. }
  rewrite V. pose proof (Z.div_mod h p ltac:(lia)). pose proof (Z.mod_pos_bound h p ltac:(lia)).
  assert (G : 0 <= h / p * p < 4294967296) by (split; [apply Z.mul_nonneg_nonneg; lia|lia]).
  assert (W2 : w32 (h / p * p) = h / p * p) by (unfold w32; apply Z.mod_small; exact G). rewrite W2. unfold w32. rewrite Z.mod_small; lia.
Qed.

(* buckets *)
Definition buckets_ok (p : Z) (data : list (list node)) : Prop :=
  Z.of_nat (length data) = p /\ forall i b, nth_error data i = Some b -> Forall (fun n => n_hash n mod p = Z.of_nat i) b.
Lemma upd_len {A} (l : list A) : forall n x, length (upd l n x) = length l.
Proof. induction l; intros [|n] x; cbn [upd length]; congruence. Qed.
Lemma upd_nth {A} (l : list A) : forall n x k, nth_error (upd l n x) k = if (k =? n)%nat then match nth_error l k with Some _ => Some x | None => None end else nth_error l k.
Proof.
  induction l as [|a l IH]; intros [|n] x [|k]; cbn [upd nth_error Nat.eqb]; try reflexivity.
  - destruct (k =? n)%nat; reflexivity.
  - apply IH.
Qed.
Lemma concat_upd {A} (l : list (list A)) : forall n b b', nth_error l n = Some b -> Permutation (b ++ concat (upd l n b')) (b' ++ concat l).
Proof.
  induction l as [|a l IH]; intros [|n] b b' E; cbn [nth_error upd concat] in *; try discriminate.
  - inversion E; subst. rewrite !app_assoc. apply Permutation_app_tail. apply Permutation_app_comm.
  - specialize (IH n b b' E). rewrite !app_assoc. rewrite (Permutation_app_comm b a), (Permutation_app_comm b' a). rewrite <- !app_assoc. apply Permutation_app_head. exact IH.
Qed.
Lemma bucket_at p data h : 2 <= p -> buckets_ok p data -> exists b, nth_error data (Z.to_nat (h mod p)) = Some b /\ rd data (h mod p) = Ok b /\ Forall (fun n => n_hash n mod p = h mod p) b.
Proof.
  intros Hp [L F]. pose proof (Z.mod_pos_bound h p ltac:(lia)) as B. destruct (nth_error data (Z.to_nat (h mod p))) as [b|] eqn:E.
  - exists b. split; [reflexivity|]. split; [unfold rd; destruct (Z.ltb_spec (h mod p) 0); [lia|]; rewrite E; reflexivity|]. specialize (F _ _ E). rewrite Z2Nat.id in F by lia. exact F.
  - apply nth_error_None in E. lia.
Qed.
Lemma store_at p data h b b' : 2 <= p -> buckets_ok p data -> nth_error data (Z.to_nat (h mod p)) = Some b -> Forall (fun n => n_hash n mod p = h mod p) b' ->
  exists data', wr data (h mod p) b' = Ok data' /\ buckets_ok p data' /\ Permutation (b ++ concat data') (b' ++ concat data).
Proof.
  intros Hp [L F] E F'. pose proof (Z.mod_pos_bound h p ltac:(lia)) as B. unfold wr.
  destruct (Z.ltb_spec (h mod p) 0); [lia|]. destruct (Z.leb_spec (Z.of_nat (length data)) (h mod p)); [lia|]. cbn [orb].
  eexists. split; [reflexivity|]. split; [|apply concat_upd; exact E]. split; [rewrite upd_len; exact L|].
  intros i c. rewrite upd_nth. destruct (Nat.eqb_spec i (Z.to_nat (h mod p))) as [-> | N]; [|apply F].
  rewrite E. intros X. inversion X; subst. rewrite Z2Nat.id by lia. exact F'.
Qed.

Section Move.
  Context (b64 : bool) (m : hmap) (p r s : Z) (R : rowb (p, r, s) = true) (Ec : m_count m = p) (Er : m_rcp m = r) (Es : m_shift m = prime_shift b64 s).
  Lemma p_ge : 2 <= p.
  Proof. clear - R. unfold rowb in R. rewrite !andb_true_iff, !Z.leb_le in R. tauto. Qed.
  Lemma move_chain_ok chain : forall data, buckets_ok p data -> Forall (fun n => u32 (n_hash n)) chain ->
    exists data', move_chain b64 m data chain = Ok data' /\ buckets_ok p data' /\ Permutation (concat data') (chain ++ concat data).
  Proof.
    induction chain as [|n chain IH]; intros data BO U; cbn [move_chain app]; [eauto|]. inversion U as [|? ? U1 U2]; subst x l.
    rewrite (calc_mod_ok b64 m p r s (n_hash n) R Ec Er Es U1). destruct (bucket_at p data (n_hash n) p_ge BO) as (b & N & E & F). rewrite E. cbn [bind].
    destruct (store_at p data (n_hash n) b (n :: b) p_ge BO N ltac:(constructor; [reflexivity|exact F])) as (data' & E' & BO' & P). rewrite E'. cbn [bind].
    destruct (IH data' BO' U2) as (d & E2 & BO2 & P2). exists d. split; [exact E2|]. split; [exact BO2|]. rewrite P2.
    assert (Q : Permutation (concat data') (n :: concat data)) by (apply (Permutation_app_inv_l b); rewrite P; cbn [app]; apply Permutation_middle).
    rewrite Q. symmetry. apply Permutation_middle.
  Qed.
  Lemma move_all_ok old : forall data, buckets_ok p data -> Forall (fun n => u32 (n_hash n)) (concat old) ->
    exists data', move_all b64 m data old = Ok data' /\ buckets_ok p data' /\ Permutation (concat data') (concat old ++ concat data).
  Proof.
    induction old as [|c old IH]; intros data BO U; cbn [move_all concat app]; [eauto|]. cbn [concat] in U. apply Forall_app in U. destruct U as [U1 U2].
    destruct (move_chain_ok c data BO U1) as (d1 & E1 & BO1 & P1). rewrite E1. cbn [bind]. destruct (IH d1 BO1 U2) as (d2 & E2 & BO2 & P2). exists d2. split; [exact E2|]. split; [exact BO2|].
    rewrite P2, P1. rewrite <- app_assoc. rewrite (app_assoc (concat old)), (app_assoc c). apply Permutation_app_tail. apply Permutation_app_comm.
  Qed.
End Move.
Lemma buckets_empty p : 0 <= p -> buckets_ok p (repeat [] (Z.to_nat p)) /\ concat (repeat (@nil node) (Z.to_nat p)) = [].
Proof.
  intros Hp. split.
  - split; [rewrite repeat_length; lia|]. intros i b E. apply nth_error_In, repeat_spec in E. subst b. constructor.
  - induction (Z.to_nat p); cbn [repeat concat app]; auto.
Qed.
