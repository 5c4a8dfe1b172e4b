(* The step relation of Inflate_Spec.v: it is deterministic, keeps its states well formed, and what cannot finish. *)
From Verif Require Import Base Bits Deflate_Spec DeflateTable_Proofs DeflateTable_Proofs2 DeflateTable_Proofs3 DeflateTable_Proofs5 Inflate_Spec.

Definition wf_mode (m : amode) : Prop :=
  match m with
  | ACopy n => 1 <= n <= 65535
  | APrecode nl no nc acc => 257 <= nl <= 288 /\ 1 <= no <= 32 /\ 4 <= nc <= 19 /\ Z.of_nat (length acc) <= nc /\ Forall (fun l => 0 <= l <= 7) acc
  | ALens nl no pre acc => 257 <= nl <= 288 /\ 1 <= no <= 32 /\ Forall (fun l => 0 <= l <= 7) pre /\ length pre = 19%nat /\ Forall len_ok acc /\ precode_good pre
  | ASyms lit off => Forall len_ok lit /\ (length lit <= 288)%nat /\ Forall len_ok off /\ (length off <= 32)%nat /\ litlen_good lit /\ offset_good off
  | _ => True
  end.
Definition wf (a : astate) : Prop := wf_mode (a_mode a) /\ 0 <= a_V a /\ 0 <= a_N a.

Lemma clen_at_range : forall order acc s, Forall (fun l => 0 <= l <= 7) acc -> 0 <= clen_at order acc s <= 7.
Proof.
  induction order as [|o order IH]; intros acc s H; [cbn; lia|]. destruct acc as [|x acc]; [cbn; lia|]. cbn. inversion H; subst.
  destruct (o =? s); [assumption|apply IH; assumption].
Qed.
Lemma clens_range acc : Forall (fun l => 0 <= l <= 7) acc -> Forall (fun l => 0 <= l <= 7) (clens acc).
Proof. intros H. apply Forall_forall. intros x Hx. apply in_map_iff in Hx. destruct Hx as [s [<- _]]. apply clen_at_range, H. Qed.
Lemma clens_length acc : length (clens acc) = 19%nat.
Proof. unfold clens. rewrite map_length. reflexivity. Qed.

Lemma static_lit_ok : Forall len_ok static_lit.
Proof. apply Forall_forall. intros x Hx. assert (B : forallb (fun l => (0 <=? l) && (l <=? 15)) static_lit = true) by reflexivity. rewrite forallb_forall in B. specialize (B x Hx). unfold len_ok. lia. Qed.
Lemma static_off_ok : Forall len_ok static_off.
Proof. apply Forall_forall. intros x Hx. assert (B : forallb (fun l => (0 <=? l) && (l <=? 15)) static_off = true) by reflexivity. rewrite forallb_forall in B. specialize (B x Hx). unfold len_ok. lia. Qed.
Lemma static_wf : wf_mode (ASyms static_lit static_off).
Proof.
  split; [apply static_lit_ok|]. split; [vm_compute; lia|]. split; [apply static_off_ok|]. split; [vm_compute; lia|].
  split; left; reflexivity.
Qed.

Lemma decodes_len lens V s : Forall len_ok lens -> decodes lens V s -> 1 <= len_of lens s <= 15.
Proof.
  intros H [D1 [D2 _]]. rewrite Forall_forall in H. assert (I : In (len_of lens s) lens) by (apply nth_In; lia). specialize (H _ I). unfold len_ok in H. lia.
Qed.
Lemma decodes_len7 lens V s : Forall (fun l => 0 <= l <= 7) lens -> decodes lens V s -> 1 <= len_of lens s <= 7.
Proof.
  intros H [D1 [D2 _]]. rewrite Forall_forall in H. assert (I : In (len_of lens s) lens) by (apply nth_In; lia). specialize (H _ I). lia.
Qed.
Lemma len7_ok lens : Forall (fun l => 0 <= l <= 7) lens -> Forall len_ok lens.
Proof. apply Forall_impl. unfold len_ok. intros; lia. Qed.

Lemma repeat_Forall {A} (P : A -> Prop) x n : P x -> Forall P (repeat x n).
Proof. intros H. induction n; cbn; constructor; auto. Qed.
Lemma last_Forall (P : Z -> Prop) l : P 0 -> Forall P l -> P (last l 0).
Proof. intros H0 H. induction H as [|x l Hx Hl IH]; [exact H0|]. cbn. destruct l; [exact Hx|exact IH]. Qed.
Lemma length_extra_range s : 257 <= s <= 285 -> 0 <= length_extra s <= 5.
Proof. intros H. unfold length_extra. destruct ((s - 257 <? 8) || (s - 257 =? 28)) eqn:E; lia. Qed.
Lemma offset_extra_range s : 0 <= s <= 29 -> 0 <= offset_extra s <= 13.
Proof. intros H. unfold offset_extra. destruct (s <? 4) eqn:E; lia. Qed.

Lemma Forall_firstn' {A} (P : A -> Prop) n l : Forall P l -> Forall P (firstn n l).
Proof. intros H. rewrite <- (firstn_skipn n l) in H. apply Forall_app in H. tauto. Qed.
Lemma Forall_skipn' {A} (P : A -> Prop) n l : Forall P l -> Forall P (skipn n l).
Proof. intros H. rewrite <- (firstn_skipn n l) in H. apply Forall_app in H. tauto. Qed.

Lemma div_nonneg V n : 0 <= V -> 0 <= V / 2 ^ n.
Proof.
  intros H. destruct (Z_lt_ge_dec n 0); [rewrite Z.pow_neg_r by lia; rewrite Zdiv_0_r; lia|].
  apply Z.div_pos; [lia|]. apply Z.pow_pos_nonneg; lia.
Qed.

Lemma astep_wf a b : wf a -> astep a b -> wf b.
Proof.
  intros [W [HV HN]] S. unfold wf.
  assert (VN : 0 <= a_V b /\ 0 <= a_N b).
  { destruct S; cbn [a_V a_N] in *; clear W.
    all: match goal with |- 0 <= ?V /\ 0 <= ?N => split; [|exact HN] end || (split; [|lia]).
    all: try (apply div_nonneg; exact HV). all: try exact HV. 
    apply div_nonneg. unfold V1. apply div_nonneg. exact HV. }
  split; [|exact VN]. clear VN. destruct S; cbn [a_mode a_V a_N] in *.
  - exact I.
  - exact I.
  - apply static_wf.
  - exact I.
  - unfold n. pose proof (Z.mod_pos_bound V (2 ^ 16) ltac:(lia)). destruct (V mod 2 ^ 16 =? 0) eqn:E; [destruct f; exact I|]. cbn [wf_mode]. change (2 ^ 16) with 65536 in *. lia.
  - destruct (n =? 1) eqn:E; [destruct f; exact I|]. cbn [wf_mode] in *. lia.
  - cbn [wf_mode length]. pose proof (Z.mod_pos_bound V 32). pose proof (Z.mod_pos_bound (V / 32) 32). pose proof (Z.mod_pos_bound (V / 1024) 16). repeat split; try lia. constructor.
  - cbn [wf_mode] in *. rewrite app_length. cbn [length]. destruct W as [W1 [W2 [W3 [W4 W5]]]]. repeat split; try lia. apply Forall_app. split; [exact W5|]. constructor; [|constructor]. pose proof (Z.mod_pos_bound V 8). lia.
  - cbn [wf_mode] in *. destruct W as [W1 [W2 [W3 [W4 W5]]]]. repeat split; try lia; [apply clens_range, W5|constructor|assumption].
  - cbn [wf_mode] in *. destruct W as [W1 [W2 [W3 [W4 [W5 W6]]]]]. repeat split; try lia; try assumption. apply Forall_app. split; [exact W5|]. constructor; [|constructor]. destruct H0. unfold len_ok. lia.
  - cbn [wf_mode] in *. destruct W as [W1 [W2 [W3 [W4 [W5 W6]]]]]. repeat split; try lia; try assumption. apply Forall_app. split; [exact W5|]. apply repeat_Forall. apply last_Forall; [unfold len_ok; lia|exact W5].
  - cbn [wf_mode] in *. destruct W as [W1 [W2 [W3 [W4 [W5 W6]]]]]. repeat split; try lia; try assumption. apply Forall_app. split; [exact W5|]. apply repeat_Forall. unfold len_ok. lia.
  - cbn [wf_mode] in *. destruct W as [W1 [W2 [W3 [W4 [W5 W6]]]]]. repeat split; try lia; try assumption. apply Forall_app. split; [exact W5|]. apply repeat_Forall. unfold len_ok. lia.
  - cbn [wf_mode] in *. destruct W as [W1 [W2 [W3 [W4 [W5 W6]]]]]. unfold lit, off. rewrite firstn_length, skipn_length. repeat split; try lia; try assumption; [apply Forall_firstn', W5|apply Forall_skipn', W5].
  - assumption.
  - destruct f; exact I.
  - assumption.
Qed.

Lemma asteps_wf a b : wf a -> asteps a b -> wf b.
Proof. intros W S. induction S as [|a b c S1 S2 IH]; [exact W|]. apply IH. eapply astep_wf; eassumption. Qed.

Lemma asteps_trans a b c : asteps a b -> asteps b c -> asteps a c.
Proof. intros S. induction S; [auto|]. intros. econstructor; eauto. Qed.
Lemma asteps_one a b : astep a b -> asteps a b.
Proof. intros. econstructor; [eassumption|constructor]. Qed.

Lemma astep_det a b c : wf a -> astep a b -> astep a c -> b = c.
Proof.
  intros [W [HV HN]] S1 S2. cbn [a_mode] in *. destruct S1; inversion S2; clear S2; subst; cbn [a_mode a_V a_N wf_mode] in *;
    repeat match goal with x := _ |- _ => subst x end; clear HV HN.
  all: try congruence.
  all: try match goal with H1 : Z.of_nat (length ?x) < ?n, H2 : Z.of_nat (length ?x) = ?n |- _ => exfalso; clear -H1 H2; lia | H1 : Z.of_nat (length ?x) < Z.of_nat (length ?x) |- _ => exfalso; clear -H1; lia end.
  all: try (destruct W as [W1 [W2 [W3 [W4 [W5 W6]]]]]; pose proof (len7_ok _ W3) as W7;
    match goal with H1 : decodes ?l ?V ?s, H2 : decodes ?l ?V ?s' |- _ => assert (s = s') by (exact (decodes_unique l V s s' W7 H1 H2)); subst; first [reflexivity|exfalso; match goal with H : _ < 16 |- _ => clear -H; lia end|discriminate] end).
  all: destruct W as [W1 [W2 [W3 [W4 [W5 W6]]]]].
  all: match type of W1 with Forall _ ?l => match goal with H1 : decodes l ?V ?s, H2 : decodes l ?V ?s' |- _ => assert (Es : s = s') by (exact (decodes_unique l V s s' W1 H1 H2)) end end.
  all: try match goal with H1 : _ < 256, H2 : 257 <= _ <= 285 |- _ => exfalso; clear -H1 H2 Es; lia | H1 : _ < 256, Es : _ = 256 |- _ => exfalso; clear -H1 Es; lia
      | H1 : _ < 256, Es : 256 = _ |- _ => exfalso; clear -H1 Es; lia | H1 : 257 <= _ <= 285, Es : _ = 256 |- _ => exfalso; clear -H1 Es; lia | H1 : 257 <= _ <= 285, Es : 256 = _ |- _ => exfalso; clear -H1 Es; lia end.
  - subst s0. reflexivity.
  - subst s0. match type of W3 with Forall _ ?l => match goal with H1 : decodes l ?V ?s, H2 : decodes l ?V ?s' |- _ => assert (Ed : s = s') by (exact (decodes_unique l V s s' W3 H1 H2)) end end. subst d0. reflexivity.
Qed.

(* no way to the end of the stream *)
Definition dead (a : astate) : Prop := forall f V N res, ~ asteps a (A ADone f V N res).

Lemma done_final f V N o b : ~ astep (A ADone f V N o) b.
Proof. intros H. inversion H. Qed.

Lemma asteps_det a b f V N res : wf a -> asteps a b -> asteps a (A ADone f V N res) -> asteps b (A ADone f V N res).
Proof.
  intros W S. revert W. induction S as [|a b c S1 S2 IH]; intros W D; [exact D|].
  inversion D as [|? b' ? D1 D2]; subst; [exfalso; eapply done_final, S1|].
  assert (b' = b) as -> by (eapply astep_det; eassumption). apply IH; [eapply astep_wf; eassumption|exact D2].
Qed.
Lemma dead_back a b : wf a -> asteps a b -> dead b -> dead a.
Proof. intros W S D f V N res H. apply (D f V N res). eapply asteps_det; eassumption. Qed.
Lemma stuck_dead a : a_mode a <> ADone -> (forall b, ~ astep a b) -> dead a.
Proof. intros M S f V N res H. inversion H; subst; [apply M; reflexivity|eapply S; eassumption]. Qed.
Lemma step_dead a : a_mode a <> ADone -> (forall b, astep a b -> dead b) -> dead a.
Proof. intros M S f V N res H. inversion H; subst; [apply M; reflexivity|eapply S; eassumption]. Qed.
Lemma done_unique a f V N res f' V' N' res' : wf a -> asteps a (A ADone f V N res) -> asteps a (A ADone f' V' N' res') -> res = res'.
Proof.
  intros W S1 S2. pose proof (asteps_det _ _ _ _ _ _ W S1 S2) as S. inversion S; subst; [reflexivity|]. exfalso. eapply done_final; eassumption.
Qed.

Lemma precode_dead f V o nl no nc : forall n N acc, n = Z.to_nat N -> 0 <= N < 3 * (nc - Z.of_nat (length acc)) -> dead (A (APrecode nl no nc acc) f V N o).
Proof.
  intros n N acc En HN. revert N V acc En HN. induction n as [n IH] using lt_wf_ind. intros N V acc En HN. apply step_dead; [discriminate|]. intros b S. inversion S; subst; try lia.
  apply (IH (Z.to_nat (N - 3)) ltac:(lia)); [reflexivity|]. rewrite app_length. cbn [length]. lia.
Qed.
Lemma dynamic_dead f V N o : 0 <= N < 26 -> dead (A ADynamic f V N o).
Proof.
  intros HN. apply step_dead; [discriminate|]. intros b S. inversion S; subst. eapply precode_dead; [reflexivity|]. cbn [length]. pose proof (Z.mod_pos_bound (V / 1024) 16). lia.
Qed.

(* one symbol of compressed data, by the number of bits it takes *)
Inductive sym_step (lit off : list Z) (V : Z) (o : list Z) : Z -> list Z -> Prop :=
| sym_literal s : decodes lit V s -> s < 256 -> sym_step lit off V o (len_of lit s) (o ++ [s])
| sym_match s d : decodes lit V s -> 257 <= s <= 285 -> let l := len_of lit s in let k := l + length_extra s in
    let n := length_base s + V / 2 ^ l mod 2 ^ length_extra s in let V1 := V / 2 ^ k in
    decodes off V1 d -> d <= 29 -> let l1 := len_of off d in let k1 := l1 + offset_extra d in
    let dist := offset_base d + V1 / 2 ^ l1 mod 2 ^ offset_extra d in dist <= Z.of_nat (length o) ->
    sym_step lit off V o (k + k1) (lz_copy (Z.to_nat n) o dist).

Lemma decodes_nonneg lens V s : Forall len_ok lens -> decodes lens V s -> 0 <= len_of lens s /\ 0 <= s.
Proof. intros H D. pose proof (decodes_len lens V s H D). destruct D. lia. Qed.

Lemma sym_astep lit off f V N o k o' : wf_mode (ASyms lit off) -> 0 <= V -> sym_step lit off V o k o' -> k <= N ->
  astep (A (ASyms lit off) f V N o) (A (ASyms lit off) f (V / 2 ^ k) (N - k) o').
Proof.
  intros [W1 [W2 [W3 [W4 _]]]] HV S Hk. destruct S.
  - apply st_literal; assumption.
  - pose proof (decodes_len _ _ _ W1 H) as L1. pose proof (decodes_len _ _ _ W3 H1) as L2. pose proof (length_extra_range s H0) as X1. pose proof (offset_extra_range d ltac:(destruct H1; lia)) as X2.
    assert (EV : V / 2 ^ (k + k1) = V1 / 2 ^ k1).
    { assert (K1 : 0 <= k) by (unfold k, l; clear -L1 X1; lia). assert (K2 : 0 <= k1) by (unfold k1, l1; clear -L2 X2; lia). unfold V1. generalize k k1 K1 K2. clear. intros a b Ha Hb.
      pose proof (Z.pow_pos_nonneg 2 a ltac:(lia) Ha). pose proof (Z.pow_pos_nonneg 2 b ltac:(lia) Hb). rewrite Z.div_div by lia. f_equal. apply Z.pow_add_r; lia. }
    rewrite EV.
    replace (N - (k + k1)) with (N - k - k1) by (clearbody k k1; clear; lia).
    assert (K : k <= N /\ k1 <= N - k) by (assert (0 <= k1) by (unfold k1, l1; clear -L2 X2; lia); clearbody k k1; clear -Hk H4; lia).
    eapply st_match; (eassumption || apply K).
Qed.

Lemma astep_sym lit off f V N o b : wf_mode (ASyms lit off) -> astep (A (ASyms lit off) f V N o) b ->
  (exists k o', sym_step lit off V o k o' /\ k <= N) \/ (decodes lit V 256 /\ len_of lit 256 <= N /\ b = A (after_block f) f (V / 2 ^ len_of lit 256) (N - len_of lit 256) o).
Proof.
  intros W S. inversion S; subst.
  - left. exists (len_of lit s), (o ++ [s]). split; [constructor; assumption|assumption].
  - right. auto.
  - left. eexists _, _. split; [eapply sym_match; eassumption|]. match goal with H1 : k <= N, H2 : k1 <= N1 |- _ => clear -H1 H2 end. subst k1 l1 N1 k l. lia.
Qed.
