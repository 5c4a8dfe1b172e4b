(* The two functions. *)
From Verif Require Import Base Bits Algorithm_Model PixelOps_Model PixelOps_Spec PixelOps_Proofs Interp_Model Interp_Spec Interp_Proofs Interp_Proofs2 Interp_Proofs3.
Ltac Zify.zify_post_hook ::= idtac.

Lemma split32 c : 0 <= c < 2 ^ 32 -> c = pack32 (chan 8 c 3) (chan 8 c 2) (chan 8 c 1) (chan 8 c 0).
Proof.
  intros H. unfold chan, pack32. change (2 ^ (8 * 3)) with 16777216. change (2 ^ (8 * 2)) with 65536. change (2 ^ (8 * 1)) with 256. change (2 ^ (8 * 0)) with 1. change (2 ^ 24) with 16777216. change (2 ^ 16) with 65536. change (2 ^ 8) with 256.
  change (2 ^ 32) with 4294967296 in H. Z.div_mod_to_equations. lia.
Qed.
Lemma split64 c : 0 <= c < 2 ^ 64 -> c = pack64 (chan 16 c 3) (chan 16 c 2) (chan 16 c 1) (chan 16 c 0).
Proof.
  intros H. unfold chan, pack64. change (2 ^ (16 * 3)) with 281474976710656. change (2 ^ (16 * 2)) with 4294967296. change (2 ^ (16 * 1)) with 65536. change (2 ^ (16 * 0)) with 1. change (2 ^ 48) with 281474976710656. change (2 ^ 32) with 4294967296. change (2 ^ 16) with 65536.
  change (2 ^ 64) with 18446744073709551616 in H. Z.div_mod_to_equations. lia.
Qed.
Lemma premul32_stop c : 0 <= c < 2 ^ 32 -> cvt_prgb32_from_argb32 c = stop_pixel 8 c.
Proof.
  intros H. rewrite (split32 c H) at 1. rewrite premul32_ok by apply (chan_range 8 _ _ ltac:(lia)). reflexivity.
Qed.
Lemma premul64_stop c : 0 <= c < 2 ^ 64 -> cvt_prgb64_from_argb64 c = stop_pixel 16 c.
Proof.
  intros H. rewrite (split64 c H) at 1. rewrite premul64_ok by apply (chan_range 16 _ _ ltac:(lia)). reflexivity.
Qed.
Lemma hi_byte c i : 0 <= i -> Z.land (Z.shiftr c (16 * i + 8)) 255 = chan 16 c i / 256.
Proof.
  intros Hi. change 255 with (Z.ones 8). rewrite Z.land_ones by lia. rewrite Z.shiftr_div_pow2 by lia. unfold chan. rewrite Z.pow_add_r by lia.
  rewrite <- Z.div_div by (try apply Z.pow_pos_nonneg; try apply Z.pow_nonzero; lia). generalize (c / 2 ^ (16 * i)). intros z. change (2 ^ 8) with 256. change (2 ^ 16) with 65536. Z.div_mod_to_equations. lia.
Qed.
Lemma conv32 c : rgba32_of_rgba64 c = pack32 (chan 16 c 3 / 256) (chan 16 c 2 / 256) (chan 16 c 1 / 256) (chan 16 c 0 / 256).
Proof.
  unfold rgba32_of_rgba64. change 56 with (16 * 3 + 8). change 40 with (16 * 2 + 8). replace (Z.shiftr c 24) with (Z.shiftr c (16 * 1 + 8)) by reflexivity. replace (Z.shiftr c 8) with (Z.shiftr c (16 * 0 + 8)) by reflexivity.
  rewrite !hi_byte by lia. assert (B : forall i, 0 <= chan 16 c i / 256 < 256).
  { intros i. pose proof (chan_range 16 c i ltac:(lia)) as R. change (2 ^ 16) with 65536 in R. Z.div_mod_to_equations. lia. }
  pose proof (B 0). pose proof (B 1). pose proof (B 2). pose proof (B 3).
  generalize dependent (chan 16 c 3 / 256). generalize dependent (chan 16 c 2 / 256). generalize dependent (chan 16 c 1 / 256). generalize dependent (chan 16 c 0 / 256). clear. intros b Hb g Hg r Hr a Ha.
  rewrite !Z.shiftl_mul_pow2 by lia. rewrite (lor_mul_add b g 8) by (change (2 ^ 8) with 256; lia). rewrite lor_mul_add by (change (2 ^ 16) with 65536; change (2 ^ 24) with 16777216; lia).
  replace (a * 2 ^ 24 + r * 2 ^ 16) with ((a * 2 ^ 8 + r) * 2 ^ 16) by (change (2 ^ 24) with (2 ^ 8 * 2 ^ 16); ring). rewrite lor_mul_add by (change (2 ^ 16) with 65536; change (2 ^ 8) with 256; lia).
  unfold pack32. change (2 ^ 24) with (2 ^ 8 * 2 ^ 16). ring.
Qed.
Lemma conv32_range c : 0 <= rgba32_of_rgba64 c < 2 ^ 32.
Proof.
  rewrite conv32. assert (B : forall i, 0 <= chan 16 c i / 256 < 256).
  { intros i. pose proof (chan_range 16 c i ltac:(lia)) as R. change (2 ^ 16) with 65536 in R. Z.div_mod_to_equations. lia. }
  pose proof (B 0). pose proof (B 1). pose proof (B 2). pose proof (B 3). unfold pack32. change (2 ^ 24) with 16777216. change (2 ^ 16) with 65536. change (2 ^ 8) with 256. change (2 ^ 32) with 4294967296. lia.
Qed.

Definition colors (l : list (Z * Z)) : Prop := Forall (fun s => 0 <= snd s < 2 ^ 64) l.
Definition stops32 (l : list (Z * Z)) : list (Z * Z) := map (fun s => (fst s, rgba32_of_rgba64 (snd s))) l.

Lemma table32 t stops : stops <> [] -> 1 <= Z.of_nat (length t) <= 2 ^ 22 -> ordered 0 ((Z.of_nat (length t) - 1) * 256) stops -> colors stops ->
  let first := rgba32_of_rgba64 (snd (hd (0, 0) stops)) in
  exists t', interpolate32 t (Z.of_nat (length t)) stops = Ok t' /\ length t' = length t /\ get t' 0 = stop_pixel 8 first /\
  forall k, 0 < k < Z.of_nat (length t) -> shows 8 ((0, first) :: stops32 stops) k (get t' k).
Proof.
  intros NE Hl O C. apply (table_ok 8 (2 ^ 22) ltac:(lia) ltac:(lia) rgba32_of_rgba64 cvt_prgb32_from_argb32 span32 (fun c => 0 <= c < 2 ^ 32)); try assumption; try lia.
  - apply premul32_stop.
  - intros. apply span32_ok; assumption.
  - apply Forall_forall. intros s _. apply conv32_range.
Qed.
Lemma table64 t stops : stops <> [] -> 1 <= Z.of_nat (length t) <= 2 ^ 14 -> ordered 0 ((Z.of_nat (length t) - 1) * 256) stops -> colors stops ->
  let first := snd (hd (0, 0) stops) in
  exists t', interpolate64 t (Z.of_nat (length t)) stops = Ok t' /\ length t' = length t /\ get t' 0 = stop_pixel 16 first /\
  forall k, 0 < k < Z.of_nat (length t) -> shows 16 ((0, first) :: stops) k (get t' k).
Proof.
  intros NE Hl O C first.
  destruct (table_ok 16 (2 ^ 14) ltac:(lia) ltac:(lia) (fun c => c) cvt_prgb64_from_argb64 span64 (fun c => 0 <= c < 2 ^ 64) premul64_stop (fun c0 c1 n A B D => span64_ok c0 c1 n A B D) t stops NE ltac:(lia) O C) as (t' & E & L & G & S).
  exists t'. split; [exact E|]. split; [exact L|]. split; [exact G|]. intros k Hk. specialize (S k Hk).
  replace (map (conv2 (fun c => c)) stops) with stops in S; [exact S|]. clear. induction stops as [|[p c] l IH]; cbn [map conv2]; [reflexivity|]. unfold conv2 at 1. cbn [fst snd]. f_equal. exact IH.
Qed.

(* the last stop at or before an entry is unique *)
Lemma last_unique k l : forall l' p c r p' c' r', l ++ (p, c) :: r = l' ++ (p', c') :: r' -> p / 256 <= k -> p' / 256 <= k ->
  Forall (fun s : Z * Z => k < fst s / 256) r -> Forall (fun s : Z * Z => k < fst s / 256) r' -> p = p' /\ c = c' /\ r = r'.
Proof.
  induction l as [|x l IH]; intros l' p c r p' c' r' E Hp Hp' F F'; destruct l' as [|x' l']; cbn [app] in E; inversion E; subst; auto.
  - exfalso. rewrite Forall_app in F. destruct F as [_ F]. inversion F; subst. cbn [fst] in *. lia.
  - exfalso. rewrite Forall_app in F'. destruct F' as [_ F']. inversion F'; subst. cbn [fst] in *. lia.
  - eapply IH; eauto.
Qed.
Lemma shows_stop w l p c r k v : k = p / 256 -> Forall (fun s => k < fst s / 256) r -> shows w (l ++ (p, c) :: r) k v -> v = stop_pixel w c.
Proof.
  intros Hk F (l' & p' & c' & r' & E & Hp' & F' & M). destruct (last_unique k _ _ _ _ _ _ _ _ E ltac:(lia) Hp' F F') as (<- & <- & <-).
  destruct r as [|[q d] r]; [exact M|]. subst k. rewrite Z.eqb_refl in M. exact M.
Qed.

(* every entry is a premultiplied pixel *)
Definition good_pixel (w lo v : Z) : Prop := exists a r g b, v = pack w a r g b /\ 0 <= r <= a /\ 0 <= g <= a /\ 0 <= b <= a /\ lo <= a <= 2 ^ w - 1.
Lemma premultiplied_good w lo a r g b : 1 <= w -> 0 <= lo -> lo <= a <= 2 ^ w - 1 -> 0 <= r <= 2 ^ w - 1 -> 0 <= g <= 2 ^ w - 1 -> 0 <= b <= 2 ^ w - 1 -> good_pixel w lo (premultiplied w a r g b).
Proof.
  intros Hw Hlo Ha Hr Hg Hb. assert (P : 0 < 2 ^ w - 1) by (assert (2 ^ 1 <= 2 ^ w) by (apply Z.pow_le_mono_r; lia); change (2 ^ 1) with 2 in *; lia).
  unfold good_pixel, premultiplied. do 4 eexists. split; [reflexivity|]. split; [apply round_div_le; lia|]. split; [apply round_div_le; lia|]. split; [apply round_div_le; lia|lia].
Qed.
Lemma stop_good w lo c : 1 <= w -> 0 <= lo <= chan w c 3 -> good_pixel w lo (stop_pixel w c).
Proof.
  intros Hw H. unfold stop_pixel. pose proof (chan_range w c 3 ltac:(lia)). pose proof (chan_range w c 2 ltac:(lia)). pose proof (chan_range w c 1 ltac:(lia)). pose proof (chan_range w c 0 ltac:(lia)). apply premultiplied_good; lia.
Qed.
Lemma shows_good w lo stops k v : 1 <= w -> 0 <= lo -> Forall (fun s => lo <= chan w (snd s) 3) stops -> shows w stops k v -> good_pixel w lo v.
Proof.
  intros Hw Hlo A (l & p & c & r & E & _ & _ & M). rewrite E in A. apply Forall_app in A. destruct A as [_ A]. inversion A as [|? ? A1 A2]; subst. cbn [snd] in A1.
  assert (S : v = stop_pixel w c -> good_pixel w lo v) by (intros ->; apply stop_good; lia).
  destruct r as [|[q c'] r]; [auto|]. destruct (p / 256 =? k); [auto|]. inversion A2 as [|? ? B1 B2]; subst. cbn [snd] in B1.
  destruct M as (a & r' & g & b & -> & [N3 _] & [N2 _] & [N1 _] & [N0 _]).
  pose proof (chan_range w c 3 ltac:(lia)). pose proof (chan_range w c 2 ltac:(lia)). pose proof (chan_range w c 1 ltac:(lia)). pose proof (chan_range w c 0 ltac:(lia)).
  pose proof (chan_range w c' 3 ltac:(lia)). pose proof (chan_range w c' 2 ltac:(lia)). pose proof (chan_range w c' 1 ltac:(lia)). pose proof (chan_range w c' 0 ltac:(lia)).
  apply premultiplied_good; lia.
Qed.

Lemma between_same w c m n v : between w c c m n v -> v = stop_pixel w c.
Proof.
  intros (a & r & g & b & -> & [A _] & [R _] & [G _] & [B _]). unfold stop_pixel.
  rewrite !Z.min_id, !Z.max_id in *. f_equal; lia.
Qed.
(* before the first stop, and behind the last one *)
Lemma shows_before w c p stops k v : 0 < k -> k < p / 256 -> Forall (fun s => p <= fst s) stops -> shows w ((0, c) :: (p, c) :: stops) k v -> v = stop_pixel w c.
Proof.
  intros H0 Hk F S. assert (T : Forall (fun s : Z * Z => k < fst s / 256) ((p, c) :: stops)).
  { constructor; [exact Hk|]. eapply Forall_impl; [|exact F]. intros s Hs. cbv beta in *. pose proof (Z.div_le_mono p (fst s) 256 ltac:(lia) Hs). lia. }
  destruct S as (l & p' & c' & r & E & Hp & F' & M).
  destruct (last_unique k [] l 0 c ((p, c) :: stops) p' c' r E ltac:(change (0 / 256) with 0; lia) Hp T F') as (<- & <- & <-).
  change (0 / 256) with 0 in M. replace (0 =? k) with false in M by (symmetry; apply Z.eqb_neq; lia). apply (between_same _ _ _ _ _ M).
Qed.
Lemma shows_after w l p c k v : p / 256 <= k -> shows w (l ++ [(p, c)]) k v -> v = stop_pixel w c.
Proof.
  intros Hk (l' & p' & c' & r' & E & Hp' & F' & M). destruct (last_unique k _ _ _ _ _ _ _ _ E Hk Hp' (Forall_nil _) F') as (<- & <- & <-). exact M.
Qed.
Lemma ordered_from p0 last l : ordered p0 last l -> Forall (fun s => p0 <= fst s <= last) l.
Proof.
  revert p0. induction l as [|[p c] l IH]; intros p0; [constructor|]. intros [H O]. constructor; [exact H|]. eapply Forall_impl; [|exact (IH p O)]. intros s Hs. cbv beta in *. lia.
Qed.
