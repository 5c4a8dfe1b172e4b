(* The operators of the reference pipelines, component by component. *)
From Verif Require Import Base Bits PixelOps_Spec PixelOps_Proofs PixGen_Model PixGen_Spec PixGen_Proofs.
Ltac Zify.zify_post_hook ::= idtac.

Definition impl64 (o : pixop) := match o with OpSrcCopy => src_copy64 | OpSrcOver => src_over64 | OpPlus => plus64 end.
Definition impl32 (o : pixop) := match o with OpSrcCopy => src_copy32 | OpSrcOver => src_over32 | OpPlus => plus32 end.
Definition impl8 (o : pixop) := match o with OpSrcCopy => src_copy8 | OpSrcOver => src_over8 | OpPlus => plus8 end.
Definition result (o : pixop) (m : option Z) (d s sa : Z) : Z :=
  match m with None => blend o d s sa | Some m => blend_masked o d s sa m end.
Definition mask_ok (m : option Z) : Prop := match m with None => True | Some m => u8 m end.

Lemma neg_ok m : u8 m -> Z.lxor m 0xFF = 255 - m.
Proof.
  unfold u8. intros M. assert (E : forallb (fun m => Z.lxor m 0xFF =? 255 - m) (map Z.of_nat (seq 0 256)) = true) by (vm_compute; reflexivity).
  rewrite forallb_forall in E. specialize (E m). apply Z.eqb_eq, E. apply in_map_iff. exists (Z.to_nat m). split; [lia|]. apply in_seq. lia.
Qed.
Lemma p_a_ok a b c d : u8 a -> u8 b -> u8 c -> u8 d -> p_a (b4 a b c d) = d.
Proof.
  unfold u8. intros A B C D. unfold p_a, b4. rewrite Z.shiftr_div_pow2 by lia.
  assert ((a + 2 ^ 8 * (b + 2 ^ 8 * (c + 2 ^ 8 * d))) / 2 ^ 24 = d) as ->; [|apply land_ff; exact D].
  symmetry. change (2 ^ 8) with 256. change (2 ^ 24) with 16777216. apply (Z.div_unique _ _ _ (a + 256 * (b + 256 * c))); lia.
Qed.
Lemma scaled_lane x m : u8 x -> u8 m -> lane255 (x * m) = scaled x m.
Proof. unfold u8. intros. apply lane255_ok. nia. Qed.
Lemma prod_range x m : u8 x -> u8 m -> 0 <= x * m <= 65025.
Proof. unfold u8. nia. Qed.
Lemma prod_lt x m : u8 x -> u8 m -> x * m < 2 ^ 16.
Proof. unfold u8. change (2 ^ 16) with 65536. nia. Qed.

Lemma round_mono x y : x <= y -> round_div x 255 <= round_div y 255.
Proof. intros. unfold round_div. apply Z.div_le_mono; lia. Qed.
Lemma round_mul k : round_div (k * 255) 255 = k.
Proof. unfold round_div. symmetry. apply (Z.div_unique _ _ _ 255); lia. Qed.
Lemma scaled_range x m : u8 x -> u8 m -> 0 <= scaled x m <= m.
Proof.
  unfold u8, scaled. intros X M. split.
  - unfold round_div. apply Z.div_pos; nia.
  - rewrite <- (round_mul m) at 2. apply round_mono. nia.
Qed.
Lemma scaled_le x m : u8 x -> u8 m -> 0 <= scaled x m <= x.
Proof. intros X M. unfold scaled. rewrite Z.mul_comm. apply (scaled_range m x M X). Qed.
Lemma scaled_mono x y m : u8 m -> x <= y -> scaled x m <= scaled y m.
Proof. unfold u8, scaled. intros. apply round_mono. nia. Qed.
Lemma scaled_u8 x m : u8 x -> u8 m -> u8 (scaled x m).
Proof. intros X M. pose proof (scaled_range x m X M). unfold u8 in *. lia. Qed.
Lemma neg_u8 m : u8 m -> u8 (255 - m). Proof. unfold u8. lia. Qed.
Lemma copy_range d s m : u8 d -> u8 s -> u8 m -> 0 <= d * (255 - m) + s * m <= 65025.
Proof. unfold u8. nia. Qed.
Lemma round_u8 x : 0 <= x <= 65025 -> u8 (round_div x 255).
Proof.
  intros X. unfold u8. pose proof (round_mono 0 x ltac:(lia)). pose proof (round_mono x (255 * 255) ltac:(lia)).
  rewrite round_mul in *. change (round_div 0 255) with 0 in *. lia.
Qed.
Lemma min_u8 x : 0 <= x -> u8 (Z.min 255 x). Proof. unfold u8. lia. Qed.

Lemma scale64 a b c d m : u8 a -> u8 b -> u8 c -> u8 d -> u8 m ->
  div255_64 (mul64 (unpack64 (b4 a b c d)) m) = l4 (scaled a m) (scaled c m) (scaled b m) (scaled d m).
Proof.
  intros A B C D M. rewrite unpack64_ok by assumption.
  rewrite mul64_ok by (try (apply prod_lt; assumption); unfold u8 in *; lia).
  rewrite div255_64_ok by (apply prod_range; assumption). rewrite !scaled_lane by assumption. reflexivity.
Qed.
Lemma scale32 a b c d m : u8 a -> u8 b -> u8 c -> u8 d -> u8 m ->
  div255_32 (mul32 (unpack32 (b4 a b c d)) m) = (l2 (scaled a m) (scaled c m), l2 (scaled b m) (scaled d m)).
Proof.
  intros A B C D M. rewrite unpack32_ok by assumption. unfold mul32. cbn [fst snd].
  rewrite !mul_l2 by (try (apply prod_lt; assumption); unfold u8 in *; lia).
  rewrite div255_32_ok by (apply prod_range; assumption). rewrite !scaled_lane by assumption. reflexivity.
Qed.
Lemma scale8 a m : u8 a -> u8 m -> div255_8 (mul8 a m) = scaled a m.
Proof.
  intros A M. pose proof (prod_range a m A M). unfold mul8, w16, w32. rewrite (Z.mod_small _ 4294967296) by lia. rewrite Z.mod_small by lia.
  rewrite div255_8_ok by assumption. apply scaled_lane; assumption.
Qed.
Lemma pack8u_ok a : u8 a -> pack8u a = a. Proof. apply land_ff. Qed.

Lemma add_b4 a b c d e f g h : 0 <= a + e < 256 -> 0 <= b + f < 256 -> 0 <= c + g < 256 -> 0 <= d + h < 256 ->
  w32 (b4 a b c d + b4 e f g h) = b4 (a + e) (b + f) (c + g) (d + h).
Proof. intros. unfold w32, b4. change (2 ^ 8) with 256. rewrite Z.mod_small; [ring|lia]. Qed.

Lemma over_range d s sa : u8 d -> u8 s -> u8 sa -> s <= sa -> 0 <= s + scaled d (255 - sa) < 256.
Proof. intros D S A L. pose proof (scaled_range d (255 - sa) D (neg_u8 _ A)). unfold u8 in *. lia. Qed.

Lemma over64_ok a b c d e f g h : u8 a -> u8 b -> u8 c -> u8 d -> u8 e -> u8 f -> u8 g -> u8 h -> e <= h -> f <= h -> g <= h ->
  src_over64_op (b4 a b c d) (b4 e f g h) = b4 (e + scaled a (255 - h)) (f + scaled b (255 - h)) (g + scaled c (255 - h)) (h + scaled d (255 - h)).
Proof.
  intros A B C D E F G H LE LF LG. unfold src_over64_op, neg255. rewrite p_a_ok by assumption. rewrite neg_ok by assumption.
  pose proof (neg_u8 h H) as N. rewrite scale64 by assumption. rewrite pack64u_ok by (apply scaled_u8; assumption).
  apply add_b4; apply over_range; (assumption || lia).
Qed.
Lemma over32_ok a b c d e f g h : u8 a -> u8 b -> u8 c -> u8 d -> u8 e -> u8 f -> u8 g -> u8 h -> e <= h -> f <= h -> g <= h ->
  src_over32_op (b4 a b c d) (b4 e f g h) = b4 (e + scaled a (255 - h)) (f + scaled b (255 - h)) (g + scaled c (255 - h)) (h + scaled d (255 - h)).
Proof.
  intros A B C D E F G H LE LF LG. unfold src_over32_op, neg255. rewrite p_a_ok by assumption. rewrite neg_ok by assumption.
  pose proof (neg_u8 h H) as N. rewrite scale32 by assumption. rewrite pack32u_ok by (apply scaled_u8; assumption).
  apply add_b4; apply over_range; (assumption || lia).
Qed.

Lemma impl64_ok o m a b c d e f g h : u8 a -> u8 b -> u8 c -> u8 d -> u8 e -> u8 f -> u8 g -> u8 h -> mask_ok m ->
  (o = OpSrcOver -> e <= h /\ f <= h /\ g <= h) ->
  impl64 o (b4 a b c d) (b4 e f g h) m = b4 (result o m a e h) (result o m b f h) (result o m c g h) (result o m d h h).
Proof.
  intros A B C D E F G H M P. unfold impl64. destruct m as [m|]; cbn [mask_ok] in M; destruct o; unfold result, blend_masked, blend, src_copy64, src_over64, plus64.
  - rewrite neg_ok by assumption. pose proof (neg_u8 m M) as N. rewrite !unpack64_ok by assumption.
    rewrite !mul64_ok by (try (apply prod_lt; assumption); unfold u8 in *; lia).
    pose proof (copy_range a e m A E M). pose proof (copy_range b f m B F M). pose proof (copy_range c g m C G M). pose proof (copy_range d h m D H M).
    pose proof (prod_range a _ A N). pose proof (prod_range b _ B N). pose proof (prod_range c _ C N). pose proof (prod_range d _ D N).
    pose proof (prod_range e _ E M). pose proof (prod_range f _ F M). pose proof (prod_range g _ G M). pose proof (prod_range h _ H M).
    rewrite add64_ok by (change (2 ^ 16) with 65536; clear A B C D E F G H M N; lia).
    rewrite div255_64_ok by assumption. rewrite !lane255_ok by assumption. apply pack64u_ok; apply round_u8; assumption.
  - destruct (P eq_refl) as (L1 & L2 & L3). rewrite scale64 by assumption. rewrite pack64u_ok by (apply scaled_u8; assumption).
    apply over64_ok; try assumption; try (apply scaled_u8; assumption); apply scaled_mono; assumption.
  - rewrite scale64, unpack64_ok by assumption. rewrite addus8_64_ok by (try apply scaled_u8; assumption).
    apply pack64u_ok; apply min_u8; [set (k := e)|set (k := f)|set (k := g)|set (k := h)]; pose proof (scaled_range k m ltac:(assumption) M); unfold u8 in *; lia.
  - reflexivity.
  - destruct (P eq_refl) as (L1 & L2 & L3). apply over64_ok; assumption.
  - rewrite !unpack64_ok by assumption. rewrite addus8_64_ok by assumption. apply pack64u_ok; apply min_u8; unfold u8 in *; lia.
Qed.
Lemma impl32_ok o m a b c d e f g h : u8 a -> u8 b -> u8 c -> u8 d -> u8 e -> u8 f -> u8 g -> u8 h -> mask_ok m ->
  (o = OpSrcOver -> e <= h /\ f <= h /\ g <= h) ->
  impl32 o (b4 a b c d) (b4 e f g h) m = b4 (result o m a e h) (result o m b f h) (result o m c g h) (result o m d h h).
Proof.
  intros A B C D E F G H M P. unfold impl32. destruct m as [m|]; cbn [mask_ok] in M; destruct o; unfold result, blend_masked, blend, src_copy32, src_over32, plus32.
  - rewrite neg_ok by assumption. pose proof (neg_u8 m M) as N. rewrite !unpack32_ok by assumption. unfold mul32, add32. cbn [fst snd].
    rewrite !mul_l2 by (try (apply prod_lt; assumption); unfold u8 in *; lia).
    pose proof (copy_range a e m A E M). pose proof (copy_range b f m B F M). pose proof (copy_range c g m C G M). pose proof (copy_range d h m D H M).
    pose proof (prod_range a _ A N). pose proof (prod_range b _ B N). pose proof (prod_range c _ C N). pose proof (prod_range d _ D N).
    pose proof (prod_range e _ E M). pose proof (prod_range f _ F M). pose proof (prod_range g _ G M). pose proof (prod_range h _ H M).
    rewrite !add_l2 by (change (2 ^ 16) with 65536; clear A B C D E F G H M N; lia).
    rewrite div255_32_ok by assumption. rewrite !lane255_ok by assumption. apply pack32u_ok; apply round_u8; assumption.
  - destruct (P eq_refl) as (L1 & L2 & L3). rewrite scale32 by assumption. rewrite pack32u_ok by (apply scaled_u8; assumption).
    apply over32_ok; try assumption; try (apply scaled_u8; assumption); apply scaled_mono; assumption.
  - rewrite scale32, unpack32_ok by assumption. rewrite addus8_32_ok by (try apply scaled_u8; assumption).
    apply pack32u_ok; apply min_u8; [set (k := e)|set (k := f)|set (k := g)|set (k := h)]; pose proof (scaled_range k m ltac:(assumption) M); unfold u8 in *; lia.
  - reflexivity.
  - destruct (P eq_refl) as (L1 & L2 & L3). apply over32_ok; assumption.
  - rewrite !unpack32_ok by assumption. rewrite addus8_32_ok by assumption. apply pack32u_ok; apply min_u8; unfold u8 in *; lia.
Qed.
Lemma over8_ok d s : u8 d -> u8 s -> src_over8_op d s = s + scaled d (255 - s).
Proof.
  intros D S. unfold src_over8_op, neg255, w8. rewrite neg_ok by assumption. pose proof (neg_u8 s S). rewrite scale8 by assumption.
  rewrite pack8u_ok by (apply scaled_u8; assumption). apply Z.mod_small. apply over_range; (assumption || lia).
Qed.
Lemma impl8_ok o m d s : u8 d -> u8 s -> mask_ok m -> impl8 o d s m = result o m d s s.
Proof.
  intros D S M. unfold impl8. destruct m as [m|]; cbn [mask_ok] in M; destruct o; unfold result, blend_masked, blend, src_copy8, src_over8, plus8.
  - rewrite neg_ok by assumption. pose proof (neg_u8 m M) as N. pose proof (copy_range d s m D S M). pose proof (prod_range d _ D N). pose proof (prod_range s m S M).
    unfold add8, mul8, w16, w32. rewrite !(Z.mod_small (d * _)) by (rewrite ?Z.mod_small; lia). rewrite !(Z.mod_small (s * _)) by (rewrite ?Z.mod_small; lia).
    rewrite !(Z.mod_small (d * _ + _)) by (rewrite ?Z.mod_small; lia).
    rewrite div255_8_ok, lane255_ok by assumption. apply pack8u_ok, round_u8. assumption.
  - rewrite scale8 by assumption. pose proof (scaled_u8 s m S M). rewrite pack8u_ok by assumption. apply over8_ok; assumption.
  - rewrite scale8 by assumption. pose proof (scaled_u8 s m S M). rewrite addus8_8_ok by assumption. apply pack8u_ok, min_u8. unfold u8 in *. lia.
  - reflexivity.
  - apply over8_ok; assumption.
  - rewrite addus8_8_ok by assumption. apply pack8u_ok, min_u8. unfold u8 in *. lia.
Qed.

(* results are components and stay below alpha *)
Lemma result_u8 o m d s sa : u8 d -> u8 s -> u8 sa -> s <= sa -> mask_ok m -> u8 (result o m d s sa).
Proof.
  intros D S A L M. destruct m as [m|]; cbn [mask_ok] in M; destruct o; unfold result, blend_masked, blend.
  - apply round_u8, copy_range; assumption.
  - apply over_range; try apply scaled_u8; try assumption. apply scaled_mono; assumption.
  - apply min_u8. pose proof (scaled_range s m S M). unfold u8 in *. lia.
  - assumption.
  - apply over_range; assumption.
  - apply min_u8. unfold u8 in *. lia.
Qed.
Lemma result_le o m d da s sa : u8 d -> u8 da -> u8 s -> u8 sa -> d <= da -> s <= sa -> mask_ok m -> result o m d s sa <= result o m da sa sa.
Proof.
  intros D DA S A LD LS M. destruct m as [m|]; cbn [mask_ok] in M; destruct o; unfold result, blend_masked, blend.
  - apply round_mono. unfold u8 in *. nia.
  - pose proof (scaled_mono s sa m M LS). pose proof (scaled_mono d da (255 - scaled sa m) (neg_u8 _ (scaled_u8 sa m A M)) LD). lia.
  - pose proof (scaled_mono s sa m M LS). lia.
  - assumption.
  - pose proof (scaled_mono d da (255 - sa) (neg_u8 _ A) LD). lia.
  - lia.
Qed.
Lemma scaled_0 x : scaled x 0 = 0. Proof. unfold scaled. rewrite Z.mul_0_r. reflexivity. Qed.
Lemma scaled_255 x : scaled x 255 = x. Proof. apply round_mul. Qed.
Lemma result_0 o d s sa : u8 d -> result o (Some 0) d s sa = d.
Proof.
  intros D. destruct o; unfold result, blend_masked, blend; rewrite ?scaled_0.
  - rewrite Z.mul_0_r, Z.add_0_r. apply round_mul.
  - change (255 - 0) with 255. rewrite scaled_255. reflexivity.
  - unfold u8 in D. lia.
Qed.
Lemma result_255 o d s sa : result o (Some 255) d s sa = result o None d s sa.
Proof.
  destruct o; unfold result, blend_masked, blend; rewrite ?scaled_255; try reflexivity.
  replace (d * (255 - 255) + s * 255) with (s * 255) by ring. apply round_mul.
Qed.
