(* Proofs for the cmap reader: field reads, binary searches, glyph lookup of the two searched formats. *)
From Verif Require Import Base CMap_Model CMap_Spec.
Ltac Zify.zify_post_hook ::= idtac.

Lemma rd_ok t p : 0 <= p < size t -> rd t p = Ok (byte t p).
Proof.
  unfold rd, byte, size. intros H. destruct (p <? 0) eqn:E; [lia|].
  destruct (nth_error t (Z.to_nat p)) eqn:N.
  - rewrite (nth_error_nth t (Z.to_nat p) 0 N). reflexivity.
  - apply nth_error_None in N. lia.
Qed.
Lemma u8_ok t p : 0 <= p < size t -> u8 t p = Ok (byte t p).
Proof. apply rd_ok. Qed.
Lemma u16_ok t p : 0 <= p -> p + 2 <= size t -> u16 t p = Ok (be16 t p).
Proof. intros A B. unfold u16. rewrite rd_ok by lia. cbn [bind]. rewrite rd_ok by lia. reflexivity. Qed.
Lemma u32_ok t p : 0 <= p -> p + 4 <= size t -> u32 t p = Ok (be32 t p).
Proof. intros A B. unfold u32. rewrite u16_ok by lia. cbn [bind]. rewrite u16_ok by lia. reflexivity. Qed.

Lemma byte_range t p : bytes t -> 0 <= byte t p < 256.
Proof.
  intros B. unfold byte. destruct (nth_in_or_default (Z.to_nat p) t 0) as [I|E].
  - unfold bytes in B. rewrite Forall_forall in B. apply (B _ I).
  - rewrite E. lia.
Qed.
Lemma be16_range t p : bytes t -> 0 <= be16 t p < 65536.
Proof. intros B. unfold be16. pose proof (byte_range t p B). pose proof (byte_range t (p + 1) B). lia. Qed.
Lemma be32_range t p : bytes t -> 0 <= be32 t p < 4294967296.
Proof. intros B. unfold be32. pose proof (be16_range t p B). pose proof (be16_range t (p + 2) B). lia. Qed.

Lemma land_even i : Z.land i (Z.lnot 1) = 2 * (i / 2).
Proof.
  rewrite <- Z.ldiff_land. change 1 with (Z.ones 1). rewrite Z.ldiff_ones_r by lia.
  rewrite Z.shiftr_div_pow2, Z.shiftl_mul_pow2 by lia. change (2 ^ 1) with 2. lia.
Qed.
Lemma shiftr1 i : Z.shiftr i 1 = i / 2.
Proof. rewrite Z.shiftr_div_pow2 by lia. reflexivity. Qed.
Lemma half i : 0 < i -> 2 * (i / 2) <= i < 2 * (i / 2) + 2 /\ 2 * ((i - 1) / 2) <= i - 1 < 2 * ((i - 1) / 2) + 2.
Proof. intros H. pose proof (Z.div_mod i 2). pose proof (Z.mod_pos_bound i 2). pose proof (Z.div_mod (i - 1) 2). pose proof (Z.mod_pos_bound (i - 1) 2). lia. Qed.
Lemma land_low x : Z.land x 65535 = x mod 65536.
Proof. change 65535 with (Z.ones 16). rewrite Z.land_ones by lia. reflexivity. Qed.
Lemma low_w32 x : Z.land (w32 x) 65535 = x mod 65536.
Proof.
  rewrite land_low. unfold w32. pose proof (Z.div_mod x 4294967296). 
  rewrite (Z.mod_eq x 4294967296) by lia.
  replace (x - 4294967296 * (x / 4294967296)) with (x + (- 65536 * (x / 4294967296)) * 65536) by lia.
  apply Z_mod_plus_full.
Qed.

(* the segments lo .. lo + k - 1 are in order *)
Definition ordered (first last : Z -> Z) (n : Z) : Prop :=
  (forall i, 0 <= i < n -> first i <= last i) /\ (forall i j, 0 <= i < j -> j < n -> last i < first j).

Lemma ordered_steps first last n :
  (forall i, 0 <= i < n -> first i <= last i) -> (forall i, 0 <= i < n - 1 -> last i < first (i + 1)) -> ordered first last n.
Proof.
  intros A B. split; [exact A|]. intros i j Hi Hj.
  assert (H : forall d, (0 <= d)%nat -> forall j, j = i + 1 + Z.of_nat d -> j < n -> last i < first j).
  { induction d; intros _ j' E L.
    - subst j'. replace (i + 1 + Z.of_nat 0) with (i + 1) by lia. apply B. lia.
    - assert (last i < first (j' - 1)) by (apply IHd; lia).
      pose proof (A (j' - 1)). pose proof (B (j' - 1)). replace (j' - 1 + 1) with j' in * by lia. lia. }
  apply (H (Z.to_nat (j - i - 1))); lia.
Qed.

(* what a search for uc among the n ordered segments returns *)
Definition found (first last : Z -> Z) (uc lo k : Z) (j : option Z) : Prop :=
  match j with
  | Some j => lo <= j < lo + k /\ first j <= uc <= last j
  | None => forall j, lo <= j < lo + k -> ~ (first j <= uc <= last j)
  end.

Section Search4.
  Context (t : list Z) (off nseg n : Z) (B : bytes t) (Hoff : 0 <= off) (Hn : 0 <= n <= nseg)
          (Hsz : off + 16 + 8 * nseg <= size t).
  Let fst4 i := be16 t (off + 16 + 2 * nseg + 2 * i).
  Let lst4 i := be16 t (off + 14 + 2 * i).
  Context (O : ordered fst4 lst4 n).

  Lemma find4_ok uc fuel : forall lo i, 0 <= lo -> 0 <= i -> lo + i <= n -> (Z.to_nat i <= fuel)%nat ->
    exists j, find4 fuel t nseg uc (off + 14 + 2 * lo) i = Ok (option_map (fun j => (off + 14 + 2 * j, fst4 j, lst4 j)) j) /\ found fst4 lst4 uc lo i j.
  Proof using B Hoff Hn Hsz O.
    induction fuel; intros lo i Hlo Hi Hle Hf; cbn [find4].
    - destruct (Z.eqb_spec i 0) as [->|]; [|lia]. exists None. split; [reflexivity|]. intros j Hj. lia.
    - destruct (Z.eqb_spec i 0) as [->|_n]; [exists None; split; [reflexivity|intros j Hj; lia]|].
      rewrite land_even. rewrite !shiftr1. destruct (half i) as [H1 H2]; [lia|].
      set (m := lo + i / 2) in *. replace (off + 14 + 2 * lo + 2 * (i / 2)) with (off + 14 + 2 * m) by (unfold m; lia).
      assert (Hm : lo <= m < lo + i) by (unfold m; lia).
      rewrite u16_ok by lia. cbn [bind]. fold (lst4 m).
      destruct O as [O1 O2].
      destruct (Z.ltb_spec (lst4 m) uc) as [L|L].
      + replace (off + 14 + 2 * m + 2) with (off + 14 + 2 * (m + 1)) by lia.
        destruct (IHfuel (m + 1) ((i - 1) / 2)) as [j [E F]]; [unfold m in *; lia..|].
        exists j. split; [exact E|]. destruct j as [j|]; cbn in F |- *.
        * destruct F. split; [unfold m in *; lia|assumption].
        * intros j Hj. destruct (Z_le_gt_dec j m) as [Le|Gt].
          -- destruct (Z.eq_dec j m) as [->|]; [lia|]. pose proof (O2 j m). pose proof (O1 m). lia.
          -- apply F. unfold m in *; lia.
      + replace (off + 14 + 2 * m + 2 + nseg * 2) with (off + 16 + 2 * nseg + 2 * m) by lia.
        rewrite u16_ok by lia. cbn [bind]. fold (fst4 m).
        destruct (Z.leb_spec (fst4 m) uc) as [L2|L2].
        * exists (Some m). split; [reflexivity|]. cbn. lia.
        * destruct (IHfuel lo (i / 2)) as [j [E F]]; [unfold m in *; lia..|].
          exists j. split; [exact E|]. destruct j as [j|]; cbn in F |- *.
          -- destruct F. split; [unfold m in *; lia|assumption].
          -- intros j Hj. destruct (Z_lt_ge_dec j m) as [Lt|Ge]; [apply F; unfold m in *; lia|].
             destruct (Z.eq_dec j m) as [->|]; [lia|]. pose proof (O2 m j). pose proof (O1 m). lia.
  Qed.
End Search4.

Section Search12.
  Context (t : list Z) (off n : Z) (B : bytes t) (Hoff : 0 <= off) (Hn : 0 <= n) (Hsz : off + 16 + 12 * n <= size t).
  Context (O : ordered (grp_first t off) (grp_last t off) n).

  Lemma find12_ok uc fuel : forall lo i, 0 <= lo -> 0 <= i -> lo + i <= n -> (Z.to_nat i <= fuel)%nat ->
    exists j, find12 fuel t uc (off + 16 + 12 * lo) i = Ok (option_map (fun j => (grp_first t off j, grp_last t off j, grp_glyph t off j)) j) /\
      found (grp_first t off) (grp_last t off) uc lo i j.
  Proof using B Hoff Hn Hsz O.
    induction fuel; intros lo i Hlo Hi Hle Hf; cbn [find12].
    - destruct (Z.eqb_spec i 0) as [->|]; [|lia]. exists None. split; [reflexivity|]. intros j Hj. lia.
    - destruct (Z.eqb_spec i 0) as [->|_n]; [exists None; split; [reflexivity|intros j Hj; lia]|].
      rewrite !shiftr1. destruct (half i) as [H1 H2]; [lia|].
      set (m := lo + i / 2) in *. replace (off + 16 + 12 * lo + 12 * (i / 2)) with (off + 16 + 12 * m) by (unfold m; lia).
      assert (Hm : lo <= m < lo + i) by (unfold m; lia).
      rewrite u32_ok by lia. cbn [bind]. fold (grp_last t off m).
      destruct O as [O1 O2].
      destruct (Z.ltb_spec (grp_last t off m) uc) as [L|L].
      + replace (off + 16 + 12 * m + 12) with (off + 16 + 12 * (m + 1)) by lia.
        destruct (IHfuel (m + 1) ((i - 1) / 2)) as [j [E F]]; [unfold m in *; lia..|].
        exists j. split; [exact E|]. destruct j as [j|]; cbn in F |- *.
        * destruct F. split; [unfold m in *; lia|assumption].
        * intros j Hj. destruct (Z_le_gt_dec j m) as [Le|Gt].
          -- destruct (Z.eq_dec j m) as [->|]; [lia|]. pose proof (O2 j m). pose proof (O1 m). lia.
          -- apply F. unfold m in *; lia.
      + rewrite u32_ok by lia. cbn [bind]. fold (grp_first t off m).
        destruct (Z.ltb_spec uc (grp_first t off m)) as [L2|L2].
        * destruct (IHfuel lo (i / 2)) as [j [E F]]; [unfold m in *; lia..|].
          exists j. split; [exact E|]. destruct j as [j|]; cbn in F |- *.
          -- destruct F. split; [unfold m in *; lia|assumption].
          -- intros j Hj. destruct (Z_lt_ge_dec j m) as [Lt|Ge]; [apply F; unfold m in *; lia|].
             destruct (Z.eq_dec j m) as [->|]; [lia|]. pose proof (O2 m j). pose proof (O1 m). lia.
        * rewrite u32_ok by lia. cbn [bind]. exists (Some m). split; [reflexivity|]. cbn. lia.
  Qed.
End Search12.

(* the glyphs and the state that a mapping of every character by g reports *)
Definition step_u (i : Z) (u : Z * Z) (g : Z) : Z * Z := if g =? 0 then undef i u else u.
Fixpoint fold_u (gs : list Z) (i : Z) (u : Z * Z) : Z * Z :=
  match gs with [] => u | g :: gs' => fold_u gs' (i + 1) (step_u i u g) end.
Definition result (g : Z -> Z) (text : list Z) (i : Z) (u : Z * Z) : list Z * map_state :=
  (map g text, let u' := fold_u (map g text) i u in MapState (i + Z.of_nat (length text)) (fst u') (snd u')).

Lemma emit_result g uc text i u : 
  emit (g uc) (Ok (result g text (i + 1) (step_u i u (g uc)))) = Ok (result g (uc :: text) i u).
Proof. unfold emit, result. cbn [bind map fold_u length].
  replace (i + 1 + Z.of_nat (length text)) with (i + Z.of_nat (S (length text))) by lia. reflexivity. Qed.

Lemma map_each_ok f g : forall text i u, (forall uc, In uc text -> f uc = Ok (g uc)) -> map_each f text i u = Ok (result g text i u).
Proof.
  induction text as [|uc text IH]; intros i u H; cbn [map_each].
  - unfold result. cbn. rewrite Z.add_0_r. reflexivity.
  - rewrite H by (left; reflexivity). cbn [bind].
    change (if g uc =? 0 then undef i u else u) with (step_u i u (g uc)).
    rewrite IH by (intros; apply H; right; assumption). apply emit_result.
Qed.

Lemma fold_u_zeros gs : forall i u, 0 <= snd u -> snd (fold_u gs i u) = snd u + zeros gs.
Proof.
  induction gs as [|g gs IH]; intros i u H; cbn [fold_u].
  - unfold zeros. cbn. lia.
  - unfold step_u, undef, zeros in *. cbn [filter]. destruct (g =? 0); rewrite IH; cbn [snd length]; lia.
Qed.
Lemma fold_u_first gs : forall i u, 0 < snd u -> fst (fold_u gs i u) = fst u.
Proof.
  induction gs as [|g gs IH]; intros i u H; cbn [fold_u]; [reflexivity|].
  unfold step_u, undef. destruct (g =? 0); rewrite IH; cbn [fst snd]; try lia. destruct (Z.eqb_spec (snd u) 0); [lia|reflexivity].
Qed.
Lemma fold_u_spec gs : forall i, 
  (zeros gs = 0 /\ fst (fold_u gs i (SIZE_MAX, 0)) = SIZE_MAX) \/
  (exists a b, gs = a ++ 0 :: b /\ zeros a = 0 /\ fst (fold_u gs i (SIZE_MAX, 0)) = i + Z.of_nat (length a)).
Proof.
  induction gs as [|g gs IH]; intros i.
  - left. split; reflexivity.
  - cbn [fold_u]. unfold step_u at 1 2. destruct (Z.eqb_spec g 0) as [->|N].
    + right. exists [], gs. repeat split. cbn [undef fst snd]. rewrite fold_u_first; cbn; lia.
    + destruct (IH (i + 1)) as [[Z1 Z2]|(a & b & E & Z1 & Z2)].
      * left. unfold zeros in *. cbn [filter]. destruct (Z.eqb_spec g 0); [contradiction|]. split; assumption.
      * right. exists (g :: a), b. subst gs. split; [reflexivity|]. unfold zeros in *. cbn [filter length].
        destruct (Z.eqb_spec g 0); [contradiction|]. split; [exact Z1|]. rewrite Z2. lia.
Qed.
Lemma result_state g text :
  let r := result g text 0 (SIZE_MAX, 0) in
  fst r = map g text /\ glyph_count (snd r) = Z.of_nat (length text) /\ undefined_count (snd r) = zeros (map g text) /\
  first_zero (map g text) (undefined_first (snd r)).
Proof.
  unfold result. cbn [fst snd glyph_count undefined_count undefined_first]. repeat split.
  - rewrite fold_u_zeros by (cbn; lia). reflexivity.
  - destruct (fold_u_spec (map g text) 0) as [H|H]; [left; exact H|right; exact H].
Qed.
