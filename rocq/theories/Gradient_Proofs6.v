(* Solid and opaque gradients. *)
From Verif Require Import Base Bits Gradient_Model Gradient_Spec.
Ltac Zify.zify_post_hook ::= idtac.

Lemma dig0 c m : 0 <= c -> Z.land c (256 * m) = 256 * Z.land (c / 256) m.
Proof.
  intros H. pose proof (Z.mod_pos_bound c 256 ltac:(lia)). pose proof (Z.div_mod c 256 ltac:(lia)) as E.
  rewrite E at 1. replace (256 * (c / 256) + c mod 256) with (c mod 256 + 2 ^ 8 * (c / 256)) by lia. replace (256 * m) with (0 + 2 ^ 8 * m) by lia.
  rewrite land_split by lia. rewrite Z.land_0_r. lia.
Qed.
Lemma dig1 c m : 0 <= c -> Z.land c (255 + 256 * m) = c mod 256 + 256 * Z.land (c / 256) m.
Proof.
  intros H. pose proof (Z.mod_pos_bound c 256 ltac:(lia)). pose proof (Z.div_mod c 256 ltac:(lia)) as E.
  rewrite E at 1. replace (256 * (c / 256) + c mod 256) with (c mod 256 + 2 ^ 8 * (c / 256)) by lia. replace (255 + 256 * m) with (255 + 2 ^ 8 * m) by lia.
  rewrite land_split by lia. replace (Z.land (c mod 256) 255) with (c mod 256); [lia|]. change 255 with (2 ^ 8 - 1). rewrite land_mask by lia. change (2 ^ 8) with 256. symmetry. apply Z.mod_small. lia.
Qed.
Definition mv (c : Z) : Z := Z.land c comp_mask.
Definition colors (c : Z) : Prop := 0 <= c < 2 ^ 64.
Lemma mv_eq c : colors c -> mv c = c / 2 ^ 8 mod 256 * 2 ^ 8 + c / 2 ^ 24 mod 256 * 2 ^ 24 + c / 2 ^ 40 mod 256 * 2 ^ 40 + alpha8 c * 2 ^ 56.
Proof.
  intros H. unfold colors in H. unfold mv, alpha8.
  replace comp_mask with (256 * (255 + 256 * (256 * (255 + 256 * (256 * (255 + 256 * (256 * (255 + 256 * 0)))))))) by reflexivity.
  assert (P : forall n, 0 < n -> 0 <= c / n) by (intros; apply Z.div_pos; lia).
  rewrite dig0 by lia. rewrite dig1 by (apply P; lia). rewrite Z.div_div by lia. rewrite dig0 by (apply P; lia). rewrite Z.div_div by lia. rewrite dig1 by (apply P; lia). rewrite Z.div_div by lia.
  rewrite dig0 by (apply P; lia). rewrite Z.div_div by lia. rewrite dig1 by (apply P; lia). rewrite Z.div_div by lia. rewrite dig0 by (apply P; lia). rewrite Z.div_div by lia. rewrite dig1 by (apply P; lia). rewrite Z.land_0_r.
  change (256 * 256) with (2 ^ 16). change (2 ^ 16 * 256) with (2 ^ 24). change (2 ^ 24 * 256) with (2 ^ 32). change (2 ^ 32 * 256) with (2 ^ 40). change (2 ^ 40 * 256) with (2 ^ 48). change (2 ^ 48 * 256) with (2 ^ 56). change 256 with (2 ^ 8).
  rewrite (Z.mod_small (c / 2 ^ 56)); [lia|]. split; [apply P; lia|]. apply Z.div_lt_upper_bound; lia.
Qed.
Lemma alpha_range c : colors c -> 0 <= alpha8 c < 256.
Proof. unfold colors, alpha8. intros H. split; [apply Z.div_pos; lia|apply Z.div_lt_upper_bound; lia]. Qed.
Lemma mv_same a b : colors a -> colors b -> (mv a = mv b <-> color8 a = color8 b).
Proof.
  intros A B. rewrite !mv_eq by auto. pose proof (alpha_range _ A). pose proof (alpha_range _ B).
  pose proof (Z.mod_pos_bound (a / 2 ^ 8) 256 ltac:(lia)). pose proof (Z.mod_pos_bound (a / 2 ^ 24) 256 ltac:(lia)). pose proof (Z.mod_pos_bound (a / 2 ^ 40) 256 ltac:(lia)).
  pose proof (Z.mod_pos_bound (b / 2 ^ 8) 256 ltac:(lia)). pose proof (Z.mod_pos_bound (b / 2 ^ 24) 256 ltac:(lia)). pose proof (Z.mod_pos_bound (b / 2 ^ 40) 256 ltac:(lia)).
  unfold color8. generalize dependent (a / 2 ^ 8 mod 256). generalize dependent (a / 2 ^ 24 mod 256). generalize dependent (a / 2 ^ 40 mod 256). generalize dependent (b / 2 ^ 8 mod 256). generalize dependent (b / 2 ^ 24 mod 256). generalize dependent (b / 2 ^ 40 mod 256).
  generalize dependent (alpha8 a). generalize dependent (alpha8 b). clear. intros b4 B4 a4 A4 b3 B3 b2 B2 b1 B1 a3 A3 a2 A2 a1 A1. split.
  - intros E. assert (a1 = b1) by lia. assert (a2 = b2) by lia. assert (a3 = b3) by lia. assert (a4 = b4) by lia. congruence.
  - intros E. injection E as E1 E2 E3 E4. rewrite E1, E2, E3, E4. reflexivity.
Qed.
Lemma mv_one c : colors c -> (mv c <? 18374686479671623680) = negb (alpha8 c =? 255).
Proof.
  intros A. rewrite mv_eq by auto. pose proof (alpha_range _ A). pose proof (Z.mod_pos_bound (c / 2 ^ 8) 256 ltac:(lia)). pose proof (Z.mod_pos_bound (c / 2 ^ 24) 256 ltac:(lia)). pose proof (Z.mod_pos_bound (c / 2 ^ 40) 256 ltac:(lia)).
  destruct (Z.eqb_spec (alpha8 c) 255) as [E|E]; cbn [negb]; [apply Z.ltb_ge|apply Z.ltb_lt]; lia.
Qed.
Lemma mv_zero c : colors c -> (72057594037927935 <? mv c) = negb (alpha8 c =? 0).
Proof.
  intros A. rewrite mv_eq by auto. pose proof (alpha_range _ A). pose proof (Z.mod_pos_bound (c / 2 ^ 8) 256 ltac:(lia)). pose proof (Z.mod_pos_bound (c / 2 ^ 24) 256 ltac:(lia)). pose proof (Z.mod_pos_bound (c / 2 ^ 40) 256 ltac:(lia)).
  destruct (Z.eqb_spec (alpha8 c) 0) as [E|E]; cbn [negb]; [apply Z.ltb_ge|apply Z.ltb_lt]; lia.
Qed.

Lemma info_flags_bits v f : Z.testbit (info_flags v f) 0 = (Z.testbit f 0 || (v <? 18374686479671623680)) /\ Z.testbit (info_flags v f) 1 = (Z.testbit f 1 || (72057594037927935 <? v)) /\ Z.testbit (info_flags v f) 2 = Z.testbit f 2.
Proof.
  unfold info_flags. destruct (v <? 18374686479671623680), (72057594037927935 <? v); rewrite ?Z.lor_spec; change (Z.testbit 1 0) with true; change (Z.testbit 1 1) with false; change (Z.testbit 1 2) with false; change (Z.testbit 2 0) with false; change (Z.testbit 2 1) with true; change (Z.testbit 2 2) with false;
    rewrite ?orb_false_r, ?orb_true_r; auto.
Qed.
Lemma info_loop_bits l : forall prev f, ((prev <? 18374686479671623680) = true -> Z.testbit f 0 = true) -> ((72057594037927935 <? prev) = true -> Z.testbit f 1 = true) ->
  let r := info_loop l prev f in
  Z.testbit r 0 = (Z.testbit f 0 || existsb (fun s : stop => mv (snd s) <? 18374686479671623680) l) /\
  Z.testbit r 1 = (Z.testbit f 1 || existsb (fun s : stop => 72057594037927935 <? mv (snd s)) l) /\
  Z.testbit r 2 = (Z.testbit f 2 || existsb (fun s : stop => negb (mv (snd s) =? prev)) l).
Proof.
  induction l as [|(o, c) l IH]; intros prev f H0 H1; cbv zeta; cbn [info_loop existsb snd].
  - rewrite !orb_false_r. auto.
  - fold (mv c). destruct (Z.eqb_spec (mv c) prev) as [E|E]; cbn [negb].
    + destruct (IH prev f H0 H1) as (I0 & I1 & I2). rewrite I0, I1, I2, E. cbn [orb].
      split; [|split]; auto; [destruct (prev <? 18374686479671623680); [rewrite H0 by auto; auto|auto]|destruct (72057594037927935 <? prev); [rewrite H1 by auto; auto|auto]].
    + destruct (info_flags_bits (mv c) (Z.lor f 4)) as (B0 & B1 & B2). rewrite Z.lor_spec in B0, B1, B2. change (Z.testbit 4 0) with false in B0. change (Z.testbit 4 1) with false in B1. change (Z.testbit 4 2) with true in B2. rewrite orb_false_r in B0, B1. rewrite orb_true_r in B2.
      destruct (IH (mv c) (info_flags (mv c) (Z.lor f 4))) as (I0 & I1 & I2); [intros Q; rewrite B0, Q; apply orb_true_r|intros Q; rewrite B1, Q; apply orb_true_r|].
      rewrite I0, I1, I2, B0, B1, B2. cbn [orb]. rewrite !orb_assoc, orb_true_r. auto.
Qed.
Lemma existsb_false {A} (p : A -> bool) l : existsb p l = false <-> forall x, In x l -> p x = false.
Proof. induction l as [|y l IH]; cbn [existsb In]; [split; [tauto|auto]|]. rewrite orb_false_iff, IH. split; [intros (A1 & A2) x [<-|H]; auto|intros H; auto]. Qed.

Lemma info_ok l : l <> [] -> Forall (fun s : stop => colors (snd s)) l -> exists solid opaque, gradient_info l = Some (solid, opaque) /\
  (solid = true <-> (forall s t, In s l -> In t l -> color8 (snd s) = color8 (snd t)) \/ (forall s, In s l -> alpha8 (snd s) = 0)) /\
  (opaque = true <-> forall s, In s l -> alpha8 (snd s) = 255).
Proof.
  intros Ne F. destruct l as [|(o, c) l]; [congruence|]. clear Ne. unfold gradient_info. fold (mv c). rewrite Forall_forall in F.
  set (f0 := info_flags (mv c) 0). destruct (info_flags_bits (mv c) 0) as (B0 & B1 & B2). fold f0 in B0, B1, B2. rewrite Z.bits_0 in B0, B1, B2. cbn [orb] in B0, B1.
  destruct (info_loop_bits l (mv c) f0) as (I0 & I1 & I2); [intros Q; rewrite B0; auto|intros Q; rewrite B1; auto|]. set (fl := info_loop l (mv c) f0) in *. rewrite B0 in I0. rewrite B1 in I1. rewrite B2 in I2. cbn [orb] in I2.
  assert (Fc : colors c) by (apply (F (o, c)); left; auto).
  assert (S1 : Z.testbit fl 1 = false <-> forall s, In s ((o, c) :: l) -> alpha8 (snd s) = 0).
  { rewrite I1, orb_false_iff, existsb_false, mv_zero by auto. rewrite negb_false_iff, Z.eqb_eq. cbn [In]. split.
    - intros (A & B) s [<-|H]; auto. specialize (B s H). rewrite mv_zero in B by (apply F; right; auto). apply negb_false_iff, Z.eqb_eq in B. auto.
    - intros H. split; [apply (H (o, c)); auto|]. intros s Hs. rewrite mv_zero by (apply F; right; auto). rewrite H by auto. reflexivity. }
  assert (S0 : Z.testbit fl 0 = false <-> forall s, In s ((o, c) :: l) -> alpha8 (snd s) = 255).
  { rewrite I0, orb_false_iff, existsb_false, mv_one by auto. rewrite negb_false_iff, Z.eqb_eq. cbn [In]. split.
    - intros (A & B) s [<-|H]; auto. specialize (B s H). rewrite mv_one in B by (apply F; right; auto). apply negb_false_iff, Z.eqb_eq in B. auto.
    - intros H. split; [apply (H (o, c)); auto|]. intros s Hs. rewrite mv_one by (apply F; right; auto). rewrite H by auto. reflexivity. }
  assert (S2 : Z.testbit fl 2 = false <-> forall s t, In s ((o, c) :: l) -> In t ((o, c) :: l) -> color8 (snd s) = color8 (snd t)).
  { rewrite I2, existsb_false. split.
    - intros H. assert (K : forall s, In s ((o, c) :: l) -> color8 (snd s) = color8 c). { intros s Hs. pose proof (F s Hs) as Fs. cbn [In] in Hs. destruct Hs as [<-|Hs]; auto. apply mv_same; auto. specialize (H s Hs). apply negb_false_iff, Z.eqb_eq in H. auto. }
      intros s t Hs Ht. rewrite (K s Hs), (K t Ht). reflexivity.
    - intros H s Hs. apply negb_false_iff, Z.eqb_eq. apply mv_same; auto; [apply F; right; auto|]. apply (H s (o, c)); [right; auto|left; auto]. }
  do 2 eexists. split; [reflexivity|]. rewrite !negb_true_iff. destruct (Z.testbit fl 1) eqn:E1.
  - split; auto. rewrite S2. split; [tauto|]. intros [H|H]; auto. exfalso. apply S1 in H. discriminate.
  - rewrite !Z.ldiff_spec. change (Z.testbit 4 2) with true. change (Z.testbit 4 0) with false. cbn [negb]. rewrite andb_false_r, andb_true_r. split; auto. split; auto. intros _. right. apply S1. auto.
Qed.
