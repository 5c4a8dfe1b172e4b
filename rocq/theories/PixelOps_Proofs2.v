From Verif Require Import Base Bits PixelOps_Model PixelOps_Spec PixelOps_Proofs.

(* The reciprocal table holds floor(255 * 65537 / a). *)
Definition rcp_check (a : Z) : bool :=
  match rd unpremultiply_rcp a with Ok v => if a =? 0 then v =? 0 else v =? 16711935 / a | _ => false end.
Lemma rcp_all : forallb rcp_check (map Z.of_nat (seq 0 256)) = true.
Proof. vm_compute. reflexivity. Qed.
Lemma rcp_ok a : u8 a -> rd unpremultiply_rcp a = Ok (if a =? 0 then 0 else 16711935 / a).
Proof.
  intros Ha. unfold u8 in Ha. pose proof (forallb_range rcp_check 256 rcp_all a ltac:(lia)) as H. unfold rcp_check in H.
  destruct (rd unpremultiply_rcp a) as [v| | |]; try discriminate. destruct (a =? 0); f_equal; lia.
Qed.

(* The only residue where the truncated reciprocal could round differently: a | 510 c + 1, which fixes c modulo a. *)
Fixpoint find_inv (fuel : nat) (a c : Z) : Z :=
  match fuel with O => 0 | S f => if (510 * c + 1) mod a =? 0 then c else find_inv f a (c + 1) end.
(* candidate i: either a shares a factor with 510 (no such c), or c = i *)
Definition cand (a : Z) : Z := find_inv (Z.to_nat a) a 0.
Definition cand_check (a : Z) : bool :=
  if Z.gcd a 510 =? 1 then let i := cand a in ((510 * i + 1) mod a =? 0) && (0 <=? i) && (i <? a) && (2 * i * (255 - 16711935 mod a) <? 65536)
  else true.
Lemma cand_all : forallb (fun a => if a =? 0 then true else cand_check a) (map Z.of_nat (seq 0 256)) = true.
Proof. vm_compute. reflexivity. Qed.
Lemma residue_ok a c : 0 < a < 256 -> 0 <= c <= a -> (510 * c + 1) mod a = 0 -> 2 * c * (255 - 16711935 mod a) < 65536.
Proof.
  intros Ha Hc Hm. pose proof (forallb_range _ 256 cand_all a ltac:(lia)) as H. cbn beta in H. destruct (Z.eqb_spec a 0); [lia|].
  unfold cand_check in H. apply Z.mod_divide in Hm; [|lia]. destruct (Z.eqb_spec (Z.gcd a 510) 1) as [G|G].
  - cbv zeta in H. apply andb_true_iff in H as [H H4]. apply andb_true_iff in H as [H H3]. apply andb_true_iff in H as [H1 H2].
    apply Z.eqb_eq in H1. apply Z.mod_divide in H1; [|lia]. set (i := cand a) in *. clearbody i.
    assert (D : (a | 510 * (c - i))) by (replace (510 * (c - i)) with ((510 * c + 1) - (510 * i + 1)) by ring; apply Z.divide_sub_r; assumption).
    apply Z.gauss in D; [|exact G]. destruct D as [k D].
    assert (K : -1 < k < 2) by nia. assert (c = i \/ (c = a /\ i = 0)) as [->|[-> ->]] by nia; [lia|].
    (* c = a, i = 0: a divides 1 *)
    change (510 * 0 + 1) with 1 in H1. apply Z.divide_1_r_nonneg in H1; [|lia]. subst a. change (16711935 mod 1) with 0. lia.
  - exfalso. apply G. apply Z.bezout_1_gcd. destruct Hm as [q Hm]. exists q, (- c). lia.
Qed.

Lemma unpremul_quot a c : 0 < a < 256 -> 0 <= c <= a -> (c * (16711935 / a) + 32768) / 65536 = round_div (c * 255) a.
Proof.
  intros Ha Hc. unfold round_div. pose proof (residue_ok a c Ha Hc) as R.
  pose proof (Z.div_mod 16711935 a ltac:(lia)) as Hq. pose proof (Z.mod_pos_bound 16711935 a ltac:(lia)) as He.
  set (q := 16711935 / a) in *. set (e := 16711935 mod a) in *. clearbody q e.
  set (u := (2 * (c * 255) + a) / (2 * a)). pose proof (Z.div_mod (2 * (c * 255) + a) (2 * a) ltac:(lia)) as Hu.
  pose proof (Z.mod_pos_bound (2 * (c * 255) + a) (2 * a) ltac:(lia)) as Hr. fold u in Hu.
  set (r := (2 * (c * 255) + a) mod (2 * a)) in *. clearbody u r.
  symmetry. apply Z.div_unique with (c * q + 32768 - 65536 * u); [|ring]. left.
  (* 2 a (c q + 32768 - 65536 u) = 65536 r + 2 c (255 - e) *)
  assert (E : 2 * a * (c * q + 32768 - 65536 * u) = 65536 * r + 2 * c * (255 - e)).
  { replace (2 * a * (c * q + 32768 - 65536 * u)) with (2 * c * (a * q) + 65536 * a - 65536 * (2 * a * u)) by ring.
    replace (a * q) with (16711935 - e) by lia. replace (2 * a * u) with (2 * (c * 255) + a - r) by lia. ring. }
  assert (B : 0 <= 2 * c * (255 - e)) by nia.
  assert (T : 65536 * r + 2 * c * (255 - e) < 65536 * (2 * a)).
  { destruct (Z.eq_dec r (2 * a - 1)) as [->|Hne].
    - enough (2 * c * (255 - e) < 65536) by lia. apply R. apply Z.mod_divide; [lia|]. exists (1 + 2 * u - 2 * 0). nia.
    - assert (2 * c * (255 - e) < 2 * 65536) by nia. lia. }
  clear R. split; nia.
Qed.

Lemma unpremul_ok a c : u8 a -> 0 <= c <= a -> exists u, unpremultiply_8bit c a = Ok u /\ u8 u /\ round_div (u * a) 255 = c /\
  (a = 0 -> u = 0) /\ (a <> 0 -> u = round_div (c * 255) a).
Proof.
  intros Ha Hc. unfold u8 in *. unfold unpremultiply_8bit. rewrite rcp_ok by exact Ha. cbn [bind].
  destruct (Z.eqb_spec a 0) as [->|Hne].
  - exists 0. replace c with 0 by lia. repeat split; try lia.
  - assert (B : 0 <= c * (16711935 / a) <= 16711935).
    { pose proof (Z.mul_div_le 16711935 a ltac:(lia)). pose proof (Z.div_pos 16711935 a ltac:(lia) ltac:(lia)). nia. }
    rewrite (w32_small (c * (16711935 / a))) by (change (2 ^ 32) with 4294967296; lia).
    rewrite w32_small by (change (2 ^ 32) with 4294967296; lia). rewrite Z.shiftr_div_pow2 by lia. change (2 ^ 16) with 65536. change 0x8000 with 32768.
    rewrite unpremul_quot by lia. exists (round_div (c * 255) a). split; [reflexivity|].
    unfold round_div at 1 3. split; [|split; [|split; [lia|reflexivity]]].
    + unfold u8. split; [apply Z.div_pos; lia|apply Z.div_lt_upper_bound; lia].
    + unfold round_div. pose proof (Z.div_mod (2 * (c * 255) + a) (2 * a) ltac:(lia)). pose proof (Z.mod_pos_bound (2 * (c * 255) + a) (2 * a) ltac:(lia)).
      set (u := (2 * (c * 255) + a) / (2 * a)) in *. clearbody u. set (r := (2 * (c * 255) + a) mod (2 * a)) in *. clearbody r.
      symmetry. apply Z.div_unique with (2 * (u * a) + 255 - 510 * c); [left; nia|ring].
Qed.

Lemma comp_a a r g b : u8 a -> u8 r -> u8 g -> u8 b -> Z.shiftr (pack32 a r g b) 24 = a.
Proof. unfold u8, pack32. intros. rewrite Z.shiftr_div_pow2 by lia. change (2 ^ 24) with 16777216. change (2 ^ 16) with 65536. change (2 ^ 8) with 256. lia. Qed.
Lemma comp_r a r g b : u8 a -> u8 r -> u8 g -> u8 b -> Z.land (Z.shiftr (pack32 a r g b) 16) 0xFF = r.
Proof.
  unfold u8, pack32. intros. change 0xFF with (2 ^ 8 - 1). rewrite land_mask, Z.shiftr_div_pow2 by lia.
  change (2 ^ 24) with 16777216. change (2 ^ 16) with 65536. change (2 ^ 8) with 256. lia.
Qed.
Lemma comp_g a r g b : u8 a -> u8 r -> u8 g -> u8 b -> Z.land (Z.shiftr (pack32 a r g b) 8) 0xFF = g.
Proof.
  unfold u8, pack32. intros. change 0xFF with (2 ^ 8 - 1). rewrite land_mask, Z.shiftr_div_pow2 by lia.
  change (2 ^ 24) with 16777216. change (2 ^ 16) with 65536. change (2 ^ 8) with 256. lia.
Qed.
Lemma comp_b a r g b : u8 a -> u8 r -> u8 g -> u8 b -> Z.land (pack32 a r g b) 0xFF = b.
Proof.
  unfold u8, pack32. intros. change 0xFF with (2 ^ 8 - 1). rewrite land_mask by lia.
  change (2 ^ 24) with 16777216. change (2 ^ 16) with 65536. change (2 ^ 8) with 256. lia.
Qed.
Lemma pack_lor a r g b : u8 a -> u8 r -> u8 g -> u8 b ->
  Z.lor (Z.lor (Z.lor (w32 (Z.shiftl a 24)) (w32 (Z.shiftl r 16))) (w32 (Z.shiftl g 8))) b = pack32 a r g b.
Proof.
  unfold u8. intros. rewrite !Z.shiftl_mul_pow2 by lia. rewrite !w32_small by lia.
  rewrite (lor_disj_add (a * 2 ^ 24) _ 24); [|lia|lia|exists a; reflexivity].
  rewrite (lor_disj_add _ (g * 2 ^ 8) 16); [|lia|lia|exists (a * 2 ^ 8 + r); ring].
  rewrite (lor_disj_add _ b 8); [|lia|lia|exists (a * 2 ^ 16 + r * 2 ^ 8 + g); ring]. reflexivity.
Qed.

Lemma unpremul32_ok a r g b : u8 a -> 0 <= r <= a -> 0 <= g <= a -> 0 <= b <= a ->
  exists r' g' b', u8 r' /\ u8 g' /\ u8 b' /\
    unpremultiply_8bit r a = Ok r' /\ unpremultiply_8bit g a = Ok g' /\ unpremultiply_8bit b a = Ok b' /\
    cvt_argb32_from_prgb32 (pack32 a r g b) = Ok (pack32 a r' g' b') /\
    cvt_abgr32_from_prgb32 (pack32 a r g b) = Ok (pack32 a b' g' r') /\
    cvt_prgb32_from_argb32 (pack32 a r' g' b') = pack32 a r g b.
Proof.
  intros Ha Hr Hg Hb.
  destruct (unpremul_ok a r Ha Hr) as (r' & Er & Ur & Pr & _). destruct (unpremul_ok a g Ha Hg) as (g' & Eg & Ug & Pg & _).
  destruct (unpremul_ok a b Ha Hb) as (b' & Eb & Ub & Pb & _).
  assert (u8 r /\ u8 g /\ u8 b) as (Hr8 & Hg8 & Hb8) by (unfold u8 in *; lia).
  exists r', g', b'. do 3 (split; [assumption|]). do 3 (split; [assumption|]).
  unfold cvt_argb32_from_prgb32, cvt_abgr32_from_prgb32. rewrite comp_a, comp_r, comp_g, comp_b by assumption.
  rewrite Er, Eg, Eb. cbn [bind]. rewrite !pack_lor by assumption. split; [reflexivity|]. split; [reflexivity|].
  rewrite premul32_ok by assumption. congruence.
Qed.

(* ---- 16-bit formats ---- *)
Lemma land_field x k m : 0 <= k -> 0 <= m -> Z.land x (Z.shiftl (2 ^ m - 1) k) = (x / 2 ^ k mod 2 ^ m) * 2 ^ k.
Proof.
  intros Hk Hm. rewrite <- land_mask by lia. rewrite <- Z.shiftr_div_pow2, <- Z.shiftl_mul_pow2 by lia.
  apply Z.bits_inj'. intros n Hn. rewrite Z.land_spec. destruct (Z.lt_ge_cases n k).
  - rewrite !Z.shiftl_spec_low by lia. apply andb_false_r.
  - rewrite !Z.shiftl_spec by lia. rewrite Z.land_spec, Z.shiftr_spec by lia. do 2 f_equal. lia.
Qed.

Lemma lor_pack b g r : 0 <= b < 256 -> 0 <= g < 256 -> 0 <= r < 256 ->
  Z.lor (Z.lor (Z.lor 0xFF000000 b) (g * 2 ^ 8)) (r * 2 ^ 16) = 255 * 2 ^ 24 + r * 2 ^ 16 + g * 2 ^ 8 + b.
Proof.
  intros Hb Hg Hr. change (255 * 2 ^ 24 + r * 2 ^ 16 + g * 2 ^ 8 + b) with (pack32 255 r g b). rewrite <- (pack_lor 255 r g b) by (unfold u8; lia). rewrite !w32_small by (rewrite Z.shiftl_mul_pow2 by lia; change (2 ^ 24) with 16777216; change (2 ^ 16) with 65536; change (2 ^ 8) with 256; change (2 ^ 32) with 4294967296; lia).
  rewrite !Z.shiftl_mul_pow2 by lia. change (255 * 2 ^ 24) with 0xFF000000.
  set (A := 0xFF000000). set (G := g * 2 ^ 8). set (R := r * 2 ^ 16). clearbody A G R.
  apply Z.bits_inj'. intros n Hn. rewrite !Z.lor_spec. destruct (Z.testbit A n), (Z.testbit b n), (Z.testbit G n), (Z.testbit R n); reflexivity.
Qed.

Lemma all_555 : forall x, u16 x -> (cvt_xrgb32_from_xrgb16_0555 x =?
  pack32 255 (replicate5 (x / 1024 mod 32)) (replicate5 (x / 32 mod 32)) (replicate5 (x mod 32))) = true.
Proof.
  unfold u16. intros x Hx. apply Z.eqb_eq. unfold cvt_xrgb32_from_xrgb16_0555, pack32, replicate5.
  set (r := x / 1024 mod 32). set (g := x / 32 mod 32). set (b := x mod 32). set (t := x / 32768).
  assert (Hr : 0 <= r < 32) by lia. assert (Hg : 0 <= g < 32) by lia. assert (Hb : 0 <= b < 32) by lia.
  assert (Ht : 0 <= t < 2) by (unfold t; lia).
  assert (Ex : x = t * 32768 + r * 1024 + g * 32 + b) by (unfold r, g, b, t; lia). clearbody r g b t. subst x.
  set (t0 := w32 _). assert (E0 : Z.land t0 0x1F03E0F8 = g * 16777216 + r * 8192 + b * 8).
  { change 0x1F03E0F8 with (Z.lor (Z.lor (Z.shiftl (2 ^ 5 - 1) 24) (Z.shiftl (2 ^ 5 - 1) 13)) (Z.shiftl (2 ^ 5 - 1) 3)).
    rewrite !Z.land_lor_distr_r, !land_field by lia.
    assert (G1 : t0 / 2 ^ 24 mod 2 ^ 5 = g) by (unfold t0, w32; change (2 ^ 24) with 16777216; change (2 ^ 5) with 32; lia).
    assert (G2 : t0 / 2 ^ 13 mod 2 ^ 5 = r) by (unfold t0, w32; change (2 ^ 13) with 8192; change (2 ^ 5) with 32; lia).
    assert (G3 : t0 / 2 ^ 3 mod 2 ^ 5 = b) by (unfold t0, w32; change (2 ^ 3) with 8; change (2 ^ 5) with 32; lia).
    rewrite G1, G2, G3. rewrite (lor_disj_add _ (r * 2 ^ 13) 24); [|lia|lia|exists g; ring].
    rewrite (lor_disj_add _ (b * 2 ^ 3) 13); [|lia|lia|exists (g * 2 ^ 11 + r); ring]. reflexivity. }
  rewrite E0. clear E0 t0.
  assert (E1 : Z.lor (g * 16777216 + r * 8192 + b * 8) (Z.shiftr (g * 16777216 + r * 8192 + b * 8) 5) = g * 17301504 + r * 8448 + b * 8 + b / 4).
  { rewrite Z.shiftr_div_pow2 by lia. change (2 ^ 5) with 32. replace ((g * 16777216 + r * 8192 + b * 8) / 32) with (g * 524288 + r * 256 + b / 4) by lia.
    replace (g * 524288 + r * 256 + b / 4) with (b / 4 + 2 ^ 3 * (0 + 2 ^ 5 * (r + 2 ^ 5 * (0 + 2 ^ 6 * g)))) by (change (2 ^ 3) with 8; change (2 ^ 5) with 32; change (2 ^ 6) with 64; lia).
    replace (g * 16777216 + r * 8192 + b * 8) with (0 + 2 ^ 3 * (b + 2 ^ 5 * (0 + 2 ^ 5 * (r + 2 ^ 6 * (0 + 32 * g))))) by (change (2 ^ 3) with 8; change (2 ^ 5) with 32; change (2 ^ 6) with 64; lia).
    assert (S := bitop_split Z.lor orb Z.lor_spec eq_refl (fun x y Hx Hy => proj2 (Z.lor_nonneg x y) (conj Hx Hy))).
    replace (r + 2 ^ 6 * (0 + 32 * g)) with (r + 2 ^ 5 * (2 * (32 * g))) by (change (2 ^ 5) with 32; change (2 ^ 6) with 64; lia).
    replace (0 + 2 ^ 6 * g) with (0 + 2 ^ 5 * (2 * g)) by (change (2 ^ 5) with 32; change (2 ^ 6) with 64; lia).
    rewrite (S 0 _ (b / 4) _ 3) by (change (2 ^ 3) with 8; change (2 ^ 5) with 32; lia).
    rewrite (S b _ 0 _ 5) by (change (2 ^ 3) with 8; change (2 ^ 5) with 32; lia).
    rewrite (S 0 _ r _ 5) by (change (2 ^ 3) with 8; change (2 ^ 5) with 32; lia).
    rewrite (S r _ 0 _ 5) by (change (2 ^ 3) with 8; change (2 ^ 5) with 32; lia).
    rewrite !Z.lor_0_l, !Z.lor_0_r.
    replace (Z.lor (2 * (32 * g)) (2 * g)) with (66 * g).
    - change (2 ^ 3) with 8; change (2 ^ 5) with 32; lia.
    - replace (2 * (32 * g)) with (2 * g * 0 + 2 ^ 6 * g) by lia. replace (2 * g) with (2 * g + 2 ^ 6 * 0) at 2 by lia.
      replace (2 * g * 0 + 2 ^ 6 * g) with (g * 2 ^ 6) by ring. rewrite Z.mul_0_r, Z.add_0_r. rewrite lor_mul_add; [change (2 ^ 6) with 64; lia|lia|change (2 ^ 6) with 64; lia]. }
  rewrite E1. clear E1. set (y := g * 17301504 + r * 8448 + b * 8 + b / 4).
  assert (Hy : 0 <= y < 2 ^ 32) by (unfold y; change (2 ^ 32) with 4294967296; lia).
  change 0x000000FF with (Z.shiftl (2 ^ 8 - 1) 0). change 0x0000FF00 with (Z.shiftl (2 ^ 8 - 1) 8). change 0x00FF0000 with (Z.shiftl (2 ^ 8 - 1) 16).
  rewrite !land_field by lia. rewrite Z.shiftr_div_pow2, Z.shiftl_mul_pow2 by lia.
  assert (F0 : y / 2 ^ 0 mod 2 ^ 8 = b * 8 + b / 4) by (unfold y; change (2 ^ 0) with 1; change (2 ^ 8) with 256; lia).
  assert (F1 : y / 2 ^ 13 / 2 ^ 8 mod 2 ^ 8 = g * 8 + g / 4) by (unfold y; change (2 ^ 13) with 8192; change (2 ^ 8) with 256; lia).
  assert (F2 : w32 (y * 2 ^ 6) / 2 ^ 16 mod 2 ^ 8 = r * 8 + r / 4) by (unfold y, w32; change (2 ^ 6) with 64; change (2 ^ 16) with 65536; change (2 ^ 8) with 256; lia).
  rewrite F0, F1, F2. clearbody y. change (2 ^ 0) with 1. rewrite Z.mul_1_r.
  apply lor_pack; lia.
Qed.

Lemma all_565 : forall x, u16 x -> (cvt_xrgb32_from_xrgb16_0565 x =?
  pack32 255 (replicate5 (x / 2048 mod 32)) (replicate6 (x / 32 mod 64)) (replicate5 (x mod 32))) = true.
Proof.
  unfold u16. intros x Hx. apply Z.eqb_eq. unfold cvt_xrgb32_from_xrgb16_0565, pack32, replicate5, replicate6.
  set (r := x / 2048 mod 32). set (g := x / 32 mod 64). set (b := x mod 32).
  assert (Hr : 0 <= r < 32) by lia. assert (Hg : 0 <= g < 64) by lia. assert (Hb : 0 <= b < 32) by lia.
  assert (Ex : x = r * 2048 + g * 32 + b) by (unfold r, g, b; lia). clearbody r g b. subst x.
  replace (Z.land (r * 2048 + g * 32 + b) 0x0000F81F) with (r * 2048 + b).
  2:{ change 0xF81F with (Z.lor (Z.shiftl (2 ^ 5 - 1) 11) (Z.shiftl (2 ^ 5 - 1) 0)). rewrite Z.land_lor_distr_r, !land_field by lia.
      assert (G1 : (r * 2048 + g * 32 + b) / 2 ^ 11 mod 2 ^ 5 = r) by (change (2 ^ 11) with 2048; change (2 ^ 5) with 32; lia).
      assert (G2 : (r * 2048 + g * 32 + b) / 2 ^ 0 mod 2 ^ 5 = b) by (change (2 ^ 0) with 1; change (2 ^ 5) with 32; lia).
      rewrite G1, G2. change (2 ^ 0) with 1. rewrite Z.mul_1_r. rewrite lor_mul_add; [reflexivity|lia|change (2 ^ 11) with 2048; lia]. }
  replace (Z.land (r * 2048 + g * 32 + b) 0x000007E0) with (g * 32).
  2:{ change 0x7E0 with (Z.shiftl (2 ^ 6 - 1) 5). rewrite land_field by lia. change (2 ^ 5) with 32. change (2 ^ 6) with 64. lia. }
  rewrite (w32_small ((r * 2048 + b) * 0x21)) by (change (2 ^ 32) with 4294967296; lia).
  rewrite (w32_small (g * 32 * 0x41)) by (change (2 ^ 32) with 4294967296; lia).
  rewrite (w32_small (Z.shiftl _ _)) by (rewrite Z.shiftl_mul_pow2 by lia; change (2 ^ 3) with 8; change (2 ^ 32) with 4294967296; lia).
  rewrite Z.shiftl_mul_pow2, !Z.shiftr_div_pow2 by lia.
  change 0x000000FF with (Z.shiftl (2 ^ 8 - 1) 0). change 0x0000FF00 with (Z.shiftl (2 ^ 8 - 1) 8). change 0x00FF0000 with (Z.shiftl (2 ^ 8 - 1) 16).
  rewrite !land_field by lia.
  assert (F0 : (r * 2048 + b) * 0x21 / 2 ^ 2 / 2 ^ 0 mod 2 ^ 8 = b * 8 + b / 4) by (change (2 ^ 2) with 4; change (2 ^ 0) with 1; change (2 ^ 8) with 256; lia).
  assert (F1 : g * 32 * 0x41 / 2 ^ 1 / 2 ^ 8 mod 2 ^ 8 = g * 4 + g / 16) by (change (2 ^ 1) with 2; change (2 ^ 8) with 256; lia).
  assert (F2 : (r * 2048 + b) * 0x21 * 2 ^ 3 / 2 ^ 16 mod 2 ^ 8 = r * 8 + r / 4) by (change (2 ^ 3) with 8; change (2 ^ 16) with 65536; change (2 ^ 8) with 256; lia).
  rewrite F0, F1, F2. change (2 ^ 0) with 1. rewrite Z.mul_1_r. apply lor_pack; lia.
Qed.

Lemma all_4444 : forall x, u16 x -> (cvt_argb32_from_argb16_4444 x =?
  pack32 (replicate4 (x / 4096 mod 16)) (replicate4 (x / 256 mod 16)) (replicate4 (x / 16 mod 16)) (replicate4 (x mod 16))) = true.
Proof.
  unfold u16. intros x Hx. apply Z.eqb_eq. unfold cvt_argb32_from_argb16_4444, pack32, replicate4.
  rewrite !Z.shiftl_mul_pow2 by lia. rewrite (w32_small (x * 2 ^ 12)), (w32_small (x * 2 ^ 4)) by (change (2 ^ 12) with 4096; change (2 ^ 4) with 16; change (2 ^ 32) with 4294967296; lia).
  rewrite (w32_small (x * 2 ^ 4 * 2 ^ 4)) by (change (2 ^ 4) with 16; change (2 ^ 32) with 4294967296; lia).
  set (a := x / 4096 mod 16). set (r := x / 256 mod 16). set (g := x / 16 mod 16). set (b := x mod 16).
  assert (Ha : 0 <= a < 16) by lia. assert (Hr : 0 <= r < 16) by lia. assert (Hg : 0 <= g < 16) by lia. assert (Hb : 0 <= b < 16) by lia.
  assert (Ex : x = a * 4096 + r * 256 + g * 16 + b) by (unfold a, r, g, b; lia). clearbody a r g b. subst x.
  set (x := a * 4096 + r * 256 + g * 16 + b).
  assert (T0 : Z.land (Z.lor x (x * 2 ^ 12)) 0x0F00000F = a * 16777216 + b).
  { change 0x0F00000F with (Z.lor (Z.shiftl (2 ^ 4 - 1) 24) (Z.shiftl (2 ^ 4 - 1) 0)). rewrite Z.land_lor_distr_l, !Z.land_lor_distr_r, !land_field by lia.
    assert (G1 : x / 2 ^ 24 mod 2 ^ 4 = 0) by (unfold x; change (2 ^ 24) with 16777216; change (2 ^ 4) with 16; lia).
    assert (G2 : x / 2 ^ 0 mod 2 ^ 4 = b) by (unfold x; change (2 ^ 0) with 1; change (2 ^ 4) with 16; lia).
    assert (G3 : x * 2 ^ 12 / 2 ^ 24 mod 2 ^ 4 = a) by (unfold x; change (2 ^ 24) with 16777216; change (2 ^ 12) with 4096; change (2 ^ 4) with 16; lia).
    assert (G4 : x * 2 ^ 12 / 2 ^ 0 mod 2 ^ 4 = 0) by (unfold x; change (2 ^ 0) with 1; change (2 ^ 12) with 4096; change (2 ^ 4) with 16; lia).
    rewrite G1, G2, G3, G4, !Z.mul_0_l, Z.lor_0_l, Z.lor_0_r. change (2 ^ 0) with 1. rewrite Z.mul_1_r, Z.lor_comm.
    rewrite lor_mul_add; [reflexivity|lia|change (2 ^ 24) with 16777216; lia]. }
  assert (T1 : Z.land (x * 2 ^ 4 * 2 ^ 4) 0x000F0000 = r * 65536).
  { change 0x000F0000 with (Z.shiftl (2 ^ 4 - 1) 16). rewrite land_field by lia. unfold x. change (2 ^ 16) with 65536. change (2 ^ 4) with 16. lia. }
  assert (T2 : Z.land (x * 2 ^ 4) 0x00000F00 = g * 256).
  { change 0x00000F00 with (Z.shiftl (2 ^ 4 - 1) 8). rewrite land_field by lia. unfold x. change (2 ^ 8) with 256. change (2 ^ 4) with 16. lia. }
  rewrite T0, T1, T2. clearbody x. rewrite (w32_small (a * 16777216 + b + r * 65536)) by (change (2 ^ 32) with 4294967296; lia).
  rewrite (w32_small (_ + g * 256)) by (change (2 ^ 32) with 4294967296; lia). rewrite w32_small by (change (2 ^ 32) with 4294967296; lia).
  change (2 ^ 24) with 16777216. change (2 ^ 16) with 65536. change (2 ^ 8) with 256. lia.
Qed.
