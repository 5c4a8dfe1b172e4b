(* Memory lemmas and the inverse filter. *)
From Verif Require Import Base IntOps_Model Algorithm_Model Algorithm_Proofs Png_Model Png_Spec.

Definition len (m : list Z) : Z := Z.of_nat (length m).
Definition set (m : list Z) (i v : Z) : list Z := upd m (Z.to_nat i) v.

Lemma rd_get m i : 0 <= i < len m -> rd m i = Ok (get m i).
Proof.
  unfold len, rd, get. intros H. destruct (Z.ltb_spec i 0); [lia|].
  destruct (nth_error m (Z.to_nat i)) eqn:E.
  - now rewrite (nth_error_nth _ _ _ E).
  - apply nth_error_None in E. lia.
Qed.

Lemma rd_ub m i : len m <= i -> rd m i = UB.
Proof.
  unfold len, rd. intros H. destruct (Z.ltb_spec i 0); [reflexivity|].
  destruct (nth_error m (Z.to_nat i)) eqn:E; [|reflexivity].
  assert (Z.to_nat i < length m)%nat by (apply nth_error_Some; congruence). lia.
Qed.

Lemma wr_set m i v : 0 <= i < len m -> wr m i v = Ok (set m i v).
Proof. unfold len, wr, set. intros H. destruct (Z.ltb_spec i 0); [lia|]. destruct (Z.leb_spec (Z.of_nat (length m)) i); [lia|]. reflexivity. Qed.

Lemma set_length m i v : length (set m i v) = length m.
Proof. apply upd_length. Qed.
Lemma set_len m i v : len (set m i v) = len m.
Proof. unfold len. now rewrite set_length. Qed.

Lemma get_set m i v j : 0 <= i < len m -> 0 <= j -> get (set m i v) j = if j =? i then v else get m j.
Proof.
  unfold len, get, set. intros Hi Hj. pose proof (nth_upd m (Z.to_nat i) (Z.to_nat j) v) as E.
  destruct (Z.eqb_spec j i) as [->|N].
  - rewrite Nat.eqb_refl in E. destruct (nth_error m (Z.to_nat i)) eqn:F.
    + now apply nth_error_nth.
    + apply nth_error_None in F. lia.
  - destruct (Nat.eqb_spec (Z.to_nat i) (Z.to_nat j)); [lia|].
    destruct (nth_error m (Z.to_nat j)) eqn:F.
    + rewrite (nth_error_nth _ _ _ E). now rewrite (nth_error_nth _ _ _ F).
    + apply nth_error_None in F, E. now rewrite !nth_overflow by lia.
Qed.

Lemma get_byte m i : bytes m -> is_byte (get m i).
Proof.
  unfold bytes, get. intros H. destruct (Nat.lt_ge_cases (Z.to_nat i) (length m)) as [L|L].
  - apply (proj1 (Forall_forall _ _) H). now apply nth_In.
  - rewrite nth_overflow by lia. unfold is_byte. lia.
Qed.

Lemma bytes_set m i v : bytes m -> is_byte v -> bytes (set m i v).
Proof.
  unfold bytes, set. intros H V. generalize (Z.to_nat i). clear i. induction H as [|x l X L IH]; intros [|n]; cbn; constructor; auto.
Qed.

Lemma bytes_get m : (forall i, 0 <= i < len m -> is_byte (get m i)) -> bytes m.
Proof.
  intros H. apply Forall_forall. intros x I. destruct (In_nth _ _ 0 I) as (n & L & E).
  specialize (H (Z.of_nat n)). unfold len, get in H. rewrite Nat2Z.id in H. rewrite <- E. apply H. lia.
Qed.

(* ------------------------------------------------------------------ scalar filters *)

Lemma sum_filter a b : is_byte a -> is_byte b -> apply_sum_filter a b = (a + b) mod 256.
Proof.
  unfold is_byte, apply_sum_filter, w8, w32. intros.
  replace 0xFF with (Z.ones 8) by reflexivity. rewrite Z.land_ones by lia. change (2 ^ 8) with 256. lia.
Qed.

Lemma avg_filter a b : is_byte a -> is_byte b -> apply_avg_filter a b = (a + b) / 2.
Proof. unfold is_byte, apply_avg_filter, w32. intros. rewrite Z.shiftr_div_pow2 by lia. change (2 ^ 1) with 2. lia. Qed.

Lemma paeth_filter a b c : is_byte a -> is_byte b -> is_byte c -> apply_paeth_filter a b c = paeth_predictor a b c.
Proof.
  unfold is_byte, apply_paeth_filter, paeth_predictor, w32. intros.
  rewrite !Z.mod_small by lia.
  destruct (Z.ltb_spec (c * 3 - (a + b)) (Z.max a b)), (Z.ltb_spec (Z.min a b) (c * 3 - (a + b)));
    destruct (Z.leb_spec (Z.abs (a + b - c - a)) (Z.abs (a + b - c - b)));
    destruct (Z.leb_spec (Z.abs (a + b - c - a)) (Z.abs (a + b - c - c)));
    destruct (Z.leb_spec (Z.abs (a + b - c - b)) (Z.abs (a + b - c - c))); cbn [andb]; lia.
Qed.

Lemma paeth_zero a : is_byte a -> paeth_predictor a 0 0 = a.
Proof.
  unfold is_byte, paeth_predictor. intros.
  destruct (Z.leb_spec (Z.abs (a + 0 - 0 - a)) (Z.abs (a + 0 - 0 - 0))); [|lia].
  cbn [andb]. reflexivity.
Qed.
Lemma paeth_up b : is_byte b -> paeth_predictor 0 b 0 = b.
Proof.
  unfold is_byte, paeth_predictor. intros.
  destruct (Z.leb_spec (Z.abs (0 + b - 0 - 0)) (Z.abs (0 + b - 0 - b))), (Z.leb_spec (Z.abs (0 + b - 0 - 0)) (Z.abs (0 + b - 0 - 0)));
    destruct (Z.leb_spec (Z.abs (0 + b - 0 - b)) (Z.abs (0 + b - 0 - 0))); cbn [andb]; lia.
Qed.
Lemma paeth_byte a b c : is_byte a -> is_byte b -> is_byte c -> is_byte (paeth_predictor a b c).
Proof. unfold is_byte, paeth_predictor. intros. destruct (_ && _); [lia|]. destruct (_ <=? _); lia. Qed.
Lemma predictor_byte f a b c : is_byte a -> is_byte b -> is_byte c -> is_byte (predictor f a b c).
Proof.
  intros. unfold predictor. destruct (f =? 1); [assumption|]. destruct (f =? 2); [assumption|].
  destruct (f =? 3); [unfold is_byte in *; lia|]. destruct (f =? 4); [now apply paeth_byte|]. unfold is_byte; lia.
Qed.

(* ------------------------------------------------------------------ loops *)

Lemma filter_loop_inv off g (I : Z -> list Z -> Prop) i : forall fuel k p u m, 0 <= k <= i -> (Z.to_nat (i - k) <= fuel)%nat ->
  0 <= p + off -> p + off + i - k <= len m -> I k m ->
  (forall k' mk, k <= k' < i -> len mk = len m -> I k' mk ->
     exists v, g mk (p + (k' - k)) (u + (k' - k)) = Ok v /\ I (k' + 1) (set mk (p + off + (k' - k)) v)) ->
  exists m', filter_loop fuel off g (i - k) p u m = Ok (m', p + (i - k)) /\ len m' = len m /\ I i m'.
Proof.
  induction fuel as [|fuel IH]; intros k p u m Hk F P L I0 St.
  - exists m. replace (i - k) with 0 by lia. cbn. rewrite Z.add_0_r. split; [reflexivity|]. split; [reflexivity|].
    now replace i with k by lia.
  - cbn [filter_loop]. destruct (Z.eqb_spec (i - k) 0) as [E|N].
    + exists m. rewrite E, Z.add_0_r. split; [reflexivity|]. split; [reflexivity|]. now replace i with k by lia.
    + destruct (St k m) as (v & G & I1); [lia|reflexivity|assumption|].
      replace (p + (k - k)) with p in G by lia. replace (u + (k - k)) with u in G by lia.
      replace (p + off + (k - k)) with (p + off) in I1 by lia. rewrite G. cbn [bind]. rewrite wr_set by lia. cbn [bind].
      destruct (IH (k + 1) (p + 1) (u + 1) (set m (p + off) v)) as (m' & E & Lm & I2).
      * lia. * lia. * lia. * rewrite set_len. lia. * assumption.
      * intros k' mk H1 H2 H3. destruct (St k' mk) as (v' & G' & I'); [lia|now rewrite set_len in H2|assumption|].
        exists v'. replace (p + 1 + (k' - (k + 1))) with (p + (k' - k)) by lia.
        replace (u + 1 + (k' - (k + 1))) with (u + (k' - k)) by lia.
        replace (p + 1 + off + (k' - (k + 1))) with (p + off + (k' - k)) by lia. now split.
      * exists m'. rewrite set_len in Lm. replace (i - k - 1) with (i - (k + 1)) by lia. rewrite E.
        split; [f_equal; f_equal; lia|]. now split.
Qed.

(* ------------------------------------------------------------------ one row *)

Section Row.
  Context (m : list Z) (first : bool) (ft bpp bpl p u : Z).
  Context (Hm : bytes m) (Hbpp : 1 <= bpp <= bpl) (Hbpl : bpl < 4294967296) (Hp : 0 <= p) (Hend : p + bpl <= len m).
  Context (Hu : first = false -> 0 <= u /\ u + bpl <= p).

  Definition lft (mk : list Z) (x : Z) : Z := if x <? 0 then 0 else get mk (p + x).
  Definition upr (mk : list Z) (x : Z) : Z := if first || (x <? 0) then 0 else get mk (u + x).
  Definition row_eqn (mk : list Z) (x : Z) : Prop :=
    get mk (p + x) = (get m (p + x) + predictor ft (lft mk (x - bpp)) (upr mk x) (upr mk (x - bpp))) mod 256.
  Definition row_inv (k : Z) (mk : list Z) : Prop :=
    len mk = len m /\ bytes mk /\ (forall j, 0 <= j -> j < p \/ p + k <= j -> get mk j = get m j) /\
    (forall x, 0 <= x < k -> row_eqn mk x).

  Lemma row_inv_0 : row_inv 0 m.
  Proof. split; [reflexivity|]. split; [assumption|]. split; [reflexivity|]. intros; lia. Qed.

  Lemma row_inv_next k mk v : 0 <= k < bpl -> row_inv k mk ->
    v = (get m (p + k) + predictor ft (lft mk (k - bpp)) (upr mk k) (upr mk (k - bpp))) mod 256 ->
    row_inv (k + 1) (set mk (p + k) v).
  Proof.
    intros Hk (L & B & O & Q) V.
    assert (Vb : is_byte v) by (subst v; unfold is_byte; lia).
    assert (G : forall j, 0 <= j -> get (set mk (p + k) v) j = if j =? p + k then v else get mk j) by (intros; apply get_set; lia).
    assert (LF : forall x, x < k -> lft (set mk (p + k) v) x = lft mk x).
    { intros x Hx. unfold lft. destruct (Z.ltb_spec x 0); [reflexivity|]. rewrite G by lia. destruct (Z.eqb_spec (p + x) (p + k)); [lia|reflexivity]. }
    assert (UP : forall x, x <= k -> upr (set mk (p + k) v) x = upr mk x).
    { intros x Hx. unfold upr. destruct (Z.ltb_spec x 0); [now rewrite orb_true_r|]. rewrite orb_false_r.
      destruct (Sumbool.sumbool_of_bool first) as [F|F]; [now rewrite F|]. rewrite F. destruct (Hu F).
      rewrite G by lia. destruct (Z.eqb_spec (u + x) (p + k)); [lia|reflexivity]. }
    split; [rewrite set_len; exact L|]. split; [now apply bytes_set|]. split.
    - intros j Hj Hj'. rewrite G by lia. destruct (Z.eqb_spec j (p + k)); [lia|]. apply O; lia.
    - intros x Hx. unfold row_eqn. rewrite G by lia. rewrite LF, !UP by lia.
      destruct (Z.eqb_spec (p + x) (p + k)).
      + replace x with k by lia. exact V.
      + apply Q. lia.
  Qed.

  Lemma row_inv_weak k : (forall x, 0 <= x < k -> predictor ft (lft m (x - bpp)) (upr m x) (upr m (x - bpp)) = 0) -> row_inv k m.
  Proof.
    intros H. split; [reflexivity|]. split; [assumption|]. split; [reflexivity|].
    intros x Hx. unfold row_eqn. rewrite H by lia. pose proof (get_byte m (p + x) Hm). unfold is_byte in *. lia.
  Qed.

  Lemma lft_byte mk x : bytes mk -> is_byte (lft mk x).
  Proof. intros. unfold lft. destruct (x <? 0); [now split|now apply get_byte]. Qed.
  Lemma upr_byte mk x : bytes mk -> is_byte (upr mk x).
  Proof. intros. unfold upr. destruct (_ || _); [now split|now apply get_byte]. Qed.

  (* one loop of the row: the bytes k .. k + n - 1 of the row *)
  Lemma row_loop off h k n w m0 : 0 <= k -> 0 <= n -> k + n <= bpl -> 0 <= p + k - off -> 0 <= off ->
    (forall mk x, k <= x < k + n -> row_inv x mk ->
       h mk (p + x - off) (w + (x - k)) = Ok (predictor ft (lft mk (x - bpp)) (upr mk x) (upr mk (x - bpp)))) ->
    row_inv k m0 ->
    exists m', filter_loop (S (length m0)) off (g_sum off h) n (p + k - off) w m0 = Ok (m', p + k - off + n) /\ row_inv (k + n) m'.
  Proof.
    intros Hk Hn Hkn Ho Hoff Hh I0.
    destruct (filter_loop_inv off (g_sum off h) (fun j mk => row_inv (k + j) mk) n (S (length m0)) 0 (p + k - off) w m0) as (m' & E & L & I).
    - lia.
    - destruct I0 as (L & _). unfold len in *. lia.
    - lia.
    - destruct I0 as (L & _). lia.
    - now rewrite Z.add_0_r.
    - intros k' mk Hk' Lk Ik. rewrite Z.sub_0_r.
      exists ((get m (p + (k + k')) + predictor ft (lft mk (k + k' - bpp)) (upr mk (k + k')) (upr mk (k + k' - bpp))) mod 256).
      pose proof Ik as (L1 & B1 & O1 & _).
      split.
      + unfold g_sum. replace (p + k - off + k' + off) with (p + (k + k')) by lia. rewrite rd_get by lia. cbn [bind].
        replace (p + k - off + k') with (p + (k + k') - off) by lia.
        replace (w + k') with (w + (k + k' - k)) by lia. rewrite Hh by (assumption || lia). cbn [bind].
        rewrite sum_filter.
        * now rewrite O1 by lia.
        * now apply get_byte.
        * apply predictor_byte; [now apply lft_byte|now apply upr_byte|now apply upr_byte].
      + replace (p + k - off + off + k') with (p + (k + k')) by lia. rewrite Z.add_assoc. apply row_inv_next; [lia|assumption|reflexivity].
    - rewrite Z.sub_0_r in E. exists m'. split; [exact E|exact I].
  Qed.

  Lemma h_left mk x w : row_inv x mk -> bpp <= x < bpl -> g_left mk (p + x - bpp) w = Ok (lft mk (x - bpp)).
  Proof.
    intros (L & _) Hx. unfold g_left, lft. rewrite rd_get by lia. destruct (Z.ltb_spec (x - bpp) 0); [lia|]. do 2 f_equal. lia.
  Qed.
  Lemma h_up mk x : first = false -> row_inv x mk -> 0 <= x < bpl -> rd mk (u + x) = Ok (upr mk x).
  Proof.
    intros F (L & _) Hx. destruct (Hu F). unfold upr. rewrite F. destruct (Z.ltb_spec x 0); [lia|]. cbn [orb]. apply rd_get. lia.
  Qed.
End Row.

Lemma shr1 x : Z.shiftr x 1 = x / 2.
Proof. now rewrite Z.shiftr_div_pow2 by lia. Qed.

(* One row; [tp] is the filter byte of the row, [ft] what the code uses. *)
Lemma filter_row_ok m first tp ft bpp bpl p u :
  bytes m -> 1 <= bpp <= bpl -> bpl < 4294967296 -> 0 <= p -> p + bpl <= len m -> (first = false -> 0 <= u /\ u + bpl <= p) ->
  0 <= tp -> ft = (let t := if kFilterTypeCount <=? tp then 0 else tp in if first then simplify_filter_of_first_row t else t) ->
  exists m', filter_row ft bpp bpl p u m = Ok (m', p + bpl) /\ row_inv m first tp bpp p u bpl m'.
Proof.
  intros Hm Hbpp Hbpl Hp Hend Hu Htp Hft.
  assert (N : w32 (bpl - bpp) = bpl - bpp) by (unfold w32; apply Z.mod_small; lia).
  pose proof (row_inv_0 m first tp bpp p u Hm) as I0.
  assert (T : 5 <= tp \/ tp = 0 \/ tp = 1 \/ tp = 2 \/ tp = 3 \/ tp = 4) by lia.
  assert (Z0 : forall x, x < 0 -> lft p m x = 0) by (intros; unfold lft; destruct (Z.ltb_spec x 0); [reflexivity|lia]).
  destruct first.
  - assert (U0 : forall mk x, upr true u mk x = 0) by reflexivity.
    destruct T as [T|[T|[T|[T|[T|T]]]]].
    + assert (ft = 0) by (subst ft; unfold kFilterTypeCount; destruct (Z.leb_spec 5 tp); [reflexivity|lia]). rewrite H.
      exists m. split; [reflexivity|]. apply row_inv_weak; [assumption|]. intros x Hx. unfold predictor.
      destruct (Z.eqb_spec tp 1), (Z.eqb_spec tp 2), (Z.eqb_spec tp 3), (Z.eqb_spec tp 4); try lia.
    + subst tp. vm_compute in Hft. subst ft. exists m. split; [reflexivity|]. now apply row_inv_weak.
    + subst tp. vm_compute in Hft. subst ft. unfold filter_row. cbn [Z.eqb Pos.eqb kFilterTypeSub]. rewrite N.
      destruct (row_loop m true 1 bpp bpl p u Hbpp Hp Hend Hu bpp g_left bpp (bpl - bpp) u m) as (m' & E & I); try lia.
      * intros mk x Hx Ix. rewrite (h_left _ _ _ _ _ _ _ Hbpp Hp Hend _ _ _ Ix) by lia. reflexivity.
      * apply row_inv_weak; [assumption|]. intros x Hx. cbn [predictor Z.eqb Pos.eqb]. apply Z0. lia.
      * replace (p + bpp - bpp) with p in E by lia. unfold kFilterTypeSub. cbn [Z.eqb Pos.eqb]. rewrite E. cbn [bind]. exists m'.
        split; [f_equal; f_equal; lia|]. now replace (bpp + (bpl - bpp)) with bpl in I by lia.
    + subst tp. vm_compute in Hft. subst ft. exists m. split; [reflexivity|]. now apply row_inv_weak.
    + subst tp. vm_compute in Hft. subst ft. unfold filter_row.
      destruct (row_loop m true 3 bpp bpl p u Hbpp Hp Hend Hu bpp g_left_half bpp (bpl - bpp) u m) as (m' & E & I); try lia.
      * intros mk x Hx Ix. unfold g_left_half. pose proof (h_left _ _ _ _ _ _ _ Hbpp Hp Hend _ _ 0 Ix) as HL. unfold g_left in HL.
        rewrite HL by lia. cbn [bind]. rewrite U0. unfold predictor. cbn [Z.eqb Pos.eqb]. now rewrite shr1, Z.add_0_r.
      * apply row_inv_weak; [assumption|]. intros x Hx. unfold predictor. cbn [Z.eqb Pos.eqb]. now rewrite U0, Z0 by lia.
      * replace (p + bpp - bpp) with p in E by lia.
        unfold kFilterTypeSub, kFilterTypeUp, kFilterTypeAvg, kFilterTypePaeth, kFilterTypeAvg0. cbn [Z.eqb Pos.eqb]. rewrite N, E. cbn [bind].
        exists m'. split; [f_equal; f_equal; lia|]. now replace (bpp + (bpl - bpp)) with bpl in I by lia.
    + subst tp. vm_compute in Hft. subst ft. unfold filter_row.
      destruct (row_loop m true 4 bpp bpl p u Hbpp Hp Hend Hu bpp g_left bpp (bpl - bpp) u m) as (m' & E & I); try lia.
      * intros mk x Hx Ix. rewrite (h_left _ _ _ _ _ _ _ Hbpp Hp Hend _ _ _ Ix) by lia. rewrite !U0.
        unfold predictor. cbn [Z.eqb Pos.eqb]. rewrite paeth_zero; [reflexivity|]. destruct Ix as (_ & B & _). now apply lft_byte.
      * apply row_inv_weak; [assumption|]. intros x Hx. unfold predictor. cbn [Z.eqb Pos.eqb]. rewrite !U0, Z0 by lia. reflexivity.
      * replace (p + bpp - bpp) with p in E by lia. unfold kFilterTypeSub. cbn [Z.eqb Pos.eqb]. rewrite N, E. cbn [bind]. exists m'.
        split; [f_equal; f_equal; lia|]. now replace (bpp + (bpl - bpp)) with bpl in I by lia.
  - destruct (Hu eq_refl) as (Hu0 & Hu1).
    assert (UZ : forall mk x, x < 0 -> upr false u mk x = 0) by (intros; unfold upr; destruct (Z.ltb_spec x 0); [reflexivity|lia]).
    assert (LZ : forall mk x, x < 0 -> lft p mk x = 0) by (intros; unfold lft; destruct (Z.ltb_spec x 0); [reflexivity|lia]).
    destruct T as [T|[T|[T|[T|[T|T]]]]].
    + assert (ft = 0) by (subst ft; unfold kFilterTypeCount; destruct (Z.leb_spec 5 tp); [reflexivity|lia]). rewrite H.
      exists m. split; [reflexivity|]. apply row_inv_weak; [assumption|]. intros x Hx. unfold predictor.
      destruct (Z.eqb_spec tp 1), (Z.eqb_spec tp 2), (Z.eqb_spec tp 3), (Z.eqb_spec tp 4); try lia.
    + subst tp. vm_compute in Hft. subst ft. exists m. split; [reflexivity|]. now apply row_inv_weak.
    + subst tp. vm_compute in Hft. subst ft. unfold filter_row.
      destruct (row_loop m false 1 bpp bpl p u Hbpp Hp Hend Hu bpp g_left bpp (bpl - bpp) u m) as (m' & E & I); try lia.
      * intros mk x Hx Ix. rewrite (h_left _ _ _ _ _ _ _ Hbpp Hp Hend _ _ _ Ix) by lia. reflexivity.
      * apply row_inv_weak; [assumption|]. intros x Hx. cbn [predictor Z.eqb Pos.eqb]. apply Z0. lia.
      * replace (p + bpp - bpp) with p in E by lia. unfold kFilterTypeSub. cbn [Z.eqb Pos.eqb]. rewrite N, E. cbn [bind]. exists m'.
        split; [f_equal; f_equal; lia|]. now replace (bpp + (bpl - bpp)) with bpl in I by lia.
    + subst tp. vm_compute in Hft. subst ft. unfold filter_row, kFilterTypeSub, kFilterTypeUp. cbn [Z.eqb Pos.eqb].
      destruct (row_loop m false 2 bpp bpl p u Hbpp Hp Hend Hu 0 g_up 0 bpl u m) as (m' & E & I); try lia.
      * intros mk x Hx Ix. unfold g_up. rewrite Z.sub_0_r. rewrite (h_up _ _ _ _ _ _ _ Hbpp Hend Hu _ _ eq_refl Ix) by lia. reflexivity.
      * assumption.
      * replace (p + 0 - 0) with p in E by lia. rewrite E. exists m'. now split.
    + subst tp. vm_compute in Hft. subst ft. unfold filter_row, kFilterTypeSub, kFilterTypeUp, kFilterTypeAvg. cbn [Z.eqb Pos.eqb].
      destruct (row_loop m false 3 bpp bpl p u Hbpp Hp Hend Hu 0 g_up_half 0 bpp u m) as (m1 & E & I); try lia.
      * intros mk x Hx Ix. unfold g_up_half. rewrite Z.sub_0_r. rewrite (h_up _ _ _ _ _ _ _ Hbpp Hend Hu _ _ eq_refl Ix) by lia.
        cbn [bind]. unfold predictor. cbn [Z.eqb Pos.eqb]. now rewrite LZ, shr1 by lia.
      * assumption.
      * replace (p + 0 - 0) with p in E by lia. rewrite E. cbn [bind]. rewrite Z.add_0_l in I.
        assert (L1 : length m1 = length m) by (destruct I as (L & _); unfold len in L; lia).
        destruct (row_loop m false 3 bpp bpl p u Hbpp Hp Hend Hu bpp g_avg bpp (bpl - bpp) (u + bpp) m1) as (m' & E' & I'); try lia.
        -- intros mk x Hx Ix. unfold g_avg. pose proof (h_left _ _ _ _ _ _ _ Hbpp Hp Hend _ _ 0 Ix) as HL. unfold g_left in HL.
           rewrite HL by lia. cbn [bind]. replace (u + bpp + (x - bpp)) with (u + x) by lia.
           rewrite (h_up _ _ _ _ _ _ _ Hbpp Hend Hu _ _ eq_refl Ix) by lia. cbn [bind].
           destruct Ix as (_ & B & _). rewrite avg_filter; [reflexivity|now apply lft_byte|now apply upr_byte].
        -- assumption.
        -- replace (p + bpp - bpp) with p in E' by lia. rewrite L1 in E'. rewrite N, E'. cbn [bind].
           exists m'. split; [f_equal; f_equal; lia|]. now replace (bpp + (bpl - bpp)) with bpl in I' by lia.
    + subst tp. vm_compute in Hft. subst ft. unfold filter_row, kFilterTypeSub, kFilterTypeUp, kFilterTypeAvg, kFilterTypePaeth. cbn [Z.eqb Pos.eqb].
      destruct (row_loop m false 4 bpp bpl p u Hbpp Hp Hend Hu 0 g_up 0 bpp u m) as (m1 & E & I); try lia.
      * intros mk x Hx Ix. unfold g_up. rewrite Z.sub_0_r. rewrite (h_up _ _ _ _ _ _ _ Hbpp Hend Hu _ _ eq_refl Ix) by lia.
        unfold predictor. cbn [Z.eqb Pos.eqb]. rewrite LZ, (UZ _ (x - bpp)) by lia.
        rewrite paeth_up; [reflexivity|]. destruct Ix as (_ & B & _). now apply upr_byte.
      * assumption.
      * replace (p + 0 - 0) with p in E by lia. rewrite E. cbn [bind]. rewrite Z.add_0_l in I.
        assert (L1 : length m1 = length m) by (destruct I as (L & _); unfold len in L; lia).
        destruct (row_loop m false 4 bpp bpl p u Hbpp Hp Hend Hu bpp (g_paeth bpp) bpp (bpl - bpp) u m1) as (m' & E' & I'); try lia.
        -- intros mk x Hx Ix. unfold g_paeth. pose proof (h_left _ _ _ _ _ _ _ Hbpp Hp Hend _ _ 0 Ix) as HL. unfold g_left in HL.
           rewrite HL by lia. cbn [bind]. replace (u + (x - bpp) + bpp) with (u + x) by lia.
           rewrite (h_up _ _ _ _ _ _ _ Hbpp Hend Hu _ _ eq_refl Ix) by lia. cbn [bind].
           pose proof Ix as (Lx & B & _).
           replace (rd mk (u + (x - bpp))) with (Ok (upr false u mk (x - bpp))).
           2:{ unfold upr. destruct (Z.ltb_spec (x - bpp) 0); [lia|]. cbn [orb]. symmetry. apply rd_get. lia. }
           cbn [bind]. rewrite paeth_filter; [reflexivity|now apply lft_byte|now apply upr_byte|now apply upr_byte].
        -- assumption.
        -- replace (p + bpp - bpp) with p in E' by lia. rewrite L1 in E'. rewrite N, E'. cbn [bind].
           exists m'. split; [f_equal; f_equal; lia|]. now replace (bpp + (bpl - bpp)) with bpl in I' by lia.
Qed.

(* ------------------------------------------------------------------ all rows *)

Definition eff_filter (first : bool) (tp : Z) : Z :=
  let t := if kFilterTypeCount <=? tp then 0 else tp in if first then simplify_filter_of_first_row t else t.

Section Rows.
  Context (m0 : list Z) (bpp bpl base h : Z).
  Context (Hm : bytes m0) (Hbpp : 1 <= bpp <= bpl - 1) (Hbpl : bpl < 4294967296) (Hb : 0 <= base) (Hh : h < 4294967296).
  Context (Hend : base + h * bpl <= len m0).

  Definition rows_inv (y : Z) (mk : list Z) : Prop :=
    len mk = len m0 /\ bytes mk /\ (forall j, 0 <= j -> j < base \/ base + y * bpl <= j -> get mk j = get m0 j) /\
    reconstructed bpp bpl base y m0 mk.

  Lemma rows_step y mk m' u : 0 <= y < h -> rows_inv y mk -> (y <> 0 -> u = base + (y - 1) * bpl + 1) ->
    row_inv mk (y =? 0) (get m0 (base + y * bpl)) bpp (base + y * bpl + 1) u (bpl - 1) m' -> rows_inv (y + 1) m'.
  Proof.
    intros Hy (L & B & O & R) Hu (L' & B' & O' & R').
    assert (Y : (y + 1) * bpl = y * bpl + bpl) by lia.
    assert (Y0 : 0 <= y * bpl) by nia. assert (YH : y * bpl + bpl <= h * bpl) by nia.
    split; [lia|]. split; [assumption|]. split.
    - intros j Hj Hj'. rewrite O' by lia. apply O; lia.
    - intros y' x Hy' Hx at_.
      destruct (Z.eq_dec y' y) as [->|N].
      + split; [rewrite O' by lia; apply O; lia|].
        specialize (R' x Hx). unfold row_eqn in R'. rewrite (O (base + y * bpl + 1 + x)) in R' by lia.
        assert (A0 : at_ y x = get m' (base + y * bpl + 1 + x)) by (unfold at_; replace ((y <? 0) || (x <? 0)) with false by lia; reflexivity).
        assert (A1 : at_ y (x - bpp) = lft (base + y * bpl + 1) m' (x - bpp)).
        { unfold at_, lft. replace (y <? 0) with false by lia. cbn [orb]. destruct (x - bpp <? 0); [reflexivity|]. f_equal; lia. }
        assert (A2 : forall x', at_ (y - 1) x' = upr (y =? 0) u m' x').
        { intros x'. unfold at_, upr. replace (y - 1 <? 0) with (y =? 0) by lia. destruct (Z.eqb_spec y 0); [reflexivity|].
          cbn [orb]. destruct (x' <? 0); [reflexivity|]. rewrite Hu by assumption. f_equal; lia. }
        rewrite A0, A1, !A2. exact R'.
      + assert (Yp : y' * bpl + bpl <= y * bpl) by nia. assert (Y'0 : 0 <= y' * bpl) by nia.
        specialize (R y' x ltac:(lia) Hx). cbv zeta in R. destruct R as (R1 & R2).
        assert (A : forall y2 x2, y2 = y' \/ y2 = y' - 1 -> x2 <= x ->
                  at_ y2 x2 = (if (y2 <? 0) || (x2 <? 0) then 0 else get mk (base + y2 * bpl + 1 + x2))).
        { intros y2 x2 H2 Hx2. unfold at_. destruct (Z.ltb_spec y2 0); [reflexivity|]. destruct (Z.ltb_spec x2 0); [reflexivity|]. cbn [orb].
          apply O'; [nia|]. left. destruct H2; subst y2; nia. }
        split; [rewrite O' by lia; exact R1|]. rewrite !A by lia. exact R2.
  Qed.

  Lemma filter_rows_ok : forall fuel y mk u, 0 <= y < h -> h - y <= Z.of_nat fuel -> rows_inv y mk ->
    (y <> 0 -> u = base + (y - 1) * bpl + 1) ->
    exists m', filter_rows fuel (eff_filter (y =? 0) (get m0 (base + y * bpl))) (h - y) bpp (bpl - 1) (base + y * bpl + 1) u mk = Ok m' /\
      rows_inv h m'.
  Proof.
    induction fuel as [|fuel IH]; intros y mk u Hy F I Hu; [lia|].
    pose proof I as (L & B & O & R).
    assert (Y0 : 0 <= y * bpl) by nia. assert (YH : y * bpl + bpl <= h * bpl) by nia.
    destruct (filter_row_ok mk (y =? 0) (get m0 (base + y * bpl)) (eff_filter (y =? 0) (get m0 (base + y * bpl))) bpp (bpl - 1)
                (base + y * bpl + 1) u) as (m' & E & I'); try lia.
    - assumption.
    - intros Hf. assert (y <> 0) by lia. rewrite Hu by assumption. split; nia.
    - pose proof (get_byte m0 (base + y * bpl) Hm) as G. unfold is_byte in G. lia.
    - reflexivity.
    - cbn [filter_rows]. rewrite E. cbn [bind].
      pose proof (rows_step y mk m' u Hy I Hu I') as I1.
      replace (w32 (h - y - 1)) with (h - (y + 1)) by (unfold w32; rewrite Z.mod_small; lia).
      destruct (Z.eqb_spec (h - (y + 1)) 0) as [Z0|N0].
      + exists m'. split; [reflexivity|]. now replace h with (y + 1) by lia.
      + pose proof I1 as (L1 & B1 & O1 & R1).
        assert (YY : (y + 1) * bpl = y * bpl + bpl) by lia. assert (YH2 : (y + 1) * bpl + bpl <= h * bpl) by nia.
        replace (base + y * bpl + 1 + (bpl - 1)) with (base + (y + 1) * bpl) by lia.
        rewrite rd_get by lia. cbn [bind]. rewrite O1 by lia.
        replace (if kFilterTypeCount <=? get m0 (base + (y + 1) * bpl) then kFilterTypeNone else get m0 (base + (y + 1) * bpl))
          with (eff_filter (y + 1 =? 0) (get m0 (base + (y + 1) * bpl))).
        2:{ unfold eff_filter. replace (y + 1 =? 0) with false by lia. reflexivity. }
        apply IH; [lia|lia|assumption|]. intros _. nia.
  Qed.

  Lemma inverse_filter_ok : 0 < h ->
    exists m', inverse_filter_impl base bpp bpl h m0 = Ok m' /\ rows_inv h m'.
  Proof.
    intros H0. unfold inverse_filter_impl.
    assert (YH : bpl <= h * bpl) by nia.
    replace (w32 (bpl - 1)) with (bpl - 1) by (unfold w32; rewrite Z.mod_small; lia).
    rewrite rd_get by lia. cbn [bind].
    destruct (filter_rows_ok (S (length m0)) 0 m0 (-1)) as (m' & E & I).
    - lia.
    - unfold len in Hend. nia.
    - split; [reflexivity|]. split; [assumption|]. split; [reflexivity|]. intros y x Hy; lia.
    - intros; lia.
    - exists m'. split; [|assumption]. rewrite <- E. rewrite Z.mul_0_l, Z.add_0_r, Z.sub_0_r. reflexivity.
  Qed.
End Rows.
