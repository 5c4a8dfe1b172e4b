(* Proofs for the cmap reader: safety and completeness of validate_sub_table, the choice of an encoding, coverage. *)
From Verif Require Import Base CMap_Model CMap_Spec CMap_Proofs CMap_Proofs2 CMap_Proofs3.
Ltac Zify.zify_post_hook ::= idtac.

Definition safe {A} (o : outcome A) : Prop := match o with Ok _ | Err _ => True | UB | NoFuel => False end.
Lemma safe_guard {A} b (k : outcome A) : (b = true -> safe k) -> safe (guard b k).
Proof. destruct b; cbn; auto. Qed.
Lemma safe_bind {A B} (m : outcome A) (k : A -> outcome B) : safe m -> (forall a, m = Ok a -> safe (k a)) -> safe (bind m k).
Proof. destruct m; cbn; auto. Qed.

Lemma check4_safe t off nseg len k : bytes t -> 0 <= off -> off + 16 + 8 * nseg <= size t ->
  forall i prev after, 0 <= i -> i + Z.of_nat k = nseg -> safe (check4 k t off nseg len i prev after).
Proof.
  intros B Hoff Hs. induction k; intros i prev after Hi Hk; cbn [check4]; [exact I|].
  rewrite u16_ok by lia. cbn [bind]. rewrite u16_ok by lia. cbn [bind]. rewrite u16_ok by lia. cbn [bind].
  repeat (match goal with |- safe (if ?b then _ else _) => destruct b end); try exact I; apply IHk; lia.
Qed.
Lemma check12_safe t off n k : bytes t -> 0 <= off -> off + 16 + 12 * n <= size t ->
  forall i last, 0 <= i -> i + Z.of_nat k = n -> safe (check12 k t off i last).
Proof.
  intros B Hoff Hs. induction k; intros i last Hi Hk; cbn [check12]; [exact I|].
  rewrite u32_ok by lia. cbn [bind]. destruct (_ <=? _); [exact I|]. rewrite u32_ok by lia. cbn [bind].
  destruct (_ || _); [exact I|]. apply IHk; lia.
Qed.

Lemma validate_safe t off : bytes t -> 0 <= off -> ~ empty_groups_at_end t off -> safe (validate t off).
Proof.
  intros B Hoff NE. unfold validate. apply safe_guard; intros G. cbv zeta.
  rewrite u16_ok by lia. cbn [bind].
  destruct (Z.eqb_spec (be16 t off) 0).
  { apply safe_guard; intros G1. rewrite u16_ok by lia. cbn [bind]. apply safe_guard; intros G2. exact I. }
  destruct (be16 t off =? 2); [exact I|].
  destruct (Z.eqb_spec (be16 t off) 4).
  { apply safe_guard; intros G1. rewrite u16_ok by lia. cbn [bind]. apply safe_guard; intros G2.
    rewrite u16_ok by lia. cbn [bind]. apply safe_guard; intros G3. fold (seg_count t off). apply safe_guard; intros G4.
    pose proof (nseg_nonneg t off B).
    apply safe_bind; [apply check4_safe; try assumption; lia|]. intros a _. apply safe_guard; intros _; exact I. }
  destruct (Z.eqb_spec (be16 t off) 6).
  { apply safe_guard; intros G1. rewrite u16_ok by lia. cbn [bind]. apply safe_guard; intros G2.
    rewrite u16_ok by lia. cbn [bind]. rewrite u16_ok by lia. cbn [bind]. apply safe_guard; intros G3. apply safe_guard; intros G4. exact I. }
  destruct (be16 t off =? 8); [exact I|].
  destruct (Z.eqb_spec (be16 t off) 10).
  { apply safe_guard; intros G1. rewrite u32_ok by lia. cbn [bind]. apply safe_guard; intros G2.
    rewrite u32_ok by lia. cbn [bind]. rewrite u32_ok by lia. cbn [bind]. apply safe_guard; intros G3. apply safe_guard; intros G4. exact I. }
  destruct ((be16 t off =? 12) || (be16 t off =? 13)) eqn:F.
  { apply safe_guard; intros G1. rewrite u32_ok by lia. cbn [bind]. apply safe_guard; intros G2.
    rewrite u32_ok by lia. cbn [bind]. apply safe_guard; intros G3. fold (grp_count t off) in *.
    pose proof (be32_range t (off + 12) B) as Rc. fold (grp_count t off) in Rc.
    assert (R : off + 24 <= size t).
    { destruct (Z_le_gt_dec (off + 24) (size t)) as [|L]; [assumption|exfalso]. apply NE.
      unfold empty_groups_at_end. change (tsize t) with (size t). split; [lia|]. lia. }
    rewrite u32_ok by lia. cbn [bind]. rewrite u32_ok by lia. cbn [bind]. apply safe_guard; intros G4.
    apply safe_bind; [|intros; exact I].
    destruct (Z.eq_dec (grp_count t off) 0) as [Z0|]; [rewrite Z0; exact I|].
    apply (check12_safe t off (grp_count t off)); try assumption; lia. }
  destruct (be16 t off =? 14); [|exact I]. apply safe_guard; intros _; exact I.
Qed.

(* -- completeness -- *)
Lemma guard_true {A} b (k : outcome A) : b = true -> guard b k = k.
Proof. intros ->. reflexivity. Qed.

Lemma odd_land x : Z.land x 1 = x mod 2.
Proof. change 1 with (Z.ones 1) at 1. rewrite Z.land_ones by lia. reflexivity. Qed.

Lemma check4_complete t off len k : bytes t -> 0 <= off -> off + 16 + 8 * seg_count t off <= size t ->
  let n := seg_count t off in
  (forall i, 0 <= i < n -> seg_start t off i <= seg_end t off i) ->
  (forall i, 0 <= i < n - 1 -> seg_end t off i < seg_start t off (i + 1)) ->
  is_end_mark t off (n - 1) ->
  (forall i, 0 <= i < n - 1 -> seg_range t off i <> 0 ->
     seg_range t off i mod 2 = 0 /\
     seg_range_at t off i + seg_range t off i + 2 * (seg_end t off i - seg_start t off i) + 2 <= off + len) ->
  forall i prev, 0 <= i -> i + Z.of_nat k = n -> 1 <= Z.of_nat k -> (i = 0 -> prev = 0) -> (0 < i -> prev = seg_end t off (i - 1)) ->
  check4 k t off n len i prev n = Ok (n - 1).
Proof.
  intros B Hoff Hs n W1 W2 W3 W4. induction k; intros i prev Hi Hk K1 P0 P1; [lia|]. cbn [check4].
  rewrite u16_ok by lia. cbn [bind]. rewrite u16_ok by lia. cbn [bind]. rewrite u16_ok by lia. cbn [bind].
  unfold n at 2. rewrite start_eq. fold n. fold (seg_end t off i).
  replace (off + 16 + n * 6 + 2 * i) with (seg_range_at t off i) by (unfold seg_range_at; lia). fold (seg_range t off i).
  pose proof (be16_range t (off + 14 + 2 * i) B) as Re. fold (seg_end t off i) in Re.
  pose proof (be16_range t (off + 16 + 2 * seg_count t off + 2 * i) B) as Rs. fold (seg_start t off i) in Rs.
  destruct (Z.eq_dec i (n - 1)) as [->|Ni].
  - destruct W3 as [W3 W3']. rewrite W3, W3'. cbn [Z.eqb Pos.eqb andb].
    assert (k = 0%nat) by lia. subst k. cbn [check4]. f_equal. lia.
  - pose proof (W2 i ltac:(lia)) as W2i. pose proof (W1 i ltac:(lia)) as W1i.
    pose proof (be16_range t (off + 16 + 2 * seg_count t off + 2 * (i + 1)) B) as Rs1. fold (seg_start t off (i + 1)) in Rs1.
    assert (X : (seg_start t off i =? 65535) && (seg_end t off i =? 65535) = false) by lia. rewrite X. clear X.
    assert (Pv : prev <= seg_start t off i /\ (i <> 0 -> prev < seg_start t off i)).
    { destruct (Z.eq_dec i 0) as [->|]; [rewrite P0 by reflexivity; lia|].
      rewrite P1 by lia. pose proof (W2 (i - 1) ltac:(lia)) as W. replace (i - 1 + 1) with i in W by lia. lia. }
    assert (X : (seg_start t off i <? prev) || (seg_end t off i <? seg_start t off i) = false) by lia. rewrite X. clear X.
    assert (X : negb (i =? 0) && (seg_start t off i =? prev) = false) by (destruct (Z.eqb_spec i 0); lia). rewrite X. clear X.
    rewrite odd_land.
    assert (X : negb (seg_range t off i =? 0) && negb (seg_range t off i mod 2 =? 0) = false).
    { destruct (Z.eqb_spec (seg_range t off i) 0) as [|N]; [reflexivity|]. destruct (W4 i ltac:(lia) N) as [-> _]. reflexivity. }
    rewrite X. clear X.
    assert (X : negb (seg_range t off i =? 0) && (len <=? 16 + n * 6 + seg_range t off i + (seg_end t off i - seg_start t off i) * 2) = false).
    { destruct (Z.eqb_spec (seg_range t off i) 0) as [|N]; [reflexivity|]. destruct (W4 i ltac:(lia) N) as [_ W].
      unfold seg_range_at in W at 1. fold n in W. cbn [negb andb]. apply Z.leb_gt. lia. }
    rewrite X. clear X.
    apply IHk; try lia. intros _. replace (i + 1 - 1) with i by lia. reflexivity.
Qed.

Lemma check12_complete t off n k : bytes t -> 0 <= off -> off + 16 + 12 * n <= size t ->
  (forall i, 0 <= i < n -> grp_first t off i <= grp_last t off i <= 0x10FFFF) ->
  (forall i, 0 <= i < n - 1 -> grp_last t off i < grp_first t off (i + 1)) ->
  forall i, 1 <= i -> i + Z.of_nat k = n -> check12 k t off i (grp_last t off (i - 1)) = Ok tt.
Proof.
  intros B Hoff Hs W1 W2. induction k; intros i Hi Hk; cbn [check12]; [reflexivity|].
  rewrite u32_ok by lia. cbn [bind]. fold (grp_first t off i).
  pose proof (W2 (i - 1) ltac:(lia)) as W. replace (i - 1 + 1) with i in W by lia.
  destruct (Z.leb_spec (grp_first t off i) (grp_last t off (i - 1))); [lia|].
  rewrite u32_ok by lia. cbn [bind]. fold (grp_last t off i). pose proof (W1 i ltac:(lia)) as V. unfold kCharMax.
  assert (X : (grp_last t off i <? grp_first t off i) || (1114111 <? grp_last t off i) = false) by lia. rewrite X.
  specialize (IHk (i + 1) ltac:(lia) ltac:(lia)). replace (i + 1 - 1) with i in IHk by lia. exact IHk.
Qed.

Ltac gd := rewrite guard_true; [|lia].
Lemma accept0 t off : bytes t -> 0 <= off -> wf0 t off -> validate t off = Ok (0, 256).
Proof.
  intros B Hoff (F & L & S). change (tsize t) with (size t) in S. unfold validate. gd. cbv zeta. rewrite u16_ok by lia. cbn [bind]. rewrite F. cbn [Z.eqb].
  gd. rewrite u16_ok by lia. cbn [bind]. rewrite L. gd. reflexivity.
Qed.
Lemma accept4 t off : bytes t -> 0 <= off -> wf4 t off -> validate t off = Ok (4, seg_count t off - 1).
Proof.
  intros B Hoff (F & X2 & N & L & S & W1 & W2 & W3 & W4). change (tsize t) with (size t) in S.
  unfold validate. gd. cbv zeta. rewrite u16_ok by lia. cbn [bind]. rewrite F. cbn [Z.eqb Pos.eqb].
  gd. rewrite u16_ok by lia. cbn [bind]. gd. rewrite u16_ok by lia. cbn [bind].
  rewrite guard_true. 2:{ rewrite odd_land, X2. rewrite Z.mul_comm, Z_mod_mult. cbn. destruct (Z.eqb_spec (seg_count t off * 2) 0); [lia|reflexivity]. }
  fold (seg_count t off). gd.
  rewrite (check4_complete t off (be16 t (off + 2)) _ B Hoff ltac:(lia) W1 W2 W3 W4); try lia. cbn [bind]. gd. reflexivity.
Qed.
Lemma accept10 t off : bytes t -> 0 <= off -> wf10 t off -> be32 t (off + 12) + be32 t (off + 16) <= 0x10FFFF -> validate t off = Ok (10, be32 t (off + 16)).
Proof.
  intros B Hoff (F & N & _ & L & S) M. change (tsize t) with (size t) in S. 
  pose proof (be32_range t (off + 16) B). pose proof (be32_range t (off + 12) B).
  unfold validate. gd. cbv zeta. rewrite u16_ok by lia. cbn [bind]. rewrite F. cbn [Z.eqb Pos.eqb].
  gd. rewrite u32_ok by lia. cbn [bind]. gd. rewrite u32_ok by lia. cbn [bind]. rewrite u32_ok by lia. cbn [bind].
  unfold kCharMax, w32. rewrite Z.mod_small by lia. gd. gd. reflexivity.
Qed.
Lemma accept12 t off : bytes t -> 0 <= off -> wf12 t off -> grp_count t off <= 0x10FFFF -> validate t off = Ok (be16 t off, grp_count t off).
Proof.
  intros B Hoff (F & N & L & S & W1 & W2) Nc. change (tsize t) with (size t) in S.
  unfold validate. gd. cbv zeta. rewrite u16_ok by lia. cbn [bind].
  assert (Hs : off + 16 + 12 * grp_count t off <= size t) by lia.
  assert (K : guard (16 <=? size t - off) (
    let* len := u32 t (off + 4) in
    guard (negb ((len <? 16) || (size t - off <? len))) (
    let* count := u32 t (off + 12) in
    guard (negb ((kCharMax <? count) || (len <? 16 + count * 12))) (
    let* first := u32 t (off + 16) in
    let* last := u32 t (off + 20) in
    guard (negb ((last <? first) || (kCharMax <? last))) (
    let* _ := check12 (Z.to_nat count - 1) t off 1 last in
    Ok (be16 t off, count))))) = Ok (be16 t off, grp_count t off)).
  { gd. rewrite u32_ok by lia. cbn [bind]. gd. rewrite u32_ok by lia. cbn [bind]. fold (grp_count t off). unfold kCharMax. gd.
    rewrite u32_ok by lia. cbn [bind]. rewrite u32_ok by lia. cbn [bind].
    pose proof (W1 0 ltac:(lia)) as V. unfold grp_first, grp_last in V. rewrite Z.mul_0_r, Z.add_0_r in V.
    replace (off + 16 + 4) with (off + 20) in V by lia. gd.
    pose proof (check12_complete t off (grp_count t off) (Z.to_nat (grp_count t off) - 1) B Hoff Hs W1 W2 1 ltac:(lia) ltac:(lia)) as C.
    replace (grp_last t off (1 - 1)) with (be32 t (off + 20)) in C by (unfold grp_last; f_equal; lia).
    rewrite C. reflexivity. }
  destruct F as [F|F]; rewrite F in *; cbn [Z.eqb Pos.eqb orb]; exact K.
Qed.

(* -- init -- *)
Definition usable (t : list Z) (i : Z) : Prop :=
  rec_offset t i < tsize t - 4 /\ supported_format (rec_format t i) /\ 0 < rec_class t i /\ exists r, validate t (rec_offset t i) = Ok r.
Definition scr (t : list Z) (i : Z) : Z := score (rec_platform t i) (rec_encoding t i) (rec_format t i).

Lemma score_class p e f : let c := pref_class p e f in
  (c = 4 /\ score p e f = 0x20000 + e) \/ (c = 3 /\ score p e f = 0x10000 + e) \/ ((c = 0 \/ c = 1 \/ c = 2) /\ score p e f = c).
Proof.
  unfold score, pref_class. cbv zeta.
  destruct (Z.eqb_spec p 0) as [->|]; [cbn [Z.eqb andb]; right; left; split; reflexivity|].
  destruct (Z.eqb_spec p 3) as [->|]; cbn [Z.eqb Pos.eqb andb].
  - destruct (Z.eqb_spec e 0) as [->|]; [cbn; lia|]. destruct ((e =? 1) || (e =? 10)); lia.
  - destruct (Z.eqb_spec p 1) as [->|]; cbn [Z.eqb Pos.eqb andb]; [|lia]. destruct ((e =? 0) && (f =? 0)); lia.
Qed.
Lemma scr_preferred t i j : bytes t -> (preferred t i j <-> scr t j <= scr t i).
Proof.
  intros B. pose proof (be16_range t (4 + 8 * i + 2) B) as Ri. pose proof (be16_range t (4 + 8 * j + 2) B) as Rj.
  unfold preferred, scr, rec_class. fold (rec_encoding t i) in Ri. fold (rec_encoding t j) in Rj.
  pose proof (score_class (rec_platform t i) (rec_encoding t i) (rec_format t i)) as Ci.
  pose proof (score_class (rec_platform t j) (rec_encoding t j) (rec_format t j)) as Cj.
  cbv zeta in Ci, Cj. lia.
Qed.
Lemma scr_pos t i : bytes t -> (0 < rec_class t i <-> 0 < scr t i).
Proof.
  intros B. pose proof (be16_range t (4 + 8 * i + 2) B) as Ri. fold (rec_encoding t i) in Ri.
  unfold scr, rec_class. 
  pose proof (score_class (rec_platform t i) (rec_encoding t i) (rec_format t i)) as Ci. cbv zeta in Ci. lia.
Qed.
Lemma supported_spec f : is_supported f = true <-> supported_format f.
Proof. unfold is_supported, supported_format. lia. Qed.

Definition good (t : list Z) (i : Z) (f : face) : Prop :=
  match f_enc f with
  | None => f_score f = 0 /\ forall j, 0 <= j < i -> ~ usable t j
  | Some (fmt, off, count) => exists j, 0 <= j < i /\ usable t j /\ off = rec_offset t j /\ validate t off = Ok (fmt, count) /\
      f_score f = scr t j /\ (forall k, 0 <= k < i -> usable t k -> scr t k <= scr t j) /\
      (forall k, 0 <= k < j -> usable t k -> scr t k < scr t j)
  end.

Lemma good_skip t i f g : f_enc g = f_enc f -> f_score g = f_score f -> 0 <= i -> good t i f -> 
  (usable t i -> scr t i <= f_score f /\ 0 < scr t i) -> good t (i + 1) g.
Proof.
  intros E1 E2 Hi G U. unfold good in *. rewrite E1, E2. destruct (f_enc f) as [[[fmt off] count]|].
  - destruct G as (j & Hj & Uj & Eo & V & Es & Mx & Fi). exists j. split; [lia|]. split; [exact Uj|]. split; [exact Eo|]. split; [exact V|]. split; [exact Es|]. split; [|exact Fi].
    intros k Hk Uk. destruct (Z.eq_dec k i) as [->|]; [specialize (U Uk); lia|apply Mx; [lia|assumption]].
  - destruct G as [G1 G2]. split; [assumption|]. intros j Hj Uj. destruct (Z.eq_dec j i) as [->|]; [specialize (U Uj); lia|].
    apply (G2 j); [lia|assumption].
Qed.

Lemma init_loop_good t : bytes t -> 12 <= size t -> forall k i f g, 0 <= i -> 4 + 8 * (i + Z.of_nat k) <= size t -> good t i f ->
  init_loop k t i f = Ok g -> good t (i + Z.of_nat k) g.
Proof.
  intros B Hs12. induction k; intros i f g Hi Hs G E; cbn [init_loop] in E.
  - injection E as <-. rewrite Z.add_0_r. exact G.
  - replace (i + Z.of_nat (S k)) with (i + 1 + Z.of_nat k) in * by lia.
    rewrite u32_ok in E by lia. cbn [bind] in E. fold (rec_offset t i) in E.
    pose proof (be32_range t (4 + 8 * i + 4) B) as Ro. fold (rec_offset t i) in Ro.
    destruct (Z.leb_spec (size t - 4) (rec_offset t i)) as [L|L].
    { apply (IHk (i + 1) f); try assumption; try lia. apply (good_skip t i f); auto. intros (U & _). change (tsize t) with (size t) in U. lia. }
    rewrite u16_ok in E by lia. cbn [bind] in E. rewrite u16_ok in E by lia. cbn [bind] in E. rewrite u16_ok in E by lia. cbn [bind] in E.
    fold (rec_platform t i) (rec_encoding t i) (rec_format t i) in E.
    destruct (is_supported (rec_format t i)) eqn:Sup; cbn [negb] in E.
    2:{ apply (IHk (i + 1) f); try assumption; try lia. apply (good_skip t i f); auto. intros (_ & U & _). apply supported_spec in U. congruence. }
    fold (scr t i) in E. cbv zeta in E. cbn [f_score f_enc f_symbol f_wrong_data f_wrong_format] in E.
    destruct (Z.ltb_spec (f_score f) (scr t i)) as [Sc|Sc].
    2:{ refine (IHk (i + 1) _ g _ _ _ E); try lia. apply (good_skip t i f); auto.
        intros (_ & _ & U & _). apply scr_pos in U; [lia|assumption]. }
    destruct (validate t (rec_offset t i)) as [[fmt count]|c| |] eqn:V; try discriminate.
    + refine (IHk (i + 1) _ g _ _ _ E); try lia. unfold good. cbn [f_enc f_score].
      assert (Ps : 0 <= f_score f).
      { unfold good in G. destruct (f_enc f) as [[[? ?] ?]|]; [|lia]. destruct G as (j & _ & (_ & _ & Uj & _) & _ & _ & Es & _).
        apply scr_pos in Uj; [lia|assumption]. }
      assert (Best : forall k0, 0 <= k0 < i -> usable t k0 -> scr t k0 < scr t i).
      { intros k0 Hk0 Uk. unfold good in G. destruct (f_enc f) as [[[? ?] ?]|].
        - destruct G as (j & _ & _ & _ & _ & Es & Mx & _). specialize (Mx k0 Hk0 Uk). lia.
        - destruct G as [_ G]. exfalso. apply (G k0 Hk0 Uk). }
      exists i. split; [lia|]. split.
      { unfold usable. split; [exact L|]. split; [apply supported_spec; exact Sup|]. split; [apply scr_pos; [assumption|lia]|]. exists (fmt, count). exact V. }
      split; [reflexivity|]. split; [exact V|]. split; [reflexivity|]. split; [|exact Best].
      intros k0 Hk0 Uk. destruct (Z.eq_dec k0 i) as [->|]; [lia|]. specialize (Best k0 ltac:(lia) Uk). lia.
    + assert (NU : ~ usable t i) by (intros (_ & _ & _ & r & Er); congruence).
      destruct (c =? E_NOT_IMPLEMENTED); (refine (IHk (i + 1) _ g _ _ _ E); try lia; apply (good_skip t i f); auto; intros U; contradiction).
Qed.

Lemma init_good t f : bytes t -> init t = Ok f ->
  (12 <= size t /\ 4 + 8 * rec_count t <= size t /\ good t (rec_count t) f) \/
  ((size t < 12 \/ size t < 4 + 8 * rec_count t) /\ f_enc f = None).
Proof.
  intros B E. unfold init in E. destruct (Z.eqb_spec (size t) 0); [injection E as <-; right; split; [lia|reflexivity]|].
  destruct (Z.ltb_spec (size t) 12); [injection E as <-; right; split; [lia|reflexivity]|].
  rewrite u16_ok in E by lia. cbn [bind] in E. fold (rec_count t) in E.
  pose proof (be16_range t 2 B) as R. fold (rec_count t) in R.
  destruct (Z.ltb_spec (size t) (4 + rec_count t * 8)); [injection E as <-; right; split; [lia|reflexivity]|].
  left. split; [lia|]. split; [lia|].
  replace (rec_count t) with (0 + Z.of_nat (Z.to_nat (rec_count t))) by lia.
  refine (init_loop_good t B ltac:(lia) (Z.to_nat (rec_count t)) 0 _ f ltac:(lia) _ _ E); [lia|].
  unfold good. cbn. split; [reflexivity|intros; lia].
Qed.

Lemma init_safe t : bytes t -> (forall i, 0 <= i < rec_count t -> ~ empty_groups_at_end t (rec_offset t i)) -> exists f, init t = Ok f.
Proof.
  intros B NE. unfold init. destruct (Z.eqb_spec (size t) 0); [eexists; reflexivity|].
  destruct (Z.ltb_spec (size t) 12); [eexists; reflexivity|].
  rewrite u16_ok by lia. cbn [bind]. fold (rec_count t). pose proof (be16_range t 2 B) as R. fold (rec_count t) in R.
  destruct (Z.ltb_spec (size t) (4 + rec_count t * 8)); [eexists; reflexivity|].
  assert (G : forall k i f, 0 <= i -> i + Z.of_nat k = rec_count t -> exists g, init_loop k t i f = Ok g).
  { induction k; intros i f Hi Hk; cbn [init_loop]; [eexists; reflexivity|].
    rewrite u32_ok by lia. cbn [bind]. fold (rec_offset t i).
    pose proof (be32_range t (4 + 8 * i + 4) B) as Ro. fold (rec_offset t i) in Ro.
    destruct (Z.leb_spec (size t - 4) (rec_offset t i)); [apply IHk; lia|].
    rewrite u16_ok by lia. cbn [bind]. rewrite u16_ok by lia. cbn [bind]. rewrite u16_ok by lia. cbn [bind].
    destruct (negb _); [apply IHk; lia|]. cbv zeta. destruct (_ <? _); [|apply IHk; lia].
    pose proof (validate_safe t (rec_offset t i) B ltac:(lia) (NE i ltac:(lia))) as V.
    destruct (validate t (rec_offset t i)) as [[fmt count]|c| |]; cbn in V; try contradiction.
    - apply IHk; lia.
    - destruct (c =? E_NOT_IMPLEMENTED); apply IHk; lia. }
  apply G; lia.
Qed.

(* -- coverage -- *)
Lemma covered_cons r l c : covered (r :: l) c <-> (fst r <= c < snd r) \/ covered l c.
Proof.
  unfold covered. split.
  - intros (x & [<-|I] & H); [left; exact H|right; exists x; split; assumption].
  - intros [H|(x & I & H)]; [exists r; split; [left; reflexivity|exact H]|exists x; split; [right; exact I|exact H]].
Qed.
Lemma cover_array_ok f g first k : forall i acc, (forall j, i <= j < i + Z.of_nat k -> f j = Ok (g j)) ->
  exists l, cover_array f k first i acc = Ok l /\ forall c, covered l c <-> covered acc c \/ (i <= c - first < i + Z.of_nat k /\ g (c - first) <> 0).
Proof.
  induction k; intros i acc H; cbn [cover_array].
  - exists acc. split; [reflexivity|]. intros c. split; [auto|]. intros [|[? _]]; [assumption|lia].
  - rewrite H by lia. cbn [bind]. destruct (IHk (i + 1) (if g i =? 0 then acc else (first + i, first + i + 1) :: acc)) as (l & E & C).
    { intros j Hj. apply H. lia. }
    exists l. split; [exact E|]. intros c. rewrite C.
    destruct (Z.eqb_spec (g i) 0) as [Z0|NZ].
    + split; intros [A|[A D]]; auto.
      * right. split; [lia|exact D].
      * right. split; [|exact D]. destruct (Z.eq_dec (c - first) i) as [Ec|]; [rewrite Ec in D; contradiction|lia].
    + rewrite covered_cons. cbn [fst snd]. split.
      * intros [[A|A]|[A D]]; [|auto|].
        -- right. replace (c - first) with i by lia. split; [lia|exact NZ].
        -- right. split; [lia|exact D].
      * intros [A|[A D]]; [auto|]. destruct (Z.eq_dec (c - first) i) as [Ec|]; [left; left; lia|right; split; [lia|exact D]].
Qed.
Lemma covered_add a b acc c : covered (add_range a b acc) c <-> a <= c < b \/ covered acc c.
Proof. unfold add_range. destruct (Z.ltb_spec a b); [apply covered_cons|]. split; [auto|]. intros [|]; [lia|assumption]. Qed.
Lemma cover_ranges_ok seg s e k : forall i a b acc, a <= b -> (forall j, i <= j < i + Z.of_nat k -> seg j = Ok (s j, e j) /\ s j <= e j) ->
  exists l, cover_ranges seg k i a b acc = Ok l /\
    forall c, covered l c <-> covered acc c \/ a <= c < b \/ exists j, i <= j < i + Z.of_nat k /\ s j <= c < e j.
Proof.
  induction k; intros i a b acc Hab H; cbn [cover_ranges].
  - eexists. split; [reflexivity|]. intros c. rewrite covered_add. split; [tauto|]. intros [A|[A|(j & Hj & _)]]; [auto|auto|lia].
  - destruct (H i ltac:(lia)) as [E Le]. rewrite E. cbn [bind].
    destruct (Z.eqb_spec (s i) b) as [Eq|Ne].
    + destruct (IHk (i + 1) a (e i) acc) as (l & El & C); [lia|intros j Hj; apply H; lia|].
      exists l. split; [exact El|]. intros c. rewrite C. split.
      * intros [A|[A|(j & Hj & A)]]; [auto| |right; right; exists j; split; [lia|exact A]].
        destruct (Z_lt_ge_dec c b); [right; left; lia|right; right; exists i; lia].
      * intros [A|[A|(j & Hj & A)]]; [auto|right; left; lia|].
        destruct (Z.eq_dec j i) as [->|]; [right; left; lia|right; right; exists j; split; [lia|exact A]].
    + destruct (IHk (i + 1) (s i) (e i) (add_range a b acc)) as (l & El & C); [lia|intros j Hj; apply H; lia|].
      exists l. split; [exact El|]. intros c. rewrite C, covered_add. split.
      * intros [[A|A]|[A|(j & Hj & A)]]; auto; right; right; [exists i; lia|exists j; split; [lia|exact A]].
      * intros [A|[A|(j & Hj & A)]]; auto.
        destruct (Z.eq_dec j i) as [->|]; [right; left; lia|right; right; exists j; split; [lia|exact A]].
Qed.

(* characters of the ranges of a sub-table *)
Definition in_segment (t : list Z) (off count c : Z) : Prop := exists i, 0 <= i < count /\ seg_start t off i <= c <= seg_end t off i.
Definition in_group (t : list Z) (off count c : Z) : Prop := exists i, 0 <= i < count /\ grp_first t off i <= c <= grp_last t off i.

Lemma coverage_ok t f fmt off count : bytes t -> 0 <= off -> f_enc f = Some (fmt, off, count) -> valid t off fmt count ->
  exists l, coverage t f = Ok l /\ forall c, 0 <= c ->
    (fmt = 0 \/ fmt = 6 \/ fmt = 10 -> (covered l c <-> code_glyph t off fmt count c <> 0)) /\
    (fmt = 4 -> (covered l c <-> in_segment t off count c)) /\
    (fmt = 12 \/ fmt = 13 -> (covered l c <-> in_group t off count c)).
Proof.
  intros B Hoff E V. unfold coverage. rewrite E.
  destruct V as [Ef [(F & S & Ec)|[(F & S & Cc & O & En)|[(F & S & Cp & Cc & Fc)|[(F & S & Cp & Cc & Fc)|(F & S & Cp & Cc & O & La)]]]]].
  - rewrite F. cbn [Z.eqb].
    destruct (cover_array_ok (fun i => u8 t (off + 6 + i)) (fun i => byte t (off + 6 + i)) 0 256 0 []) as (l & El & C).
    { intros j Hj. apply u8_ok. lia. }
    exists l. split; [exact El|]. intros c Hc. split; [|split; intros; lia]. intros _. rewrite C. unfold code_glyph, lookup0. cbn [Z.eqb].
    rewrite Z.sub_0_r. split.
    + intros [(r & [] & _)|[A D]]. destruct (Z.ltb_spec c 256); [exact D|lia].
    + intros D. right. destruct (Z.ltb_spec c 256); [split; [lia|exact D]|contradiction].
  - rewrite F. cbn [Z.eqb Pos.eqb]. pose proof (nseg_nonneg t off B). rewrite u16_ok by lia. cbn [bind]. fold (seg_count t off).
    assert (X : (seg_count t off =? 0) || (count =? 0) = false) by lia. rewrite X.
    destruct (cover_ranges_ok (fun i => let* a := u16 t (off + 16 + seg_count t off * 2 + 2 * i) in let* b := u16 t (off + 14 + 2 * i) in Ok (a, b + 1))
      (seg_start t off) (fun i => seg_end t off i + 1) (Z.to_nat count) 0 0 0 []) as (l & El & C); [lia| |].
    { intros j Hj. rewrite u16_ok by lia. cbn [bind]. rewrite u16_ok by lia. cbn [bind]. rewrite start_eq. split; [reflexivity|].
      destruct O as [O1 _]. specialize (O1 j ltac:(lia)). lia. }
    exists l. split; [exact El|]. intros c Hc. split; [intros; lia|]. split; [|intros; lia]. intros _. rewrite C. unfold in_segment. split.
    + intros [(r & [] & _)|[A|(j & Hj & A)]]; [lia|]. exists j. lia.
    + intros (j & Hj & A). right; right. exists j. lia.
  - rewrite F. cbn [Z.eqb Pos.eqb]. rewrite u16_ok by lia. cbn [bind].
    destruct (cover_array_ok (fun i => u16 t (off + 10 + i * 2)) (fun i => be16 t (off + 10 + i * 2)) (be16 t (off + 6)) (Z.to_nat count) 0 []) as (l & El & C).
    { intros j Hj. apply u16_ok; lia. }
    exists l. split; [exact El|]. intros c Hc. split; [|split; intros; lia]. intros _. rewrite C. unfold code_glyph, lookup6. cbn [Z.eqb Pos.eqb]. cbv zeta.
    rewrite <- Cc. replace (off + 10 + 2 * (c - be16 t (off + 6))) with (off + 10 + (c - be16 t (off + 6)) * 2) by lia.
    destruct ((be16 t (off + 6) <=? c) && (c <? be16 t (off + 6) + count)) eqn:R.
    + split; [intros [(r & [] & _)|[A D]]; exact D|]. intros D. right. split; [lia|exact D].
    + split; [intros [(r & [] & _)|[A D]]; lia|]. intros D. contradiction.
  - rewrite F. cbn [Z.eqb Pos.eqb]. rewrite u32_ok by lia. cbn [bind].
    destruct (cover_array_ok (fun i => u16 t (off + 20 + i * 2)) (fun i => be16 t (off + 20 + i * 2)) (be32 t (off + 12)) (Z.to_nat count) 0 []) as (l & El & C).
    { intros j Hj. apply u16_ok; lia. }
    exists l. split; [exact El|]. intros c Hc. split; [|split; intros; lia]. intros _. rewrite C. unfold code_glyph, lookup10. cbn [Z.eqb Pos.eqb]. cbv zeta.
    rewrite <- Cc. replace (off + 20 + 2 * (c - be32 t (off + 12))) with (off + 20 + (c - be32 t (off + 12)) * 2) by lia.
    destruct ((be32 t (off + 12) <=? c) && (c <? be32 t (off + 12) + count)) eqn:R.
    + split; [intros [(r & [] & _)|[A D]]; exact D|]. intros D. right. split; [lia|exact D].
    + split; [intros [(r & [] & _)|[A D]]; lia|]. intros D. contradiction.
  - assert (K : exists l, (if count =? 0 then Ok []
      else cover_ranges (fun i => let* a := u32 t (off + 16 + 12 * i) in let* b := u32 t (off + 16 + 12 * i + 4) in
                                  Ok (a, if b =? 4294967295 then b else b + 1))
             (Z.to_nat count) 0 0 0 []) = Ok l /\ forall c, covered l c <-> in_group t off count c).
    { destruct (Z.eqb_spec count 0) as [Z0|NZ].
      - exists []. split; [reflexivity|]. intros c. split; [intros (r & [] & _)|intros (i & Hi & _); lia].
      - destruct (cover_ranges_ok (fun i => let* a := u32 t (off + 16 + 12 * i) in let* b := u32 t (off + 16 + 12 * i + 4) in
                                  Ok (a, if b =? 4294967295 then b else b + 1))
          (grp_first t off) (fun i => grp_last t off i + 1) (Z.to_nat count) 0 0 0 []) as (l & El & C); [lia| |].
        { intros j Hj. rewrite u32_ok by lia. cbn [bind]. rewrite u32_ok by lia. cbn [bind]. fold (grp_first t off j) (grp_last t off j).
          pose proof (La j ltac:(lia)). destruct (Z.eqb_spec (grp_last t off j) 4294967295); [lia|]. split; [reflexivity|].
          destruct O as [O1 _]. specialize (O1 j ltac:(lia)). lia. }
        exists l. split; [exact El|]. intros c. rewrite C. unfold in_group. split.
        + intros [(r & [] & _)|[A|(j & Hj & A)]]; [lia|]. exists j. lia.
        + intros (j & Hj & A). right; right. exists j. lia. }
    destruct K as (l & El & C).
    exists l. split; [destruct F as [F|F]; rewrite F; exact El|]. intros c Hc.
    split; [intros; lia|]. split; [intros; lia|]. intros _. apply C.
Qed.

Lemma glyph_in_segment t off count c : code_lookup4 t off count c <> 0 -> in_segment t off count c.
Proof.
  unfold code_lookup4. destruct (find _ _) as [i|] eqn:E; [|contradiction]. intros _. apply find_some in E. destruct E as [I P].
  apply in_idx in I. exists i. lia.
Qed.
Lemma glyph_in_group t off count fmt c : code_lookup12 t off count fmt c <> 0 -> in_group t off count c.
Proof.
  unfold code_lookup12. destruct (find _ _) as [i|] eqn:E; [|contradiction]. intros _. apply find_some in E. destruct E as [I P].
  apply in_idx in I. exists i. lia.
Qed.

(* the symbol flag and the diagnostics *)
Lemma u16_ne t p c : u16 t p <> Err c.
Proof. unfold u16, rd. destruct (p <? 0); [discriminate|]. destruct (nth_error t (Z.to_nat p)); cbn [bind]; [|discriminate].
  destruct (p + 1 <? 0); [discriminate|]. destruct (nth_error t (Z.to_nat (p + 1))); discriminate. Qed.
Lemma u32_ne t p c : u32 t p <> Err c.
Proof. unfold u32. destruct (u16 t p) eqn:E; cbn [bind]; try discriminate; [|exfalso; apply (u16_ne _ _ _ E)].
  destruct (u16 t (p + 2)) eqn:E2; cbn [bind]; try discriminate. exfalso; apply (u16_ne _ _ _ E2). Qed.
Ltac ne_step :=
  match goal with
  | |- context [u16 ?t ?p] => let E := fresh in destruct (u16 t p) eqn:E; cbn [bind]; try discriminate; [|exfalso; apply (u16_ne _ _ _ E)]
  | |- context [u32 ?t ?p] => let E := fresh in destruct (u32 t p) eqn:E; cbn [bind]; try discriminate; [|exfalso; apply (u32_ne _ _ _ E)]
  | |- (if ?b then _ else _) = _ -> _ => destruct b; cbn [bind]; try discriminate; try congruence
  end.
Lemma check4_err t off : forall k i len n p a c, check4 k t off n len i p a = Err c -> c = E_INVALID_DATA.
Proof. induction k; intros i len n p a c; cbn [check4]; [discriminate|]. repeat ne_step; apply IHk. Qed.
Lemma check12_err t off : forall k i l c, check12 k t off i l = Err c -> c = E_INVALID_DATA.
Proof. induction k; intros i l c; cbn [check12]; [discriminate|]. repeat ne_step; apply IHk. Qed.
Lemma validate_supported t off r : is_supported (be16 t off) = true -> 0 <= off -> validate t off = Err r -> r = E_INVALID_DATA.
Proof.
  intros Sup Ho. unfold validate, guard. destruct (negb _) eqn:S0; [|congruence].
  apply negb_true_iff, orb_false_iff in S0. destruct S0 as [S1 S2]. apply Z.ltb_ge in S1, S2. rewrite u16_ok by lia. cbn [bind].
  apply supported_spec in Sup. unfold supported_format in Sup.
  destruct Sup as [F|[F|[F|[F|[F|F]]]]]; rewrite F; cbn [Z.eqb Pos.eqb orb]; repeat ne_step.
  all: match goal with |- context [check4 ?k ?t ?off ?n ?l ?i ?p ?a] =>
           let E := fresh in destruct (check4 k t off n l i p a) eqn:E; cbn [bind]; try discriminate;
             [repeat ne_step|intros X; injection X as <-; apply (check4_err _ _ _ _ _ _ _ _ _ E)]
       | |- context [check12 ?k ?t ?off ?i ?l] =>
           let E := fresh in destruct (check12 k t off i l) eqn:E; cbn [bind]; try discriminate;
             intros X; injection X as <-; apply (check12_err _ _ _ _ _ _ E)
       | _ => idtac end.
Qed.

Lemma init_loop_flags t : bytes t -> 12 <= size t -> forall k i f g, 0 <= i -> 4 + 8 * (i + Z.of_nat k) <= size t ->
  init_loop k t i f = Ok g ->
  f_wrong_format g = f_wrong_format f /\ (f_symbol g = true <-> f_symbol f = true \/ exists j, i <= j < i + Z.of_nat k /\ symbol_record t j).
Proof.
  intros B Hs12. induction k; intros i f g Hi Hs E; cbn [init_loop] in E.
  - injection E as <-. split; [reflexivity|]. split; [tauto|]. intros [H|(j & Hj & _)]; [exact H|lia].
  - replace (i + Z.of_nat (S k)) with (i + 1 + Z.of_nat k) in * by lia.
    assert (Skip : forall f', ~ symbol_record t i -> f_symbol f' = f_symbol f -> f_wrong_format f' = f_wrong_format f -> init_loop k t (i + 1) f' = Ok g ->
      f_wrong_format g = f_wrong_format f /\
      (f_symbol g = true <-> f_symbol f = true \/ exists j, i <= j < i + 1 + Z.of_nat k /\ symbol_record t j)).
    { intros f' N Es Ew E'. destruct (IHk (i + 1) f' g ltac:(lia) ltac:(lia) E') as [W S]. split; [congruence|]. rewrite S, Es.
      split; (intros [H|(j & Hj & R)]; [left; exact H|right; exists j; split; [|exact R]]); [lia|].
      destruct (Z.eq_dec j i) as [->|]; [contradiction|lia]. }
    rewrite u32_ok in E by lia. cbn [bind] in E. fold (rec_offset t i) in E.
    pose proof (be32_range t (4 + 8 * i + 4) B) as Ro. fold (rec_offset t i) in Ro.
    destruct (Z.leb_spec (size t - 4) (rec_offset t i)) as [L|L].
    { apply (Skip f); try assumption; try reflexivity. intros (U & _). change (tsize t) with (size t) in U. lia. }
    rewrite u16_ok in E by lia. cbn [bind] in E. rewrite u16_ok in E by lia. cbn [bind] in E. rewrite u16_ok in E by lia. cbn [bind] in E.
    fold (rec_platform t i) (rec_encoding t i) (rec_format t i) in E.
    destruct (is_supported (rec_format t i)) eqn:Sup; cbn [negb] in E.
    2:{ apply (Skip f); try assumption; try reflexivity. intros (_ & U & _). apply supported_spec in U. congruence. }
    cbv zeta in E. cbn [f_score f_enc f_symbol f_wrong_data f_wrong_format] in E.
    assert (Step : forall f', f_symbol f' = (f_symbol f || ((rec_platform t i =? 3) && (rec_encoding t i =? 0))) ->
      f_wrong_format f' = f_wrong_format f -> init_loop k t (i + 1) f' = Ok g ->
      f_wrong_format g = f_wrong_format f /\
      (f_symbol g = true <-> f_symbol f = true \/ exists j, i <= j < i + 1 + Z.of_nat k /\ symbol_record t j)).
    { intros f' Es Ew E'. destruct ((rec_platform t i =? 3) && (rec_encoding t i =? 0)) eqn:P.
      - destruct (IHk (i + 1) f' g ltac:(lia) ltac:(lia) E') as [W S]. split; [congruence|]. rewrite S, Es, orb_true_r. split; [|tauto]. intros _. right.
        apply andb_prop in P as [P1 P2]. apply Z.eqb_eq in P1, P2. exists i. split; [lia|].
        split; [exact L|]. split; [apply supported_spec; exact Sup|]. split; assumption.
      - apply (Skip f'); try assumption; [|rewrite Es, orb_false_r; reflexivity].
        intros (_ & _ & P1 & P2). rewrite P1, P2 in P. discriminate. }
    destruct (_ <? _).
    2:{ refine (Step _ _ _ E); reflexivity. }
    destruct (validate t (rec_offset t i)) as [[fmt count]|c| |] eqn:V; try discriminate.
    + refine (Step _ _ _ E); reflexivity.
    + apply validate_supported in V; [|exact Sup|lia]. rewrite V in E. change (E_INVALID_DATA =? E_NOT_IMPLEMENTED) with false in E. cbv iota in E.
      refine (Step _ _ _ E); reflexivity.
Qed.
