(* Proofs for the cmap reader: what validate_sub_table guarantees and the glyphs of all formats. *)
From Verif Require Import Base CMap_Model CMap_Spec CMap_Proofs.
Ltac Zify.zify_post_hook ::= idtac.

Lemma size_tsize t : size t = tsize t. Proof. reflexivity. Qed.

  Lemma in_idx m i : In i (idx m) <-> 0 <= i < m.
  Proof.
    unfold idx. rewrite in_map_iff. split.
    - intros (x & <- & H). apply in_seq in H. lia.
    - intros H. exists (Z.to_nat i). split; [lia|]. apply in_seq. lia.
  Qed.

  Lemma found_find first last c m j : ordered first last m -> found first last c 0 m j ->
    find (fun i => (first i <=? c) && (c <=? last i)) (idx m) = j.
  Proof.
    intros [O1 O2] F. destruct (find _ (idx m)) as [i|] eqn:E.
    - apply find_some in E. destruct E as [I P]. apply in_idx in I. apply andb_true_iff in P. destruct P as [P1 P2].
      apply Z.leb_le in P1, P2. destruct j as [j|]; cbn in F.
      + f_equal. destruct F as [Fj [F1 F2]].
        destruct (Z.lt_trichotomy i j) as [L|[Eq|L]]; [|exact Eq|].
        * pose proof (O2 i j). lia.
        * pose proof (O2 j i). lia.
      + exfalso. apply (F i); lia.
    - destruct j as [j|]; [|reflexivity]. cbn in F. exfalso.
      pose proof (find_none _ _ E j) as N. cbv beta in N. rewrite in_idx in N. specialize (N ltac:(lia)). lia.
  Qed.

(* -- format 4 -- *)
Section Format4.
  Context (t : list Z) (off : Z) (B : bytes t) (Hoff : 0 <= off).
  Notation nseg := (seg_count t off).
  Context (Hsz : off + 16 + 8 * nseg <= size t).

  Lemma nseg_nonneg : 0 <= nseg.
  Proof using B. unfold seg_count. apply Z.div_pos; [|lia]. apply be16_range, B. Qed.

  Lemma start_eq i : be16 t (off + 16 + nseg * 2 + 2 * i) = seg_start t off i.
  Proof. unfold seg_start. f_equal. lia. Qed.

  Lemma check4_sound len k : forall i prev after a,
    0 <= i -> i + Z.of_nat k = nseg ->
    check4 k t off nseg len i prev after = Ok a ->
    (after = nseg ->
      i <= a <= nseg /\ (forall j, i <= j < a -> seg_start t off j <= seg_end t off j) /\
      (i < a -> i <> 0 -> prev < seg_start t off i) /\
      (forall j, i <= j < a - 1 -> seg_end t off j < seg_start t off (j + 1)) /\
      (forall j, a <= j < nseg -> is_end_mark t off j) /\
      (forall j, i <= j < a -> seg_start t off j < 65535)) /\
    (after < i -> prev = 65535 -> a = after /\ forall j, i <= j < nseg -> is_end_mark t off j).
  Proof using B Hoff Hsz.
    pose proof nseg_nonneg as Hn.
    induction k; intros i prev after a Hi Hk E; cbn [check4] in E.
    - injection E as E. subst a. split.
      + intros ->. repeat split; try (intros; lia).
      + intros _ _. split; [reflexivity|intros; lia].
    - rewrite u16_ok in E by lia. cbn [bind] in E. rewrite u16_ok in E by lia. cbn [bind] in E.
      rewrite u16_ok in E by lia. cbn [bind] in E. rewrite start_eq in E. fold (seg_end t off i) in E.
      pose proof (be16_range t (off + 14 + 2 * i) B) as Re. fold (seg_end t off i) in Re.
      pose proof (be16_range t (off + 16 + 2 * nseg + 2 * i) B) as Rs. fold (seg_start t off i) in Rs.
      set (s := seg_start t off i) in *. set (e := seg_end t off i) in *.
      destruct ((s =? 65535) && (e =? 65535)) eqn:M.
      + apply andb_true_iff in M. destruct M as [M1 M2]. apply Z.eqb_eq in M1, M2.
        destruct (IHk (i + 1) _ _ a (ltac:(lia)) (ltac:(lia)) E) as [_ P2].
        assert (EM : is_end_mark t off i) by (split; assumption).
        split.
        * intros ->. destruct P2 as [Pa Pm]; [lia|lia|]. rewrite Z.min_r in Pa by lia. subst a.
          repeat split; try (intros; lia).
          -- destruct (Z.eq_dec j i) as [->|]; [apply EM|apply Pm; lia].
          -- destruct (Z.eq_dec j i) as [->|]; [apply EM|apply Pm; lia].
        * intros A1 A2. destruct P2 as [Pa Pm]; [lia|lia|]. rewrite Z.min_l in Pa by lia. split; [exact Pa|].
          intros j Hj. destruct (Z.eq_dec j i) as [->|]; [exact EM|apply Pm; lia].
      + destruct ((s <? prev) || (e <? s)) eqn:M1; [discriminate|].
        destruct (negb (i =? 0) && (s =? prev)) eqn:M2; [discriminate|].
        destruct (negb _ && negb _) eqn:M3; [discriminate|].
        destruct (negb _ && _) eqn:M4 in E; [discriminate|].
        clear M3 M4.
        apply orb_false_iff in M1. destruct M1 as [M1 M1'].
        assert (NE : s < 65535 \/ e < 65535) by lia.
        destruct (IHk (i + 1) _ _ a (ltac:(lia)) (ltac:(lia)) E) as [P1 _].
        split.
        * intros ->. destruct (P1 eq_refl) as (Q1 & Q2 & Q3 & Q4 & Q5 & Q6).
          split; [lia|]. split; [|split; [|split; [|split]]].
          -- intros j Hj. destruct (Z.eq_dec j i) as [->|]; [fold s e; lia|apply Q2; lia].
          -- intros _ N. lia.
          -- intros j Hj. destruct (Z.eq_dec j i) as [->|]; [apply Q3; lia|apply Q4; lia].
          -- exact Q5.
          -- intros j Hj. destruct (Z.eq_dec j i) as [->|]; [fold s; lia|apply Q6; lia].
        * intros A1 A2. subst prev. exfalso. destruct (Z.eqb_spec i 0); lia.
  Qed.

  Context (n : Z) (Hn : 0 <= n <= nseg) (O : ordered (seg_start t off) (seg_end t off) n)
          (Hend : forall j, n <= j < nseg -> is_end_mark t off j).

  (* the glyph that the code finds in segment i *)
  Definition code_glyph4 (i c : Z) : Z :=
    if seg_range t off i =? 0 then (c + seg_delta t off i) mod 65536
    else if tsize t <? seg_range_at t off i + seg_range t off i + 2 * (c - seg_start t off i) + 2 then 0
    else (seg_glyph t off i c + seg_delta t off i) mod 65536.

  Lemma glyph4_ok j c : 0 <= j < nseg -> seg_start t off j <= c ->
    glyph4 t nseg (off + 14 + 2 * j, seg_start t off j, seg_end t off j) (seg_range t off j) c = Ok (code_glyph4 j c).
  Proof using B Hoff Hsz.
    clear n Hn O Hend. intros Hj Hc. unfold glyph4, code_glyph4.
    pose proof (be16_range t (seg_range_at t off j) B) as Rr. fold (seg_range t off j) in Rr.
    assert (D : forall x, (let* d := u16 t (off + 14 + 2 * j + (2 + nseg * 4)) in Ok (Z.land (w32 (x + d)) 65535)) = Ok ((x + seg_delta t off j) mod 65536)).
    { intros x. rewrite u16_ok by lia. cbn [bind]. rewrite low_w32. unfold seg_delta.
      replace (off + 14 + 2 * j + (2 + nseg * 4)) with (off + 16 + 4 * nseg + 2 * j) by lia. reflexivity. }
    destruct (seg_range t off j =? 0) eqn:Z0.
    - cbn [bind]. apply D.
    - set (a := seg_range_at t off j + seg_range t off j + 2 * (c - seg_start t off j)).
      replace (off + 14 + 2 * j + (2 + nseg * 6 + (c - seg_start t off j) * 2 + seg_range t off j)) with a
        by (unfold a, seg_range_at; lia).
      assert (Ea : (size t - 1 - (off + 14 + 2 * j) <=? 2 + nseg * 6 + (c - seg_start t off j) * 2 + seg_range t off j) = (tsize t <? a + 2)).
      { change (tsize t) with (size t). unfold a, seg_range_at. apply Bool.eq_true_iff_eq. rewrite Z.leb_le, Z.ltb_lt. lia. }
      rewrite Ea. destruct (Z.ltb_spec (tsize t) (a + 2)) as [L|L]; [reflexivity|].
      change (tsize t) with (size t) in L.
      rewrite u16_ok by (unfold a, seg_range_at in *; lia). cbn [bind]. rewrite D. unfold seg_glyph. fold a. cbv zeta.
      destruct (Z.ltb_spec (tsize t) (a + 2)) as [L2|L2]; [change (tsize t) with (size t) in L2; lia|]. reflexivity.
  Qed.

  (* the glyph of c by the code *)
  Definition code_lookup4 (c : Z) : Z :=
    match find (fun i => (seg_start t off i <=? c) && (c <=? seg_end t off i)) (idx n) with
    | None => 0 | Some i => code_glyph4 i c end.

  Definition cache4 (c : option (Z * Z * Z * Z)) : Prop :=
    match c with None => True | Some c => exists j, 0 <= j < n /\ c = (off + 14 + 2 * j, seg_start t off j, seg_end t off j, seg_range t off j) end.

  Lemma fresh4 c : exists j,
    (let* m := find4 (S (Z.to_nat n)) t nseg c (off + 14) n in
      match m with
      | None => Ok None
      | Some m => let* offset := u16 t (fst (fst m) + (2 + nseg * 6)) in Ok (Some (m, offset))
      end) = Ok (option_map (fun j => ((off + 14 + 2 * j, seg_start t off j, seg_end t off j), seg_range t off j)) j)
    /\ found (seg_start t off) (seg_end t off) c 0 n j.
  Proof using B Hoff Hsz Hn O.
    clear Hend.
    destruct (find4_ok t off nseg n B Hoff Hn Hsz O c (S (Z.to_nat n)) 0 n) as [j [E F]]; try lia.
    rewrite Z.mul_0_r, Z.add_0_r in E. rewrite E. exists j. split; [|exact F].
    destruct j as [j|]; cbn [option_map bind]; [|reflexivity].
    cbn in F. cbn [fst]. rewrite u16_ok by lia. cbn [bind].
    replace (off + 14 + 2 * j + (2 + nseg * 6)) with (seg_range_at t off j) by (unfold seg_range_at; lia). reflexivity.
  Qed.

  Lemma map4_loop_ok : forall text i cache u, cache4 cache ->
    map4_loop t nseg (off + 14) n text i cache u = Ok (result code_lookup4 text i u).
  Proof using B Hoff Hsz Hn O.
    clear Hend.
    induction text as [|c text IH]; intros i cache u C.
    - unfold result. cbn. rewrite Z.add_0_r. reflexivity.
    - cbn [map4_loop]. cbv zeta.
      assert (K : exists j, (match cache with
        | None => (let* m := find4 (S (Z.to_nat n)) t nseg c (off + 14) n in
              match m with None => Ok None | Some m => let* offset := u16 t (fst (fst m) + (2 + nseg * 6)) in Ok (Some (m, offset)) end)
        | Some (e, first, last, offset) => if (c <? first) || (last <? c) then
              (let* m := find4 (S (Z.to_nat n)) t nseg c (off + 14) n in
              match m with None => Ok None | Some m => let* offset := u16 t (fst (fst m) + (2 + nseg * 6)) in Ok (Some (m, offset)) end)
              else Ok cache end) = Ok (option_map (fun j => ((off + 14 + 2 * j, seg_start t off j, seg_end t off j), seg_range t off j)) j)
        /\ found (seg_start t off) (seg_end t off) c 0 n j).
      { destruct cache as [[[[e f] l] o]|]; [|apply fresh4].
        destruct ((c <? f) || (l <? c)) eqn:R; [apply fresh4|].
        destruct C as (j & Hj & Ej). injection Ej as -> -> -> ->.
        exists (Some j). split; [reflexivity|]. cbn. apply orb_false_iff in R. lia. }
      destruct K as (j & E & F). rewrite E. cbn [bind].
      pose proof (found_find _ _ _ _ _ O F) as FF.
      destruct j as [j|]; cbn [option_map].
      + cbn in F. rewrite glyph4_ok by lia. cbn [bind].
        assert (G : code_lookup4 c = code_glyph4 j c) by (unfold code_lookup4; rewrite FF; reflexivity).
        rewrite <- G. destruct (code_lookup4 c =? 0) eqn:Z0.
        * rewrite IH by exact I. apply Z.eqb_eq in Z0.
          change (undef i u) with (step_u i u 0). rewrite <- Z0. apply emit_result.
        * rewrite IH. 2:{ exists j. split; [lia|reflexivity]. }
          rewrite <- emit_result. unfold step_u. rewrite Z0. reflexivity.
      + assert (G : code_lookup4 c = 0) by (unfold code_lookup4; rewrite FF; reflexivity).
        rewrite IH by exact I. change (undef i u) with (step_u i u 0). rewrite <- G at 1 2. apply emit_result.
  Qed.

  (* agreement with the specification *)
  Lemma seg_find_char c j : 0 <= c -> found (seg_start t off) (seg_end t off) c 0 n j -> c <> 65535 ->
    match j with
    | Some j => seg_find t off c = Some j
    | None => forall i, seg_find t off c = Some i -> c < seg_start t off i
    end.
  Proof using B Hn O Hend.
    intros Hc F N. destruct O as [O1 O2]. unfold seg_find.
    destruct (find _ (idx (seg_count t off))) as [i|] eqn:E.
    - pose proof E as E0. apply find_some in E. destruct E as [I P]. apply in_idx in I. apply Z.leb_le in P.
      assert (First : forall k, 0 <= k < i -> seg_end t off k < c).
      { clear -E0 I. intros k Hk. destruct (Z.ltb_spec (seg_end t off k) c) as [L|L]; [exact L|exfalso].
        assert (G : forall len a i, (a <= Z.to_nat k < Z.to_nat i)%nat -> 0 <= k -> find (fun i => c <=? seg_end t off i) (map Z.of_nat (seq a len)) = Some i -> False).
        { induction len as [|len IH]; intros a i' Ha Hk' Ef; cbn [seq map find] in Ef; [discriminate|].
          destruct (c <=? seg_end t off (Z.of_nat a)) eqn:T.
          - injection Ef as <-. lia.
          - destruct (Nat.eq_dec a (Z.to_nat k)) as [->|].
            + rewrite Z2Nat.id in T by lia. lia.
            + apply (IH (S a) i'); [lia|lia|exact Ef]. }
        unfold idx in E0. refine (G _ _ i _ _ E0); lia. }
      destruct j as [j|]; cbn in F.
      + f_equal. destruct F as [Fj [F1 F2]].
        destruct (Z.lt_trichotomy i j) as [L|[Eq|L]]; [|exact Eq|].
        * pose proof (O2 i j). lia.
        * pose proof (First j). lia.
      + intros i' Ei. injection Ei as <-.
        destruct (Z_lt_ge_dec i n) as [Li|Gi].
        * specialize (F i ltac:(lia)). lia.
        * destruct (Hend i) as [Es _]; [lia|]. 
          destruct (Z_lt_ge_dec c (seg_start t off i)) as [|Gc]; [assumption|].
          destruct (Hend i) as [_ Ee]; [lia|]. lia.
    - destruct j as [j|]; [|intros; discriminate]. cbn in F. exfalso.
      pose proof (find_none _ _ E j) as Nn. cbv beta in Nn. rewrite in_idx in Nn. specialize (Nn ltac:(lia)). lia.
  Qed.

  Lemma code_lookup4_spec c : 0 <= c -> c <> 65535 -> ~ shifted_missing t off c -> code_lookup4 c = lookup4 t off c.
  Proof using B Hoff Hsz Hn O Hend.
    intros Hc N S. destruct (fresh4 c) as (j & _ & F).
    unfold code_lookup4. rewrite (found_find _ _ _ _ _ O F).
    pose proof (seg_find_char c j Hc F N) as SF. unfold lookup4.
    destruct j as [j|].
    - rewrite SF. cbn in F. destruct (Z.ltb_spec c (seg_start t off j)); [lia|].
      unfold code_glyph4. destruct (Z.eqb_spec (seg_range t off j) 0) as [|R]; [reflexivity|].
      cbv zeta. destruct (Z.ltb_spec (tsize t) (seg_range_at t off j + seg_range t off j + 2 * (c - seg_start t off j) + 2)) as [L|L].
      + unfold seg_glyph. cbv zeta. destruct (Z.ltb_spec (tsize t) (seg_range_at t off j + seg_range t off j + 2 * (c - seg_start t off j) + 2)); [|lia].
        reflexivity.
      + destruct (Z.eqb_spec (seg_glyph t off j c) 0) as [G|G]; [|reflexivity].
        rewrite G. destruct (Z.eq_dec (seg_delta t off j) 0) as [D|D]; [rewrite D; reflexivity|].
        exfalso. apply S. exists j. repeat split; auto; lia.
    - destruct (seg_find t off c) as [i|] eqn:E; [|reflexivity].
      specialize (SF i eq_refl). destruct (Z.ltb_spec c (seg_start t off i)); [reflexivity|lia].
  Qed.
End Format4.
