(* Proofs: image geometry, decoder safety, decoder = specification. *)
From Verif Require Import Base Bits Algorithm_Model Algorithm_Spec Algorithm_Proofs PixelOps_Model PixelOps_Spec PixelOps_Proofs Qoi_Model Qoi_Spec Qoi_Proofs.

Lemma in_image_ok w h stride y x : 0 < w <= Z.abs stride -> 0 <= y < h -> 0 <= x < w -> in_image w h stride (y * stride + x) = true.
Proof.
  intros Hw Hy Hx. unfold in_image.
  assert (E : y * stride + x = (Z.sgn stride * y) * Z.abs stride + x).
  { rewrite (Z.sgn_abs stride) at 1 || rewrite <- (Z.abs_sgn stride) at 1. ring. }
  rewrite E. rewrite Z.div_add_l by lia. rewrite Z.div_small by lia. rewrite Z.add_0_r.
  replace (Z.sgn stride * (Z.sgn stride * y)) with y.
  2:{ destruct (Z.lt_trichotomy stride 0) as [H|[H|H]]; [rewrite Z.sgn_neg by lia|lia|rewrite Z.sgn_pos by lia]; lia. }
  rewrite Z.add_comm, Z.mod_add by lia. rewrite Z.mod_small by lia.
  destruct (Z.leb_spec 0 y), (Z.ltb_spec y h), (Z.ltb_spec x w); lia || reflexivity.
Qed.

Lemma stores_app w stride vs ws k : stores w stride k (vs ++ ws) = stores w stride k vs ++ stores w stride (k + Z.of_nat (length vs)) ws.
Proof.
  revert k. induction vs as [|v vs IH]; intros k; cbn [app stores length].
  - now rewrite Z.add_0_r.
  - rewrite IH. cbn [app]. do 3 f_equal. lia.
Qed.

Lemma pix_off_yx w stride y x : 0 <= x < w -> pix_off w stride (y * w + x) = y * stride + x.
Proof. intros H. unfold pix_off. rewrite Z.div_add_l by lia. rewrite Z.div_small by lia. rewrite (Z.add_comm (y * w)), Z.mod_add, Z.mod_small by lia. ring. Qed.

Section Geo.
  Context (al : bool) (w h stride : Z) (Hw : 0 < w <= Z.abs stride) (Hh : 0 < h).

  (* position in row y after x pixels; the stores so far are the first pixels of the image *)
  Record RowGeo (s : dstate) (y x : Z) (vals : list Z) : Prop := {
    rg_y : 0 <= y < h; rg_x : 0 <= x <= w;
    rg_row : d_row s = y * stride; rg_ptr : d_ptr s = y * stride + x; rg_end : d_end s = y * stride + w; rg_h : d_h s = h - y;
    rg_len : Z.of_nat (length vals) = y * w + x;
    rg_log : d_log s = rev (stores w stride 0 vals) }.
  Definition Geo (s : dstate) (vals : list Z) : Prop := exists y x, RowGeo s y x vals /\ x < w.

  Definition same (s s' : dstate) : Prop :=
    d_src s' = d_src s /\ d_pix s' = d_pix s /\ d_upix s' = d_upix s /\ d_ptab s' = d_ptab s /\ d_utab s' = d_utab s.
  Lemma same_refl s : same s s. Proof. repeat split. Qed.
  Lemma same_trans a b c : same a b -> same b c -> same a c.
  Proof. unfold same. intuition congruence. Qed.

  Lemma geo_lt s vals : Geo s vals -> Z.of_nat (length vals) < w * h.
  Proof. intros (y & x & [] & H). nia. Qed.

  Lemma put_ok s y x vals : RowGeo s y x vals -> x < w ->
    exists s', put w h stride s = Ok s' /\ RowGeo s' y (x + 1) (vals ++ [d_pix s]) /\ same s s'.
  Proof.
    intros G Hx. destruct G. unfold put. rewrite rg_ptr0, in_image_ok by lia. eexists. split; [reflexivity|]. split; [|repeat split].
    constructor; cbn; auto; try lia.
    - rewrite app_length. cbn [length]. lia.
    - rewrite stores_app. cbn [stores]. rewrite rev_app_distr, rg_log0, rg_len0. cbn [rev app]. rewrite Z.add_0_l, pix_off_yx by lia. reflexivity.
  Qed.

  Lemma fill_ok n : forall s y x vals, RowGeo s y x vals -> x + Z.of_nat n <= w ->
    exists s', fill w h stride n s = Ok s' /\ RowGeo s' y (x + Z.of_nat n) (vals ++ repeat (d_pix s) n) /\ same s s'.
  Proof.
    induction n as [|n IH]; intros s y x vals G Hx; cbn [fill repeat].
    - exists s. rewrite app_nil_r, Z.add_0_r. split; [reflexivity|]. split; [exact G|apply same_refl].
    - destruct (put_ok s y x vals G ltac:(lia)) as (s1 & E1 & G1 & S1). rewrite E1. cbn [bind].
      destruct (IH s1 _ _ _ G1 ltac:(lia)) as (s2 & E2 & G2 & S2). exists s2. split; [exact E2|].
      destruct S1 as (A1 & A2 & A3 & A4 & A5). rewrite A2 in G2. rewrite <- app_assoc in G2. cbn [app] in G2.
      split; [replace (x + Z.of_nat (S n)) with (x + 1 + Z.of_nat n) by lia; exact G2|].
      eapply same_trans; [|exact S2]. repeat split; assumption.
  Qed.

  (* the result of writing [vals]: finished, or positioned after them *)
  Definition advanced (s : dstate) (vals : list Z) (r : outcome dres) : Prop :=
    (w * h <= Z.of_nat (length vals) /\ r = Ok (Done (rev (stores w stride 0 (firstn (Z.to_nat (w * h)) vals))))) \/
    (Z.of_nat (length vals) < w * h /\ exists s', r = Ok (More s') /\ Geo s' vals /\ same s s').

  Lemma end_of_row_ok s0 s y vals : RowGeo s y w vals -> same s0 s -> advanced s0 vals (end_of_row w stride s).
  Proof.
    intros G S. destruct G. unfold end_of_row. destruct (Z.eqb_spec (d_h s - 1) 0) as [E|E].
    - left. assert (y = h - 1) by lia. subst y. split; [nia|]. rewrite rg_log0. rewrite firstn_all2 by nia. reflexivity.
    - right. split; [nia|]. exists (next_row w stride s). split; [reflexivity|]. split; [|exact S].
      exists (y + 1), 0. split; [|lia]. constructor; cbn; try lia. exact rg_log0.
  Qed.

  Lemma after_put_ok s0 s y x vals : RowGeo s y x vals -> 0 < x -> same s0 s ->
    advanced s0 vals (if negb (d_ptr s =? d_end s) then Ok (More s) else end_of_row w stride s).
  Proof.
    intros G Hx S. destruct (Z.eqb_spec (d_ptr s) (d_end s)) as [E|E]; cbn [negb].
    - destruct (end_of_row_ok s0 s y vals) as [A|A]; auto; [|now left|now right].
      destruct G; constructor; auto; try lia.
    - right. assert (x < w) by (destruct G; lia). assert (Gs : Geo s vals) by (exists y, x; auto).
      split; [now apply geo_lt with s|]. exists s. auto.
  Qed.

  Lemma firstn_app_repeat {A} (l : list A) v n m k : (length l + n = k)%nat -> (n <= m)%nat -> firstn k (l ++ repeat v m) = l ++ repeat v n.
  Proof.
    intros E L. rewrite firstn_app. rewrite firstn_all2 by lia. f_equal. replace (k - length l)%nat with n by lia.
    clear E. revert m L. induction n; intros [|m] L; cbn; try lia; auto. f_equal. apply IHn. lia.
  Qed.

  Lemma store_rle_ok fuel : forall n s vals, 1 <= n <= Z.of_nat fuel -> Geo s vals ->
    advanced s (vals ++ repeat (d_pix s) (Z.to_nat n)) (store_rle w h stride fuel n s).
  Proof.
    induction fuel as [|f IH]; intros n s vals Hn G; [lia|]. cbn [store_rle].
    destruct G as (y & x & G & Hx). pose proof G as G0. destruct G0.
    assert (EL : d_end s - d_ptr s = w - x) by lia. rewrite EL. clear EL.
    set (c := Z.min n (w - x)). assert (Hc : 1 <= c <= w - x /\ c <= n /\ (c = n \/ c = w - x)) by (unfold c; lia). clearbody c.
    destruct (fill_ok (Z.to_nat c) s y x vals G) as (s1 & E1 & G1 & S1); [lia|]. rewrite E1. cbn [bind].
    rewrite Z2Nat.id in G1 by lia.
    destruct (Z.eqb_spec (d_ptr s1) (d_end s1)) as [E|E]; cbn [negb].
    - assert (x + c = w) by (destruct G1; lia). rewrite H in G1.
      pose proof G1 as G1'. destruct G1'.
      destruct (Z.eqb_spec (d_h s1 - 1) 0) as [F|F].
      + left. assert (y = h - 1) by lia. subst y. rewrite app_length, repeat_length in rg_len1.
        split; [rewrite app_length, repeat_length; nia|]. rewrite rg_log1. do 4 f_equal. symmetry. apply firstn_app_repeat; nia.
      + destruct (Z.eqb_spec (n - c) 0) as [Q|Q]; cbn [negb].
        * replace n with c by lia. right.
          assert (GG : Geo (next_row w stride s1) (vals ++ repeat (d_pix s) (Z.to_nat c))).
          { exists (y + 1), 0. split; [|lia]. constructor; cbn; try lia. exact rg_log1. }
          split; [now apply geo_lt with (next_row w stride s1)|]. exists (next_row w stride s1). auto.
        * assert (GG : Geo (next_row w stride s1) (vals ++ repeat (d_pix s) (Z.to_nat c))).
          { exists (y + 1), 0. split; [|lia]. constructor; cbn; try lia. exact rg_log1. }
          specialize (IH (n - c) (next_row w stride s1) _ ltac:(lia) GG).
          assert (EP : d_pix (next_row w stride s1) = d_pix s) by (cbn; apply S1). rewrite EP in IH.
          rewrite <- app_assoc, <- repeat_app in IH. replace (Z.to_nat c + Z.to_nat (n - c))%nat with (Z.to_nat n) in IH by lia.
          destruct IH as [IH|(L & s' & A & B & C)]; [now left|right]. split; [exact L|]. exists s'. split; [exact A|]. split; [exact B|].
          eapply same_trans; [exact S1|]. exact C.
    - assert (x + c < w) by (destruct G1; lia). assert (c = n) by lia. subst c.
      right. assert (GG : Geo s1 (vals ++ repeat (d_pix s) (Z.to_nat n))) by (exists y, (x + n); auto).
      split; [now apply geo_lt with s1|]. exists s1. auto.
  Qed.

  (* position independent setters keep the geometry *)
  Lemma rowgeo_fields s s' y x vals : RowGeo s y x vals -> d_row s' = d_row s -> d_ptr s' = d_ptr s -> d_end s' = d_end s ->
    d_h s' = d_h s -> d_log s' = d_log s -> RowGeo s' y x vals.
  Proof. intros [] E1 E2 E3 E4 E5. constructor; try congruence; assumption. Qed.
  Lemma geo_fields s s' vals : Geo s vals -> d_row s' = d_row s -> d_ptr s' = d_ptr s -> d_end s' = d_end s ->
    d_h s' = d_h s -> d_log s' = d_log s -> Geo s' vals.
  Proof. intros (y & x & G & L) E1 E2 E3 E4 E5. exists y, x. split; [|exact L]. now apply rowgeo_fields with s. Qed.

  Lemma store_pixel_ok s vals : Geo s vals -> length (d_ptab s) = 64%nat -> length (d_utab s) = 64%nat ->
    let pp := up_pack al (d_upix s) in
    let hh := up_hash (d_upix s) in
    exists r, store_pixel al w h stride s = r /\
    advanced {| d_src := d_src s; d_row := 0; d_ptr := 0; d_end := 0; d_h := 0; d_pix := pp; d_upix := d_upix s;
                d_ptab := zupd (d_ptab s) hh pp; d_utab := zupd (d_utab s) hh (d_upix s); d_log := [] |} (vals ++ [pp]) r.
  Proof.
    intros (y & x & G & Hx) L1 L2 pp hh. eexists. split; [reflexivity|]. unfold store_pixel. fold hh pp.
    assert (Hh' : 0 <= hh < 64) by apply up_hash_range. rewrite wr_ok by lia. cbn [bind].
    assert (G0 : RowGeo (set_pix s pp (d_upix s)) y x vals) by (apply rowgeo_fields with s; auto).
    destruct (put_ok _ _ _ _ G0 Hx) as (s1 & E1 & G1 & S1). rewrite E1. cbn [bind].
    destruct S1 as (A1 & A2 & A3 & A4 & A5). cbn [set_pix d_src d_pix d_upix d_ptab d_utab] in *.
    rewrite wr_ok by (rewrite A4; lia). cbn [bind].
    apply after_put_ok with y (x + 1); [|destruct G; lia|].
    - apply rowgeo_fields with s1; auto.
    - repeat split; cbn; congruence.
  Qed.
End Geo.
