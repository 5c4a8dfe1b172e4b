(* The Adam7 layout: closed forms for the number of columns and rows of each pass, and calculate_interlace_steps. *)
From Verif Require Import Base Bits IntOps_Model Algorithm_Model Algorithm_Proofs Png_Model Png_Spec Png_Proofs.
From Coq Require Import ZifyBool.

(* ------------------------------------------------------------------ counting *)

Lemma zrange_succ n : 0 <= n -> zrange (n + 1) = zrange n ++ [n].
Proof.
  intros H. unfold zrange. rewrite Z2Nat.inj_add by lia. change (Z.to_nat 1) with 1%nat. rewrite Nat.add_1_r, seq_S, map_app.
  cbn [map Nat.add]. now rewrite Z2Nat.id by lia.
Qed.
Lemma count_succ f n : 0 <= n -> count f (n + 1) = count f n + b2z (f n).
Proof.
  intros H. unfold count. rewrite zrange_succ, filter_app, app_length by assumption. cbn [filter]. unfold b2z. destruct (f n); cbn [length]; lia.
Qed.
Lemma count_unique f g : g 0 = 0 -> (forall n, 0 <= n -> g (n + 1) = g n + b2z (f n)) -> forall n, 0 <= n -> count f n = g n.
Proof.
  intros G0 GS n Hn. revert n Hn. apply natlike_ind; [now rewrite G0|].
  intros n Hn IH. unfold Z.succ. rewrite count_succ, GS, IH by assumption. reflexivity.
Qed.

Lemma mod8_cases n : n mod 8 = 0 \/ n mod 8 = 1 \/ n mod 8 = 2 \/ n mod 8 = 3 \/ n mod 8 = 4 \/ n mod 8 = 5 \/ n mod 8 = 6 \/ n mod 8 = 7.
Proof. lia. Qed.

Lemma pass_col_mod p x : pass_col p x = pass_col p (x mod 8).
Proof. unfold pass_col, adam7. now rewrite Z.mod_mod by lia. Qed.
Lemma pass_row_mod p y : pass_row p y = pass_row p (y mod 8).
Proof. unfold pass_row, adam7. now rewrite Z.mod_mod by lia. Qed.

Definition pw (p n : Z) : Z :=
  if p =? 0 then (n + 7) / 8 else if p =? 1 then (n + 3) / 8 else if p =? 2 then (n + 3) / 4 else if p =? 3 then (n + 1) / 4
  else if p =? 4 then (n + 1) / 2 else if p =? 5 then n / 2 else n.
Definition ph (p n : Z) : Z :=
  if p =? 0 then (n + 7) / 8 else if p =? 1 then (n + 7) / 8 else if p =? 2 then (n + 3) / 8 else if p =? 3 then (n + 3) / 4
  else if p =? 4 then (n + 1) / 4 else if p =? 5 then (n + 1) / 2 else n / 2.

Lemma pass_cases p : 0 <= p < 7 -> p = 0 \/ p = 1 \/ p = 2 \/ p = 3 \/ p = 4 \/ p = 5 \/ p = 6.
Proof. lia. Qed.

Lemma pass_width_eq p n : 0 <= p < 7 -> 0 <= n -> pass_width p n = pw p n.
Proof.
  intros Hp. unfold pass_width. revert n. apply count_unique.
  - destruct (pass_cases p Hp) as [->|[->|[->|[->|[->|[->| ->]]]]]]; reflexivity.
  - intros n Hn. rewrite pass_col_mod. pose proof (Z.div_mod n 8 ltac:(lia)) as D.
    set (q := n / 8) in *. clearbody q.
    destruct (pass_cases p Hp) as [->|[->|[->|[->|[->|[->| ->]]]]]];
    destruct (mod8_cases n) as [E|[E|[E|[E|[E|[E|[E|E]]]]]]]; rewrite E in *;
    match goal with |- context [b2z ?b] => let v := eval vm_compute in (b2z b) in change (b2z b) with v end;
    unfold pw; cbn [Z.eqb Pos.eqb]; lia.
Qed.
Lemma pass_height_eq p n : 0 <= p < 7 -> 0 <= n -> pass_height p n = ph p n.
Proof.
  intros Hp. unfold pass_height. revert n. apply count_unique.
  - destruct (pass_cases p Hp) as [->|[->|[->|[->|[->|[->| ->]]]]]]; reflexivity.
  - intros n Hn. rewrite pass_row_mod. pose proof (Z.div_mod n 8 ltac:(lia)) as D.
    set (q := n / 8) in *. clearbody q.
    destruct (pass_cases p Hp) as [->|[->|[->|[->|[->|[->| ->]]]]]];
    destruct (mod8_cases n) as [E|[E|[E|[E|[E|[E|[E|E]]]]]]]; rewrite E in *;
    match goal with |- context [b2z ?b] => let v := eval vm_compute in (b2z b) in change (b2z b) with v end;
    unfold ph; cbn [Z.eqb Pos.eqb]; lia.
Qed.

(* ------------------------------------------------------------------ layout *)

(* The combinations the header allows (IHDR): only one channel samples can have less than 8 bits. *)

Definition psize (depth w h p : Z) : Z :=
  if (pw p w =? 0) || (ph p h =? 0) then 0 else ph p h * row_bytes_spec depth (pw p w).
Lemma pass_size_eq depth w h p : 0 <= p < 7 -> 0 <= w -> 0 <= h -> pass_size depth w h p = psize depth w h p.
Proof. intros. unfold pass_size, psize. now rewrite !pass_width_eq, !pass_height_eq by assumption. Qed.

Lemma pass_offset_0 depth w h : pass_offset depth w h 0 = 0.
Proof. reflexivity. Qed.
Lemma fold_add_app l a : fold_right Z.add 0 (l ++ [a]) = fold_right Z.add 0 l + a.
Proof. induction l as [|x l IH]; cbn [fold_right app]; [lia|]. rewrite IH. lia. Qed.
Lemma pass_offset_succ depth w h p : 0 <= p -> pass_offset depth w h (p + 1) = pass_offset depth w h p + pass_size depth w h p.
Proof. intros H. unfold pass_offset. rewrite zrange_succ, map_app by assumption. cbn [map]. apply fold_add_app. Qed.

Lemma pw_nonneg p n : 0 <= n -> 0 <= pw p n.
Proof. intros H. unfold pw. repeat (match goal with |- context [if ?b then _ else _] => destruct b end); lia. Qed.
Lemma ph_nonneg p n : 0 <= n -> 0 <= ph p n.
Proof. intros H. unfold ph. repeat (match goal with |- context [if ?b then _ else _] => destruct b end); lia. Qed.
Lemma pw_le p n : 0 <= n -> pw p n <= n.
Proof. intros H. unfold pw. repeat (match goal with |- context [if ?b then _ else _] => destruct b end); lia. Qed.
Lemma ph_le p n : 0 <= n -> ph p n <= n.
Proof. intros H. unfold ph. repeat (match goal with |- context [if ?b then _ else _] => destruct b end); lia. Qed.
Lemma psize_nonneg depth w h p : 0 <= depth -> 0 <= w -> 0 <= h -> 0 <= psize depth w h p.
Proof.
  intros. pose proof (pw_nonneg p w). pose proof (ph_nonneg p h). unfold psize, row_bytes_spec.
  destruct (_ || _); [lia|]. assert (0 <= (pw p w * depth + 7) / 8) by (apply Z.div_pos; nia). nia.
Qed.

Lemma pass_offset_mono depth w h p q : 0 <= depth -> 0 <= w -> 0 <= h -> 0 <= p <= q -> q <= 7 ->
  pass_offset depth w h p <= pass_offset depth w h q.
Proof.
  intros Hd Hw Hh [Hp Hq]. revert q Hq. refine (Zlt_lower_bound_ind _ _ _). intros q IH Hq Hq7.
  destruct (Z.eq_dec p q) as [->|N]; [lia|].
  replace q with ((q - 1) + 1) by lia. rewrite pass_offset_succ by lia. rewrite pass_size_eq by lia.
  pose proof (psize_nonneg depth w h (q - 1) Hd Hw Hh). specialize (IH (q - 1)). lia.
Qed.

Definition step_ok (depth w h p : Z) (s : step) : Prop :=
  s_width s = pw p w /\ s_height s = ph p h /\ s_used s = negb (pw p w =? 0) && negb (ph p h =? 0) /\
  s_bpl s = row_bytes_spec depth (pw p w) /\ s_offset s = pass_offset depth w h p /\ s_size s = psize depth w h p.

Lemma row_bytes_le depth w : 0 <= w < 268435456 -> 1 <= depth <= 64 -> 1 <= row_bytes_spec depth w <= 1 + w * 8.
Proof. intros. unfold row_bytes_spec. assert (0 <= w * depth <= w * 64) by nia. lia. Qed.

Lemma bpl_eq sd sc w : sample_ok sd sc -> 0 <= w < 268435456 ->
  w32 (w32 (w32 (w32 (w * sd) + 7) / 8 * sc) + 1) = row_bytes_spec (sd * sc) w.
Proof.
  intros S Hw. unfold w32, row_bytes_spec.
  rewrite (Z.mod_small (w * sd)) by (unfold sample_ok in S; nia).
  rewrite (Z.mod_small (w * sd + 7)) by (unfold sample_ok in S; nia).
  assert (E : (w * sd + 7) / 8 * sc = (w * (sd * sc) + 7) / 8).
  { destruct S as [[-> S]|[S1 [-> | ->]]].
    - now rewrite !Z.mul_1_r.
    - replace (w * 8 + 7) with (7 + w * 8) by lia. rewrite Z.div_add by lia. replace (w * (8 * sc) + 7) with (7 + (w * sc) * 8) by lia.
      rewrite Z.div_add by lia. change (7 / 8) with 0. lia.
    - replace (w * 16 + 7) with (7 + (w * 2) * 8) by lia. rewrite Z.div_add by lia.
      replace (w * (16 * sc) + 7) with (7 + (w * 2 * sc) * 8) by lia. rewrite Z.div_add by lia. change (7 / 8) with 0. lia. }
  rewrite E. assert (B : 0 <= (w * (sd * sc) + 7) / 8 <= w * 8).
  { unfold sample_ok in S. assert (1 <= sd * sc <= 64) by nia. assert (0 <= w * (sd * sc) <= w * 64) by nia. lia. }
  rewrite (Z.mod_small ((w * (sd * sc) + 7) / 8)) by lia. rewrite Z.mod_small by lia. lia.
Qed.

Lemma sub_size_eq n o k : 0 <= n < 2147483648 -> 0 <= k <= 3 -> 0 <= o < 2 ^ k ->
  Z.shiftr (w32 (n + Z.shiftl 1 k - o - 1)) k = (n + (2 ^ k - o - 1)) / 2 ^ k.
Proof.
  intros Hn Hk Ho. assert (2 ^ k <= 8) by (change 8 with (2 ^ 3); apply Z.pow_le_mono_r; lia).
  rewrite Z.shiftl_mul_pow2, Z.shiftr_div_pow2 by lia. unfold w32. rewrite Z.mod_small by lia. f_equal. lia.
Qed.

Lemma interlace_step_ok sd sc w h p : sample_ok sd sc -> 0 <= w < 268435456 -> 0 <= h < 2147483648 -> 0 <= p < 7 ->
  psize (sd * sc) w h p < 4294967296 ->
  step_ok (sd * sc) w h p (interlace_step (nth (Z.to_nat p) interlaceTableAdam7 (tab 0 0 0 0)) sd sc w h (pass_offset (sd * sc) w h p)).
Proof.
  intros S Hw Hh Hp Hz.
  set (t := nth (Z.to_nat p) interlaceTableAdam7 (tab 0 0 0 0)).
  assert (EW : Z.shiftr (w32 (w + Z.shiftl 1 (x_pow t) - x_off t - 1)) (x_pow t) = pw p w).
  { unfold t. destruct (pass_cases p Hp) as [->|[->|[->|[->|[->|[->| ->]]]]]];
    match goal with |- context [nth (Z.to_nat ?n) ?l ?d] => let v := eval vm_compute in (nth (Z.to_nat n) l d) in change (nth (Z.to_nat n) l d) with v end; (rewrite sub_size_eq; [|lia|vm_compute; split; discriminate|vm_compute; split; [discriminate|reflexivity]]);
    cbn; rewrite ?Z.div_1_r; try reflexivity; lia. }
  assert (EH : Z.shiftr (w32 (h + Z.shiftl 1 (y_pow t) - y_off t - 1)) (y_pow t) = ph p h).
  { unfold t. destruct (pass_cases p Hp) as [->|[->|[->|[->|[->|[->| ->]]]]]];
    match goal with |- context [nth (Z.to_nat ?n) ?l ?d] => let v := eval vm_compute in (nth (Z.to_nat n) l d) in change (nth (Z.to_nat n) l d) with v end; (rewrite sub_size_eq; [|lia|vm_compute; split; discriminate|vm_compute; split; [discriminate|reflexivity]]);
    cbn; rewrite ?Z.div_1_r; try reflexivity; lia. }
  unfold interlace_step. rewrite EW, EH.
  pose proof (pw_nonneg p w ltac:(lia)). pose proof (pw_le p w ltac:(lia)). pose proof (ph_nonneg p h ltac:(lia)).
  rewrite bpl_eq by (try assumption; lia).
  unfold step_ok. cbn [s_width s_height s_used s_bpl s_offset s_size]. repeat split.
  unfold psize in *. destruct (pw p w =? 0); [reflexivity|]. destruct (ph p h =? 0); [reflexivity|]. cbn [negb andb orb] in *.
  unfold w32. rewrite (Z.mul_comm (row_bytes_spec _ _)). apply Z.mod_small. split; [|lia].
  assert (0 <= row_bytes_spec (sd * sc) (pw p w)). { unfold row_bytes_spec. unfold sample_ok in S. assert (1 <= sd * sc) by nia. assert (0 <= (pw p w * (sd * sc) + 7) / 8) by (apply Z.div_pos; nia). lia. }
  nia.
Qed.

Lemma add_overflow_small a b : 0 <= a -> 0 <= b -> a + b < 4294967296 -> add_overflow 32 false a b false = (a + b, false).
Proof.
  intros. unfold add_overflow, to_t, to_u. cbv zeta iota. change (2 ^ 32) with 4294967296.
  rewrite (Z.mod_small a), (Z.mod_small b), (Z.mod_small (a + b)) by lia. rewrite ?(Z.mod_small (a + b)) by lia. f_equal. cbn [orb]. lia.
Qed.

Lemma steps_none sd sc w h : sample_ok sd sc -> 0 < w < 268435456 -> 0 < h < 2147483648 ->
  data_size false (sd * sc) w h < 4294967296 ->
  calculate_interlace_steps interlace_table_none sd sc w h =
    ([{| s_used := true; s_width := w; s_height := h; s_bpl := row_bytes_spec (sd * sc) w; s_offset := 0; s_size := data_size false (sd * sc) w h |}],
     data_size false (sd * sc) w h).
Proof.
  intros S Hw Hh Hz. unfold calculate_interlace_steps, interlace_table_none. cbn [interlace_steps].
  assert (E : interlace_step (tab 0 0 0 0) sd sc w h 0 =
    {| s_used := true; s_width := w; s_height := h; s_bpl := row_bytes_spec (sd * sc) w; s_offset := 0; s_size := data_size false (sd * sc) w h |}).
  { unfold interlace_step. cbn [x_pow y_pow x_off y_off tab]. rewrite !sub_size_eq by (cbn; lia). cbn [Z.pow].
    rewrite !Z.div_1_r. replace (w + (1 - 0 - 1)) with w by lia. replace (h + (1 - 0 - 1)) with h by lia.
    replace (w =? 0) with false by lia. replace (h =? 0) with false by lia. cbn [negb andb].
    rewrite bpl_eq by (try assumption; lia). unfold data_size in *. f_equal. rewrite Z.mul_comm. apply Z.mod_small. split; [|assumption].
    assert (1 <= sd * sc <= 64) by (unfold sample_ok in S; nia). pose proof (row_bytes_le (sd * sc) w ltac:(lia) ltac:(lia)). nia. }
  rewrite E. cbn [s_size].
  assert (0 <= data_size false (sd * sc) w h).
  { unfold data_size. assert (1 <= sd * sc <= 64) by (unfold sample_ok in S; nia). pose proof (row_bytes_le (sd * sc) w ltac:(lia) ltac:(lia)). nia. }
  rewrite add_overflow_small by lia. cbn [rev app]. now rewrite Z.add_0_l.
Qed.

Lemma steps_adam7 sd sc w h : sample_ok sd sc -> 0 < w < 268435456 -> 0 < h < 2147483648 ->
  data_size true (sd * sc) w h < 4294967296 ->
  exists steps, calculate_interlace_steps interlaceTableAdam7 sd sc w h = (steps, data_size true (sd * sc) w h) /\
    length steps = 7%nat /\ forall p, 0 <= p < 7 -> step_ok (sd * sc) w h p (nstep steps (Z.to_nat p)).
Proof.
  intros S Hw Hh Hz. unfold data_size in *. set (D := sd * sc) in *.
  assert (HD : 1 <= D <= 64) by (unfold D; unfold sample_ok in S; nia).
  pose (st p := interlace_step (nth (Z.to_nat p) interlaceTableAdam7 (tab 0 0 0 0)) sd sc w h (pass_offset D w h p)).
  assert (SO : forall p, 0 <= p < 7 -> step_ok D w h p (st p)).
  { intros p Hp. apply interlace_step_ok; try assumption; try lia.
    pose proof (pass_offset_mono D w h (p + 1) 7 ltac:(lia) ltac:(lia) ltac:(lia) ltac:(lia) ltac:(lia)) as M.
    pose proof (pass_offset_mono D w h 0 p ltac:(lia) ltac:(lia) ltac:(lia) ltac:(lia) ltac:(lia)) as M0.
    rewrite pass_offset_succ, pass_size_eq in M by lia. rewrite pass_offset_0 in M0. fold D. lia. }
  assert (AO : forall p, 0 <= p < 7 -> add_overflow 32 false (pass_offset D w h p) (s_size (st p)) false = (pass_offset D w h (p + 1), false)).
  { intros p Hp. destruct (SO p Hp) as (_ & _ & _ & _ & _ & ->). rewrite pass_offset_succ, pass_size_eq by lia.
    pose proof (pass_offset_mono D w h (p + 1) 7 ltac:(lia) ltac:(lia) ltac:(lia) ltac:(lia) ltac:(lia)) as M.
    pose proof (pass_offset_mono D w h 0 p ltac:(lia) ltac:(lia) ltac:(lia) ltac:(lia) ltac:(lia)) as M0.
    rewrite pass_offset_succ, pass_size_eq in M by lia. rewrite pass_offset_0 in M0.
    apply add_overflow_small; [lia|apply psize_nonneg; lia|lia]. }
  exists (map st [0; 1; 2; 3; 4; 5; 6]). split; [|split; [reflexivity|]].
  - change (calculate_interlace_steps interlaceTableAdam7 sd sc w h) with (interlace_steps interlaceTableAdam7 sd sc w h (pass_offset D w h 0) []).
    unfold interlaceTableAdam7. cbn [interlace_steps].
    change (interlace_step (tab 0 0 3 3) sd sc w h (pass_offset D w h 0)) with (st 0). rewrite AO by lia. change (0 + 1) with 1.
    change (interlace_step (tab 4 0 3 3) sd sc w h (pass_offset D w h 1)) with (st 1). rewrite AO by lia. change (1 + 1) with 2.
    change (interlace_step (tab 0 4 2 3) sd sc w h (pass_offset D w h 2)) with (st 2). rewrite AO by lia. change (2 + 1) with 3.
    change (interlace_step (tab 2 0 2 2) sd sc w h (pass_offset D w h 3)) with (st 3). rewrite AO by lia. change (3 + 1) with 4.
    change (interlace_step (tab 0 2 1 2) sd sc w h (pass_offset D w h 4)) with (st 4). rewrite AO by lia. change (4 + 1) with 5.
    change (interlace_step (tab 1 0 1 1) sd sc w h (pass_offset D w h 5)) with (st 5). rewrite AO by lia. change (5 + 1) with 6.
    change (interlace_step (tab 0 1 0 1) sd sc w h (pass_offset D w h 6)) with (st 6). rewrite AO by lia. reflexivity.
  - intros p Hp. unfold nstep. destruct (pass_cases p Hp) as [->|[->|[->|[->|[->|[->| ->]]]]]]; apply SO; lia.
Qed.
