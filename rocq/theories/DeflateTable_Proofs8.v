(* The three kinds of tables: results by their fields, construction, lookups. *)
From Verif Require Import Base Bits Algorithm_Spec Algorithm_Model Algorithm_Proofs Deflate_Spec DeflateTable_Model DeflateTable_Proofs DeflateTable_Proofs2 DeflateTable_Proofs3 DeflateTable_Proofs4 DeflateTable_Proofs5 DeflateTable_Proofs6 DeflateTable_Proofs7.

Definition lit_lo (s : Z) : Z := if s <? 256 then 64 else if (s =? 256) || (286 <=? s) then 0 else length_extra s.
Definition lit_pay (s : Z) : Z := if s <? 256 then s else if (s =? 256) || (286 <=? s) then 0 else length_base s.
Definition lit_fl (s : Z) : Z := if s <? 256 then 16 else if s =? 256 then 2 else if 286 <=? s then 3 else 4.
Definition off_lo (s : Z) : Z := if 30 <=? s then 0 else offset_extra s.
Definition off_pay (s : Z) : Z := if 30 <=? s then 0 else offset_base s.
Definition off_fl (s : Z) : Z := if 30 <=? s then 3 else 4.
Definition pre_lo (s : Z) : Z := if s <? 16 then 0 else if s =? 16 then 2 else if s =? 17 then 3 else 7.
Definition pre_pay (s : Z) : Z := if s <? 16 then s + 256 else if s =? 16 then 16 + 256 * 3 else if s =? 17 then 17 + 256 * 3 else 18 + 256 * 11.

Definition res_check (results : list Z) (lo pay fl : Z -> Z) (s : Z) : bool :=
  match elem_at results s with Some r => r =? ent (lo s) (pay s) (fl s) 0 | None => false end &&
  (0 <=? lo s) && (lo s <=? 64) && (0 <=? pay s) && (pay s <? 32768) && (0 <=? fl s) && (fl s <? 32).

Lemma res_check_ok results lo pay fl n : forallb (res_check results lo pay fl) (map Z.of_nat (seq 0 n)) = true ->
  forall s, 0 <= s < Z.of_nat n -> elem_at results s = Some (ent (lo s) (pay s) (fl s) 0) /\ ent_ok (lo s) (pay s) (fl s) 0 /\ lo s <= 64.
Proof.
  intros H s Hs. rewrite forallb_forall in H. specialize (H s). assert (I : In s (map Z.of_nat (seq 0 n))).
  { apply in_map_iff. exists (Z.to_nat s). rewrite in_seq. lia. }
  specialize (H I). unfold res_check in H. destruct (elem_at results s) as [r|]; [|discriminate].
  repeat (apply andb_prop in H; destruct H as [H ?]). apply Z.eqb_eq in H. subst r. unfold ent_ok. repeat split; lia.
Qed.

Lemma lit_results s : 0 <= s < 288 -> elem_at kLitLenDecodeResults s = Some (ent (lit_lo s) (lit_pay s) (lit_fl s) 0) /\ ent_ok (lit_lo s) (lit_pay s) (lit_fl s) 0 /\ lit_lo s <= 64.
Proof. apply (res_check_ok _ lit_lo lit_pay lit_fl 288). vm_compute. reflexivity. Qed.
Lemma off_results s : 0 <= s < 32 -> elem_at kOffsetDecodeResults s = Some (ent (off_lo s) (off_pay s) (off_fl s) 0) /\ ent_ok (off_lo s) (off_pay s) (off_fl s) 0 /\ off_lo s <= 64.
Proof. apply (res_check_ok _ off_lo off_pay off_fl 32). vm_compute. reflexivity. Qed.
Lemma pre_results s : 0 <= s < 19 -> elem_at kPrecodeDecodeResults s = Some (ent (pre_lo s) (pre_pay s) 0 0) /\ ent_ok (pre_lo s) (pre_pay s) 0 0 /\ pre_lo s <= 64.
Proof. apply (res_check_ok _ pre_lo pre_pay (fun _ => 0) 19). vm_compute. reflexivity. Qed.

Definition lit_table (lens : list Z) := table_for lens lit_lo lit_pay lit_fl.
Definition off_table (lens : list Z) := table_for lens off_lo off_pay off_fl.
Definition pre_table (lens : list Z) := table_for lens pre_lo pre_pay (fun _ => 0).

Lemma lit_build lens t : lens_ok lens -> length t = 2342%nat ->
  exists t' info, build_decode_table t lens kLitLenDecodeResults 11 15 TLitLen = Ok (t', info) /\ length t' = 2342%nat /\
    ((ti_bits info = 0 /\ ~ litlen_good lens /\ t' = t) \/
     (litlen_good lens /\ 1 <= ti_bits info <= 11 /\ lit_table lens (ti_bits info) t' /\ lit_mask_ok lens (ti_literal_mask info) /\
      (ti_bits info = 11 \/ Forall (fun l => l <= ti_bits info) lens))).
Proof.
  intros Hok Ht. pose proof Hok as [H1 H2].
  assert (HF : Forall (fun l => l <= 15) lens) by (eapply Forall_impl; [|exact H1]; unfold len_ok; cbn; intros; lia).
  apply (build_ok lens kLitLenDecodeResults lit_lo lit_pay lit_fl 11 15 2342 TLitLen Hok ltac:(lia) HF ltac:(lia)); [| | |exact Ht].
  - intros s Hs. apply lit_results. lia.
  - change (2 ^ 11) with 2048. lia.
  - intros HC T HT1 HT2 [E|E].
    + replace T with 11%nat by lia. apply fits_litlen; assumption.
    + apply fits_small; [|exact E]. pose proof (Z.pow_le_mono_r 2 (Z.of_nat T) 11 ltac:(lia) ltac:(lia)). change (2 ^ 11) with 2048 in *. lia.
Qed.

Lemma off_build lens t : Forall len_ok lens -> (length lens <= 32)%nat -> length t = 594%nat ->
  exists t' info, build_decode_table t lens kOffsetDecodeResults 9 15 TOffset = Ok (t', info) /\ length t' = 594%nat /\
    ((ti_bits info = 0 /\ ~ offset_good lens /\ t' = t) \/
     (offset_good lens /\ 1 <= ti_bits info <= 9 /\ off_table lens (ti_bits info) t')).
Proof.
  intros H1 H2 Ht.
  assert (HF : Forall (fun l => l <= 15) lens) by (eapply Forall_impl; [|exact H1]; unfold len_ok; cbn; intros; lia).
  assert (Hok : lens_ok lens) by (split; [assumption|lia]).
  destruct (build_ok lens kOffsetDecodeResults off_lo off_pay off_fl 9 15 594 TOffset Hok ltac:(lia) HF ltac:(lia)) with (t := t) as [t' [info [E [L C]]]]; auto.
  - intros s Hs. apply off_results. lia.
  - change (2 ^ 9) with 512. lia.
  - intros HC T HT1 HT2 [E|E].
    + replace T with 9%nat by lia. apply fits_offset; assumption.
    + apply fits_small; [|exact E]. pose proof (Z.pow_le_mono_r 2 (Z.of_nat T) 9 ltac:(lia) ltac:(lia)). change (2 ^ 9) with 512 in *. lia.
  - exists t', info. split; [exact E|]. split; [exact L|]. destruct C as [C|[A [B [C _]]]]; [left; exact C|right; auto].
Qed.

Lemma pre_build lens t : Forall (fun l => 0 <= l <= 7) lens -> (length lens <= 19)%nat -> length t = 128%nat ->
  exists t' info, build_decode_table t lens kPrecodeDecodeResults 7 7 TPrecode = Ok (t', info) /\ length t' = 128%nat /\
    ((ti_bits info = 0 /\ ~ precode_good lens /\ t' = t) \/
     (precode_good lens /\ 1 <= ti_bits info <= 7 /\ pre_table lens (ti_bits info) t' /\ (ti_bits info = 7 \/ Forall (fun l => l <= ti_bits info) lens))).
Proof.
  intros H1 H2 Ht.
  assert (HF : Forall (fun l => l <= 7) lens) by (eapply Forall_impl; [|exact H1]; cbn; intros; lia).
  assert (Hok : lens_ok lens) by (split; [eapply Forall_impl; [|exact H1]; unfold len_ok; cbn; intros; lia|lia]).
  destruct (build_ok lens kPrecodeDecodeResults pre_lo pre_pay (fun _ => 0) 7 7 128 TPrecode Hok ltac:(lia) HF ltac:(lia)) with (t := t) as [t' [info [E [L C]]]]; auto.
  - intros s Hs. apply pre_results. lia.
  - change (2 ^ 7) with 128. lia.
  - intros HC T HT1 HT2 [E|E].
    + replace T with 7%nat by lia. apply fits_small; [vm_compute; discriminate|]. exact HF.
    + apply fits_small; [|exact E]. pose proof (Z.pow_le_mono_r 2 (Z.of_nat T) 7 ltac:(lia) ltac:(lia)). change (2 ^ 7) with 128 in *. lia.
  - exists t', info. split; [exact E|]. split; [exact L|]. destruct C as [C|[A [B [C [_ D]]]]]; [left; exact C|right; auto].
Qed.
