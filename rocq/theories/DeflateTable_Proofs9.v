(* Looking a stream up in a finished table: the entry found is that of the symbol the stream starts with. *)
From Verif Require Import Base Bits Algorithm_Spec Algorithm_Model Algorithm_Proofs Deflate_Spec DeflateTable_Model DeflateTable_Proofs DeflateTable_Proofs2 DeflateTable_Proofs3 DeflateTable_Proofs4 DeflateTable_Proofs5 DeflateTable_Proofs6 DeflateTable_Proofs7 DeflateTable_Proofs8.

(* what the results of a table have to look like *)
Definition res_ok (lo pay fl : Z -> Z) (s : Z) : Prop :=
  ent_ok (lo s) (pay s) (fl s) 0 /\ lo s <= 64 /\ lo s mod 64 <= 13 /\
  (Z.testbit (fl s) 4 || Z.testbit (fl s) 2 = negb (Z.testbit (fl s) 1)) /\
  (Z.testbit (fl s) 1 = true -> lo s = 0 /\ pay s = 0).

(* an entry of symbol s whose code takes l bits *)
Definition sym_entry (lo pay fl : Z -> Z) (s l e : Z) : Prop :=
  exists x base, e = ent x (pay s) (fl s) base /\ ent_ok x (pay s) (fl s) base /\ x mod 64 = lo s mod 64 + l /\ (lo s < 64 -> x = lo s + l) /\
    (Z.testbit (fl s) 1 = false -> base = l).

Lemma decodes_mod lens V s : 0 <= V -> decodes lens V s -> decodes lens (V mod 2 ^ len_of lens s) s.
Proof.
  intros HV [D1 [D2 D3]]. split; [exact D1|]. split; [exact D2|]. rewrite <- D3.
  replace (2 ^ len_of lens s) with (2 ^ Z.of_nat (Z.to_nat (len_of lens s))) by (f_equal; lia). apply rc_mod. lia.
Qed.

Section Lookup.
  Context (lens : list Z) (lo pay fl : Z -> Z) (T : Z) (t : list Z).
  Context (HT : table_for lens lo pay fl T t) (HF : Forall len_ok lens) (RT : 1 <= T <= 15).
  Context (HR : forall s, 0 <= s < Z.of_nat (length lens) -> res_ok lo pay fl s).

  (* the entry at the top level *)
  Lemma top_lookup V : 0 <= V ->
    exists e, elem_at t (V mod 2 ^ T) = Some e /\
    ((exists s, decodes lens V s /\ 1 <= len_of lens s <= 15 /\
       ((len_of lens s <= T /\ sym_entry lo pay fl s (len_of lens s) e /\
          (Z.testbit (fl s) 1 = true -> e = ent (len_of lens s) 0 (fl s) 0)) \/
        (T < len_of lens s /\ exists st sb e', 1 <= sb /\ len_of lens s <= T + sb <= 15 /\ 0 <= st < 32768 /\ e = ent (T + sb) st 0 T /\
          elem_at t (st + (V / 2 ^ T) mod 2 ^ sb) = Some e' /\ sym_entry lo pay fl s (len_of lens s) e' /\ full_length e' = lo s mod 64 + len_of lens s))) \/
     ((forall V' s, 0 <= V' -> V' mod 2 = 1 \/ V mod 2 = 0 -> ~ decodes lens V' s) /\ e = ent 1 0 3 0 /\ elem_at t (V mod 2) = Some (ent 1 0 3 0))).
  Proof.
    intros HV. destruct (HT V HV) as [[s [D [L C]]]|[N [E1 E2]]].
    - assert (Hs := proj1 D). destruct (HR s Hs) as [[O1 [O2 [O3 O4]]] [R1 [R2 [R3 R4]]]].
      destruct C as [[C1 C2]|[C1 [st [sb [C2 [C3 [C4 [C5 C6]]]]]]]]; eexists; (split; [eassumption|]); left; exists s; (split; [exact D|]); (split; [exact L|]).
      + left. split; [exact C1|]. split.
        * exists (lo s + len_of lens s), (if Z.testbit (fl s) 1 then 0 else len_of lens s). split; [reflexivity|].
          split; [unfold ent_ok; destruct (Z.testbit (fl s) 1); lia|]. split; [|split; [reflexivity|intros ->; reflexivity]].
          assert (lo s < 64 \/ lo s = 64) as [Q|Q] by lia; [rewrite (Z.mod_small (lo s) 64) in * by lia; apply Z.mod_small; lia|rewrite Q; lia].
        * intros F. destruct (R4 F) as [-> ->]. rewrite F. reflexivity.
      + right. split; [exact C1|]. exists st, sb, (ent (lo s mod 64 + len_of lens s) (pay s) (fl s) (len_of lens s)).
        assert (EO : ent_ok (lo s mod 64 + len_of lens s) (pay s) (fl s) (len_of lens s)) by (unfold ent_ok; pose proof (Z.mod_pos_bound (lo s) 64); lia).
        split; [exact C2|]. split; [exact C3|]. split; [exact C4|]. split; [reflexivity|]. split; [exact C6|]. split; [|apply ent_full, EO].
        exists (lo s mod 64 + len_of lens s), (len_of lens s). split; [reflexivity|]. split; [exact EO|].
        pose proof (Z.mod_pos_bound (lo s) 64 ltac:(lia)). split; [apply Z.mod_small; lia|]. split; [|reflexivity].
        intros. rewrite Z.mod_small by lia. reflexivity.
    - exists (ent 1 0 3 0). split; [exact E1|]. right. auto.
  Qed.

  Lemma lookup_ok V : 0 <= V ->
    exists e, lookup t T V = Ok e /\
    ((exists s, decodes lens V s /\ 1 <= len_of lens s <= 15 /\ sym_entry lo pay fl s (len_of lens s) e) \/
     ((forall V' s, 0 <= V' -> V' mod 2 = 1 \/ V mod 2 = 0 -> ~ decodes lens V' s) /\ e = ent 1 0 3 0)).
  Proof.
    intros HV. unfold lookup, mask32. rewrite (land_mod V T) by (reflexivity || lia).
    pose proof (pow2_pos T ltac:(lia)) as PT.
    destruct (top_lookup V HV) as [e [E [[s [D [L C]]]|[N [-> E2]]]]].
    - rewrite (rd_elem _ _ _ E). cbn [bind]. destruct (HR s (proj1 D)) as [EO [R1 [R2 [R3 R4]]]].
      destruct C as [[C1 [C2 C3]]|[C1 [st [sb [e' [C2 [C3 [C4 [C5 [C6 [C7 C8]]]]]]]]]]].
      + destruct (Z.testbit (fl s) 1) eqn:F.
        * specialize (C3 eq_refl). subst e. destruct (R4 eq_refl) as [Rl Rp].
          assert (EO' : ent_ok (len_of lens s) 0 (fl s) 0) by (unfold ent_ok in *; lia).
          rewrite ent_literal, ent_off by exact EO'. rewrite R3. cbn [negb].
          rewrite ent_extra by (assumption || (rewrite Z.mod_small by lia; lia) || lia). cbn [bind].
          rewrite ent_pay by exact EO'. rewrite (Z.mod_small (len_of lens s) 64) by lia. change (2 ^ 0) with 1. rewrite Z.div_1_r.
          pose proof (decodes_mod lens V s HV D) as D'. pose proof (pow2_pos (len_of lens s) ltac:(lia)) as PL.
          pose proof (Z.mod_pos_bound V (2 ^ len_of lens s) PL) as RV. pose proof (Z.pow_le_mono_r 2 (len_of lens s) T ltac:(lia) C1).
          destruct (top_lookup (V mod 2 ^ len_of lens s) ltac:(lia)) as [e2 [E2 [[s2 [D2 [L2 C2']]]|[N _]]]]; [|destruct (N (V mod 2 ^ len_of lens s) s ltac:(lia) ltac:(lia) D')].
          rewrite (Z.mod_small (V mod 2 ^ len_of lens s)) in E2 by lia.
          assert (s2 = s) as -> by exact (decodes_unique lens _ s2 s HF D2 D').
          destruct C2' as [[_ [Q _]]|[Q _]]; [|lia].
          exists e2. split; [apply rd_elem; rewrite Z.add_0_l; exact E2|]. left. exists s. auto.
        * exists e. destruct C2 as [x [base [-> [EX Q]]]]. rewrite ent_literal, ent_off by exact EX. rewrite R3. cbn [negb]. split; [reflexivity|]. left. exists s. split; [exact D|]. split; [exact L|]. exists x, base. auto.
      + subst e. assert (EL : ent_ok (T + sb) st 0 T) by (unfold ent_ok; lia).
        rewrite ent_literal, ent_off by exact EL. cbn [Z.testbit orb].
        rewrite ent_extra by (assumption || (rewrite Z.mod_small by lia; lia) || lia). cbn [bind]. rewrite ent_pay by exact EL. rewrite (Z.mod_small (T + sb) 64) by lia.
        exists e'. split; [|left; exists s; auto]. apply rd_elem. rewrite <- C6. f_equal. f_equal.
        rewrite Z.pow_add_r by lia. pose proof (pow2_pos sb ltac:(lia)). rewrite Z.rem_mul_r by lia.
        rewrite Z.mul_comm, Z.div_add by lia. pose proof (Z.mod_pos_bound V (2 ^ T) PT). rewrite (Z.div_small (V mod 2 ^ T)) by lia. lia.
    - rewrite (rd_elem _ _ _ E). cbn [bind]. assert (EI : ent_ok 1 0 3 0) by (unfold ent_ok; lia).
      rewrite ent_literal, ent_off by exact EI. change (Z.testbit 3 4 || Z.testbit 3 2) with false. cbn match.
      rewrite ent_extra by (assumption || (rewrite Z.mod_small by lia; lia) || lia). cbn [bind]. rewrite ent_pay by exact EI.
      change (1 mod 64) with 1. change (2 ^ 1) with 2. change (2 ^ 0) with 1. rewrite Z.div_1_r, Z.add_0_l.
      exists (ent 1 0 3 0). split; [apply rd_elem, E2|]. right. auto.
  Qed.
End Lookup.

Lemma res_ok_check lo pay fl n : forallb (fun s => (0 <=? lo s) && (lo s <=? 64) && (lo s mod 64 <=? 13) && (0 <=? pay s) && (pay s <? 32768) && (0 <=? fl s) && (fl s <? 32) &&
   Bool.eqb (Z.testbit (fl s) 4 || Z.testbit (fl s) 2) (negb (Z.testbit (fl s) 1)) && implb (Z.testbit (fl s) 1) ((lo s =? 0) && (pay s =? 0))) (map Z.of_nat (seq 0 n)) = true ->
  forall s, 0 <= s < Z.of_nat n -> res_ok lo pay fl s.
Proof.
  intros H s Hs. rewrite forallb_forall in H. specialize (H s). assert (I : In s (map Z.of_nat (seq 0 n))).
  { apply in_map_iff. exists (Z.to_nat s). rewrite in_seq. lia. }
  specialize (H I). repeat (apply andb_prop in H; destruct H as [H ?]). unfold res_ok, ent_ok.
  split; [lia|]. split; [lia|]. split; [lia|]. split; [apply Bool.eqb_prop; assumption|].
  intros F. rewrite F in *. cbn [implb] in *. lia.
Qed.
Lemma lit_res_ok s : 0 <= s < 288 -> res_ok lit_lo lit_pay lit_fl s.
Proof. apply (res_ok_check _ _ _ 288). vm_compute. reflexivity. Qed.
Lemma off_res_ok s : 0 <= s < 32 -> res_ok off_lo off_pay off_fl s.
Proof. apply (res_ok_check _ _ _ 32). vm_compute. reflexivity. Qed.
