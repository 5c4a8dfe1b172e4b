(* The bit reader of the JPEG decoder. *)
From Verif Require Import Base JpegHuff_Model JpegBits_Model JpegBits_Spec JpegBits_Proofs.
Ltac Zify.zify_post_hook ::= idtac.

(* a stuffed 0xFF, two bytes, a marker and bytes after it *)
Definition ex_segment : list Z := [0xFF; 0x00; 0x12; 0x34; 0xFF; 0xD9; 0x56; 0x78].

(* C99: whatever the order of refills and reads, the values read are consecutive bits of the segment with its stuffing
   removed, from the first bit on; the reader never leaves the segment *)
Theorem C99_in_order data ops : bytes data -> (forall n, In (Read n) ops -> 1 <= n <= 32) ->
  (exists out r rest, exec data (reset data) ops = Ok (out, r) /\ stream_bits data = read_bits out ++ rest /\
     map fst out = flat_map (fun o => match o with Refill => [] | Read n => [n] end) ops /\
     (forall n v, In (n, v) out -> 0 <= v < 2 ^ n)) \/
  exec data (reset data) ops = Err BL_ERROR_DECOMPRESSION_FAILED.
Proof.
  intros B F. assert (F' : Forall op_ok ops) by (apply Forall_forall; intros [|n] HI; cbn [op_ok]; [exact I|apply F; exact HI]).
  destruct (exec_ok data B ops _ _ (reset_holds data) F') as [(out & r & rest & E & _ & R & V)|E]; [left|right; exact E].
  exists out, r, rest. split; [exact E|]. split; [exact R|]. split; [|intros n v HI; exact (proj1 (Forall_forall _ _) V (n, v) HI)].
  clear - E. revert out r E. generalize (reset data) as r0. induction ops as [|[|n] ops IH]; intros r0 out r E; cbn [exec flat_map app] in *.
  - inversion E. reflexivity.
  - destruct (refill 9 data r0) as [r1| | |]; cbn [bind] in E; try discriminate. eapply IH. exact E.
  - destruct (read r0 n) as [[v r1]| | |]; cbn [bind] in E; try discriminate. destruct (exec data r1 ops) as [[o r2]| | |] eqn:E2; cbn [bind] in E; try discriminate. inversion E; subst. cbn [map fst]. f_equal. eapply IH. exact E2.
Qed.
Print Assumptions C99_in_order.
(* after a refill up to 32 bits can be read unless the segment has no more of them *)
Theorem C99_refill_suffices data ops out r n : bytes data -> (forall n, In (Read n) ops -> 1 <= n <= 32) -> 1 <= n <= 32 ->
  exec data (reset data) ops = Ok (out, r) ->
  if Z.of_nat (length (stream_bits data)) <? Z.of_nat (length (read_bits out)) + n
  then exec data (reset data) (ops ++ [Refill; Read n]) = Err BL_ERROR_DECOMPRESSION_FAILED
  else exists v r', exec data (reset data) (ops ++ [Refill; Read n]) = Ok (out ++ [(n, v)], r').
Proof.
  intros B F Hn E0. assert (F' : Forall op_ok ops) by (apply Forall_forall; intros [|k] HI; cbn [op_ok]; [exact I|apply F; exact HI]).
  destruct (exec_ok data B ops _ _ (reset_holds data) F') as [(out' & r1 & rest & E & H & R & _)|E]; [|congruence]. assert (out' = out /\ r1 = r) as [-> ->] by (split; congruence). clear E.
  rewrite exec_app, E0. cbn [bind exec]. pose proof H as (_ & _ & HC & _). destruct (refill_ok data B 9 r rest H ltac:(lia)) as (r' & E & H' & Full). rewrite E. cbn [bind].
  assert (L : Z.of_nat (length (stream_bits data)) = Z.of_nat (length (read_bits out)) + Z.of_nat (length rest)) by (rewrite R, app_length; lia). rewrite L.
  pose proof H' as (_ & _ & HC' & _ & _ & R'). assert (LR : r_count r' <= Z.of_nat (length rest)) by (rewrite R', app_length, top_length; lia).
  destruct (Z.lt_ge_cases (r_count r') n) as [C|C].
  - destruct Full as [Full|Full]; [lia|]. rewrite Full, app_nil_r in R'. assert (length rest = Z.to_nat (r_count r')) by (rewrite R'; apply top_length). destruct (Z.ltb_spec (Z.of_nat (length (read_bits out)) + Z.of_nat (length rest)) (Z.of_nat (length (read_bits out)) + n)); [|lia].
    unfold read. destruct (Z.ltb_spec (r_count r') n); [reflexivity|lia].
  - destruct (Z.ltb_spec (Z.of_nat (length (read_bits out)) + Z.of_nat (length rest)) (Z.of_nat (length (read_bits out)) + n)); [lia|].
    destruct (read_ok data r' rest n H' ltac:(lia) C) as (r2 & rest2 & E2 & _). rewrite E2. cbn [bind]. eexists. eexists. reflexivity.
Qed.
Print Assumptions C99_refill_suffices.
Example C99_ex : exists r, exec ex_segment (reset ex_segment) [Refill; Read 4; Read 12; Refill; Read 8] = Ok ([(4, 15); (12, 0xF12); (8, 0x34)], r) /\ r_ptr r = 4 /\ r_end r = 4.
Proof. eexists. vm_compute. split; [reflexivity|split; reflexivity]. Qed.
Example C99_ex_end : exec ex_segment (reset ex_segment) [Refill; Read 24; Refill; Read 1] = Err BL_ERROR_DECOMPRESSION_FAILED /\ length (stream_bits ex_segment) = 24%nat.
Proof. vm_compute. split; reflexivity. Qed.
