(* The decoder's states against the states of the stream; block headers and stored blocks. *)
From Verif Require Import Base Bits Algorithm_Spec Algorithm_Model Algorithm_Proofs Deflate_Spec DeflateTable_Model DeflateTable_Proofs DeflateTable_Proofs2 DeflateTable_Proofs3 DeflateTable_Proofs4 DeflateTable_Proofs5 DeflateTable_Proofs6 DeflateTable_Proofs7 DeflateTable_Proofs8 DeflateTable_Proofs9 Inflate_Spec Inflate_Proofs DeflateDecoder_Model DeflateDecoder_Proofs DeflateDecoder_Proofs2 DeflateDecoder_Proofs3 DeflateDecoder_Proofs4 DeflateDecoder_Proofs5.
Ltac Zify.zify_post_hook ::= idtac.
Ltac dlia := Z.div_mod_to_equations; lia.

Definition tables (d : dec) (lit off : list Z) : Prop :=
  exists t, d_union d = SLitLen t /\ lit_table lit (ti_bits (d_linfo d)) t /\ off_table off (ti_bits (d_oinfo d)) (d_off d) /\ 1 <= ti_bits (d_linfo d) <= 11 /\ 1 <= ti_bits (d_oinfo d) <= 9.

(* streams on which the decoder does not look past the data of a block too early: no distance code uses symbols 30 and 31 (but
   for the static one), and no stored block directly follows a block whose end-of-block code is shorter than 5 bits *)
Definition tame (a : astate) : Prop := forall b, asteps a b ->
  match a_mode b with
  | ASyms lit off => tame_off off /\ (decodes lit (a_V b) 256 -> len_of lit 256 < 5 -> a_final b = false -> (a_V b / 2 ^ len_of lit 256) / 2 mod 4 <> 0)
  | _ => True
  end.
Lemma tame_steps a b : tame a -> asteps a b -> tame b.
Proof. intros T S c S2. apply T. eapply asteps_trans; eassumption. Qed.

Definition mode_rel (d : dec) (b : bits) (m : Z) (a : astate) : Prop :=
  match d_state d, a_mode a with
  | KZlibHeader, AZlib => m = b_len b
  | KBlockHeader, ABlock => m <= 59 \/ m = b_len b \/ a_V a / 2 mod 4 <> 0
  | KUncompressedHeader, AStored => b_len b mod 8 = 0 /\ (m <= 56 \/ m = b_len b)
  | KCopyUncompressedBlock, ACopy n => d_copy d = n /\ b_len b mod 8 = 0 /\ m = b_len b
  | KStaticHuffmanHeader, ASyms lit off => lit = static_lit /\ off = static_off
  | KDynamicHuffmanHeader, ADynamic => True
  | KDynamicHuffmanPreCodeLens, APrecode nl no nc acc =>
      d_nlit d = nl /\ d_noff d = no /\ d_wc d = nc /\ d_wi d = Z.of_nat (length acc) /\ d_union d = SPrecode (clens acc) /\ d_static d = false
  | KDynamicHuffmanLitLenOffsetCodes, ALens nl no pre acc =>
      d_nlit d = nl /\ d_noff d = no /\ d_wi d = Z.of_nat (length acc) /\ d_static d = false /\ Z.of_nat (length acc) < nl + no /\
      exists lens pt, d_union d = SLens lens pt /\ length lens = 457%nat /\ firstn (length acc) lens = map Some acc /\
        pre_table pre (ti_bits (d_pinfo d)) pt /\ 1 <= ti_bits (d_pinfo d) <= 7 /\ (ti_bits (d_pinfo d) = 7 \/ Forall (fun l => l <= ti_bits (d_pinfo d)) pre)
  | KDecompressHuffmanBlock, ASyms lit off => tables d lit off
  | _, _ => False
  end.

Record rel (d : dec) (b : bits) (m : Z) (o : obuf) (a : astate) (fut : list Z) : Prop := Rel {
  r_bits : bits_ok (a_V a) (a_N a) m b fut;
  r_mode : mode_rel d b m a;
  r_out : out_of o = a_out a;
  r_ook : o_ok o;
  r_final : d_final d = a_final a;
  r_nf : a_mode a = AZlib \/ a_mode a = ABlock -> a_final a = false;
  r_off : length (d_off d) = 594%nat;
  r_static : d_static d = true -> tables d static_lit static_off;
  r_wf : wf a;
  r_tame : tame a;
  r_src : (length (b_src b) < 176)%nat }.

Definition rank (d : dec) (o : obuf) : Z :=
  match d_state d with
  | KDynamicHuffmanPreCodeLens => 6
  | KDynamicHuffmanLitLenOffsetCodes => 5
  | KStaticHuffmanHeader => 4
  | KDecompressHuffmanBlock => if o_room o <? 258 then 3 else 2
  | KCopyUncompressedBlock => if o_room o <? d_copy d then 1 else 0
  | _ => 0
  end.
Lemma rank_range d o : 0 <= rank d o <= 6.
Proof. unfold rank. destruct (d_state d); try lia; destruct (_ <? _); lia. Qed.
Definition mu (d : dec) (b : bits) (o : obuf) : Z := 8 * avail b + rank d o.

(* the output and what a stored block still has to add to it never shrink *)
Definition pot (a : astate) : Z := Z.of_nat (length (a_out a)) + match a_mode a with ACopy n => n | _ => 0 end.
Lemma lz_copy_length : forall n out dist, length (lz_copy n out dist) = (length out + n)%nat.
Proof. induction n as [|n IH]; intros out dist; cbn [lz_copy]; [lia|]. rewrite IH, app_length. cbn [length]. lia. Qed.
Lemma astep_pot a b : astep a b -> pot a <= pot b.
Proof.
  intros S. destruct S; unfold pot; cbn [a_mode a_out]; try apply Z.le_refl.
  - assert (Q : 0 <= n) by (apply Z.mod_pos_bound; reflexivity). clearbody n. destruct (n =? 0); [destruct f|]; cbn [after_block]; clear -Q; lia.
  - rewrite app_length. cbn [length]. destruct (n =? 1) eqn:F; [destruct f|]; cbn [after_block]; clear -F; lia.
  - rewrite app_length. clear; lia.
  - destruct f; cbn [after_block]; apply Z.le_refl.
  - rewrite lz_copy_length. clear; lia.
Qed.
Lemma asteps_pot a b : asteps a b -> pot a <= pot b.
Proof. induction 1 as [|a b c S _ IH]; [lia|]. apply astep_pot in S. lia. Qed.

(* no result of the stream fits into the output with room to spare *)
Definition tight (o : obuf) (a : astate) : Prop := forall f V N res, asteps a (A ADone f V N res) -> Z.of_nat (length (o_mem o)) <= Z.of_nat (length res).
Lemma tight_pot o a : Z.of_nat (length (o_mem o)) <= pot a -> tight o a.
Proof. intros H f V N res S. apply asteps_pot in S. unfold pot at 2 in S. cbn [a_out a_mode] in S. lia. Qed.
Lemma tight_step o a : a_mode a <> ADone -> (forall b, astep a b -> Z.of_nat (length (o_mem o)) <= pot b) -> tight o a.
Proof. intros M H f V N res S. inversion S as [|? b ? S1 S2]; subst; [destruct (M eq_refl)|]. eapply tight_pot; [apply H, S1|exact S2]. Qed.

Definition needs_room (d : dec) (o : obuf) : Prop :=
  d_state d = KDecompressHuffmanBlock /\ o_room o < 258 \/ d_state d = KCopyUncompressedBlock /\ o_room o < d_copy d.

Definition next_spec (d : dec) (b : bits) (o : obuf) (a : astate) (fut : list Z) (n : next) : Prop :=
  match n with
  | NCont d' b' o' => exists a' m', asteps a a' /\ rel d' b' m' o' a' fut /\ d_norealloc d' = d_norealloc d /\ mu d' b' o' < mu d b o
  | NOut d' b' o' => exists a' m', asteps a a' /\ rel d' (fix_length b') m' o' a' fut /\ d_norealloc d' = d_norealloc d /\ mu d' (fix_length b') o' <= mu d b o /\ needs_room d' o' /\ tight o' a'
  | NDone d' b' o' => exists f V N m', asteps a (A (after_block f) f V N (out_of o')) /\ d_final d' = f /\ o_ok o' /\ d_norealloc d' = d_norealloc d /\
      (f = false -> rel (set_state d' KBlockHeader) (fix_length b') m' o' (A ABlock false V N (out_of o')) fut /\ avail (fix_length b') < avail b)
  | NIn d' b' o' => exists a' m', asteps a a' /\ rel d' b' m' o' a' fut /\ d_norealloc d' = d_norealloc d /\ b_src b' = [] /\ (fut = [] -> dead a')
  | NBad _ _ _ => dead a
  | NRet _ _ _ _ => False
  end.

Lemma a_N_short V N m b : bits_ok V N m b [] -> b_src b = [] -> N = b_len b.
Proof. intros B E. rewrite (bo_N _ _ _ _ _ B), E. cbn [app length]. lia. Qed.
Lemma a_N_len V N m b fut : bits_ok V N m b fut -> b_len b <= N.
Proof. intros B. rewrite (bo_N _ _ _ _ _ B). lia. Qed.

Lemma extract_V V N m b fut i n : bits_ok V N m b fut -> 0 <= i -> 0 <= n < 32 -> i + n <= b_len b -> extract b i n = V / 2 ^ i mod 2 ^ n.
Proof.
  intros B Hi Hn Hb. pose proof (bo_m _ _ _ _ _ B). rewrite extract_ok by lia. rewrite (bo_word _ _ _ _ _ B), mod_div, mod_mod_le by lia. reflexivity.
Qed.

(* after the refill at the top of the loop *)
Lemma rel_refill d b m o a fut : rel d b m o a fut ->
  exists b' m', refill b = Ok b' /\ rel d b' m' o a fut /\ (b_src b' = [] \/ 56 <= b_len b') /\ avail b' = avail b.
Proof.
  intros R. destruct (refill_ok _ _ _ _ _ (r_bits _ _ _ _ _ _ R)) as [b' [E [B [C [L1 [L2 L3]]]]]]. exists b', (Z.max m (b_len b')). split; [exact E|]. split; [|split; [exact C|exact L3]].
  pose proof (bo_m _ _ _ _ _ (r_bits _ _ _ _ _ _ R)) as M. pose proof (bo_m _ _ _ _ _ B) as M'.
  assert (E8 : b_len b' mod 8 = b_len b mod 8) by (clear -L3; dlia).
  destruct R as [R1 R2 R3 R4 R5 R6 R7 R8 R9 R10 R11]. constructor; try assumption; [|lia].
  unfold mode_rel in *. destruct (d_state d), (a_mode a); try assumption; clear -R2 M M' L1 E8; lia.
Qed.

Lemma align_ok V N m b fut : bits_ok V N m b fut -> make_byte_aligned b = Ok (Bits (b_word b / 2 ^ (b_len b mod 8)) (b_len b - b_len b mod 8) (b_src b)).
Proof.
  intros B. pose proof (bo_len _ _ _ _ _ B) as L. unfold make_byte_aligned. rewrite (land_mod _ 3) by (reflexivity || lia). change (2 ^ 3) with 8. apply consumed_ok; clear -L; dlia.
Qed.

Lemma in_spec fut d b m o a : rel d b m o a fut -> (b_src b = [] \/ 56 <= b_len b) -> (fut = [] -> dead a) -> b_len b < 56 -> next_spec d b o a fut (NIn d b o).
Proof.
  intros R C HD HL. exists a, m. split; [constructor|]. split; [exact R|]. split; [reflexivity|]. split; [|exact HD]. destruct C as [C1|C1]; [exact C1|lia].
Qed.
(* input that ends before the next step of the stream is complete *)
Lemma in_stuck fut d b m o a : rel d b m o a fut -> (b_src b = [] \/ 56 <= b_len b) -> a_mode a <> ADone -> b_len b < 56 -> (forall a', astep a a' -> b_len b < a_N a) -> next_spec d b o a fut (NIn d b o).
Proof.
  intros R C HM HL HS. apply (in_spec _ _ _ m); try assumption. intros Ef. apply stuck_dead; [exact HM|]. intros a' St. apply HS in St.
  pose proof (r_bits _ _ _ _ _ _ R) as B. rewrite Ef in B. pose proof (a_N_short _ _ _ _ B ltac:(destruct C as [C1|C1]; [exact C1|lia])). lia.
Qed.

Lemma zlib_ok fut d b m o a : rel d b m o a fut -> (b_src b = [] \/ 56 <= b_len b) -> d_state d = KZlibHeader -> exists n, zlib_header d b o = Ok n /\ next_spec d b o a fut n.
Proof.
  intros R C ES. pose proof R as [B RM RO ROK RF RNF ROFF RST RW RT RS]. unfold mode_rel in RM. rewrite ES in RM. destruct a as [am f V N out]. cbn [a_mode a_V a_N a_out a_final] in *. destruct am; try contradiction.
  pose proof (bo_len _ _ _ _ _ B) as L. pose proof (a_N_len _ _ _ _ _ B) as LN. unfold zlib_header. destruct (b_len b <? 16) eqn:F.
  { eexists. split; [reflexivity|]. apply (in_stuck _ _ _ m); try assumption; [discriminate|lia|]. intros a' S1. inversion S1; subst. cbn [a_N]. lia. }
  rewrite !(extract_V _ _ _ _ _ _ _ B) by lia. change (2 ^ 0) with 1. rewrite Z.div_1_r. change (2 ^ 8) with 256.
  rewrite Z.shiftl_mul_pow2 by lia. change (2 ^ 8) with 256. rewrite (land_mod _ 4) by (reflexivity || lia). change (2 ^ 4) with 16.
  rewrite (land_mod _ 1) by (reflexivity || lia). rewrite Z.shiftr_div_pow2 by lia. change (2 ^ 5) with 32. change (2 ^ 1) with 2.
  set (cmf := V mod 256). set (flg := V / 256 mod 256).
  assert (BAD : (cmf * 256 + flg) mod 31 <> 0 \/ cmf mod 16 <> 8 \/ flg / 32 mod 2 <> 0 -> dead (A AZlib f V N out)).
  { intros Q. apply stuck_dead; [discriminate|]. intros b1 S1. inversion S1; subst. tauto. }
  destruct ((cmf * 256 + flg) mod 31 =? 0) eqn:F1; cbn [negb]; [|eexists; split; [reflexivity|]; apply BAD; left; clear -F1; lia].
  destruct (cmf mod 16 =? 8) eqn:F2; cbn [negb]; [|eexists; split; [reflexivity|]; apply BAD; right; left; clear -F2; lia].
  destruct (flg / 32 mod 2 =? 0) eqn:F3; cbn [negb]; [|eexists; split; [reflexivity|]; apply BAD; right; right; clear -F3; lia].
  rewrite consumed_ok by lia. cbn [bind]. eexists. split; [reflexivity|].
  assert (ST : astep (A AZlib f V N out) (A ABlock f (V / 2 ^ 16) (N - 16) out)).
  { apply st_zlib; fold cmf; fold flg; [clear -F LN; lia|clear -F1; lia|clear -F2; lia|clear -F3; lia]. }
  pose proof (consume_ok _ _ _ _ _ 16 B ltac:(lia)) as B'.
  exists (A ABlock f (V / 2 ^ 16) (N - 16) out), (m - 16). split; [apply asteps_one, ST|]. split; [|split; [reflexivity|]].
  - constructor; cbn [a_mode a_V a_N a_out a_final b_src]; try assumption.
    + unfold mode_rel. cbn [a_mode set_state d_state]. left. lia.
    + intros _. apply RNF. left; reflexivity.
    + eapply astep_wf; [exact RW|exact ST].
    + eapply tame_steps; [exact RT|apply asteps_one, ST].
  - unfold mu, avail. cbn [b_len b_src]. pose proof (rank_range d o). pose proof (rank_range (set_state d KBlockHeader) o). lia.
Qed.

Lemma pow2_1 V : V / 2 ^ 1 mod 2 ^ 2 = V / 2 mod 4.
Proof. reflexivity. Qed.
Lemma block_ok fut d b m o a : rel d b m o a fut -> (b_src b = [] \/ 56 <= b_len b) -> d_state d = KBlockHeader -> exists n, block_header d b o = Ok n /\ next_spec d b o a fut n.
Proof.
  intros R C ES. pose proof R as [B RM RO ROK RF RNF ROFF RST RW RT RS]. unfold mode_rel in RM. rewrite ES in RM. destruct a as [am f V N out]. cbn [a_mode a_V a_N a_out a_final] in *. destruct am; try contradiction.
  pose proof (bo_len _ _ _ _ _ B) as L. pose proof (bo_m _ _ _ _ _ B) as M. pose proof (bo_N _ _ _ _ _ B) as EN. pose proof (a_N_len _ _ _ _ _ B) as LN. unfold block_header. destruct (b_len b <? 3) eqn:F.
  { eexists. split; [reflexivity|]. apply (in_stuck _ _ _ m); try assumption; [discriminate|lia|]. intros a' S1. inversion S1; subst; cbn [a_N]; lia. }
  rewrite !(extract_V _ _ _ _ _ _ _ B) by lia. change (2 ^ 0) with 1. rewrite Z.div_1_r, pow2_1. change (2 ^ 1) with 2.
  assert (R4 : 0 <= V / 2 mod 4 < 4) by (apply Z.mod_pos_bound; reflexivity). assert (R2 : 0 <= V mod 2 < 2) by (apply Z.mod_pos_bound; reflexivity).
  destruct (V / 2 mod 4 =? 3) eqn:F3.
  { eexists. split; [reflexivity|]. apply stuck_dead; [discriminate|]. intros b1 S1. inversion S1; subst; lia. }
  rewrite consumed_ok by lia. cbn [bind].
  set (st := if V / 2 mod 4 =? 0 then KUncompressedHeader else if V / 2 mod 4 =? 1 then KStaticHuffmanHeader else KDynamicHuffmanHeader).
  set (d' := if V mod 2 =? 0 then set_state d st else set_final (set_state d st) true).
  assert (Ef : f = false) by (apply RNF; right; reflexivity). destruct f; [discriminate Ef|].
  assert (D1 : d_state d' = st) by (subst d'; destruct (V mod 2 =? 0); reflexivity).
  assert (D2 : d_final d' = (V mod 2 =? 1)). { subst d'. destruct (V mod 2 =? 0) eqn:F0; cbn; [rewrite RF; lia|lia]. }
  assert (D3 : d_norealloc d' = d_norealloc d /\ d_off d' = d_off d /\ d_static d' = d_static d) by (subst d'; destruct (V mod 2 =? 0); cbn; auto).
  assert (D4 : tables d' static_lit static_off <-> tables d static_lit static_off) by (subst d'; destruct (V mod 2 =? 0); reflexivity). destruct D3 as [D3 [D5 D6]].
  assert (G : forall k am', astep (A ABlock false V N out) (A am' (V mod 2 =? 1) (V / 2 ^ k) (N - k) out) -> 3 <= k <= b_len b -> mode_rel d' (Bits (b_word b / 2 ^ k) (b_len b - k) (b_src b)) (m - k) (A am' (V mod 2 =? 1) (V / 2 ^ k) (N - k) out) ->
    am' <> AZlib -> am' <> ABlock -> next_spec d b o (A ABlock false V N out) fut (NCont d' (Bits (b_word b / 2 ^ k) (b_len b - k) (b_src b)) o)).
  { intros k am' St Hk MR NZ NB. exists (A am' (V mod 2 =? 1) (V / 2 ^ k) (N - k) out), (m - k). split; [apply asteps_one, St|]. split; [|split; [exact D3|]].
    - constructor; cbn [a_mode a_V a_N a_out a_final b_src]; try assumption.
      + apply consume_ok; [exact B|lia].
      + intros [?|?]; contradiction.
      + rewrite D5; exact ROFF.
      + rewrite D6, D4. exact RST.
      + eapply astep_wf; [exact RW|exact St].
      + eapply tame_steps; [exact RT|apply asteps_one, St].
    - unfold mu, avail. cbn [b_len b_src]. pose proof (rank_range d' o). pose proof (rank_range d o). lia. }
  destruct (V / 2 mod 4 =? 0) eqn:F0.
  - assert (Q : 0 <= (b_len b - 3) mod 8 < 8) by (apply Z.mod_pos_bound; reflexivity).
    pose proof (consume_ok _ _ _ _ _ 3 B ltac:(lia)) as B3. rewrite (align_ok _ _ _ _ _ B3). cbn [b_len b_word b_src bind]. eexists. split; [reflexivity|].
    rewrite div_div by lia. replace (b_len b - 3 - (b_len b - 3) mod 8) with (b_len b - (3 + (b_len b - 3) mod 8)) by lia.
    assert (EK : (N - 3) mod 8 = (b_len b - 3) mod 8) by (rewrite EN; clear; dlia).
    assert (QL : (b_len b - 3) mod 8 <= b_len b - 3) by (apply Z.mod_le; lia).
    apply (G _ AStored); [rewrite <- EK; apply st_block_stored; lia|lia| |discriminate|discriminate].
    unfold mode_rel. rewrite D1. subst st. cbn [a_mode b_len]. split; [clear; dlia|]. lia.
  - cbn [bind]. eexists. split; [reflexivity|]. destruct (V / 2 mod 4 =? 1) eqn:F1.
    + apply (G 3 (ASyms static_lit static_off)); [apply st_block_static; lia|lia| |discriminate|discriminate]. unfold mode_rel. rewrite D1. subst st. cbn [a_mode]. auto.
    + apply (G 3 ADynamic); [apply st_block_dynamic; lia|lia| |discriminate|discriminate]. unfold mode_rel. rewrite D1. subst st. exact I.
Qed.
