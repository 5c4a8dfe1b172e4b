(* The bytes that deinterlace_bits combines from the passes, bit by bit. *)
From Verif Require Import Base Bits IntOps_Model Algorithm_Model Algorithm_Proofs Png_Model Png_Spec Png_Proofs Png_Proofs2.
From Coq Require Import ZifyBool.

(* Bit k of a byte, the most significant first. *)
Definition tb (v k : Z) : bool := Z.testbit v (7 - k).

Lemma range8 i : 0 <= i < 8 -> i = 0 \/ i = 1 \/ i = 2 \/ i = 3 \/ i = 4 \/ i = 5 \/ i = 6 \/ i = 7.
Proof. lia. Qed.

Lemma testbit_w8 x n : 0 <= n < 8 -> Z.testbit (w8 x) n = Z.testbit x n.
Proof. intros. unfold w8. change 256 with (2 ^ 8). rewrite mod_pow2_testbit by lia. replace (n <? 8) with true by lia. reflexivity. Qed.
Lemma testbit_w32 x n : 0 <= n < 32 -> Z.testbit (w32 x) n = Z.testbit x n.
Proof. intros. unfold w32. change 4294967296 with (2 ^ 32). rewrite mod_pow2_testbit by lia. replace (n <? 32) with true by lia. reflexivity. Qed.

Ltac cbits :=
  rewrite testbit_w8 by lia; rewrite ?Z.lor_spec, ?Z.land_spec;
  repeat match goal with |- context [Z.testbit (Zpos ?p) ?n] => let v := eval vm_compute in (Z.testbit (Zpos p) n) in change (Z.testbit (Zpos p) n) with v end;
  rewrite ?andb_true_r, ?andb_false_r, ?orb_false_r; reflexivity.

Lemma combine1_bit b0 b1 b2 b3 b4 b5 b6 b7 k : 0 <= k < 8 ->
  Z.testbit (combineByte1bpp b0 b1 b2 b3 b4 b5 b6 b7) (7 - k) = Z.testbit (nth (Z.to_nat k) [b0; b1; b2; b3; b4; b5; b6; b7] 0) (7 - k).
Proof.
  intros H. unfold combineByte1bpp.
  destruct (range8 k H) as [->|[->|[->|[->|[->|[->|[->| ->]]]]]]]; match goal with |- _ = Z.testbit (nth (Z.to_nat ?k) _ _) _ => let v := eval vm_compute in (Z.to_nat k) in change (Z.to_nat k) with v end; cbn [nth];
  match goal with |- context [7 - ?a] => let v := eval vm_compute in (7 - a) in change (7 - a) with v end; cbits.
Qed.

Lemma add_lor x y a b : Z.land a b = 0 -> Z.land x a + Z.land y b = Z.lor (Z.land x a) (Z.land y b).
Proof.
  intros H.
  assert (E : Z.land (Z.land x a) (Z.land y b) = 0).
  { apply Z.bits_inj'. intros n Hn. rewrite !Z.land_spec, Z.bits_0.
    assert (Z.testbit a n && Z.testbit b n = false) by (rewrite <- Z.land_spec, H; apply Z.bits_0).
    destruct (Z.testbit x n), (Z.testbit a n), (Z.testbit y n), (Z.testbit b n); cbn in *; congruence. }
  rewrite <- Z.lxor_lor by exact E. now apply Z.add_nocarry_lxor.
Qed.
Lemma lor_land_lor x y a b : Z.land a b = 0 -> exists z, Z.lor (Z.land x a) (Z.land y b) = Z.land z (Z.lor a b).
Proof.
  intros H. exists (Z.lor (Z.land x a) (Z.land y b)). apply Z.bits_inj'. intros n Hn. rewrite !Z.land_spec, !Z.lor_spec, !Z.land_spec.
  destruct (Z.testbit x n), (Z.testbit a n), (Z.testbit y n), (Z.testbit b n); reflexivity.
Qed.

Lemma combine2_lor b0 b1 b2 b3 :
  combineByte2bpp b0 b1 b2 b3 = w8 (Z.lor (Z.lor (Z.lor (Z.land b0 0xC0) (Z.land b1 0x30)) (Z.land b2 0x0C)) (Z.land b3 0x03)).
Proof.
  unfold combineByte2bpp. rewrite (add_lor b0 b1) by reflexivity.
  destruct (lor_land_lor b0 b1 0xC0 0x30 eq_refl) as [z ->]. rewrite (add_lor z b2) by reflexivity.
  destruct (lor_land_lor z b2 (Z.lor 0xC0 0x30) 0x0C eq_refl) as [z' ->]. now rewrite (add_lor z' b3) by reflexivity.
Qed.
Lemma combine4_lor b0 b1 : combineByte4bpp b0 b1 = w8 (Z.lor (Z.land b0 0xF0) (Z.land b1 0x0F)).
Proof. unfold combineByte4bpp. now rewrite (add_lor b0 b1) by reflexivity. Qed.

Lemma combine2_bit b0 b1 b2 b3 k : 0 <= k < 8 ->
  Z.testbit (combineByte2bpp b0 b1 b2 b3) (7 - k) = Z.testbit (nth (Z.to_nat k) [b0; b0; b1; b1; b2; b2; b3; b3] 0) (7 - k).
Proof.
  intros H. rewrite combine2_lor.
  destruct (range8 k H) as [->|[->|[->|[->|[->|[->|[->| ->]]]]]]]; match goal with |- _ = Z.testbit (nth (Z.to_nat ?k) _ _) _ => let v := eval vm_compute in (Z.to_nat k) in change (Z.to_nat k) with v end; cbn [nth];
  match goal with |- context [7 - ?a] => let v := eval vm_compute in (7 - a) in change (7 - a) with v end; cbits.
Qed.
Lemma combine4_bit b0 b1 k : 0 <= k < 8 ->
  Z.testbit (combineByte4bpp b0 b1) (7 - k) = Z.testbit (nth (Z.to_nat k) [b0; b0; b0; b0; b1; b1; b1; b1] 0) (7 - k).
Proof.
  intros H. rewrite combine4_lor.
  destruct (range8 k H) as [->|[->|[->|[->|[->|[->|[->| ->]]]]]]]; match goal with |- _ = Z.testbit (nth (Z.to_nat ?k) _ _) _ => let v := eval vm_compute in (Z.to_nat k) in change (Z.to_nat k) with v end; cbn [nth];
  match goal with |- context [7 - ?a] => let v := eval vm_compute in (7 - a) in change (7 - a) with v end; cbits.
Qed.

Lemma combine1_byte b0 b1 b2 b3 b4 b5 b6 b7 : is_byte (combineByte1bpp b0 b1 b2 b3 b4 b5 b6 b7).
Proof. apply Z.mod_pos_bound. lia. Qed.
Lemma combine2_byte b0 b1 b2 b3 : is_byte (combineByte2bpp b0 b1 b2 b3).
Proof. apply Z.mod_pos_bound. lia. Qed.
Lemma combine4_byte b0 b1 : is_byte (combineByte4bpp b0 b1).
Proof. apply Z.mod_pos_bound. lia. Qed.

Lemma shr_bit a s n : 0 <= n -> Z.testbit (Z.shiftr a s) n = Z.testbit a (n + s).
Proof. intros. now apply Z.shiftr_spec. Qed.
Lemma shl_bit a s n : 0 <= n < 32 -> Z.testbit (w32 (Z.shiftl a s)) n = Z.testbit a (n - s).
Proof. intros. rewrite testbit_w32 by lia. apply Z.shiftl_spec. lia. Qed.

(* ------------------------------------------------------------------ blocks *)

(* What each bit of a block must be; par says which half of the bytes of passes 0 and 1. *)
Definition blk0 (N par v0 v1 v3 v5 v5' i : Z) : bool :=
  let x := i / N in let j := i mod N in
  if x mod 8 =? 0 then tb v0 (4 * par + N * (x / 8) + j)
  else if x mod 8 =? 4 then tb v1 (4 * par + N * (x / 8) + j)
  else if x mod 4 =? 2 then tb v3 (N * (x / 4) + j)
  else let q := N * (x / 2) + j in if q <? 8 then tb v5 q else tb v5' (q - 8).
Definition blk2 (N v2 v3 v5 v5' i : Z) : bool :=
  let x := i / N in let j := i mod N in
  if x mod 4 =? 0 then tb v2 (N * (x / 4) + j)
  else if x mod 4 =? 2 then tb v3 (N * (x / 4) + j)
  else let q := N * (x / 2) + j in if q <? 8 then tb v5 q else tb v5' (q - 8).
Definition blk13 (N v4 v5 i : Z) : bool :=
  let x := i / N in let j := i mod N in
  if x mod 2 =? 0 then tb v4 (N * (x / 2) + j) else tb v5 (N * (x / 2) + j).

Definition holds2 (s a v0 v1 : Z) : Prop := forall k, 0 <= k < 16 -> Z.testbit a (k + s) = if k <? 8 then Z.testbit v0 k else Z.testbit v1 (k - 8).
Definition holds3 (b v3 v5 v5' : Z) : Prop := forall k, 0 <= k < 24 ->
  Z.testbit b k = if k <? 8 then Z.testbit v3 k else if k <? 16 then Z.testbit v5 (k - 8) else Z.testbit v5' (k - 16).

Lemma pack2 v0 v1 x : is_byte v0 -> is_byte v1 -> 0 <= x -> x mod 65536 = 0 -> holds2 0 (w32 (v0 + (v1 << 8) + x)) v0 v1.
Proof.
  intros B0 B1 Hx Hm k Hk. unfold is_byte in *. rewrite Z.add_0_r, testbit_w32 by lia.
  unfold w32 at 1. rewrite Z.shiftl_mul_pow2 by lia. change (2 ^ 8) with 256. rewrite (Z.mod_small (v1 * 256)) by lia.
  pose proof (Z.div_mod x 65536 ltac:(lia)). set (q := x / 65536) in *.
  replace (v0 + v1 * 256 + x) with (v0 + 2 ^ 8 * (v1 + 2 ^ 8 * q)) by (change (2 ^ 8) with 256; lia).
  rewrite testbit_add_mul by lia. destruct (Z.ltb_spec k 8); [reflexivity|].
  rewrite testbit_add_mul by lia. replace (k - 8 <? 8) with true by lia. reflexivity.
Qed.
Lemma pack3 v0 v1 v2 : is_byte v0 -> is_byte v1 -> is_byte v2 -> holds3 (w32 (v0 + (v1 << 8) + (v2 << 16))) v0 v1 v2.
Proof.
  intros B0 B1 B2 k Hk. unfold is_byte in *. rewrite testbit_w32 by lia.
  unfold w32. rewrite !Z.shiftl_mul_pow2 by lia. change (2 ^ 8) with 256. change (2 ^ 16) with 65536.
  rewrite (Z.mod_small (v1 * 256)), (Z.mod_small (v2 * 65536)) by lia.
  replace (v0 + v1 * 256 + v2 * 65536) with (v0 + 2 ^ 8 * (v1 + 2 ^ 8 * v2)) by (change (2 ^ 8) with 256; lia).
  rewrite testbit_add_mul by lia. destruct (Z.ltb_spec k 8); [reflexivity|].
  rewrite testbit_add_mul by lia. destruct (Z.ltb_spec k 16).
  - replace (k - 8 <? 8) with true by lia. reflexivity.
  - replace (k - 8 <? 8) with false by lia. f_equal. lia.
Qed.

Definition nth8 (l : list Z) (i : Z) : Z := nth (Z.to_nat (i / 8)) l 0.

Ltac num t := let v := eval vm_compute in t in change t with v.
Ltac nums :=
  repeat match goal with
  | |- context [Z.to_nat ?a] => num (Z.to_nat a)
  | |- context [?a / ?b] => num (a / b)
  | |- context [?a mod ?b] => num (a mod b)
  end.
Ltac out_bit :=
  match goal with
  | |- Z.testbit _ (7 - ?k) = _ =>
    first [rewrite combine1_bit by lia | rewrite combine2_bit by lia | rewrite combine4_bit by lia];
    num (Z.to_nat k); cbn [nth]; num (7 - k);
    rewrite ?shr_bit by lia; rewrite ?shl_bit by lia
  end.
Lemma range32 i : 0 <= i < 32 -> exists k, (k < 32)%nat /\ i = Z.of_nat k.
Proof. intros. exists (Z.to_nat i). lia. Qed.

Ltac each_nat k := destruct k as [|k]; [|first [exfalso; lia | each_nat k]].

Lemma emit0_ok N par a b v0 v1 v3 v5 v5' i : N = 1 \/ N = 2 \/ N = 4 -> par = 0 \/ par = 1 -> holds2 (4 * par) a v0 v1 -> holds3 b v3 v5 v5' ->
  0 <= i < 32 -> tb (nth8 (emit0 N a b) i) (i mod 8) = blk0 N par v0 v1 v3 v5 v5' i.
Proof.
  intros HN Hpar HA HB Hi.
  assert (A : forall n, 0 <= n - 4 * par < 16 ->
     Z.testbit a n = if n - 4 * par <? 8 then Z.testbit v0 (n - 4 * par) else Z.testbit v1 (n - 4 * par - 8)).
  { intros n Hn. rewrite <- HA by lia. f_equal. lia. }
  clear HA. unfold holds3 in HB.
  destruct (range32 i Hi) as (k & Hk & ->). clear Hi.
  unfold nth8, tb, blk0.
  each_nat k.
  all: destruct HN as [->|[->| ->]]; destruct Hpar as [-> | ->].
  all: match goal with |- context [Z.of_nat ?x] => num (Z.of_nat x) end; nums; cbn [nth emit0 Z.eqb Pos.eqb]; out_bit.
  all: match goal with |- Z.testbit _ ?n = _ => num n end; (rewrite A by lia) || (rewrite HB by lia).
  all: reflexivity.
Qed.

Lemma pack2_0 v0 v1 : is_byte v0 -> is_byte v1 -> holds2 0 (w32 (v0 + (v1 << 8))) v0 v1.
Proof. intros B0 B1. rewrite <- (Z.add_0_r (v0 + _)). apply pack2; try assumption; reflexivity. Qed.

Lemma emit2_ok N a v2 v3 v5 v5' i : N = 1 \/ N = 2 \/ N = 4 -> holds2 0 a v2 v3 -> is_byte v5 -> is_byte v5' ->
  0 <= i < 32 -> tb (nth8 (emit2 N a v5 v5') i) (i mod 8) = blk2 N v2 v3 v5 v5' i.
Proof.
  intros HN HA B5 B5' Hi. pose proof (pack2_0 v5 v5' B5 B5') as HB.
  assert (A : forall n, 0 <= n < 16 -> Z.testbit a n = if n <? 8 then Z.testbit v2 n else Z.testbit v3 (n - 8)).
  { intros n Hn. rewrite <- HA by lia. f_equal. lia. }
  assert (B : forall n, 0 <= n < 16 -> Z.testbit (w32 (v5 + (v5' << 8))) n = if n <? 8 then Z.testbit v5 n else Z.testbit v5' (n - 8)).
  { intros n Hn. rewrite <- HB by lia. f_equal. lia. }
  clear HA HB.
  destruct (range32 i Hi) as (k & Hk & ->). clear Hi.
  unfold nth8, tb, blk2, emit2. cbv zeta. set (b := w32 (v5 + (v5' << 8))) in *. clearbody b.
  each_nat k.
  all: destruct HN as [->|[->| ->]].
  all: match goal with |- context [Z.of_nat ?x] => num (Z.of_nat x) end; nums; cbn [nth Z.eqb Pos.eqb]; out_bit.
  all: match goal with |- Z.testbit _ ?n = _ => num n end; first [rewrite A by lia | rewrite B by lia | idtac].
  all: reflexivity.
Qed.

Lemma emit2_tail_ok N a b v2 v3 v5 v5' i : N = 1 \/ N = 2 -> holds2 0 a v2 v3 -> holds2 0 b v5 v5' ->
  0 <= i < 32 -> tb (nth8 (emit2_tail N a b) i) (i mod 8) = blk2 N v2 v3 v5 v5' i.
Proof.
  intros HN HA HB Hi.
  assert (A : forall n, 0 <= n < 16 -> Z.testbit a n = if n <? 8 then Z.testbit v2 n else Z.testbit v3 (n - 8)).
  { intros n Hn. rewrite <- HA by lia. f_equal. lia. }
  assert (B : forall n, 0 <= n < 16 -> Z.testbit b n = if n <? 8 then Z.testbit v5 n else Z.testbit v5' (n - 8)).
  { intros n Hn. rewrite <- HB by lia. f_equal. lia. }
  clear HA HB.
  destruct (range32 i Hi) as (k & Hk & ->). clear Hi.
  unfold nth8, tb, blk2.
  each_nat k.
  all: destruct HN as [->| ->].
  all: match goal with |- context [Z.of_nat ?x] => num (Z.of_nat x) end; nums; cbn [nth emit2_tail Z.eqb Pos.eqb]; out_bit.
  all: match goal with |- Z.testbit _ ?n = _ => num n end; first [rewrite A by lia | rewrite B by lia].
  all: reflexivity.
Qed.

Lemma emit13_ok N v4 v5 i : N = 1 \/ N = 2 \/ N = 4 -> 0 <= i < 16 -> tb (nth8 (emit13 N v4 v5) i) (i mod 8) = blk13 N v4 v5 i.
Proof.
  intros HN Hi. destruct (range32 i ltac:(lia)) as (k & _ & ->).
  assert (Hk : (k < 16)%nat) by lia. clear Hi.
  unfold nth8, tb, blk13.
  each_nat k.
  all: destruct HN as [->|[->| ->]].
  all: match goal with |- context [Z.of_nat ?x] => num (Z.of_nat x) end; nums; cbn [nth emit13 Z.eqb Pos.eqb]; out_bit.
  all: reflexivity.
Qed.

Lemma emit0_bytes N a b : bytes (emit0 N a b).
Proof. unfold emit0. destruct (N =? 1); [|destruct (N =? 2)]; repeat constructor; first [apply combine1_byte | apply combine2_byte | apply combine4_byte]. Qed.
Lemma emit2_bytes N a b c : bytes (emit2 N a b c).
Proof. unfold emit2. destruct (N =? 1); [|destruct (N =? 2)]; repeat constructor; first [apply combine1_byte | apply combine2_byte | apply combine4_byte]. Qed.
Lemma emit2_tail_bytes N a b : bytes (emit2_tail N a b).
Proof. unfold emit2_tail. destruct (N =? 1); repeat constructor; first [apply combine1_byte | apply combine2_byte | apply combine4_byte]. Qed.
Lemma emit13_bytes N a b : bytes (emit13 N a b).
Proof. unfold emit13. destruct (N =? 1); [|destruct (N =? 2)]; repeat constructor; first [apply combine1_byte | apply combine2_byte | apply combine4_byte]. Qed.
Lemma emit13_tail_bytes N a b : bytes (emit13_tail N a b).
Proof. unfold emit13_tail. destruct (N =? 2); [repeat constructor; apply combine2_byte | apply emit13_bytes]. Qed.
Lemma emit0_length N a b : length (emit0 N a b) = 4%nat.
Proof. unfold emit0. destruct (N =? 1); [|destruct (N =? 2)]; reflexivity. Qed.
Lemma emit2_length N a b c : length (emit2 N a b c) = 4%nat.
Proof. unfold emit2. destruct (N =? 1); [|destruct (N =? 2)]; reflexivity. Qed.
Lemma emit2_tail_length N a b : length (emit2_tail N a b) = 4%nat.
Proof. unfold emit2_tail. destruct (N =? 1); reflexivity. Qed.
Lemma emit13_length N a b : length (emit13 N a b) = 2%nat.
Proof. unfold emit13. destruct (N =? 1); [|destruct (N =? 2)]; reflexivity. Qed.
Lemma emit13_tail_length N a b : length (emit13_tail N a b) = 2%nat.
Proof. unfold emit13_tail. destruct (N =? 2); [reflexivity|apply emit13_length]. Qed.

(* ------------------------------------------------------------------ writing a list of bytes *)

Lemma wr_list_ok : forall l m t, bytes m -> bytes l -> 0 <= t -> t + len l <= len m ->
  exists m', wr_list m t l = Ok m' /\ len m' = len m /\ bytes m' /\
    (forall j, 0 <= j -> j < t \/ t + len l <= j -> get m' j = get m j) /\
    (forall j, t <= j < t + len l -> get m' j = get l (j - t)).
Proof.
  induction l as [|v l IH]; intros m t Bm Bl Ht Hl.
  - exists m. cbn [wr_list]. repeat split; try assumption. unfold len; cbn [length]. lia.
  - cbn [wr_list]. assert (L : len (v :: l) = 1 + len l) by (unfold len; cbn [length]; lia). assert (0 <= len l) by (unfold len; lia).
    inversion Bl; subst. rewrite wr_set by lia. cbn [bind].
    destruct (IH (set m t v) (t + 1)) as (m' & E & L' & B' & O & R); [now apply bytes_set|assumption|lia|rewrite set_len; lia|].
    exists m'. rewrite set_len in L'. repeat split; try assumption.
    + intros j Hj Hj'. rewrite O by lia. rewrite get_set by lia. destruct (Z.eqb_spec j t); [lia|reflexivity].
    + intros j Hj. destruct (Z.eq_dec j t) as [->|N].
      * rewrite O by lia. rewrite get_set by lia. rewrite Z.eqb_refl, Z.sub_diag. reflexivity.
      * rewrite R by lia. unfold get. replace (Z.to_nat (j - t)) with (S (Z.to_nat (j - (t + 1)))) by lia. reflexivity.
Qed.

(* The bytes of a partial block: ceil(x / g) of them. *)
Lemma wr_tail_list g x : forall l m t lim, 0 < g -> 0 < lim -> lim - g < x -> x <= lim + g * (len l - 1) -> l <> [] ->
  wr_tail m t l x lim g = wr_list m t (firstn (Z.to_nat ((x - lim + 2 * g - 1) / g)) l).
Proof.
  induction l as [|v l IH]; intros m t lim Hg Hlim Hx Hl Hne; [congruence|]. cbn [wr_tail].
  assert (L : len (v :: l) = 1 + len l) by (unfold len; cbn [length]; lia).
  destruct (Z.leb_spec x lim).
  - assert (E : (x - lim + 2 * g - 1) / g = 1) by (symmetry; apply (Z.div_unique_pos _ _ _ (x - lim + g - 1)); lia).
    rewrite E. change (Z.to_nat 1) with 1%nat. cbn [firstn wr_list]. reflexivity.
  - assert (E : (x - lim + 2 * g - 1) / g = 1 + (x - (lim + g) + 2 * g - 1) / g).
    { replace (x - lim + 2 * g - 1) with (x - (lim + g) + 2 * g - 1 + 1 * g) by lia. rewrite Z.div_add by lia. lia. }
    assert (0 <= (x - (lim + g) + 2 * g - 1) / g) by (apply Z.div_pos; lia).
    rewrite E, Z2Nat.inj_add by lia. change (Z.to_nat 1) with 1%nat. cbn [Nat.add firstn wr_list].
    destruct (wr m t v) as [m1| | |]; cbn [bind]; try reflexivity. apply IH; try lia.
    intros ->. unfold len in Hl; cbn [length] in Hl. lia.
Qed.
