From Verif Require Import Base Bits Algorithm_Model Algorithm_Spec Algorithm_Proofs Unicode_Model Unicode_Spec Qoi_Proofs6.

Lemma len_app a b : len (a ++ b) = len a + len b.
Proof. unfold len. rewrite app_length. lia. Qed.
Lemma len_nonneg a : 0 <= len a. Proof. unfold len; lia. Qed.
Lemma len_cons x a : len (x :: a) = 1 + len a. Proof. unfold len; cbn [length]; lia. Qed.
Lemma len_nil : len [] = 0. Proof. reflexivity. Qed.

Lemma rd_app pre mid k x : 0 <= k -> nth_error mid (Z.to_nat k) = Some x -> rd (pre ++ mid) (len pre + k) = Ok x.
Proof.
  intros Hk H. unfold rd, len. destruct (Z.ltb_spec (Z.of_nat (length pre) + k) 0); [lia|].
  replace (Z.to_nat (Z.of_nat (length pre) + k)) with (length pre + Z.to_nat k)%nat by lia.
  rewrite nth_error_app2 by lia. replace (length pre + Z.to_nat k - length pre)%nat with (Z.to_nat k) by lia. now rewrite H.
Qed.

Lemma rd_app0 pre mid x : nth_error mid 0 = Some x -> rd (pre ++ mid) (len pre) = Ok x.
Proof. intros H. rewrite <- (rd_app pre mid 0 x); [now rewrite Z.add_0_r|lia|exact H]. Qed.

Lemma lxor128 x : is_byte x -> Z.lxor x 0x80 = if x <? 0x80 then x + 128 else x - 128.
Proof.
  unfold is_byte. intros Hx.
  assert (E : forallb (fun x => Z.lxor x 0x80 =? (if x <? 0x80 then x + 128 else x - 128)) (map Z.of_nat (seq 0 256)) = true) by (vm_compute; reflexivity).
  rewrite forallb_forall in E. specialize (E x). rewrite Z.eqb_eq in E. apply E.
  apply in_map_iff. exists (Z.to_nat x). split; [lia|]. apply in_seq. lia.
Qed.

Lemma lor63 a b : 0 <= a -> 0 <= b -> (0x3F <? Z.lor a b) = (0x3F <? a) || (0x3F <? b).
Proof.
  intros Ha Hb. pose proof (lor_le_l a b Ha Hb). pose proof (lor_le_r a b Ha Hb).
  destruct (Z.ltb_spec 0x3F a), (Z.ltb_spec 0x3F b), (Z.ltb_spec 0x3F (Z.lor a b)); cbn; try reflexivity; try lia.
  assert (Z.lor a b < 2 ^ 6) by (apply lor_bound; lia). lia.
Qed.

(* ------------------------------------------------------------------ readers *)
(* no accepted character is encoded at the beginning of `rest` *)
Definition stuck (e : encoding) (rest : list Z) : Prop := forall u r, accepted e u -> rest <> enc e u ++ r.

Definition reader_ok (e : encoding) (next : list Z -> Z -> Z -> outcome next_res) (csize : Z) (inc : Z -> Z * Z) : Prop :=
  forall pre mid post, bytes mid -> mid <> [] -> len mid mod csize = 0 ->
  (exists u size mid', next (pre ++ mid ++ post) (len pre) (len pre + len mid) = Ok (NOk u size (fst (inc u)) (snd (inc u))) /\
     accepted e u /\ size = len (enc e u) /\ mid = enc e u ++ mid') \/
  (exists c, next (pre ++ mid ++ post) (len pre) (len pre + len mid) = Ok (NErr c) /\
     ((c = BL_ERROR_INVALID_STRING /\ forall x, stuck e (mid ++ x)) \/ (c = BL_ERROR_DATA_TRUNCATED /\ stuck e mid))).

Definition utf8_inc (u : Z) : Z * Z :=
  if u <? 0x80 then (0, 0) else if u <? 0x800 then (1, 0) else if u <? 0x10000 then (2, 0) else (3, 1).
Definition utf16_inc (u : Z) : Z * Z :=
  if u <? 0x80 then (0, 0) else if u <? 0x800 then (1, 0) else if u <? 0x10000 then (2, 0) else (2, 1).
Definition utf32_inc (u : Z) : Z * Z :=
  if u <? 0x80 then (0, 0) else if u <? 0x800 then (1, 0) else if u <? 0x10000 then (2, 0) else (2, 1).

Ltac bk := repeat match goal with
  | |- context [?a <? ?b] => destruct (Z.ltb_spec a b); try lia
  | |- context [?a <=? ?b] => destruct (Z.leb_spec a b); try lia
  end.

Lemma utf8_enc1 u : 0 <= u < 0x80 -> utf8_enc u = [u]. Proof. intros; unfold utf8_enc; bk; reflexivity. Qed.
Lemma utf8_enc2 c x u : 0xC2 <= c < 0xE0 -> 0x80 <= x < 0xC0 -> u = (c - 0xC0) * 64 + (x - 0x80) -> utf8_enc u = [c; x] /\ 0x80 <= u < 0x800.
Proof. intros. unfold utf8_enc. bk. split; [|lia]. repeat f_equal; lia. Qed.
Lemma utf8_enc3 c x y u : 0xE0 <= c < 0xF0 -> 0x80 <= x < 0xC0 -> 0x80 <= y < 0xC0 ->
  u = (c - 0xE0) * 4096 + (x - 0x80) * 64 + (y - 0x80) -> 0x800 <= u -> utf8_enc u = [c; x; y] /\ 0x800 <= u < 0x10000.
Proof. intros. unfold utf8_enc. bk. split; [|lia]. repeat f_equal; lia. Qed.
Lemma utf8_enc4 c x y z u : 0xF0 <= c < 0x100 -> 0x80 <= x < 0xC0 -> 0x80 <= y < 0xC0 -> 0x80 <= z < 0xC0 ->
  u = (c - 0xF0) * 262144 + (x - 0x80) * 4096 + (y - 0x80) * 64 + (z - 0x80) -> 0x10000 <= u <= 0x10FFFF ->
  utf8_enc u = [c; x; y; z].
Proof. intros. unfold utf8_enc. bk. repeat f_equal; lia. Qed.

Inductive utf8_form (u : Z) : list Z -> Prop :=
| U1 : 0 <= u < 0x80 -> utf8_form u [u]
| U2 a b : 0x80 <= u < 0x800 -> 0xC2 <= a < 0xE0 -> 0x80 <= b < 0xC0 -> u = (a - 0xC0) * 64 + (b - 0x80) -> utf8_form u [a; b]
| U3 a b c : 0x800 <= u < 0x10000 -> 0xE0 <= a < 0xF0 -> 0x80 <= b < 0xC0 -> 0x80 <= c < 0xC0 ->
    u = (a - 0xE0) * 4096 + (b - 0x80) * 64 + (c - 0x80) -> utf8_form u [a; b; c]
| U4 a b c d : 0x10000 <= u < 0x110000 -> 0xF0 <= a < 0xF5 -> 0x80 <= b < 0xC0 -> 0x80 <= c < 0xC0 -> 0x80 <= d < 0xC0 ->
    u = (a - 0xF0) * 262144 + (b - 0x80) * 4096 + (c - 0x80) * 64 + (d - 0x80) -> utf8_form u [a; b; c; d].
Lemma utf8_enc_form u : code_point u -> utf8_form u (utf8_enc u).
Proof.
  unfold code_point. intros Hu. unfold utf8_enc. bk.
  - apply U1; lia. - apply U2; lia. - apply U3; lia. - apply U4; lia.
Qed.

Lemma w32_id x : 0 <= x < 4294967296 -> w32 x = x. Proof. intros; unfold w32; lia. Qed.

Ltac w32s := repeat match goal with |- context [w32 ?x] =>
  lazymatch x with context [w32 _] => fail | _ => rewrite (w32_id x) by lia end end.

Lemma utf8_next_ok : reader_ok EncUTF8 utf8_next 1 utf8_inc.
Proof.
  intros pre mid post Hb Hne _.
  destruct mid as [|c mid]; [congruence|]. inversion Hb as [|? ? Hc Hb1]; subst.
  unfold utf8_next. rewrite (rd_app0 pre ((c :: mid) ++ post) c) by reflexivity. cbn [bind].
  unfold is_byte in Hc.
  assert (HF : forall u r x, code_point u -> (c :: mid) ++ x = utf8_enc u ++ r -> exists l, utf8_form u l /\ (c :: mid) ++ x = l ++ r).
  { intros u r x Hu E. exists (utf8_enc u). split; auto. now apply utf8_enc_form. }
  destruct (Z.ltb_spec c 0x80).
  { left. exists c, 1, mid. assert (E : utf8_enc c = [c]) by (apply utf8_enc1; lia).
    unfold utf8_inc. destruct (Z.ltb_spec c 0x80); [|lia]. cbn [fst snd accepted enc]. rewrite E.
    repeat split; unfold code_point; auto; lia. }
  destruct (Z.ltb_spec (w32 (c - 0xC2)) (0xE0 - 0xC2)).
  { assert (0xC2 <= c < 0xE0) by (unfold w32 in *; lia). rewrite (w32_id (c - 0xC2)) by lia.
    rewrite len_cons. pose proof (len_nonneg mid).
    destruct (Z.ltb_spec (len pre + (1 + len mid)) (len pre + 1 + 1)).
    - right. eexists; split; [reflexivity|]. right; split; [reflexivity|]. intros u r Hu E. cbn [enc] in E. rewrite <- (app_nil_r (c :: _)) in E.
      destruct (HF _ _ _ Hu E) as (l & Hf & El). destruct mid; [|rewrite len_cons in *; pose proof (len_nonneg mid); lia].
      inversion Hf; subst; cbn in El; inversion El; subst; lia.
    - destruct mid as [|x mid]; [rewrite len_nil in *; lia|]. inversion Hb1 as [|? ? Hx Hb2]; subst.
      replace (len pre + 1 + 1 - 1) with (len pre + 1) by lia. rewrite (rd_app pre ((c :: x :: mid) ++ post) 1 x) by (lia || reflexivity). cbn [bind].
      rewrite lxor128 by auto. unfold is_byte in Hx.
      destruct (Z.ltb_spec x 0x80).
      + destruct (Z.ltb_spec 0x3F (x + 128)); [|lia]. right. eexists; split; [reflexivity|]. left; split; [reflexivity|]. intros q u r Hu E.
        destruct (HF _ _ _ Hu E) as (l & Hf & El). inversion Hf; subst; cbn in El; inversion El; subst; lia.
      + destruct (Z.ltb_spec 0x3F (x - 128)).
        * right. eexists; split; [reflexivity|]. left; split; [reflexivity|]. intros q u r Hu E.
          destruct (HF _ _ _ Hu E) as (l & Hf & El). inversion Hf; subst; cbn in El; inversion El; subst; lia.
        * left. rewrite Z.shiftl_mul_pow2 by lia. change (2 ^ 6) with 64. w32s.
          destruct (utf8_enc2 c x ((c - 0xC2 + 0xC2 - 0xC0) * 64 + (x - 128)) ltac:(lia) ltac:(lia) ltac:(lia)) as [E R].
          eexists _, _, _. split; [|split; [|split; [|cbn [enc]; rewrite E; reflexivity]]].
          -- unfold utf8_inc. bk. reflexivity.
          -- cbn [accepted]. unfold code_point. lia.
          -- cbn [enc]. rewrite E. reflexivity. }
  destruct (Z.ltb_spec (w32 (c - 0xC2)) (0xF0 - 0xC2)).
  { assert (0xE0 <= c < 0xF0) by (unfold w32 in *; lia). rewrite (w32_id (c - 0xC2)) by lia.
    rewrite len_cons. pose proof (len_nonneg mid).
    destruct (Z.ltb_spec (len pre + (1 + len mid)) (len pre + 1 + 2)).
    - right. eexists; split; [reflexivity|]. right; split; [reflexivity|]. intros u r Hu E. cbn [enc] in E. rewrite <- (app_nil_r (c :: _)) in E.
      destruct (HF _ _ _ Hu E) as (l & Hf & El).
      rewrite app_nil_r in El. inversion Hf; subst; cbn in El; inversion El; subst; try lia. rewrite !len_cons in *. pose proof (len_nonneg r). lia.
    - destruct mid as [|x [|y mid]]; [rewrite len_nil in *; lia|rewrite !len_cons, len_nil in *; lia|].
      inversion Hb1 as [|? ? Hx Hb2]; subst. inversion Hb2 as [|? ? Hy Hb3]; subst.
      replace (len pre + 1 + 2 - 2) with (len pre + 1) by lia. rewrite (rd_app pre ((c :: x :: y :: mid) ++ post) 1 x) by (lia || reflexivity). cbn [bind].
      replace (len pre + 1 + 2 - 1) with (len pre + 2) by lia. rewrite (rd_app pre ((c :: x :: y :: mid) ++ post) 2 y) by (lia || reflexivity). cbn [bind].
      rewrite !lxor128 by auto. unfold is_byte in Hx, Hy.
      set (b1 := if x <? 0x80 then x + 128 else x - 128). set (b2 := if y <? 0x80 then y + 128 else y - 128).
      assert (HQ1 : 0 <= b1 < 256 /\ (b1 <= 63 -> 0x80 <= x < 0xC0 /\ b1 = x - 0x80) /\ (0x80 <= x < 0xC0 -> b1 <= 63)) by (subst b1; bk).
      assert (HQ2 : 0 <= b2 < 256 /\ (b2 <= 63 -> 0x80 <= y < 0xC0 /\ b2 = y - 0x80) /\ (0x80 <= y < 0xC0 -> b2 <= 63)) by (subst b2; bk).
      clearbody b1 b2. rewrite !Z.shiftl_mul_pow2 by lia. rewrite lor63 by lia. change (2 ^ 12) with 4096. change (2 ^ 6) with 64.
      w32s.
      replace (c - 0xC2 + 0xC2 - 0xE0) with (c - 0xE0) by lia.
      destruct (Z.ltb_spec 0x3F b1); [|destruct (Z.ltb_spec 0x3F b2)]; [| |destruct (Z.ltb_spec ((c - 0xE0) * 4096 + b1 * 64 + b2) 0x800)]; cbn [orb].
      1-3: right; eexists; split; [reflexivity|]; left; split; [reflexivity|]; intros q u r Hu E;
        destruct (HF _ _ _ Hu E) as (l & Hf & El); inversion Hf; subst; cbn in El; inversion El; subst; lia.
      left. destruct (utf8_enc3 c x y ((c - 0xE0) * 4096 + b1 * 64 + b2) ltac:(lia) ltac:(lia) ltac:(lia) ltac:(lia) ltac:(lia)) as [E R].
      eexists _, _, _. split; [|split; [|split; [|cbn [enc]; rewrite E; reflexivity]]].
      + unfold utf8_inc. bk. reflexivity.
      + cbn [accepted]. unfold code_point. lia.
      + cbn [enc]. rewrite E. reflexivity. }
  assert (HC : 0x80 <= c < 0xC2 \/ 0xF0 <= c < 0x100) by (unfold w32 in *; lia).
  rewrite len_cons. pose proof (len_nonneg mid).
  destruct (Z.ltb_spec (len pre + (1 + len mid)) (len pre + 1 + 3)).
  { right. exists (if 0xF5 - 0xC2 <=? w32 (c - 0xC2) then BL_ERROR_INVALID_STRING else BL_ERROR_DATA_TRUNCATED).
    split; [destruct (0xF5 - 0xC2 <=? _); reflexivity|]. destruct (Z.leb_spec (0xF5 - 0xC2) (w32 (c - 0xC2))) as [Hq|Hq].
    - left; split; [reflexivity|]. intros q u r Hu E. destruct (HF _ _ _ Hu E) as (l & Hf & El).
      assert (0x80 <= c < 0xC2 \/ 0xF5 <= c) by (unfold w32 in Hq; lia).
      inversion Hf; subst; cbn in El; inversion El; subst; lia.
    - right; split; [reflexivity|]. intros u r Hu E. cbn [enc] in E. rewrite <- (app_nil_r (c :: _)) in E.
      destruct (HF _ _ _ Hu E) as (l & Hf & El).
      rewrite app_nil_r in El. inversion Hf; subst; cbn in El; inversion El; subst; try lia. rewrite !len_cons in *. pose proof (len_nonneg r). lia. }
  destruct mid as [|x [|y [|z mid]]]; [rewrite len_nil in *; lia|rewrite !len_cons, len_nil in *; lia|rewrite !len_cons, len_nil in *; lia|].
  inversion Hb1 as [|? ? Hx Hb2]; subst. inversion Hb2 as [|? ? Hy Hb3]; subst. inversion Hb3 as [|? ? Hz Hb4]; subst.
  replace (len pre + 1 + 3 - 3) with (len pre + 1) by lia. rewrite (rd_app pre ((c :: x :: y :: z :: mid) ++ post) 1 x) by (lia || reflexivity). cbn [bind].
  replace (len pre + 1 + 3 - 2) with (len pre + 2) by lia. rewrite (rd_app pre ((c :: x :: y :: z :: mid) ++ post) 2 y) by (lia || reflexivity). cbn [bind].
  replace (len pre + 1 + 3 - 1) with (len pre + 3) by lia. rewrite (rd_app pre ((c :: x :: y :: z :: mid) ++ post) 3 z) by (lia || reflexivity). cbn [bind].
  rewrite !lxor128 by auto. unfold is_byte in Hx, Hy, Hz.
  set (b1 := if x <? 0x80 then x + 128 else x - 128). set (b2 := if y <? 0x80 then y + 128 else y - 128).
  set (b3 := if z <? 0x80 then z + 128 else z - 128).
  assert (HQ4 : 0 <= b1 < 256 /\ (b1 <= 63 -> 0x80 <= x < 0xC0 /\ b1 = x - 0x80) /\ (0x80 <= x < 0xC0 -> b1 <= 63)) by (subst b1; bk).
  assert (HQ5 : 0 <= b2 < 256 /\ (b2 <= 63 -> 0x80 <= y < 0xC0 /\ b2 = y - 0x80) /\ (0x80 <= y < 0xC0 -> b2 <= 63)) by (subst b2; bk).
  assert (HQ6 : 0 <= b3 < 256 /\ (b3 <= 63 -> 0x80 <= z < 0xC0 /\ b3 = z - 0x80) /\ (0x80 <= z < 0xC0 -> b3 <= 63)) by (subst b3; bk).
  clearbody b1 b2 b3. rewrite !Z.shiftl_mul_pow2 by lia. change (2 ^ 18) with 262144. change (2 ^ 12) with 4096. change (2 ^ 6) with 64.
  rewrite lor63; [|apply Z.lor_nonneg; lia|lia]. rewrite lor63 by lia.
  set (uc := w32 (w32 (w32 (w32 (w32 (w32 (c - 194) + 194 - 240) * 262144) + w32 (b1 * 4096)) + w32 (b2 * 64)) + b3)).
  assert (EU : uc = ((c - 240) * 262144 + b1 * 4096 + b2 * 64 + b3) mod 4294967296) by (subst uc; unfold w32; clear - HQ4 HQ5 HQ6 HC; lia).
  clearbody uc.
  assert (EV : (0xF0 <= c -> uc = (c - 240) * 262144 + b1 * 4096 + b2 * 64 + b3) /\ (c < 0xC2 -> 0x10FFFF < uc)) by (clear - EU HQ4 HQ5 HQ6 HC; lia).
  clear EU. destruct (Z.ltb_spec 0x3F b1); [|destruct (Z.ltb_spec 0x3F b2); [|destruct (Z.ltb_spec 0x3F b3);
    [|destruct (Z.ltb_spec uc 0x10000); [|destruct (Z.ltb_spec 0x10FFFF uc)]]]]; cbn [orb].
  1-5: right; eexists; split; [reflexivity|]; left; split; [reflexivity|]; intros q u r Hu E;
        destruct (HF _ _ _ Hu E) as (l & Hf & El); inversion Hf; subst; cbn in El; inversion El; subst; lia.
  left. pose proof (utf8_enc4 c x y z uc ltac:(lia) ltac:(lia) ltac:(lia) ltac:(lia) ltac:(lia) ltac:(lia)) as E.
  eexists _, _, _. split; [|split; [|split; [|cbn [enc]; rewrite E; reflexivity]]].
  - unfold utf8_inc. bk. reflexivity.
  - cbn [accepted]. unfold code_point. lia.
  - cbn [enc]. rewrite E. reflexivity.
Qed.
