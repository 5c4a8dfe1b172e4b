From Verif Require Import Base Bits Algorithm_Model Algorithm_Spec Algorithm_Proofs Unicode_Model Unicode_Spec Unicode_Proofs.

Lemma le16_bytes a b : is_byte a -> is_byte b -> le16 (a + 256 * b) = [a; b].
Proof. unfold is_byte, le16. intros. repeat f_equal; lia. Qed.

Lemma readU16_app pre a b post : readU16 (pre ++ a :: b :: post) (len pre) = Ok (a + 256 * b).
Proof.
  unfold readU16. rewrite (rd_app0 pre (a :: b :: post) a) by reflexivity. cbn [bind].
  rewrite (rd_app pre (a :: b :: post) 1 b) by (lia || reflexivity). reflexivity.
Qed.
Lemma readU16_app2 pre a b c d post : readU16 (pre ++ a :: b :: c :: d :: post) (len pre + 2) = Ok (c + 256 * d).
Proof.
  unfold readU16. rewrite (rd_app pre (a :: b :: c :: d :: post) 2 c) by (lia || reflexivity). cbn [bind].
  replace (len pre + 2 + 1) with (len pre + 3) by lia. rewrite (rd_app pre _ 3 d) by (lia || reflexivity). reflexivity.
Qed.

Inductive utf16_form (u : Z) : list Z -> Prop :=
| V1 : scalar u -> u < 0x10000 -> utf16_form u (le16 u)
| V2 hi lo : 0x10000 <= u < 0x110000 -> 0xD800 <= hi < 0xDC00 -> 0xDC00 <= lo < 0xE000 ->
    u = 0x10000 + (hi - 0xD800) * 1024 + (lo - 0xDC00) -> utf16_form u (le16 hi ++ le16 lo).
Lemma utf16_enc_form u : scalar u -> utf16_form u (utf16_enc u).
Proof.
  intros Hs. unfold utf16_enc. destruct (Z.ltb_spec u 0x10000); [now apply V1|].
  unfold scalar, code_point in Hs. apply V2; lia.
Qed.

Lemma char_from_surrogate_eq hi lo : 0xD800 <= hi < 0xDC00 -> 0xDC00 <= lo < 0xE000 ->
  char_from_surrogate hi lo = 0x10000 + (hi - 0xD800) * 1024 + (lo - 0xDC00).
Proof.
  intros. unfold char_from_surrogate. rewrite !Z.shiftl_mul_pow2 by lia. change (2 ^ 10) with 1024. unfold w32. lia.
Qed.

Lemma le16_inj v a b : 0 <= v < 65536 -> [a; b] = le16 v -> v = a + 256 * b.
Proof. unfold le16. intros Hv E. injection E as -> ->. lia. Qed.

Lemma utf16_next_ok : reader_ok EncUTF16 (fun src => utf16_next src true) 2 utf16_inc.
Proof.
  intros pre mid post Hb Hne Hm.
  destruct mid as [|a [|b mid]]; [congruence|cbv in Hm; discriminate|].
  inversion Hb as [|? ? Ha Hb1]; subst. inversion Hb1 as [|? ? Hb' Hb2]; subst.
  unfold utf16_next. cbn [app]. rewrite readU16_app. cbn [bind].
  unfold is_byte in Ha, Hb'. set (v := a + 256 * b). assert (Hv : 0 <= v < 65536) by (subst v; lia).
  assert (Ev : le16 v = [a; b]) by (apply le16_bytes; assumption).
  assert (HF : forall u r q, scalar u -> (a :: b :: mid) ++ q = utf16_enc u ++ r ->
     (v = u /\ u < 0x10000 /\ scalar u) \/ (0xD800 <= v < 0xDC00 /\ exists lo r', mid ++ q = le16 lo ++ r' /\ 0xDC00 <= lo < 0xE000)).
  { intros u r q Hu E. pose proof (utf16_enc_form u Hu) as Hf. inversion Hf as [Hs Hl E1|hi lo Hr Hh Hl' Eu E1]; rewrite <- E1 in E.
    - left. unfold le16 in E. cbn [app] in E. injection E as E2 E3 _. unfold scalar, code_point in Hs. subst v. split; [lia|]. split; [lia|exact Hu].
    - right. unfold le16 in E at 1. cbn [app] in E. injection E as E2 E3 E4. subst v. split; [lia|]. exists lo, r. split; [exact E4|lia]. }
  assert (Hv' : v <? 0x10000 = true) by (destruct (Z.ltb_spec v 0x10000); [reflexivity|lia]).
  unfold is_surrogate, is_hi_surrogate, is_lo_surrogate.
  assert (OKcase : (v < 0xD800 \/ 0xDFFF < v) ->
     exists u size mid', Ok (NOk v 2 ((if 128 <=? v then 1 else 0) + (if 2048 <=? v then 1 else 0)) 0) = Ok (NOk u size (fst (utf16_inc u)) (snd (utf16_inc u))) /\
     accepted EncUTF16 u /\ size = len (enc EncUTF16 u) /\ a :: b :: mid = enc EncUTF16 u ++ mid').
  { intros Hr. exists v, 2, mid. split; [|split; [|split]].
    - unfold utf16_inc. rewrite Hv'. clear HF. bk; reflexivity.
    - cbn [accepted]. unfold scalar, code_point, surrogate. lia.
    - cbn [enc]. unfold utf16_enc. rewrite Hv'. reflexivity.
    - cbn [enc]. unfold utf16_enc. rewrite Hv', Ev. reflexivity. }
  destruct (Z.leb_spec 0xD800 v); cbn [andb]; [|left; apply OKcase; lia].
  destruct (Z.leb_spec v 0xDFFF); cbn [andb]; [|left; apply OKcase; lia].
  destruct (Z.leb_spec v 0xDBFF); cbn [andb].
  2: { right. eexists; split; [reflexivity|]. left; split; [reflexivity|]. intros q u r Hu E. destruct (HF u r q Hu E) as [(-> & _ & Hs)|(Hr & _)]; [|lia].
       unfold scalar, surrogate in Hs. lia. }
  rewrite !len_cons. destruct (Z.eqb_spec (len pre + 2) (len pre + (1 + (1 + len mid)))) as [E0|E0]; cbn [negb].
  { right. eexists; split; [reflexivity|]. right; split; [reflexivity|]. intros u r Hu E. rewrite <- (app_nil_r (a :: _)) in E. destruct (HF u r [] Hu E) as [(-> & _ & Hs)|(Hr & lo & r' & Em & _)].
    - unfold scalar, surrogate in Hs. lia.
    - rewrite app_nil_r in Em. subst mid. unfold le16 in E0. rewrite len_app, !len_cons in E0. pose proof (len_nonneg r'). pose proof (len_nonneg []). lia. }
  destruct mid as [|c [|d mid]].
  { rewrite len_nil in E0. lia. }
  { cbv in Hm. discriminate. }
  inversion Hb2 as [|? ? Hc Hb3]; subst. inversion Hb3 as [|? ? Hd Hb4]; subst. cbn [app]. rewrite readU16_app2. cbn [bind].
  set (w := c + 256 * d). unfold is_byte in Hc, Hd. assert (Hw : 0 <= w < 65536) by (subst w; lia).
  destruct (Z.leb_spec 0xDC00 w); cbn [andb]; [destruct (Z.leb_spec w 0xDFFF)|].
  - left. rewrite char_from_surrogate_eq by lia. set (u := 0x10000 + (v - 0xD800) * 1024 + (w - 0xDC00)).
    assert (Eu : utf16_enc u = [a; b; c; d]).
    { unfold utf16_enc. destruct (Z.ltb_spec u 0x10000); [subst u; lia|].
      replace (0xD800 + (u - 0x10000) / 1024) with v by (subst u; lia). replace (0xDC00 + (u - 0x10000) mod 1024) with w by (subst u; lia).
      rewrite Ev. subst w. rewrite le16_bytes by assumption. reflexivity. }
    exists u, 4, mid. split; [|split; [|split]].
    + unfold utf16_inc. destruct (Z.ltb_spec u 0x80); [subst u; lia|]. destruct (Z.ltb_spec u 0x800); [subst u; lia|].
      destruct (Z.ltb_spec u 0x10000); [subst u; lia|]. reflexivity.
    + cbn [accepted]. unfold scalar, code_point, surrogate. subst u. lia.
    + cbn [enc]. rewrite Eu. reflexivity.
    + cbn [enc]. rewrite Eu. reflexivity.
  - right. eexists; split; [reflexivity|]. left; split; [reflexivity|]. intros q u r Hu E. destruct (HF u r q Hu E) as [(-> & _ & Hs)|(Hr & lo & r' & Em & Hlo)].
    + unfold scalar, surrogate in Hs. lia.
    + unfold le16 in Em. cbn [app] in Em. injection Em as E1 E2 _. subst w. lia.
  - right. eexists; split; [reflexivity|]. left; split; [reflexivity|]. intros q u r Hu E. destruct (HF u r q Hu E) as [(-> & _ & Hs)|(Hr & lo & r' & Em & Hlo)].
    + unfold scalar, surrogate in Hs. lia.
    + unfold le16 in Em. cbn [app] in Em. injection Em as E1 E2 _. subst w. lia.
Qed.

Lemma utf32_next_ok : reader_ok EncUTF32 (fun src => utf32_next src true) 4 utf32_inc.
Proof.
  intros pre mid post Hb Hne Hm.
  destruct mid as [|a [|b [|c [|d mid]]]]; [congruence|cbv in Hm; discriminate|cbv in Hm; discriminate|cbv in Hm; discriminate|].
  inversion Hb as [|? ? Ha Hb1]; subst. inversion Hb1 as [|? ? Hb' Hb2]; subst.
  inversion Hb2 as [|? ? Hc Hb3]; subst. inversion Hb3 as [|? ? Hd Hb4]; subst.
  unfold utf32_next, readU32. cbn [app]. rewrite (rd_app0 pre _ a) by reflexivity. cbn [bind].
  rewrite (rd_app pre _ 1 b) by (lia || reflexivity). cbn [bind]. rewrite (rd_app pre _ 2 c) by (lia || reflexivity). cbn [bind].
  rewrite (rd_app pre _ 3 d) by (lia || reflexivity). cbn [bind].
  unfold is_byte in *. set (v := a + 256 * b + 65536 * c + 16777216 * d).
  assert (HF : forall u r q, scalar u -> (a :: b :: c :: d :: mid) ++ q = utf32_enc u ++ r -> v = u).
  { intros u r q Hs E. unfold utf32_enc in E. cbn [app] in E. injection E as E1 E2 E3 E4 _. unfold scalar, code_point in Hs. subst v. lia. }
  destruct (Z.ltb_spec 0x10FFFF v).
  { right. eexists; split; [reflexivity|]. left; split; [reflexivity|]. intros q u r Hu E. rewrite (HF u r q Hu E) in *. unfold accepted, scalar, code_point in Hu. lia. }
  cbn [andb]. unfold is_surrogate. destruct (Z.leb_spec 0xD800 v), (Z.leb_spec v 0xDFFF); cbn [andb].
  { right. eexists; split; [reflexivity|]. left; split; [reflexivity|]. intros q u r Hu E. rewrite (HF u r q Hu E) in *. unfold accepted, scalar, surrogate in Hu. lia. }
  all: assert (0 <= v) by (subst v; lia); left; exists v, 4, mid;
    (split; [unfold utf32_inc; clear HF; bk; reflexivity|split; [cbn [accepted]; unfold scalar, code_point, surrogate; lia|split; [reflexivity|]]]);
    cbn [enc app]; unfold utf32_enc; cbn [app]; repeat f_equal; subst v; lia.
Qed.

(* ------------------------------------------------------------------ writers *)

Lemma upd_app (pre : list Z) (x : Z) (r : list Z) (v : Z) : upd (pre ++ x :: r) (length pre) v = pre ++ v :: r.
Proof. induction pre; cbn; [reflexivity|now rewrite IHpre]. Qed.

Lemma store_bytes_app bs : forall pre mid, (length bs <= length mid)%nat ->
  store_bytes (pre ++ mid) (len pre) bs = Ok (pre ++ bs ++ skipn (length bs) mid).
Proof.
  induction bs as [|b bs IH]; intros pre mid H; [reflexivity|].
  destruct mid as [|x mid]; [cbn in H; lia|]. cbn [store_bytes]. unfold wr.
  unfold len. rewrite app_length. cbn [length]. destruct (Z.ltb_spec (Z.of_nat (length pre)) 0); [lia|].
  destruct (Z.leb_spec (Z.of_nat (length pre + S (length mid))) (Z.of_nat (length pre))); [lia|]. cbn [orb bind].
  rewrite Nat2Z.id, upd_app. replace (pre ++ b :: mid) with ((pre ++ [b]) ++ mid) by (rewrite <- app_assoc; reflexivity).
  replace (Z.of_nat (length pre) + 1) with (len (pre ++ [b])) by (unfold len; rewrite app_length; cbn [length]; lia).
  rewrite IH by (cbn [length] in H; lia). cbn [skipn app length]. rewrite <- !app_assoc. reflexivity.
Qed.

Definition writer_ok (e : encoding) (write : list Z -> Z -> Z -> Z -> outcome (Z * list Z * Z)) (wsize : Z) : Prop :=
  forall pre mid post u, code_point u -> len mid mod wsize = 0 ->
  write (pre ++ mid ++ post) (len pre) (len pre + len mid) u =
  if len (enc e u) <=? len mid then
    Ok (BL_SUCCESS, pre ++ enc e u ++ skipn (length (enc e u)) mid ++ post, len pre + len (enc e u))
  else Ok (BL_ERROR_NO_SPACE_LEFT, pre ++ mid ++ post, len pre).

Lemma store_mid bs pre mid post : len bs <= len mid ->
  store_bytes (pre ++ mid ++ post) (len pre) bs = Ok (pre ++ bs ++ skipn (length bs) mid ++ post).
Proof.
  intros H. unfold len in *. rewrite store_bytes_app by (rewrite app_length; lia). rewrite skipn_app.
  replace (length bs - length mid)%nat with 0%nat by lia. reflexivity.
Qed.

Lemma write_checked_ok bs pre mid post :
  write_checked (pre ++ mid ++ post) (len pre) (len pre + len mid) bs =
  if len bs <=? len mid then Ok (BL_SUCCESS, pre ++ bs ++ skipn (length bs) mid ++ post, len pre + len bs)
  else Ok (BL_ERROR_NO_SPACE_LEFT, pre ++ mid ++ post, len pre).
Proof.
  unfold write_checked. change (Z.of_nat (length bs)) with (len bs).
  destruct (Z.ltb_spec (len pre + len mid) (len pre + len bs)), (Z.leb_spec (len bs) (len mid)); try lia; [reflexivity|].
  rewrite store_mid by lia. reflexivity.
Qed.

Lemma land63 x : Z.land x 63 = x mod 64. Proof. exact (land_mask x 6 ltac:(lia)). Qed.
Lemma cont_byte x : w8 (Z.lor 0x80 (Z.land x 63)) = 0x80 + x mod 64.
Proof.
  rewrite land63. change 0x80 with (1 * 2 ^ 7) at 1. rewrite lor_mul_add by (try change (2 ^ 7) with 128; lia). change (2 ^ 7) with 128. unfold w8. lia.
Qed.
Lemma lead_byte k v x : 0 <= k <= 6 -> 0 <= x < 2 ^ k -> 0 <= v -> v * 2 ^ k + x < 256 -> w8 (Z.lor (v * 2 ^ k) x) = v * 2 ^ k + x.
Proof. intros Hk Hx Hv Hl. rewrite lor_mul_add by lia. unfold w8. rewrite Z.mod_small; [reflexivity|]. assert (0 <= v * 2 ^ k) by (apply Z.mul_nonneg_nonneg; lia). lia. Qed.

Lemma bytes2_eq u : 0x80 <= u < 0x800 -> utf8_bytes2 u = utf8_enc u.
Proof.
  intros H. unfold utf8_bytes2, utf8_enc. bk. rewrite cont_byte. rewrite Z.shiftr_div_pow2 by lia. change (2 ^ 6) with 64.
  change 0xC0 with (6 * 2 ^ 5) at 1. rewrite lead_byte by (try change (2 ^ 5) with 32; lia). reflexivity.
Qed.
Lemma bytes3_eq u : 0x800 <= u < 0x10000 -> utf8_bytes3 u = utf8_enc u.
Proof.
  intros H. unfold utf8_bytes3, utf8_enc. bk. rewrite !cont_byte. rewrite !Z.shiftr_div_pow2 by lia. change (2 ^ 6) with 64. change (2 ^ 12) with 4096.
  change 0xE0 with (14 * 2 ^ 4) at 1. rewrite lead_byte by (try change (2 ^ 4) with 16; lia). reflexivity.
Qed.
Lemma bytes4_eq u : 0x10000 <= u < 0x110000 -> utf8_bytes4 u = utf8_enc u.
Proof.
  intros H. unfold utf8_bytes4, utf8_enc. bk. rewrite !cont_byte. rewrite !Z.shiftr_div_pow2 by lia. change (2 ^ 6) with 64. change (2 ^ 12) with 4096. change (2 ^ 18) with 262144.
  change 0xF0 with (30 * 2 ^ 3) at 1. rewrite lead_byte by (try change (2 ^ 3) with 8; lia). reflexivity.
Qed.

Lemma utf8_write_ok : writer_ok EncUTF8 utf8_write 1.
Proof.
  intros pre mid post u Hu _. unfold code_point in Hu. unfold utf8_write. cbn [enc].
  destruct (Z.leb_spec u 0x7F).
  { rewrite utf8_enc1 by lia. change (len [u]) with 1. pose proof (len_nonneg mid).
    destruct (Z.eqb_spec (len pre) (len pre + len mid)), (Z.leb_spec 1 (len mid)); try lia; [reflexivity|].
    replace (w8 u) with u by (unfold w8; lia). rewrite store_mid by (change (len [u]) with 1; lia). reflexivity. }
  destruct (Z.leb_spec u 0x7FF). { rewrite write_checked_ok, bytes2_eq by lia. reflexivity. }
  destruct (Z.leb_spec u 0xFFFF). { rewrite write_checked_ok, bytes3_eq by lia. reflexivity. }
  rewrite write_checked_ok, bytes4_eq by lia. reflexivity.
Qed.

Lemma u16_bytes_eq v : 0 <= v < 65536 -> u16_bytes v = le16 v.
Proof. intros. unfold u16_bytes, le16, w8. rewrite Z.shiftr_div_pow2 by lia. change (2 ^ 8) with 256. rewrite (Z.mod_small (v / 256)) by lia. reflexivity. Qed.
Lemma u32_bytes_eq u : code_point u -> u32_bytes u = utf32_enc u.
Proof.
  unfold code_point. intros. unfold u32_bytes, utf32_enc, w8. rewrite !Z.shiftr_div_pow2 by lia.
  change (2 ^ 8) with 256. change (2 ^ 16) with 65536. change (2 ^ 24) with 16777216. rewrite (Z.mod_small (u / 16777216)) by lia. reflexivity.
Qed.
Lemma hi_lo_eq u : 0x10000 <= u < 0x110000 ->
  hi_surrogate_of u = 0xD800 + (u - 0x10000) / 1024 /\ lo_surrogate_of u = 0xDC00 + (u - 0x10000) mod 1024.
Proof.
  intros H. unfold hi_surrogate_of, lo_surrogate_of. rewrite w32_id by lia. rewrite Z.shiftr_div_pow2 by lia. change (2 ^ 10) with 1024.
  change 0x3FF with (2 ^ 10 - 1). rewrite land_mask by lia. change (2 ^ 10) with 1024. split.
  - change 0xD800 with (54 * 2 ^ 10) at 1. rewrite lor_mul_add by (try change (2 ^ 10) with 1024; lia). reflexivity.
  - change 0xDC00 with (55 * 2 ^ 10) at 1. rewrite lor_mul_add by (try change (2 ^ 10) with 1024; lia). reflexivity.
Qed.

Lemma utf16_write_ok : writer_ok EncUTF16 utf16_write 2.
Proof.
  intros pre mid post u Hu Hm. unfold code_point in Hu. unfold utf16_write. cbn [enc]. unfold utf16_enc. pose proof (len_nonneg mid).
  destruct (Z.leb_spec u 0xFFFF), (Z.ltb_spec u 0x10000); try lia.
  - change (len (le16 u)) with 2.
    destruct (Z.eqb_spec (len pre) (len pre + len mid)), (Z.leb_spec 2 (len mid)); try lia; [reflexivity|].
    rewrite u16_bytes_eq by lia. rewrite store_mid by (change (len (le16 u)) with 2; lia). reflexivity.
  - destruct (hi_lo_eq u ltac:(lia)) as [-> ->]. rewrite !u16_bytes_eq by lia. apply write_checked_ok.
Qed.

Lemma utf32_write_ok : writer_ok EncUTF32 utf32_write 4.
Proof.
  intros pre mid post u Hu Hm. unfold utf32_write. cbn [enc]. pose proof (len_nonneg mid).
  change (len (utf32_enc u)) with 4.
  destruct (Z.eqb_spec (len pre) (len pre + len mid)), (Z.leb_spec 4 (len mid)); try lia; [reflexivity|].
  rewrite u32_bytes_eq by auto. rewrite store_mid by (change (len (utf32_enc u)) with 4; lia). reflexivity.
Qed.
