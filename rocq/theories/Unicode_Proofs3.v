From Verif Require Import Base Bits Algorithm_Model Algorithm_Spec Algorithm_Proofs Unicode_Model Unicode_Spec Unicode_Proofs Unicode_Proofs2.

(* ------------------------------------------------------------------ encodings are uniquely decodable *)
Lemma enc_nonempty e u : enc e u <> [].
Proof. destruct e; cbn; unfold utf8_enc, utf16_enc, le16, utf32_enc; repeat destruct (_ <? _); discriminate. Qed.

Lemma enc_len_pos e u : 0 < len (enc e u).
Proof. pose proof (enc_nonempty e u). destruct (enc e u); [congruence|]. rewrite len_cons. pose proof (len_nonneg l). lia. Qed.

Lemma le16_app_inj a b r s : le16 a ++ r = le16 b ++ s -> a = b /\ r = s.
Proof.
  unfold le16. cbn [app]. intros E. injection E as E1 E2 E3. split; [|exact E3].
  rewrite (Z.div_mod a 256), (Z.div_mod b 256), E1, E2 by lia. reflexivity.
Qed.

Lemma enc_prefix_free e u v a b : accepted e u -> accepted e v -> enc e u ++ a = enc e v ++ b -> u = v.
Proof.
  destruct e; cbn [accepted enc]; intros Hu Hv E.
  - pose proof (utf8_enc_form u Hu) as F1. pose proof (utf8_enc_form v Hv) as F2.
    inversion F1 as [? E1|? ? ? ? ? ? E1|? ? ? ? ? ? ? ? E1|? ? ? ? ? ? ? ? ? ? E1]; rewrite <- E1 in E;
    inversion F2 as [? E2|? ? ? ? ? ? E2|? ? ? ? ? ? ? ? E2|? ? ? ? ? ? ? ? ? ? E2]; rewrite <- E2 in E; cbn [app] in E; inversion E; subst; lia.
  - unfold utf16_enc, scalar, code_point, surrogate in *.
    destruct (Z.ltb_spec u 0x10000), (Z.ltb_spec v 0x10000); rewrite <- ?app_assoc in E; apply le16_app_inj in E; destruct E as [E1 E2].
    + exact E1.
    + exfalso. assert (0 <= (v - 0x10000) / 1024 < 1024) by lia. lia.
    + exfalso. assert (0 <= (u - 0x10000) / 1024 < 1024) by lia. lia.
    + apply le16_app_inj in E2. destruct E2 as [E2 _].
      pose proof (Z.div_mod (u - 0x10000) 1024 ltac:(lia)). pose proof (Z.div_mod (v - 0x10000) 1024 ltac:(lia)). lia.
  - unfold utf32_enc, scalar, code_point in *. cbn [app] in E. injection E as E1 E2 E3 E4 _. clear - E1 E2 E3 E4 Hu Hv.
    assert (Q : forall x, 0 <= x -> x = x mod 256 + 256 * (x / 256 mod 256) + 65536 * (x / 65536 mod 256) + 16777216 * (x / 16777216)) by (clear; intros; lia).
    rewrite (Q u), (Q v), E1, E2, E3, E4 by lia. reflexivity.
  - cbn [app] in E. injection E; auto.
Qed.

Lemma encs_prefix e : forall us vs r, Forall (accepted e) us -> Forall (accepted e) vs -> encs e us = encs e vs ++ r ->
  exists ws, us = vs ++ ws /\ r = encs e ws.
Proof.
  intros us vs; revert us. induction vs as [|v vs IH]; intros us r Hu Hv E.
  - exists us. split; [reflexivity|]. now cbn in E.
  - destruct us as [|u us].
    + cbn in E. pose proof (enc_nonempty e v). destruct (enc e v); [congruence|discriminate].
    + inversion Hu; subst. inversion Hv; subst. cbn [encs flat_map] in E. rewrite <- app_assoc in E.
      pose proof (enc_prefix_free e u v _ _ H1 H3 E) as ->. apply app_inv_head in E.
      destruct (IH us r H2 H4 E) as (ws & -> & ->). exists ws. split; reflexivity.
Qed.

Lemma encs_app e us vs : encs e (us ++ vs) = encs e us ++ encs e vs.
Proof. unfold encs. apply flat_map_app. Qed.
Lemma encs_snoc e us u : encs e (us ++ [u]) = encs e us ++ enc e u.
Proof. rewrite encs_app. cbn. now rewrite app_nil_r. Qed.
Lemma encs_nil e us : encs e us = [] -> us = [].
Proof. destruct us; [auto|]. cbn. pose proof (enc_nonempty e z). destruct (enc e z); [congruence|discriminate]. Qed.

(* an accepted text is in the charset unless it contains a UTF-8 encoded surrogate *)
Lemma accepted_cp e u : accepted e u -> code_point u.
Proof. destruct e; cbn [accepted]; unfold scalar, code_point; lia. Qed.

Lemma enc_len_mod e u : (match e with EncUTF8 => True | EncUTF16 => len (enc e u) mod 2 = 0 | EncUTF32 => len (enc e u) mod 4 = 0 | _ => True end).
Proof. destruct e; cbn; auto. unfold utf16_enc. destruct (_ <? _); reflexivity. Qed.
Lemma enc_len_csize e u : len (enc e u) mod char_size e = 0.
Proof. pose proof (enc_len_mod e u). destruct e; cbn [char_size] in *; auto. apply Z.mod_1_r. Qed.
Lemma encs_len_csize e us : len (encs e us) mod char_size e = 0.
Proof.
  induction us as [|u us IH]; [destruct e; reflexivity|]. cbn [encs flat_map]. rewrite len_app. pose proof (enc_len_csize e u). fold (encs e us).
  destruct e; cbn [char_size] in *; lia.
Qed.

Lemma skipn_len (a b : list Z) : skipn (length a) (a ++ b) = b.
Proof. rewrite skipn_app, skipn_all, Nat.sub_diag. reflexivity. Qed.
Lemma firstn_len (a b : list Z) : firstn (length a) (a ++ b) = a.
Proof. rewrite firstn_app, firstn_all, Nat.sub_diag. cbn. apply app_nil_r. Qed.
Lemma skipn_add (l : list Z) n m : skipn m (skipn n l) = skipn (n + m) l.
Proof. revert l; induction n; intros l; [reflexivity|]. destruct l; [cbn; apply skipn_nil|]. cbn. apply IHn. Qed.
Lemma bytes_app a b : bytes (a ++ b) <-> bytes a /\ bytes b.
Proof. apply Forall_app. Qed.

(* ------------------------------------------------------------------ the validation loop *)
Fixpoint sum_inc (inc : Z -> Z * Z) (us : list Z) : Z * Z :=
  match us with [] => (0, 0) | u :: r => (fst (inc u) + fst (sum_inc inc r), snd (inc u) + snd (sum_inc inc r)) end.

Definition bad (e : encoding) (c : Z) (rest : list Z) : Prop :=
  rest <> [] /\ ((c = BL_ERROR_INVALID_STRING /\ forall x, stuck e (rest ++ x)) \/ (c = BL_ERROR_DATA_TRUNCATED /\ stuck e rest)).

Lemma validate_ok e next csize inc : reader_ok e next csize inc -> csize = char_size e ->
  forall fuel pre mid post n1 n2, bytes mid -> len mid mod csize = 0 -> (length mid <= fuel)%nat ->
  exists us rest c, mid = encs e us ++ rest /\ Forall (accepted e) us /\
    validate (next (pre ++ mid ++ post)) fuel (len pre) (len pre + len mid) n1 n2 =
      Ok (c, len pre + len (encs e us), n1 + fst (sum_inc inc us), n2 + snd (sum_inc inc us)) /\
    ((c = BL_SUCCESS /\ rest = []) \/
     bad e c rest).
Proof.
  intros Hr Hcs. induction fuel as [|fuel IH]; intros pre mid post n1 n2 Hb Hm Hf.
  - destruct mid; [|cbn in Hf; lia]. exists [], [], BL_SUCCESS. cbn [validate]. rewrite len_nil, Z.add_0_r, Z.eqb_refl.
    cbn [encs flat_map sum_inc fst snd]. rewrite len_nil, !Z.add_0_r. repeat split; auto.
  - destruct mid as [|x mid].
    + exists [], [], BL_SUCCESS. cbn [validate]. rewrite len_nil, Z.add_0_r, Z.eqb_refl.
      cbn [encs flat_map sum_inc fst snd]. rewrite len_nil, !Z.add_0_r. repeat split; auto.
    + cbn [validate]. destruct (Z.eqb_spec (len pre) (len pre + len (x :: mid))).
      { rewrite len_cons in *. pose proof (len_nonneg mid). lia. }
      destruct (Hr pre (x :: mid) post Hb ltac:(discriminate) Hm) as [(u & size & mid' & E & Ha & Hs & Em)|(c & E & Hc)]; rewrite E; cbn [bind].
      * rewrite Em in Hb, Hm, Hf |- *. apply bytes_app in Hb. destruct Hb as [_ Hb']. pose proof (enc_len_csize e u) as Hz. rewrite <- Hcs in Hz.
        rewrite len_app in Hm. rewrite app_length in Hf. pose proof (enc_len_pos e u) as Hp.
        destruct (IH (pre ++ enc e u) mid' post (n1 + fst (inc u)) (n2 + snd (inc u)) Hb') as (us & rest & c & Hrest & Hus & Hval & Hc).
        { rewrite Z.add_mod in Hm by (subst csize; destruct e; discriminate). rewrite Hz, Z.add_0_l, Zmod_mod in Hm. exact Hm. }
        { unfold len in Hp. lia. }
        exists (u :: us), rest, c. split; [cbn [encs flat_map]; rewrite <- app_assoc; f_equal; exact Hrest|]. split; [now constructor|]. split; [|exact Hc].
        rewrite len_app, <- !app_assoc in Hval. rewrite len_app, <- !app_assoc. rewrite Hs. rewrite Z.add_assoc.
        rewrite Hval. cbn [sum_inc encs flat_map fst snd]. fold (encs e us). rewrite len_app. f_equal. f_equal; [f_equal; [f_equal|]|]; lia.
      * exists [], (x :: mid), c. split; [reflexivity|]. split; [constructor|]. split.
        -- cbn [encs flat_map sum_inc fst snd]. rewrite len_nil, !Z.add_0_r. reflexivity.
        -- right. split; [discriminate|exact Hc].
Qed.

(* ------------------------------------------------------------------ the conversion loop *)
Lemma convert_loop_ok se next csize inc de write wsize :
  reader_ok se next csize inc -> csize = char_size se -> writer_ok de write wsize -> wsize = char_size de ->
  forall fuel spre smid spost dpre dmid dpost, bytes smid -> len smid mod csize = 0 -> len spre mod csize = 0 -> len dmid mod wsize = 0 ->
  (length smid <= fuel)%nat ->
  exists us rest r, smid = encs se us ++ rest /\ Forall (accepted se) us /\
    convert_loop write (next (spre ++ smid ++ spost)) csize fuel (dpre ++ dmid ++ dpost) (len dpre) (len dpre + len dmid) (len spre) (len spre + len smid) = Ok r /\
    c_src_index r = len spre + len (encs se us) /\ c_dst_index r = len dpre + len (encs de us) /\ len (encs de us) <= len dmid /\
    c_dst r = dpre ++ encs de us ++ skipn (length (encs de us)) dmid ++ dpost /\
    ((c_result r = BL_SUCCESS /\ rest = []) \/
     bad se (c_result r) rest \/
     (c_result r = BL_ERROR_NO_SPACE_LEFT /\ exists u rest', accepted se u /\ rest = enc se u ++ rest' /\ len dmid < len (encs de us) + len (enc de u))).
Proof.
  intros Hr Hcs Hw Hws. assert (Hcp : 0 < csize) by (subst csize; destruct se; reflexivity). assert (Hwp : 0 < wsize) by (subst wsize; destruct de; reflexivity).
  assert (Hnil : forall fuel spre spost dpre dmid dpost, len spre mod csize = 0 ->
    convert_loop write (next (spre ++ [] ++ spost)) csize fuel (dpre ++ dmid ++ dpost) (len dpre) (len dpre + len dmid) (len spre) (len spre + len []) =
      Ok {| c_result := BL_SUCCESS; c_dst := dpre ++ dmid ++ dpost; c_dst_index := len dpre; c_src_index := len spre |}).
  { intros fuel spre spost dpre dmid dpost Hsp. rewrite len_nil, Z.add_0_r. destruct fuel; cbn [convert_loop]; rewrite Z.eqb_refl, Hsp, Bool.andb_false_r; reflexivity. }
  induction fuel as [|fuel IH]; intros spre smid spost dpre dmid dpost Hb Hm Hsp Hdm Hf.
  - destruct smid; [|cbn in Hf; lia]. exists [], [], {| c_result := BL_SUCCESS; c_dst := dpre ++ dmid ++ dpost; c_dst_index := len dpre; c_src_index := len spre |}.
    rewrite Hnil by auto. cbn [encs flat_map c_result c_dst c_dst_index c_src_index length skipn app]. rewrite len_nil, !Z.add_0_r. repeat split; auto. apply len_nonneg.
  - destruct smid as [|x smid].
    + exists [], [], {| c_result := BL_SUCCESS; c_dst := dpre ++ dmid ++ dpost; c_dst_index := len dpre; c_src_index := len spre |}.
      rewrite Hnil by auto. cbn [encs flat_map c_result c_dst c_dst_index c_src_index length skipn app]. rewrite len_nil, !Z.add_0_r. repeat split; auto. apply len_nonneg.
    + cbn [convert_loop]. destruct (Z.eqb_spec (len spre) (len spre + len (x :: smid))).
      { rewrite len_cons in *. pose proof (len_nonneg smid). lia. }
      destruct (Hr spre (x :: smid) spost Hb ltac:(discriminate) Hm) as [(u & size & mid' & E & Ha & Hs & Em)|(c & E & Hc)]; rewrite E; cbn [bind].
      * rewrite (Hw dpre dmid dpost u (accepted_cp _ _ Ha) Hdm). rewrite Em in Hb, Hm, Hf |- *. pose proof (enc_len_csize se u) as Hz. rewrite <- Hcs in Hz.
        pose proof (enc_len_csize de u) as Hzd. rewrite <- Hws in Hzd.
        rewrite len_app in Hm. rewrite app_length in Hf. pose proof (enc_len_pos se u) as Hp. apply bytes_app in Hb. destruct Hb as [_ Hb'].
        destruct (Z.leb_spec (len (enc de u)) (len dmid)) as [Hle|Hle]; cbn [bind].
        -- change (negb (BL_SUCCESS =? BL_SUCCESS)) with false. cbv iota. set (dmid' := skipn (length (enc de u)) dmid).
           assert (Hdl : len dmid' = len dmid - len (enc de u)) by (subst dmid'; unfold len in *; rewrite skipn_length; lia).
           destruct (IH (spre ++ enc se u) mid' spost (dpre ++ enc de u) dmid' dpost Hb') as (us & rest & r & Hrest & Hus & Hval & Hsi & Hdi & Hfit & Hd & Hc).
           { rewrite Z.add_mod in Hm by lia. rewrite Hz, Z.add_0_l, Zmod_mod in Hm. exact Hm. }
           { rewrite len_app, Z.add_mod, Hz, Hsp by lia. apply Zmod_0_l. }
           { rewrite Hdl. rewrite Zminus_mod, Hdm, Hzd. apply Zmod_0_l. }
           { unfold len in Hp. lia. }
           exists (u :: us), rest, r. split; [cbn [encs flat_map]; rewrite <- app_assoc; f_equal; exact Hrest|]. split; [now constructor|].
           rewrite !len_app, <- !app_assoc in Hval. rewrite len_app, <- !app_assoc, Hs.
           replace (len dpre + len (enc de u) + len dmid') with (len dpre + len dmid) in Hval by lia. rewrite Z.add_assoc.
           split; [exact Hval|]. cbn [encs flat_map]. fold (encs se us) (encs de us). rewrite !len_app in *.
           split; [lia|]. split; [lia|]. split; [lia|]. split.
           { rewrite Hd, <- !app_assoc. unfold dmid'. rewrite app_length, skipn_add. reflexivity. }
           destruct Hc as [Hc|[Hc|(Hc & v & rest' & Hv & Er & Hl)]]; [left; exact Hc|right; left; exact Hc|].
           right; right. split; [exact Hc|]. exists v, rest'. split; [exact Hv|]. split; [exact Er|]. lia.
        -- change (negb (BL_ERROR_NO_SPACE_LEFT =? BL_SUCCESS)) with true. cbv iota.
           exists [], (enc se u ++ mid'), {| c_result := BL_ERROR_NO_SPACE_LEFT; c_dst := dpre ++ dmid ++ dpost; c_dst_index := len dpre; c_src_index := len spre + size - size |}.
           cbn [encs flat_map c_result c_dst c_dst_index c_src_index length skipn app]. rewrite len_nil. pose proof (len_nonneg dmid).
           repeat split; auto; try lia. right; right. split; [reflexivity|]. exists u, mid'. repeat split; auto; lia.
      * exists [], (x :: smid). rewrite Hsp. change (negb (0 =? 0)) with false. rewrite Bool.andb_false_r. eexists.
        split; [reflexivity|]. split; [constructor|]. split; [reflexivity|]. cbn [encs flat_map c_result c_dst c_dst_index c_src_index length skipn app]. rewrite len_nil.
        pose proof (len_nonneg dmid). repeat split; auto; try lia. right; left. split; [discriminate|exact Hc].
Qed.
