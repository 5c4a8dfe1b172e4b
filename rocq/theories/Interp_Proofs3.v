(* The table: every entry is written and shows the stops. *)
From Verif Require Import Base Bits Algorithm_Model PixelOps_Model PixelOps_Spec PixelOps_Proofs Interp_Model Interp_Spec Interp_Proofs Interp_Proofs2.
Ltac Zify.zify_post_hook ::= idtac.

Definition get (t : list Z) (k : Z) : Z := nth (Z.to_nat k) t 0.
Lemma upd_len (l : list Z) : forall n x, length (upd l n x) = length l.
Proof. induction l as [|a l IH]; intros [|n] x; cbn [upd length]; auto. Qed.
Lemma upd_nth (l : list Z) : forall n x k, (n < length l)%nat -> nth k (upd l n x) 0 = if (k =? n)%nat then x else nth k l 0.
Proof.
  induction l as [|a l IH]; intros n x k H; [cbn [length] in H; lia|]. destruct n as [|n], k as [|k]; cbn [upd nth Nat.eqb]; auto. apply IH. cbn [length] in H. lia.
Qed.
Lemma wr_ok (t : list Z) i x : 0 <= i < Z.of_nat (length t) -> exists t', wr t i x = Ok t' /\ length t' = length t /\ forall k, 0 <= k -> get t' k = if k =? i then x else get t k.
Proof.
  intros H. unfold wr. replace ((i <? 0) || (Z.of_nat (length t) <=? i)) with false by lia. eexists. split; [reflexivity|]. split; [apply upd_len|].
  intros k Hk. unfold get. rewrite upd_nth by lia. destruct (Nat.eqb_spec (Z.to_nat k) (Z.to_nat i)), (Z.eqb_spec k i); auto; lia.
Qed.
Lemma put_ok vals : forall t at_, 0 <= at_ -> at_ + Z.of_nat (length vals) <= Z.of_nat (length t) ->
  exists t', put t at_ vals = Ok t' /\ length t' = length t /\
  forall k, 0 <= k -> get t' k = if (at_ <=? k) && (k <? at_ + Z.of_nat (length vals)) then nth (Z.to_nat (k - at_)) vals 0 else get t k.
Proof.
  induction vals as [|v r IH]; intros t at_ H0 H; cbn [put length] in *.
  - exists t. split; [reflexivity|]. split; [reflexivity|]. intros k Hk. replace ((at_ <=? k) && (k <? at_ + Z.of_nat 0)) with false by lia. reflexivity.
  - destruct (wr_ok t at_ v ltac:(lia)) as (t1 & E1 & L1 & G1). rewrite E1. cbn [bind].
    destruct (IH t1 (at_ + 1) ltac:(lia) ltac:(lia)) as (t2 & E2 & L2 & G2). exists t2. split; [exact E2|]. split; [lia|].
    intros k Hk. rewrite G2, G1 by assumption. destruct (Z.eqb_spec k at_) as [->|N].
    + replace ((at_ + 1 <=? at_) && (at_ <? at_ + 1 + Z.of_nat (length r))) with false by lia. replace ((at_ <=? at_) && (at_ <? at_ + Z.of_nat (S (length r)))) with true by lia.
      rewrite Z.sub_diag. reflexivity.
    + destruct (Z.leb_spec at_ k).
      * replace (at_ + 1 <=? k) with true by lia. replace (at_ + 1 + Z.of_nat (length r)) with (at_ + Z.of_nat (S (length r))) by lia.
        replace (Z.to_nat (k - at_)) with (S (Z.to_nat (k - (at_ + 1)))) by lia. reflexivity.
      * replace (at_ + 1 <=? k) with false by lia. reflexivity.
Qed.

Lemma nth_repeat' (v : Z) n : forall k, (k < n)%nat -> nth k (repeat v n) 0 = v.
Proof. induction n; intros [|k] H; cbn [repeat nth]; try lia; auto. apply IHn. lia. Qed.

Lemma between_same w c m n : 0 <= w <= 30 -> 0 <= m -> 0 <= n -> between w c c m n (stop_pixel w c).
Proof. intros Hw Hm Hn. unfold between. do 4 eexists. split; [reflexivity|]. split; [apply near_same; lia|]. split; [apply near_same; lia|]. split; apply near_same; lia. Qed.

Section Table.
  Context (w N : Z) (Hw : 0 <= w <= 30) (HN : N <= 2 ^ 22).
  Context (conv premul : Z -> Z) (span : Z -> Z -> Z -> list Z) (col : Z -> Prop).
  Context (Hpre : forall c, col c -> premul c = stop_pixel w c).
  Context (Hspan : forall c0 c1 n, col c0 -> col c1 -> 1 <= n <= N -> span_ok w c0 c1 n (span c0 c1 n)).

  Lemma paint_ok t at_ i c0 c1 : 0 <= at_ -> 1 <= i <= N + 1 -> at_ + i <= Z.of_nat (length t) -> col c0 -> col c1 ->
    exists t', paint premul span t at_ i c0 c1 = Ok (t', at_ + i) /\ length t' = length t /\
    (forall k, 0 <= k -> k < at_ \/ at_ + i <= k -> get t' k = get t k) /\
    get t' at_ = stop_pixel w c0 /\ (1 < i -> get t' (at_ + i - 1) = stop_pixel w c1) /\
    (forall k, at_ < k < at_ + i - 1 -> between w c0 c1 (k - at_) (i - 1) (get t' k)) /\
    (c0 = c1 -> forall k, at_ <= k < at_ + i -> get t' k = stop_pixel w c1).
  Proof.
    intros H0 Hi H C0 C1. unfold paint. replace (i <=? 0) with false by lia. rewrite (Hpre c0 C0). destruct (Z.eqb_spec c0 c1) as [E|E].
    - subst c1. destruct (put_ok (repeat (stop_pixel w c0) (Z.to_nat i)) t at_ H0 ltac:(rewrite repeat_length; lia)) as (t' & E & L & G). rewrite E. cbn [bind]. rewrite repeat_length in G.
      assert (S : forall k, at_ <= k < at_ + i -> get t' k = stop_pixel w c0).
      { intros k Hk. rewrite G by lia. replace ((at_ <=? k) && (k <? at_ + Z.of_nat (Z.to_nat i))) with true by lia. apply nth_repeat'. lia. }
      exists t'. split; [reflexivity|]. split; [exact L|]. split; [|split; [apply S; lia|split; [intros; apply S; lia|split]]].
      + intros k Hk O. rewrite G by lia. replace ((at_ <=? k) && (k <? at_ + Z.of_nat (Z.to_nat i))) with false by lia. reflexivity.
      + intros k Hk. rewrite S by lia. apply between_same; lia.
      + intros _. exact S.
    - destruct (wr_ok t at_ (stop_pixel w c0) ltac:(lia)) as (t1 & E1 & L1 & G1). rewrite E1. cbn [bind]. destruct (Z.eqb_spec (i - 1) 0) as [I|I].
      + exists t1. replace (at_ + i) with (at_ + 1) by lia. split; [reflexivity|]. split; [exact L1|]. split; [|split; [|split; [lia|split; [lia|congruence]]]].
        * intros k Hk O. rewrite G1 by lia. replace (k =? at_) with false by lia. reflexivity.
        * rewrite G1, Z.eqb_refl by lia. reflexivity.
      + destruct (Hspan c0 c1 (i - 1) C0 C1 ltac:(lia)) as (SL & SB & SE).
        destruct (put_ok (span c0 c1 (i - 1)) t1 (at_ + 1) ltac:(lia) ltac:(lia)) as (t2 & E2 & L2 & G2). rewrite E2. cbn [bind]. rewrite SL in G2.
        exists t2. split; [reflexivity|]. split; [lia|]. split; [|split; [|split; [|split; [|congruence]]]].
        * intros k Hk O. rewrite G2 by lia. replace ((at_ + 1 <=? k) && (k <? at_ + 1 + Z.of_nat (Z.to_nat (i - 1)))) with false by lia. rewrite G1 by lia. replace (k =? at_) with false by lia. reflexivity.
        * rewrite G2 by lia. replace (at_ + 1 <=? at_) with false by lia. cbn [andb]. rewrite G1, Z.eqb_refl by lia. reflexivity.
        * intros _. rewrite G2 by lia. replace ((at_ + 1 <=? at_ + i - 1) && (at_ + i - 1 <? at_ + 1 + Z.of_nat (Z.to_nat (i - 1)))) with true by lia.
          replace (at_ + i - 1 - (at_ + 1)) with (i - 1 - 1) by lia. exact SE.
        * intros k Hk. rewrite G2 by lia. replace ((at_ + 1 <=? k) && (k <? at_ + 1 + Z.of_nat (Z.to_nat (i - 1)))) with true by lia.
          replace (k - (at_ + 1)) with (k - at_ - 1) by lia. apply SB. lia.
  Qed.

  Lemma shows_app pre p0 c0 s k v : 0 <= k < p0 / 256 -> p0 <= fst s -> shows w (pre ++ [(p0, c0)]) k v -> shows w ((pre ++ [(p0, c0)]) ++ [s]) k v.
  Proof.
    intros Hk Hs (l & p & c & r & E & Hp & Hr & M). exists l, p, c, (r ++ [s]). split; [rewrite E, <- app_assoc; reflexivity|]. split; [exact Hp|].
    assert (Hq : p0 / 256 <= fst s / 256) by (apply Z.div_le_mono; lia). split; [apply Forall_app; split; [exact Hr|constructor; [lia|constructor]]|].
    destruct r as [|[q c'] r]; [|exact M]. apply app_inj_tail in E. destruct E as [_ E]. inversion E; subst. lia.
  Qed.

  (* one stop *)
  Lemma step_ok t pre p0 c0 p1 c1 : 0 <= p0 <= p1 -> p1 / 256 < Z.of_nat (length t) -> Z.of_nat (length t) <= N + 1 -> col c0 -> col c1 ->
    (forall k, 0 <= k < p0 / 256 -> shows w (pre ++ [(p0, c0)]) k (get t k)) ->
    let i := w32 (Z.shiftr p1 8 - Z.shiftr p0 8) in
    exists t', paint premul span t (Z.shiftr p0 8) (w32 (i + 1)) (if i =? 0 then c1 else c0) c1 = Ok (t', p1 / 256 + 1) /\ length t' = length t /\
    forall k, 0 <= k < p1 / 256 + 1 -> shows w ((pre ++ [(p0, c0)]) ++ [(p1, c1)]) k (get t' k).
  Proof.
    intros Hp Hl Hln C0 C1 Inv i. unfold i. rewrite !Z.shiftr_div_pow2 by lia. change (2 ^ 8) with 256.
    assert (Q : 0 <= p0 / 256 <= p1 / 256) by (split; [apply Z.div_pos; lia|apply Z.div_le_mono; lia]). change (2 ^ 22) with 4194304 in HN.
    pose proof (fun k v H => shows_app pre p0 c0 (p1, c1) k v H (proj2 Hp)) as SA.
    assert (Sn : forall k v, k = p1 / 256 -> v = stop_pixel w c1 -> shows w ((pre ++ [(p0, c0)]) ++ [(p1, c1)]) k v).
    { intros k v -> ->. exists (pre ++ [(p0, c0)]), p1, c1, []. split; [reflexivity|]. split; [lia|]. split; [constructor|reflexivity]. }
    assert (Sm : forall k v, p0 / 256 <= k < p1 / 256 -> (if p0 / 256 =? k then v = stop_pixel w c0 else between w c0 c1 (k - p0 / 256) (p1 / 256 - p0 / 256) v) -> shows w ((pre ++ [(p0, c0)]) ++ [(p1, c1)]) k v).
    { intros k v Hk M. exists pre, p0, c0, [(p1, c1)]. split; [rewrite <- app_assoc; reflexivity|]. split; [lia|]. split; [constructor; [cbn [fst]; lia|constructor]|exact M]. }
    generalize dependent (p0 / 256). generalize dependent (p1 / 256). intros q1 Hl Sn q0 Inv Q SA Sm.
    rewrite (w32_small' (q1 - q0)) by lia. rewrite w32_small' by lia.
    destruct (paint_ok t q0 (q1 - q0 + 1) (if q1 - q0 =? 0 then c1 else c0) c1 ltac:(lia) ltac:(lia) ltac:(lia) ltac:(destruct (q1 - q0 =? 0); assumption) C1) as (t' & E & L & A1 & A2 & A3 & A4 & A5).
    replace (q0 + (q1 - q0 + 1)) with (q1 + 1) in E by lia. exists t'. split; [exact E|]. split; [exact L|]. intros k Hk.
    destruct (Z.lt_trichotomy k q0) as [K|[K|K]].
    - rewrite A1 by lia. apply SA; [lia|]. apply Inv. lia.
    - subst k. destruct (Z.eqb_spec (q1 - q0) 0) as [Z0|Z0]; [apply Sn; [lia|exact A2]|]. apply Sm; [lia|]. rewrite Z.eqb_refl. exact A2.
    - replace (q1 - q0 =? 0) with false in * by lia. destruct (Z.eq_dec k q1) as [->|K1].
      + apply Sn; [reflexivity|]. replace q1 with (q0 + (q1 - q0 + 1) - 1) at 1 by lia. apply A3. lia.
      + apply Sm; [lia|]. replace (q0 =? k) with false by lia. replace (q1 - q0) with (q1 - q0 + 1 - 1) by lia. apply A4. lia.
  Qed.

  Definition conv2 (s : Z * Z) : Z * Z := (fst s, conv (snd s)).
  Lemma loop_ok last stops : forall t pre p0 c0 at_, 0 <= p0 <= last -> at_ = p0 / 256 + 1 -> last / 256 < Z.of_nat (length t) -> Z.of_nat (length t) <= N + 1 ->
    ordered p0 last stops -> col c0 -> Forall (fun s => col (conv (snd s))) stops ->
    (forall k, 0 <= k < at_ -> shows w (pre ++ [(p0, c0)]) k (get t k)) ->
    exists t' p' c' pre', stops_loop conv premul span t at_ c0 p0 stops = Ok (t', p' / 256 + 1, c') /\ length t' = length t /\ 0 <= p' <= last /\ col c' /\
    pre ++ (p0, c0) :: map conv2 stops = pre' ++ [(p', c')] /\
    (forall k, 0 <= k < p' / 256 + 1 -> shows w (pre ++ (p0, c0) :: map conv2 stops) k (get t' k)).
  Proof.
    induction stops as [|[p1 rgba] r IH]; intros t pre p0 c0 at_ Hp Ha Hl Hn O C0 F Inv; cbn [stops_loop map].
    - exists t, p0, c0, pre. subst at_. repeat (split; [reflexivity || assumption || lia|]). exact Inv.
    - destruct O as [Hp1 O]. inversion F as [|? ? C1 F']; subst. cbn [snd] in C1.
      assert (Q1 : p1 / 256 <= last / 256) by (apply Z.div_le_mono; lia).
      destruct (step_ok t pre p0 c0 p1 (conv rgba) ltac:(lia) ltac:(lia) Hn C0 C1 ltac:(intros; apply Inv; lia)) as (t1 & E1 & L1 & S1). cbv zeta in E1. rewrite E1. cbn [bind].
      destruct (IH t1 (pre ++ [(p0, c0)]) p1 (conv rgba) (p1 / 256 + 1)) as (t' & p' & c' & pre' & E' & L' & P' & C' & D' & S'); [lia|reflexivity|lia|lia|exact O|exact C1|exact F'|exact S1|].
      exists t', p', c', pre'. split; [exact E'|]. split; [lia|]. split; [exact P'|]. split; [exact C'|]. rewrite <- app_assoc in D', S'. split; [exact D'|exact S'].
  Qed.

  (* the rest behind the last stop *)
  Lemma finish t1 at_ c d pre p first : Z.of_nat (length t1) = d -> 1 <= d <= N + 1 -> 1 <= at_ <= d -> col c -> col first -> p / 256 < at_ ->
    (forall k, 0 < k < at_ -> shows w (pre ++ [(p, c)]) k (get t1 k)) ->
    exists t', (let* t := if w32 (d - at_) =? 0 then Ok t1 else let* (t, _) := paint premul span t1 at_ (w32 (d - at_)) c c in Ok t in wr t 0 (premul first)) = Ok t' /\
    Z.of_nat (length t') = d /\ get t' 0 = stop_pixel w first /\ forall k, 0 < k < d -> shows w (pre ++ [(p, c)]) k (get t' k).
  Proof.
    intros L D A C Cf P S. change (2 ^ 22) with 4194304 in HN. rewrite w32_small' by lia. rewrite (Hpre first Cf).
    assert (X : exists t2, (if d - at_ =? 0 then Ok t1 else let* (t, _) := paint premul span t1 at_ (d - at_) c c in Ok t) = Ok t2 /\ Z.of_nat (length t2) = d /\ forall k, 0 < k < d -> shows w (pre ++ [(p, c)]) k (get t2 k)).
    { destruct (Z.eqb_spec (d - at_) 0).
      - exists t1. split; [reflexivity|]. split; [exact L|]. intros k Hk. apply S. lia.
      - destruct (paint_ok t1 at_ (d - at_) c c ltac:(lia) ltac:(lia) ltac:(lia) C C) as (t2 & E & L2 & A1 & _ & _ & _ & A5). rewrite E. cbn [bind]. exists t2. split; [reflexivity|]. split; [lia|].
        intros k Hk. destruct (Z.lt_ge_cases k at_); [rewrite A1 by lia; apply S; lia|]. rewrite A5 by (reflexivity || lia).
        exists pre, p, c, []. split; [reflexivity|]. split; [lia|]. split; [constructor|reflexivity]. }
    destruct X as (t2 & E & L2 & S2). rewrite E. cbn [bind]. destruct (wr_ok t2 0 (stop_pixel w first) ltac:(lia)) as (t3 & E3 & L3 & G3). exists t3. split; [exact E3|]. split; [lia|].
    split; [rewrite G3 by lia; reflexivity|]. intros k Hk. rewrite G3 by lia. replace (k =? 0) with false by lia. apply S2. exact Hk.
  Qed.

  Lemma table_ok t stops : stops <> [] -> 1 <= Z.of_nat (length t) <= N + 1 -> ordered 0 ((Z.of_nat (length t) - 1) * 256) stops -> Forall (fun s => col (conv (snd s))) stops ->
    let first := conv (snd (hd (0, 0) stops)) in
    exists t', interpolate conv premul span t (Z.of_nat (length t)) stops = Ok t' /\ length t' = length t /\ get t' 0 = stop_pixel w first /\
    forall k, 0 < k < Z.of_nat (length t) -> shows w ((0, first) :: map conv2 stops) k (get t' k).
  Proof.
    intros NE Hl O F first. destruct stops as [|[p1 rgba] r]; [congruence|]. cbn [hd snd] in first. inversion F as [|? ? C1 F']; subst. cbn [snd] in C1. fold first in C1. unfold interpolate. fold first.
    destruct O as [Hp1 O']. assert (Dl : (Z.of_nat (length t) - 1) * 256 / 256 = Z.of_nat (length t) - 1) by (apply Z.div_mul; lia).
    assert (Q1 : 0 <= p1 / 256 <= Z.of_nat (length t) - 1) by (split; [apply Z.div_pos; lia|rewrite <- Dl; apply Z.div_le_mono; lia]).
    destruct (Z.eqb_spec (Z.of_nat (length ((p1, rgba) :: r))) 1) as [One|Many].
    - destruct r as [|s r]; [|cbn [length] in One; lia].
      destruct (put_ok (repeat (premul first) (Z.to_nat (Z.of_nat (length t)))) t 0 ltac:(lia) ltac:(rewrite repeat_length; lia)) as (t1 & E1 & L1 & G1). rewrite E1. cbn [bind]. rewrite repeat_length in G1.
      destruct (finish t1 (Z.of_nat (length t)) first (Z.of_nat (length t)) [(0, first)] p1 first ltac:(lia) Hl ltac:(lia) C1 C1 ltac:(lia)) as (t' & E' & L' & G' & S').
      + intros k Hk. rewrite G1 by lia. replace ((0 <=? k) && (k <? 0 + Z.of_nat (Z.to_nat (Z.of_nat (length t))))) with true by lia. rewrite nth_repeat' by lia. rewrite (Hpre first C1).
        destruct (Z.le_gt_cases (p1 / 256) k).
        * exists [(0, first)], p1, first, []. split; [reflexivity|]. split; [lia|]. split; [constructor|reflexivity].
        * exists [], 0, first, [(p1, first)]. split; [reflexivity|]. change (0 / 256) with 0. split; [lia|]. split; [constructor; [cbn [fst]; lia|constructor]|]. replace (0 =? k) with false by lia. apply between_same; lia.
      + exists t'. split; [exact E'|]. split; [lia|]. split; [exact G'|]. exact S'.
    - cbn [stops_loop]. fold first. assert (Hl2 : p1 / 256 < Z.of_nat (length t)) by lia.
      destruct (step_ok t [] 0 first p1 first ltac:(lia) Hl2 ltac:(lia) C1 C1) as (t1 & E1 & L1 & S1); [change (0 / 256) with 0; intros; lia|]. cbv zeta in E1. rewrite E1. cbn [bind].
      destruct (loop_ok ((Z.of_nat (length t) - 1) * 256) r t1 [(0, first)] p1 first (p1 / 256 + 1)) as (t2 & p' & c' & pre' & E2 & L2 & P2 & C2 & D2 & S2); [lia|reflexivity|lia|lia|exact O'|exact C1|exact F'|exact S1|].
      rewrite E2. cbn [bind]. assert (Q2 : 0 <= p' / 256 <= Z.of_nat (length t) - 1) by (split; [apply Z.div_pos; lia|rewrite <- Dl; apply Z.div_le_mono; lia]).
      destruct (finish t2 (p' / 256 + 1) c' (Z.of_nat (length t)) pre' p' first ltac:(lia) Hl ltac:(lia) C2 C1 ltac:(lia)) as (t' & E' & L' & G' & S').
      + intros k Hk. rewrite <- D2. apply S2. lia.
      + exists t'. split; [exact E'|]. split; [lia|]. split; [exact G'|]. intros k Hk. change (map conv2 ((p1, rgba) :: r)) with ((p1, first) :: map conv2 r).
        change ((0, first) :: (p1, first) :: map conv2 r) with ([(0, first)] ++ (p1, first) :: map conv2 r). rewrite D2. apply S'. exact Hk.
  Qed.
End Table.
