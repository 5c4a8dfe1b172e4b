(* Ownership of blocks of ids: every block is handed out once, and the thread that got it counts through it. *)
From Verif Require Import Base UniqueId_Model.
Ltac Zify.zify_post_hook ::= idtac.

Lemma set_bool_eq {A} (f : bool -> A) d a : set Bool.eqb f d a d = a. Proof. unfold set. rewrite Bool.eqb_reflx. reflexivity. Qed.
Lemma set_bool_neq {A} (f : bool -> A) d d' a : d <> d' -> set Bool.eqb f d a d' = f d'.
Proof. intros N. unfold set. destruct (Bool.eqb d d') eqn:E; [apply Bool.eqb_prop in E; contradiction|reflexivity]. Qed.
Lemma set_nat_eq {A} (f : nat -> A) t a : set Nat.eqb f t a t = a. Proof. unfold set. rewrite Nat.eqb_refl. reflexivity. Qed.
Lemma set_nat_neq {A} (f : nat -> A) t t' a : t <> t' -> set Nat.eqb f t a t' = f t'.
Proof. intros N. unfold set. destruct (Nat.eqb_spec t t'); [contradiction|reflexivity]. Qed.
Lemma land255 x : Z.land x (kLocalCacheCount - 1) = x mod 256.
Proof. change (kLocalCacheCount - 1) with (Z.ones 8). rewrite Z.land_ones by lia. reflexivity. Qed.

Lemma NoDup_snoc {A} (l : list A) x : NoDup l -> ~ In x l -> NoDup (l ++ [x]).
Proof.
  intros D N. induction D as [|y l Ny D IH]; cbn.
  - constructor; [intros []|constructor].
  - constructor.
    + intros H. apply in_app_or in H as [H|[H|[]]]; [contradiction|]. subst. apply N. left. reflexivity.
    + apply IH. intros H. apply N. right. exact H.
Qed.

Section Unique.
  Context (c : config).
  Notation n := (cached c).
  Lemma n_pos : 0 < n. Proof. unfold cached, kLocalCacheCount. destruct (use_tls c); lia. Qed.

  Definition top (s : system) (d : domain) : Z := if atomic64 c then index (global s d) else lo (global s d).
  (* the next id minus one that thread th is going to return in domain d, when it owns a block *)
  Definition cache_pos (th : thread) (d : domain) : option Z := if use_tls c && negb (cache th d mod 256 =? 0) then Some (cache th d) else None.
  Definition pos (th : thread) (d : domain) : option Z :=
    match at_pc th with Return d' v => if Bool.eqb d' d then Some v else cache_pos th d | _ => cache_pos th d end.
  (* no thread came across the threshold *)
  Definition calm (s : system) : Prop :=
    (forall d, hi (global s d) = 0) /\
    (forall t, match at_pc (threads s t) with AddLo d h => atomic64 c = false /\ h = 0 /\ cache_pos (threads s t) d = None | IncHi _ | MaskLo _ => False | Fetch d => cache_pos (threads s t) d = None | _ => True end).

  Record inv (k : Z) (s : system) (out : list (domain * Z)) : Prop := Inv {
    i_top : forall d, 0 <= top s d <= n * k /\ top s d mod n = 0;
    i_out : forall d i, In (d, i) out -> 1 <= i <= top s d;
    i_pos : forall t d v, pos (threads s t) d = Some v -> 0 <= v < top s d /\ forall i, In (d, i) out -> (i - 1) / n = v / n -> i <= v;
    i_own : forall t t' d v v', t <> t' -> pos (threads s t) d = Some v -> pos (threads s t') d = Some v' -> v / n <> v' / n;
    i_dup : NoDup out;
    i_calm : calm s }.

  Lemma inv_initial : inv 0 initial [].
  Proof.
    assert (P : forall t d, pos (threads initial t) d = None).
    { intros t d. unfold pos, cache_pos, initial. cbn. rewrite andb_false_r. reflexivity. }
    constructor.
    - intros d. unfold top, initial. cbn. rewrite Z.mul_0_r. destruct (atomic64 c); rewrite Z.mod_0_l by (pose proof n_pos; lia); lia.
    - intros d i [].
    - intros t d v H. rewrite P in H. discriminate.
    - intros t t' d v v' _ H. rewrite P in H. discriminate.
    - constructor.
    - split; [reflexivity|]. intros t. exact I.
  Qed.

  (* a step that changes nothing but the place of thread t, keeping what it owns *)
  Lemma inv_move k k' s out t th : k <= k' -> inv k s out -> (forall d, pos th d = pos (threads s t) d) ->
    (match at_pc th with AddLo d h => atomic64 c = false /\ h = 0 /\ cache_pos th d = None | IncHi _ | MaskLo _ => False | Fetch d => cache_pos th d = None | _ => True end) ->
    inv k' (System (global s) (set Nat.eqb (threads s) t th)) out.
  Proof.
    intros K [T O P W D [C1 C2]] E Q.
    assert (PE : forall t' d, pos (set Nat.eqb (threads s) t th t') d = pos (threads s t') d).
    { intros t' d. destruct (Nat.eq_dec t t') as [<-|N]; [rewrite set_nat_eq; apply E|rewrite set_nat_neq by exact N; reflexivity]. }
    constructor; cbn [global threads].
    - intros d. destruct (T d) as [A B]. change (top (System (global s) (set Nat.eqb (threads s) t th)) d) with (top s d). pose proof n_pos. split; [nia|exact B].
    - intros d i H. apply (O d i H).
    - intros t' d v H. rewrite PE in H. apply (P t' d v H).
    - intros t1 t2 d v v' N H1 H2. rewrite PE in H1, H2. apply (W t1 t2 d v v' N H1 H2).
    - exact D.
    - split; [exact C1|]. intros t'. cbn [threads]. destruct (Nat.eq_dec t t') as [<-|N]; [rewrite set_nat_eq; exact Q|rewrite set_nat_neq by exact N; apply C2].
  Qed.

  Lemma inv_weaken k k' s out : k <= k' -> inv k s out -> inv k' s out.
  Proof.
    intros K [T O P W D C]. constructor; try assumption. intros d. destruct (T d) as [A B]. split; [pose proof n_pos; nia|exact B].
  Qed.
  (* thread t takes the next block *)
  Lemma inv_fetch k k' s out t d g th : k + 1 <= k' -> inv k s out -> cache_pos (threads s t) d = None ->
    th = Thread (Return d (top s d)) (cache (threads s t)) -> (match at_pc (threads s t) with Return _ _ => False | _ => True end) ->
    hi g = 0 -> (if atomic64 c then index g else lo g) = top s d + n ->
    inv k' (System (set Bool.eqb (global s) d g) (set Nat.eqb (threads s) t th)) out.
  Proof.
    intros K [T O P W D [C1 C2]] CN -> NR HG G. pose proof n_pos as NP.
    set (s' := System _ _).
    assert (T' : forall d', top s d' <= top s' d').
    { intros d'. unfold top, s'. cbn [global]. destruct (Bool.bool_dec d d') as [<-|N]; [|rewrite set_bool_neq by exact N; lia].
      rewrite set_bool_eq. rewrite G. unfold top. destruct (atomic64 c); lia. }
    assert (TD : top s' d = top s d + n). { unfold top at 1, s'. cbn [global]. rewrite set_bool_eq. exact G. }
    assert (PT : forall d', pos (Thread (Return d (top s d)) (cache (threads s t))) d' = if Bool.eqb d d' then Some (top s d) else pos (threads s t) d').
    { intros d'. unfold pos at 1. cbn [at_pc]. destruct (Bool.eqb d d'); [reflexivity|].
      unfold pos. destruct (at_pc (threads s t)); try reflexivity. contradiction. }
    assert (OLD : forall t' d' v, pos (threads s' t') d' = Some v -> (t' = t /\ d' = d /\ v = top s d) \/ pos (threads s t') d' = Some v).
    { intros t' d' v H. unfold s' in H. cbn [threads] in H. destruct (Nat.eq_dec t t') as [<-|N]; [|rewrite set_nat_neq in H by exact N; auto].
      rewrite set_nat_eq, PT in H. destruct (Bool.eqb d d') eqn:E; [|auto]. apply Bool.eqb_prop in E. injection H as <-. auto. }
    assert (TM : forall v, 0 <= v < top s d -> v / n <> top s d / n).
    { intros v Hv E. destruct (T d) as [_ M]. pose proof (Z.div_mod (top s d) n ltac:(lia)). pose proof (Z.mul_div_le v n NP). pose proof (Z.mul_succ_div_gt v n NP). nia. }
    constructor.
    - intros d'. destruct (T d') as [A B]. destruct (Bool.bool_dec d d') as [<-|N].
      + rewrite TD. split; [nia|]. replace (top s d + n) with (top s d + 1 * n) by lia. rewrite Z.mod_add by lia. exact B.
      + unfold top, s'. cbn [global]. rewrite set_bool_neq by exact N. fold (top s d'). split; [nia|exact B].
    - intros d' i H. specialize (O d' i H). specialize (T' d'). lia.
    - intros t' d' v H. destruct (OLD t' d' v H) as [(-> & -> & ->)|H'].
      + rewrite TD. split; [destruct (T d); lia|]. intros i Hi _. apply (O d i Hi).
      + destruct (P t' d' v H') as [A B]. specialize (T' d'). split; [lia|exact B].
    - intros t1 t2 d' v v' N H1 H2.
      destruct (OLD t1 d' v H1) as [(E1 & F1 & G1)|H1']; destruct (OLD t2 d' v' H2) as [(E2 & F2 & G2)|H2'].
      + congruence.
      + subst. intros E. apply (TM v'); [apply (P t2 d v' H2')|]. congruence.
      + subst. apply TM. apply (P t1 d v H1').
      + apply (W t1 t2 d' v v' N H1' H2').
    - exact D.
    - split.
      + intros d'. unfold s'. cbn [global]. destruct (Bool.bool_dec d d') as [<-|N]; [rewrite set_bool_eq; exact HG|rewrite set_bool_neq by exact N; apply C1].
      + intros t'. unfold s'. cbn [threads]. destruct (Nat.eq_dec t t') as [<-|N]; [rewrite set_nat_eq; exact I|rewrite set_nat_neq by exact N; apply C2].
  Qed.

  (* thread t returns an id *)
  Lemma inv_return k s out t d v : inv k s out -> at_pc (threads s t) = Return d v -> n * k < 2 ^ 64 ->
    inv k (System (global s) (set Nat.eqb (threads s) t
            (Thread Idle (if use_tls c then set Bool.eqb (cache (threads s t)) d (w64 (v + 1)) else cache (threads s t))))) (out ++ [(d, w64 (v + 1))]).
  Proof.
    intros [T O P W D [C1 C2]] E B. pose proof n_pos as NP.
    assert (PV : pos (threads s t) d = Some v) by (unfold pos; rewrite E, Bool.eqb_reflx; reflexivity).
    destruct (P t d v PV) as [Rv Ov]. destruct (T d) as [Td Tm].
    assert (E1 : w64 (v + 1) = v + 1) by (unfold w64; apply Z.mod_small; lia). rewrite E1.
    set (th := Thread Idle _).
    assert (PD : forall v', pos th d = Some v' -> v' = v + 1 /\ v' / n = v / n /\ v' < top s d).
    { intros v'. unfold pos, th, cache_pos. cbn [at_pc cache]. unfold cached in *. destruct (use_tls c); cbn [andb]; [|discriminate].
      rewrite set_bool_eq. unfold kLocalCacheCount in *. destruct (Z.eqb_spec ((v + 1) mod 256) 0) as [Z0|Z0]; cbn [negb]; [discriminate|]. intros H. injection H as <-.
      split; [reflexivity|]. pose proof (Z.div_mod (v + 1) 256 ltac:(lia)). pose proof (Z.mod_pos_bound (v + 1) 256 ltac:(lia)).
      pose proof (Z.div_mod v 256 ltac:(lia)). pose proof (Z.mod_pos_bound v 256 ltac:(lia)). pose proof (Z.div_mod (top s d) 256 ltac:(lia)). split; nia. }
    assert (PO : forall d', d <> d' -> pos th d' = pos (threads s t) d').
    { intros d' N. unfold pos. rewrite E. unfold th. cbn [at_pc]. unfold cache_pos. cbn [cache].
      destruct (Bool.eqb d d') eqn:Eb; [apply Bool.eqb_prop in Eb; contradiction|].
      destruct (use_tls c); [|reflexivity]. rewrite set_bool_neq by exact N. reflexivity. }
    set (s' := System _ _).
    assert (OLD : forall t' d' v', pos (threads s' t') d' = Some v' -> (t' = t /\ d' = d /\ v' = v + 1 /\ v' / n = v / n /\ v' < top s d) \/ (pos (threads s t') d' = Some v' /\ (t' <> t \/ d' <> d))).
    { intros t' d' v' H. unfold s' in H. cbn [threads] in H. destruct (Nat.eq_dec t t') as [<-|N].
      - rewrite set_nat_eq in H. destruct (Bool.bool_dec d d') as [<-|Nd]; [left; auto|]. rewrite PO in H by exact Nd. right. auto.
      - rewrite set_nat_neq in H by exact N. right. auto. }
    constructor.
    - exact T.
    - intros d' i H. apply in_app_or in H as [H|[H|[]]]; [apply (O d' i H)|]. injection H as <- <-. change (top s' d) with (top s d). lia.
    - intros t' d' v' H. change (top s' d') with (top s d'). destruct (OLD t' d' v' H) as [(-> & -> & -> & Hq & Hl)|[H' N]].
      + split; [lia|]. intros i Hi Ei. apply in_app_or in Hi as [Hi|[Hi|[]]].
        * specialize (Ov i Hi ltac:(congruence)). lia.
        * injection Hi as <-. lia.
      + destruct (P t' d' v' H') as [A Bd]. split; [exact A|]. intros i Hi Ei. apply in_app_or in Hi as [Hi|[Hi|[]]]; [apply (Bd i Hi Ei)|].
        injection Hi as <- <-. exfalso. replace (v + 1 - 1) with v in Ei by lia.
        destruct N as [N|N]; [|congruence]. apply (W t' t d v' v N H' PV). congruence.
    - intros t1 t2 d' v1 v2 N H1 H2.
      destruct (OLD t1 d' v1 H1) as [(F1 & F2 & F3 & Hq & _)|[H1' N1]]; destruct (OLD t2 d' v2 H2) as [(E2 & E3 & E4 & Hq2 & _)|[H2' N2]].
      + congruence.
      + subst t1 d' v1. rewrite Hq. apply (W t t2 d v v2 N PV H2').
      + subst t2 d' v2. rewrite Hq2. apply (W t1 t d v1 v N H1' PV).
      + apply (W t1 t2 d' v1 v2 N H1' H2').
    - apply NoDup_snoc; [exact D|]. intros H. specialize (Ov (v + 1) H). replace (v + 1 - 1) with v in Ov by lia. specialize (Ov eq_refl). lia.
    - split; [exact C1|]. intros t'. unfold s'. cbn [threads]. destruct (Nat.eq_dec t t') as [<-|N]; [rewrite set_nat_eq; exact I|rewrite set_nat_neq by exact N; apply C2].
  Qed.

  (* the threshold of the 32-bit implementation is not reached *)
  Definition limit : Z := if atomic64 c then 2 ^ 64 else 2 ^ 31.

  Lemma inv_step k s out t d : inv k s out -> n * (k + 1) < limit ->
    inv (k + 1) (fst (step c s t d)) (out ++ match snd (step c s t d) with Some i => [i] | None => [] end).
  Proof.
    intros I0 L. pose proof n_pos as NP. pose proof I0 as [T O P W D [C1 C2]]. pose proof (C2 t) as CT.
    assert (LL : limit <= 2 ^ 64) by (unfold limit; destruct (atomic64 c); lia).
    unfold step. destruct (at_pc (threads s t)) as [|d1|d1 h|d1|d1|d1 v] eqn:E; cbn [fst snd]; try rewrite app_nil_r; try contradiction.
    - assert (PI : forall d', pos (threads s t) d' = cache_pos (threads s t) d') by (intros; unfold pos; rewrite E; reflexivity).
      destruct (use_tls c) eqn:Tl.
      + rewrite land255. destruct (Z.eqb_spec (cache (threads s t) d mod 256) 0) as [Z0|Z0].
        * apply (inv_move k); [lia|exact I0| |].
          -- intros d'. rewrite PI. reflexivity.
          -- cbn [at_pc]. unfold cache_pos. cbn [cache]. rewrite Z0. cbn. rewrite andb_false_r. reflexivity.
        * apply (inv_move k); [lia|exact I0| |exact I].
          intros d'. rewrite PI. unfold pos. cbn [at_pc]. destruct (Bool.eqb d d') eqn:Eb; [|reflexivity].
          apply Bool.eqb_prop in Eb. subst d'. unfold cache_pos. rewrite Tl. destruct (Z.eqb_spec (cache (threads s t) d mod 256) 0); [contradiction|reflexivity].
      + apply (inv_move k); [lia|exact I0| |].
        -- intros d'. rewrite PI. reflexivity.
        -- cbn [at_pc]. unfold cache_pos. rewrite Tl. reflexivity.
    - destruct (atomic64 c) eqn:A; cbn [fst snd]; rewrite app_nil_r.
      + apply (inv_fetch k) with (th := Thread (Return d1 (index (global s d1))) (cache (threads s t))); try assumption; try lia.
        * unfold top. rewrite A. reflexivity.
        * rewrite E. exact I.
        * cbn [hi]. apply C1.
        * rewrite A. cbn [index]. unfold top. rewrite A. unfold w64. apply Z.mod_small. destruct (T d1) as [T1 _]. unfold top in T1. rewrite A in T1.
          unfold limit in L. rewrite A in L. nia.
      + apply (inv_move k); [lia|exact I0| |].
        * intros d'. unfold pos. rewrite E. reflexivity.
        * cbn [at_pc]. split; [exact A|]. split; [apply C1|exact CT].
    - destruct CT as (A & -> & CT).
      destruct (T d1) as [T1 _]. unfold top in T1. rewrite A in T1. unfold limit in L. rewrite A in L.
      assert (LB : 0 <= lo (global s d1) < 2 ^ 31) by nia.
      assert (TH : Z.land (lo (global s d1)) kThresholdLo32 = 0).
      { change kThresholdLo32 with (Z.shiftl 1 31). apply Z.bits_inj'. intros i Hi. rewrite Z.land_spec, Z.bits_0.
        destruct (Z.eq_dec i 31) as [->|Ni].
        - rewrite <- (Z.mod_small (lo (global s d1)) (2 ^ 31)) by exact LB. rewrite Z.mod_pow2_bits_high by lia. reflexivity.
        - rewrite Z.shiftl_spec by lia. change 1 with (2 ^ 0). rewrite Z.pow2_bits_false by lia. apply andb_false_r. }
      rewrite TH. cbn [Z.eqb]. change (Z.shiftl 0 32) with 0. rewrite Z.lor_0_l.
      apply (inv_fetch k) with (th := Thread (Return d1 (lo (global s d1))) (cache (threads s t))); try assumption; try lia.
      * unfold top. rewrite A. reflexivity.
      * rewrite E. exact I.
      * cbn [hi]. apply C1.
      * rewrite A. cbn [lo]. unfold top. rewrite A. unfold w32. apply Z.mod_small. nia.
    - apply (inv_weaken (k)); [lia|]. apply inv_return; try assumption. nia.
  Qed.

  Lemma run_inv : forall schedule k s out, inv k s out -> n * (k + Z.of_nat (length schedule)) < limit ->
    inv (k + Z.of_nat (length schedule)) (snd (run c s schedule)) (out ++ fst (run c s schedule)).
  Proof.
    induction schedule as [|[t d] rest IH]; intros k s out I0 L; cbn [run fst snd length].
    - rewrite app_nil_r, Z.add_0_r. exact I0.
    - cbn [length] in L. pose proof (inv_step k s out t d I0 ltac:(pose proof n_pos; nia)) as I1.
      destruct (step c s t d) as [s1 o]. cbn [fst snd] in I1.
      pose proof (IH (k + 1) s1 _ I1 ltac:(pose proof n_pos; nia)) as I2.
      replace (k + Z.of_nat (S (length rest))) with (k + 1 + Z.of_nat (length rest)) by lia.
      destruct (run c s1 rest) as [l s2]. cbn [fst snd] in I2 |- *. rewrite <- app_assoc in I2. destruct o; exact I2.
  Qed.
End Unique.
