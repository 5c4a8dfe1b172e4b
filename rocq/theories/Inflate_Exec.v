(* An executable reading of the step relation of Inflate_Spec.v, for examples and witnesses: what it computes is a run of the
   relation. *)
From Verif Require Import Base Deflate_Spec Inflate_Spec.
Ltac Zify.zify_post_hook ::= idtac.

Fixpoint nth_of_len (lens : list Z) (l : Z) (k : Z) (s : Z) : Z :=
  match lens with
  | [] => -1
  | x :: t => if x =? l then (if k =? 0 then s else nth_of_len t l (k - 1) (s + 1)) else nth_of_len t l k (s + 1)
  end.
Fixpoint count_of (lens : list Z) (l : Z) : Z := match lens with [] => 0 | x :: t => if x =? l then 1 + count_of t l else count_of t l end.
(* the symbol whose code the stream starts with, by lengths *)
Fixpoint guess (n : nat) (lens : list Z) (len code first V : Z) : Z :=
  match n with
  | O => -1
  | S n' =>
    let code := 2 * code + (if Z.odd V then 1 else 0) in
    let c := count_of lens len in
    let first := 2 * first in
    if code - first <? c then nth_of_len lens len (code - first) 0 else guess n' lens (len + 1) code (first + c) (Z.div2 V)
  end.
Definition decodesb (lens : list Z) (V s : Z) : bool :=
  (0 <=? s) && (s <? Z.of_nat (length lens)) && (0 <? len_of lens s) && (read_code (Z.to_nat (len_of lens s)) V =? huff_code lens s).
Definition find_sym (lens : list Z) (V : Z) : option Z := let s := guess 15 lens 1 0 0 V in if decodesb lens V s then Some s else None.

Lemma find_sym_ok lens V s : find_sym lens V = Some s -> decodes lens V s.
Proof.
  unfold find_sym, decodesb. cbv zeta. generalize (guess 15 lens 1 0 0 V). intros x. destruct (_ && _) eqn:E; [|discriminate]. intros Q. injection Q as <-. repeat (apply andb_true_iff in E; destruct E as [E ?]). unfold decodes. lia.
Qed.

Definition completeb (lens : list Z) : bool := code_space lens =? 2 ^ 15.
Definition singleb (lens : list Z) : bool := (code_space lens =? 2 ^ 14) && (count_len lens 1 =? 1).
Definition litb (lens : list Z) : bool := completeb lens || singleb lens.
Definition offb (lens : list Z) : bool := completeb lens || singleb lens || (code_space lens =? 0).
Lemma completeb_ok lens : completeb lens = true -> complete_code lens.
Proof. unfold completeb, complete_code. intros H. apply Z.eqb_eq, H. Qed.
Lemma litb_ok lens : litb lens = true -> litlen_good lens.
Proof. unfold litb, singleb, litlen_good, single_code. intros H. apply orb_true_iff in H. destruct H as [H|H]; [left; apply completeb_ok, H|right]. apply andb_true_iff in H. rewrite !Z.eqb_eq in H. exact H. Qed.
Lemma offb_ok lens : offb lens = true -> offset_good lens.
Proof.
  unfold offb, singleb, offset_good, single_code, empty_code. intros H. apply orb_true_iff in H. destruct H as [H|H]; [|right; right; apply Z.eqb_eq, H]. apply orb_true_iff in H. destruct H as [H|H]; [left; apply completeb_ok, H|right; left].
  apply andb_true_iff in H. rewrite !Z.eqb_eq in H. exact H.
Qed.

Definition anext (a : astate) : option astate :=
  let (m, f, V, N, o) := a in
  match m with
  | AZlib =>
    let cmf := V mod 256 in let flg := V / 256 mod 256 in
    if (16 <=? N) && ((cmf * 256 + flg) mod 31 =? 0) && (cmf mod 16 =? 8) && (flg / 32 mod 2 =? 0) then Some (A ABlock f (V / 2 ^ 16) (N - 16) o) else None
  | ABlock =>
    if 3 <=? N then
      let t := V / 2 mod 4 in
      if t =? 0 then let k := (N - 3) mod 8 in Some (A AStored (V mod 2 =? 1) (V / 2 ^ (3 + k)) (N - (3 + k)) o)
      else if t =? 1 then Some (A (ASyms static_lit static_off) (V mod 2 =? 1) (V / 2 ^ 3) (N - 3) o)
      else if t =? 2 then Some (A ADynamic (V mod 2 =? 1) (V / 2 ^ 3) (N - 3) o)
      else None
    else None
  | AStored =>
    let n := V mod 2 ^ 16 in
    if (32 <=? N) && (V / 2 ^ 16 mod 2 ^ 16 =? 65535 - n) then Some (A (if n =? 0 then after_block f else ACopy n) f (V / 2 ^ 32) (N - 32) o) else None
  | ACopy n =>
    if (8 <=? N) && (0 <? n) then Some (A (if n =? 1 then after_block f else ACopy (n - 1)) f (V / 2 ^ 8) (N - 8) (o ++ [V mod 256])) else None
  | ADynamic =>
    if 14 <=? N then Some (A (APrecode (257 + V mod 32) (1 + V / 32 mod 32) (4 + V / 1024 mod 16) []) f (V / 2 ^ 14) (N - 14) o) else None
  | APrecode nl no nc acc =>
    if Z.of_nat (length acc) <? nc then (if 3 <=? N then Some (A (APrecode nl no nc (acc ++ [V mod 8])) f (V / 2 ^ 3) (N - 3) o) else None)
    else if (Z.of_nat (length acc) =? nc) && completeb (clens acc) then Some (A (ALens nl no (clens acc) []) f V N o) else None
  | ALens nl no pre acc =>
    if Z.of_nat (length acc) <? nl + no then
      match find_sym pre V with
      | None => None
      | Some s =>
        let l := len_of pre s in
        if s <? 16 then (if l <=? N then Some (A (ALens nl no pre (acc ++ [s])) f (V / 2 ^ l) (N - l) o) else None)
        else if s =? 16 then
          match acc with
          | [] => None
          | _ => if l + 2 <=? N then Some (A (ALens nl no pre (acc ++ repeat (last acc 0) (Z.to_nat (3 + V / 2 ^ l mod 4)))) f (V / 2 ^ (l + 2)) (N - (l + 2)) o) else None
          end
        else if s =? 17 then (if l + 3 <=? N then Some (A (ALens nl no pre (acc ++ repeat 0 (Z.to_nat (3 + V / 2 ^ l mod 8)))) f (V / 2 ^ (l + 3)) (N - (l + 3)) o) else None)
        else if s =? 18 then (if l + 7 <=? N then Some (A (ALens nl no pre (acc ++ repeat 0 (Z.to_nat (11 + V / 2 ^ l mod 128)))) f (V / 2 ^ (l + 7)) (N - (l + 7)) o) else None)
        else None
      end
    else if Z.of_nat (length acc) =? nl + no then
      let lit := firstn (Z.to_nat nl) acc in let off := skipn (Z.to_nat nl) acc in
      if litb lit && offb off then Some (A (ASyms lit off) f V N o) else None
    else None
  | ASyms lit off =>
    match find_sym lit V with
    | None => None
    | Some s =>
      let l := len_of lit s in
      if s <? 256 then (if l <=? N then Some (A (ASyms lit off) f (V / 2 ^ l) (N - l) (o ++ [s])) else None)
      else if s =? 256 then (if l <=? N then Some (A (after_block f) f (V / 2 ^ l) (N - l) o) else None)
      else if s <=? 285 then
        let k := l + length_extra s in
        let n := length_base s + V / 2 ^ l mod 2 ^ length_extra s in
        let V1 := V / 2 ^ k in let N1 := N - k in
        if k <=? N then
          match find_sym off V1 with
          | None => None
          | Some d =>
            let l1 := len_of off d in let k1 := l1 + offset_extra d in
            let dist := offset_base d + V1 / 2 ^ l1 mod 2 ^ offset_extra d in
            if (d <=? 29) && (k1 <=? N1) && (dist <=? Z.of_nat (length o)) then Some (A (ASyms lit off) f (V1 / 2 ^ k1) (N1 - k1) (lz_copy (Z.to_nat n) o dist)) else None
          end
        else None
      else None
    end
  | ADone => None
  end.

Ltac brk H := repeat (apply andb_true_iff in H; let H2 := fresh "B" in destruct H as [H H2]; apply Z.leb_le in H2 || apply Z.ltb_lt in H2 || apply Z.eqb_eq in H2 || idtac); try (apply Z.leb_le in H || apply Z.ltb_lt in H || apply Z.eqb_eq in H).

Lemma anext_step a b : anext a = Some b -> astep a b.
Proof.
  destruct a as [m f V N o]. unfold anext. destruct m.
  - destruct (_ && _) eqn:E; [|discriminate]. intros Q. injection Q as <-. brk E. apply st_zlib; assumption.
  - destruct (3 <=? N) eqn:E; [|discriminate]. brk E. destruct (_ =? 0) eqn:E0; [intros Q; injection Q as <-; brk E0; apply st_block_stored; assumption|].
    destruct (_ =? 1) eqn:E1; [intros Q; injection Q as <-; brk E1; apply st_block_static; assumption|]. destruct (_ =? 2) eqn:E2; [intros Q; injection Q as <-; brk E2; apply st_block_dynamic; assumption|discriminate].
  - destruct (_ && _) eqn:E; [|discriminate]. intros Q. injection Q as <-. brk E. apply st_stored; assumption.
  - destruct (_ && _) eqn:E; [|discriminate]. intros Q. injection Q as <-. brk E. apply st_copy; assumption.
  - destruct (14 <=? N) eqn:E; [|discriminate]. intros Q. injection Q as <-. brk E. apply st_dynamic; assumption.
  - destruct (_ <? nc) eqn:E1.
    + destruct (3 <=? N) eqn:E; [|discriminate]. intros Q. injection Q as <-. brk E. brk E1. apply st_precode; assumption.
    + destruct (_ && _) eqn:E; [|discriminate]. intros Q. injection Q as <-. apply andb_true_iff in E. destruct E as [E2 E3]. brk E2. apply st_precode_end; [exact E2|apply completeb_ok, E3].
  - destruct (_ <? nl + no) eqn:E1.
    + brk E1. destruct (find_sym pre V) as [s|] eqn:EF; [|discriminate]. apply find_sym_ok in EF. cbv zeta.
      destruct (s <? 16) eqn:E2; [destruct (_ <=? N) eqn:E3; [|discriminate]; intros Q; injection Q as <-; brk E2; brk E3; apply st_len; assumption|].
      destruct (s =? 16) eqn:E3; [brk E3; subst s; destruct acc as [|x acc]; [discriminate|]; destruct (_ <=? N) eqn:E4; [|discriminate]; intros Q; injection Q as <-; brk E4; apply st_repeat; try assumption; discriminate|].
      destruct (s =? 17) eqn:E4; [brk E4; subst s; destruct (_ <=? N) eqn:E5; [|discriminate]; intros Q; injection Q as <-; brk E5; apply st_zeros; assumption|].
      destruct (s =? 18) eqn:E5; [brk E5; subst s; destruct (_ <=? N) eqn:E6; [|discriminate]; intros Q; injection Q as <-; brk E6; apply st_many_zeros; assumption|discriminate].
    + destruct (_ =? nl + no) eqn:E2; [|discriminate]. brk E2. cbv zeta. destruct (_ && _) eqn:E; [|discriminate]. intros Q. injection Q as <-. apply andb_true_iff in E. destruct E as [E3 E4].
      apply st_lens_end; [exact E2|apply litb_ok, E3|apply offb_ok, E4].
  - destruct (find_sym lit V) as [s|] eqn:EF; [|discriminate]. apply find_sym_ok in EF. cbv zeta.
    destruct (s <? 256) eqn:E1; [destruct (_ <=? N) eqn:E2; [|discriminate]; intros Q; injection Q as <-; brk E1; brk E2; apply st_literal; assumption|].
    destruct (s =? 256) eqn:E2; [brk E2; subst s; destruct (_ <=? N) eqn:E3; [|discriminate]; intros Q; injection Q as <-; brk E3; apply st_end_of_block; assumption|].
    destruct (s <=? 285) eqn:E3; [|discriminate]. destruct (_ <=? N) eqn:E4; [|discriminate]. brk E4. assert (Rs : 257 <= s <= 285) by (clear -E1 E2 E3; lia).
    destruct (find_sym off _) as [d|] eqn:EF2; [|discriminate]. apply find_sym_ok in EF2. destruct (_ && _) eqn:E; [|discriminate]. intros Q. injection Q as <-. brk E.
    apply (st_match f V N o lit off s d); assumption.
  - discriminate.
Qed.

Fixpoint aexec (n : nat) (a : astate) : astate := match n with O => a | S n' => match anext a with Some b => aexec n' b | None => a end end.
Lemma aexec_steps : forall n a, asteps a (aexec n a).
Proof. induction n as [|n IH]; intros a; cbn [aexec]; [apply steps_nil|]. destruct (anext a) as [b|] eqn:E; [|apply steps_nil]. eapply steps_cons; [apply anext_step, E|apply IH]. Qed.

(* the result of a stream in at most n steps *)
Definition inflate_run (n : nat) (zlib : bool) (bytes o : list Z) : option (list Z) :=
  let b := aexec n (start zlib bytes o) in match a_mode b with ADone => Some (a_out b) | _ => None end.
Lemma inflate_run_ok n zlib bytes o res : inflate_run n zlib bytes o = Some res -> inflates zlib bytes o res.
Proof.
  unfold inflate_run. pose proof (aexec_steps n (start zlib bytes o)) as S. destruct (aexec n _) as [m f V N out]. cbn [a_mode a_out]. destruct m; try discriminate. intros E. injection E as <-. exists f, V, N. exact S.
Qed.
