(* Model of the unique id generator: blend2d/threading/uniqueidgenerator.cpp (ids of font faces and of rendering contexts).
   Any number of threads; every access to an atomic variable is one step of the thread that does it, all accesses are
   sequentially consistent (std::atomic default order). A schedule says which thread makes the next step; a thread that is
   between two calls starts a call for the domain that the schedule gives. *)
From Verif Require Import Base.

(* uniqueidgenerator_p.h 17-22: Domain; kAny = false, kContext = true *)
Notation domain := bool.

(* the two preprocessor switches: BL_TARGET_HAS_ATOMIC_64B (line 13) and BL_BUILD_NO_TLS (line 69) *)
Record config := Config { atomic64 : bool; use_tls : bool }.

(* lines 18-24 and 31-58: GlobalState; [index] of the 64-bit implementation, [hi] and [lo] of the 32-bit one *)
Record gstate := GState { index : Z; hi : Z; lo : Z }.

(* where a thread is: between calls; before index.fetch_add (64-bit) or _hi.load (32-bit); before _lo.fetch_add; before _hi++;
   before _lo.fetch_and; before the return statement with the result of fetch_add *)
Inductive pc := Idle | Fetch (d : domain) | AddLo (d : domain) (hi_value : Z) | IncHi (d : domain) | MaskLo (d : domain) | Return (d : domain) (v : Z).
(* line 78: tls_id_state *)
Record thread := Thread { at_pc : pc; cache : domain -> Z }.
Record system := System { global : domain -> gstate; threads : nat -> thread }.

Definition set {K A} (eqb : K -> K -> bool) (f : K -> A) (k : K) (a : A) : K -> A := fun k' => if eqb k k' then a else f k'.
Definition initial : system := System (fun _ => GState 0 0 0) (fun _ => Thread Idle (fun _ => 0)).

Definition kLocalCacheCount : Z := 256.
Definition kThresholdLo32 : Z := 0x80000000.
Definition cached (c : config) : Z := if use_tls c then kLocalCacheCount else 1.

(* one step of thread t; the second result is the id when the step is the return of generate_id *)
Definition step (c : config) (s : system) (t : nat) (d0 : domain) : system * option (domain * Z) :=
  let th := threads s t in
  let goto p := System (global s) (set Nat.eqb (threads s) t (Thread p (cache th))) in
  let goto_g d g p := System (set Bool.eqb (global s) d g) (set Nat.eqb (threads s) t (Thread p (cache th))) in
  match at_pc th with
  (* lines 80-82 (TLS) and 93-95: start of generate_id *)
  | Idle => (if use_tls c then (if Z.land (cache th d0) (kLocalCacheCount - 1) =? 0 then goto (Fetch d0) else goto (Return d0 (cache th d0)))
             else goto (Fetch d0), None)
  | Fetch d =>
    let g := global s d in
    (* lines 21-23 *)
    if atomic64 c then (goto_g d (GState (w64 (index g + cached c)) (hi g) (lo g)) (Return d (index g)), None)
    (* line 42 *)
    else (goto (AddLo d (hi g)), None)
  (* lines 43-56 *)
  | AddLo d hi_value =>
    let g := global s d in
    (goto_g d (GState (index g) (hi g) (w32 (lo g + cached c)))
       (if Z.land (lo g) kThresholdLo32 =? 0 then Return d (Z.lor (Z.shiftl hi_value 32) (lo g)) else IncHi d), None)
  (* line 49 *)
  | IncHi d => let g := global s d in (goto_g d (GState (index g) (w32 (hi g + 1)) (lo g)) (MaskLo d), None)
  (* lines 53-54 *)
  | MaskLo d => let g := global s d in (goto_g d (GState (index g) (hi g) (Z.land (lo g) 0x7FFFFFFF)) (Fetch d), None)
  (* lines 83-85 (TLS): the cache is set to the result of fetch_add and incremented; line 95 *)
  | Return d v =>
    (System (global s) (set Nat.eqb (threads s) t (Thread Idle (if use_tls c then set Bool.eqb (cache th) d (w64 (v + 1)) else cache th))),
     Some (d, w64 (v + 1)))
  end.

(* the ids returned by all threads, in the order of their returns, and the last state *)
Fixpoint run (c : config) (s : system) (schedule : list (nat * domain)) : list (domain * Z) * system :=
  match schedule with
  | [] => ([], s)
  | (t, d) :: rest =>
    let (s1, out) := step c s t d in
    let (ids, s2) := run c s1 rest in
    (match out with Some i => i :: ids | None => ids end, s2)
  end.
Definition ids (c : config) (schedule : list (nat * domain)) : list (domain * Z) := fst (run c initial schedule).
