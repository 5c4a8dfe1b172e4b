(* What the users of the hash map rely on, independently of its buckets: it behaves as the list [s] of the nodes that
   were inserted and not removed. *)
From Verif Require Import Base HashMap_Model.

Definition u32 (h : Z) : Prop := 0 <= h < 2 ^ 32.
(* One call. [alloc]: memory for a larger table is available. *)
Inductive call : Type :=
| Insert (alloc : bool) (n : node)
| Remove (n : node)
| Get (hash : Z) (matches : node -> bool)
| Reset.
Inductive answer : Type := ANone | ABool (b : bool) | ANode (n : option node).

(* Which calls are permitted: a node is in the map at most once, its hash code does not change while it is there, and
   the keys that match a node have its hash code. *)
Definition permitted (s : list node) (c : call) : Prop :=
  match c with
  | Insert _ n => u32 (n_hash n) /\ ~ In (n_ptr n) (map n_ptr s)
  | Remove n => u32 (n_hash n) /\ forall n', In n' s -> n_ptr n' = n_ptr n -> n' = n
  | Get h matches => u32 h /\ forall n, In n s -> matches n = true -> n_hash n = h
  | Reset => True
  end.
Definition after (s : list node) (c : call) : list node :=
  match c with
  | Insert _ n => n :: s
  | Remove n => filter (fun n' => negb (n_ptr n' =? n_ptr n)) s
  | Get _ _ => s
  | Reset => []
  end.
Definition right_answer (s : list node) (c : call) (a : answer) : Prop :=
  match c, a with
  | Insert _ _, ANone | Reset, ANone => True
  | Remove n, ABool b => b = true <-> In n s
  | Get _ matches, ANode (Some n) => In n s /\ matches n = true
  | Get _ matches, ANode None => forall n, In n s -> matches n = false
  | _, _ => False
  end.
Fixpoint all_permitted (s : list node) (l : list call) : Prop :=
  match l with [] => True | c :: r => permitted s c /\ all_permitted (after s c) r end.
Fixpoint right_answers (s : list node) (l : list call) (a : list answer) : Prop :=
  match l, a with
  | [], [] => True
  | c :: r, x :: a => right_answer s c x /\ right_answers (after s c) r a
  | _, _ => False
  end.

(* the calls made one after another *)
Definition perform (b64 : bool) (m : hmap) (c : call) : outcome (hmap * answer) :=
  match c with
  | Insert alloc n => let* m := insert b64 alloc m n in Ok (m, ANone)
  | Remove n => let* (b, m) := remove b64 m n in Ok (m, ABool b)
  | Get h matches => let* n := get b64 m h matches in Ok (m, ANode n)
  | Reset => Ok (reset b64 m, ANone)
  end.
Fixpoint perform_all (b64 : bool) (m : hmap) (l : list call) : outcome (hmap * list answer) :=
  match l with
  | [] => Ok (m, [])
  | c :: r => let* (m, a) := perform b64 m c in let* (m, a') := perform_all b64 m r in Ok (m, a :: a')
  end.
