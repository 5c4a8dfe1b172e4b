(* Independent statements about OpenType tags: the characters of a tag, which tags are acceptable, and what it
   means for a number to be the id of a tag in a table. *)
From Verif Require Import Base.

(* The four characters of a tag, first character in the most significant byte. *)
Definition tag_chars (t : Z) : list Z := [t / 16777216 mod 256; t / 65536 mod 256; t / 256 mod 256; t mod 256].

(* OpenType: a tag consists of four printable ASCII characters. *)
Definition printable (c : Z) : Prop := 32 <= c <= 126.
Definition valid_tag (t : Z) : Prop := Forall printable (tag_chars t).

Definition NO_ID : Z := 4294967295.

(* [r] is the position of [t] in [tags], or NO_ID if the table does not contain it. *)
Definition tag_id (tags : list Z) (t r : Z) : Prop :=
  (0 <= r /\ nth_error tags (Z.to_nat r) = Some t) \/ (r = NO_ID /\ ~ In t tags).

(* Strictly increasing. *)
Fixpoint increasing (l : list Z) : Prop :=
  match l with
  | [] => True
  | x :: r => match r with [] => True | y :: _ => x < y end /\ increasing r
  end.
