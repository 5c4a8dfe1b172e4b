(* C68, C69: OpenType tags and their ids. *)
From Verif Require Import Base TagData_Model TagData_Spec TagData_Proofs.
Ltac Zify.zify_post_hook ::= idtac.

(* C68: the hashed lookup of every table finds exactly the tags of the table, for every 32-bit tag and beyond, and
   never reads outside of a table. *)
Theorem C68_tag_ids : forall t,
  (exists r, table_tag_to_id t = Ok r /\ tag_id table_id_to_tag_table t r) /\
  (exists r, script_tag_to_id t = Ok r /\ tag_id script_id_to_tag_table t r) /\
  (exists r, language_tag_to_id t = Ok r /\ tag_id language_id_to_tag_table t r) /\
  (exists r, feature_tag_to_id t = Ok r /\ tag_id feature_id_to_tag_table t r) /\
  (exists r, baseline_tag_to_id t = Ok r /\ tag_id baseline_id_to_tag_table t r) /\
  (exists r, variation_tag_to_id t = Ok r /\ tag_id variation_id_to_tag_table t r).
Proof.
  intros t. repeat split; [apply table_exact|apply script_exact|apply language_exact|apply feature_exact|apply baseline_exact|apply variation_exact].
Qed.
Print Assumptions C68_tag_ids.

(* Ids are ordered like tags, in every table. *)
Theorem C68_tables_increasing :
  increasing table_id_to_tag_table /\ increasing script_id_to_tag_table /\ increasing language_id_to_tag_table /\
  increasing feature_id_to_tag_table /\ increasing baseline_id_to_tag_table /\ increasing variation_id_to_tag_table.
Proof. repeat match goal with |- _ /\ _ => split end; apply increasingb_ok; vm_compute; reflexivity. Qed.
Print Assumptions C68_tables_increasing.

(* Two different tags never get the same id. *)
Theorem C68_feature_ids_injective : forall t u r, feature_tag_to_id t = Ok r -> feature_tag_to_id u = Ok r -> r <> NO_ID -> t = u.
Proof.
  intros t u r A B N. destruct (feature_exact t) as (a & E & [[_ H]|[H _]]); rewrite A in E; injection E as <-; [|contradiction].
  destruct (feature_exact u) as (b & E & [[_ K]|[K _]]); rewrite B in E; injection E as <-; [|contradiction]. congruence.
Qed.
Print Assumptions C68_feature_ids_injective.

Example C68_ex_kern : feature_tag_to_id 1801810542 = Ok 150 /\ tag_id feature_id_to_tag_table 1801810542 150.
Proof. split; [vm_compute; reflexivity|]. left. split; [lia|]. vm_compute. reflexivity. Qed.
Example C68_ex_none : table_tag_to_id 0 = Ok NO_ID /\ tag_id table_id_to_tag_table 0 NO_ID.
Proof. split; [vm_compute; reflexivity|]. right. split; auto. vm_compute. intuition discriminate. Qed.

(* C69: a tag is accepted iff it consists of four printable ASCII characters, and is printed with every other
   character replaced by a question mark. *)
Theorem C69_valid_tag : forall t, 0 <= t < 2 ^ 32 -> (is_valid_tag t = true <-> valid_tag t).
Proof. exact valid_tag_exact. Qed.
Print Assumptions C69_valid_tag.

Theorem C69_tag_to_ascii : forall t, 0 <= t < 2 ^ 32 ->
  length (tag_to_ascii t) = 4%nat /\
  Forall2 (fun c out => (printable c /\ out = c) \/ (~ printable c /\ out = 63)) (tag_chars t) (tag_to_ascii t) /\
  (valid_tag t -> tag_to_ascii t = tag_chars t).
Proof.
  intros t Ht. rewrite tag_to_ascii_ok by auto. split; [reflexivity|].
  assert (C : forall c, (printable c /\ (if (32 <=? c) && (c <=? 126) then c else 63) = c) \/ (~ printable c /\ (if (32 <=? c) && (c <=? 126) then c else 63) = 63)).
  { intros c. unfold printable. destruct (Z.leb_spec 32 c), (Z.leb_spec c 126); cbn [andb]; [left|right|right|right]; lia. }
  split.
  - induction (tag_chars t) as [|c r IH]; cbn [map]; constructor; auto.
  - unfold valid_tag. induction (tag_chars t) as [|c r IH]; intros V; cbn [map]; auto. inversion V as [|? ? P V']; subst. rewrite IH by auto. f_equal.
    destruct (C c) as [[_ E]|[N _]]; [auto|contradiction].
Qed.
Print Assumptions C69_tag_to_ascii.

Example C69_ex_valid : is_valid_tag 1801810542 = true /\ valid_tag 1801810542 /\ tag_to_ascii 1801810542 = [107; 101; 114; 110].
Proof. split; [vm_compute; reflexivity|]. split; [|vm_compute; reflexivity]. apply valid_tag_exact; [lia|]. vm_compute. reflexivity. Qed.
Example C69_ex_del : is_valid_tag 1801810559 = false /\ tag_to_ascii 1801810559 = [107; 101; 114; 63].
Proof. vm_compute. split; reflexivity. Qed.
