(** Property C37: the first nested array or object with a value in it. *)
From Verif Require Import Base TokModel JsonSpec TokSpec MapModel MapSpec MapProofs MapChildSpec MapChildProofs.

(** findFirstChildWithData on the metadata of a document. *)
Theorem C37_first_child : forall ts name j, nested j = true -> map tk_value_type ts = doc_types name j ->
  exists meta, metaForTokens ts = Ok meta /\ findFirstChildWithData meta 0 = Ok (first_with_value j).
Proof.
  intros ts name j Hn H. exists (tree_meta 0 j). split; [exact (metaForTokens_spec ts name j H)|].
  pose proof (first_child_spec [] [] 0 j Hn) as E. rewrite app_nil_r in E. exact E.
Qed.
Print Assumptions C37_first_child.

(** The same for an array or object anywhere inside other metadata. *)
Theorem C37_first_child_inside : forall pre post pos j, nested j = true ->
  findFirstChildWithData (pre ++ tree_meta pos j ++ post) (length pre) = Ok (first_with_value j).
Proof. exact first_child_spec. Qed.
Print Assumptions C37_first_child_inside.

(** An array with a scalar, two containers without values, one of them nested, and then one with a value. *)
Example C37_first_child_nonvacuous :
  let j := JArr [JScalar SNull; JArr [JArr []; JObj []]; JObj []; JObj [(s2b "a", JArr [JScalar STrue])]] in
  nested j = true /\ first_with_value j = Some 2 /\ findFirstChildWithData (tree_meta 0 j) 0 = Ok (Some 2).
Proof. split; [|split]; vm_compute; reflexivity. Qed.
