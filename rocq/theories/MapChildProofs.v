(** Proofs about findFirstChildWithData. *)
From Verif Require Import Base Tactics TokModel JsonSpec TokSpec MapModel MapSpec MapProofs MapProofs2 MapChildSpec.
From Coq Require Import Lia.

Fixpoint kids_meta (pos : nat) (vs : list json) : list jmeta :=
  match vs with [] => [] | v :: r => tree_meta pos v ++ kids_meta (pos + ntok v) r end.

Lemma kids_arr els pos : list_meta tree_meta pos els = kids_meta pos els.
Proof. reflexivity. Qed.
Lemma kids_obj ms : forall pos, member_meta pos ms = kids_meta pos (map snd ms).
Proof. induction ms as [|kv r IH]; intros pos; [reflexivity|]. cbn [member_meta kids_meta map]. f_equal. apply IH. Qed.

Lemma first_child_kids vs : forall pre post pos i start skip,
  length pre = start + skip + 1 ->
  first_child (list_sum (map complex vs)) i (pre ++ kids_meta pos vs ++ post) start skip = Ok (place_of_first i (filter nested vs)).
Proof.
  induction vs as [|v vs IH]; intros pre post pos i start skip Hp; [reflexivity|].
  assert (K : nested v = true -> exists m r, tree_meta pos v = m :: r /\ m_data m = has_scalar v /\ m_skip m = containers v).
  { destruct v; intros H; [discriminate H| |]; do 2 eexists; cbn [tree_meta]; split; reflexivity || (split; reflexivity). }
  cbn [map filter kids_meta]. rewrite <- app_assoc. destruct (nested v) eqn:Nv.
  - destruct (K eq_refl) as (m & r & Em & Ed & Es).
    assert (C : complex v = 1) by (destruct v; [discriminate Nv|reflexivity|reflexivity]).
    cbn [list_sum fold_right]. fold (list_sum (map complex vs)). rewrite C. cbn [Nat.add first_child place_of_first].
    rewrite nth_error_app2 by lia. rewrite Hp, Nat.sub_diag, Em. cbn [app nth_error]. rewrite Ed.
    destruct (has_scalar v); [reflexivity|].
    change (m :: r ++ kids_meta (pos + ntok v) vs ++ post) with ((m :: r) ++ kids_meta (pos + ntok v) vs ++ post). rewrite <- Em, app_assoc.
    apply IH. rewrite app_length, tree_meta_length, Es. lia.
  - assert (C : complex v = 0 /\ tree_meta pos v = []) by (destruct v; [split; reflexivity|discriminate Nv|discriminate Nv]).
    destruct C as [C ->]. cbn [list_sum fold_right]. fold (list_sum (map complex vs)). rewrite C. cbn [Nat.add app]. apply IH. exact Hp.
Qed.

Lemma no_first vs : existsb has_scalar vs = false -> forall i, place_of_first i (filter nested vs) = None.
Proof.
  induction vs as [|v vs IH]; intros H i; [reflexivity|]. cbn [existsb] in H. apply orb_false_iff in H. destruct H as [H1 H2].
  cbn [filter]. destruct (nested v); [cbn [place_of_first]; rewrite H1|]; apply IH, H2.
Qed.

Lemma first_child_spec pre post pos j : nested j = true ->
  findFirstChildWithData (pre ++ tree_meta pos j ++ post) (length pre) = Ok (first_with_value j).
Proof.
  intros Hn. unfold findFirstChildWithData. rewrite nth_error_app2, Nat.sub_diag by lia.
  assert (E : exists m, tree_meta pos j = m :: kids_meta (S pos) (children j) /\ m_data m = has_scalar j /\ m_complex m = list_sum (map complex (children j)) /\
                        has_scalar j = existsb has_scalar (children j)).
  { destruct j as [s|els|ms]; [discriminate Hn| |].
    - eexists. cbn [tree_meta children]. rewrite kids_arr. split; [reflexivity|]. split; [reflexivity|]. split; reflexivity.
    - eexists. rewrite tree_obj_eq. cbn [children]. rewrite kids_obj. split; [reflexivity|]. split; [reflexivity|]. split; [cbn; rewrite map_map; reflexivity|].
      cbn. clear Hn. induction ms as [|kv ms IH]; [reflexivity|]. cbn [existsb map]. rewrite <- IH. reflexivity. }
  destruct E as (m & E & Ed & Ec & Eh). rewrite E. cbn [app nth_error]. rewrite Ed. unfold first_with_value. destruct (has_scalar j).
  - rewrite Ec. change (m :: kids_meta (S pos) (children j) ++ post) with ([m] ++ kids_meta (S pos) (children j) ++ post). rewrite app_assoc.
    apply first_child_kids. rewrite app_length. cbn [length]. lia.
  - rewrite no_first by (symmetry; exact Eh). reflexivity.
Qed.
