(** The handlers of a tree need as many nested calls as the text is deep. *)
From Verif Require Import Base ScanModel TokModel JsonSpec TokSpec IntModel HandlerModel HandlerSpec HandlerTree HandlerText RecModel RecSpec.
From Coq Require Import Lia.

(** struct Tree { std::vector<Tree> c; }; *)
Definition tree_env : list rty := [RStruct [1] [([], [s2b "c"], RVec (RRef 0))]].
(** [n] trees, each within the one before. *)
Fixpoint nested (n : nat) : json := JObj [(s2b "c", JArr (match n with O => [] | S m => [nested m] end))].

Section Deep.
Context {S : Type} (next : token -> S -> outcome (S * error * token)).

Lemma tree_deep fuel : forall d n l c nm rest s' nt', d <= n ->
  stands next c (doc_tokens nm (nested n) ++ rest) s' nt' -> handler_of next fuel tree_env d 0 (VList [VList l]) c = OutOfFuel.
Proof.
  induction d as [|d IH]; intros n l c nm rest s' nt' Hd (_ & r & E & F); [reflexivity|]. destruct n as [|n]; [lia|].
  cbn [nested doc_tokens flat_map fst snd app] in E. injection E as E Er. subst r.
  cbn [handler_of struct_of nth tree_env rhandle map fst snd r_optional]. unfold struct_to.
  assert (Et : c_type c = TObjectStart) by (unfold c_type; unfold tok_view in E; destruct nm; injection E; congruence). rewrite Et. cbn [type_eqb]. clear E Et.
  inversion F as [|? ? s1 nt1 ? ? ? ? N1 V1 F1]; subst. unfold ctx_read at 1. rewrite N1. cbn [obind is_ok]. cbv zeta.
  destruct fuel as [|f]; [reflexivity|]. cbn [struct_loop].
  unfold tok_view, st_make in V1. injection V1 as V1 V2 V3 V4.
  unfold c_type, c_name. cbn [c_tok]. rewrite V4, V1. cbn [type_eqb].
  change (search_both (s2b "c") (map f_names _) (search_order 0 [1])) with (Some 0). cbn [nth_error f_to].
  unfold vec_to, c_type. cbn [c_tok]. rewrite V4. cbn [type_eqb].
  cbn [doc_tokens flat_map app] in F1. rewrite app_nil_r, <- !app_assoc in F1.
  assert (Eh : exists tl, doc_tokens None (nested n) = st_make None [lbrace] TObjectStart :: tl) by (destruct n; eexists; reflexivity).
  destruct Eh as [tl Eh]. rewrite Eh in F1. cbn [app] in F1. inversion F1 as [|? ? s2 nt2 ? ? ? ? N2 W F2]; subst.
  unfold ctx_next, ctx_read. cbn [c_tok c_src]. rewrite N2. cbn [obind is_ok]. cbn [vec_loop].
  assert (Wt : tk_value_type nt2 = TObjectStart) by (unfold tok_view, st_make in W; injection W; congruence).
  set (c2 := set_err _ _). change (c_type c2) with (tk_value_type nt2). rewrite Wt.
  assert (Hi : rinit (init_of tree_env d) (RRef 0) = VList [VList []] \/ d = 0) by (destruct d; [right|left]; reflexivity).
  assert (Hh : handler_of next (Datatypes.S f) tree_env d 0 (rinit (init_of tree_env d) (RRef 0)) c2 = OutOfFuel).
  { destruct Hi as [->| ->]; [|reflexivity]. eapply (IH n [] c2 None); [lia|]. split; [reflexivity|]. eexists. rewrite Eh. cbn [app]. split; [apply f_equal2; [symmetry; exact W|reflexivity]|exact F2]. }
  change (type_eqb TObjectStart TArrayEnd) with false. change (type_eqb TObjectStart TObjectStart) with true. change (type_eqb TArrayStart TObjectEnd) with false. change (type_eqb TArrayStart TArrayStart) with true.
  cbv iota. rewrite Hh. reflexivity.
Qed.
End Deep.

Theorem tree_needs_depth o g fuel n l text : o_nl o = false -> doc_text plain (nested n) text ->
  rparse o g tree_env fuel n (RRef 0) (VList [VList l]) text = OutOfFuel.
Proof.
  intros Ho Hd. destruct (text_feeds o g _ text Ho Hd) as (s' & nt' & F). unfold rparse, rparseTo, ctx_next, ctx_read. change (c_tok (context_of g text)) with tok_default.
  destruct (doc_tokens None (nested n)) as [|v0 vs] eqn:Ed; [destruct n; discriminate Ed|].
  inversion F as [|? ? s1 nt1 ? ? ? ? Hn Hv0 Hfd]; subst. rewrite Hn. cbn [obind is_ok]. unfold rto. cbn [rhandle]. set (c := set_err _ _).
  rewrite (tree_deep (nextToken o) fuel n n l c None [] s' nt'); [reflexivity|lia|]. rewrite app_nil_r, Ed. split; [reflexivity|]. eexists. split; [reflexivity|exact Hfd].
Qed.
