(** Property C09: the ends of scopes. *)
From Verif Require Import Base ScanModel TokModel TokSpec ErrCtxModel.
From Coq Require Import Lia.

(** A scope pushed on a scalar has ended at once: nothing is read in it, nothing changes, the error context included,
    and popping it restores the tokenizer. *)
Theorem C09_scalar_scope : forall o g c ty nt s, ty <> TArrayStart -> ty <> TObjectStart ->
  nextToken o nt (pushScope ty s) = Ok (pushScope ty s, ScopeHasEnded, nt) /\
  (forall f, goToEndOfScope f o nt (pushScope ty s) = Ok (pushScope ty s, NoError, nt)) /\
  context_after g (pushScope ty s) ScopeHasEnded c = Ok c /\
  popScope (pushScope ty s) = Ok s.
Proof.
  intros o g c ty nt s Ha Ho.
  assert (E : t_scope (pushScope ty s) = (ty, 0%N) :: t_scope s) by (destruct ty; congruence || reflexivity).
  split; [unfold nextToken; rewrite E; reflexivity|]. split; [intros f; destruct f; cbn [goToEndOfScope]; rewrite E; reflexivity|].
  split; [reflexivity|]. unfold popScope. rewrite E. destruct s; reflexivity.
Qed.
Print Assumptions C09_scalar_scope.

(** Whatever the state: goToEndOfScope reads tokens; it returns NoError only at the end of the scope, and any other
    error is the one the next token gave. *)
Theorem C09_go_to_end : forall f o nt s s1 e nt1, goToEndOfScope f o nt s = Ok (s1, e, nt1) ->
  exists ts nt0 s0, reads o nt s ts nt0 s0 /\
    (e = NoError /\ s1 = s0 /\ nt1 = nt0 /\ (exists ty r, t_scope s1 = (ty, 0%N) :: r) \/
     e <> NoError /\ nextToken o nt0 s0 = Ok (s1, e, nt1)).
Proof.
  induction f as [|f IH]; intros o nt s s1 e nt1 H; cbn [goToEndOfScope] in H; destruct (t_scope s) as [|[ty d] r] eqn:E; try discriminate H;
    destruct (N.eqb_spec d 0) as [->|Hd]; try discriminate H.
  - injection H as <- <- <-. exists [], nt, s. split; [constructor|]. left. eauto 6.
  - injection H as <- <- <-. exists [], nt, s. split; [constructor|]. left. eauto 6.
  - destruct (nextToken o nt s) as [[[s2 e2] nt2]| |] eqn:N; cbn [obind] in H; try discriminate H.
    assert (C : e2 = NoError \/ e2 <> NoError) by (destruct e2; (left; reflexivity) || (right; discriminate)). destruct C as [->|C].
    + destruct (IH _ _ _ _ _ _ H) as (ts & nt0 & s0 & R & X). exists (nt2 :: ts), nt0, s0. split; [exact (Rd_cons _ _ _ _ _ _ _ _ N R)|exact X].
    + exists [], nt, s. split; [constructor|]. right.
      assert (Q : Ok (s2, e2, nt2) = Ok (s1, e, nt1)) by (destruct e2; congruence). injection Q as <- <- <-. auto.
Qed.
Print Assumptions C09_go_to_end.

(** A scope that is left by an error, and one on a number. *)
Example C09_go_to_end_nonvacuous :
  let o := mkOpts Sse2 false false false false in
  let s := tok_with [s2b "[1,}"] [] in
  match nextToken o tok_default s with
  | Ok (s1, _, t) => match goToEndOfScope 10 o t (pushScope TArrayStart s1) with Ok (_, e, _) => Some e | _ => None end
  | _ => None
  end = Some UnexpectedObjectEnd /\
  exists s1 t, nextToken o tok_default s = Ok (s1, NoError, t) /\
    goToEndOfScope 10 o t (pushScope TNumber s1) = Ok (pushScope TNumber s1, NoError, t).
Proof. split; [vm_compute; reflexivity|]. eexists. eexists. split; vm_compute; reflexivity. Qed.
