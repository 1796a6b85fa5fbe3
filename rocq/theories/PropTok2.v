(** Properties C04, C05, C07, C08, C09 and C46: slices, buffers, errors, scopes, reset. *)
From Verif Require Import Base ScanModel TokModel JsonSpec TokSpec TokSpecProofs TokGap TokSlice TokSticky TokJsonDoc TokScope TokDeep TokReset PropJson.
From Coq Require Import Lia.

Definition default_opts : opts := mkOpts Sse2 false false false false.

(** ** C04: token texts are slices of the input. *)

(** Any number of successful and failing calls, with scopes pushed and popped in between. *)
Theorem C04_tokens_are_slices : forall o t ts s,
  one_buffer o t ts s ->
  Forall (fun tk => slice_of t (tk_name tk) /\ slice_of t (tk_value tk)) ts /\
  increasing 0 (token_spans ts) (length t).
Proof. exact tokens_are_slices. Qed.
Print Assumptions C04_tokens_are_slices.

(** As long as no call failed, every value does point into the buffer. *)
Theorem C04_values_point_into_buffer : forall o t f nt ts e s,
  drain f o nt (tok_with [t] []) = Ok (ts, e, s) ->
  Forall (fun tk => exists off, dr_loc (tk_value tk) = InBuffer off) ts.
Proof. exact drain_values_in_buffer. Qed.
Print Assumptions C04_values_point_into_buffer.

Example C04_nonvacuous :
  let t := s2b "{""a"":[10, true]}" in
  exists ts e s, drain 100 default_opts tok_default (tok_with [t] []) = Ok (ts, e, s) /\
    token_spans ts = [(0,1); (2,1); (5,1); (6,2); (10,4); (14,1); (15,1)].
Proof. do 3 eexists. split; [vm_compute; reflexivity|reflexivity]. Qed.

(** ** C05: splitting the input into buffers. *)

(** Cutting [["abc",1]] behind the string makes the tokenizer deliver an empty element first. *)
Theorem C05_chunks_refuted : exists a b vs e vs2 e2,
  reads_as default_opts [a ++ b] [] vs e /\ reads_as default_opts [a; b] [] vs2 e2 /\ vs <> vs2.
Proof.
  exists (s2b "[""abc"""), (s2b ",1]"). do 4 eexists.
  split; [intros nt; exists 20; do 2 eexists; split; [vm_compute; reflexivity|reflexivity]|].
  split; [intros nt; exists 20; do 2 eexists; split; [vm_compute; reflexivity|reflexivity]|].
  discriminate.
Qed.
Print Assumptions C05_chunks_refuted.

(** ** C07: errors are final. *)

(** ExpectedDelimiter, EncounteredIllegalChar and IllegalPropertyType are: whatever the caller does
    next short of resetting (read, add data, push and pop scopes), no call returns a token again. *)
Theorem C07_scan_errors_are_final_partial : forall o s nt s1 e nt1 s2 nt2 s3 e3 nt3,
  reachable o s -> t_parsed s = None ->
  e = ExpectedDelimiter \/ e = EncounteredIllegalChar \/ e = IllegalPropertyType ->
  nextToken o nt s = Ok (s1, e, nt1) -> continued o s1 s2 ->
  nextToken o nt2 s2 = Ok (s3, e3, nt3) ->
  (e3 = e \/ e3 = ScopeHasEnded) /\ nt3 = nt2.
Proof. exact sticky_final. Qed.
Print Assumptions C07_scan_errors_are_final_partial.

(** So is InvalidToken for a document in one buffer. *)
Theorem C07_invalid_token_is_final_partial : forall o t ts s nt s1 nt1 s2 nt2 s3 e3 nt3,
  one_buffer o t ts s ->
  nextToken o nt s = Ok (s1, InvalidToken, nt1) -> continued o s1 s2 ->
  nextToken o nt2 s2 = Ok (s3, e3, nt3) ->
  (e3 = InvalidToken \/ e3 = ScopeHasEnded) /\ nt3 = nt2.
Proof. exact invalid_final. Qed.
Print Assumptions C07_invalid_token_is_final_partial.

Example C07_nonvacuous :
  exists s1 e1 nt1 s2 e2 nt2,
    nextToken default_opts tok_default (tok_with [s2b "{""a""]"] []) = Ok (s1, e1, nt1) /\ e1 = NoError /\
    nextToken default_opts nt1 s1 = Ok (s2, e2, nt2) /\ e2 = ExpectedDelimiter.
Proof.
  do 6 eexists. split; [vm_compute; reflexivity|]. split; [reflexivity|].
  split; [vm_compute; reflexivity|reflexivity].
Qed.

(** IllegalPropertyName is not final: after it the rest of the object is delivered. *)
Theorem C07_errors_are_final_refuted : exists t s s1 nt1 s2 nt2 s3 nt3,
  one_buffer default_opts t [] s /\
  nextToken default_opts tok_default s = Ok (s1, NoError, nt1) /\
  nextToken default_opts nt1 s1 = Ok (s2, IllegalPropertyName, nt2) /\
  nextToken default_opts nt2 s2 = Ok (s3, NoError, nt3) /\
  dr_bytes (tk_value nt3) = s2b "2".
Proof.
  exists (s2b "{1:2,""b"":3}"), (tok_with [s2b "{1:2,""b"":3}"] []). do 6 eexists.
  split; [constructor|]. split; [vm_compute; reflexivity|]. split; [vm_compute; reflexivity|].
  split; [vm_compute; reflexivity|reflexivity].
Qed.
Print Assumptions C07_errors_are_final_refuted.

(** ** C08: only JSON is accepted. *)

(** The word [abc] is delivered as an array element with default options, although the text is
    not JSON. *)
Theorem C08_only_json_refuted : exists t vs,
  reads_as default_opts [t] [] vs NeedMoreData /\
  map st_value_type vs = [TArrayStart; TAscii; TArrayEnd] /\
  forall j, ~ doc_text plain j t.
Proof.
  exists (s2b "[abc]"). eexists.
  split; [intros nt; exists 20; do 2 eexists; split; [vm_compute; reflexivity|reflexivity]|].
  split; [reflexivity|].
  intros j H. eapply (doc_no_word default_opts j _ _ plain (crosses_plain default_opts eq_refl) H) with (v := st_make None (s2b "abc") TAscii).
  - intros nt; exists 20; do 2 eexists; split; [vm_compute; reflexivity|reflexivity].
  - right. left. reflexivity.
  - reflexivity.
Qed.
Print Assumptions C08_only_json_refuted.

(** ** C09: scopes end at the matching bracket. *)

(** If, ignoring scopes, the tokenizer would deliver [ts] (balanced) and then the bracket matching
    the one just read, then after pushScope it delivers the same tokens and then ScopeHasEnded, and
    goToEndOfScope leaves it in the same place, provided less than 2^16 brackets of the scope's
    type are open at any time. *)
Theorem C09_scope_ends_partial : forall o ty nt s ts close nt1 s1,
  (ty = TArrayStart \/ ty = TObjectStart) ->
  balanced (map tk_value_type ts) -> tk_value_type close = closer ty ->
  (deepest ty 1 (map tk_value_type ts) < 65536)%N ->
  reads o nt (set_scope [] s) (ts ++ [close]) nt1 s1 ->
  exists s2,
    reads o nt (pushScope ty s) (ts ++ [close]) nt1 s2 /\
    (forall nt', nextToken o nt' s2 = Ok (s2, ScopeHasEnded, nt')) /\
    (forall f, f > length ts + 1 -> goToEndOfScope f o nt (pushScope ty s) = Ok (s2, NoError, nt1)) /\
    popScope s2 = Ok (set_scope (t_scope s) s1).
Proof. intros o ty nt s. exact (scope_ends o nt s ty). Qed.
Print Assumptions C09_scope_ends_partial.

Example C09_nonvacuous : exists s ts close nt1 s1,
  nextToken default_opts tok_default (tok_with [s2b "[{""a"":[1]},[2]] "] []) = Ok (s, NoError, nt1) /\
  reads default_opts nt1 (set_scope [] s) (ts ++ [close]) close s1 /\
  balanced (map tk_value_type ts) /\ tk_value_type close = TArrayEnd /\ length ts = 8.
Proof.
  eexists. refine (ex_intro _ [?[a];?[b];?[c];?[d];?[e];?[f];?[g];?[h]] _).
  do 3 eexists. split; [vm_compute; reflexivity|].
  split; [cbn [app]; repeat (eapply Rd_cons; [vm_compute; reflexivity|]); apply Rd_nil|].
  split; [|split; reflexivity].
  cbn. assert (B : balanced [TArrayStart; TNumber; TArrayEnd]).
  { apply (Bal_array [TNumber] []); [apply Bal_other; [discriminate..|constructor]|constructor]. }
  exact (Bal_object _ _ B B).
Qed.

(** With 2^16 arrays open the scope ends early. *)
Theorem C09_scope_ends_refuted : forall o, o_nl o = false ->
  exists nt s ts close nt1 s1,
    reachable o s /\ balanced (map tk_value_type ts) /\ tk_value_type close = TArrayEnd /\
    reads o nt (set_scope [] s) (ts ++ [close]) nt1 s1 /\
    ~ exists s2, reads o nt (pushScope TArrayStart s) (ts ++ [close]) nt1 s2.
Proof. exact deep_scope_refuted. Qed.
Print Assumptions C09_scope_ends_refuted.

(** Scopes of the same type do not nest: on [[[1],2]] with a scope pushed on both brackets, the
    outer scope has not ended when its closing bracket has been read. *)
Theorem C09_nested_scopes_refuted :
  exists s1 t1 s2 t2 s3 t3 s4 t4 s5 s6 t6 s7 t7,
    nextToken default_opts tok_default (tok_with [s2b "[[1],2] [3]"] []) = Ok (s1, NoError, t1) /\
    nextToken default_opts t1 (pushScope TArrayStart s1) = Ok (s2, NoError, t2) /\
    nextToken default_opts t2 (pushScope TArrayStart s2) = Ok (s3, NoError, t3) /\
    nextToken default_opts t3 s3 = Ok (s4, NoError, t4) /\
    (forall nt, nextToken default_opts nt s4 = Ok (s4, ScopeHasEnded, nt)) /\
    popScope s4 = Ok s5 /\
    nextToken default_opts t4 s5 = Ok (s6, NoError, t6) /\
    nextToken default_opts t6 s6 = Ok (s7, NoError, t7) /\
    map tk_value_type [t1; t2; t3; t4; t6; t7] =
      [TArrayStart; TArrayStart; TNumber; TArrayEnd; TNumber; TArrayEnd] /\
    forall nt, nextToken default_opts nt s7 <> Ok (s7, ScopeHasEnded, nt).
Proof.
  do 13 eexists.
  do 4 (split; [vm_compute; reflexivity|]).
  split; [intros nt; vm_compute; reflexivity|].
  do 3 (split; [vm_compute; reflexivity|]).
  split; [reflexivity|]. intros nt H. vm_compute in H. discriminate.
Qed.
Print Assumptions C09_nested_scopes_refuted.

(** ** C46: resetData. *)

(** After any document of the grammar has been read to its end, a reset tokenizer reads what a new
    one (with the same data callback) reads. *)
Theorem C46_reset_after_document_partial : forall o j t nt f ts e s d i f2 nt2,
  o_nl o = false -> doc_text plain j t ->
  drain f o nt (tok_with [t] []) = Ok (ts, e, s) -> i <= length d ->
  match drain f2 o nt2 (resetData d i s),
        drain f2 o nt2 (resetData d i (set_supply (t_supply s) t_init)) with
  | Ok (ts1, e1, _), Ok (ts2, e2, _) => ts1 = ts2 /\ e1 = e2
  | UB, UB | OutOfFuel, OutOfFuel => True
  | _, _ => False
  end.
Proof. intros o j t nt f ts e s d i f2 nt2 Hnl Hd. exact (reset_after_document o plain j t (crosses_plain o Hnl) Hd nt f ts e s d i f2 nt2). Qed.
Print Assumptions C46_reset_after_document_partial.

(** A reset in the middle of a document does not have this effect. *)
Theorem C46_reset_refuted : exists t d ts s ts2 s2,
  drain 20 default_opts tok_default (tok_with [t] []) = Ok (ts, NeedMoreData, s) /\
  drain 20 default_opts tok_default (resetData d 0 s) = Ok ([], ExpectedDelimiter, s2) /\
  reads_as default_opts [d] [] ts2 NeedMoreData /\ length ts2 = 3.
Proof.
  exists (s2b "{""a""  "), (s2b "[2]"). do 4 eexists.
  split; [vm_compute; reflexivity|]. split; [vm_compute; reflexivity|].
  split; [intros nt; exists 20; do 2 eexists; split; [vm_compute; reflexivity|reflexivity]|reflexivity].
Qed.
Print Assumptions C46_reset_refuted.

Example C46_nonvacuous : exists ts s,
  drain 100 default_opts tok_default (tok_with [ex_text] []) = Ok (ts, NeedMoreData, s) /\ length ts = 11.
Proof. do 2 eexists. split; [vm_compute; reflexivity|reflexivity]. Qed.
