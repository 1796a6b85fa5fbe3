(** C10: raw capture of objects and arrays. *)
From Verif Require Import Base ScanModel TokModel TokSpec PropTok CopyModel CopySpec CopyProofs.
Local Open Scope nat_scope.

(** JsonObject, JsonArray and JsonObjectOrArray.  The tokenizer is in any state a session with raw
    captures can reach, over any buffers present or still to be delivered.  When the token just
    read opens a container of the right kind, the handler returns, and if it succeeds

    - the target string is extended by the opening bracket, the bytes passed over, and the closing
      bracket: what was unread is exactly the captured rest followed by what is unread now;
    - the tokens read between the two brackets are balanced, so the closing bracket is the one
      that matches, and the nesting is what it was before the value. *)
Theorem C10_capture_exact : forall o s nt s0 tk k id txt opn cls,
  capturing o s -> nextToken o nt s = Ok (s0, NoError, tk) -> ~ In id (map fst (t_copy s0)) ->
  raw_start k (tk_value_type tk) = inl (opn, cls) ->
  exists f0 s1 e tk1 out,
    (forall f, f0 <= f -> raw_to f o k id txt tk s0 = Ok (s1, e, tk1, out)) /\
    (e = NoError ->
       (exists body, out = txt ++ [opening opn] ++ body ++ [closing opn] /\
          unread s0 = body ++ [closing opn] ++ unread s1) /\
       t_stack s1 = t_stack s /\
       (exists s0' s1' ts, copyFromValue id txt tk s0 = Ok s0' /\ reads o tk s0' (ts ++ [tk1]) tk1 s1' /\
          balanced (map tk_value_type ts) /\ tk_value_type tk1 = cls)).
Proof. exact capture_correct. Qed.
Print Assumptions C10_capture_exact.

(** A token of another kind is refused and nothing is touched. *)
Theorem C10_wrong_kind_refused : forall f o k id txt tk s,
  (k = RawArray /\ tk_value_type tk <> TArrayStart) \/ (k = RawObject /\ tk_value_type tk <> TObjectStart) \/
  (k = RawEither /\ tk_value_type tk <> TArrayStart /\ tk_value_type tk <> TObjectStart) ->
  exists e, e <> NoError /\ raw_to f o k id txt tk s = Ok (s, e, tk, txt).
Proof.
  intros f o k id txt tk s H. unfold raw_to.
  destruct H as [[-> H]|[[-> H]|(-> & H1 & H2)]]; destruct (tk_value_type tk); try congruence;
    (eexists; split; [|reflexivity]; discriminate).
Qed.
Print Assumptions C10_wrong_kind_refused.

(** An object over three buffers, the first cut directly behind a name; it is captured inside an
    array, into a string that is empty. *)
Definition c10_bufs : list bytes := [s2b "[ {""a"""; s2b ":[1,{""b"":2}"; s2b "], ""}"":3 } ,4]"].
Definition c10_run (k : raw_kind) (skip : nat) (txt : bytes) (bufs : list bytes) :=
  let s := tok_with bufs [] in
  let fix go n tk s := match n with
    | O => raw_to 100 default_opts k 7 txt tk s
    | S n => let* (s1, _, tk1) := nextToken default_opts tk s in go n tk1 s1
    end in
  let* (s1, e, tk1, out) := go skip tok_default s in
  Ok (e, out, unread s1, t_copy s1).
Example C10_nonvacuous :
  c10_run RawObject 2 [] c10_bufs = Ok (NoError, s2b "{""a"":[1,{""b"":2}], ""}"":3 }", s2b " ,4]", []).
Proof. vm_compute. reflexivity. Qed.
Example C10_nonvacuous_either :
  c10_run RawEither 1 [] c10_bufs = Ok (NoError, s2b "[ {""a"":[1,{""b"":2}], ""}"":3 } ,4]", [], []).
Proof. vm_compute. reflexivity. Qed.

(** JsonObjectRef and the other references: the same, provided that no buffer is given up while
    the value is read and the opening bracket was found in the buffer.  Missing from the full
    claim: values that span buffers, see below. *)
Theorem C10_reference_exact_partial : forall o s nt s0 tk k opn cls,
  capturing o s -> nextToken o nt s = Ok (s0, NoError, tk) ->
  raw_start k (tk_value_type tk) = inl (opn, cls) -> dr_loc (tk_value tk) <> InIntermediate ->
  exists f0 s1 e tk1,
    (forall f, f0 <= f -> raw_loop f o opn cls 1 tk s0 = Ok (s1, e, tk1)) /\
    (buffers_left s1 = buffers_left s0 ->
     exists out, (forall f, f0 <= f -> raw_ref_to f o k tk s0 = Ok (s1, e, tk1, out)) /\
       (e = NoError ->
        (exists body, out = Some ([opening opn] ++ body ++ [closing opn]) /\
           unread s0 = body ++ [closing opn] ++ unread s1) /\
        t_stack s1 = t_stack s /\
        (exists ts, reads o tk s0 (ts ++ [tk1]) tk1 s1 /\
           balanced (map tk_value_type ts) /\ tk_value_type tk1 = cls))).
Proof. exact reference_correct. Qed.
Print Assumptions C10_reference_exact_partial.

Definition c10_ref (k : raw_kind) (bufs : list bytes) :=
  let* (s1, e, tk) := nextToken default_opts tok_default (tok_with bufs []) in
  let* (s2, e2, tk2, out) := raw_ref_to 100 default_opts k tk s1 in
  Ok (e2, out, unread s2).
Example C10_reference_nonvacuous :
  c10_ref RawObject [s2b " {""a"":[1,{""b"":2}]} x"] = Ok (NoError, Some (s2b "{""a"":[1,{""b"":2}]}"), s2b " x").
Proof. vm_compute. reflexivity. Qed.

(** A value that spans two buffers: the size is the difference of pointers into different buffers. *)
Theorem C10_reference_spanning_refuted : exists bufs s1 tk,
  nextToken default_opts tok_default (tok_with bufs []) = Ok (s1, NoError, tk) /\
  tk_value_type tk = TObjectStart /\
  (forall f, 100 <= f -> raw_ref_to f default_opts RawObject tk s1 = UB) /\
  exists s2 e tk2 out, raw_to 100 default_opts RawObject 0 [] tk s1 = Ok (s2, e, tk2, out) /\ out = concat bufs.
Proof.
  exists [s2b "{""a"":1"; s2b "}"]. do 2 eexists. split; [vm_compute; reflexivity|]. split; [reflexivity|]. split.
  - intros f Hf. set (s := mkT _ _ _ _ _ _ _ _ _ _ _ _ _ _ _). set (tk := anonymous_token _ _) || set (tk := mkTok _ _ _ _).
    destruct (raw_loop 100 default_opts TObjectStart TObjectEnd 1 tk s) as [[[s1 e] tk1]| |] eqn:E; [|vm_compute in E; discriminate..].
    unfold raw_ref_to. change (raw_start RawObject (tk_value_type tk)) with (@inl (type * type) error (TObjectStart, TObjectEnd)).
    cbv iota. rewrite (raw_loop_fuel _ _ _ _ _ _ _ _ _ E Hf). cbn [obind]. vm_compute in E. injection E as <- <- <-. reflexivity.
  - do 4 eexists. split; [vm_compute; reflexivity|]. reflexivity.
Qed.
Print Assumptions C10_reference_spanning_refuted.

(** The text is appended to what the string holds, so reading twice into the same JsonObject (for
    example a repeated member) keeps both texts. *)
Theorem C10_replaces_refuted : exists bufs s1 tk s2 tk2 out,
  nextToken default_opts tok_default (tok_with bufs []) = Ok (s1, NoError, tk) /\
  raw_to 100 default_opts RawObject 0 (s2b "{}") tk s1 = Ok (s2, NoError, tk2, out) /\ out = s2b "{}{}".
Proof.
  exists [s2b "{}"]. do 5 eexists. split; [vm_compute; reflexivity|]. split; [vm_compute; reflexivity|reflexivity].
Qed.
Print Assumptions C10_replaces_refuted.

(** A JsonArray that fails leaves its copy buffer registered: the tokenizer keeps the address of
    the string and goes on appending to it; JsonObject and JsonObjectOrArray do not. *)
Theorem C10_failed_array_refuted : exists bufs s1 tk,
  nextToken default_opts tok_default (tok_with bufs []) = Ok (s1, NoError, tk) /\
  (exists s2 e tk2 out, raw_to 100 default_opts RawArray 0 [] tk s1 = Ok (s2, e, tk2, out) /\
     e = ExpectedDelimiter /\ map fst (t_copy s2) = [0]) /\
  (exists s2 e tk2 out, raw_to 100 default_opts RawEither 0 [] tk s1 = Ok (s2, e, tk2, out) /\
     e = ExpectedDelimiter /\ map fst (t_copy s2) = []).
Proof.
  exists [s2b "[1:2]"]. do 2 eexists. split; [vm_compute; reflexivity|].
  split; (do 4 eexists; split; [vm_compute; reflexivity|]; split; reflexivity).
Qed.
Print Assumptions C10_failed_array_refuted.
