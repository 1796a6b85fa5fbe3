(** Property C08: which texts are accepted with the default options. *)
From Verif Require Import Base ScanModel TokModel TokSpec JsonSpec LenientSpec LenientRun Lenient LenientStrict TokJsonDoc PropTok2.

(** One buffer without NUL bytes, default options, any instruction set: the tokenizer delivers [vs],
    balanced, and then asks for more data exactly when the text follows the grammar of JSON extended by
    the nine deviations of LenientSpec.v and [vs] are its tokens.  C08 itself fails
    (C08_only_json_refuted); missing here are NUL bytes. *)
Theorem C08_accepted_exactly_partial : forall o t vs,
  o_comments o = false -> o_nl o = false -> o_comma o = false -> o_ascii o = false -> ~ In x00 t ->
  (reads_as o [t] [] vs NeedMoreData /\ balanced (map st_value_type vs) <-> accepted all_dev t vs).
Proof. exact accepted_exactly. Qed.
Print Assumptions C08_accepted_exactly_partial.

(** Without deviations, that grammar is RFC 8259 with an array or object as root: the same texts, the
    same tokens. *)
Theorem C08_no_deviation_is_json : forall t vs, vs <> [] ->
  (accepted no_dev t vs <-> exists j, rfc_text j t /\ vs = doc_tokens None j).
Proof. exact strict_is_json. Qed.
Print Assumptions C08_no_deviation_is_json.

(** ** Texts *)

Ltac not_nul := intros H; vm_compute in H; repeat (destruct H as [H|H]; [discriminate H|]); destruct H.

(** Whether a text is accepted is decided by running the model. *)
Definition takes (t : bytes) (vs : list stoken) : Prop :=
  reads_as default_opts [t] [] vs NeedMoreData /\ balanced (map st_value_type vs) /\ ~ In x00 t.

Lemma takes_accepted t vs : takes t vs -> accepted all_dev t vs.
Proof. intros (H1 & H2 & H3). apply (accepted_exactly default_opts); try reflexivity; auto. Qed.

Ltac bal := cbn; match goal with
  | |- balanced [] => apply Bal_nil
  | |- balanced (TArrayStart :: _) =>
      first [apply (Bal_array []); solve [bal] | apply (Bal_array [_]); solve [bal]
        | apply (Bal_array [_; _]); solve [bal] | apply (Bal_array [_; _; _]); solve [bal]]
  | |- balanced (TObjectStart :: _) =>
      first [apply (Bal_object []); solve [bal] | apply (Bal_object [_]); solve [bal]
        | apply (Bal_object [_; _]); solve [bal] | apply (Bal_object [_; _; _]); solve [bal]
        | apply (Bal_object [_; _; _; _]); solve [bal]]
  | |- _ => apply Bal_other; [discriminate|discriminate|discriminate|discriminate|bal]
  end.

Ltac takes_run := split;
  [intros nt; exists 40; do 2 eexists; split; [vm_compute; reflexivity|reflexivity]|split; [bal|not_nul]].

(** The hypotheses are met by a text with every kind of value. *)
Example C08_json_taken : takes (s2b " {""a"": [1, ""x""]}")
  [st_make None (s2b "{") TObjectStart; st_make (Some (s2b "a")) (s2b "[") TArrayStart;
   st_make None (s2b "1") TNumber; st_make None (s2b "x") TString; st_make None (s2b "]") TArrayEnd;
   st_make None (s2b "}") TObjectEnd].
Proof. takes_run. Qed.

(** Every deviation is really taken: one text for each. *)
Example C08_junk_taken : takes (s2b "[./1]")
  [st_make None (s2b "[") TArrayStart; st_make None (s2b "1") TNumber; st_make None (s2b "]") TArrayEnd].
Proof. takes_run. Qed.
Example C08_word_taken : takes (s2b "[a-1.]")
  [st_make None (s2b "[") TArrayStart; st_make None (s2b "a-1.") TAscii; st_make None (s2b "]") TArrayEnd].
Proof. takes_run. Qed.
Example C08_last_comma_taken : takes (s2b "[1,]")
  [st_make None (s2b "[") TArrayStart; st_make None (s2b "1") TNumber; st_make None (s2b "]") TArrayEnd].
Proof. takes_run. Qed.
Example C08_unnamed_taken : takes (s2b "{[],{}}")
  [st_make None (s2b "{") TObjectStart; st_make None (s2b "[") TArrayStart; st_make None (s2b "]") TArrayEnd;
   st_make None (s2b "{") TObjectStart; st_make None (s2b "}") TObjectEnd; st_make None (s2b "}") TObjectEnd].
Proof. takes_run. Qed.
Example C08_no_value_taken : takes (s2b "{""a"":}")
  [st_make None (s2b "{") TObjectStart; st_make (Some (s2b "a")) (s2b "}") TObjectEnd].
Proof. takes_run. Qed.
Example C08_string_taken : takes (s2b "[""\q""]")
  [st_make None (s2b "[") TArrayStart; st_make None (s2b "\q") TString; st_make None (s2b "]") TArrayEnd].
Proof. takes_run. Qed.
Example C08_number_taken : takes (s2b "[1-2e.]")
  [st_make None (s2b "[") TArrayStart; st_make None (s2b "1-2e.") TNumber; st_make None (s2b "]") TArrayEnd].
Proof. takes_run. Qed.
Example C08_roots_taken : takes (s2b "[][]")
  [st_make None (s2b "[") TArrayStart; st_make None (s2b "]") TArrayEnd;
   st_make None (s2b "[") TArrayStart; st_make None (s2b "]") TArrayEnd].
Proof. takes_run. Qed.
Example C08_tail_taken : takes (s2b "{} ""x")
  [st_make None (s2b "{") TObjectStart; st_make None (s2b "}") TObjectEnd].
Proof. takes_run. Qed.

(** And some texts are refused: no tokens make them follow the grammar. *)
Lemma refused t us e : reads_as default_opts [t] [] us e -> e <> NeedMoreData -> ~ In x00 t ->
  forall vs, ~ accepted all_dev t vs.
Proof.
  intros H1 He Hn vs H. apply (accepted_exactly default_opts) in H; try reflexivity; try exact Hn.
  destruct H as [H _]. destruct (reads_as_det _ _ _ _ _ _ _ H1 H) as [_ E]. exact (He E).
Qed.
Example C08_missing_comma_refused : forall vs, ~ accepted all_dev (s2b "[1 2]") vs.
Proof.
  eapply refused; [intros nt; exists 20; do 2 eexists; split; [vm_compute; reflexivity|reflexivity]|discriminate|not_nul].
Qed.
Example C08_missing_colon_refused : forall vs, ~ accepted all_dev (s2b "{""a"" 1}") vs.
Proof.
  eapply refused; [intros nt; exists 20; do 2 eexists; split; [vm_compute; reflexivity|reflexivity]|discriminate|not_nul].
Qed.
