(** Properties C03, C11 and C12: which tokens a JSON document yields. *)
From Verif Require Import Base ScanModel TokModel JsonSpec TokSpec TokLoops TokGap TokJsonDoc.

(** ** C03: every valid JSON document is tokenized to exactly its tokens. *)

(** The grammar [value_text] covers RFC 8259 strings and numbers. *)
Theorem C03_strings_covered : forall l, rfc_string l -> scalar_ok (SStr l).
Proof. exact rfc_string_body. Qed.
Print Assumptions C03_strings_covered.

Theorem C03_numbers_covered : forall l, rfc_number l -> scalar_ok (SNum l).
Proof. exact rfc_number_text. Qed.
Print Assumptions C03_numbers_covered.

(** For every build and every option but allowNewLineAsTokenDelimiter (see C11). *)
Theorem C03_document_tokens : forall o j t,
  o_nl o = false -> doc_text plain j t ->
  reads_as o [t] [] (doc_tokens None j) NeedMoreData.
Proof. intros o j t Hnl. apply doc_reads_as, crosses_plain, Hnl. Qed.
Print Assumptions C03_document_tokens.

(** An object with a nested array, an escaped quote in a name and a line break. *)
Definition ex_doc : json :=
  JObj [(s2b "a", JArr [JScalar (SNum (s2b "-1.5e3")); JScalar STrue; JObj []; JArr []]);
        (s2b "b\""", JScalar SNull)].
Definition ex_text : bytes :=
  s2b " { ""a"" : [ -1.5e3 , true,{}, [ ] ],
""b\"""" :null } ".

Ltac solve_ws :=
  match goal with |- gap _ _ => idtac | |- gap_after _ _ _ => idtac end;
  repeat constructor; (left; reflexivity) || (right; left; reflexivity)
  || (right; right; left; reflexivity) || (right; right; right; reflexivity).

Example C03_nonvacuous : doc_text plain ex_doc ex_text.
Proof.
  split; [exact I|].
  exists (s2b " "), (s2b "{ ""a"" : [ -1.5e3 , true,{}, [ ] ],
""b\"""" :null }"), (s2b " ").
  split; [solve_ws|]. split; [solve_ws|]. split; [|reflexivity].
  apply (VT_obj _ _ (s2b " ""a"" : [ -1.5e3 , true,{}, [ ] ],
""b\"""" :null ")).
  apply (MT_cons _ (s2b "a") _ (s2b "[ -1.5e3 , true,{}, [ ] ]") (s2b " ") (s2b " ") (s2b " ") []
    _ (s2b "
""b\"""" :null ")); try solve_ws; [constructor; [discriminate|discriminate|constructor] | |].
  - apply (VT_arr _ _ (s2b " -1.5e3 , true,{}, [ ] ")).
    apply (ET_cons _ _ (s2b "-1.5e3") (s2b " ") (s2b " ") _ (s2b " true,{}, [ ] ")); try solve_ws.
    + apply (VT_scalar _ (SNum (s2b "-1.5e3"))). apply rfc_number_text.
      exists [x2d], [x31], (s2b ".5"), (s2b "e3"). split; [reflexivity|]. split; [right; reflexivity|].
      split; [|split].
      * right. exists x31, []. repeat split; try discriminate; constructor.
      * right. exists [x35]. repeat split; try discriminate. repeat constructor; discriminate.
      * right. exists x65, [], [x33]. split; [reflexivity|]. split; [right; reflexivity|].
        split; [left; reflexivity|]. split; [discriminate|]. repeat constructor; discriminate.
    + apply (ET_cons _ _ (s2b "true") (s2b " ") [] _ (s2b "{}, [ ] ")); try solve_ws.
      * apply (VT_scalar _ STrue). exact I.
      * apply (ET_cons _ _ (s2b "{}") [] [] _ (s2b " [ ] ")); try solve_ws.
        -- apply (VT_obj_empty _ []). solve_ws.
        -- apply (ET_one _ _ (s2b "[ ]") (s2b " ") (s2b " ")); try solve_ws.
           apply (VT_arr_empty _ (s2b " ")). solve_ws.
  - apply (MT_one _ (s2b "b\""") _ (s2b "null") (s2b "
") (s2b " ") [] (s2b " ")); try solve_ws.
    + constructor; [discriminate|discriminate|]. apply SB_esc. constructor.
    + apply (VT_scalar _ SNull). exact I.
Qed.

Definition default_opts : opts := mkOpts Sse2 false false false false.

Example C03_example_tokens :
  map (fun v => (st_name v, st_value v)) (doc_tokens None ex_doc) =
  [([], s2b "{"); (s2b "a", s2b "["); ([], s2b "-1.5e3"); ([], s2b "true"); ([], s2b "{"); ([], s2b "}");
   ([], s2b "["); ([], s2b "]"); ([], s2b "]"); (s2b "b\""", s2b "null"); ([], s2b "}")].
Proof. reflexivity. Qed.

(** ** C11: lenient options do not change valid documents. *)

(** allowAsciiType, allowSuperfluousComma and allowComments, in all combinations. *)
Theorem C11_lenient_options_harmless_partial : forall i ascii comma comments j t,
  doc_text plain j t ->
  reads_as (mkOpts i ascii false comma comments) [t] [] (doc_tokens None j) NeedMoreData.
Proof. intros i a c m j t. apply doc_reads_as, crosses_plain. reflexivity. Qed.
Print Assumptions C11_lenient_options_harmless_partial.

(** allowNewLineAsTokenDelimiter: only for documents on one line. *)
Theorem C11_newline_option_harmless_on_one_line_partial : forall o j t,
  doc_text one_line j t -> reads_as o [t] [] (doc_tokens None j) NeedMoreData.
Proof. intros o j t. apply doc_reads_as, crosses_one_line. Qed.
Print Assumptions C11_newline_option_harmless_on_one_line_partial.

(** With allowNewLineAsTokenDelimiter a valid document over several lines can be rejected. *)
Theorem C11_newline_option_refuted :
  exists j t, doc_text plain j t /\
    forall i, ~ reads_as (mkOpts i false true false false) [t] [] (doc_tokens None j) NeedMoreData.
Proof.
  exists (JObj [(s2b "a", JScalar (SNum (s2b "1"))); (s2b "b", JScalar (SNum (s2b "2")))]).
  exists (s2b "{""a"":1
,""b"":2}").
  split.
  - split; [exact I|].
    exists [], (s2b "{""a"":1
,""b"":2}"), []. split; [solve_ws|]. split; [solve_ws|]. split; [|reflexivity].
    apply (VT_obj _ _ (s2b """a"":1
,""b"":2")).
    apply (MT_cons _ (s2b "a") _ (s2b "1") [] [] [] (s2b "
") _ (s2b """b"":2")); try solve_ws.
    + constructor; [discriminate|discriminate|constructor].
    + apply (VT_scalar _ (SNum (s2b "1"))). exists x31, []. repeat split; try constructor.
      unfold is_digit; vm_compute; split; discriminate.
    + apply (MT_one _ (s2b "b") _ (s2b "2") [] [] [] []); try solve_ws.
      * constructor; [discriminate|discriminate|constructor].
      * apply (VT_scalar _ (SNum (s2b "2"))). exists x32, []. repeat split; try constructor.
        unfold is_digit; vm_compute; split; discriminate.
  - intros i H. destruct (H tok_default) as (f & ts & s & E & Ev).
    destruct f as [|[|[|f]]]; [discriminate E|destruct i; vm_compute in E; discriminate E|
      destruct i; vm_compute in E; discriminate E|].
    destruct i; vm_compute in E; discriminate E.
Qed.
Print Assumptions C11_newline_option_refuted.

(** ** C12: comments count as whitespace. *)

(** With allowComments, a document with comments wherever whitespace is allowed, but not
    directly after true, false or null, yields the tokens of the document. *)
Theorem C12_comments_are_whitespace_partial : forall o j t,
  o_comments o = true -> o_nl o = false -> doc_text commented j t ->
  reads_as o [t] [] (doc_tokens None j) NeedMoreData.
Proof. intros o j t Hc Hnl. apply doc_reads_as, crosses_commented; assumption. Qed.
Print Assumptions C12_comments_are_whitespace_partial.

Definition ex_commented : bytes :=
  s2b "//x
[ true //y
,//""z
5]".

Example C12_nonvacuous :
  doc_text commented (JArr [JScalar STrue; JScalar (SNum (s2b "5"))]) ex_commented.
Proof.
  split; [exact I|].
  exists (s2b "//x
"), (s2b "[ true //y
,//""z
5]"), [].
  split; [apply (WC_comment (s2b "x") []); [intros [H|[]]; discriminate H|constructor]|].
  split; [split; [constructor|intros []]|]. split; [|reflexivity].
  apply (VT_arr _ _ (s2b " true //y
,//""z
5")).
  apply (ET_cons _ _ (s2b "true") (s2b " ") (s2b " //y
") _ (s2b "//""z
5")).
  - apply WC_ws; [left; reflexivity|constructor].
  - split; [|intros _ w' H; discriminate H]. apply WC_ws; [left; reflexivity|].
    apply (WC_comment (s2b "y") []); [intros [H|[]]; discriminate H|constructor].
  - apply (VT_scalar _ STrue). exact I.
  - apply (ET_one _ _ (s2b "5") (s2b "//""z
") []).
    + apply (WC_comment (s2b """z") []); [intros [H|[H|[]]]; discriminate H|constructor].
    + split; [constructor|intros []].
    + apply (VT_scalar _ (SNum (s2b "5"))). exists x35, []. repeat split; try constructor.
      unfold is_digit; vm_compute; split; discriminate.
Qed.

(** A comment directly after a word becomes a part of the word. *)
Theorem C12_comment_after_word_refuted :
  reads_as (mkOpts Scalar false false false true) [s2b "{""a"":true //c
}"] [] (doc_tokens None (JObj [(s2b "a", JScalar STrue)])) NeedMoreData /\
  reads_as (mkOpts Scalar false false false true) [s2b "{""a"":true//c
}"] [] [st_make None [lbrace] TObjectStart] IllegalDataValue.
Proof.
  split; intros nt; exists 5; do 2 eexists; (split; [vm_compute; reflexivity|reflexivity]).
Qed.
Print Assumptions C12_comment_after_word_refuted.
