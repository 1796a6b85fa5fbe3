(** Properties C64 and C65: reformat on arbitrary bytes, and what a longer input changes. *)
From Verif Require Import Base ScanModel TokModel JsonSpec TokSpec TokJsonDoc TokGap SerModel SerSpec
  LayoutSpec SerLayout PrefixProofs ReformatProofs PropSer.
Local Open Scope nat_scope.

(** ** C64: reformat accepts any bytes. *)

Theorem C64_reformat_defined : forall i so n0 t,
  exists e out, reformat i so n0 t = Ok (e, out) /\ e <> NeedMoreData.
Proof.
  intros. destruct (reformat_total i so n0 t) as (f & ts & e & s & _ & _ & _ & E).
  do 2 eexists. split; [exact E|]. destruct e; discriminate.
Qed.
Print Assumptions C64_reformat_defined.

(** The output is what a serializer with any other buffers writes for the tokens of the input; the
    result is the error at which reading stopped, where running out of input is no error. *)
Theorem C64_output_is_the_tokens : forall i so n0 t f ts e s n sup bs se,
  drain f (mkOpts i false false false false) tok_default (tok_with [t] []) = Ok (ts, e, s) ->
  (forall k, 0 < sup k) ->
  ser_writes ts (ser_make so n sup) = Ok (bs, se) ->
  reformat i so n0 t = Ok (match e with NeedMoreData => NoError | _ => e end, ser_output se).
Proof. exact reformat_written. Qed.
Print Assumptions C64_output_is_the_tokens.

(** Neither the size of the string passed in nor the build matters. *)
Theorem C64_buffer_irrelevant : forall i1 i2 so n1 n2 t, reformat i1 so n1 t = reformat i2 so n2 t.
Proof. exact reformat_same_data. Qed.
Print Assumptions C64_buffer_irrelevant.

(** The output is at most linear in the input: the input's own bytes, and per token the longest
    indentation, the line ending and 22 further bytes. *)
Theorem C64_output_length : forall i so n0 t e out,
  (so_depth so < 256)%N -> reformat i so n0 t = Ok (e, out) ->
  length out <= length t + (length t + 1) *
    (Nat.max (length (so_prefix so)) (if so_pretty so then N.to_nat (256 * so_shift so) else 0)
     + length (so_postfix so) + 22).
Proof. exact reformat_length. Qed.
Print Assumptions C64_output_length.

Theorem C64_default_output_length : forall i pretty n0 t e out,
  reformat i (so_make pretty) n0 t = Ok (e, out) ->
  length out <= length t + (length t + 1) * (if pretty then 535 else 22).
Proof.
  intros i pretty n0 t e out H. destruct pretty.
  - exact (reformat_length i (so_make true) n0 t e out eq_refl H).
  - exact (reformat_length i (so_make false) n0 t e out eq_refl H).
Qed.
Print Assumptions C64_default_output_length.

(** Bytes that are no document: what was read before the error is written. *)
Example C64_nonvacuous :
  reformat Sse2 (so_make false) 1 (s2b " { ""a"" : [1, ""x\ny"",true] ]") = Ok (UnexpectedArrayEnd, s2b "{""a"":[1,""x\ny"",true]") /\
  reformat Neon (so_make false) 7 (s2b "]") = Ok (UnexpectedArrayEnd, []) /\
  reformat Avx2 (so_make false) 7 [x00; xff; x01] = Ok (EncounteredIllegalChar, []) /\
  (so_depth (so_make true) < 256)%N.
Proof.
  split; [vm_compute; reflexivity|]. split; [vm_compute; reflexivity|]. split; [vm_compute; reflexivity|reflexivity].
Qed.

(** ** C65: more input only adds tokens. *)

(** Whatever follows a text in the buffer, the tokens of the text are read first. *)
Theorem C65_tokens_stay : forall o t u f f2 nt ts e s ts2 e2 s2,
  drain f o nt (tok_with [t] []) = Ok (ts, e, s) ->
  drain f2 o nt (tok_with [t ++ u] []) = Ok (ts2, e2, s2) ->
  exists more, ts2 = ts ++ more.
Proof.
  intros [i a n c k] t u f f2 nt ts e s ts2 e2 s2 D D2.
  destruct (drain_prefix i (mkOpts i a n c k) t u f f2 nt ts e s ts2 e2 s2 D D2) as (more & H & _).
  exists more. exact H.
Qed.
Print Assumptions C65_tokens_stay.

(** An error other than running out of data is final: no continuation of the text removes it. With
    comments allowed, two errors are excepted. *)
Theorem C65_error_is_final : forall o t u f f2 nt ts e s ts2 e2 s2,
  drain f o nt (tok_with [t] []) = Ok (ts, e, s) ->
  drain f2 o nt (tok_with [t ++ u] []) = Ok (ts2, e2, s2) ->
  e <> NeedMoreData ->
  (o_comments o = true -> e <> ExpectedDelimiter /\ e <> InvalidToken) ->
  ts2 = ts /\ e2 = e.
Proof.
  intros [i a n c k] t u f f2 nt ts e s ts2 e2 s2 D D2 H1 H2.
  destruct (drain_prefix i (mkOpts i a n c k) t u f f2 nt ts e s ts2 e2 s2 D D2) as (more & -> & K).
  destruct (K (conj H1 H2)) as [-> ->]. rewrite app_nil_r. auto.
Qed.
Print Assumptions C65_error_is_final.

(** The exceptions are needed: with comments allowed, a slash at the end of the data is reported as
    an error although it may begin a comment. *)
Theorem C65_error_is_final_refuted :
  let o := mkOpts Sse2 false false false true in
  (exists ts s, drain 9 o tok_default (tok_with [s2b "[1/"] []) = Ok (ts, ExpectedDelimiter, s)) /\
  (exists ts s, drain 9 o tok_default (tok_with [s2b "[1/" ++ s2b "/
,2]"] []) = Ok (ts, NeedMoreData, s) /\ length ts = 4) /\
  (exists ts s, drain 9 o tok_default (tok_with [s2b "[[]/"] []) = Ok (ts, InvalidToken, s)) /\
  (exists ts s, drain 9 o tok_default (tok_with [s2b "[[]/" ++ s2b "/
,2]"] []) = Ok (ts, NeedMoreData, s) /\ length ts = 5).
Proof.
  cbv zeta. split; [do 2 eexists; vm_compute; reflexivity|].
  split; [do 2 eexists; split; [vm_compute; reflexivity|reflexivity]|].
  split; [do 2 eexists; vm_compute; reflexivity|].
  do 2 eexists; split; [vm_compute; reflexivity|reflexivity].
Qed.
Print Assumptions C65_error_is_final_refuted.

(** No beginning of a document's text is an error: the tokenizer asks for more, after the first
    tokens of the document. *)
Theorem C65_document_prefix : forall o j t u f nt ts e s,
  o_nl o = false -> o_comments o = false -> doc_text plain j (t ++ u) ->
  drain f o nt (tok_with [t] []) = Ok (ts, e, s) ->
  e = NeedMoreData /\ exists more, doc_tokens None j = map tok_view ts ++ more.
Proof.
  intros o j t u f nt ts e s Hnl Hc Hd D.
  destruct (doc_reads_as o plain j (t ++ u) (crosses_plain o Hnl) Hd nt) as (f2 & ts2 & s2 & D2 & V).
  destruct (C65_tokens_stay o t u f f2 nt ts e s ts2 _ s2 D D2) as (more & E).
  split; [|exists (map tok_view more); rewrite <- V, E, map_app; reflexivity].
  destruct (error_eq_dec e NeedMoreData) as [H|H]; [exact H|].
  destruct (C65_error_is_final o t u f f2 nt ts e s ts2 _ s2 D D2 H) as [_ X]; congruence.
Qed.
Print Assumptions C65_document_prefix.

(** The same for reformat: what it writes for a text it also writes for every continuation of the
    text, and when it fails, every continuation gives the same result. *)
Theorem C65_reformat_prefix : forall i so n0 t u e out e2 out2,
  reformat i so n0 t = Ok (e, out) -> reformat i so n0 (t ++ u) = Ok (e2, out2) ->
  exists more, out2 = out ++ more /\ (e <> NoError -> more = [] /\ e2 = e).
Proof. exact reformat_prefix. Qed.
Print Assumptions C65_reformat_prefix.

(** A truncated document is reformatted without an error to the beginning of its layout. *)
Theorem C65_reformat_truncated : forall i (pretty : bool) n0 j t u,
  doc_text plain j (t ++ u) -> names_nonempty j -> nesting j <= 255 ->
  exists out more, reformat i (so_make pretty) n0 t = Ok (NoError, out) /\
    layout (if pretty then Some 2%N else None) 0 j = out ++ more.
Proof.
  intros i pretty n0 j t u Hd Hnn Hn.
  destruct (C64_reformat_defined i (so_make pretty) n0 t) as (e & out & E & _).
  destruct (reformat_prefix i (so_make pretty) n0 t u e out _ _ E (C53_reformat_layout i pretty n0 j (t ++ u) Hd Hnn Hn))
    as (more & M & F).
  exists out, more. split; [|exact M].
  destruct (error_eq_dec e NoError) as [->|H]; [exact E|]. destruct (F H). congruence.
Qed.
Print Assumptions C65_reformat_truncated.

Example C65_nonvacuous :
  reformat Sse2 (so_make false) 0 (s2b " { ""a"" : [1, tru") = Ok (NoError, s2b "{""a"":[1") /\
  reformat Sse2 (so_make false) 0 (s2b " { ""a"" : [1, true ], ""b"":2}") = Ok (NoError, s2b "{""a"":[1,true],""b"":2}") /\
  reformat Sse2 (so_make false) 0 (s2b "[1, {} }") = Ok (UnexpectedObjectEnd, s2b "[1,{}") /\
  reformat Sse2 (so_make false) 0 (s2b "[1, {} }, 2]") = Ok (UnexpectedObjectEnd, s2b "[1,{}").
Proof.
  split; [vm_compute; reflexivity|]. split; [vm_compute; reflexivity|]. split; [vm_compute; reflexivity|vm_compute; reflexivity].
Qed.
