(** Properties C01, C02 and C06 of the tokenizer. *)
From Verif Require Import Base ScanModel ScanProofs TokModel TokSpec TokProofs TokSpecProofs TokIsa.
From Coq Require Import Lia.

Definition default_opts : opts := mkOpts Sse2 false false false false.

(** ** C01: tokenizing always terminates and stays inside the buffers. *)

(** Every call on every reachable tokenizer returns (never undefined behaviour, never out of
    the model's fuel) and leaves the read position inside the front buffer. *)
Theorem C01_every_call_returns : forall o s nt,
  reachable o s ->
  exists s1 e nt1, nextToken o nt s = Ok (s1, e, nt1) /\
    (t_parsed s1 = None ->
     match t_bufs s1 with [] => t_cur s1 = 0 | b :: _ => t_cur s1 <= length b end).
Proof. exact nextToken_defined. Qed.
Print Assumptions C01_every_call_returns.

(** After at most one call per byte (plus two) something else than NoError is returned. *)
Theorem C01_drain_terminates : forall o s nt,
  reachable o s ->
  exists ts e s1,
    (forall f, total_bytes s + parsed_count s + 1 < f -> drain f o nt s = Ok (ts, e, s1)) /\
    e <> NoError /\ length ts <= total_bytes s + parsed_count s + 1.
Proof. exact drain_terminates. Qed.
Print Assumptions C01_drain_terminates.

(** A tokenizer holding half a document, with more to come from the callback. *)
Example C01_nonvacuous :
  let s := set_supply [[s2b "rue, 12"]; [s2b "3]}"]] (addData (s2b "{""a"":[t") t_init) in
  reachable default_opts s /\
  exists ts s1, drain 100 default_opts tok_default s = Ok (ts, NeedMoreData, s1) /\ length ts = 6.
Proof.
  split.
  - apply R_callback, R_add; [apply R_init|reflexivity].
  - do 2 eexists. split; [vm_compute; reflexivity|reflexivity].
Qed.

(** ** C02: emitted brackets are balanced. *)

Theorem C02_emitted_brackets_balanced : forall o ts s,
  trace o ts s ->
  exists closing,
    Forall (fun t => t = TObjectEnd \/ t = TArrayEnd) closing /\
    balanced (map tk_value_type ts ++ closing).
Proof. exact trace_balanced. Qed.
Print Assumptions C02_emitted_brackets_balanced.

(** A reported wrong closer could indeed not have been returned as a token. *)
Theorem C02_wrong_closer_reported : forall o ts s nt s1 e nt1 t,
  trace o ts s -> nextToken o nt s = Ok (s1, e, nt1) ->
  (e = UnexpectedArrayEnd /\ t = TArrayEnd \/ e = UnexpectedObjectEnd /\ t = TObjectEnd) ->
  tk_value_type nt1 = t /\
  forall rest, ~ balanced (map tk_value_type ts ++ t :: rest).
Proof. exact wrong_closer. Qed.
Print Assumptions C02_wrong_closer_reported.

Example C02_nonvacuous :
  exists ts s, trace default_opts ts s /\
    map tk_value_type ts = [TObjectStart; TArrayStart; TNumber] /\
    exists s1 nt1, nextToken default_opts tok_default s = Ok (s1, UnexpectedObjectEnd, nt1).
Proof.
  set (s0 := addData (s2b "{""a"":[1,}") t_init).
  set (r := next_n 3 default_opts tok_default s0).
  assert (H0 : trace default_opts [] s0) by apply Tr_add, Tr_init.
  assert (Hr : exists ts s, r = Ok (ts, s) /\ map tk_value_type ts = [TObjectStart; TArrayStart; TNumber] /\
    exists s1 nt1, nextToken default_opts tok_default s = Ok (s1, UnexpectedObjectEnd, nt1)).
  { do 2 eexists. split; [vm_compute; reflexivity|]. split; [reflexivity|].
    do 2 eexists. vm_compute. reflexivity. }
  destruct Hr as (ts & s & Hr & Hts & Hn). exists ts, s. split; [|auto].
  exact (trace_next_n _ _ _ _ _ _ _ H0 Hr).
Qed.

(** ** C06: vectorised scanners agree with the scalar ones. *)

Theorem C06_number_scanners_agree : forall i rest, findNumberEnd i rest = findNumberEnd Scalar rest.
Proof. exact findNumberEnd_isa. Qed.
Print Assumptions C06_number_scanners_agree.

Theorem C06_word_scanners_agree : forall i rest, findAsciiEnd i rest = findAsciiEnd Scalar rest.
Proof. exact findAsciiEnd_isa. Qed.
Print Assumptions C06_word_scanners_agree.

Theorem C06_comment_scanners_agree : forall i nl rest,
  skipComment i nl rest = skipComment Scalar nl rest.
Proof. exact skipComment_isa. Qed.
Print Assumptions C06_comment_scanners_agree.

(** Strings: only when the scan does not start right after a backslash. *)
Theorem C06_string_scanners_agree_partial : forall i rest,
  findStringEnd i false rest = findStringEnd Scalar false rest.
Proof. exact findStringEnd_isa. Qed.
Print Assumptions C06_string_scanners_agree_partial.

(** The whole token stream (tokens, final error, final state) is the same for every build, if
    no buffer but the last ends in a backslash.  The restriction is necessary, see the
    refutation below. *)
Theorem C06_same_tokens_for_every_build_partial : forall i o bufs supply f nt,
  cut_clean (bufs ++ concat supply) ->
  drain f (mkOpts i (o_ascii o) (o_nl o) (o_comma o) (o_comments o)) nt (tok_with bufs supply) =
  drain f (mkOpts Scalar (o_ascii o) (o_nl o) (o_comma o) (o_comments o)) nt (tok_with bufs supply).
Proof. exact drain_isa_new. Qed.
Print Assumptions C06_same_tokens_for_every_build_partial.

Example C06_nonvacuous :
  cut_clean ([s2b "[""a\nbc"] ++ concat [[s2b "d\\e"",12"]; [s2b "3]\"]]).
Proof.
  intros l1 b l2 E Hn Hb. apply ends_backslash_last in Hb.
  destruct l1 as [|b1 [|b2 [|b3 [|b4 l1]]]]; cbn in E; injection E as; subst;
    try discriminate Hb; congruence.
Qed.

(** The full statement is false: a string scan resumed right after a backslash, in a buffer
    long enough for the vectorised scanner, jumps to the wrong quote. *)
Theorem C06_string_scanners_agree_refuted :
  exists rest, findStringEnd Sse2 true rest <> findStringEnd Scalar true rest.
Proof.
  exists (s2b "xb"",""ccccccccccccccc"",""d"",""e""]"). vm_compute. discriminate.
Qed.
Print Assumptions C06_string_scanners_agree_refuted.

Theorem C06_same_tokens_for_every_build_refuted :
  exists bufs f,
    let result i := drain f (mkOpts i false false false false) tok_default (tok_with bufs []) in
    (exists ts e s, result Scalar = Ok (ts, e, s) /\ length ts = 5 /\ e = NeedMoreData) /\
    (exists ts e s, result Sse2 = Ok (ts, e, s) /\ length ts = 1 /\ e = ExpectedDelimiter).
Proof.
  exists [s2b "[""a\"; s2b "xb"",""ccccccccccccccccccccccccccccccccccc"",""d""]"], 50.
  split; do 3 eexists; (split; [vm_compute; reflexivity|split; reflexivity]).
Qed.
Print Assumptions C06_same_tokens_for_every_build_refuted.
