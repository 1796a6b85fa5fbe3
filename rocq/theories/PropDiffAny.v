(** C76: the diff of any two texts. *)
From Verif Require Import Base ScanModel TokModel TokSafe TokSpec TokSpecProofs MapModel DiffModel DiffAnyMeta DiffAnyProofs DiffAnySafe PropTok PropDiff.
From Coq Require Import Lia.

(** ** The tokens
    Any text at all: DiffTokens is defined for it, metadata included, and reports EmptyString exactly for the empty text and
    NoError exactly if there is a token. *)
Theorem C76_tokens o t : exists f d e, src_of_text f o t = Ok (d, e) /\ (e = DNoError <-> ds_tokens d <> []) /\ (e = DEmptyString <-> t = []).
Proof. exact (text_defined o t). Qed.
Print Assumptions C76_tokens.

(** ** It ends
    Any two texts, any comparison of numbers that ends: the diff ends. *)
Theorem C76_ends o fb fd ob od tb td b d eb ed err : (forall x y, do_same o x y <> OutOfFuel) ->
  src_of_text fb ob tb = Ok (b, eb) -> src_of_text fd od td = Ok (d, ed) -> run_diff o b (fresh d err) <> OutOfFuel.
Proof. intros Ho Hb Hd. exact (run_ends o Ho b (fresh d err) (text_source _ _ _ _ _ Hb) (text_source _ _ _ _ _ Hd)). Qed.
Print Assumptions C76_ends.

(** ** It stays inside
    Full statement: if neither text is reported as an error, then the diff stays inside the tokens.  Missing: texts that end before all
    brackets are closed, and bare words in arrays, for which it is false (see below).  Otherwise any texts, also such that are not JSON:
    several roots, missing names and values, duplicate names. *)
Theorem C76_closed_partial o fb fd ob od tb td b d err : (forall x y, exists r, do_same o x y = Ok r) ->
  src_of_text fb ob tb = Ok (b, DNoError) -> src_of_text fd od td = Ok (d, DNoError) ->
  balanced (map tk_value_type (ds_tokens b)) -> balanced (map tk_value_type (ds_tokens d)) ->
  (forall tk, In tk (ds_tokens b) -> tk_value_type tk <> TAscii /\ tk_value_type tk <> TError /\ tk_value_type tk <> TVerbatim) ->
  exists s, run_diff o b (fresh d err) = Ok s /\ length (dt_diffs s) = length (ds_tokens d).
Proof.
  intros Ho Hb Hd Bb Bd J. assert (N : ds_tokens d <> []).
  { unfold src_of_text in Hd. destruct td; [discriminate Hd|]. destruct (drain _ _ _ _) as [[[ts e'] s']| |]; cbn [obind] in Hd; try discriminate Hd.
    destruct (metaForTokens ts); cbn [obind] in Hd; try discriminate Hd. injection Hd as <- X. destruct ts; [discriminate X|discriminate]. }
  apply (run_safe o Ho b d err (text_source _ _ _ _ _ Hb) (text_source _ _ _ _ _ Hd) Bb Bd); [|congruence].
  apply Forall_forall. intros tk I. destruct (J tk I) as (A & B & C). destruct (tk_value_type tk); try exact Logic.I; congruence.
Qed.
Print Assumptions C76_closed_partial.

(** Two texts, one with two roots and an unnamed array in an object, the other with a name twice. *)
Definition src_text (t : bytes) : dsrc := match src_of_text 100 default_opts t with Ok (d, _) => d | _ => mkSrc [] [] end.
Definition odd_b : bytes := s2b "{[1]}[2]".
Definition odd_d : bytes := s2b "{""a"":[1],""a"":{}}".
Example C76_nonvacuous :
  src_of_text 100 default_opts odd_b = Ok (src_text odd_b, DNoError) /\ src_of_text 100 default_opts odd_d = Ok (src_text odd_d, DNoError) /\
  map tk_value_type (ds_tokens (src_text odd_b)) = [TObjectStart; TArrayStart; TNumber; TArrayEnd; TObjectEnd; TArrayStart; TNumber; TArrayEnd] /\
  balanced (map tk_value_type (ds_tokens (src_text odd_b))) /\ balanced (map tk_value_type (ds_tokens (src_text odd_d))) /\
  match run_diff by_text (src_text odd_b) (fresh (src_text odd_d) DNoError) with Ok s => Some (dt_count s) | _ => None end = Some 8.
Proof.
  split; [vm_compute; reflexivity|]. split; [vm_compute; reflexivity|].
  assert (E : map tk_value_type (ds_tokens (src_text odd_b)) = [TObjectStart; TArrayStart; TNumber; TArrayEnd; TObjectEnd; TArrayStart; TNumber; TArrayEnd]) by (vm_compute; reflexivity).
  assert (E2 : map tk_value_type (ds_tokens (src_text odd_d)) = [TObjectStart; TArrayStart; TNumber; TArrayEnd; TObjectStart; TObjectEnd; TObjectEnd]) by (vm_compute; reflexivity).
  split; [exact E|]. rewrite E, E2. assert (B1 : balanced [TNumber]) by (apply Bal_other; [discriminate..|apply Bal_nil]).
  split; [|split].
  - apply (Bal_object [TArrayStart; TNumber; TArrayEnd]); apply (Bal_array [TNumber]); try exact B1; constructor.
  - apply (Bal_object [TArrayStart; TNumber; TArrayEnd; TObjectStart; TObjectEnd] []); [|constructor].
    apply (Bal_array [TNumber]); [exact B1|]. apply (Bal_object [] []); constructor.
  - vm_compute. reflexivity.
Qed.

(** The claim for all texts is false: an unfinished text is not reported, and the diff goes on behind its last token; both as base and as
    new text.  Two equal bare words reach an assert(false), which aborts unless asserts are disabled. *)
Definition C76_claim : Prop := forall o fb fd ob od tb td b d err, (forall x y, exists r, do_same o x y = Ok r) ->
  src_of_text fb ob tb = Ok (b, DNoError) -> src_of_text fd od td = Ok (d, DNoError) -> run_diff o b (fresh d err) <> UB.
Definition on_texts (tb td : bytes) : outcome dstate := run_diff by_text (src_text tb) (fresh (src_text td) DNoError).
Theorem C76_unclosed_refuted : ~ C76_claim /\
  on_texts (s2b "[1,2") (s2b "[1,2]") = UB /\ on_texts (s2b "[1,2]") (s2b "[1,2") = UB /\
  on_texts (s2b "{""a"":1") (s2b "{""a"":1}") = UB /\ on_texts (s2b "[x]") (s2b "[x]") = UB.
Proof.
  assert (E : on_texts (s2b "[1,2") (s2b "[1,2]") = UB) by (vm_compute; reflexivity).
  split; [|split; [exact E|split; [|split]; vm_compute; reflexivity]]. intros H.
  refine (H by_text 100 100 default_opts default_opts (s2b "[1,2") (s2b "[1,2]") (src_text (s2b "[1,2")) (src_text (s2b "[1,2]")) DNoError _ _ _ E).
  - intros x y. eexists. reflexivity.
  - vm_compute. reflexivity.
  - vm_compute. reflexivity.
Qed.
Print Assumptions C76_unclosed_refuted.
