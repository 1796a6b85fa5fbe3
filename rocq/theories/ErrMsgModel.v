(** Model of ParseContext::makeErrorString (H 3907-3955), Tokenizer::makeErrorString (H 1878-1903),
    and of ParseContext::parseTo (H 4607-4619) together with the tokenizer's error context.  No proofs
    here.

    The type handlers are those of HandlerModel; their source of tokens is the tokenizer with its error
    context. *)
From Verif Require Import Base ScanModel TokModel HandlerModel ErrCtxModel.

(** H 1273-1306: the value of an enumerator of Error. *)
Definition error_num (e : error) : nat :=
  match e with
  | NoError => 0 | NeedMoreData => 1 | InvalidToken => 2 | ExpectedPropertyName => 3 | ExpectedDelimiter => 4
  | ExpectedDataToken => 5 | ExpectedObjectStart => 6 | ExpectedObjectEnd => 7 | ExpectedArrayStart => 8
  | ExpectedArrayEnd => 9 | UnexpectedArrayEnd => 10 | UnexpectedObjectEnd => 11 | IllegalPropertyName => 12
  | IllegalPropertyType => 13 | IllegalDataValue => 14 | EncounteredIllegalChar => 15 | NodeNotFound => 16
  | MissingPropertyMember => 17 | MissingFunction => 18 | FailedToParseBoolean => 19
  | FailedToParseDouble => 20 | FailedToParseFloat => 21 | FailedToParseInt => 22
  | UnassignedRequiredMember => 23 | NonContigiousMemory => 24 | ScopeHasEnded => 25 | KeyNotFound => 26
  | DuplicateInSet => 27 | UnknownPropertyMember => 28 | UnknownError => 29 | UserDefinedErrors => 30
  end.

(** H 1843-1875. *)
Definition error_strings : list bytes :=
  [ s2b "NoError"; s2b "NeedMoreData"; s2b "InvalidToken"; s2b "ExpectedPropertyName";
    s2b "ExpectedDelimiter"; s2b "ExpectedDataToken"; s2b "ExpectedObjectStart"; s2b "ExpectedObjectEnd";
    s2b "ExpectedArrayStart"; s2b "ExpectedArrayEnd"; s2b "UnexpectedArrayEnd"; s2b "UnexpectedObjectEnd";
    s2b "IllegalPropertyName"; s2b "IllegalPropertyType"; s2b "IllegalDataValue";
    s2b "EncounteredIllegalChar"; s2b "NodeNotFound"; s2b "MissingPropertyMember"; s2b "MissingFunction";
    s2b "FailedToParseBoolean"; s2b "FailedToParseDouble"; s2b "FailedToParseFloat"; s2b "FailedToParseInt";
    s2b "UnassignedRequiredMember"; s2b "NonContigiousMemory"; s2b "ScopeHasEnded"; s2b "KeyNotFound";
    s2b "DuplicateInSet"; s2b "UnknownPropertyMember"; s2b "UnknownError"; s2b "UserDefinedErrors" ].
Definition error_string (e : error) : bytes := nth (error_num e) error_strings [].

(** H 1878-1903. *)
Definition tokenizer_message (c : ectx) : bytes :=
  s2b "Error" ++ (match ec_error c with UserDefinedErrors => [] | e => x20 :: error_string e end) ++
  (match ec_message c with [] => [] | m => x20 :: m end) ++ [x3a; x0a] ++ error_lines 0 c (ec_lines c).

(** H 3920-3922 and 3938-3940: the names in the vector after the first. *)
Definition more_names (l : list bytes) : bytes := fold_left (fun s n => s ++ s2b ", " ++ n) l [].

(** H 3907-3955. *)
Definition context_message (e : error) (missing unassigned : list bytes) (c : ectx) : bytes :=
  match e with
  | MissingPropertyMember =>
      match missing with
      | [] => []
      | [n] => s2b "JSON Object contained member not found in C++ struct/class. JSON Object member is: " ++ n
      | n :: r => s2b "JSON Object contained members not found in C++ struct/class. JSON Object members are: " ++ n ++ more_names r
      end
  | UnassignedRequiredMember =>
      match unassigned with
      | [] => []
      | [n] => s2b "C++ struct/class has a required member that is not present in input JSON. The unassigned C++ member is: " ++ n
      | n :: r => s2b "C++ struct/class has required members that are not present in the input JSON. The unassigned C++ members are: " ++ n ++ more_names r
      end
  | NoError => tokenizer_message c
  | _ => match ec_error c with
         | NoError => s2b "Error:" ++ error_string e
         | _ => tokenizer_message c
         end
  end.

(** The tokenizer with its error context (H 1713, 1729-1730, 1745-1760). *)
Definition next_ctx (gc : ecfg) (o : opts) (nt : token) (s : tstate * ectx) : outcome (tstate * ectx * error * token) :=
  let* (s1, e, nt1) := nextToken o nt (fst s) in
  let* c := context_after gc s1 e (snd s) in
  Ok ((s1, c), e, nt1).

(** H 4607-4619: parseTo with the update of the error context; the error, the object, the context, and
    the text of makeErrorString. *)
Definition parse_message (gc : ecfg) (o : opts) (g : pcfg) (fuel : nat) (t : ty) (v : val) (text : bytes)
  : outcome (error * val * ctx (tstate * ectx) * bytes) :=
  let start := mkCtx (addData text t_init, ec_init) tok_default NoError [] [] g in
  let* (e, c) := ctx_next (next_ctx gc o) start in
  if is_ok e then
    let* (e, v, c) := to (next_ctx gc o) fuel t v c in
    let c := set_err e c in
    let '(s, k) := c_src c in
    let* k := match e, ec_error k with
              | NoError, _ => Ok k
              | _, NoError => updateErrorContext gc (t_bufs s) (t_cur s) e [] k
              | _, _ => Ok k
              end in
    Ok (e, v, c, context_message e (c_missing c) (c_unassigned c) k)
  else Ok (e, v, c, context_message e (c_missing c) (c_unassigned c) (snd (c_src c))).
