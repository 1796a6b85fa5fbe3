(** What error messages should say.  No reference to the model of the messages. *)
From Verif Require Import Base HandlerModel.

(** [what] occurs in [msg]. *)
Definition mentions (what msg : bytes) : Prop := exists a b, msg = a ++ what ++ b.

(** Names with commas between. *)
Fixpoint listed (names : list bytes) : bytes :=
  match names with
  | [] => []
  | [n] => n
  | n :: r => n ++ s2b ", " ++ listed r
  end.

(** The message about the members [names]: a sentence, in the singular or in the plural, and then the
    names. *)
Definition about (singular plural : bytes) (names : list bytes) (msg : bytes) : Prop :=
  names <> [] /\ msg = (match names with [_] => singular | _ => plural end) ++ listed names.

(** The name of an error in the source. *)
Definition error_name (e : error) : bytes :=
  match e with
  | NoError => s2b "NoError"
  | NeedMoreData => s2b "NeedMoreData"
  | InvalidToken => s2b "InvalidToken"
  | ExpectedPropertyName => s2b "ExpectedPropertyName"
  | ExpectedDelimiter => s2b "ExpectedDelimiter"
  | ExpectedDataToken => s2b "ExpectedDataToken"
  | ExpectedObjectStart => s2b "ExpectedObjectStart"
  | ExpectedObjectEnd => s2b "ExpectedObjectEnd"
  | ExpectedArrayStart => s2b "ExpectedArrayStart"
  | ExpectedArrayEnd => s2b "ExpectedArrayEnd"
  | UnexpectedArrayEnd => s2b "UnexpectedArrayEnd"
  | UnexpectedObjectEnd => s2b "UnexpectedObjectEnd"
  | IllegalPropertyName => s2b "IllegalPropertyName"
  | IllegalPropertyType => s2b "IllegalPropertyType"
  | IllegalDataValue => s2b "IllegalDataValue"
  | EncounteredIllegalChar => s2b "EncounteredIllegalChar"
  | NodeNotFound => s2b "NodeNotFound"
  | MissingPropertyMember => s2b "MissingPropertyMember"
  | MissingFunction => s2b "MissingFunction"
  | FailedToParseBoolean => s2b "FailedToParseBoolean"
  | FailedToParseDouble => s2b "FailedToParseDouble"
  | FailedToParseFloat => s2b "FailedToParseFloat"
  | FailedToParseInt => s2b "FailedToParseInt"
  | UnassignedRequiredMember => s2b "UnassignedRequiredMember"
  | NonContigiousMemory => s2b "NonContigiousMemory"
  | ScopeHasEnded => s2b "ScopeHasEnded"
  | KeyNotFound => s2b "KeyNotFound"
  | DuplicateInSet => s2b "DuplicateInSet"
  | UnknownPropertyMember => s2b "UnknownPropertyMember"
  | UnknownError => s2b "UnknownError"
  | UserDefinedErrors => s2b "UserDefinedErrors"
  end.

(** Types without maps, T[N] and ArrayVariableContent, whose handlers go on after an error of the
    tokenizer. *)
Fixpoint direct (t : ty) : bool :=
  match t with
  | YString | YBool | YInt _ | YFp _ | YTime _ _ | YEnum _ _ => true
  | YFixed _ _ | YVar _ _ | YMap _ => false
  | YNullable t | YNullableChecked t | YOptional t | YOptionalChecked t | YStdOptional t | YPtr _ t | YSilent t
  | YVec t | YOneOrMany t | YSet t => direct t
  | YTuple ts => forallb direct ts
  | YStruct _ fs => forallb (fun f => direct (snd f)) fs
  end.
