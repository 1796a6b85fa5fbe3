(** Basic vocabulary shared by all model files: bytes, token types, errors, data
    references and tokens.  No proofs here.

    H = /repo/include/json_struct/json_struct.h *)
From Coq Require Export List NArith ZArith Bool Arith.
From Coq Require Export Strings.Byte.
From Coq Require Import Strings.String.
Export Strings.String.StringSyntax.
Export ListNotations.

(** A C++ [char] buffer is a list of bytes. *)
Notation bytes := (list byte).

(** String literals as bytes (notational convenience only). *)
Definition s2b (s : string) : bytes := list_byte_of_string s.

Definition byte_val (b : byte) : N := Byte.to_N b.

(** Byte ranges, unsigned comparison. *)
Definition in_range (lo hi : N) (b : byte) : bool :=
  (lo <=? byte_val b)%N && (byte_val b <=? hi)%N.

Fixpoint bytes_eqb (a b : bytes) : bool :=
  match a, b with
  | [], [] => true
  | x :: a', y :: b' => Byte.eqb x y && bytes_eqb a' b'
  | _, _ => false
  end.

(** H 318-331: enum class Type. *)
Inductive type : Set :=
| TError | TString | TAscii | TNumber | TObjectStart | TObjectEnd
| TArrayStart | TArrayEnd | TBool | TNull | TVerbatim.

(** The enumerator's integer value, used by [JS::Type(static_cast<int>(type) + 1)]
    in H 1345. *)
Definition type_num (t : type) : N :=
  match t with
  | TError => 0 | TString => 1 | TAscii => 2 | TNumber => 3 | TObjectStart => 4
  | TObjectEnd => 5 | TArrayStart => 6 | TArrayEnd => 7 | TBool => 8 | TNull => 9
  | TVerbatim => 10
  end%N.

Definition type_eqb (a b : type) : bool := (type_num a =? type_num b)%N.

(** H 1273-1306: enum class Error. *)
Inductive error : Set :=
| NoError | NeedMoreData | InvalidToken | ExpectedPropertyName | ExpectedDelimiter
| ExpectedDataToken | ExpectedObjectStart | ExpectedObjectEnd | ExpectedArrayStart
| ExpectedArrayEnd | UnexpectedArrayEnd | UnexpectedObjectEnd | IllegalPropertyName
| IllegalPropertyType | IllegalDataValue | EncounteredIllegalChar | NodeNotFound
| MissingPropertyMember | MissingFunction | FailedToParseBoolean | FailedToParseDouble
| FailedToParseFloat | FailedToParseInt | UnassignedRequiredMember | NonContigiousMemory
| ScopeHasEnded | KeyNotFound | DuplicateInSet | UnknownPropertyMember | UnknownError
| UserDefinedErrors.

Definition is_no_error (e : error) : bool :=
  match e with NoError => true | _ => false end.
Definition is_need_more (e : error) : bool :=
  match e with NeedMoreData => true | _ => false end.

(** H 274-316: struct DataRef.  The pointer is represented by where it points:
    into the front input buffer at an offset, into the tokenizer's intermediate
    copy, or elsewhere (string literals, user memory). *)
Inductive loc : Set :=
| InBuffer (off : nat)
| InIntermediate
| Elsewhere.

Record dref : Set := mkRef { dr_loc : loc; dr_bytes : bytes }.

(** H 276-281: DataRef() points to "" with size 0. *)
Definition dref_empty : dref := mkRef Elsewhere [].

(** H 333-341, Token::Token() H 1572-1582: name_type String, value_type String. *)
Record token : Set := mkTok {
  tk_name : dref;
  tk_value : dref;
  tk_name_type : type;
  tk_value_type : type }.

(** Outcome of modelled code that may hit undefined behaviour, or whose model
    runs on fuel. *)
Inductive outcome (A : Type) : Type :=
| Ok (a : A)
| UB
| OutOfFuel.
Arguments Ok {A} a.
Arguments UB {A}.
Arguments OutOfFuel {A}.

Definition obind {A B} (x : outcome A) (f : A -> outcome B) : outcome B :=
  match x with Ok a => f a | UB => UB | OutOfFuel => OutOfFuel end.

Notation "'let*' x ':=' e1 'in' e2" := (obind e1 (fun x => e2))
  (at level 200, x pattern, e1 at level 100, e2 at level 200, right associativity).
