(** Specifications for the tokenizer properties: what a user can do with a tokenizer, and what
    a properly nested bracket sequence is.  No proofs here. *)
From Verif Require Import Base ScanModel TokModel JsonSpec.

(** States a user can bring a tokenizer into through its public interface (without raw
    copies, see CopyProofs): constructing it, installing a need-more-data callback, adding or
    resetting data, reading tokens, pushing and popping scopes.  The side conditions are the
    documented preconditions: an index passed to resetData lies inside the data, a vector of
    parsed tokens is not empty, popScope has a scope to pop. *)
Inductive reachable (o : opts) : tstate -> Prop :=
| R_init : reachable o t_init
| R_callback s l : reachable o s -> reachable o (set_supply l s)
| R_add s d : reachable o s -> t_parsed s = None -> reachable o (addData d s)
| R_reset s d i : reachable o s -> i <= length d -> reachable o (resetData d i s)
| R_addParsed s ts : reachable o s -> ts <> [] -> reachable o (addParsed ts s)
| R_resetParsed s ts i : reachable o s -> i < length ts -> reachable o (resetParsed ts i s)
| R_next s nt s1 e nt1 :
    reachable o s -> nextToken o nt s = Ok (s1, e, nt1) -> reachable o s1
| R_push s t : reachable o s -> reachable o (pushScope t s)
| R_pop s s1 : reachable o s -> popScope s = Ok s1 -> reachable o s1.

(** A history of one tokenizer that starts as new: data is added, tokens are read, scopes are
    pushed and popped, in any order.  [trace o ts s] : the calls of nextToken that returned
    NoError returned the tokens [ts], in this order; [s] is the resulting state. *)
Inductive trace (o : opts) : list token -> tstate -> Prop :=
| Tr_init : trace o [] t_init
| Tr_callback ts s l : trace o ts s -> trace o ts (set_supply l s)
| Tr_add ts s d : trace o ts s -> trace o ts (addData d s)
| Tr_next_ok ts s nt s1 nt1 :
    trace o ts s -> nextToken o nt s = Ok (s1, NoError, nt1) -> trace o (ts ++ [nt1]) s1
| Tr_next_err ts s nt s1 e nt1 :
    trace o ts s -> nextToken o nt s = Ok (s1, e, nt1) -> e <> NoError -> trace o ts s1
| Tr_push ts s t : trace o ts s -> trace o ts (pushScope t s)
| Tr_pop ts s s1 : trace o ts s -> popScope s = Ok s1 -> trace o ts s1.

(** Properly nested token types. *)
Inductive balanced : list type -> Prop :=
| Bal_nil : balanced []
| Bal_other t l :
    t <> TObjectStart -> t <> TObjectEnd -> t <> TArrayStart -> t <> TArrayEnd ->
    balanced l -> balanced (t :: l)
| Bal_object l1 l2 :
    balanced l1 -> balanced l2 -> balanced (TObjectStart :: l1 ++ TObjectEnd :: l2)
| Bal_array l1 l2 :
    balanced l1 -> balanced l2 -> balanced (TArrayStart :: l1 ++ TArrayEnd :: l2).

(** All bytes the tokenizer has been given or will be given by its callback. *)
Definition total_bytes (s : tstate) : nat :=
  length (concat (t_bufs s)) + length (concat (concat (t_supply s))).

Definition parsed_count (s : tstate) : nat :=
  match t_parsed s with Some ts => length ts | None => 0 end.

(** A new tokenizer with buffers added and a callback installed. *)
Definition tok_with (bufs : list bytes) (supply : list (list bytes)) : tstate :=
  set_supply supply (set_bufs bufs t_init).

(** Reading [bufs] (with later deliveries [supply]) with a new tokenizer until something else
    than NoError is returned gives tokens that look like [vs], and then [e]. *)
Definition reads_as (o : opts) (bufs : list bytes) (supply : list (list bytes))
  (vs : list stoken) (e : error) : Prop :=
  forall nt, exists f ts s,
    drain f o nt (tok_with bufs supply) = Ok (ts, e, s) /\ map tok_view ts = vs.

(** ** Slices *)

(** The part of the input buffer a data reference points to, if it points there. *)
Definition span (d : dref) : list (nat * nat) :=
  match dr_loc d with InBuffer off => [(off, length (dr_bytes d))] | _ => [] end.

(** [d] is empty or a slice of [t]. *)
Definition slice_of (t : bytes) (d : dref) : Prop :=
  d = dref_empty \/
  exists off, dr_loc d = InBuffer off /\ off + length (dr_bytes d) <= length t /\
              dr_bytes d = firstn (length (dr_bytes d)) (skipn off t).

(** Spans follow each other without overlap inside [lo, hi). *)
Fixpoint increasing (lo : nat) (l : list (nat * nat)) (hi : nat) : Prop :=
  match l with
  | [] => lo <= hi
  | (off, n) :: r => lo <= off /\ increasing (off + n) r hi
  end.

(** The slices of a list of tokens, in the order name, value, name, value ... *)
Definition token_spans (ts : list token) : list (nat * nat) :=
  concat (map (fun tk => span (tk_name tk) ++ span (tk_value tk)) ts).

(** A new tokenizer reading one buffer [t], with any mixture of successful and failing calls:
    [one_buffer o t ts s] means the successful calls returned [ts]. *)
Inductive one_buffer (o : opts) (t : bytes) : list token -> tstate -> Prop :=
| OB_init : one_buffer o t [] (tok_with [t] [])
| OB_ok ts s nt s1 nt1 :
    one_buffer o t ts s -> nextToken o nt s = Ok (s1, NoError, nt1) -> one_buffer o t (ts ++ [nt1]) s1
| OB_err ts s nt s1 e nt1 :
    one_buffer o t ts s -> nextToken o nt s = Ok (s1, e, nt1) -> e <> NoError -> one_buffer o t ts s1
| OB_push ts s ty : one_buffer o t ts s -> one_buffer o t ts (pushScope ty s)
| OB_pop ts s s1 : one_buffer o t ts s -> popScope s = Ok s1 -> one_buffer o t ts s1.

(** ** Continuing after an error *)

(** What a caller can do with a tokenizer short of resetting it: read on, add data, install a
    callback, push and pop scopes. *)
Inductive continued (o : opts) (s : tstate) : tstate -> Prop :=
| Co_refl : continued o s s
| Co_next s1 nt s2 e nt1 :
    continued o s s1 -> nextToken o nt s1 = Ok (s2, e, nt1) -> continued o s s2
| Co_add s1 d : continued o s s1 -> continued o s (addData d s1)
| Co_callback s1 l : continued o s s1 -> continued o s (set_supply l s1)
| Co_push s1 t : continued o s s1 -> continued o s (pushScope t s1)
| Co_pop s1 s2 : continued o s s1 -> popScope s1 = Ok s2 -> continued o s s2.

(** ** Scopes *)

(** [reads o nt s ts nt1 s1]: successive calls of nextToken, starting with the token object [nt]
    in state [s], all return NoError and deliver [ts]; the token object then is [nt1], the state
    [s1]. *)
Inductive reads (o : opts) : token -> tstate -> list token -> token -> tstate -> Prop :=
| Rd_nil nt s : reads o nt s [] nt s
| Rd_cons nt s tk s1 ts nt2 s2 :
    nextToken o nt s = Ok (s1, NoError, tk) -> reads o tk s1 ts nt2 s2 ->
    reads o nt s (tk :: ts) nt2 s2.

Definition closer (t : type) : type :=
  match t with TArrayStart => TArrayEnd | TObjectStart => TObjectEnd | _ => t end.

(** The largest number of open brackets of type [ty] met while reading [l], starting with [d]. *)
Fixpoint deepest (ty : type) (d : N) (l : list type) : N :=
  match l with
  | [] => d
  | t :: r =>
    N.max d (deepest ty (if type_eqb t ty then d + 1
                         else if type_eqb t (closer ty) then d - 1 else d)%N r)
  end.
