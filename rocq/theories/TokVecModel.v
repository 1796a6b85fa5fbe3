(** Model of the type handlers that keep the tokens of a value: std::vector<Token> and JsonTokens
    (H 9160-9214).  No proofs here.

    The tokens point into the input; that it must outlive them is not modelled. *)
From Verif Require Import Base ScanModel TokModel HandlerModel SerModel.

(** H 9182-9185: the change of [level] by one token; level is a size_t and not 0 here. *)
Definition tv_level (t : type) (level : nat) : nat :=
  match t with
  | TArrayStart | TObjectStart => S level
  | TArrayEnd | TObjectEnd => level - 1
  | _ => level
  end.

Section TokVec.
Context {S : Type} (next : token -> S -> outcome (S * error * token)).

(** H 9178-9186: the while loop.  The token is also kept when nextToken fails. *)
Fixpoint tokvec_loop (fuel level : nat) (acc : list token) (c : ctx S) : outcome (error * list token * ctx S) :=
  match level with
  | O => Ok (NoError, acc, c)
  | Datatypes.S _ =>
    match fuel with
    | O => OutOfFuel
    | Datatypes.S f =>
      let* (e, c1) := ctx_next next c in
      let acc1 := acc ++ [c_tok c1] in
      if is_ok e then tokvec_loop f (tv_level (c_type c1) level) acc1 c1 else Ok (e, acc1, c1)
    end
  end.

(** H 9165-9189: to; [v] is what the vector holds before. *)
Definition tokvec_to (fuel : nat) (v : list token) (c : ctx S) : outcome (error * list token * ctx S) :=
  match c_type c with
  | TArrayStart | TObjectStart => tokvec_loop fuel 1 [c_tok c] c
  | _ => Ok (c_err c, v ++ [c_tok c], c)
  end.

(** H 4607-4619: ParseContext::parseTo for this handler. *)
Definition tokvec_parseTo (fuel : nat) (v : list token) (c : ctx S) : outcome (error * list token * ctx S) :=
  let* (e, c) := ctx_next next c in
  if is_ok e then
    let* (e, v, c) := tokvec_to fuel v c in Ok (e, v, set_err e c)
  else Ok (e, v, c).
End TokVec.

(** H 9191-9198: from: the tokens as they are, also the name of the first. *)
Definition tokvec_from (v : list token) (s : ser) : outcome (list bool * ser) := ser_writes v s.

(** A context whose tokenizer reads the tokens [ts]: tokenizer.resetData(&tokens, 0) on a context in any
    state (H 1659-1670). *)
Definition replaying (ts : list token) (c : ctx tstate) : ctx tstate :=
  mkCtx (resetParsed ts 0 (c_src c)) (c_tok c) (c_err c) (c_missing c) (c_unassigned c) (c_cfg c).
