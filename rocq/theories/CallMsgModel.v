(** Model of the error texts of callFunctions: setError (H 4799-4809), add_error (H 5378-5393) and the error context
    that they share with the tokenizer, over the loop of H 5458-5485.  No proofs here.  Simplification: how the call for
    each member ends (argument read or not, which errors the function sets) is given; CallModel says which it is.  Only
    tokenizers reading text, as in ErrCtxModel. *)
From Verif Require Import Base ScanModel TokModel ErrCtxModel ErrMsgModel.

(** How the call for a member ends.  The position: data_list and cursor_index at that time. *)
Inductive ending : Type :=
| Fine                                         (* the function was called and set no error *)
| Sets (calls : list (error * bytes))          (* the function called setError, one or more times *)
| Refuses (e : error)                          (* the type handler of the argument failed, or there is no such function *)
| Breaks (e : error).                          (* the tokenizer failed within the argument *)
Record member : Type := mkMember { me_end : ending; me_bufs : list bytes; me_cur : nat }.

Section Texts.
Context (gc : ecfg).

(** H 4799-4809: setError; the text stored here is overwritten by add_error, the last one is returned too. *)
Definition set_error (bufs : list bytes) (cur : nat) (e : error) (message : bytes) (c : ectx) : outcome (ectx * bytes) :=
  let stored := tokenizer_message c in
  let* c := updateErrorContext gc bufs cur e message c in Ok (c, stored).
Fixpoint set_errors (bufs : list bytes) (cur : nat) (calls : list (error * bytes)) (e0 : error) (c : ectx) : outcome (ectx * error) :=
  match calls with
  | [] => Ok (c, e0)
  | (e, m) :: r => let* (c, _) := set_error bufs cur e m c in set_errors bufs cur r e c
  end.

(** H 5378-5386: add_error with the error [e] of the parse context; the text stored. *)
Definition add_text (bufs : list bytes) (cur : nat) (e : error) (c : ectx) : outcome (ectx * option bytes) :=
  match e with
  | NoError => Ok (c, None)
  | _ =>
    let* c := match ec_message c with [] => updateErrorContext gc bufs cur e [] c | _ => Ok c end in
    Ok (c, Some (tokenizer_message c))
  end.

(** H 5459-5474 for one member.  The token of the member was read before (H 5455, 5481), which cleared the context. *)
Definition member_text (m : member) (c : ectx) : outcome (ectx * option bytes) :=
  let c := ec_clear c in
  let* (c, e) :=
    match me_end m with
    | Fine => Ok (c, NoError)
    | Sets calls => set_errors (me_bufs m) (me_cur m) calls NoError c
    | Refuses e => Ok (c, e)
    | Breaks e => let* c := updateErrorContext gc (me_bufs m) (me_cur m) e [] c in Ok (c, e)
    end in
  add_text (me_bufs m) (me_cur m) e c.

(** The texts of all members. *)
Fixpoint member_texts (ms : list member) (c : ectx) : outcome (list (option bytes)) :=
  match ms with
  | [] => Ok []
  | m :: r => let* (c, t) := member_text m c in let* ts := member_texts r c in Ok (t :: ts)
  end.
End Texts.
