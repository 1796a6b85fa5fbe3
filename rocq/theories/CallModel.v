(** Model of CallFunctionContext::callFunctions and the code below it (H 4728-5556).  No proofs here.

    Simplifications: a function is a function of the container object [K] and its argument; what it
    can do with the CallFunctionErrorContext or CallFunctionContext it may take is to call setError
    (a nested callFunctions is not modelled); error strings, user_context and child_states are left
    out; the results of Serializer::write are ignored, as in the code. *)
From Verif Require Import Base ScanModel TokModel EscapeModel IntModel SerModel HandlerModel WriteModel.

Section Calls.
Context {K : Type}.

(** H 4803-4900: FunctionInfo.  [fn_arg] is None for Arg = void, [fn_ret] is None for Ret = void.
    [fn_body k a] gives the container afterwards, the error passed to setError (NoError when it is not
    called, which is always so for a function without context), and the returned value. *)
Record func : Type := mkFunc {
  fn_names : list bytes; fn_arg : option ty; fn_ret : option ty; fn_body : K -> option val -> K * error * val }.

(** H 4948-5010: the functions of a container, and its super classes. *)
Inductive fcont : Type := FCont (fs : list func) (supers : list fcont).

(** H 4728-4744: CallFunctionExecutionState. *)
Record exec : Type := mkEx { ex_name : bytes; ex_error : error; ex_missing : list bytes; ex_unassigned : list bytes }.

(** H 4766-4797: CallFunctionContext; the last of [cs_exec] is execution_list.back(). *)
Record cstate : Type := mkCs { cs_ctx : ctx tstate; cs_exec : list exec; cs_out : ser }.
Definition cs_with (c : ctx tstate) (st : cstate) : cstate := mkCs c (cs_exec st) (cs_out st).

Fixpoint upd_last {A} (f : A -> A) (l : list A) : list A :=
  match l with
  | [] => []
  | [x] => [f x]
  | x :: r => x :: upd_last f r
  end.
Definition back_error (st : cstate) : error := ex_error (last (cs_exec st) (mkEx [] NoError [] [])).

(** H 4799-4809: setError. *)
Definition ex_set (e : error) (x : exec) : exec := mkEx (ex_name x) e (ex_missing x) (ex_unassigned x).
Definition setError (e : error) (st : cstate) : cstate :=
  mkCs (set_err e (cs_ctx st)) (upd_last (ex_set e) (cs_exec st)) (cs_out st).

Context (o : opts) (fuel : nat).

(** H 5012-5266: FunctionCaller::callFunctionAndSerializeReturn.  [PureArg arg;] is value-initialised
    here. *)
Definition callFunctionAndSerializeReturn (f : func) (k : K) (st : cstate) : outcome (error * K * cstate) :=
  let* (a, c) :=
    match fn_arg f with
    | Some t => let* (e, v, c) := to (nextToken o) fuel t (init t) (cs_ctx st) in Ok (Some v, set_err e c)
    | None => let* c := skipArrayOrObject (nextToken o) fuel (cs_ctx st) in Ok (None, c)
    end in
  let st := cs_with c st in
  if is_ok (c_err c) then
    let '(k, e, v) := fn_body f k a in
    let st := if is_ok e then st else setError e st in
    if is_ok (back_error st) then
      match fn_ret f with
      | Some t =>
          let* (_, s) := ser_writes (fst (from (o_isa o) t v wname_default)) (cs_out st) in
          Ok (NoError, k, mkCs (cs_ctx st) (cs_exec st) s)
      | None => Ok (NoError, k, st)
      end
    else Ok (back_error st, k, st)
  else Ok (c_err c, k, st).

(** H 5271-5296. *)
Definition matchAndCallFunction (primary : bool) (f : func) (k : K) (st : cstate) : outcome (error * K * cstate) :=
  if has_name primary (c_name (cs_ctx st)) (fn_names f) then callFunctionAndSerializeReturn f k st
  else Ok (MissingFunction, k, st).

(** H 5324-5370: FunctionObjectTraverser, from the last function to the first; the error of the first
    one is returned as it is, for the others it is that of the parse context. *)
Fixpoint traverse (primary : bool) (fs : list func) (supers : K -> cstate -> outcome (error * K * cstate)) (k : K) (st : cstate)
  : outcome (error * K * cstate) :=
  match fs with
  | [] => supers k st
  | f :: r =>
      let* (e, k, st) := matchAndCallFunction primary f k st in
      match e with
      | NoError => Ok (NoError, k, st)
      | MissingFunction => traverse primary r supers k st
      | _ => Ok (match r with [] => e | _ => c_err (cs_ctx st) end, k, st)
      end
  end.

(** H 5300-5322, 5527-5556: FunctionalSuperRecursion, from the last super class to the first. *)
Fixpoint try_supers (l : list (K -> cstate -> outcome (error * K * cstate))) (k : K) (st : cstate) : outcome (error * K * cstate) :=
  match l with
  | [] => Ok (MissingFunction, k, st)
  | h :: r =>
      let* (e, k, st) := h k st in
      match e with MissingFunction => try_supers r k st | _ => Ok (e, k, st) end
  end.
Fixpoint call_in (primary : bool) (cn : fcont) : K -> cstate -> outcome (error * K * cstate) :=
  match cn with
  | FCont fs supers => traverse primary (rev fs) (try_supers (rev (map (call_in primary) supers)))
  end.

(** H 5372-5391: add_error. *)
Definition add_error (st : cstate) : cstate :=
  let c := cs_ctx st in
  let swap (old new : list bytes) := match new with [] => (old, new) | _ => (new, old) end in
  let x := last (cs_exec st) (mkEx [] NoError [] []) in
  let '(em, cm) := swap (ex_missing x) (c_missing c) in
  let '(eu, cu) := swap (ex_unassigned x) (c_unassigned c) in
  mkCs (mkCtx (c_src c) (c_tok c) (c_err c) cm cu (c_cfg c))
       (upd_last (fun _ => mkEx (ex_name x) (c_err c) em eu) (cs_exec st)) (cs_out st).

Definition with_src (s : tstate) (tk : token) (c : ctx tstate) : ctx tstate :=
  mkCtx s tk (c_err c) (c_missing c) (c_unassigned c) (c_cfg c).

(** H 5458-5485: the loop.  [n] bounds the number of members. *)
Fixpoint calls_loop (n : nat) (allow_missing stop : bool) (cn : fcont) (k : K) (st : cstate) : outcome (error * K * cstate) :=
  match n with
  | O => OutOfFuel
  | S n =>
    let c := cs_ctx st in
    if type_eqb (c_type c) TObjectEnd then Ok (NoError, k, st)
    else
      let st := mkCs (with_src (pushScope (c_type c) (c_src c)) (c_tok c) c)
                     (cs_exec st ++ [mkEx (c_name c) NoError [] []]) (cs_out st) in
      let* (e, k, st) := call_in true cn k st in
      let* (e, k, st) := match e with MissingFunction => call_in false cn k st | _ => Ok (e, k, st) end in
      let st := if is_ok e then st else cs_with (set_err e (cs_ctx st)) st in
      let st := add_error st in
      let* (s, _, tk) := goToEndOfScope fuel o (c_tok (cs_ctx st)) (c_src (cs_ctx st)) in
      let* s := popScope s in
      let st := cs_with (with_src s tk (cs_ctx st)) st in
      let e := match e with MissingFunction => if allow_missing then NoError else e | _ => e end in
      if stop && negb (is_ok e) then Ok (e, k, st)
      else
        let* (e, c) := ctx_next (nextToken o) (cs_ctx st) in
        let st := cs_with c st in
        if is_ok e then calls_loop n allow_missing stop cn k st else Ok (e, k, st)
  end.

(** H 5437-5488: callFunctions.  The closing bracket is written on every way out after the opening
    one (ArrayEndWriter, H 5413-5431). *)
Definition bracket (v : byte) (t : type) : token := mkTok (tk_name tok_default) (mkRef Elsewhere [v]) (tk_name_type tok_default) t.
Definition callFunctions (allow_missing stop : bool) (cn : fcont) (k : K) (st : cstate) : outcome (error * K * cstate) :=
  let* (e, c) := ctx_next (nextToken o) (cs_ctx st) in
  let st := cs_with c st in
  if is_ok e then
    if type_eqb (c_type c) TObjectStart then
      let* (e, c) := ctx_next (nextToken o) c in
      let st := cs_with c st in
      if is_ok e then
        let* (_, s) := ser_write (bracket x5b TArrayStart) (cs_out st) in
        let* (e, k, st) := calls_loop fuel allow_missing stop cn k (mkCs (cs_ctx st) (cs_exec st) s) in
        let* (_, s) := ser_write (bracket x5d TArrayEnd) (cs_out st) in
        Ok (e, k, mkCs (cs_ctx st) (cs_exec st) s)
      else Ok (e, k, st)
    else Ok (ExpectedObjectStart, k, setError ExpectedObjectStart st)
  else Ok (e, k, st).
End Calls.
Arguments func : clear implicits.
Arguments fcont : clear implicits.

(** A CallFunctionContext made for one text and an empty output (H 5490-5525; the buffers are those of
    SerializerContext, H 4621-4661). *)
Definition call_context (cfg : pcfg) (text : bytes) (so : sopts) : cstate :=
  mkCs (context_of cfg text) [] (ser_make so 4096 (reformat_supply 4096)).
