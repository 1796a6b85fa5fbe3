(** Specification vocabulary for function calls.  No proofs here. *)
From Verif Require Import Base ScanModel TokModel JsonSpec EscapeModel IntModel SerModel HandlerModel HandlerSpec RoundSpec CallModel.

(** ** Arguments
    A source that delivers the tokens of one value and then ScopeHasEnded. *)
Definition scope_next (nt : token) (s : list token) : outcome (list token * error * token) :=
  match s with
  | t :: r => Ok (r, NoError, t)
  | [] => Ok ([], ScopeHasEnded, nt)
  end.

(** Reading the JSON value [j], the value of a member called [name], into a new object of type [t]
    gives this error, this object and these reports. *)
Definition reads_argument (g : pcfg) (t : ty) (name : bytes) (j : json) (e : error) (v : val) (r : report) : Prop :=
  exists fuel first others c,
    map token_of (doc_tokens (Some name) j) = first :: others /\
    to scope_next fuel t (init t) (mkCtx others first NoError [] [] g) = Ok (e, v, c) /\ rep c = r.

Section Calls.
Context {K : Type}.

(** ** Which function a name denotes
    Functions of the container come before those of its super classes, later ones before earlier ones;
    a function's name comes before the aliases of any function. *)
Fixpoint functions (cn : fcont K) : list (func K) :=
  match cn with FCont fs supers => rev fs ++ concat (rev (map functions supers)) end.
Definition called (f : func K) (name : bytes) : bool :=
  match fn_names f with n :: _ => bytes_eqb n name | [] => false end.
Definition also_called (f : func K) (name : bytes) : bool :=
  match fn_names f with _ :: l => existsb (fun n => bytes_eqb n name) l | [] => false end.
Definition function_named (cn : fcont K) (name : bytes) : option (func K) :=
  match find (fun f => called f name) (functions cn) with
  | Some f => Some f
  | None => find (fun f => also_called f name) (functions cn)
  end.

(** ** One member of the call document: error, container afterwards, reports, returned value. *)
Inductive one_call (g : pcfg) (cn : fcont K) (k : K) (name : bytes) (j : json)
  : error -> K -> report -> option (ty * val) -> Prop :=
| Oc_unknown : function_named cn name = None -> one_call g cn k name j MissingFunction k ([], []) None
| Oc_argument f t e v r :
    function_named cn name = Some f -> fn_arg f = Some t -> reads_argument g t name j e v r -> e <> NoError -> e <> MissingFunction ->
    one_call g cn k name j e k r None
| Oc_called f a r k' e v :
    function_named cn name = Some f ->
    match fn_arg f with
    | Some t => exists x, a = Some x /\ reads_argument g t name j NoError x r
    | None => a = None /\ r = ([], [])
    end ->
    fn_body f k a = (k', e, v) -> e <> MissingFunction ->
    one_call g cn k name j e k' r
      (match e, fn_ret f with NoError, Some t => Some (t, v) | _, _ => None end).

(** ** The whole document: error, container afterwards, execution list, returned values. *)
Definition stops (allow_missing stop : bool) (e : error) : bool :=
  stop && match e with NoError => false | MissingFunction => negb allow_missing | _ => true end.
Inductive calls (g : pcfg) (allow_missing stop : bool) (cn : fcont K)
  : K -> list (bytes * json) -> error -> K -> list exec -> list (ty * val) -> Prop :=
| Ca_nil k : calls g allow_missing stop cn k [] NoError k [] []
| Ca_next k name j ms e k1 r res e2 k2 xs rs :
    one_call g cn k name j e k1 r res -> stops allow_missing stop e = false ->
    calls g allow_missing stop cn k1 ms e2 k2 xs rs ->
    calls g allow_missing stop cn k ((name, j) :: ms) e2 k2 (mkEx name e (fst r) (snd r) :: xs)
      (match res with Some x => [x] | None => [] end ++ rs)
| Ca_stop k name j ms e k1 r res :
    one_call g cn k name j e k1 r res -> stops allow_missing stop e = true ->
    calls g allow_missing stop cn k ((name, j) :: ms) e k1 [mkEx name e (fst r) (snd r)] [].

(** The JSON values of returned values. *)
Definition results (i : isa) (rs : list (ty * val)) : list json := somes (map (fun x => render i (fst x) (snd x)) rs).

(** Every function returns values that can be written as JSON with at most [n] brackets open. *)
Definition returns_json (i : isa) (n : nat) (nesting : json -> nat) (cn : fcont K) : Prop :=
  forall f t k a k' e v, In f (functions cn) -> fn_ret f = Some t -> fn_body f k a = (k', e, v) ->
    storable i t v /\ forall j, render i t v = Some j -> nesting j <= n.
End Calls.
