(** C40: function calls. *)
From Verif Require Import Base ScanModel TokModel TokSpec JsonSpec EscapeModel IntModel SerModel SerSpec HandlerModel HandlerSpec HandlerTree HandlerLaws
  WriteModel RoundSpec RoundProofs ShowJson PropTok PropStruct PropRound CallModel CallSpec CallProofs.
From Coq Require Import Lia ZArith.
Local Open Scope nat_scope.

(** callFunctions on a text of an object.  [calls] (CallSpec.v) says, without the code: the members are
    taken in document order; the function is the one with that name, else one with that alias, or the
    call is reported as MissingFunction; its argument is what its argument type reads from the value; an
    argument that cannot be read and an error set by the function are reported; the returned values are
    collected.  The outcome is exactly this: the returned error, the container, the execution list, and
    an output that is a text of the array of the returned values.  [fuel] only bounds loops.

    Missing from the full claim: one result per member (see below), functions that make calls
    themselves, functions that report MissingFunction (see below), values nested 65536 deep (see C09). *)
Theorem C40_calls_partial : forall K o g allow_missing stop (cn : fcont K) so n k ms text e k' xs rs,
  o_nl o = false -> doc_text plain (JObj ms) text -> Forall (fun kv => (N.of_nat (nesting (snd kv)) < 65536)%N) ms ->
  options_made so -> so_ascii so = true -> (so_depth so + N.of_nat n < 255)%N -> returns_json (o_isa o) n nesting cn ->
  calls g allow_missing stop cn k ms e k' xs rs ->
  exists f, forall fuel, f <= fuel -> exists st,
    callFunctions o fuel allow_missing stop cn k (call_context g text so) = Ok (e, k', st) /\
    cs_exec st = xs /\ doc_text plain (JArr (CallSpec.results (o_isa o) rs)) (ser_output (cs_out st)).
Proof. exact @call_document. Qed.
Print Assumptions C40_calls_partial.

(** The specification says something about every call document whose values fit the argument types (a
    std::string is not read from a bracket, C47). *)
Theorem C40_calls_total : forall K g allow_missing stop (cn : fcont K) ms,
  (forall f k a k' e v, In f (functions cn) -> fn_body f k a = (k', e, v) -> e <> MissingFunction) ->
  (forall f t kv, In f (functions cn) -> In kv ms -> fn_arg f = Some t -> ty_ok t /\ fits t (Some (snd kv))) ->
  forall k, exists e k' xs rs, calls g allow_missing stop cn k ms e k' xs rs.
Proof. exact @calls_total. Qed.
Print Assumptions C40_calls_total.

(** The argument is what the handler reads from the tokens of the value alone. *)
Theorem C40_argument : forall g t name j, ty_ok t -> fits t (Some j) -> exists e v r,
  read_value g t (init t) j = Ok (e, v, r) /\ reads_argument g t name j e v r /\ e <> MissingFunction.
Proof. exact argument_value. Qed.
Print Assumptions C40_argument.

(** The execution list has one entry for each member up to the one that stopped the calls, in document
    order; without stop it has one for every member. *)
Theorem C40_in_order : forall K g allow_missing stop (cn : fcont K) k ms e k' xs rs,
  calls g allow_missing stop cn k ms e k' xs rs ->
  map ex_name xs = firstn (length xs) (map fst ms) /\ (stop = false \/ e = NoError -> length xs = length ms) /\ length rs <= length xs.
Proof.
  intros K g am sp cn k ms e k' xs rs H.
  induction H as [|k name j ms e k1 r res e2 k2 xs rs H1 H2 H3 (IH1 & IH2 & IH3)|k name j ms e k1 r res H1 H2]; cbn [map length firstn fst ex_name].
  - repeat split; auto.
  - split; [rewrite IH1; reflexivity|]. split; [intros H; rewrite IH2 by exact H; reflexivity|].
    rewrite app_length. destruct res; cbn [length]; lia.
  - split; [reflexivity|]. split; [|lia]. intros [->| ->]; unfold stops in H2; [discriminate|rewrite andb_false_r in H2; discriminate].
Qed.
Print Assumptions C40_in_order.

(** Whatever the text, the options and the outcome: nothing or an array has been written. *)
Theorem C40_output_json : forall K o fuel n so (cn : fcont K),
  returns_json (o_isa o) n nesting cn -> forall g allow_missing stop k text e k' st,
  options_made so -> so_ascii so = true -> (so_depth so + N.of_nat n < 255)%N ->
  callFunctions o fuel allow_missing stop cn k (call_context g text so) = Ok (e, k', st) ->
  ser_output (cs_out st) = [] \/ exists els, doc_text plain (JArr els) (ser_output (cs_out st)).
Proof. exact @output_array. Qed.
Print Assumptions C40_output_json.

(** A container with a super class; its state is a number. *)
Definition c40_point : ty := YStruct [1] [([], [s2b "x"], YInt I32)].
Definition c40_get (a : option val) : Z := match a with Some (VInt z) => z | Some (VList [VInt z]) => z | _ => 0%Z end.
Definition c40_base : fcont Z := FCont
  [ mkFunc [s2b "add"] (Some (YInt I32)) (Some YBool) (fun k a => (k, NoError, VBool true));
    mkFunc [s2b "reset"; s2b "clear"] None None (fun _ _ => (0%Z, NoError, VInt 0)) ] [].
Definition c40_cont : fcont Z := FCont
  [ mkFunc [s2b "add"] (Some (YInt I32)) (Some YBool) (fun k a => ((k + c40_get a)%Z, NoError, VBool (k =? 0)%Z));
    mkFunc [s2b "move"; s2b "reset"] (Some c40_point) (Some (YVec YString)) (fun k a => (c40_get a, NoError, VList [VStr (s2b "was"); VStr (s2b "here")]));
    mkFunc [s2b "fail"] None (Some YString) (fun k _ => (k, UserDefinedErrors, VStr [])) ] [c40_base].
Definition c40_doc : list (bytes * json) :=
  [ (s2b "add", num (s2b "5")); (s2b "none", JArr [num (s2b "1"); JArr []]); (s2b "move", JObj [(s2b "x", num (s2b "7"))]); (s2b "move", JObj []);
    (s2b "fail", JObj [(s2b "a", JArr [])]); (s2b "clear", num (s2b "1")); (s2b "add", num (s2b "2")) ].
Definition c40_cfg : pcfg := mkCfg true false true.
Definition c40_run (allow_missing stop : bool) (ms : list (bytes * json)) (text : bytes) :=
  match callFunctions default_opts 100 allow_missing stop c40_cont 0%Z (call_context c40_cfg text (so_make false)) with
  | Ok (e, k, st) => Some (e, k, map (fun x => (ex_name x, ex_error x, ex_unassigned x)) (cs_exec st), ser_output (cs_out st))
  | _ => None
  end.

(** The hypotheses hold for it, and this is what the theorems describe. *)
Lemma c40_returns : returns_json (o_isa default_opts) 1 nesting c40_cont.
Proof.
  intros f t k a k' e v Hin Ht Hb. cbn in Hin.
  repeat (destruct Hin as [<-|Hin]; [cbn in Ht, Hb; try discriminate; injection Ht as <-; injection Hb as <- <- <-;
    (split; [cbn; repeat constructor; discriminate|intros j Hj; cbn in Hj; injection Hj as <-; cbn; repeat destruct (_ =? _)%Z; cbn; lia])|]).
  contradiction.
Qed.
Example C40_nonvacuous :
  doc_text plain (JObj c40_doc) (show (JObj c40_doc)) /\
  Forall (fun kv => (N.of_nat (nesting (snd kv)) < 65536)%N) c40_doc /\ returns_json (o_isa default_opts) 1 nesting c40_cont /\
  (exists e k' xs rs, calls c40_cfg true true c40_cont 0%Z c40_doc e k' xs rs) /\
  c40_run true false c40_doc (show (JObj c40_doc)) =
    Some (NoError, 2%Z,
      [ (s2b "add", NoError, []); (s2b "none", MissingFunction, []); (s2b "move", NoError, []);
        (s2b "move", UnassignedRequiredMember, [s2b "x"]); (s2b "fail", UserDefinedErrors, []); (s2b "clear", NoError, []); (s2b "add", NoError, []) ],
      s2b "[true,[""was"",""here""],true]") /\
  c40_run true true c40_doc (show (JObj c40_doc)) =
    Some (UnassignedRequiredMember, 7%Z,
      [ (s2b "add", NoError, []); (s2b "none", MissingFunction, []); (s2b "move", NoError, []); (s2b "move", UnassignedRequiredMember, [s2b "x"]) ],
      s2b "[true,[""was"",""here""]]").
Proof.
  split; [apply show_doc; [reflexivity|exact I]|]. split; [repeat constructor|]. split; [exact c40_returns|]. split; [|split; vm_compute; reflexivity].
  apply calls_total.
  - intros f k a k' e v Hin Hb. cbn in Hin.
    repeat (destruct Hin as [<-|Hin]; [cbn in Hb; injection Hb as _ <- _; discriminate|]). contradiction.
  - intros f t kv Hin Hkv Ht. cbn in Hin.
    repeat (destruct Hin as [<-|Hin]; [cbn in Ht; try discriminate; injection Ht as <-|]); try contradiction; try (split; [cbn; auto|exact I]).
    split; [cbn; auto|]. destruct kv as [kk j]. destruct j as [s|els|l]; try exact I. cbn [fits c40_point snd].
    apply Forall_forall. intros [k0 j0] _. destruct (search_both _ _ _) as [[|[|i]]|]; cbn; auto.
Qed.

(** ** What is not true *)

(** One result per member: a function without result, a failing call and an unknown function write
    nothing, so the third result above cannot be matched with its member; here seven calls, three
    results. *)
Theorem C40_one_result_refuted :
  exists text xs out, c40_run true false c40_doc text = Some (NoError, 2%Z, xs, out) /\
    doc_text plain (JObj c40_doc) text /\ length xs = length c40_doc /\
    doc_text plain (JArr [JScalar STrue; JArr [str (s2b "was"); str (s2b "here")]; JScalar STrue]) out.
Proof.
  exists (show (JObj c40_doc)). do 2 eexists. split; [vm_compute; reflexivity|]. split; [apply show_doc; [reflexivity|exact I]|].
  split; [reflexivity|]. exact (show_doc (JArr [JScalar STrue; JArr [str (s2b "was"); str (s2b "here")]; JScalar STrue]) eq_refl I).
Qed.
Print Assumptions C40_one_result_refuted.

(** A function that was called and reports MissingFunction (it has the value of any other error) is
    taken for one that was not found: a second function, which only has the name as an alias, is called
    for the same member. *)
Definition c40_twice : fcont Z := FCont
  [ mkFunc [s2b "other"; s2b "f"] (Some (YInt I32)) None (fun k _ => ((k + 10)%Z, NoError, VInt 0));
    mkFunc [s2b "f"] None None (fun k _ => ((k + 1)%Z, MissingFunction, VInt 0)) ] [].
Theorem C40_called_twice_refuted :
  function_named c40_twice (s2b "f") = nth_error (functions c40_twice) 0 /\
  match callFunctions default_opts 100 false false c40_twice 0%Z (call_context cfg_default (s2b "{""f"":1}") (so_make false)) with
  | Ok (e, k, _) => e = NoError /\ k = 11%Z
  | _ => False
  end.
Proof. split; [reflexivity|]. vm_compute. split; reflexivity. Qed.
Print Assumptions C40_called_twice_refuted.
