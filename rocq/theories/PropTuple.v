(** Property C67: JS::Tuple.
    [makeTuple ts args] is the tuple of the arguments [args] of the types [ts], for any types and data;
    [get i], [typeAt i] and [assign i x] are get<i>(), TypeAt<i, ...>::type and an assignment to what
    get<i>() refers to.  None: the program is rejected by the compiler. *)
From Coq Require Import Lia.
From Verif Require Import Base ScanModel TokModel IntModel HandlerModel HandlerSpec PropTok PropStruct TupleModel TupleProofs.

(** The indices are 0, 1, ..., n - 1, in this order, for every size that std::size_t can count. *)
Theorem C67_sequence : forall n, (N.of_nat n <= 2 ^ 64)%N -> indices n = Some (map N.of_nat (seq 0 n)).
Proof. exact indices_ok. Qed.
Print Assumptions C67_sequence.

(** The recursion of GenSequence is logarithmic: 2^d types need a depth of d + 1. *)
Theorem C67_depth : forall d n, (n <= 2 ^ d)%nat -> (N.of_nat n <= 2 ^ 64)%N -> genSequence (S d) n = indices n.
Proof. intros d n H Hs. rewrite (indices_ok n Hs). apply gen_depth; assumption. Qed.
Print Assumptions C67_depth.

(** get<i>() is the i-th argument and TypeAt<i> its type; an index beyond the tuple does not compile. *)
Theorem C67_get : forall (T D : Type) (ts : list T) (args : list D), (N.of_nat (length ts) <= 2 ^ 64)%N -> length args = length ts ->
  exists t, makeTuple ts args = Some t /\
    forall i, get i t = nth_error args (N.to_nat i) /\ typeAt i t = nth_error ts (N.to_nat i).
Proof.
  intros T D ts args Hs Hl. exists (elems 0 ts args). split; [apply make_ok; assumption|].
  intros i. split; [apply get_elems|apply typeAt_elems]; assumption.
Qed.
Print Assumptions C67_get.

(** The wrong number of arguments does not compile. *)
Theorem C67_arity : forall (T D : Type) (ts : list T) (args : list D), length args <> length ts -> makeTuple ts args = None.
Proof.
  intros T D ts args H. unfold makeTuple. destruct (indices (length ts)) as [is|]; [|reflexivity].
  destruct (tupleImpl is ts args) eqn:E; [|reflexivity]. apply impl_length in E. contradiction.
Qed.
Print Assumptions C67_arity.

(** An assignment through get<i>() changes that element and no other, and no type. *)
Theorem C67_assign : forall (T D : Type) (ts : list T) (args : list D) t i x, (N.of_nat (length ts) <= 2 ^ 64)%N ->
  makeTuple ts args = Some t -> (N.to_nat i < length args)%nat ->
  exists t', assign i x t = Some t' /\ get i t' = Some x /\
    (forall j, j <> i -> get j t' = get j t) /\ forall j, typeAt j t' = typeAt j t.
Proof.
  intros T D ts args t i x Hs H Hi.
  assert (Hl : length args = length ts).
  { unfold makeTuple in H. destruct (indices _) as [is|]; [|discriminate]. eapply impl_length, H. }
  rewrite (make_ok ts args Hs Hl) in H. injection H as <-.
  exists (elems 0 ts (put (N.to_nat i) x args)). rewrite assign_elems by exact Hl.
  destruct (Nat.ltb_spec (N.to_nat i) (length args)) as [_|]; [|lia]. split; [reflexivity|].
  assert (Hl' : length (put (N.to_nat i) x args) = length ts) by (rewrite put_length; exact Hl).
  split; [|split].
  - rewrite get_elems by exact Hl'. clear - Hi. revert Hi. generalize (N.to_nat i). clear i.
    induction args as [|a args IH]; intros [|n] Hi; cbn in *; try lia; [reflexivity|]. apply IH. lia.
  - intros j Hj. rewrite !get_elems by assumption. assert (Hn : N.to_nat j <> N.to_nat i) by lia.
    clear - Hn. revert Hn. generalize (N.to_nat i) (N.to_nat j). clear i.
    induction args as [|a args IH]; intros [|n] [|m] Hn; cbn; try reflexivity; [congruence|]. apply IH. congruence.
  - intros j. rewrite !typeAt_elems by assumption. reflexivity.
Qed.
Print Assumptions C67_assign.

(** TypeHandler<JS::Tuple>, template by template, is the handler that C26, C47 and C49 are about; for every
    list of handlers and values. *)
Theorem C67_read : forall (S : Type) next (hs : list (handler S)) vs c, (N.of_nat (length hs) < 2 ^ 64)%N -> length vs = length hs ->
  (let* (e, l, c) := js_tuple_to next hs vs c in Ok (e, VList l, c)) = tuple_to next hs (VList vs) c.
Proof. intros S next hs vs c. apply js_tuple_ok. Qed.
Print Assumptions C67_read.

Theorem C67_write : forall ws n, (N.of_nat (length ws) < 2 ^ 64)%N -> js_tuple_from ws n = Some (from_array ws n).
Proof. exact js_tuple_from_ok. Qed.
Print Assumptions C67_write.

(** Tuple<int, bool, int, char>(7, true, 8, 'c') with types and values as codes; the second int is assigned to. *)
Example C67_nonvacuous :
  let t := makeTuple [s2b "int"; s2b "bool"; s2b "int"; s2b "char"] [7; 1; 8; 99]%Z in
  match t with
  | Some t => get 2 t = Some 8%Z /\ typeAt 3 t = Some (s2b "char") /\ get 4 t = None /\
      match assign 2 5%Z t with Some t' => get 2 t' = Some 5%Z /\ get 0 t' = Some 7%Z | None => False end
  | None => False
  end.
Proof. vm_compute. intuition reflexivity. Qed.
Example C67_nonvacuous_depth : (5 <= 2 ^ 3)%nat /\ genSequence 4 5 = Some [0; 1; 2; 3; 4]%N /\ genSequence 3 5 = None.
Proof. split; [cbn; lia|]. vm_compute. split; reflexivity. Qed.
Example C67_nonvacuous_handler :
  let c := context_of cfg_default (s2b "[1,true]") in
  let next := nextToken default_opts in
  match ctx_next next c with
  | Ok (_, c) =>
      match js_tuple_to next [integer_to (mkIty 32 true); bool_to] [VInt 0; VBool false] c with
      | Ok (e, l, _) => e = NoError /\ l = [VInt 1; VBool true]
      | _ => False
      end
  | _ => False
  end.
Proof. vm_compute. split; reflexivity. Qed.
