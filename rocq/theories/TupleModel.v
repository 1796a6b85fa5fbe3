(** Model of JS::Tuple (H 2945-3093), and of the handler of JS::Tuple as the templates spell it out
    (H 9480-9542).  No proofs here.

    The templates are modelled as functions on their arguments: a pack of types is a list of codes, a
    std::size_t argument a number below 2^64.  None: the program is not well formed (the compiler
    rejects it), or the recursion of the templates is deeper than [depth], which bounds it. *)
From Verif Require Import Base ScanModel TokModel HandlerModel.

(** H 2948-2960: Sequence and Merge; the sum is of type std::size_t. *)
Definition merge (is1 is2 : list N) : list N := is1 ++ map (fun i => ((N.of_nat (length is1) + i) mod 2 ^ 64)%N) is2.

(** H 2962-2979: GenSequence. *)
Fixpoint genSequence (depth size : nat) : option (list N) :=
  match depth with
  | O => None
  | S d =>
    match size with
    | O => Some []
    | 1 => Some [0%N]
    | _ =>
      match genSequence d (Nat.div2 size), genSequence d (size - Nat.div2 size) with
      | Some a, Some b => Some (merge a b)
      | _, _ => None
      end
    end
  end.
(** Every recursive use is for a smaller size. *)
Definition indices (size : nat) : option (list N) := genSequence (S size) size.

(** H 2981-2995: Element<index, T>, with its data. *)
Record element (T D : Type) : Type := mkElement { el_index : N; el_type : T; el_data : D }.
Arguments mkElement {T D}. Arguments el_index {T D}. Arguments el_type {T D}. Arguments el_data {T D}.

Section Tuples.
Context {T D : Type}.

(** H 2997-3012: the elements that TupleImpl<Sequence<indices...>, Ts...> derives from, initialised
    from the arguments.  The packs are expanded together, so they must be of the same length. *)
Fixpoint tupleImpl (is : list N) (ts : list T) (args : list D) : option (list (element T D)) :=
  match is, ts, args with
  | [], [], [] => Some []
  | i :: is, t :: ts, a :: args => option_map (cons (mkElement i t a)) (tupleImpl is ts args)
  | _, _, _ => None
  end.

(** H 3024-3042, 3087-3091: Tuple(Ts... args) and makeTuple. *)
Definition makeTuple (ts : list T) (args : list D) : option (list (element T D)) :=
  match indices (length ts) with Some is => tupleImpl is ts args | None => None end.

(** H 3015-3023: deduce(Element<I, T>) called with the TupleImpl; deduction needs exactly one base
    Element<I, _>. *)
Definition deduce (i : N) (tuple : list (element T D)) : option (element T D) :=
  match filter (fun e => N.eqb (el_index e) i) tuple with
  | [e] => Some e
  | _ => None
  end.

(** TypeAt<I, Ts...>::type (H 3015-3023; 3056-3080 for Tuple<Ts...>). *)
Definition typeAt (i : N) (tuple : list (element T D)) : option T := option_map el_type (deduce i tuple).
(** H 3043-3047: get<I>() const. *)
Definition get (i : N) (tuple : list (element T D)) : option D := option_map el_data (deduce i tuple).
(** H 3049-3053: an assignment to what get<I>() refers to. *)
Definition assign (i : N) (x : D) (tuple : list (element T D)) : option (list (element T D)) :=
  match deduce i tuple with
  | Some _ => Some (map (fun e => if N.eqb (el_index e) i then mkElement (el_index e) (el_type e) x else e) tuple)
  | None => None
  end.
End Tuples.

(** A tuple as a list of what it was made of; used where only the data is looked at. *)
Definition tuple_of {D} (args : list D) : option (list (element unit D)) := makeTuple (repeat tt (length args)) args.
(** makeTuple(args...).get<i>(), where [i] is an expression of type std::size_t. *)
Definition get_of {D} (i : N) (args : list D) : option D :=
  match tuple_of args with Some t => get i t | None => None end.

(** a - b in std::size_t. *)
Definition size_sub (a b : N) : N := ((a + 2 ^ 64 - b) mod 2 ^ 64)%N.

(** ** The handler of JS::Tuple *)
Section Handler.
Context {S : Type} (next : token -> S -> outcome (S * error * token)).

(** H 9480-9513: TupleTypeHandler<INDEX, Ts...>::to for a tuple of handlers and the tuple of values they
    fill in; [UB] stands for a program that is not well formed. *)
Fixpoint tuple_template (index : nat) (hs : list (element unit (handler S))) (size : nat) (vs : list (element unit val)) (c : ctx S)
  : outcome (error * list (element unit val) * ctx S) :=
  match index with
  | O => Ok (NoError, vs, c)
  | Datatypes.S d =>
      let i := size_sub (N.of_nat size) (N.of_nat index) in
      match get i hs, get i vs with
      | Some h, Some v =>
          let* (e, v, c) := h v c in
          match assign i v vs with
          | Some vs =>
              if is_ok e then
                let* (e, c) := ctx_next next c in
                if is_ok e then tuple_template d hs size vs c else Ok (e, vs, c)
              else Ok (e, vs, c)
          | None => UB
          end
      | _, _ => UB
      end
  end.

(** H 9525-9542: TypeHandler<JS::Tuple<Ts...>>::to. *)
Definition js_tuple_to (hs : list (handler S)) (args : list val) (c : ctx S) : outcome (error * list val * ctx S) :=
  match tuple_of hs, tuple_of args with
  | Some ht, Some vt =>
      if type_eqb (c_type c) TArrayStart then
        let* (e, c) := ctx_next next c in
        if is_ok e then
          let* (e, vt, c) := tuple_template (length hs) ht (length hs) vt c in
          if is_ok e then Ok (if type_eqb (c_type c) TArrayEnd then NoError else ExpectedArrayEnd, map el_data vt, c)
          else Ok (e, map el_data vt, c)
        else Ok (e, args, c)
      else Ok (ExpectedArrayStart, args, c)
  | _, _ => UB
  end.
End Handler.

(** H 9498-9503 and 9516-9521: TupleTypeHandler<INDEX, Ts...>::from, for the tuple of what writes the
    elements. *)
Fixpoint tuple_template_from (index : nat) (ws : list (element unit (wname -> list token * wname))) (size : nat) (n : wname)
  : option (list token * wname) :=
  match index with
  | O => Some ([], n)
  | S d =>
      match get (size_sub (N.of_nat size) (N.of_nat index)) ws with
      | Some w =>
          let '(l1, n) := w n in
          match tuple_template_from d ws size n with Some (l2, n) => Some (l1 ++ l2, n) | None => None end
      | None => None
      end
  end.
(** H 9544-9560. *)
Definition js_tuple_from (ws : list (wname -> list token * wname)) (n : wname) : option (list token * wname) :=
  match tuple_of ws with
  | Some t =>
      match tuple_template_from (length ws) t (length ws) (noname n) with
      | Some (l, n') => Some (wtok n [x5b] TArrayStart :: l ++ [wtok (noname n') [x5d] TArrayEnd], noname n')
      | None => None
      end
  | None => None
  end.
