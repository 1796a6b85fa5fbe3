(** Model of writing and reading structs, and of writing vectors, that hold token vectors.  No proofs here. *)
From Verif Require Import Base ScanModel TokModel HandlerModel SerModel TokVecModel.

(** H 9191-9198: TypeHandler<std::vector<Token>>::from, and that of JsonTokens (H 9210-9213): the tokens as they
    are.  The name that was set for the value is not used, the name of the last token is left behind. *)
Definition tokens_from (ts : list token) (n : wname) : list token * wname :=
  (ts, match rev ts with [] => n | t :: _ => mkWn (dr_bytes (tk_name t)) (tk_name_type t) end).

(** H 5769-5787 with H 4311-4320, 4426-4431, 4463-4469: a struct without supers whose members hold tokens.
    [fs]: the declared names and what the members hold. *)
Definition tokstruct_from (fs : list (bytes * list token)) (n : wname) : list token * wname :=
  from_object (map (fun f => named (fst f) TAscii (tokens_from (snd f))) fs) n.

(** H 9033-9052: a std::vector<JsonTokens>. *)
Definition tokvector_from (vs : list (list token)) (n : wname) : list token * wname :=
  from_array (map tokens_from vs) n.

(** ** Reading *)
Section Read.
Context {S : Type} (next : token -> S -> outcome (S * error * token)).

(** H 5718-5758, with token vectors for members: see struct_loop in HandlerModel.v.  [ns]: the declared names. *)
Fixpoint tokstruct_loop (all fuel : nat) (ns : list bytes) (vs : list (list token)) (assigned : list bool) (c : ctx S)
  : outcome (error * list (list token) * list bool * ctx S) :=
  match fuel with
  | O => OutOfFuel
  | Datatypes.S f =>
    if type_eqb (c_type c) TObjectEnd then Ok (NoError, vs, assigned, c)
    else
      match search_both (c_name c) (map (fun k => [k]) ns) (search_order 0 [length ns]) with
      | Some i =>
          match nth_error vs i with
          | Some v =>
              let* (e, v, c) := tokvec_to next all v c in
              let vs := put i v vs in
              let assigned := put i true assigned in
              let e := matchedMemberResult e in
              if is_ok e then
                let* (e, c) := ctx_next next c in
                if is_ok e then tokstruct_loop all f ns vs assigned c else Ok (e, vs, assigned, c)
              else Ok (e, vs, assigned, c)
          | None => UB
          end
      | None =>
          let c := add_missing (c_name c) c in
          if pc_allow_missing (c_cfg c) then
            let* c := skipArrayOrObject next all c in
            if is_ok (c_err c) then
              let* (e, c) := ctx_next next c in
              if is_ok e then tokstruct_loop all f ns vs assigned c else Ok (e, vs, assigned, c)
            else Ok (c_err c, vs, assigned, c)
          else Ok (MissingPropertyMember, vs, assigned, c)
      end
  end.

(** H 5705-5778: one struct without supers and aliases. *)
Definition tokstruct_to (fuel : nat) (ns : list bytes) (vs : list (list token)) (c : ctx S) : outcome (error * list (list token) * ctx S) :=
  if type_eqb (c_type c) TObjectStart then
    let* (e, c) := ctx_read next c in
    if is_ok e then
      let* (e, vs, assigned, c) := tokstruct_loop fuel fuel ns vs (repeat false (length ns)) c in
      if is_ok e then
        match unassigned_of (search_order 0 [length ns]) (map (fun k => ([], [k], false)) ns) assigned with
        | [] => Ok (NoError, vs, c)
        | l => Ok (if pc_allow_unassigned (c_cfg c) then NoError else UnassignedRequiredMember, vs, add_unassigned l c)
        end
      else Ok (e, vs, c)
    else Ok (e, vs, c)
  else Ok (ExpectedObjectStart, vs, c).

(** H 4607-4619: ParseContext::parseTo. *)
Definition tokstruct_parseTo (fuel : nat) (ns : list bytes) (vs : list (list token)) (c : ctx S) : outcome (error * list (list token) * ctx S) :=
  let* (e, c) := ctx_next next c in
  if is_ok e then
    let* (e, vs, c) := tokstruct_to fuel ns vs c in Ok (e, vs, set_err e c)
  else Ok (e, vs, c).
End Read.
