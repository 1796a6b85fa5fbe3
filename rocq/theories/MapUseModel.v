(** Model of JS::Map as it is used: reading one, reading a member of one into an object, putting an object
    into one, writing one (H 9879-9960, 10008-10028, 10061-10097).  No proofs here.

    The tokens of a Map point into the text they come from; that it must outlive them is not modelled;
    for the strings of json_data see LifeModel.v. *)
From Verif Require Import Base ScanModel TokModel SerModel HandlerModel WriteModel TokVecModel MapModel.

(** ** Reading *)

Section ToMap.
Context {S : Type} (next : token -> S -> outcome (S * error * token)).

(** H 10064-10073: TypeHandler<Map>::to, with JsonTokens as in H 9200-9214.  json_data is kept. *)
Definition jmap_to (fuel : nat) (m : jmap) (c : ctx S) : outcome (error * jmap * ctx S) :=
  let* (e, ts, c) := tokvec_to next fuel (mp_tokens m) c in
  if is_ok e then let* meta := metaForTokens ts in Ok (e, mkMap ts meta (mp_data m), c)
  else Ok (e, mkMap ts (mp_meta m) (mp_data m), c).

(** H 4607-4619: ParseContext::parseTo for a Map. *)
Definition jmap_parseTo (fuel : nat) (m : jmap) (c : ctx S) : outcome (error * jmap * ctx S) :=
  let* (e, c) := ctx_next next c in
  if is_ok e then let* (e, m, c) := jmap_to fuel m c in Ok (e, m, set_err e c)
  else Ok (e, m, c).
End ToMap.

(** ** castToType *)

(** resetData(&tokens, index) on the tokenizer of a context (H 1659-1670). *)
Definition replaying_at (ts : list token) (i : nat) (c : ctx tstate) : ctx tstate :=
  mkCtx (resetParsed ts i (c_src c)) (c_tok c) (c_err c) (c_missing c) (c_unassigned c) (c_cfg c).

(** H 9889-9896: at an iterator; 9881-9887: the whole Map, index 0.  The result of nextToken is not
    looked at, but it is in the error of the context.  (H 9889 asserts that the index is in range.) *)
Definition map_cast_at (o : opts) (fuel : nat) (m : jmap) (i : nat) (t : ty) (v : val) (c : ctx tstate)
  : outcome (error * val * ctx tstate) :=
  let* (_, c) := ctx_next (nextToken o) (replaying_at (mp_tokens m) i c) in
  to (nextToken o) fuel t v c.

(** H 9898-9913: by name. *)
Definition map_cast (o : opts) (fuel : nat) (m : jmap) (name : bytes) (t : ty) (v : val) (c : ctx tstate)
  : outcome (error * val * ctx tstate) :=
  let fail e := Ok (e, v, set_err e c) in
  match mp_tokens m with
  | [] => fail ExpectedObjectStart
  | t0 :: _ =>
    if type_eqb (tk_value_type t0) TObjectStart then
      let* it := map_find m name in
      if Nat.eqb (it_index it) (length (mp_tokens m)) then fail KeyNotFound
      else map_cast_at o fuel m (it_index it) t v c
    else fail ExpectedObjectStart
  end.

(** ** setValue *)

(** H 10008-10025: the text of a new member; the results of write are ignored.  (For the buffers see
    WriteModel.v.) *)
Definition member_text (i : isa) (name : bytes) (t : ty) (v : val) : outcome bytes :=
  let '(l, n) := from i t v (mkWn name TString) in
  let* (_, s) := ser_writes (wtok wname_default [x7b] TObjectStart :: l ++ [wtok (noname n) [x7d] TObjectEnd])
                            (ser_make (so_make false) 4096 (reformat_supply 4096)) in
  Ok (ser_output s).

(** H 10026-10028 with H 4147-4152: a new context reads the text into tokens; its error is not looked
    at.  The rest is [map_setValue]; removing an old member comes before these lines in the code and
    touches nothing they use. *)
Definition map_set (i : isa) (o : opts) (fuel : nat) (m : jmap) (name : bytes) (t : ty) (v : val) : outcome jmap :=
  let* out := member_text i name t v in
  let* (_, new, _) := tokvec_parseTo (nextToken o) fuel [] (context_of cfg_default out) in
  map_setValue m name out new.

(** H 9926-9941: setValue of a whole struct.  *)
Definition map_set_all (i : isa) (o : opts) (fuel : nat) (m : jmap) (t : ty) (v : val) (c : ctx tstate)
  : outcome (error * jmap * ctx tstate) :=
  let* obj := serializeStruct i (so_make true) t v in
  let c := mkCtx (resetData obj 0 (c_src c)) (c_tok c) (c_err c) (c_missing c) (c_unassigned c) (c_cfg c) in
  let* (_, ts, c) := tokvec_parseTo (nextToken o) fuel [] c in
  let* meta := metaForTokens ts in
  Ok (c_err c, mkMap ts meta [(0, obj)], c).

(** ** Writing *)

(** H 10075-10097: TypeHandler<Map>::from. *)
Definition jmap_from (m : jmap) (n : wname) : list token * wname :=
  match mp_tokens m with
  | [] => ([wtok n [x7b] TObjectStart; wtok (noname n) [x7d] TObjectEnd], noname n)
  | t0 :: r => (mkTok (mkRef Elsewhere (wn n)) (tk_value t0) (tk_name_type t0) (tk_value_type t0) :: r, n)
  end.

(** serializeStruct of a Map (H 4673-4683). *)
Definition jmap_text (so : sopts) (m : jmap) : outcome bytes :=
  let* (_, s) := ser_writes (fst (jmap_from m wname_default)) (ser_make so 4096 (reformat_supply 4096)) in
  Ok (ser_output s).
