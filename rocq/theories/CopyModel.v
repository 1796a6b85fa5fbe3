(** Model of the type handlers that keep the text of a value: JsonObject, JsonArray,
    JsonObjectOrArray and the Ref variants (H 9216-9479).  No proofs here.

    The address of the target string is the [id] of the copy buffer; the text the string holds
    before the call is [txt].  A pointer into the input is an offset into the first buffer of
    data_list; a buffer is identified by the number of buffers still to come. *)
From Verif Require Import Base ScanModel TokModel.

Inductive raw_kind : Set := RawArray | RawObject | RawEither.

(** H 9222, 9258, 9304, 9339, 9384-9398, 9430-9444: the test of the token the handler is called
    with: the opening and the closing type to count, or the error. *)
Definition raw_start (k : raw_kind) (t : type) : type * type + error :=
  match k, t with
  | RawArray, TArrayStart | RawEither, TArrayStart => inl (TArrayStart, TArrayEnd)
  | RawObject, TObjectStart | RawEither, TObjectStart => inl (TObjectStart, TObjectEnd)
  | RawArray, _ => inr ExpectedArrayStart
  | RawObject, _ | RawEither, _ => inr ExpectedObjectStart
  end.

(** The change of [level] by one token; level is a size_t and not 0 here. *)
Definition raw_level (opn cls t : type) (level : nat) : nat :=
  if type_eqb t opn then S level else if type_eqb t cls then level - 1 else level.

(** H 9229-9236, 9263-9270, 9309-9316, 9344-9351, 9402-9409, 9448-9455: the while loop.  The level
    is also changed when nextToken fails, but then not looked at again. *)
Fixpoint raw_loop (fuel : nat) (o : opts) (opn cls : type) (level : nat) (tk : token) (s : tstate)
  : outcome (tstate * error * token) :=
  match level with
  | O => Ok (s, NoError, tk)
  | S _ =>
    match fuel with
    | O => OutOfFuel
    | S f =>
      let* (s1, e, tk1) := nextToken o tk s in
      match e with
      | NoError => raw_loop f o opn cls (raw_level opn cls (tk_value_type tk1) level) tk1 s1
      | _ => Ok (s1, e, tk1)
      end
    end
  end.

(** H 9256-9276 (JsonArray), 9337-9356 (JsonObject), 9426-9460 (JsonObjectOrArray): the handlers
    that copy.  JsonArray finishes the copy only on success, the other two always.  Returns the
    tokenizer, the error, the token object and the text in the string. *)
Definition raw_to (fuel : nat) (o : opts) (k : raw_kind) (id : nat) (txt : bytes) (tk : token)
  (s : tstate) : outcome (tstate * error * token * bytes) :=
  match raw_start k (tk_value_type tk) with
  | inr e => Ok (s, e, tk, txt)
  | inl (opn, cls) =>
    let* s0 := copyFromValue id txt tk s in
    let* (s1, e, tk1) := raw_loop fuel o opn cls 1 tk s0 in
    match k, e with
    | RawArray, NoError | RawObject, _ | RawEither, _ =>
      let* (s2, out) := copyIncludingValue id s1 in Ok (s2, e, tk1, out)
    | RawArray, _ => Ok (s1, e, tk1, txt)
    end
  end.

(** H 9220-9241 (JsonArrayRef), 9302-9320 (JsonObjectRef), 9380-9413 (JsonObjectOrArrayRef): the
    handlers that remember a pointer and a size.  The size is the difference of two pointers; it
    is only meaningful (and defined) when both point into the same buffer, and the reference can
    only be read while that buffer is alive.  On failure the size is computed from whatever the
    token holds; the resulting reference is not modelled ([None]). *)
Definition raw_ref_to (fuel : nat) (o : opts) (k : raw_kind) (tk : token) (s : tstate)
  : outcome (tstate * error * token * option bytes) :=
  match raw_start k (tk_value_type tk) with
  | inr e => Ok (s, e, tk, None)
  | inl (opn, cls) =>
    let* (s1, e, tk1) := raw_loop fuel o opn cls 1 tk s in
    match e with
    | NoError =>
      match dr_loc (tk_value tk), dr_loc (tk_value tk1), t_bufs s1 with
      | InBuffer off, InBuffer off1, buf :: _ =>
        if (buffers_left s1 =? buffers_left s) && (off <=? off1 + length (dr_bytes (tk_value tk1))) then
          let* raw := slice buf off (off1 + length (dr_bytes (tk_value tk1)) - off) in
          Ok (s1, NoError, tk1, Some raw)
        else UB
      | _, _, _ => UB
      end
    | _ => Ok (s1, e, tk1, None)
    end
  end.
