(** Model of SerializerContext (H 4621-4660): the string that a Serializer writes into, with the buffer as a part of it.
    No proofs here.  Simplifications: the pointer of the buffer is an offset into the string (resize keeps the characters
    and the callback takes the new address), and a write behind the end of the string is undefined behaviour even when
    the string has room reserved there.  Lengths do not overflow. *)
From Verif Require Import Base.

(** [cx_base], [cx_cap], [cx_used]: m_current_buffer; [cx_last]: last_pos. *)
Record sctx : Set := mkCtx { cx_out : bytes; cx_base : nat; cx_cap : nat; cx_used : nat; cx_last : nat }.

(** std::string::resize. *)
Definition resize (n : nat) (s : bytes) : bytes := firstn n s ++ repeat x00 (n - length s).

(** H 4623-4638: the constructor. *)
Definition ctx_make (json_out : bytes) : sctx :=
  let s := match json_out with [] => resize 4096 [] | _ => json_out end in mkCtx s 0 (length s) 0 0.

(** H 4631-4636: the callback; H 3355-3359 has dropped the old buffer. *)
Definition ctx_request (c : sctx) : sctx :=
  let e := length (cx_out c) in mkCtx (resize (e * 2) (cx_out c)) e e 0 e.

(** H 3176-3189: SerializerBuffer::append. *)
Definition ctx_append (d : bytes) (c : sctx) : outcome sctx :=
  let at_ := cx_base c + cx_used c in
  if Nat.leb (cx_used c + length d) (cx_cap c) && Nat.leb (at_ + length d) (length (cx_out c)) then
    Ok (mkCtx (firstn at_ (cx_out c) ++ d ++ skipn (at_ + length d) (cx_out c)) (cx_base c) (cx_cap c) (cx_used c + length d) (cx_last c))
  else UB.

(** H 3401-3421: Serializer::write(const char *, size_t). *)
Fixpoint ctx_write_loop (fuel : nat) (d : bytes) (c : sctx) : outcome (bool * sctx) :=
  match d with
  | [] => Ok (true, c)
  | _ =>
    match fuel with
    | O => OutOfFuel
    | S f =>
      if Nat.eqb (cx_cap c - cx_used c) 0 then
        let c := ctx_request c in
        if Nat.eqb (cx_cap c - cx_used c) 0 then Ok (false, c) else ctx_write_loop f d c
      else
        let n := Nat.min (length d) (cx_cap c - cx_used c) in
        let* c := ctx_append (firstn n d) c in
        ctx_write_loop f (skipn n d) c
    end
  end.
Definition ctx_write (d : bytes) (c : sctx) : outcome (bool * sctx) := ctx_write_loop (2 * length d) d c.

(** The writes of one value: H 3215-3399 write tokens with these only (write(StringLiteral), H 3423-3431, does the
    same in one step when there is room).  The handlers ignore the results. *)
Fixpoint ctx_writes (ds : list bytes) (c : sctx) : outcome sctx :=
  match ds with
  | [] => Ok c
  | d :: ds => let* (_, c) := ctx_write d c in ctx_writes ds c
  end.

(** H 4653-4656: flush, also called by the destructor (H 4639-4642). *)
Definition ctx_flush (c : sctx) : sctx :=
  mkCtx (resize (cx_last c + cx_used c) (cx_out c)) (cx_base c) (cx_cap c) (cx_used c) (cx_last c).

(** H 4644-4651: serialize. *)
Definition ctx_serialize (ds : list bytes) (c : sctx) : outcome sctx :=
  let* c := ctx_writes ds c in Ok (ctx_flush c).

(** Several calls of serialize on one context; each is given by what it writes. *)
Fixpoint ctx_calls (calls : list (list bytes)) (c : sctx) : outcome sctx :=
  match calls with
  | [] => Ok c
  | ds :: r => let* c := ctx_serialize ds c in ctx_calls r c
  end.
