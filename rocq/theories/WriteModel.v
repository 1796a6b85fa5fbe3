(** Model of serializeStruct (H 4621-4683): the tokens of the type handlers go to a Serializer whose
    buffers are consecutive parts of the returned string.  No proofs here. *)
From Verif Require Import Base ScanModel TokModel SerModel HandlerModel.

(** H 4667, 4679: the token that is carried from write to write starts as Token(). *)
Definition wname_default : wname := mkWn [] (tk_name_type tok_default).

(** H 4673-4683 with the SerializerContext of H 4621-4661: the first buffer has 4096 bytes, each
    further one as many as there are already.  The results of Serializer::write are ignored by the
    handlers.  A buffer is replaced only when it is full, so flush leaves exactly what was written. *)
Definition serializeStruct (i : isa) (so : sopts) (t : ty) (v : val) : outcome bytes :=
  let* (_, s) := ser_writes (fst (from i t v wname_default)) (ser_make so 4096 (reformat_supply 4096)) in
  Ok (ser_output s).
