(** Specification vocabulary for the serializer.  No proofs here. *)
From Verif Require Import Base ScanModel TokModel JsonSpec SerModel.

(** Nesting depth of a value: brackets open at the same time. *)
Fixpoint nesting (j : json) : nat :=
  match j with
  | JScalar _ => 0
  | JArr els => S (list_max (map nesting els))
  | JObj ms => S (list_max (map (fun kv => nesting (snd kv)) ms))
  end.

(** All scalars and names are lexically correct. *)
Inductive json_ok : json -> Prop :=
| Ok_scalar s : scalar_ok s -> json_ok (JScalar s)
| Ok_arr els : Forall json_ok els -> json_ok (JArr els)
| Ok_obj ms : Forall (fun kv => str_body (fst kv) /\ json_ok (snd kv)) ms -> json_ok (JObj ms).

(** No member has the empty name. *)
Inductive names_nonempty : json -> Prop :=
| Nn_scalar s : names_nonempty (JScalar s)
| Nn_arr els : Forall names_nonempty els -> names_nonempty (JArr els)
| Nn_obj ms : Forall (fun kv => fst kv <> [] /\ names_nonempty (snd kv)) ms -> names_nonempty (JObj ms).

(** Options built with the constructor and any setters, except skipDelimiter(true). *)
Inductive options_made : sopts -> Prop :=
| Om_new p : options_made (so_make p)
| Om_shift n o : options_made o -> options_made (setShiftSize n o)
| Om_ascii b o : options_made o -> options_made (setConvertAsciiToString b o)
| Om_depth d o : options_made o -> options_made (setDepth d o)
| Om_style p o : options_made o -> options_made (setStyle p o)
| Om_delimiter o : options_made o -> options_made (skipDelimiter false o).

(** Buffers never hold more than their size. *)
Definition inb (s : ser) : Prop :=
  length (se_buf s) <= se_size s /\ Forall (fun p => length (snd p) <= fst p) (se_done s).

(** The callback always supplies some space, or never any. *)
Definition generous (s : ser) : Prop := forall n, 0 < se_supply s n.
Definition no_supply (s : ser) : Prop := forall n, se_supply s n = 0.
