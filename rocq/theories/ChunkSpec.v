(** Specification: the places where a text may be cut into buffers without the tokenizer
    noticing.  A small automaton over the bytes of the text, independent of the tokenizer model.
    No proofs here. *)
From Verif Require Import Base JsonSpec.

Definition ws_byte (c : byte) : bool :=
  Byte.eqb c x20 || Byte.eqb c x09 || Byte.eqb c x0a || Byte.eqb c x0d.

(** Bytes of numbers, words and anything else that is no whitespace, quote or punctuation. *)
Definition word_byte (c : byte) : bool :=
  negb (ws_byte c || Byte.eqb c quote || Byte.eqb c lbrace || Byte.eqb c rbrace
        || Byte.eqb c lbrack || Byte.eqb c rbrack || Byte.eqb c comma || Byte.eqb c colon).

(** What the automaton remembers of the bytes read so far. *)
Record place : Set := mkPlace {
  pl_open : list byte;      (* open brackets, innermost first *)
  pl_str : option bool;     (* inside a string; is the next byte escaped? *)
  pl_last : option byte;    (* last byte that is no whitespace, the closing quote for a string *)
  pl_before : option byte;  (* the one before the last string or word *)
  pl_space : bool           (* whitespace since then *) }.

Definition place_start : place := mkPlace [] None None None false.

Definition opt_is (p : byte -> bool) (o : option byte) : bool :=
  match o with Some c => p c | None => false end.

Definition feed1 (a : place) (c : byte) : place :=
  match pl_str a with
  | Some true => mkPlace (pl_open a) (Some false) (pl_last a) (pl_before a) false
  | Some false =>
      if Byte.eqb c backslash then mkPlace (pl_open a) (Some true) (pl_last a) (pl_before a) false
      else if Byte.eqb c quote then mkPlace (pl_open a) None (Some quote) (pl_before a) false
      else a
  | None =>
      if ws_byte c then mkPlace (pl_open a) None (pl_last a) (pl_before a) true
      else if Byte.eqb c quote then
        mkPlace (pl_open a) (Some false) (pl_last a) (pl_last a) false
      else if Byte.eqb c lbrace || Byte.eqb c lbrack then
        mkPlace (c :: pl_open a) None (Some c) (pl_before a) false
      else if Byte.eqb c rbrace || Byte.eqb c rbrack then
        mkPlace (tl (pl_open a)) None (Some c) (pl_before a) false
      else if Byte.eqb c comma || Byte.eqb c colon then
        mkPlace (pl_open a) None (Some c) (pl_before a) false
      else
        mkPlace (pl_open a) None (Some c)
          (if opt_is word_byte (pl_last a) && negb (pl_space a) then pl_before a else pl_last a)
          false
  end.

Definition feed (a : place) (l : bytes) : place := fold_left feed1 l a.

Definition in_object (a : place) : bool :=
  match pl_open a with c :: _ => Byte.eqb c lbrace | [] => false end.

(** A cut at [a] is harmless:
    - inside a string, at the beginning, after a bracket or a comma;
    - after a colon if there is whitespace in between;
    - inside and after the value of an object member;
    - after a member name (a string) and some whitespace;
    - inside a number or word, or directly behind it.
    So harmful are cuts directly behind a colon, directly behind the closing quote of a name,
    behind a complete array element. *)
Definition harmless (a : place) : bool :=
  match pl_str a, pl_last a with
  | Some _, _ => true
  | None, None => true
  | None, Some c =>
      if Byte.eqb c comma || Byte.eqb c lbrace || Byte.eqb c rbrace || Byte.eqb c lbrack
         || Byte.eqb c rbrack then true
      else if Byte.eqb c colon then pl_space a
      else (in_object a && opt_is (Byte.eqb colon) (pl_before a)) ||
           (if Byte.eqb c quote then pl_space a && in_object a else negb (pl_space a))
  end.

(** All cuts between the pieces are harmless. *)
Fixpoint harmless_cuts (a : place) (l : list bytes) : Prop :=
  match l with
  | [] => True
  | [_] => True
  | p :: r => harmless (feed a p) = true /\ harmless_cuts (feed a p) r
  end.
