(** Model of where the tokens of a JS::Map point to (H 9784-9788, 9850-9852, 9926-10058 with H 4622-4666):
    the strings of json_data with their storage, next to the model of MapModel.v.  No proofs here.

    A std::string has its text in itself (up to [sso] characters) or in a block of the heap.  A move hands
    the block on and copies a text that is in the string itself; growing takes a new block; making a
    string shorter keeps the storage.  That is how the standard libraries in use work; the standard only
    demands the first half of it.  Blocks are numbered in the order they are taken, none is used twice.
    Moving the strings to another place when json_data grows or an element is erased is a move of each
    string, so blocks stay where they are. *)
From Verif Require Import Base ScanModel TokModel SerModel HandlerModel WriteModel TokVecModel MapModel MapUseModel.

Inductive storage : Set := InString | Block (b : nat).
Record sstr : Set := mkStr { ss_store : storage; ss_cap : nat; ss_size : nat }.

Section Strings.
(** The capacity without a block, and the capacity a string takes when [n] characters do not fit. *)
Context (sso : nat) (grow : nat -> nat -> nat).

Definition str_new : sstr := mkStr InString sso 0.
(** resize; [f] is the number of the next block. *)
Definition str_resize (n : nat) (p : nat * sstr) : nat * sstr :=
  let '(f, s) := p in
  if Nat.leb n (ss_cap s) then (f, mkStr (ss_store s) (ss_cap s) n)
  else (S f, mkStr (Block f) (grow (ss_cap s) n) n).

(** H 4633-4638: each request for more room doubles the string. *)
Fixpoint str_requests (k : nat) (p : nat * sstr) : nat * sstr :=
  match k with O => p | S k => str_requests k (str_resize (ss_size (snd p) * 2) p) end.
(** H 4624-4638, 4655-4658: an empty string is written through a SerializerContext that asks [k] times
    for room; [used] characters remain.  The destructor (H 4641) does the last step again. *)
Definition str_written (f k used : nat) : nat * sstr :=
  str_resize used (str_requests k (str_resize 4096 (f, str_new))).

(** ** The Map *)

(** What a token points into: memory that is not of the Map (the text it was read from, literals), a
    block, or a string that existed during the call only. *)
Inductive target : Set := Outside | InBlock (b : nat) | InLocal.
Definition target_of (s : sstr) : target := match ss_store s with Block b => InBlock b | InString => InLocal end.

(** [lf_target]: for each token; [lf_strs]: for each element of json_data. *)
Record lmap : Type := mkLife { lf_map : jmap; lf_target : list target; lf_strs : list sstr }.
Definition life_empty : lmap := mkLife (mkMap [] [] []) [] [].
(** Tokens read from a text of the user. *)
Definition life_read (m : jmap) : lmap := mkLife m (repeat Outside (length (mp_tokens m))) [].

(** H 9970-10010. *)
Definition life_remove (m : lmap) (it : mapit) : outcome lmap :=
  let* m1 := map_remove (lf_map m) it in
  let* n := if Nat.eqb (it_index it) (it_complex it)
            then match nth_error (mp_meta (lf_map m)) (it_meta it) with Some x => Ok (m_size x) | None => UB end
            else Ok 1 in
  Ok (mkLife m1 (erase (it_index it) n (lf_target m))
        (match last_at (it_index it) 0 None (mp_data (lf_map m)) with
         | Some i => erase i 1 (lf_strs m) | None => lf_strs m end)).

(** H 10026-10058: the tokens are read from [s], which is then moved into json_data. *)
Definition life_append (m : lmap) (s : sstr) (out : bytes) (new : list token) : outcome lmap :=
  let* m1 := map_append (lf_map m) out new in
  let old := length (mp_tokens (lf_map m)) in
  Ok (mkLife m1 (firstn (old - 1) (lf_target m) ++ repeat (target_of s) (length (removelast (tl new))) ++ skipn (old - 1) (lf_target m))
             (lf_strs m ++ [s])).

(** H 9943-10058, with [out] and [new] as in [map_setValue]; the tokens of an empty Map are literals. *)
Definition life_setValue (f k : nat) (m : lmap) (name out : bytes) (new : list token) : outcome (nat * lmap) :=
  let* m := match mp_tokens (lf_map m) with
            | [] => let* meta := metaForTokens brace_tokens in
                    Ok (mkLife (mkMap brace_tokens meta (mp_data (lf_map m))) [Outside; Outside] (lf_strs m))
            | _ => Ok m
            end in
  let* it := map_find (lf_map m) name in
  let* m := if Nat.eqb (it_index it) (length (mp_tokens (lf_map m))) then Ok m else life_remove m it in
  let '(f, s) := str_written f k (length out) in
  let* m := life_append m s out new in
  Ok (f, m).

(** H 9926-9941: setValue of a whole struct, text [out] with the tokens [new]. *)
Definition life_setAll (f k : nat) (out : bytes) (new : list token) : outcome (nat * lmap) :=
  let '(f, s) := str_written f k (length out) in
  let* meta := metaForTokens new in
  Ok (f, mkLife (mkMap new meta [(0, out)]) (repeat (target_of s) (length new)) [s]).

(** setValue(name, context, value) for values of the type language, as [map_set]. *)
Definition life_set (i : isa) (o : opts) (fuel f k : nat) (m : lmap) (name : bytes) (t : ty) (v : val) : outcome (nat * lmap) :=
  let* out := member_text i name t v in
  let* (_, new, _) := tokvec_parseTo (nextToken o) fuel [] (context_of cfg_default out) in
  life_setValue f k m name out new.

(** The implicit copy constructor: the strings are copied, the tokens are not changed. *)
Definition str_copy (p : nat * list sstr) (s : sstr) : nat * list sstr :=
  let '(f, l) := p in
  if Nat.leb (ss_size s) sso then (f, l ++ [mkStr InString sso (ss_size s)])
  else (S f, l ++ [mkStr (Block f) (ss_size s) (ss_size s)]).
Definition life_copy (f : nat) (m : lmap) : nat * lmap :=
  let '(f, l) := fold_left str_copy (lf_strs m) (f, []) in (f, mkLife (lf_map m) (lf_target m) l).
End Strings.

(** Any number of calls of setValue, each with the number of requests for room. *)
Fixpoint life_puts (sso : nat) (grow : nat -> nat -> nat) (i : isa) (o : opts) (fuel f : nat) (m : lmap)
    (l : list (nat * (bytes * (ty * val)))) : outcome (nat * lmap) :=
  match l with
  | [] => Ok (f, m)
  | (k, (name, (t, v))) :: r =>
      let* (f, m) := life_set sso grow i o fuel f k m name t v in life_puts sso grow i o fuel f m r
  end.
(** setValue of a whole struct (H 9926-9941) in a new context. *)
Definition life_set_all (sso : nat) (grow : nat -> nat -> nat) (i : isa) (o : opts) (fuel f k : nat) (t : ty) (v : val) : outcome (nat * lmap) :=
  let* out := serializeStruct i (so_make true) t v in
  let* (_, new, _) := tokvec_parseTo (nextToken o) fuel [] (context_of cfg_default out) in
  life_setAll sso grow f k out new.
