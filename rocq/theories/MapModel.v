(** Model of metaForTokens (H 3744-3811), findFirstChildWithData (H 3815-3831) and JS::Map
    (H 9784-10058).  No proofs here.

    Simplifications: the uint32_t counters and int positions are natural numbers (a vector of 2^31
    tokens would need hundreds of gigabytes); assert()s are disabled. *)
From Verif Require Import Base ScanModel TokModel.

(** H 3744-3765: struct JsonMeta. *)
Record jmeta : Set := mkMeta {
  m_pos : nat; m_size : nat; m_skip : nat; m_children : nat; m_complex : nat;
  m_array : bool; m_data : bool }.
Definition meta_new (pos : nat) (is_array : bool) : jmeta := mkMeta pos 1 1 0 0 is_array false.

Fixpoint upd {A} (i : nat) (f : A -> A) (l : list A) : list A :=
  match l, i with
  | [], _ => []
  | x :: r, O => f x :: r
  | x :: r, S i' => x :: upd i' f r
  end.
Definition upd_all {A} (is : list nat) (f : A -> A) (l : list A) : list A :=
  fold_left (fun l i => upd i f l) is l.

Definition inc_size (m : jmeta) : jmeta :=
  mkMeta (m_pos m) (m_size m + 1) (m_skip m) (m_children m) (m_complex m) (m_array m) (m_data m).
Definition inc_skip (m : jmeta) : jmeta :=
  mkMeta (m_pos m) (m_size m) (m_skip m + 1) (m_children m) (m_complex m) (m_array m) (m_data m).
Definition inc_children (m : jmeta) : jmeta :=
  mkMeta (m_pos m) (m_size m) (m_skip m) (m_children m + 1) (m_complex m) (m_array m) (m_data m).
Definition inc_complex (m : jmeta) : jmeta :=
  mkMeta (m_pos m) (m_size m) (m_skip m) (m_children m) (m_complex m + 1) (m_array m) (m_data m).
Definition set_data (m : jmeta) : jmeta :=
  mkMeta (m_pos m) (m_size m) (m_skip m) (m_children m) (m_complex m) (m_array m) true.

(** H 3772-3808: the loop body; [parent] is the vector of open containers, innermost first. *)
Definition meta_step (i : nat) (t : type) (meta : list jmeta) (parent : list nat)
  : outcome (list jmeta * list nat) :=
  let meta := upd_all parent inc_size meta in
  let* (meta, parent) :=
    match t with
    | TArrayEnd | TObjectEnd =>
      match parent with
      | [] => UB (* pop_back on an empty vector *)
      | _ :: r => Ok (meta, r)
      end
    | _ =>
      match parent with
      | [] => Ok (meta, parent)
      | p :: _ => Ok (upd p inc_children meta, parent)
      end
    end in
  match t with
  | TArrayStart | TObjectStart =>
    let meta := match parent with [] => meta | p :: _ => upd p inc_complex meta end in
    let meta := upd_all parent inc_skip meta in
    Ok (meta ++ [meta_new i (type_eqb t TArrayStart)], length meta :: parent)
  | TArrayEnd | TObjectEnd => Ok (meta, parent)
  | _ => Ok (upd_all parent set_data meta, parent)
  end.

Fixpoint meta_loop (i : nat) (ts : list type) (meta : list jmeta) (parent : list nat)
  : outcome (list jmeta * list nat) :=
  match ts with
  | [] => Ok (meta, parent)
  | t :: r => let* (meta, parent) := meta_step i t meta parent in meta_loop (S i) r meta parent
  end.

(** H 3767-3811. *)
Definition metaForTokens (ts : list token) : outcome (list jmeta) :=
  let* (meta, parent) := meta_loop 0 (map tk_value_type ts) [] [] in Ok meta.

(** H 3815-3831: findFirstChildWithData; None is size_t(-1). *)
Fixpoint first_child (n i : nat) (meta : list jmeta) (start skip_size : nat) : outcome (option nat) :=
  match n with
  | O => Ok None
  | S n' =>
    match nth_error meta (start + skip_size + 1) with
    | None => UB
    | Some c => if m_data c then Ok (Some i) else first_child n' (S i) meta start (skip_size + m_skip c)
    end
  end.
Definition findFirstChildWithData (meta : list jmeta) (start : nat) : outcome (option nat) :=
  match nth_error meta start with
  | None => UB
  | Some m => if m_data m then first_child (m_complex m) 0 meta start 0 else Ok None
  end.

(** ** JS::Map *)

(** H 9850-9852: the data members. *)
Record jmap : Type := mkMap {
  mp_tokens : list token;
  mp_meta : list jmeta;
  mp_data : list (nat * bytes) }.

(** H 9793-9848: struct It. *)
Record mapit : Set := mkIt { it_index : nat; it_meta : nat; it_complex : nat }.

(** H 9823-9828 and 9859-9860: where the next container starts. *)
Definition next_complex (m : jmap) (next_meta : nat) : nat :=
  match nth_error (mp_meta m) next_meta with
  | Some x => m_pos x
  | None => length (mp_tokens m)
  end.

(** H 9818-9834: operator++. *)
Definition it_next (m : jmap) (it : mapit) : outcome mapit :=
  if Nat.eqb (it_index it) (it_complex it) then
    match nth_error (mp_meta m) (it_meta it) with
    | None => UB
    | Some x => let nm := it_meta it + m_skip x in
                Ok (mkIt (it_index it + m_size x) nm (next_complex m nm))
    end
  else Ok (mkIt (S (it_index it)) (it_meta it) (it_complex it)).

(** H 9854-9871: begin, end. *)
Definition it_begin (m : jmap) : mapit := mkIt 1 1 (next_complex m 1).
Definition it_end (m : jmap) : mapit := mkIt (length (mp_tokens m)) 0 0.

(** A loop over [begin(), end()) that stops at the first token satisfying [p] (std::find_if). *)
Fixpoint find_from (fuel : nat) (m : jmap) (p : token -> bool) (it : mapit) : outcome mapit :=
  match fuel with
  | O => OutOfFuel
  | S f =>
    if Nat.eqb (it_index it) (length (mp_tokens m)) then Ok it
    else match nth_error (mp_tokens m) (it_index it) with
         | None => UB
         | Some tk => if p tk then Ok it
                      else let* it1 := it_next m it in find_from f m p it1
         end
  end.

(** H 9779-9782 and 9873-9877: find. *)
Definition map_find (m : jmap) (name : bytes) : outcome mapit :=
  find_from (S (length (mp_tokens m))) m (fun tk => bytes_eqb (dr_bytes (tk_name tk)) name) (it_begin m).

(** A range-for over the map: the tokens visited. *)
Fixpoint visit_from (fuel : nat) (m : jmap) (it : mapit) : outcome (list token) :=
  match fuel with
  | O => OutOfFuel
  | S f =>
    if Nat.eqb (it_index it) (length (mp_tokens m)) then Ok []
    else match nth_error (mp_tokens m) (it_index it) with
         | None => UB
         | Some tk => let* it1 := it_next m it in
                      let* r := visit_from f m it1 in Ok (tk :: r)
         end
  end.
Definition map_visit (m : jmap) : outcome (list token) :=
  visit_from (S (length (mp_tokens m))) m (it_begin m).

Definition erase {A} (i n : nat) (l : list A) : list A := firstn i l ++ skipn (i + n) l.

Definition sub_root (size skip complex : nat) (m : jmeta) : jmeta :=
  mkMeta (m_pos m) (m_size m - size) (m_skip m - skip) (m_children m - 1) (m_complex m - complex)
         (m_array m) (m_data m).
Definition add_root (size skip complex : nat) (m : jmeta) : jmeta :=
  mkMeta (m_pos m) (m_size m + size) (m_skip m + skip) (m_children m + 1) (m_complex m + complex)
         (m_array m) (m_data m).
Definition move_back (n : nat) (m : jmeta) : jmeta :=
  mkMeta (m_pos m - n) (m_size m) (m_skip m) (m_children m) (m_complex m) (m_array m) (m_data m).
Definition move_on (n : nat) (m : jmeta) : jmeta :=
  mkMeta (m_pos m + n) (m_size m) (m_skip m) (m_children m) (m_complex m) (m_array m) (m_data m).

(** H 9994-10006: json_data. *)
Fixpoint last_at (index i : nat) (r : option nat) (l : list (nat * bytes)) : option nat :=
  match l with
  | [] => r
  | p :: tl => last_at index (S i) (if Nat.eqb (fst p) index then Some i else r) tl
  end.
Definition drop_data (index removed : nat) (l : list (nat * bytes)) : list (nat * bytes) :=
  let moved := map (fun p => if Nat.ltb index (fst p) then (fst p - removed, snd p) else p) l in
  match last_at index 0 None l with Some i => erase i 1 moved | None => moved end.

(** H 9963-10008: removing the member the iterator points to. *)
Definition map_remove (m : jmap) (it : mapit) : outcome jmap :=
  if Nat.eqb (it_index it) (it_complex it) then
    match nth_error (mp_meta m) (it_meta it) with
    | None => UB
    | Some x =>
      let meta := upd 0 (sub_root (m_size x) (m_skip x) 1) (mp_meta m) in
      let meta := erase (it_meta it) (m_skip x) meta in
      let meta := firstn (it_meta it) meta ++ map (move_back (m_size x)) (skipn (it_meta it) meta) in
      Ok (mkMap (erase (it_index it) (m_size x) (mp_tokens m)) meta
                (drop_data (it_index it) (m_size x) (mp_data m)))
    end
  else
    Ok (mkMap (erase (it_index it) 1 (mp_tokens m)) (upd 0 (sub_root 1 0 0) (mp_meta m))
              (drop_data (it_index it) 1 (mp_data m))).

(** H 10010-10056: appending.  [out] is the text written for the new member and [new_tokens] its
    tokens, both including the brackets around it. *)
Definition map_append (m : jmap) (out : bytes) (new_tokens : list token) : outcome jmap :=
  let* new_meta := metaForTokens new_tokens in
  let old := length (mp_tokens m) in
  let data := mp_data m ++ [(old - 1, out)] in
  let middle := removelast (tl new_tokens) in
  let tokens := firstn (old - 1) (mp_tokens m) ++ middle ++ skipn (old - 1) (mp_tokens m) in
  match new_meta with
  | [] => UB
  | root :: inner =>
    if Nat.eqb (m_complex root) 0 then
      Ok (mkMap tokens (upd 0 (add_root 1 0 0) (mp_meta m)) data)
    else match inner with
         | [] => UB
         | c :: _ => Ok (mkMap tokens
                           (upd 0 (add_root (m_size c) (m_skip c) 1) (mp_meta m) ++
                            map (move_on (old - 2)) inner) data)
         end
  end.

Definition brace_tokens : list token :=
  [mkTok dref_empty (mkRef Elsewhere [x7b]) TString TObjectStart;
   mkTok dref_empty (mkRef Elsewhere [x7d]) TString TObjectEnd].

(** H 9943-10058: setValue(name, context, value). *)
Definition map_setValue (m : jmap) (name : bytes) (out : bytes) (new_tokens : list token) : outcome jmap :=
  let* m :=
    match mp_tokens m with
    | [] => let* meta := metaForTokens brace_tokens in Ok (mkMap brace_tokens meta (mp_data m))
    | _ => Ok m
    end in
  let* it := map_find m name in
  let* m := if Nat.eqb (it_index it) (length (mp_tokens m)) then Ok m else map_remove m it in
  map_append m out new_tokens.

(** H 9898-9913: castToType(name): where reading starts; None is KeyNotFound or
    ExpectedObjectStart. *)
Definition map_locate (m : jmap) (name : bytes) : outcome (option nat) :=
  match mp_tokens m with
  | [] => Ok None
  | t :: _ =>
    if type_eqb (tk_value_type t) TObjectStart then
      let* it := map_find m name in
      Ok (if Nat.eqb (it_index it) (length (mp_tokens m)) then None else Some (it_index it))
    else Ok None
  end.

(** H 10064-10073: the metadata step of TypeHandler<Map>::to, after the tokens have been read. *)
Definition map_load (ts : list token) : outcome jmap :=
  let* meta := metaForTokens ts in Ok (mkMap ts meta []).

(** Several calls of setValue: name, text and tokens of the new member. *)
Fixpoint map_sets (m : jmap) (l : list (bytes * bytes * list token)) : outcome jmap :=
  match l with
  | [] => Ok m
  | (name, out, new) :: r => let* m := map_setValue m name out new in map_sets m r
  end.
