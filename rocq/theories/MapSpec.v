(** Specification of token metadata: what the entries of a value are, from its tree.  No proofs,
    no reference to the loops of the model. *)
From Verif Require Import Base JsonSpec MapModel.

(** Number of tokens, number of containers, whether there is any scalar, container or not. *)
Definition ntok (j : json) : nat := length (doc_tokens None j).
Fixpoint containers (j : json) : nat :=
  match j with
  | JScalar _ => 0
  | JArr els => S (list_sum (map containers els))
  | JObj ms => S (list_sum (map (fun kv => containers (snd kv)) ms))
  end.
Fixpoint has_scalar (j : json) : bool :=
  match j with
  | JScalar _ => true
  | JArr els => existsb has_scalar els
  | JObj ms => existsb (fun kv => has_scalar (snd kv)) ms
  end.
Definition complex (j : json) : nat := match j with JScalar _ => 0 | _ => 1 end.

(** The entries of the values [l] that start at token [pos]. *)
Definition list_meta (rec : nat -> json -> list jmeta) : nat -> list json -> list jmeta :=
  fix go pos l := match l with [] => [] | v :: r => rec pos v ++ go (pos + ntok v) r end.

(** The entries of a value whose first token has index [pos], in document order. *)
Fixpoint tree_meta (pos : nat) (j : json) : list jmeta :=
  match j with
  | JScalar _ => []
  | JArr els =>
      mkMeta pos (ntok j) (containers j) (length els) (list_sum (map complex els)) true (has_scalar j)
      :: list_meta tree_meta (S pos) els
  | JObj ms =>
      mkMeta pos (ntok j) (containers j) (length ms) (list_sum (map (fun kv => complex (snd kv)) ms)) false (has_scalar j)
      :: (fix go pos (l : list (bytes * json)) :=
            match l with [] => [] | kv :: r => tree_meta pos (snd kv) ++ go (pos + ntok (snd kv)) r end) (S pos) ms
  end.

(** Types of the tokens of a value. *)
Definition doc_types (name : option bytes) (j : json) : list type := map st_value_type (doc_tokens name j).

(** ** Objects as maps *)

(** The tokens of the members of an object. *)
Definition member_tokens (ms : list (bytes * json)) : list stoken :=
  flat_map (fun kv => doc_tokens (Some (fst kv)) (snd kv)) ms.

(** The entries of the containers inside an object whose first member starts at token [pos]. *)
Fixpoint member_meta (pos : nat) (ms : list (bytes * json)) : list jmeta :=
  match ms with
  | [] => []
  | kv :: r => tree_meta pos (snd kv) ++ member_meta (pos + ntok (snd kv)) r
  end.

(** The first and the last token are written as brackets, whatever their names. *)
Definition plain_name_type (t : type) : Prop := t = TString \/ t = TAscii.
Definition brackets (t0 t1 : token) : Prop :=
  dr_bytes (tk_value t0) = [x7b] /\ dr_bytes (tk_value t1) = [x7d] /\
  plain_name_type (tk_name_type t0) /\ plain_name_type (tk_name_type t1).

(** [is_map ms d m]: the map [m] holds the tokens of an object with the members [ms], and its
    metadata is that of the tokens, except that has_data of the object itself is [d].  (The first
    token may have any name: the object may have been a member.) *)
Definition is_map (ms : list (bytes * json)) (d : bool) (m : jmap) : Prop :=
  exists t0 mid t1,
    mp_tokens m = t0 :: mid ++ [t1] /\
    tk_value_type t0 = TObjectStart /\
    tk_value_type t1 = TObjectEnd /\ (dr_bytes (tk_name t1) = [] /\ brackets t0 t1) /\
    map tok_view mid = member_tokens ms /\
    mp_meta m =
      mkMeta 0 (ntok (JObj ms)) (containers (JObj ms)) (length ms)
        (list_sum (map (fun kv => complex (snd kv)) ms)) false d :: member_meta 1 ms.

Fixpoint lookup (name : bytes) (ms : list (bytes * json)) : option json :=
  match ms with
  | [] => None
  | kv :: r => if bytes_eqb (fst kv) name then Some (snd kv) else lookup name r
  end.
(** Without the first member called [name]. *)
Fixpoint remove_first (name : bytes) (ms : list (bytes * json)) : list (bytes * json) :=
  match ms with
  | [] => []
  | kv :: r => if bytes_eqb (fst kv) name then r else kv :: remove_first name r
  end.
Definition set_member (name : bytes) (v : json) (ms : list (bytes * json)) : list (bytes * json) :=
  remove_first name ms ++ [(name, v)].

Definition is_scalar (j : json) : bool := match j with JScalar _ => true | _ => false end.
(** The first member called [name], if it is a scalar, has no container after it. *)
Fixpoint replaceable (name : bytes) (ms : list (bytes * json)) : bool :=
  match ms with
  | [] => true
  | kv :: r => if bytes_eqb (fst kv) name
               then negb (is_scalar (snd kv)) || forallb (fun kv => is_scalar (snd kv)) r
               else replaceable name r
  end.

(** A sequence of assignments. *)
Definition set_members (l : list (bytes * json)) (ms : list (bytes * json)) : list (bytes * json) :=
  fold_left (fun ms nv => set_member (fst nv) (snd nv) ms) l ms.
Fixpoint all_replaceable (l : list (bytes * json)) (ms : list (bytes * json)) : bool :=
  match l with
  | [] => true
  | nv :: r => replaceable (fst nv) ms && all_replaceable r (set_member (fst nv) (snd nv) ms)
  end.
