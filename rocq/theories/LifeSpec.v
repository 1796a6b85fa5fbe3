(** The specification for C70: every token of a Map points to memory that is still there and holds the text
    of the token. *)
From Verif Require Import Base JsonSpec TokSpec MapModel LifeModel.

(** The token lies in [text] (or is empty). *)
Definition lies_in (text : bytes) (t : token) : Prop := slice_of text (tk_name t) /\ slice_of text (tk_value t).

(** The memory of the Map: each element of json_data with its string. *)
Definition memory : Type := list ((nat * bytes) * sstr).
Definition held (mem : memory) (b : nat) (text : bytes) : Prop :=
  exists p s, In ((p, text), s) mem /\ ss_store s = Block b.

Definition points (mem : memory) (t : token) (w : target) : Prop :=
  match w with
  | Outside => True
  | InBlock b => exists text, held mem b text /\ lies_in text t
  | InLocal => False
  end.
Definition memory_of (m : lmap) : memory := combine (mp_data (lf_map m)) (lf_strs m).

Definition blocks (strs : list sstr) : list nat :=
  flat_map (fun s => match ss_store s with Block b => [b] | InString => [] end) strs.

(** Every token points to a string of the Map that holds it, or outside; there is one string for each
    element of json_data; no two strings share a block, and all blocks are numbered below [f]. *)
Definition sound (f : nat) (m : lmap) : Prop :=
  Forall2 (points (memory_of m)) (mp_tokens (lf_map m)) (lf_target m) /\
  length (lf_strs m) = length (mp_data (lf_map m)) /\
  NoDup (blocks (lf_strs m)) /\ Forall (fun b => b < f) (blocks (lf_strs m)).
