(** The first nested array or object with a value in it.  No reference to the model. *)
From Verif Require Import Base JsonSpec MapSpec.

Definition children (j : json) : list json :=
  match j with JScalar _ => [] | JArr els => els | JObj ms => map snd ms end.
Definition nested (j : json) : bool := match j with JScalar _ => false | _ => true end.

(** Among the arrays and objects directly inside [j], the place of the first that contains a scalar at some depth. *)
Fixpoint place_of_first (i : nat) (l : list json) : option nat :=
  match l with
  | [] => None
  | j :: r => if has_scalar j then Some i else place_of_first (S i) r
  end.
Definition first_with_value (j : json) : option nat := place_of_first 0 (filter nested (children j)).
