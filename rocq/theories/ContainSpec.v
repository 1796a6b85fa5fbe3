(** What reading containers and scalars should give.  No reference to the model's loops. *)
From Verif Require Import Base ScanModel JsonSpec HandlerModel.

(** The value of the last entry with this key. *)
Fixpoint last_value (k : bytes) (l : list (bytes * val)) : option val :=
  match l with
  | [] => None
  | (k', v) :: r => match last_value k r with
                    | Some x => Some x
                    | None => if list_eq_dec Byte.byte_eq_dec k k' then Some v else None
                    end
  end.
(** The value stored under a key in a map, whose keys are distinct. *)
Definition stored (k : bytes) (m : list (bytes * val)) (v : val) : Prop := In (k, v) m.

(** JSON values that are read as booleans: the two literals, and the strings of the same text. *)
Inductive bool_value : json -> bool -> Prop :=
| Bv_true : bool_value (JScalar STrue) true
| Bv_false : bool_value (JScalar SFalse) false
| Bv_true_string : bool_value (JScalar (SStr (s2b "true"))) true
| Bv_false_string : bool_value (JScalar (SStr (s2b "false"))) false.
