(** Specification vocabulary for printing into a buffer of a given size. *)
From Verif Require Import Base.

(** A text without exponent whose part in front of the decimal point is shorter than [n]. *)
Definition room (n : nat) (l : bytes) : Prop :=
  ~ In x65 l -> forall a r, l = a ++ x2e :: r -> (length a < n)%nat.
